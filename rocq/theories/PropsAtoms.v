(** Property theorems about the predicates and columns named in statements. *)
From Coq Require Import String Ascii List Bool Arith Lia NArith ZArith.
From Verif Require Import GoStr Value Names Cond Build Surface SqlSpec Spec StrFacts SqlFacts CondFacts CondText CondSem TreeFacts
  CondLogic CondMeaning Built CondThms PropsCond NameFacts PropsNames StmtFacts Calls BuildFacts BuildThms StmtText PropsSelect PropsWrite
  AtomFacts.
Import ListNotations.
Local Open Scope string_scope.
Local Open Scope nat_scope.

(** * C63 A clause has exactly the predicates that were added, in order *)

(** Predicate [a] of an expression with parameters [ps] is the comparison that leaf [l] was made for:
    its operator, its column and its own values. *)
Definition says (ps : list gval) (a : atom) (l : leaf) : Prop :=
  let '(op, c, ns) := a in
  aop_of (l_kind l) = Some op /\ c = column (l_def l) /\
  exists vs, leaf_args l = Some vs /\ bind_params ps ns = Some vs.

Lemma says_core ps a l l' : core l' = core l -> says ps a l -> says ps a l'.
Proof.
  destruct l as [k j ng d v], l' as [k' j' ng' d' v']. unfold core; simpl. intros [= -> -> -> ->]. auto.
Qed.

Lemma bind_within pre vs post : bind_params (pre ++ vs ++ post)%list (seq (length pre + 1) (length vs)) = Some vs.
Proof. apply bind_seq. Qed.

Lemma numbered_says ls : (forall l, In l ls -> good_leaf l) -> forall pre post,
  Forall2 (says (pre ++ flat_map leaf_vals ls ++ post)%list) (numbered (length pre) ls) ls.
Proof.
  induction ls as [|l ls IH]; intros H pre post; cbn [numbered]; constructor.
  - destruct (good_leaf_text l (H l (or_introl eq_refl))) as (op & vs & Eo & Ev & _). unfold says, leaf_op, leaf_vals at 2. rewrite Eo, Ev.
    split; [reflexivity|]. split; [reflexivity|]. exists vs. split; [now apply (leaf_args_iff l vs (H l (or_introl eq_refl)))|]. cbn [flat_map]. unfold leaf_vals at 1. rewrite Ev, <- app_assoc.
    apply bind_within.
  - specialize (IH (fun x Hx => H x (or_intror Hx)) (pre ++ leaf_vals l)%list post). rewrite app_length in IH.
    cbn [flat_map]. rewrite <- !app_assoc in *. exact IH.
Qed.

(** the predicates that the condition reads as *)
Lemma reads_says c n e vs : wf c -> (forall l, In l (leaves c) -> good_leaf l) -> reads c n e -> c_values c = Ok vs ->
  atoms e = numbered n (leaves c) /\
  forall pre post, length pre = n -> Forall2 (says (pre ++ vs ++ post)%list) (atoms e) (leaves c).
Proof.
  intros Hw Hl (w & Ew & Ep) Ev. destruct (tree_toks c Hw Hl) as [Ev' H]. rewrite Ev' in Ev. injection Ev as <-.
  destruct (H n) as (s & ts & Es & Ls & Hs). rewrite Ew in Es. injection Es as <-.
  assert (K : atoms e = numbered n (leaves c)).
  { apply atom_syms_inj. rewrite <- Hs, <- (lexes_lex _ _ Ls). symmetry. apply or_syms. now apply parse_sound. }
  split; [exact K|]. intros pre post <-. rewrite K. now apply numbered_says.
Qed.
Lemma reads_total c n : wf c -> (forall l, In l (leaves c) -> good_leaf l) -> exists e, reads c n e.
Proof.
  intros Hw Hl. set (rho := (fun _ _ _ => U) : row).
  assert (HS : Sem rho (leaf_tv rho) c) by (apply tree_sem; auto; intros l Hin; now apply good_leaf_ok, Hl).
  destruct (sem_expr _ _ _ HS n) as (s & vs & ts & e & Es & Ev & Ls & Ho & _). exists e, s. split; [exact Es|].
  now rewrite (lexes_lex _ _ Ls), (parse_complete _ _ Ho).
Qed.

(** a condition made of comparisons, LIKE, IN and IS NULL (no templates), with well formed columns and values *)
Definition regular (c : cond) : Prop := built c /\ no_empty c /\ forall l, In l (leaves c) -> good_leaf l.
Lemma regular_usable rho c : regular c -> usable rho c.
Proof. intros (H1 & H2 & H3). split; [exact H1|]. split; [exact H2|]. now apply good_sound. Qed.
Lemma good_leaf_core l l' : core l' = core l -> good_leaf l -> good_leaf l'.
Proof. destruct l as [k j ng d v], l' as [k' j' ng' d' v']. unfold core, good_leaf; simpl. intros [= -> -> -> ->]. auto. Qed.

Theorem C63_condition : forall c n, regular c ->
  exists s vs e, c_render c n = Ok s /\ c_values c = Ok vs /\ parse (lex s) = Some e /\
    forall pre post, length pre = n -> Forall2 (says (pre ++ vs ++ post)%list) (atoms e) (leaves c).
Proof.
  intros c n (Hb & He & Hl). pose proof (built_wf c Hb He) as Hw. destruct (reads_total c n Hw Hl) as (e & s & Es & Ep).
  destruct (tree_toks c Hw Hl) as [Ev _]. exists s, (flat_map leaf_vals (leaves c)), e. repeat split; auto.
  apply (reads_says c n e _ Hw Hl); [exists s; auto|exact Ev].
Qed.
Print Assumptions C63_condition.
Example C63_condition_example : regular sample /\ 3 = length (leaves sample) /\
  exists s e, c_render sample 4 = Ok s /\ parse (lex s) = Some e /\
    atoms e = [(AIn, "t.a", [5; 6]); (AEq, "b", [7]); (ALike, "c", [8])] /\
    map (fun l => (l_kind l, column (l_def l))) (leaves sample) = [(KIn, "t.a"); (KEq, "b"); (KLike, "c")].
Proof.
  split; [|split; [reflexivity|]].
  - split; [exact sample_built|]. split; [vm_compute; intuition discriminate|]. intros l Hl. now apply sample_leaves.
  - eexists. eexists. split; [vm_compute; reflexivity|]. split; [vm_compute; reflexivity|]. split; vm_compute; reflexivity.
Qed.

(** ** Statements *)

Lemma forall2_core ps ls : forall ls' ats, map core ls' = map core ls -> Forall2 (says ps) ats ls' -> Forall2 (says ps) ats ls.
Proof.
  induction ls as [|l ls IH]; intros [|l' ls'] ats E H; try discriminate; inversion H; subst; constructor.
  - cbn [map] in E. injection E as E1. apply (says_core ps x l'); [|assumption]. unfold core. congruence.
  - cbn [map] in E. apply (IH ls'); [|assumption]. congruence.
Qed.
Lemma map_core_l cs : map core (flat_map leaves cs) = cores_l cs.
Proof. unfold cores_l, cores. induction cs as [|c cs IH]; [reflexivity|]. cbn [flat_map]. now rewrite map_app, IH. Qed.

Lemma group_cores css : forall g r, g_ok g -> Forall regular (List.concat css) -> calls group_and g css = Ok r ->
  g_ok r /\ cores_l (g_cs r) = (cores_l (g_cs g) ++ cores_l (List.concat css))%list.
Proof.
  induction css as [|cs css IH]; intros g r Hg Hu E; simpl in *; [injection E as <-; split; [exact Hg|]; unfold cores_l; cbn [flat_map]; now rewrite app_nil_r|].
  apply Forall_app in Hu as [Hu1 Hu2]. destruct (group_and g cs) as [g1|] eqn:E1; [|discriminate].
  assert (Hw : Forall wf cs) by (eapply Forall_impl; [|exact Hu1]; intros c (H1 & H2 & _); now apply built_wf).
  destruct (add_conditions_wf AND g cs (or_introl eq_refl) Hg Hw) as (g1' & E1' & Hok & _ & Hco).
  unfold group_and in E1. rewrite E1 in E1'. injection E1' as <-. destruct (IH g1 r Hok Hu2 E) as [K1 K2]. split; [exact K1|].
  rewrite K2, Hco. unfold cores_l. now rewrite flat_map_app, <- app_assoc.
Qed.

Lemma wanted_leaves css c : Forall regular (List.concat css) -> wanted css (Some c) ->
  wf c /\ map core (leaves c) = map core (flat_map leaves (List.concat css)) /\ forall l, In l (leaves c) -> good_leaf l.
Proof.
  intros Hr Hw. destruct (wanted_group css c Hw) as (g & E & ->). destruct Hw as [Hne _].
  destruct (group_cores css empty_group g empty_ok Hr E) as [Hok Hco]. change (cores_l (g_cs empty_group)) with (@nil (kind * bool * fdef * gval)) in Hco.
  cbn [app] in Hco. assert (K : map core (leaves (of_g g)) = cores_l (List.concat css)) by (rewrite <- Hco; apply map_core_l).
  split; [|split].
  - apply g_ok_wf; [exact Hok|]. intros N. apply (where_grows _ _ _ E) in N as [_ N]. contradiction.
  - now rewrite K, map_core_l.
  - intros l Hl. apply (in_map core) in Hl. rewrite K, <- map_core_l in Hl. apply in_map_iff in Hl as (l0 & E0 & Hl).
    apply (good_leaf_core l0); [now symmetry|]. apply in_flat_map in Hl as (c0 & Hc0 & Hl). rewrite Forall_forall in Hr. now apply (Hr c0).
Qed.

Lemma wanted_says css c n e vs : Forall regular (List.concat css) -> wanted css (Some c) -> reads c n e -> c_values c = Ok vs ->
  forall pre post, length pre = n -> Forall2 (says (pre ++ vs ++ post)%list) (atoms e) (flat_map leaves (List.concat css)).
Proof.
  intros Hr Hw He Ev pre post Hn. destruct (wanted_leaves css c Hr Hw) as (H1 & H2 & H3). apply (forall2_core _ _ (leaves c)); [exact H2|].
  now apply (reads_says c n e vs H1 H3 He Ev).
Qed.

Definition where_atoms (we : option expr) : list atom := match we with Some e => atoms e | None => [] end.

Lemma where_says_all rho css c we vs post : Forall regular (List.concat css) -> wanted css c -> cond_values c vs ->
  where_as rho c we (vs ++ post) -> Forall2 (says (vs ++ post)%list) (where_atoms we) (flat_map leaves (List.concat css)).
Proof.
  intros Hr Hw Hv Ha. destruct c as [c|], we as [e|]; simpl in Ha; try contradiction.
  - destruct Ha as [Ha _]. now apply (wanted_says css c 0 e vs Hr Hw Ha Hv [] post).
  - cbn [wanted] in Hw. rewrite Hw. constructor.
Qed.

Definition given (css : list (list cond)) : list leaf := flat_map leaves (List.concat css).

Definition plain_b (c : bcall) : Prop :=
  match c with BFields fs => Forall wf_field fs | BWhere cs => Forall regular cs | BJoin t jt l r => wf_join (mkJ t jt (mkJC l r)) end.
Definition plain_m (c : mcall) : Prop :=
  match c with
  | MFields fs => Forall wf_field fs
  | MWhere cs => Forall regular cs
  | MJoin tn jt l r => exists t, table tn = Ok t /\ wf_join (mkJ t jt (mkJC l r))
  | MOrder os => Forall wf_sort os
  | MOffset _ | MLimit _ => True
  end.
Definition plain_s (c : scall) : Prop :=
  match c with
  | SFields _ => False
  | SWhere cs => Forall regular cs
  | SJoin tn jt l r => exists t, table tn = Ok t /\ wf_join (mkJ t jt (mkJC l r))
  end.
Definition plain_u (c : ucall) : Prop := match c with USet _ => True | UWhere cs => Forall regular cs end.

Lemma regular_all rho cs : Forall regular cs -> Forall (usable rho) cs.
Proof. apply Forall_impl. intros c. apply regular_usable. Qed.
Lemma plain_b_wf rho h : Forall plain_b h -> Forall (wf_bcall rho) h.
Proof. apply Forall_impl. intros [fs|cs|t jt l r]; simpl; auto. apply regular_all. Qed.
Lemma plain_m_wf rho h : Forall plain_m h -> Forall (wf_mcall rho) h.
Proof. apply Forall_impl. intros [fs|cs|t jt l r|os|o|l]; simpl; auto. apply regular_all. Qed.
Lemma plain_s_wf rho h : Forall plain_s h -> Forall (wf_scall rho) h.
Proof. apply Forall_impl. intros [fs|cs|t jt l r]; simpl; auto. apply regular_all. Qed.
Lemma plain_u_wf rho h : Forall plain_u h -> Forall (uc_usable rho) h.
Proof. apply Forall_impl. intros [x|cs]; simpl; auto. apply regular_all. Qed.

Lemma flat_regular {A} (f : A -> list (list cond)) (P : A -> Prop) h :
  (forall a, P a -> Forall regular (List.concat (f a))) -> Forall P h -> Forall regular (List.concat (flat_map f h)).
Proof.
  intros H. induction 1 as [|a h Ha _ IH]; [constructor|]. cbn [flat_map]. rewrite List.concat_app. apply Forall_app. auto.
Qed.
Lemma plain_b_regular h : Forall plain_b h -> Forall regular (List.concat (flat_map bc_where h)).
Proof. apply flat_regular. intros [fs|cs|t jt l r] H; cbn; try constructor. now rewrite app_nil_r. Qed.
Lemma plain_m_regular h : Forall plain_m h -> Forall regular (List.concat (flat_map mc_where h)).
Proof. apply flat_regular. intros [fs|cs|t jt l r|os|o|l] H; cbn; try constructor. now rewrite app_nil_r. Qed.
Lemma plain_s_regular h : Forall plain_s h -> Forall regular (List.concat (flat_map sc_where h)).
Proof. apply flat_regular. intros [fs|cs|t jt l r] H; cbn; try constructor. now rewrite app_nil_r. Qed.
Lemma plain_u_regular h : Forall plain_u h -> Forall regular (List.concat (flat_map uc_where h)).
Proof. apply flat_regular. intros [fs|cs] H; cbn; try constructor. now rewrite app_nil_r. Qed.

Definition row0 : row := fun _ _ _ => U.

Theorem C63_select_many : forall p t hb hm, table_p p = Ok t -> wf_table t -> Forall plain_b hb -> Forall plain_m hm ->
  exists b0 b m s ps sel, select_from p = Ok b0 /\ calls b_call b0 hb = Ok b /\ calls m_call (many_of b) hm = Ok m /\
    m_build m = Ok (mkOut s ps None) /\ parse_select s = Some sel /\
    Forall2 (says ps) (where_atoms (s_where sel)) (given (flat_map bc_where hb ++ flat_map mc_where hm)).
Proof.
  intros p t hb hm Ep Ht Hb Hm.
  destruct (C06_select_many row0 p t hb hm Ep Ht (plain_b_wf _ _ Hb) (plain_m_wf _ _ Hm))
    as (b0 & b & m & s & ps & vs & c & sel & E1 & E2 & E3 & E4 & E5 & _ & _ & _ & _ & Hw & Hv & Ha & E6 & _).
  exists b0, b, m, s, ps, sel. repeat (split; [assumption|]). subst ps. apply (where_says_all row0 _ c); auto.
  rewrite List.concat_app. apply Forall_app. split; [now apply plain_b_regular|now apply plain_m_regular].
Qed.
Print Assumptions C63_select_many.

Theorem C63_select_single : forall p t hb hs, table_p p = Ok t -> wf_table t -> Forall plain_b hb -> Forall plain_s hs ->
  exists b0 b q s ps sel, select_from p = Ok b0 /\ calls b_call b0 hb = Ok b /\ calls s_call (single_of b) hs = Ok q /\
    ss_build q = Ok (mkOut s ps None) /\ parse_select s = Some sel /\
    Forall2 (says ps) (where_atoms (s_where sel)) (given (flat_map bc_where hb ++ flat_map sc_where hs)).
Proof.
  intros p t hb hs Ep Ht Hb Hs.
  destruct (C07_select_single row0 p t hb hs Ep Ht (plain_b_wf _ _ Hb) (plain_s_wf _ _ Hs))
    as (b0 & b & q & s & s0 & ps & c & sel & E1 & E2 & E3 & E4 & _ & _ & _ & E6 & Hw & Hv & Ha).
  exists b0, b, q, s, ps. eexists. repeat (split; [eassumption|]). cbn [s_where].
  pose proof (where_says_all row0 (flat_map bc_where hb ++ flat_map sc_where hs) c (s_where sel) ps []) as K. rewrite app_nil_r in K. apply K; auto.
  rewrite List.concat_app. apply Forall_app. split; [now apply plain_b_regular|now apply plain_s_regular].
Qed.
Print Assumptions C63_select_single.

Theorem C63_update : forall p h vs, let sets := flat_map uc_set h in
  qname (raw_table_name p) -> sets <> [] -> singles sets vs -> Forall (fun c => name c = true) (col_names sets) ->
  Forall plain_u h -> List.concat (flat_map uc_where h) <> [] ->
  exists u s ps st, calls u_call (update_ p) h = Ok u /\ u_build u = Ok (mkOut s ps None) /\ parse_update s = Some st /\
    Forall2 (says ps) (atoms (up_where st)) (given (flat_map uc_where h)).
Proof.
  intros p h vs sets Hp Hs Hv Hc Hu Hn.
  destruct (C10_update row0 p h vs Hp Hs Hv Hc (plain_u_wf _ _ Hu) Hn) as (u & s & ws & c & e & v & E1 & E2 & E3 & Hw & Ew & Hr & _).
  exists u, s, (vs ++ ws)%list. eexists. split; [exact E1|]. split; [exact E2|]. split; [exact E3|]. cbn [up_where].
  pose proof (wanted_says (flat_map uc_where h) c (length vs) e ws (plain_u_regular h Hu) Hw Hr Ew vs [] eq_refl) as K. now rewrite app_nil_r in K.
Qed.
Print Assumptions C63_update.

Theorem C63_delete : forall p h, qname (raw_table_name p) -> Forall (Forall regular) h -> List.concat h <> [] ->
  exists d s ps st, calls d_add_where (delete_ p) h = Ok d /\ d_build d = Ok (mkOut s ps None) /\ parse_delete s = Some st /\
    Forall2 (says ps) (atoms (de_where st)) (given h).
Proof.
  intros p h Hp Hh Hn. assert (Hu : Forall (Forall (usable row0)) h) by (eapply Forall_impl; [|exact Hh]; intros cs; apply regular_all).
  destruct (C11_delete row0 p h Hp Hu Hn) as (d & s & ws & c & e & v & E1 & E2 & E3 & Hw & Ew & Hr & _).
  exists d, s, ws. eexists. split; [exact E1|]. split; [exact E2|]. split; [exact E3|]. cbn [de_where].
  pose proof (wanted_says h c 0 e ws (proj2 (concat_Forall _ _) Hh) Hw Hr Ew [] [] eq_refl) as K. now rewrite app_nil_r in K.
Qed.
Print Assumptions C63_delete.

Lemma sample_regular : regular sample.
Proof. apply C63_condition_example. Qed.
Lemma eqc_regular f k : built (eqc f k) -> name f = true -> regular (eqc f k).
Proof.
  intros H Hn. split; [exact H|]. split; [vm_compute; intuition discriminate|]. intros l [<-|[]]. split; [|now exists (VOther k)].
  unfold good_def. cbn. intuition.
Qed.
Ltac by_regular := apply eqc_regular; [by_eqc|reflexivity].
Example C63_example :
  Forall plain_b hb0 /\ Forall plain_m hm0 /\ Forall plain_s hs0 /\
  (exists sel, (do m <- m_sample; do o <- m_build m; Ok (parse_select (o_sql o))) = Ok (Some sel) /\
    where_atoms (s_where sel) = [(AIn, "t.a", [1; 2]); (AEq, "b", [3]); (ALike, "c", [4]); (AEq, "d", [5])]) /\
  map (fun l => column (l_def l)) (given (flat_map bc_where hb0 ++ flat_map mc_where hm0)) = ["t.a"; "b"; "c"; "d"] /\
  Forall plain_u [USet [fv "a" (VOther 1)]; UWhere [sample]; USet [fv "b" (VStr "x")]; UWhere [eqc "d" 7]] /\
  Forall (Forall regular) [[sample]; [eqc "d" 7]].
Proof.
  assert (Hb : Forall plain_b hb0).
  { pose proof (hb0_wf row0) as K. unfold hb0 in *. inversion K as [|? ? K1 K2]. inversion K2 as [|? ? _ K3]. inversion K3 as [|? ? K4 _].
    constructor; [exact K1|]. constructor; [constructor; [exact sample_regular|constructor]|]. constructor; [exact K4|constructor]. }
  assert (Hm : Forall plain_m hm0).
  { pose proof (hm0_wf row0) as K. unfold hm0 in *. inversion K as [|? ? _ K2]. inversion K2 as [|? ? _ K3]. inversion K3 as [|? ? K4 K5].
    inversion K5 as [|? ? K6 K7]. inversion K7 as [|? ? _ K8]. inversion K8 as [|? ? K9 _].
    constructor; [exact I|]. constructor; [constructor; [by_regular|constructor]|]. constructor; [exact K4|]. constructor; [exact K6|].
    constructor; [exact I|]. constructor; [exact K9|]. constructor; [exact I|constructor]. }
  assert (Hs : Forall plain_s hs0).
  { constructor; [constructor; [by_regular|constructor]|]. constructor; [apply (items_ok row0)|constructor]. }
  split; [exact Hb|]. split; [exact Hm|]. split; [exact Hs|]. split; [eexists; split; vm_compute; reflexivity|]. split; [reflexivity|]. split.
  - constructor; [exact I|]. constructor; [constructor; [exact sample_regular|constructor]|]. constructor; [exact I|].
    constructor; [constructor; [by_regular|constructor]|constructor].
  - constructor; [constructor; [exact sample_regular|constructor]|]. constructor; [constructor; [by_regular|constructor]|constructor].
Qed.

(** * C64 Qualified columns belong to the tables of the statement *)

(** the name by which a table of a statement is referred to: its alias, or its name without the schema *)
Definition exposed (i : item) : string :=
  match it_alias i with
  | Some a => a
  | None => match after_dot (it_text i) with Some (_, t) => t | None => it_text i end
  end.
Definition in_scope (names : list string) (col : string) : Prop :=
  match after_dot col with None => True | Some (q, _) => In q names end.

Definition sel_scope (s : select) : list string := exposed (s_from s) :: map (fun j => exposed (sj_table j)) (s_joins s).
Definition expr_columns (e : expr) : list string := map (fun a => snd (fst a)) (atoms e).
Definition sel_columns (s : select) : list string :=
  (match s_cols s with Cols l => map it_text l | CountCol c => [c] | _ => [] end ++
   flat_map (fun j => [sj_left j; sj_right j]) (s_joins s) ++
   match s_where s with Some e => expr_columns e | None => [] end ++ map fst (s_order s))%list.

(** fields and tables in the arguments of a call *)
Definition where_defs (cs : list cond) : list fdef := map l_def (flat_map leaves cs).
Definition bc_defs (c : bcall) : list fdef := match c with BFields fs => fs | BWhere cs => where_defs cs | BJoin _ _ l r => [l; r] end.
Definition mc_defs (c : mcall) : list fdef :=
  match c with
  | MFields fs => fs | MWhere cs => where_defs cs | MJoin _ _ l r => [l; r] | MOrder os => map s_def os | MOffset _ | MLimit _ => []
  end.
Definition sc_defs (c : scall) : list fdef := match c with SFields fs => fs | SWhere cs => where_defs cs | SJoin _ _ l r => [l; r] end.
(** the field is not qualified, or qualified with the alias or else the name of one of the tables *)
Definition of_tables (ts : list tident) (d : fdef) : Prop := f_table d = "" \/ exists t, In t ts /\ f_table d = exposed (table_item t).

Lemma column_scope ns d : name (f_name d) = true -> f_table d = "" \/ (name (f_table d) = true /\ In (f_table d) ns) -> in_scope ns (column d).
Proof.
  intros Hn [E|[Ht Hi]]; unfold in_scope, column.
  - rewrite E. cbn [is_empty]. now rewrite (after_dot_none _ (name_ident _ Hn)).
  - destruct (f_table d) as [|x y] eqn:E; [discriminate|]. cbn [is_empty]. rewrite <- E in *.
    now rewrite (after_dot_some _ _ (name_ident _ Ht)).
Qed.
Lemma join_scope ns d : name (f_table d) = true -> In (f_table d) ns -> in_scope ns (f_table d ++ "." ++ f_name d).
Proof. intros Ht Hi. unfold in_scope. now rewrite (after_dot_some _ _ (name_ident _ Ht)). Qed.
Lemma name_scope ns a : name a = true -> in_scope ns a.
Proof. intros H. unfold in_scope. now rewrite (after_dot_none _ (name_ident _ H)). Qed.

Lemma in_tables ts d : name (f_table d) = true -> of_tables ts d -> In (f_table d) (map (fun t => exposed (table_item t)) ts).
Proof. intros H [E|(t & Hi & E)]; [rewrite E in H; discriminate|]. rewrite E. now apply (in_map (fun t => exposed (table_item t))). Qed.
Lemma of_tables_scope ts d : wf_field d -> of_tables ts d -> in_scope (map (fun t => exposed (table_item t)) ts) (column d).
Proof.
  intros (H1 & H2 & _) H. apply column_scope; [exact H1|]. destruct H2 as [H2|H2]; [now left|]. right. split; [exact H2|]. now apply in_tables.
Qed.
Lemma good_def_wf d : good_def d -> wf_field d.
Proof. intros (H1 & H2 & H3). split; [exact H1|]. split; [exact H2|]. destruct H3 as [H3|[-> _]]; auto. Qed.

Lemma atoms_scope ts ps ats ls : Forall2 (says ps) ats ls -> (forall l, In l ls -> good_leaf l /\ of_tables ts (l_def l)) ->
  Forall (in_scope (map (fun t => exposed (table_item t)) ts)) (map (fun a : atom => snd (fst a)) ats).
Proof.
  induction 1 as [|[[op c] ns] l ats ls Hs _ IH]; intros Hl; cbn [map]; constructor; [|apply IH; intros x Hx; apply Hl; now right].
  destruct Hs as (_ & -> & _). destruct (Hl l (or_introl eq_refl)) as [[Hd _] Ht]. now apply of_tables_scope; [apply good_def_wf|].
Qed.
Lemma given_good css : Forall regular (List.concat css) -> forall l, In l (given css) -> good_leaf l.
Proof. intros H l Hl. apply in_flat_map in Hl as (c & Hc & Hl). rewrite Forall_forall in H. now apply (H c). Qed.

Lemma fields_scope ts fs : Forall wf_field fs -> Forall (of_tables ts) fs ->
  Forall (in_scope (map (fun t => exposed (table_item t)) ts)) (match cols_item fs with Cols l => map it_text l | CountCol c => [c] | _ => [] end).
Proof.
  intros H1 H2. destruct fs as [|f fs]; [constructor|]. cbn [cols_item]. rewrite map_map. apply Forall_map.
  rewrite Forall_forall in *. intros d Hd. cbn [field_item it_text]. now apply of_tables_scope; auto.
Qed.
Lemma joins_scope ts js : Forall wf_join js ->
  Forall (fun j => of_tables ts (jc_left (j_cond j)) /\ of_tables ts (jc_right (j_cond j))) js ->
  Forall (in_scope (map (fun t => exposed (table_item t)) ts)) (flat_map (fun j => [sj_left j; sj_right j]) (map join_item js)).
Proof.
  induction 1 as [|j js Hj _ IH]; intros H; [constructor|]. inversion H as [|? ? [H1 H2] H3]. subst. cbn [map flat_map app].
  destruct Hj as (_ & _ & _ & Hl & _ & Hr). cbn [join_item sj_left sj_right].
  constructor; [apply join_scope; auto; now apply in_tables|]. constructor; [apply join_scope; auto; now apply in_tables|auto].
Qed.
Lemma order_scope ts os : Forall wf_sort os -> Forall (fun o => of_tables ts (s_def o)) os ->
  Forall (in_scope (map (fun t => exposed (table_item t)) ts)) (map fst (map sort_item os)).
Proof.
  intros H1 H2. rewrite map_map. apply Forall_map. rewrite Forall_forall in *. intros o Ho. destruct (H1 o Ho) as [Hf _].
  unfold sort_item. cbn [fst]. destruct (is_empty (f_alias (s_def o)) || String.eqb (f_alias (s_def o)) (f_name (s_def o))) eqn:E.
  - apply of_tables_scope; auto.
  - apply name_scope. destruct Hf as (_ & _ & [Hf|Hf]); [rewrite Hf in E; discriminate|exact Hf].
Qed.

Lemma last_forall {A B} (f : A -> option (list B)) (P : B -> Prop) (h : list A) : forall d, Forall P d ->
  (forall c fs, In c h -> f c = Some fs -> Forall P fs) -> Forall P (last_of f d h).
Proof.
  induction h as [|c h IH]; intros d Hd H; [exact Hd|]. unfold last_of in *. cbn [fold_left]. apply IH.
  - destruct (f c) as [fs|] eqn:E; [apply (H c fs (or_introl eq_refl) E)|exact Hd].
  - intros c' fs Hc. apply H. now right.
Qed.

Lemma scope_is sel t js : s_from sel = table_item t -> s_joins sel = map join_item js ->
  sel_scope sel = map (fun t => exposed (table_item t)) (t :: map j_right js).
Proof. intros E1 E2. unfold sel_scope. rewrite E1, E2, !map_map. cbn [map]. now rewrite map_map. Qed.

Lemma sub_defs {A} (f g : A -> list fdef) (P : fdef -> Prop) (h : list A) :
  (forall c, In c h -> incl (g c) (f c)) -> Forall P (flat_map f h) -> Forall P (flat_map g h).
Proof.
  intros Hs H. rewrite Forall_forall in *. intros x Hx. apply in_flat_map in Hx as (c & Hc & Hx). apply H, in_flat_map. exists c.
  split; [exact Hc|]. now apply (Hs c Hc).
Qed.
Lemma Forall_flat {A B} (f : A -> list B) (P : B -> Prop) h : Forall P (flat_map f h) <-> forall c, In c h -> Forall P (f c).
Proof.
  rewrite Forall_forall. setoid_rewrite in_flat_map. split.
  - intros H c Hc. rewrite Forall_forall. intros x Hx. apply H. eauto.
  - intros H x (c & Hc & Hx). specialize (H c Hc). rewrite Forall_forall in H. auto.
Qed.
Lemma given_defs {A} (w : A -> list (list cond)) (f : A -> list fdef) (P : fdef -> Prop) h :
  (forall c, In c h -> incl (where_defs (List.concat (w c))) (f c)) -> Forall P (flat_map f h) ->
  forall l, In l (given (flat_map w h)) -> P (l_def l).
Proof.
  intros Hs H l Hl. unfold given in Hl. apply in_flat_map in Hl as (x & Hx & Hl). apply in_concat in Hx as (cs & Hcs & Hx).
  apply in_flat_map in Hcs as (c & Hc & Hcs). rewrite Forall_flat in H. specialize (H c Hc). rewrite Forall_forall in H. apply H.
  apply (Hs c Hc). unfold where_defs. apply in_map, in_flat_map. exists x. split; [|exact Hl]. apply in_concat. eauto.
Qed.
Lemma given_app a b l : In l (given (a ++ b)) -> In l (given a) \/ In l (given b).
Proof. unfold given. rewrite List.concat_app, flat_map_app, in_app_iff. auto. Qed.

Lemma b_where_defs (h : list bcall) c : In c h -> incl (where_defs (List.concat (bc_where c))) (bc_defs c).
Proof. intros _. destruct c as [fs|cs|t jt l r]; cbn; try (intros x []). rewrite app_nil_r. apply incl_refl. Qed.
Lemma m_where_defs (h : list mcall) c : In c h -> incl (where_defs (List.concat (mc_where c))) (mc_defs c).
Proof. intros _. destruct c as [fs|cs|t jt l r|os|o|l]; cbn; try (intros x []). rewrite app_nil_r. apply incl_refl. Qed.
Lemma s_where_defs (h : list scall) c : In c h -> incl (where_defs (List.concat (sc_where c))) (sc_defs c).
Proof. intros _. destruct c as [fs|cs|t jt l r]; cbn; try (intros x []). rewrite app_nil_r. apply incl_refl. Qed.

Definition on_ok (ts : list tident) (j : joiner) : Prop := of_tables ts (jc_left (j_cond j)) /\ of_tables ts (jc_right (j_cond j)).
Lemma b_on ts h : Forall (of_tables ts) (flat_map bc_defs h) -> Forall (on_ok ts) (flat_map bc_join h).
Proof.
  rewrite !Forall_flat. intros H c Hc. specialize (H c Hc). destruct c as [fs|cs|t jt l r]; cbn in *; try constructor; [|constructor].
  inversion H as [|? ? H1 H2]. inversion H2. now split.
Qed.
Lemma m_on ts h : Forall (of_tables ts) (flat_map mc_defs h) -> Forall (on_ok ts) (flat_map mc_join h).
Proof.
  rewrite !Forall_flat. intros H c Hc. specialize (H c Hc). destruct c as [fs|cs|t jt l r|os|o|l]; cbn in *; try constructor.
  destruct (table t); [|constructor]. inversion H as [|? ? H1 H2]. inversion H2. constructor; [now split|constructor].
Qed.
Lemma s_on ts h : Forall (of_tables ts) (flat_map sc_defs h) -> Forall (on_ok ts) (flat_map sc_join h).
Proof.
  rewrite !Forall_flat. intros H c Hc. specialize (H c Hc). destruct c as [fs|cs|t jt l r]; cbn in *; try constructor.
  destruct (table t); [|constructor]. inversion H as [|? ? H1 H2]. inversion H2. constructor; [now split|constructor].
Qed.
Lemma b_join_wf h : Forall plain_b h -> Forall wf_join (flat_map bc_join h).
Proof.
  rewrite Forall_flat, Forall_forall. intros H c Hc. specialize (H c Hc). destruct c as [fs|cs|t jt l r]; cbn in *; [constructor|constructor|]. constructor; [exact H|constructor].
Qed.
Lemma m_join_wf h : Forall plain_m h -> Forall wf_join (flat_map mc_join h).
Proof.
  rewrite Forall_flat, Forall_forall. intros H c Hc. specialize (H c Hc). destruct c as [fs|cs|t jt l r|os|o|l]; cbn in *; try constructor.
  destruct H as (t' & -> & H). now constructor.
Qed.
Lemma s_join_wf h : Forall plain_s h -> Forall wf_join (flat_map sc_join h).
Proof.
  rewrite Forall_flat, Forall_forall. intros H c Hc. specialize (H c Hc). destruct c as [fs|cs|t jt l r]; cbn in *; try constructor.
  destruct H as (t' & -> & H). now constructor.
Qed.
Lemma b_fields_all P h d : Forall P d -> (forall fs, In (BFields fs) h -> Forall P fs) -> Forall P (last_of bc_fields d h).
Proof. intros Hd H. apply last_forall; [exact Hd|]. intros [fs|cs|t jt l r] fs' Hc E; try discriminate. injection E as <-. auto. Qed.
Lemma m_fields_all P h d : Forall P d -> (forall fs, In (MFields fs) h -> Forall P fs) -> Forall P (last_of mc_fields d h).
Proof. intros Hd H. apply last_forall; [exact Hd|]. intros [fs|cs|t jt l r|os|o|l] fs' Hc E; try discriminate. injection E as <-. auto. Qed.

Theorem C64_select_many : forall p t hb hm, table_p p = Ok t -> wf_table t -> Forall plain_b hb -> Forall plain_m hm ->
  Forall (of_tables (t :: map j_right (flat_map bc_join hb ++ flat_map mc_join hm))) (flat_map bc_defs hb ++ flat_map mc_defs hm) ->
  exists b0 b m s ps sel, select_from p = Ok b0 /\ calls b_call b0 hb = Ok b /\ calls m_call (many_of b) hm = Ok m /\
    m_build m = Ok (mkOut s ps None) /\ parse_select s = Some sel /\
    Forall (in_scope (sel_scope sel)) (sel_columns sel).
Proof.
  intros p t hb hm Ep Ht Hb Hm Hd. set (js := (flat_map bc_join hb ++ flat_map mc_join hm)%list) in *. set (ts := t :: map j_right js) in *.
  apply Forall_app in Hd as [Db Dm].
  destruct (C06_select_many row0 p t hb hm Ep Ht (plain_b_wf _ _ Hb) (plain_m_wf _ _ Hm))
    as (b0 & b & m & s & ps & vs & c & sel & E1 & E2 & E3 & E4 & E5 & Sc & Sf & Sj & So & Hw & Hv & Ha & E6 & _).
  exists b0, b, m, s, ps, sel. repeat (split; [assumption|]). rewrite (scope_is sel t js Sf Sj). fold ts. unfold sel_columns. rewrite Sc, Sj, So.
  assert (Hr : Forall regular (List.concat (flat_map bc_where hb ++ flat_map mc_where hm)))
    by (rewrite List.concat_app; apply Forall_app; split; [now apply plain_b_regular|now apply plain_m_regular]).
  rewrite Forall_forall in Hb. rewrite Forall_forall in Hm. pose proof Db as Db'. pose proof Dm as Dm'. rewrite Forall_flat in Db'. rewrite Forall_flat in Dm'.
  apply Forall_app. split; [|apply Forall_app; split; [|apply Forall_app; split]].
  - apply fields_scope.
    + apply m_fields_all; [apply b_fields_all; [constructor|]|]; intros fs Hf; [apply (Hb _ Hf)|apply (Hm _ Hf)].
    + apply m_fields_all; [apply b_fields_all; [constructor|]|]; intros fs Hf; [apply (Db' _ Hf)|apply (Dm' _ Hf)].
  - apply joins_scope; apply Forall_app; (split; [|]).
    + apply b_join_wf, Forall_forall; auto.
    + apply m_join_wf, Forall_forall; auto.
    + now apply b_on.
    + now apply m_on.
  - subst ps. pose proof (where_says_all row0 _ c _ vs _ Hr Hw Hv Ha) as K. destruct (s_where sel) as [e|]; [|constructor].
    apply (atoms_scope ts _ _ _ K). intros l Hl. split; [now apply (given_good _ Hr)|].
    apply given_app in Hl as [Hl|Hl]; [apply (given_defs _ bc_defs _ hb (b_where_defs hb) Db l Hl)|apply (given_defs _ mc_defs _ hm (m_where_defs hm) Dm l Hl)].
  - apply order_scope; rewrite Forall_flat; intros x Hx.
    + specialize (Hm x Hx). destruct x; cbn in *; try constructor. exact Hm.
    + specialize (Dm' x Hx). destruct x; cbn [mc_order mc_defs] in *; try constructor. apply -> Forall_map in Dm'. exact Dm'.
Qed.
Print Assumptions C64_select_many.

Theorem C64_select_single : forall p t hb hs, table_p p = Ok t -> wf_table t -> Forall plain_b hb -> Forall plain_s hs ->
  Forall (of_tables (t :: map j_right (flat_map bc_join hb ++ flat_map sc_join hs))) (flat_map bc_defs hb ++ flat_map sc_defs hs) ->
  exists b0 b q s ps sel, select_from p = Ok b0 /\ calls b_call b0 hb = Ok b /\ calls s_call (single_of b) hs = Ok q /\
    ss_build q = Ok (mkOut s ps None) /\ parse_select s = Some sel /\
    Forall (in_scope (sel_scope sel)) (sel_columns sel).
Proof.
  intros p t hb hs Ep Ht Hb Hs Hd. set (js := (flat_map bc_join hb ++ flat_map sc_join hs)%list) in *. set (ts := t :: map j_right js) in *.
  apply Forall_app in Hd as [Db Ds].
  destruct (C07_select_single row0 p t hb hs Ep Ht (plain_b_wf _ _ Hb) (plain_s_wf _ _ Hs))
    as (b0 & b & q & s & s0 & ps & c & sel & E1 & E2 & E3 & E4 & _ & _ & Es & E6 & Hw & Hv & Ha).
  exists b0, b, q, s, ps. eexists. repeat (split; [eassumption|]).
  assert (Sf : s_from sel = table_item t) by now rewrite Es. assert (Sj : s_joins sel = map join_item js) by now rewrite Es.
  assert (Sc : s_cols sel = cols_item (last_of bc_fields [] hb)) by now rewrite Es.
  match goal with |- Forall (in_scope (sel_scope ?x)) _ => change (sel_scope x) with (sel_scope sel) end.
  rewrite (scope_is sel t js Sf Sj). fold ts. unfold sel_columns. cbn [s_cols s_joins s_where s_order map]. rewrite Sc, Sj.
  assert (Hr : Forall regular (List.concat (flat_map bc_where hb ++ flat_map sc_where hs)))
    by (rewrite List.concat_app; apply Forall_app; split; [now apply plain_b_regular|now apply plain_s_regular]).
  rewrite Forall_forall in Hb. rewrite Forall_forall in Hs. pose proof Db as Db'. rewrite Forall_flat in Db'.
  apply Forall_app. split; [|apply Forall_app; split; [|apply Forall_app; split; [|constructor]]].
  - apply fields_scope; (apply b_fields_all; [constructor|]); intros fs Hf; [apply (Hb _ Hf)|apply (Db' _ Hf)].
  - apply joins_scope; apply Forall_app; (split; [|]).
    + apply b_join_wf, Forall_forall; auto.
    + apply s_join_wf, Forall_forall; auto.
    + now apply b_on.
    + now apply s_on.
  - pose proof (where_says_all row0 _ c (s_where sel) ps [] Hr Hw Hv) as K. rewrite app_nil_r in K. specialize (K Ha).
    destruct (s_where sel) as [e|]; [|constructor].
    apply (atoms_scope ts _ _ _ K). intros l Hl. split; [now apply (given_good _ Hr)|].
    apply given_app in Hl as [Hl|Hl]; [apply (given_defs _ bc_defs _ hb (b_where_defs hb) Db l Hl)|apply (given_defs _ sc_defs _ hs (s_where_defs hs) Ds l Hl)].
Qed.
Print Assumptions C64_select_single.

(** fields made from a table of the statement *)
Theorem C64_table_fields : forall t ts fn f, wf_table t -> t_alias t <> "" \/ name (t_name t) = true -> In t ts -> t_field t fn = Ok f ->
  of_tables ts f.
Proof.
  intros t ts fn f [_ Ha] Hn Hi E. right. exists t. split; [exact Hi|]. unfold t_field in E.
  destruct (field fn) as [d|]; [|discriminate]. injection E as <-. cbn [f_of f_table]. unfold exposed, table_item, alias_or_name.
  cbn [it_alias it_text]. destruct (t_alias t) as [|x y] eqn:Ea; cbn [is_empty negb orb].
  - destruct Hn as [Hn|Hn]; [congruence|]. now rewrite (after_dot_none _ (name_ident _ Hn)).
  - destruct (String.eqb (String x y) (t_name t)) eqn:Ee; [|reflexivity]. apply String.eqb_eq in Ee. rewrite <- Ee in *.
    destruct Ha as [Ha|Ha]; [discriminate|]. now rewrite (after_dot_none _ (name_ident _ Ha)).
Qed.
Print Assumptions C64_table_fields.

(** ** UPDATE and DELETE *)

Definition only (table : string) : list string := [exposed (mkItem table None)].
Definition written_to (p : tparam) : list tident := [mkT (raw_table_name p) ""].

Lemma only_is p : only (raw_table_name p) = map (fun t => exposed (table_item t)) (written_to p).
Proof. reflexivity. Qed.

Definition uc_defs (c : ucall) : list fdef := match c with USet _ => [] | UWhere cs => where_defs cs end.

Theorem C64_update : forall p h vs, let sets := flat_map uc_set h in
  qname (raw_table_name p) -> sets <> [] -> singles sets vs -> Forall (fun c => name c = true) (col_names sets) ->
  Forall plain_u h -> List.concat (flat_map uc_where h) <> [] -> Forall (of_tables (written_to p)) (flat_map uc_defs h) ->
  exists u s ps st, calls u_call (update_ p) h = Ok u /\ u_build u = Ok (mkOut s ps None) /\ parse_update s = Some st /\
    Forall (in_scope (only (up_table st))) (map fst (up_sets st) ++ expr_columns (up_where st)).
Proof.
  intros p h vs sets Hp Hs Hv Hc Hu Hn Hd.
  destruct (C10_update row0 p h vs Hp Hs Hv Hc (plain_u_wf _ _ Hu) Hn) as (u & s & ws & c & e & v & E1 & E2 & E3 & Hw & Ew & Hr & _).
  exists u, s, (vs ++ ws)%list. eexists. split; [exact E1|]. split; [exact E2|]. split; [exact E3|]. cbn [up_where up_table up_sets].
  pose proof (wanted_says (flat_map uc_where h) c (length vs) e ws (plain_u_regular h Hu) Hw Hr Ew vs [] eq_refl) as K.
  rewrite only_is. apply Forall_app. split.
  - rewrite Forall_forall in *. intros x Hx. apply name_scope, Hc. apply in_map_iff in Hx as ([a k] & <- & Hx). apply in_combine_l in Hx. exact Hx.
  - apply (atoms_scope _ _ _ _ K). intros l Hl. split; [now apply (given_good _ (plain_u_regular h Hu))|].
    apply (given_defs uc_where uc_defs _ h); auto. intros [x|cs] _; cbn; [intros y []|]. rewrite app_nil_r. apply incl_refl.
Qed.
Print Assumptions C64_update.

Theorem C64_delete : forall p h, qname (raw_table_name p) -> Forall (Forall regular) h -> List.concat h <> [] ->
  Forall (of_tables (written_to p)) (where_defs (List.concat h)) ->
  exists d s ps st, calls d_add_where (delete_ p) h = Ok d /\ d_build d = Ok (mkOut s ps None) /\ parse_delete s = Some st /\
    Forall (in_scope (only (de_table st))) (expr_columns (de_where st)).
Proof.
  intros p h Hp Hh Hn Hd. assert (Hu : Forall (Forall (usable row0)) h) by (eapply Forall_impl; [|exact Hh]; intros cs; apply regular_all).
  destruct (C11_delete row0 p h Hp Hu Hn) as (d & s & ws & c & e & v & E1 & E2 & E3 & Hw & Ew & Hr & _).
  exists d, s, ws. eexists. split; [exact E1|]. split; [exact E2|]. split; [exact E3|]. cbn [de_where de_table].
  pose proof (proj2 (concat_Forall _ _) Hh) as Hh'.
  pose proof (wanted_says h c 0 e ws Hh' Hw Hr Ew [] [] eq_refl) as K. rewrite only_is.
  apply (atoms_scope _ _ _ _ K). intros l Hl. split; [now apply (given_good _ Hh')|]. rewrite Forall_forall in Hd. apply Hd. unfold where_defs. now apply in_map.
Qed.
Print Assumptions C64_delete.

(** ** Statements derived from a select *)

Definition select_in_scope (b : bsel) : Prop := exists s ps sel, b_build b = Ok (mkOut s ps None) /\ parse_select s = Some sel /\
  Forall (in_scope (sel_scope sel)) (sel_columns sel).
Definition delete_in_scope (d : del) : Prop := exists s ps st, d_build d = Ok (mkOut s ps None) /\ parse_delete s = Some st /\
  Forall (in_scope (only (de_table st))) (expr_columns (de_where st)).
Definition update_in_scope (u : upd) : Prop := exists s ps st, u_build u = Ok (mkOut s ps None) /\ parse_update s = Some st /\
  Forall (in_scope (only (up_table st))) (map fst (up_sets st) ++ expr_columns (up_where st)).

(** The claim "an UPDATE or DELETE derived from a select refers to its own table" is false:
    the alias of the table is dropped, the columns keep it. *)
Theorem C64_derived_refuted : exists p t f b0 b d u,
  table_p p = Ok t /\ t_field t "id" = Ok f /\ select_from p = Ok b0 /\ b_add_where b0 [CLeaf (mkLeaf KEq AND false f (VOther 1))] = Ok b /\ select_in_scope b /\
  b_delete b = Ok d /\ b_update b [fv "a" (VOther 2)] = Ok u /\
  (exists s ps, d_build d = Ok (mkOut s ps None) /\ parse_delete s <> None) /\ ~ delete_in_scope d /\
  (exists s ps, u_build u = Ok (mkOut s ps None) /\ parse_update s <> None) /\ ~ update_in_scope u.
Proof.
  exists (TPStr "users u"). eexists. eexists. eexists. eexists. eexists. eexists.
  split; [reflexivity|]. split; [reflexivity|]. split; [reflexivity|]. split; [reflexivity|]. split.
  { eexists. eexists. eexists. split; [vm_compute; reflexivity|]. split; [vm_compute; reflexivity|]. vm_compute. repeat constructor. }
  split; [reflexivity|]. split; [reflexivity|]. split; [|split; [|split]].
  - eexists. eexists. split; [vm_compute; reflexivity|]. vm_compute. discriminate.
  - intros (s & ps & st & E1 & E2 & H). vm_compute in E1. injection E1 as <- <-. vm_compute in E2. injection E2 as <-. vm_compute in H.
    inversion H as [|? ? K _]. destruct K as [K|[]]. discriminate.
  - eexists. eexists. split; [vm_compute; reflexivity|]. vm_compute. discriminate.
  - intros (s & ps & st & E1 & E2 & H). vm_compute in E1. injection E1 as <- <-. vm_compute in E2. injection E2 as <-. vm_compute in H.
    inversion H as [|? ? _ K]. inversion K as [|? ? K1 _]. destruct K1 as [K1|[]]. discriminate.
Qed.
Print Assumptions C64_derived_refuted.

Lemma derived_scope b toU toD css : derived b toU toD -> Forall regular (List.concat css) -> List.concat css <> [] ->
  calls group_and empty_group css = Ok (b_where b) -> qname (t_name (b_table b)) ->
  Forall (of_tables [mkT (t_name (b_table b)) ""]) (where_defs (List.concat css)) ->
  (exists d, toD = Ok d /\ delete_in_scope d) /\
  forall fvs vs, fvs <> [] -> singles fvs vs -> Forall (fun c => name c = true) (col_names fvs) -> exists u, toU fvs = Ok u /\ update_in_scope u.
Proof.
  intros (d & Ed & Td & Cd & HU) Hr Hne E Hq Hd.
  assert (Hw : wanted css (Some (of_g (b_where b)))).
  { split; [exact Hne|]. change (CGrp AND false [] false) with (of_g empty_group). now rewrite calls_m_and, E. }
  destruct (wanted_leaves css _ Hr Hw) as (W1 & W2 & W3).
  assert (Hso : sound row0 (of_g (b_where b))) by now apply good_sound.
  assert (Hg : g_cs (b_where b) <> []) by (intros K; apply (where_grows _ _ _ E) in K as [_ K]; contradiction).
  assert (Hready : where_ready row0 (b_where b)) by (right; auto).
  assert (S : forall g n e ws, carries (b_where b) g -> reads (of_g g) n e -> c_values (of_g g) = Ok ws ->
    Forall (in_scope (only (t_name (b_table b)))) (expr_columns e)).
  { intros g n e ws (C1 & _ & C3 & _) (w & R1 & R2) Ev. rewrite C1 in R1. rewrite C3 in Ev.
    pose proof (wanted_says css _ n e ws Hr Hw (ex_intro _ w (conj R1 R2)) Ev (repeat VNil n) [] (repeat_length _ _)) as K.
    change (only (t_name (b_table b))) with (map (fun t => exposed (table_item t)) [mkT (t_name (b_table b)) ""]).
    apply (atoms_scope _ _ _ _ K). intros l Hl. split; [now apply (given_good _ Hr)|].
    rewrite Forall_forall in Hd. apply Hd. unfold where_defs. now apply in_map. }
  split.
  - destruct (carries_ready row0 _ _ Cd Hg Hready) as [Hwf Hs].
    destruct (delete_build row0 d) as (s & ws & e & v & E1 & E2 & E3 & E6 & _); auto.
    { now rewrite Td. } { destruct Cd as (_ & _ & _ & C4 & _). now rewrite C4. }
    exists d. split; [exact Ed|]. exists s, ws. eexists. split; [exact E1|]. split; [exact E3|]. cbn [de_table de_where]. rewrite Td. now apply (S (d_where d) 0 e ws).
  - intros fvs vs Hf Hsi Hc. destruct (HU fvs) as (u & Eu & Tu & Vu & Cu).
    destruct (carries_ready row0 _ _ Cu Hg Hready) as [Hwf Hs].
    destruct (update_build row0 u vs) as (s & ws & e & v & E1 & E2 & E3 & E6 & _); rewrite ?Tu, ?Vu; auto.
    { destruct Cu as (_ & _ & _ & C4 & _). now rewrite C4. }
    exists u. split; [exact Eu|]. exists s, (vs ++ ws)%list. eexists. split; [exact E1|]. split; [exact E3|]. cbn [up_table up_where up_sets].
    rewrite Tu. apply Forall_app. split; [|now apply (S (u_where u) (length vs) e ws)].
    rewrite Vu. rewrite Forall_forall in *. intros x Hx. apply name_scope, Hc. apply in_map_iff in Hx as ([a k] & <- & Hx). now apply in_combine_l in Hx.
Qed.

(** It holds when no column is qualified by anything but the name of the table: in particular for fields of a table without alias. *)
Theorem C64_derived_partial : forall p t hb, table_p p = Ok t -> wf_table t -> Forall plain_b hb ->
  Forall (of_tables [mkT (t_name t) ""]) (where_defs (List.concat (flat_map bc_where hb))) -> List.concat (flat_map bc_where hb) <> [] ->
  exists b0 b, select_from p = Ok b0 /\ calls b_call b0 hb = Ok b /\
    (exists d, b_delete b = Ok d /\ delete_in_scope d) /\
    (forall fvs vs, fvs <> [] -> singles fvs vs -> Forall (fun c => name c = true) (col_names fvs) -> exists u, b_update b fvs = Ok u /\ update_in_scope u) /\
    forall hm, Forall plain_m hm -> Forall (of_tables [mkT (t_name t) ""]) (where_defs (List.concat (flat_map mc_where hm))) ->
      exists m, calls m_call (many_of b) hm = Ok m /\ (exists d, m_delete m = Ok d /\ delete_in_scope d) /\
      (forall fvs vs, fvs <> [] -> singles fvs vs -> Forall (fun c => name c = true) (col_names fvs) -> exists u, m_update m fvs = Ok u /\ update_in_scope u).
Proof.
  intros p t hb Et Ht Hb Hd Hne. destruct (base_history row0 p t hb Et Ht (plain_b_wf _ _ Hb)) as (b0 & b & E0 & Eb & Gb & Ib).
  destruct (C33_conditions p b0 hb b E0 Eb) as (D1 & D2 & _). exists b0, b. split; [exact E0|]. split; [exact Eb|].
  pose proof Ib as (_ & I2 & _ & _ & I5). pose proof (plain_b_regular _ Hb) as Rb.
  destruct (derived_scope b _ _ _ D1 Rb Hne I5) as [S1 S2]; [rewrite I2; apply Ht|now rewrite I2|]. split; [exact S1|]. split; [exact S2|].
  intros hm Hm Hdm. pose proof (plain_m_wf row0 _ Hm) as Hm'.
  destruct (C06_select_many row0 p t hb hm Et Ht (plain_b_wf _ _ Hb) Hm') as (b0' & b' & m & s & ps & vs & c & sel & E0' & Eb' & Em & _).
  assert (b0' = b0) by congruence. subst b0'. assert (b' = b) by congruence. subst b'. exists m. split; [exact Em|].
  destruct (m_calls_is hm (many_of b) m _ _ _ _ [] 0%N (-1)%Z (conj Ib (conj eq_refl (conj eq_refl eq_refl))) Em) as ((_ & J2 & _ & _ & J5) & _).
  apply (derived_scope (m_base m) _ _ (flat_map bc_where hb ++ flat_map mc_where hm) (D2 hm m Em)).
  - rewrite List.concat_app. apply Forall_app. split; [exact Rb|now apply plain_m_regular].
  - rewrite List.concat_app. intros K. now apply app_eq_nil in K.
  - exact J5.
  - rewrite J2. apply Ht.
  - rewrite J2, List.concat_app. unfold where_defs. rewrite flat_map_app, map_app. now apply Forall_app.
Qed.
Print Assumptions C64_derived_partial.

Definition uid (k : nat) : cond := CLeaf (mkLeaf KEq AND false (fld "u" "id" "") (VOther k)).
Definition hb_scope : list bcall :=
  [BFields [fld "u" "id" ""; fld "o" "total" "sum"]; BWhere [uid 3]; BJoin (mkT "orders" "o") 1 (fld "u" "id" "") (fld "o" "uid" "")].
Definition hm_scope : list mcall := [MWhere [eqc "d" 7]; MOrder [mkS (fld "o" "total" "") "DESC"]].
Lemma uid_regular k : regular (uid k).
Proof.
  split; [apply (bt_lib KEq "u.id" (VOther k)); reflexivity|]. split; [exact I|]. intros l [<-|[]]. split; [|now exists (VOther k)].
  split; [reflexivity|]. split; [right; reflexivity|left; reflexivity].
Qed.
Example C64_example :
  (Forall plain_b hb_scope /\ Forall plain_m hm_scope /\
   Forall (of_tables (mkT "users" "u" :: map j_right (flat_map bc_join hb_scope ++ flat_map mc_join hm_scope)))
     (flat_map bc_defs hb_scope ++ flat_map mc_defs hm_scope)) /\
  (exists sel, (do b <- select_from (TPStr "users u"); do b <- calls b_call b hb_scope; do m <- calls m_call (many_of b) hm_scope;
     do o <- m_build m; Ok (parse_select (o_sql o))) = Ok (Some sel) /\
     sel_scope sel = ["u"; "o"] /\ sel_columns sel = ["u.id"; "o.total"; "u.id"; "o.uid"; "u.id"; "d"; "o.total"]) /\
  (* without alias: the hypothesis of the partial theorem *)
  (Forall plain_b [BWhere [uid 3]] /\ Forall (of_tables [mkT "u" ""]) (where_defs (List.concat (flat_map bc_where [BWhere [uid 3]])))) /\
  (do b <- select_from (TPStr "u"); do b <- b_add_where b [uid 3]; do d <- b_delete b; d_build d) = Ok (mkOut "DELETE FROM u WHERE u.id=$1" [VOther 3] None).
Proof.
  assert (U : forall ts, In (mkT "users" "u") ts -> forall n, of_tables ts (fld "u" n "")) by (intros ts H n; right; exists (mkT "users" "u"); auto).
  split; [split; [|split]|split; [|split; [split|]]].
  - constructor; [constructor; [by_field|constructor; [by_field|constructor]]|]. constructor; [constructor; [apply uid_regular|constructor]|].
    constructor; [|constructor]. split; [split; [constructor; reflexivity|by_name]|]. split; [simpl; lia|]. repeat split.
  - constructor; [constructor; [by_regular|constructor]|]. constructor; [|constructor]. constructor; [|constructor].
    split; [by_field|right; reflexivity].
  - assert (O : forall n a, of_tables [mkT "users" "u"; mkT "orders" "o"] (fld "o" n a)) by (intros n a; right; exists (mkT "orders" "o"); simpl; auto).
    cbn [flat_map bc_join hb_scope hm_scope mc_join app map j_right bc_defs mc_defs where_defs leaves uid eqc l_def s_def].
    repeat (constructor; [first [apply O|apply U; left; reflexivity|left; reflexivity]|]). constructor.
  - eexists. split; [vm_compute; reflexivity|]. split; vm_compute; reflexivity.
  - constructor; [constructor; [apply uid_regular|constructor]|constructor].
  - constructor; [|constructor]. right. exists (mkT "u" ""). split; [now left|reflexivity].
  - vm_compute. reflexivity.
Qed.
