(** Property theorems about the select builders. *)
From Coq Require Import String Ascii List Bool Arith Lia NArith ZArith.
From Verif Require Import GoStr Value Names Cond Build SqlSpec Spec StrFacts SqlFacts CondFacts CondText CondSem TreeFacts
  CondLogic CondMeaning Built CondThms PropsCond NameFacts StmtFacts Calls BuildFacts BuildThms StmtText.
Import ListNotations.
Local Open Scope string_scope.
Local Open Scope nat_scope.

(** * Sample calls *)

Definition fld (t n a : string) : fdef := mkF n t a.
Definition ord_asc (n : string) : fsort := mkS (mkF n "" "") "ASC".
Lemma eqc_usable rho f k : built (eqc f k) -> name f = true -> usable rho (eqc f k).
Proof.
  intros H Hn. split; [exact H|]. split; [exact I|]. apply good_sound. intros l [<-|[]].
  split; [|eexists; reflexivity]. split; [exact Hn|]. split; left; reflexivity.
Qed.
Lemma sample_usable rho : usable rho sample.
Proof. split; [exact sample_built|]. split; [vm_compute; intuition discriminate|]. apply good_sound. intros l Hl. now apply sample_leaves. Qed.
Ltac by_usable := apply eqc_usable; [by_eqc|reflexivity].

Definition hb0 : list bcall :=
  [BFields [fld "u" "id" ""; fld "o" "total" "sum"]; BWhere [sample]; BJoin (mkT "orders" "o") 1 (fld "u" "id" "") (fld "o" "uid" "")].
Definition hm0 : list mcall :=
  [MLimit 5; MWhere [eqc "d" 7]; MOrder [ord_asc "id"]; MJoin "items i" 0 (fld "o" "id" "") (fld "i" "oid" "");
   MOffset 20; MOrder [mkS (mkF "total" "o" "") "DESC"]; MLimit 10].
Definition hs0 : list scall := [SWhere [eqc "d" 7]; SJoin "items i" 0 (fld "o" "id" "") (fld "i" "oid" "")].
Ltac by_name := first [left; reflexivity | right; reflexivity].
Ltac by_field := split; [reflexivity|split; by_name].
Lemma hb0_wf rho : Forall (wf_bcall rho) hb0.
Proof.
  unfold hb0. constructor; [constructor; [by_field|constructor; [by_field|constructor]]|].
  constructor; [constructor; [apply sample_usable|constructor]|]. constructor; [|constructor].
  split; [split; [constructor; reflexivity|by_name]|]. split; [simpl; lia|]. repeat split.
Qed.
Lemma users_wf : table_p (TPStr "users as u") = Ok (mkT "users" "u") /\ wf_table (mkT "users" "u").
Proof. split; [reflexivity|]. split; [constructor; reflexivity|right; reflexivity]. Qed.
Lemma items_wf rho n : wf_mcall rho (MJoin n 0 (fld "o" "id" "") (fld "i" "oid" "")) <->
  wf_scall rho (SJoin n 0 (fld "o" "id" "") (fld "i" "oid" "")).
Proof. reflexivity. Qed.
Lemma items_ok rho : wf_scall rho (SJoin "items i" 0 (fld "o" "id" "") (fld "i" "oid" "")).
Proof.
  exists (mkT "items" "i"). split; [reflexivity|]. split; [split; [constructor; reflexivity|right; reflexivity]|].
  split; [simpl; lia|]. repeat split.
Qed.
Lemma hm0_wf rho : Forall (wf_mcall rho) hm0.
Proof.
  unfold hm0. constructor; [exact I|]. constructor; [constructor; [by_usable|constructor]|].
  constructor; [constructor; [split; [by_field|by_name]|constructor]|]. constructor; [apply items_wf, items_ok|].
  constructor; [exact I|]. constructor; [|constructor; [exact I|constructor]].
  constructor; [|constructor]. split; [|right; reflexivity]. repeat split; [right; reflexivity|left; reflexivity].
Qed.
Lemma hs0_wf rho : Forall (wf_scall rho) hs0.
Proof. constructor; [constructor; [by_usable|constructor]|]. constructor; [apply items_ok|constructor]. Qed.

(** * C06 SELECT many, end to end *)

(** For every table specification that names a table, and every history of Fields,
    Where, Join...On calls on the base builder and Fields, Where, Join...On, OrderBy,
    Offset, Limit calls on the SelectMany builder, with well-formed names: no call
    panics, the statement is returned without error, and reading it back gives the
    last columns set, the table, the joins in call order, the condition asked for,
    the orderings in call order, and the last offset and limit. *)
Theorem C06_select_many : forall rho p t hb hm,
  table_p p = Ok t -> wf_table t -> Forall (wf_bcall rho) hb -> Forall (wf_mcall rho) hm ->
  exists b0 b m s ps vs c sel,
    select_from p = Ok b0 /\ calls b_call b0 hb = Ok b /\ calls m_call (many_of b) hm = Ok m /\
    m_build m = Ok (mkOut s ps None) /\ parse_select s = Some sel /\
    s_cols sel = cols_item (last_of mc_fields (last_of bc_fields [] hb) hm) /\
    s_from sel = table_item t /\
    s_joins sel = map join_item (flat_map bc_join hb ++ flat_map mc_join hm) /\
    s_order sel = map sort_item (flat_map mc_order hm) /\
    wanted (flat_map bc_where hb ++ flat_map mc_where hm) c /\ cond_values c vs /\ where_as rho c (s_where sel) ps /\
    let off := last_of mc_offset 0%N hm in
    let lim := Z.to_N (last_of mc_limit (-1)%Z hm) in
    ps = (vs ++ page_values off lim)%list /\ bound_to ps (s_offset sel) off /\ bound_to ps (s_limit sel) lim.
Proof. exact many_history. Qed.
Print Assumptions C06_select_many.

Definition bget (r : res bsel) : bsel := match r with Ok b => b | Panic => zero_bsel end.
Definition b_sample : bsel := bget (do b <- select_from (TPStr "users as u"); calls b_call b hb0).
Definition m_sample : res msel := calls m_call (many_of b_sample) hm0.
Example C06_example : (do m <- m_sample; m_build m) = Ok (mkOut
  ("SELECT u.id, o.total AS sum FROM users AS u LEFT JOIN orders AS o ON u.id=o.uid INNER JOIN items AS i ON o.id=i.oid " ++
   "WHERE t.a IN ($1,$2) AND (b=$3 OR c NOT LIKE $4) AND d=$5 ORDER BY id ASC, o.total DESC OFFSET $6 LIMIT $7")
  [VStr "x"; VStr "y"; VOther 1; VStr "%z%"; VOther 7; VUint 20; VUint 10] None) /\
  (forall rho, Forall (wf_bcall rho) hb0 /\ Forall (wf_mcall rho) hm0) /\
  table_p (TPStr "users as u") = Ok (mkT "users" "u") /\ wf_table (mkT "users" "u").
Proof.
  split; [vm_compute; reflexivity|]. split; [|exact users_wf]. intros rho. split; [apply hb0_wf|apply hm0_wf].
Qed.

(** * C07 SELECT single *)

(** As C06 for Where and Join...On calls on a SelectSingle builder (Fields: C31): the
    statement is the one of its base builder plus LIMIT 1, with the same parameters. *)
Theorem C07_select_single : forall rho p t hb hs,
  table_p p = Ok t -> wf_table t -> Forall (wf_bcall rho) hb -> Forall (wf_scall rho) hs ->
  exists b0 b q s s0 ps c sel,
    select_from p = Ok b0 /\ calls b_call b0 hb = Ok b /\ calls s_call (single_of b) hs = Ok q /\
    ss_build q = Ok (mkOut s ps None) /\ b_build (ss_base q) = Ok (mkOut s0 ps None) /\
    parse_select s0 = Some sel /\
    sel = mkSel (cols_item (last_of bc_fields [] hb)) (table_item t)
            (map join_item (flat_map bc_join hb ++ flat_map sc_join hs)) (s_where sel) [] None None /\
    parse_select s = Some (mkSel (s_cols sel) (s_from sel) (s_joins sel) (s_where sel) [] None (Some (BLit 1))) /\
    wanted (flat_map bc_where hb ++ flat_map sc_where hs) c /\ cond_values c ps /\ where_as rho c (s_where sel) ps.
Proof. exact single_history. Qed.
Print Assumptions C07_select_single.
Example C07_example : (do q <- calls s_call (single_of b_sample) hs0; ss_build q) = Ok (mkOut
  ("SELECT u.id, o.total AS sum FROM users AS u LEFT JOIN orders AS o ON u.id=o.uid INNER JOIN items AS i ON o.id=i.oid " ++
   "WHERE t.a IN ($1,$2) AND (b=$3 OR c NOT LIKE $4) AND d=$5 LIMIT 1")
  [VStr "x"; VStr "y"; VOther 1; VStr "%z%"; VOther 7] None) /\
  (forall rho, Forall (wf_bcall rho) hb0 /\ Forall (wf_scall rho) hs0).
Proof. split; [vm_compute; reflexivity|]. intros rho. split; [apply hb0_wf|apply hs0_wf]. Qed.

(** Any state, however reached, whose names are well formed (after Fields on the single builder they
    never are, see C31): the statement is the one of the base builder with LIMIT 1 added. *)
Theorem C07_any_state : forall rho q, names_ok (ss_base q) -> where_ready rho (b_where (ss_base q)) ->
  exists s s0 ps sel, ss_build q = Ok (mkOut s ps None) /\ b_build (ss_base q) = Ok (mkOut s0 ps None) /\
    parse_select s0 = Some sel /\ s_order sel = [] /\ s_offset sel = None /\ s_limit sel = None /\
    parse_select s = Some (mkSel (s_cols sel) (s_from sel) (s_joins sel) (s_where sel) [] None (Some (BLit 1))).
Proof.
  intros rho q Hn Hr. destruct (single_build rho q Hn Hr) as (t & ps & we & E1 & E2 & _ & E3 & E4).
  exists (t ++ " LIMIT 1"), t, ps. eexists. split; [exact E1|]. split; [exact E2|]. split; [exact E3|]. cbn. auto.
Qed.
Print Assumptions C07_any_state.
Example C07_state_example : forall rho, names_ok (ss_base (single_of b_sample)) /\ where_ready rho (b_where (ss_base (single_of b_sample))) /\
  forall fs, ~ names_ok (ss_base (ss_set_fields (single_of b_sample) fs)).
Proof.
  intros rho. destruct (base_history rho (TPStr "users as u") (mkT "users" "u") hb0) as (b0 & b & E0 & Eb & _ & Ib);
    [reflexivity|apply users_wf|apply hb0_wf|].
  assert (b = b_sample) as -> by (vm_compute in E0; injection E0 as <-; vm_compute in Eb; injection Eb as <-; reflexivity).
  destruct (bcall_args rho hb0 (hb0_wf rho)) as (A1 & A2 & A3). destruct Ib as (_ & I2 & I3 & I4 & I5).
  cbn [single_of ss_base]. split; [|split].
  - split; [now rewrite I3|]. split; [rewrite I2; apply users_wf|now rewrite I4].
  - eapply where_ready_calls; [|exact I5]. exact A3.
  - intros fs (_ & (Hq & _) & _). inversion Hq as [n Hn Hx|a n Ha Hn Hx]; [discriminate|]. destruct a; discriminate.
Qed.

(** * C08 COUNT *)

(** the counted expression: all rows, or a column *)
Definition counts (fs : list fdef) (c : colspec) : Prop :=
  match fs with
  | [] => c = CountStar
  | f :: _ => c = CountCol (if String.eqb (f_alias f) "" then column f else f_alias f)
  end.
(** For every state of a SelectMany builder with well-formed names: the select, the
    count over all rows (SelectMany.Count) and the count of a field of the base
    (Count(base, field)) agree on FROM, joins, WHERE and its parameters; the counts have
    no ORDER BY, OFFSET and LIMIT. *)
Theorem C08_count : forall rho m, names_ok (m_base m) -> Forall wf_sort (m_order m) -> where_ready rho (b_where (m_base m)) ->
  exists s ps pg sel, m_build m = Ok (mkOut s (ps ++ pg) None) /\ parse_select s = Some sel /\
    (forall e, s_where sel = Some e -> exists v, eval rho (ps ++ pg)%list e = Some v /\ eval rho ps e = Some v) /\
    forall fs fn, (fs = [] /\ fn = []) \/
        (exists f x, fs = [f] /\ fn = [x] /\ field x = Ok f /\ wf_field f /\ f_alias f <> f_name f) ->
      exists q s' cs, count (m_base m) fn = Ok q /\ cs_build q = Ok (mkOut s' ps None) /\
        parse_select s' = Some (mkSel cs (s_from sel) (s_joins sel) (s_where sel) [] None None) /\ counts fs cs.
Proof.
  intros rho m Hn Ho Hr. destruct (many_build rho m Hn Ho Hr) as (s & ps & we & E1 & E2 & (t & Eb & Et) & E3).
  exists s, ps, (page_params m). eexists. split; [exact E1|]. split; [exact E3|]. cbn [s_where s_from s_joins]. split.
  { intros e ->. destruct E2 as (_ & _ & _ & v & _ & He). exists v. split; [apply He|]. specialize (He []). now rewrite app_nil_r in He. }
  intros fs fn H.
  assert (K : exists q, count (m_base m) fn = Ok q /\ cs_base q = m_base m /\ wf_count (cs_field q) /\ counts fs (count_item (cs_field q))).
  { destruct H as [[-> ->]|(f & x & -> & -> & Ef & Hf & Ha)].
    - eexists. split; [reflexivity|]. split; [reflexivity|]. split; [now left|reflexivity].
    - unfold count. rewrite Ef. eexists. split; [reflexivity|]. split; [reflexivity|]. split; [now right|].
      cbn [cs_field counts]. unfold count_item.
      replace (String.eqb (f_name f) "*") with false.
      + cbn [sort_item s_def fst]. rewrite empty_eqb. destruct (f_alias f) as [|a r] eqn:Ea; [reflexivity|].
        cbn [is_empty orb]. rewrite <- Ea in *. apply String.eqb_neq in Ha. now rewrite Ha.
      + symmetry. apply String.eqb_neq. intros N. destruct Hf as [Hf _]. rewrite N in Hf. discriminate. }
  destruct K as (q & Eq & Hq & Hc & Hcs).
  destruct (count_build rho q) as (s' & ps' & we' & C1 & C2 & (t' & Cb & Ct) & C3); try (rewrite Hq; assumption); auto.
  rewrite Hq in *. rewrite Eb in Cb. injection Cb as <- <-. rewrite Et in Ct. injection Ct as <-.
  exists q, s'. eexists. split; [exact Eq|]. split; [exact C1|]. split; [exact C3|exact Hcs].
Qed.
Print Assumptions C08_count.
Example C08_example :
  (do m <- m_sample; do q <- m_count m; cs_build q) = Ok (mkOut
  ("SELECT COUNT(*) FROM users AS u LEFT JOIN orders AS o ON u.id=o.uid INNER JOIN items AS i ON o.id=i.oid " ++
   "WHERE t.a IN ($1,$2) AND (b=$3 OR c NOT LIKE $4) AND d=$5")
  [VStr "x"; VStr "y"; VOther 1; VStr "%z%"; VOther 7] None) /\
  exists m, m_sample = Ok m /\ names_ok (m_base m) /\ Forall wf_sort (m_order m) /\ forall rho, where_ready rho (b_where (m_base m)).
Proof.
  split; [vm_compute; reflexivity|]. pose (rho := table_row (fun _ => 0)).
  destruct (base_history rho _ _ hb0 (proj1 users_wf) (proj2 users_wf) (hb0_wf rho)) as (b0 & b & E0 & Eb & Gb & Ib).
  assert (E : b = b_sample). { unfold b_sample. rewrite E0. cbn [bind]. now rewrite Eb. }
  destruct (calls_total m_call (fun m => g_ok (b_where (m_base m))) (wf_mcall rho)) with (h := hm0) (a := many_of b) as (m & Em & _); auto.
  { intros a x. apply m_call_total. } { apply hm0_wf. }
  exists m. unfold m_sample. rewrite <- E. split; [exact Em|].
  destruct (m_calls_is hm0 (many_of b) m _ _ _ _ [] 0%N (-1)%Z (conj Ib (conj eq_refl (conj eq_refl eq_refl))) Em)
    as ((_ & I2 & I3 & I4 & I5) & Io & _).
  destruct (bcall_args rho hb0 (hb0_wf rho)) as (A1 & A2 & A3). destruct (mcall_args rho hm0 _ A1 (hm0_wf rho)) as (B1 & B2 & B3 & B4).
  split; [|split].
  - split; [now rewrite I3|]. split; [rewrite I2; apply users_wf|]. rewrite I4. apply Forall_app; auto.
  - rewrite Io. exact B4.
  - intros rho'. eapply where_ready_calls; [|exact I5].
    destruct (bcall_args rho' hb0 (hb0_wf rho')) as (_ & _ & A3'). destruct (mcall_args rho' hm0 _ A1 (hm0_wf rho')) as (_ & _ & B3' & _).
    rewrite List.concat_app. apply Forall_app; auto.
Qed.

(** * C20 A chain of Where calls with plain conditions is their conjunction *)

Lemma wanted_group css c : wanted css (Some c) -> exists g, calls group_and empty_group css = Ok g /\ c = of_g g.
Proof.
  intros [_ E]. change (CGrp AND false [] false) with (of_g empty_group) in E. rewrite calls_m_and in E.
  destruct (calls group_and empty_group css) as [g|]; [|discriminate]. injection E as <-. eauto.
Qed.
Lemma wanted_conj rho css c vs : Forall (usable rho) (List.concat css) -> where_ok false css ->
  Forall2 (means rho) (List.concat css) vs -> wanted css (Some c) -> means rho c (conj3 vs).
Proof.
  intros Hu Ho Hm Hw. destruct (wanted_group css c Hw) as (g & E & ->). destruct Hw as [Hne _].
  apply (where_means rho css vs g); auto.
  - apply concat_Forall in Hu. rewrite Forall_forall in *. intros cs Hcs. specialize (Hu cs Hcs). rewrite Forall_forall in *.
    intros x Hx. destruct (Hu x Hx) as (H1 & H2 & _). now apply built_wf.
  - rewrite Forall_forall in *. intros x Hx. now apply Hu.
Qed.
Lemma plain_wanted rho css c vs : Forall (usable rho) (List.concat css) -> Forall plain (List.concat css) ->
  Forall2 (means rho) (List.concat css) vs -> wanted css (Some c) -> means rho c (conj3 vs).
Proof. intros Hu Hp. apply wanted_conj; auto. apply plain_where. now apply concat_Forall. Qed.

(** whatever else the histories do: the WHERE expression of the statement is the
    conjunction of all conditions passed to Where (no WHERE if there are none) *)
Theorem C20_select : forall rho p t hb hm tvs, let cs := List.concat (flat_map bc_where hb ++ flat_map mc_where hm) in
  table_p p = Ok t -> wf_table t -> Forall (wf_bcall rho) hb -> Forall (wf_mcall rho) hm ->
  Forall plain cs -> Forall2 (means rho) cs tvs ->
  exists b0 b m s ps sel,
    select_from p = Ok b0 /\ calls b_call b0 hb = Ok b /\ calls m_call (many_of b) hm = Ok m /\
    m_build m = Ok (mkOut s ps None) /\ parse_select s = Some sel /\
    match s_where sel with
    | None => cs = []
    | Some e => cs <> [] /\ eval rho ps e = Some (fold_right and3 T tvs)
    end.
Proof.
  intros rho p t hb hm tvs cs Et Ht Hb Hm Hp Ha.
  destruct (many_history rho p t hb hm Et Ht Hb Hm) as (b0 & b & m & s & ps & vs & c & sel & E0 & E1 & E2 & E3 & E4 & _ & _ & _ & _ & W & _ & WA & _).
  exists b0, b, m, s, ps, sel. repeat (split; [assumption|]).
  destruct c as [c|], (s_where sel) as [e|]; try contradiction; simpl in WA; [|exact W].
  destruct WA as (_ & v & Hv & He). split; [apply W|]. rewrite He. f_equal.
  destruct (bcall_args rho hb Hb) as (_ & _ & A3). destruct (mcall_args rho hm [] (Forall_nil _) Hm) as (_ & _ & B3 & _).
  eapply means_fun; [exact Hv|]. apply (plain_wanted rho (flat_map bc_where hb ++ flat_map mc_where hm)); auto. rewrite List.concat_app. apply Forall_app; auto.
Qed.
Print Assumptions C20_select.
Theorem C20_update : forall rho p h vs tvs, let cs := List.concat (flat_map uc_where h) in let sets := flat_map uc_set h in
  qname (raw_table_name p) -> sets <> [] -> singles sets vs -> Forall (fun c => name c = true) (col_names sets) ->
  Forall (uc_usable rho) h -> cs <> [] -> Forall plain cs -> Forall2 (means rho) cs tvs ->
  exists u s ps up, calls u_call (update_ p) h = Ok u /\ u_build u = Ok (mkOut s ps None) /\ parse_update s = Some up /\
    eval rho ps (up_where up) = Some (fold_right and3 T tvs).
Proof.
  intros rho p h vs tvs cs sets Ht Hn Hs Hc Hu Hne Hp Ha.
  destruct (update_history rho p h vs Ht Hn Hs Hc Hu Hne) as (u & s & ws & c & e & v & E1 & E2 & E3 & W & _ & _ & Hv & He).
  eexists u, s, _, _. split; [exact E1|]. split; [exact E2|]. split; [exact E3|]. cbn [up_where]. rewrite He. f_equal.
  eapply means_fun; [exact Hv|]. apply (plain_wanted rho (flat_map uc_where h)); auto.
  apply concat_flat. eapply Forall_impl; [|exact Hu]. intros [x|y]; simpl; auto.
Qed.
Print Assumptions C20_update.
Theorem C20_delete : forall rho p css tvs, let cs := List.concat css in
  qname (raw_table_name p) -> Forall (usable rho) cs -> cs <> [] -> Forall plain cs -> Forall2 (means rho) cs tvs ->
  exists d s ps de, calls d_add_where (delete_ p) css = Ok d /\ d_build d = Ok (mkOut s ps None) /\ parse_delete s = Some de /\
    eval rho ps (de_where de) = Some (fold_right and3 T tvs).
Proof.
  intros rho p css tvs cs Ht Hu Hne Hp Ha.
  destruct (delete_history rho p css Ht) as (d & s & ws & c & e & v & E1 & E2 & E3 & W & _ & _ & Hv & He); auto.
  { now apply concat_Forall. }
  eexists d, s, _, _. split; [exact E1|]. split; [exact E2|]. split; [exact E3|]. cbn [de_where]. rewrite He. f_equal.
  eapply means_fun; [exact Hv|]. apply (plain_wanted rho css); auto.
Qed.
Print Assumptions C20_delete.
Definition neqc (f : string) (k : nat) : cond := CLeaf (mkLeaf KEq AND true (mkF f "" "") (VOther k)).
Example C20_example : let rho := table_row (fun c => if String.eqb c "a" then 1 else 2) in
  let css := [[eqc "a" 1; neqc "b" 2]; []; [eqc "c" 2]; [eqc "d" 1; eqc "e" 2]] in
  (do d <- calls d_add_where (delete_ (TPName "t")) css; d_build d) =
    Ok (mkOut "DELETE FROM t WHERE (a=$1 AND NOT b=$2 AND c=$3) AND (d=$4 AND e=$5)" [VOther 1; VOther 2; VOther 2; VOther 1; VOther 2] None) /\
  Forall plain (List.concat css) /\ Forall (usable rho) (List.concat css) /\ Forall2 (means rho) (List.concat css) [T; F; T; F; T].
Proof.
  cbv zeta. split; [vm_compute; reflexivity|]. split; [|split].
  - simpl. repeat apply Forall_cons; try apply Forall_nil; eexists; (split; [reflexivity|reflexivity]).
  - simpl. repeat apply Forall_cons; try apply Forall_nil; try by_usable.
    split; [apply (bt_not (eqc "b" 2)); [by_eqc|reflexivity]|]. split; [exact I|]. apply good_sound. intros l [<-|[]].
    split; [|eexists; reflexivity]. split; [reflexivity|]. split; left; reflexivity.
  - simpl. repeat apply Forall2_cons; try apply Forall2_nil; means_now.
Qed.

(** * C21 Where always narrows *)

(** Full statement (false): if q has conditions saying vq, c says vc, then q.Where(c)
    says and3 vq vc.  SelectFrom("t").Where(a.Or(b)).Where(c) gives
    "... WHERE a=$1 OR b=$2 AND c=$3", true on a row with a=1 whatever c is. *)
Theorem C21_refuted : exists rho (b0 b1 b2 : bsel) c d s1 s2 ps1 ps2 e1 e2 v2, built c /\ built d /\ no_empty c /\ no_empty d /\
  select_from (TPName "t") = Ok b0 /\ b_add_where b0 [c] = Ok b1 /\ b_add_where b1 [d] = Ok b2 /\
  b_build b1 = Ok (mkOut s1 ps1 None) /\ b_build b2 = Ok (mkOut s2 ps2 None) /\
  (exists x, parse_select s1 = Some x /\ s_where x = Some e1) /\ (exists x, parse_select s2 = Some x /\ s_where x = Some e2) /\
  eval rho ps1 e1 = Some T /\ means rho d v2 /\ v2 = F /\ eval rho ps2 e2 = Some T.
Proof.
  exists (table_row (fun c => if String.eqb c "a" then 1 else 0)).
  eexists _, _, _, (get (m_or (eqc "a" 1) [eqc "b" 1])), (eqc "c" 1), _, _, _, _, _, _, F.
  split. { apply (bt_or (eqc "a" 1) [eqc "b" 1]); [by_eqc|all_built|left; vm_compute; reflexivity]. }
  split; [by_eqc|]. split; [vm_compute; intuition discriminate|]. split; [exact I|].
  split; [vm_compute; reflexivity|]. split; [vm_compute; reflexivity|]. split; [vm_compute; reflexivity|].
  split; [vm_compute; reflexivity|]. split; [vm_compute; reflexivity|].
  split; [eexists; split; vm_compute; reflexivity|]. split; [eexists; split; vm_compute; reflexivity|].
  split; [vm_compute; reflexivity|]. split; [means_now|]. split; [reflexivity|vm_compute; reflexivity].
Qed.
Print Assumptions C21_refuted.
(** Proved part: when the arguments of all calls satisfy [where_ok] (the conditions of
    the first non-empty call have no OR outside brackets; a later single argument is a
    leaf, an OR group, or such a condition; see CondMeaning.v), every Where narrows by
    exactly the new conditions.  Missing: an OR group in the first call (refuted above),
    and negated groups. *)
Theorem C21_narrow_partial : forall rho css ds cq cq' vq vds, where_ok false (css ++ [ds]) ->
  Forall (usable rho) (List.concat css) -> Forall (usable rho) ds ->
  wanted css (Some cq) -> wanted (css ++ [ds]) (Some cq') -> means rho cq vq -> Forall2 (means rho) ds vds ->
  means rho cq' (fold_right and3 T (vq :: vds)).
Proof.
  intros rho css ds cq cq' vq vds Ho Hu Hd Hq Hq' Hm Hmd.
  assert (Ho1 : forall st a b, where_ok st (a ++ b) -> where_ok st a).
  { intros st a. revert st. induction a as [|x a IH]; intros st b H; simpl in *; [exact I|]. destruct H as [H1 H2]. split; [exact H1|]. eapply IH; eauto. }
  assert (Hv : exists vs, Forall2 (means rho) (List.concat css) vs).
  { clear -Hu. induction Hu as [|c l (H1 & H2 & H3) _ (vs & IH)]; [exists []; constructor|].
    exists (mean (leaf_val rho) c :: vs). constructor; [|exact IH]. apply means_mean; [now apply built_wf|exact H3]. }
  destruct Hv as (vs & Hvs).
  assert (Eq : vq = conj3 vs) by (eapply means_fun; [exact Hm|]; eapply wanted_conj; eauto).
  simpl. subst vq. change (fold_right and3 T vds) with (conj3 vds). rewrite <- conj3_app. eapply wanted_conj; [|exact Ho| |exact Hq'].
  - rewrite List.concat_app. simpl. rewrite app_nil_r. apply Forall_app; auto.
  - rewrite List.concat_app. simpl. rewrite app_nil_r. apply Forall2_app; auto.
Qed.
Print Assumptions C21_narrow_partial.
Example C21_example : let css := [[eqc "x" 1]; [sample_or]] in let ds := [sample; eqc "d" 1] in
  where_ok false (css ++ [ds]) /\ (forall rho, Forall (usable rho) (List.concat css)) /\
  exists cq cq', wanted css (Some cq) /\ wanted (css ++ [ds]) (Some cq') /\
    c_render cq 0 = Ok "x=$1 AND (b=$2 OR c NOT LIKE $3)" /\
    c_render cq' 0 = Ok "(x=$1 AND (b=$2 OR c NOT LIKE $3)) AND (t.a IN ($4,$5) AND (b=$6 OR c NOT LIKE $7) AND d=$8)".
Proof.
  cbv zeta. split; [|split].
  - simpl. split; [split; repeat constructor|]. split; [apply aa_or; [reflexivity|left; reflexivity]|]. split; [|exact I].
    constructor; [|constructor; [constructor|constructor]]. apply as_and; repeat constructor.
  - intros rho. simpl. constructor; [by_usable|constructor; [|constructor]].
    split; [exact sample_or_built|]. split; [vm_compute; intuition discriminate|].
    apply good_sound. intros l Hl. apply sample_leaves. right. exact Hl.
  - eexists _, _. split; [split; [discriminate|vm_compute; reflexivity]|]. split; [split; [discriminate|vm_compute; reflexivity]|].
    split; vm_compute; reflexivity.
Qed.

(** * C30 Pagination: the SelectMany builder *)

(** the clauses, numbered from k+1 *)
Fixpoint page_text (k : nat) (l : list (string * N)) : string :=
  match l with
  | [] => ""
  | (w, _) :: r => " " ++ w ++ " $" ++ itoa (k + 1) ++ page_text (k + 1) r
  end.
Lemma m_page_calls h : forall m m', calls m_call m h = Ok m' ->
  m_offset m' = last_of mc_offset (m_offset m) h /\ m_limit m' = last_of mc_limit (m_limit m) h.
Proof.
  induction h as [|c h IH]; intros m m' E; simpl in *; [injection E as <-; auto|].
  destruct (m_call m c) as [m1|] eqn:E1; [|discriminate]. destruct (IH _ _ E) as [-> ->].
  assert (m_offset m1 = opt (mc_offset c) (m_offset m) /\ m_limit m1 = opt (mc_limit c) (m_limit m)) as [-> ->]; [|split; reflexivity].
  destruct c; cbn [m_call] in E1; unfold m_add_where, m_join in E1; unbind; split; reflexivity.
Qed.
(** After any history of calls on any SelectMany builder: the statement is the one the
    same builder gives with no offset and limit, followed by exactly the requested
    clauses; their values follow the other parameters.  The last calls count. *)
Theorem C30_many : forall m0 hm m r, calls m_call m0 hm = Ok m -> b_build (m_base m) = Ok r ->
  let pg := page (last_of mc_offset (m_offset m0) hm) (Z.to_N (last_of mc_limit (m_limit m0) hm)) in
  exists body, m_build (m_set_limit (m_set_offset m 0) (-1)) = Ok (mkOut body (o_params r) None) /\
    m_build m = Ok (mkOut (body ++ page_text (length (o_params r)) pg) (o_params r ++ map (fun c => VUint (snd c)) pg) None).
Proof.
  intros m0 hm m r E Eb. destruct (m_page_calls hm m0 m E) as [Ho Hl]. rewrite <- Ho, <- Hl. cbv zeta.
  exists (o_sql r ++ order_clause (m_order m)). unfold m_build. cbn [m_base m_set_limit m_set_offset m_order m_offset m_limit].
  rewrite Eb. cbn [bind]. split; [reflexivity|]. unfold page. rewrite limit_pos.
  destruct (0 <? m_offset m)%N, (0 <? m_limit m)%Z; cbn [app page_text map snd]; unfold ok; rewrite ?app_length; cbn [length];
    rewrite ?app_assoc_s, ?app_nil_r, ?app_nil_r_s, <- ?app_assoc; reflexivity.
Qed.
Print Assumptions C30_many.
Example C30_many_example :
  let h := [MLimit 5; MOffset 7; MWhere [eqc "a" 1]; MLimit 10; MOrder [ord_asc "id"]] in
  (do b <- select_from (TPName "t"); do m <- calls m_call (many_of b) h; m_build m) =
  Ok (mkOut "SELECT * FROM t WHERE a=$1 ORDER BY id ASC OFFSET $2 LIMIT $3" [VOther 1; VUint 7; VUint 10] None) /\
  page (last_of mc_offset 0%N h) (Z.to_N (last_of mc_limit (-1)%Z h)) = [("OFFSET", 7%N); ("LIMIT", 10%N)].
Proof. split; vm_compute; reflexivity. Qed.

(** * C31 SelectSingle.Fields *)

(** Full statement (false): for every SelectSingle builder q, q.Fields(fs) has q's table,
    joins and WHERE.  SelectSingleFrom("t").Where(a=1).Fields("id") gives
    "SELECT id FROM  LIMIT 1" without parameters, which is not a statement. *)
Theorem C31_refuted : exists q fs o o', (do q <- select_single_from (TPName "t"); ss_add_where q [eqc "a" 1]) = Ok q /\
  ss_build q = Ok o /\ ss_build (ss_set_fields q fs) = Ok o' /\
  parse_select (o_sql o) <> None /\ parse_select (o_sql o') = None /\ o_params o = [VOther 1] /\ o_params o' = [].
Proof.
  eexists _, [mkF "id" "" ""], _, _. split; [vm_compute; reflexivity|]. split; [vm_compute; reflexivity|].
  split; [vm_compute; reflexivity|]. split; [vm_compute; discriminate|]. repeat split; vm_compute; reflexivity.
Qed.
Print Assumptions C31_refuted.
(** It fails for every builder: the result does not depend on the builder at all, has no
    WHERE, no joins and no table name. *)
Theorem C31_always_lost : forall q q' fs, ss_set_fields q fs = ss_set_fields q' fs /\
  ss_build (ss_set_fields q fs) = Ok (mkOut ("SELECT " ++ field_list fs ++ " FROM  LIMIT 1") [] None).
Proof.
  intros q q' fs. split; [reflexivity|]. unfold ss_build, ss_set_fields, b_build. cbn [ss_base b_where b_set_fields zero_bsel].
  cbn [g_cs zero_group nonempty bind ok o_sql o_params b_tokens b_joins map app].
  unfold b_tokens. cbn [b_fields b_table b_joins b_set_fields zero_bsel map app]. unfold join. cbn [String.concat].
  change (t_render {| t_name := ""; t_alias := "" |}) with "". change (op_string DoSelect) with "SELECT".
  rewrite !app_assoc_s. reflexivity.
Qed.
Print Assumptions C31_always_lost.
(** Proved part: Fields on a base select and on a SelectMany builder replaces the columns
    and nothing else. *)
Theorem C31_others_partial : forall rho b fs, names_ok b -> where_ready rho (b_where b) -> Forall wf_field fs ->
  exists s s' ps sel, b_build b = Ok (mkOut s ps None) /\ b_build (b_set_fields b fs) = Ok (mkOut s' ps None) /\
    parse_select s = Some sel /\
    parse_select s' = Some (mkSel (cols_item fs) (s_from sel) (s_joins sel) (s_where sel) (s_order sel) (s_offset sel) (s_limit sel)) /\
    forall m, m_base m = b -> Forall wf_sort (m_order m) ->
      exists sm sm' pm selm, m_build m = Ok (mkOut sm pm None) /\ m_build (m_set_fields m fs) = Ok (mkOut sm' pm None) /\
        parse_select sm = Some selm /\
        parse_select sm' = Some (mkSel (cols_item fs) (s_from selm) (s_joins selm) (s_where selm) (s_order selm) (s_offset selm) (s_limit selm)).
Proof.
  intros rho b fs Hn Hr Hf.
  assert (Hn' : names_ok (b_set_fields b fs)) by (destruct Hn as (_ & H2 & H3); split; [exact Hf|split; assumption]).
  destruct (base_build rho b Hn Hr) as (s & ps & w & we & E1 & E2 & E3 & E4).
  assert (SAME : exists s', b_build (b_set_fields b fs) = Ok (ok s' ps) /\ lex s' = (base_toks (b_set_fields b fs) ++ where_toks w)%list).
  { unfold b_build in *. cbn [b_where b_set_fields]. destruct (g_cs (b_where b)) as [|x xs] eqn:Eg; cbn [nonempty] in *.
    - destruct w as [w|]; [destruct we; [destruct E4; congruence|contradiction]|].
      unfold ok in E1. injection E1 as _ <-. eexists. split; [reflexivity|].
      rewrite <- (app_nil_r (b_tokens _)), lex_base by exact Hn'. reflexivity.
    - destruct we as [e|]; [|destruct E4; congruence]. destruct w as [w|]; [|contradiction].
      destruct (c_render (of_g (b_where b)) 0) as [ws|]; [|discriminate].
      destruct (c_values (of_g (b_where b))) as [vs|]; [|discriminate]. cbn [bind] in *.
      assert (Et : s = join " " (b_tokens b ++ ["WHERE"; ws])) by (unfold ok in E1; congruence).
      assert (Ep : ps = vs) by (unfold ok in E1; congruence). subst s ps. eexists. split; [reflexivity|].
      rewrite lex_base in E2 |- * by assumption. apply app_inv_head in E2. now rewrite E2. }
  destruct SAME as (s' & E1' & E2').
  exists s, s', ps. eexists. split; [exact E1|]. split; [exact E1'|]. split; [exact (base_parse _ _ _ _ Hn E2 E3)|].
  split; [exact (base_parse _ _ _ _ Hn' E2' E3)|]. intros m Hm Ho.
  destruct (many_build rho m) as (sm & pm & wm & M1 & M2 & (t & Mb & Mt) & M3); try (rewrite Hm; assumption); [exact Ho|].
  destruct (many_build rho (m_set_fields m fs)) as (sn & pn & wn & N1 & N2 & (t' & Nb & Nt) & N3).
  { cbn [m_base m_set_fields m_set_base]. now rewrite Hm. }
  { exact Ho. }
  { cbn [m_base m_set_fields m_set_base b_where b_set_fields]. now rewrite Hm. }
  cbn [m_base m_set_fields m_set_base] in *. rewrite Hm in *. rewrite E1 in Mb. rewrite E1' in Nb.
  injection Mb as <- <-. injection Nb as <- <-.
  pose proof (base_parse _ _ _ _ Hn E2 E3) as Q. rewrite Q in Mt. pose proof (base_parse _ _ _ _ Hn' E2' E3) as Q'. rewrite Q' in Nt.
  assert (wm = we) by (unfold base_sel in Mt; congruence). assert (wn = we) by (unfold base_sel in Nt; congruence). subst.
  exists sm, sn. eexists _, _. split; [exact M1|]. split; [exact N1|]. split; [exact M3|]. exact N3.
Qed.
Print Assumptions C31_others_partial.
Example C31_example : names_ok b_sample /\ (do o <- b_build (b_set_fields b_sample [mkF "id" "" ""]); Ok (o_sql o)) =
  Ok "SELECT id FROM users AS u LEFT JOIN orders AS o ON u.id=o.uid WHERE t.a IN ($1,$2) AND (b=$3 OR c NOT LIKE $4)" /\
  forall rho, where_ready rho (b_where b_sample).
Proof.
  assert (K : forall rho, names_ok b_sample /\ where_ready rho (b_where b_sample)).
  { intros rho. destruct (base_history rho _ _ hb0 (proj1 users_wf) (proj2 users_wf) (hb0_wf rho)) as (b0 & b & E0 & Eb & Gb & (_ & I2 & I3 & I4 & I5)).
    assert (E : b = b_sample). { unfold b_sample. rewrite E0. cbn [bind]. now rewrite Eb. } rewrite <- E.
    destruct (bcall_args rho hb0 (hb0_wf rho)) as (A1 & A2 & A3). split.
    - split; [now rewrite I3|]. split; [rewrite I2; apply users_wf|now rewrite I4].
    - eapply where_ready_calls; [exact A3|exact I5]. }
  split; [apply (K (table_row (fun _ => 0)))|]. split; [vm_compute; reflexivity|]. intros rho. apply K.
Qed.

(** * C32 RenderSQL and BuildQueryAndParams *)

(** Full statement (false): for all three kinds.  SelectMany and SelectSingle inherit
    RenderSQL and Values from the base select, so ORDER BY, OFFSET, LIMIT are missing. *)
Theorem C32_many_refuted : exists m s ps s' vs, (do b <- select_from (TPName "t"); Ok (m_set_limit (many_of b) 5)) = Ok m /\
  m_build m = Ok (mkOut s ps None) /\ m_render_sql m = Ok s' /\ m_values m = Ok vs /\ qmarks s <> s' /\ ps <> vs.
Proof.
  eexists _, _, _, _, _. split; [vm_compute; reflexivity|]. split; [vm_compute; reflexivity|].
  split; [vm_compute; reflexivity|]. split; [vm_compute; reflexivity|]. split; vm_compute; discriminate.
Qed.
Print Assumptions C32_many_refuted.
Theorem C32_single_always_missing_limit : forall q o s', ss_build q = Ok o -> ss_render_sql q = Ok s' ->
  base_lacks (ss_base q) -> ready (b_where (ss_base q)) -> qmarks (o_sql o) = s' ++ " LIMIT 1".
Proof.
  intros q o s' E E' Hl Hr. destruct (base_text (ss_base q) 0 Hl Hr) as (t & t' & vs & _ & E1 & _ & Eb & _ & Q).
  unfold ss_build in E. rewrite (Eb eq_refl) in E. cbn [bind ok o_sql o_params] in E.
  unfold ss_render_sql in E'. rewrite E1 in E'. injection E' as <-.
  assert (Eo : o_sql o = t ++ " LIMIT 1") by (unfold ok in E; injection E as <-; reflexivity).
  rewrite Eo, qmarks_app by reflexivity. now rewrite Q.
Qed.
Print Assumptions C32_single_always_missing_limit.
(** Proved part: base selects, in every state whose names contain no '$' and whose
    conditions obey the contract of C01.  Missing: the other two kinds, where it is false
    ([C32_single_always_missing_limit]: always, by exactly " LIMIT 1"). *)
Theorem C32_base_partial : forall b, base_lacks b -> ready (b_where b) ->
  exists s ps, b_build b = Ok (mkOut s ps None) /\ b_render_sql b = Ok (qmarks s) /\ b_values b = Ok ps /\ b_render b 0 = Ok s.
Proof.
  intros b Hl Hr. destruct (base_text b 0 Hl Hr) as (s & s' & vs & E1 & E2 & E3 & E4 & _ & Q).
  exists s, vs. rewrite Q. auto.
Qed.
Print Assumptions C32_base_partial.
Lemma lacks_by s : forallb (fun c => negb (c =? "$")%char) (chars s) = true -> lacks "$" s.
Proof. intros H Hin. rewrite forallb_forall in H. specialize (H _ Hin). discriminate. Qed.
Lemma def_lacks_by n t a : forallb (fun c => negb (c =? "$")%char) (chars n ++ chars t ++ chars a)%list = true -> def_lacks (mkF n t a).
Proof. rewrite !forallb_app, !andb_true_iff. intros (H1 & H2 & H3). repeat split; now apply lacks_by. Qed.
Lemma sample_written : written sample.
Proof. split; [exact sample_built|]. intros l Hl. now apply sample_leaves. Qed.
Lemma eqc_written f k : built (eqc f k) -> lacks "$" f -> written (eqc f k).
Proof.
  intros H Hl. split; [exact H|]. intros l [<-|[]]. exists [VOther k]. split; [reflexivity|]. split; [|reflexivity].
  split; [exact Hl|]. split; apply lacks_nil.
Qed.
Lemma b_sample_lacks : base_lacks b_sample.
Proof.
  change (Forall def_lacks [fld "u" "id" ""; fld "o" "total" "sum"] /\ table_lacks (mkT "users" "u") /\
    Forall join_lacks [mkJ (mkT "orders" "o") 1 (mkJC (fld "u" "id" "") (fld "o" "uid" ""))]).
  split; [constructor; [|constructor; [|constructor]]; apply def_lacks_by; reflexivity|].
  split; [split; apply lacks_by; reflexivity|]. constructor; [|constructor].
  split; [split; apply lacks_by; reflexivity|]. split; apply def_lacks_by; reflexivity.
Qed.
Lemma b_sample_ready : ready (b_where b_sample).
Proof.
  apply (ready_calls [[sample]]); [constructor; [apply sample_written|constructor]|]. vm_compute. reflexivity.
Qed.
Example C32_example : base_lacks b_sample /\ ready (b_where b_sample) /\ b_render_sql b_sample = Ok
  ("SELECT u.id, o.total AS sum FROM users AS u LEFT JOIN orders AS o ON u.id=o.uid " ++
   "WHERE t.a IN (?,?) AND (b=? OR c NOT LIKE ?)").
Proof. split; [exact b_sample_lacks|]. split; [exact b_sample_ready|]. vm_compute. reflexivity. Qed.

(** * C01 Placeholders of whole statements *)

(** In every state whose names contain no '$' and whose conditions obey the contract of
    C01, the placeholders of the statement are $1 ... $k for its k parameters. *)
Theorem C01_select : forall b, base_lacks b -> ready (b_where b) ->
  (exists s ps, b_build b = Ok (mkOut s ps None) /\ dollars s = seq 1 (length ps)) /\
  (forall m, m_base m = b -> Forall sort_lacks (m_order m) ->
     exists s ps, m_build m = Ok (mkOut s ps None) /\ dollars s = seq 1 (length ps)) /\
  (forall q, ss_base q = b -> exists s ps, ss_build q = Ok (mkOut s ps None) /\ dollars s = seq 1 (length ps)) /\
  (forall q, cs_base q = b -> def_lacks (cs_field q) ->
     exists s ps, cs_build q = Ok (mkOut s ps None) /\ dollars s = seq 1 (length ps)).
Proof.
  intros b Hl Hr. split; [|split; [|split]].
  - destruct (base_text b 0 Hl Hr) as (s & s' & vs & _ & _ & _ & E & D & _). exists s, vs. split; [now apply E|exact D].
  - intros m <- Ho. now apply many_text.
  - intros q <-. now apply single_text.
  - intros q <- Hf. now apply count_text.
Qed.
Print Assumptions C01_select.
(** the WHERE group after any chain of Where calls is one of those states *)
Theorem C01_where_states : forall p b0 hb b, select_from p = Ok b0 -> calls b_call b0 hb = Ok b ->
  Forall written (List.concat (flat_map bc_where hb)) -> ready (b_where b).
Proof.
  intros p b0 hb b E0 Eb Hw. destruct (select_from_is p b0 E0) as (t & _ & I0).
  destruct (b_calls_is hb b0 b t [] [] [] I0 Eb) as (_ & _ & _ & _ & I5). eapply ready_calls; [exact Hw|exact I5].
Qed.
Print Assumptions C01_where_states.
Example C01_select_example : base_lacks b_sample /\ ready (b_where b_sample) /\
  exists m o, m_sample = Ok m /\ m_build m = Ok o /\ dollars (o_sql o) = [1; 2; 3; 4; 5; 6; 7] /\ length (o_params o) = 7.
Proof.
  split; [exact b_sample_lacks|]. split; [exact b_sample_ready|]. eexists _, _. split; [vm_compute; reflexivity|].
  split; [vm_compute; reflexivity|]. split; vm_compute; reflexivity.
Qed.

(** * C45 Operation tags *)

Lemma zero_single fs : b_op (ss_base (ss_set_fields (single_of zero_bsel) fs)) = DoSelect.
Proof. reflexivity. Qed.
Lemma s_ops h : forall q q', b_op (ss_base q) = DoSelect -> calls s_call q h = Ok q' -> b_op (ss_base q') = DoSelect.
Proof.
  induction h as [|c h IH]; intros q q' Hq E; simpl in *; [now injection E as <-|].
  destruct (s_call q c) as [q1|] eqn:E1; [|discriminate]. apply (IH q1); auto.
  destruct c as [fs|cs|tn jt l r]; cbn [s_call] in E1; unfold ss_add_where, ss_join, b_add_where, b_join, b_on, b_join_open in E1; unbind; exact Hq || reflexivity.
Qed.
Lemma b_ops h : forall q q', b_op q = DoSelect -> calls b_call q h = Ok q' -> b_op q' = DoSelect.
Proof.
  induction h as [|c h IH]; intros q q' Hq E; simpl in *; [now injection E as <-|].
  destruct (b_call q c) as [q1|] eqn:E1; [|discriminate]. apply (IH q1); auto.
  destruct c as [fs|cs|tn jt l r]; cbn [b_call] in E1; unfold b_add_where, b_join, b_on, b_join_open in E1; unbind; exact Hq.
Qed.
Lemma m_ops h : forall q q', b_op (m_base q) = DoSelect -> calls m_call q h = Ok q' -> b_op (m_base q') = DoSelect.
Proof.
  induction h as [|c h IH]; intros q q' Hq E; simpl in *; [now injection E as <-|].
  destruct (m_call q c) as [q1|] eqn:E1; [|discriminate]. apply (IH q1); auto.
  destruct c as [fs|cs|tn jt l r|o|o|o]; cbn [m_call] in E1; unfold m_add_where, m_join, b_add_where, b_join, b_on, b_join_open in E1; unbind; exact Hq.
Qed.
Theorem C45_select : forall p b0 hb b, select_from p = Ok b0 -> calls b_call b0 hb = Ok b ->
  op_string (b_op b) = "SELECT" /\
  (forall hm m, calls m_call (many_of b) hm = Ok m -> op_string (b_op (m_base m)) = "SELECT" /\
     forall fs q, count (m_base m) fs = Ok q -> op_string (b_op (cs_base q)) = "SELECT") /\
  (forall hs q, calls s_call (single_of b) hs = Ok q -> op_string (b_op (ss_base q)) = "SELECT").
Proof.
  intros p b0 hb b E0 Eb. destruct (select_from_is p b0 E0) as (t & _ & I0).
  assert (Hb : b_op b = DoSelect) by (eapply b_ops; [apply I0|exact Eb]). rewrite Hb.
  split; [reflexivity|]. split.
  - intros hm m Em. assert (Hm : b_op (m_base m) = DoSelect) by (eapply m_ops; [|exact Em]; exact Hb). rewrite Hm.
    split; [reflexivity|]. intros fs q Eq. unfold count in Eq. unbind. cbn [cs_base]. now rewrite Hm.
  - intros hs q Eq. assert (Hq : b_op (ss_base q) = DoSelect) by (eapply s_ops; [|exact Eq]; exact Hb). now rewrite Hq.
Qed.
Print Assumptions C45_select.
(** the write builders, made directly or from a select *)
Theorem C45_write : forall p,
  (forall h i, calls i_call (insert_into p) h = Ok i -> op_string (i_op i) = "INSERT") /\
  (forall h u, calls u_call (update_ p) h = Ok u -> op_string (u_op u) = "UPDATE") /\
  (forall h d, calls d_add_where (delete_ p) h = Ok d -> op_string (d_op d) = "DELETE") /\
  (forall b vs u h u', b_update b vs = Ok u -> calls u_call u h = Ok u' -> op_string (u_op u') = "UPDATE") /\
  (forall b d h d', b_delete b = Ok d -> calls d_add_where d h = Ok d' -> op_string (d_op d') = "DELETE") /\
  (forall m vs u h u', m_update m vs = Ok u -> calls u_call u h = Ok u' -> op_string (u_op u') = "UPDATE") /\
  (forall m d h d', m_delete m = Ok d -> calls d_add_where d h = Ok d' -> op_string (d_op d') = "DELETE") /\
  (forall b vs h i, calls i_call (b_insert b vs) h = Ok i -> op_string (i_op i) = "INSERT").
Proof.
  intros p.
  assert (HU : forall h u u', u_op u = DoUpdate -> calls u_call u h = Ok u' -> op_string (u_op u') = "UPDATE").
  { induction h as [|c h IH]; intros u u' Hu E; simpl in *; [injection E as <-; now rewrite Hu|].
    destruct (u_call u c) as [u1|] eqn:E1; [|discriminate]. apply (IH u1); auto.
    destruct c; cbn [u_call] in E1; unfold u_add_where in E1; unbind; exact Hu. }
  assert (HD : forall h d d', d_op d = DoDelete -> calls d_add_where d h = Ok d' -> op_string (d_op d') = "DELETE").
  { induction h as [|c h IH]; intros u u' Hu E; simpl in *; [injection E as <-; now rewrite Hu|].
    destruct (d_add_where u c) as [u1|] eqn:E1; [|discriminate]. apply (IH u1); auto.
    unfold d_add_where in E1; unbind; exact Hu. }
  split; [|split; [|split; [|split; [|split; [|split; [|split]]]]]].
  - intros h i E. apply i_calls_is in E as (-> & _). reflexivity.
  - intros h u. apply HU. reflexivity.
  - intros h u. apply HD. reflexivity.
  - intros b vs u h u' E. apply HU. unfold b_update, u_add_where in E. unbind. reflexivity.
  - intros b d h d' E. apply HD. unfold b_delete, d_add_where in E. unbind. reflexivity.
  - intros b vs u h u' E. apply HU. unfold m_update, u_add_where in E. unbind. reflexivity.
  - intros b d h d' E. apply HD. unfold m_delete, d_add_where in E. unbind. reflexivity.
  - intros b vs h i E. apply i_calls_is in E as (-> & _). reflexivity.
Qed.
Print Assumptions C45_write.
Example C45_example : exists q, (do b <- select_from (TPName "t"); calls s_call (single_of b) (SFields [mkF "a" "" ""] :: hs0)) = Ok q /\
  op_string (b_op (ss_base q)) = "SELECT".
Proof. eexists. split; vm_compute; reflexivity. Qed.

(** * C46 Joins in call order *)

Definition join_call : Type := tident * Z * fdef * fdef.
Definition table_text (t : tident) : string :=
  if String.eqb (t_alias t) "" || String.eqb (t_alias t) (t_name t) then t_name t else t_name t ++ " AS " ++ t_alias t.
(** the text asked for by Join(t, type).On(l, r) *)
Definition join_text (c : join_call) : string := let '(t, jt, l, r) := c in
  " " ++ nth (Z.to_nat jt) ["INNER"; "LEFT"; "RIGHT"; "FULL"] "" ++ " JOIN " ++ table_text t ++ " ON " ++
  f_table l ++ "." ++ f_name l ++ "=" ++ f_table r ++ "." ++ f_name r.
Lemma table_text_eq t : t_render t = table_text t.
Proof.
  unfold t_render, table_text. rewrite empty_eqb. unfold str_eqb. destruct (is_empty (t_alias t)); [reflexivity|]. cbn [negb andb orb].
  now destruct (String.eqb (t_alias t) (t_name t)).
Qed.
Lemma join_text_eq t jt l r : (0 <= jt <= 3)%Z -> " " ++ j_render (mkJ t jt (mkJC l r)) = join_text (t, jt, l, r).
Proof.
  intros H. unfold j_render, jc_render, render_table_spec, join_text. cbn [j_right j_type j_cond jc_left jc_right].
  rewrite table_text_eq. unfold join. cbn [String.concat].
  assert (jt = 0 \/ jt = 1 \/ jt = 2 \/ jt = 3)%Z as [->|[->|[->| ->]]] by lia; cbn [Z.to_nat Pos.to_nat Pos.iter_op nth];
    simpl (jt_string _); rewrite ?app_assoc_s; reflexivity.
Qed.
Theorem C46_joins : forall (js : list join_call) b0, Forall (fun '(t, jt, l, r) => (0 <= jt <= 3)%Z) js ->
  exists b, calls (fun b '(t, jt, l, r) => b_join b t jt l r) b0 js = Ok b /\
    b_render_from b = b_render_from b0 ++ String.concat "" (map join_text js) /\
    b_table b = b_table b0 /\ b_fields b = b_fields b0 /\ b_where b = b_where b0 /\ b_op b = b_op b0.
Proof.
  intros js. induction js as [|[[[t jt] l] r] js IH]; intros b0 H; simpl.
  - exists b0. split; [reflexivity|]. rewrite app_nil_r_s. repeat split.
  - inversion H as [|? ? H1 H2]; subst. unfold b_join at 1, b_on, b_join_open. cbn [b_joins b_set_joins]. rewrite on_last_join. cbn [bind].
    set (b1 := b_set_joins _ _). destruct (IH b1 H2) as (b & E & F & R). exists b. split; [exact E|]. split; [|exact R].
    rewrite F. unfold b1, b_render_from. cbn [b_table b_joins b_set_joins]. rewrite map_app. cbn [map].
    rewrite app_comm_cons, join_snoc by discriminate.
    rewrite join_text_eq by exact H1. rewrite app_assoc_s. f_equal.
    destruct js; cbn [map String.concat]; [now rewrite app_nil_r_s|reflexivity].
Qed.
Print Assumptions C46_joins.
Example C46_example :
  (do b <- select_from (TPStr "users u"); do b <- calls (fun b '(t, jt, l, r) => b_join b t jt l r) b
     [(mkT "a" "", 1%Z, fld "u" "id" "", fld "a" "u" ""); (mkT "b" "x", 3%Z, fld "a" "id" "", fld "x" "a" "")]; Ok (b_render_from b)) =
  Ok "users AS u LEFT JOIN a ON u.id=a.u FULL JOIN b AS x ON a.id=x.a".
Proof. vm_compute. reflexivity. Qed.
(** the same in the statements: the joins stand between the table and the rest, which they leave as it was *)
Theorem C46_statement : forall (js : list join_call) b0 s ps, Forall (fun '(t, jt, l, r) => (0 <= jt <= 3)%Z) js -> b_joins b0 = [] ->
  b_build b0 = Ok (mkOut s ps None) ->
  exists b pre post, calls (fun b '(t, jt, l, r) => b_join b t jt l r) b0 js = Ok b /\
    s = pre ++ " FROM " ++ table_text (b_table b0) ++ post /\ (post = "" \/ exists w, post = " WHERE " ++ w) /\
    b_build b = Ok (mkOut (pre ++ " FROM " ++ table_text (b_table b0) ++ String.concat "" (map join_text js) ++ post) ps None).
Proof.
  intros js b0 s ps Hj H0 E. destruct (C46_joins js b0 Hj) as (b & Eb & Er & Et & Ef & Ew & _).
  assert (Tk : forall x, join " " (b_tokens x) = (op_string DoSelect ++ " " ++ field_list (b_fields x)) ++ " FROM " ++ b_render_from x).
  { intros x. unfold b_tokens, b_render_from. cbn [app]. change (join " " (op_string DoSelect :: field_list (b_fields x) :: "FROM" :: t_render (b_table x) :: map j_render (b_joins x)))
      with (op_string DoSelect ++ " " ++ field_list (b_fields x) ++ " " ++ "FROM" ++ " " ++ join " " (t_render (b_table x) :: map j_render (b_joins x))).
    rewrite !app_assoc_s. reflexivity. }
  assert (R0 : b_render_from b0 = table_text (b_table b0)) by (unfold b_render_from; rewrite H0; cbn; apply table_text_eq).
  exists b. unfold b_build in *. rewrite Ew.
  destruct (nonempty (g_cs (b_where b0))).
  - apply bind_Ok in E as (w & Ec & E). apply bind_Ok in E as (vs & Ev & E). rewrite Ec, Ev. cbn [bind].
    assert (E' : ok (join " " (b_tokens b0 ++ ["WHERE"; w])%list) vs = mkOut s ps None) by congruence.
    pose proof (f_equal o_sql E') as E1. pose proof (f_equal o_params E') as E2. cbn [ok o_sql o_params] in E1, E2. subst s ps. clear E E'.
    exists (op_string DoSelect ++ " " ++ field_list (b_fields b0)), (" WHERE " ++ w). split; [exact Eb|].
    assert (J : forall x, join " " (b_tokens x ++ ["WHERE"; w])%list = join " " (b_tokens x) ++ " WHERE " ++ w).
    { intros x. change ["WHERE"; w] with (["WHERE"] ++ [w])%list. rewrite app_assoc, !join_snoc by (unfold b_tokens; destruct (map j_render (b_joins x)); discriminate).
      rewrite !app_assoc_s. reflexivity. }
    split; [rewrite J, Tk, R0, !app_assoc_s; reflexivity|]. split; [right; now exists w|].
    unfold ok. rewrite J, Tk, Er, R0, Ef, !app_assoc_s. reflexivity.
  - assert (E' : ok (join " " (b_tokens b0)) [] = mkOut s ps None) by congruence.
    pose proof (f_equal o_sql E') as E1. pose proof (f_equal o_params E') as E2. cbn [ok o_sql o_params] in E1, E2. subst s ps. clear E E'.
    exists (op_string DoSelect ++ " " ++ field_list (b_fields b0)), "". split; [exact Eb|].
    split; [rewrite Tk, R0, app_nil_r_s; reflexivity|]. split; [now left|]. unfold ok. rewrite Tk, Er, R0, Ef, app_nil_r_s. reflexivity.
Qed.
Print Assumptions C46_statement.
Example C46_statement_example :
  (do b <- select_from (TPStr "users u"); do b <- b_add_where b [eqc "d" 7]; b_build b) = Ok (mkOut "SELECT * FROM users AS u WHERE d=$1" [VOther 7] None) /\
  (do b <- select_from (TPStr "users u"); do b <- b_add_where b [eqc "d" 7];
   do b <- calls (fun b '(t, jt, l, r) => b_join b t jt l r) b [(mkT "a" "", 1%Z, fld "u" "id" "", fld "a" "u" "")]; b_build b) =
    Ok (mkOut "SELECT * FROM users AS u LEFT JOIN a ON u.id=a.u WHERE d=$1" [VOther 7] None).
Proof. split; vm_compute; reflexivity. Qed.
(** The types outside the four constants render "unknown JOIN(n)", see jt_string. *)
