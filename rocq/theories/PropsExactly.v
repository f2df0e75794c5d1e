(** Exact conditions for properties that hold for some inputs only. *)
From Coq Require Import String Ascii List Bool Arith NArith ZArith Lia Permutation.
From Verif Require Import GoStr Value Names Cond Build Surface SqlSpec Spec StrFacts SqlFacts CondFacts CondText CondSem
  TreeFacts CondLogic CondMeaning Built CondThms PropsCond NameFacts PropsNames StmtFacts Calls BuildFacts BuildThms StmtText PropsSelect
  PropsSurface PropsOrder PropsMore.
Import ListNotations.
Local Open Scope string_scope.
Local Open Scope nat_scope.

(** * C02: the placeholders of a whole condition *)

(** the numbers written for the leaves, after [n] parameters, and the number of their parameters *)
Inductive marked : nat -> list leaf -> list nat -> nat -> Prop :=
| mk_nil n : marked n [] [] 0
| mk_cons n l vs ls ds k : leaf_values l = Ok vs -> marked (n + length vs) ls ds k ->
    marked n (l :: ls) ((if is_cmp (l_kind l) then [n + 1] else seq (n + 1) (length vs)) ++ ds)%list (length vs + k).

Lemma marked_app n ls ds k ls' ds' k' : marked n ls ds k -> marked (n + k) ls' ds' k' ->
  marked n (ls ++ ls')%list (ds ++ ds')%list (k + k').
Proof.
  intros H. revert ls' ds' k'. induction H as [n|n l vs ls ds k Hv H IH]; intros ls' ds' k' H'; simpl.
  - now rewrite Nat.add_0_r in H'.
  - rewrite <- app_assoc, <- Nat.add_assoc. constructor; [exact Hv|]. apply IH. now rewrite <- Nat.add_assoc.
Qed.

Lemma leaf_marks l vs n : (forall cu, l_kind l <> KCustom cu) -> def_lacks (l_def l) -> leaf_values l = Ok vs ->
  exists s, leaf_render l n = Ok s /\ dollars s = if is_cmp (l_kind l) then [n + 1] else seq (n + 1) (length vs).
Proof.
  intros Hk Hd Hv. destruct (is_cmp (l_kind l)) eqn:Ec.
  - destruct (leaf_dollars (mkLeaf (l_kind l) (l_join l) (l_neg l) (l_def l) (VOther 0)) n) as (s & _ & vs' & Ev & Es & _ & Ds & _).
    { exists [VOther 0]. unfold leaf_values. cbn [l_kind l_val l_def]. destruct (l_kind l); try discriminate Ec; auto. }
    exists s. split.
    + rewrite <- Es. unfold leaf_render. cbn [l_kind]. destruct (l_kind l); try discriminate Ec; reflexivity.
    + rewrite Ds. replace vs' with [VOther 0]; [reflexivity|]. revert Ev. unfold leaf_values. cbn [l_kind l_val].
      destruct (l_kind l); try discriminate Ec; simpl; congruence.
  - destruct (leaf_count l vs Hk Hd Hv n) as (s & Es & H). exists s. split; [exact Es|]. apply H. congruence.
Qed.

Definition marks_ok (c : cond) : Prop := forall n, exists s vs,
  c_values c = Ok vs /\ c_render c n = Ok s /\ marked n (leaves c) (dollars s) (length vs).

Lemma list_marks cs : Forall marks_ok cs -> Forall joins_ok cs -> forall first n,
  exists s vss, mapM c_values cs = Ok vss /\ render_list first cs n = Ok s /\
    marked n (flat_map leaves cs) (dollars s) (length (List.concat vss)) /\ (first = false -> head_space s).
Proof.
  induction 1 as [|c cs Hc Hcs IH]; intros Hj first n.
  - exists "", []. repeat split; auto; [constructor|]. now left.
  - inversion Hj as [|? ? Hj1 Hj2]; subst. destruct (joins_ok_jtype _ Hj1) as (j & Ej & Hjn & Hjl).
    destruct (Hc n) as (s & vs & Ev & Es & Ms).
    destruct (IH Hj2 false (n + length vs)) as (r & vss & Evs & Er & Mr & Hr).
    exists (join_token first j ++ s ++ r), (vs :: vss).
    cbn [mapM render_list]. rewrite Ev, Ej, Es, Evs. cbn [bind]. rewrite Er. cbn [bind].
    destruct (join_token_props first j Hjn Hjl) as [L1 L2].
    split; [reflexivity|]. split; [reflexivity|]. split.
    + rewrite dollars_lacks, dollars_app by (auto using head_space_nd). cbn [flat_map List.concat]. rewrite app_length.
      now apply marked_app.
    + intros ->. destruct (L2 eq_refl) as (x & ->). right. simpl. eauto.
Qed.

Lemma tree_marks c : joins_ok c ->
  (forall l, In l (leaves c) -> (forall cu, l_kind l <> KCustom cu) /\ def_lacks (l_def l) /\ exists vs, leaf_values l = Ok vs) ->
  marks_ok c.
Proof.
  induction c as [|l|j ng cs br IH] using cond_ind'; intros Hj Hl n.
  - inversion Hj.
  - destruct (Hl l (or_introl eq_refl)) as (Hk & Hd & vs & Ev). destruct (leaf_marks l vs n Hk Hd Ev) as (s & Es & Ds).
    exists s, vs. split; [exact Ev|]. split; [exact Es|]. rewrite Ds. simpl leaves.
    pose proof (mk_cons n l vs [] [] 0 Ev (mk_nil _)) as M. now rewrite app_nil_r, Nat.add_0_r in M.
  - inversion Hj as [|? ? ? ? Hj1 Hj2 Hj3]; subst. rewrite c_values_grp, c_render_grp.
    assert (HT : Forall marks_ok cs).
    { rewrite Forall_forall in *. intros c Hc. apply IH; auto. intros l Hll. apply Hl. simpl. apply in_flat_map. eauto. }
    destruct cs as [|c cs].
    { exists "", []. repeat split. constructor. }
    destruct (list_marks _ HT Hj3 true n) as (s & vss & Evs & Er & Mr & _).
    rewrite Evs, Er; cbn [bind]. eexists _, _. split; [reflexivity|]. split; [reflexivity|]. rewrite wrap_dollars. exact Mr.
Qed.

(** the first number is the first free one; without numbers there are no parameters *)
Lemma marked_head n ls ds k : marked n ls ds k -> match ds with [] => k = 0 | d :: _ => d = n + 1 end.
Proof.
  induction 1 as [n|n l vs ls ds k Hv H IH]; [reflexivity|]. destruct (is_cmp (l_kind l)); [reflexivity|].
  destruct vs as [|v vs]; [|reflexivity]. simpl in *. now rewrite Nat.add_0_r in IH.
Qed.
Lemma marked_exactly n ls ds k : marked n ls ds k ->
  (ds = seq (n + 1) k <-> forall l, In l ls -> is_cmp (l_kind l) = true -> exists v, leaf_values l = Ok [v]).
Proof.
  induction 1 as [n|n l vs ls ds k Hv H IH]; [split; [intros _ l []|reflexivity]|].
  assert (E1 : length vs = 1 <-> exists v, leaf_values l = Ok [v]).
  { rewrite Hv. split; [|intros (v & [= ->]); reflexivity]. destruct vs as [|v [|? ?]]; try discriminate. eauto. }
  split.
  - intros E. destruct (is_cmp (l_kind l)) eqn:Ec.
    + assert (L : length vs = 1).
      { destruct (length vs) as [|[|m]] eqn:Lv; [exfalso|reflexivity|exfalso].
        - rewrite Nat.add_0_r in *. simpl in E. pose proof (marked_head _ _ _ _ H) as M.
          destruct k as [|k]; [discriminate|]. simpl in E. injection E as E. subst ds.
          destruct k as [|k]; simpl in M; [discriminate|lia].
        - pose proof (marked_head _ _ _ _ H) as M. simpl in E. injection E as E. subst ds. lia. }
      rewrite L in *. simpl in E. injection E as E. replace (S (n + 1)) with (n + 1 + 1) in E by lia.
      rewrite IH in E. intros l' [<-|Hi] Hc; [now apply E1|now apply E].
    + rewrite seq_app in E. apply app_inv_head in E. replace (n + 1 + length vs) with (n + length vs + 1) in E by lia.
      rewrite IH in E. intros l' [<-|Hi] Hc; [congruence|now apply E].
  - intros A. rewrite seq_app. replace (n + 1 + length vs) with (n + length vs + 1) by lia.
    rewrite <- (proj2 IH) by (intros l' Hi; apply A; now right). f_equal.
    destruct (is_cmp (l_kind l)) eqn:Ec; [|reflexivity].
    apply (proj2 E1) in A; [|now left|exact Ec]. now rewrite A.
Qed.

(** For every condition of the library with convertible values: the numbers are those of the parameters exactly if every
    comparison has one value. *)
Theorem C02_exactly : forall c n, built c ->
  (forall l, In l (leaves c) -> (forall cu, l_kind l <> KCustom cu) /\ def_lacks (l_def l) /\ exists vs, leaf_args l = Some vs) ->
  exists s vs, c_render c n = Ok s /\ c_values c = Ok vs /\
    (dollars s = seq (n + 1) (length vs) <->
     forall l, In l (leaves c) -> In (l_kind l) [KEq; KGt; KGe; KLt; KLe] -> exists v, leaf_args l = Some [v]).
Proof.
  intros c n Hb Hl. destruct (tree_marks c (built_joins c Hb)) with (n := n) as (s & vs & Ev & Es & M).
  { intros l Hi. destruct (Hl l Hi) as (Hk & Hd & vs & Ea). repeat (split; [assumption|]). exists vs. now apply leaf_args_ok. }
  exists s, vs. split; [exact Es|]. split; [exact Ev|]. rewrite (marked_exactly _ _ _ _ M).
  split; intros A l Hi Hc; (assert (Hl' := Hl l Hi); destruct Hl' as (Hk & _ & ws & Ea)); pose proof (leaf_args_ok l ws Ea) as Ew.
  - destruct (A l Hi) as (v & Ev'). { simpl in Hc. destruct (l_kind l); try reflexivity; intuition discriminate. }
    exists v. rewrite Ev' in Ew. congruence.
  - destruct (A l Hi) as (v & Ev'). { destruct (l_kind l); try discriminate Hc; simpl; auto 8. }
    exists v. now apply leaf_args_ok.
Qed.
Print Assumptions C02_exactly.
(** both sides occur *)
Definition two_values : cond := Eval vm_compute in
  get (m_and (CLeaf (mkLeaf KGt AND false (mkF "f" "" "") (VStrs ["x"; "y"]))) [eqc "b" 1]).
Lemma two_values_built : built two_values.
Proof.
  apply (bt_and (CLeaf (mkLeaf KGt AND false (mkF "f" "" "") (VStrs ["x"; "y"]))) [eqc "b" 1]).
  - apply (bt_lib KGt "f" (VStrs ["x"; "y"])). reflexivity.
  - intros d [<-|[]]. by_eqc.
  - left. reflexivity.
Qed.
Example C02_exactly_example :
  (forall l, In l (leaves sample ++ leaves two_values)%list -> (forall cu, l_kind l <> KCustom cu) /\ def_lacks (l_def l) /\ exists vs, leaf_args l = Some vs) /\
  (forall l, In l (leaves sample) -> In (l_kind l) [KEq; KGt; KGe; KLt; KLe] -> exists v, leaf_args l = Some [v]) /\
  c_render two_values 0 = Ok "f>$1 AND b=$3" /\ c_values two_values = Ok [VStr "x"; VStr "y"; VOther 1].
Proof.
  split; [|split; [|split; reflexivity]].
  - intros l Hl. apply in_app_or in Hl as [Hl|Hl]; simpl in Hl; [destruct Hl as [<-|[<-|[<-|[]]]] | destruct Hl as [<-|[<-|[]]]];
    (split; [discriminate|split; [repeat split; unfold lacks; vm_compute; intuition discriminate|eexists; reflexivity]]).
  - intros l Hl Hk. simpl in Hl. destruct Hl as [<-|[<-|[<-|[]]]]; simpl in Hk; [intuition discriminate|eexists; reflexivity|eexists; reflexivity].
Qed.

(** * C34: In binds the elements of every list but a plain slice *)

Fixpoint depth (v : gval) : nat := match v with VSlice (x :: _) => S (depth x) | _ => 0 end.
Lemma not_own_element l : l <> [VSlice l].
Proof. intros E. apply (f_equal (fun l => depth (VSlice l))) in E. cbn [depth] in E. lia. Qed.

(** The elements are bound exactly if the list is not a plain slice, and there is a placeholder for each element exactly
    if it is none or has one element. *)
Theorem C34_exactly : forall fn v es c n, elements v = Some es -> in_ fn v = Ok c ->
  exists s vs col k, c_render c n = Ok s /\ c_values c = Ok vs /\
    s = col ++ " IN (" ++ String.concat "," (map (fun i => "$" ++ itoa i) (seq (n + 1) k)) ++ ")" /\
    (vs = es <-> forall l, v <> VSlice l) /\ (k = length es <-> (forall l, v <> VSlice l) \/ length es = 1).
Proof.
  intros fn v es c n He Hc.
  assert (exists vs, fv_values v = Ok vs /\ (vs = es <-> forall l, v <> VSlice l) /\ (length vs = length es <-> (forall l, v <> VSlice l) \/ length es = 1)) as (vs & Ev & A & B).
  { destruct v as [|?|?|?|l|?|?|?|?|?|?]; try discriminate He.
    all: try (eexists; split; [eapply elements_values; [exact He|discriminate]|]; split; [split; [discriminate|reflexivity]|split; [left; discriminate|reflexivity]]).
    injection He as ->. exists [VSlice es]. split; [reflexivity|]. split; split.
    - intros E. symmetry in E. now destruct (not_own_element es).
    - intros E. now destruct (E es).
    - simpl. intros E. now right.
    - intros [E|E]; [now destruct (E es)|now rewrite E]. }
  destruct (in_texts fn v _ vs Hc Ev n) as (s & s' & col & Es & _ & Evs & Ts & _).
  exists s, vs, col, (length vs). auto.
Qed.
Print Assumptions C34_exactly.
Example C34_exactly_example :
  (do c <- in_ "t.f" (VSlice [VOther 1; VOther 2]); c_render c 0) = Ok "t.f IN ($1)" /\
  (do c <- in_ "t.f" (VStrs ["x"; "y"]); c_render c 0) = Ok "t.f IN ($1,$2)" /\
  elements (VSlice [VOther 1; VOther 2]) = Some [VOther 1; VOther 2].
Proof. repeat split. Qed.

(** * C35: which conversion errors are reported *)

(** Only slices of a type implementing driver.Valuer report them; a []driver.Valuer panics only for a nil or panicking
    element. *)
Theorem C35_exactly : forall v, conversion_fails v ->
  (fv_values v = Panic <->
   (exists l, v = VValuerSlice l) \/ (exists l, v = VValuers l /\ (In None l \/ In (Some OPanic) l))).
Proof.
  intros v H. split.
  - intros E. inversion H as [x p|x l Hi|x l Hi]; subst; [discriminate E| |left; eauto]. right. exists l. split; [reflexivity|].
    simpl in E. clear H Hi. induction l as [|o l IH]; [discriminate|]. simpl in E.
    destruct o as [[y f|]|]; simpl in E; [|right; now left|left; now left].
    destruct (mapM valuer_value l) as [ys|]; [discriminate|]. destruct (IH eq_refl) as [A|A]; [left|right]; now right.
  - intros [(l & ->)|(l & -> & A)].
    + now apply C35_reported_partial.
    + simpl. clear H. induction l as [|o l IH]; [destruct A as [[]|[]]|]. simpl.
      assert (A' : o = None \/ o = Some OPanic \/ (In None l \/ In (Some OPanic) l)) by (simpl in A; intuition auto).
      destruct A' as [->|[->|A']]; try reflexivity. rewrite (IH A'). destruct (valuer_value o); reflexivity.
Qed.
Print Assumptions C35_exactly.
Example C35_exactly_example :
  conversion_fails (VValuers [Some (ORet VNil true); None]) /\ fv_values (VValuers [Some (ORet VNil true); None]) = Panic /\
  conversion_fails (VValuers [Some (ORet VNil true)]) /\ fv_values (VValuers [Some (ORet VNil true)]) = Ok [VNil].
Proof. repeat split; econstructor; now left. Qed.

(** * C36: which maps give their values *)

Lemma spaceless_space x : spaceless x -> lacks " " x.
Proof.
  intros Hx Hin. apply in_split in Hin as (a & b & Eab). apply (Hx (string_of_list_ascii a) " " (string_of_list_ascii b)).
  - vm_compute. tauto.
  - rewrite <- (string_of_list_ascii_of_string x). unfold chars in Eab. rewrite Eab.
    clear. induction a as [|c a IH]; simpl; [reflexivity|now rewrite IH].
Qed.
(** A field of a name without blanks that writes that name has no white space in it. *)
Lemma written_spaceless k d : field k = Ok d -> lacks " " (render_spec d) -> spaceless (render_spec d).
Proof.
  intros E L. unfold field, field_p, field_or_error in E. destruct (parse_field k) as [d'|] eqn:P; [|discriminate].
  injection E as ->. apply parse_field_iff in P as (q & Hq & HT).
  assert (Sq : spaceless q) by (destruct HT as [[_ HT]|(w & _ & HT)]; apply toks_tokens in HT; inversion HT; tauto).
  destruct (splits_spaceless _ _ _ Hq Sq) as (St & Sn & Stn). revert L. unfold render_spec, GoStr.join.
  assert (B : forall a b, ~ lacks " " (a ++ " AS " ++ b)).
  { intros a b H. apply lacks_app in H as [_ H]. apply H. now left. }
  destruct (is_empty (f_table d)); cbn [app].
  - destruct (negb (is_empty (f_alias d)) && _); cbn [String.concat app append].
    { intros H. now destruct (B (f_name d) (f_alias d)). }
    destruct (_ && _); cbn [String.concat app append]; [intros H; now destruct (B (f_name d) (f_alias d))|intros _; exact Sn].
  - assert (B2 : ~ lacks " " ((f_table d ++ ".") ++ f_name d ++ " AS " ++ f_alias d)).
    { rewrite <- app_assoc_s. apply B. }
    destruct (negb (is_empty (f_alias d)) && _); cbn [String.concat app append].
    { intros H. now destruct B2. }
    destruct (_ && _); cbn [String.concat app append]; [intros H; now destruct B2|intros _]. rewrite app_assoc_s. exact Stn.
Qed.
Lemma map_values_inv m l : map_field_values m = Ok (Some l) ->
  Forall2 (fun kv fv => validate (fst kv) = None /\ field (fst kv) = Ok (fv_def fv)) m l.
Proof.
  revert l. induction m as [|[k v] m IH]; intros l E; simpl in E; [injection E as <-; constructor|].
  destruct (validate k) eqn:Ev; [discriminate|]. unfold new_field_value in E. destruct (field k) as [d|] eqn:Ed; [|discriminate].
  cbn [bind] in E. destruct (map_field_values m) as [[r|]|]; cbn [bind] in E; try discriminate. injection E as <-.
  constructor; auto.
Qed.

(** For every map and every order of iteration: one field per key, written like the key and with its value, exactly if every
    key obeys the documented rules and has no white space. *)
Theorem C36_exactly : forall m order, Permutation m order ->
  ((exists l, map_field_values order = Ok (Some l) /\
      Forall2 (fun kv fv => render_spec (fv_def fv) = fst kv /\ fv_val fv = snd kv) order l) <->
   Forall (fun kv => documented_name (fst kv) /\ spaceless (fst kv)) m).
Proof.
  intros m order HP. split.
  - intros (l & E & F). apply map_values_inv in E.
    assert (A : Forall (fun kv => documented_name (fst kv) /\ spaceless (fst kv)) order).
    { clear m HP. induction E as [|kv fv m l [Hv Hf] E IH]; [constructor|]. inversion F as [|? ? ? ? [Hw _] F']; subst.
      apply validate_iff in Hv. constructor; auto. split; [exact Hv|]. rewrite <- Hw. apply (written_spaceless (fst kv)); [exact Hf|].
      rewrite Hw. destruct Hv as (_ & _ & _ & Hb & _). exact Hb. }
    rewrite Forall_forall in *. intros kv Hi. apply A. now apply (Permutation_in _ HP).
  - intros H. destruct (map_valid order) as (l & E & F); [|eauto].
    rewrite Forall_forall in *. intros kv Hi. destruct (H kv) as [A B].
    + apply Permutation_in with order; [now symmetry|exact Hi].
    + split; [now apply validate_iff|exact B].
Qed.
Print Assumptions C36_exactly.
(** a tab before the name: a field is made, under another name; inside: panic; a blank: error *)
Example C36_exactly_example :
  (exists d, map_field_values [(tab ++ "a", VOther 1)] = Ok (Some [mkFV d (VOther 1)]) /\ render_spec d = "a") /\
  map_field_values [("a" ++ tab ++ "b", VOther 1)] = Panic /\ map_field_values [("a b", VOther 1)] = Ok None.
Proof. split; [eexists; split; reflexivity|split; reflexivity]. Qed.

(** * C49: which qualified names are valid *)

Theorem C49_exactly : forall s d, field s = Ok d ->
  (validate (table_field_name d) = None <->
   f_table d <> "" /\ f_name d <> "" /\ (forall c, c = "'"%char \/ c = """"%char -> lacks c (f_table d) /\ lacks c (f_name d))).
Proof.
  intros s d Hs. split.
  - intros H. apply validate_iff in H as (_ & H1 & H2 & _ & _ & H3 & H4). unfold table_field_name, render_table_spec in *.
    split; [intros E; rewrite E in H3; now destruct (H3 (f_name d))|].
    split; [intros E; rewrite E in H4; destruct (H4 (f_table d)); reflexivity|].
    apply lacks_app in H1 as [A1 B1]. apply lacks_app in B1 as [_ B1].
    apply lacks_app in H2 as [A2 B2]. apply lacks_app in B2 as [_ B2].
    intros c [-> | ->]; auto.
  - intros (Ht & Hn & Hq). destruct (C49_round_trip_partial s d Hs Hn) as [_ H].
    destruct (Hq "'"%char (or_introl eq_refl)), (Hq """"%char (or_intror eq_refl)).
    apply H; [exact Ht| |]; apply lacks_app; auto.
Qed.
Print Assumptions C49_exactly.
Example C49_exactly_example :
  (exists d, field "u.id as x" = Ok d /\ validate (table_field_name d) = None) /\
  (exists d, field "u." = Ok d /\ f_name d = "" /\ validate (table_field_name d) <> None) /\
  (exists d, field "u.i'd" = Ok d /\ f_table d <> "" /\ validate (table_field_name d) <> None).
Proof. repeat split; eexists; repeat split; discriminate. Qed.

(** * C52: when Many() of a SelectMany builder keeps the statement *)

Theorem C52_exactly : forall rho m, names_ok (m_base m) -> Forall wf_sort (m_order m) -> where_ready rho (b_where (m_base m)) ->
  exists s ps s' ps' sel sel', m_build m = Ok (mkOut s ps None) /\ m_build (m_many m) = Ok (mkOut s' ps' None) /\
    parse_select s = Some sel /\ parse_select s' = Some sel' /\
    (sel = sel' <-> m_order m = [] /\ m_offset m = 0%N /\ (m_limit m <= 0)%Z) /\ (sel = sel' <-> s = s').
Proof.
  intros rho m Hn Ho Hr. destruct (many_build rho m Hn Ho Hr) as (s & ps & we & E & _ & (t & Et & Pt) & P).
  destruct (many_build rho (m_many m) Hn (Forall_nil _) Hr) as (s1 & p1 & w1 & E1 & _ & (t1 & Et1 & Pt1) & P1).
  cbn [m_base m_many b_many many_of m_order m_offset m_limit] in *.
  destruct (base_unique _ _ _ _ _ _ _ Et Et1 Pt Pt1) as (-> & -> & ->).
  do 6 eexists. split; [exact E|]. split; [exact E1|]. split; [exact P|]. split; [exact P1|].
  assert (A : forall x y, mkSel (cols_item (b_fields (m_base m))) (table_item (b_table (m_base m))) (map join_item (b_joins (m_base m))) we
      (map sort_item (m_order m)) x y =
      mkSel (cols_item (b_fields (m_base m))) (table_item (b_table (m_base m))) (map join_item (b_joins (m_base m))) we
      [] None None <-> m_order m = [] /\ x = None /\ y = None).
  { intros x y. split; [|now intros (-> & -> & ->)]. intros H. injection H as H1 H2 H3. repeat split; auto. now destruct (m_order m). }
  assert (B : off_bound m (length ps) = None <-> m_offset m = 0%N).
  { unfold off_bound. destruct (N.ltb_spec 0 (m_offset m)); split; intros; try discriminate; lia || reflexivity. }
  assert (C : lim_bound m (length ps) = None <-> (m_limit m <= 0)%Z).
  { unfold lim_bound. destruct (Z.ltb_spec 0 (m_limit m)); split; intros; try discriminate; lia || reflexivity. }
  split; [rewrite <- B, <- C; apply A|]. split.
  - intros H. apply A in H as (H1 & H2 & H3). unfold m_build in E, E1. cbn [m_base m_many b_many many_of m_order m_offset m_limit] in E1.
    rewrite H1 in E. rewrite Et in E, E1. apply B in H2. apply C in H3. rewrite H2 in E.
    replace (0 <? m_limit m)%Z with false in E by (symmetry; apply Z.ltb_ge; exact H3).
    cbn [bind] in E, E1. simpl in E, E1. rewrite E in E1. unfold ok in E1. congruence.
  - intros ->. rewrite P in P1. congruence.
Qed.
Print Assumptions C52_exactly.
Example C52_exactly_example : exists m m',
  (do b <- select_from (TPStr "t"); calls m_call (many_of b) [MLimit 0; MOffset 0]) = Ok m /\
  m_order m = [] /\ m_offset m = 0%N /\ (m_limit m <= 0)%Z /\
  (do b <- select_from (TPStr "t"); calls m_call (many_of b) [MLimit 3]) = Ok m' /\ names_ok (m_base m') /\
  (forall rho, where_ready rho (b_where (m_base m'))).
Proof.
  do 2 eexists. split; [vm_compute; reflexivity|]. repeat (split; [vm_compute; congruence|]). split; [vm_compute; reflexivity|].
  split; [|intros rho; now left]. split; [constructor|]. split; [split; [constructor; reflexivity|now left]|constructor].
Qed.

(** * C59: when Fields() changes nothing *)

Theorem C59_fields_exactly : forall rho b, names_ok b -> where_ready rho (b_where b) ->
  exists s ps s' ps' sel sel', b_build b = Ok (mkOut s ps None) /\ b_build (b_set_fields b []) = Ok (mkOut s' ps' None) /\
    parse_select s = Some sel /\ parse_select s' = Some sel' /\ (sel = sel' <-> b_fields b = []) /\ (s = s' <-> b_fields b = []).
Proof.
  intros rho b Hn Hr. destruct (many_build rho (many_of b) Hn (Forall_nil _) Hr) as (_ & ps & we & _ & _ & (t & Et & Pt) & _).
  assert (Hn' : names_ok (b_set_fields b [])). { destruct Hn as (_ & Ht & Hj). split; [constructor|]. now split. }
  destruct (many_build rho (many_of (b_set_fields b [])) Hn' (Forall_nil _) Hr) as (_ & ps' & we' & _ & _ & (t' & Et' & Pt') & _).
  cbn [m_base many_of] in *. do 6 eexists. split; [exact Et|]. split; [exact Et'|]. split; [exact Pt|]. split; [exact Pt'|].
  assert (A : b_fields b = [] -> t = t').
  { intros H. assert (b_set_fields b [] = b) by (destruct b; simpl in *; now rewrite H). rewrite H0, Et in Et'. unfold ok in Et'. congruence. }
  assert (B : base_sel b we = base_sel (b_set_fields b []) we' -> b_fields b = []).
  { unfold base_sel. cbn [b_fields b_set_fields]. intros H. injection H as H _. now destruct (b_fields b). }
  split; split; auto; intros H.
  - specialize (A H). subst t'. rewrite Pt in Pt'. congruence.
  - apply B. subst t'. rewrite Pt in Pt'. congruence.
Qed.
Print Assumptions C59_fields_exactly.
Example C59_fields_exactly_example : exists b, select_from (TPStr "orders o") = Ok b /\ names_ok b /\ b_fields b = [] /\
  names_ok (b_set_fields b [mkF "id" "" ""]) /\ (forall rho, where_ready rho (b_where b)).
Proof.
  eexists. split; [vm_compute; reflexivity|]. split; [|split; [reflexivity|split; [|intros rho; now left]]].
  - split; [constructor|]. split; [|constructor]. split; [constructor; reflexivity|by_name].
  - split; [repeat constructor; by_field|]. split; [|constructor]. split; [constructor; reflexivity|by_name].
Qed.

(** * C65: what is sorted and counted *)

Lemma name_no_dot n : name n = true -> lacks "." n.
Proof.
  destruct n as [|c n]; [discriminate|]. unfold name. intros H. apply andb_true_iff in H as [H _]. apply andb_true_iff in H as [_ H].
  revert H. generalize (String c n). induction s as [|a s IH]; [intros _ []|]. cbn [all_chars]. intros H.
  apply andb_true_iff in H as [Ha H]. intros [E|E]; [subst; discriminate Ha|now apply IH].
Qed.
Lemma alias_not_qualified d : wf_field d -> ~ own_name d -> f_alias d <> column d.
Proof.
  intros (Hn & Ht & Ha) Ho E. unfold column in E. destruct (is_empty (f_table d)) eqn:Et; [apply Ho; now right|].
  destruct Ha as [Ha|Ha]; [apply Ho; now left|]. apply name_no_dot in Ha. rewrite E in Ha.
  apply lacks_app in Ha as [_ Ha]. apply Ha. now left.
Qed.

(** the field is written with AS and this name in the list of columns *)
Definition written_as (f : fdef) (k : string) : Prop := f_alias f = k /\ k <> "" /\ (k <> f_name f \/ f_table f <> "").
Lemma item_written f k : it_alias (field_item f) = Some k <-> written_as f k.
Proof.
  unfold written_as. cbn [field_item it_alias]. destruct (is_empty (f_alias f)) eqn:E1; cbn [orb].
  { split; [discriminate|]. intros (<- & H & _). now destruct (f_alias f). }
  destruct (String.eqb_spec (f_alias f) (f_name f)) as [E2|E2]; cbn [andb].
  - destruct (is_empty (f_table f)) eqn:E3.
    + split; [discriminate|]. intros (<- & _ & [H|H]); [congruence|]. now destruct (f_table f).
    + split; [|now intros (-> & _)]. intros [= <-]. split; [reflexivity|].
      split; [now destruct (f_alias f)|right; now destruct (f_table f)].
  - split; [|now intros (-> & _)]. intros [= <-]. split; [reflexivity|]. split; [now destruct (f_alias f)|now left].
Qed.
(** Every column written AS the name used is the column of the field; and the field has no other name, or some column is
    written AS it. *)
Definition sorts_own_column (fs : list fdef) (d : fdef) : Prop :=
  (own_name d /\ forall f, In f fs -> written_as f (column d) -> column f = column d) \/
  (~ own_name d /\ (exists f, In f fs /\ written_as f (f_alias d)) /\ forall f, In f fs -> written_as f (f_alias d) -> column f = column d).
Lemma own_dec d : own_name d \/ ~ own_name d.
Proof. unfold own_name. destruct (string_dec (f_alias d) ""); [auto|]. destruct (string_dec (f_alias d) (f_name d)); [auto|]. right. tauto. Qed.
Lemma denotes_exactly fs o : wf_field (s_def o) ->
  (denotes (col_items (cols_item fs)) (fst (sort_item o)) (column (s_def o)) <-> sorts_own_column fs (s_def o)).
Proof.
  change (fst (sort_item o)) with (fst (sort_item (mkS (s_def o) ""))). generalize (s_def o) as d. clear o. intros d Hd.
  assert (I : forall k, (forall i, In i (col_items (cols_item fs)) -> it_alias i = Some k -> it_text i = column d) <->
    forall f, In f fs -> written_as f k -> column f = column d).
  { intros k. split.
    - intros H f Hf Hw. apply item_written in Hw. apply (H (field_item f)); [apply in_cols; eauto|exact Hw].
    - intros H i Hi Ei. apply in_cols in Hi as (f & Hf & ->). apply item_written in Ei. exact (H f Hf Ei). }
  assert (J : forall k, (exists i, In i (col_items (cols_item fs)) /\ it_alias i = Some k) <-> exists f, In f fs /\ written_as f k).
  { intros k. split.
    - intros (i & Hi & Ei). apply in_cols in Hi as (f & Hf & ->). apply item_written in Ei. eauto.
    - intros (f & Hf & Hw). apply item_written in Hw. exists (field_item f). split; [apply in_cols; eauto|exact Hw]. }
  unfold denotes, sorts_own_column. destruct (own_dec d) as [Ho|Ho].
  - rewrite (own_key d Ho), I. tauto.
  - rewrite (other_key d Ho), I, J. pose proof (alias_not_qualified d Hd Ho). tauto.
Qed.

(** For every state of a SelectMany builder with well-formed names: ORDER BY sorts by the columns of the given fields in
    their directions exactly if each of them [sorts_own_column]. *)
Theorem C65_order_exactly : forall rho m, names_ok (m_base m) -> Forall wf_sort (m_order m) -> where_ready rho (b_where (m_base m)) ->
  exists s ps sel, m_build m = Ok (mkOut s ps None) /\ parse_select s = Some sel /\
    (sorts_by sel (m_order m) <-> Forall (fun o => sorts_own_column (b_fields (m_base m)) (s_def o)) (m_order m)).
Proof.
  intros rho m Hn Ho Hr. destruct (many_build rho m Hn Ho Hr) as (s & ps & we & E1 & _ & _ & E3).
  do 3 eexists. split; [exact E1|]. split; [exact E3|]. unfold sorts_by. cbn [s_cols s_order].
  clear - Ho. induction Ho as [|o os [Hd _] Ho IH]; [split; constructor|]. split; intros H; inversion H; subst; constructor.
  - now apply denotes_exactly.
  - now apply IH.
  - split; [now apply denotes_exactly|reflexivity].
  - now apply IH.
Qed.
Print Assumptions C65_order_exactly.
(** SELECT a AS b ... ORDER BY b for the column b, and for the column a named b *)
Example C65_order_exactly_example :
  ~ sorts_own_column [mkF "a" "" "b"] (mkF "b" "" "") /\ sorts_own_column [mkF "a" "" "b"] (mkF "a" "" "b") /\
  ~ sorts_own_column [] (mkF "a" "" "b") /\ Forall wf_sort [mkS (mkF "b" "" "") "ASC"; mkS (mkF "a" "" "b") "DESC"].
Proof.
  split; [|split; [|split]].
  - intros [(_ & H)|(H & _)]; [|apply H; now left]. specialize (H _ (or_introl eq_refl)). discriminate H. split; [reflexivity|].
    split; [discriminate|]. left. discriminate.
  - right. split; [intros [H|H]; discriminate|]. split.
    + exists (mkF "a" "" "b"). split; [now left|]. split; [reflexivity|]. split; [discriminate|]. left. discriminate.
    + intros f [<-|[]] _. reflexivity.
  - intros [([H|H] & _)|(_ & (f & [] & _) & _)]; discriminate.
  - repeat (constructor; [split; [by_field|by_name]|]). constructor.
Qed.

(** COUNT counts the column of the field exactly if the field has no other name. *)
Theorem C65_count_exactly : forall rho b x f more, names_ok b -> where_ready rho (b_where b) -> field x = Ok f -> wf_field f ->
  exists q s ps, count b (x :: more) = Ok q /\ cs_build q = Ok (mkOut s ps None) /\ (counts_column s f <-> own_name f).
Proof.
  intros rho b x f more Hn Hr Ef Hf. unfold count. rewrite Ef. cbn [bind].
  destruct (count_build rho {| cs_base := b; cs_field := f |}) as (s & ps & we & E & _ & _ & P); auto; [now right|].
  do 3 eexists. split; [reflexivity|]. split; [exact E|].
  assert (C : count_item f = CountCol (fst (sort_item (mkS f "")))).
  { unfold count_item. change (fst (sort_item (mkS f "ASC"))) with (fst (sort_item (mkS f ""))).
    destruct (String.eqb_spec (f_name f) "*") as [e|_]; [|reflexivity]. destruct Hf as [Hf _]. rewrite e in Hf. discriminate. }
  split.
  - intros (sel & P' & H). rewrite P in P'. injection P' as <-. cbn [s_cols cs_field] in H. rewrite C in H.
    destruct (own_dec f) as [Ho|Ho]; [exact Ho|]. rewrite (other_key f Ho) in H. injection H as H. now destruct (alias_not_qualified f Hf Ho).
  - intros Ho. eexists. split; [exact P|]. cbn [s_cols cs_field]. rewrite C. now rewrite (own_key f Ho).
Qed.
Print Assumptions C65_count_exactly.
Example C65_count_exactly_example : exists f g, field "o.total as total" = Ok f /\ wf_field f /\ own_name f /\
  field "o.total as sum" = Ok g /\ wf_field g /\ ~ own_name g.
Proof.
  do 2 eexists. split; [vm_compute; reflexivity|]. split; [by_field|]. split; [right; reflexivity|].
  split; [vm_compute; reflexivity|]. split; [by_field|]. intros [H|H]; discriminate.
Qed.
