(** Property theorems about FieldName.Value (C96), RenderJoin (C98) and the remaining shorthands. *)
From Coq Require Import String Ascii List Bool Arith Lia NArith ZArith.
From Verif Require Import GoStr Value Names Cond Build Surface SqlSpec Spec StrFacts SqlFacts CondFacts CondText CondSem TreeFacts
  CondLogic CondMeaning Built CondThms PropsCond NameFacts PropsNames StmtFacts Calls BuildFacts BuildThms StmtText PropsSelect PropsWrite PropsSurface PropsMore AtomFacts PropsAtoms PropsOrder DbSpec PropsDb.
Import ListNotations.
Local Open Scope string_scope.
Local Open Scope nat_scope.

(** * C96 FieldName.Value binds what the value provides *)

(** v is a ValueProvider and x is what its DatabaseValue() returns *)
Inductive provides : gval -> gval -> Prop :=
| only_provider x : provides (VProvider x) x
| also_valuer o x : provides (VValuer o (Some x)) x.
(** what field_name.go:68 documents as the value used: "If value is ValueProvider uses
    ValueProvider.DatabaseValue() instead of direct value" *)
Definition documented (v x : gval) : Prop := provides v x \/ ((forall y, ~ provides v y) /\ x = v).
Lemma eager_iff v x : eager_provider v = x <-> documented v x.
Proof.
  destruct v as [| | | | | |o [p|]|p| | |]; cbn [eager_provider]; unfold documented; split;
    try (intros <-); try (left; constructor); try (right; split; [intros y H; inversion H|reflexivity]);
    (intros [H|[H ->]]; [inversion H; reflexivity|]); try reflexivity.
  - destruct (H p). constructor.
  - destruct (H p). constructor.
Qed.
Lemma fn_value_iff fn v f : fn_value fn v = Ok f <-> exists d, field fn = Ok d /\ fv_def f = d /\ documented v (fv_val f).
Proof.
  unfold fn_value, new_field_value. destruct (field fn) as [d|]; cbn [bind]; split; try discriminate; try (intros (? & ? & _); discriminate).
  - intros [= <-]. exists d. cbn [fv_def fv_val]. split; [reflexivity|]. split; [reflexivity|]. now apply eager_iff.
  - intros (d' & [= <-] & Ed & H). apply eager_iff in H. destruct f as [fd fx]. cbn in *. now subst.
Qed.

(** a value that drivers receive as it is: the builders convert it no further *)
Definition direct (x : gval) : Prop := bound_values x = Some [x].

(** Full statement (false): the parameter is what DatabaseValue() returned.  If that is again a
    provider (or a Valuer), it is converted once more; if it is a list of strings, it becomes
    several parameters. *)
Theorem C96_refuted : exists v x f s, provides v x /\ fn_value "a" v = Ok f /\
  i_build (i_add (insert_into (TPName "t")) [f]) = Ok (mkOut s [VOther 2] None) /\ x <> VOther 2.
Proof.
  exists (VProvider (VProvider (VOther 2))), (VProvider (VOther 2)). eexists _, _. split; [constructor|]. split; [reflexivity|].
  split; [vm_compute; reflexivity|discriminate].
Qed.
Print Assumptions C96_refuted.
Theorem C96_list_refuted : exists v x f s, provides v x /\ fn_value "a" v = Ok f /\
  i_build (i_add (insert_into (TPName "t")) [f]) = Ok (mkOut s [VStr "x"; VStr "y"] None) /\ s = "INSERT INTO t(a) VALUES ($2)".
Proof.
  exists (VProvider (VStrs ["x"; "y"])), (VStrs ["x"; "y"]). eexists _, _. split; [constructor|]. split; [reflexivity|].
  split; vm_compute; reflexivity.
Qed.
Print Assumptions C96_list_refuted.

(** Proved part: statements made of FieldName.Value calls, where the values provided are direct.
    [cvs] are the specifications and values of the calls, [ns] the names specified, [xs] the
    documented values.  Missing: values that are converted further. *)
Definition named_by (cv : string * gval) (n : string) : Prop := name n = true /\ exists table alias, field_form (fst cv) table n alias.
Lemma values_made cvs ns xs : Forall2 named_by cvs ns -> Forall2 (fun cv x => documented (snd cv) x /\ direct x) cvs xs ->
  exists fs, mapM (fun cv => fn_value (fst cv) (snd cv)) cvs = Ok fs /\ map (fun f => f_name (fv_def f)) fs = ns /\ singles fs xs.
Proof.
  intros Hn. revert xs. induction Hn as [|cv n cvs ns (Hn & t & al & Hf) _ IH]; intros xs Hx; inversion Hx as [|? x ? xs' [Hd Hb] Hx']; subst.
  - exists []. repeat split. constructor.
  - destruct (IH xs' Hx') as (fs & E & En & Es). cbn [mapM].
    assert (Ef : field (fst cv) = Ok (mkF n t al)).
    { unfold field, field_p. destruct (C24_read _ _ _ _ Hf) as [_ ->]. reflexivity. }
    assert (Ev : fn_value (fst cv) (snd cv) = Ok (mkFV (mkF n t al) x)).
    { apply fn_value_iff. exists (mkF n t al). repeat split; auto. }
    rewrite Ev. cbn [bind]. rewrite E. cbn [bind]. eexists. split; [reflexivity|]. split; [cbn; now rewrite En|]. constructor; auto.
Qed.
Theorem C96_insert_partial : forall p cvs ns xs, qname (raw_table_name p) -> cvs <> [] -> Forall2 named_by cvs ns ->
  Forall2 (fun cv x => documented (snd cv) x /\ direct x) cvs xs ->
  exists fs s, mapM (fun cv => fn_value (fst cv) (snd cv)) cvs = Ok fs /\ i_build (i_add (insert_into p) fs) = Ok (mkOut s xs None) /\
    parse_insert s = Some (mkIns (raw_table_name p) ns (seq 1 (length xs))).
Proof.
  intros p cvs ns xs Hq Hne Hn Hx. destruct (values_made cvs ns xs Hn Hx) as (fs & E & En & Es). exists fs.
  assert (Hc : Forall (fun c => name c = true) (col_names fs)).
  { unfold col_names. rewrite En. clear -Hn. induction Hn as [|? ? ? ? [H _] _ IH]; constructor; auto. }
  assert (Nf : fs <> []). { intros ->. destruct cvs; [congruence|]. inversion Hn; subst. discriminate. }
  destruct (C09_insert p [fs] xs Hq) as (i & s & Ei & Eb & Ep); try (simpl; now rewrite app_nil_r).
  cbn [calls i_call bind] in Ei. injection Ei as <-. exists s. split; [exact E|]. split; [exact Eb|].
  simpl List.concat in Ep. rewrite app_nil_r, En in Ep. exact Ep.
Qed.
Print Assumptions C96_insert_partial.
Theorem C96_update_partial : forall rho p cvs ns xs cs, qname (raw_table_name p) -> cvs <> [] -> Forall2 named_by cvs ns ->
  Forall2 (fun cv x => documented (snd cv) x /\ direct x) cvs xs -> Forall (usable rho) cs -> cs <> [] ->
  exists fs u s ws e, mapM (fun cv => fn_value (fst cv) (snd cv)) cvs = Ok fs /\
    calls u_call (update_ p) [USet fs; UWhere cs] = Ok u /\ u_build u = Ok (mkOut s (xs ++ ws) None) /\
    parse_update s = Some (mkUpd (raw_table_name p) (combine ns (seq 1 (length xs))) e).
Proof.
  intros rho p cvs ns xs cs Hq Hne Hn Hx Hu Hc. destruct (values_made cvs ns xs Hn Hx) as (fs & E & En & Es). exists fs.
  assert (Hk : Forall (fun c => name c = true) (col_names fs)).
  { unfold col_names. rewrite En. clear -Hn. induction Hn as [|? ? ? ? [H _] _ IH]; constructor; auto. }
  assert (Nf : fs <> []). { intros ->. destruct cvs; [congruence|]. inversion Hn; subst. discriminate. }
  destruct (C10_update rho p [USet fs; UWhere cs] xs) as (u & s & ws & c & e & v & E1 & E2 & E3 & _);
    cbn [flat_map uc_set uc_where app List.concat]; rewrite ?app_nil_r; auto.
  { repeat constructor; auto. }
  exists u, s, ws, e. split; [exact E|]. split; [exact E1|]. split; [exact E2|].
  cbn [flat_map uc_set app] in E3. now rewrite app_nil_r, En in E3.
Qed.
Print Assumptions C96_update_partial.

(** Exactly: with the documented value x, the parameters are what the builders convert x to; so
    the promise is kept exactly for direct values.  Compared with NewFieldValue(fn, v), which
    conditions, ValuesMap and FieldDefinition.Value use, the parameters are the same exactly if
    x and v are converted to the same. *)
Lemma one_column p f : raw_table_name p <> "" ->
  i_build (i_add (insert_into p) [f]) =
  match bound_values (fv_val f) with
  | Some vs => Ok (mkOut ("INSERT INTO " ++ raw_table_name p ++ "(" ++ f_name (fv_def f) ++ ") VALUES ($" ++ itoa (length vs) ++ ")") vs None)
  | None => Panic
  end.
Proof.
  intros Ht. unfold i_build. cbn [i_values i_add insert_into nonempty negb app i_table ins_loop].
  destruct (raw_table_name p) as [|c t] eqn:E; [congruence|]. cbn [is_empty]. rewrite <- E.
  pose proof (bound_values_ok (fv_val f)) as H. destruct (bound_values (fv_val f)) as [vs|]; rewrite H; cbn [bind]; [|reflexivity].
  cbn [join app]. unfold ok. rewrite <- ?app_assoc_s. cbn. rewrite ?app_assoc_s. reflexivity.
Qed.
Theorem C96_exactly : forall p fn v f x, raw_table_name p <> "" -> fn_value fn v = Ok f -> documented v x ->
  ((exists s, i_build (i_add (insert_into p) [f]) = Ok (mkOut s [x] None)) <-> direct x).
Proof.
  intros p fn v f x Ht Ef Hx. apply fn_value_iff in Ef as (d & _ & _ & Hf). apply eager_iff in Hx, Hf. rewrite Hx in Hf. rewrite one_column, <- Hf by exact Ht.
  unfold direct. split.
  - intros (s & E). destruct (bound_values x) as [vs|]; [|discriminate]. injection E as _ ->. reflexivity.
  - intros ->. eexists. reflexivity.
Qed.
Print Assumptions C96_exactly.
Theorem C96_same_exactly : forall p fn v f g x, raw_table_name p <> "" -> fn_value fn v = Ok f -> new_field_value fn v = Ok g -> documented v x ->
  (i_build (i_add (insert_into p) [f]) = i_build (i_add (insert_into p) [g]) <-> bound_values x = bound_values v).
Proof.
  intros p fn v f g x Ht Ef Eg Hx. apply fn_value_iff in Ef as (d & Ed & Fd & Hf). apply eager_iff in Hx, Hf. rewrite Hx in Hf.
  unfold new_field_value in Eg. rewrite Ed in Eg. cbn [bind] in Eg. injection Eg as <-. rewrite !one_column, <- Hf, Fd by exact Ht. cbn [fv_def fv_val].
  split; [|now intros ->]. intros E. destruct (bound_values x) as [a|], (bound_values v) as [b|]; try discriminate; [|reflexivity].
  injection E as _ ->. reflexivity.
Qed.
Print Assumptions C96_same_exactly.
(** a value that is both: FieldName.Value uses DatabaseValue(), NewFieldValue uses Value() *)
Example C96_example : let both := VValuer (ORet (VOther 1) false) (Some (VOther 2)) in
  documented both (VOther 2) /\ direct (VOther 2) /\ named_by ("u.age", both) "age" /\
  (do f <- fn_value "u.age" both; i_build (i_add (insert_into (TPName "t")) [f])) = Ok (mkOut "INSERT INTO t(age) VALUES ($1)" [VOther 2] None) /\
  (do f <- new_field_value "u.age" both; i_build (i_add (insert_into (TPName "t")) [f])) = Ok (mkOut "INSERT INTO t(age) VALUES ($1)" [VOther 1] None) /\
  bound_values (VOther 2) <> bound_values both /\
  documented (VStr "x") (VStr "x") /\ direct (VStr "x").
Proof.
  cbv zeta. split; [left; constructor|]. split; [reflexivity|]. split.
  { split; [reflexivity|]. exists "u", "". split; [discriminate|]. repeat split; try (intros H; vm_compute in H; intuition discriminate).
    left. split; [reflexivity|]. apply toks_iff. reflexivity. }
  split; [vm_compute; reflexivity|]. split; [vm_compute; reflexivity|]. split; [vm_compute; discriminate|].
  split; [right; split; [intros y H; inversion H|reflexivity]|reflexivity].
Qed.

(** * C51: joins made of two fields *)

(** JoinFields(l, r).InnerJoin() and the others join the table of the right field their own way. *)
Definition field_joins : list ((fdef -> fdef -> res joiner) * string) :=
  [(jf_inner, "INNER"); (jf_left, "LEFT"); (jf_right, "RIGHT"); (jf_full, "FULL")].
Theorem C51_field_joins : forall jn k l r, In (jn, k) field_joins -> f_table r <> "" -> spaceless (f_table r) ->
  exists j, jn l r = Ok j /\
    j_render j = k ++ " JOIN " ++ f_table r ++ " ON " ++ f_table l ++ "." ++ f_name l ++ "=" ++ f_table r ++ "." ++ f_name r.
Proof.
  intros jn k l r H Hne Hs.
  assert (Et : table (f_table r) = Ok (mkT (f_table r) "")).
  { unfold table, table_p, table_or_error, parse_table. assert (G : go_fields (f_table r) = [f_table r]) by (apply toks_iff; now apply toks_one).
    now rewrite G. }
  unfold field_joins in H. simpl in H. repeat destruct H as [[= <- <-]|H]; try contradiction;
    unfold jf_inner, jf_left, jf_right, jf_full, jt_by; rewrite Et; cbn [bind]; eexists; (split; [reflexivity|]);
    unfold j_render, jc_render, render_table_spec; cbn; repeat (rewrite app_assoc_s; cbn); reflexivity.
Qed.
Print Assumptions C51_field_joins.
Example C51_field_example : In (jf_full, "FULL") field_joins /\ spaceless "orders" /\
  (do j <- jf_full (mkF "id" "u" "") (mkF "uid" "orders" ""); Ok (j_render j)) = Ok "FULL JOIN orders ON u.id=orders.uid".
Proof.
  split; [simpl; auto|]. split; [|vm_compute; reflexivity]. assert (G : go_fields "orders" = ["orders"]) by reflexivity.
  apply toks_iff, toks_tokens in G. now inversion G.
Qed.

(** * C98 RenderJoin is what stands before a condition *)

(** base.go:63-67 promises the connective and the NOT, with a space at either end, or nothing for
    the first condition of a group that is not negated. *)
Definition before (first neg : bool) (j : string) : string :=
  match first, neg with
  | true, false => ""
  | true, true => " NOT "
  | false, false => " " ++ j ++ " "
  | false, true => " " ++ j ++ " NOT "
  end.
(** Full statement (false): RenderJoin(first) is [before first negated join]. *)
Theorem C98_refuted : exists c, built c /\ is_negate c = Ok true /\ jtype c = Ok OR /\
  c_render_join false c = Ok "OR" /\ before false true OR = " OR NOT ".
Proof.
  exists (CLeaf (mkLeaf KEq OR true (mkF "a" "" "") (VOther 1))). split; [|repeat split].
  eapply bt_join with (c := CLeaf (mkLeaf KEq AND true (mkF "a" "" "") (VOther 1))); [|now right|reflexivity].
  apply (bt_not (eqc "a" 1)); [exact (bt_lib KEq "a" (VOther 1) _ eq_refl)|reflexivity].
Qed.
Print Assumptions C98_refuted.
(** Exactly: after any Join and Negate calls it is the last connective alone, and nothing for the
    first condition; the promise is kept only for a first condition that is not negated. *)
Theorem C98_exactly : forall c h j b first, is_negate c = Ok b -> jtype c = Ok j ->
  exists c', calls n_call c h = Ok c' /\ c_render_join first c' = Ok (if first then "" else last_of nc_join j h) /\
    (c_render_join first c' = Ok (before first (last_of nc_negate b h) (last_of nc_join j h)) <-> first = true /\ last_of nc_negate b h = false).
Proof.
  intros c h j b first Eb Ej. destruct (C53_modifiers c h j b Eb Ej) as (c' & _ & E & _ & Ej' & _). exists c'. split; [exact E|].
  unfold c_render_join. rewrite Ej'. cbn [bind render_join]. split; [destruct first; reflexivity|].
  destruct first, (last_of nc_negate b h); cbn [before render_join]; split; try (intros [H1 H2]; congruence); try discriminate; auto.
  - intros [= H]. exfalso. apply (f_equal String.length) in H. cbn [String.length] in H. rewrite !length_app_s in H. cbn in H. lia.
  - intros [= H]. exfalso. apply (f_equal String.length) in H. cbn [String.length] in H. rewrite !length_app_s in H. cbn in H. lia.
Qed.
Print Assumptions C98_exactly.
Example C98_example : is_negate (eqc "a" 1) = Ok false /\ jtype (eqc "a" 1) = Ok AND /\
  (do c <- calls n_call (eqc "a" 1) [NJoin OR; NNegate true]; c_render_join false c) = Ok "OR" /\
  (do c <- calls n_call (eqc "a" 1) [NJoin OR; NNegate true]; c_render_join true c) = Ok "".
Proof. repeat split. Qed.

(** * C71: the count made from a select of one row *)

(** Count on a SelectSingle builder returns the number of rows without the limit, although the
    select itself returns at most one (C72_single). *)
Theorem C71_single : forall q, made_s q -> exists s0 ps0 c s ps,
  b_build (ss_base q) = Ok (mkOut s0 ps0 None) /\ ss_count q = Ok c /\ cs_build c = Ok (mkOut s ps None) /\
  forall E db l, query E db s0 ps0 = Some (Rows E l) -> query E db s ps = Some (Number E (length l)).
Proof.
  intros q H. pose proof (made_s_ready q H) as [Hn Hr].
  destruct (single_build (fun _ _ _ => U) q Hn (Hr _)) as (t & ps & we & _ & E2 & _ & E3 & E4).
  destruct (count_build (fun _ _ _ => U) (mkCS (ss_base q) (mkF "*" "" "")) Hn (or_introl eq_refl) (Hr _))
    as (s' & ps' & we' & F1 & _ & (t' & F2 & F3) & F4).
  cbn [cs_base cs_field] in *. rewrite E2 in F2. injection F2 as <- <-. rewrite E3 in F3. injection F3 as <-.
  exists t, ps, (mkCS (ss_base q) (mkF "*" "" "")), s', ps. split; [exact E2|]. split; [reflexivity|]. split; [exact F1|].
  intros E db l K. unfold query in K |- *. rewrite E3, run_rows in K. rewrite F4.
  destruct (all_rows _ _ _ _ _ _ _ _) as [r|] eqn:Er; [|discriminate]. cbn [amount] in K. injection K as <-.
  destruct (all_rows_length _ _ _ _ _ _ _ _ _ Er) as (k & Ek & <-). unfold run_select, kept_rows in *.
  cbn [s_from s_joins s_where s_offset s_limit s_cols s_order amount count_item f_name String.eqb] in *. now rewrite Ek.
Qed.
Print Assumptions C71_single.
Example C71_single_example : exists b, b_shop = Ok b /\ made_s (single_of b) /\
  ask (ss_build (single_of b)) = Ok (rows [[("id", Some 1); ("sum", Some 7)]]) /\
  ask (do c <- ss_count (single_of b); cs_build c) = Ok (Some (Number numbers 4)).
Proof.
  eexists. split; [vm_compute; reflexivity|]. split; [|split; vm_compute; reflexivity].
  eexists _, []. split; [now apply b_shop_made|]. split; [constructor|reflexivity].
Qed.

(** * C67: the unexported applyFieldTableToOrdering *)

(** Every key whose field has no alias of its own becomes the column of the given table; the
    other keys, directions, places and everything else stay. *)
Theorem C67_table : forall rho m tn, names_ok (m_base m) -> Forall wf_sort (m_order m) -> where_ready rho (b_where (m_base m)) -> name tn = true ->
  exists s s' ps sel ks, m_build m = Ok (mkOut s ps None) /\ parse_select s = Some sel /\
    m_build (m_table_order m tn) = Ok (mkOut s' ps None) /\
    parse_select s' = Some (mkSel (s_cols sel) (s_from sel) (s_joins sel) (s_where sel) ks (s_offset sel) (s_limit sel)) /\
    length ks = length (s_order sel) /\
    forall n o k k', nth_error (m_order m) n = Some o -> nth_error (s_order sel) n = Some k -> nth_error ks n = Some k' ->
      snd k' = snd k /\ (own_name (s_def o) -> fst k' = tn ++ "." ++ f_name (s_def o)) /\ (~ own_name (s_def o) -> fst k' = fst k).
Proof.
  intros rho m tn Hn Ho Hr Ht. destruct (many_build rho m Hn Ho Hr) as (s & ps & we & E1 & _ & (t & Eb & Et) & E3).
  set (m' := m_table_order m tn).
  assert (Ho' : Forall wf_sort (m_order m')).
  { cbn [m' m_table_order m_set_order m_order]. apply Forall_map. eapply Forall_impl; [|exact Ho]. intros o [(D1 & D2 & D3) Hx]. split; [|exact Hx].
    cbn [s_apply_table s_def set_table]. split; [exact D1|]. split; [now right|exact D3]. }
  destruct (many_build rho m' Hn Ho' Hr) as (s' & ps' & we' & F1 & _ & (t' & Fb & Ft) & F3).
  cbn [m' m_table_order m_set_order m_base] in Fb, Ft. rewrite Eb in Fb. injection Fb as <- <-. rewrite Et in Ft. injection Ft as <-.
  exists s, s'. eexists. eexists. eexists. split; [exact E1|]. split; [exact E3|]. split; [exact F1|]. split; [exact F3|].
  cbn [s_order m' m_table_order m_set_order m_order]. split; [now rewrite !map_length|].
  intros n o k k' A B C. rewrite nth_error_map, A in B. rewrite map_map, nth_error_map, A in C.
  cbn [option_map] in B, C. injection B as <-. injection C as <-. split; [reflexivity|]. split.
  - intros O. change (fst (sort_item (mkS (set_table (s_def o) tn) "")) = tn ++ "." ++ f_name (s_def o)). rewrite own_key by exact O.
    unfold column. cbn [set_table f_table f_name]. destruct tn; [discriminate|reflexivity].
  - intros O. change (fst (sort_item (mkS (set_table (s_def o) tn) "")) = fst (sort_item (mkS (s_def o) ""))).
    rewrite !other_key by exact O. reflexivity.
Qed.
Print Assumptions C67_table.
Example C67_table_example : exists m, (do b <- select_from (TPStr "orders o"); calls m_call (many_of b)
    [MOrder [mkS (mkF "total" "" "") "DESC"; mkS (mkF "id" "" "n") "ASC"]; MLimit 3]) = Ok m /\
  names_ok (m_base m) /\ Forall wf_sort (m_order m) /\ (forall rho, where_ready rho (b_where (m_base m))) /\ name "o" = true /\
  m_build (m_table_order m "o") = Ok (mkOut "SELECT * FROM orders AS o ORDER BY o.total DESC, n ASC LIMIT $1" [VUint 3] None).
Proof.
  eexists. split; [vm_compute; reflexivity|]. split.
  { split; [constructor|]. split; [|constructor]. split; [constructor; reflexivity|by_name]. }
  split; [repeat (constructor; [split; [by_field|by_name]|]); constructor|]. split; [intros rho; now left|]. split; [reflexivity|vm_compute; reflexivity].
Qed.

(** * C47: FieldName() of a condition *)

(** The condition of every constructor keeps the name it was specified with, whatever Join and
    Negate calls follow. *)
Definition one_column_tests (v : gval) (s : string) : list (string -> res cond) :=
  (null_tests ++ map (fun mk fn => mk fn v) (map fst comparisons ++ member_tests) ++ map (fun mk fn => mk fn s) (map fst searches))%list.
Theorem C47_field_name : forall fn table n alias v s mk h, field_form fn table n alias -> In mk (one_column_tests v s) ->
  exists c c', mk fn = Ok c /\ calls n_call c h = Ok c' /\ c_field_name c' = Ok n.
Proof.
  intros fn t n al v s mk h Hf H.
  assert (Ef : field fn = Ok (mkF n t al)) by (unfold field, field_p; destruct (C24_read _ _ _ _ Hf) as [_ ->]; reflexivity).
  assert (K : exists k x, mk fn = Ok (CLeaf (mkLeaf k AND false (mkF n t al) x))).
  { unfold one_column_tests in H. simpl in H.
    repeat destruct H as [<-|H]; try contradiction;
      unfold fn_is_null, is_null, fn_equal_to, equal_to, greater_than, greater_or_equal, less_, less_or_equal, fn_in, in_,
        fn_contains, contains_, fn_icontains, icontains_, mk_cond, new_field_value;
      rewrite ?Ef; cbn [bind]; eauto. }
  destruct K as (k & x & E). exists (CLeaf (mkLeaf k AND false (mkF n t al) x)).
  assert (G : forall h j b, exists c', calls n_call (CLeaf (mkLeaf k j b (mkF n t al) x)) h = Ok c' /\ c_field_name c' = Ok n).
  { clear. induction h as [|[b'|j'] h IH]; intros j b; [now eexists| |]; cbn [calls n_call c_negate c_join bind l_kind l_join l_neg l_def l_val]; apply IH. }
  destruct (G h AND false) as (c' & E1 & E2). exists c'. auto.
Qed.
Print Assumptions C47_field_name.
Example C47_field_name_example : field_form "u.age as years" "u" "age" "years" /\ In (fun fn => less_ fn (VOther 3)) (one_column_tests (VOther 3) "x") /\
  (do c <- less_ "u.age as years" (VOther 3); do c' <- calls n_call c [NJoin OR; NNegate true]; c_field_name c') = Ok "age".
Proof.
  split; [|split; [simpl; tauto|reflexivity]]. split; [discriminate|]. repeat split; try (intros H; vm_compute in H; intuition discriminate).
  right. exists "as". split; [vm_compute; tauto|]. apply toks_iff. reflexivity.
Qed.

(** * C81: what String() shows *)

(** String() of a select shows its tables and joins, its columns and its conditions, each as in
    RenderSQL(), in brackets after what they are. *)
Theorem C81_shown : forall b s, b_string b = Ok s -> exists from cols cond,
  s = "query.BaseSelectBuilder(" ++ from ++ "),Fields(" ++ join "," cols ++ "),Where(" ++ cond ++ ")" /\
  b_render_sql b = Ok ("SELECT " ++ (match cols with [] => "*" | _ => join ", " cols end) ++ " FROM " ++ from ++
    (match w_conditions (b_where b) with [] => "" | _ => " WHERE " ++ cond end)).
Proof.
  intros b s H. unfold b_string, w_string in H. destruct (w_render_sql (b_where b)) as [w|] eqn:Ew; [|discriminate].
  cbn [bind] in H. injection H as <-. exists (b_render_from b), (map render_spec (b_fields b)), w. split.
  - unfold join at 1, fs_string. cbn [String.concat]. rewrite !app_assoc_s. cbn [append]. reflexivity.
  - unfold b_render_sql, w_conditions, w_render_sql in *. rewrite Ew. cbn [bind].
    assert (F : field_list (b_fields b) = match map render_spec (b_fields b) with [] => "*" | _ => join ", " (map render_spec (b_fields b)) end)
      by (destruct (b_fields b); reflexivity). rewrite <- F.
    assert (J : forall x y l, join " " (x :: y :: l) = x ++ " " ++ join " " (y :: l)) by reflexivity.
    assert (A : forall x l, join " " (x :: l ++ ["WHERE"; w])%list = join " " (x :: l) ++ " WHERE " ++ w).
    { intros x l. revert x. induction l as [|y l IH]; intros x; [reflexivity|]. cbn [app]. rewrite (J x y l), (J x y), IH, !app_assoc_s. reflexivity. }
    unfold b_tokens, b_render_from. cbn [app]. destruct (g_cs (b_where b)); cbn [nonempty].
    + rewrite !J. cbn [op_string]. rewrite app_nil_r_s. reflexivity.
    + rewrite !J, A. repeat (rewrite !app_assoc_s; cbn [append]). reflexivity.
Qed.
Print Assumptions C81_shown.
