(** Property theorems about the rest of the exported surface (Surface.v). *)
From Coq Require Import String Ascii List Bool Arith Lia NArith ZArith.
From Verif Require Import GoStr Value Names Cond Build Surface SqlSpec Spec StrFacts SqlFacts CondFacts CondText CondSem TreeFacts
  CondLogic CondMeaning Built CondThms PropsCond NameFacts PropsNames StmtFacts Calls BuildFacts BuildThms StmtText PropsSelect.
Import ListNotations.
Local Open Scope string_scope.
Local Open Scope nat_scope.

(** * C47 Constructors build the plain comparison they are named after *)

(** the comparison constructors with one value, and the SQL operator of each *)
Definition comparisons : list ((string -> gval -> res cond) * aop) :=
  [(equal_to, AEq); (fn_equal_to, AEq); (greater_than, AGt); (greater_or_equal, AGe); (less_, ALt); (less_or_equal, ALe)].
Definition searches : list ((string -> string -> res cond) * aop) :=
  [(contains_, ALike); (fn_contains, ALike); (icontains_, AILike); (fn_icontains, AILike)].
Definition member_tests : list (string -> gval -> res cond) := [in_; fn_in].
Definition null_tests : list (string -> res cond) := [is_null; fn_is_null].

(** [q] is how the column [table.]name is written *)
Definition qualified (table name : string) : string := if String.eqb table "" then name else table ++ "." ++ name.

(** a condition that means the atom [op q vs] wherever its parameters start, joined by AND, not negated *)
Definition is_atom (c : cond) (op : aop) (q : string) (vs : list gval) : Prop :=
  is_negate c = Ok false /\ jtype c = Ok "AND" /\ c_values c = Ok vs /\
  (forall n, exists s, c_render c n = Ok s /\
    forall rho pre post, length pre = n -> truth rho s (pre ++ vs ++ post)%list = Some (rho op q vs)) /\
  (exists s, c_render_sql c = Ok s /\ forall rho, truth_q rho s vs = Some (rho op q vs)).

Lemma column_qualified d : column d = qualified (f_table d) (f_name d).
Proof. unfold column, qualified. now rewrite empty_eqb. Qed.
Lemma leaf_atom k op d v vs c : aop_of k = Some op -> c = CLeaf (mkLeaf k AND false d v) -> built c ->
  good_leaf (mkLeaf k AND false d v) -> leaf_values (mkLeaf k AND false d v) = Ok vs ->
  is_atom c op (qualified (f_table d) (f_name d)) vs.
Proof.
  intros Hk -> Hb Hg Hv. rewrite <- column_qualified.
  assert (S : forall rho n, _) by (intros rho n; exact (built_meaning rho _ Hb I (fun l H => match H with or_introl e => eq_ind _ good_leaf Hg _ e | or_intror f => match f with end end) n)).
  assert (M : forall rho, mean (leaf_tv rho) (CLeaf (mkLeaf k AND false d v)) = rho op (column d) vs).
  { intros rho. unfold mean. simpl. unfold leaf_tv. apply (leaf_args_iff _ _ Hg) in Hv. rewrite Hv. cbn [l_kind l_neg l_def]. now rewrite Hk. }
  pose (rho0 := table_row (fun _ => 0)).
  split; [reflexivity|]. split; [reflexivity|]. split; [exact Hv|]. split.
  - intros n. destruct (S rho0 n) as (s & s' & vs' & E & E' & Ev & _). exists s. split; [exact E|].
    intros rho pre post Hp. destruct (S rho n) as (s2 & s2' & vs2 & F & F' & Fv & H & _).
    simpl c_values in *. rewrite F in E. injection E as ->. rewrite Hv in Fv. injection Fv as <-. rewrite <- M. now apply H.
  - destruct (S rho0 0) as (s & s' & vs' & E & E' & Ev & _). exists s'. split; [exact E'|].
    intros rho. destruct (S rho 0) as (s2 & s2' & vs2 & F & F' & Fv & _ & H).
    simpl c_values in *. rewrite F' in E'. injection E' as ->. rewrite Hv in Fv. injection Fv as <-. rewrite <- M. exact H.
Qed.

Definition ident_or_none (t : string) : Prop := t = "" \/ name t = true.
Lemma mk_atom k op fn t n v vs : aop_of k = Some op -> field_form fn t n "" -> name n = true -> ident_or_none t ->
  (forall d, good_def d -> good_leaf (mkLeaf k AND false d v)) ->
  (forall d, leaf_values (mkLeaf k AND false d v) = Ok vs) ->
  exists c, mk_cond k fn v = Ok c /\ built c /\ is_atom c op (qualified t n) vs.
Proof.
  intros Hk Hf Hn Ht Hg Hv. pose proof (form_accepted _ _ _ _ Hf) as E.
  assert (Em : mk_cond k fn v = Ok (CLeaf (mkLeaf k AND false (mkF n t "") v))).
  { unfold mk_cond, new_field_value, field, field_p. unfold field_or_error. rewrite E. reflexivity. }
  eexists. split; [exact Em|]. assert (Hb : built (CLeaf (mkLeaf k AND false (mkF n t "") v))) by (eapply bt_lib; exact Em).
  split; [exact Hb|]. apply (leaf_atom k op (mkF n t "") v vs); auto. apply Hg. split; [exact Hn|]. split; [exact Ht|now left].
Qed.

(** For every constructor, every layout of [table.]name with identifiers, and every value
    that stands for one value: the condition is the comparison of that column with that
    value, not negated and AND-joined, whatever parameters precede or follow. *)
Theorem C47_comparison : forall mk op fn table n v x, In (mk, op) comparisons ->
  field_form fn table n "" -> name n = true -> ident_or_none table -> bound_values v = Some [x] ->
  exists c, mk fn v = Ok c /\ built c /\ is_atom c op (qualified table n) [x].
Proof.
  intros mk op fn t n v x H Hf Hn Ht Hv.
  assert (K : forall k, aop_of k = Some op -> (k = KEq \/ k = KGt \/ k = KGe \/ k = KLt \/ k = KLe) ->
    exists c, mk_cond k fn v = Ok c /\ built c /\ is_atom c op (qualified t n) [x]).
  { intros k Hk Hc. apply mk_atom; auto.
    - intros d Hd. split; [exact Hd|]. destruct Hc as [->|[->|[->|[->| ->]]]]; simpl; eauto.
    - intros d. apply bound_values_iff in Hv. destruct Hc as [->|[->|[->|[->| ->]]]]; exact Hv. }
  simpl in H. repeat destruct H as [[= <- <-]|H]; try contradiction; (apply K; [reflexivity|tauto]).
Qed.
Print Assumptions C47_comparison.
(** Contains and IContains search for the text between any others. *)
Theorem C47_search : forall mk op fn table n s, In (mk, op) searches ->
  field_form fn table n "" -> name n = true -> ident_or_none table ->
  exists c, mk fn s = Ok c /\ built c /\ is_atom c op (qualified table n) [VStr ("%" ++ s ++ "%")].
Proof.
  intros mk op fn t n s H Hf Hn Ht.
  assert (K : forall k, aop_of k = Some op -> (k = KLike \/ k = KILike) ->
    exists c, mk_cond k fn (VStr s) = Ok c /\ built c /\ is_atom c op (qualified t n) [VStr ("%" ++ s ++ "%")]).
  { intros k Hk Hc. apply mk_atom; auto.
    - intros d Hd. split; [exact Hd|]. destruct Hc as [-> | ->]; simpl; eauto.
    - intros d. destruct Hc as [-> | ->]; reflexivity. }
  simpl in H. repeat destruct H as [[= <- <-]|H]; try contradiction; (apply K; [reflexivity|tauto]).
Qed.
Print Assumptions C47_search.
(** In tests membership in all the values, in order; IsNull takes none. *)
Theorem C47_in : forall mk fn table n v x xs, In mk member_tests ->
  field_form fn table n "" -> name n = true -> ident_or_none table -> bound_values v = Some (x :: xs) ->
  exists c, mk fn v = Ok c /\ built c /\ is_atom c AIn (qualified table n) (x :: xs).
Proof.
  intros mk fn t n v x xs H Hf Hn Ht Hv.
  assert (K : exists c, mk_cond KIn fn v = Ok c /\ built c /\ is_atom c AIn (qualified t n) (x :: xs)).
  { apply mk_atom; auto; [intros d Hd; split; [exact Hd|]; simpl; eauto|]. intros d. now apply bound_values_iff in Hv. }
  destruct H as [<-|[<-|[]]]; exact K.
Qed.
Print Assumptions C47_in.
Theorem C47_is_null : forall mk fn table n, In mk null_tests ->
  field_form fn table n "" -> name n = true -> ident_or_none table ->
  exists c, mk fn = Ok c /\ built c /\ is_atom c ANull (qualified table n) [].
Proof.
  intros mk fn t n H Hf Hn Ht. pose proof (form_accepted _ _ _ _ Hf) as E.
  assert (Em : is_null fn = Ok (CLeaf (mkLeaf KNull AND false (mkF n t "") VNil))).
  { unfold is_null, field, field_p. unfold field_or_error. rewrite E. reflexivity. }
  assert (Hb : built (CLeaf (mkLeaf KNull AND false (mkF n t "") VNil))) by (eapply bt_null; exact Em).
  exists (CLeaf (mkLeaf KNull AND false (mkF n t "") VNil)). split; [destruct H as [<-|[<-|[]]]; exact Em|]. split; [exact Hb|].
  apply (leaf_atom KNull ANull (mkF n t "") VNil []); auto. split; [|exact I]. split; [exact Hn|]. split; [exact Ht|now left].
Qed.
Print Assumptions C47_is_null.
Example C47_example : field_form " u.age " "u" "age" "" /\ name "age" = true /\ ident_or_none "u" /\
  bound_values (VOther 7) = Some [VOther 7] /\ bound_values (VStrs ["x"; "y"]) = Some [VStr "x"; VStr "y"] /\
  (do c <- greater_or_equal " u.age " (VOther 7); c_render c 4) = Ok "u.age>=$5" /\
  (do c <- fn_in "u.age" (VStrs ["x"; "y"]); c_render c 4) = Ok "u.age IN ($5,$6)".
Proof.
  split; [|repeat split; right; reflexivity]. split; [discriminate|]. split; [unfold lacks; vm_compute; intuition discriminate|].
  split; [unfold lacks; vm_compute; intuition discriminate|]. left. split; [reflexivity|]. apply toks_iff. reflexivity.
Qed.

(** * C48 FieldDefinition.Value keeps the field *)

(** Full statement (false): d.Value(v) is a field value for exactly the field d.
    The alias is dropped. *)
Theorem C48_alias_refuted : exists s d v fv, field s = Ok d /\ f_value d v = Ok fv /\ fv_val fv = v /\ fv_def fv <> d.
Proof. exists "u.id as x". eexists _, (VOther 1), _. split; [reflexivity|]. split; [reflexivity|]. split; [reflexivity|discriminate]. Qed.
Print Assumptions C48_alias_refuted.
(** Field("a.") is accepted, its Value panics. *)
Theorem C48_panic_refuted : exists s d v, field s = Ok d /\ f_value d v = Panic.
Proof. exists "a.". eexists _, (VOther 1). split; reflexivity. Qed.
Print Assumptions C48_panic_refuted.
(** Proved part: fields with a name that were read from a text (any table and alias may
    have been set afterwards): name, table and value are kept, the alias is dropped.
    Missing: fields with an empty name (panic) and the alias. *)
Theorem C48_value_partial : forall s d0 d v, field s = Ok d0 -> f_name d = f_name d0 -> f_name d <> "" ->
  f_value d v = Ok (mkFV (mkF (f_name d) (f_table d) "") v).
Proof.
  intros s d0 d v Hs Hn Hne. unfold field, field_p, field_or_error in Hs. destruct (parse_field s) as [d'|] eqn:E; [|discriminate].
  injection Hs as ->. apply parse_field_iff in E as (q & Hq & HT).
  assert (Sq : spaceless q) by (destruct HT as [[_ HT]|(w & _ & HT)]; apply toks_tokens in HT; inversion HT; tauto).
  destruct (splits_spaceless _ _ _ Hq Sq) as (_ & Sn & _).
  assert (Ln : lacks "." (f_name d0)) by (inversion Hq; subst; auto; congruence).
  assert (P : parse_field (f_name d) = Some (mkF (f_name d) "" "")).
  { apply parse_field_iff. exists (f_name d). simpl. rewrite Hn in *. split; [now constructor|]. left. split; [reflexivity|]. now apply toks_one. }
  unfold f_value, new_field_value, field, field_p, field_or_error. rewrite P. reflexivity.
Qed.
Print Assumptions C48_value_partial.
Example C48_example : exists d0, field "u.id as x" = Ok d0 /\ f_name (f_of d0 "v") = f_name d0 /\ f_name d0 <> "" /\
  f_value (f_of d0 "v") (VOther 1) = Ok (mkFV (mkF "id" "v" "") (VOther 1)).
Proof. eexists. split; [reflexivity|]. split; [reflexivity|]. split; [discriminate|reflexivity]. Qed.

(** * C49 TableFieldName *)

(** Full statement (false): the name is a valid FieldName that reads back to the field. *)
Theorem C49_refuted : exists s d, field s = Ok d /\ validate (table_field_name d) <> None.
Proof. exists "id". eexists. split; [reflexivity|discriminate]. Qed.
Print Assumptions C49_refuted.
Lemma last_char s : s <> "" -> exists x c, s = x ++ String c "".
Proof.
  induction s as [|c s IH]; [congruence|]. intros _. destruct s as [|c' s']; [exists "", c; reflexivity|].
  destruct IH as (x & c2 & E); [discriminate|]. exists (String c x), c2. simpl. now rewrite E.
Qed.
Lemma app_last_inj a b x y : a ++ String x "" = b ++ String y "" -> x = y.
Proof.
  intros H. apply (f_equal chars) in H. rewrite !chars_app in H. apply app_inj_tail in H. tauto.
Qed.
(** Proved part: read back with Field it always gives the table and the name; it is a
    valid name exactly if there is a table and the names obey the rules.
    Missing: Validate for fields without a table. *)
Theorem C49_round_trip_partial : forall s d, field s = Ok d -> f_name d <> "" ->
  field (table_field_name d) = Ok (mkF (f_name d) (f_table d) "") /\
  (f_table d <> "" -> lacks "'" (f_table d ++ f_name d) -> lacks """" (f_table d ++ f_name d) -> validate (table_field_name d) = None).
Proof.
  intros s d Hs Hne. unfold field, field_p, field_or_error in Hs. destruct (parse_field s) as [d'|] eqn:E; [|discriminate].
  injection Hs as ->. apply parse_field_iff in E as (q & Hq & HT).
  assert (Sq : spaceless q) by (destruct HT as [[_ HT]|(w & _ & HT)]; apply toks_tokens in HT; inversion HT; tauto).
  destruct (splits_spaceless _ _ _ Hq Sq) as (St & Sn & Stn).
  assert (L : lacks "." (f_name d) /\ lacks "." (f_table d)) by (inversion Hq; subst; split; auto; apply lacks_nil).
  destruct L as [Ln Lt]. split.
  - unfold table_field_name, render_table_spec, field, field_p, field_or_error.
    assert (P : parse_field (f_table d ++ "." ++ f_name d) = Some (mkF (f_name d) (f_table d) "")).
    { apply parse_field_iff. exists (f_table d ++ "." ++ f_name d). simpl f_table. simpl f_name. split.
      - pose proof (sp_dot (f_table d) (f_name d) "" Lt Ln (or_introl eq_refl)) as H. now rewrite app_nil_r_s in H.
      - left. split; [reflexivity|]. apply toks_one; [|exact Stn]. destruct (f_table d); discriminate. }
    now rewrite P.
  - intros Ht Hq1 Hq2. apply validate_iff. unfold table_field_name, render_table_spec.
    apply lacks_app in Hq1 as [A1 A2]. apply lacks_app in Hq2 as [B1 B2].
    assert (Sp : forall x, spaceless x -> lacks " " x).
    { intros x Hx Hin. apply in_split in Hin as (a & b & Eab). apply (Hx (string_of_list_ascii a) " " (string_of_list_ascii b)).
      - vm_compute. tauto.
      - rewrite <- (string_of_list_ascii_of_string x). unfold chars in Eab. rewrite Eab.
        clear. induction a as [|c a IH]; simpl; [reflexivity|now rewrite IH]. }
    assert (Dot : forall c, c <> "."%char -> lacks c "."). { intros c Hc [H|[]]. congruence. }
    repeat split.
    + destruct (f_table d); discriminate.
    + apply lacks_app. split; [exact A1|]. apply lacks_app. split; [apply Dot; discriminate|exact A2].
    + apply lacks_app. split; [exact B1|]. apply lacks_app. split; [apply Dot; discriminate|exact B2].
    + apply Sp. exact Stn.
    + rewrite !chars_app, !count_occ_app. apply count_occ_not_In with (eq_dec := ascii_dec) in Ln, Lt. unfold chars in *. simpl. lia.
    + intros r Hr. destruct (f_table d) as [|c t]; [congruence|]. injection Hr as -> _. apply Lt. now left.
    + intros r Hr. destruct (last_char (f_name d) Hne) as (x & c & Ex). rewrite Ex in *.
      assert (c = "."%char). { rewrite <- !app_assoc_s in Hr. apply app_last_inj in Hr. congruence. }
      subst c. apply lacks_app in Ln as [_ Ln]. apply Ln. now left.
Qed.
Print Assumptions C49_round_trip_partial.
Example C49_example : exists d, field "u.id as x" = Ok d /\ f_name d <> "" /\ f_table d <> "" /\ table_field_name d = "u.id" /\
  lacks "'" "uid" /\ lacks """" "uid".
Proof. eexists. split; [reflexivity|]. repeat split; try discriminate; unfold lacks; vm_compute; intuition discriminate. Qed.

(** * C50 By and Using join the table of the right field *)

(** Full statement (false): if r is a field of the table t, then jt.By(l, r) (or
    JoinFields(l, r).Using(jt)) joins t.  With an alias the alias is joined as if it
    were a table: Table("orders o").Field("uid") joins a table "o". *)
Theorem C50_alias_refuted : exists s t r l j, table s = Ok t /\ t_field t "uid" = Ok r /\ jt_by LeftJoin l r = Ok j /\
  t_render t = "orders AS o" /\ t_render (j_right j) = "o".
Proof. exists "orders o". eexists _, _, (mkF "id" "u" ""), _. repeat split. Qed.
Print Assumptions C50_alias_refuted.
(** A field without a table panics. *)
Theorem C50_panic_refuted : exists s r l, field s = Ok r /\ jt_by LeftJoin l r = Panic.
Proof. exists "uid". eexists _, (mkF "id" "u" ""). split; reflexivity. Qed.
Print Assumptions C50_panic_refuted.
(** Proved part: fields of an unaliased table read from a text, and fields of a table
    name without white space.  Missing: aliased tables, fields without a table. *)
Theorem C50_by_partial : forall s t fn l r jt, table s = Ok t -> t_alias t = "" -> t_field t fn = Ok r ->
  jt_by jt l r = Ok (mkJ t jt (mkJC l r)).
Proof.
  intros s t fn l r jt Hs Ha Hr. unfold table, table_p, table_or_error in Hs. destruct (parse_table s) as [t'|] eqn:E; [|discriminate].
  injection Hs as ->. destruct (parse_table_shape _ _ E) as (Hn & Sn & _ & _).
  unfold t_field in Hr. apply bind_Ok in Hr as (d & _ & [= <-]). unfold alias_or_name. rewrite Ha. cbn [is_empty negb].
  unfold jt_by, f_of. cbn [f_table]. unfold table, table_p, table_or_error, parse_table.
  assert (G : go_fields (t_name t) = [t_name t]) by (apply toks_iff; now apply toks_one). rewrite G. cbn [bind].
  destruct t as [n a]. simpl in *. subst a. reflexivity.
Qed.
Print Assumptions C50_by_partial.
Theorem C50_name_partial : forall tn fn l r jt, tn <> "" -> spaceless tn -> tn_field tn fn = Ok r ->
  jt_by jt l r = Ok (mkJ (mkT tn "") jt (mkJC l r)).
Proof.
  intros tn fn l r jt Hn Sn Hr. unfold tn_field in Hr. apply bind_Ok in Hr as (d & _ & [= <-]).
  unfold jt_by, f_of. cbn [f_table]. unfold table, table_p, table_or_error, parse_table.
  assert (G : go_fields tn = [tn]) by (apply toks_iff; now apply toks_one). rewrite G. reflexivity.
Qed.
Print Assumptions C50_name_partial.
(** In general: the text of the right field's table is read as a table specification. *)
Theorem C50_exactly : forall jt l r j, ~ (exists n, Toks [n; n] (f_table r)) ->
  (jt_by jt l r = Ok j <-> exists n al, table_form (f_table r) n al /\
     j = mkJ (mkT n (if String.eqb al n then "" else al)) jt (mkJC l r)).
Proof.
  intros jt l r j Hnn. unfold jt_by, table, table_p, table_or_error. split.
  - destruct (parse_table (f_table r)) as [t|] eqn:E; [|discriminate]. intros [= <-].
    apply (parse_table_iff _ t Hnn) in E as (n & al & HF & ->). exists n, al. auto.
  - intros (n & al & HF & ->). assert (E : parse_table (f_table r) = Some (mkT n (if String.eqb al n then "" else al))).
    { apply parse_table_iff; eauto. }
    now rewrite E.
Qed.
Print Assumptions C50_exactly.
Example C50_example : exists t r, table "orders" = Ok t /\ t_alias t = "" /\ t_field t "uid" = Ok r /\
  (do j <- jf_left (mkF "id" "u" "") r; Ok (j_render j)) = Ok "LEFT JOIN orders ON u.id=orders.uid" /\
  ~ (exists n, Toks [n; n] (f_table r)).
Proof.
  eexists _, _. repeat split. intros (n & H). apply toks_iff in H. discriminate.
Qed.

(** * C51 Every join method joins its own way *)

(** the join methods taking a table identifier, with the SQL keyword of each *)
Definition ident_joins : list ((tparam -> tident -> fdef -> fdef -> res bsel) * string) :=
  [((fun p t l r => tp_join p t InnerJoin l r), "INNER"); (tp_inner, "INNER"); (tp_left, "LEFT"); (tp_right, "RIGHT"); (tp_full, "FULL");
   ((fun p t l r => do b <- select_from p; b_inner b t l r), "INNER"); ((fun p t l r => do b <- select_from p; b_left b t l r), "LEFT");
   ((fun p t l r => do b <- select_from p; b_right b t l r), "RIGHT"); ((fun p t l r => do b <- select_from p; b_full b t l r), "FULL");
   ((fun p t l r => do p' <- table_p p; jt_tables LeftJoin p' t l r), "LEFT"); ((fun p t l r => do p' <- table_p p; jt_tables FullJoin p' t l r), "FULL")].
(** the join methods taking a table name *)
Definition name_joins : list ((tparam -> string -> fdef -> fdef -> res bsel) * string) :=
  [((fun p tn l r => do m <- select_many_from p; do m' <- m_inner m tn l r; Ok (m_base m')), "INNER");
   ((fun p tn l r => do m <- select_many_from p; do m' <- m_left m tn l r; Ok (m_base m')), "LEFT");
   ((fun p tn l r => do m <- select_many_from p; do m' <- m_right m tn l r; Ok (m_base m')), "RIGHT");
   ((fun p tn l r => do m <- select_many_from p; do m' <- m_full m tn l r; Ok (m_base m')), "FULL");
   ((fun p tn l r => do m <- select_single_from p; do m' <- ss_inner m tn l r; Ok (ss_base m')), "INNER");
   ((fun p tn l r => do m <- select_single_from p; do m' <- ss_left m tn l r; Ok (ss_base m')), "LEFT");
   ((fun p tn l r => do m <- select_single_from p; do m' <- ss_right m tn l r; Ok (ss_base m')), "RIGHT");
   ((fun p tn l r => do m <- select_single_from p; do m' <- ss_full m tn l r; Ok (ss_base m')), "FULL")].

(** a field with a table, both identifiers *)
Definition table_field (d : fdef) : Prop := name (f_table d) = true /\ name (f_name d) = true.
Definition dotted (d : fdef) : string := f_table d ++ "." ++ f_name d.

Lemma one_join p t0 t jt l r k : table_p p = Ok t0 -> wf_table t0 -> wf_table t -> table_field l -> table_field r ->
  In (jt, k) [(InnerJoin, "INNER"); (LeftJoin, "LEFT"); (RightJoin, "RIGHT"); (FullJoin, "FULL")] ->
  exists b0 b s, select_from p = Ok b0 /\ b_join b0 t jt l r = Ok b /\ b_build b = Ok (mkOut s [] None) /\
    parse_select s = Some (mkSel Star (table_item t0) [mkSJ k (table_item t) (dotted l) (dotted r)] None [] None None).
Proof.
  intros Ep H0 Ht [L1 L2] [R1 R2] Hk. pose (rho := table_row (fun _ => 0)).
  assert (Hj : (0 <= jt <= 3)%Z /\ k = join_word jt).
  { simpl in Hk. repeat destruct Hk as [[= <- <-]|Hk]; try contradiction; (split; [vm_compute; split; discriminate|reflexivity]). }
  assert (Hw : Forall (wf_bcall rho) [BJoin t jt l r]).
  { constructor; [|constructor]. split; [exact Ht|]. split; [apply Hj|]. repeat split; assumption. }
  destruct (base_history rho p t0 _ Ep H0 Hw) as (b0 & b & E0 & Eb & Gb & Ib).
  simpl calls in Eb. destruct (b_join b0 t jt l r) as [b'|] eqn:Ej; [|discriminate]. injection Eb as ->.
  exists b0, b, (join " " (b_tokens b)). destruct (bcall_args rho _ Hw) as (A1 & A2 & A3).
  destruct Ib as (_ & I2 & I3 & I4 & I5).
  assert (N : names_ok b). { split; [now rewrite I3|]. split; [now rewrite I2|]. now rewrite I4. }
  injection I5 as I5. split; [exact E0|]. split; [exact Ej|]. split; [unfold b_build; now rewrite <- I5|].
  rewrite (base_parse b _ None None N); [|rewrite <- (app_nil_r (b_tokens b)), lex_base by exact N; reflexivity|exact I].
  unfold base_sel. rewrite I2, I3, I4. destruct Hj as [_ ->]. reflexivity.
Qed.

(** The statement reads back as the base table, one join of the given kind, table and
    fields, and nothing else. *)
Theorem C51_ident_joins : forall jn k p t0 t l r, In (jn, k) ident_joins -> table_p p = Ok t0 -> wf_table t0 -> wf_table t ->
  table_field l -> table_field r ->
  exists b s, jn p t l r = Ok b /\ b_build b = Ok (mkOut s [] None) /\
    parse_select s = Some (mkSel Star (table_item t0) [mkSJ k (table_item t) (dotted l) (dotted r)] None [] None None).
Proof.
  intros jn k p t0 t l r H Ep H0 Ht Hl Hr.
  assert (K : forall jt, In (jt, k) [(InnerJoin, "INNER"); (LeftJoin, "LEFT"); (RightJoin, "RIGHT"); (FullJoin, "FULL")] ->
    exists b s, (do b0 <- select_from p; b_join b0 t jt l r) = Ok b /\ b_build b = Ok (mkOut s [] None) /\
    parse_select s = Some (mkSel Star (table_item t0) [mkSJ k (table_item t) (dotted l) (dotted r)] None [] None None)).
  { intros jt Hk. destruct (one_join p t0 t jt l r k Ep H0 Ht Hl Hr Hk) as (b0 & b & s & E0 & E1 & E2 & E3).
    exists b, s. rewrite E0. auto. }
  assert (W : forall jt, tp_join p t jt l r = (do b0 <- select_from p; b_join b0 t jt l r)).
  { intros jt. unfold tp_join, tp_select. unfold select_from. destruct p; simpl; try (destruct (table s); reflexivity); reflexivity. }
  assert (V : forall jt, (do p' <- table_p p; jt_tables jt p' t l r) = (do b0 <- select_from p; b_join b0 t jt l r)).
  { intros jt. unfold jt_tables, tp_select, select_from, table. destruct p; simpl; try (destruct (table_p (TPName s)) eqn:E);
      try (rewrite <- E); try reflexivity; unfold table_p, table_or_error in *; destruct (parse_table s); try discriminate; try reflexivity;
      injection E as <-; reflexivity. }
  unfold ident_joins in H. simpl in H.
  repeat destruct H as [[= <- <-]|H]; try contradiction; unfold tp_inner, tp_left, tp_right, tp_full, b_inner, b_left, b_right, b_full;
    rewrite ?W, ?V; apply K; simpl; tauto.
Qed.
Print Assumptions C51_ident_joins.
Theorem C51_name_joins : forall jn k p t0 tn t l r, In (jn, k) name_joins -> table_p p = Ok t0 -> wf_table t0 ->
  table tn = Ok t -> wf_table t -> table_field l -> table_field r ->
  exists b s, jn p tn l r = Ok b /\ b_build b = Ok (mkOut s [] None) /\
    parse_select s = Some (mkSel Star (table_item t0) [mkSJ k (table_item t) (dotted l) (dotted r)] None [] None None).
Proof.
  intros jn k p t0 tn t l r H Ep H0 Et Ht Hl Hr.
  assert (K : forall jt, In (jt, k) [(InnerJoin, "INNER"); (LeftJoin, "LEFT"); (RightJoin, "RIGHT"); (FullJoin, "FULL")] ->
    exists b0 b s, select_from p = Ok b0 /\ b_join b0 t jt l r = Ok b /\ b_build b = Ok (mkOut s [] None) /\
    parse_select s = Some (mkSel Star (table_item t0) [mkSJ k (table_item t) (dotted l) (dotted r)] None [] None None)).
  { intros jt Hk. exact (one_join p t0 t jt l r k Ep H0 Ht Hl Hr Hk). }
  unfold name_joins in H. simpl in H.
  repeat destruct H as [[= <- <-]|H]; try contradiction;
    unfold m_inner, m_left, m_right, m_full, ss_inner, ss_left, ss_right, ss_full, select_many_from, select_single_from;
    match goal with |- context [?f _ tn ?jt l r] => destruct (K jt) as (b0 & b & s & E0 & E1 & E2 & E3); [simpl; tauto|] end;
    exists b, s; rewrite E0; cbn [bind]; unfold m_join, ss_join; rewrite Et; cbn [bind m_base many_of ss_base single_of]; rewrite E1; auto.
Qed.
Print Assumptions C51_name_joins.
Example C51_example : table_p (TPStr "users as u") = Ok (mkT "users" "u") /\ wf_table (mkT "users" "u") /\ wf_table (mkT "orders" "o") /\
  table "orders o" = Ok (mkT "orders" "o") /\ table_field (mkF "id" "u" "") /\
  (do b <- tp_right (TPStr "users as u") (mkT "orders" "o") (mkF "id" "u" "") (mkF "uid" "o" ""); b_build b) =
    Ok (mkOut "SELECT * FROM users AS u RIGHT JOIN orders AS o ON u.id=o.uid" [] None).
Proof. repeat split; try (constructor; reflexivity); right; reflexivity. Qed.
