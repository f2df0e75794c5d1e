(** Property theorems about sorting, counting, aliases and the FROM clause. *)
From Coq Require Import String Ascii List Bool Arith Lia NArith ZArith.
From Verif Require Import GoStr Value Names Cond Build Surface SqlSpec Spec StrFacts SqlFacts CondFacts CondText CondSem TreeFacts
  CondLogic CondMeaning Built CondThms PropsCond NameFacts PropsNames StmtFacts Calls BuildFacts BuildThms StmtText PropsSelect PropsWrite.
Import ListNotations.
Local Open Scope string_scope.
Local Open Scope nat_scope.

(** * C65 ORDER BY and COUNT use the field they were given *)

(** A name in ORDER BY is the alias of a selected column if one has it as alias, and else a
    column of a table (SQL); the column it stands for is to be the same for all that have it. *)
Definition denotes (cols : list item) (key col : string) : Prop :=
  (forall i, In i cols -> it_alias i = Some key -> it_text i = col) /\
  ((exists i, In i cols /\ it_alias i = Some key) \/ key = col).
Definition col_items (c : colspec) : list item := match c with Cols l => l | _ => [] end.

(** Full statement (false): the n-th key of ORDER BY stands for the column of the n-th field
    given to OrderBy and has its direction. *)
Definition sorts_by (sel : select) (os : list fsort) : Prop :=
  Forall2 (fun k o => denotes (col_items (s_cols sel)) (fst k) (column (s_def o)) /\ snd k = s_dir o) (s_order sel) os.

(** A field with an alias that is not selected is sorted by its alias, which nothing defines. *)
Theorem C65_alias_refuted : exists o f m s sel, asc "total" = Ok o /\ field "o.total as sum" = Ok f /\
  (do b <- select_from (TPStr "orders o"); calls m_call (many_of b) [MOrder [s_apply_spec o f]]) = Ok m /\
  m_build m = Ok (mkOut s [] None) /\ s = "SELECT * FROM orders AS o ORDER BY sum ASC" /\
  parse_select s = Some sel /\ ~ sorts_by sel [s_apply_spec o f].
Proof.
  do 5 eexists. split; [vm_compute; reflexivity|]. split; [vm_compute; reflexivity|]. split; [vm_compute; reflexivity|].
  split; [vm_compute; reflexivity|]. split; [reflexivity|]. split; [vm_compute; reflexivity|].
  intros H. vm_compute in H. inversion H as [|? ? ? ? [[_ [(i & [] & _)|D]] _] _]; subst. discriminate.
Qed.
Print Assumptions C65_alias_refuted.
(** Fields("a as b").OrderBy("b") sorts by a. *)
Theorem C65_shadow_refuted : exists o f m s sel, asc "b" = Ok o /\ field "a as b" = Ok f /\
  (do b <- select_from (TPStr "t"); calls m_call (many_of b) [MFields [f]; MOrder [o]]) = Ok m /\
  m_build m = Ok (mkOut s [] None) /\ s = "SELECT a AS b FROM t ORDER BY b ASC" /\
  parse_select s = Some sel /\ ~ sorts_by sel [o].
Proof.
  do 5 eexists. split; [vm_compute; reflexivity|]. split; [vm_compute; reflexivity|]. split; [vm_compute; reflexivity|].
  split; [vm_compute; reflexivity|]. split; [reflexivity|]. split; [vm_compute; reflexivity|].
  intros H. vm_compute in H. inversion H as [|? ? ? ? [[D _] _] _]; subst.
  specialize (D _ (or_introl eq_refl) eq_refl). discriminate.
Qed.
Print Assumptions C65_shadow_refuted.

Definition own_name (d : fdef) : Prop := f_alias d = "" \/ f_alias d = f_name d.
(** The field has no other name, or is selected under it; nothing else is selected under the name used. *)
Definition sortable (fs : list fdef) (d : fdef) : Prop :=
  (own_name d /\ forall f, In f fs -> f_alias f = column d -> column f = column d) \/
  (~ own_name d /\ (exists f, In f fs /\ f_alias f = f_alias d) /\
   forall f, In f fs -> f_alias f = f_alias d -> column f = column d).

Lemma in_cols fs i : In i (col_items (cols_item fs)) <-> exists f, In f fs /\ i = field_item f.
Proof.
  destruct fs as [|f fs]; [simpl; split; [intros []|intros (f & [] & _)]|].
  change (col_items (cols_item (f :: fs))) with (map field_item (f :: fs)). rewrite in_map_iff.
  split; intros (x & A & B); exists x; auto.
Qed.
Lemma own_key d : own_name d -> fst (sort_item (mkS d "")) = column d.
Proof. intros [H|H]; cbn [sort_item s_def fst]; rewrite H; [reflexivity|]. now rewrite String.eqb_refl, orb_true_r. Qed.
Lemma other_key d : ~ own_name d -> fst (sort_item (mkS d "")) = f_alias d.
Proof.
  intros H. cbn [sort_item s_def fst]. destruct (is_empty (f_alias d)) eqn:E.
  { exfalso. apply H. left. destruct (f_alias d); [reflexivity|discriminate]. }
  destruct (String.eqb_spec (f_alias d) (f_name d)) as [e|_]; [|reflexivity]. exfalso. apply H. now right.
Qed.
Lemma item_alias f k : it_alias (field_item f) = Some k -> f_alias f = k.
Proof. cbn [field_item it_alias]. destruct (_ || _); congruence. Qed.
Lemma sortable_denotes fs o : sortable fs (s_def o) -> denotes (col_items (cols_item fs)) (fst (sort_item o)) (column (s_def o)).
Proof.
  change (fst (sort_item o)) with (fst (sort_item (mkS (s_def o) ""))). generalize (s_def o) as d. clear o. intros d [(Ho & H)|(Ho & (f & Hf & Ea) & H)].
  - rewrite (own_key d Ho). split; [|now right]. intros i Hi. apply in_cols in Hi as (f & Hf & ->).
    intros E. apply item_alias in E. exact (H _ Hf E).
  - rewrite (other_key d Ho). split.
    + intros i Hi. apply in_cols in Hi as (g & Hg & ->). intros E. apply item_alias in E. exact (H _ Hg E).
    + destruct (it_alias (field_item f)) as [k|] eqn:E.
      * left. exists (field_item f). split; [apply in_cols; eauto|]. pose proof (item_alias _ _ E). congruence.
      * right. rewrite <- (H _ Hf Ea), <- Ea. cbn [field_item it_alias] in E.
        destruct (is_empty (f_alias f)) eqn:E1.
        { exfalso. apply Ho. left. rewrite <- Ea. destruct (f_alias f); [reflexivity|discriminate]. }
        cbn [orb] in E. destruct (_ && _) eqn:E2; [|discriminate]. apply andb_true_iff in E2 as [E2 E3].
        apply String.eqb_eq in E2. unfold column. now rewrite E3.
Qed.
(** For every state of a SelectMany builder with well-formed names. Missing: fields with an alias that is not
    selected, and fields whose name is the alias of another selected column. *)
Theorem C65_order_partial : forall rho m, names_ok (m_base m) -> Forall wf_sort (m_order m) -> where_ready rho (b_where (m_base m)) ->
  Forall (fun o => sortable (b_fields (m_base m)) (s_def o)) (m_order m) ->
  exists s ps sel, m_build m = Ok (mkOut s ps None) /\ parse_select s = Some sel /\ sorts_by sel (m_order m).
Proof.
  intros rho m Hn Ho Hr Hs. destruct (many_build rho m Hn Ho Hr) as (s & ps & we & E1 & _ & _ & E3).
  do 3 eexists. split; [exact E1|]. split; [exact E3|]. unfold sorts_by. cbn [s_cols s_order].
  clear - Hs. induction Hs as [|o os Hd Hs IH]; constructor; auto. split; [now apply sortable_denotes|reflexivity].
Qed.
Print Assumptions C65_order_partial.
Definition f_sum : fdef := mkF "total" "o" "sum".
Example C65_order_example : exists m,
  (do b <- select_from (TPStr "orders o");
   calls m_call (many_of b) [MFields [mkF "id" "o" ""; f_sum]; MOrder [mkS f_sum "DESC"; mkS (mkF "id" "o" "") "ASC"]]) = Ok m /\
  m_build m = Ok (mkOut "SELECT o.id, o.total AS sum FROM orders AS o ORDER BY sum DESC, o.id ASC" [] None) /\
  names_ok (m_base m) /\ Forall wf_sort (m_order m) /\ (forall rho, where_ready rho (b_where (m_base m))) /\
  Forall (fun o => sortable (b_fields (m_base m)) (s_def o)) (m_order m).
Proof.
  eexists. split; [vm_compute; reflexivity|]. split; [vm_compute; reflexivity|]. split; [|split; [|split]].
  - split; [repeat (constructor; [by_field|]); constructor|]. split; [|constructor]. split; [constructor; reflexivity|by_name].
  - repeat (constructor; [split; [by_field|by_name]|]). constructor.
  - intros rho. now left.
  - constructor; [|constructor; [|constructor]].
    + right. split; [intros [H|H]; discriminate|]. split; [exists f_sum; split; [right; now left|reflexivity]|].
      intros f [<-|[<-|[]]]; [discriminate|reflexivity].
    + left. split; [now left|]. intros f [<-|[<-|[]]]; discriminate.
Qed.

(** Full statement (false): Count(base, field) counts the column of the field. *)
Definition counts_column (s : string) (f : fdef) : Prop :=
  exists sel, parse_select s = Some sel /\ s_cols sel = CountCol (column f).
(** A field with an alias is counted by its alias, which a COUNT statement does not define. *)
Theorem C65_count_refuted : exists f b q s, field "o.total as sum" = Ok f /\ select_from (TPStr "orders o") = Ok b /\
  count b ["o.total as sum"] = Ok q /\ cs_build q = Ok (mkOut s [] None) /\
  s = "SELECT COUNT(sum) FROM orders AS o" /\ ~ counts_column s f.
Proof.
  do 4 eexists. split; [vm_compute; reflexivity|]. split; [vm_compute; reflexivity|]. split; [vm_compute; reflexivity|].
  split; [vm_compute; reflexivity|]. split; [reflexivity|]. intros (sel & E & F). vm_compute in E. injection E as <-. discriminate F.
Qed.
Print Assumptions C65_count_refuted.
(** For every state of a base builder with well-formed names. Missing: fields with another alias. *)
Theorem C65_count_partial : forall rho b x f more, names_ok b -> where_ready rho (b_where b) -> field x = Ok f -> wf_field f -> own_name f ->
  exists q s ps, count b (x :: more) = Ok q /\ cs_build q = Ok (mkOut s ps None) /\ counts_column s f.
Proof.
  intros rho b x f more Hn Hr Ef Hf Ho. unfold count. rewrite Ef. cbn [bind].
  destruct (count_build rho {| cs_base := b; cs_field := f |}) as (s & ps & we & E & _ & _ & P); auto; [now right|].
  do 3 eexists. split; [reflexivity|]. split; [exact E|]. eexists. split; [exact P|]. cbn [s_cols cs_field]. unfold count_item.
  change (fst (sort_item (mkS f "ASC"))) with (fst (sort_item (mkS f ""))). rewrite (own_key f Ho).
  destruct (String.eqb_spec (f_name f) "*") as [e|_]; [|reflexivity]. destruct Hf as [Hf _]. rewrite e in Hf. discriminate.
Qed.
Print Assumptions C65_count_partial.
Example C65_count_example : exists b f, select_from (TPStr "orders o") = Ok b /\ field "o.total" = Ok f /\ names_ok b /\
  (forall rho, where_ready rho (b_where b)) /\ wf_field f /\ own_name f /\
  (do q <- count b ["o.total"]; cs_build q) = Ok (mkOut "SELECT COUNT(o.total) FROM orders AS o" [] None).
Proof.
  do 2 eexists. split; [vm_compute; reflexivity|]. split; [vm_compute; reflexivity|]. split.
  { split; [constructor|]. split; [|constructor]. split; [constructor; reflexivity|by_name]. }
  split; [intros rho; now left|]. split; [by_field|]. split; [now left|]. vm_compute. reflexivity.
Qed.

(** * C66 As and Of *)

(** FieldDefinition.Alias is documented as "Same as FieldName until As not called", and FieldOrError as giving an
    empty alias for "x as x". *)
Theorem C66_alias_refuted : exists s d, field s = Ok d /\ s = "id" /\ f_alias d <> f_name d.
Proof. exists "id". eexists. split; [vm_compute; reflexivity|]. split; [reflexivity|discriminate]. Qed.
Print Assumptions C66_alias_refuted.
Theorem C66_same_alias_refuted : exists s d, field_or_error (FPStr s) = Some d /\ s = "id as id" /\ f_table d = "" /\ f_alias d <> "".
Proof. exists "id as id". eexists. split; [vm_compute; reflexivity|]. split; [reflexivity|]. split; [reflexivity|discriminate]. Qed.
Print Assumptions C66_same_alias_refuted.

(** the columns of a select with these fields *)
Definition selects (b : bsel) (fs : list fdef) (l : list item) : Prop :=
  exists s ps sel, b_build (b_set_fields b fs) = Ok (mkOut s ps None) /\ parse_select s = Some sel /\ s_cols sel = Cols l.
(** At any place in the columns of any select: As gives the column its alias, Of its table; the last call of each
    counts and the other parts stay. An alias equal to the name is left out of a field without a table only. *)
Theorem C66_fields : forall rho b pre d post, names_ok (b_set_fields b (pre ++ d :: post)) -> where_ready rho (b_where b) ->
  exists l r i, selects b (pre ++ d :: post)%list (l ++ i :: r) /\ length l = length pre /\ length r = length post /\
    (forall a, name a = true -> selects b (pre ++ f_as d a :: post)%list
       (l ++ mkItem (it_text i) (if String.eqb a (f_name d) && String.eqb (f_table d) "" then None else Some a) :: r)) /\
    (forall t, name t = true -> exists al, selects b (pre ++ f_of d t :: post)%list (l ++ mkItem (t ++ "." ++ f_name d) al :: r) /\
       al = if String.eqb (f_alias d) "" then None else Some (f_alias d)) /\
    (forall a a' t t', f_as (f_as d a) a' = f_as d a' /\ f_of (f_of d t) t' = f_of d t' /\ f_as (f_of d t) a = f_of (f_as d a) t).
Proof.
  intros rho b pre d post Hn Hr. destruct Hn as (Hf & Ht & Hj). cbn [b_set_fields b_fields b_table b_joins] in *.
  pose proof Hf as Hf0. apply Forall_app in Hf as [Hp Hf]. inversion Hf as [|? ? Hd Hq]; subst.
  assert (S : forall x, wf_field x -> selects b (pre ++ x :: post)%list (map field_item pre ++ field_item x :: map field_item post)).
  { intros x Hx. destruct (base_build rho (b_set_fields b (pre ++ x :: post)%list)) as (s & ps & w & we & E & El & Hw & _).
    - split; [apply Forall_app; auto|]. auto.
    - exact Hr.
    - do 3 eexists. split; [exact E|]. split; [eapply base_parse; [|exact El|exact Hw]|].
      + split; [apply Forall_app; auto|]. auto.
      + cbn [base_sel s_cols b_set_fields b_fields]. unfold cols_item.
        destruct (pre ++ x :: post)%list eqn:Z; [destruct pre; discriminate|]. rewrite <- Z, map_app. reflexivity. }
  exists (map field_item pre), (map field_item post), (field_item d).
  split; [now apply S|]. split; [apply map_length|]. split; [apply map_length|]. destruct Hd as (D1 & D2 & D3). split; [|split].
  - intros a Ha. match goal with |- selects _ _ (_ ++ ?i :: _)%list => replace i with (field_item (f_as d a)) end.
    + apply S. split; [exact D1|]. split; [exact D2|]. now right.
    + unfold field_item, f_as, column. cbn [f_name f_table f_alias it_text]. f_equal.
      destruct a; [discriminate|]. cbn [is_empty orb]. destruct (f_table d); reflexivity.
  - intros t Ht'. eexists. split; [|reflexivity]. match goal with |- selects _ _ (_ ++ ?i :: _)%list => replace i with (field_item (f_of d t)) end.
    + apply S. split; [exact D1|]. split; [now right|]. exact D3.
    + unfold field_item, f_of, column. cbn [f_name f_table f_alias it_text]. destruct t; [discriminate|]. cbn [is_empty].
      rewrite andb_false_r, orb_false_r. destruct (f_alias d); reflexivity.
  - now intros.
Qed.
Print Assumptions C66_fields.
Example C66_fields_example : exists b, select_from (TPStr "orders o") = Ok b /\
  names_ok (b_set_fields b [mkF "id" "" ""; mkF "total" "" ""]) /\ (forall rho, where_ready rho (b_where b)) /\
  b_build (b_set_fields b [mkF "id" "" ""; f_as (f_of (mkF "total" "" "") "o") "sum"]) =
    Ok (mkOut "SELECT id, o.total AS sum FROM orders AS o" [] None).
Proof.
  eexists. split; [vm_compute; reflexivity|]. split; [|split; [intros rho; now left|vm_compute; reflexivity]].
  split; [repeat (constructor; [by_field|]); constructor|]. split; [|constructor]. split; [constructor; reflexivity|by_name].
Qed.

(** A table under an alias: FROM has the alias, unless it is the name, and Field on the table uses the alias, or else
    the name, as qualifier, so that a select of such fields reads as one of columns of that table. *)
Theorem C66_tables : forall t a fn d, wf_table t -> name a = true -> field fn = Ok d -> wf_field d ->
  exists b f s sel, select_from (TPIdent (t_as t a)) = Ok b /\ t_field (t_as t a) fn = Ok f /\
    b_build (b_set_fields b [f]) = Ok (mkOut s [] None) /\ parse_select s = Some sel /\
    s_from sel = mkItem (t_name t) (if String.eqb a (t_name t) then None else Some a) /\
    s_cols sel = Cols [mkItem (a ++ "." ++ f_name d) (if String.eqb (f_alias d) "" then None else Some (f_alias d))] /\
    s_joins sel = [] /\ s_where sel = None.
Proof.
  intros t a fn d Ht Ha Ed Hd. pose (rho := table_row (fun _ => 0)).
  assert (A : alias_or_name (t_as t a) = a).
  { unfold alias_or_name, t_as. cbn [t_alias t_name]. unfold str_eqb. destruct (String.eqb_spec a (t_name t)) as [->|_]; [reflexivity|].
    destruct a; [discriminate|reflexivity]. }
  unfold select_from, t_field. rewrite Ed, A. cbn [bind]. destruct Hd as (D1 & D2 & D3).
  exists (mkB DoSelect (t_as t a) [] [] empty_group), (f_of d a). match goal with |- context [b_build ?x] => assert (N : names_ok x /\ where_ready rho (b_where x)) end.
  { split; [|now left]. split; [|split; [|constructor]].
    - constructor; [|constructor]. split; [exact D1|]. split; [now right|exact D3].
    - split; [apply Ht|]. cbn [b_set_fields b_table t_as t_alias]. destruct (str_eqb a (t_name t)); [now left|now right]. }
  destruct N as [N R]. match goal with |- context [b_build ?x] => destruct (base_build rho x N R) as (s & ps & w & we & E & El & Hw & Hs) end.
  pose proof (base_parse _ _ _ _ N El Hw) as P. destruct we as [e|]; [exfalso; now apply (proj1 Hs)|].
  destruct Hs as [_ ->]. exists s. eexists. split; [reflexivity|]. split; [reflexivity|]. split; [exact E|]. split; [exact P|].
  cbn [base_sel s_from s_cols s_joins s_where b_set_fields b_table b_joins b_fields cols_item map]. split; [|split; [|split; reflexivity]].
  - unfold table_item, t_as. cbn [t_name t_alias]. unfold str_eqb. destruct (String.eqb_spec a (t_name t)) as [e|n]; [reflexivity|].
    apply String.eqb_neq in n. rewrite n. destruct a; [discriminate|reflexivity].
  - unfold field_item, f_of, column. cbn [f_name f_table f_alias]. destruct a; [discriminate|]. cbn [is_empty].
    rewrite andb_false_r, orb_false_r. destruct (f_alias d); reflexivity.
Qed.
Print Assumptions C66_tables.
Example C66_tables_example : let t := mkT "orders" "" in wf_table t /\ name "o" = true /\
  (exists d, field "total as sum" = Ok d /\ wf_field d) /\
  (do b <- select_from (TPIdent (t_as t "o")); do f <- t_field (t_as t "o") "total as sum"; b_build (b_set_fields b [f])) =
    Ok (mkOut "SELECT o.total AS sum FROM orders AS o" [] None).
Proof.
  split; [split; [constructor; reflexivity|by_name]|]. split; [reflexivity|]. split; [|vm_compute; reflexivity].
  eexists. split; [vm_compute; reflexivity|by_field].
Qed.

(** * C67 Respecified orderings *)

(** what a key of ORDER BY is to be: alias if it has another one, else the column *)
Definition key_of (d : fdef) (k : string) : Prop := (own_name d -> k = column d) /\ (~ own_name d -> k = f_alias d).
(** ApplyFieldSpec on every ordering of a select gives the same statement but for the keys of fields of that name, which
    become those of the specification; directions and places stay. *)
Theorem C67_spec : forall rho m spec, names_ok (m_base m) -> Forall wf_sort (m_order m) -> where_ready rho (b_where (m_base m)) -> wf_field spec ->
  exists s s' ps sel ks, m_build m = Ok (mkOut s ps None) /\ parse_select s = Some sel /\
    m_build (m_set_order m (map (fun o => s_apply_spec o spec) (m_order m))) = Ok (mkOut s' ps None) /\
    parse_select s' = Some (mkSel (s_cols sel) (s_from sel) (s_joins sel) (s_where sel) ks (s_offset sel) (s_limit sel)) /\
    length ks = length (s_order sel) /\
    forall n o k k', nth_error (m_order m) n = Some o -> nth_error (s_order sel) n = Some k -> nth_error ks n = Some k' ->
      snd k' = snd k /\ (f_name (s_def o) <> f_name spec -> k' = k) /\ (f_name (s_def o) = f_name spec -> key_of spec (fst k')).
Proof.
  intros rho m spec Hn Ho Hr Hs. destruct (many_build rho m Hn Ho Hr) as (s & ps & we & E1 & _ & (t & Eb & Et) & E3).
  set (m' := m_set_order m (map (fun o => s_apply_spec o spec) (m_order m))).
  assert (Ho' : Forall wf_sort (m_order m')).
  { cbn [m' m_set_order m_order]. apply Forall_map. eapply Forall_impl; [|exact Ho]. intros o [Hd Hx]. split; [|exact Hx].
    cbn [s_apply_spec s_def]. unfold apply_spec. destruct (str_eqb _ _); auto. }
  destruct (many_build rho m' Hn Ho' Hr) as (s' & ps' & we' & F1 & _ & (t' & Fb & Ft) & F3).
  cbn [m' m_set_order m_base] in Fb, Ft. rewrite Eb in Fb. injection Fb as <- <-. rewrite Et in Ft. injection Ft as <-.
  exists s, s'. eexists. eexists. eexists. split; [exact E1|]. split; [exact E3|]. split; [exact F1|]. split; [exact F3|].
  cbn [s_order m' m_set_order m_order]. split; [now rewrite !map_length|].
  intros n o k k' A B C. rewrite nth_error_map, A in B. rewrite map_map, nth_error_map, A in C.
  cbn [option_map] in B, C. injection B as <-. injection C as <-. split; [reflexivity|].
  unfold s_apply_spec, apply_spec, str_eqb. destruct (String.eqb_spec (f_name (s_def o)) (f_name spec)) as [e|n'].
  - split; [now intros []|]. intros _. split; [apply (own_key spec)|apply (other_key spec)].
  - split; [reflexivity|contradiction].
Qed.
Print Assumptions C67_spec.
(** The unexported applySpecToOrdering is this too. *)
Theorem C67_unexported : forall m spec, m_spec_order m spec = m_set_order m (map (fun o => s_apply_spec o spec) (m_order m)).
Proof.
  intros m spec. unfold m_spec_order. f_equal. apply map_ext. intros [d dir]. unfold s_apply_spec, apply_spec, str_eqb. cbn [s_def s_dir].
  rewrite (String.eqb_sym (f_name spec)). now destruct (String.eqb (f_name d) (f_name spec)).
Qed.
Print Assumptions C67_unexported.
Example C67_spec_example : exists m, (do b <- select_from (TPStr "orders o"); calls m_call (many_of b)
    [MOrder [mkS (mkF "total" "" "") "DESC"; mkS (mkF "id" "" "") "ASC"]; MLimit 3]) = Ok m /\
  names_ok (m_base m) /\ Forall wf_sort (m_order m) /\ (forall rho, where_ready rho (b_where (m_base m))) /\ wf_field (mkF "total" "o" "") /\
  m_build (m_set_order m (map (fun o => s_apply_spec o (mkF "total" "o" "")) (m_order m))) =
    Ok (mkOut "SELECT * FROM orders AS o ORDER BY o.total DESC, id ASC LIMIT $1" [VUint 3] None).
Proof.
  eexists. split; [vm_compute; reflexivity|]. split.
  { split; [constructor|]. split; [|constructor]. split; [constructor; reflexivity|by_name]. }
  split; [repeat (constructor; [split; [by_field|by_name]|]); constructor|]. split; [intros rho; now left|]. split; [by_field|vm_compute; reflexivity].
Qed.

(** * C68 RenderFrom *)

(** Put after SELECT * FROM, the text of RenderFrom of a select builder reads as the tables and joins that the statement
    of the builder, of a single or many select and of a count on it have. *)
Theorem C68_select : forall rho b, names_ok b -> where_ready rho (b_where b) ->
  exists from joins, parse_select ("SELECT * FROM " ++ b_render_from b) = Some (mkSel Star from joins None [] None None) /\
    (forall m, m_base m = b -> Forall wf_sort (m_order m) -> m_render_from m = b_render_from b /\
       exists s ps sel, m_build m = Ok (mkOut s ps None) /\ parse_select s = Some sel /\ s_from sel = from /\ s_joins sel = joins) /\
    (forall q, ss_base q = b -> ss_render_from q = b_render_from b /\
       exists s ps sel, ss_build q = Ok (mkOut s ps None) /\ parse_select s = Some sel /\ s_from sel = from /\ s_joins sel = joins) /\
    (forall c, cs_base c = b -> wf_count (cs_field c) -> cs_render_from c = b_render_from b /\
       exists s ps sel, cs_build c = Ok (mkOut s ps None) /\ parse_select s = Some sel /\ s_from sel = from /\ s_joins sel = joins).
Proof.
  intros rho b Hn Hr. exists (table_item (b_table b)), (map join_item (b_joins b)). split; [|split; [|split]].
  - set (b' := mkB DoSelect (b_table b) (b_joins b) [] zero_group).
    assert (N : names_ok b') by (split; [constructor|apply Hn]).
    destruct (base_build rho b' N (or_introl eq_refl)) as (s & ps & w & we & E & El & Hw & Hs).
    destruct we as [e|]; [exfalso; now apply (proj1 Hs)|]. pose proof (base_parse _ _ _ _ N El Hw) as P.
    replace ("SELECT * FROM " ++ b_render_from b) with s; [exact P|]. cbv [b_build b' b_where zero_group g_cs nonempty] in E.
    injection E as <- _. unfold b_render_from, b_tokens. cbn [b_fields field_list b_table b_joins app]. reflexivity.
  - intros m <- Ho. split; [reflexivity|]. destruct (many_build rho m Hn Ho Hr) as (s & ps & we & E1 & _ & _ & E3).
    do 3 eexists. split; [exact E1|]. split; [exact E3|]. split; reflexivity.
  - intros q <-. split; [reflexivity|]. destruct (single_build rho q Hn Hr) as (s & ps & we & E1 & _ & _ & _ & E3).
    do 3 eexists. split; [exact E1|]. split; [exact E3|]. split; reflexivity.
  - intros c <- Hc. split; [reflexivity|]. destruct (count_build rho c Hn Hc Hr) as (s & ps & we & E1 & _ & _ & E3).
    do 3 eexists. split; [exact E1|]. split; [exact E3|]. split; reflexivity.
Qed.
Print Assumptions C68_select.
Example C68_select_example : b_render_from b_sample = "users AS u LEFT JOIN orders AS o ON u.id=o.uid" /\
  names_ok b_sample /\ (forall rho, where_ready rho (b_where b_sample)) /\ wf_count (mkF "id" "u" "") /\ Forall wf_sort [ord_asc "id"].
Proof.
  split; [vm_compute; reflexivity|]. destruct C31_example as (A & _ & B). split; [exact A|]. split; [exact B|].
  split; [right; by_field|]. constructor; [split; [by_field|by_name]|constructor].
Qed.
(** RenderFrom of the other builders is the table that their statement writes to. *)
Theorem C68_write : forall rho,
  (forall i vs, qname (i_table i) -> i_values i <> [] -> singles (i_values i) vs ->
     Forall (fun c => name c = true) (col_names (i_values i)) ->
     exists s ps st, i_build i = Ok (mkOut s ps None) /\ parse_insert s = Some st /\ in_table st = i_render_from i) /\
  (forall u vs, qname (u_table u) -> u_values u <> [] -> singles (u_values u) vs ->
     Forall (fun c => name c = true) (col_names (u_values u)) -> g_cs (u_where u) <> [] ->
     wf (of_g (u_where u)) -> sound rho (of_g (u_where u)) ->
     exists s ps st, u_build u = Ok (mkOut s ps None) /\ parse_update s = Some st /\ up_table st = u_render_from u) /\
  (forall d, qname (d_table d) -> g_cs (d_where d) <> [] -> wf (of_g (d_where d)) -> sound rho (of_g (d_where d)) ->
     exists s ps st, d_build d = Ok (mkOut s ps None) /\ parse_delete s = Some st /\ de_table st = d_render_from d).
Proof.
  intros rho. split; [|split].
  - intros i vs H1 H2 H3 H4. destruct (insert_build i vs H1 H2 H3 H4) as (s & E & P). do 3 eexists. split; [exact E|]. split; [exact P|reflexivity].
  - intros u vs H1 H2 H3 H4 H5 H6 H7. destruct (update_build rho u vs H1 H2 H3 H4 H5 H6 H7) as (s & ws & e & v & E & _ & P & _).
    do 3 eexists. split; [exact E|]. split; [exact P|reflexivity].
  - intros d H1 H2 H3 H4. destruct (delete_build rho d H1 H2 H3 H4) as (s & ws & e & v & E & _ & P & _).
    do 3 eexists. split; [exact E|]. split; [exact P|reflexivity].
Qed.
Print Assumptions C68_write.
Example C68_write_example : exists d, d_add_where (delete_ (TPName "users")) [sample] = Ok d /\ qname (d_table d) /\ g_cs (d_where d) <> [] /\
  d_render_from d = "users" /\ exists s ps, d_build d = Ok (mkOut s ps None) /\
  s = "DELETE FROM users WHERE t.a IN ($1,$2) AND (b=$3 OR c NOT LIKE $4)".
Proof.
  eexists. split; [vm_compute; reflexivity|]. split; [constructor; reflexivity|]. split; [discriminate|]. split; [reflexivity|].
  do 2 eexists. split; vm_compute; reflexivity.
Qed.

(** * C69 NewFields *)

(** the field an argument stands for: itself, or the one its text names (C25) *)
Definition stands_for (a : option fparam) (d : fdef) : Prop :=
  match a with
  | Some (FPDef d') => d = d'
  | Some (FPStr s) | Some (FPName s) => exists q, splits q (f_table d) (f_name d) /\
      ((f_alias d = "" /\ Toks [q] s) \/ exists w, In w as_words /\ Toks [q; w; f_alias d] s)
  | None => False
  end.
Lemma stands_iff a d : stands_for a d <-> match a with Some p => field_p p | None => Panic end = Ok d.
Proof.
  destruct a as [[s|s|d']|]; cbn [stands_for].
  - rewrite <- C25_accepted. unfold field_p. destruct (field_or_error _); split; congruence.
  - rewrite <- C25_accepted. unfold field_p. cbn [field_or_error]. destruct (parse_field s); split; congruence.
  - unfold field_p. cbn [field_or_error]. split; congruence.
  - split; [intros []|discriminate].
Qed.
(** One field per argument, in order; it panics exactly if an argument stands for no field. *)
Theorem C69_new_fields : forall args,
  (forall fs, new_fields args = Ok fs <-> Forall2 stands_for args fs) /\
  (new_fields args = Panic <-> exists a, In a args /\ forall d, ~ stands_for a d).
Proof.
  unfold new_fields. induction args as [|a args [IH1 IH2]]; cbn [mapM].
  { split; [intros fs; split; [intros [= <-]; constructor|intros H; now inversion H]|]. split; [discriminate|intros (a & [] & _)]. }
  pose proof (stands_iff a) as S. destruct (match a with Some p => field_p p | None => Panic end) as [d|] eqn:E; cbn [bind].
  - assert (D : stands_for a d) by now apply S. destruct (mapM _ args) as [ds|] eqn:F; cbn [bind].
    + split.
      * intros fs. split; [intros [= <-]; constructor; [exact D|now apply IH1]|].
        intros H. inversion H as [|? x ? y Hx Hy]; subst. apply S in Hx. apply IH1 in Hy. congruence.
      * split; [discriminate|]. intros (x & [<-|Hx] & N); [now apply N in D|].
        assert (X : Ok ds = Panic) by (apply IH2; eauto). discriminate X.
    + split.
      * intros fs. split; [discriminate|]. intros H. inversion H as [|? x ? y Hx Hy]; subst. apply IH1 in Hy. discriminate Hy.
      * split; [|reflexivity]. intros _. destruct (proj1 IH2 eq_refl) as (x & Hx & N). exists x. split; [now right|exact N].
  - split.
    + intros fs. split; [discriminate|]. intros H. inversion H as [|? x ? y Hx Hy]; subst. apply S in Hx. discriminate Hx.
    + split; [|reflexivity]. intros _. exists a. split; [now left|]. intros d Hd. apply S in Hd. discriminate Hd.
Qed.
Print Assumptions C69_new_fields.
Example C69_example :
  new_fields [Some (FPStr "u.id"); Some (FPDef (mkF "total" "o" "sum")); Some (FPName "name as n")] =
    Ok [mkF "id" "u" ""; mkF "total" "o" "sum"; mkF "name" "" "n"] /\
  new_fields [Some (FPStr "id"); None] = Panic /\ new_fields [Some (FPStr "a b")] = Panic.
Proof. repeat split; vm_compute; reflexivity. Qed.
