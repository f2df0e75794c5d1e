(** C105: the rest of the surface.  The accessors, the methods that builders take over from what they
    embed, and the joins completed by On, as Surface.v and Build.v name them, are what the source text does. *)
From Coq Require Import String Ascii List Bool Arith NArith ZArith Lia.
From Verif Require Import SrcAst SrcSem SrcProg SrcFacts SrcLoops SrcValues SrcConds SrcGroups SrcWhere SrcCalls SrcBuilders SrcSelect SrcSelectB SrcManyC SrcSingle SrcTables SrcPromoted.
From Verif Require Import GoStr Value Names Cond Build Surface Open PropsOpen PropsSrc PropsSrcCond PropsSrcBuild PropsSrcLib.
Import ListNotations.
Local Open Scope string_scope.
Local Open Scope nat_scope.

(** * Specification *)

(** the WhereClause of the model as a value of the running source *)
Definition src_where (w : group) : val nobody := of_where (upg w).
(** [v.m(a).On(l, r)] *)
Definition joined (i : impl nobody) (v : val nobody) (m : string) (a : list (val nobody)) (l r : fdef) (res : rr (val nobody)) : Prop :=
  gives i v [(m, a); ("On", [of_fdef l; of_fdef r])] res.
(** [f(a).On(l, r)] *)
Definition started (i : impl nobody) (f : string) (a : list (val nobody)) (l r : fdef) (res : rr (val nobody)) : Prop :=
  program i f a [("On", [of_fdef l; of_fdef r])] res.

(** * Names, lists, conditions and WHERE clauses *)
Theorem C105_accessors_from_source : forall i : impl nobody,
  (forall s, SrcCalls.calls i "FieldName.Field" [RStr "FieldName" s] (of_res of_fdef (fn_field s))) /\
  (forall s, SrcCalls.calls i "TableName.Ident" [RStr "TableName" s] (of_res of_tident (tn_ident s))) /\
  (forall d, SrcCalls.calls i "FieldDefinition.TableFieldName" [of_fdef d] (Done (RStr "FieldName" (table_field_name d)))) /\
  (forall fs, SrcCalls.calls i "Fields.Len" [of_fields fs] (Done (RInt "int" (Z.of_nat (fs_len fs))))) /\
  (forall c, of_package c -> asks i (src_cond c) "IsNegate" [] (of_res RBool (is_negate c))) /\
  (forall c, of_package c -> asks i (src_cond c) "FieldName" [] (of_res (RStr "FieldName") (c_field_name c))) /\
  (forall w cs, asks i (src_where w) "GroupAND" (src_conds cs) (of_res src_where (w_group_and w cs))) /\
  (forall w cs, asks i (src_where w) "GroupOR" (src_conds cs) (of_res src_where (w_group_or w cs))) /\
  (forall w s, asks i (src_where w) "ApplyFieldSpec" [of_fdef s] (of_res src_where (w_apply_spec w s))) /\
  (forall w, asks i (src_where w) "Conditions" [] (Done (RSlice (src_conds (w_conditions w))))) /\
  (forall w k, asks i (src_where w) "Render" [RInt "int" (Z.of_nat k)] (of_res (RStr "string") (w_render w k))) /\
  (forall w, asks i (src_where w) "RenderSQL" [] (of_res (RStr "string") (w_render_sql w))) /\
  (forall w, asks i (src_where w) "Values" [] (of_res (fun l => RSlice (gvals l)) (w_values w))) /\
  (forall w, asks i (src_where w) "String" [] (of_res (RStr "string") (w_string w))).
Proof.
  intros i. do 4 (split; [intros; first [picks (C100_fields_from_source _ i)|picks (C100_tables_from_source _ i)|picks (C100_lists_from_source _ i)]|]).
  split; [|split].
  - intros [|l|j b cs br] H; [exists 0; reflexivity| |].
    + apply (asks_by i _ _ "BaseCondition.IsNegate" (of_base (l_join l) (l_neg l))); [|picks (C100_condition_types_from_source _ i)].
      intros f. destruct l as [k j b d v]. destruct k; try contradiction; reflexivity.
    + apply (asks_by i _ _ "BaseCondition.IsNegate" (of_base j b)); [reflexivity|picks (C100_condition_types_from_source _ i)].
  - intros [|l|j b cs br] H; [exists 0; reflexivity| |].
    + apply (asks_by i _ _ "FieldDefinition.FieldName" (of_fdef (l_def l))); [|picks (C100_fields_from_source _ i)].
      intros f. destruct l as [k j b d v]. destruct k; try contradiction; reflexivity.
    + apply (asks_by i _ _ "Group.FieldName" (of_group (upg (mkG j b cs br)))); [reflexivity|picks (C100_groups_from_source _ i)].
  - assert (Hs : forall w s, x_w_spec i (upg w) s = rmap upg (w_apply_spec w s)).
    { intros w s. unfold x_w_spec, w_apply_spec. rewrite ?up_of_g, ?up_spec. destruct (c_apply_spec s (of_g w)) as [[| |]|]; reflexivity. }
    repeat match goal with |- _ /\ _ => split end; intros; try rewrite <- xvals_conds;
      (eapply asks_by; [intros f; reflexivity|]); (eapply calls_is; [picks (C100_where_from_source _ i)|reflexivity|]);
      rewrite ?Hs, ?up_group_and, ?up_group_or, ?up_of_g, ?up_render, ?up_render_sql, ?up_values, <- ?xvals_conds; try reflexivity.
    + unfold w_group_and. now destruct (group_and _ _).
    + unfold w_group_or. now destruct (group_or _ _).
    + now destruct (w_apply_spec _ _).
Qed.

(** * Methods taken over from the embedded BaseSelectBuilder *)
Theorem C105_promoted_from_source : forall i : impl nobody,
  (forall m, asks i (src_many m) "String" [] (of_res (RStr "string") (m_string m))) /\
  (forall m k, asks i (src_many m) "Render" [RInt "int" (Z.of_nat k)] (of_res (RStr "string") (m_render m k))) /\
  (forall m, asks i (src_many m) "RenderSQL" [] (of_res (RStr "string") (m_render_sql m))) /\
  (forall m, asks i (src_many m) "Values" [] (of_res (fun l => RSlice (gvals l)) (m_values m))) /\
  (forall m, asks i (src_many m) "Single" [] (Done (src_single (m_single m)))) /\
  (forall m, asks i (src_many m) "Many" [] (Done (src_many (m_many m)))) /\
  (forall m vs, asks i (src_many m) "InsertInto" (fvals vs) (Done (src_insert (m_insert m vs)))) /\
  (forall s, asks i (src_single s) "String" [] (of_res (RStr "string") (ss_string s))) /\
  (forall s, asks i (src_single s) "RenderSQL" [] (of_res (RStr "string") (ss_render_sql s))) /\
  (forall s, asks i (src_single s) "Values" [] (of_res (fun l => RSlice (gvals l)) (ss_values s))) /\
  (forall s, asks i (src_single s) "Single" [] (Done (src_single (ss_single s)))) /\
  (forall s, asks i (src_single s) "Many" [] (Done (src_many (ss_many s)))) /\
  (forall s o, asks i (src_single s) "Offset" [RInt "uint" (Z.of_N o)] (Done (src_many (ss_offset s o)))) /\
  (forall s l, asks i (src_single s) "Limit" [RInt "int" l] (Done (src_many (ss_limit s l)))) /\
  (forall s os, asks i (src_single s) "OrderBy" (fsorts os) (Done (src_many (ss_order s os)))) /\
  (forall s, asks i (src_single s) "Count" [] (of_res src_count (ss_count s))) /\
  (forall s vs, asks i (src_single s) "InsertInto" (fvals vs) (Done (src_insert (ss_insert s vs)))) /\
  (forall s, asks i (src_single s) "Delete" [] (of_res src_delete (ss_delete s))).
Proof.
  intros i.
  assert (P : forall b f a r, In f ["String"; "Render"; "RenderSQL"; "Values"; "InsertInto"; "Delete"; "Single"; "Many"; "Offset"; "Limit"; "OrderBy"; "Count"] ->
    asks i (src_base b) f a r -> SrcCalls.calls i ("BaseSelectBuilder." ++ f) (src_base b :: a) r).
  { intros b f a r Hf [k H]. exists k. intros n Hn. specialize (H n Hn). unfold src_base in H. rewrite base_own in H; [exact H|].
    cbn [In] in *. tauto. }
  repeat match goal with |- _ /\ _ => split end; intros;
    (eapply asks_by; [intros f; first [apply many_promoted|apply single_promoted]; cbn; tauto|]);
    match goal with |- SrcCalls.calls _ _ (of_bsel ?b _ :: _) _ => change (of_bsel b (upg (b_where b))) with (src_base b) end;
    (apply P; [cbn; tauto|]);
    first [apply base_string|apply base_render|apply base_render_sql|apply base_values|apply base_single|apply base_many|apply base_insert|apply base_count|apply base_delete|idtac].
  all: eapply asks_by; [intros f; apply base_own; cbn; tauto|]; eapply calls_is; [picks (C101_base_select_from_source _ i)|reflexivity..].
Qed.

(** * Joins *)
Theorem C105_joins_from_source : forall (i : impl nobody) l r,
  (forall b t, joined i (src_base b) "InnerJoin" [of_tident t] l r (of_res src_base (b_inner b t l r))) /\
  (forall b t, joined i (src_base b) "LeftJoin" [of_tident t] l r (of_res src_base (b_left b t l r))) /\
  (forall b t, joined i (src_base b) "RightJoin" [of_tident t] l r (of_res src_base (b_right b t l r))) /\
  (forall b t, joined i (src_base b) "FullJoin" [of_tident t] l r (of_res src_base (b_full b t l r))) /\
  (forall m tn, joined i (src_many m) "InnerJoin" [RStr "TableName" tn] l r (of_res src_many (m_inner m tn l r))) /\
  (forall m tn, joined i (src_many m) "LeftJoin" [RStr "TableName" tn] l r (of_res src_many (m_left m tn l r))) /\
  (forall m tn, joined i (src_many m) "RightJoin" [RStr "TableName" tn] l r (of_res src_many (m_right m tn l r))) /\
  (forall m tn, joined i (src_many m) "FullJoin" [RStr "TableName" tn] l r (of_res src_many (m_full m tn l r))) /\
  (forall s tn, joined i (src_single s) "InnerJoin" [RStr "TableName" tn] l r (of_res src_single (ss_inner s tn l r))) /\
  (forall s tn, joined i (src_single s) "LeftJoin" [RStr "TableName" tn] l r (of_res src_single (ss_left s tn l r))) /\
  (forall s tn, joined i (src_single s) "RightJoin" [RStr "TableName" tn] l r (of_res src_single (ss_right s tn l r))) /\
  (forall s tn, joined i (src_single s) "FullJoin" [RStr "TableName" tn] l r (of_res src_single (ss_full s tn l r))) /\
  (forall t u y jt, started i "TableName.Join" [RStr "TableName" t; of_tident u; RInt y jt] l r (of_res src_base (tp_join (TPName t) u jt l r))) /\
  (forall t u, started i "TableName.InnerJoin" [RStr "TableName" t; of_tident u] l r (of_res src_base (tp_inner (TPName t) u l r))) /\
  (forall t u, started i "TableName.LeftJoin" [RStr "TableName" t; of_tident u] l r (of_res src_base (tp_left (TPName t) u l r))) /\
  (forall t u, started i "TableName.RightJoin" [RStr "TableName" t; of_tident u] l r (of_res src_base (tp_right (TPName t) u l r))) /\
  (forall t u, started i "TableName.FullJoin" [RStr "TableName" t; of_tident u] l r (of_res src_base (tp_full (TPName t) u l r))) /\
  (forall t u y jt, started i "TableIdent.Join" [of_tident t; of_tident u; RInt y jt] l r (of_res src_base (tp_join (TPIdent t) u jt l r))) /\
  (forall t u, started i "TableIdent.InnerJoin" [of_tident t; of_tident u] l r (of_res src_base (tp_inner (TPIdent t) u l r))) /\
  (forall t u, started i "TableIdent.LeftJoin" [of_tident t; of_tident u] l r (of_res src_base (tp_left (TPIdent t) u l r))) /\
  (forall t u, started i "TableIdent.RightJoin" [of_tident t; of_tident u] l r (of_res src_base (tp_right (TPIdent t) u l r))) /\
  (forall t u, started i "TableIdent.FullJoin" [of_tident t; of_tident u] l r (of_res src_base (tp_full (TPIdent t) u l r))) /\
  (forall t u y jt, started i "TableJoinType.Tables" [RInt y jt; of_tident t; of_tident u] l r (of_res src_base (jt_tables jt t u l r))) /\
  SrcCalls.calls i "JoinCondition.InnerJoin" [of_jcond (mkJC l r)] (of_res of_joiner (jf_inner l r)) /\
  SrcCalls.calls i "JoinCondition.LeftJoin" [of_jcond (mkJC l r)] (of_res of_joiner (jf_left l r)) /\
  SrcCalls.calls i "JoinCondition.RightJoin" [of_jcond (mkJC l r)] (of_res of_joiner (jf_right l r)) /\
  SrcCalls.calls i "JoinCondition.FullJoin" [of_jcond (mkJC l r)] (of_res of_joiner (jf_full l r)).
Proof.
  intros i l r.
  assert (BO : forall x, gives i (of_bjoin x (upg (b_where x))) [("On", [of_fdef l; of_fdef r])] (of_res src_base (b_on x l r))).
  { intros x. apply gives_last. eapply asks_by; [intros c; apply (proj1 (joiner_own i c _ (many_of x) (single_of x) _ _))|].
    eapply calls_is; [picks (C101_base_select_from_source _ i)|reflexivity|]. unfold b_on. destruct (on_last _ _ _); reflexivity. }
  assert (BJ : forall f b t jt, In f ["InnerJoin"; "LeftJoin"; "RightJoin"; "FullJoin"] ->
    SrcCalls.calls i ("BaseSelectBuilder." ++ f) [src_base b; of_tident t] (Done (of_bjoin (b_join_open b t jt) (upg (b_where b)))) ->
    joined i (src_base b) f [of_tident t] l r (of_res src_base (b_join b t jt l r))).
  { intros f b t jt Hf H. apply (gives_done i _ _ _ (b_join_open b t jt) (fun x => of_bjoin x (upg (b_where b)))).
    - eapply asks_by; [intros c; apply base_own; cbn [In] in *; tauto|]. exact H.
    - apply (BO (b_join_open b t jt)). }
  assert (MJ : forall f m tn jt, In f ["InnerJoin"; "LeftJoin"; "RightJoin"; "FullJoin"] ->
    SrcCalls.calls i ("SelectManyBuilder." ++ f) [src_many m; RStr "TableName" tn] (of_res (fun x => of_mjoin x (upg (b_where (m_base m)))) (m_join_open m tn jt)) ->
    joined i (src_many m) f [RStr "TableName" tn] l r (of_res src_many (m_join m tn jt l r))).
  { intros f m tn jt Hf H.
    replace (of_res src_many (m_join m tn jt l r)) with (PropsSrcLib.on (m_join_open m tn jt) (fun x => of_res src_many (m_on x l r))).
    2: { unfold m_join, m_join_open, m_on. destruct (table tn); [|reflexivity]. cbn [bind PropsSrcLib.on]. unfold m_join_ident, b_join. cbn [m_base m_set_base]. now destruct (b_on _ _ _). }
    apply (gives_call i _ _ _ _ (fun x => of_mjoin x (upg (b_where (m_base m))))).
    { eapply asks_by; [intros c; apply many_own; cbn [In] in *; tauto|]. exact H. }
    intros x E. apply gives_last. eapply asks_by; [intros c; apply (proj1 (proj2 (joiner_own i c (m_base m) _ (single_of (m_base m)) _ _)))|].
    eapply calls_is; [picks (C101_select_many_from_source _ i)|reflexivity|].
    unfold m_join_open in E. destruct (table tn); [|discriminate]. cbn [bind] in E. injection E as <-.
    unfold m_on, b_on. destruct (on_last _ _ _); reflexivity. }
  assert (SJ : forall f s tn jt, In f ["InnerJoin"; "LeftJoin"; "RightJoin"; "FullJoin"] ->
    SrcCalls.calls i ("SelectSingleBuilder." ++ f) [src_single s; RStr "TableName" tn] (of_res (fun x => of_sjoin x (upg (b_where (ss_base s)))) (ss_join_open s tn jt)) ->
    joined i (src_single s) f [RStr "TableName" tn] l r (of_res src_single (ss_join s tn jt l r))).
  { intros f s tn jt Hf H.
    replace (of_res src_single (ss_join s tn jt l r)) with (PropsSrcLib.on (ss_join_open s tn jt) (fun x => of_res src_single (ss_on x l r))).
    2: { unfold ss_join, ss_join_open, ss_on. destruct (table tn); [|reflexivity]. cbn [bind PropsSrcLib.on]. unfold ss_join_ident, b_join. cbn [ss_base single_of]. now destruct (b_on _ _ _). }
    apply (gives_call i _ _ _ _ (fun x => of_sjoin x (upg (b_where (ss_base s))))).
    { eapply asks_by; [intros c; apply single_own; cbn [In] in *; tauto|]. exact H. }
    intros x E. apply gives_last. eapply asks_by; [intros c; apply (proj2 (proj2 (joiner_own i c (ss_base s) (many_of (ss_base s)) _ _ _)))|].
    eapply calls_is; [picks (C101_select_single_from_source _ i)|reflexivity|].
    unfold ss_join_open in E. destruct (table tn); [|discriminate]. cbn [bind] in E. injection E as <-.
    unfold ss_on, b_on. destruct (on_last _ _ _); reflexivity. }
  assert (W : forall p b, select_from p = Ok b -> b_where b = empty_group).
  { intros p b E. unfold select_from in E. destruct p as [x|x|x]; [destruct (table x) eqn:Ex; [|discriminate]..|]; cbn [bind] in E; now injection E as <-. }
  assert (TJ : forall f a p u jt, SrcCalls.calls i f a (of_res (fun b => of_bjoin b x_empty) (tp_join_open p u jt)) ->
    started i f a l r (of_res src_base (tp_join p u jt l r))).
  { intros f a p u jt H.
    apply (program_on i f a (select_from p) (fun b => of_bjoin (b_join_open b u jt) (upg (b_where b))) _ (fun b => of_res src_base (b_join b u jt l r))).
    - eapply calls_is; [exact H|reflexivity|]. unfold tp_join_open. destruct (select_from p) eqn:E; [|reflexivity]. cbn [bind of_res].
      rewrite (W _ _ E). now rewrite up_empty.
    - intros b. apply (BO (b_join_open b u jt)).
    - unfold tp_join, tp_select. destruct (select_from p) as [b|] eqn:E; [|reflexivity]. apply W in E. cbn [bind PropsSrcLib.on]. unfold b_add_where. rewrite E.
      change (group_and empty_group []) with (Ok empty_group). cbn [bind].
      destruct b; cbn in E; subst; reflexivity. }
  repeat match goal with |- _ /\ _ => split end; intros.
  all: unfold b_inner, b_left, b_right, b_full, m_inner, m_left, m_right, m_full, ss_inner, ss_left, ss_right, ss_full, tp_inner, tp_left, tp_right, tp_full.
  all: lazymatch goal with
    | |- joined _ (src_base _) _ _ _ _ _ => apply BJ; [cbn [In]; tauto|]; cbn [String.append append]; unfold src_base, src_many, src_single; picks (C101_base_select_from_source _ i)
    | |- joined _ (src_many _) _ _ _ _ _ => apply MJ; [cbn [In]; tauto|]; cbn [String.append append]; unfold src_base, src_many, src_single; picks (C101_select_many_from_source _ i)
    | |- joined _ (src_single _) _ _ _ _ _ => apply SJ; [cbn [In]; tauto|]; cbn [String.append append]; unfold src_base, src_many, src_single; picks (C101_select_single_from_source _ i)
    | |- started _ _ _ _ _ _ => apply TJ; picks (C101_table_builders_from_source _ i)
    | |- _ => picks (C100_sorting_joins_pages_from_source _ i)
    end.
Qed.

(** Not(EqualTo("a", 1)); a select of many rows with a condition and a limit; LeftJoin.Tables(users, orders).On(u.id, orders.uid) *)
Definition example_not : cond := condition (do x <- equal_to "a" (VOther 1); not_ x).
Definition example_many : msel :=
  match (do m <- select_many_from (TPStr "users as u"); do m <- m_add_where (m_set_fields m [mkF "id" "u" ""]) [example_not]; Ok (m_set_limit m 5)) with Ok m => m | Panic => many_of (mkB 0 (mkT "" "") [] [] empty_group) end.
Example C105_example : forall i : impl nobody,
  of_package example_not /\
  asks i (src_cond example_not) "IsNegate" [] (Done (RBool true)) /\
  asks i (src_cond example_not) "FieldName" [] (Done (RStr "FieldName" "a")) /\
  asks i (src_many example_many) "String" [] (Done (RStr "string" "query.BaseSelectBuilder(users AS u),Fields(u.id),Where(NOT a=?)")) /\
  asks i (src_many example_many) "Single" [] (Done (src_single (single_of (m_base example_many)))) /\
  exists b, started i "TableJoinType.Tables" [RInt "TableJoinType" LeftJoin; of_tident (mkT "users" "u"); of_tident (mkT "orders" "")] (mkF "id" "u" "") (mkF "uid" "orders" "") (Done (src_base b)) /\
    b_render_from b = "users AS u LEFT JOIN orders ON u.id=orders.uid".
Proof.
  intros i. pose proof (C105_accessors_from_source i) as (_ & _ & _ & _ & HN & HF & _). pose proof (C105_promoted_from_source i) as (HS & _ & _ & _ & H1 & _).
  split; [exact I|]. split; [exact (HN example_not I)|]. split; [exact (HF example_not I)|]. split; [exact (HS example_many)|]. split; [exact (H1 example_many)|].
  destruct (jt_tables LeftJoin (mkT "users" "u") (mkT "orders" "") (mkF "id" "u" "") (mkF "uid" "orders" "")) as [b|] eqn:E; [|discriminate E].
  exists b. split; [change (Done (src_base b)) with (of_res src_base (Ok b)); rewrite <- E; picks (C105_joins_from_source i (mkF "id" "u" "") (mkF "uid" "orders" ""))|]. vm_compute in E. injection E as <-. reflexivity.
Qed.
Definition surface_from_source := (@C105_accessors_from_source, @C105_promoted_from_source, @C105_joins_from_source).
