(** select_base.go, run from its source: the methods that make a builder. *)
From Coq Require Import String Ascii List Bool Arith NArith ZArith Lia.
From Verif Require Import GoStr StrFacts Value Names Cond Build SrcAst SrcSem SrcProg Surface Open SrcFacts SrcNames SrcNamesB SrcNamesC SrcLoops SrcValues SrcConds SrcGroups SrcAddGroup SrcAdding SrcAddingB SrcAddingC SrcLeafRender SrcLeafSQL SrcTree SrcTreeRender SrcTreeSQL SrcWhere SrcBuilders SrcWrite.
Import ListNotations.
Local Open Scope string_scope.
Local Open Scope nat_scope.


Ltac known ::= first [known_numbers | known_dispatch | known_joins | known_groups | known_sums | known_lists | known_base | known_names | known_build].
(** Everything in a builder in view. *)
Ltac bopen_in H :=
  unfold of_msel, of_ssel, of_csel, of_bsel, of_upd, of_del, of_ins, of_op, of_where, of_fields, of_group, x_empty, AND, update_, delete_, insert_into,
    u_add, i_add, b_set_fields, b_set_joins, b_set_where, m_set_base, raw_table_name, zero_bsel, many_of, single_of in H;
  cbn [b_op b_table b_joins b_fields b_where m_base m_offset m_limit m_order ss_base cs_base cs_field u_op u_table u_where u_values
       d_op d_table d_where i_op i_table i_values xg_join xg_neg xg_cs xg_br app] in H; sx in H; note H.
Ltac bopen :=
  repeat match goal with
  | b : bsel |- _ => destruct b | b : msel |- _ => destruct b | b : ssel |- _ => destruct b | b : csel |- _ => destruct b
  | w : xgroup _ |- _ => let j := fresh "j0" in let b := fresh "b0" in let c := fresh "c0" in let d := fresh "d0" in destruct w as [j b c d]
  end; open;
  unfold of_msel, of_ssel, of_csel, of_bsel, of_upd, of_del, of_ins, of_op, of_where, of_fields, of_group, x_empty, AND, update_, delete_, insert_into,
    u_add, i_add, b_set_fields, b_set_joins, b_set_where, m_set_base, raw_table_name, zero_bsel, many_of, single_of;
  cbn [b_op b_table b_joins b_fields b_where m_base m_offset m_limit m_order ss_base cs_base cs_field u_op u_table u_where u_values
       d_op d_table d_where i_op i_table i_values xg_join xg_neg xg_cs xg_br app].

Section Select.
Context {S : Type} (i : impl S).
Ltac plain := bopen; enter; walk; reflexivity.
Lemma src_BaseSelectBuilder_TableName : forall n b w,
  run i (S2 n) "BaseSelectBuilder.TableName" [of_bsel b w] = Done (RStr "TableName" (b_table_name b)).
Proof. intros. plain. Qed.
Lemma src_BaseSelectBuilder_Fields : forall n b w fs,
  run i (S2 n) "BaseSelectBuilder.Fields" (of_bsel b w :: fdefs fs) = Done (of_bsel (b_set_fields b fs) w).
Proof. intros. plain. Qed.
Lemma src_BaseSelectBuilder_FieldDefinitions : forall n b w,
  run i (S2 n) "BaseSelectBuilder.FieldDefinitions" [of_bsel b w] = Done (RSlice (fdefs (b_field_definitions b))).
Proof. intros. plain. Qed.
Lemma src_BaseSelectBuilder_Where : forall n b w cs,
  run i (S11 n) "BaseSelectBuilder.Where" (of_bsel b w :: xvals cs) = of_res (of_bsel b) (x_group_and i w cs).
Proof.
  intros n b w cs. pose proof (src_WhereClause_GroupAND i n w cs) as H.
  bopen. destruct (x_group_and i _ cs) as [[a b' c d]|]; bopen_in H; enter; walk; reflexivity.
Qed.
Lemma src_BaseSelectBuilder_InsertInto : forall n b w vs,
  run i (S3 n) "BaseSelectBuilder.InsertInto" (of_bsel b w :: fvals vs) = Done (of_ins (b_insert b vs)).
Proof.
  intros n b w vs. pose proof (src_InsertInto i n (TPIdent (b_table b))) as H.
  pose proof (src_InsertBuilder_Values i (S1 n) (insert_into (TPIdent (b_table b))) vs) as H'. unfold b_insert.
  bopen. bopen_in H. bopen_in H'. enter; walk; reflexivity.
Qed.
(** select_base.go:147-149 and 153-155 Update and Delete *)
Definition x_b_update (b : bsel) (w : xgroup S) (vs : list fvalue) : res (val S) :=
  do g <- x_group_and i x_empty (xg_cs w); Ok (of_upd (u_add (update_ (TPIdent (b_table b))) vs) g).
Definition x_b_delete (b : bsel) (w : xgroup S) : res (val S) :=
  do g <- x_group_and i x_empty (xg_cs w); Ok (of_del (delete_ (TPIdent (b_table b))) g).
Lemma src_BaseSelectBuilder_Update : forall n b w vs,
  run i (S11 n) "BaseSelectBuilder.Update" (of_bsel b w :: fvals vs) = of_res (fun v => v) (x_b_update b w vs).
Proof.
  intros n b w vs. unfold x_b_update. set (p := TPIdent (b_table b)).
  pose proof (src_Update i (S4 n) p) as H1. pose proof (src_WhereClause_Conditions i (S9 n) w) as H2.
  pose proof (src_UpdateBuilder_Where i n (update_ p) x_empty (xg_cs w)) as H3.
  pose proof (fun g => src_UpdateBuilder_Set i (S9 n) (update_ p) g vs) as H4.
  subst p. bopen. unfold x_empty, AND in H3. cbn [xg_cs] in H3. destruct (x_group_and i _ c0) as [[a b' c d]|]; cbn [bind of_res]; bopen_in H1; bopen_in H2; bopen_in H3.
  - pose proof (H4 (mkXG a b' c d)) as H5. clear H4. bopen_in H5. enter; walk; reflexivity.
  - clear H4. enter; walk; reflexivity.
Qed.
Lemma src_BaseSelectBuilder_Delete : forall n b w,
  run i (S11 n) "BaseSelectBuilder.Delete" [of_bsel b w] = of_res (fun v => v) (x_b_delete b w).
Proof.
  intros n b w. unfold x_b_delete. set (p := TPIdent (b_table b)).
  pose proof (src_Delete i (S4 n) p) as H1. pose proof (src_WhereClause_Conditions i (S9 n) w) as H2.
  pose proof (src_DeleteBuilder_Where i n (delete_ p) x_empty (xg_cs w)) as H3.
  subst p. bopen. unfold x_empty, AND in H3. cbn [xg_cs] in H3. destruct (x_group_and i _ c0) as [[a b' c d]|]; cbn [bind of_res]; bopen_in H1; bopen_in H2; bopen_in H3;
  enter; walk; reflexivity.
Qed.
Lemma src_BaseSelectBuilder_Single : forall n b w,
  run i (S1 n) "BaseSelectBuilder.Single" [of_bsel b w] = Done (of_ssel (single_of b) w).
Proof. intros. plain. Qed.
Lemma src_SelectSingleFromBase : forall n b w,
  run i (S1 n) "SelectSingleFromBase" [of_bsel b w] = Done (of_ssel (single_of b) w).
Proof. intros. plain. Qed.
Lemma src_SelectManyFromBase : forall n b w,
  run i (S1 n) "SelectManyFromBase" [of_bsel b w] = Done (of_msel (many_of b) w).
Proof. intros. plain. Qed.
Lemma src_BaseSelectBuilder_Many : forall n b w,
  run i (S2 n) "BaseSelectBuilder.Many" [of_bsel b w] = Done (of_msel (b_many b) w).
Proof. intros n b w. pose proof (src_SelectManyFromBase n b w) as H. unfold b_many. bopen. bopen_in H. enter; walk; reflexivity. Qed.
Lemma src_SelectManyBuilder_Offset : forall n m w o,
  run i (S1 n) "SelectManyBuilder.Offset" [of_msel m w; RInt "uint" (Z.of_N o)] = Done (of_msel (m_set_offset m o) w).
Proof. intros. unfold m_set_offset. plain. Qed.
Lemma src_SelectManyBuilder_Limit : forall n m w l,
  run i (S1 n) "SelectManyBuilder.Limit" [of_msel m w; RInt "int" l] = Done (of_msel (m_set_limit m l) w).
Proof. intros. unfold m_set_limit. plain. Qed.
Lemma src_SelectManyBuilder_OrderBy : forall n m w os,
  run i (S1 n) "SelectManyBuilder.OrderBy" (of_msel m w :: fsorts os) = Done (of_msel (m_add_order m os) w).
Proof. intros. unfold m_add_order. bopen. enter. walk. unfold fsorts. rewrite map_app. reflexivity. Qed.
Lemma src_BaseSelectBuilder_Offset : forall n b w o,
  run i (S3 n) "BaseSelectBuilder.Offset" [of_bsel b w; RInt "uint" (Z.of_N o)] = Done (of_msel (b_offset b o) w).
Proof.
  intros n b w o. pose proof (src_BaseSelectBuilder_Many n b w) as H. pose proof (src_SelectManyBuilder_Offset (S1 n) (b_many b) w o) as H'.
  unfold b_offset, b_many, m_set_offset in *. bopen. bopen_in H. bopen_in H'. enter; walk; reflexivity.
Qed.
Lemma src_BaseSelectBuilder_Limit : forall n b w l,
  run i (S3 n) "BaseSelectBuilder.Limit" [of_bsel b w; RInt "int" l] = Done (of_msel (b_limit b l) w).
Proof.
  intros n b w l. pose proof (src_BaseSelectBuilder_Many n b w) as H. pose proof (src_SelectManyBuilder_Limit (S1 n) (b_many b) w l) as H'.
  unfold b_limit, b_many, m_set_limit in *. bopen. bopen_in H. bopen_in H'. enter; walk; reflexivity.
Qed.
Lemma src_BaseSelectBuilder_OrderBy : forall n b w os,
  run i (S3 n) "BaseSelectBuilder.OrderBy" (of_bsel b w :: fsorts os) = Done (of_msel (b_order b os) w).
Proof.
  intros n b w os. pose proof (src_BaseSelectBuilder_Many n b w) as H. pose proof (src_SelectManyBuilder_OrderBy (S1 n) (b_many b) w os) as H'.
  unfold b_order, b_many, m_add_order in *. bopen. bopen_in H. bopen_in H'. enter; walk; reflexivity.
Qed.
End Select.
