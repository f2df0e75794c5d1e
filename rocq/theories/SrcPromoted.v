(** The methods that a value of a builder type has, its own and those of what it embeds. *)
From Coq Require Import String Ascii List Bool Arith NArith ZArith Lia.
From Verif Require Import GoStr Value Names Cond Build SrcAst SrcSem SrcProg Surface Open SrcFacts SrcBuilders SrcSelect SrcSelectB.
Import ListNotations.
Local Open Scope string_scope.
Local Open Scope nat_scope.

Section Promoted.
Context {S : Type} (i : impl S) (c : string -> list (val S) -> rr (val S)).
Ltac each := intros; repeat match goal with H : In _ (_ :: _) |- _ => destruct H as [<-|H] end; try contradiction; bopen; vm_compute; reflexivity.
Lemma base_own : forall b w f vs,
  In f ["String"; "RenderSQL"; "Render"; "Values"; "RenderFrom"; "BuildQueryAndParams"; "TableName"; "Fields"; "FieldDefinitions"; "Where";
        "InsertInto"; "Update"; "Delete"; "Single"; "Many"; "Offset"; "Limit"; "OrderBy"; "Join"; "InnerJoin"; "LeftJoin"; "RightJoin"; "FullJoin"; "Count"] ->
  mcall i c (of_bsel b w) f vs = c ("BaseSelectBuilder." ++ f) (of_bsel b w :: vs).
Proof. each. Qed.
(** select_many.go:13, select_single.go:5, join_unfinished.go:5-7, 22-24, 39-41: embedded structs *)
Lemma many_own : forall m w f vs,
  In f ["RenderFrom"; "BuildQueryAndParams"; "FieldList"; "Fields"; "FieldDefinitions"; "Where"; "Update"; "Delete"; "Count";
        "Offset"; "Limit"; "OrderBy"; "Join"; "InnerJoin"; "LeftJoin"; "RightJoin"; "FullJoin"] ->
  mcall i c (of_msel m w) f vs = c ("SelectManyBuilder." ++ f) (of_msel m w :: vs).
Proof. each. Qed.
Lemma many_promoted : forall m w f vs,
  In f ["String"; "Render"; "RenderSQL"; "Values"; "TableName"; "InsertInto"; "Single"; "Many"] ->
  mcall i c (of_msel m w) f vs = c ("BaseSelectBuilder." ++ f) (of_bsel (m_base m) w :: vs).
Proof. each. Qed.
Lemma single_own : forall s w f vs,
  In f ["RenderFrom"; "BuildQueryAndParams"; "FieldList"; "Fields"; "FieldDefinitions"; "Where"; "Update";
        "Join"; "InnerJoin"; "LeftJoin"; "RightJoin"; "FullJoin"] ->
  mcall i c (of_ssel s w) f vs = c ("SelectSingleBuilder." ++ f) (of_ssel s w :: vs).
Proof. each. Qed.
Lemma single_promoted : forall s w f vs,
  In f ["String"; "Render"; "RenderSQL"; "Values"; "TableName"; "InsertInto"; "Delete"; "Single"; "Many"; "Offset"; "Limit"; "OrderBy"; "Count"] ->
  mcall i c (of_ssel s w) f vs = c ("BaseSelectBuilder." ++ f) (of_bsel (ss_base s) w :: vs).
Proof. each. Qed.
Lemma joiner_own : forall b m s w vs,
  mcall i c (of_bjoin b w) "On" vs = c "incompleteBaseJoiner.On" (of_bjoin b w :: vs) /\
  mcall i c (of_mjoin m w) "On" vs = c "incompleteManyJoiner.On" (of_mjoin m w :: vs) /\
  mcall i c (of_sjoin s w) "On" vs = c "incompleteSingleJoiner.On" (of_sjoin s w :: vs).
Proof. intros. unfold of_bjoin, of_mjoin, of_sjoin. bopen. repeat split; vm_compute; reflexivity. Qed.
Lemma count_own : forall s w f vs, In f ["RenderFrom"; "BuildQueryAndParams"] ->
  mcall i c (of_csel s w) f vs = c ("CountBuilder." ++ f) (of_csel s w :: vs).
Proof. each. Qed.
Lemma insert_own : forall x f vs, In f ["RenderFrom"; "SetValues"; "Values"; "TableName"; "BuildQueryAndParams"] ->
  mcall i c (of_ins x) f vs = c ("InsertBuilder." ++ f) (of_ins x :: vs).
Proof. each. Qed.
Lemma update_own : forall x w f vs, In f ["RenderFrom"; "SetValues"; "Set"; "Where"; "TableName"; "BuildQueryAndParams"] ->
  mcall i c (of_upd x w) f vs = c ("UpdateBuilder." ++ f) (of_upd x w :: vs).
Proof. each. Qed.
Lemma delete_own : forall x w f vs, In f ["RenderFrom"; "Where"; "TableName"; "BuildQueryAndParams"] ->
  mcall i c (of_del x w) f vs = c ("DeleteBuilder." ++ f) (of_del x w :: vs).
Proof. each. Qed.
(** build_base.go:5-12: every builder embeds BaseBuilder, those of selects inside BaseSelectBuilder; CountBuilder does not (count.go:9-12) *)
Lemma operation_promoted : forall b m s x u d w vs,
  mcall i c (of_bsel b w) "Operation" vs = c "BaseBuilder.Operation" (of_op (b_op b) :: vs) /\
  mcall i c (of_msel m w) "Operation" vs = c "BaseBuilder.Operation" (of_op (b_op (m_base m)) :: vs) /\
  mcall i c (of_ssel s w) "Operation" vs = c "BaseBuilder.Operation" (of_op (b_op (ss_base s)) :: vs) /\
  mcall i c (of_ins x) "Operation" vs = c "BaseBuilder.Operation" (of_op (i_op x) :: vs) /\
  mcall i c (of_upd u w) "Operation" vs = c "BaseBuilder.Operation" (of_op (u_op u) :: vs) /\
  mcall i c (of_del d w) "Operation" vs = c "BaseBuilder.Operation" (of_op (d_op d) :: vs).
Proof. intros. bopen. repeat split; vm_compute; reflexivity. Qed.
End Promoted.
