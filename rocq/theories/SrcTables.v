(** table_name.go, table_ident.go and join_type.go, run from their source: builders from a table. *)
From Coq Require Import String Ascii List Bool Arith NArith ZArith Lia.
From Verif Require Import GoStr StrFacts Value Names Cond Build SrcAst SrcSem SrcProg Surface Open SrcFacts SrcNames SrcNamesB SrcNamesC SrcLoops SrcValues SrcConds SrcGroups SrcAddGroup SrcAdding SrcAddingB SrcAddingC SrcLeafRender SrcLeafSQL SrcTree SrcTreeRender SrcTreeSQL SrcWhere SrcBuilders SrcWrite SrcSelect SrcSelectB SrcBuild SrcMany SrcSingle.
Import ListNotations.
Local Open Scope string_scope.
Local Open Scope nat_scope.

Ltac known ::= first [known_joined | known_numbers | known_dispatch | known_joins | known_groups | known_sums | known_lists | known_base | known_names | known_build].
(** table_name.go:24-26, 49-65, table_ident.go:92-94, 151-173: builders with conditions of any types *)
Definition x_select {S} (i : impl S) (p : tparam) (cs : list (xcond S)) : res (val S) :=
  do b <- select_from p; do g <- x_group_and i x_empty cs; Ok (of_bsel b g).
Definition x_select_one {S} (i : impl S) (p : tparam) (cs : list (xcond S)) : res (val S) :=
  do s <- select_single_from p; do g <- x_group_and i x_empty cs; Ok (of_ssel s g).
Definition x_select_many {S} (i : impl S) (p : tparam) (cs : list (xcond S)) : res (val S) :=
  do m <- select_many_from p; do g <- x_group_and i x_empty cs; Ok (of_msel m g).
Definition x_count {S} (i : impl S) (t : tident) (cs : list (xcond S)) : res (val S) :=
  do b <- select_from (TPIdent t); do g <- x_group_and i x_empty cs; do c <- b_count b; Ok (of_csel c g).
Definition x_delete {S} (i : impl S) (p : tparam) (cs : list (xcond S)) : res (val S) :=
  do g <- x_group_and i x_empty cs; Ok (of_del (delete_ p) g).
(** table_name.go:72-110, table_ident.go:180-218, join_type.go:51-53: the join that On is to complete *)
Definition tp_join_open (p : tparam) (t : tident) (jt : Z) : res bsel := do b <- select_from p; Ok (b_join_open b t jt).

Lemma none_added : forall {S} (i : impl S), x_group_and i x_empty [] = Ok x_empty.
Proof. reflexivity. Qed.

Section Tables.
Context {S : Type} (i : impl S).
(** ** TableName *)
Lemma src_TableName_InsertInto : forall n (t : string) vs,
  run i (S3 n) "TableName.InsertInto" (RStr "TableName" t :: fvals vs) = Done (of_ins (tp_insert (TPName t) vs)).
Proof.
  intros n t vs. unfold tp_insert. pose proof (src_InsertInto i n (TPName t)) as H.
  pose proof (src_InsertBuilder_Values i (S1 n) (insert_into (TPName t)) vs) as H'. bopen. bopen_in H. bopen_in H'. enter; walk; reflexivity.
Qed.
Lemma src_TableName_Update : forall n (t : string) vs,
  run i (S7 n) "TableName.Update" (RStr "TableName" t :: fvals vs) = Done (of_upd (tp_update (TPName t) vs) x_empty).
Proof.
  intros n t vs. unfold tp_update. pose proof (src_Update i n (TPName t)) as H.
  pose proof (src_UpdateBuilder_Set i (S5 n) (update_ (TPName t)) x_empty vs) as H'. bopen. bopen_in H. bopen_in H'. enter; walk; reflexivity.
Qed.
Lemma src_TableName_Delete : forall n (t : string) cs,
  run i (S11 n) "TableName.Delete" (RStr "TableName" t :: xvals cs) = of_res (fun v => v) (x_delete i (TPName t) cs).
Proof.
  intros n t cs. unfold x_delete. pose proof (src_Delete i (S4 n) (TPName t)) as H.
  pose proof (src_DeleteBuilder_Where i n (delete_ (TPName t)) x_empty cs) as H'. destruct (x_group_and i x_empty cs) as [[a b c d]|]; cbn [bind of_res] in *;
  bopen; bopen_in H; bopen_in H'; enter; walk; reflexivity.
Qed.
Lemma src_TableName_Select : forall n (t : string) cs,
  run i (S12 n) "TableName.Select" (RStr "TableName" t :: xvals cs) = of_res (fun v => v) (x_select i (TPName t) cs).
Proof.
  intros n t cs. unfold x_select. pose proof (src_SelectFrom i (S4 n) (TPName t)) as H.
  pose proof (fun b => src_BaseSelectBuilder_Where i n b x_empty cs) as H'.
  destruct (select_from (TPName t)) as [b|]; cbn [bind of_res] in *.
  - specialize (H' b). destruct (x_group_and i x_empty cs) as [[a0 a1 a2 a3]|]; cbn [bind of_res] in *; bopen; bopen_in H; bopen_in H'; enter; walk; reflexivity.
  - clear H'. bopen; bopen_in H; enter; walk; reflexivity.
Qed.
Lemma src_TableName_SelectOne : forall n (t : string) cs,
  run i (S12 n) "TableName.SelectOne" (RStr "TableName" t :: xvals cs) = of_res (fun v => v) (x_select_one i (TPName t) cs).
Proof.
  intros n t cs. unfold x_select_one. pose proof (src_SelectSingleFrom i (S3 n) (TPName t)) as H.
  pose proof (fun b => src_SelectSingleBuilder_Where i n b x_empty cs) as H'.
  destruct (select_single_from (TPName t)) as [b|]; cbn [bind of_res] in *.
  - specialize (H' b). destruct (x_group_and i x_empty cs) as [[a0 a1 a2 a3]|]; cbn [bind of_res] in *; bopen; bopen_in H; bopen_in H'; enter; walk; reflexivity.
  - clear H'. bopen; bopen_in H; enter; walk; reflexivity.
Qed.
Lemma src_TableName_SelectMany : forall n (t : string) cs,
  run i (S12 n) "TableName.SelectMany" (RStr "TableName" t :: xvals cs) = of_res (fun v => v) (x_select_many i (TPName t) cs).
Proof.
  intros n t cs. unfold x_select_many. pose proof (src_SelectManyFrom i (S3 n) (TPName t)) as H.
  pose proof (fun b => src_SelectManyBuilder_Where i n b x_empty cs) as H'.
  destruct (select_many_from (TPName t)) as [b|]; cbn [bind of_res] in *.
  - specialize (H' b). destruct (x_group_and i x_empty cs) as [[a0 a1 a2 a3]|]; cbn [bind of_res] in *; bopen; bopen_in H; bopen_in H'; enter; walk; reflexivity.
  - clear H'. bopen; bopen_in H; enter; walk; reflexivity.
Qed.
Lemma src_TableName_Join : forall n (t : string) r y jt,
  run i (S13 n) "TableName.Join" [RStr "TableName" t; of_tident r; RInt y jt] = of_res (fun b => of_bjoin b x_empty) (tp_join_open (TPName t) r jt).
Proof.
  intros n t r y jt. unfold tp_join_open. pose proof (src_TableName_Select n t []) as H. unfold x_select in H.
  pose proof (fun b => src_BaseSelectBuilder_Join i (S10 n) b x_empty r "TableJoinType" jt) as H'.
  destruct (select_from (TPName t)) as [b|]; cbn [bind of_res] in *; change (@xvals S []) with (@nil (val S)) in H.
  - specialize (H' b). unfold of_bjoin, b_join_open in *. rewrite none_added in H. cbn [bind of_res] in H. bopen; bopen_in H; bopen_in H'; enter; walk; reflexivity.
  - clear H'. bopen; bopen_in H; enter; walk; reflexivity.
Qed.
Lemma src_TableName_InnerJoin : forall n (t : string) r,
  run i (S14 n) "TableName.InnerJoin" [RStr "TableName" t; of_tident r] = of_res (fun b => of_bjoin b x_empty) (tp_join_open (TPName t) r InnerJoin).
Proof.
  intros n t r. pose proof (src_TableName_Join n t r "TableJoinType" InnerJoin) as H. destruct (tp_join_open (TPName t) r InnerJoin) as [b|]; unfold of_bjoin, InnerJoin in *;
  cbn [of_res] in *; bopen; bopen_in H; enter; walk; reflexivity.
Qed.
Lemma src_TableName_LeftJoin : forall n (t : string) r,
  run i (S14 n) "TableName.LeftJoin" [RStr "TableName" t; of_tident r] = of_res (fun b => of_bjoin b x_empty) (tp_join_open (TPName t) r LeftJoin).
Proof.
  intros n t r. pose proof (src_TableName_Join n t r "TableJoinType" LeftJoin) as H. destruct (tp_join_open (TPName t) r LeftJoin) as [b|]; unfold of_bjoin, LeftJoin in *;
  cbn [of_res] in *; bopen; bopen_in H; enter; walk; reflexivity.
Qed.
Lemma src_TableName_RightJoin : forall n (t : string) r,
  run i (S14 n) "TableName.RightJoin" [RStr "TableName" t; of_tident r] = of_res (fun b => of_bjoin b x_empty) (tp_join_open (TPName t) r RightJoin).
Proof.
  intros n t r. pose proof (src_TableName_Join n t r "TableJoinType" RightJoin) as H. destruct (tp_join_open (TPName t) r RightJoin) as [b|]; unfold of_bjoin, RightJoin in *;
  cbn [of_res] in *; bopen; bopen_in H; enter; walk; reflexivity.
Qed.
Lemma src_TableName_FullJoin : forall n (t : string) r,
  run i (S14 n) "TableName.FullJoin" [RStr "TableName" t; of_tident r] = of_res (fun b => of_bjoin b x_empty) (tp_join_open (TPName t) r FullJoin).
Proof.
  intros n t r. pose proof (src_TableName_Join n t r "TableJoinType" FullJoin) as H. destruct (tp_join_open (TPName t) r FullJoin) as [b|]; unfold of_bjoin, FullJoin in *;
  cbn [of_res] in *; bopen; bopen_in H; enter; walk; reflexivity.
Qed.
(** ** TableIdent *)
Lemma src_TableIdent_InsertInto : forall n (t : tident) vs,
  run i (S3 n) "TableIdent.InsertInto" (of_tident t :: fvals vs) = Done (of_ins (tp_insert (TPIdent t) vs)).
Proof.
  intros n t vs. unfold tp_insert. pose proof (src_InsertInto i n (TPIdent t)) as H.
  pose proof (src_InsertBuilder_Values i (S1 n) (insert_into (TPIdent t)) vs) as H'. bopen. bopen_in H. bopen_in H'. enter; walk; reflexivity.
Qed.
Lemma src_TableIdent_Update : forall n (t : tident) vs,
  run i (S7 n) "TableIdent.Update" (of_tident t :: fvals vs) = Done (of_upd (tp_update (TPIdent t) vs) x_empty).
Proof.
  intros n t vs. unfold tp_update. pose proof (src_Update i n (TPIdent t)) as H.
  pose proof (src_UpdateBuilder_Set i (S5 n) (update_ (TPIdent t)) x_empty vs) as H'. bopen. bopen_in H. bopen_in H'. enter; walk; reflexivity.
Qed.
Lemma src_TableIdent_Delete : forall n (t : tident) cs,
  run i (S11 n) "TableIdent.Delete" (of_tident t :: xvals cs) = of_res (fun v => v) (x_delete i (TPIdent t) cs).
Proof.
  intros n t cs. unfold x_delete. pose proof (src_Delete i (S4 n) (TPIdent t)) as H.
  pose proof (src_DeleteBuilder_Where i n (delete_ (TPIdent t)) x_empty cs) as H'. destruct (x_group_and i x_empty cs) as [[a b c d]|]; cbn [bind of_res] in *;
  bopen; bopen_in H; bopen_in H'; enter; walk; reflexivity.
Qed.
Lemma src_TableIdent_Select : forall n (t : tident) cs,
  run i (S12 n) "TableIdent.Select" (of_tident t :: xvals cs) = of_res (fun v => v) (x_select i (TPIdent t) cs).
Proof.
  intros n t cs. unfold x_select. pose proof (src_SelectFrom i (S4 n) (TPIdent t)) as H.
  pose proof (fun b => src_BaseSelectBuilder_Where i n b x_empty cs) as H'.
  destruct (select_from (TPIdent t)) as [b|]; cbn [bind of_res] in *.
  - specialize (H' b). destruct (x_group_and i x_empty cs) as [[a0 a1 a2 a3]|]; cbn [bind of_res] in *; bopen; bopen_in H; bopen_in H'; enter; walk; reflexivity.
  - clear H'. bopen; bopen_in H; enter; walk; reflexivity.
Qed.
Lemma src_TableIdent_SelectOne : forall n (t : tident) cs,
  run i (S12 n) "TableIdent.SelectOne" (of_tident t :: xvals cs) = of_res (fun v => v) (x_select_one i (TPIdent t) cs).
Proof.
  intros n t cs. unfold x_select_one. pose proof (src_SelectSingleFrom i (S3 n) (TPIdent t)) as H.
  pose proof (fun b => src_SelectSingleBuilder_Where i n b x_empty cs) as H'.
  destruct (select_single_from (TPIdent t)) as [b|]; cbn [bind of_res] in *.
  - specialize (H' b). destruct (x_group_and i x_empty cs) as [[a0 a1 a2 a3]|]; cbn [bind of_res] in *; bopen; bopen_in H; bopen_in H'; enter; walk; reflexivity.
  - clear H'. bopen; bopen_in H; enter; walk; reflexivity.
Qed.
Lemma src_TableIdent_SelectMany : forall n (t : tident) cs,
  run i (S12 n) "TableIdent.SelectMany" (of_tident t :: xvals cs) = of_res (fun v => v) (x_select_many i (TPIdent t) cs).
Proof.
  intros n t cs. unfold x_select_many. pose proof (src_SelectManyFrom i (S3 n) (TPIdent t)) as H.
  pose proof (fun b => src_SelectManyBuilder_Where i n b x_empty cs) as H'.
  destruct (select_many_from (TPIdent t)) as [b|]; cbn [bind of_res] in *.
  - specialize (H' b). destruct (x_group_and i x_empty cs) as [[a0 a1 a2 a3]|]; cbn [bind of_res] in *; bopen; bopen_in H; bopen_in H'; enter; walk; reflexivity.
  - clear H'. bopen; bopen_in H; enter; walk; reflexivity.
Qed.
Lemma src_TableIdent_Count : forall n t cs,
  run i (S12 n) "TableIdent.Count" (of_tident t :: xvals cs) = of_res (fun v => v) (x_count i t cs).
Proof.
  intros n t cs. unfold x_count. pose proof (src_SelectFrom i (S4 n) (TPIdent t)) as H.
  pose proof (fun b => src_BaseSelectBuilder_Where i n b x_empty cs) as H'.
  pose proof (fun b w => src_BaseSelectBuilder_Count i (S6 n) b w) as H2.
  destruct (select_from (TPIdent t)) as [b|]; cbn [bind of_res] in *.
  - specialize (H' b). destruct (x_group_and i x_empty cs) as [[a0 a1 a2 a3]|]; cbn [bind of_res] in *.
    + specialize (H2 b (mkXG a0 a1 a2 a3)). destruct (b_count b) as [[b' f]|]; cbn [bind of_res] in *; bopen; bopen_in H; bopen_in H'; bopen_in H2; enter; walk; reflexivity.
    + clear H2. bopen; bopen_in H; bopen_in H'; enter; walk; reflexivity.
  - clear H' H2. bopen; bopen_in H; enter; walk; reflexivity.
Qed.
Lemma src_TableIdent_Join : forall n (t : tident) r y jt,
  run i (S13 n) "TableIdent.Join" [of_tident t; of_tident r; RInt y jt] = of_res (fun b => of_bjoin b x_empty) (tp_join_open (TPIdent t) r jt).
Proof.
  intros n t r y jt. unfold tp_join_open. pose proof (src_TableIdent_Select n t []) as H. unfold x_select in H.
  pose proof (fun b => src_BaseSelectBuilder_Join i (S10 n) b x_empty r "TableJoinType" jt) as H'.
  destruct (select_from (TPIdent t)) as [b|]; cbn [bind of_res] in *; change (@xvals S []) with (@nil (val S)) in H.
  - specialize (H' b). unfold of_bjoin, b_join_open in *. rewrite none_added in H. cbn [bind of_res] in H. bopen; bopen_in H; bopen_in H'; enter; walk; reflexivity.
  - clear H'. bopen; bopen_in H; enter; walk; reflexivity.
Qed.
Lemma src_TableIdent_InnerJoin : forall n (t : tident) r,
  run i (S14 n) "TableIdent.InnerJoin" [of_tident t; of_tident r] = of_res (fun b => of_bjoin b x_empty) (tp_join_open (TPIdent t) r InnerJoin).
Proof.
  intros n t r. pose proof (src_TableIdent_Join n t r "TableJoinType" InnerJoin) as H. destruct (tp_join_open (TPIdent t) r InnerJoin) as [b|]; unfold of_bjoin, InnerJoin in *;
  cbn [of_res] in *; bopen; bopen_in H; enter; walk; reflexivity.
Qed.
Lemma src_TableIdent_LeftJoin : forall n (t : tident) r,
  run i (S14 n) "TableIdent.LeftJoin" [of_tident t; of_tident r] = of_res (fun b => of_bjoin b x_empty) (tp_join_open (TPIdent t) r LeftJoin).
Proof.
  intros n t r. pose proof (src_TableIdent_Join n t r "TableJoinType" LeftJoin) as H. destruct (tp_join_open (TPIdent t) r LeftJoin) as [b|]; unfold of_bjoin, LeftJoin in *;
  cbn [of_res] in *; bopen; bopen_in H; enter; walk; reflexivity.
Qed.
Lemma src_TableIdent_RightJoin : forall n (t : tident) r,
  run i (S14 n) "TableIdent.RightJoin" [of_tident t; of_tident r] = of_res (fun b => of_bjoin b x_empty) (tp_join_open (TPIdent t) r RightJoin).
Proof.
  intros n t r. pose proof (src_TableIdent_Join n t r "TableJoinType" RightJoin) as H. destruct (tp_join_open (TPIdent t) r RightJoin) as [b|]; unfold of_bjoin, RightJoin in *;
  cbn [of_res] in *; bopen; bopen_in H; enter; walk; reflexivity.
Qed.
Lemma src_TableIdent_FullJoin : forall n (t : tident) r,
  run i (S14 n) "TableIdent.FullJoin" [of_tident t; of_tident r] = of_res (fun b => of_bjoin b x_empty) (tp_join_open (TPIdent t) r FullJoin).
Proof.
  intros n t r. pose proof (src_TableIdent_Join n t r "TableJoinType" FullJoin) as H. destruct (tp_join_open (TPIdent t) r FullJoin) as [b|]; unfold of_bjoin, FullJoin in *;
  cbn [of_res] in *; bopen; bopen_in H; enter; walk; reflexivity.
Qed.
Lemma src_TableJoinType_Tables : forall n y jt l r,
  run i (S13 n) "TableJoinType.Tables" [RInt y jt; of_tident l; of_tident r] = of_res (fun b => of_bjoin b x_empty) (tp_join_open (TPIdent l) r jt).
Proof.
  intros n y jt t r. unfold tp_join_open. pose proof (src_TableIdent_Select n t []) as H. unfold x_select in H.
  pose proof (fun b => src_BaseSelectBuilder_joinIdent i (S11 n) b x_empty r "TableJoinType" jt) as H'.
  destruct (select_from (TPIdent t)) as [b|]; cbn [bind of_res] in *; change (@xvals S []) with (@nil (val S)) in H.
  - specialize (H' b). unfold of_bjoin, b_join_open in *. rewrite none_added in H. cbn [bind of_res] in H. bopen; bopen_in H; bopen_in H'; enter; walk; reflexivity.
  - clear H'. bopen; bopen_in H; enter; walk; reflexivity.
Qed.
End Tables.
