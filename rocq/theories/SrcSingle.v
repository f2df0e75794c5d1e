(** select_single.go and join_unfinished.go, run from their source. *)
From Coq Require Import String Ascii List Bool Arith NArith ZArith Lia.
From Verif Require Import GoStr StrFacts Value Names Cond Build SrcAst SrcSem SrcProg Surface Open SrcFacts SrcNames SrcNamesB SrcNamesC SrcLoops SrcValues SrcConds SrcGroups SrcAddGroup SrcAdding SrcAddingB SrcAddingC SrcLeafRender SrcLeafSQL SrcTree SrcTreeRender SrcTreeSQL SrcWhere SrcBuilders SrcWrite SrcSelect SrcSelectB SrcBuild.
Import ListNotations.
Local Open Scope string_scope.
Local Open Scope nat_scope.

Ltac known ::= first [known_joined | known_numbers | known_dispatch | known_joins | known_groups | known_sums | known_lists | known_base | known_names | known_build].
(** select_single.go:15-18 BuildQueryAndParams of a builder with the conditions [w], as x_b_build in Open.v *)
Definition x_ss_build {S} (i : impl S) (s : ssel) (w : xgroup S) : res out :=
  do r <- x_b_build i (ss_base s) w; Ok (ok (o_sql r ++ " LIMIT 1") (o_params r)).
(** The conditions of the zero builder (select_single.go:27-30). *)
Definition x_zero {S} : xgroup S := mkXG "" false [] false.
(** select_single.go:55-59 joinIdent, 64-66 Join: the join that On is to complete; join_unfinished.go:46-52 On *)
Definition ss_join_ident (s : ssel) (t : tident) (jt : Z) : ssel := single_of (b_join_open (ss_base s) t jt).
Definition ss_join_open (s : ssel) (tn : string) (jt : Z) : res ssel := do t <- table tn; Ok (ss_join_ident s t jt).
Definition ss_on (s : ssel) (l r : fdef) : res ssel := do b <- b_on (ss_base s) l r; Ok (single_of b).

Section Single.
Context {S : Type} (i : impl S).
Lemma src_SelectSingleBuilder_RenderFrom : forall n s w,
  run i (S5 n) "SelectSingleBuilder.RenderFrom" [of_ssel s w] = Done (RStr "string" (ss_render_from s)).
Proof.
  intros n [b] w. pose proof (src_BaseSelectBuilder_RenderFrom i n b w) as H. unfold ss_render_from. bopen. bopen_in H. enter; walk; reflexivity.
Qed.
Lemma src_SelectSingleBuilder_BuildQueryAndParams : forall n d s w, deep (of_xg w) <= d ->
  run i (S7 (d + n)) "SelectSingleBuilder.BuildQueryAndParams" [of_ssel s w] = of_res (of_out no_error) (x_ss_build i s w).
Proof.
  intros n d [b] w Hd. unfold x_ss_build. cbn [ss_base].
  pose proof (src_BaseSelectBuilder_BuildQueryAndParams i n d b w Hd) as H1.
  destruct (x_b_build i b w) as [[sql ps e]|]; cbn [bind of_res] in *.
  - unfold of_out in H1 |- *. cbn [o_sql o_params o_err ok] in *. bopen. bopen_in H1. enter. walk. destruct e; walk; reflexivity.
  - bopen. bopen_in H1. enter. walk. reflexivity.
Qed.
Lemma src_SelectSingleBuilder_FieldList : forall n s w,
  run i (S4 n) "SelectSingleBuilder.FieldList" [of_ssel s w] = Done (RStr "string" (ss_field_list s)).
Proof. intros. unfold ss_field_list. bopen. enter; walk; reflexivity. Qed.
Lemma src_SelectSingleBuilder_Fields : forall n s w fs,
  run i (S3 n) "SelectSingleBuilder.Fields" (of_ssel s w :: fdefs fs) = Done (of_ssel (ss_set_fields s fs) x_zero).
Proof.
  intros n [b] w fs. pose proof (src_BaseSelectBuilder_Fields i n zero_bsel x_zero fs) as H. unfold ss_set_fields, x_zero, zero_bsel, DoSelect in *.
  unfold of_ssel, of_bsel, of_op, of_where, of_fields, of_group, b_set_fields in *. cbn [b_op b_table b_joins b_fields b_where ss_base xg_join xg_neg xg_cs xg_br] in *.
  change (@joiners S []) with (@nil (val S)) in *. change (@fdefs S []) with (@nil (val S)) in H. change (@xvals S []) with (@nil (val S)) in *.
  sx in H. note H. bopen. enter; walk; reflexivity.
Qed.
Lemma src_SelectSingleBuilder_FieldDefinitions : forall n s w,
  run i (S3 n) "SelectSingleBuilder.FieldDefinitions" [of_ssel s w] = Done (RSlice (fdefs (ss_field_definitions s))).
Proof.
  intros n [b] w. pose proof (src_BaseSelectBuilder_FieldDefinitions i n b w) as H. unfold ss_field_definitions, b_field_definitions in *. bopen. bopen_in H. enter; walk; reflexivity.
Qed.
Lemma src_SelectSingleBuilder_Where : forall n s w cs,
  run i (S11 n) "SelectSingleBuilder.Where" (of_ssel s w :: xvals cs) = of_res (of_ssel s) (x_group_and i w cs).
Proof.
  intros n s w cs. pose proof (src_WhereClause_GroupAND i n w cs) as H.
  bopen. destruct (x_group_and i _ cs) as [[a b' c d]|]; bopen_in H; enter; walk; reflexivity.
Qed.
Lemma src_SelectSingleBuilder_Update : forall n s w vs,
  run i (S11 n) "SelectSingleBuilder.Update" (of_ssel s w :: fvals vs) = of_res (fun v => v) (x_b_update i (ss_base s) w vs).
Proof.
  intros n s w vs. unfold x_b_update. set (p := TPIdent (b_table (ss_base s))).
  pose proof (src_Update i (S4 n) p) as H1. pose proof (src_WhereClause_Conditions i (S9 n) w) as H2.
  pose proof (src_UpdateBuilder_Where i n (update_ p) x_empty (xg_cs w)) as H3.
  pose proof (fun g => src_UpdateBuilder_Set i (S9 n) (update_ p) g vs) as H4.
  subst p. bopen. unfold x_empty, AND in H3. cbn [xg_cs] in H3. destruct (x_group_and i _ c0) as [[a b' c d]|]; cbn [bind of_res]; bopen_in H1; bopen_in H2; bopen_in H3.
  - pose proof (H4 (mkXG a b' c d)) as H5. clear H4. bopen_in H5. enter; walk; reflexivity.
  - clear H4. enter; walk; reflexivity.
Qed.
Lemma src_SelectSingleBuilder_joinIdent : forall n s w t y jt,
  run i (S1 n) "SelectSingleBuilder.joinIdent" [of_ssel s w; of_tident t; RInt y jt] = Done (of_sjoin (ss_join_ident s t jt) w).
Proof. intros. unfold of_sjoin, ss_join_ident, b_join_open. bopen. enter. walk. rewrite joiners_snoc. reflexivity. Qed.
Lemma src_SelectSingleBuilder_Join : forall n s w y tn z jt,
  run i (S4 n) "SelectSingleBuilder.Join" [of_ssel s w; RStr y tn; RInt z jt] = of_res (fun s => of_sjoin s w) (ss_join_open s tn jt).
Proof.
  intros n s w y tn z jt. unfold ss_join_open.
  pose proof (fun t => src_SelectSingleBuilder_joinIdent (S2 n) s w t "TableJoinType" jt) as H.
  destruct (table tn) as [t|] eqn:E; cbn [bind of_res] in *.
  - specialize (H t). unfold of_sjoin, ss_join_ident, b_join_open in *. bopen. bopen_in H. enter. walk; [|discriminate].
    inversion E. subst. walk. reflexivity.
  - clear H. bopen. enter. walk; [discriminate|reflexivity].
Qed.
Ltac fixed_join jt :=
  intros n s w y tn; pose proof (src_SelectSingleBuilder_Join n s w "TableName" tn "TableJoinType" jt) as H;
  destruct (ss_join_open s tn jt) as [s'|];
  unfold of_sjoin, InnerJoin, LeftJoin, RightJoin, FullJoin in *; cbn [of_res] in *; bopen; bopen_in H; enter; walk; reflexivity.
Lemma src_SelectSingleBuilder_InnerJoin : forall n s w y tn,
  run i (S5 n) "SelectSingleBuilder.InnerJoin" [of_ssel s w; RStr y tn] = of_res (fun s => of_sjoin s w) (ss_join_open s tn InnerJoin).
Proof. fixed_join InnerJoin. Qed.
Lemma src_SelectSingleBuilder_LeftJoin : forall n s w y tn,
  run i (S5 n) "SelectSingleBuilder.LeftJoin" [of_ssel s w; RStr y tn] = of_res (fun s => of_sjoin s w) (ss_join_open s tn LeftJoin).
Proof. fixed_join LeftJoin. Qed.
Lemma src_SelectSingleBuilder_RightJoin : forall n s w y tn,
  run i (S5 n) "SelectSingleBuilder.RightJoin" [of_ssel s w; RStr y tn] = of_res (fun s => of_sjoin s w) (ss_join_open s tn RightJoin).
Proof. fixed_join RightJoin. Qed.
Lemma src_SelectSingleBuilder_FullJoin : forall n s w y tn,
  run i (S5 n) "SelectSingleBuilder.FullJoin" [of_ssel s w; RStr y tn] = of_res (fun s => of_sjoin s w) (ss_join_open s tn FullJoin).
Proof. fixed_join FullJoin. Qed.
Lemma src_incompleteSingleJoiner_On : forall n s w l r,
  run i (S3 n) "incompleteSingleJoiner.On" [of_sjoin s w; of_fdef l; of_fdef r] = of_res (fun s => of_ssel s w) (ss_on s l r).
Proof.
  intros n [[o t js fs w0]] w l r. unfold of_sjoin, ss_on, b_on. cbn [ss_base b_joins].
  destruct (list_rev_case js) as [->|(r0 & j & ->)].
  - bopen. enter. walk. reflexivity.
  - rewrite on_last_snoc. bopen. rewrite joiners_snoc. enter. walk. cbn [bind of_res]. bopen. rewrite joiners_snoc. reflexivity.
Qed.
Lemma src_SelectSingleFrom : forall n p,
  run i (S8 n) "SelectSingleFrom" [of_tparam p] = of_res (fun s => of_ssel s x_empty) (select_single_from p).
Proof.
  intros n p. pose proof (src_SelectFrom i n p) as H. pose proof (fun b => src_SelectSingleFromBase i (S6 n) b x_empty) as H'.
  unfold select_single_from. destruct (select_from p) as [b|]; cbn [bind of_res] in *.
  - specialize (H' b). destruct p as [s|s|t]; bopen; bopen_in H; bopen_in H'; enter; walk; reflexivity.
  - clear H'. destruct p as [s|s|t]; bopen; bopen_in H; enter; walk; reflexivity.
Qed.
End Single.
