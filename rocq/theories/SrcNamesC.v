(** The functions of the source about sorting, joins, operations and pages. *)
From Coq Require Import String Ascii List Bool Arith NArith ZArith Lia.
From Verif Require Import GoStr StrFacts Value Names Cond SrcAst SrcSem SrcProg Open SrcFacts SrcNames SrcNamesB.
Import ListNotations.
Local Open Scope string_scope.
Local Open Scope nat_scope.

Ltac known ::= known_names.

Section Names.
Context {S : Type} (i : impl S).
Notation val := (val S).

(** ** Sorting *)
Lemma src_FieldSorting_Direction : forall n o,
  run i (S1 n) "FieldSorting.Direction" [of_fsort o] = Done (RStr "SortDirection" (s_dir o)).
Proof. enter. walk. reflexivity. Qed.
Lemma src_FieldSorting_Render : forall n o,
  run i (S2 n) "FieldSorting.Render" [of_fsort o] = Done (RStr "string" (s_render o)).
Proof. enter. walk. unfold s_render. rewrite app_assoc_s. reflexivity. Qed.
Lemma src_FieldSorting_ApplyFieldSpec : forall n o d,
  run i (S1 n) "FieldSorting.ApplyFieldSpec" [of_fsort o; of_fdef d] = Done (of_fsort (s_apply_spec o d)).
Proof. enter. walk. all: unfold s_apply_spec, apply_spec; sx; repeat (hx || bx); reflexivity. Qed.
Lemma src_FieldSorting_applyFieldTable : forall n o t s,
  run i (S1 n) "FieldSorting.applyFieldTable" [of_fsort o; RStr t s] = Done (of_fsort (s_apply_table o s)).
Proof. enter. walk. reflexivity. Qed.
Lemma src_ASC : forall n t s, run i (S4 n) "ASC" [RStr t s] = of_res of_fsort (asc s).
Proof.
  intros n t s. unfold asc, sort_by. pose proof (src_FieldName_Validate i (S2 n) s) as H.
  destruct (validate s) eqn:E; cbn [of_err] in H; note H; enter; walk; sx; repeat hx; reflexivity.
Qed.
Lemma src_DESC : forall n t s, run i (S4 n) "DESC" [RStr t s] = of_res of_fsort (desc s).
Proof.
  intros n t s. unfold desc, sort_by. pose proof (src_FieldName_Validate i (S2 n) s) as H.
  destruct (validate s) eqn:E; cbn [of_err] in H; note H; enter; walk; sx; repeat hx; reflexivity.
Qed.

Lemma src_OrderBy : forall n t s ds,
  run i (S5 n) "OrderBy" (RStr t s :: map (RStr "SortDirection") ds) = of_res of_fsort (order_by s ds).
Proof.
  intros n t s ds. pose proof (src_ASC n "FieldName" s) as H. pose proof (src_DESC n "FieldName" s) as H'.
  sx in H. sx in H'. note H. note H'. unfold order_by.
  destruct ds as [|d r]; enter; walk; sx; repeat (hx || bx); try reflexivity.
Qed.

(** ** Joins *)
Lemma src_JoinFields : forall n l r,
  run i (S1 n) "JoinFields" [of_fdef l; of_fdef r] = Done (of_jcond (mkJC l r)).
Proof. enter. walk. reflexivity. Qed.
Lemma src_JoinCondition_Using : forall n c t j,
  run i (S3 n) "JoinCondition.Using" [of_jcond c; RInt t j] = of_res of_joiner (jt_by j (jc_left c) (jc_right c)).
Proof.
  intros n c t j. unfold jt_by. pose proof (src_Table_name i n (f_table (jc_right c))) as H.
  open. sx in H. note H. enter; walk; reflexivity.
Qed.
Lemma src_JoinCondition_Render : forall n c,
  run i (S2 n) "JoinCondition.Render" [of_jcond c] = Done (RStr "string" (jc_render c)).
Proof. enter. walk. unfold jc_render. sx. rewrite app_assoc_s. reflexivity. Qed.
Lemma src_TableJoiner_JoinCondition : forall n j,
  run i (S1 n) "TableJoiner.JoinCondition" [of_joiner j] = Done (of_jcond (j_cond j)).
Proof. enter. walk. reflexivity. Qed.
Lemma src_TableJoiner_JoinType : forall n j,
  run i (S1 n) "TableJoiner.JoinType" [of_joiner j] = Done (RInt "TableJoinType" (j_type j)).
Proof. enter. walk. reflexivity. Qed.
Lemma src_TableJoiner_By : forall n j l r,
  run i (S2 n) "TableJoiner.By" [of_joiner j; of_fdef l; of_fdef r] = Done (of_joiner (j_by j l r)).
Proof.
  intros n j l r. pose proof (src_JoinFields n l r) as H. open. sx in H. note H. enter. walk. reflexivity.
Qed.
Lemma src_TableJoinType_String : forall n t j,
  run i (S1 n) "TableJoinType.String" [RInt t j] = Done (RStr "string" (jt_string j)).
Proof. enter. walk. all: unfold jt_string; sx; repeat (hx || bx); rewrite ?app_assoc_s; try reflexivity. Qed.
Lemma src_TableJoiner_RenderFrom : forall n j,
  run i (S3 n) "TableJoiner.RenderFrom" [of_joiner j] = Done (RStr "string" (j_render j)).
Proof.
  intros n j. pose proof (src_TableJoinType_String (Datatypes.S n) "TableJoinType" (j_type j)) as H1.
  pose proof (src_TableIdent_RenderFrom i (Datatypes.S n) (j_right j)) as H2.
  pose proof (src_JoinCondition_Render n (j_cond j)) as H3.
  open. sx in H1. sx in H2. sx in H3. note H1. note H2. note H3. enter. walk. reflexivity.
Qed.
Lemma src_NewTableJoiner : forall n t y j c,
  run i (S1 n) "NewTableJoiner" [of_tident t; RInt y j; of_jcond c] = Done (of_joiner (mkJ t j c)).
Proof. enter. walk. reflexivity. Qed.

Lemma src_JoinCondition_joins : forall n c,
  run i (S4 n) "JoinCondition.InnerJoin" [of_jcond c] = of_res of_joiner (jt_by InnerJoin (jc_left c) (jc_right c)) /\
  run i (S4 n) "JoinCondition.LeftJoin" [of_jcond c] = of_res of_joiner (jt_by LeftJoin (jc_left c) (jc_right c)) /\
  run i (S4 n) "JoinCondition.RightJoin" [of_jcond c] = of_res of_joiner (jt_by RightJoin (jc_left c) (jc_right c)) /\
  run i (S4 n) "JoinCondition.FullJoin" [of_jcond c] = of_res of_joiner (jt_by FullJoin (jc_left c) (jc_right c)).
Proof.
  intros n c. pose proof (src_JoinCondition_Using n c "TableJoinType" InnerJoin) as H0.
  pose proof (src_JoinCondition_Using n c "TableJoinType" LeftJoin) as H1.
  pose proof (src_JoinCondition_Using n c "TableJoinType" RightJoin) as H2.
  pose proof (src_JoinCondition_Using n c "TableJoinType" FullJoin) as H3.
  open. sx in H0; sx in H1; sx in H2; sx in H3; note H0; note H1; note H2; note H3.
  unfold InnerJoin, LeftJoin, RightJoin, FullJoin in *.
  split; [|split; [|split]]; enter; walk; reflexivity.
Qed.
Lemma src_TableJoinType_By : forall n t j l r,
  run i (S4 n) "TableJoinType.By" [RInt t j; of_fdef l; of_fdef r] = of_res of_joiner (jt_by j l r).
Proof.
  intros n t j l r. pose proof (src_JoinCondition_Using n (mkJC l r) "TableJoinType" j) as H.
  pose proof (src_JoinFields (S2 n) l r) as H'. cbn [jc_left jc_right] in H.
  open. sx in H. sx in H'. note H. note H'. enter; walk; reflexivity.
Qed.

(** ** Operations and builders' kinds *)
Lemma src_Operation_String : forall n t o,
  run i (S2 n) "Operation.String" [RInt t o] = Done (RStr "string" (op_string o)).
Proof. enter. walk. all: unfold op_string; sx; repeat (hx || bx); rewrite ?app_assoc_s; try reflexivity. Qed.
Lemma src_Operation_New : forall n t o,
  run i (S1 n) "Operation.New" [RInt t o] = Done (RStruct "BaseBuilder" [("op", RInt "Operation" o)]).
Proof. enter. walk. reflexivity. Qed.
Lemma src_BaseBuilder_Operation : forall n o,
  run i (S1 n) "BaseBuilder.Operation" [RStruct "BaseBuilder" [("op", RInt "Operation" o)]] = Done (RInt "Operation" o).
Proof. enter. walk. reflexivity. Qed.

(** ** Pages *)
Lemma src_Limiter_Offset : forall n q o,
  run i (S1 n) "Limiter.Offset" [of_limiter q; RInt "uint" (Z.of_N o)] = Done (of_limiter (lim_set_offset q o)).
Proof. enter. walk. reflexivity. Qed.
Lemma src_Limiter_Limit : forall n q o,
  run i (S1 n) "Limiter.Limit" [of_limiter q; RInt "uint" (Z.of_N o)] = Done (of_limiter (lim_set_limit q o)).
Proof. enter. walk. reflexivity. Qed.
End Names.
