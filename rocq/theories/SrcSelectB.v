(** select_base.go, run from its source: SelectFrom, joins and counts. *)
From Coq Require Import String Ascii List Bool Arith NArith ZArith Lia.
From Verif Require Import GoStr StrFacts Value Names Cond Build SrcAst SrcSem SrcProg Surface Open SrcFacts SrcNames SrcNamesB SrcNamesC SrcLoops SrcValues SrcConds SrcGroups SrcAddGroup SrcAdding SrcAddingB SrcAddingC SrcLeafRender SrcLeafSQL SrcTree SrcTreeRender SrcTreeSQL SrcWhere SrcBuilders SrcSelect.
Import ListNotations.
Local Open Scope string_scope.
Local Open Scope nat_scope.


(** join_unfinished.go:5-7, 22-24, 39-41 *)
Definition of_bjoin {S} (b : bsel) (w : xgroup S) : val S := RStruct "incompleteBaseJoiner" [("BaseSelectBuilder", of_bsel b w)].
Definition of_mjoin {S} (m : msel) (w : xgroup S) : val S := RStruct "incompleteManyJoiner" [("SelectManyBuilder", of_msel m w)].
Definition of_sjoin {S} (s : ssel) (w : xgroup S) : val S := RStruct "incompleteSingleJoiner" [("SelectSingleBuilder", of_ssel s w)].

Lemma last_index : forall {A} (r : list A) j, (Z.of_nat (length (r ++ [j])) - 1)%Z = Z.of_nat (length r).
Proof. intros. rewrite app_length. cbn [length]. lia. Qed.
Lemma on_last_snoc : forall r j l q, on_last (r ++ [j]) l q = Ok (r ++ [j_by j l q])%list.
Proof. intros. unfold on_last. rewrite rev_unit, rev_involutive. reflexivity. Qed.
Lemma list_rev_case : forall {A} (l : list A), l = [] \/ exists r j, l = (r ++ [j])%list.
Proof. intros A l. induction l as [|j r _] using rev_ind; [left|right; exists r, j]; reflexivity. Qed.
Lemma joiners_snoc : forall {S} r j, @joiners S (r ++ [j]) = (joiners r ++ [of_joiner j])%list.
Proof. intros. unfold joiners. rewrite map_app. reflexivity. Qed.

Ltac known_joined :=
  match goal with
  | |- context [(Z.of_nat (length (?r ++ [?j])) - 1)%Z] => rewrite (last_index r j)
  | |- context [@nth_error (val ?S) (joiners ?r ++ [?v])%list (length ?r)] => rewrite (@nth_at S (joiners r) v [] (length r)) by (symmetry; apply joiners_length)
  | |- context [@update ?S (joiners ?r ++ [?v])%list (length ?r) ?w] => rewrite (@update_at S (joiners r) v [] w (length r)) by (symmetry; apply joiners_length)
  end.
Ltac known ::= first [known_joined | known_numbers | known_dispatch | known_joins | known_groups | known_sums | known_lists | known_base | known_names | known_build].

Section Select.
Context {S : Type} (i : impl S).
Lemma src_SelectFrom : forall n p,
  run i (S7 n) "SelectFrom" [of_tparam p] = of_res (fun b => of_bsel b x_empty) (select_from p).
Proof.
  intros n p. pose proof (src_NewWhere i n) as H1. pose proof (src_NewFields i (S2 n) []) as H2.
  destruct p as [s|s|t]; unfold select_from; bopen; bopen_in H1; cbn [map new_fields mapM of_res] in H2; bopen_in H2; enter; walk; reflexivity.
Qed.
Lemma src_BaseSelectBuilder_joinIdent : forall n b w t y jt,
  run i (S1 n) "BaseSelectBuilder.joinIdent" [of_bsel b w; of_tident t; RInt y jt] = Done (of_bjoin (b_join_open b t jt) w).
Proof. intros. unfold of_bjoin, b_join_open. bopen. enter. walk. rewrite joiners_snoc. reflexivity. Qed.
Lemma src_BaseSelectBuilder_Join : forall n b w t y jt,
  run i (S2 n) "BaseSelectBuilder.Join" [of_bsel b w; of_tident t; RInt y jt] = Done (of_bjoin (b_join_open b t jt) w).
Proof.
  intros n b w t y jt. pose proof (src_BaseSelectBuilder_joinIdent n b w t "TableJoinType" jt) as H.
  unfold of_bjoin, b_join_open in *. bopen. bopen_in H. enter. walk. reflexivity.
Qed.
Ltac fixed_join jt :=
  intros n b w t; pose proof (src_BaseSelectBuilder_Join n b w t "TableJoinType" jt) as H;
  unfold of_bjoin, b_join_open, InnerJoin, LeftJoin, RightJoin, FullJoin in *; bopen; bopen_in H; enter; walk; reflexivity.
Lemma src_BaseSelectBuilder_InnerJoin : forall n b w t,
  run i (S3 n) "BaseSelectBuilder.InnerJoin" [of_bsel b w; of_tident t] = Done (of_bjoin (b_join_open b t InnerJoin) w).
Proof. fixed_join InnerJoin. Qed.
Lemma src_BaseSelectBuilder_LeftJoin : forall n b w t,
  run i (S3 n) "BaseSelectBuilder.LeftJoin" [of_bsel b w; of_tident t] = Done (of_bjoin (b_join_open b t LeftJoin) w).
Proof. fixed_join LeftJoin. Qed.
Lemma src_BaseSelectBuilder_RightJoin : forall n b w t,
  run i (S3 n) "BaseSelectBuilder.RightJoin" [of_bsel b w; of_tident t] = Done (of_bjoin (b_join_open b t RightJoin) w).
Proof. fixed_join RightJoin. Qed.
Lemma src_BaseSelectBuilder_FullJoin : forall n b w t,
  run i (S3 n) "BaseSelectBuilder.FullJoin" [of_bsel b w; of_tident t] = Done (of_bjoin (b_join_open b t FullJoin) w).
Proof. fixed_join FullJoin. Qed.
(** join_unfinished.go *)
Lemma src_incompleteBaseJoiner_On : forall n b w l r,
  run i (S3 n) "incompleteBaseJoiner.On" [of_bjoin b w; of_fdef l; of_fdef r] = of_res (fun b => of_bsel b w) (b_on b l r).
Proof.
  intros n [o t js fs w0] w l r. unfold of_bjoin, b_on. cbn [b_joins].
  destruct (list_rev_case js) as [->|(r0 & j & ->)].
  - bopen. enter. walk. reflexivity.
  - rewrite on_last_snoc. bopen. rewrite joiners_snoc. enter. walk. cbn [bind of_res]. bopen. rewrite joiners_snoc. reflexivity.
Qed.
Lemma src_Count : forall n b w fs,
  run i (S4 n) "Count" (of_bsel b w :: map (RStr "FieldName") fs) = of_res (fun c => of_csel c w) (count b fs).
Proof.
  intros n b w [|f fs]; unfold count; bopen; enter; walk; reflexivity.
Qed.
Lemma src_BaseSelectBuilder_Count : forall n b w,
  run i (S5 n) "BaseSelectBuilder.Count" [of_bsel b w] = of_res (fun c => of_csel c w) (b_count b).
Proof.
  intros n b w. pose proof (src_Count n b w []) as H. unfold b_count in *. destruct (count b []) as [[b' f]|]; 
  bopen; cbn [map of_res] in H; bopen_in H; enter; walk; reflexivity.
Qed.
End Select.
