(** The functions of the source about names, tables, sorting, joins and values,
    run and found to be those of Names.v. *)
From Coq Require Import String Ascii List Bool Arith NArith ZArith Lia.
From Verif Require Import GoStr StrFacts Value Names Cond SrcAst SrcSem SrcProg Open SrcFacts.
Import ListNotations.
Local Open Scope string_scope.
Local Open Scope nat_scope.

(** * Texts with a dot *)
Lemma split_byte_cons : forall c s, exists a r, split_byte c s = a :: r.
Proof.
  induction s as [|x s (a & r & IH)]; cbn [split_byte]; [eauto|].
  destruct (Ascii.eqb x c); [eauto|]. rewrite IH. eauto.
Qed.
Lemma split_two : forall s,
  has_byte "." s = false \/ exists a b r, split_byte "." s = a :: b :: r /\ has_byte "." s = true.
Proof.
  induction s as [|x s IH]; [left; reflexivity|]. cbn [has_byte split_byte].
  destruct (Ascii.eqb x ".") eqn:E.
  - right. destruct (split_byte_cons "." s) as (a & r & ->). eauto 6.
  - destruct IH as [->|(a & b & r & -> & ->)]; [left; reflexivity|right; eauto 6].
Qed.

Section Names.
Context {S : Type} (i : impl S).
Notation val := (val S).

(** ** Plain texts *)
Lemma src_SQLKeyWord_String : forall n t s,
  run i (S1 n) "SQLKeyWord.String" [RStr t s] = Done (RStr "string" s).
Proof. enter. walk. reflexivity. Qed.
Lemma src_FieldName_String : forall n t s,
  run i (S1 n) "FieldName.String" [RStr t s] = Done (RStr "string" s).
Proof. enter. walk. reflexivity. Qed.
Lemma src_TableName_String : forall n t s,
  run i (S1 n) "TableName.String" [RStr t s] = Done (RStr "string" s).
Proof. enter. walk. reflexivity. Qed.
Lemma src_TableName_RenderFrom : forall n t s,
  run i (S1 n) "TableName.RenderFrom" [RStr t s] = Done (RStr "string" s).
Proof. enter. walk. reflexivity. Qed.
Lemma src_SortDirection_String : forall n t s,
  run i (S1 n) "SortDirection.String" [RStr t s] = Done (RStr "string" s).
Proof. enter. walk. reflexivity. Qed.
Lemma src_JoinType_String : forall n t s,
  run i (S1 n) "JoinType.String" [RStr t s] = Done (RStr "string" s).
Proof. enter. walk. reflexivity. Qed.

Ltac known ::=
  match goal with
  | |- context [run _ _ ?f _] =>
    lazymatch f with
    | "SQLKeyWord.String" => rewrite src_SQLKeyWord_String
    end
  end.

(** ** Field definitions *)
Lemma src_FieldDefinition_FieldName : forall n d,
  run i (S1 n) "FieldDefinition.FieldName" [of_fdef d] = Done (RStr "FieldName" (f_name d)).
Proof. enter. walk. reflexivity. Qed.
Lemma src_FieldDefinition_Alias : forall n d,
  run i (S1 n) "FieldDefinition.Alias" [of_fdef d] = Done (RStr "FieldName" (f_alias d)).
Proof. enter. walk. reflexivity. Qed.
Lemma src_FieldDefinition_TableName : forall n d,
  run i (S1 n) "FieldDefinition.TableName" [of_fdef d] = Done (RStr "TableName" (f_table d)).
Proof. enter. walk. reflexivity. Qed.
Lemma src_FieldDefinition_As : forall n d t a,
  run i (S1 n) "FieldDefinition.As" [of_fdef d; RStr t a] = Done (of_fdef (f_as d a)).
Proof. enter. walk. reflexivity. Qed.
Lemma src_FieldDefinition_Of : forall n d t a,
  run i (S1 n) "FieldDefinition.Of" [of_fdef d; RStr t a] = Done (of_fdef (f_of d a)).
Proof. enter. walk. reflexivity. Qed.
Lemma src_FieldDefinition_RenderSpec : forall n d,
  run i (S2 n) "FieldDefinition.RenderSpec" [of_fdef d] = Done (RStr "string" (render_spec d)).
Proof.
  enter. walk. all: unfold render_spec; sx; repeat (hx || bx); try reflexivity.
Qed.
Lemma src_FieldDefinition_RenderField : forall n d,
  run i (S1 n) "FieldDefinition.RenderField" [of_fdef d] = Done (RStr "string" (render_field d)).
Proof.
  enter. walk. all: unfold render_field; sx; repeat (hx || bx); rewrite ?app_assoc_s; try reflexivity.
Qed.
Lemma src_FieldDefinition_RenderTableSpec : forall n d,
  run i (S1 n) "FieldDefinition.RenderTableSpec" [of_fdef d] = Done (RStr "string" (render_table_spec d)).
Proof. enter. walk. unfold render_table_spec. rewrite app_assoc_s. reflexivity. Qed.

Lemma src_FieldOrError : forall n p, exists e,
  run i (S1 n) "FieldOrError" [of_fparam p] =
  Done (RTuple match field_or_error p with
               | Some d => [of_fdef d; RNil]
               | None => [RNil; RRefl "error" e]
               end).
Proof.
  intros n p. destruct p as [s|s|d]; unfold of_fparam, field_or_error.
  1,2: exists (RSlice [RStr "string" "%w: unexpected field specification: %v";
                       RRefl "error" (RStr "string" "query"); RStr "string" s]);
       enter; unfold parse_field; destruct (go_fields s) as [|t0 [|t1 [|t2 [|t3 r]]]] eqn:G; note G;
       try (destruct (split_two t0) as [Hd|(x & y & rest & Hs & Hd)]; [|rewrite Hs; note Hs]; rewrite Hd; note Hd).
  all: try (exists RNil; enter); walk; reflexivity.
Qed.

End Names.
