(** The constructors of conditions (lib_*.go) and their shorthands on FieldName
    (field_name.go), run from their source. *)
From Coq Require Import String Ascii List Bool Arith NArith ZArith Lia.
From Verif Require Import GoStr StrFacts Value Names Cond SrcAst SrcSem SrcProg Surface Open SrcFacts SrcNames SrcNamesB SrcNamesC SrcLoops SrcValues SrcConds.
Import ListNotations.
Local Open Scope string_scope.
Local Open Scope nat_scope.

(** A condition of Cond.v among those of Open.v. *)
Fixpoint up {S} (c : cond) : xcond S :=
  match c with
  | CNil => XNil
  | CLeaf l => XLeaf l
  | CGrp j b cs br => XGrp j b (map up cs) br
  end.
Definition of_cond {S} (c : cond) : val S := of_x (up c).
Lemma values_of_cond : forall {S} (c : cond), values_of (@of_cond S c) = [of_cond c].
Proof. intros S [|[[] j b d v]|j b cs br]; reflexivity. Qed.

Ltac known ::= first [known_numbers | known_sums | known_lists | known_base | known_names].

Section Make.
Context {S : Type} (i : impl S).
Ltac made := unfold mk_cond, is_null; enter; walk; try reflexivity.
Lemma src_EqualTo : forall n t s v,
  run i (S5 n) "EqualTo" [RStr t s; of_gval v] = of_res of_cond (equal_to s v).
Proof. unfold equal_to. made. Qed.
Lemma src_GreaterThan : forall n t s v,
  run i (S5 n) "GreaterThan" [RStr t s; of_gval v] = of_res of_cond (greater_than s v).
Proof. unfold greater_than. made. Qed.
Lemma src_GreaterOrEqual : forall n t s v,
  run i (S5 n) "GreaterOrEqual" [RStr t s; of_gval v] = of_res of_cond (greater_or_equal s v).
Proof. unfold greater_or_equal. made. Qed.
Lemma src_Less : forall n t s v,
  run i (S5 n) "Less" [RStr t s; of_gval v] = of_res of_cond (less_ s v).
Proof. unfold less_. made. Qed.
Lemma src_LessOrEqual : forall n t s v,
  run i (S5 n) "LessOrEqual" [RStr t s; of_gval v] = of_res of_cond (less_or_equal s v).
Proof. unfold less_or_equal. made. Qed.
Lemma src_In : forall n t s v,
  run i (S5 n) "In" [RStr t s; of_gval v] = of_res of_cond (in_ s v).
Proof. unfold in_. made. Qed.
Lemma src_Contains : forall n t s v,
  run i (S5 n) "Contains" [RStr t s; RStr "string" v] = of_res of_cond (contains_ s v).
Proof.
  intros n t s v. pose proof (fun y => src_NewFieldValue i n y s (VStr v)) as H. cbn [of_gval] in H. unfold contains_, mk_cond.
  destruct (new_field_value s (VStr v)) as [[d g]|]; sx in H.
  all: pose proof (H "FieldName") as H'; note H'; enter; walk; reflexivity.
Qed.
Lemma src_IContains : forall n t s v,
  run i (S5 n) "IContains" [RStr t s; RStr "string" v] = of_res of_cond (icontains_ s v).
Proof.
  intros n t s v. pose proof (fun y => src_NewFieldValue i n y s (VStr v)) as H. cbn [of_gval] in H. unfold icontains_, mk_cond.
  destruct (new_field_value s (VStr v)) as [[d g]|]; sx in H.
  all: pose proof (H "FieldName") as H'; note H'; enter; walk; reflexivity.
Qed.
Lemma src_IsNull : forall n t s,
  run i (S5 n) "IsNull" [RStr t s] = of_res of_cond (is_null s).
Proof. made. Qed.
End Make.

Ltac known_made :=
  match goal with
  | |- context [run ?i _ ?f ?vs] =>
    lazymatch f with
    | "EqualTo" => lazymatch vs with [RStr ?t ?s; of_gval ?v] => use (fun n => src_EqualTo i n t s v) end
    | "In" => lazymatch vs with [RStr ?t ?s; of_gval ?v] => use (fun n => src_In i n t s v) end
    | "Contains" => lazymatch vs with [RStr ?t ?s; RStr "string" ?v] => use (fun n => src_Contains i n t s v) end
    | "IContains" => lazymatch vs with [RStr ?t ?s; RStr "string" ?v] => use (fun n => src_IContains i n t s v) end
    | "IsNull" => lazymatch vs with [RStr ?t ?s] => use (fun n => src_IsNull i n t s) end
    end
  | |- context [values_of (of_cond ?c)] => rewrite (values_of_cond c)
  end.
Ltac known ::= first [known_made | known_numbers | known_sums | known_lists | known_base | known_names].
Section Short.
Context {S : Type} (i : impl S).
Lemma src_FieldName_EqualTo : forall n s v,
  run i (S6 n) "FieldName.EqualTo" [RStr "FieldName" s; of_gval v] = of_res of_cond (fn_equal_to s v).
Proof. unfold fn_equal_to. enter. walk; reflexivity. Qed.
Lemma src_FieldName_In : forall n s v,
  run i (S6 n) "FieldName.In" [RStr "FieldName" s; of_gval v] = of_res of_cond (fn_in s v).
Proof. unfold fn_in. enter. walk; reflexivity. Qed.
Lemma src_FieldName_Contains : forall n s v,
  run i (S6 n) "FieldName.Contains" [RStr "FieldName" s; RStr "string" v] = of_res of_cond (fn_contains s v).
Proof. unfold fn_contains. enter. walk; reflexivity. Qed.
Lemma src_FieldName_IContains : forall n s v,
  run i (S6 n) "FieldName.IContains" [RStr "FieldName" s; RStr "string" v] = of_res of_cond (fn_icontains s v).
Proof. unfold fn_icontains. enter. walk; reflexivity. Qed.
Lemma src_FieldName_IsNull : forall n s,
  run i (S6 n) "FieldName.IsNull" [RStr "FieldName" s] = of_res of_cond (fn_is_null s).
Proof. unfold fn_is_null. enter. walk; reflexivity. Qed.
End Short.
