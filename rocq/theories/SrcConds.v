(** base.go and the nine condition types of lib_*.go, run from their source. *)
From Coq Require Import String Ascii List Bool Arith NArith ZArith Lia.
From Verif Require Import GoStr StrFacts Value Names Cond SrcAst SrcSem SrcProg Surface Open SrcFacts SrcNames SrcNamesB SrcNamesC SrcLoops SrcValues.
Import ListNotations.
Local Open Scope string_scope.
Local Open Scope nat_scope.

Ltac known ::= first [known_numbers | known_lists | known_names].

Section Base.
Context {S : Type} (i : impl S).
Notation val := (val S).
Lemma src_BaseCondition_JoinType : forall n j b,
  run i (S1 n) "BaseCondition.JoinType" [of_base j b] = Done (RStr "JoinType" j).
Proof. enter. walk. reflexivity. Qed.
Lemma src_BaseCondition_Join : forall n j b y k,
  run i (S1 n) "BaseCondition.Join" [of_base j b; RStr y k] = Done (of_base k b).
Proof. enter. walk. reflexivity. Qed.
Lemma src_BaseCondition_Negate : forall n j b c,
  run i (S1 n) "BaseCondition.Negate" [of_base j b; RBool c] = Done (of_base j c).
Proof. enter. walk. reflexivity. Qed.
Lemma src_BaseCondition_IsNegate : forall n j b,
  run i (S1 n) "BaseCondition.IsNegate" [of_base j b] = Done (RBool b).
Proof. enter. walk. reflexivity. Qed.
Lemma src_BaseCondition_RenderNegate : forall n j b,
  run i (S1 n) "BaseCondition.RenderNegate" [of_base j b] = Done (RStr "string" (render_negate b)).
Proof. enter. walk. all: reflexivity. Qed.
Lemma src_BaseCondition_RenderJoin : forall n j b f,
  run i (S1 n) "BaseCondition.RenderJoin" [of_base j b; RBool f] = Done (RStr "string" (render_join f j)).
Proof. enter. walk. all: reflexivity. Qed.
Lemma src_newBaseCondition : forall n y j b,
  run i (S1 n) "newBaseCondition" [RStr y j; RBool b] = Done (of_base j b).
Proof. enter. walk. reflexivity. Qed.
End Base.

Ltac known_base :=
  match goal with
  | |- context [run ?i _ ?f ?vs] =>
    lazymatch f with
    | "BaseCondition.JoinType" => lazymatch vs with [RStruct _ [(_, RStr _ ?j); (_, RBool ?b)]] => use (fun n => src_BaseCondition_JoinType i n j b) end
    | "BaseCondition.Join" => lazymatch vs with [RStruct _ [(_, RStr _ ?j); (_, RBool ?b)]; RStr ?y ?k] => use (fun n => src_BaseCondition_Join i n j b y k) end
    | "BaseCondition.Negate" => lazymatch vs with [RStruct _ [(_, RStr _ ?j); (_, RBool ?b)]; RBool ?k] => use (fun n => src_BaseCondition_Negate i n j b k) end
    | "BaseCondition.IsNegate" => lazymatch vs with [RStruct _ [(_, RStr _ ?j); (_, RBool ?b)]] => use (fun n => src_BaseCondition_IsNegate i n j b) end
    | "BaseCondition.RenderNegate" => lazymatch vs with [RStruct _ [(_, RStr _ ?j); (_, RBool ?b)]] => use (fun n => src_BaseCondition_RenderNegate i n j b) end
    | "BaseCondition.RenderJoin" => lazymatch vs with [RStruct _ [(_, RStr _ ?j); (_, RBool ?b)]; RBool ?k] => use (fun n => src_BaseCondition_RenderJoin i n j b k) end
    | "newBaseCondition" => lazymatch vs with [RStr ?y ?j; RBool ?b] => use (fun n => src_newBaseCondition i n y j b) end
    | "FieldValue.Values" => lazymatch vs with [?v] => let d := fvalue_of v in use (fun n => src_FieldValue_Values i n d); try ex end
    end
  end.
Ltac known_sums :=
  match goal with
  | |- context [(Z.of_nat ?n + Z.of_nat ?m)%Z] => rewrite <- (Nat2Z.inj_add n m)
  | |- context [update (?p ++ ?x :: ?r)%list (length ?d) ?w] =>
    rewrite (update_at p x r w (length d)) by (rewrite ?map_length, ?seq_length; reflexivity)
  end.
Ltac known ::= first [known_numbers | known_sums | known_lists | known_base | known_names].

Section Leaves.
Context {S : Type} (i : impl S).
Notation val := (val S).
Notation mcall n := (mcall i (run i n)).

(** A method of one of the nine types. *)
Ltac leaf_case := cbn [of_leaf l_kind l_join l_neg l_def l_val kind_type]; unfold SrcSem.mcall; sx.

Lemma leaf_JoinType : forall n l,
  mcall (S1 n) (of_leaf l) "JoinType" [] = Done (RStr "JoinType" (l_join l)).
Proof. intros n [k j b d v]; destruct k; leaf_case; [..|reflexivity]; calc; reflexivity. Qed.
Lemma leaf_RenderJoin : forall n l f,
  mcall (S1 n) (of_leaf l) "RenderJoin" [RBool f] = Done (RStr "string" (render_join f (l_join l))).
Proof. intros n [k j b d v] f; destruct k; leaf_case; [..|reflexivity]; calc; reflexivity. Qed.
Lemma leaf_Join : forall n l y k,
  mcall (S2 n) (of_leaf l) "Join" [RStr y k] =
  Done (of_leaf (mkLeaf (l_kind l) k (l_neg l) (l_def l) (l_val l))).
Proof. intros n [k j b d v] y j'; destruct k; leaf_case; [..|reflexivity]; enter; walk; reflexivity. Qed.
Lemma leaf_Negate : forall n l c,
  mcall (S2 n) (of_leaf l) "Negate" [RBool c] =
  Done (of_leaf (mkLeaf (l_kind l) (l_join l) c (l_def l) (l_val l))).
Proof. intros n [k j b d v] c; destruct k; leaf_case; [..|reflexivity]; enter; walk; reflexivity. Qed.
Lemma leaf_ApplyFieldTable : forall n l y t,
  mcall (S4 n) (of_leaf l) "ApplyFieldTable" [RStr y t] =
  Done (of_leaf (mkLeaf (l_kind l) (l_join l) (l_neg l) (set_table (l_def l) t) (l_val l))).
Proof. intros n [k j b d v] y t; destruct k; leaf_case; [..|reflexivity]; enter; walk; reflexivity. Qed.
Lemma leaf_ApplyFieldSpec : forall n l s,
  mcall (S4 n) (of_leaf l) "ApplyFieldSpec" [of_fdef s] =
  Done (of_leaf (mkLeaf (l_kind l) (l_join l) (l_neg l) (apply_spec (l_def l) s) (l_val l))).
Proof. intros n [k j b d v] s; destruct k; leaf_case; [..|destruct s; reflexivity]; enter; walk; unfold apply_spec; sx; repeat (hx || bx); reflexivity. Qed.
Lemma leaf_Values : forall n l,
  mcall (S3 n) (of_leaf l) "Values" [] = of_res (fun l => RSlice (gvals l)) (leaf_values l).
Proof.
  intros n [k j b d v]; destruct k; leaf_case; [..|reflexivity]; unfold leaf_values; cbn [l_kind l_val].
  1-5: open; calc; reflexivity.
  1-2: destruct v as [|s|u|k|l|l|o [p|]|g|l|l|l]; enter; cbn [of_gval]; walk; rewrite ?app_assoc_s; reflexivity.
  1: open; calc; reflexivity.
  enter; walk; reflexivity.
Qed.
End Leaves.

Ltac sx ::= sx_some.
Section Renders.
Context {S : Type} (i : impl S).
Notation val := (val S).
Notation mcall n := (mcall i (run i n)).
Ltac leaf_case := cbn [of_leaf l_kind l_join l_neg l_def l_val kind_type]; unfold SrcSem.mcall; sx.
Lemma null_RenderSQL : forall n j b d v,
  run i (S3 n) "nullValue.RenderSQL" [of_leaf (mkLeaf KNull j b d v)] = Done (RStr "string" (null_render (mkLeaf KNull j b d v))).
Proof. unfold of_leaf, null_render. cbn [l_kind l_join l_neg l_def l_val]. destruct b; enter; walk; reflexivity. Qed.
End Renders.
Ltac sx ::= sx_all.
