(** And and Or of the nine condition types (lib_*.go), run from their source. *)
From Coq Require Import String Ascii List Bool Arith NArith ZArith Lia.
From Verif Require Import GoStr StrFacts Value Names Cond SrcAst SrcSem SrcProg Surface Open SrcFacts SrcNames SrcNamesB SrcNamesC SrcLoops SrcValues SrcConds SrcGroups SrcAddGroup SrcAdding SrcAddingB SrcAddingC.
Import ListNotations.
Local Open Scope string_scope.
Local Open Scope nat_scope.

(** c.And(conditions...) and c.Or(conditions...) as in Cond.v (m_and, m_or), the conditions being any. *)
Definition x_leaf_and {S} (i : impl S) (l : leaf) (cs : list (xcond S)) : res (xcond S) :=
  match l_kind l with
  | KLike | KILike | KNull => do g <- x_new_group i AND [XLeaf l]; do r <- x_group_and i g cs; Ok (of_xg r)
  | _ => x_and i (XLeaf l) cs
  end.
Definition x_leaf_or {S} (i : impl S) (l : leaf) (cs : list (xcond S)) : res (xcond S) :=
  match l_kind l with
  | KLike | KILike => do g <- x_new_group i OR [XLeaf l]; do r <- x_group_or i g cs; Ok (of_xg r)
  | KNull => do g0 <- x_new_group i AND [XNil]; do g1 <- x_group_and i g0 [XLeaf l]; do r <- x_group_or i g1 cs; Ok (of_xg r)
  | _ => x_or i (XLeaf l) cs
  end.
Definition library (k : kind) : Prop := match k with KCustom _ => False | _ => True end.

Ltac known ::= first [known_numbers | known_dispatch | known_joins | known_groups | known_sums | known_lists | known_base | known_names].

Section Methods.
Context {S : Type} (i : impl S).
Notation mcall n := (mcall i (run i n)).
Ltac leaf_case := cbn [of_x of_leaf l_kind l_join l_neg l_def l_val kind_type]; unfold SrcSem.mcall; sx.
Ltac leaf_in H :=
  cbn [of_res] in H; unfold of_group in H; cbn [xg_join xg_neg xg_cs xg_br] in H;
  repeat match type of H with context [@xvals ?S [?c]] => change (@xvals S [c]) with [of_x c] in H end;
  cbn [of_x of_leaf l_kind l_join l_neg l_def l_val kind_type] in H; sx in H.
(** Types whose methods hand over to And and Or. *)
Ltac hand_over H r :=
  let e := fresh "e" in destruct r as [e|]; cbn [of_res bind] in H |- *; leaf_case; cbn [of_x] in H; leaf_in H; note H; enter; walk; reflexivity.
Lemma leaf_And : forall n l cs, library (l_kind l) ->
  mcall (S12 n) (of_leaf l) "And" (xvals cs) = of_res of_x (x_leaf_and i l cs).
Proof.
  intros n [k j b [x y z] v] cs Hk. unfold x_leaf_and, AND.
  destruct k; try contradiction Hk; cbn [l_kind].
  1-5, 8: lazymatch goal with |- context [x_and i ?c ?l] => pose proof (src_And i n c l) as H; hand_over H (x_and i c l) end.
  all: lazymatch goal with |- context [bind (x_new_group i ?o [?c]) (fun g => bind (x_group_and i g ?l) _)] =>
    pose proof (src_NewGroup i (S6 n) "JoinType" o [c]) as G;
    let g := eval cbv in (x_new_group i o [c]) in
    change (x_new_group i o [c]) with g in G |- *;
    lazymatch g with Ok ?g => pose proof (src_Group_And i (S1 n) g l) as H end end.
  all: cbn [bind]; leaf_in G; note G;
    lazymatch goal with |- context [x_group_and i ?g ?l] => 
      let r := fresh "r" in destruct (x_group_and i g l) as [r|]; [destruct r as [j1 b1 c1 d1]|] end;
    leaf_in H; note H; leaf_case; enter; walk; reflexivity.
Qed.
Lemma leaf_Or : forall n l cs, library (l_kind l) ->
  mcall (S12 n) (of_leaf l) "Or" (xvals cs) = of_res of_x (x_leaf_or i l cs).
Proof.
  intros n [k j b [x y z] v] cs Hk. unfold x_leaf_or, AND, OR.
  destruct k; try contradiction Hk; cbn [l_kind].
  1-5, 8: lazymatch goal with |- context [x_or i ?c ?l] => pose proof (src_Or i n c l) as H; hand_over H (x_or i c l) end.
  1-2: lazymatch goal with |- context [bind (x_new_group i ?o [?c]) (fun g => bind (x_group_or i g ?l) _)] =>
    pose proof (src_NewGroup i (S6 n) "JoinType" o [c]) as G;
    let g := eval cbv in (x_new_group i o [c]) in
    change (x_new_group i o [c]) with g in G |- *;
    lazymatch g with Ok ?g => pose proof (src_Group_Or i (S1 n) g l) as H end end.
  1-2: cbn [bind]; leaf_in G; note G;
    lazymatch goal with |- context [x_group_or i ?g ?l] =>
      let r := fresh "r" in destruct (x_group_or i g l) as [r|]; [destruct r as [j1 b1 c1 d1]|] end;
    leaf_in H; note H; leaf_case; enter; walk; reflexivity.
  pose proof (src_NewGroup i (S6 n) "JoinType" "AND" [XNil]) as G. change (x_new_group i "AND" [XNil]) with (@Panic (xgroup S)) in G |- *. cbn [bind]. leaf_in G. note G. leaf_case; enter; walk; reflexivity.
Qed.
End Methods.
