(** Group.addSingleCondition, Group.addConditions and what is made of them
    (group.go:105-220, operations.go), run from their source. *)
From Coq Require Import String Ascii List Bool Arith NArith ZArith Lia.
From Verif Require Import GoStr StrFacts Value Names Cond SrcAst SrcSem SrcProg Surface Open SrcFacts SrcNames SrcNamesB SrcNamesC SrcLoops SrcValues SrcConds SrcGroups SrcAddGroup.
Import ListNotations.
Local Open Scope string_scope.
Local Open Scope nat_scope.

Ltac known_add_group :=
  match goal with
  | |- context [run ?i _ "Group.addGroup" ?vs] =>
    lazymatch vs with
    | [?v; ?w] =>
      let g := xgroup_of v in let h := xgroup_of w in
      let y := fresh "Use" in pose proof (fun n => src_Group_addGroup i n g h) as y;
      replace (of_group g) with v in y by same_vals;
      try replace (of_group h) with w in y by same_vals; sx in y;
      unfold of_group in y; cbn [xg_join xg_neg xg_cs xg_br] in y; rewrite y; clear y; try ex
    end
  end.
Ltac known ::= first [known_numbers | known_dispatch | known_joins | known_groups | known_add_group | known_sums | known_lists | known_base | known_names].

Section Single.
Context {S : Type} (i : impl S).
Lemma not_group : forall (c : xcond S), x_as_group c = None -> type_is (of_x c) (TyName "Group") = false.
Proof. intros [|l|j b cs br|o] H; [reflexivity|apply group_of_leaf|discriminate|reflexivity]. Qed.
Lemma src_addSingle_group : forall n g j b cs br,
  run i (S7 n) "Group.addSingleCondition" [of_group g; of_group (mkXG j b cs br)] =
  of_res of_group (x_add_single i g (XGrp j b cs br)).
Proof.
  intros n [j b cs br] j' b' cs' br'. unfold of_group; cbn [xg_join xg_neg xg_cs xg_br].
  unfold x_add_single, AND, OR. cbn [xg_join xg_neg xg_cs xg_br x_jtype x_as_group].
  set (g := mkXG j b cs br).
  ask (x_has_all i g "AND"); [ask (x_has_all i g "OR"); [ask (x_add_group i g (mkXG j' b' cs' br'))|]|].
  all: subst g; enter; walk; asked; reflexivity.
Qed.
Lemma src_addSingle_other : forall n g c, x_as_group c = None ->
  run i (S7 n) "Group.addSingleCondition" [of_group g; of_x c] = of_res of_group (x_add_single i g c).
Proof.
  intros n [j b cs br] c Hc. pose proof (not_group c Hc) as Hn. note Hn.
  unfold of_group; cbn [xg_join xg_neg xg_cs xg_br].
  unfold x_add_single, AND, OR. cbn [xg_join xg_neg xg_cs xg_br]. rewrite Hc. clear Hc.
  set (g := mkXG j b cs br).
  ask (x_has_all i g "AND"); [ask (x_has_all i g "OR"); [ask (x_jtype i c) |]|].
  all: subst g.
  2-4: enter; walk; asked; reflexivity.
  ask (x_join i b2 c).
  all: enter; walk; settle.
Qed.
Lemma src_Group_addSingleCondition : forall n g c,
  run i (S7 n) "Group.addSingleCondition" [of_group g; of_x c] = of_res of_group (x_add_single i g c).
Proof.
  intros n g c. destruct (x_as_group c) as [h|] eqn:Hc; [|apply src_addSingle_other; exact Hc].
  destruct c as [|l|j b cs br|o]; try discriminate. exact (src_addSingle_group n g j b cs br).
Qed.
End Single.
