(** Group.addGroup (group.go:48-101), run from its source. *)
From Coq Require Import String Ascii List Bool Arith NArith ZArith Lia.
From Verif Require Import GoStr StrFacts Value Names Cond SrcAst SrcSem SrcProg Surface Open SrcFacts SrcNames SrcNamesB SrcNamesC SrcLoops SrcValues SrcConds SrcGroups.
Import ListNotations.
Local Open Scope string_scope.
Local Open Scope nat_scope.

Ltac known ::= first [known_numbers | known_dispatch | known_joins | known_groups | known_sums | known_lists | known_base | known_names].

Section Adding.
Context {S : Type} (i : impl S).
Lemma src_Group_addGroup : forall n g h,
  run i (S6 n) "Group.addGroup" [of_group g; of_group h] = of_res of_group (x_add_group i g h).
Proof.
  intros n [j b cs br] [j' b' cs' br']. unfold of_group; cbn [xg_join xg_neg xg_cs xg_br].
  unfold x_add_group, AND, OR. cbn [xg_join xg_neg xg_cs xg_br].
  set (g := mkXG j b cs br). set (h := mkXG j' b' cs' br').
  ask (x_has_all i g "AND"); [ask (x_has_all i g "OR"); [ask (x_has_one i g "AND"); [ask (x_has_one i g "OR");
  [ask (x_has_all i h "AND"); [ask (x_has_one i h "AND"); [ask (x_has_all i h "OR"); [ask (x_has_one i h "OR")|]|]|]|]|]|]|].
  all: subst g h.
  2-9: enter; walk; asked; reflexivity.
  enter. walk; settle_groups.
Qed.
End Adding.
