(** Group.GroupAND, GroupOR, And, Or and the functions of operations.go, run from
    their source. *)
From Coq Require Import String Ascii List Bool Arith NArith ZArith Lia.
From Verif Require Import GoStr StrFacts Value Names Cond SrcAst SrcSem SrcProg Surface Open SrcFacts SrcNames SrcNamesB SrcNamesC SrcLoops SrcValues SrcConds SrcGroups SrcAddGroup SrcAdding SrcAddingB.
Import ListNotations.
Local Open Scope string_scope.
Local Open Scope nat_scope.

Notation S9 n := (Datatypes.S (S8 n)).
Notation S10 n := (Datatypes.S (S9 n)).
Notation S11 n := (Datatypes.S (S10 n)).
Notation S12 n := (Datatypes.S (S11 n)).
Notation S13 n := (Datatypes.S (S12 n)).
Notation S14 n := (Datatypes.S (S13 n)).
Notation S15 n := (Datatypes.S (S14 n)).
Notation S16 n := (Datatypes.S (S15 n)).

Ltac opened H := unfold of_group in H |- *; sx in H; cbn [xg_join xg_neg xg_cs xg_br] in H |- *; note H.
Ltac walked := walk; repeat (progress cbn [xg_join xg_neg xg_cs xg_br]; walk).
Ltac known ::= first [known_numbers | known_dispatch | known_joins | known_groups | known_sums | known_lists | known_base | known_names].

Section Adding.
Context {S : Type} (i : impl S).
Lemma src_Group_GroupAND : forall n g cs,
  run i (S9 n) "Group.GroupAND" (of_group g :: xvals cs) = of_res of_group (x_group_and i g cs).
Proof.
  intros n g cs. pose proof (src_Group_addConditions i n g "JoinType" "AND" cs) as H. destruct g as [j0 b0 c0 d0].
  unfold x_group_and, AND. destruct (x_add_conditions i "AND" (mkXG j0 b0 c0 d0) cs) as [[a b c d]|]; opened H; enter; walk; reflexivity.
Qed.
Lemma src_Group_GroupOR : forall n g cs,
  run i (S9 n) "Group.GroupOR" (of_group g :: xvals cs) = of_res of_group (x_group_or i g cs).
Proof.
  intros n g cs. pose proof (src_Group_addConditions i n g "JoinType" "OR" cs) as H. destruct g as [j0 b0 c0 d0].
  unfold x_group_or, OR. destruct (x_add_conditions i "OR" (mkXG j0 b0 c0 d0) cs) as [[a b c d]|]; opened H; enter; walk; reflexivity.
Qed.
Lemma src_Group_And : forall n g cs,
  run i (S10 n) "Group.And" (of_group g :: xvals cs) = of_res of_group (x_group_and i g cs).
Proof.
  intros n g cs. pose proof (src_Group_GroupAND n g cs) as H. destruct g as [j0 b0 c0 d0].
  destruct (x_group_and i (mkXG j0 b0 c0 d0) cs) as [[a b c d]|]; opened H; enter; walk; reflexivity.
Qed.
Lemma src_Group_Or : forall n g cs,
  run i (S10 n) "Group.Or" (of_group g :: xvals cs) = of_res of_group (x_group_or i g cs).
Proof.
  intros n g cs. pose proof (src_Group_GroupOR n g cs) as H. destruct g as [j0 b0 c0 d0].
  destruct (x_group_or i (mkXG j0 b0 c0 d0) cs) as [[a b c d]|]; opened H; enter; walk; reflexivity.
Qed.

(** ** operations.go *)
Lemma src_And : forall n c cs,
  run i (S11 n) "And" (of_x c :: xvals cs) = of_res of_x (x_and i c cs).
Proof.
  intros n c [|a cs].
  - change (xvals (@nil (xcond S))) with (@nil (val S)). unfold x_and, AND. cbn [x_jt_join]. enter. walk; reflexivity.
  - unfold x_and, AND. change (xvals (a :: cs)) with (of_x a :: xvals cs).
    destruct (x_as_group c) as [g|] eqn:Hc.
    + destruct c as [|l|j b l br|o]; try discriminate. inversion Hc; subst g. clear Hc. cbn [bind].
      pose proof (src_Group_And n (mkXG j b l br) (a :: cs)) as H.
      change (xvals (a :: cs)) with (of_x a :: xvals cs) in H. cbn [of_x]. change (map of_x l) with (xvals l).
      destruct (x_group_and i (mkXG j b l br) (a :: cs)) as [[a' b' c' d']|]; opened H; enter; walk; reflexivity.
    + pose proof (not_group c Hc) as Hn. note Hn.
      ask (x_new_group i "AND" [c]).
      * pose proof (src_Group_And n b (a :: cs)) as H.
        change (xvals (a :: cs)) with (of_x a :: xvals cs) in H.
        destruct b as [j0 b0 c0 d0]. cbn [bind]. destruct (x_group_and i (mkXG j0 b0 c0 d0) (a :: cs)) as [[a' b' c' d']|]; opened H; enter; walked; reflexivity.
      * enter; walk; reflexivity.
Qed.
Lemma src_Or : forall n c cs,
  run i (S11 n) "Or" (of_x c :: xvals cs) = of_res of_x (x_or i c cs).
Proof.
  intros n c [|a cs].
  - change (xvals (@nil (xcond S))) with (@nil (val S)). unfold x_or, OR. cbn [x_jt_join]. enter. walk; reflexivity.
  - unfold x_or, OR. change (xvals (a :: cs)) with (of_x a :: xvals cs).
    destruct (x_as_group c) as [g|] eqn:Hc.
    + destruct c as [|l|j b l br|o]; try discriminate. inversion Hc; subst g. clear Hc. cbn [bind].
      pose proof (src_Group_Or n (mkXG j b l br) (a :: cs)) as H.
      change (xvals (a :: cs)) with (of_x a :: xvals cs) in H. cbn [of_x]. change (map of_x l) with (xvals l).
      destruct (x_group_or i (mkXG j b l br) (a :: cs)) as [[a' b' c' d']|]; opened H; enter; walk; reflexivity.
    + pose proof (not_group c Hc) as Hn. note Hn.
      ask (x_new_group i "OR" [c]).
      * pose proof (src_Group_Or n b (a :: cs)) as H.
        change (xvals (a :: cs)) with (of_x a :: xvals cs) in H.
        destruct b as [j0 b0 c0 d0]. cbn [bind]. destruct (x_group_or i (mkXG j0 b0 c0 d0) (a :: cs)) as [[a' b' c' d']|]; opened H; enter; walked; reflexivity.
      * enter; walk; reflexivity.
Qed.
End Adding.
