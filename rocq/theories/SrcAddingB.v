(** Group.addSingleCondition, Group.addConditions and what is made of them
    (group.go:105-220, operations.go), run from their source. *)
From Coq Require Import String Ascii List Bool Arith NArith ZArith Lia.
From Verif Require Import GoStr StrFacts Value Names Cond SrcAst SrcSem SrcProg Surface Open SrcFacts SrcNames SrcNamesB SrcNamesC SrcLoops SrcValues SrcConds SrcGroups SrcAddGroup SrcAdding.
Import ListNotations.
Local Open Scope string_scope.
Local Open Scope nat_scope.

Ltac known_add_single :=
  match goal with
  | |- context [run ?i _ "Group.addSingleCondition" ?vs] =>
    lazymatch vs with
    | [?v; ?w] =>
      let g := xgroup_of v in let c := xcond_of w in
      let y := fresh "Use" in pose proof (fun n => src_Group_addSingleCondition i n g c) as y;
      replace (of_group g) with v in y by same_vals;
      try replace (of_x c) with w in y by same_vals; sx in y;
      unfold of_group in y; cbn [xg_join xg_neg xg_cs xg_br] in y; rewrite y; clear y; try ex
    end
  end.
Ltac known ::= first [known_numbers | known_dispatch | known_joins | known_groups | known_add_single | known_sums | known_lists | known_base | known_names].

Section Adding.
Context {S : Type} (i : impl S).
Lemma src_Group_addConditions : forall n g y op cs,
  run i (S8 n) "Group.addConditions" (of_group g :: RStr y op :: xvals cs) = of_res of_group (x_add_conditions i op g cs).
Proof.
  intros n [j b l br] y op cs.
  unfold of_group; cbn [xg_join xg_neg xg_cs xg_br].
  unfold x_add_conditions, AND, OR. cbn [xg_join xg_neg xg_cs xg_br].
  set (g := mkXG j b l br).
  ask (x_has_one i g "AND"); [ask (x_has_one i g "OR")|].
  all: subst g.
  2-3: enter; walk; asked; reflexivity.
  destruct cs as [|c [|c' cs]].
  - change (xvals (@nil (xcond S))) with (@nil (val S)). enter; walk; settle.
  - change (xvals [c]) with [of_x c].
    ask (x_join i op c); [ask (x_add_single i (mkXG j b l br) b2)|].
    all: destruct l as [|h l]; [change (xvals (@nil (xcond S))) with (@nil (val S))|change (xvals (h :: l)) with (of_x h :: xvals l)].
    all: enter; walk; settle.
  - change (xvals (c :: c' :: cs)) with (of_x c :: of_x c' :: xvals cs).
    ask (x_new_group i op (c :: c' :: cs)); ask (x_new_group i "AND" (c :: c' :: cs)).
    all: destruct l as [|h l]; [change (xvals (@nil (xcond S))) with (@nil (val S))|change (xvals (h :: l)) with (of_x h :: xvals l)].
    all: repeat match goal with g : xgroup S |- _ => let a := fresh "gj" in let b := fresh "gn" in let c := fresh "gc" in let d := fresh "gb" in destruct g as [a b c d] end.
    all: enter; walk; settle_groups.
Qed.
End Adding.
