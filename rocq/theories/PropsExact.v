(** Property theorems that say what the combinators do for every condition, including where they do not do
    what their documentation says. *)
From Coq Require Import String Ascii List Bool Arith Lia NArith ZArith.
From Verif Require Import GoStr Value Names Cond Build Surface SqlSpec Spec StrFacts SqlFacts CondFacts CondText CondSem TreeFacts
  CondLogic CondMeaning Built CondThms PropsCond.
Import ListNotations.
Local Open Scope string_scope.
Local Open Scope nat_scope.

(** * C17 What Not does to every condition *)

Definition has_not (c : cond) : bool := match c with CNil => false | CLeaf l => l_neg l | CGrp _ n _ _ => n end.
(** the condition is written as one operand: a comparison, something in brackets, or the only member, so written, of a group *)
Fixpoint one_piece (c : cond) : bool :=
  match c with
  | CNil => false
  | CLeaf _ => true
  | CGrp _ n cs br => br || (n && (1 <? length cs)) || match cs with [d] => one_piece d | _ => false end
  end.
(** Not puts its argument in brackets, or need not: a group with brackets or several members, or one operand *)
Definition negatable (c : cond) : bool :=
  match c with
  | CNil => false
  | CLeaf _ => true
  | CGrp _ _ cs br => br || (1 <? length cs) || match cs with [d] => one_piece d | _ => false end
  end.

Lemma forall2_len {A B} (R : A -> B -> Prop) l m : Forall2 R l m -> length l = length m.
Proof. induction 1; simpl; congruence. Qed.
Lemma one_piece_den lv c : wf c -> one_piece c = (length (den lv c) =? 1).
Proof.
  induction c as [|l|j n cs br IH] using cond_ind'; intros Hw; [inversion Hw|reflexivity|].
  inversion Hw as [|? ? ? ? _ Hne Hcs]; subst. cbn [one_piece den]. destruct (br || n && (1 <? length cs)) eqn:B; [reflexivity|]. cbn [orb].
  destruct cs as [|c [|c' cs]]; [congruence| |].
  - inversion IH as [|? ? IHc _]; inversion Hcs as [|? ? Hc _]; subst. rewrite IHc by exact Hc. cbn [flat_map]. rewrite app_nil_r.
    destruct (den lv c) as [|[j0 v] r] eqn:E; [|reflexivity]. now destruct (den_nonempty lv c Hc).
  - inversion Hcs as [|? ? Hc Hcs']; subst. inversion Hcs' as [|? ? Hc' _]; subst. cbn [flat_map].
    destruct (wf_jtype _ Hc) as (jc & Ejc & _). destruct (den_head lv _ _ Hc Ejc) as (v & dr & Ed). rewrite Ed.
    destruct (wf_jtype _ Hc') as (jc' & Ejc' & _). destruct (den_head lv _ _ Hc' Ejc') as (v' & dr' & Ed'). rewrite Ed'.
    cbn [app length]. symmetry. apply Nat.eqb_neq. rewrite app_length. cbn [length app]. lia.
Qed.

(** An already negated condition is returned as it is.  Otherwise the result negates the argument, except for a group
    without brackets whose only member is not one operand: NOT is written before the text, and so applies to its
    first operand only. *)
Theorem C17_every_condition : forall rho c v r,
  built c -> no_empty c -> sound rho c -> (forall l, c = CLeaf l -> good_leaf l) -> means rho c v -> not_ c = Ok r ->
  (has_not c = true -> r = c) /\
  (has_not c = false -> negatable c = true -> means rho r (not3 v)) /\
  (has_not c = false -> negatable c = false -> forall n, exists s e l, l <> [] /\
     c_render c n = Ok s /\ parse (lex s) = Some (prec EAnd EOr e ((AND, e) :: l)) /\
     c_render r n = Ok ("NOT " ++ s) /\ parse (lex ("NOT " ++ s)) = Some (prec EAnd EOr e ((AND, ENot e) :: l))).
Proof.
  intros rho c v r Hb He Hs Hg Hm E. pose proof (built_wf c Hb He) as Hw. split; [|split].
  - destruct c as [|[k j ng d x]|j n cs br]; cbn in *; try discriminate; intros ->; now injection E as <-.
  - intros Hn Ha. destruct c as [|l|j n cs br]; [discriminate| |].
    + apply (not_means rho (CLeaf l) v r); auto. apply na_leaf; [exact Hn|now apply Hg].
    + cbn in Hn. subst n. cbn [not_ c_negate] in E. injection E as <-. apply means_iff in Hm; auto. subst v.
      assert (Hw' : wf (CGrp j true cs br)) by (inversion Hw; subst; now constructor).
      assert (Hs' : sound rho (CGrp j true cs br)) by (apply sound_grp; now apply sound_grp in Hs).
      apply means_iff; auto. rewrite mean_grp. cbn [negatable] in Ha. destruct (br || (1 <? length cs)) eqn:B; [now rewrite mean_neg|].
      cbn [orb] in Ha. destruct cs as [|d [|d' cs]]; try discriminate. inversion Hw as [|? ? ? ? _ _ Hcs]; subst. inversion Hcs as [|? ? Hd _]; subst.
      rewrite (one_piece_den (leaf_val rho) d Hd) in Ha. apply Nat.eqb_eq in Ha. unfold mean. cbn [den flat_map]. rewrite app_nil_r.
      apply orb_false_iff in B as [-> B]. cbn [length orb andb Nat.ltb Nat.leb].
      destruct (den (leaf_val rho) d) as [|[j0 x] [|y r]]; try discriminate. reflexivity.
  - intros Hn Ha n. destruct c as [|l|j n0 cs br]; [inversion Hw|discriminate|]. cbn in Hn. subst n0. cbn [negatable] in Ha.
    apply orb_false_iff in Ha as [B Ha]. apply orb_false_iff in B as [-> B].
    destruct cs as [|d [|d' cs]]; [inversion Hw; congruence| |discriminate].
    cbn [not_ c_negate] in E. injection E as <-. inversion Hw as [|? ? ? ? _ _ Hcs]; subst. inversion Hcs as [|? ? Hd _]; subst.
    rewrite (one_piece_den (leaf_val rho) d Hd) in Ha.
    assert (Hsd : Sem rho (leaf_val rho) d).
    { apply tree_sem; [exact Hd|]. intros l Hl. apply leaf_sound_val, Hs. cbn [leaves flat_map]. now rewrite app_nil_r. }
    destruct Hsd as (vs & Ev & H). destruct (H n) as (s & s' & ts & ts' & l & Es & _ & Ls & _ & _ & Hi & Hf).
    specialize (Hf (repeat VNil n) [] (repeat_length _ _)). apply forall2_len in Hf.
    destruct Hi as (t & e & j0 & ts2 & l2 & -> & -> & He1 & HT).
    assert (HI : Items (t ++ ts2) ((AND, e) :: l2)) by (exists t, e, AND, ts2, l2; auto).
    assert (Hr : forall ng, c_render (CGrp j ng [d] false) n = Ok ((if ng then "NOT " else "") ++ s)).
    { intros ng. rewrite c_render_grp. cbn [render_list]. destruct (wf_jtype _ Hd) as (jd & Ejd & Hjd). rewrite Ejd, Es, Ev. cbn [bind].
      rewrite join_token_text by (now apply and_or_nonempty). rewrite wrap_text. cbn [append length Nat.ltb Nat.leb]. rewrite app_nil_r_s, andb_false_r. reflexivity. }
    exists s, e, l2. split; [intros ->; apply Nat.eqb_neq in Ha; simpl in Hf; lia|]. split; [apply (Hr false)|]. split.
    + rewrite (lexes_lex _ _ Ls). apply parse_complete, items_or, HI.
    + split; [apply (Hr true)|].
      assert (Ln : lexes ("NOT " ++ s) (TKw "NOT" :: t ++ ts2)%list) by (change (TKw "NOT" :: t ++ ts2)%list with ([TKw "NOT"] ++ (t ++ ts2))%list; apply eats_lexes; [intros x; reflexivity|exact Ls]).
      rewrite (lexes_lex _ _ Ln). apply parse_complete, items_or. now apply items_not.
Qed.
Print Assumptions C17_every_condition.
(** one condition for each case: a negated one; two groups in one another; a.Or(b) as the only member of a group *)
Definition fragile : cond := get (do o <- m_or (eqc "a" 1) [eqc "b" 1]; do g <- new_group AND [o]; Ok (of_g g)).
Lemma fragile_built : built fragile.
Proof.
  apply (bt_group AND [get (m_or (eqc "a" 1) [eqc "b" 1])]
    (mkG AND false [get (c_join AND (get (m_or (eqc "a" 1) [eqc "b" 1])))] false)); [|auto|vm_compute; reflexivity].
  intros d [<-|[]]. apply (bt_or (eqc "a" 1) [eqc "b" 1]); [by_eqc|all_built|left; vm_compute; reflexivity].
Qed.
Example C17_every_example :
  (built fragile /\ no_empty fragile /\ (forall rho, sound rho fragile) /\ has_not fragile = false /\ negatable fragile = false /\
   exists r, not_ fragile = Ok r /\ c_render r 0 = Ok "NOT a=$1 OR b=$2") /\
  (has_not sample = false /\ negatable sample = true) /\
  (let c := CGrp AND false [CGrp AND false [eqc "a" 1] false] false in built c /\ has_not c = false /\ negatable c = true /\
   exists r, not_ c = Ok r /\ c_render r 0 = Ok "NOT a=$1").
Proof.
  split; [|split; [split; reflexivity|]].
  - split; [exact fragile_built|]. split; [vm_compute; intuition discriminate|]. split.
    { intros rho. apply good_sound. intros l [<-|[<-|[]]]; (split; [split; [reflexivity|split; left; reflexivity]|eexists; reflexivity]). }
    split; [reflexivity|]. split; [reflexivity|]. eexists. split; vm_compute; reflexivity.
  - cbv zeta. split; [|split; [reflexivity|split; [reflexivity|eexists; split; vm_compute; reflexivity]]].
    apply (bt_group AND [CGrp AND false [eqc "a" 1] false] (mkG AND false [CGrp AND false [eqc "a" 1] false] false)); [|auto|reflexivity].
    intros d [<-|[]]. apply (bt_group AND [eqc "a" 1] (mkG AND false [eqc "a" 1] false)); [|auto|reflexivity]. intros d [<-|[]]. by_eqc.
Qed.
