(** Shapes of condition trees and their preservation by the combining functions. *)
From Coq Require Import String Ascii List Bool Arith Lia.
From Verif Require Import GoStr Value Names Cond SqlSpec Spec StrFacts SqlFacts CondFacts CondText CondSem.
Import ListNotations.
Local Open Scope string_scope.
Local Open Scope nat_scope.

(** Trees without nil whose connectives satisfy [P]; empty groups only if [e]. *)
Inductive tree (P : string -> Prop) (e : bool) : cond -> Prop :=
| tr_leaf l : P (l_join l) -> tree P e (CLeaf l)
| tr_grp j n cs br : P j -> (e = true \/ cs <> []) -> Forall (tree P e) cs -> tree P e (CGrp j n cs br).

Lemma wf_tree c : wf c <-> tree and_or false c.
Proof.
  induction c as [|l|j n cs br IH] using cond_ind'.
  - split; inversion 1.
  - split; inversion 1; subst; now constructor.
  - split; inversion 1 as [|? ? ? ? H1 H2 H3]; subst; constructor; auto.
    + clear -IH H3. induction IH; inversion H3; subst; constructor; auto. now apply H.
    + now destruct H2.
    + clear -IH H3. induction IH; inversion H3; subst; constructor; auto. now apply H.
Qed.

Lemma joins_ok_tree c : joins_ok c <-> tree (fun j => j <> "" /\ lacks "$" j) true c.
Proof.
  induction c as [|l|j n cs br IH] using cond_ind'.
  - split; inversion 1.
  - split; inversion 1; subst; constructor; tauto.
  - split; inversion 1 as [|? ? ? ? H1 H2 H3]; subst; constructor; try tauto.
    + clear -IH H3. induction IH; inversion H3; subst; constructor; auto. now apply H.
    + clear -IH H3. induction IH; inversion H3; subst; constructor; auto. now apply H.
Qed.

Lemma tree_no_nil P e c : tree P e c -> no_nil c.
Proof.
  induction c as [|l|j n cs br IH] using cond_ind'; intros H; [inversion H|constructor|].
  inversion H as [|? ? ? ? _ _ H3]; subst. constructor. rewrite Forall_forall in *. auto.
Qed.

Lemma tree_weaken (P Q : string -> Prop) e c : (forall j, P j -> Q j) -> tree P e c -> tree Q true c.
Proof.
  intros HPQ. induction c as [|l|j n cs br IH] using cond_ind'; intros H; inversion H as [|? ? ? ? H1 H2 H3]; subst;
    constructor; auto. rewrite Forall_forall in *. auto.
Qed.

Section Pres.
  Variables (P : string -> Prop) (e : bool).
  Hypothesis PA : P AND.
  Let tr := tree P e.
  (** groups as they occur under construction: possibly empty *)
  Definition gtree (g : group) : Prop := P (g_join g) /\ Forall tr (g_cs g).

  Lemma tr_jtype c : tr c -> exists j, jtype c = Ok j /\ P j.
  Proof. inversion 1; subst; simpl; eauto. Qed.
  Lemma tr_join j c : P j -> tr c -> exists c', c_join j c = Ok c' /\ tr c'.
  Proof. intros Hj; inversion 1; subst; simpl; eexists; (split; [reflexivity|constructor; auto]). Qed.
  Lemma tr_negate b c : tr c -> exists c', c_negate b c = Ok c' /\ tr c'.
  Proof. inversion 1; subst; simpl; eexists; (split; [reflexivity|constructor; auto]). Qed.
  Lemma gtree_no_nil g : gtree g -> g_no_nil g.
  Proof. intros [_ H]. unfold g_no_nil. rewrite Forall_forall in *. intros c Hc. eapply tree_no_nil, H, Hc. Qed.
  Lemma tr_brackets g : gtree g -> (e = true \/ g_cs g <> []) -> tr (of_g (with_brackets g)).
  Proof. intros [Hj Hc] Hn. constructor; auto. Qed.

  Lemma new_group_tree j cs : P j -> Forall tr cs ->
    exists cs', new_group j cs = Ok {| g_join := AND; g_neg := false; g_cs := cs'; g_br := false |}
      /\ Forall2 (fun c c' => c_join j c = Ok c') cs cs' /\ Forall tr cs'.
  Proof.
    intros Hj H. assert (Hn : Forall no_nil cs) by (rewrite Forall_forall in *; intros c Hc; eapply tree_no_nil, H, Hc).
    destruct (new_group_ok j cs Hn) as (cs' & E & HF & _). exists cs'. repeat split; auto.
    clear -Hj H HF. induction HF as [|c c' cs cs' Hc _ IH]; inversion H as [|? ? H1 H2]; subst; constructor; auto.
    destruct (tr_join j c Hj H1) as (c2 & E & Ht). congruence.
  Qed.

  Ltac all_g g :=
    match goal with
    | |- context [has_all g ?j] =>
        let b := fresh "b" in let E := fresh "E" in
        destruct (has_all_ok g j ltac:(apply gtree_no_nil; assumption)) as (b & E); rewrite !E; clear E; cbn [bind]
    | |- context [has_one g ?j] =>
        let b := fresh "b" in let E := fresh "E" in
        destruct (has_one_ok g j ltac:(apply gtree_no_nil; assumption)) as (b & E); rewrite !E; clear E; cbn [bind]
    end.

  Lemma app_ne {A} (a b : list A) : a <> [] -> (a ++ b)%list <> [].
  Proof. destruct a; [congruence|discriminate]. Qed.

  Ltac fin := first
    [ assumption
    | apply Forall_app; split; assumption
    | apply Forall_app; split; [assumption|constructor; [assumption|constructor]]
    | constructor; [assumption|assumption]
    | constructor; [assumption|constructor; [assumption|constructor]] ].

  Lemma add_group_tree g a : gtree g -> gtree a -> (e = true \/ g_cs a <> []) ->
    exists r, add_group g a = Ok r /\ gtree r /\ (e = true \/ g_cs r <> []).
  Proof.
    intros Hg Ha Hne. unfold add_group. repeat all_g g. repeat all_g a.
    destruct (g_cs g) as [|x xs] eqn:Eg.
    { simpl. eexists; split; [reflexivity|]. split; [|exact Hne]. split; [apply Ha|apply Ha]. }
    rewrite <- Eg in *. assert (Hgn : g_cs g <> []) by (rewrite Eg; discriminate).
    replace (length (g_cs g) =? 0) with false by (rewrite Eg; reflexivity).
    destruct (tr_join (g_join a) (of_g (with_brackets a))) as (c & Ec & Hc); [apply Ha|now apply tr_brackets|].
    rewrite Ec; cbn [bind].
    pose proof (tr_brackets g Hg (or_intror Hgn)) as Hb. pose proof (tr_brackets a Ha Hne) as Hba.
    destruct Hg as [Hg1 Hg2], Ha as [Ha1 Ha2]. clear Eg x xs.
    repeat match goal with
    | |- exists r, (if ?b then _ else _) = Ok r /\ _ => destruct b
    end; (eexists; split; [reflexivity|split; [split|]]; cbn [g_cs g_join set_cs];
      [assumption | fin | right; first [ apply app_ne; assumption | discriminate ] ]).
  Qed.

  Lemma add_single_tree g c : gtree g -> tr c ->
    exists r, add_single g c = Ok r /\ gtree r /\ (e = true \/ g_cs r <> []).
  Proof.
    intros Hg Hc. unfold add_single. repeat all_g g.
    destruct (tr_jtype _ Hc) as (op & Eo & Hop); rewrite Eo; cbn [bind].
    destruct (as_group c) as [a|] eqn:Ea.
    { destruct c as [|l|j n cs br]; try discriminate. injection Ea as <-.
      inversion Hc as [|? ? ? ? H1 H2 H3]; subst.
      apply add_group_tree; [exact Hg|now split|exact H2]. }
    clear Ea. destruct (tr_join op c Hop Hc) as (c' & Ec & Hc'). rewrite Ec; cbn [bind].
    destruct (g_cs g) as [|x xs] eqn:Eg.
    { simpl. eexists; split; [reflexivity|]. split; [split|]; simpl; auto; right; discriminate. }
    rewrite <- Eg in *. assert (Hgn : g_cs g <> []) by (rewrite Eg; discriminate).
    replace (length (g_cs g) =? 0) with false by (rewrite Eg; reflexivity).
    pose proof (tr_brackets g Hg (or_intror Hgn)) as Hb. destruct Hg as [Hg1 Hg2]. clear Eg x xs.
    repeat match goal with
    | |- exists r, (if ?b then _ else _) = Ok r /\ _ => destruct b
    end; (eexists; split; [reflexivity|split; [split|]]; cbn [g_cs g_join set_cs];
      [assumption | fin | right; first [ apply app_ne; assumption | discriminate ] ]).
  Qed.

  Lemma add_conditions_tree op g cs : P op -> gtree g -> Forall tr cs ->
    exists r, add_conditions op g cs = Ok r /\ gtree r /\ (e = true \/ cs <> [] \/ g_cs g <> [] -> e = true \/ g_cs r <> []).
  Proof.
    intros Hop Hg Hcs. unfold add_conditions. repeat all_g g.
    destruct cs as [|c0 rest].
    { exists g; repeat split; try apply Hg. intros [H|[H|H]]; auto; congruence. }
    destruct (g_cs g) as [|x xs] eqn:Eg.
    { eexists; split; [reflexivity|]. split; [split; auto|]. intros _; right; discriminate. }
    rewrite <- Eg. assert (Hgn : g_cs g <> []) by (rewrite Eg; discriminate). clear x xs Eg.
    destruct rest as [|c1 rest].
    { inversion Hcs as [|? ? H0 _]; subst. destruct (tr_join op _ Hop H0) as (c & Ec & Hc).
      rewrite Ec; cbn [bind]. destruct (add_single_tree g c Hg Hc) as (r & E & Hr & Hn).
      exists r; repeat split; auto; apply Hr. }
    remember (c0 :: c1 :: rest) as cs. assert (Hcn : cs <> []) by (subst; discriminate).
    pose proof (tr_brackets g Hg (or_intror Hgn)) as Hb.
    assert (FN : forall (cs cs' : list cond), Forall2 (fun c c' => c_join op c = Ok c') cs cs' -> cs <> [] -> cs' <> [])
      by (intros ? ? [|]; [congruence|discriminate]).
    assert (FN' : forall (cs cs' : list cond), Forall2 (fun c c' => c_join AND c = Ok c') cs cs' -> cs <> [] -> cs' <> [])
      by (intros ? ? [|]; [congruence|discriminate]).
    repeat match goal with
    | |- exists r, (if ?b then _ else _) = Ok r /\ _ => destruct b
    end.
    - eexists; split; [reflexivity|]. split; [split; [apply Hg|constructor; assumption]|].
      intros _; right; discriminate.
    - destruct (new_group_tree op cs Hop Hcs) as (cs' & -> & HF & Hn). cbn [bind].
      destruct (tr_join op (CGrp AND false cs' false) Hop) as (c & Ec & Hc).
      { constructor; auto. right. eapply FN; eauto. }
      unfold of_g at 1; cbn [g_join g_neg g_cs g_br]. rewrite Ec; cbn [bind].
      eexists; split; [reflexivity|]. split; [split; [apply Hg|]|].
      + cbn [g_cs set_cs]. apply Forall_app; split; [apply Hg|constructor; auto].
      + intros _; right. apply app_ne; assumption.
    - destruct (new_group_tree AND cs PA Hcs) as (cs' & -> & HF & Hn). cbn [bind].
      eexists; split; [reflexivity|]. split; [split; [apply Hg|]|].
      + cbn [g_cs set_cs]. constructor; [exact Hb|constructor; [|constructor]].
        constructor; auto. right. eapply FN'; eauto.
      + intros _; right; discriminate.
  Qed.
End Pres.
