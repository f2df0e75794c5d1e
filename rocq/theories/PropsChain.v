(** Property theorems about conditions written as chains of And, Or and Not calls. *)
From Coq Require Import String Ascii List Bool Arith Lia NArith ZArith.
From Verif Require Import GoStr Value Names Cond Build SqlSpec Spec StrFacts SqlFacts CondFacts CondText CondSem TreeFacts
  CondLogic CondMeaning Built CondThms PropsCond NameFacts StmtFacts Calls BuildFacts BuildThms StmtText.
Import ListNotations.
Local Open Scope string_scope.
Local Open Scope nat_scope.

(** * C70 A formula written with And, Or and Not *)

(** What the programmer writes: a predicate; Not(e); e.And(d) or And(e, d), e.Or(d) or Or(e, d) (the flag tells method and
    function apart); e.And(p1, ..., pk) or And(e, p1, ..., pk) with two or more predicates. *)
Inductive call :=
| Pred (l : leaf)
| NotC (e : call)
| Two (and fn : bool) (e d : call)
| AndL (fn : bool) (e : call) (ls : list leaf).
(** what the calls return *)
Fixpoint run (e : call) : res cond :=
  match e with
  | Pred l => Ok (CLeaf l)
  | NotC e => do c <- run e; not_ c
  | Two and fn e d => do c <- run e; do x <- run d; (if and then if fn then and_ else m_and else if fn then or_ else m_or) c [x]
  | AndL fn e ls => do c <- run e; (if fn then and_ else m_and) c (map CLeaf ls)
  end.
(** what was meant *)
Fixpoint meant (rho : row) (e : call) : tv :=
  match e with
  | Pred l => leaf_tv rho l
  | NotC e => not3 (meant rho e)
  | Two and _ e d => (if and then and3 else or3) (meant rho e) (meant rho d)
  | AndL _ e ls => fold_right and3 T (meant rho e :: map (leaf_tv rho) ls)
  end.
Fixpoint preds (e : call) : list leaf :=
  match e with
  | Pred l => [l]
  | NotC e => preds e
  | Two _ _ e d => (preds e ++ preds d)%list
  | AndL _ e ls => (preds e ++ ls)%list
  end.

(** The kinds of expressions: a predicate; a chain of And (or of Or) calls, which is plain if it starts at a predicate; and
    the negation of a chain. *)
Inductive kind_of := One | Chain (and plain : bool) | Negated (and : bool).
(** The rules: do not call And or Or on a negated chain, nor Not twice; do not give And a negated chain of Ands, or a chain
    of Ands that starts at a chain of Ors; the same for Or with the words exchanged; and the Or method of IsNull panics. *)
Definition receives (and : bool) (k : kind_of) : option kind_of :=
  match k with
  | One => Some (Chain and true)
  | Chain a p => Some (Chain and (Bool.eqb a and && p))
  | Negated _ => None
  end.
Definition takes (and : bool) (k : kind_of) : bool :=
  match k with
  | One => true
  | Chain a p => negb (Bool.eqb a and) || p
  | Negated a => negb (Bool.eqb a and)
  end.
Definition is_null_pred (e : call) : bool :=
  match e with Pred l | NotC (Pred l) => match l_kind l with KNull => true | _ => false end | _ => false end.
Fixpoint kind (e : call) : option kind_of :=
  match e with
  | Pred l => Some One
  | NotC (Pred l) => if l_neg l then None else Some One
  | NotC e => match kind e with Some (Chain a _) => Some (Negated a) | _ => None end
  | Two and fn e d =>
      match kind e, kind d with
      | Some k, Some k' => if takes and k' && (and || fn || negb (is_null_pred e)) then receives and k else None
      | _, _ => None
      end
  | AndL _ e ls => match kind e with Some k => if 1 <? length ls then receives true k else None | None => None end
  end.

(** ** What the results look like *)

Definition J (and : bool) : string := if and then AND else OR.
Lemma J_ok a : and_or (J a).
Proof. destruct a; [now left|now right]. Qed.

Definition all_joined (a : bool) (cs : list cond) : Prop := Forall (fun c => jtype c = Ok (J a)) cs.

Definition Inv (k : kind_of) (c : cond) : Prop :=
  match k with
  | One => exists l, c = CLeaf l
  | Chain a p => exists j cs br, c = CGrp j false cs br /\ many cs /\ all_joined a (tl cs) /\ (a = true -> Forall and_safe cs) /\
      (p = true -> all_joined a cs /\ (a = true -> j = AND))
  | Negated a => exists j cs br, c = CGrp j true cs br /\ many cs /\ all_joined a (tl cs)
  end.

Lemma joined_tails a cs : all_joined a (tl cs) -> tails (J a) cs = true /\ someTail (J (negb a)) cs = false.
Proof.
  unfold all_joined, tails, someTail. generalize (tl cs). intros l H. induction H as [|c l Hc _ [I1 I2]]; [now split|]. simpl.
  unfold jt at 1 3. rewrite Hc, I1, I2, String.eqb_refl. split; [reflexivity|]. now destruct a.
Qed.
Lemma joined_many a cs : many cs -> all_joined a (tl cs) -> someTail (J a) cs = true /\ tails (J (negb a)) cs = false.
Proof.
  unfold all_joined, tails, someTail, many. destruct cs as [|x [|y cs]]; simpl; try lia. intros _ H. inversion H as [|? ? Hy _]; subst.
  unfold jt at 1 3. rewrite Hy, String.eqb_refl. split; [reflexivity|]. now destruct a.
Qed.
Lemma joined_wf_tl a cs : all_joined a cs -> all_joined a (tl cs).
Proof. destruct 1; [constructor|assumption]. Qed.

(** a group And or Or can be called on: one condition, or several joined by the same word *)
Definition ready (g : group) : Prop := length (g_cs g) = 1 \/ exists a, many (g_cs g) /\ all_joined a (tl (g_cs g)).
Definition merged (and : bool) (g : group) (r : group) : Prop :=
  exists xs, xs <> [] /\ all_joined and xs /\ g_join r = g_join g /\ g_neg r = g_neg g /\
    ((g_cs r = g_cs g ++ xs)%list /\ (length (g_cs g) = 1 \/ all_joined and (tl (g_cs g))) \/
     g_cs r = of_g (with_brackets g) :: xs /\ exists b, b <> and /\ all_joined b (tl (g_cs g)) /\ many (g_cs g)).

Lemma same_group and g r xs : g_join r = g_join g -> g_neg r = g_neg g -> xs <> [] -> all_joined and xs ->
  (g_cs r = g_cs g ++ xs)%list -> length (g_cs g) = 1 \/ all_joined and (tl (g_cs g)) -> merged and g r.
Proof. intros H1 H2 H3 H4 H5 H6. exists xs. repeat (split; [assumption|]). left. auto. Qed.
Lemma new_group_of and g r xs b : g_join r = g_join g -> g_neg r = g_neg g -> xs <> [] -> all_joined and xs ->
  g_cs r = of_g (with_brackets g) :: xs -> b <> and -> all_joined b (tl (g_cs g)) -> many (g_cs g) -> merged and g r.
Proof. intros H1 H2 H3 H4 H5 H6 H7 H8. exists xs. repeat (split; [assumption|]). right. split; [assumption|]. exists b. auto. Qed.
Lemma joined_one and c : jtype c = Ok (J and) -> all_joined and [c].
Proof. intros H. constructor; [exact H|constructor]. Qed.

Lemma add_shape and g k d d' r : g_ok g -> ready g -> wf d -> Inv k d -> takes and k = true ->
  c_join (J and) d = Ok d' -> add_single g d' = Ok r -> merged and g r.
Proof.
  intros [Hgj Hw] Hr Hd Hk Ht Ej Er.
  assert (Hjd : jtype d' = Ok (J and)) by (destruct d; inversion Ej; subst; reflexivity).
  unfold add_single in Er. rewrite !has_all_eq in Er by exact Hw. rewrite Hjd in Er. cbn [bind] in Er.
  assert (Hlen : (length (g_cs g) =? 0) = false /\ (length (g_cs g) = 1 \/ (length (g_cs g) =? 1) = false /\ (1 <? length (g_cs g)) = true)).
  { split; [apply Nat.eqb_neq; destruct Hr as [Hr|(a & Hm & _)]; [|unfold many in Hm]; lia|].
    destruct Hr as [Hr|(a & Hm & _)]; [now left|right; unfold many in Hm; split; [apply Nat.eqb_neq|apply Nat.ltb_lt]; lia]. }
  destruct Hlen as [L0 L1].
  assert (Hgrp : forall n j cs br a, d = CGrp j n cs br -> many cs -> all_joined a (tl cs) -> (n = true -> a <> and) ->
    (a = and -> all_joined and cs) -> merged and g r).
  { intros n j cs br a -> Hmc Hac Hna Hsame. cbn [c_join] in Ej. injection Ej as <-. cbn [as_group] in Er.
    inversion Hd as [|? ? ? ? _ _ Hwc]; subst.
    unfold add_group in Er. cbn [g_cs g_join] in Er. rewrite !has_all_eq, !has_one_eq in Er by (exact Hw || exact Hwc). cbn [bind g_cs] in Er.
    destruct (joined_tails a _ Hac) as [C1 C2]. destruct (joined_many a _ Hmc Hac) as [C3 C4].
    cbn [with_brackets of_g c_join bind g_join g_neg g_cs g_br] in Er. rewrite L0 in Er.
    assert (Hcne : cs <> []) by (intros ->; unfold many in Hmc; simpl in Hmc; lia).
    assert (Hone : all_joined and [CGrp (J and) n cs true]) by (now apply joined_one).
    destruct Hr as [H1|(b & Hm & Hb)].
    - rewrite H1 in Er. cbn [Nat.eqb] in Er.
      destruct and, a; cbn [J negb] in *; rewrite ?C1, ?C2, ?C3, ?C4 in Er; cbn in Er; injection Er as <-.
      1,4: apply (same_group _ _ _ cs); auto.
      all: eapply same_group; [..|reflexivity|now left]; try reflexivity; try discriminate; exact Hone.
    - destruct L1 as [L1|[L1 L2]]; [unfold many in Hm; lia|]. rewrite L1 in Er.
      destruct (joined_tails b _ Hb) as [T1 T2]. destruct (joined_many b _ Hm Hb) as [T3 T4].
      destruct and, a, b; cbn [J negb] in *; rewrite ?C1, ?C2, ?C3, ?C4, ?T1, ?T2, ?T3, ?T4 in Er; cbn in Er; injection Er as <-.
      all: first [ eapply (same_group _ _ _ cs); [reflexivity|reflexivity|exact Hcne|now apply Hsame|reflexivity|now right]
                 | eapply same_group; [reflexivity|reflexivity| |exact Hone|reflexivity|now right]; discriminate
                 | eapply (new_group_of _ _ _ cs); [reflexivity|reflexivity|exact Hcne|now apply Hsame|reflexivity| |exact Hb|exact Hm]; discriminate
                 | eapply new_group_of; [reflexivity|reflexivity| |exact Hone|reflexivity| |exact Hb|exact Hm]; discriminate ]. }
  destruct k as [|a p|a].
  - destruct Hk as (l & ->). cbn [c_join] in Ej. injection Ej as <-. cbn [as_group c_join bind l_kind l_neg l_def l_val] in Er. rewrite L0 in Er.
    assert (Hone : all_joined and [CLeaf (mkLeaf (l_kind l) (J and) (l_neg l) (l_def l) (l_val l))]) by (now apply joined_one).
    destruct Hr as [H1|(a & Hm & Ha)].
    + rewrite H1 in Er. cbn [Nat.eqb] in Er. injection Er as <-.
      eapply same_group; [reflexivity|reflexivity| |exact Hone|reflexivity|now left]. discriminate.
    + destruct (joined_tails a _ Ha) as [T1 _]. destruct (joined_many a _ Hm Ha) as [_ T2].
      destruct L1 as [L1|[L1 L2]]; [unfold many in Hm; lia|]. rewrite L1, L2 in Er.
      destruct and, a; cbn [J negb] in *; rewrite T1, T2 in Er; cbn in Er; injection Er as <-.
      1,4: eapply same_group; [reflexivity|reflexivity| |exact Hone|reflexivity|now right]; discriminate.
      all: eapply new_group_of; [reflexivity|reflexivity| |exact Hone|reflexivity| |exact Ha|exact Hm]; discriminate.
  - destruct Hk as (j & cs & br & -> & Hmc & Hac & Hsc & Hp). apply (Hgrp false j cs br a); auto; [discriminate|].
    intros ->. cbn [takes] in Ht. rewrite Bool.eqb_reflx in Ht. now apply Hp.
  - destruct Hk as (j & cs & br & -> & Hmc & Hac). cbn [takes] in Ht.
    assert (a <> and) by (intros ->; rewrite Bool.eqb_reflx in Ht; discriminate). apply (Hgrp true j cs br a); auto. congruence.
Qed.

Lemma tl_app (A : Type) (a b : list A) : a <> [] -> tl (a ++ b)%list = (tl a ++ b)%list.
Proof. destruct a; [congruence|reflexivity]. Qed.
Lemma many_ne (cs : list cond) : many cs -> cs <> [].
Proof. intros H ->. unfold many in H. simpl in H. lia. Qed.
Lemma joined_unique a b cs : many cs -> all_joined a (tl cs) -> all_joined b (tl cs) -> a = b.
Proof.
  unfold many, all_joined. destruct cs as [|x [|y cs]]; simpl; try lia. intros _ Ha Hb. inversion Ha as [|? ? H1 _]; inversion Hb as [|? ? H2 _]; subst.
  rewrite H1 in H2. destruct a, b; [reflexivity|discriminate|discriminate|reflexivity].
Qed.

Lemma inv_ready k k' a c : Inv k c -> receives a k = Some k' -> ready (start (J a) c).
Proof.
  destruct k as [|b p|b]; [|intros (j & cs & br & -> & Hm & Ha & _) _; right; exists b; split; assumption|discriminate].
  intros (l & ->) _. now left.
Qed.
Lemma inv_neg k k' a c : Inv k c -> receives a k = Some k' -> negated c = false.
Proof. destruct k as [|b p|b]; [intros (l & ->)|intros (j & cs & br & -> & _)|discriminate]; reflexivity. Qed.
Lemma inv_receiver k k' a c : Inv k c -> receives a k = Some k' -> and_receiver c.
Proof.
  intros Hk Hr. split; [eapply inv_neg; eauto|]. destruct k as [|b p|b]; [| |discriminate].
  - destruct Hk as (l & ->). intros _. repeat constructor.
  - destruct Hk as (j & cs & br & -> & Hm & Ha & Hs & _). cbn [members]. destruct b; [auto|].
    destruct (joined_many false _ Hm Ha) as [_ T]. cbn [J negb] in T. congruence.
Qed.
Lemma inv_and_argument k c recv : Inv k c -> takes true k = true -> and_argument recv c.
Proof.
  destruct k as [|b p|b]; [intros (l & ->) _; constructor| |].
  - intros (j & cs & br & -> & Hm & Ha & Hs & Hp) Ht. destruct b; cbn in Ht.
    + apply aa_and; [now apply Hs|now apply Hp].
    + destruct (joined_many false _ Hm Ha) as [T1 _]. destruct (joined_tails false _ Ha) as [_ T2]. apply aa_or; [exact T1|now left].
  - intros (j & cs & br & -> & Hm & Ha) Ht. destruct b; [discriminate|].
    destruct (joined_many false _ Hm Ha) as [T1 _]. destruct (joined_tails false _ Ha) as [_ T2]. apply aa_or; [exact T1|now left].
Qed.
Lemma inv_or_argument k c : Inv k c -> takes false k = true -> or_argument c.
Proof.
  destruct k as [|b p|b]; [intros (l & ->) _; constructor| |].
  - intros (j & cs & br & -> & Hm & Ha & Hs & Hp) Ht. destruct b; cbn in Ht.
    + destruct (joined_many true _ Hm Ha) as [T1 _]. now apply oa_and.
    + apply oa_or. now apply Hp.
  - intros (j & cs & br & -> & Hm & Ha) Ht. destruct b; [|discriminate].
    destruct (joined_many true _ Hm Ha) as [T1 _]. now apply oa_and.
Qed.

Lemma merged_inv and k k' c r0 j : Inv k c -> receives and k = Some k' -> merged and (start (J and) c) r0 ->
  (and = true -> Forall and_safe (g_cs r0) /\ j = g_join r0) -> Inv k' (CGrp j false (g_cs r0) (g_br r0)).
Proof.
  intros Hk Hr (xs & Hx & Ha & Hj & _ & H) Hs.
  assert (Hx1 : 1 <= length xs) by (destruct xs; [congruence|simpl; lia]).
  destruct k as [|b p|b]; [| |discriminate]; injection Hr as <-; cbn [Inv]; exists j, (g_cs r0), (g_br r0); (split; [reflexivity|]).
  - destruct Hk as (l & ->). cbn [start g_cs g_join] in *. destruct H as [[Ecs _]|[_ (b & _ & _ & Hm)]]; [|unfold many in Hm; simpl in Hm; lia].
    split; [rewrite Ecs; unfold many; cbn [app length]; lia|]. split; [rewrite Ecs; exact Ha|]. split; [intros E; now apply Hs|]. rewrite Ecs. intros _.
    split; [constructor; [reflexivity|exact Ha]|]. intros E. destruct (Hs E) as [_ ->]. exact Hj.
  - destruct Hk as (j0 & cs & br & -> & Hm & Hb & _ & Hp). cbn [start g_cs g_join] in *. pose proof (many_ne _ Hm) as Hne.
    destruct H as [[Ecs Hor]|[Ecs (b' & Hbn & Hb' & _)]].
    + assert (Htl : all_joined and (tl cs)) by (destruct Hor as [Hor|Hor]; [unfold many in Hm; lia|exact Hor]).
      split; [rewrite Ecs; unfold many in *; rewrite app_length; lia|]. split; [rewrite Ecs, tl_app by exact Hne; now apply Forall_app|].
      split; [intros E; now apply Hs|]. rewrite Ecs. intros E. apply andb_true_iff in E as [E ->]. apply Bool.eqb_prop in E as ->.
      destruct (Hp eq_refl) as [P1 P2]. split; [now apply Forall_app|]. intros E. destruct (Hs E) as [_ ->]. rewrite Hj. now apply P2.
    + split; [rewrite Ecs; unfold many; simpl; lia|]. split; [rewrite Ecs; exact Ha|]. split; [intros E; now apply Hs|]. intros E. apply andb_true_iff in E as [E _].
      apply Bool.eqb_prop in E. pose proof (joined_unique b b' _ Hm Hb Hb'). congruence.
Qed.

Lemma add_one op g d : g_cs g <> [] -> Forall wf (g_cs g) -> add_conditions op g [d] = (do c <- c_join op d; add_single g c).
Proof.
  intros Hne Hw. unfold add_conditions. rewrite !has_one_eq by exact Hw. cbn [bind]. destruct (g_cs g); [congruence|reflexivity].
Qed.

(** one And or Or with one argument *)
Lemma step rho (and fn : bool) k k' kd c d vc vd : wf c -> wf d -> sound rho c -> sound rho d -> Inv k c -> Inv kd d ->
  receives and k = Some k' -> takes and kd = true -> and = true \/ fn = true \/ null_leaf c = false ->
  means rho c vc -> means rho d vd ->
  exists r, (if and then if fn then and_ else m_and else if fn then or_ else m_or) c [d] = Ok r /\
    wf r /\ sound rho r /\ Inv k' r /\ means rho r ((if and then and3 else or3) vc vd) /\ null_leaf r = false.
Proof.
  intros Hw Hwd Hs Hsd Hk Hkd Hr Ht Hnull Hm Hmd.
  assert (Hnil : c <> CNil) by (destruct Hw; discriminate).
  destruct (start_ok (J and) c (J_ok and) Hw) as [Hg Hgne].
  assert (Hwds : Forall wf [d]) by auto.
  destruct (add_conditions_wf (J and) (start (J and) c) [d] (J_ok and) Hg Hwds) as (r0 & E0 & Hok & Hrn & Hcores).
  assert (Hwr : wf (of_g r0)) by (apply g_ok_wf; auto).
  assert (Hsr : sound rho (of_g r0)).
  { apply (sound_of_g rho r0 [c] [d]); [now rewrite Hcores, start_cores|repeat constructor; exact Hs|repeat constructor; exact Hsd]. }
  assert (Hmg : merged and (start (J and) c) r0).
  { pose proof E0 as E1. rewrite (add_one _ _ _ Hgne (proj2 Hg)) in E1. apply bind_Ok in E1 as (d' & Ej & E1).
    exact (add_shape and _ kd d d' r0 Hg (inv_ready _ _ _ _ Hk Hr) Hwd Hkd Ht Ej E1). }
  assert (Hneg : g_neg r0 = false).
  { destruct Hmg as (_ & _ & _ & _ & -> & _). rewrite start_neg. eapply inv_neg; eauto. }
  destruct and; cbn [J] in *.
  - pose proof (inv_receiver _ _ _ _ Hk Hr) as Hrec. pose proof (inv_and_argument _ _ (members c) Hkd Ht) as Harg.
    assert (Hsafe : Forall and_safe (g_cs r0)).
    { destruct (group_and_mean (fun _ => U) (fun _ _ => eq_refl) (start AND c) [d] r0) as (_ & C & _); auto.
      - rewrite start_neg. eapply inv_neg; eauto.
      - destruct (start_tails AND c AND Hw) as [-> _]. intros T. destruct Hrec as [_ Hrec]. specialize (Hrec T).
        destruct Hw; simpl in *; [repeat constructor|exact Hrec].
      - cbn [and_arguments]. eapply inv_and_argument; eauto.
      - apply C. discriminate. }
    exists (of_g r0). assert (E : m_and c [d] = Ok (of_g r0) /\ and_ c [d] = Ok (of_g r0)).
    { split.
      - destruct (m_and_eq c [d] Hnil) as [->|(? & _)]; [|discriminate]. unfold group_and. now rewrite E0.
      - destruct (and_eq c [d] Hnil) as [->|(? & _)]; [|discriminate]. unfold group_and. now rewrite E0. }
    split; [destruct fn; apply E|]. split; [exact Hwr|]. split; [exact Hsr|]. split.
    { unfold of_g. rewrite Hneg. apply (merged_inv true k k' c r0 _ Hk Hr Hmg). auto. }
    split; [|reflexivity].
    pose proof (and_means rho c vc [d] [vd] (of_g r0) Hw Hwds Hs ltac:(auto) Hrec Harg Hm ltac:(auto) (or_introl (proj1 E))) as K.
    cbn [conj3 fold_right] in K. unfold conj3 in K. cbn [fold_right] in K. now rewrite and3_T in K.
  - pose proof (inv_or_argument _ _ Hkd Ht) as Harg.
    destruct (tr_join and_or false OR (of_g r0) (or_intror eq_refl)) as (r1 & Er1 & Hr1); [now apply wf_tree|]. apply wf_tree in Hr1.
    assert (Hsr1 : sound rho r1) by (eapply sound_join; eauto).
    assert (Hinv : forall j, Inv k' (CGrp j false (g_cs r0) (g_br r0))).
    { intros j. apply (merged_inv false k k' c r0 j Hk Hr Hmg). discriminate. }
    assert (Hinv1 : Inv k' r1 /\ null_leaf r1 = false).
    { unfold of_g in Er1. cbn [c_join] in Er1. injection Er1 as <-. rewrite Hneg. split; [apply Hinv|reflexivity]. }
    assert (Hneg' : negated c = false) by (eapply inv_neg; eauto).
    destruct fn.
    + exists r1. assert (E : or_ c [d] = Ok r1).
      { destruct (or_eq c [d] Hnil) as [->|(? & _)]; [|discriminate]. unfold group_or. rewrite E0. exact Er1. }
      split; [exact E|]. split; [exact Hr1|]. split; [exact Hsr1|]. split; [apply Hinv1|]. split; [|apply Hinv1].
      apply (or_means rho c vc d vd _ Hw Hwd Hs Hsd Hneg' Harg Hm Hmd); auto.
    + destruct Hnull as [?|[?|Hnull]]; try discriminate.
      destruct (m_or_eq c [d] Hnil Hnull) as [(op & _ & E)|(? & _)]; [|discriminate]. unfold group_or in E. rewrite E0 in E. cbn [bind] in E.
      destruct op.
      * rewrite Er1 in E. exists r1. split; [exact E|]. split; [exact Hr1|]. split; [exact Hsr1|]. split; [apply Hinv1|]. split; [|apply Hinv1].
        apply (or_means rho c vc d vd _ Hw Hwd Hs Hsd Hneg' Harg Hm Hmd); auto.
      * exists (of_g r0). split; [exact E|]. split; [exact Hwr|]. split; [exact Hsr|]. split; [unfold of_g; rewrite Hneg; apply Hinv|]. split; [|reflexivity].
        apply (or_means rho c vc d vd _ Hw Hwd Hs Hsd Hneg' Harg Hm Hmd); auto.
Qed.

(** And with several predicates *)
Lemma step_many rho (fn : bool) k k' c vc ls : wf c -> sound rho c -> Inv k c -> receives true k = Some k' ->
  1 < length ls -> (forall l, In l ls -> good_leaf l /\ l_join l = AND) -> means rho c vc ->
  exists r, (if fn then and_ else m_and) c (map CLeaf ls) = Ok r /\
    wf r /\ sound rho r /\ Inv k' r /\ means rho r (fold_right and3 T (vc :: map (leaf_tv rho) ls)) /\ null_leaf r = false.
Proof.
  intros Hw Hs Hk Hr Hlen Hl Hm. set (ds := map CLeaf ls).
  assert (Hnil : c <> CNil) by (destruct Hw; discriminate).
  assert (Hdl : length ds = length ls) by apply map_length.
  assert (Hdm : many ds) by (unfold many; lia).
  assert (Hdne : ds <> []) by (now apply many_ne).
  assert (Hwds : Forall wf ds).
  { apply Forall_forall. intros d Hd. apply in_map_iff in Hd as (l & <- & Hin). constructor. left. now apply Hl. }
  assert (Hjds : all_joined true ds).
  { apply Forall_forall. intros d Hd. apply in_map_iff in Hd as (l & <- & Hin). cbn. f_equal. now apply Hl. }
  assert (Hsds : Forall and_safe ds).
  { apply Forall_forall. intros d Hd. apply in_map_iff in Hd as (l & <- & Hin). constructor. }
  assert (Hss : Forall (sound rho) ds).
  { apply Forall_forall. intros d Hd. apply in_map_iff in Hd as (l & <- & Hin). intros l' [<-|[]]. now apply good_leaf_sound, Hl. }
  assert (Hmm : Forall2 (means rho) ds (map (leaf_tv rho) ls)).
  { unfold ds. clear -Hl. induction ls as [|l ls IH]; [constructor|]. cbn [map]. constructor; [|apply IH; intros l' H'; apply Hl; now right].
    apply leafok_means. apply good_leaf_ok. now apply Hl; left. }
  destruct (start_ok AND c (or_introl eq_refl) Hw) as [Hg Hgne].
  destruct (add_conditions_wf AND (start AND c) ds (or_introl eq_refl) Hg Hwds) as (r0 & E0 & Hok & Hrn & Hcores).
  assert (Hwr : wf (of_g r0)) by (apply g_ok_wf; auto).
  assert (Hsr : sound rho (of_g r0)).
  { apply (sound_of_g rho r0 [c] ds); [now rewrite Hcores, start_cores|repeat constructor; exact Hs|exact Hss]. }
  pose proof (inv_receiver _ _ _ _ Hk Hr) as Hrec.
  assert (Hargs : forall recv, and_arguments recv ds).
  { intros recv. unfold and_arguments. destruct ds as [|x [|y zs]]; [exact I|unfold many in Hdm; simpl in Hdm; lia|]. split; auto. }
  assert (Hst : tails AND (g_cs (start AND c)) = true -> Forall and_safe (g_cs (start AND c))).
  { destruct (start_tails AND c AND Hw) as [-> _]. intros T. destruct Hrec as [_ Hrec]. specialize (Hrec T).
    destruct Hw; simpl in *; [repeat constructor|exact Hrec]. }
  assert (Hng : g_neg (start AND c) = false) by (rewrite start_neg; eapply inv_neg; eauto).
  destruct (group_and_mean (fun _ => U) (fun _ _ => eq_refl) (start AND c) ds r0 Hg Hgne Hng Hst Hwds (Hargs _) E0) as (Hneg & Hsafe & _).
  destruct (Hsafe Hdne) as [Hsafe' _].
  assert (Hshape : exists xs, xs <> [] /\ all_joined true xs /\ g_cs r0 = of_g (with_brackets (start AND c)) :: xs /\ g_join r0 = g_join (start AND c)).
  { unfold add_conditions in E0. rewrite !has_one_eq in E0 by apply Hg. cbn [bind] in E0.
    destruct ds as [|x [|y zs]] eqn:Eds; [congruence|unfold many in Hdm; simpl in Hdm; lia|]. rewrite <- Eds in *.
    destruct (g_cs (start AND c)) as [|u us] eqn:Eg; [congruence|]. rewrite <- Eg in *.
    change (str_eqb AND AND) with true in E0. change (str_eqb AND OR) with false in E0. rewrite andb_true_r, andb_false_r in E0.
    destruct (someTail OR (g_cs (start AND c))).
    - injection E0 as <-. exists ds. auto.
    - destruct (new_group_cs AND ds (or_introl eq_refl) Hwds) as (ds' & E & _). rewrite E in E0. cbn [bind] in E0. injection E0 as <-.
      eexists. split; [|split; [|split; reflexivity]]; [discriminate|now apply joined_one]. }
  destruct Hshape as (xs & Hxne & Hxj & Ecs & Ejo).
  exists (of_g r0).
  assert (E : m_and c ds = Ok (of_g r0) /\ and_ c ds = Ok (of_g r0)).
  { split.
    - destruct (m_and_eq c ds Hnil) as [->|(? & _)]; [|congruence]. unfold group_and. now rewrite E0.
    - destruct (and_eq c ds Hnil) as [->|(? & _)]; [|congruence]. unfold group_and. now rewrite E0. }
  split; [destruct fn; apply E|]. split; [exact Hwr|]. split; [exact Hsr|]. split; [|split; [|reflexivity]].
  - assert (Hinv : forall p, (p = true -> g_join (start AND c) = AND) -> Inv (Chain true p) (of_g r0)).
    { intros p Hp. cbn [Inv]. exists (g_join r0), (g_cs r0), (g_br r0). split; [unfold of_g; now rewrite Hneg|].
      assert (1 <= length xs) by (destruct xs; [congruence|simpl; lia]).
      split; [rewrite Ecs; unfold many; simpl; lia|]. split; [rewrite Ecs; exact Hxj|]. split; [auto|]. intros Ep. specialize (Hp Ep).
      split; [rewrite Ecs; constructor; [cbn; now f_equal|exact Hxj]|]. intros _. congruence. }
    destruct k as [|a p|a]; [| |discriminate]; injection Hr as <-; apply Hinv.
    + intros _. destruct Hk as (l & ->). reflexivity.
    + intros Ep. apply andb_true_iff in Ep as [Ea ->]. apply Bool.eqb_prop in Ea as ->.
      destruct Hk as (j & cs & br & -> & _ & _ & _ & Hp). now apply Hp.
  - apply (and_means rho c vc ds (map (leaf_tv rho) ls) (of_g r0) Hw Hwds Hs Hss Hrec (Hargs _) Hm Hmm). left. apply E.
Qed.

Lemma run_ok rho e k : kind e = Some k -> (forall l, In l (preds e) -> good_leaf l /\ l_join l = AND) ->
  exists c, run e = Ok c /\ wf c /\ sound rho c /\ Inv k c /\ means rho c (meant rho e) /\ (is_null_pred e = false -> null_leaf c = false).
Proof.
  assert (HP : forall l, good_leaf l -> l_join l = AND -> wf (CLeaf l) /\ sound rho (CLeaf l) /\ means rho (CLeaf l) (leaf_tv rho l)).
  { intros l Hg Hj. split; [constructor; now left|]. split; [intros l' [<-|[]]; now apply good_leaf_sound|]. now apply leafok_means, good_leaf_ok. }
  revert k. induction e as [l|e IH|and fn e IHe d IHd|fn e IHe ls]; intros k Hk Hl.
  - injection Hk as <-. destruct (Hl l ltac:(now left)) as [Hg Hj]. destruct (HP l Hg Hj) as (H1 & H2 & H3).
    exists (CLeaf l). split; [reflexivity|]. split; [exact H1|]. split; [exact H2|]. split; [now exists l|]. split; [exact H3|]. auto.
  - assert (Hcase : (exists l, e = Pred l /\ l_neg l = false /\ k = One) \/ exists a p, kind e = Some (Chain a p) /\ k = Negated a).
    { assert (K : (exists l, e = Pred l) \/ kind (NotC e) = match kind e with Some (Chain a _) => Some (Negated a) | _ => None end)
        by (destruct e; [left; eauto|right; reflexivity..]).
      destruct K as [(l & ->)|K].
      - left. cbn in Hk. destruct (l_neg l) eqn:N; [discriminate|]. injection Hk as <-. eauto.
      - right. rewrite K in Hk. destruct (kind e) as [[|a p|a]|]; try discriminate. injection Hk as <-. eauto. }
    destruct Hcase as [(l & -> & Hn & ->)|(a & p & Ek & ->)].
    + destruct (Hl l ltac:(now left)) as [Hg Hj]. destruct (HP l Hg Hj) as (H1 & H2 & H3).
      set (l' := mkLeaf (l_kind l) (l_join l) true (l_def l) (l_val l)). assert (Hg' : good_leaf l') by exact Hg.
      destruct (HP l' Hg' Hj) as (H1' & H2' & _).
      exists (CLeaf l'). split; [reflexivity|]. split; [exact H1'|]. split; [exact H2'|]. split; [now exists l'|]. split; [|auto].
      cbn [meant]. apply (not_means rho (CLeaf l) _ (CLeaf l') H1 H2); auto. now apply na_leaf.
    + destruct (IH _ Ek Hl) as (c & Ec & Hw & Hs & (j & cs & br & -> & Hm & Ha & _) & Hme & _).
      exists (CGrp j true cs br). cbn [run]. rewrite Ec. split; [reflexivity|]. inversion Hw; subst. split; [now constructor|].
      split; [apply sound_grp; now apply sound_grp in Hs|]. split; [now exists j, cs, br|]. split; [|auto].
      cbn [meant]. apply (not_means rho (CGrp j false cs br)); auto. apply na_many. now right.
  - cbn [kind] in Hk. destruct (kind e) as [ke|] eqn:Ee; [|discriminate]. destruct (kind d) as [kd|] eqn:Ed; [|discriminate].
    destruct (takes and kd && (and || fn || negb (is_null_pred e))) eqn:B; [|discriminate]. apply andb_true_iff in B as [Ht Hnull].
    cbn [preds] in Hl.
    destruct (IHe _ eq_refl ltac:(intros l H; apply Hl, in_app_iff; now left)) as (c & Ec & Hw & Hs & Hi & Hm & Hn).
    destruct (IHd _ eq_refl ltac:(intros l H; apply Hl, in_app_iff; now right)) as (x & Ex & Hwx & Hsx & Hix & Hmx & _).
    destruct (step rho and fn ke k kd c x (meant rho e) (meant rho d)) as (r & Er & R1 & R2 & R3 & R4 & R5); auto.
    { apply orb_true_iff in Hnull as [Hnull|Hnull]; [apply orb_true_iff in Hnull as [->| ->]; auto|]. right. right. apply Hn. now apply negb_true_iff. }
    exists r. cbn [run]. rewrite Ec, Ex. cbn [bind]. split; [exact Er|]. repeat (split; [assumption|]). auto.
  - cbn [kind] in Hk. destruct (kind e) as [ke|] eqn:Ee; [|discriminate]. destruct (1 <? length ls) eqn:B; [|discriminate]. apply Nat.ltb_lt in B.
    cbn [preds] in Hl.
    destruct (IHe _ eq_refl ltac:(intros l H; apply Hl, in_app_iff; now left)) as (c & Ec & Hw & Hs & Hi & Hm & Hn).
    destruct (step_many rho fn ke k c (meant rho e) ls) as (r & Er & R1 & R2 & R3 & R4 & R5); auto.
    { intros l H. apply Hl, in_app_iff. now right. }
    exists r. cbn [run]. rewrite Ec. cbn [bind]. split; [exact Er|]. repeat (split; [assumption|]). auto.
Qed.


(** ** The theorems *)

(** Full statement (false): every expression returns a condition that means what was meant.  Each of the rules is needed:
    x.And(a.Or(b).And(c)), x.Or(a.And(b).Or(c)), a.And(Not(b.And(c))), a.Or(Not(b.Or(c))), Not(a.And(b)).And(c),
    Not(a.And(b)).Or(c), Not(Not(a)) and Not(Not(a.And(b))) break one rule each, and none of them means what was meant. *)
Definition pe (f : string) : call := Pred (mkLeaf KEq AND false (mkF f "" "") (VOther 1)).
(** each with the columns that hold 1 in the row that tells the difference *)
Definition misread : list (call * list string) :=
  [ (Two true false (pe "x") (Two true false (Two false false (pe "a") (pe "b")) (pe "c")), ["x"]);
    (Two false false (pe "x") (Two false false (Two true false (pe "a") (pe "b")) (pe "c")), ["x"]);
    (Two true false (pe "a") (NotC (Two true false (pe "b") (pe "c"))), ["a"; "b"; "c"]);
    (Two false false (pe "a") (NotC (Two false false (pe "b") (pe "c"))), ["b"; "c"]);
    (Two true false (NotC (Two true false (pe "a") (pe "b"))) (pe "c"), []);
    (Two false false (NotC (Two true false (pe "a") (pe "b"))) (pe "c"), ["a"; "b"; "c"]);
    (NotC (NotC (pe "a")), ["a"]);
    (NotC (NotC (Two true false (pe "a") (pe "b"))), ["a"; "b"]) ].
Definition ones (cs : list string) : row := table_row (fun c => if existsb (String.eqb c) cs then 1 else 0).
Theorem C70_refuted : Forall (fun x => kind (fst x) = None /\ exists c v,
  run (fst x) = Ok c /\ means (ones (snd x)) c v /\ v <> meant (ones (snd x)) (fst x)) misread.
Proof.
  unfold misread. repeat apply Forall_cons; try apply Forall_nil; cbn [fst snd]; (split; [reflexivity|]);
    eexists _, _; (split; [vm_compute; reflexivity|]); (split; [means_now|]); vm_compute; discriminate.
Qed.
Print Assumptions C70_refuted.
Theorem C70_panics_refuted : exists e, kind e = None /\ (forall l, In l (preds e) -> good_leaf l /\ l_join l = AND) /\ run e = Panic.
Proof.
  exists (Two false false (Pred (mkLeaf KNull AND false (mkF "a" "" "") VNil)) (pe "b")). split; [reflexivity|]. split; [|reflexivity].
  intros l [<-|[<-|[]]]; (split; [|reflexivity]); repeat split; try (now left); try (now right); eexists; reflexivity.
Qed.
Print Assumptions C70_panics_refuted.

(** Proved part: all expressions that keep the rules. *)
Theorem C70_chain_partial : forall rho e, kind e <> None -> (forall l, In l (preds e) -> good_leaf l /\ l_join l = AND) ->
  exists c, run e = Ok c /\ means rho c (meant rho e).
Proof.
  intros rho e Hk Hl. destruct (kind e) as [k|] eqn:Ek; [|congruence]. destruct (run_ok rho e k Ek Hl) as (c & H1 & _ & _ & _ & H2 & _). eauto.
Qed.
Print Assumptions C70_chain_partial.

(** The rules cost nothing: every formula over predicates can be written within them. *)
Inductive formula := FPred (l : leaf) | FNot (f : formula) | FAnd (f g : formula) | FOr (f g : formula).
Fixpoint truth (rho : row) (f : formula) : tv :=
  match f with
  | FPred l => leaf_tv rho l
  | FNot f => not3 (truth rho f)
  | FAnd f g => and3 (truth rho f) (truth rho g)
  | FOr f g => or3 (truth rho f) (truth rho g)
  end.
Fixpoint atoms (f : formula) : list leaf :=
  match f with
  | FPred l => [l]
  | FNot f => atoms f
  | FAnd f g | FOr f g => (atoms f ++ atoms g)%list
  end.

Definition op3 (a : bool) : tv -> tv -> tv := if a then and3 else or3.
Lemma op3_assoc a x y z : op3 a (op3 a x y) z = op3 a x (op3 a y z).
Proof. destruct a; [apply and3_assoc|apply or3_assoc]. Qed.
Definition calm (k : kind_of) : Prop := match k with Negated _ => False | _ => True end.
Lemma calm_receives a k : calm k -> exists k', receives a k = Some k' /\ calm k'.
Proof. destruct k as [|b p|b]; simpl; [eauto|eauto|contradiction]. Qed.
Lemma fold_and3 x y ls : and3 x (fold_right and3 T (y :: ls)) = fold_right and3 T (and3 x y :: ls).
Proof. cbn [fold_right]. now rewrite and3_assoc. Qed.

Lemma combine_calls a e2 : forall k2, kind e2 = Some k2 -> calm k2 -> forall e1 k1, kind e1 = Some k1 -> calm k1 ->
  exists e k, kind e = Some k /\ calm k /\ incl (preds e) (preds e1 ++ preds e2) /\
    forall rho, meant rho e = op3 a (meant rho e1) (meant rho e2).
Proof.
  assert (H0 : forall e2 k2, kind e2 = Some k2 -> takes a k2 = true -> forall e1 k1, kind e1 = Some k1 -> calm k1 ->
    exists e k, kind e = Some k /\ calm k /\ incl (preds e) (preds e1 ++ preds e2) /\
      forall rho, meant rho e = op3 a (meant rho e1) (meant rho e2)).
  { clear. intros e2 k2 E2 Ht e1 k1 E1 C1. destruct (calm_receives a k1 C1) as (k & Ek & Ck).
    exists (Two a true e1 e2), k. cbn [kind preds meant]. rewrite E1, E2, Ht. rewrite orb_true_r. cbn [andb orb].
    split; [exact Ek|]. split; [exact Ck|]. split; [apply incl_refl|reflexivity]. }
  induction e2 as [l|e IH|and fn x IHx d IHd|fn x IHx ls]; intros k2 E2 C2 e1 k1 E1 C1.
  - apply (H0 (Pred l) k2 E2) with (k1 := k1); auto. injection E2 as <-. reflexivity.
  - apply (H0 (NotC e) k2 E2) with (k1 := k1); auto. destruct k2 as [|b p|b]; [reflexivity| |contradiction].
    exfalso. destruct e; cbn [kind] in E2; [destruct (l_neg l); discriminate| | |];
      (destruct (kind _) as [[]|] in E2 || idtac); try discriminate.
    all: match type of E2 with match ?k with _ => _ end = _ => destruct k as [[]|]; discriminate end.
  - destruct (takes a k2) eqn:Ht; [apply (H0 _ k2 E2 Ht) with (k1 := k1); auto|].
    cbn [kind] in E2. destruct (kind x) as [kx|] eqn:Ex; [|discriminate]. destruct (kind d) as [kd|] eqn:Ed; [|discriminate].
    destruct (takes and kd && (and || fn || negb (is_null_pred x))) eqn:B; [|discriminate]. apply andb_true_iff in B as [Htd _].
    assert (Hand : and = a).
    { destruct kx; simpl in E2; inversion E2; subst k2; cbn [takes] in Ht; apply orb_false_iff in Ht as [Ht _];
        apply negb_false_iff in Ht; now apply Bool.eqb_prop in Ht. }
    subst and. assert (Cx : calm kx) by (destruct kx; [exact I|exact I|discriminate]).
    destruct (IHx kx eq_refl Cx e1 k1 E1 C1) as (e' & k' & Ee & Ce & Pe & Me).
    destruct (H0 d kd Ed Htd e' k' Ee Ce) as (e & k & Ek & Ck & Pk & Mk).
    exists e, k. split; [exact Ek|]. split; [exact Ck|]. split.
    + intros l Hl. apply Pk in Hl. cbn [preds]. rewrite app_assoc. apply in_app_iff in Hl as [Hl|Hl]; apply in_app_iff; [left; now apply Pe|now right].
    + intros rho. rewrite Mk, Me. cbn [meant]. fold (op3 a). apply op3_assoc.
  - destruct (takes a k2) eqn:Ht; [apply (H0 _ k2 E2 Ht) with (k1 := k1); auto|].
    cbn [kind] in E2. destruct (kind x) as [kx|] eqn:Ex; [|discriminate]. destruct (1 <? length ls) eqn:B; [|discriminate].
    assert (Hand : true = a).
    { destruct kx; simpl in E2; inversion E2; subst k2; cbn [takes] in Ht; apply orb_false_iff in Ht as [Ht _];
        apply negb_false_iff in Ht; now apply Bool.eqb_prop in Ht. }
    subst a. assert (Cx : calm kx) by (destruct kx; [exact I|exact I|discriminate]).
    destruct (IHx kx eq_refl Cx e1 k1 E1 C1) as (e' & k' & Ee & Ce & Pe & Me).
    destruct (calm_receives true k' Ce) as (k & Ek & Ck).
    exists (AndL fn e' ls), k. cbn [kind preds meant]. rewrite Ee, B. split; [exact Ek|]. split; [exact Ck|]. split.
    + intros l Hl. rewrite app_assoc. apply in_app_iff in Hl as [Hl|Hl]; apply in_app_iff; [left; now apply Pe|now right].
    + intros rho. rewrite Me. symmetry. apply fold_and3.
Qed.

Lemma written f : (forall l, In l (atoms f) -> l_neg l = false) -> forall b : bool,
  exists e k, kind e = Some k /\ calm k /\ incl (preds e) (atoms f) /\ forall rho, meant rho e = if b then truth rho f else not3 (truth rho f).
Proof.
  assert (K : forall (a : bool) f g b, (exists e k, kind e = Some k /\ calm k /\ incl (preds e) (atoms f) /\ forall rho, meant rho e = if b : bool then truth rho f else not3 (truth rho f)) ->
    (exists e k, kind e = Some k /\ calm k /\ incl (preds e) (atoms g) /\ forall rho, meant rho e = if b then truth rho g else not3 (truth rho g)) ->
    exists e k, kind e = Some k /\ calm k /\ incl (preds e) (atoms f ++ atoms g) /\
      forall rho, meant rho e = if b then op3 a (truth rho f) (truth rho g) else not3 (op3 a (truth rho f) (truth rho g))).
  { intros a f1 g b (e1 & k1 & E1 & C1 & P1 & M1) (e2 & k2 & E2 & C2 & P2 & M2).
    destruct (combine_calls (Bool.eqb a b) e2 k2 E2 C2 e1 k1 E1 C1) as (e & k & Ek & Ck & Pk & Mk).
    exists e, k. split; [exact Ek|]. split; [exact Ck|]. split.
    - intros l Hl. apply Pk, in_app_iff in Hl. apply in_app_iff. destruct Hl; auto.
    - intros rho. rewrite Mk, M1, M2. destruct a, b; cbn; try reflexivity; now destruct (truth rho f1), (truth rho g). }
  induction f as [l|f IH|f IHf g IHg|f IHf g IHg]; intros Hl b.
  - destruct b.
    + exists (Pred l), One. repeat split. apply incl_refl.
    + exists (NotC (Pred l)), One. cbn [kind]. rewrite Hl by (now left). repeat split. apply incl_refl.
  - destruct (IH Hl (negb b)) as (e & k & Ek & Ck & Pk & Mk). exists e, k. repeat (split; [assumption|]).
    intros rho. rewrite Mk. cbn [truth]. destruct b; cbn; [reflexivity|]. now destruct (truth rho f).
  - cbn [atoms truth]. apply (K true f g b); [apply IHf|apply IHg]; intros l Hin; apply Hl, in_app_iff; auto.
  - cbn [atoms truth]. apply (K false f g b); [apply IHf|apply IHg]; intros l Hin; apply Hl, in_app_iff; auto.
Qed.

Theorem C70_expressible : forall f, (forall l, In l (atoms f) -> good_leaf l /\ l_join l = AND /\ l_neg l = false) ->
  exists e c, kind e <> None /\ incl (preds e) (atoms f) /\ run e = Ok c /\ forall rho, means rho c (truth rho f).
Proof.
  intros f Hl. destruct (written f ltac:(intros l H; now apply Hl) true) as (e & k & Ek & _ & Pk & Mk).
  assert (Hp : forall l, In l (preds e) -> good_leaf l /\ l_join l = AND) by (intros l H; apply Pk in H; split; now apply Hl).
  destruct (run_ok (ones []) e k Ek Hp) as (c & Ec & _). exists e, c. split; [congruence|]. split; [exact Pk|]. split; [exact Ec|].
  intros rho. destruct (run_ok rho e k Ek Hp) as (c' & Ec' & _ & _ & _ & Hm & _). rewrite Ec in Ec'. injection Ec' as <-. now rewrite <- Mk.
Qed.
Print Assumptions C70_expressible.

(** ** The condition as the argument of Where *)

Lemma wf_no_empty c : wf c -> no_empty c.
Proof.
  induction c as [|l|j n cs br IH] using cond_ind'; intros H; inversion H as [|? ? ? ? _ Hne Hcs]; subst; [exact I|].
  apply no_empty_grp. split; [exact Hne|]. rewrite Forall_forall in *. auto.
Qed.
Lemma run_built e c : (forall l, In l (preds e) -> built (CLeaf l)) -> run e = Ok c -> built c.
Proof.
  revert c. induction e as [l|e IH|and fn e IHe d IHd|fn e IHe ls]; intros c Hl E; cbn [run preds] in *.
  - injection E as <-. apply Hl. now left.
  - apply bind_Ok in E as (x & Ex & E). apply (bt_not x c); auto.
  - apply bind_Ok in E as (x & Ex & E). apply bind_Ok in E as (y & Ey & E).
    assert (Bx : built x) by (apply IHe; auto; intros l H; apply Hl, in_app_iff; auto).
    assert (By : forall z, In z [y] -> built z) by (intros z [<-|[]]; apply IHd; auto; intros l H; apply Hl, in_app_iff; auto).
    destruct and, fn; [apply (bt_and x [y])|apply (bt_and x [y])|apply (bt_or x [y])|apply (bt_or x [y])]; auto.
  - apply bind_Ok in E as (x & Ex & E).
    assert (Bx : built x) by (apply IHe; auto; intros l H; apply Hl, in_app_iff; auto).
    assert (By : forall z, In z (map CLeaf ls) -> built z).
    { intros z Hz. apply in_map_iff in Hz as (l & <- & Hl'). apply Hl, in_app_iff. auto. }
    destruct fn; apply (bt_and x (map CLeaf ls)); auto.
Qed.
Lemma lone_where rho c c' v : wf c -> sound rho c -> means rho c v -> wanted [[c]] (Some c') -> means rho c' v.
Proof.
  intros Hw Hs Hm [_ E].
  assert (E' : c' = CGrp AND false [c] false) by (cbn in E; injection E as <-; reflexivity). subst c'. clear E.
  assert (Hw' : wf (CGrp AND false [c] false)) by (constructor; [now left|discriminate|auto]).
  assert (Hs' : sound rho (CGrp AND false [c] false)) by (apply sound_grp; auto).
  apply means_iff; auto. rewrite mean_grp. cbn [flat_map]. rewrite app_nil_r. now apply (means_iff rho c v).
Qed.

(** SELECT, UPDATE and DELETE statements with the condition as the only argument of their only Where call: the WHERE
    expression a database reads has the value meant, in every row. *)
Theorem C70_statement_partial : forall rho e, kind e <> None ->
  (forall l, In l (preds e) -> built (CLeaf l) /\ good_leaf l /\ l_join l = AND) ->
  exists c, run e = Ok c /\
    (forall p t hb hm, table_p p = Ok t -> wf_table t -> (flat_map bc_where hb ++ flat_map mc_where hm = [[c]])%list ->
       Forall (fun x => bc_where x = [] -> wf_bcall rho x) hb -> Forall (fun x => mc_where x = [] -> wf_mcall rho x) hm ->
       exists b0 b m s ps sel w, select_from p = Ok b0 /\ calls b_call b0 hb = Ok b /\ calls m_call (many_of b) hm = Ok m /\
         m_build m = Ok (mkOut s ps None) /\ parse_select s = Some sel /\ s_where sel = Some w /\ eval rho ps w = Some (meant rho e)) /\
    (forall p sets vs, qname (raw_table_name p) -> sets <> [] -> singles sets vs -> Forall (fun c => name c = true) (col_names sets) ->
       exists u s ps up, calls u_call (update_ p) [USet sets; UWhere [c]] = Ok u /\ u_build u = Ok (mkOut s ps None) /\
         parse_update s = Some up /\ eval rho ps (up_where up) = Some (meant rho e)) /\
    (forall p, qname (raw_table_name p) ->
       exists d s ps de, d_add_where (delete_ p) [c] = Ok d /\ d_build d = Ok (mkOut s ps None) /\
         parse_delete s = Some de /\ eval rho ps (de_where de) = Some (meant rho e)).
Proof.
  intros rho e Hk Hl. destruct (kind e) as [k|] eqn:Ek; [|congruence].
  destruct (run_ok rho e k Ek) as (c & Ec & Hw & Hs & _ & Hm & _); [intros l H; split; now apply Hl|].
  assert (Hu : usable rho c) by (split; [apply (run_built e); auto; intros l H; now apply Hl|split; [now apply wf_no_empty|exact Hs]]).
  exists c. split; [exact Ec|]. split; [|split].
  - intros p t hb hm Et Ht Hwh Hb Hm'.
    assert (Hb' : Forall (wf_bcall rho) hb).
    { apply Forall_forall. intros x Hx. rewrite Forall_forall in Hb. specialize (Hb x Hx).
      assert (Hin : forall y, In y (bc_where x) -> y = [c]).
      { intros y Hy. assert (K : In y [[c]]) by (rewrite <- Hwh; apply in_app_iff; left; apply in_flat_map; eauto). destruct K as [<-|[]]. reflexivity. }
      destruct x as [fs|cs|jt]; try (apply Hb; reflexivity). cbn in *. rewrite (Hin cs) by (now left). auto. }
    assert (Hm'' : Forall (wf_mcall rho) hm).
    { apply Forall_forall. intros x Hx. rewrite Forall_forall in Hm'. specialize (Hm' x Hx).
      assert (Hin : forall y, In y (mc_where x) -> y = [c]).
      { intros y Hy. assert (K : In y [[c]]) by (rewrite <- Hwh; apply in_app_iff; right; apply in_flat_map; eauto). destruct K as [<-|[]]. reflexivity. }
      destruct x; try (apply Hm'; reflexivity). cbn in *. match goal with |- Forall _ ?cs => rewrite (Hin cs) by (now left) end. auto. }
    destruct (many_history rho p t hb hm Et Ht Hb' Hm'') as (b0 & b & m & s & ps & vs & w & sel & E0 & E1 & E2 & E3 & E4 & _ & _ & _ & _ & W & _ & WA & _).
    rewrite Hwh in W. destruct w as [w|]; [|discriminate W]. simpl in WA. destruct (s_where sel) as [we|] eqn:Ew; [|contradiction].
    exists b0, b, m, s, ps, sel, we. repeat (split; [assumption|]). destruct WA as (_ & v & Hv & He). rewrite He. f_equal.
    eapply means_fun; [exact Hv|]. now apply (lone_where rho c).
  - intros p sets vs Hp Hne Hsi Hc.
    destruct (update_history rho p [USet sets; UWhere [c]] vs) as (u & s & ws & w & we & v & E1 & E2 & E3 & W & _ & _ & Hv & He);
      cbn [flat_map uc_set uc_where app] in *; rewrite ?app_nil_r in *; auto; [constructor; [exact I|constructor; [constructor; [exact Hu|constructor]|constructor]]|discriminate|].
    eexists u, s, _, _. split; [exact E1|]. split; [exact E2|]. split; [exact E3|]. cbn [up_where]. rewrite He. f_equal.
    eapply means_fun; [exact Hv|]. now apply (lone_where rho c).
  - intros p Hp. destruct (delete_history rho p [[c]] Hp) as (d & s & ws & w & we & v & E1 & E2 & E3 & W & _ & _ & Hv & He).
    { constructor; [constructor; [exact Hu|constructor]|constructor]. } { discriminate. }
    cbn [calls] in E1. eexists d, s, _, _. split; [|split; [exact E2|split; [exact E3|]]].
    + destruct (d_add_where (delete_ p) [c]); [exact E1|discriminate].
    + cbn [de_where]. rewrite He. f_equal. eapply means_fun; [exact Hv|]. now apply (lone_where rho c).
Qed.
Print Assumptions C70_statement_partial.

(** (a OR b) AND NOT (c OR d) AND (e AND f OR g), written a.Or(b).And(Not(c.Or(d))).And(e.And(f).Or(g)) *)
Definition C70_written : call :=
  Two true false (Two true false (Two false false (pe "a") (pe "b")) (NotC (Two false false (pe "c") (pe "d"))))
    (Two false false (Two true false (pe "e") (pe "f")) (pe "g")).
Example C70_example : kind C70_written = Some (Chain true false) /\
  (forall l, In l (preds C70_written) -> built (CLeaf l) /\ good_leaf l /\ l_join l = AND) /\
  (exists c, run C70_written = Ok c /\ c_render c 0 = Ok "(a=$1 OR b=$2) AND NOT (c=$3 OR d=$4) AND ((e=$5 AND f=$6) OR g=$7)") /\
  exists c, run (AndL true (NotC (pe "a")) (preds (Two true false (pe "b") (pe "c")))) = Ok c /\ c_render c 0 = Ok "(NOT a=$1) AND (b=$2 AND c=$3)".
Proof.
  split; [reflexivity|]. split.
  - intros l H. simpl in H. repeat destruct H as [<-|H]; try contradiction; (split; [by_eqc|]; split; [|reflexivity]); repeat split; try (now left); try (now right); eexists; reflexivity.
  - split; eexists; (split; [vm_compute; reflexivity|]); vm_compute; reflexivity.
Qed.
