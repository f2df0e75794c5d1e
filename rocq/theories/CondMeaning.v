(** And, Or, Not and Where at the level of SQL texts. *)
From Coq Require Import String Ascii List Bool Arith Lia.
From Verif Require Import GoStr Value Names Cond Build SqlSpec Spec StrFacts SqlFacts CondFacts CondText CondSem
  TreeFacts CondLogic.
Import ListNotations.
Local Open Scope string_scope.
Local Open Scope nat_scope.

(** * Results are well-formed *)

Lemma Forall_wf_tree cs : Forall wf cs -> Forall (tree and_or false) cs.
Proof. intros H. rewrite Forall_forall in *. intros c Hc. now apply wf_tree, H. Qed.
Lemma Forall_tree_wf cs : Forall (tree and_or false) cs -> Forall wf cs.
Proof. intros H. rewrite Forall_forall in *. intros c Hc. now apply wf_tree, H. Qed.
Lemma wf_no_nil c : wf c -> no_nil c.
Proof. intros H. eapply tree_no_nil. apply wf_tree, H. Qed.
Lemma Forall_wf_no_nil cs : Forall wf cs -> Forall no_nil cs.
Proof. intros H. rewrite Forall_forall in *. intros c Hc. now apply wf_no_nil, H. Qed.

Lemma add_conditions_wf op g ds : and_or op -> g_ok g -> Forall wf ds ->
  exists r, add_conditions op g ds = Ok r /\ g_ok r /\ (ds <> [] \/ g_cs g <> [] -> g_cs r <> []) /\
    cores_l (g_cs r) = (cores_l (g_cs g) ++ cores_l ds)%list.
Proof.
  intros Hop [Hj Hg] Hd.
  destruct (add_conditions_tree and_or false (or_introl eq_refl) op g ds Hop) as (r & E & [R1 R2] & Hn).
  { split; [exact Hj|now apply Forall_wf_tree]. } { now apply Forall_wf_tree. }
  destruct (add_conditions_spec op g ds) as (r' & E' & _ & K).
  { now apply Forall_wf_no_nil. } { now apply Forall_wf_no_nil. }
  exists r. split; [exact E|]. split; [split; [exact R1|now apply Forall_tree_wf]|]. split.
  - intros H. destruct (Hn (or_intror H)); [discriminate|assumption].
  - replace r with r' by congruence. exact K.
Qed.

Lemma g_ok_wf g : g_ok g -> g_cs g <> [] -> wf (of_g g).
Proof. intros [Hj Hc] Hn. now constructor. Qed.

Lemma sound_join rho j c c' : c_join j c = Ok c' -> sound rho c -> sound rho c'.
Proof.
  intros E H. apply (sound_cores rho [c]); [|repeat constructor; exact H].
  rewrite (cores_join _ _ _ E). unfold cores_l; simpl. now rewrite app_nil_r.
Qed.

Lemma sound_of_g rho g cs ds : cores_l (g_cs g) = (cores_l cs ++ cores_l ds)%list ->
  Forall (sound rho) cs -> Forall (sound rho) ds -> sound rho (of_g g).
Proof.
  intros E Hc Hd. apply (sound_cores rho (cs ++ ds)).
  - rewrite cores_of_g, cores_l_app. exact E.
  - now apply Forall_app.
Qed.

(** the group And and Or start from *)
Definition start (op : string) (c : cond) : group :=
  match c with
  | CGrp j n cs br => {| g_join := j; g_neg := n; g_cs := cs; g_br := br |}
  | CLeaf l => {| g_join := AND; g_neg := false; g_cs := [CLeaf (leaf_with_join op l)]; g_br := false |}
  | CNil => empty_group
  end.

Lemma start_ok op c : and_or op -> wf c -> g_ok (start op c) /\ g_cs (start op c) <> [].
Proof.
  intros Hop H. destruct H as [l Hl|j n cs br Hj Hne Hcs]; simpl.
  - split; [|discriminate]. split; [now left|]. constructor; [apply wf_leaf; exact Hop|constructor].
  - split; [now split|exact Hne].
Qed.
Lemma start_neg op c : g_neg (start op c) = negated c.
Proof. destruct c; reflexivity. Qed.
Lemma start_cores op c : wf c -> cores_l (g_cs (start op c)) = cores_l [c].
Proof.
  destruct 1 as [l Hl|j n cs br Hj Hne Hcs]; cbn [start g_cs]; [reflexivity|].
  unfold cores_l at 2. cbn [flat_map]. now rewrite app_nil_r, cores_grp.
Qed.
Lemma start_mean rho op c : wf c -> negated c = false ->
  prec and3 or3 U (flat_map (den (leaf_val rho)) (g_cs (start op c))) = mean (leaf_val rho) c.
Proof.
  destruct 1 as [l Hl|j n cs br Hj Hne Hcs]; simpl; intros Hn.
  - apply (leaf_val_join rho op).
  - subst n. symmetry. apply mean_grp.
Qed.
Lemma start_tails op c j : wf c -> tails j (g_cs (start op c)) = tails j (members c) /\
  someTail j (g_cs (start op c)) = someTail j (members c).
Proof. destruct 1; simpl; auto. Qed.

Lemma m_and_eq c ds : c <> CNil ->
  m_and c ds = (do r <- group_and (start AND c) ds; Ok (of_g r))
  \/ (ds = [] /\ exists l, c = CLeaf l /\ m_and c ds = c_join AND c).
Proof.
  destruct c as [|l|j n cs br]; intros H; [congruence| |now left].
  destruct ds as [|d ds].
  - unfold m_and. destruct (l_kind l) eqn:E;
      first [left; reflexivity|right; split; [reflexivity|exists l; split; reflexivity]].
  - left. unfold m_and. destruct (l_kind l) eqn:E; reflexivity.
Qed.
Lemma and_eq c ds : c <> CNil ->
  and_ c ds = (do r <- group_and (start AND c) ds; Ok (of_g r)) \/ (ds = [] /\ and_ c ds = c_join AND c).
Proof.
  destruct c as [|l|j n cs br]; intros H; [congruence| |];
    (destruct ds as [|d ds]; [right; split; reflexivity|left; reflexivity]).
Qed.

Lemma means_join rho op c c' v : wf c -> and_or op -> sound rho c -> means rho c v -> c_join op c = Ok c' ->
  means rho c' v.
Proof.
  intros Hw Hop Hs Hm E. apply means_iff in Hm; auto. subst v.
  apply means_iff.
  - destruct c; inversion E; subst; inversion Hw; subst; constructor; auto.
  - eapply sound_join; eauto.
  - symmetry. eapply mean_join; eauto using leaf_val_join.
Qed.

Lemma Forall2_means rho ds vds : Forall wf ds -> Forall (sound rho) ds -> Forall2 (means rho) ds vds ->
  vds = map (mean (leaf_val rho)) ds.
Proof.
  intros Hw Hs HF. induction HF as [|d v ds vds H _ IH]; [reflexivity|].
  inversion Hw; inversion Hs; subst. simpl. f_equal; [now apply means_iff in H|auto].
Qed.

(** * And *)

Lemma and_core rho c vc ds vds r0 : wf c -> Forall wf ds -> sound rho c -> Forall (sound rho) ds ->
  and_receiver c -> and_arguments (members c) ds -> means rho c vc -> Forall2 (means rho) ds vds ->
  group_and (start AND c) ds = Ok r0 -> means rho (of_g r0) (and3 vc (conj3 vds)).
Proof.
  intros Hw Hwd Hs Hsd [Hn Hr] Ha Hm Hmd E.
  destruct (start_ok AND c (or_introl eq_refl) Hw) as [Hg Hne].
  destruct (start_tails AND c AND Hw) as [T1 _]. destruct (start_tails AND c OR Hw) as [_ T2].
  assert (Hr' : tails AND (g_cs (start AND c)) = true -> Forall and_safe (g_cs (start AND c))).
  { rewrite T1. intros H. specialize (Hr H). destruct Hw; simpl in *; [repeat constructor|exact Hr]. }
  assert (Ha' : and_arguments (g_cs (start AND c)) ds).
  { destruct ds as [|d [|d1 ds]]; simpl in *; auto.
    - inversion Ha; subst; constructor; auto. now rewrite T1.
    - now rewrite T2. }
  destruct (group_and_mean (leaf_val rho) (leaf_val_join rho) (start AND c) ds r0) as (N & C & HV);
    auto; [now rewrite start_neg|].
  destruct (add_conditions_wf AND (start AND c) ds (or_introl eq_refl) Hg Hwd) as (r1 & E1 & Hok & Hrn & Hcores).
  unfold group_and in E. rewrite E in E1. injection E1 as <-.
  assert (Hwr : wf (of_g r0)) by (apply g_ok_wf; auto).
  assert (Hsr : sound rho (of_g r0)).
  { eapply (sound_of_g rho r0 [c] ds); auto. now rewrite Hcores, start_cores. }
  apply means_iff; auto.
  apply means_iff in Hm; auto. apply Forall2_means in Hmd; auto. subst vc vds.
  unfold of_g. rewrite N, mean_grp, HV, (start_mean rho) by auto. reflexivity.
Qed.

(** the And method *)
Lemma and_means rho c vc ds vds r : wf c -> Forall wf ds -> sound rho c -> Forall (sound rho) ds ->
  and_receiver c -> and_arguments (members c) ds -> means rho c vc -> Forall2 (means rho) ds vds ->
  m_and c ds = Ok r \/ and_ c ds = Ok r -> means rho r (and3 vc (conj3 vds)).
Proof.
  intros Hw Hwd Hs Hsd Hr Ha Hm Hmd E.
  assert (Hnil : c <> CNil) by (destruct Hw; discriminate).
  assert (Hjoin : ds = [] -> c_join AND c = Ok r -> means rho r (and3 vc (conj3 vds))).
  { intros -> Ej. inversion Hmd; subst. simpl. rewrite and3_T. eapply means_join; eauto. now left. }
  assert (Hgrp : (do r <- group_and (start AND c) ds; Ok (of_g r)) = Ok r -> means rho r (and3 vc (conj3 vds))).
  { intros Eg. apply bind_Ok in Eg as (r0 & E0 & [= <-]). eapply and_core; eauto. }
  destruct E as [E|E].
  - destruct (m_and_eq c ds Hnil) as [E'|(-> & l & -> & E')]; rewrite E' in E; auto.
  - destruct (and_eq c ds Hnil) as [E'|(-> & E')]; rewrite E' in E; auto.
Qed.

(** And never panics *)
Lemma and_total c ds : wf c -> Forall wf ds -> (exists r, m_and c ds = Ok r) /\ (exists r, and_ c ds = Ok r).
Proof.
  intros Hw Hwd. assert (Hnil : c <> CNil) by (destruct Hw; discriminate).
  destruct (start_ok AND c (or_introl eq_refl) Hw) as [Hg Hne].
  destruct (add_conditions_wf AND (start AND c) ds (or_introl eq_refl) Hg Hwd) as (r & E & _).
  assert (Ej : exists c', c_join AND c = Ok c') by (destruct c; simpl; eauto; congruence).
  split.
  - destruct (m_and_eq c ds Hnil) as [->|(-> & l & -> & ->)]; auto. unfold group_and. rewrite E. simpl; eauto.
  - destruct (and_eq c ds Hnil) as [->|(-> & ->)]; auto. unfold group_and. rewrite E. simpl; eauto.
Qed.

(** * Or *)

Definition null_leaf (c : cond) : bool := match c with CLeaf l => match l_kind l with KNull => true | _ => false end | _ => false end.

Lemma m_or_eq c ds : c <> CNil -> null_leaf c = false ->
  (exists op, (op = true \/ op = false) /\
    m_or c ds = (do r <- group_or (start OR c) ds; if op then c_join OR (of_g r) else Ok (of_g r)))
  \/ (ds = [] /\ m_or c ds = c_join OR c).
Proof.
  destruct c as [|l|j n cs br]; intros H Hk; [congruence| |left; exists false; split; [auto|reflexivity]].
  destruct ds as [|d ds].
  - unfold m_or. simpl in Hk. destruct (l_kind l) eqn:E; try discriminate;
      first [right; split; reflexivity|left; exists false; split; [auto|reflexivity]].
  - left. unfold m_or. simpl in Hk. destruct (l_kind l) eqn:E; try discriminate;
      first [exists true; split; [auto|reflexivity]|exists false; split; [auto|reflexivity]].
Qed.
Lemma or_eq c ds : c <> CNil ->
  or_ c ds = (do r <- group_or (start OR c) ds; c_join OR (of_g r)) \/ (ds = [] /\ or_ c ds = c_join OR c).
Proof.
  destruct c as [|l|j n cs br]; intros H; [congruence| |];
    (destruct ds as [|d ds]; [right; split; reflexivity|left; reflexivity]).
Qed.

(** what any result built from [group_or] means *)
Lemma or_core rho c ds r0 v : wf c -> Forall wf ds -> sound rho c -> Forall (sound rho) ds ->
  group_or (start OR c) ds = Ok r0 -> g_neg r0 = false ->
  prec and3 or3 U (flat_map (den (leaf_val rho)) (g_cs r0)) = v -> wf (of_g r0) /\ sound rho (of_g r0) /\ means rho (of_g r0) v.
Proof.
  intros Hw Hwd Hs Hsd E N HV.
  destruct (start_ok OR c (or_intror eq_refl) Hw) as [Hg Hne].
  destruct (add_conditions_wf OR (start OR c) ds (or_intror eq_refl) Hg Hwd) as (r1 & E1 & Hok & Hrn & Hcores).
  unfold group_or in E. rewrite E in E1. injection E1 as <-.
  assert (Hwr : wf (of_g r0)) by (apply g_ok_wf; auto).
  assert (Hsr : sound rho (of_g r0)).
  { eapply (sound_of_g rho r0 [c] ds); auto. now rewrite Hcores, start_cores. }
  split; [exact Hwr|split; [exact Hsr|]]. apply means_iff; auto. unfold of_g. rewrite N, mean_grp. now symmetry.
Qed.

Lemma or_results rho c ds r v : wf c -> Forall wf ds -> sound rho c -> Forall (sound rho) ds ->
  (forall r0, group_or (start OR c) ds = Ok r0 -> g_neg r0 = false /\
     prec and3 or3 U (flat_map (den (leaf_val rho)) (g_cs r0)) = v) ->
  ds <> [] -> null_leaf c = false -> m_or c ds = Ok r \/ or_ c ds = Ok r -> means rho r v.
Proof.
  intros Hw Hwd Hs Hsd HG Hd Hk E. assert (Hnil : c <> CNil) by (destruct Hw; discriminate).
  assert (K : forall op : bool, (do r <- group_or (start OR c) ds; if op then c_join OR (of_g r) else Ok (of_g r)) = Ok r ->
    means rho r v).
  { intros op Eg. apply bind_Ok in Eg as (r0 & E0 & Er). destruct (HG r0 E0) as [N HV].
    destruct (or_core rho c ds r0 v Hw Hwd Hs Hsd E0 N HV) as (H1 & H2 & H3).
    destruct op; [eapply means_join; eauto; now right|injection Er as <-; exact H3]. }
  destruct E as [E|E].
  - destruct (m_or_eq c ds Hnil Hk) as [(op & _ & E')|(-> & _)]; [|congruence]. rewrite E' in E. now apply (K op).
  - destruct (or_eq c ds Hnil) as [E'|(-> & _)]; [|congruence]. rewrite E' in E. now apply (K true).
Qed.
Lemma or_results_f rho c ds r v : wf c -> Forall wf ds -> sound rho c -> Forall (sound rho) ds ->
  (forall r0, group_or (start OR c) ds = Ok r0 -> g_neg r0 = false /\
     prec and3 or3 U (flat_map (den (leaf_val rho)) (g_cs r0)) = v) ->
  ds <> [] -> or_ c ds = Ok r -> means rho r v.
Proof.
  intros Hw Hwd Hs Hsd HG Hd E. assert (Hnil : c <> CNil) by (destruct Hw; discriminate).
  destruct (or_eq c ds Hnil) as [E'|(-> & _)]; [|congruence]. rewrite E' in E.
  apply bind_Ok in E as (r0 & E0 & Er). destruct (HG r0 E0) as [N HV].
  destruct (or_core rho c ds r0 v Hw Hwd Hs Hsd E0 N HV) as (H1 & H2 & H3).
  eapply means_join; eauto. now right.
Qed.

(** Or with one argument *)
Lemma or_means rho c vc d vd r : wf c -> wf d -> sound rho c -> sound rho d ->
  negated c = false -> or_argument d -> means rho c vc -> means rho d vd ->
  (null_leaf c = false /\ m_or c [d] = Ok r) \/ or_ c [d] = Ok r -> means rho r (or3 vc vd).
Proof.
  intros Hw Hwd Hs Hsd Hn Ha Hm Hmd E.
  destruct (start_ok OR c (or_intror eq_refl) Hw) as [Hg Hne].
  assert (HG : forall r0, group_or (start OR c) [d] = Ok r0 -> g_neg r0 = false /\
     prec and3 or3 U (flat_map (den (leaf_val rho)) (g_cs r0)) = or3 vc vd).
  { intros r0 E0. destruct (group_or_mean (leaf_val rho) (leaf_val_join rho) (start OR c) d r0) as [N HV];
      auto; [now rewrite start_neg|]. split; [exact N|]. rewrite HV, (start_mean rho) by auto.
    apply means_iff in Hm; auto. apply means_iff in Hmd; auto. congruence. }
  destruct E as [[Hk E]|E].
  - eapply (or_results rho c [d]); eauto; discriminate.
  - eapply (or_results_f rho c [d]); eauto; discriminate.
Qed.

(** Or with several arguments: not the documented meaning *)
Lemma or_many_means rho c vc ds vds r : wf c -> Forall wf ds -> sound rho c -> Forall (sound rho) ds ->
  negated c = false -> 1 < length ds -> Forall and_safe ds -> means rho c vc -> Forall2 (means rho) ds vds ->
  (null_leaf c = false /\ m_or c ds = Ok r) \/ or_ c ds = Ok r ->
  means rho r (if someTail AND (members c) then or3 vc (disj3 vds) else and3 vc (conj3 vds)).
Proof.
  intros Hw Hwd Hs Hsd Hn Hl Ha Hm Hmd E.
  destruct (start_ok OR c (or_intror eq_refl) Hw) as [Hg Hne].
  destruct (start_tails OR c AND Hw) as [_ T2].
  assert (Hdn : ds <> []) by (destruct ds; [simpl in Hl; lia|discriminate]).
  assert (HG : forall r0, group_or (start OR c) ds = Ok r0 -> g_neg r0 = false /\
     prec and3 or3 U (flat_map (den (leaf_val rho)) (g_cs r0)) =
       if someTail AND (members c) then or3 vc (disj3 vds) else and3 vc (conj3 vds)).
  { intros r0 E0. destruct (group_or_many (leaf_val rho) (leaf_val_join rho) (start OR c) ds r0) as [N HV];
      auto; [now rewrite start_neg|]. split; [exact N|]. rewrite HV, T2, (start_mean rho) by auto.
    apply means_iff in Hm; auto. apply Forall2_means in Hmd; auto. now subst. }
  destruct E as [[Hk E]|E].
  - eapply (or_results rho c ds); eauto.
  - eapply (or_results_f rho c ds); eauto.
Qed.

(** * Not *)

(** conditions Not works on: a plain leaf of the library, or an unnegated group
    with brackets, with several conditions, or with one plain condition *)
Inductive not_argument : cond -> Prop :=
| na_leaf l : l_neg l = false -> good_leaf l -> not_argument (CLeaf l)
| na_many j cs br : br = true \/ 1 < length cs -> not_argument (CGrp j false cs br)
| na_one j l br : not_argument (CGrp j false [CLeaf l] br)
| na_one_br j j' n cs br : not_argument (CGrp j false [CGrp j' n cs true] br).

Lemma good_leaf_sound rho l : good_leaf l -> leaf_sound rho l.
Proof. intros H. exists (leaf_tv rho l). now apply good_leaf_ok. Qed.
Lemma good_leaf_val rho l : good_leaf l -> leaf_val rho l = leaf_tv rho l.
Proof.
  intros H. pose proof (leaf_sound_val rho l (good_leaf_sound rho l H)) as H1.
  apply leafok_means in H1. pose proof (leafok_means _ _ _ (good_leaf_ok rho l H)) as H2.
  eapply means_fun; eauto.
Qed.

Lemma not_means rho c v r : wf c -> sound rho c -> not_argument c -> means rho c v -> not_ c = Ok r ->
  means rho r (not3 v).
Proof.
  intros Hw Hs Ha Hm E. apply means_iff in Hm; auto. subst v.
  destruct Ha as [l Hl Hg|j cs br Hb|j l br|j j' n cs br]; simpl in E; injection E as <-.
  - apply means_iff.
    + inversion Hw; subst. now constructor.
    + intros l' [<-|[]]. now apply good_leaf_sound.
    + set (l' := mkLeaf (l_kind l) (l_join l) true (l_def l) (l_val l)).
      assert (Hg' : good_leaf l') by exact Hg.
      change (not3 (leaf_val rho l) = leaf_val rho l').
      rewrite !good_leaf_val by assumption.
      destruct (good_leaf_text l Hg) as (op & vs & E3 & E1 & _). apply (leaf_args_iff l vs Hg) in E1.
      assert (E2 : leaf_args l' = Some vs) by (rewrite <- E1; reflexivity).
      unfold leaf_tv. rewrite E1, E2.
      cbn [l' l_kind l_neg l_def]. rewrite E3, Hl. reflexivity.
  - apply means_iff; [inversion Hw; subst; now constructor| |].
    + apply sound_grp. now apply sound_grp in Hs.
    + rewrite mean_grp. rewrite mean_neg; [reflexivity|]. apply orb_true_iff.
      destruct Hb as [->|Hb]; [now left|right; now apply Nat.ltb_lt].
  - apply means_iff; [inversion Hw; subst; now constructor| |].
    + apply sound_grp. now apply sound_grp in Hs.
    + unfold mean; simpl. destruct br; reflexivity.
  - apply means_iff; [inversion Hw; subst; now constructor| |].
    + apply sound_grp. now apply sound_grp in Hs.
    + unfold mean; simpl. destruct br; reflexivity.
Qed.

(** * Where *)

(** Arguments of one later Where call: one leaf, one unnegated group of safe
    conditions all carrying AND, one group with an OR; or several conditions
    without OR outside brackets. *)
Definition narrow_args (ds : list cond) : Prop :=
  match ds with
  | [d] => and_argument [] d
  | _ => Forall and_safe ds
  end.

(** Arguments of the Where calls: those of the first non-empty call are kept as
    they are, so they must be joined by AND already. *)
Fixpoint where_ok (started : bool) (css : list (list cond)) : Prop :=
  match css with
  | [] => True
  | ds :: r => (if started then narrow_args ds else conj_list ds) /\ where_ok (started || nonempty ds) r
  end.

Lemma conj_tails cs : Forall wf cs -> conj_list cs -> tails AND cs = true /\ someTail OR cs = false.
Proof.
  intros Hw [_ H]. assert (Ht : tails AND cs = true).
  { unfold tails. apply forallb_forall. intros c Hc. rewrite Forall_forall in H. unfold jt. now rewrite (H c Hc). }
  split; [exact Ht|]. destruct (tails_some cs Hw) as [T1 T2]. rewrite Ht in *.
  destruct (someTail OR cs); [discriminate|reflexivity].
Qed.

Lemma narrow_arguments cs ds : Forall wf cs -> conj_list cs -> narrow_args ds -> and_arguments cs ds.
Proof.
  intros Hw Hc Hn. destruct (conj_tails cs Hw Hc) as [T1 T2]. destruct ds as [|d [|d1 ds]]; simpl in *; auto.
  - inversion Hn; subst; constructor; auto.
  - split; [exact Hn|]. rewrite T2. discriminate.
Qed.

Section Where.
  Variable lv : leaf -> tv.
  Hypothesis lv_join : forall j l, lv (leaf_with_join j l) = lv l.
  Notation V := (prec and3 or3 U).
  Notation dens cs := (flat_map (den lv) cs).
  (** what a where group says, true when empty *)
  Definition cv (cs : list cond) : tv := match cs with [] => T | _ => V (dens cs) end.

  Definition where_inv (g : group) : Prop := g_ok g /\ g_neg g = false /\ conj_list (g_cs g).

  Lemma where_step g ds r : where_inv g -> Forall wf ds ->
    (if nonempty (g_cs g) then narrow_args ds else conj_list ds) -> group_and g ds = Ok r ->
    where_inv r /\ nonempty (g_cs r) = nonempty (g_cs g) || nonempty ds /\
    cores_l (g_cs r) = (cores_l (g_cs g) ++ cores_l ds)%list /\
    cv (g_cs r) = and3 (cv (g_cs g)) (conj3 (map (mean lv) ds)).
  Proof.
    intros (Hg & Hn & Hc) Hw Ha E.
    destruct (add_conditions_wf AND g ds (or_introl eq_refl) Hg Hw) as (r' & E' & Hr & Hne & Hco).
    unfold group_and in E. rewrite E in E'. injection E' as <-.
    destruct (g_cs g) as [|x xs] eqn:Eg.
    - simpl in Ha. unfold add_conditions in E. destruct ds as [|d ds].
      { rewrite !has_one_eq in E by apply Hg. cbn [bind] in E. injection E as <-.
        split; [split; [exact Hg|split; [exact Hn|rewrite Eg; exact Hc]]|]. rewrite Eg. repeat split. }
      rewrite !has_one_eq in E by apply Hg. cbn [bind] in E. rewrite Eg in E. injection E as <-.
      split; [split; [exact Hr|split; [exact Hn|exact Ha]]|]. repeat split; auto.
      cbn [g_cs set_cs set_join]. change (cv (d :: ds)) with (V (dens (d :: ds))).
      rewrite (V_all lv (d :: ds)); auto; [|discriminate]. simpl. now destruct (and3 (mean lv d) _).
    - rewrite <- Eg in *. assert (Hgne : g_cs g <> []) by (rewrite Eg; discriminate).
      replace (nonempty (g_cs g)) with true in Ha |- * by (rewrite Eg; reflexivity).
      destruct Hg as [Hgj Hgw].
      assert (Hg : g_ok g) by (split; auto).
      destruct (group_and_mean lv lv_join g ds r Hg Hgne Hn) as (N & C & HV); auto.
      { intros _. apply Hc. }
      { now apply narrow_arguments. }
      assert (Hrne : g_cs r <> []) by auto.
      split; [|split; [|split]].
      + split; [exact Hr|split; [exact N|]]. destruct ds; [|apply C; discriminate].
        unfold add_conditions in E. rewrite !has_one_eq in E by apply Hg. cbn [bind] in E. injection E as <-. exact Hc.
      + destruct (g_cs r); [congruence|reflexivity].
      + exact Hco.
      + unfold cv. destruct (g_cs r); [congruence|]. rewrite Eg. rewrite <- Eg. exact HV.
  Qed.

  Lemma conj3_app a b : conj3 (a ++ b)%list = and3 (conj3 a) (conj3 b).
  Proof. induction a as [|x a IH]; simpl; [now destruct (conj3 b)|]. now rewrite IH, and3_assoc. Qed.

  Lemma where_chain css : forall g r, where_inv g -> Forall (Forall wf) css -> where_ok (nonempty (g_cs g)) css ->
    calls group_and g css = Ok r ->
    where_inv r /\ nonempty (g_cs r) = nonempty (g_cs g) || nonempty (List.concat css) /\
    cores_l (g_cs r) = (cores_l (g_cs g) ++ cores_l (List.concat css))%list /\
    cv (g_cs r) = and3 (cv (g_cs g)) (conj3 (map (mean lv) (List.concat css))).
  Proof.
    induction css as [|ds css IH]; intros g r Hg Hw Ho E; simpl in *.
    - injection E as <-. split; [exact Hg|]. rewrite orb_false_r, app_nil_r, and3_T. auto.
    - inversion Hw as [|? ? Hw1 Hw2]; subst. destruct Ho as [Ho1 Ho2].
      destruct (group_and g ds) as [g1|] eqn:E1; [|discriminate].
      destruct (where_step g ds g1 Hg Hw1 Ho1 E1) as (I & N & C & HV). rewrite <- N in Ho2.
      destruct (IH g1 r I Hw2 Ho2 E) as (I' & N' & C' & HV').
      split; [exact I'|]. split; [|split].
      + rewrite N', N. destruct ds; simpl; destruct (nonempty (g_cs g)); reflexivity.
      + rewrite C', C, cores_l_app, app_assoc. reflexivity.
      + rewrite HV', HV, map_app, conj3_app. now rewrite and3_assoc.
  Qed.

  Lemma where_total css : forall g, where_inv g -> Forall (Forall wf) css -> exists r, calls group_and g css = Ok r.
  Proof.
    intros g [Hg _]. revert g Hg. induction css as [|ds css IH]; intros g Hg Hw; simpl; [eauto|].
    inversion Hw as [|? ? Hw1 Hw2]; subst.
    destruct (add_conditions_wf AND g ds (or_introl eq_refl) Hg Hw1) as (r & E & Hr & _).
    unfold group_and at 1. rewrite E. now apply IH.
  Qed.
End Where.

(** The where group of a fresh builder after a chain of Where calls says the
    conjunction of what the conditions say on their own. *)
Lemma where_means rho css vs r : Forall (Forall wf) css -> Forall (sound rho) (List.concat css) ->
  where_ok false css -> List.concat css <> [] -> Forall2 (means rho) (List.concat css) vs ->
  calls group_and empty_group css = Ok r ->
  wf (of_g r) /\ sound rho (of_g r) /\ g_cs r <> [] /\ means rho (of_g r) (conj3 vs).
Proof.
  intros Hw Hs Ho Hne Hm E.
  assert (H0 : where_inv empty_group) by (split; [split; [now left|constructor]|split; [reflexivity|split; constructor]]).
  destruct (where_chain (leaf_val rho) (leaf_val_join rho) css empty_group r H0 Hw Ho E) as ((Hr & Hn & _) & N & C & HV).
  simpl in N, C, HV.
  assert (Hrn : g_cs r <> []).
  { intros En. rewrite En in N. destruct (List.concat css); [congruence|discriminate]. }
  assert (Hwc : Forall wf (List.concat css)).
  { clear -Hw. induction Hw; simpl; [constructor|]. now apply Forall_app. }
  assert (Hwr : wf (of_g r)) by (now apply g_ok_wf).
  assert (Hsr : sound rho (of_g r)).
  { apply (sound_of_g rho r [] (List.concat css)); auto. }
  split; [exact Hwr|]. split; [exact Hsr|]. split; [exact Hrn|].
  apply means_iff; auto. apply Forall2_means in Hm; auto. subst vs.
  unfold of_g. rewrite Hn, mean_grp. unfold cv in HV. destruct (g_cs r) eqn:Er; [congruence|]. rewrite <- Er in *.
  rewrite HV. now destruct (conj3 _).
Qed.

(** plain conditions qualify *)
Definition plain (c : cond) : Prop := exists l, c = CLeaf l /\ l_join l = AND.
Lemma plain_wf c : plain c -> wf c.
Proof. intros (l & -> & Hl). constructor. now left. Qed.
Lemma plain_conj cs : Forall plain cs -> conj_list cs.
Proof.
  intros H. split.
  - rewrite Forall_forall in *. intros c Hc. destruct (H c Hc) as (l & -> & _). constructor.
  - destruct cs; [constructor|]. simpl. inversion H as [|? ? _ H1]; subst. rewrite Forall_forall in *.
    intros x Hx. destruct (H1 x Hx) as (l & -> & Hl). simpl. now rewrite Hl.
Qed.
Lemma plain_narrow cs : Forall plain cs -> narrow_args cs.
Proof.
  intros H. destruct cs as [|c [|d cs]]; simpl; [constructor| |].
  - inversion H as [|? ? (l & -> & _) _]; subst. constructor.
  - apply (plain_conj (c :: d :: cs) H).
Qed.
Lemma plain_where css : forall b, Forall (Forall plain) css -> where_ok b css.
Proof.
  induction css as [|ds css IH]; intros b H; simpl; [exact I|]. inversion H; subst.
  split; [|now apply IH]. destruct b; [now apply plain_narrow|now apply plain_conj].
Qed.
