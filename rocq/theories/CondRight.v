(** And and Or give the documented meaning exactly where the rules of CondIff.v hold. *)
From Coq Require Import String Ascii List Bool Arith Lia.
From Verif Require Import GoStr Value Names Cond Build SqlSpec Spec StrFacts SqlFacts CondFacts CondText CondSem
  TreeFacts CondLogic CondMeaning Built CondThms CondExact CondIff.
Import ListNotations.
Local Open Scope string_scope.
Local Open Scope nat_scope.

Definition inside (op : string) (c : cond) : list cond := g_cs (start op c).
Definition wrapped (c : cond) : bool := match c with CGrp _ _ cs br => br || (1 <? length cs) | _ => true end.

Lemma mean_start lv op c : (forall j l, lv (leaf_with_join j l) = lv l) -> wf c ->
  mean lv c = mean_of (negated c) (wrapped c) (flat_map (den lv) (inside op c)).
Proof.
  intros Hj Hw. destruct c as [|l|j n cs br]; [inversion Hw| |].
  - unfold mean, inside. cbn [den start g_cs flat_map negated mean_of app prec]. now rewrite Hj.
  - cbn [negated wrapped inside start g_cs]. unfold mean, mean_of. cbn [den]. destruct n; cbn [andb].
    + destruct (br || (1 <? length cs)); [reflexivity|]. destruct (flat_map (den lv) cs) as [|[j0 v] r]; reflexivity.
    + rewrite orb_false_r. destruct br; [reflexivity|]. destruct (flat_map (den lv) cs) as [|[j0 v] r]; reflexivity.
Qed.
Lemma inside_wf op c : and_or op -> wf c -> Forall wf (inside op c) /\ inside op c <> [].
Proof. intros Hop Hw. destruct (start_ok op c Hop Hw) as [[_ H] H1]. split; assumption. Qed.
Lemma added_inside lv op fl d : (forall j l, lv (leaf_with_join j l) = lv l) -> wf d ->
  added lv op fl d = if fl (inside op d) then flat_map (den lv) (inside op d) else [(op, negif (negated d) (V (flat_map (den lv) (inside op d))))].
Proof.
  intros Hj Hw. destruct d as [|l|j n cs br]; [inversion Hw| |reflexivity].
  unfold added, inside. cbn [start g_cs flat_map den app negated negif prec]. rewrite Hj. destruct (fl _); reflexivity.
Qed.
Lemma mean_many lv g : many (g_cs g) -> mean lv (of_g g) = negif (g_neg g) (V (flat_map (den lv) (g_cs g))).
Proof.
  intros Hm. unfold of_g. destruct (g_neg g); cbn [negif]; [|apply mean_grp]. apply mean_neg. apply orb_true_iff. right. now apply Nat.ltb_lt.
Qed.

Section Value.
  Variable lv : leaf -> tv.
  Hypothesis lv_join : forall j l, lv (leaf_with_join j l) = lv l.
  Notation dens cs := (flat_map (den lv) cs).

  Lemma and_value c d r : wf c -> wf d -> group_and (start AND c) [d] = Ok r ->
    mean lv (of_g r) = merged AND (negated c) (negated d) (tails AND (inside AND c)) (and_flat (inside AND c) (inside AND d))
      (dens (inside AND c)) (dens (inside AND d)).
  Proof.
    intros Hw Hd E. destruct (start_ok AND c (or_introl eq_refl) Hw) as [Hg Hne].
    unfold group_and, add_conditions in E. rewrite !has_one_eq in E by apply Hg. cbn [bind] in E.
    destruct (g_cs (start AND c)) as [|x xs] eqn:Eg; [congruence|]. rewrite <- Eg in *. clear Eg x xs.
    apply bind_Ok in E as (d' & Ej & E).
    destruct (and_one_exact lv lv_join (start AND c) d d' r Hg Hne Hd Ej E) as (N & M & HV).
    rewrite mean_many by exact M. rewrite N, HV, start_neg, added_inside by assumption. unfold merged, kept, boxed. now rewrite start_neg.
  Qed.
  Lemma or_value c d r : wf c -> wf d -> group_or (start OR c) [d] = Ok r ->
    mean lv (of_g r) = merged OR (negated c) (negated d) (tails OR (inside OR c)) (tails OR (inside OR d))
      (dens (inside OR c)) (dens (inside OR d)).
  Proof.
    intros Hw Hd E. destruct (start_ok OR c (or_intror eq_refl) Hw) as [Hg Hne].
    unfold group_or, add_conditions in E. rewrite !has_one_eq in E by apply Hg. cbn [bind] in E.
    destruct (g_cs (start OR c)) as [|x xs] eqn:Eg; [congruence|]. rewrite <- Eg in *. clear Eg x xs.
    apply bind_Ok in E as (d' & Ej & E).
    destruct (or_one_exact lv lv_join (start OR c) d d' r Hg Hne Hd Ej E) as (N & M & HV).
    rewrite mean_many by exact M. rewrite N, HV, start_neg, added_inside by assumption. unfold merged, kept, boxed. now rewrite start_neg.
  Qed.
  Lemma and_values c ds r : wf c -> Forall wf ds -> many ds -> group_and (start AND c) ds = Ok r ->
    mean lv (of_g r) = negif (negated c) (if tails AND (inside AND c)
      then and3 (negif (negated c) (V (dens (inside AND c)))) (V (flat_map (rejoined lv AND) ds))
      else V ((AND, negif (negated c) (V (dens (inside AND c)))) :: dens ds)).
  Proof.
    intros Hw Hd Hm E. destruct (start_ok AND c (or_introl eq_refl) Hw) as [Hg Hne].
    destruct (and_many_exact lv lv_join (start AND c) ds r Hg Hne Hm Hd E) as (N & M & HV).
    rewrite mean_many by exact M. rewrite N, HV. unfold boxed. rewrite start_neg. reflexivity.
  Qed.
  Lemma or_values c ds r : wf c -> Forall wf ds -> many ds -> group_or (start OR c) ds = Ok r ->
    mean lv (of_g r) = negif (negated c) (if tails OR (inside OR c)
      then and3 (negif (negated c) (V (dens (inside OR c)))) (V (flat_map (rejoined lv AND) ds))
      else V (dens (inside OR c) ++ flat_map (rejoined lv OR) ds)%list).
  Proof.
    intros Hw Hd Hm E. destruct (start_ok OR c (or_intror eq_refl) Hw) as [Hg Hne].
    destruct (or_many_exact lv lv_join (start OR c) ds r Hg Hne Hm Hd E) as (N & M & HV).
    rewrite mean_many by exact M. rewrite N, HV. unfold boxed. rewrite start_neg. reflexivity.
  Qed.
End Value.

(** * Rows with given truth values *)

Definition row_of (val : string -> tv) : row := fun _ col _ => val col.
Lemma row_leaf val l : good_leaf l -> leaf_val (row_of val) l = lvc val l.
Proof.
  intros Hl. rewrite good_leaf_val by exact Hl. unfold leaf_tv, lvc, colof.
  destruct (good_leaf_text l Hl) as (op & vs & E3 & E1 & _). apply (leaf_args_iff l vs Hl) in E1. rewrite E3, E1.
  unfold row_of, negif. destruct (l_neg l); reflexivity.
Qed.
Definition good (c : cond) : Prop := forall l, In l (leaves c) -> good_leaf l.
Lemma row_dens val cs : Forall good cs -> flat_map (den (leaf_val (row_of val))) cs = flat_map (den (lvc val)) cs.
Proof.
  intros H. apply dens_ext. intros l Hl. apply row_leaf. apply in_flat_map in Hl as (c & Hc & Hl). rewrite Forall_forall in H. now apply (H c Hc).
Qed.
Lemma good_inside op c : good c -> Forall good (inside op c).
Proof.
  intros H. destruct c as [|l|j n cs br]; unfold inside; cbn [start g_cs]; [constructor| |].
  - constructor; [|constructor]. intros l' [<-|[]]. apply (H l). simpl; auto.
  - apply Forall_forall. intros c Hc l Hl. apply H. simpl. apply in_flat_map. eauto.
Qed.
Lemma cols_inside op c : flat_map cols (inside op c) = cols c.
Proof.
  destruct c as [|l|j n cs br]; unfold inside; cbn [start g_cs]; [reflexivity|reflexivity|].
  unfold cols. cbn [leaves]. now rewrite map_flat_map.
Qed.

(** * The results of And and Or *)

Lemma and_result c ds r : wf c -> Forall wf ds -> ds <> [] -> m_and c ds = Ok r \/ and_ c ds = Ok r ->
  exists r0, group_and (start AND c) ds = Ok r0 /\ r = of_g r0 /\ wf r /\
    (forall rho, sound rho c -> Forall (sound rho) ds -> sound rho r).
Proof.
  intros Hw Hwd Hd E. assert (Hnil : c <> CNil) by (destruct Hw; discriminate).
  assert (E' : (do r <- group_and (start AND c) ds; Ok (of_g r)) = Ok r).
  { destruct E as [E|E].
    - destruct (m_and_eq c ds Hnil) as [E'|(-> & _)]; [congruence|congruence].
    - destruct (and_eq c ds Hnil) as [E'|(-> & _)]; congruence. }
  apply bind_Ok in E' as (r0 & E0 & [= <-]). exists r0. split; [exact E0|]. split; [reflexivity|].
  destruct (start_ok AND c (or_introl eq_refl) Hw) as [Hg Hne].
  destruct (add_conditions_wf AND (start AND c) ds (or_introl eq_refl) Hg Hwd) as (r1 & E1 & Hok & Hrn & Hcores).
  unfold group_and in E0. rewrite E0 in E1. injection E1 as <-. split; [apply g_ok_wf; auto|].
  intros rho Hs Hsd. eapply (sound_of_g rho r0 [c] ds); auto. now rewrite Hcores, start_cores.
Qed.
Lemma or_result c ds r : wf c -> Forall wf ds -> ds <> [] -> m_or c ds = Ok r \/ or_ c ds = Ok r ->
  exists r0, group_or (start OR c) ds = Ok r0 /\ wf r /\
    (forall lv, (forall j l, lv (leaf_with_join j l) = lv l) -> mean lv r = mean lv (of_g r0)) /\
    (forall rho, sound rho c -> Forall (sound rho) ds -> sound rho r).
Proof.
  intros Hw Hwd Hd E. assert (Hnil : c <> CNil) by (destruct Hw; discriminate).
  assert (E' : exists op : bool, (do r <- group_or (start OR c) ds; if op then c_join OR (of_g r) else Ok (of_g r)) = Ok r).
  { destruct E as [E|E].
    - assert (Hk : null_leaf c = false).
      { destruct c as [|l|]; auto. simpl. destruct (l_kind l) eqn:K; auto. rewrite null_or_panics in E by exact K. discriminate. }
      destruct (m_or_eq c ds Hnil Hk) as [(op & _ & E')|(-> & _)]; [|congruence]. exists op. congruence.
    - destruct (or_eq c ds Hnil) as [E'|(-> & _)]; [|congruence]. exists true. congruence. }
  destruct E' as (op & E'). apply bind_Ok in E' as (r0 & E0 & Er). exists r0. split; [exact E0|].
  destruct (start_ok OR c (or_intror eq_refl) Hw) as [Hg Hne].
  destruct (add_conditions_wf OR (start OR c) ds (or_intror eq_refl) Hg Hwd) as (r1 & E1 & Hok & Hrn & Hcores).
  unfold group_or in E0. rewrite E0 in E1. injection E1 as <-.
  assert (Hwr : wf (of_g r0)) by (apply g_ok_wf; auto).
  assert (Hsr : forall rho, sound rho c -> Forall (sound rho) ds -> sound rho (of_g r0)).
  { intros rho Hs Hsd. eapply (sound_of_g rho r0 [c] ds); auto. now rewrite Hcores, start_cores. }
  destruct op.
  - split; [|split].
    + destruct (of_g r0); inversion Er; subst; inversion Hwr; subst; constructor; auto.
    + intros lv Hl. eapply mean_join; eauto.
    + intros rho Hs Hsd. eapply sound_join; eauto.
  - injection Er as <-. auto.
Qed.

(** * One argument *)

Definition outer (cs : list cond) : list string := tl (flat_map conns cs).
Definition lead (cs : list cond) : string := hd "" (flat_map conns cs).

Lemma wf_conns c : wf c -> Forall and_or (conns c) /\ conns c <> [].
Proof.
  induction c as [|l|j n cs br IH] using cond_ind'; intros Hw; inversion Hw as [|? ? ? ? Hj Hne Hcs]; subst; [split; [now constructor|discriminate]|].
  cbn [conns]. destruct (br || n && (1 <? length cs)); [split; [now constructor|discriminate]|].
  assert (K : Forall and_or (flat_map conns cs) /\ flat_map conns cs <> []).
  { clear -IH Hcs Hne. destruct cs as [|c cs]; [congruence|]. clear Hne. split.
    - induction IH as [|d ds Hd _ IHl]; [constructor|]. inversion Hcs; subst. simpl. apply Forall_app. split; [now apply Hd|now apply IHl].
    - inversion IH as [|? ? Hc _]; inversion Hcs; subst. simpl. destruct (Hc ltac:(assumption)) as [_ Hn]. destruct (conns c); [congruence|discriminate]. }
  destruct K as [K1 K2]. destruct (flat_map conns cs) as [|k ks]; [congruence|]. inversion K1; subst. split; [now constructor|discriminate].
Qed.
Lemma wf_conns_list cs : Forall wf cs -> Forall and_or (flat_map conns cs).
Proof. induction 1 as [|c cs Hc _ IH]; [constructor|]. simpl. apply Forall_app. split; [now apply wf_conns|exact IH]. Qed.
Lemma conns_split cs : Forall wf cs -> cs <> [] -> flat_map conns cs = lead cs :: outer cs /\ and_or (lead cs) /\ Forall and_or (outer cs).
Proof.
  intros Hw Hne. pose proof (wf_conns_list cs Hw) as H. unfold lead, outer.
  assert (Hn : flat_map conns cs <> []).
  { destruct Hw as [|c cs Hc Hcs]; [congruence|]. simpl. destruct (wf_conns c Hc) as [_ Hn]. destruct (conns c); [congruence|discriminate]. }
  destruct (flat_map conns cs) as [|k ks]; [congruence|]. inversion H; subst. cbn [hd tl]. auto.
Qed.

Lemma app_inj_len {A} (a b c d : list A) : length a = length c -> (a ++ b = c ++ d)%list -> a = c /\ b = d.
Proof. revert c. induction a as [|x a IH]; intros [|y c] L E; simpl in *; try discriminate; auto. injection E as -> E. destruct (IH c) as [-> ->]; auto. Qed.

(** the values of the operands of two conditions on different columns are free *)
Lemma choose_two op c d lc ld : and_or op -> wf c -> wf d -> good c -> good d -> NoDup (cols c ++ cols d) ->
  map fst lc = flat_map conns (inside op c) -> map fst ld = flat_map conns (inside op d) ->
  exists rho, flat_map (den (leaf_val rho)) (inside op c) = lc /\ flat_map (den (leaf_val rho)) (inside op d) = ld.
Proof.
  intros Hop Hc Hd Gc Gd Hn Ec Ed. destruct (inside_wf op c Hop Hc) as [Wc _]. destruct (inside_wf op d Hop Hd) as [Wd _].
  destruct (choose (inside op c ++ inside op d)) with (l := (lc ++ ld)%list) as (val & E).
  { now apply Forall_app. } { now rewrite flat_map_app, !cols_inside. } { now rewrite map_app, flat_map_app, Ec, Ed. }
  exists (row_of val). rewrite !row_dens by (now apply good_inside). rewrite flat_map_app in E.
  assert (L : length (flat_map (den (lvc val)) (inside op c)) = length lc).
  { rewrite <- (map_length fst), conns_dens, <- Ec. apply map_length. }
  apply app_inj_len in E; auto.
Qed.

Definition rule_of (rule : bool -> bool -> bool -> bool -> bool -> bool -> string -> list string -> list string -> bool)
    (op : string) (fl : bool) (c d : cond) : bool :=
  rule (negated c) (wrapped c) (negated d) (wrapped d) (tails op (inside op c)) fl
       (lead (inside op d)) (outer (inside op c)) (outer (inside op d)).
Definition and_right (c d : cond) : bool := rule_of and_rule AND (and_flat (inside AND c) (inside AND d)) c d.
Definition or_right (c d : cond) : bool := rule_of or_rule OR (tails OR (inside OR d)) c d.

Lemma unwrapped_tails op k c : wrapped c = false -> tails k (inside op c) = true /\ someTail k (inside op c) = false.
Proof.
  destruct c as [|l|j n cs br]; try discriminate. unfold inside. cbn [wrapped start g_cs]. intros H. apply orb_false_iff in H as [-> H].
  destruct cs as [|m [|m' ms]]; [auto|auto|discriminate].
Qed.
Lemma consistent_and c d : consistent AND (wrapped c) (wrapped d) (tails AND (inside AND c)) (and_flat (inside AND c) (inside AND d)) = true.
Proof.
  unfold consistent, and_flat. cbn [String.eqb]. destruct (wrapped c) eqn:Wc.
  - destruct (wrapped d) eqn:Wd; [reflexivity|]. destruct (unwrapped_tails AND AND d Wd) as [-> ->]. now destruct (tails AND (inside AND c)).
  - destruct (unwrapped_tails AND AND c Wc) as [-> _]. destruct (wrapped d) eqn:Wd; [reflexivity|]. destruct (unwrapped_tails AND AND d Wd) as [-> _]. reflexivity.
Qed.
Lemma consistent_or c d : tails OR (inside OR c) = true \/ wrapped c = true ->
  consistent OR (wrapped c) (wrapped d) (tails OR (inside OR c)) (tails OR (inside OR d)) = true.
Proof.
  intros H. unfold consistent. cbn [String.eqb]. replace (wrapped c || tails OR (inside OR c)) with true by (destruct H as [-> | ->]; auto using orb_true_r).
  destruct (wrapped d) eqn:Wd; [reflexivity|]. now destruct (unwrapped_tails OR OR d Wd) as [-> _].
Qed.

Lemma and_one_iff c d r : wf c -> wf d -> m_and c [d] = Ok r \/ and_ c [d] = Ok r ->
  (and_right c d = true -> forall rho vc vd, sound rho c -> sound rho d -> means rho c vc -> means rho d vd -> means rho r (and3 vc vd)) /\
  (and_right c d = false -> good c -> good d -> NoDup (cols c ++ cols d) ->
     exists rho vc vd v, means rho c vc /\ means rho d vd /\ means rho r v /\ v <> and3 vc vd).
Proof.
  intros Hc Hd E. destruct (and_result c [d] r Hc ltac:(now constructor) ltac:(discriminate) E) as (r0 & E0 & -> & Hwr & Hsr).
  destruct (inside_wf AND c (or_introl eq_refl) Hc) as [Wc Nc]. destruct (inside_wf AND d (or_introl eq_refl) Hd) as [Wd Nd].
  destruct (conns_split _ Wc Nc) as (Sc & Lc & Oc). destruct (conns_split _ Wd Nd) as (Sd & Ld & Od).
  split.
  - intros R rho vc vd Hs Hsd Hm Hmd. apply means_iff in Hm; auto. apply means_iff in Hmd; auto. subst.
    apply means_iff; auto. rewrite (and_value _ (leaf_val_join rho) c d r0) by auto.
    rewrite !(mean_start _ AND) by auto using leaf_val_join. symmetry.
    eapply and_rule_ok; [| | | |exact R]; try assumption; rewrite conns_dens; eassumption.
  - intros R Gc Gd Hn. destruct (rule_needed AND and_rule (negated c) (wrapped c) (negated d) (wrapped d) (tails AND (inside AND c))
      (and_flat (inside AND c) (inside AND d)) (lead (inside AND c)) (lead (inside AND d)) (outer (inside AND c)) (outer (inside AND d)))
      as (lc & ld & Ec & Ed & Hne); try assumption.
    { exact exact_and. } { intros. now apply and_rule_feat. } { apply consistent_and. }
    destruct (choose_two AND c d lc ld) as (rho & <- & <-); auto; try congruence; try now left.
    assert (Hs : sound rho c) by (intros l Hl; apply good_leaf_sound, Gc, Hl).
    assert (Hsd : sound rho d) by (intros l Hl; apply good_leaf_sound, Gd, Hl).
    exists rho, (mean (leaf_val rho) c), (mean (leaf_val rho) d), (mean (leaf_val rho) (of_g r0)).
    split; [now apply means_iff|]. split; [now apply means_iff|]. split; [apply means_iff; auto|].
    rewrite (and_value _ (leaf_val_join rho) c d r0) by auto.
    rewrite !(mean_start _ AND) by auto using leaf_val_join. exact Hne.
Qed.

Lemma or_one_iff c d r : wf c -> wf d -> m_or c [d] = Ok r \/ or_ c [d] = Ok r ->
  (or_right c d = true -> forall rho vc vd, sound rho c -> sound rho d -> means rho c vc -> means rho d vd -> means rho r (or3 vc vd)) /\
  (or_right c d = false -> good c -> good d -> NoDup (cols c ++ cols d) ->
     exists rho vc vd v, means rho c vc /\ means rho d vd /\ means rho r v /\ v <> or3 vc vd).
Proof.
  intros Hc Hd E. destruct (or_result c [d] r Hc ltac:(now constructor) ltac:(discriminate) E) as (r0 & E0 & Hwr & Hmr & Hsr).
  destruct (inside_wf OR c (or_intror eq_refl) Hc) as [Wc Nc]. destruct (inside_wf OR d (or_intror eq_refl) Hd) as [Wd Nd].
  destruct (conns_split _ Wc Nc) as (Sc & Lc & Oc). destruct (conns_split _ Wd Nd) as (Sd & Ld & Od).
  split.
  - intros R rho vc vd Hs Hsd Hm Hmd. apply means_iff in Hm; auto. apply means_iff in Hmd; auto. subst.
    apply means_iff; auto. rewrite Hmr by apply leaf_val_join. rewrite (or_value _ (leaf_val_join rho) c d r0) by auto.
    rewrite !(mean_start _ OR) by auto using leaf_val_join. symmetry.
    eapply or_rule_ok; [| | | |exact R]; try assumption; rewrite conns_dens; eassumption.
  - intros R Gc Gd Hn. destruct (rule_needed OR or_rule (negated c) (wrapped c) (negated d) (wrapped d) (tails OR (inside OR c))
      (tails OR (inside OR d)) (lead (inside OR c)) (lead (inside OR d)) (outer (inside OR c)) (outer (inside OR d)))
      as (lc & ld & Ec & Ed & Hne); try assumption.
    { exact exact_or. } { intros. now apply or_rule_feat. }
    { apply consistent_or. destruct (wrapped c) eqn:W; [auto|left; now destruct (unwrapped_tails OR OR c W)]. }
    destruct (choose_two OR c d lc ld) as (rho & <- & <-); auto; try congruence; try now right.
    assert (Hs : sound rho c) by (intros l Hl; apply good_leaf_sound, Gc, Hl).
    assert (Hsd : sound rho d) by (intros l Hl; apply good_leaf_sound, Gd, Hl).
    exists rho, (mean (leaf_val rho) c), (mean (leaf_val rho) d), (mean (leaf_val rho) r).
    split; [now apply means_iff|]. split; [now apply means_iff|]. split; [apply means_iff; auto|].
    rewrite Hmr by apply leaf_val_join. rewrite (or_value _ (leaf_val_join rho) c d r0) by auto.
    rewrite !(mean_start _ OR) by auto using leaf_val_join. exact Hne.
Qed.

(** * Several arguments *)

Definition paint (v : tv) (ks : list string) : list (string * tv) := map (fun k => (k, v)) ks.
Definition all_are (lv : leaf -> tv) (v : tv) (c : cond) : Prop := den lv c = paint v (conns c).

Lemma paint_fst v ks : map fst (paint v ks) = ks.
Proof. unfold paint. rewrite map_map. apply map_id. Qed.
Lemma paint_app v a b : paint v (a ++ b)%list = (paint v a ++ paint v b)%list.
Proof. apply map_app. Qed.
Lemma paint_snd v ks : Forall (fun i => snd i = v) (paint v ks).
Proof. apply Forall_forall. intros i Hi. unfold paint in Hi. apply in_map_iff in Hi as (k & <- & _). reflexivity. Qed.
Lemma paint_V v ks : ks <> [] -> V (paint v ks) = v.
Proof. intros H. apply V_const; [destruct ks; [congruence|discriminate]|apply paint_snd]. Qed.
Lemma all_mean lv v c : wf c -> all_are lv v c -> mean lv c = v.
Proof. intros Hw E. unfold mean. rewrite E. apply paint_V. now apply wf_conns. Qed.

Lemma choose_list cs ls : Forall wf cs -> Forall good cs -> NoDup (flat_map cols cs) ->
  Forall2 (fun c l => map fst l = conns c) cs ls -> exists rho, Forall2 (fun c l => den (leaf_val rho) c = l) cs ls.
Proof.
  intros Hw Hg Hn HF. destruct (choose cs Hw Hn (List.concat ls)) as (val & E).
  { clear -HF. induction HF as [|c l cs ls E _ IH]; [reflexivity|]. simpl. now rewrite map_app, E, IH. }
  exists (row_of val). clear Hw Hn. revert ls HF E. induction cs as [|c cs IH]; intros ls HF E; inversion HF as [|? l ? ls' Hl HF' E1 E2]; subst; constructor.
  - simpl in E. apply app_inj_len in E as [E _].
    + pose proof (row_dens val [c] ltac:(constructor; [exact (Forall_inv Hg)|constructor])) as R. simpl in R. rewrite !app_nil_r in R. congruence.
    + rewrite <- (map_length fst), conns_den, <- Hl. apply map_length.
  - apply IH; [exact (Forall_inv_tail Hg)|exact HF'|]. simpl in E. apply app_inj_len in E as [_ E]; [exact E|].
    rewrite <- (map_length fst), conns_den, <- Hl. apply map_length.
Qed.

Lemma paints v cs : Forall2 (fun c l => map fst l = conns c) cs (map (fun c => paint v (conns c)) cs).
Proof. induction cs; constructor; [apply paint_fst|assumption]. Qed.
Lemma painted lv v cs : Forall2 (fun c l => den lv c = l) cs (map (fun c => paint v (conns c)) cs) -> Forall (all_are lv v) cs.
Proof. induction cs; intros H; inversion H; subst; constructor; auto. Qed.

(** the receiver all [v], the arguments before [d] all [v1], those after it all [v2] *)
Lemma choose_parts c pre d post v v1 v2 l : wf c -> Forall wf (pre ++ d :: post)%list -> good c -> Forall good (pre ++ d :: post)%list ->
  NoDup (cols c ++ flat_map cols (pre ++ d :: post)%list)%list -> map fst l = conns d ->
  exists rho, all_are (leaf_val rho) v c /\ Forall (all_are (leaf_val rho) v1) pre /\ den (leaf_val rho) d = l /\ Forall (all_are (leaf_val rho) v2) post.
Proof.
  intros Hc Hw Gc Hg Hn Hl.
  destruct (choose_list (c :: pre ++ d :: post) (paint v (conns c) :: map (fun c => paint v1 (conns c)) pre ++ l :: map (fun c => paint v2 (conns c)) post)) as (rho & H).
  - now constructor.
  - now constructor.
  - exact Hn.
  - constructor; [apply paint_fst|]. apply Forall2_app; [apply paints|]. constructor; [exact Hl|apply paints].
  - exists rho. inversion H as [|? ? ? ? E H']; subst. split; [exact E|].
    apply Forall2_app_inv_l in H' as (x & y & Hx & Hy & Exy). inversion Hy as [|? ? ? ? E2 Hy']; subst.
    apply app_inj_len in Exy as [<- [= -> <-]].
    + split; [now apply painted|]. split; [reflexivity|]. now apply painted.
    + rewrite map_length. clear -Hx. induction Hx; simpl; congruence.
Qed.

Lemma rejoined_conns lv op c : wf c -> map fst (rejoined lv op c) = op :: tl (conns c).
Proof.
  intros Hw. unfold rejoined. rewrite <- (conns_den lv c). pose proof (den_nonempty lv c Hw). destruct (den lv c) as [|[j v] r]; [congruence|reflexivity].
Qed.
Lemma rejoined_mean lv op c : V (rejoined lv op c) = mean lv c.
Proof. unfold rejoined, mean. destruct (den lv c) as [|[j v] r]; reflexivity. Qed.
Lemma rejoined_all lv op v c : all_are lv v c -> Forall (fun i => snd i = v) (rejoined lv op c).
Proof.
  unfold all_are, rejoined. intros ->. pose proof (paint_snd v (conns c)) as H. destruct (paint v (conns c)) as [|[j x] r]; [constructor|].
  inversion H; subst. now constructor.
Qed.
Lemma rejoined_alls lv op v cs : Forall (all_are lv v) cs -> Forall (fun i => snd i = v) (flat_map (rejoined lv op) cs).
Proof. induction 1; [constructor|]. simpl. apply Forall_app. split; [now apply rejoined_all|assumption]. Qed.
Lemma dens_alls lv v cs : Forall (all_are lv v) cs -> Forall (fun i => snd i = v) (flat_map (den lv) cs).
Proof. induction 1 as [|c cs H _ IH]; [constructor|]. simpl. apply Forall_app. split; [|assumption]. rewrite H. apply paint_snd. Qed.

Lemma V_conj l : l <> [] -> ands (tl l) -> V l = conj3 (map snd l).
Proof.
  destruct l as [|[j x] l]; [congruence|]. intros _. simpl tl. revert x. induction l as [|[k y] l IH]; intros x H.
  - simpl. now destruct x.
  - inversion H as [|? ? Hk Hl]; subst. simpl in Hk. subst k. change (V ((j, x) :: (AND, y) :: l)) with (V ([(j, x)] ++ (AND, y) :: l)%list).
    rewrite V_and by (try discriminate; try constructor; assumption). rewrite (V_head AND j), IH by assumption. reflexivity.
Qed.
Lemma conj3_F l : In F l -> conj3 l = F.
Proof. induction l as [|x l IH]; [intros []|]. intros [->|H]; simpl; [reflexivity|]. rewrite IH by assumption. now destruct x. Qed.
Lemma or3_T_r a : or3 a T = T. Proof. now destruct a. Qed.
Lemma and3_F_r a : and3 a F = F. Proof. now destruct a. Qed.
Lemma anyor_split r : anyor r = true -> exists a b, r = (a ++ OR :: b)%list.
Proof.
  unfold anyor. intros H. apply existsb_exists in H as (k & Hk & E). apply String.eqb_eq in E. subst k. now apply in_split.
Qed.
Lemma noor_ands r l : map fst l = r -> Forall and_or r -> anyor r = false -> ands l.
Proof. apply ands_anyor. Qed.
Lemma mean_plain lv op c : (forall j l, lv (leaf_with_join j l) = lv l) -> wf c -> negated c = false -> mean lv c = V (flat_map (den lv) (inside op c)).
Proof. intros Hj Hw Hn. rewrite (mean_start lv op c) by assumption. now rewrite Hn. Qed.
Lemma map_ands ks : Forall and_or ks -> forallb (String.eqb AND) ks = false -> exists a b, ks = (a ++ OR :: b)%list.
Proof.
  intros H E. apply forallb_false in E as (k & Hk & E). rewrite Forall_forall in H. destruct (H k Hk) as [-> | ->]; [discriminate|]. now apply in_split.
Qed.

Lemma V_left k a b x m : V ((k, T) :: (paint T a ++ (OR, x) :: b) ++ m)%list = T.
Proof.
  replace ((k, T) :: (paint T a ++ (OR, x) :: b) ++ m)%list with (paint T (k :: a) ++ (OR, x) :: (b ++ m))%list
    by (simpl; now rewrite <- app_assoc).
  rewrite V_or by discriminate. now rewrite paint_V by discriminate.
Qed.

Lemma V_right l k x a b m : Forall (fun i => snd i = T) b -> Forall (fun i => snd i = T) m ->
  V (l ++ (k, x) :: (a ++ (OR, T) :: b) ++ m)%list = T.
Proof.
  intros Hb Hm. replace (l ++ (k, x) :: (a ++ (OR, T) :: b) ++ m)%list with ((l ++ (k, x) :: a) ++ (OR, T) :: (b ++ m))%list
    by (rewrite <- !app_assoc; reflexivity).
  rewrite V_or by (intros K; apply app_eq_nil in K as [_ K]; discriminate).
  rewrite (V_const T ((OR, T) :: _)); [now rewrite or3_T_r|discriminate|]. constructor; [reflexivity|]. now apply Forall_app.
Qed.

Definition and_right_many (c : cond) (ds : list cond) : bool :=
  negb (negated c) &&
  (if tails AND (inside AND c) then forallb (fun d => negb (anyor (tl (conns d)))) ds
   else forallb (String.eqb AND) (flat_map conns ds)).

Lemma ands_conj lv ds : Forall wf ds -> forallb (fun d => negb (anyor (tl (conns d)))) ds = true ->
  ands (flat_map (rejoined lv AND) ds) /\ conj3 (map snd (flat_map (rejoined lv AND) ds)) = conj3 (map (mean lv) ds).
Proof.
  induction 1 as [|d ds Hd Hds IH]; intros H; [split; [constructor|reflexivity]|]. simpl in H. apply andb_true_iff in H as [H1 H2].
  destruct (IH H2) as [I1 I2]. pose proof (rejoined_conns lv AND d Hd) as E. destruct (wf_conns d Hd) as [Hc _].
  assert (A : ands (rejoined lv AND d)).
  { apply (ands_anyor _ _ E).
    - constructor; [now left|]. destruct (conns d); [constructor|]. now inversion Hc.
    - simpl. now apply negb_true_iff. }
  split.
  - simpl. now apply Forall_app.
  - simpl. rewrite map_app, conj3_app, I2. simpl. f_equal. rewrite <- (rejoined_mean lv AND d). symmetry. apply V_conj.
    + destruct (rejoined lv AND d); discriminate.
    + destruct (rejoined lv AND d); [constructor|]. now inversion A.
Qed.

Lemma dens_rejoined lv ds : forallb (String.eqb AND) (flat_map conns ds) = true ->
  flat_map (den lv) ds = flat_map (rejoined lv AND) ds /\ forallb (fun d => negb (anyor (tl (conns d)))) ds = true.
Proof.
  induction ds as [|d ds IH]; intros H; [auto|]. cbn [flat_map] in H. rewrite forallb_app in H. apply andb_true_iff in H as [H1 H2].
  destruct (IH H2) as [I1 I2]. simpl. split.
  - rewrite I1. f_equal. unfold rejoined. rewrite <- (conns_den lv d) in H1. destruct (den lv d) as [|[j v] r]; [reflexivity|]. cbn [map fst forallb] in H1.
    apply andb_true_iff in H1 as [E _]. apply String.eqb_eq in E. now subst.
  - rewrite I2, andb_true_r. clear -H1. destruct (conns d) as [|k ks]; [reflexivity|]. cbn [forallb tl] in *. apply andb_true_iff in H1 as [_ H1].
    induction ks as [|k' ks IH]; [reflexivity|]. cbn [forallb] in H1. apply andb_true_iff in H1 as [E H1]. apply String.eqb_eq in E. subst k'. simpl. auto.
Qed.

Lemma and_many_iff c ds r : wf c -> Forall wf ds -> 1 < length ds -> m_and c ds = Ok r \/ and_ c ds = Ok r ->
  (and_right_many c ds = true -> forall rho vc vds, sound rho c -> Forall (sound rho) ds -> means rho c vc -> Forall2 (means rho) ds vds ->
     means rho r (and3 vc (conj3 vds))) /\
  (and_right_many c ds = false -> good c -> Forall good ds -> NoDup (cols c ++ flat_map cols ds) ->
     exists rho vc vds v, means rho c vc /\ Forall2 (means rho) ds vds /\ means rho r v /\ v <> and3 vc (conj3 vds)).
Proof.
  intros Hc Hd Hl E. assert (Hne : ds <> []) by (destruct ds; [simpl in Hl; lia|discriminate]).
  destruct (and_result c ds r Hc Hd Hne E) as (r0 & E0 & -> & Hwr & Hsr). split.
  - intros R rho vc vds Hs Hsd Hm Hmd. apply means_iff in Hm; auto. apply Forall2_means in Hmd; auto. subst.
    apply means_iff; auto. rewrite (and_values _ (leaf_val_join rho) c ds r0) by auto.
    unfold and_right_many in R. apply andb_true_iff in R as [R1 R2]. apply negb_true_iff in R1. rewrite R1. cbn [negif].
    rewrite (mean_plain _ AND c (leaf_val_join rho) Hc R1).
    assert (Hrn : flat_map (rejoined (leaf_val rho) AND) ds <> []).
    { destruct ds as [|d ds]; [congruence|]. simpl. pose proof (rejoined_conns (leaf_val rho) AND d (Forall_inv Hd)). destruct (rejoined (leaf_val rho) AND d); discriminate. }
    destruct (tails AND (inside AND c)).
    + destruct (ands_conj (leaf_val rho) ds Hd R2) as [A1 A2]. rewrite (V_conj (flat_map (rejoined (leaf_val rho) AND) ds)); [now rewrite A2|exact Hrn|].
      destruct (flat_map (rejoined (leaf_val rho) AND) ds); [constructor|now inversion A1].
    + destruct (dens_rejoined (leaf_val rho) ds R2) as [-> R3]. destruct (ands_conj (leaf_val rho) ds Hd R3) as [A1 A2].
      rewrite (V_conj ((AND, _) :: _)); [|discriminate|exact A1]. simpl. now rewrite A2.
  - intros R Gc Gd Hn.
    assert (Fin : forall rho, (mean (leaf_val rho) (of_g r0) <> and3 (mean (leaf_val rho) c) (conj3 (map (mean (leaf_val rho)) ds))) ->
      exists rho vc vds v, means rho c vc /\ Forall2 (means rho) ds vds /\ means rho (of_g r0) v /\ v <> and3 vc (conj3 vds)).
    { intros rho Hv. assert (Hs : sound rho c) by (intros l Hl'; apply good_leaf_sound, Gc, Hl').
      assert (Hsd : Forall (sound rho) ds). { rewrite Forall_forall in *. intros d Hd' l Hl'. apply good_leaf_sound, (Gd d Hd'), Hl'. }
      exists rho, (mean (leaf_val rho) c), (map (mean (leaf_val rho)) ds), (mean (leaf_val rho) (of_g r0)).
      split; [now apply means_iff|]. split; [|split; [apply means_iff; auto|exact Hv]].
      clear -Hd Hsd. induction Hd; inversion Hsd; subst; constructor; auto. now apply means_iff. }
    destruct (negated c) eqn:Nc.
    + destruct ds as [|d ds]; [congruence|].
      destruct (choose_parts c [] d ds F F F (paint F (conns d))) as (rho & Ec & _ & Ed & Eds); auto using paint_fst.
      apply (Fin rho). rewrite (and_values _ (leaf_val_join rho) c (d :: ds) r0) by auto. rewrite Nc. cbn [negif].
      assert (A : Forall (all_are (leaf_val rho) F) (d :: ds)) by (constructor; assumption).
      rewrite (conj3_F (map (mean (leaf_val rho)) (d :: ds))), and3_F_r.
      2:{ left. apply all_mean; [exact (Forall_inv Hd)|exact Ed]. }
      destruct (tails AND (inside AND c)) eqn:K.
      * rewrite (V_const F (flat_map (rejoined (leaf_val rho) AND) (d :: ds))), and3_F_r; [discriminate| |now apply rejoined_alls].
        simpl. pose proof (rejoined_conns (leaf_val rho) AND d (Forall_inv Hd)). destruct (rejoined (leaf_val rho) AND d); discriminate.
      * assert (W : wrapped c = true) by (destruct (wrapped c) eqn:W; [reflexivity|destruct (unwrapped_tails AND AND c W); congruence]).
        pose proof (all_mean _ _ _ Hc Ec) as M. rewrite (mean_start _ AND) in M by auto using leaf_val_join. rewrite Nc, W in M. cbn [mean_of] in M.
        rewrite M, (V_const F); [discriminate|discriminate|]. constructor; [reflexivity|now apply dens_alls].
    + unfold and_right_many in R. rewrite Nc in R. cbn [negb andb] in R.
      assert (Val : forall rho, mean (leaf_val rho) (of_g r0) = if tails AND (inside AND c)
          then and3 (mean (leaf_val rho) c) (V (flat_map (rejoined (leaf_val rho) AND) ds)) else V ((AND, mean (leaf_val rho) c) :: flat_map (den (leaf_val rho)) ds)).
      { intros rho. rewrite (and_values _ (leaf_val_join rho) c ds r0), (mean_plain _ AND c (leaf_val_join rho) Hc Nc) by auto. rewrite Nc. reflexivity. }
      destruct (tails AND (inside AND c)) eqn:K.
      * apply forallb_false in R as (d & Hin & R). apply negb_false_iff in R. apply anyor_split in R as (a & b & Er).
        apply in_split in Hin as (pre & post & ->).
        assert (Hwd : wf d) by (rewrite Forall_forall in Hd; apply Hd, in_elt).
        destruct (wf_conns d Hwd) as [_ Hcn]. destruct (conns d) as [|k0 ks] eqn:Ek; [congruence|]. simpl in Er. subst ks.
        destruct pre as [|p pre].
        -- destruct (choose_parts c [] d post T F F (paint T (k0 :: a) ++ (OR, F) :: paint F b)%list) as (rho & Ec & _ & Ed & Eps); auto.
           { rewrite map_app. cbn [map fst]. now rewrite !paint_fst, Ek. }
           apply (Fin rho). rewrite Val. rewrite (conj3_F (map _ _)), and3_F_r.
           2:{ destruct post as [|p post]; [simpl in Hl; lia|]. right. left. apply all_mean; [|exact (Forall_inv Eps)]. simpl in Hd. exact (Forall_inv (Forall_inv_tail Hd)). }
           rewrite (all_mean _ _ _ Hc Ec). cbn [app flat_map]. unfold rejoined at 1. rewrite Ed. cbn [paint map app].
           fold (paint T a). rewrite V_left. discriminate.
        -- destruct (choose_parts c (p :: pre) d post T F T (paint F (k0 :: a) ++ (OR, T) :: paint T b)%list) as (rho & Ec & Epr & Ed & Eps); auto.
           { rewrite map_app. cbn [map fst]. now rewrite !paint_fst, Ek. }
           apply (Fin rho). rewrite Val. rewrite (conj3_F (map _ _)), and3_F_r.
           2:{ left. apply all_mean; [|exact (Forall_inv Epr)]. simpl in Hd. exact (Forall_inv Hd). }
           rewrite (all_mean _ _ _ Hc Ec). rewrite flat_map_app. cbn [flat_map]. unfold rejoined at 3. rewrite Ed. cbn [paint map app].
           fold (paint F a). rewrite V_right; [discriminate|apply paint_snd|now apply rejoined_alls].
      * apply map_ands in R; [|now apply wf_conns_list]. destruct R as (a & b & R).
        assert (Hin : In OR (flat_map conns ds)) by (rewrite R; apply in_elt). clear R a b.
        apply in_flat_map in Hin as (d & Hin & Hor). apply in_split in Hor as (a & b & Ek). apply in_split in Hin as (pre & post & ->).
        destruct (choose_parts c pre d post F F T (paint F a ++ (OR, T) :: paint T b)%list) as (rho & Ec & Epr & Ed & Eps); auto.
        { rewrite map_app. cbn [map fst]. now rewrite !paint_fst, Ek. }
        apply (Fin rho). rewrite Val. rewrite (all_mean _ _ _ Hc Ec). rewrite flat_map_app. cbn [flat_map]. rewrite Ed.
        rewrite <- app_assoc, app_assoc. cbn [app]. rewrite app_comm_cons, V_or by discriminate.
        rewrite (V_const T ((OR, T) :: _)), or3_T_r; [discriminate|discriminate|].
        constructor; [reflexivity|]. apply Forall_app. split; [apply paint_snd|now apply dens_alls].
Qed.

Lemma or_many_never c ds r : wf c -> Forall wf ds -> 1 < length ds -> m_or c ds = Ok r \/ or_ c ds = Ok r ->
  good c -> Forall good ds -> NoDup (cols c ++ flat_map cols ds) ->
  exists rho vc vds v, means rho c vc /\ Forall2 (means rho) ds vds /\ means rho r v /\ v <> or3 vc (conj3 vds).
Proof.
  intros Hc Hd Hl E Gc Gd Hn. assert (Hne : ds <> []) by (destruct ds; [simpl in Hl; lia|discriminate]).
  destruct (or_result c ds r Hc Hd Hne E) as (r0 & E0 & Hwr & Hmr & Hsr).
  assert (Fin : forall rho, (mean (leaf_val rho) (of_g r0) <> or3 (mean (leaf_val rho) c) (conj3 (map (mean (leaf_val rho)) ds))) ->
      exists rho vc vds v, means rho c vc /\ Forall2 (means rho) ds vds /\ means rho r v /\ v <> or3 vc (conj3 vds)).
  { intros rho Hv. assert (Hs : sound rho c) by (intros l Hl'; apply good_leaf_sound, Gc, Hl').
    assert (Hsd : Forall (sound rho) ds). { rewrite Forall_forall in *. intros d Hd' l Hl'. apply good_leaf_sound, (Gd d Hd'), Hl'. }
    exists rho, (mean (leaf_val rho) c), (map (mean (leaf_val rho)) ds), (mean (leaf_val rho) r).
    split; [now apply means_iff|]. split; [|split; [apply means_iff; auto|rewrite Hmr by apply leaf_val_join; exact Hv]].
    clear -Hd Hsd. induction Hd; inversion Hsd; subst; constructor; auto. now apply means_iff. }
  assert (Val := fun rho => or_values _ (leaf_val_join rho) c ds r0 Hc Hd ltac:(exact Hl) E0).
  destruct ds as [|d [|d' ds]]; [congruence|simpl in Hl; lia|]. clear Hl Hne.
  assert (Hwd := Forall_inv Hd). assert (Hwd' := Forall_inv (Forall_inv_tail Hd)).
  assert (Rn : forall lv op l, flat_map (rejoined lv op) (d :: l) <> []).
  { intros lv op l. simpl. pose proof (rejoined_conns lv op d Hwd). destruct (rejoined lv op d); discriminate. }
  destruct (tails OR (inside OR c)) eqn:K.
  - destruct (choose_parts c [] d (d' :: ds) (if negated c then F else T) F F (paint F (conns d))) as (rho & Ec & _ & Ed & Eds); auto using paint_fst.
    apply (Fin rho). rewrite Val.
    assert (A : Forall (all_are (leaf_val rho) F) (d :: d' :: ds)) by (constructor; assumption).
    rewrite (V_const F (flat_map (rejoined (leaf_val rho) AND) _)), and3_F_r; [|apply Rn|now apply rejoined_alls].
    rewrite (conj3_F (map _ _)). 2:{ left. apply all_mean; assumption. }
    rewrite (all_mean _ _ _ Hc Ec). destruct (negated c); discriminate.
  - destruct (negated c) eqn:Nc.
    + destruct (choose_parts c [] d (d' :: ds) T T T (paint T (conns d))) as (rho & Ec & _ & Ed & Eds); auto using paint_fst.
      apply (Fin rho). rewrite Val. cbn [negif].
      assert (A : Forall (all_are (leaf_val rho) T) (d :: d' :: ds)) by (constructor; assumption).
      rewrite (all_mean _ _ _ Hc Ec). cbn [or3].
      pose proof (rejoined_alls _ OR _ _ A) as RA. pose proof (rejoined_conns (leaf_val rho) OR d Hwd) as RC.
      cbn [flat_map] in RA |- *. destruct (rejoined (leaf_val rho) OR d) as [|[k x] rest]; [discriminate|]. simpl in RC. injection RC as -> _. cbn [app] in RA |- *.
      rewrite V_or. 2:{ destruct (inside_wf OR c (or_intror eq_refl) Hc) as [Wc Nn]. destruct (inside OR c) as [|m ms]; [congruence|]. simpl.
        pose proof (den_nonempty (leaf_val rho) m (Forall_inv Wc)). destruct (den (leaf_val rho) m); [congruence|discriminate]. }
      rewrite (V_const T ((OR, x) :: _)), or3_T_r; [discriminate|discriminate|exact RA].
    + destruct (choose_parts c [] d (d' :: ds) F F F (paint T (conns d))) as (rho & Ec & _ & Ed & Eds); auto using paint_fst.
      apply (Fin rho). rewrite Val. cbn [negif]. rewrite (conj3_F (map _ _)). 2:{ right. left. apply all_mean; [exact Hwd'|exact (Forall_inv Eds)]. }
      rewrite (all_mean _ _ _ Hc Ec). cbn [or3].
      pose proof (rejoined_all _ OR T d Ed) as RA. pose proof (rejoined_conns (leaf_val rho) OR d Hwd) as RC.
      pose proof (rejoined_conns (leaf_val rho) OR d' Hwd') as RC'.
      cbn [flat_map]. destruct (rejoined (leaf_val rho) OR d) as [|[k x] rest]; [discriminate|]. simpl in RC. injection RC as -> _.
      destruct (rejoined (leaf_val rho) OR d') as [|[k x'] rest']; [discriminate|]. simpl in RC'. injection RC' as -> _. cbn [app].
      rewrite V_or. 2:{ destruct (inside_wf OR c (or_intror eq_refl) Hc) as [Wc Nn]. destruct (inside OR c) as [|m ms]; [congruence|]. simpl.
        pose proof (den_nonempty (leaf_val rho) m (Forall_inv Wc)). destruct (den (leaf_val rho) m); [congruence|discriminate]. }
      rewrite (app_comm_cons rest), V_or by discriminate. rewrite (V_const T ((OR, x) :: rest)); [|discriminate|exact RA]. cbn [or3]. rewrite or3_T_r. discriminate.
Qed.

(** * The first Where call keeps its conditions as they are *)

Definition first_right (ds : list cond) : bool := (length ds <=? 1) || negb (anyor (tl (flat_map conns ds))).

Lemma first_group ds g : ds <> [] -> group_and empty_group ds = Ok g -> of_g g = CGrp AND false ds false.
Proof. destruct ds as [|d ds]; [congruence|]. intros _ E. unfold group_and, add_conditions in E. cbn in E. injection E as <-. reflexivity. Qed.

Lemma first_iff ds : Forall wf ds -> ds <> [] -> let r := CGrp AND false ds false in
  (first_right ds = true -> forall rho vds, Forall (sound rho) ds -> Forall2 (means rho) ds vds -> means rho r (conj3 vds)) /\
  (first_right ds = false -> Forall good ds -> NoDup (flat_map cols ds) ->
     exists rho vds v, Forall2 (means rho) ds vds /\ means rho r v /\ v <> conj3 vds).
Proof.
  intros Hd Hne r. assert (Hwr : wf r) by (constructor; auto; now left). split.
  - intros R rho vds Hsd Hmd. apply Forall2_means in Hmd; auto. subst. apply means_iff; [exact Hwr|now apply sound_grp|].
    unfold r. rewrite mean_grp. destruct ds as [|d [|d' ds]]; [congruence| |].
    + simpl. rewrite app_nil_r. fold (mean (leaf_val rho) d). now destruct (mean (leaf_val rho) d).
    + unfold first_right in R. cbn [length Nat.leb orb] in R. apply negb_true_iff in R.
      remember (d :: d' :: ds) as dl. clear d d' ds Heqdl.
      assert (A : ands (tl (flat_map (den (leaf_val rho)) dl))).
      { apply (ands_anyor (tl (flat_map conns dl))); [|
          destruct (wf_conns_list dl Hd); [constructor|assumption]|exact R].
        rewrite <- (conns_dens (leaf_val rho)). now destruct (flat_map (den (leaf_val rho)) dl). }
      assert (N : flat_map (den (leaf_val rho)) dl <> []).
      { destruct dl as [|d dl]; [congruence|]. simpl. pose proof (den_nonempty (leaf_val rho) d (Forall_inv Hd)). destruct (den (leaf_val rho) d); [congruence|discriminate]. }
      rewrite V_conj by assumption. clear Hsd Hwr r R Hne.
      assert (K : forall dl, Forall wf dl -> ands (tl (flat_map (den (leaf_val rho)) dl)) ->
        conj3 (map (mean (leaf_val rho)) dl) = conj3 (map snd (flat_map (den (leaf_val rho)) dl))).
      { clear. induction 1 as [|d dl Hd Hdl IH]; intros A; [reflexivity|]. simpl. simpl in A.
        pose proof (den_nonempty (leaf_val rho) d Hd) as N.
        assert (A1 : ands (tl (den (leaf_val rho) d)) /\ ands (flat_map (den (leaf_val rho)) dl)).
        { destruct (den (leaf_val rho) d) as [|i l]; [congruence|]. simpl in A |- *. now apply Forall_app in A. }
        destruct A1 as [A1 A2]. rewrite map_app, conj3_app. rewrite IH.
        - change (fold_right and3 T (map snd (flat_map (den (leaf_val rho)) dl))) with (conj3 (map snd (flat_map (den (leaf_val rho)) dl))).
          unfold mean. now rewrite V_conj.
        - destruct (flat_map (den (leaf_val rho)) dl); [constructor|now inversion A2]. }
      now apply K.
  - intros R Gd Hn.
    assert (Fin : forall rho, (V (flat_map (den (leaf_val rho)) ds) <> conj3 (map (mean (leaf_val rho)) ds)) ->
      exists rho vds v, Forall2 (means rho) ds vds /\ means rho r v /\ v <> conj3 vds).
    { intros rho Hv. assert (Hsd : Forall (sound rho) ds). { rewrite Forall_forall in *. intros d Hd' l Hl'. apply good_leaf_sound, (Gd d Hd'), Hl'. }
      exists rho, (map (mean (leaf_val rho)) ds), (mean (leaf_val rho) r).
      split; [|split; [apply means_iff; auto; now apply sound_grp|unfold r; rewrite mean_grp; exact Hv]].
      clear -Hd Hsd. induction Hd; inversion Hsd; subst; constructor; auto. now apply means_iff. }
    unfold first_right in R. apply orb_false_iff in R as [Rl R]. apply Nat.leb_gt in Rl. apply negb_false_iff in R.
    destruct ds as [|d1 [|d2 ds]]; [congruence|simpl in Rl; lia|].
    assert (Hw1 := Forall_inv Hd). assert (Hw2 := Forall_inv (Forall_inv_tail Hd)). assert (Hw3 := Forall_inv_tail Hd).
    assert (G1 := Forall_inv Gd). assert (G2 := Forall_inv_tail Gd).
    destruct (wf_conns d1 Hw1) as [_ Hc1]. apply anyor_split in R as (a & b & Er). 
    assert (Hin : In OR (tl (conns d1)) \/ In OR (flat_map conns (d2 :: ds))).
    { apply in_app_or. cbn [flat_map] in Er. destruct (conns d1) as [|k ks]; [congruence|]. cbn [tl app flat_map] in Er |- *. rewrite Er. apply in_elt. }
    clear a b Er. destruct Hin as [Hin|Hin].
    + destruct (conns d1) as [|k ks] eqn:E1; [congruence|]. cbn [tl] in Hin. apply in_split in Hin as (a & b & ->).
      destruct (choose_list (d1 :: d2 :: ds) ((paint T (k :: a) ++ (OR, F) :: paint F b)%list :: map (fun c => paint F (conns c)) (d2 :: ds))) as (rho & H); auto.
      { constructor; [|apply paints]. rewrite map_app. cbn [map fst]. now rewrite !paint_fst, E1. }
      inversion H as [|? ? ? ? Ed H']; subst. apply (painted (leaf_val rho) F (d2 :: ds)) in H'. apply (Fin rho).
      rewrite (conj3_F (map _ _)). 2:{ right. left. apply all_mean; [exact Hw2|exact (Forall_inv H')]. }
      cbn [flat_map]. rewrite Ed. cbn [paint map app]. fold (paint T a). rewrite V_left. discriminate.
    + apply in_flat_map in Hin as (d & Hin & Hor). apply in_split in Hor as (a & b & Ek). apply in_split in Hin as (pre & post & Eq). rewrite Eq in *.
      destruct (choose_parts d1 pre d post F F T (paint F a ++ (OR, T) :: paint T b)%list) as (rho & Ec & Epr & Ed & Eps); auto.
      { rewrite map_app. cbn [map fst]. now rewrite !paint_fst, Ek. }
      apply (Fin rho). rewrite (conj3_F (map _ _)). 2:{ left. now apply all_mean. }
      cbn [flat_map]. rewrite flat_map_app. cbn [flat_map]. rewrite Ed. pose proof (den_nonempty (leaf_val rho) d1 Hw1) as N.
      rewrite <- app_assoc, app_assoc, app_assoc. cbn [app]. rewrite V_or.
      2:{ destruct (den (leaf_val rho) d1); [congruence|discriminate]. }
      rewrite (V_const T ((OR, T) :: _)), or3_T_r; [discriminate|discriminate|].
      constructor; [reflexivity|]. apply Forall_app. split; [apply paint_snd|now apply dens_alls].
Qed.

(** a Where call on a group that has conditions is the group's And *)
Lemma where_and g ds r : g_cs g <> [] -> group_and g ds = Ok r -> m_and (of_g g) ds = Ok (of_g r).
Proof. intros _ E. destruct g as [j n cs br]. cbn [of_g m_and g_join g_neg g_cs g_br] in *. now rewrite E. Qed.

(** * The connectives outside brackets, in the text *)

(** the words AND and OR of a text that stand outside brackets ([k] brackets are open) *)
Fixpoint top (k : nat) (ts : list tok) : list string :=
  match ts with
  | [] => []
  | TLP :: r => top (S k) r
  | TRP :: r => top (k - 1) r
  | TKw w :: r => if (k =? 0) && (String.eqb w AND || String.eqb w OR) then w :: top k r else top k r
  | _ :: r => top k r
  end.

Lemma top_params k r : forall ns n, top k (param_list n ns ++ r)%list = top k r.
Proof. induction ns as [|m ns IH]; intros n; [reflexivity|]. simpl. apply IH. Qed.
Lemma top_grammar :
  (forall ts e, Prim ts e -> forall k r, top k (ts ++ r)%list = top k r) /\
  (forall ts e, NotE ts e -> forall k r, top k (ts ++ r)%list = top k r) /\
  (forall ts e, AndE ts e -> forall k r, top (S k) (ts ++ r)%list = top (S k) r) /\
  (forall ts e, OrE ts e -> forall k r, top (S k) (ts ++ r)%list = top (S k) r).
Proof.
  apply grammar_ind.
  - intros c t op n Ht k r. inversion Ht; subst; cbn [app top]; try rewrite andb_false_r; reflexivity.
  - intros c n k r. simpl. now rewrite andb_false_r.
  - intros c n k r. simpl. now rewrite andb_false_r.
  - intros c n ns k r. cbn [app top String.eqb]. rewrite andb_false_r. rewrite <- app_assoc, top_params. cbn [app top]. f_equal. lia.
  - intros c n ns k r. cbn [app top]. rewrite !andb_false_r. rewrite <- app_assoc, top_params. cbn [app top]. f_equal. lia.
  - intros c k r. simpl. now rewrite andb_false_r.
  - intros c k r. simpl. now rewrite andb_false_r.
  - intros ts e _ IH k r. cbn [app top]. rewrite <- app_assoc, IH. cbn [app top]. f_equal. lia.
  - intros ts e _ IH. exact IH.
  - intros ts e _ IH k r. cbn [app top]. rewrite andb_false_r. apply IH.
  - intros ts e _ IH k r. apply IH.
  - intros ts e ts' e' _ IH _ IH' k r. rewrite <- app_assoc. cbn [app]. rewrite IH. cbn [top]. apply IH'.
  - intros ts e _ IH. exact IH.
  - intros ts e ts' e' _ IH _ IH' k r. rewrite <- app_assoc. cbn [app]. rewrite IH. cbn [top]. apply IH'.
Qed.
Lemma top_itemsT ts l : ItemsT ts l -> top 0 ts = map fst l.
Proof.
  induction 1 as [|t e j ts l He Hj _ IH]; [reflexivity|]. destruct top_grammar as (_ & TN & _).
  destruct Hj as [-> | ->]; cbn [top map fst Nat.eqb andb String.eqb]; simpl; f_equal; rewrite <- IH; now apply (TN t e).
Qed.
Lemma top_items ts l : Items ts l -> top 0 ts = tl (map fst l).
Proof.
  intros (t & e & j & ts' & l' & -> & -> & He & HT). destruct top_grammar as (_ & TN & _). rewrite (TN t e He). cbn [map tl]. now apply top_itemsT.
Qed.
Lemma top_text rho c n : wf c -> sound rho c -> exists s, c_render c n = Ok s /\ top 0 (lex s) = tl (conns c).
Proof.
  intros Hw Hs. destruct (tree_sem rho (leaf_val rho) c Hw) as (vs & _ & H).
  { intros l Hl. apply leaf_sound_val. now apply Hs. }
  destruct (H n) as (s & s' & ts & ts' & l & Es & _ & Ls & _ & _ & Hi & Hf). exists s. split; [exact Es|].
  rewrite (lexes_lex _ _ Ls), (top_items _ _ Hi), <- (conns_den (leaf_val rho) c). f_equal.
  specialize (Hf (repeat VNil n) [] (repeat_length _ _)). clear -Hf. induction Hf as [|a b l1 l2 [E _] _ IH]; [reflexivity|]. simpl. now rewrite E, IH.
Qed.
