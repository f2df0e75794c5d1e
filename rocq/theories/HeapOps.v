(** The heap versions of the condition operations: what they leave untouched, and that
    they compute what Cond.v says as long as nothing is overwritten. *)
From Coq Require Import String Ascii List Bool Arith NArith ZArith Lia.
From Verif Require Import GoStr Value Names Cond Build Heap HeapFacts.
Import ListNotations.
Local Open Scope string_scope.
Local Open Scope nat_scope.

(** * Frames of computations *)
Definition frames {A X} (s : slice) (m : M A X) : Prop := forall st, Frame s st (snd (m st)).
Definition grows {A X} (m : M A X) : Prop := forall st, st_stale (snd (m st)) = false -> st_stale st = false.
Lemma frames_grows {A X} s (m : M A X) : frames s m -> grows m.
Proof. intros H st. apply (H st). Qed.
Lemma frames_ret {A X} s (x : X) : @frames A X s (ret x).
Proof. intros st. apply Frame_refl. Qed.
Lemma frames_lift {A X} s (r : res X) : @frames A X s (lift r).
Proof. intros st. apply Frame_refl. Qed.
Lemma frames_read {A} s t : @frames A _ s (m_read t).
Proof. intros st. apply Frame_refl. Qed.
Lemma frames_bind {A X Y} s (m : M A X) (k : X -> M A Y) : frames s m -> (forall x, frames s (k x)) -> frames s (mbind m k).
Proof.
  intros H K st. unfold mbind. specialize (H st). destruct (m st) as [[x|] st1]; cbn [snd] in *; [|exact H].
  exact (Frame_trans _ _ _ _ H (K x st1)).
Qed.
Lemma frames_alloc {A} s (d : A) xs : frames s (m_alloc d xs).
Proof. intros st. apply alloc_frame. Qed.
Lemma frames_append {A} (d : A) pol s xs : frames s (m_append d pol s xs).
Proof.
  intros st. pose proof (append_frame d pol st s xs) as H. unfold m_append. now destruct (append d pol st s xs).
Qed.

(** writing behind a slice of a fresh array changes no older cell *)
Lemma Frame_fresh {A} s0 s (st st1 st2 : store A) : Frame s st st1 -> length (st_arrs st) <= sl_arr s0 -> Frame s0 st1 st2 -> Frame s st st2.
Proof.
  intros [F H] L [G K]. split; [auto|]. intros i a E.
  destruct (H i a E) as (b & Eb & L1 & U1 & V1 & C1 & P1). destruct (K i b Eb) as (c & Ec & L2 & U2 & V2 & C2 & P2).
  assert (N : i <> sl_arr s0). { assert (i < length (st_arrs st)) by (apply nth_error_Some; congruence). lia. }
  exists c. split; [exact Ec|]. split; [lia|]. split; [lia|]. split; [auto|]. rewrite (C2 N). auto.
Qed.
Definition sprouts {A X} (f : X -> slice) (m : M A X) : Prop :=
  forall st, (forall s, Frame s st (snd (m st))) /\ forall x, fst (m st) = Ok x -> length (st_arrs st) <= sl_arr (f x).
Lemma frames_sprout {A X Y} f s (m : M A X) (k : X -> M A Y) : sprouts f m -> (forall x, frames (f x) (k x)) -> frames s (mbind m k).
Proof.
  intros H K st. destruct (H st) as [F L]. unfold mbind. destruct (m st) as [[x|] st1]; cbn [fst snd] in *; [|apply F].
  apply (Frame_fresh (f x) s st st1); [apply F|now apply L|apply K].
Qed.
Lemma sprouts_alloc {A} (d : A) xs : sprouts (fun s => s) (m_alloc d xs).
Proof. intros st. split; [intros s; apply alloc_frame|]. intros x E. cbn in E. injection E as <-. cbn. lia. Qed.

Section Ops.
  Variable pol : policy.

  Lemma frames_app_to g xs : frames (hg_sl g) (app_to pol g xs).
  Proof. apply frames_bind; [apply frames_append|]. intros s. apply frames_ret. Qed.
  Lemma frames_app_new s g x xs : frames s (app_new pol g x xs).
  Proof.
    unfold app_new. apply (frames_sprout (fun t => t)); [apply sprouts_alloc|]. intros s0.
    apply frames_bind; [apply frames_append|]. intros t. apply frames_ret.
  Qed.
  Lemma frames_put_new s g xs : frames s (put_new g xs).
  Proof. apply frames_bind; [apply frames_alloc|]. intros t. apply frames_ret. Qed.
  Lemma frames_new_group s j cs : frames s (h_new_group j cs).
  Proof.
    apply frames_bind; [apply frames_lift|]. intros xs. apply frames_bind; [apply frames_alloc|]. intros t. apply frames_ret.
  Qed.
  Lemma sprouts_new_group j cs : sprouts hg_sl (h_new_group j cs).
  Proof.
    intros st. split; [intros s; apply frames_new_group|]. intros x. unfold h_new_group, mbind, lift.
    destruct (mapM (h_cjoin j) cs) as [ys|]; [|discriminate]. cbn. intros E. injection E as <-. cbn. lia.
  Qed.
  Ltac fr :=
    repeat match goal with
    | |- frames _ (mbind _ _) => apply frames_bind; [|intros ?]
    | |- frames _ (lift _) => apply frames_lift
    | |- frames _ (ret _) => apply frames_ret
    | |- frames _ (m_read _) => apply frames_read
    | |- frames _ (app_to _ _ _) => apply frames_app_to
    | |- frames _ (app_new _ _ _ _) => apply frames_app_new
    | |- frames _ (put_new _ _) => apply frames_put_new
    | |- frames _ (h_new_group _ _) => apply frames_new_group
    | |- frames _ (if ?b then _ else _) => destruct b
    end.
  Lemma frames_add_group g another : frames (hg_sl g) (h_add_group pol g another).
  Proof. unfold h_add_group. cbv zeta. fr. Qed.
  Lemma frames_add_single g c : frames (hg_sl g) (h_add_single pol g c).
  Proof.
    unfold h_add_single. cbv zeta. fr. destruct (as_hgroup c); [apply frames_add_group|]. fr.
  Qed.
  Lemma frames_add_conditions op g cs : frames (hg_sl g) (h_add_conditions pol op g cs).
  Proof.
    unfold h_add_conditions. fr. destruct cs as [|c0 rest]; [fr|]. destruct x; [fr|]. destruct rest; fr. apply frames_add_single.
  Qed.

  (** the slice of a group value *)
  Definition slice_of (c : hcond) : option slice := match c with HGrp _ _ s _ => Some s | _ => None end.
  (** [m] leaves alone everything but the free space behind [c]'s slice *)
  Definition spares {X} (c : hcond) (m : M hcond X) : Prop :=
    match slice_of c with Some s => frames s m | None => forall s, frames s m end.
  Lemma spares_m_and c cs : spares c (h_m_and pol c cs).
  Proof.
    destruct c as [|l|j n s br]; unfold spares; cbn [slice_of].
    - intros s. apply frames_lift.
    - intros s.
      assert (E : frames s (h_and pol (HLeaf l) cs)).
      { unfold h_and, h_start. destruct cs as [|c cs]; cbn [h_jt_join]; [apply frames_lift|]. cbn [as_hgroup].
        apply (frames_sprout hg_sl); [apply sprouts_new_group|]. intros g.
        apply frames_bind; [apply frames_add_conditions|]. intros r. apply frames_ret. }
      unfold h_m_and. destruct (l_kind l); try exact E;
        (apply (frames_sprout hg_sl); [apply sprouts_new_group|]; intros g; apply frames_bind; [apply frames_add_conditions|]; intros r; apply frames_ret).
    - cbn [h_m_and]. apply frames_bind; [apply (frames_add_conditions AND (mkHG j n s br))|]. intros r. apply frames_ret.
  Qed.
  Lemma spares_m_or c cs : spares c (h_m_or pol c cs).
  Proof.
    destruct c as [|l|j n s br]; unfold spares; cbn [slice_of].
    - intros s. apply frames_lift.
    - intros s.
      assert (E : frames s (h_or pol (HLeaf l) cs)).
      { unfold h_or, h_start. destruct cs as [|c cs]; cbn [h_jt_join]; [apply frames_lift|]. cbn [as_hgroup].
        apply (frames_sprout hg_sl); [apply sprouts_new_group|]. intros g.
        apply frames_bind; [apply frames_add_conditions|]. intros r. apply frames_lift. }
      unfold h_m_or. destruct (l_kind l); try exact E;
        try (apply (frames_sprout hg_sl); [apply sprouts_new_group|]; intros g; apply frames_bind; [apply frames_add_conditions|]; intros r; apply frames_ret).
      intros st. unfold mbind, h_new_group, lift. cbn. apply Frame_refl.
    - cbn [h_m_or]. apply frames_bind; [apply (frames_add_conditions OR (mkHG j n s br))|]. intros r. apply frames_ret.
  Qed.
  Lemma spares_and c cs : spares c (h_and pol c cs).
  Proof.
    destruct c as [|l|j n s br]; unfold spares; cbn [slice_of].
    - intros s. unfold h_and. destruct cs; [apply frames_lift|]. cbn [h_start as_hgroup].
      apply (frames_sprout hg_sl); [apply sprouts_new_group|]. intros g.
      apply frames_bind; [apply frames_add_conditions|]. intros r. apply frames_ret.
    - intros s. unfold h_and. destruct cs; [apply frames_lift|]. cbn [h_start as_hgroup].
      apply (frames_sprout hg_sl); [apply sprouts_new_group|]. intros g.
      apply frames_bind; [apply frames_add_conditions|]. intros r. apply frames_ret.
    - unfold h_and. destruct cs as [|c cs]; [apply frames_lift|]. cbn [h_start as_hgroup]. intros st. cbn [mbind ret].
      refine (frames_bind s (h_group_and pol (mkHG j n s br) (c :: cs)) _ _ _ st).
      + apply (frames_add_conditions AND (mkHG j n s br)).
      + intros r. apply frames_ret.
  Qed.
  Lemma spares_or c cs : spares c (h_or pol c cs).
  Proof.
    destruct c as [|l|j n s br]; unfold spares; cbn [slice_of].
    - intros s. unfold h_or. destruct cs; [apply frames_lift|]. cbn [h_start as_hgroup].
      apply (frames_sprout hg_sl); [apply sprouts_new_group|]. intros g.
      apply frames_bind; [apply frames_add_conditions|]. intros r. apply frames_lift.
    - intros s. unfold h_or. destruct cs; [apply frames_lift|]. cbn [h_start as_hgroup].
      apply (frames_sprout hg_sl); [apply sprouts_new_group|]. intros g.
      apply frames_bind; [apply frames_add_conditions|]. intros r. apply frames_lift.
    - unfold h_or. destruct cs as [|c cs]; [apply frames_lift|]. cbn [h_start as_hgroup]. intros st. cbn [mbind ret].
      refine (frames_bind s (h_group_or pol (mkHG j n s br) (c :: cs)) _ _ _ st).
      + apply (frames_add_conditions OR (mkHG j n s br)).
      + intros r. apply frames_lift.
  Qed.
  Lemma spares_grows {X} c (m : M hcond X) : spares c m -> grows m.
  Proof.
    unfold spares. destruct (slice_of c) as [s|]; [apply frames_grows|]. intros H. apply (frames_grows (mkSl 0 0)), H.
  Qed.
  (** the receiver keeps its tree *)
  Lemma spares_keeps {X} c (m : M hcond X) st t : spares c m -> Rep st c t -> Rep (snd (m st)) c t.
  Proof.
    intros S R. destruct t as [|l|j n cs br].
    - destruct c; cbn in *; auto.
    - destruct c; cbn in *; auto.
    - pose proof R as R0. apply Rep_grp in R0. destruct R0 as (s & hs & -> & _). cbn [spares slice_of] in S.
      apply (RepG_of _ (mkHG j n s br) (mkG j n cs br)). apply (RepG_frame st); [apply S|]. now apply RepG_of.
  Qed.
End Ops.

(** * Agreement with the functional reading *)
Definition agree {X Y} (R : store hcond -> X -> Y -> Prop) (st : store hcond) (m : M hcond X) (p : res Y) : Prop :=
  st_stale (snd (m st)) = false ->
  Ext st (snd (m st)) /\
  match fst (m st), p with Ok x, Ok y => R (snd (m st)) x y | Panic, Panic => True | _, _ => False end.

Lemma agree_bind {X Y X' Y'} (R : store hcond -> X -> Y -> Prop) (R' : store hcond -> X' -> Y' -> Prop) st m p k q :
  agree R st m p -> (forall x, grows (k x)) ->
  (forall x y st', Ext st st' -> R st' x y -> agree R' st' (k x) (q y)) -> agree R' st (mbind m k) (bind p q).
Proof.
  intros H G K. unfold agree, mbind in *. destruct (m st) as [[x|] st1]; cbn [fst snd] in *.
  - intros NS. destruct (H (G x st1 NS)) as [E Q]. destruct p as [y|]; [|destruct Q].
    destruct (K x y st1 E Q NS) as [E' Q']. split; [exact (Ext_trans _ _ _ E E')|exact Q'].
  - intros NS. destruct (H NS) as [E Q]. destruct p as [y|]; [destruct Q|]. split; [exact E|exact I].
Qed.
Lemma agree_ret {X Y} (R : store hcond -> X -> Y -> Prop) st x y : R st x y -> agree R st (ret x) (Ok y).
Proof. intros H _. cbn. split; [apply Ext_refl|exact H]. Qed.
Lemma agree_lift {X Y} (R : store hcond -> X -> Y -> Prop) st r p :
  match r, p with Ok x, Ok y => R st x y | Panic, Panic => True | _, _ => False end -> agree R st (lift r) p.
Proof. intros H _. cbn. split; [apply Ext_refl|exact H]. Qed.

Definition res_rel {X Y} (R : X -> Y -> Prop) (r : res X) (p : res Y) : Prop :=
  match r, p with Ok x, Ok y => R x y | Panic, Panic => True | _, _ => False end.

Section Pure.
  Variable st : store hcond.
  Lemma jtype_agree h c : Rep st h c -> h_jtype h = jtype c.
  Proof.
    destruct c as [|l|j n cs br]; intros R.
    - destruct h; cbn in *; try contradiction; reflexivity.
    - destruct h; cbn in *; try contradiction. now subst.
    - apply Rep_grp in R. destruct R as (s & hs & -> & _). reflexivity.
  Qed.
  Lemma cjoin_agree j h c : Rep st h c -> res_rel (Rep st) (h_cjoin j h) (c_join j c).
  Proof.
    destruct c as [|l|j' n cs br]; intros R.
    - destruct h; cbn in *; try contradiction; exact I.
    - destruct h; cbn in *; try contradiction. now subst.
    - apply Rep_grp in R. destruct R as (s & hs & -> & D & R). cbn [h_cjoin c_join res_rel]. apply Rep_grp. eauto.
  Qed.
  Lemma negate_agree b h c : Rep st h c -> res_rel (Rep st) (h_negate b h) (c_negate b c).
  Proof.
    destruct c as [|l|j' n cs br]; intros R.
    - destruct h; cbn in *; try contradiction; exact I.
    - destruct h; cbn in *; try contradiction. now subst.
    - apply Rep_grp in R. destruct R as (s & hs & -> & D & R). cbn [h_negate c_negate res_rel]. apply Rep_grp. eauto.
  Qed.
  Lemma mapM_cjoin_agree j hs cs : Reps st hs cs -> res_rel (Reps st) (mapM (h_cjoin j) hs) (mapM (c_join j) cs).
  Proof.
    intros R. induction R as [|h c hs cs H R IH]; [constructor|]. cbn [mapM].
    pose proof (cjoin_agree j h c H) as J. unfold res_rel in *.
    destruct (h_cjoin j h), (c_join j c); cbn [bind]; try contradiction; [|exact I].
    destruct (mapM (h_cjoin j) hs), (mapM (c_join j) cs); cbn [bind]; try contradiction; [|exact I]. now constructor.
  Qed.
  Lemma all_join_agree j hs cs : Reps st hs cs -> h_all_join j hs = all_join j cs.
  Proof.
    intros R. induction R as [|h c hs cs H R IH]; [reflexivity|]. cbn [h_all_join all_join]. now rewrite (jtype_agree _ _ H), IH.
  Qed.
  Lemma one_join_agree j hs cs : Reps st hs cs -> h_one_join j hs = one_join j cs.
  Proof.
    intros R. induction R as [|h c hs cs H R IH]; [reflexivity|]. cbn [h_one_join one_join]. now rewrite (jtype_agree _ _ H), IH.
  Qed.
  Lemma has_all_agree j hs g : Reps st hs (g_cs g) -> h_has_all hs j = has_all g j.
  Proof. unfold has_all. intros R. destruct R; [reflexivity|]. cbn [h_has_all]. now apply all_join_agree. Qed.
  Lemma has_one_agree j hs g : Reps st hs (g_cs g) -> h_has_one hs j = has_one g j.
  Proof. unfold has_one. intros R. destruct R; [reflexivity|]. cbn [h_has_one]. now apply one_join_agree. Qed.
  Lemma Reps_length hs cs : Reps st hs cs -> length hs = length cs.
  Proof. intros R. induction R; cbn; auto. Qed.
  Lemma Reps_app hs cs hs' cs' : Reps st hs cs -> Reps st hs' cs' -> Reps st (hs ++ hs')%list (cs ++ cs')%list.
  Proof. intros R R'. apply Forall2_app; assumption. Qed.
  Lemma Reps_one h c : Rep st h c -> Reps st [h] [c].
  Proof. intros R. constructor; [exact R|constructor]. Qed.
  Lemma brackets_agree h g : RepG st h g -> Rep st (of_hg (hg_brackets h)) (of_g (with_brackets g)).
  Proof. intros (E1 & E2 & E3 & hs & D & R). apply RepG_of. unfold RepG. cbn. repeat split; eauto. Qed.
End Pure.

Lemma RepG_read st h g : RepG st h g -> Reps st (read st (hg_sl h)) (g_cs g).
Proof. intros (E1 & E2 & E3 & hs & D & R). now rewrite (DenL_read _ _ _ D). Qed.

Section Agree.
  Variable pol : policy.

  Lemma agree_app_to st h g hs cs : RepG st h g -> Reps st hs cs ->
    agree RepG st (app_to pol h hs) (Ok (set_cs g (g_cs g ++ cs)%list)).
  Proof.
    intros (E1 & E2 & E3 & hs0 & D & R) Q NS. unfold app_to, m_append, mbind in *.
    pose proof (append_den HNil pol st (hg_sl h) hs0 hs D) as D'. pose proof (append_ext HNil pol st (hg_sl h) hs0 hs D) as X.
    destruct (append HNil pol st (hg_sl h) hs) as [s' st']. cbn [fst snd ret] in *. specialize (X NS). split; [exact X|].
    unfold RepG, set_cs. cbn. repeat split; auto. exists (hs0 ++ hs)%list. split; [exact D'|].
    apply (Reps_ext st); [exact X|]. now apply Reps_app.
  Qed.
  Lemma agree_alloc {A} (d : A) (st : store A) xs :
    Ext st (snd (m_alloc d xs st)) /\ exists s, fst (m_alloc d xs st) = Ok s /\ DenL (snd (m_alloc d xs st)) s xs.
  Proof.
    unfold m_alloc. pose proof (alloc_ext d st xs 0) as X. pose proof (alloc_den d st xs 0) as D.
    destruct (alloc d st xs 0) as [s st']. cbn [fst snd] in *. eauto.
  Qed.
  Lemma agree_app_new st h g x c hs cs : RepG st h g -> Rep st x c -> Reps st hs cs ->
    agree RepG st (app_new pol h x hs) (Ok (set_cs g (c :: cs))).
  Proof.
    intros (E1 & E2 & E3 & hs0 & D & R) Q Qs NS. unfold app_new, m_append, m_alloc, mbind in *.
    pose proof (alloc_ext HNil st [x] 0) as X0. pose proof (alloc_den HNil st [x] 0) as D0.
    destruct (alloc HNil st [x] 0) as [s0 st0]. cbn [fst snd] in X0, D0.
    pose proof (append_den HNil pol st0 s0 [x] hs D0) as D'. pose proof (append_ext HNil pol st0 s0 [x] hs D0) as X.
    destruct (append HNil pol st0 s0 hs) as [s' st']. cbn [fst snd ret] in *. specialize (X NS).
    pose proof (Ext_trans _ _ _ X0 X) as X2. split; [exact X2|].
    unfold RepG, set_cs. cbn. repeat split; auto. exists (x :: hs). split; [exact D'|].
    apply (Reps_ext st); [exact X2|]. now constructor.
  Qed.
  Lemma agree_put_new st h g hs cs : RepG st h g -> Reps st hs cs -> agree RepG st (put_new h hs) (Ok (set_cs g cs)).
  Proof.
    intros (E1 & E2 & E3 & hs0 & D & R) Q NS. unfold put_new, m_alloc, mbind in *.
    pose proof (alloc_ext HNil st hs 0) as X0. pose proof (alloc_den HNil st hs 0) as D0.
    destruct (alloc HNil st hs 0) as [s0 st0]. cbn [fst snd ret] in *. split; [exact X0|].
    unfold RepG, set_cs. cbn. repeat split; auto. exists hs. split; [exact D0|]. now apply (Reps_ext st).
  Qed.
  Lemma agree_new_group st j hs cs : Reps st hs cs -> agree RepG st (h_new_group j hs) (new_group j cs).
  Proof.
    intros Q NS. pose proof (mapM_cjoin_agree st j hs cs Q) as H. unfold h_new_group, new_group, mbind, lift, m_alloc, res_rel in *.
    destruct (mapM (h_cjoin j) hs) as [ys|], (mapM (c_join j) cs) as [zs|]; try contradiction; cbn [bind] in *; [|split; [apply Ext_refl|exact I]].
    pose proof (alloc_ext HNil st ys 0) as X0. pose proof (alloc_den HNil st ys 0) as D0.
    destruct (alloc HNil st ys 0) as [s0 st0]. cbn [fst snd ret] in *. split; [exact X0|].
    unfold RepG. cbn. repeat split. exists ys. split; [exact D0|]. now apply (Reps_ext st).
  Qed.
  Lemma agree_lift_bind {X Y X'} (R' : store hcond -> X' -> Y -> Prop) st (r : res X) (k : X -> M hcond X') (q : X -> res Y) :
    (forall x, r = Ok x -> agree R' st (k x) (q x)) -> agree R' st (mbind (lift r) k) (bind r q).
  Proof.
    intros K. destruct r as [x|]; [exact (K x eq_refl)|]. intros _. cbn. split; [apply Ext_refl|exact I].
  Qed.
  Lemma agree_cjoin_bind {X Y} (R' : store hcond -> X -> Y -> Prop) st j h c (k : hcond -> M hcond X) (q : cond -> res Y) :
    Rep st h c -> (forall h' c', Rep st h' c' -> agree R' st (k h') (q c')) ->
    agree R' st (mbind (lift (h_cjoin j h)) k) (bind (c_join j c) q).
  Proof.
    intros R K. pose proof (cjoin_agree st j h c R) as J. unfold res_rel in J.
    destruct (h_cjoin j h), (c_join j c); try contradiction; [apply (K _ _ J)|]. intros _. cbn. split; [apply Ext_refl|exact I].
  Qed.
  Lemma agree_read_bind {X Y} (R' : store hcond -> X -> Y -> Prop) st h g (k : list hcond -> M hcond X) (q : res Y) :
    RepG st h g -> (forall hs, Reps st hs (g_cs g) -> agree R' st (k hs) q) -> agree R' st (mbind (m_read (hg_sl h)) k) q.
  Proof. intros R K. exact (K _ (RepG_read _ _ _ R)). Qed.

  Lemma agree_add_group st h g h' g' : RepG st h g -> RepG st h' g' -> agree RepG st (h_add_group pol h h') (add_group g g').
  Proof.
    intros R R'. unfold h_add_group. apply (agree_read_bind RepG st h g); [exact R|]. intros hs Q.
    apply (agree_read_bind RepG st h' g'); [exact R'|]. intros hs' Q'. cbv zeta. unfold add_group.
    rewrite !(has_all_agree st _ _ _ Q), !(has_one_agree st _ _ _ Q), !(has_all_agree st _ _ _ Q'), !(has_one_agree st _ _ _ Q').
    rewrite (Reps_length _ _ _ Q). replace (hg_join h') with (g_join g') by (symmetry; apply R').
    repeat (apply agree_lift_bind; intros ? _).
    pose proof (brackets_agree st h g R) as B. pose proof (brackets_agree st h' g' R') as B'.
    repeat match goal with |- agree _ _ (if ?b then _ else _) _ => destruct b end.
    - apply agree_ret. destruct R as (E1 & E2 & E3 & _), R' as (F1 & F2 & F3 & D'). unfold RepG, set_join, set_cs, hg_set_join, hg_set_sl. cbn. repeat split; auto.
    - now apply agree_app_to.
    - now apply agree_app_to.
    - apply agree_cjoin_bind; [exact B'|]. intros h1 c1 R1. apply agree_app_to; [exact R|now apply Reps_one].
    - now apply agree_app_to.
    - apply agree_app_to; [exact R|now apply Reps_one].
    - now apply agree_app_new.
    - now apply agree_app_to.
    - apply agree_app_to; [exact R|now apply Reps_one].
    - now apply agree_app_new.
    - apply agree_cjoin_bind; [exact B'|]. intros h1 c1 R1. apply agree_put_new; [exact R|]. constructor; [exact B|now apply Reps_one].
  Qed.

  Lemma as_hgroup_agree st h c : Rep st h c ->
    match as_hgroup h, as_group c with Some hg, Some g => RepG st hg g | None, None => True | _, _ => False end.
  Proof.
    destruct c as [|l|j n cs br]; intros R.
    - destruct h; cbn in *; try contradiction; exact I.
    - destruct h; cbn in *; try contradiction; exact I.
    - pose proof R as R0. apply Rep_grp in R0. destruct R0 as (s & hs & -> & _). cbn [as_hgroup as_group].
      now apply (RepG_of st (mkHG j n s br) (mkG j n cs br)).
  Qed.

  Lemma agree_add_single st h g x c : RepG st h g -> Rep st x c -> agree RepG st (h_add_single pol h x) (add_single g c).
  Proof.
    intros R Rx. unfold h_add_single. apply (agree_read_bind RepG st h g); [exact R|]. intros hs Q. cbv zeta. unfold add_single.
    rewrite !(has_all_agree st _ _ _ Q), (jtype_agree st _ _ Rx), (Reps_length _ _ _ Q).
    do 2 (apply agree_lift_bind; intros ? _). apply agree_lift_bind; intros op _.
    pose proof (as_hgroup_agree st x c Rx) as G. destruct (as_hgroup x), (as_group c); try contradiction.
    - now apply agree_add_group.
    - repeat match goal with |- agree _ _ (if ?b then _ else _) _ => destruct b end;
        try (apply agree_cjoin_bind; [exact Rx|]; intros h1 c1 R1; apply agree_app_to; [exact R|now apply Reps_one]).
      + intros NS. pose proof (agree_app_to st h g [x] [c] R (Reps_one _ _ _ Rx)) as H. unfold agree, mbind in *.
        destruct (app_to pol h [x] st) as [[y|] st']; cbn [fst snd ret] in *; [|exact (H NS)].
        destruct (H NS) as [X (F1 & F2 & F3 & F4)]. split; [exact X|]. unfold RepG, set_join, hg_set_join. cbn in *. repeat split; auto.
      + apply agree_cjoin_bind; [exact Rx|]. intros h1 c1 R1. apply agree_put_new; [exact R|].
        constructor; [now apply brackets_agree|now apply Reps_one].
  Qed.

  Lemma agree_set_join st m g op : agree RepG st m (Ok g) ->
    agree RepG st (run g' <- m; ret (hg_set_join g' op)) (Ok (set_join g op)).
  Proof.
    intros H NS. unfold agree, mbind in *. destruct (m st) as [[y|] st']; cbn [fst snd ret] in *; [|exact (H NS)].
    destruct (H NS) as [X (F1 & F2 & F3 & F4)]. split; [exact X|]. unfold RepG, set_join, hg_set_join. cbn in *. repeat split; auto.
  Qed.
  Lemma grows_ret {A X} (x : X) : @grows A X (ret x).
  Proof. intros st H. exact H. Qed.

  Lemma agree_add_conditions st op h g hs cs : RepG st h g -> Reps st hs cs ->
    agree RepG st (h_add_conditions pol op h hs) (add_conditions op g cs).
  Proof.
    intros R Q. unfold h_add_conditions. apply (agree_read_bind RepG st h g); [exact R|]. intros hs0 Q0. unfold add_conditions.
    rewrite !(has_one_agree st _ _ _ Q0). do 2 (apply agree_lift_bind; intros ? _).
    destruct Q as [|x1 c hs cs Rx Q]; [now apply agree_ret|].
    remember (g_cs g) as gcs eqn:Eg.
    destruct Q0 as [|x2 c0 hs0 cs0 Rx0 Q0].
    - apply agree_set_join. replace (c :: cs) with (g_cs g ++ (c :: cs))%list by (rewrite <- Eg; reflexivity).
      apply agree_app_to; [exact R|now constructor].
    - rewrite Eg. destruct Q as [|x3 c1 hs cs Rx1 Q].
      + apply agree_cjoin_bind; [exact Rx|]. intros h1 c1 R1. now apply agree_add_single.
      + assert (Qs : Reps st (x1 :: x3 :: hs) (c :: c1 :: cs)) by (repeat constructor; assumption).
        destruct (_ && _); [apply agree_app_new; auto; now apply brackets_agree|].
        destruct (_ && _).
        * apply (agree_bind RepG); [now apply agree_new_group| |].
          { intros y. apply (frames_grows (hg_sl h)). apply frames_bind; [apply frames_lift|]. intros z. apply frames_app_to. }
          intros y z st' X Ry. apply agree_cjoin_bind; [now apply RepG_of|]. intros h1 c2 R1.
          apply agree_app_to; [now apply (RepG_ext st)|now apply Reps_one].
        * apply (agree_bind RepG); [now apply agree_new_group| |].
          { intros y. apply (frames_grows (hg_sl h)). apply frames_app_new. }
          intros y z st' X Ry. apply (RepG_ext st st') in R; [|exact X]. apply agree_app_new; [exact R|now apply brackets_agree|].
          apply Reps_one. now apply brackets_agree.
  Qed.

  Lemma agree_of_g st m p : agree RepG st m p -> agree Rep st (run r <- m; ret (of_hg r)) (do r <- p; Ok (of_g r)).
  Proof.
    intros H. apply (agree_bind RepG); [exact H|intros x; apply grows_ret|]. intros x y st' X R. apply agree_ret. now apply RepG_of.
  Qed.
  Lemma agree_jt_join st j hs cs : Reps st hs cs -> agree Rep st (h_jt_join j hs) (jt_join j cs).
  Proof.
    intros Q. destruct Q as [|x c hs cs R Q]; [intros _; cbn; split; [apply Ext_refl|exact I]|].
    destruct Q as [|x1 c1 hs cs R1 Q].
    - apply agree_lift. exact (cjoin_agree st j x c R).
    - cbn [h_jt_join jt_join]. apply agree_of_g. apply agree_new_group. repeat constructor; assumption.
  Qed.
  Lemma agree_not st h c b : Rep st h c -> agree Rep st (lift (h_negate b h)) (c_negate b c).
  Proof. intros R. apply agree_lift. exact (negate_agree st b h c R). Qed.

  Lemma agree_start st j h c : Rep st h c ->
    agree RepG st (h_start j h) (match as_group c with Some g => Ok g | None => new_group j [c] end).
  Proof.
    intros R. unfold h_start. pose proof (as_hgroup_agree st h c R) as G.
    destruct (as_hgroup h), (as_group c); try contradiction; [now apply agree_ret|]. apply agree_new_group. now apply Reps_one.
  Qed.
  Lemma grows_conditions {X} op (g : hgroup) cs (k : hgroup -> M hcond X) : (forall x, grows (k x)) -> grows (mbind (h_add_conditions pol op g cs) k).
  Proof.
    intros H st. unfold mbind. pose proof (frames_add_conditions pol op g cs st) as [F _].
    destruct (h_add_conditions pol op g cs st) as [[x|] st']; cbn [snd] in *; [|exact F]. intros NS. apply F. exact (H x st' NS).
  Qed.
  Lemma agree_and st h c hs cs : Rep st h c -> Reps st hs cs -> agree Rep st (h_and pol h hs) (and_ c cs).
  Proof.
    intros R Q. destruct Q as [|x c1 hs cs R1 Q]; [apply agree_lift; exact (cjoin_agree st AND h c R)|].
    unfold h_and, and_. apply (agree_bind RepG); [now apply agree_start|intros y; apply grows_conditions; intros z; apply grows_ret|].
    intros y z st' X Ry. apply agree_of_g. apply agree_add_conditions; [exact Ry|]. apply (Reps_ext st); [exact X|]. now constructor.
  Qed.
  Lemma grows_lift {A X} (r : res X) : @grows A X (lift r).
  Proof. intros st H. exact H. Qed.
  Lemma agree_or st h c hs cs : Rep st h c -> Reps st hs cs -> agree Rep st (h_or pol h hs) (or_ c cs).
  Proof.
    intros R Q. destruct Q as [|x c1 hs cs R1 Q]; [apply agree_lift; exact (cjoin_agree st OR h c R)|].
    unfold h_or, or_. apply (agree_bind RepG); [now apply agree_start|intros y; apply grows_conditions; intros z; apply grows_lift|].
    intros y z st' X Ry. apply (agree_bind RepG); [|intros w; apply grows_lift|].
    - apply agree_add_conditions; [exact Ry|]. apply (Reps_ext st); [exact X|]. now constructor.
    - intros w v st2 X2 Rw. apply agree_lift. apply (cjoin_agree st2 OR (of_hg w) (of_g v)). now apply RepG_of.
  Qed.
  Lemma agree_m_and st h c hs cs : Rep st h c -> Reps st hs cs -> agree Rep st (h_m_and pol h hs) (m_and c cs).
  Proof.
    intros R Q. destruct c as [|l|j n k br].
    - destruct h; cbn in R; try contradiction. intros _. cbn. split; [apply Ext_refl|exact I].
    - destruct h; cbn in R; try contradiction. subst l0. unfold h_m_and, m_and.
      assert (RL : Rep st (HLeaf l) (CLeaf l)) by reflexivity.
      destruct (l_kind l); try (now apply agree_and);
        (apply (agree_bind RepG); [apply agree_new_group; now apply Reps_one|intros y; apply grows_conditions; intros z; apply grows_ret|];
         intros y z st' X Ry; apply agree_of_g; apply agree_add_conditions; [exact Ry|]; now apply (Reps_ext st)).
    - pose proof R as R0. apply Rep_grp in R0. destruct R0 as (s & hs0 & -> & _). cbn [h_m_and m_and].
      apply agree_of_g. apply agree_add_conditions; [|exact Q]. now apply (RepG_of st (mkHG j n s br) (mkG j n k br)).
  Qed.
  Lemma agree_m_or st h c hs cs : Rep st h c -> Reps st hs cs -> agree Rep st (h_m_or pol h hs) (m_or c cs).
  Proof.
    intros R Q. destruct c as [|l|j n k br].
    - destruct h; cbn in R; try contradiction. intros _. cbn. split; [apply Ext_refl|exact I].
    - destruct h; cbn in R; try contradiction. subst l0. unfold h_m_or, m_or.
      assert (RL : Rep st (HLeaf l) (CLeaf l)) by reflexivity.
      destruct (l_kind l); try (now apply agree_or);
        try (apply (agree_bind RepG); [apply agree_new_group; now apply Reps_one|intros y; apply grows_conditions; intros z; apply grows_ret|];
         intros y z st' X Ry; apply agree_of_g; apply agree_add_conditions; [exact Ry|]; now apply (Reps_ext st)).
      intros _. cbn. split; [apply Ext_refl|exact I].
    - pose proof R as R0. apply Rep_grp in R0. destruct R0 as (s & hs0 & -> & _). cbn [h_m_or m_or].
      apply agree_of_g. apply agree_add_conditions; [|exact Q]. now apply (RepG_of st (mkHG j n s br) (mkG j n k br)).
  Qed.
End Agree.
