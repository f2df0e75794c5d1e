(** ApplyFieldTable and ApplyFieldSpec on a group write through its slice. *)
From Coq Require Import String Ascii List Bool Arith NArith ZArith Lia.
From Verif Require Import GoStr Value Names Cond Build Heap HeapFacts HeapOps HeapBuild HeapRun HeapLinear HeapWf HeapFrame.
Import ListNotations.
Local Open Scope string_scope.
Local Open Scope nat_scope.

Definition lmap (f : fdef -> fdef) (l : leaf) : leaf :=
  {| l_kind := l_kind l; l_join := l_join l; l_neg := l_neg l; l_def := f (l_def l); l_val := l_val l |}.
Definition happ (f : fdef -> fdef) (c : hcond) : hcond := match c with HLeaf l => HLeaf (lmap f l) | _ => c end.
Fixpoint capply (f : fdef -> fdef) (c : cond) : res cond :=
  match c with
  | CNil => Panic
  | CLeaf l => Ok (CLeaf (lmap f l))
  | CGrp j n cs br =>
      do cs' <- (fix go (cs : list cond) : res (list cond) :=
                   match cs with
                   | [] => Ok []
                   | c :: r => do c' <- capply f c; do r' <- go r; Ok (c' :: r')
                   end) cs;
      Ok (CGrp j n cs' br)
  end.
Lemma capply_grp f j n cs br : capply f (CGrp j n cs br) = do cs' <- mapM (capply f) cs; Ok (CGrp j n cs' br).
Proof. cbn [capply]. f_equal. induction cs as [|c cs IH]; [reflexivity|]. cbn [mapM]. now rewrite <- IH. Qed.
Lemma capply_table tn : forall c, capply (fun d => set_table d tn) c = c_apply_table tn c.
Proof.
  fix IH 1. intros [|l|j n cs br]; [reflexivity|reflexivity|]. cbn [capply c_apply_table].
  assert (E : forall cs, (fix go (cs : list cond) : res (list cond) :=
                   match cs with
                   | [] => Ok []
                   | c :: r => do c' <- capply (fun d => set_table d tn) c; do r' <- go r; Ok (c' :: r')
                   end) cs = (fix go (cs : list cond) : res (list cond) :=
                   match cs with
                   | [] => Ok []
                   | c :: r => do c' <- c_apply_table tn c; do r' <- go r; Ok (c' :: r')
                   end) cs).
  { fix go 1. intros [|c r]; [reflexivity|]. rewrite (IH c), (go r). reflexivity. }
  now rewrite E.
Qed.
Lemma capply_spec spec : forall c, capply (fun d => apply_spec d spec) c = c_apply_spec spec c.
Proof.
  fix IH 1. intros [|l|j n cs br]; [reflexivity|reflexivity|]. cbn [capply c_apply_spec].
  assert (E : forall cs, (fix go (cs : list cond) : res (list cond) :=
                   match cs with
                   | [] => Ok []
                   | c :: r => do c' <- capply (fun d => apply_spec d spec) c; do r' <- go r; Ok (c' :: r')
                   end) cs = (fix go (cs : list cond) : res (list cond) :=
                   match cs with
                   | [] => Ok []
                   | c :: r => do c' <- c_apply_spec spec c; do r' <- go r; Ok (c' :: r')
                   end) cs).
  { fix go 1. intros [|c r]; [reflexivity|]. rewrite (IH c), (go r). reflexivity. }
  now rewrite E.
Qed.
Lemma set_table_idem tn d : set_table (set_table d tn) tn = set_table d tn.
Proof. reflexivity. Qed.
Lemma apply_spec_idem spec d : apply_spec (apply_spec d spec) spec = apply_spec d spec.
Proof. unfold apply_spec, str_eqb. destruct (String.eqb (f_name d) (f_name spec)) eqn:E; [now rewrite String.eqb_refl|now rewrite E]. Qed.

Section Apply.
  Variable f : fdef -> fdef.
  Hypothesis idem : forall d, f (f d) = f d.
  Lemma lmap_idem l : lmap f (lmap f l) = lmap f l.
  Proof. unfold lmap. cbn. now rewrite idem. Qed.
  Lemma happ_idem c : happ f (happ f c) = happ f c.
  Proof. destruct c; cbn; [reflexivity|now rewrite lmap_idem|reflexivity]. Qed.
  Definition upd (c d : hcond) : Prop := d = c \/ d = happ f c.
  Lemma upd_trans a b c : upd a b -> upd b c -> upd a c.
  Proof. unfold upd. intros [->| ->] [->| ->]; auto. right. now rewrite happ_idem. Qed.
  Definition Upd (st st' : store hcond) : Prop :=
    length (st_arrs st') = length (st_arrs st) /\
    forall i a, nth_error (st_arrs st) i = Some a ->
    exists a', nth_error (st_arrs st') i = Some a' /\ a_used a' = a_used a /\ Forall2 upd (a_cells a) (a_cells a').
  Lemma upd_refl_l xs : Forall2 upd xs xs.
  Proof. induction xs; constructor; auto. now left. Qed.
  Lemma upd_trans_l xs ys zs : Forall2 upd xs ys -> Forall2 upd ys zs -> Forall2 upd xs zs.
  Proof. intros R. revert zs. induction R; intros zs R'; inversion R'; subst; constructor; eauto using upd_trans. Qed.
  Lemma Upd_refl st : Upd st st.
  Proof. split; [reflexivity|]. intros i a E. exists a. auto using upd_refl_l. Qed.
  Lemma Upd_trans a b c : Upd a b -> Upd b c -> Upd a c.
  Proof.
    intros [L H] [L' H']. split; [congruence|]. intros i x E. destruct (H i x E) as (y & Ey & U & R). destruct (H' i y Ey) as (z & Ez & U' & R').
    exists z. split; [exact Ez|]. split; [congruence|]. eauto using upd_trans_l.
  Qed.
  Lemma Forall2_len {X Y} (R : X -> Y -> Prop) xs ys : Forall2 R xs ys -> length xs = length ys.
  Proof. induction 1; cbn; auto. Qed.
  Lemma Forall2_firstn {X Y} (R : X -> Y -> Prop) n xs ys : Forall2 R xs ys -> Forall2 R (firstn n xs) (firstn n ys).
  Proof. intros H. revert n. induction H; intros [|n]; cbn; constructor; auto. Qed.
  Lemma Forall2_nth {X Y} (R : X -> Y -> Prop) xs ys n x y : Forall2 R xs ys -> nth_error xs n = Some x -> nth_error ys n = Some y -> R x y.
  Proof. intros H. revert n. induction H; intros [|n]; cbn; try discriminate; [congruence|apply IHForall2]. Qed.
  Lemma DenL_upd st st' s hs : Upd st st' -> DenL st s hs -> exists hs', DenL st' s hs' /\ Forall2 upd hs hs'.
  Proof.
    intros [_ H] (a & E & L1 & L2 & F). destruct (H _ _ E) as (b & Eb & U & R). exists (firstn (sl_len s) (a_cells b)). split.
    - exists b. split; [exact Eb|]. rewrite U. split; [exact L1|]. split; [rewrite <- (Forall2_len _ _ _ R); exact L2|reflexivity].
    - rewrite <- F. now apply Forall2_firstn.
  Qed.
  Lemma set_nth_upd i x xs c : nth_error xs i = Some c -> upd c x -> Forall2 upd xs (set_nth i x xs).
  Proof.
    intros E U. unfold set_nth. rewrite <- (firstn_skipn i xs) at 1. apply Forall2_app; [apply upd_refl_l|].
    revert i E. induction xs as [|y xs IH]; intros [|i] E; cbn in *; try discriminate; [injection E as ->; constructor; [exact U|apply upd_refl_l]|]. now apply IH.
  Qed.
  Lemma Upd_assign st s hs i x c : DenL st s hs -> nth_error hs i = Some c -> upd c x -> Upd st (assign st s i x).
  Proof.
    intros (a & E & L1 & L2 & F) Ei U. unfold assign. rewrite (the_arr_nth _ _ _ E).
    assert (B : sl_arr s < length (st_arrs st)) by (apply nth_error_Some; congruence).
    split; [cbn; now apply set_nth_length|]. intros k b Eb. cbn [st_arrs]. destruct (Nat.eq_dec k (sl_arr s)) as [->|N].
    - rewrite set_nth_same by exact B. assert (b = a) by congruence. subst b. eexists. split; [reflexivity|]. split; [reflexivity|]. cbn.
      apply (set_nth_upd i x _ c); [|exact U]. rewrite <- F in Ei.
      assert (i < sl_len s). { assert (i < length (firstn (sl_len s) (a_cells a))) by (apply nth_error_Some; congruence). rewrite firstn_length in H. lia. }
      now rewrite nth_error_firstn in Ei.
    - exists b. rewrite set_nth_other; [auto using upd_refl_l|exact N|apply nth_error_Some; congruence].
  Qed.
  Lemma assign_read (st : store hcond) s hs i x : DenL st s hs -> i < sl_len s -> DenL (assign st s i x) s (set_nth i x hs).
  Proof.
    intros (a & E & L1 & L2 & F) Li. unfold assign. rewrite (the_arr_nth _ _ _ E).
    assert (B : sl_arr s < length (st_arrs st)) by (apply nth_error_Some; congruence).
    eexists. cbn [st_arrs]. rewrite set_nth_same by exact B. split; [reflexivity|]. cbn [a_cells a_used]. rewrite set_nth_length by lia. split; [exact L1|]. split; [exact L2|].
    rewrite <- F. clear -Li L1 L2. assert (Hc : sl_len s <= length (a_cells a)) by lia. revert Li Hc. generalize (sl_len s) (a_cells a). clear. intros n l Li Hc.
    revert n i Li Hc. induction l as [|y l IH]; intros n i Li Hc; cbn in Hc; [lia|]. destruct n as [|n]; [lia|]. destruct i as [|i]; [reflexivity|].
    unfold set_nth in IH |- *. cbn. f_equal. apply IH; lia.
  Qed.

  (** mapped trees stay *)
  Lemma mapM_capply_fixed cs cs' : mapM (capply f) cs = Ok cs' -> Forall2 (fun c c' => capply f c = Ok c') cs cs'.
  Proof.
    revert cs'. induction cs as [|c cs IH]; cbn [mapM]; intros cs' E; [injection E as <-; constructor|].
    destruct (capply f c) as [c1|] eqn:E1; [|discriminate]. cbn [bind] in E. destruct (mapM (capply f) cs) as [c2|]; [|discriminate]. cbn in E. injection E as <-.
    constructor; auto.
  Qed.
  Lemma mapM_of_Forall2 cs cs' : Forall2 (fun c c' => capply f c = Ok c') cs cs' -> mapM (capply f) cs = Ok cs'.
  Proof. induction 1 as [|c c' cs cs' E R IH]; cbn [mapM]; [reflexivity|]. rewrite E. cbn. rewrite IH. reflexivity. Qed.
  Lemma capply_idem : forall t t', capply f t = Ok t' -> capply f t' = Ok t'.
  Proof.
    fix IH 1. intros [|l|j n cs br] t' E.
    - discriminate.
    - injection E as <-. cbn. now rewrite lmap_idem.
    - rewrite capply_grp in E. destruct (mapM (capply f) cs) as [cs'|] eqn:Em; [|discriminate]. cbn in E. injection E as <-.
      rewrite capply_grp. apply mapM_capply_fixed in Em. rewrite (mapM_of_Forall2 cs' cs'); [reflexivity|].
      revert cs cs' Em. fix go 1. intros [|c cs] cs' Em; inversion Em; subst; constructor; [eapply IH; eassumption|eapply go; eassumption].
  Qed.
  Lemma Rep_fixed st st' : Upd st st' -> forall t h, capply f t = Ok t -> Rep st h t -> Rep st' h t /\ happ f h = h.
  Proof.
    intros U. fix IH 1. intros [|l|j n cs br] h Fx R.
    - discriminate.
    - destruct h; cbn in R; try contradiction. subst l0. cbn. split; [reflexivity|]. cbn in Fx. injection Fx as Fx. now rewrite Fx.
    - apply Rep_grp in R. destruct R as (s & hs & -> & D & R). split; [|reflexivity]. apply Rep_grp. exists s.
      destruct (DenL_upd _ _ _ _ U D) as (hs' & D' & Q). exists hs'. split; [reflexivity|]. split; [exact D'|].
      rewrite capply_grp in Fx. destruct (mapM (capply f) cs) as [cs'|] eqn:Em; [|discriminate]. cbn in Fx. injection Fx as ->.
      apply mapM_capply_fixed in Em. clear D D'. revert cs hs hs' Em Q R. fix go 1. intros [|c cs] hs hs' Em Q R; inversion R as [|x c0 hs1 cs1 Rx R1]; subst; inversion Q as [|x0 y hs2 hs3 Ux Q1]; subst; [constructor|].
      inversion Em as [|c0 c1 cs2 cs3 Ec Em1]; subst. destruct (IH c x Ec Rx) as [I1 I2]. constructor.
      + destruct Ux as [->| ->]; [exact I1|now rewrite I2].
      + eapply go; eassumption.
  Qed.

  Lemma apply_upd fuel : forall st st1 h h1 t r st2, Rep st h t -> Upd st st1 -> upd h h1 ->
    h_apply fuel f h1 st1 = Some (Ok r, st2) ->
    r = happ f h /\ Upd st1 st2 /\ exists t', capply f t = Ok t' /\ Rep st2 r t'.
  Proof.
    induction fuel as [|fuel IH]; [discriminate|]. intros st st1 h h1 t r st2 R U Q E.
    destruct t as [|l|j n ts br].
    - destruct h; cbn in R; try contradiction. destruct Q as [->| ->]; discriminate.
    - destruct h; cbn in R; try contradiction. subst l0. assert (E' : r = HLeaf (lmap f l) /\ st2 = st1).
      { destruct Q as [->| ->]; cbn in E; injection E as <- <-; split; auto. change (HLeaf (lmap f (lmap f l)) = HLeaf (lmap f l)). now rewrite lmap_idem. }
      destruct E' as [-> ->]. split; [reflexivity|]. split; [apply Upd_refl|]. exists (CLeaf (lmap f l)). split; reflexivity.
    - apply Rep_grp in R. destruct R as (s & hs & -> & D & R). assert (h1 = HGrp j n s br) by (destruct Q; assumption). subst h1. clear Q.
      cbn [h_apply] in E. cbn [happ].
      assert (LH : length hs = sl_len s) by exact (DenL_len _ _ _ D).
      assert (K : forall todo i stx r st2, i + todo = sl_len s -> Upd st stx ->
        (exists ts' hx, DenL stx s hx /\ firstn i hx = map (happ f) (firstn i hs) /\ mapM (capply f) (firstn i ts) = Ok ts' /\ Reps stx (firstn i hx) ts') ->
        (fix loop (todo i : nat) (st : store hcond) : option (res hcond * store hcond) :=
             match todo with
             | 0 => Some (Ok (HGrp j n s br), st)
             | S t =>
                 match h_apply fuel f (nth i (read st s) HNil) st with
                 | Some (Ok c', st') => loop t (S i) (assign st' s i c')
                 | Some (Panic, st') => Some (Panic, st')
                 | None => None
                 end
             end) todo i stx = Some (Ok r, st2) ->
        r = HGrp j n s br /\ Upd stx st2 /\ exists ts', mapM (capply f) ts = Ok ts' /\ Rep st2 r (CGrp j n ts' br)).
      { clear E U st1 r st2. induction todo as [|todo IHt]; intros i stx r st2 Hi U (ts' & hx & Dx & P & Em & Rx) E.
        - injection E as <- <-. split; [reflexivity|]. split; [apply Upd_refl|]. exists ts'.
          rewrite firstn_all2 in Em by (rewrite <- (Reps_length _ _ _ R); lia). split; [exact Em|].
          apply Rep_grp. exists s, hx. split; [reflexivity|]. split; [exact Dx|]. rewrite firstn_all2 in Rx; [exact Rx|]. rewrite (DenL_len _ _ _ Dx). lia.
        - destruct (nth_error hs i) as [h0|] eqn:E0; [|apply nth_error_None in E0; lia].
          destruct (nth_error ts i) as [t0|] eqn:T0; [|apply nth_error_None in T0; rewrite <- (Reps_length _ _ _ R) in T0; lia].
          pose proof (Forall2_nth _ _ _ _ _ _ R E0 T0) as R0.
          destruct (DenL_upd _ _ _ _ U D) as (hx' & Dx' & Qx). pose proof (DenL_fun _ _ _ _ Dx Dx') as <-.
          destruct (nth_error hx i) as [g0|] eqn:G0; [|apply nth_error_None in G0; rewrite (DenL_len _ _ _ Dx) in G0; lia].
          pose proof (Forall2_nth _ _ _ _ _ _ Qx E0 G0) as Q0.
          rewrite (DenL_read _ _ _ Dx), (nth_error_nth _ _ _ G0) in E.
          destruct (h_apply fuel f g0 stx) as [[[c'|] st']|] eqn:EA; try discriminate.
          destruct (IH st stx h0 g0 t0 c' st' R0 U Q0 EA) as (-> & U' & t0' & Ct & Rt).
          destruct (DenL_upd _ _ _ _ U' Dx) as (hy & Dy & Qy).
          destruct (nth_error hy i) as [y0|] eqn:Y0; [|apply nth_error_None in Y0; rewrite (DenL_len _ _ _ Dy) in Y0; lia].
          assert (Uy : upd y0 (happ f h0)).
          { pose proof (Forall2_nth _ _ _ _ _ _ Qy G0 Y0) as Q1. destruct Q0 as [->| ->], Q1 as [->| ->]; unfold upd; rewrite ?happ_idem; auto. }
          pose proof (Upd_assign st' s hy i (happ f h0) y0 Dy Y0 Uy) as UA.
          assert (Li : i < sl_len s) by lia.
          pose proof (assign_read st' s hy i (happ f h0) Dy Li) as DA.
          assert (PX : firstn i hy = firstn i hx).
          { apply (Forall2_firstn _ i) in Qy. rewrite P in Qy |- *. clear -Qy idem. revert Qy. generalize (firstn i hs) (firstn i hy). intros a. induction a as [|x a IHa]; intros b Qy; inversion Qy; subst; [reflexivity|].
            cbn. f_equal; [destruct H1 as [->| ->]; [reflexivity|apply happ_idem]|auto]. }
          assert (FS : firstn i (set_nth i (happ f h0) hy) = firstn i hy).
          { unfold set_nth. assert (i < length hy) by (rewrite (DenL_len _ _ _ Dy); lia). rewrite firstn_app, firstn_firstn, Nat.min_id, firstn_length, Nat.min_l by lia. now rewrite Nat.sub_diag, firstn_O, app_nil_r. }
          assert (FS1 : firstn (S i) (set_nth i (happ f h0) hy) = (firstn i hy ++ [happ f h0])%list).
          { unfold set_nth. assert (i < length hy) by (rewrite (DenL_len _ _ _ Dy); lia). rewrite firstn_app, firstn_firstn, Nat.min_r by lia. rewrite firstn_length, Nat.min_l by lia. now replace (S i - i) with 1 by lia. }
          assert (S1 : forall X (l : list X) x, nth_error l i = Some x -> firstn (S i) l = (firstn i l ++ [x])%list).
          { clear. intros X l. revert i. induction l as [|y l IHl]; intros [|i] x E; cbn in *; try discriminate; [now injection E as ->|]. now rewrite (IHl i x E). }
          destruct (IHt (S i) (assign st' s i (happ f h0)) r st2) as (Er & Ur & ts2 & Hts); [lia|eauto using Upd_trans| |exact E|].
          + exists (ts' ++ [t0'])%list, (set_nth i (happ f h0) hy). split; [exact DA|]. rewrite FS1. split; [|split].
            * rewrite PX, P, (S1 _ _ _ E0), map_app. reflexivity.
            * rewrite (S1 _ _ _ T0). apply mapM_of_Forall2. apply Forall2_app; [now apply mapM_capply_fixed|]. constructor; [exact Ct|constructor].
            * rewrite PX. apply Forall2_app.
              -- pose proof (Upd_trans _ _ _ U' UA) as UU. apply mapM_capply_fixed in Em. clear -Rx Em UU idem. revert Rx Em. generalize (firstn i hx) (firstn i ts). intros a b Rx. revert b.
                 induction Rx as [|x t' a ts' Rt Rx IHr]; intros b Em; inversion Em; subst; constructor; eauto.
                 apply (Rep_fixed _ _ UU); [eapply capply_idem; eassumption|exact Rt].
              -- constructor; [|constructor]. apply (Rep_fixed _ _ UA); [eapply capply_idem; eassumption|exact Rt].
          + split; [exact Er|]. split; [eauto using Upd_trans|]. exists ts2. exact Hts. }
      destruct (DenL_upd _ _ _ _ U D) as (hx & Dx & Qx).
      destruct (K (sl_len s) 0 st1 r st2) as (Er & Ur & ts' & Em & Rr); [lia|exact U| |exact E|].
      { exists [], hx. split; [exact Dx|]. cbn. repeat split. constructor. }
      split; [exact Er|]. split; [exact Ur|]. exists (CGrp j n ts' br). split; [rewrite capply_grp, Em; reflexivity|exact Rr].
  Qed.

  (** it does return, if no element is nil *)
  Lemma apply_total fuel : forall st st1 h h1 t t', Rep st h t -> Upd st st1 -> upd h h1 -> capply f t = Ok t' -> nodes t <= fuel ->
    exists r st2, h_apply fuel f h1 st1 = Some (Ok r, st2).
  Proof.
    induction fuel as [|fuel IH]; intros st st1 h h1 t t' R U Q C N; [destruct t; cbn in N; lia|].
    destruct t as [|l|j n ts br]; [discriminate| |].
    - destruct h; cbn in R; try contradiction. subst l0. destruct Q as [->| ->]; cbn; eauto.
    - apply Rep_grp in R. destruct R as (s & hs & -> & D & R). assert (h1 = HGrp j n s br) by (destruct Q; assumption). subst h1. clear Q.
      cbn [h_apply]. rewrite nodes_grp in N. rewrite capply_grp in C. destruct (mapM (capply f) ts) as [ts'|] eqn:Em; [|discriminate]. clear C.
      apply mapM_capply_fixed in Em.
      assert (LH : length hs = sl_len s) by exact (DenL_len _ _ _ D).
      assert (K : forall todo i stx, i + todo = sl_len s -> Upd st stx -> exists r st2,
        (fix loop (todo i : nat) (st : store hcond) : option (res hcond * store hcond) :=
             match todo with
             | 0 => Some (Ok (HGrp j n s br), st)
             | S t =>
                 match h_apply fuel f (nth i (read st s) HNil) st with
                 | Some (Ok c', st') => loop t (S i) (assign st' s i c')
                 | Some (Panic, st') => Some (Panic, st')
                 | None => None
                 end
             end) todo i stx = Some (Ok r, st2)); [|now apply K].
      clear U st1. induction todo as [|todo IHt]; intros i stx Hi U; [eauto|].
      destruct (nth_error hs i) as [h0|] eqn:E0; [|apply nth_error_None in E0; lia].
      destruct (nth_error ts i) as [t0|] eqn:T0; [|apply nth_error_None in T0; rewrite <- (Reps_length _ _ _ R) in T0; lia].
      pose proof (Forall2_nth _ _ _ _ _ _ R E0 T0) as R0.
      destruct (nth_error ts' i) as [c0|] eqn:C0.
      2: { apply nth_error_None in C0. assert (length ts = length ts') by (clear -Em; induction Em; cbn; congruence).
           assert (i < length ts) by (apply nth_error_Some; congruence). lia. }
      pose proof (Forall2_nth _ _ _ _ _ _ Em T0 C0) as CC. cbn in CC.
      destruct (DenL_upd _ _ _ _ U D) as (hx & Dx & Qx).
      destruct (nth_error hx i) as [g0|] eqn:G0; [|apply nth_error_None in G0; rewrite (DenL_len _ _ _ Dx) in G0; lia].
      pose proof (Forall2_nth _ _ _ _ _ _ Qx E0 G0) as Q0.
      rewrite (DenL_read _ _ _ Dx), (nth_error_nth _ _ _ G0).
      destruct (IH st stx h0 g0 t0 c0 R0 U Q0 CC) as (r & st' & EA).
      { apply Nat.le_trans with (nodes_l ts); [|lia]. apply nodes_l_in. eapply nth_error_In; eassumption. }
      rewrite EA. destruct (apply_upd fuel st stx h0 g0 t0 r st' R0 U Q0 EA) as (-> & U' & _).
      destruct (DenL_upd _ _ _ _ U' Dx) as (hy & Dy & Qy).
      destruct (nth_error hy i) as [y0|] eqn:Y0; [|apply nth_error_None in Y0; rewrite (DenL_len _ _ _ Dy) in Y0; lia].
      assert (Uy : upd y0 (happ f h0)).
      { pose proof (Forall2_nth _ _ _ _ _ _ Qy G0 Y0) as Q1. destruct Q0 as [->| ->], Q1 as [->| ->]; unfold upd; rewrite ?happ_idem; auto. }
      pose proof (Upd_assign st' s hy i (happ f h0) y0 Dy Y0 Uy) as UA.
      apply IHt; [lia|eauto using Upd_trans].
  Qed.
End Apply.
