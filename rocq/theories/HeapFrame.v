(** What a call leaves alone: its receiver. *)
From Coq Require Import String Ascii List Bool Arith NArith ZArith Lia.
From Verif Require Import GoStr Value Names Cond Build Heap HeapFacts HeapOps HeapBuild HeapRun HeapLinear HeapWf.
Import ListNotations.
Local Open Scope string_scope.
Local Open Scope nat_scope.

(** * A value that renders denotes a finite tree *)
Section Finite.
  Variable st : store hcond.
  Hypothesis W : WFC st.
  Lemma okS_den s : okS st s -> DenL st s (read st s).
  Proof.
    intros (a & E & L). exists a. destruct (W _ _ E) as [U _]. repeat split; auto. unfold read. now rewrite (the_arr_nth _ _ _ E).
  Qed.
  Lemma values_finite fuel : forall c vs, okC st c -> h_values fuel st c = Some (Ok vs) -> exists t, Rep st c t.
  Proof.
    induction fuel as [|f IH]; [discriminate|]. intros [|l|j n s br] vs O; cbn [h_values]; intros E.
    - discriminate.
    - exists (CLeaf l). reflexivity.
    - assert (K : forall cs vs, okCs st cs ->
        (fix go (cs : list hcond) : option (res (list gval)) :=
             match cs with
             | [] => Some (Ok [])
             | c :: r =>
                 match h_values f st c with
                 | Some (Ok vs) =>
                     match go r with
                     | Some (Ok ws) => Some (Ok (vs ++ ws)%list)
                     | x => x
                     end
                 | x => x
                 end
             end) cs = Some (Ok vs) -> exists ts, Reps st cs ts).
      { induction cs as [|c cs IHc]; intros ws Oc Ec; [exists []; constructor|]. inversion Oc; subst.
        destruct (h_values f st c) as [[v1|]|] eqn:E1; try discriminate.
        match type of Ec with match ?g with _ => _ end = _ => destruct g as [[v2|]|] eqn:E2; try discriminate end.
        destruct (IH c v1 H1 E1) as [t T]. destruct (IHc v2 H2 eq_refl) as [ts Ts]. exists (t :: ts). now constructor. }
      destruct (K _ _ (read_ok okC st s W O) E) as [ts T]. exists (CGrp j n ts br). apply Rep_grp. exists s, (read st s).
      split; [reflexivity|]. split; [now apply okS_den|exact T].
  Qed.
  Lemma render_finite fuel c n r : okC st c -> h_render fuel st c n = Some (Ok r) -> exists t, Rep st c t.
  Proof.
    destruct fuel as [|f]; [discriminate|]. destruct c as [|l|j ng s br]; cbn [h_render]; intros O E.
    - discriminate.
    - exists (CLeaf l). reflexivity.
    - assert (K : forall cs b n r, okCs st cs ->
        (fix go (first : bool) (cs : list hcond) (n : nat) : option (res string) :=
                       match cs with
                       | [] => Some (Ok "")
                       | c :: r =>
                           match h_jtype c, h_render f st c n, h_values f st c with
                           | Panic, _, _ => Some Panic
                           | _, Some Panic, _ => Some Panic
                           | _, None, _ => None
                           | _, _, None => None
                           | _, _, Some Panic => Some Panic
                           | Ok j, Some (Ok sql), Some (Ok vs) =>
                               match go false r (n + length vs) with
                               | Some (Ok rest) => Some (Ok (join_token first j ++ sql ++ rest))
                               | x => x
                               end
                           end
                       end) b cs n = Some (Ok r) -> exists ts, Reps st cs ts).
      { induction cs as [|c cs IHc]; intros b n0 r0 Oc Ec; [exists []; constructor|]. inversion Oc; subst.
        destruct (h_jtype c) as [jj|]; [|discriminate]. destruct (h_render f st c n0) as [[r1|]|]; try discriminate.
        destruct (h_values f st c) as [[v1|]|] eqn:E1; try discriminate.
        match type of Ec with match ?g with _ => _ end = _ => destruct g as [[v2|]|] eqn:E2; try discriminate end.
        destruct (values_finite f c v1 H1 E1) as [t T]. destruct (IHc _ _ _ H2 E2) as [ts Ts]. exists (t :: ts). now constructor. }
      assert (Q : exists ts, Reps st (read st s) ts).
      { pose proof (read_ok okC st s W O) as Or. destruct (read st s) as [|c0 cs0]; [exists []; constructor|].
        match type of E with match ?g with _ => _ end = _ => destruct g as [[v2|]|] eqn:E2; try discriminate end.
        exact (K _ _ _ _ Or E2). }
      destruct Q as [ts T]. exists (CGrp j ng ts br). apply Rep_grp. exists s, (read st s).
      split; [reflexivity|]. split; [now apply okS_den|exact T].
  Qed.
End Finite.

(** * Equal trees render equally, whatever the fuel *)
Lemma values_same st st' fuel : forall t c c', Rep st c t -> Rep st' c' t -> h_values fuel st c = h_values fuel st' c'.
Proof.
  induction fuel as [|f IH]; [reflexivity|]. intros [|l|j n ts br] c c' R R'.
  - destruct c, c'; cbn in *; try contradiction; reflexivity.
  - destruct c, c'; cbn in R, R'; try contradiction. cbn. congruence.
  - apply Rep_grp in R. destruct R as (s & hs & -> & D & R). apply Rep_grp in R'. destruct R' as (s' & hs' & -> & D' & R').
    cbn [h_values]. rewrite (DenL_read _ _ _ D), (DenL_read _ _ _ D'). clear D D'. revert hs' R'. induction R as [|h t hs ts Rh R IHR]; intros hs' R'; inversion R' as [|x t' hs1 ts1 Rx R1]; subst; [reflexivity|].
    rewrite (IH t h x Rh Rx). destruct (h_values f st' x) as [[v|]|]; [|reflexivity|reflexivity]. now rewrite (IHR _ R1).
Qed.
Lemma jtype_same st st' t c c' : Rep st c t -> Rep st' c' t -> h_jtype c = h_jtype c'.
Proof. intros R R'. now rewrite (jtype_agree st c t R), (jtype_agree st' c' t R'). Qed.
Lemma render_same st st' fuel : forall t c c' n, Rep st c t -> Rep st' c' t -> h_render fuel st c n = h_render fuel st' c' n.
Proof.
  induction fuel as [|f IH]; [reflexivity|]. intros [|l|j ng ts br] c c' n R R'.
  - destruct c, c'; cbn in *; try contradiction; reflexivity.
  - destruct c, c'; cbn in R, R'; try contradiction. cbn. congruence.
  - apply Rep_grp in R. destruct R as (s & hs & -> & D & R). apply Rep_grp in R'. destruct R' as (s' & hs' & -> & D' & R').
    cbn [h_render]. rewrite (DenL_read _ _ _ D), (DenL_read _ _ _ D'). clear D D'.
    rewrite (Reps_length _ _ _ R), (Reps_length _ _ _ R').
    match goal with |- match hs with [] => _ | _ :: _ => match ?g _ _ _ with _ => _ end end = match hs' with [] => _ | _ :: _ => match ?g' _ _ _ with _ => _ end end =>
      assert (K : forall b k, g b hs k = g' b hs' k) end.
    { revert hs' R'. induction R as [|h t hs ts Rh R IHR]; intros hs' R' b k; inversion R' as [|x t' hs1 ts1 Rx R1]; subst; [reflexivity|].
      rewrite (jtype_same st st' t h x Rh Rx), (IH t h x k Rh Rx), (values_same st st' f t h x Rh Rx).
      destruct (h_jtype x); [|reflexivity]. destruct (h_render f st' x k) as [[r|]|]; try reflexivity. destruct (h_values f st' x) as [[v|]|]; try reflexivity.
      now rewrite (IHR _ R1). }
    rewrite K. destruct R; inversion R'; subst; reflexivity.
Qed.

(** * Slots *)

(** the slices of a value, by element type *)
Record slots := mkSlots { pC : option slice; pO : option slice; pJ : option slice; pV : option slice; pF : option slice }.
Definition slots_b (b : hbsel) : slots := mkSlots (Some (hg_sl (hb_where b))) None (Some (hb_joins b)) None (Some (hb_fields b)).
Definition slots_of (v : hval) : slots :=
  match v with
  | XC c => mkSlots (slice_of c) None None None None
  | XB b => slots_b b
  | XM m => mkSlots (Some (hg_sl (hb_where (hm_base m)))) (Some (hm_order m)) (Some (hb_joins (hm_base m))) None (Some (hb_fields (hm_base m)))
  | XS s => slots_b (hss_base s)
  | XN c => slots_b (hcs_base c)
  | XI i => mkSlots None None None (Some (hi_values i)) None
  | XU u => mkSlots (Some (hg_sl (hu_where u))) None None (Some (hu_values u)) None
  | XD d => mkSlots (Some (hg_sl (hd_where d))) None None None None
  end.
Definition OFrame {A} (o : option slice) (st st' : store A) : Prop :=
  match o with Some s => Frame s st st' | None => forall s, Frame s st st' end.
Definition HFr (t : slots) (h h' : heap) : Prop :=
  OFrame (pC t) (hC h) (hC h') /\ OFrame (pO t) (hO h) (hO h') /\ OFrame (pJ t) (hJ h) (hJ h') /\ OFrame (pV t) (hV h) (hV h') /\ OFrame (pF t) (hF h) (hF h').
Definition hframes {X} (t : slots) (m : HM X) : Prop := forall h, HFr t h (snd (m h)).
Definition oframes {A X} (o : option slice) (m : M A X) : Prop := forall st, OFrame o st (snd (m st)).
Lemma OFrame_refl {A} o (st : store A) : OFrame o st st.
Proof. destruct o; cbn; intros; apply Frame_refl. Qed.
Lemma OFrame_trans {A} o (a b c : store A) : OFrame o a b -> OFrame o b c -> OFrame o a c.
Proof. destruct o; cbn; intros H K; [exact (Frame_trans _ _ _ _ H K)|]. intros s. exact (Frame_trans _ _ _ _ (H s) (K s)). Qed.
Lemma OFrame_any {A} o (a b : store A) : (forall s, Frame s a b) -> OFrame o a b.
Proof. destruct o; cbn; auto. Qed.
Lemma HFr_refl t h : HFr t h h.
Proof. unfold HFr. auto 10 using OFrame_refl. Qed.
Lemma HFr_trans t a b c : HFr t a b -> HFr t b c -> HFr t a c.
Proof. intros (A & B & C & D & E) (A' & B' & C' & D' & E'). unfold HFr. eauto 10 using OFrame_trans. Qed.
Lemma HFr_any t a b : (forall t', HFr t' a b) -> HFr t a b.
Proof. auto. Qed.
Lemma hframes_ret {X} t (x : X) : hframes t (hret x).
Proof. intros h. apply HFr_refl. Qed.
Lemma hframes_lift {X} t (r : res X) : hframes t (hlift r).
Proof. intros h. apply HFr_refl. Qed.
Lemma hframes_bind {X Y} t (m : HM X) (k : X -> HM Y) : hframes t m -> (forall x, hframes t (k x)) -> hframes t (hbind m k).
Proof.
  intros H K h. unfold hbind. specialize (H h). destruct (m h) as [[x|] h1]; cbn [snd] in *; [|exact H]. exact (HFr_trans _ _ _ _ H (K x h1)).
Qed.
Ltac on_fr m st H := intros H h; specialize (H st); unfold onC, onO, onJ, onV, onF; destruct (m st) as [r st']; cbn [snd] in *; unfold HFr; cbn; auto 10 using OFrame_refl.
Lemma hframes_onC {X} t (m : M hcond X) : oframes (pC t) m -> hframes t (onC m).
Proof. intros H h. specialize (H (hC h)). unfold onC. destruct (m (hC h)) as [r st']. cbn [snd] in *. unfold HFr. cbn. auto 10 using OFrame_refl. Qed.
Lemma hframes_onO {X} t (m : M fsort X) : oframes (pO t) m -> hframes t (onO m).
Proof. intros H h. specialize (H (hO h)). unfold onO. destruct (m (hO h)) as [r st']. cbn [snd] in *. unfold HFr. cbn. auto 10 using OFrame_refl. Qed.
Lemma hframes_onJ {X} t (m : M joiner X) : oframes (pJ t) m -> hframes t (onJ m).
Proof. intros H h. specialize (H (hJ h)). unfold onJ. destruct (m (hJ h)) as [r st']. cbn [snd] in *. unfold HFr. cbn. auto 10 using OFrame_refl. Qed.
Lemma hframes_onV {X} t (m : M fvalue X) : oframes (pV t) m -> hframes t (onV m).
Proof. intros H h. specialize (H (hV h)). unfold onV. destruct (m (hV h)) as [r st']. cbn [snd] in *. unfold HFr. cbn. auto 10 using OFrame_refl. Qed.
Lemma hframes_onF {X} t (m : M fdef X) : oframes (pF t) m -> hframes t (onF m).
Proof. intros H h. specialize (H (hF h)). unfold onF. destruct (m (hF h)) as [r st']. cbn [snd] in *. unfold HFr. cbn. auto 10 using OFrame_refl. Qed.
Lemma oframes_alloc {A} o (d : A) xs : oframes o (m_alloc d xs).
Proof. intros st. apply OFrame_any. intros s. apply frames_alloc. Qed.
Lemma oframes_append {A} (d : A) pol s xs : oframes (Some s) (m_append d pol s xs).
Proof. intros st. apply frames_append. Qed.
Lemma oframes_lift {A X} o (r : res X) : @oframes A X o (lift r).
Proof. intros st. apply OFrame_refl. Qed.
Lemma oframes_new_group o j cs : oframes o (h_new_group j cs).
Proof. intros st. apply OFrame_any. intros s. apply frames_new_group. Qed.
Lemma oframes_spares {X} c (m : M hcond X) : spares c m -> oframes (slice_of c) m.
Proof. unfold spares, oframes, OFrame. destruct (slice_of c); intros H st; [apply H|intros s; apply H]. Qed.

(** a computation that works on freshly made slices leaves everything alone *)
Definition newer (h : heap) (t : slots) : Prop :=
  (forall s, pC t = Some s -> length (st_arrs (hC h)) <= sl_arr s) /\ (forall s, pO t = Some s -> length (st_arrs (hO h)) <= sl_arr s) /\
  (forall s, pJ t = Some s -> length (st_arrs (hJ h)) <= sl_arr s) /\ (forall s, pV t = Some s -> length (st_arrs (hV h)) <= sl_arr s) /\
  (forall s, pF t = Some s -> length (st_arrs (hF h)) <= sl_arr s).
Lemma OFrame_fresh {A} o t (a b c : store A) : OFrame o a b -> (forall s, t = Some s -> length (st_arrs a) <= sl_arr s) -> OFrame t b c -> OFrame o a c.
Proof.
  intros F N G. destruct t as [s0|].
  - destruct o as [s|]; cbn in *; [exact (Frame_fresh s0 s a b c F (N _ eq_refl) G)|]. intros s. exact (Frame_fresh s0 s a b c (F s) (N _ eq_refl) G).
  - cbn in G. apply (OFrame_trans o a b c F). now apply OFrame_any.
Qed.
Lemma HFr_fresh t t0 a b c : HFr t a b -> newer a t0 -> HFr t0 b c -> HFr t a c.
Proof.
  intros (A & B & C & D & E) (N1 & N2 & N3 & N4 & N5) (A' & B' & C' & D' & E').
  split; [exact (OFrame_fresh _ _ _ _ _ A N1 A')|]. split; [exact (OFrame_fresh _ _ _ _ _ B N2 B')|]. split; [exact (OFrame_fresh _ _ _ _ _ C N3 C')|].
  split; [exact (OFrame_fresh _ _ _ _ _ D N4 D')|exact (OFrame_fresh _ _ _ _ _ E N5 E')].
Qed.

(** * Calls *)
Section Calls.
  Variable pol : policy.
  Lemma join_frame (b : hbsel) t jt l r h : Frame (hb_joins b) (hJ h) (hJ (snd (h_join pol b t jt l r h))).
  Proof.
    unfold h_join, h_join_open, hbind, onJ, m_append, hret, h_on.
    set (x := {| j_right := t; j_type := jt; j_cond := zero_jcond |}).
    pose proof (append_frame zj pol (hJ h) (hb_joins b) [x]) as F.
    assert (L : sl_len (fst (append zj pol (hJ h) (hb_joins b) [x])) <= sl_len (hb_joins b) + 1 /\
      (sl_arr (fst (append zj pol (hJ h) (hb_joins b) [x])) = sl_arr (hb_joins b) /\ sl_len (fst (append zj pol (hJ h) (hb_joins b) [x])) = sl_len (hb_joins b) + 1
       \/ length (st_arrs (hJ h)) <= sl_arr (fst (append zj pol (hJ h) (hb_joins b) [x])))).
    { unfold append. destruct (_ <=? _); cbn [fst sl_len sl_arr alloc length]; [auto|]. split; [|right; lia].
      rewrite app_length. unfold read. rewrite firstn_length. cbn [length]. lia. }
    destruct (append zj pol (hJ h) (hb_joins b) [x]) as [s' st'] eqn:E. cbn [fst snd] in *. cbn [hb_joins hb_set_joins hJ].
    destruct (sl_len s') as [|i] eqn:Ls; cbn [snd hJ]; [exact F|].
    destruct F as [S F]. split; [exact S|]. intros k a Ek. destruct (F k a Ek) as (a' & Ea' & L1 & U1 & U2 & C1 & C2).
    unfold assign. cbn [st_arrs]. destruct (Nat.eq_dec k (sl_arr s')) as [->|N].
    - destruct L as [_ [[La Lb]|La]]; [|assert (sl_arr s' < length (st_arrs (hJ h))) by (apply nth_error_Some; congruence); lia].
      rewrite set_nth_same by (apply nth_error_Some; congruence). rewrite (the_arr_nth _ _ _ Ea'). eexists. split; [reflexivity|]. cbn [a_cells a_used].
      assert (Hi : i = sl_len (hb_joins b)) by lia.
      destruct (Nat.lt_ge_cases i (length (a_cells a'))) as [Hl|Hl].
      + rewrite set_nth_length by exact Hl. repeat split; auto; [congruence|]. rewrite <- C2. rewrite Hi in *. unfold set_nth.
        rewrite firstn_app, firstn_firstn, Nat.min_id, firstn_length, Nat.min_l by lia. rewrite Nat.sub_diag, firstn_O, app_nil_r. reflexivity.
      + exfalso. unfold append in E. destruct (_ <=? _) eqn:C in E.
        * apply Nat.leb_le in C. rewrite La in Ek. rewrite (the_arr_nth _ _ _ Ek) in C. cbn [length] in C. lia.
        * apply (f_equal fst) in E. cbn in E. rewrite <- E in Ek. cbn in Ek. assert (length (st_arrs (hJ h)) < length (st_arrs (hJ h))) by (apply nth_error_Some; congruence). lia.
    - exists a'. rewrite set_nth_other; [|exact N|apply nth_error_Some; congruence]. repeat split; auto.
  Qed.

  Hint Resolve hframes_ret hframes_lift hframes_onC hframes_onO hframes_onJ hframes_onV hframes_onF oframes_alloc oframes_append oframes_lift oframes_new_group : fr.
  Ltac hf := repeat first [apply hframes_bind; [solve [eauto with fr]|intros ?] | solve [eauto with fr]].
  Lemma fr_select t p : hframes t (h_select_from p). Proof. unfold h_select_from. hf. Qed.
  Lemma fr_zero t : hframes t h_zero_bsel. Proof. unfold h_zero_bsel. hf. Qed.
  Lemma fr_fields t b fs : hframes t (h_set_fields b fs). Proof. unfold h_set_fields. hf. Qed.
  Lemma fr_where t b cs : pC t = Some (hg_sl (hb_where b)) -> hframes t (h_add_where pol b cs).
  Proof. intros E. unfold h_add_where. apply hframes_bind; [apply hframes_onC; rewrite E; intros st; apply frames_add_conditions|]. intros g. hf. Qed.
  Lemma join_others b t jt l r h : let h' := snd (h_join pol b t jt l r h) in hC h' = hC h /\ hO h' = hO h /\ hV h' = hV h /\ hF h' = hF h.
  Proof.
    cbn zeta. unfold h_join, h_join_open, hbind, onJ, m_append, hret, h_on.
    destruct (append zj pol (hJ h) (hb_joins b) _) as [s' st']. cbn [hb_joins hb_set_joins]. destruct (sl_len s'); cbn; auto.
  Qed.
  Lemma fr_join q b t jt l r : pJ q = Some (hb_joins b) -> hframes q (h_join pol b t jt l r).
  Proof.
    intros E h. destruct (join_others b t jt l r h) as (E1 & E2 & E3 & E4). unfold HFr. rewrite E, E1, E2, E3, E4.
    split; [apply OFrame_refl|]. split; [apply OFrame_refl|]. split; [apply join_frame|]. split; apply OFrame_refl.
  Qed.
  Lemma fr_many t b : hframes t (h_many_of b). Proof. unfold h_many_of. hf. Qed.
  Lemma fr_order t m os : pO t = Some (hm_order m) -> hframes t (h_add_order pol m os).
  Proof. intros E. unfold h_add_order. apply hframes_bind; [apply hframes_onO; rewrite E; apply oframes_append|]. intros g. hf. Qed.
  Lemma fr_insert t p : hframes t (h_insert_into p). Proof. unfold h_insert_into. hf. Qed.
  Lemma fr_i_add t i vs : pV t = Some (hi_values i) -> hframes t (h_i_add pol i vs).
  Proof. intros E. unfold h_i_add. apply hframes_bind; [apply hframes_onV; rewrite E; apply oframes_append|]. intros g. hf. Qed.
  Lemma fr_update t p : hframes t (h_update_ p). Proof. unfold h_update_. hf. Qed.
  Lemma fr_u_add t u vs : pV t = Some (hu_values u) -> hframes t (h_u_add pol u vs).
  Proof. intros E. unfold h_u_add. apply hframes_bind; [apply hframes_onV; rewrite E; apply oframes_append|]. intros g. hf. Qed.
  Lemma fr_u_where t u cs : pC t = Some (hg_sl (hu_where u)) -> hframes t (h_u_where pol u cs).
  Proof. intros E. unfold h_u_where. apply hframes_bind; [apply hframes_onC; rewrite E; intros st; apply frames_add_conditions|]. intros g. hf. Qed.
  Lemma fr_delete t p : hframes t (h_delete_ p). Proof. unfold h_delete_. hf. Qed.
  Lemma fr_d_where t u cs : pC t = Some (hg_sl (hd_where u)) -> hframes t (h_d_where pol u cs).
  Proof. intros E. unfold h_d_where. apply hframes_bind; [apply hframes_onC; rewrite E; intros st; apply frames_add_conditions|]. intros g. hf. Qed.
  Lemma fr_conditions t g : hframes t (onC (h_conditions g)).
  Proof.
    apply hframes_onC. intros st. apply OFrame_any. intros s. unfold h_conditions. apply (frames_bind s); [apply frames_read|]. intros cs. apply frames_alloc.
  Qed.
  Lemma fr_read t s : hframes t (onC (m_read s)).
  Proof. apply hframes_onC. intros st. apply OFrame_refl. Qed.
  Lemma hframes_fresh {X Y} t (t0 : X -> slots) (m : HM X) (k : X -> HM Y) : (forall t, hframes t m) ->
    (forall h x, fst (m h) = Ok x -> newer h (t0 x)) -> (forall x, hframes (t0 x) (k x)) -> hframes t (hbind m k).
  Proof.
    intros F N K h. unfold hbind. specialize (F t h). specialize (N h). destruct (m h) as [[x|] h1]; cbn [fst snd] in *; [|exact F].
    exact (HFr_fresh t (t0 x) _ _ _ F (N x eq_refl) (K x h1)).
  Qed.
  Lemma alloc_len {A} (d : A) st xs : length (st_arrs (snd (m_alloc d xs st))) = S (length (st_arrs st)).
  Proof. cbn. rewrite app_length. cbn. lia. Qed.
  Lemma newer_update h p u : fst (h_update_ p h) = Ok u -> newer h (slots_of (XU u)).
  Proof.
    unfold h_update_, h_new_group, hbind, mbind, onC, onV, lift, m_alloc, ret, hret. cbn. intros E. injection E as <-. cbn.
    repeat split; cbn; intros s Es; try discriminate; injection Es as <-; cbn; lia.
  Qed.
  Lemma newer_delete h p u : fst (h_delete_ p h) = Ok u -> newer h (slots_of (XD u)).
  Proof.
    unfold h_delete_, h_new_group, hbind, mbind, onC, onV, lift, m_alloc, ret, hret. cbn. intros E. injection E as <-. cbn.
    repeat split; cbn; intros s Es; try discriminate; injection Es as <-; cbn; lia.
  Qed.
  Lemma newer_insert h p u : fst (h_insert_into p h) = Ok u -> newer h (slots_of (XI u)).
  Proof.
    unfold h_insert_into, hbind, onV, m_alloc, hret. cbn. intros E. injection E as <-. cbn.
    repeat split; cbn; intros s Es; try discriminate; injection Es as <-; cbn; lia.
  Qed.
  Lemma fr_to_update t tp b vs : hframes t (h_to_update pol tp b vs).
  Proof.
    unfold h_to_update. apply (hframes_fresh t (fun u => slots_of (XU u))); [intros; apply fr_update|intros h x; apply newer_update|]. intros u.
    apply hframes_bind; [apply fr_conditions|]. intros s. apply hframes_bind; [apply fr_read|]. intros cs.
    intros h. pose proof (fr_u_where (slots_of (XU u)) u cs eq_refl h) as F.
    unfold hbind. destruct (h_u_where pol u cs h) as [[u'|] h1] eqn:E.
    - unfold h_u_where, hbind, onC, hret in E. destruct (h_group_and pol (hu_where u) cs (hC h)) as [[g|] st']; [|discriminate]. injection E as <- <-.
      cbn [snd] in *. eapply HFr_trans; [exact F|]. apply fr_u_add. reflexivity.
    - unfold h_u_where, hbind, onC, hret in E. destruct (h_group_and pol (hu_where u) cs (hC h)) as [[g|] st']; [discriminate|]. injection E as <-. cbn [snd] in *. exact F.
  Qed.
  Lemma fr_to_delete t tp b : hframes t (h_to_delete pol tp b).
  Proof.
    unfold h_to_delete. apply (hframes_fresh t (fun u => slots_of (XD u))); [intros; apply fr_delete|intros h x; apply newer_delete|]. intros u.
    apply hframes_bind; [apply fr_conditions|]. intros s. apply hframes_bind; [apply fr_read|]. intros cs. now apply fr_d_where.
  Qed.
  Lemma fr_to_insert t b vs : hframes t (h_to_insert pol b vs).
  Proof.
    unfold h_to_insert. apply (hframes_fresh t (fun u => slots_of (XI u))); [intros; apply fr_insert|intros h x; apply newer_insert|]. intros u. now apply fr_i_add.
  Qed.

  (** the values a call is made on *)
  Definition receivers (o : op) : list nat :=
    match o with
    | OGroup _ xs | OJoinAll _ xs => xs
    | OToUpdate x _ | OToDelete x | OToInsert x _ => [x]
    | _ => consumed o
    end.
  Hint Resolve fr_select fr_zero fr_fields fr_many fr_insert fr_update fr_delete fr_to_update fr_to_delete fr_to_insert : fr.
  Lemma cond_at_look env x c v : hcond_at env x = Ok c -> look env x = Ok v -> v = XC c.
  Proof. unfold hcond_at. intros H E. rewrite E in H. cbn in H. destruct v; congruence. Qed.
  Lemma hframes_res {X Y} t (r : res X) (k : X -> HM Y) : (forall x, r = Ok x -> hframes t (k x)) -> hframes t (hbind (hlift r) k).
  Proof. intros K. destruct r; [now apply K|]. intros h. apply HFr_refl. Qed.
  Lemma step_frames env o x v : In x (receivers o) -> look env x = Ok v -> hframes (slots_of v) (hstep pol env o).
  Proof.
    intros I E.
    assert (RC : forall t (m : M hcond hcond), oframes (pC t) m -> hframes t (act c <- onC m; hret (XC c))).
    { intros t m F. apply hframes_bind; [now apply hframes_onC|]. intros c. apply hframes_ret. }
    Ltac one I E := destruct I as [->|[]]; apply hframes_res; let w := fresh "w" in let Ew := fresh "Ew" in intros w Ew; rewrite E in Ew; injection Ew as <-.
    Ltac onec I E := destruct I as [->|[]]; apply hframes_res; let c := fresh "c" in let Ec := fresh "Ec" in intros c Ec; rewrite (cond_at_look _ _ _ _ Ec E).
    destruct o; cbn [receivers consumed] in I; cbn [hstep]; try (now destruct I).
    - hf.
    - apply hframes_bind; [hf|]. intros cs. apply RC. destruct cs as [|c [|d cs]]; cbn [h_jt_join]; try apply oframes_lift.
      intros st. apply OFrame_any. intros s. apply (frames_bind s); [apply frames_new_group|]. intros g. apply frames_ret.
    - onec I E. apply RC. apply oframes_lift.
    - onec I E. apply RC. apply oframes_lift.
    - onec I E. destruct (as_hgroup c); hf.
    - onec I E. apply hframes_bind; [hf|]. intros cs. apply RC. apply oframes_spares, spares_and.
    - onec I E. apply hframes_bind; [hf|]. intros cs. apply RC. apply oframes_spares, spares_or.
    - onec I E. apply hframes_bind; [hf|]. intros cs. apply RC. apply oframes_spares, spares_m_and.
    - onec I E. apply hframes_bind; [hf|]. intros cs. apply RC. apply oframes_spares, spares_m_or.
    - one I E. destruct v; hf.
    - one I E. destruct v; hf.
    - one I E. apply hframes_bind; [hf|]. intros cs. destruct v; try apply hframes_lift; (apply hframes_bind; [|intros b'; apply hframes_ret]);
        first [now apply fr_where|now apply fr_u_where|now apply fr_d_where].
    - one I E. destruct v; try apply hframes_lift. apply hframes_bind; [now apply fr_join|]. hf.
    - one I E. destruct v; try apply hframes_lift; (apply hframes_bind; [hf|]; intros tt; apply hframes_bind; [now apply fr_join|hf]).
    - one I E. destruct v; hf.
    - one I E. destruct v; hf.
    - one I E. destruct v; hf.
    - one I E. destruct v; try apply hframes_lift. apply hframes_bind; [now apply fr_order|hf].
    - one I E. destruct v; hf.
    - one I E. destruct v; hf.
    - one I E. destruct v; try apply hframes_lift. apply hframes_bind; [now apply fr_i_add|hf].
    - one I E. destruct v; try apply hframes_lift. apply hframes_bind; [now apply fr_u_add|hf].
    - one I E. destruct v; hf.
    - one I E. destruct v; hf.
    - one I E. destruct v; hf.
  Qed.
End Calls.

(** * What a framed value says *)
Lemma any_den {A} (st : store A) s : WFA st -> okS st s -> DenL st s (read st s).
Proof. intros W (a & E & L). exists a. destruct (W _ _ E) as [U _]. repeat split; auto. unfold read. now rewrite (the_arr_nth _ _ _ E). Qed.
Lemma frame_read {A} (st st' : store A) s : WFA st -> okS st s -> Frame s st st' -> read st' s = read st s.
Proof.
  intros W O F. apply (DenL_read st'). apply (DenL_frame s st); [exact F|now apply any_den|auto].
Qed.
Lemma clause_finite h g fuel n r : WFC (hC h) -> okG (hC h) g -> h_clause fuel h g n = Some (Ok r) -> exists p, RepG (hC h) g p.
Proof.
  intros W O E. unfold h_clause in E. destruct (h_render fuel (hC h) (of_hg g) n) as [[w|]|] eqn:Er; try discriminate.
  destruct (render_finite _ W fuel (of_hg g) n w O Er) as [t T]. pose proof T as T'. destruct t as [|l|j ng cs br]; try (now destruct T').
  exists (mkG j ng cs br). now apply RepG_of.
Qed.
Lemma clause_same h h' g p : RepG (hC h) g p -> RepG (hC h') g p -> forall fuel n, h_clause fuel h' g n = h_clause fuel h g n.
Proof.
  intros R R' fuel n. apply RepG_of in R. apply RepG_of in R'. unfold h_clause.
  now rewrite (render_same _ _ fuel _ _ _ n R' R), (values_same _ _ fuel _ _ _ R' R).
Qed.
(** the clause of a where group that renders is the same after a framed change *)
Lemma clause_framed h h' g : WFC (hC h) -> okG (hC h) g -> Frame (hg_sl g) (hC h) (hC h') ->
  (exists fuel n r, h_clause fuel h g n = Some (Ok r)) -> forall fuel n, h_clause fuel h' g n = h_clause fuel h g n.
Proof.
  intros W O F (f & n & r & E). destruct (clause_finite _ _ _ _ _ W O E) as [p R]. apply (clause_same h h' g p R). exact (RepG_frame _ _ _ _ F R).
Qed.
Lemma flat_framed h h' b : WFH h -> okB h b -> HFr (slots_b b) h h' -> flat h' b = flat h b.
Proof.
  intros (_ & _ & W3 & _ & W5) (O1 & O2 & _) (_ & _ & F3 & _ & F5). unfold flat. now rewrite (frame_read _ _ _ W3 O1 F3), (frame_read _ _ _ W5 O2 F5).
Qed.
Lemma with_clause_ok c k o : with_clause c k = Some (Ok o) -> exists r, c = Some (Ok r).
Proof. destruct c as [[[w vs]|]|]; cbn; try discriminate. eauto. Qed.
Lemma b_build_framed h h' b : WFH h -> okB h b -> HFr (slots_b b) h h' -> (exists fuel o, h_b_build fuel h b = Some (Ok o)) ->
  forall fuel, h_b_build fuel h' b = h_b_build fuel h b.
Proof.
  intros W O F (f & o & E) fuel. unfold h_b_build in *. rewrite (flat_framed h h' b W O F). destruct (_ =? 0); [reflexivity|].
  rewrite (clause_framed h h' (hb_where b)); [reflexivity|apply W|apply O|apply F|]. apply with_clause_ok in E. destruct E as [r E]. eauto.
Qed.
Lemma omap_ok {X Y} (f : X -> Y) x y : omap f x = Some (Ok y) -> exists z, x = Some (Ok z).
Proof. destruct x as [[z|]|]; cbn; try discriminate. eauto. Qed.
Theorem says_framed v h h' : WFH h -> okV h v -> HFr (slots_of v) h h' -> (exists fuel o, hsays v h fuel = Some (Ok o)) ->
  forall fuel, hsays v h' fuel = hsays v h fuel.
Proof.
  intros W O F (f & o & E) fuel. destruct v; cbn [hsays okV slots_of] in *.
  - destruct (h_render f (hC h) c 0) as [[w|]|] eqn:Er; [| |discriminate].
    2: { destruct (h_values f (hC h) c) as [[]|]; discriminate. }
    destruct (render_finite _ (proj1 W) f c 0 w O Er) as [t T]. destruct F as (F & _).
    assert (T' : Rep (hC h') c t).
    { destruct c as [|l|j n s br].
      - destruct t; cbn in *; auto.
      - destruct t; cbn in *; auto.
      - destruct t as [|l|j' n' cs br']; try (now destruct T). pose proof T as T0. apply Rep_grp in T0. destruct T0 as (s0 & hs & E0 & _). injection E0 as -> -> -> ->.
        apply (RepG_of (hC h') (mkHG j' n' s0 br') (mkG j' n' cs br')). apply (RepG_frame (hC h)); [exact F|]. now apply RepG_of. }
    now rewrite (render_same _ _ fuel t c c 0 T' T), (values_same _ _ fuel t c c T' T).
  - apply b_build_framed; eauto.
  - unfold h_m_build in *. apply omap_ok in E. destruct E as [z E]. destruct O as [O1 O2].
    assert (F' : HFr (slots_b (hm_base m)) h h' \/ True) by now right. clear F'.
    destruct F as (F1 & F2 & F3 & F4 & F5). rewrite (frame_read (hO h) (hO h') (hm_order m)); [|apply W|exact O2|exact F2]. f_equal.
    assert (B : h_b_build fuel h' (hm_base m) = h_b_build fuel h (hm_base m)); [|exact B].
    unfold h_b_build in *.
    assert (Fl : flat h' (hm_base m) = flat h (hm_base m)).
    { unfold flat. destruct W as (_ & _ & W3 & _ & W5). destruct O1 as (Q1 & Q2 & _). now rewrite (frame_read _ _ _ W3 Q1 F3), (frame_read _ _ _ W5 Q2 F5). }
    rewrite Fl. destruct (_ =? 0); [reflexivity|]. rewrite (clause_framed h h' (hb_where (hm_base m))); [reflexivity|apply W|apply O1|exact F1|].
    apply with_clause_ok in E. destruct E as [r E]. eauto.
  - unfold h_ss_build in *. apply omap_ok in E. destruct E as [z E]. f_equal. apply b_build_framed; eauto.
  - unfold h_cs_build in *. cbv zeta in *. rewrite (flat_framed h h' (hcs_base c) W O F). destruct (_ =? 0); [reflexivity|].
    rewrite (clause_framed h h' (hb_where (hcs_base c))); [reflexivity|apply W|apply O|apply F|]. apply with_clause_ok in E. destruct E as [r E]. eauto.
  - unfold h_i_build. f_equal. f_equal. f_equal. apply frame_read; [apply W|exact O|apply F].
  - unfold h_u_build in *. cbv zeta in *. destruct O as [O1 O2]. rewrite (frame_read (hV h) (hV h') (hu_values u)); [|apply W|exact O2|apply F].
    destruct (_ =? 0); [reflexivity|]. destruct (negb _); [reflexivity|]. destruct (is_empty _); [reflexivity|]. destruct (fields_and_values _) as [[sets params]|]; [|reflexivity].
    rewrite (clause_framed h h' (hu_where u)); [reflexivity|apply W|exact O1|apply F|]. apply with_clause_ok in E. destruct E as [r E]. eauto.
  - unfold h_d_build in *. destruct (_ =? 0); [reflexivity|]. destruct (is_empty _); [reflexivity|].
    rewrite (clause_framed h h' (hd_where d)); [reflexivity|apply W|exact O|apply F|]. apply with_clause_ok in E. destruct E as [r E]. eauto.
Qed.
(** in every reachable state every call leaves what its receiver says as it was *)
Theorem receiver_kept pol ops o x v : let '(env, h) := hrun pol ops [] empty_heap in
  In x (receivers o) -> look env x = Ok v -> (exists fuel out, hsays v h fuel = Some (Ok out)) ->
  forall fuel, hsays v (snd (hstep pol env o h)) fuel = hsays v h fuel.
Proof.
  pose proof (reach_good pol ops) as G. destruct (hrun pol ops [] empty_heap) as [env h]. cbn [fst snd] in G. destruct G as [W F].
  intros I E S. apply says_framed; [exact W|eapply okR_look; eauto| |exact S]. exact (step_frames pol env o x v I E h).
Qed.
