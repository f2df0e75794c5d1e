(** Every slice that occurs in a reachable memory state is in range, and a value that
    renders denotes a finite tree. *)
From Coq Require Import String Ascii List Bool Arith NArith ZArith Lia.
From Verif Require Import GoStr Value Names Cond Build Heap HeapFacts HeapOps HeapBuild HeapRun.
Import ListNotations.
Local Open Scope string_scope.
Local Open Scope nat_scope.

(** * Stores *)
Definition okS {A} (st : store A) (s : slice) : Prop :=
  exists a, nth_error (st_arrs st) (sl_arr s) = Some a /\ sl_len s <= a_used a.
Definition Mono {A} (st st' : store A) : Prop :=
  forall i a, nth_error (st_arrs st) i = Some a -> exists a', nth_error (st_arrs st') i = Some a' /\ a_used a <= a_used a'.
Lemma Mono_refl {A} (st : store A) : Mono st st.
Proof. intros i a E. eauto. Qed.
Lemma Mono_trans {A} (a b c : store A) : Mono a b -> Mono b c -> Mono a c.
Proof. intros H K i x E. destruct (H i x E) as (y & Ey & L). destruct (K i y Ey) as (z & Ez & L'). exists z. split; [exact Ez|lia]. Qed.
Lemma okS_mono {A} (st st' : store A) s : Mono st st' -> okS st s -> okS st' s.
Proof. intros M (a & E & L). destruct (M _ _ E) as (b & Eb & Lb). exists b. split; [exact Eb|lia]. Qed.
Lemma Frame_mono {A} s (st st' : store A) : Frame s st st' -> Mono st st'.
Proof. intros [_ F] i a E. destruct (F i a E) as (b & Eb & _ & L & _). eauto. Qed.

Section Store.
  Context {A : Type} (okE : store A -> A -> Prop).
  Hypothesis okE_mono : forall st st' x, Mono st st' -> okE st x -> okE st' x.
  Definition WF (st : store A) : Prop :=
    forall i a, nth_error (st_arrs st) i = Some a -> a_used a <= length (a_cells a) /\ Forall (okE st) (a_cells a).
  Definition good {X} (st : store A) (ok : store A -> X -> Prop) (m : M A X) : Prop :=
    WF (snd (m st)) /\ Mono st (snd (m st)) /\ match fst (m st) with Ok x => ok (snd (m st)) x | Panic => True end.

  Lemma good_ret {X} st (ok : store A -> X -> Prop) x : WF st -> ok st x -> good st ok (ret x).
  Proof. intros W O. split; [exact W|]. split; [apply Mono_refl|exact O]. Qed.
  Lemma good_lift {X} st (ok : store A -> X -> Prop) r : WF st -> (forall x, r = Ok x -> ok st x) -> good st ok (lift r).
  Proof. intros W O. split; [exact W|]. split; [apply Mono_refl|]. cbn. destruct r; auto. Qed.
  Lemma good_bind {X Y} st ok (ok' : store A -> Y -> Prop) (m : M A X) k : good st ok m ->
    (forall x st', WF st' -> Mono st st' -> ok st' x -> good st' ok' (k x)) -> good st ok' (mbind m k).
  Proof.
    unfold good, mbind. intros (W & Mo & O) K. destruct (m st) as [[x|] st1]; cbn [fst snd] in *; [|auto].
    destruct (K x st1 W Mo O) as (W' & M' & O'). split; [exact W'|]. split; [exact (Mono_trans _ _ _ Mo M')|exact O'].
  Qed.
  Lemma good_weaken {X} st (ok ok' : store A -> X -> Prop) m : (forall st' x, Mono st st' -> ok st' x -> ok' st' x) -> good st ok m -> good st ok' m.
  Proof. intros I (W & Mo & O). split; [exact W|]. split; [exact Mo|]. destruct (fst (m st)); auto. Qed.

  Lemma okE_all st st' xs : Mono st st' -> Forall (okE st) xs -> Forall (okE st') xs.
  Proof. intros Mo. apply Forall_impl. intros x. now apply okE_mono. Qed.
  Lemma WF_alloc d st xs n : WF st -> (forall st, okE st d) -> Forall (okE st) xs -> WF (snd (alloc d st xs n)).
  Proof.
    intros W Od Ox i a E. pose proof (Frame_mono _ _ _ (alloc_frame d (mkSl 0 0) st xs n)) as Mo.
    cbn [alloc snd st_arrs] in E. destruct (Nat.lt_ge_cases i (length (st_arrs st))) as [L|L].
    - rewrite nth_error_app1 in E by exact L. destruct (W i a E) as [U F]. split; [exact U|]. now apply (okE_all st).
    - rewrite nth_error_app2 in E by exact L. destruct (i - length (st_arrs st)) as [|k]; cbn in E; [|now destruct k].
      injection E as <-. cbn [a_used a_cells]. split; [rewrite app_length; lia|]. apply Forall_app. split; [now apply (okE_all st)|].
      generalize (snd (alloc d st xs n)). intros st1. clear -Od. induction n; cbn; constructor; auto.
  Qed.
  Lemma alloc_okS d (st : store A) xs n : okS (snd (alloc d st xs n)) (fst (alloc d st xs n)).
  Proof.
    destruct (alloc_den d st xs n) as (a & E & L & _). exists a. auto.
  Qed.
  Lemma good_alloc d st xs : WF st -> (forall st, okE st d) -> Forall (okE st) xs -> good st okS (m_alloc d xs).
  Proof.
    intros W Od Ox. pose proof (WF_alloc d st xs 0 W Od Ox) as W'. pose proof (alloc_okS d st xs 0) as O.
    pose proof (Frame_mono _ _ _ (alloc_frame d (mkSl 0 0) st xs 0)) as Mo. unfold good, m_alloc. destruct (alloc d st xs 0). cbn in *. auto.
  Qed.
  Lemma firstn_Forall {X} (P : X -> Prop) n l : Forall P l -> Forall P (firstn n l).
  Proof. intros H. revert n. induction H; intros [|n]; cbn; constructor; auto. Qed.
  Lemma skipn_Forall {X} (P : X -> Prop) n l : Forall P l -> Forall P (skipn n l).
  Proof. intros H. revert n. induction H; intros [|n]; cbn; try constructor; auto. Qed.
  Lemma nth_error_set_nth {X} n (x : X) l i y : n < length l -> nth_error (set_nth n x l) i = Some y -> i = n /\ y = x \/ i <> n /\ nth_error l i = Some y.
  Proof.
    intros L E. destruct (Nat.eq_dec i n) as [->|N]; [left; rewrite set_nth_same in E by exact L; split; congruence|right].
    split; [exact N|]. rewrite set_nth_other in E; auto.
    assert (i < length (set_nth n x l)) by (apply nth_error_Some; congruence). now rewrite set_nth_length in H.
  Qed.
  Lemma read_ok st s : WF st -> okS st s -> Forall (okE st) (read st s).
  Proof. intros W (a & E & L). unfold read. rewrite (the_arr_nth _ _ _ E). apply firstn_Forall. now apply (W _ a E). Qed.
  Lemma good_append d pol st s xs : WF st -> (forall st, okE st d) -> okS st s -> Forall (okE st) xs -> good st okS (m_append d pol s xs).
  Proof.
    intros W Od Os Ox. unfold good, m_append. pose proof (Frame_mono _ _ _ (append_frame d pol st s xs)) as Mo.
    enough (H : WF (snd (append d pol st s xs)) /\ okS (snd (append d pol st s xs)) (fst (append d pol st s xs))) by (destruct (append d pol st s xs); cbn in *; tauto).
    revert Mo. unfold append. destruct (_ <=? _) eqn:C.
    - intros Mo. apply Nat.leb_le in C. destruct Os as (a & E & L). rewrite (the_arr_nth _ _ _ E) in *. cbn [fst snd] in *. split.
      + intros i b Eb. cbn [st_arrs] in Eb. apply nth_error_set_nth in Eb; [|apply nth_error_Some; congruence].
        destruct Eb as [[-> ->]|[N Eb]]; cbn [a_used a_cells].
        * split; [rewrite write_at_length by exact C; destruct (W _ _ E); lia|]. apply (okE_all _ _ _ Mo). destruct (W _ _ E) as [_ Fa]. unfold write_at.
          apply Forall_app. split; [now apply firstn_Forall|]. apply Forall_app. split; [exact Ox|now apply skipn_Forall].
        * destruct (W _ _ Eb) as [U F]. split; [exact U|]. now apply (okE_all _ _ _ Mo).
      + eexists. cbn [st_arrs sl_arr sl_len]. rewrite set_nth_same by (apply nth_error_Some; congruence). split; [reflexivity|]. cbn. lia.
    - intros Mo. split; [|apply alloc_okS]. apply WF_alloc; auto. apply Forall_app. split; [|exact Ox]. now apply read_ok.
  Qed.
  Lemma WF_assign st s i x : WF st -> okS st s -> i < sl_len s -> okE st x -> WF (assign st s i x) /\ Mono st (assign st s i x).
  Proof.
    intros W (a & E & L) Li Ox. unfold assign. rewrite (the_arr_nth _ _ _ E).
    assert (B : sl_arr s < length (st_arrs st)) by (apply nth_error_Some; congruence).
    assert (Mo : Mono st (mkSt (set_nth (sl_arr s) (mkA (set_nth i x (a_cells a)) (a_used a)) (st_arrs st)) (st_stale st))).
    { intros k b Eb. cbn [st_arrs]. destruct (Nat.eq_dec k (sl_arr s)) as [->|N].
      - eexists. rewrite set_nth_same by exact B. split; [reflexivity|]. cbn. replace a with b by congruence. lia.
      - exists b. rewrite set_nth_other; auto. apply nth_error_Some. congruence. }
    split; [|exact Mo]. destruct (W _ _ E) as [U Fa]. intros k b Eb. cbn [st_arrs] in Eb. apply nth_error_set_nth in Eb; [|exact B].
    destruct Eb as [[-> ->]|[N Eb]]; cbn [a_used a_cells].
    - rewrite set_nth_length by lia. split; [exact U|]. apply (okE_all _ _ _ Mo). unfold set_nth. apply Forall_app. split; [now apply firstn_Forall|]. constructor; [exact Ox|now apply skipn_Forall].
    - destruct (W _ _ Eb) as [U' F]. split; [exact U'|]. now apply (okE_all _ _ _ Mo).
  Qed.
End Store.

(** conditions *)
Definition okC (st : store hcond) (c : hcond) : Prop := match slice_of c with Some s => okS st s | None => True end.
Lemma okC_mono st st' c : Mono st st' -> okC st c -> okC st' c.
Proof. unfold okC. destruct (slice_of c); [apply okS_mono|auto]. Qed.
Definition okAny {A} (st : store A) (x : A) : Prop := True.
Lemma okAny_mono {A} (st st' : store A) x : Mono st st' -> okAny st x -> okAny st' x.
Proof. auto. Qed.
Notation WFC := (WF okC).
Notation WFA := (WF okAny).
Definition okG (st : store hcond) (g : hgroup) : Prop := okS st (hg_sl g).
Definition okCs (st : store hcond) (cs : list hcond) : Prop := Forall (okC st) cs.
Lemma okCs_mono st st' cs : Mono st st' -> okCs st cs -> okCs st' cs.
Proof. intros Mo. apply Forall_impl. intros c. now apply okC_mono. Qed.
Lemma okG_mono st st' g : Mono st st' -> okG st g -> okG st' g.
Proof. apply okS_mono. Qed.
Lemma any_all {A} (st : store A) xs : Forall (okAny st) xs.
Proof. induction xs; constructor; auto. exact I. Qed.

Section Cond.
  Variable pol : policy.
  Lemma okC_cjoin st j c c' : okC st c -> h_cjoin j c = Ok c' -> okC st c'.
  Proof. intros O E. destruct c; cbn in E; try discriminate; injection E as <-; exact O. Qed.
  Lemma okC_negate st b c c' : okC st c -> h_negate b c = Ok c' -> okC st c'.
  Proof. intros O E. destruct c; cbn in E; try discriminate; injection E as <-; exact O. Qed.
  Lemma okCs_cjoin st j cs cs' : okCs st cs -> mapM (h_cjoin j) cs = Ok cs' -> okCs st cs'.
  Proof.
    intros O. revert cs'. induction O as [|c cs Oc O IH]; cbn [mapM]; intros cs' E; [injection E as <-; constructor|].
    destruct (h_cjoin j c) as [c'|] eqn:Ec; [|discriminate]. cbn [bind] in E. destruct (mapM (h_cjoin j) cs); [|discriminate]. cbn in E. injection E as <-.
    constructor; [eapply okC_cjoin; eauto|now apply IH].
  Qed.
  Notation good := (good okC).
  Lemma good_app_to st g xs : WFC st -> okG st g -> okCs st xs -> good st okG (app_to pol g xs).
  Proof.
    intros W G O. unfold app_to. eapply good_bind; [apply (good_append okC okC_mono); auto; intros; exact I|]. intros s st' W' Mo Os. now apply good_ret.
  Qed.
  Lemma good_app_new st g x xs : WFC st -> okC st x -> okCs st xs -> good st okG (app_new pol g x xs).
  Proof.
    intros W Ox O. unfold app_new. eapply good_bind; [apply (good_alloc okC okC_mono); auto; intros; exact I|]. intros s st' W' Mo Os.
    eapply good_bind; [apply (good_append okC okC_mono); auto; [intros; exact I|now apply (okCs_mono st)]|]. intros s2 st2 W2 Mo2 Os2. now apply good_ret.
  Qed.
  Lemma good_put_new st g xs : WFC st -> okCs st xs -> good st okG (put_new g xs).
  Proof.
    intros W O. unfold put_new. eapply good_bind; [apply (good_alloc okC okC_mono); auto; intros; exact I|]. intros s st' W' Mo Os. now apply good_ret.
  Qed.
  Lemma good_new_group st j cs : WFC st -> okCs st cs -> good st okG (h_new_group j cs).
  Proof.
    intros W O. unfold h_new_group. eapply (good_bind _ _ okCs); [apply good_lift; [exact W|]; intros xs; now apply okCs_cjoin|]. intros xs st1 W1 Mo1 O1.
    eapply good_bind; [apply (good_alloc okC okC_mono); auto; intros; exact I|]. intros s st' W' Mo Os. now apply good_ret.
  Qed.
  (** reads and pure tests *)
  Lemma good_read st s : WFC st -> okS st s -> good st okCs (m_read s).
  Proof. intros W O. split; [exact W|]. split; [apply Mono_refl|]. cbn. now apply read_ok. Qed.
  Lemma good_test {X Y} st (r : res X) (k : X -> M hcond Y) ok : WFC st -> (forall x, good st ok (k x)) -> good st ok (mbind (lift r) k).
  Proof. intros W K. destruct r; [apply K|]. split; [exact W|]. split; [apply Mono_refl|exact I]. Qed.
  Lemma good_cjoin {Y} st j c (k : hcond -> M hcond Y) ok : WFC st -> okC st c -> (forall x, okC st x -> good st ok (k x)) -> good st ok (mbind (lift (h_cjoin j c)) k).
  Proof.
    intros W O K. destruct (h_cjoin j c) eqn:E; [apply K; eapply okC_cjoin; eauto|]. split; [exact W|]. split; [apply Mono_refl|exact I].
  Qed.
  Lemma good_reads {Y} st s (k : list hcond -> M hcond Y) ok : WFC st -> okS st s -> (forall cs, okCs st cs -> good st ok (k cs)) -> good st ok (mbind (m_read s) k).
  Proof. intros W O K. apply K. now apply read_ok. Qed.
  Lemma okC_brackets st g : okG st g -> okC st (of_hg (hg_brackets g)).
  Proof. auto. Qed.
  Lemma okCs_one st c : okC st c -> okCs st [c].
  Proof. intros O. constructor; [exact O|constructor]. Qed.
  Lemma okCs_two st c d : okC st c -> okC st d -> okCs st [c; d].
  Proof. intros O O'. constructor; [exact O|]. now apply okCs_one. Qed.
  Hint Resolve good_app_to good_app_new good_put_new okC_brackets okCs_one okCs_two : gd.
  Ltac gd := repeat first
    [ match goal with |- good _ _ (mbind (lift (h_cjoin _ _)) _) => apply good_cjoin; [eauto with gd|eauto with gd|intros ? ?] end
    | match goal with |- good _ _ (mbind (lift _) _) => apply good_test; [eauto with gd|intros ?] end
    | match goal with |- good _ _ (if ?b then _ else _) => destruct b end
    | match goal with |- good _ _ (ret _) => apply good_ret; auto end
    | solve [eauto 6 with gd] ].
  Lemma good_add_group st g another : WFC st -> okG st g -> okG st another -> good st okG (h_add_group pol g another).
  Proof.
    intros W G G'. unfold h_add_group. apply good_reads; [auto|exact G|]. intros cs O. apply good_reads; [auto|exact G'|]. intros acs O'. cbv zeta. gd.
  Qed.
  Lemma good_set_join st m op : good st okG m -> good st okG (run g' <- m; ret (hg_set_join g' op)).
  Proof. intros H. eapply good_bind; [exact H|]. intros x st' W Mo O. now apply good_ret. Qed.
  Lemma good_add_single st g c : WFC st -> okG st g -> okC st c -> good st okG (h_add_single pol g c).
  Proof.
    intros W G O. unfold h_add_single. apply good_reads; [auto|exact G|]. intros cs Os. cbv zeta. do 3 (apply good_test; [auto|intros ?]).
    destruct (as_hgroup c) as [g'|] eqn:E.
    - apply good_add_group; auto. destruct c; try discriminate. injection E as <-. exact O.
    - destruct (length cs =? 0); [apply good_set_join; auto with gd|]. gd.
  Qed.
  Lemma good_add_conditions st op g cs : WFC st -> okG st g -> okCs st cs -> good st okG (h_add_conditions pol op g cs).
  Proof.
    intros W G O. unfold h_add_conditions. apply good_reads; [auto|exact G|]. intros hs Os. do 2 (apply good_test; [auto|intros ?]).
    destruct cs as [|c0 rest]; [now apply good_ret|]. destruct hs as [|h hs]; [apply good_set_join; auto with gd|].
    destruct rest as [|c1 rest].
    - apply good_cjoin; [auto|now inversion O|]. intros c Oc. now apply good_add_single.
    - destruct (_ && _); [gd|]. destruct (_ && _).
      + eapply good_bind; [now apply good_new_group|]. intros ng st' W' Mo Gn. apply good_cjoin; [auto|exact Gn|]. intros c Oc.
        apply good_app_to; auto with gd. now apply (okG_mono st).
      + eapply good_bind; [now apply good_new_group|]. intros ng st' W' Mo Gn. apply good_app_new; auto with gd. apply okC_brackets. now apply (okG_mono st).
  Qed.
  Lemma good_of_g st m : good st okG m -> good st okC (run r <- m; ret (of_hg r)).
  Proof. intros H. eapply good_bind; [exact H|]. intros x st' W Mo O. now apply good_ret. Qed.
  Lemma good_jt_join st j cs : WFC st -> okCs st cs -> good st okC (h_jt_join j cs).
  Proof.
    intros W O. destruct cs as [|c [|d cs]]; cbn [h_jt_join].
    - apply good_lift; [auto|discriminate].
    - apply good_lift; [auto|]. intros x. apply okC_cjoin. now inversion O.
    - apply good_of_g. now apply good_new_group.
  Qed.
  Lemma good_extend st op m cs : okCs st cs -> good st okG m -> good st okC (run g <- m; run r <- h_add_conditions pol op g cs; ret (of_hg r)).
  Proof.
    intros O H. eapply good_bind; [exact H|]. intros g st' W Mo G. apply good_of_g. apply good_add_conditions; auto. now apply (okCs_mono st).
  Qed.
  Lemma good_start st j c : WFC st -> okC st c -> good st okG (h_start j c).
  Proof.
    intros W O. destruct c; cbn [h_start as_hgroup]; [apply good_new_group| |]; auto with gd; [apply good_new_group; auto with gd|now apply good_ret].
  Qed.
  Lemma good_and st c cs : WFC st -> okC st c -> okCs st cs -> good st okC (h_and pol c cs).
  Proof.
    intros W O Os. destruct cs; [apply good_jt_join; auto with gd|]. apply good_extend; [exact Os|]. now apply good_start.
  Qed.
  Lemma good_or st c cs : WFC st -> okC st c -> okCs st cs -> good st okC (h_or pol c cs).
  Proof.
    intros W O Os. destruct cs as [|c0 cs]; [apply good_jt_join; auto with gd|]. unfold h_or. eapply good_bind; [now apply good_start|].
    intros g st' W' Mo G. eapply good_bind; [apply good_add_conditions; auto; now apply (okCs_mono st)|]. intros r st2 W2 Mo2 G2. apply good_jt_join; auto with gd.
  Qed.
  Lemma good_m_and st c cs : WFC st -> okC st c -> okCs st cs -> good st okC (h_m_and pol c cs).
  Proof.
    intros W O Os. destruct c as [|l|j n s br]; cbn [h_m_and].
    - apply good_lift; [auto|discriminate].
    - destruct (l_kind l); first [now apply good_and|apply good_extend; [exact Os|]; apply good_new_group; auto with gd].
    - apply good_of_g. now apply good_add_conditions.
  Qed.
  Lemma good_m_or st c cs : WFC st -> okC st c -> okCs st cs -> good st okC (h_m_or pol c cs).
  Proof.
    intros W O Os. destruct c as [|l|j n s br]; cbn [h_m_or].
    - apply good_lift; [auto|discriminate].
    - destruct (l_kind l); first [now apply good_or|apply good_extend; [exact Os|]; apply good_new_group; solve [auto with gd]|idtac].
      eapply good_bind; [apply good_new_group; [auto|apply okCs_one; exact I]|]. intros g st1 W1 M1 G1.
      eapply good_bind; [apply good_add_conditions; auto; apply okCs_one; exact I|]. intros g2 st2 W2 M2 G2.
      apply good_of_g. apply good_add_conditions; auto. apply (okCs_mono st); [exact (Mono_trans _ _ _ M1 M2)|exact Os].
    - apply good_of_g. now apply good_add_conditions.
  Qed.
  Lemma good_conditions st g : WFC st -> okG st g -> good st okS (h_conditions g).
  Proof. intros W G. unfold h_conditions. apply good_reads; [auto|exact G|]. intros cs O. apply (good_alloc okC okC_mono); auto. intros; exact I. Qed.
End Cond.

(** * The heap *)
Definition WFH (h : heap) : Prop := WFC (hC h) /\ WFA (hO h) /\ WFA (hJ h) /\ WFA (hV h) /\ WFA (hF h).
Definition HMono (h h' : heap) : Prop := Mono (hC h) (hC h') /\ Mono (hO h) (hO h') /\ Mono (hJ h) (hJ h') /\ Mono (hV h) (hV h') /\ Mono (hF h) (hF h').
Lemma HMono_refl h : HMono h h.
Proof. unfold HMono. auto 10 using Mono_refl. Qed.
Lemma HMono_trans a b c : HMono a b -> HMono b c -> HMono a c.
Proof. intros (A & B & C & D & E) (A' & B' & C' & D' & E'). unfold HMono. eauto 10 using Mono_trans. Qed.
Definition okB (h : heap) (b : hbsel) : Prop := okS (hJ h) (hb_joins b) /\ okS (hF h) (hb_fields b) /\ okG (hC h) (hb_where b).
Definition okM (h : heap) (m : hmsel) : Prop := okB h (hm_base m) /\ okS (hO h) (hm_order m).
Definition okI (h : heap) (i : hins) : Prop := okS (hV h) (hi_values i).
Definition okU (h : heap) (u : hupd) : Prop := okG (hC h) (hu_where u) /\ okS (hV h) (hu_values u).
Definition okD (h : heap) (d : hdel) : Prop := okG (hC h) (hd_where d).
Definition okV (h : heap) (v : hval) : Prop :=
  match v with
  | XC c => okC (hC h) c
  | XB b => okB h b
  | XM m => okM h m
  | XS s => okB h (hss_base s)
  | XN c => okB h (hcs_base c)
  | XI i => okI h i
  | XU u => okU h u
  | XD d => okD h d
  end.
Lemma okB_mono h h' b : HMono h h' -> okB h b -> okB h' b.
Proof. intros (A & B & C & D & E) (O1 & O2 & O3). repeat split; [now apply (okS_mono (hJ h))|now apply (okS_mono (hF h))|now apply (okG_mono (hC h))]. Qed.
Lemma okM_mono h h' m : HMono h h' -> okM h m -> okM h' m.
Proof. intros Mo [O1 O2]. split; [now apply (okB_mono h)|]. apply (okS_mono (hO h)); [apply Mo|exact O2]. Qed.
Lemma okI_mono h h' i : HMono h h' -> okI h i -> okI h' i.
Proof. intros Mo. apply okS_mono. apply Mo. Qed.
Lemma okU_mono h h' u : HMono h h' -> okU h u -> okU h' u.
Proof. intros Mo [O1 O2]. split; [apply (okG_mono (hC h)); [apply Mo|exact O1]|apply (okS_mono (hV h)); [apply Mo|exact O2]]. Qed.
Lemma okD_mono h h' d : HMono h h' -> okD h d -> okD h' d.
Proof. intros Mo. apply okG_mono. apply Mo. Qed.
Lemma okV_mono h h' v : HMono h h' -> okV h v -> okV h' v.
Proof.
  intros Mo. destruct v; cbn [okV]; try (now apply okB_mono); [|now apply okM_mono|now apply okI_mono|now apply okU_mono|now apply okD_mono].
  apply okC_mono. apply Mo.
Qed.

Definition hgood {X} (h : heap) (ok : heap -> X -> Prop) (m : HM X) : Prop :=
  WFH (snd (m h)) /\ HMono h (snd (m h)) /\ match fst (m h) with Ok x => ok (snd (m h)) x | Panic => True end.
Lemma hgood_ret {X} h (ok : heap -> X -> Prop) x : WFH h -> ok h x -> hgood h ok (hret x).
Proof. intros W O. split; [exact W|]. split; [apply HMono_refl|exact O]. Qed.
Lemma hgood_panic {X} h (ok : heap -> X -> Prop) : WFH h -> hgood h ok (hlift Panic).
Proof. intros W. split; [exact W|]. split; [apply HMono_refl|exact I]. Qed.
Lemma hgood_bind {X Y} h ok (ok' : heap -> Y -> Prop) (m : HM X) k : hgood h ok m ->
  (forall x h', WFH h' -> HMono h h' -> ok h' x -> hgood h' ok' (k x)) -> hgood h ok' (hbind m k).
Proof.
  unfold hgood, hbind. intros (W & Mo & O) K. destruct (m h) as [[x|] h1]; cbn [fst snd] in *; [|auto].
  destruct (K x h1 W Mo O) as (W' & M' & O'). split; [exact W'|]. split; [exact (HMono_trans _ _ _ Mo M')|exact O'].
Qed.
Lemma hgood_lift {X Y} h (r : res X) (k : X -> HM Y) ok : WFH h -> (forall x, r = Ok x -> hgood h ok (k x)) -> hgood h ok (hbind (hlift r) k).
Proof. intros W K. destruct r; [now apply K|]. now apply (hgood_panic h ok). Qed.
Ltac on_good m st := intros (W1 & W2 & W3 & W4 & W5) (A & B & C); unfold hgood, onC, onO, onJ, onV, onF in *; destruct (m st) as [[x|] st']; cbn in *;
  (split; [|split; [|auto]]); unfold WFH, HMono; cbn; auto 10 using Mono_refl.
Lemma hgood_onC {X} h ok (m : M hcond X) : WFH h -> good okC (hC h) ok m -> hgood h (fun h' => ok (hC h')) (onC m).
Proof. on_good m (hC h). Qed.
Lemma hgood_onO {X} h ok (m : M fsort X) : WFH h -> good okAny (hO h) ok m -> hgood h (fun h' => ok (hO h')) (onO m).
Proof. on_good m (hO h). Qed.
Lemma hgood_onJ {X} h ok (m : M joiner X) : WFH h -> good okAny (hJ h) ok m -> hgood h (fun h' => ok (hJ h')) (onJ m).
Proof. on_good m (hJ h). Qed.
Lemma hgood_onV {X} h ok (m : M fvalue X) : WFH h -> good okAny (hV h) ok m -> hgood h (fun h' => ok (hV h')) (onV m).
Proof. on_good m (hV h). Qed.
Lemma hgood_onF {X} h ok (m : M fdef X) : WFH h -> good okAny (hF h) ok m -> hgood h (fun h' => ok (hF h')) (onF m).
Proof. on_good m (hF h). Qed.
Lemma any_alloc {A} (d : A) st xs : WFA st -> good okAny st okS (m_alloc d xs).
Proof. intros W. apply good_alloc; auto using any_all; intros; exact I. Qed.
Lemma any_append {A} (d : A) pol st s xs : WFA st -> okS st s -> good okAny st okS (m_append d pol s xs).
Proof. intros W O. apply good_append; auto using any_all; intros; exact I. Qed.

Section Builders.
  Variable pol : policy.
  Lemma hgood_select h p : WFH h -> hgood h okB (h_select_from p).
  Proof.
    intros W. unfold h_select_from. apply hgood_lift; [exact W|]. intros t _.
    eapply hgood_bind; [apply hgood_onJ; [exact W|apply any_alloc, W]|]. intros js h1 W1 M1 O1.
    eapply hgood_bind; [apply hgood_onC; [exact W1|apply good_new_group; [apply W1|constructor]]|]. intros g h2 W2 M2 O2.
    eapply hgood_bind; [apply hgood_onF; [exact W2|apply any_alloc, W2]|]. intros fs h3 W3 M3 O3. apply hgood_ret; [exact W3|].
    split; [apply (okS_mono (hJ h2)); [apply M3|]; apply (okS_mono (hJ h1)); [apply M2|exact O1]|]. split; [exact O3|]. apply (okG_mono (hC h2)); [apply M3|exact O2].
  Qed.
  Lemma hgood_zero h : WFH h -> hgood h okB h_zero_bsel.
  Proof.
    intros W. unfold h_zero_bsel.
    eapply hgood_bind; [apply hgood_onJ; [exact W|apply any_alloc, W]|]. intros js h1 W1 M1 O1.
    eapply hgood_bind; [apply hgood_onC; [exact W1|apply (good_alloc okC okC_mono); [apply W1|intros; exact I|constructor]]|]. intros g h2 W2 M2 O2.
    eapply hgood_bind; [apply hgood_onF; [exact W2|apply any_alloc, W2]|]. intros fs h3 W3 M3 O3. apply hgood_ret; [exact W3|].
    split; [apply (okS_mono (hJ h2)); [apply M3|]; apply (okS_mono (hJ h1)); [apply M2|exact O1]|]. split; [exact O3|]. apply (okS_mono (hC h2)); [apply M3|exact O2].
  Qed.
  Lemma hgood_fields h b fs : WFH h -> okB h b -> hgood h okB (h_set_fields b fs).
  Proof.
    intros W O. unfold h_set_fields. eapply hgood_bind; [apply hgood_onF; [exact W|apply any_alloc, W]|]. intros s h1 W1 M1 O1. apply hgood_ret; [exact W1|].
    pose proof (okB_mono _ _ _ M1 O) as (A & B & C). repeat split; assumption.
  Qed.
  Lemma hgood_where h b cs : WFH h -> okB h b -> okCs (hC h) cs -> hgood h okB (h_add_where pol b cs).
  Proof.
    intros W O Os. unfold h_add_where. eapply hgood_bind; [apply hgood_onC; [exact W|apply good_add_conditions; [apply W|apply O|exact Os]]|]. intros s h1 W1 M1 O1. apply hgood_ret; [exact W1|].
    pose proof (okB_mono _ _ _ M1 O) as (A & B & C). repeat split; assumption.
  Qed.
  Lemma hgood_on h b l r : WFH h -> okB h b -> hgood h okB (h_on b l r).
  Proof.
    intros W O. unfold hgood, h_on. destruct (sl_len (hb_joins b)) as [|i] eqn:L; cbn [fst snd]; [split; [exact W|]; split; [apply HMono_refl|exact I]|].
    destruct W as (W1 & W2 & W3 & W4 & W5).
    destruct (WF_assign okAny okAny_mono (hJ h) (hb_joins b) i (j_by (nth i (read (hJ h) (hb_joins b)) zj) l r) W3) as [W' M']; [apply O|lia|exact I|].
    assert (Mo : HMono h (mkH (hC h) (hO h) (assign (hJ h) (hb_joins b) i (j_by (nth i (read (hJ h) (hb_joins b)) zj) l r)) (hV h) (hF h))) by (unfold HMono; cbn; auto 10 using Mono_refl).
    split; [unfold WFH; cbn; auto 10|]. split; [exact Mo|]. exact (okB_mono _ _ _ Mo O).
  Qed.
  Lemma hgood_join h b t jt l r : WFH h -> okB h b -> hgood h okB (h_join pol b t jt l r).
  Proof.
    intros W O. unfold h_join. eapply (hgood_bind _ okB).
    - unfold h_join_open. eapply hgood_bind; [apply hgood_onJ; [exact W|apply any_append; [apply W|apply O]]|]. intros s h1 W1 M1 O1. apply hgood_ret; [exact W1|].
      pose proof (okB_mono _ _ _ M1 O) as (A & B & C). repeat split; assumption.
    - intros b' h1 W1 M1 O1. now apply hgood_on.
  Qed.
  Lemma hgood_many h b : WFH h -> okB h b -> hgood h okM (h_many_of b).
  Proof.
    intros W O. unfold h_many_of. eapply hgood_bind; [apply hgood_onO; [exact W|apply any_alloc, W]|]. intros s h1 W1 M1 O1. apply hgood_ret; [exact W1|].
    split; [now apply (okB_mono h)|exact O1].
  Qed.
  Lemma hgood_order h m os : WFH h -> okM h m -> hgood h okM (h_add_order pol m os).
  Proof.
    intros W O. unfold h_add_order. eapply hgood_bind; [apply hgood_onO; [exact W|apply any_append; [apply W|apply O]]|]. intros s h1 W1 M1 O1. apply hgood_ret; [exact W1|].
    split; [apply (okB_mono h); [exact M1|apply O]|exact O1].
  Qed.
  Lemma hgood_insert h p : WFH h -> hgood h okI (h_insert_into p).
  Proof. intros W. unfold h_insert_into. eapply hgood_bind; [apply hgood_onV; [exact W|apply any_alloc, W]|]. intros s h1 W1 M1 O1. now apply hgood_ret. Qed.
  Lemma hgood_i_add h i vs : WFH h -> okI h i -> hgood h okI (h_i_add pol i vs).
  Proof. intros W O. unfold h_i_add. eapply hgood_bind; [apply hgood_onV; [exact W|apply any_append; [apply W|apply O]]|]. intros s h1 W1 M1 O1. now apply hgood_ret. Qed.
  Lemma hgood_update h p : WFH h -> hgood h okU (h_update_ p).
  Proof.
    intros W. unfold h_update_. eapply hgood_bind; [apply hgood_onC; [exact W|apply good_new_group; [apply W|constructor]]|]. intros g h1 W1 M1 O1.
    eapply hgood_bind; [apply hgood_onV; [exact W1|apply any_alloc, W1]|]. intros s h2 W2 M2 O2. apply hgood_ret; [exact W2|].
    split; [apply (okG_mono (hC h1)); [apply M2|exact O1]|exact O2].
  Qed.
  Lemma hgood_u_add h u vs : WFH h -> okU h u -> hgood h okU (h_u_add pol u vs).
  Proof.
    intros W O. unfold h_u_add. eapply hgood_bind; [apply hgood_onV; [exact W|apply any_append; [apply W|apply O]]|]. intros s h1 W1 M1 O1. apply hgood_ret; [exact W1|].
    split; [|exact O1]. apply (okU_mono _ _ _ M1 O).
  Qed.
  Lemma hgood_u_where h u cs : WFH h -> okU h u -> okCs (hC h) cs -> hgood h okU (h_u_where pol u cs).
  Proof.
    intros W O Os. unfold h_u_where. eapply hgood_bind; [apply hgood_onC; [exact W|apply good_add_conditions; [apply W|apply O|exact Os]]|]. intros s h1 W1 M1 O1. apply hgood_ret; [exact W1|].
    split; [exact O1|]. apply (okU_mono _ _ _ M1 O).
  Qed.
  Lemma hgood_delete h p : WFH h -> hgood h okD (h_delete_ p).
  Proof. intros W. unfold h_delete_. eapply hgood_bind; [apply hgood_onC; [exact W|apply good_new_group; [apply W|constructor]]|]. intros g h1 W1 M1 O1. now apply hgood_ret. Qed.
  Lemma hgood_d_where h u cs : WFH h -> okD h u -> okCs (hC h) cs -> hgood h okD (h_d_where pol u cs).
  Proof.
    intros W O Os. unfold h_d_where. eapply hgood_bind; [apply hgood_onC; [exact W|apply good_add_conditions; [apply W|apply O|exact Os]]|]. intros s h1 W1 M1 O1. now apply hgood_ret.
  Qed.
  Lemma hgood_copied {X} h g (k : list hcond -> HM X) ok : WFH h -> okG (hC h) g ->
    (forall cs h', WFH h' -> HMono h h' -> okCs (hC h') cs -> hgood h' ok (k cs)) ->
    hgood h ok (act s <- onC (h_conditions g); act cs <- onC (m_read s); k cs).
  Proof.
    intros W G K. eapply hgood_bind; [apply hgood_onC; [exact W|apply good_conditions; [apply W|exact G]]|]. intros s h1 W1 M1 O1.
    eapply hgood_bind; [apply hgood_onC; [exact W1|apply good_read; [apply W1|exact O1]]|]. intros cs h2 W2 M2 O2. apply K; auto. exact (HMono_trans _ _ _ M1 M2).
  Qed.
  Lemma hgood_to_update h tp b vs : WFH h -> okB h b -> hgood h okU (h_to_update pol tp b vs).
  Proof.
    intros W O. unfold h_to_update. eapply hgood_bind; [now apply hgood_update|]. intros u h1 W1 M1 O1.
    apply hgood_copied; [exact W1|apply (okB_mono _ _ _ M1 O)|]. intros cs h2 W2 M2 O2.
    eapply hgood_bind; [apply hgood_u_where; [exact W2|now apply (okU_mono h1)|exact O2]|]. intros u2 h3 W3 M3 O3. now apply hgood_u_add.
  Qed.
  Lemma hgood_to_delete h tp b : WFH h -> okB h b -> hgood h okD (h_to_delete pol tp b).
  Proof.
    intros W O. unfold h_to_delete. eapply hgood_bind; [now apply hgood_delete|]. intros u h1 W1 M1 O1.
    apply hgood_copied; [exact W1|apply (okB_mono _ _ _ M1 O)|]. intros cs h2 W2 M2 O2.
    apply hgood_d_where; [exact W2|now apply (okD_mono h1)|exact O2].
  Qed.
  Lemma hgood_to_insert h b vs : WFH h -> hgood h okI (h_to_insert pol b vs).
  Proof. intros W. unfold h_to_insert. eapply hgood_bind; [now apply hgood_insert|]. intros u h1 W1 M1 O1. now apply hgood_i_add. Qed.

  Definition okR (h : heap) (r : res hval) : Prop := match r with Ok v => okV h v | Panic => True end.
  Lemma okR_look h env x v : Forall (okR h) env -> look env x = Ok v -> okV h v.
  Proof.
    unfold look. intros F E. destruct (Nat.lt_ge_cases x (length env)) as [L|L]; [|rewrite nth_overflow in E by exact L; discriminate].
    pose proof (Forall_forall (okR h) env) as [G _]. specialize (G F (nth x env Panic) (nth_In _ _ L)). now rewrite E in G.
  Qed.
  Lemma okR_cond h env x c : Forall (okR h) env -> hcond_at env x = Ok c -> okC (hC h) c.
  Proof.
    unfold hcond_at. intros F E. destruct (look env x) as [v|] eqn:Ev; [|discriminate]. pose proof (okR_look _ _ _ _ F Ev) as O.
    cbn [bind] in E. destruct v; try discriminate. injection E as <-. exact O.
  Qed.
  Lemma okR_conds h env xs cs : Forall (okR h) env -> mapM (hcond_at env) xs = Ok cs -> okCs (hC h) cs.
  Proof.
    intros F. revert cs. induction xs as [|x xs IH]; cbn [mapM]; intros cs E; [injection E as <-; constructor|].
    destruct (hcond_at env x) as [c|] eqn:Ec; [|discriminate]. cbn [bind] in E. destruct (mapM (hcond_at env) xs); [|discriminate]. cbn in E. injection E as <-.
    constructor; [eapply okR_cond; eauto|now apply IH].
  Qed.
  Lemma step_good h env o : WFH h -> Forall (okR h) env -> hgood h okV (hstep pol env o).
  Proof.
    intros W F.
    assert (RC : forall m, good okC (hC h) okC m -> hgood h okV (act c <- onC m; hret (XC c))).
    { intros m G. eapply hgood_bind; [apply hgood_onC; eassumption|]. intros c h1 W1 M1 O1. now apply hgood_ret. }
    Ltac gval W F := apply hgood_lift; [exact W|]; let v := fresh "v" in let E := fresh "E" in intros v E; apply (okR_look _ _ _ _ F) in E; destruct v; try (now apply hgood_panic).
    Ltac gfin := intros ? ? ? ? ?; now apply hgood_ret.
    destruct o; cbn [hstep].
    - now apply hgood_ret.
    - now apply hgood_ret.
    - apply hgood_lift; [exact W|]. intros cs E. eapply hgood_bind; [apply hgood_onC; [exact W|apply good_new_group; [apply W|eapply okR_conds; eauto]]|]. gfin.
    - apply hgood_lift; [exact W|]. intros cs E. apply RC. apply good_jt_join; [apply W|eapply okR_conds; eauto].
    - apply hgood_lift; [exact W|]. intros c E. apply RC. apply good_lift; [apply W|]. intros c'. apply okC_cjoin. eapply okR_cond; eauto.
    - apply hgood_lift; [exact W|]. intros c E. apply RC. apply good_lift; [apply W|]. intros c'. apply okC_negate. eapply okR_cond; eauto.
    - apply hgood_lift; [exact W|]. intros c E. apply (okR_cond _ _ _ _ F) in E. destruct c; cbn [as_hgroup]; try (now apply hgood_panic). now apply hgood_ret.
    - apply hgood_lift; [exact W|]. intros c E. apply hgood_lift; [exact W|]. intros cs Es. apply RC. apply good_and; [apply W|eapply okR_cond; eauto|eapply okR_conds; eauto].
    - apply hgood_lift; [exact W|]. intros c E. apply hgood_lift; [exact W|]. intros cs Es. apply RC. apply good_or; [apply W|eapply okR_cond; eauto|eapply okR_conds; eauto].
    - apply hgood_lift; [exact W|]. intros c E. apply hgood_lift; [exact W|]. intros cs Es. apply RC. apply good_m_and; [apply W|eapply okR_cond; eauto|eapply okR_conds; eauto].
    - apply hgood_lift; [exact W|]. intros c E. apply hgood_lift; [exact W|]. intros cs Es. apply RC. apply good_m_or; [apply W|eapply okR_cond; eauto|eapply okR_conds; eauto].
    - eapply hgood_bind; [now apply hgood_select|]. gfin.
    - gval W F; apply hgood_ret; auto. apply E.
    - gval W F.
      + eapply hgood_bind; [apply hgood_fields; eassumption|]. gfin.
      + eapply hgood_bind; [apply hgood_fields; [eassumption|apply E]|]. intros b' h1 W1 M1 O1. apply hgood_ret; [exact W1|].
        split; [exact O1|apply (okM_mono _ _ _ M1 E)].
      + eapply hgood_bind; [apply hgood_zero; eassumption|]. intros z h1 W1 M1 O1. eapply hgood_bind; [apply hgood_fields; eassumption|]. gfin.
    - apply hgood_lift; [exact W|]. intros v E. apply (okR_look _ _ _ _ F) in E. apply hgood_lift; [exact W|]. intros cs Es. apply (okR_conds _ _ _ _ F) in Es.
      destruct v; try (now apply hgood_panic).
      + eapply hgood_bind; [apply hgood_where; eassumption|]. gfin.
      + eapply hgood_bind; [apply hgood_where; [eassumption|apply E|eassumption]|]. intros b' h1 W1 M1 O1. apply hgood_ret; [exact W1|].
        split; [exact O1|apply (okM_mono _ _ _ M1 E)].
      + eapply hgood_bind; [apply hgood_where; eassumption|]. gfin.
      + eapply hgood_bind; [apply hgood_u_where; eassumption|]. gfin.
      + eapply hgood_bind; [apply hgood_d_where; eassumption|]. gfin.
    - gval W F. eapply hgood_bind; [apply hgood_join; eassumption|]. gfin.
    - gval W F.
      + apply hgood_lift; [exact W|]. intros tt _. eapply hgood_bind; [apply hgood_join; [eassumption|apply E]|]. intros b' h1 W1 M1 O1. apply hgood_ret; [exact W1|].
        split; [exact O1|apply (okM_mono _ _ _ M1 E)].
      + apply hgood_lift; [exact W|]. intros tt _. eapply hgood_bind; [apply hgood_join; eassumption|]. gfin.
    - gval W F. eapply hgood_bind; [apply hgood_many; eassumption|]. gfin.
    - gval W F. now apply hgood_ret.
    - gval W F. apply hgood_lift; [exact W|]. intros f _. now apply hgood_ret.
    - gval W F. eapply hgood_bind; [apply hgood_order; eassumption|]. gfin.
    - gval W F. now apply hgood_ret.
    - gval W F. now apply hgood_ret.
    - eapply hgood_bind; [now apply hgood_insert|]. gfin.
    - gval W F. eapply hgood_bind; [apply hgood_i_add; eassumption|]. gfin.
    - eapply hgood_bind; [now apply hgood_update|]. gfin.
    - gval W F. eapply hgood_bind; [apply hgood_u_add; eassumption|]. gfin.
    - eapply hgood_bind; [now apply hgood_delete|]. gfin.
    - gval W F; (eapply hgood_bind; [apply hgood_to_update; [eassumption|apply E]|]; gfin).
    - gval W F; (eapply hgood_bind; [apply hgood_to_delete; [eassumption|apply E]|]; gfin).
    - gval W F. eapply hgood_bind; [apply hgood_to_insert; eassumption|]. gfin.
  Qed.
  Lemma run_good ops : forall h env, WFH h -> Forall (okR h) env ->
    WFH (snd (hrun pol ops env h)) /\ Forall (okR (snd (hrun pol ops env h))) (fst (hrun pol ops env h)).
  Proof.
    induction ops as [|o ops IH]; intros h env W F; cbn [hrun]; [auto|].
    destruct (step_good h env o W F) as (W' & M' & O'). destruct (hstep pol env o h) as [v h']. cbn [fst snd] in *.
    apply IH; [exact W'|]. apply Forall_app. split.
    - revert F. apply Forall_impl. intros [u|]; cbn; [now apply okV_mono|auto].
    - constructor; [|constructor]. destruct v; exact O'.
  Qed.
  Lemma WFH_empty : WFH empty_heap.
  Proof. unfold WFH, WF. split; [|split; [|split; [|split]]]; intros i a E; destruct i; discriminate. Qed.
  Corollary reach_good ops : WFH (snd (hrun pol ops [] empty_heap)) /\ Forall (okR (snd (hrun pol ops [] empty_heap))) (fst (hrun pol ops [] empty_heap)).
  Proof. apply run_good; [apply WFH_empty|constructor]. Qed.
End Builders.
