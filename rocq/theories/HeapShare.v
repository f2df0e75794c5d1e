(** Lemmas about slices that share or do not share their array. *)
From Coq Require Import String Ascii List Bool Arith Lia NArith ZArith.
From Verif Require Import GoStr Value Names Cond Build Heap HeapFacts HeapOps HeapBuild HeapRun HeapLinear HeapWf HeapFrame.
Import ListNotations.
Local Open Scope string_scope.
Local Open Scope nat_scope.

(** * Slices without spare capacity *)

(** the slice ends where its array ends: len(s) == cap(s) *)
Definition full {A} (st : store A) (s : slice) : Prop := length (a_cells (the_arr st s)) <= sl_len s.
Definition ofull {A} (st : store A) (o : option slice) : Prop := match o with Some s => full st s | None => True end.
Definition hfull (h : heap) (t : slots) : Prop :=
  ofull (hC h) (pC t) /\ ofull (hO h) (pO t) /\ ofull (hJ h) (pJ t) /\ ofull (hV h) (pV t) /\ ofull (hF h) (pF t).
Lemma Frame_full {A} s (st st' : store A) : full st s -> Frame s st st' -> forall s', Frame s' st st'.
Proof.
  intros F [S H] s'. split; [exact S|]. intros i a E. destruct (H i a E) as (a' & E' & L & U & V & N & P).
  assert (C : a_cells a' = a_cells a).
  { destruct (Nat.eq_dec i (sl_arr s)) as [->|D]; [|now apply N]. unfold full in F. rewrite (the_arr_nth _ _ _ E) in F.
    rewrite !firstn_all2 in P by lia. exact P. }
  exists a'. rewrite C. repeat split; auto. intros B. specialize (V B). now rewrite C in V.
Qed.
Lemma OFrame_full {A} o (st st' : store A) : ofull st o -> OFrame o st st' -> forall o', OFrame o' st st'.
Proof. intros F H o'. apply OFrame_any. destruct o as [s|]; cbn in *; [now apply (Frame_full s)|exact H]. Qed.
Lemma HFr_full t h h' : hfull h t -> HFr t h h' -> forall t', HFr t' h h'.
Proof. intros (A & B & C & D & E) (A' & B' & C' & D' & E') t'. unfold HFr. split; [|split; [|split; [|split]]]; eapply OFrame_full; eassumption. Qed.

(** * Appending twice to a slice with spare capacity *)
Section Twice.
  Context {A : Type} (d : A) (pol : policy).
  Lemma append_room st s (xs : list A) : sl_len s + length xs <= length (a_cells (the_arr st s)) ->
    append d pol st s xs = (mkSl (sl_arr s) (sl_len s + length xs),
      mkSt (set_nth (sl_arr s) (mkA (write_at (sl_len s) xs (a_cells (the_arr st s))) (Nat.max (a_used (the_arr st s)) (sl_len s + length xs))) (st_arrs st))
           (st_stale st || ((sl_len s <? a_used (the_arr st s)) && (0 <? length xs)))).
  Proof. intros R. unfold append. now apply Nat.leb_le in R as ->. Qed.
  (** both results are the same slice, and it holds what was appended last *)
  Lemma append_twice st s (cs xs ys : list A) : DenL st s cs -> sl_len s + length xs <= length (a_cells (the_arr st s)) -> length xs = length ys ->
    let '(s1, st1) := append d pol st s xs in let '(s2, st2) := append d pol st1 s ys in
    s1 = s2 /\ read st1 s1 = (cs ++ xs)%list /\ read st2 s1 = (cs ++ ys)%list.
  Proof.
    intros D R L. pose proof (append_den d pol st s cs xs D) as D1. pose proof (append_frame d pol st s xs) as F1.
    rewrite (append_room st s xs R) in *. cbn [fst snd] in D1, F1.
    match goal with |- context [append d pol ?q s ys] => set (st1 := q) in * end.
    assert (D' : DenL st1 s cs).
    { destruct D as (a & E & L1 & L2 & P). destruct F1 as [_ F1]. destruct (F1 _ _ E) as (a' & E' & Q1 & Q2 & Q3 & _ & Q5).
      exists a'. split; [exact E'|]. split; [lia|]. split; [auto|]. now rewrite Q5. }
    assert (R' : sl_len s + length ys <= length (a_cells (the_arr st1 s))).
    { destruct D as (a & E & L1 & L2 & P). destruct F1 as [_ F1]. destruct (F1 _ _ E) as (a' & E' & Q1 & _).
      rewrite (the_arr_nth _ _ _ E'), Q1, <- L. now rewrite (the_arr_nth _ _ _ E) in R. }
    pose proof (append_den d pol st1 s cs ys D') as D2. rewrite (append_room st1 s ys R') in *. cbn [fst snd] in D2. rewrite L in *.
    split; [reflexivity|]. split; [exact (DenL_read _ _ _ D1)|exact (DenL_read _ _ _ D2)].
  Qed.
End Twice.

(** an AND group of at least two conditions with room for one more takes a leaf in place *)
Lemma h_all_one j k cs : h_all_join j cs = Ok true -> exists b, h_one_join k cs = Ok b.
Proof.
  induction cs as [|c cs IH]; cbn; [eauto|]. destruct (h_jtype c) as [t|]; [|discriminate]. cbn. destruct (str_eqb t j); [|discriminate].
  intros H. destruct (str_eqb t k); eauto.
Qed.
Lemma h_all_any j k cs : h_all_join j cs = Ok true -> exists b, h_all_join k cs = Ok b.
Proof.
  induction cs as [|c cs IH]; cbn; [eauto|]. destruct (h_jtype c) as [t|]; [|discriminate]. cbn. destruct (str_eqb t j); [|discriminate].
  intros H. destruct (str_eqb t k); eauto.
Qed.
Definition joined (j : string) (l : leaf) : leaf := mkLeaf (l_kind l) j (l_neg l) (l_def l) (l_val l).
Lemma and_leaf_inplace pol st g cs l : read st (hg_sl g) = cs -> 2 <= length cs -> h_has_all cs AND = Ok true ->
  h_group_and pol g [HLeaf l] st = app_to pol g [HLeaf (joined AND l)] st.
Proof.
  intros R N H. unfold h_group_and, h_add_conditions, mbind, m_read, lift. rewrite R.
  destruct cs as [|c0 [|c1 cs]]; cbn in N; try lia. cbn [h_has_one]. cbn [h_has_all] in H.
  destruct (h_all_one AND AND _ H) as [b1 ->]. destruct (h_all_one AND OR _ H) as [b2 ->]. cbn [h_cjoin bind].
  unfold h_add_single, mbind, m_read, lift. rewrite R. cbn [h_has_all]. rewrite H. destruct (h_all_any AND OR _ H) as [b3 ->].
  cbn. reflexivity.
Qed.

(** * Writes through a slice *)
Definition writes {A} (st : store A) (s : slice) (ws : list (nat * A)) : store A := fold_left (fun st w => assign st s (fst w) (snd w)) ws st.
(** an array that did not exist in [st] *)
Lemma assign_new {A} (st st1 : store A) s i x : length (st_arrs st) <= sl_arr s -> sl_arr s < length (st_arrs st1) -> (forall s', Frame s' st st1) -> forall s', Frame s' st (assign st1 s i x).
Proof.
  intros N B F s'. destruct (F s') as [S H]. split; [exact S|]. intros k a E. destruct (H k a E) as (a' & E' & Q).
  exists a'. split; [|exact Q]. unfold assign. cbn [st_arrs]. assert (k < length (st_arrs st)) by (apply nth_error_Some; congruence).
  rewrite set_nth_other; [exact E'|lia|apply nth_error_Some; congruence].
Qed.
Lemma writes_new {A} (st : store A) s ws : forall st1, length (st_arrs st) <= sl_arr s -> sl_arr s < length (st_arrs st1) -> (forall s', Frame s' st st1) -> forall s', Frame s' st (writes st1 s ws).
Proof.
  induction ws as [|[i x] ws IH]; intros st1 N B F; [exact F|]. cbn [writes fold_left fst snd]. apply IH; [exact N| |now apply assign_new].
  unfold assign. cbn. now rewrite set_nth_length.
Qed.
Lemma set_nth_firstn {A} (l : list A) n i x : i < n -> n <= length l -> firstn n (set_nth i x l) = set_nth i x (firstn n l).
Proof.
  revert n i. induction l as [|y l IH]; intros n i L1 L2; cbn in L2; [lia|]. destruct n as [|n]; [lia|]. destruct i as [|i]; [reflexivity|].
  unfold set_nth in IH |- *. cbn. f_equal. apply IH; lia.
Qed.
Lemma assign_read_any {A} (st : store A) s xs i x : DenL st s xs -> i < sl_len s -> read (assign st s i x) s = set_nth i x xs.
Proof.
  intros (a & E & L1 & L2 & P) Li. unfold read, assign, the_arr at 1. cbn [st_arrs].
  assert (B : sl_arr s < length (st_arrs st)) by (apply nth_error_Some; congruence).
  rewrite (nth_error_nth _ _ _ (set_nth_same _ _ _ B)). cbn [a_cells]. rewrite (the_arr_nth _ _ _ E), <- P. apply set_nth_firstn; lia.
Qed.

(** * Longer histories *)
Lemma hrun_app pol a b : forall env h, hrun pol (a ++ b) env h = let '(env', h') := hrun pol a env h in hrun pol b env' h'.
Proof. induction a as [|o a IH]; intros env h; [reflexivity|]. cbn [app hrun]. destruct (hstep pol env o h). apply IH. Qed.
Lemma hrun_prefix pol a : forall env h, exists rest, fst (hrun pol a env h) = (env ++ rest)%list.
Proof.
  induction a as [|o a IH]; intros env h; cbn [hrun]; [exists []; now rewrite app_nil_r|]. destruct (hstep pol env o h) as [v h'].
  destruct (IH (env ++ [v])%list h') as [rest ->]. exists (v :: rest). now rewrite <- app_assoc.
Qed.
Lemma prun_app a b : forall env, prun (a ++ b) env = prun b (prun a env).
Proof. induction a as [|o a IH]; intros env; [reflexivity|]. cbn [app prun]. apply IH. Qed.
Lemma prun_prefix a : forall env, exists rest, prun a env = (env ++ rest)%list.
Proof.
  induction a as [|o a IH]; intros env; cbn [prun]; [exists []; now rewrite app_nil_r|].
  destruct (IH (env ++ [pstep env o])%list) as [rest ->]. eexists. now rewrite <- app_assoc.
Qed.
Lemma look_prefix {V} (env rest : list (res V)) x v : look env x = Ok v -> look (env ++ rest) x = Ok v.
Proof.
  unfold look. intros E. rewrite app_nth1; [exact E|]. destruct (Nat.lt_ge_cases x (length env)) as [L|L]; [exact L|]. rewrite nth_overflow in E by exact L. discriminate.
Qed.

(** * Capacities never change *)
Definition caps {A} (st st' : store A) : Prop :=
  forall i a, nth_error (st_arrs st) i = Some a -> exists a', nth_error (st_arrs st') i = Some a' /\ length (a_cells a') = length (a_cells a).
Definition hcaps (h h' : heap) : Prop := caps (hC h) (hC h') /\ caps (hO h) (hO h') /\ caps (hJ h) (hJ h') /\ caps (hV h) (hV h') /\ caps (hF h) (hF h').
Lemma caps_refl {A} (st : store A) : caps st st.
Proof. intros i a E. eauto. Qed.
Lemma caps_trans {A} (a b c : store A) : caps a b -> caps b c -> caps a c.
Proof. intros H K i x E. destruct (H i x E) as (y & Ey & L). destruct (K i y Ey) as (z & Ez & M). exists z. split; [exact Ez|congruence]. Qed.
Lemma hcaps_refl h : hcaps h h.
Proof. unfold hcaps. auto 10 using caps_refl. Qed.
Lemma hcaps_trans a b c : hcaps a b -> hcaps b c -> hcaps a c.
Proof. intros (A & B & C & D & E) (A' & B' & C' & D' & E'). unfold hcaps. eauto 10 using caps_trans. Qed.
Lemma OFrame_caps {A} o (st st' : store A) : OFrame o st st' -> caps st st'.
Proof.
  intros H. assert (F : exists s, Frame s st st') by (destruct o as [s|]; cbn in H; [eauto|exists (mkSl 0 0); apply H]).
  destruct F as [s [_ F]]. intros i a E. destruct (F i a E) as (a' & E' & L & _). eauto.
Qed.
Lemma HFr_caps t h h' : HFr t h h' -> hcaps h h'.
Proof. intros (A & B & C & D & E). unfold hcaps. eauto 10 using OFrame_caps. Qed.
Definition no_slots : slots := mkSlots None None None None None.
Lemma mapM_first {X Y} (f : X -> res Y) x xs : f x = Panic -> mapM f (x :: xs) = Panic.
Proof. intros E. cbn. now rewrite E. Qed.
Lemma step_caps pol env o h : hcaps h (snd (hstep pol env o h)).
Proof.
  destruct (receivers o) as [|x rest] eqn:R.
  - apply (HFr_caps no_slots).
    assert (F : hframes no_slots (hstep pol env o)); [|apply F].
    destruct o; cbn [receivers consumed] in R; try discriminate; try (subst xs); cbn [hstep mapM].
    + apply hframes_ret.
    + apply hframes_ret.
    + apply hframes_bind; [apply hframes_lift|]. intros cs. apply hframes_bind; [apply hframes_onC, oframes_new_group|]. intros g. apply hframes_ret.
    + apply hframes_res. intros cs E. injection E as <-. apply hframes_bind; [apply hframes_onC, oframes_lift|]. intros g. apply hframes_ret.
    + apply hframes_bind; [apply fr_select|]. intros b. apply hframes_ret.
    + apply hframes_bind; [apply fr_insert|]. intros b. apply hframes_ret.
    + apply hframes_bind; [apply fr_update|]. intros b. apply hframes_ret.
    + apply hframes_bind; [apply fr_delete|]. intros b. apply hframes_ret.
  - destruct (look env x) as [v|] eqn:E.
    + apply (HFr_caps (slots_of v)). apply (step_frames pol env o x v); [rewrite R; now left|exact E].
    + assert (S : snd (hstep pol env o h) = h); [|rewrite S; apply hcaps_refl].
      assert (C : hcond_at env x = Panic) by (unfold hcond_at; now rewrite E).
      destruct o; cbn [receivers consumed] in R; try discriminate; try (subst xs); try (injection R as -> <-); cbn [hstep];
        unfold hbind, hlift; rewrite ?E, ?(mapM_first _ _ _ C), ?C; reflexivity.
Qed.
Lemma run_caps pol ops : forall env h, hcaps h (snd (hrun pol ops env h)).
Proof.
  induction ops as [|o ops IH]; intros env h; cbn [hrun]; [apply hcaps_refl|]. pose proof (step_caps pol env o h) as S.
  destruct (hstep pol env o h) as [v h']. exact (hcaps_trans _ _ _ S (IH _ _)).
Qed.
Lemma full_caps {A} (st st' : store A) s : okS st s -> caps st st' -> full st s -> full st' s.
Proof. intros (a & E & _) C F. destruct (C _ _ E) as (a' & E' & L). unfold full in *. rewrite (the_arr_nth _ _ _ E) in F. now rewrite (the_arr_nth _ _ _ E'), L. Qed.

(** * Constructors make slices of the exact length *)
Definition constructor (o : op) : Prop :=
  match o with OLeaf _ | OGroup _ _ | OSelect _ | OInsert _ | OUpdate _ | ODelete _ => True | _ => False end.
Lemma alloc_full {A} (d : A) st xs : full (snd (alloc d st xs 0)) (fst (alloc d st xs 0)).
Proof.
  unfold full, the_arr. cbn. rewrite app_nth2 by lia. rewrite Nat.sub_diag. cbn. rewrite app_nil_r. lia.
Qed.
Definition okslots (h : heap) (t : slots) : Prop :=
  let ok {A} (st : store A) o := match o with Some s => okS st s | None => True end in
  ok (hC h) (pC t) /\ ok (hO h) (pO t) /\ ok (hJ h) (pJ t) /\ ok (hV h) (pV t) /\ ok (hF h) (pF t).
Lemma okV_slots h v : okV h v -> okslots h (slots_of v).
Proof.
  destruct v; cbn [okV]; unfold okslots, slots_of; cbn; intros O; repeat split; auto; try apply O.
Qed.
Lemma hfull_caps h h' t : okslots h t -> hcaps h h' -> hfull h t -> hfull h' t.
Proof.
  intros (A & B & C & D & E) (A' & B' & C' & D' & E') (A2 & B2 & C2 & D2 & E2). unfold hfull, ofull in *.
  destruct (pC t), (pO t), (pJ t), (pV t), (pF t); repeat split; eauto using full_caps.
Qed.
Lemma constructor_full pol env o h v : constructor o -> fst (hstep pol env o h) = Ok v -> hfull (snd (hstep pol env o h)) (slots_of v).
Proof.
  intros K. destruct o; cbn [constructor] in K; try contradiction; clear K; cbn [hstep].
  - cbn. intros E. injection E as <-. cbn. repeat split; exact I.
  - unfold hbind, hlift. destruct (mapM (hcond_at env) xs) as [cs|]; [|discriminate]. unfold onC, h_new_group, mbind, lift, m_alloc.
    destruct (mapM (h_cjoin j) cs) as [cs'|]; [|discriminate]. pose proof (alloc_full HNil (hC h) cs') as F. cbn [alloc fst snd] in F.
    cbn. intros E. injection E as <-. cbn. repeat split; try exact I. exact F.
  - unfold hbind, h_select_from, hbind, hlift. destruct (match p with TPStr s => table s | TPName s => table s | TPIdent t => Ok t end) as [t|]; [|discriminate].
    cbn. intros E. injection E as <-. unfold hfull, ofull. cbn [slots_of slots_b pC pO pJ pV pF hb_where hb_joins hb_fields hg_sl hC hJ hF].
    split; [apply (alloc_full HNil (hC h) [])|]. split; [exact I|]. split; [apply (alloc_full zj (hJ h) [])|]. split; [exact I|apply (alloc_full zf (hF h) [])].
  - cbn. intros E. injection E as <-. repeat split; try exact I. apply (alloc_full zv (hV h) []).
  - cbn. intros E. injection E as <-. repeat split; try exact I; [apply (alloc_full HNil (hC h) [])|apply (alloc_full zv (hV h) [])].
  - cbn. intros E. injection E as <-. repeat split; try exact I. apply (alloc_full HNil (hC h) []).
Qed.
Lemma hrun_length pol ops : forall env h, length (fst (hrun pol ops env h)) = length env + length ops.
Proof.
  induction ops as [|o ops IH]; intros env h; cbn [hrun]; [cbn; lia|]. destruct (hstep pol env o h) as [v h']. rewrite IH, app_length. cbn. lia.
Qed.
(** a value that came from a constructor is full in every later state *)
Lemma reach_full pol ops x o v : nth_error ops x = Some o -> constructor o ->
  look (fst (hrun pol ops [] empty_heap)) x = Ok v -> hfull (snd (hrun pol ops [] empty_heap)) (slots_of v).
Proof.
  intros N K. apply nth_error_split in N. destruct N as (a & b & -> & Lx). rewrite (hrun_app pol a (o :: b)).
  pose proof (reach_good pol a) as G. pose proof (hrun_length pol a [] empty_heap) as La. destruct (hrun pol a [] empty_heap) as [env h]. cbn [fst snd] in *.
  destruct G as [W F]. cbn [hrun]. pose proof (step_good pol h env o W F) as G1. destruct G1 as (W' & M' & O'). pose proof (constructor_full pol env o h) as CF.
  destruct (hstep pol env o h) as [r h1]. cbn [fst snd] in *. destruct (hrun_prefix pol b (env ++ [r])%list h1) as [rest P]. rewrite P.
  unfold look. rewrite <- app_assoc, app_nth2 by (cbn in La; lia). replace (x - length env) with 0 by (cbn in La; lia). cbn. intros ->.
  pose proof (run_caps pol b (env ++ [Ok v])%list h1) as C. apply (hfull_caps h1); [now apply okV_slots|exact C|]. now apply CF.
Qed.
