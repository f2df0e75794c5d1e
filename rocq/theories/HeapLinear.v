(** Programs that extend every value at most once overwrite nothing. *)
From Coq Require Import String Ascii List Bool Arith NArith ZArith Lia.
From Verif Require Import GoStr Value Names Cond Build Heap HeapFacts HeapOps HeapBuild HeapRun.
Import ListNotations.
Local Open Scope string_scope.
Local Open Scope nat_scope.

(** the operands whose slices the result of a call may go on using *)
Definition consumed (o : op) : list nat :=
  match o with
  | OJoinAll _ [x] => [x]
  | OSetJoin _ x | ONegate _ x | OBrackets x
  | OAnd x _ | OOr x _ | OMAnd x _ | OMOr x _
  | OBase x | OFields x _ | OWhere x _ | OJoin x _ _ _ _ | OJoinName x _ _ _ _
  | OMany x | OSingle x | OCount x _ | OOrder x _ | OOffset x _ | OLimit x _
  | OValues x _ | OSet x _ => [x]
  | _ => []
  end.
(** every value is extended at most once *)
Definition linear (ops : list op) : Prop := NoDup (flat_map consumed ops).

(** * One store *)

(** [s] ends where the used part of its array ends *)
Definition tip {A} (st : store A) (s : slice) : Prop :=
  exists a, nth_error (st_arrs st) (sl_arr s) = Some a /\ a_used a = sl_len s /\ sl_len s <= length (a_cells a).
Definition otip {A} (st : store A) (o : option slice) : Prop := match o with Some s => tip st s | None => True end.
(** from [st] to [st'] at most the array of [old] changes, and [new] is a tip on that
    array or on a new one *)
Definition moves {A} (st st' : store A) (old new : option slice) : Prop :=
  (st_stale st = false -> st_stale st' = false) /\
  (forall i a, nth_error (st_arrs st) i = Some a -> (forall s, old = Some s -> sl_arr s <> i) -> nth_error (st_arrs st') i = Some a) /\
  length (st_arrs st) <= length (st_arrs st') /\
  otip st' new /\
  (forall s', new = Some s' -> length (st_arrs st) <= sl_arr s' \/ exists s, old = Some s /\ sl_arr s' = sl_arr s).

Lemma moves_keep {A} (st : store A) o : otip st o -> moves st st o o.
Proof. intros T. repeat split; auto. intros s' E. right. eauto. Qed.
Lemma moves_none {A} (st : store A) o : moves st st o None.
Proof. repeat split; auto. discriminate. Qed.
Lemma moves_drop {A} (st st' : store A) o n : moves st st' o n -> moves st st' o None.
Proof. intros (S & P & L & _). repeat split; auto. discriminate. Qed.
Lemma moves_weaken {A} (st st' : store A) o n : moves st st' None n -> moves st st' o n.
Proof.
  intros (S & P & L & T & F). repeat split; auto.
  - intros i a E _. apply P; [exact E|discriminate].
  - intros s' E. destruct (F s' E) as [G|(s & Q & _)]; [now left|discriminate].
Qed.
Lemma moves_trans {A} (a b c : store A) o n m : moves a b o n -> moves b c n m -> moves a c o m.
Proof.
  intros (S & P & L & T & F) (S' & P' & L' & T' & F'). split; [auto|]. split; [|split; [lia|split; [exact T'|]]].
  - intros i x E N. apply P'; [now apply P|]. intros s Es. destruct (F s Es) as [G|(s0 & Q & Qs)].
    + assert (i < length (st_arrs a)) by (apply nth_error_Some; congruence). lia.
    + rewrite Qs. now apply N.
  - intros s' E. destruct (F' s' E) as [G|(s0 & Q & Qs)]; [left; lia|].
    destruct (F s0 Q) as [G|(s1 & Q1 & Qs1)]; [left; lia|]. right. exists s1. split; [exact Q1|congruence].
Qed.
Lemma tip_bound {A} (st : store A) s : tip st s -> sl_arr s < length (st_arrs st).
Proof. intros (a & E & _). apply nth_error_Some. congruence. Qed.
Lemma tip_stays {A} (st st' : store A) n s : moves st st' None n -> tip st s -> tip st' s.
Proof. intros (S & P & _) (a & E & U & L). exists a. split; [|auto]. apply P; [exact E|discriminate]. Qed.
Lemma otip_stays {A} (st st' : store A) n o : moves st st' None n -> otip st o -> otip st' o.
Proof. intros M. destruct o; cbn; [now apply (tip_stays _ _ n)|auto]. Qed.
(** something new beside [o] *)
Lemma moves_seq {A} (a b c : store A) n o m : moves a b None n -> moves b c o m ->
  (forall s, o = Some s -> sl_arr s < length (st_arrs a)) -> moves a c o m.
Proof.
  intros (S & P & L & T & F) (S' & P' & L' & T' & F') B. split; [auto|]. split; [|split; [lia|split; [exact T'|]]].
  - intros i x E N. apply P'; [apply P; [exact E|discriminate]|exact N].
  - intros s' E. destruct (F' s' E) as [G|G]; [left; lia|right; exact G].
Qed.
Lemma moves_alloc {A} (d : A) st xs n : moves st (snd (alloc d st xs n)) None (Some (fst (alloc d st xs n))).
Proof.
  repeat split; auto.
  - intros i a E _. cbn [alloc snd st_arrs]. rewrite nth_error_app1; [exact E|]. apply nth_error_Some. congruence.
  - cbn. rewrite app_length. lia.
  - cbn. eexists. cbn. rewrite nth_error_app2, Nat.sub_diag by lia. split; [reflexivity|]. cbn. rewrite app_length. split; lia.
  - intros s' E. injection E as <-. left. cbn. lia.
Qed.
Lemma moves_append {A} (d : A) pol st s xs : tip st s -> moves st (snd (append d pol st s xs)) (Some s) (Some (fst (append d pol st s xs))).
Proof.
  intros (a & E & U & L). unfold append. destruct (_ <=? _) eqn:C; [|apply moves_weaken, moves_alloc].
  apply Nat.leb_le in C. rewrite (the_arr_nth _ _ _ E) in *. cbn [fst snd]. repeat split.
  - cbn [st_stale]. intros ->. rewrite U, Nat.ltb_irrefl. reflexivity.
  - intros i b Eb N. cbn [st_arrs]. rewrite set_nth_other; [exact Eb|intros ->; now apply (N s)|apply nth_error_Some; congruence].
  - cbn. rewrite set_nth_length; [lia|]. apply nth_error_Some. congruence.
  - cbn. eexists. cbn. rewrite set_nth_same by (apply nth_error_Some; congruence). split; [reflexivity|]. cbn. rewrite write_at_length by exact C. lia.
  - intros s' Q. injection Q as <-. right. exists s. auto.
Qed.

(** * Computations on conditions *)
Definition safe {A X} (old : option slice) (tf : X -> option slice) (m : M A X) (st : store A) : Prop :=
  moves st (snd (m st)) old (match fst (m st) with Ok x => tf x | Panic => None end).
Lemma safe_keep {A X} old tf (x : X) (st : store A) : tf x = old -> otip st old -> safe old tf (ret x) st.
Proof. intros E T. unfold safe. cbn. rewrite E. now apply moves_keep. Qed.
Lemma safe_panic {A X} old (tf : X -> option slice) (st : store A) : safe old tf (lift Panic) st.
Proof. apply moves_none. Qed.
Lemma safe_lift {A X Y} old tf (r : res X) (k : X -> M A Y) st : (forall x, r = Ok x -> safe old tf (k x) st) -> safe old tf (mbind (lift r) k) st.
Proof. intros H. destruct r as [x|]; [exact (H x eq_refl)|apply moves_none]. Qed.
Lemma safe_bind {A X Y} old tf tf' (m : M A X) (k : X -> M A Y) st : safe old tf m st ->
  (forall x st', fst (m st) = Ok x -> otip st' (tf x) -> safe (tf x) tf' (k x) st') -> safe old tf' (mbind m k) st.
Proof.
  unfold safe, mbind. intros H K. destruct (m st) as [[x|] st1]; cbn [fst snd] in *; [|exact H].
  apply (moves_trans _ st1 _ _ (tf x)); [exact H|]. apply K; [reflexivity|apply H].
Qed.
Lemma safe_seq {A X Y} old tf tf' (m : M A X) (k : X -> M A Y) st : safe None tf m st -> otip st old ->
  (forall x st', otip st' old -> safe old tf' (k x) st') -> safe old tf' (mbind m k) st.
Proof.
  unfold safe, mbind. intros H T K. destruct (m st) as [[x|] st1]; cbn [fst snd] in *; [|now apply moves_weaken].
  apply (moves_seq _ st1 _ (tf x)); [exact H|apply K; exact (otip_stays _ _ _ _ H T)|]. intros s ->. now apply tip_bound.
Qed.
Lemma safe_weaken {A X} old tf (m : M A X) st : safe None tf m st -> safe old tf m st.
Proof. apply moves_weaken. Qed.
Lemma safe_alloc {A} (d : A) xs st : safe None (fun s => Some s) (m_alloc d xs) st.
Proof. apply moves_alloc. Qed.
Lemma safe_append {A} (d : A) pol s xs st : tip st s -> safe (Some s) (fun s => Some s) (m_append d pol s xs) st.
Proof. intros T. pose proof (moves_append d pol st s xs T) as H. unfold safe, m_append. now destruct (append d pol st s xs). Qed.

Definition gtip (g : hgroup) : option slice := Some (hg_sl g).
Section Cond.
  Variable pol : policy.
  Lemma safe_app_to g xs st : tip st (hg_sl g) -> safe (gtip g) gtip (app_to pol g xs) st.
  Proof.
    intros T. unfold app_to. eapply safe_bind; [now apply safe_append|]. intros s st' _ T'. now apply safe_keep.
  Qed.
  Lemma safe_app_new g x xs st : safe None gtip (app_new pol g x xs) st.
  Proof.
    unfold app_new. eapply safe_bind; [apply safe_alloc|]. intros s st' _ T'. eapply safe_bind; [now apply safe_append|].
    intros s2 st2 _ T2. now apply safe_keep.
  Qed.
  Lemma safe_put_new g xs st : safe None gtip (put_new g xs) st.
  Proof. unfold put_new. eapply safe_bind; [apply safe_alloc|]. intros s st' _ T'. now apply safe_keep. Qed.
  Lemma safe_new_group j cs st : safe None gtip (h_new_group j cs) st.
  Proof.
    unfold h_new_group. apply safe_lift. intros ys _. eapply safe_bind; [apply safe_alloc|]. intros s st' _ T'. now apply safe_keep.
  Qed.
  Lemma safe_read {A} o (f : A -> option slice) sl (k : list hcond -> M hcond A) (st : store hcond) :
    safe o f (k (read st sl)) st -> safe o f (mbind (m_read sl) k) st.
  Proof. intros H. exact H. Qed.
  Ltac sf T := repeat match goal with
    | |- safe _ _ (if ?b then _ else _) _ => destruct b
    | |- safe _ _ (mbind (lift _) _) _ => apply safe_lift; intros ? _
    | |- safe _ _ (app_to _ _ _) _ => apply safe_app_to; exact T
    | |- safe _ _ (app_new _ _ _ _) _ => apply safe_weaken; apply safe_app_new
    | |- safe _ _ (put_new _ _) _ => apply safe_weaken; apply safe_put_new
    end.
  Lemma safe_add_group g another st : tip st (hg_sl g) -> read st (hg_sl g) <> [] -> safe (gtip g) gtip (h_add_group pol g another) st.
  Proof.
    intros T N. unfold h_add_group.
    apply safe_read.
    apply safe_read. cbv zeta.
    destruct (read st (hg_sl g)) as [|c cs]; [contradiction|]. change (length (c :: cs) =? 0) with false. cbv iota. sf T.
  Qed.
  Lemma safe_add_single g c st : tip st (hg_sl g) -> read st (hg_sl g) <> [] -> safe (gtip g) gtip (h_add_single pol g c) st.
  Proof.
    intros T N. unfold h_add_single.
    apply safe_read. cbv zeta.
    destruct (read st (hg_sl g)) as [|c' cs] eqn:E; [contradiction|]. change (length (c' :: cs) =? 0) with false. cbv iota.
    do 3 (apply safe_lift; intros ? _). destruct (as_hgroup c); [apply safe_add_group; [exact T|congruence]|]. sf T.
  Qed.
  Lemma safe_add_conditions op g cs st : tip st (hg_sl g) -> safe (gtip g) gtip (h_add_conditions pol op g cs) st.
  Proof.
    intros T. unfold h_add_conditions.
    apply safe_read. cbv zeta.
    do 2 (apply safe_lift; intros ? _). destruct cs as [|c0 rest]; [now apply safe_keep|].
    destruct (read st (hg_sl g)) as [|c' cs'] eqn:E.
    - eapply safe_bind; [now apply safe_app_to|]. intros g' st' _ T'. now apply safe_keep.
    - destruct rest as [|c1 rest].
      + apply safe_lift. intros c _. apply safe_add_single; [exact T|congruence].
      + destruct (_ && _); [sf T|]. destruct (_ && _).
        * eapply safe_seq; [apply safe_new_group|exact T|]. intros ng st' T'. apply safe_lift. intros c _. now apply safe_app_to.
        * eapply safe_seq; [apply safe_new_group|exact T|]. intros ng st' T'. apply safe_weaken. apply safe_app_new.
  Qed.
  Lemma slice_cjoin j c c' : h_cjoin j c = Ok c' -> slice_of c' = slice_of c.
  Proof. destruct c; cbn; intros E; try discriminate; injection E as <-; reflexivity. Qed.
  Lemma slice_negate j c c' : h_negate j c = Ok c' -> slice_of c' = slice_of c.
  Proof. destruct c; cbn; intros E; try discriminate; injection E as <-; reflexivity. Qed.
  Lemma safe_pure c (r : res hcond) (st : store hcond) : (forall c', r = Ok c' -> slice_of c' = slice_of c) -> otip st (slice_of c) -> safe (slice_of c) slice_of (lift r) st.
  Proof.
    intros H T. unfold safe. cbn. destruct r as [c'|]; [|apply moves_none]. rewrite (H c' eq_refl). now apply moves_keep.
  Qed.
  Lemma safe_extend op (g : hgroup) cs (f : hgroup -> hcond) st : (forall g, slice_of (f g) = gtip g) -> tip st (hg_sl g) ->
    safe (gtip g) slice_of (run r <- h_add_conditions pol op g cs; ret (f r)) st.
  Proof.
    intros Hf T. eapply safe_bind; [now apply safe_add_conditions|]. intros r st' _ T'. apply safe_keep; [apply Hf|exact T'].
  Qed.
  Lemma safe_start_extend j op c cs st : otip st (slice_of c) ->
    safe (slice_of c) slice_of (run g <- h_start j c; run r <- h_add_conditions pol op g cs; ret (of_hg r)) st.
  Proof.
    intros T. destruct c as [|l|j' n s br]; cbn [h_start as_hgroup slice_of] in *.
    - eapply safe_bind; [apply safe_new_group|]. intros g st' _ T'. now apply safe_extend.
    - eapply safe_bind; [apply safe_new_group|]. intros g st' _ T'. now apply safe_extend.
    - apply (safe_extend op (mkHG j' n s br)); [reflexivity|exact T].
  Qed.
  Lemma safe_and c cs st : otip st (slice_of c) -> safe (slice_of c) slice_of (h_and pol c cs) st.
  Proof.
    intros T. destruct cs as [|x cs]; [apply safe_pure; [apply slice_cjoin|exact T]|]. now apply safe_start_extend.
  Qed.
  Lemma safe_join_last (m : M hcond hcond) st o : safe o slice_of m st -> safe o slice_of (run r <- m; lift (h_cjoin OR r)) st.
  Proof.
    intros H. eapply safe_bind; [exact H|]. intros x st' _ T. apply safe_pure; [apply slice_cjoin|exact T].
  Qed.
  Lemma safe_ext {A X} o tf (m m' : M A X) st : m st = m' st -> safe o tf m st -> safe o tf m' st.
  Proof. unfold safe. now intros ->. Qed.
  Lemma safe_or c cs st : otip st (slice_of c) -> safe (slice_of c) slice_of (h_or pol c cs) st.
  Proof.
    intros T. destruct cs as [|x cs]; [apply safe_pure; [apply slice_cjoin|exact T]|].
    eapply safe_ext; [|apply safe_join_last; apply (safe_start_extend OR OR c (x :: cs)); exact T].
    unfold h_or, h_group_or, mbind, ret, h_jt_join. destruct (h_start OR c st) as [[g|] st1]; [|reflexivity].
    now destruct (h_add_conditions pol OR g (x :: cs) st1) as [[r|] st2].
  Qed.
  Lemma safe_new_extend j op c cs st : safe None slice_of (run g <- h_new_group j [c]; run r <- h_add_conditions pol op g cs; ret (of_hg r)) st.
  Proof. eapply safe_bind; [apply safe_new_group|]. intros g st' _ T'. now apply safe_extend. Qed.
  Lemma safe_m_and c cs st : otip st (slice_of c) -> safe (slice_of c) slice_of (h_m_and pol c cs) st.
  Proof.
    intros T. destruct c as [|l|j n s br]; cbn [h_m_and].
    - apply safe_panic.
    - destruct (l_kind l); try (now apply safe_and); apply safe_new_extend.
    - apply (safe_extend AND (mkHG j n s br)); [reflexivity|exact T].
  Qed.
  Lemma safe_m_or c cs st : otip st (slice_of c) -> safe (slice_of c) slice_of (h_m_or pol c cs) st.
  Proof.
    intros T. destruct c as [|l|j n s br]; cbn [h_m_or].
    - apply safe_panic.
    - destruct (l_kind l); try (now apply safe_or); try apply safe_new_extend. apply safe_panic.
    - apply (safe_extend OR (mkHG j n s br)); [reflexivity|exact T].
  Qed.
  Lemma safe_jt_join j cs st : (forall c, cs = [c] -> otip st (slice_of c)) ->
    safe (match cs with [c] => slice_of c | _ => None end) slice_of (h_jt_join j cs) st.
  Proof.
    intros T. destruct cs as [|c [|d cs]]; cbn [h_jt_join].
    - apply safe_panic.
    - apply safe_pure; [apply slice_cjoin|now apply T].
    - eapply safe_bind; [apply safe_new_group|]. intros g st' _ T'. now apply safe_keep.
  Qed.
End Cond.

(** * The whole heap *)
Record tips := mkTips { tC : option slice; tO : option slice; tJ : option slice; tV : option slice }.
Definition no_tips : tips := mkTips None None None None.
Definition htip (h : heap) (t : tips) : Prop := otip (hC h) (tC t) /\ otip (hO h) (tO t) /\ otip (hJ h) (tJ t) /\ otip (hV h) (tV t).
Definition hmoves (h h' : heap) (t t' : tips) : Prop :=
  moves (hC h) (hC h') (tC t) (tC t') /\ moves (hO h) (hO h') (tO t) (tO t') /\
  moves (hJ h) (hJ h') (tJ t) (tJ t') /\ moves (hV h) (hV h') (tV t) (tV t') /\
  (st_stale (hF h) = false -> st_stale (hF h') = false).
Definition hsafe {X} (t : tips) (tf : X -> tips) (m : HM X) (h : heap) : Prop :=
  hmoves h (snd (m h)) t (match fst (m h) with Ok x => tf x | Panic => no_tips end).
Lemma htip_none h : htip h no_tips.
Proof. repeat split. Qed.
Lemma hsafe_keep {X} t (tf : X -> tips) x h : tf x = t -> htip h t -> hsafe t tf (hret x) h.
Proof. intros E (A & B & C & D). unfold hsafe. cbn [hret fst snd]. rewrite E. split; [|split; [|split; [|split]]]; auto using moves_keep. Qed.
Lemma hsafe_panic {X} t (tf : X -> tips) h : hsafe t tf (hlift Panic) h.
Proof. unfold hsafe. cbn. split; [|split; [|split; [|split]]]; auto using moves_none. Qed.
Lemma hsafe_lift {X Y} t (tf : Y -> tips) (r : res X) k h : (forall x, r = Ok x -> hsafe t tf (k x) h) -> hsafe t tf (hbind (hlift r) k) h.
Proof. intros H. destruct r as [x|]; [exact (H x eq_refl)|apply (hsafe_panic t tf)]. Qed.
Lemma hsafe_bind {X Y} t tf tf' (m : HM X) (k : X -> HM Y) h : hsafe t tf m h ->
  (forall x h', htip h' (tf x) -> hsafe (tf x) tf' (k x) h') -> hsafe t tf' (hbind m k) h.
Proof.
  unfold hsafe, hbind. intros H K. destruct (m h) as [[x|] h1]; cbn [fst snd] in *; [|exact H].
  destruct H as (A & B & C & D & E). destruct (K x h1) as (A' & B' & C' & D' & E').
  { split; [apply A|]. split; [apply B|]. split; [apply C|apply D]. }
  split; [|split; [|split; [|split]]]; eauto using moves_trans.
Qed.
Ltac on_tips m st := intros S (A & B & C & D); unfold hsafe, onC, onO, onJ, onV, onF, safe in *; destruct (m st) as [[x|] st']; cbn in *;
  (split; [|split; [|split; [|split]]]); cbn; auto using moves_keep, moves_none.
Lemma hsafe_onC {X} t tf (m : M hcond X) h : safe (tC t) tf m (hC h) -> htip h t ->
  hsafe t (fun x => mkTips (tf x) (tO t) (tJ t) (tV t)) (onC m) h.
Proof. on_tips m (hC h). Qed.
Lemma hsafe_onO {X} t tf (m : M fsort X) h : safe (tO t) tf m (hO h) -> htip h t ->
  hsafe t (fun x => mkTips (tC t) (tf x) (tJ t) (tV t)) (onO m) h.
Proof. on_tips m (hO h). Qed.
Lemma hsafe_onJ {X} t tf (m : M joiner X) h : safe (tJ t) tf m (hJ h) -> htip h t ->
  hsafe t (fun x => mkTips (tC t) (tO t) (tf x) (tV t)) (onJ m) h.
Proof. on_tips m (hJ h). Qed.
Lemma hsafe_onV {X} t tf (m : M fvalue X) h : safe (tV t) tf m (hV h) -> htip h t ->
  hsafe t (fun x => mkTips (tC t) (tO t) (tJ t) (tf x)) (onV m) h.
Proof. on_tips m (hV h). Qed.
Lemma hsafe_onF {X} t (m : M fdef X) h : safe None (fun _ => None) m (hF h) -> htip h t -> hsafe t (fun _ => t) (onF m) h.
Proof. on_tips m (hF h); apply S. Qed.
Lemma moves_aside {A} (a b : store A) n o : moves a b None n -> otip a o -> moves a b o o.
Proof.
  intros M T. pose proof (otip_stays _ _ _ _ M T) as T'. destruct M as (S & P & L & _ & _). repeat split; auto.
  - intros i x E _. apply P; [exact E|discriminate].
  - intros s' E. right. eauto.
Qed.
Lemma hsafe_asideC {X} t tf (m : M hcond X) h : safe None tf m (hC h) -> htip h t -> hsafe t (fun _ => t) (onC m) h.
Proof.
  intros S (A & B & C & D). unfold hsafe, onC, safe in *. destruct (m (hC h)) as [[x|] st']; cbn in *;
  (split; [|split; [|split; [|split]]]); cbn; auto using moves_keep, moves_none, moves_weaken.
  - exact (moves_aside _ _ _ _ S A).
Qed.
Lemma safe_allocF (d : fdef) xs st : safe None (fun _ => None) (m_alloc d xs) st.
Proof. pose proof (safe_alloc d xs st) as H. unfold safe in *. cbn in *. exact (moves_drop _ _ _ _ H). Qed.

Definition tips_g (g : hgroup) : tips := mkTips (gtip g) None None None.
Definition tips_b (b : hbsel) : tips := mkTips (gtip (hb_where b)) None (Some (hb_joins b)) None.
Definition tips_m (m : hmsel) : tips := mkTips (gtip (hb_where (hm_base m))) (Some (hm_order m)) (Some (hb_joins (hm_base m))) None.
Definition tips_i (i : hins) : tips := mkTips None None None (Some (hi_values i)).
Definition tips_u (u : hupd) : tips := mkTips (gtip (hu_where u)) None None (Some (hu_values u)).
Definition tips_d (d : hdel) : tips := mkTips (gtip (hd_where d)) None None None.
Definition tips_of (v : hval) : tips :=
  match v with
  | XC c => mkTips (slice_of c) None None None
  | XB b => tips_b b
  | XM m => tips_m m
  | XS s => tips_b (hss_base s)
  | XN c => tips_b (hcs_base c)
  | XI i => tips_i i
  | XU u => tips_u u
  | XD d => tips_d d
  end.

Section Builders.
  Variable pol : policy.
  Lemma hsafe_select p h : hsafe no_tips tips_b (h_select_from p) h.
  Proof.
    unfold h_select_from. apply hsafe_lift. intros t _. eapply hsafe_bind; [apply (hsafe_onJ no_tips); [apply safe_alloc|apply htip_none]|].
    intros js h1 T1. eapply hsafe_bind; [apply hsafe_onC; [apply safe_new_group|exact T1]|]. cbn. intros g h2 T2.
    eapply hsafe_bind; [apply hsafe_onF; [apply safe_allocF|exact T2]|]. intros fs h3 T3. now apply hsafe_keep.
  Qed.
  Lemma hsafe_zero t h : hsafe t tips_b h_zero_bsel h.
  Proof.
    assert (H : hsafe no_tips tips_b h_zero_bsel h).
    { unfold h_zero_bsel. eapply hsafe_bind; [apply (hsafe_onJ no_tips); [apply safe_alloc|apply htip_none]|].
      intros js h1 T1. eapply hsafe_bind; [apply hsafe_onC; [apply safe_alloc|exact T1]|]. cbn. intros g h2 T2.
      eapply hsafe_bind; [apply hsafe_onF; [apply safe_allocF|exact T2]|]. intros fs h3 T3. now apply hsafe_keep. }
    destruct H as (A & B & C & D & E). split; [|split; [|split; [|split]]]; auto using moves_weaken.
  Qed.
  Lemma hsafe_fields b fs t f h : (forall b', hb_where b' = hb_where b -> hb_joins b' = hb_joins b -> f b' = t) -> htip h t ->
    hsafe t f (h_set_fields b fs) h.
  Proof.
    intros E T. unfold h_set_fields. eapply hsafe_bind; [apply hsafe_onF; [apply safe_allocF|exact T]|]. intros s h1 T1.
    apply hsafe_keep; [now apply E|exact T1].
  Qed.
  (** Where on any builder containing a base select *)
  Lemma hsafe_where b cs o h : htip h (mkTips (gtip (hb_where b)) o (Some (hb_joins b)) None) ->
    hsafe (mkTips (gtip (hb_where b)) o (Some (hb_joins b)) None) (fun b' => mkTips (gtip (hb_where b')) o (Some (hb_joins b')) None) (h_add_where pol b cs) h.
  Proof.
    intros T. unfold h_add_where. eapply hsafe_bind; [apply hsafe_onC; [apply safe_add_conditions; apply T|exact T]|]. cbn. intros g h1 T1.
    now apply hsafe_keep.
  Qed.
  Lemma tip_assign {A} (st : store A) s t i x : tip st s -> tip st t -> i < sl_len t -> tip (assign st t i x) s.
  Proof.
    intros (a & E & U & L) (b & Eb & Ub & Lb) Li. unfold assign. rewrite (the_arr_nth _ _ _ Eb). destruct (Nat.eq_dec (sl_arr s) (sl_arr t)) as [Q|Q].
    - eexists. cbn [st_arrs]. rewrite Q, set_nth_same by (apply nth_error_Some; congruence). split; [reflexivity|]. cbn.
      rewrite set_nth_length by lia. rewrite Q in E. assert (a = b) by congruence. subst. auto.
    - exists a. cbn [st_arrs]. rewrite set_nth_other; [auto|exact Q|apply nth_error_Some; congruence].
  Qed.
  Lemma moves_assign {A} (st : store A) t i x : tip st t -> i < sl_len t -> moves st (assign st t i x) (Some t) (Some t).
  Proof.
    intros T Li. pose proof (tip_assign st t t i x T T Li) as T'. destruct T as (b & Eb & Ub & Lb). repeat split; auto.
    - intros k a E N. unfold assign. cbn [st_arrs]. rewrite set_nth_other; [exact E|intros ->; now apply (N t)|apply nth_error_Some; congruence].
    - unfold assign. cbn [st_arrs]. rewrite set_nth_length; [lia|apply nth_error_Some; congruence].
    - intros s' E. right. exists t. injection E as <-. auto.
  Qed.
  Lemma hsafe_on b o l r h : htip h (mkTips (gtip (hb_where b)) o (Some (hb_joins b)) None) ->
    hsafe (mkTips (gtip (hb_where b)) o (Some (hb_joins b)) None) (fun b' => mkTips (gtip (hb_where b')) o (Some (hb_joins b')) None) (h_on b l r) h.
  Proof.
    intros (A & B & C & D). unfold hsafe, h_on. destruct (sl_len (hb_joins b)) as [|i] eqn:L; cbn [fst snd].
    - split; [|split; [|split; [|split]]]; cbn; auto using moves_none.
    - split; [|split; [|split; [|split]]]; cbn; auto using moves_keep. apply moves_assign; [exact C|lia].
  Qed.
  Lemma hsafe_join b o t jt l r h : htip h (mkTips (gtip (hb_where b)) o (Some (hb_joins b)) None) ->
    hsafe (mkTips (gtip (hb_where b)) o (Some (hb_joins b)) None) (fun b' => mkTips (gtip (hb_where b')) o (Some (hb_joins b')) None) (h_join pol b t jt l r) h.
  Proof.
    intros T. unfold h_join. eapply (hsafe_bind _ (fun b' => mkTips (gtip (hb_where b')) o (Some (hb_joins b')) None)).
    - unfold h_join_open. eapply hsafe_bind; [apply hsafe_onJ; [apply safe_append; apply T|exact T]|]. cbn. intros s h1 T1. now apply hsafe_keep.
    - intros b' h1 T1. now apply hsafe_on.
  Qed.
  Lemma hsafe_many b h : htip h (tips_b b) -> hsafe (tips_b b) tips_m (h_many_of b) h.
  Proof.
    intros T. unfold h_many_of. eapply hsafe_bind; [apply hsafe_onO; [apply safe_alloc|exact T]|]. cbn. intros s h1 T1. now apply hsafe_keep.
  Qed.
  Lemma hsafe_order m os h : htip h (tips_m m) -> hsafe (tips_m m) tips_m (h_add_order pol m os) h.
  Proof.
    intros T. unfold h_add_order. eapply hsafe_bind; [apply hsafe_onO; [apply safe_append; apply T|exact T]|]. cbn. intros s h1 T1. now apply hsafe_keep.
  Qed.
  Lemma hsafe_insert p h : hsafe no_tips tips_i (h_insert_into p) h.
  Proof.
    unfold h_insert_into. eapply hsafe_bind; [apply (hsafe_onV no_tips); [apply safe_alloc|apply htip_none]|]. cbn. intros s h1 T1. now apply hsafe_keep.
  Qed.
  Lemma hsafe_i_add i vs h : htip h (tips_i i) -> hsafe (tips_i i) tips_i (h_i_add pol i vs) h.
  Proof.
    intros T. unfold h_i_add. eapply hsafe_bind; [apply hsafe_onV; [apply safe_append; apply T|exact T]|]. cbn. intros s h1 T1. now apply hsafe_keep.
  Qed.
  Lemma hsafe_update p h : hsafe no_tips tips_u (h_update_ p) h.
  Proof.
    unfold h_update_. eapply hsafe_bind; [apply (hsafe_onC no_tips); [apply safe_new_group|apply htip_none]|]. cbn. intros g h1 T1.
    eapply hsafe_bind; [apply hsafe_onV; [apply safe_alloc|exact T1]|]. cbn. intros s h2 T2. now apply hsafe_keep.
  Qed.
  Lemma hsafe_u_add u vs h : htip h (tips_u u) -> hsafe (tips_u u) tips_u (h_u_add pol u vs) h.
  Proof.
    intros T. unfold h_u_add. eapply hsafe_bind; [apply hsafe_onV; [apply safe_append; apply T|exact T]|]. cbn. intros s h1 T1. now apply hsafe_keep.
  Qed.
  Lemma hsafe_u_where u cs h : htip h (tips_u u) -> hsafe (tips_u u) tips_u (h_u_where pol u cs) h.
  Proof.
    intros T. unfold h_u_where. eapply hsafe_bind; [apply hsafe_onC; [apply safe_add_conditions; apply T|exact T]|]. cbn. intros s h1 T1. now apply hsafe_keep.
  Qed.
  Lemma hsafe_delete p h : hsafe no_tips tips_d (h_delete_ p) h.
  Proof.
    unfold h_delete_. eapply hsafe_bind; [apply (hsafe_onC no_tips); [apply safe_new_group|apply htip_none]|]. cbn. intros g h1 T1. now apply hsafe_keep.
  Qed.
  Lemma hsafe_d_where u cs h : htip h (tips_d u) -> hsafe (tips_d u) tips_d (h_d_where pol u cs) h.
  Proof.
    intros T. unfold h_d_where. eapply hsafe_bind; [apply hsafe_onC; [apply safe_add_conditions; apply T|exact T]|]. cbn. intros s h1 T1. now apply hsafe_keep.
  Qed.
  Lemma safe_conditions g st : safe None (fun s => Some s) (h_conditions g) st.
  Proof. unfold h_conditions. apply (safe_alloc HNil (read st (hg_sl g)) st). Qed.
  Lemma safe_read_none s (st : store hcond) : safe None (fun _ => None) (m_read s) st.
  Proof. apply moves_none. Qed.
  Lemma hsafe_to_update tp b vs h : hsafe no_tips tips_u (h_to_update pol tp b vs) h.
  Proof.
    unfold h_to_update. eapply hsafe_bind; [apply hsafe_update|]. intros u h1 T1.
    eapply hsafe_bind; [eapply hsafe_asideC; [apply safe_conditions|exact T1]|]. intros s h2 T2.
    eapply hsafe_bind; [eapply hsafe_asideC; [apply safe_read_none|exact T2]|]. intros cs h3 T3.
    eapply hsafe_bind; [apply hsafe_u_where; exact T3|]. intros u2 h4 T4. now apply hsafe_u_add.
  Qed.
  Lemma hsafe_to_delete tp b h : hsafe no_tips tips_d (h_to_delete pol tp b) h.
  Proof.
    unfold h_to_delete. eapply hsafe_bind; [apply hsafe_delete|]. intros u h1 T1.
    eapply hsafe_bind; [eapply hsafe_asideC; [apply safe_conditions|exact T1]|]. intros s h2 T2.
    eapply hsafe_bind; [eapply hsafe_asideC; [apply safe_read_none|exact T2]|]. intros cs h3 T3. now apply hsafe_d_where.
  Qed.
  Lemma hsafe_to_insert b vs h : hsafe no_tips tips_i (h_to_insert pol b vs) h.
  Proof. unfold h_to_insert. eapply hsafe_bind; [apply hsafe_insert|]. intros i h1 T1. now apply hsafe_i_add. Qed.

  (** the value consumed by a call *)
  Definition taken (env : list (res hval)) (o : op) : tips :=
    match consumed o with
    | x :: _ => match look env x with Ok v => tips_of v | Panic => no_tips end
    | [] => no_tips
    end.
  Lemma hsafe_weaken {X} t (tf : X -> tips) m h : hsafe no_tips tf m h -> hsafe t tf m h.
  Proof. intros (A & B & C & D & E). split; [|split; [|split; [|split]]]; auto using moves_weaken. Qed.

  Lemma step_safe env o h : htip h (taken env o) -> hsafe (taken env o) tips_of (hstep pol env o) h.
  Proof.
    intros T.
    assert (RET : forall t f v h', tips_of v = t -> htip h' t -> f v = t -> @hsafe hval t f (hret v) h') by (intros; now apply hsafe_keep).
    assert (RC : forall t (m : M hcond hcond), safe (tC t) slice_of m (hC h) -> htip h t -> tO t = None -> tJ t = None -> tV t = None ->
      hsafe t tips_of (act c <- onC m; hret (XC c)) h).
    { intros t m S T' EO EJ EV. eapply hsafe_bind; [apply hsafe_onC; [exact S|exact T']|]. intros c h1 T1. apply hsafe_keep; [|exact T1].
      cbn. now rewrite EO, EJ, EV. }
    Ltac atx := match goal with |- context [hcond_at ?e ?x] => unfold hcond_at at 1 end.
    destruct o; unfold taken in *; cbn [consumed] in *; cbn [hstep].
    - now apply hsafe_keep.
    - now apply hsafe_keep.
    - apply hsafe_lift. intros cs _. eapply hsafe_bind; [apply (hsafe_onC no_tips); [apply safe_new_group|exact T]|]. cbn. intros g h1 T1. now apply hsafe_keep.
    - (* OJoinAll *)
      apply hsafe_lift. intros cs E. destruct xs as [|x [|y xs]].
      + cbn in E. injection E as <-. apply (RC no_tips); auto using htip_none. apply safe_panic.
      + cbn [mapM] in E. unfold hcond_at in E. destruct (look env x) as [v|]; [|discriminate]. cbn [bind] in E.
        destruct v; try discriminate. cbn in E. injection E as <-. apply RC; auto. apply (safe_jt_join j [c]).
        intros c0 E0. injection E0 as <-. apply T.
      + apply (RC no_tips); auto using htip_none. cbn [mapM] in E. destruct (hcond_at env x); [|discriminate]. cbn [bind] in E.
        destruct (hcond_at env y); [|discriminate]. cbn [bind] in E. destruct (mapM (hcond_at env) xs); [|discriminate]. cbn in E. injection E as <-.
        apply (safe_jt_join j (a :: a0 :: a1)). discriminate.
    - apply hsafe_lift. intros c E. unfold hcond_at in E. destruct (look env x) as [v|]; [|discriminate]. cbn [bind] in E. destruct v; try discriminate. injection E as <-.
      apply RC; auto. apply safe_pure; [apply slice_cjoin|apply T].
    - apply hsafe_lift. intros c E. unfold hcond_at in E. destruct (look env x) as [v|]; [|discriminate]. cbn [bind] in E. destruct v; try discriminate. injection E as <-.
      apply RC; auto. apply safe_pure; [apply slice_negate|apply T].
    - apply hsafe_lift. intros c E. unfold hcond_at in E. destruct (look env x) as [v|]; [|discriminate]. cbn [bind] in E. destruct v; try discriminate. injection E as <-.
      destruct c0 as [|l|j n s br]; cbn [as_hgroup]; [apply hsafe_panic|apply hsafe_panic|]. now apply hsafe_keep.
    - apply hsafe_lift. intros c E. unfold hcond_at in E. destruct (look env x) as [v|]; [|discriminate]. cbn [bind] in E. destruct v; try discriminate. injection E as <-.
      apply hsafe_lift. intros cs _. apply RC; auto. apply safe_and. apply T.
    - apply hsafe_lift. intros c E. unfold hcond_at in E. destruct (look env x) as [v|]; [|discriminate]. cbn [bind] in E. destruct v; try discriminate. injection E as <-.
      apply hsafe_lift. intros cs _. apply RC; auto. apply safe_or. apply T.
    - apply hsafe_lift. intros c E. unfold hcond_at in E. destruct (look env x) as [v|]; [|discriminate]. cbn [bind] in E. destruct v; try discriminate. injection E as <-.
      apply hsafe_lift. intros cs _. apply RC; auto. apply safe_m_and. apply T.
    - apply hsafe_lift. intros c E. unfold hcond_at in E. destruct (look env x) as [v|]; [|discriminate]. cbn [bind] in E. destruct v; try discriminate. injection E as <-.
      apply hsafe_lift. intros cs _. apply RC; auto. apply safe_m_or. apply T.
    - eapply hsafe_bind; [apply hsafe_select|]. intros b h1 T1. now apply hsafe_keep.
    - apply hsafe_lift. intros v E. rewrite E in *. destruct v; try apply hsafe_panic.
      + (* OBase of a select many drops the order slice *)
        destruct T as (A & B & C & D). unfold hsafe, hret. cbn. split; [|split; [|split; [|split]]]; cbn; auto using moves_keep, moves_none.
      + now apply hsafe_keep.
    - apply hsafe_lift. intros v E. rewrite E in *. destruct v; try apply hsafe_panic.
      + eapply (hsafe_bind _ tips_b); [apply hsafe_fields; [|exact T]|].
        * intros b' E1 E2. cbn. unfold tips_b. now rewrite E1, E2.
        * intros b' h1 T1. now apply hsafe_keep.
      + eapply (hsafe_bind _ (fun b' => tips_m (hm_set_base m b'))); [apply hsafe_fields; [|exact T]|].
        * intros b' E1 E2. cbn. unfold tips_m. cbn. now rewrite E1, E2.
        * intros b' h1 T1. now apply hsafe_keep.
      + eapply hsafe_bind; [apply hsafe_zero|]. intros z h1 T1. eapply (hsafe_bind _ tips_b); [apply hsafe_fields; [|exact T1]|].
        * intros b' E1 E2. unfold tips_b. now rewrite E1, E2.
        * intros b' h2 T2. now apply hsafe_keep.
    - apply hsafe_lift. intros v E. rewrite E in *. apply hsafe_lift. intros cs _. destruct v; try apply hsafe_panic.
      + eapply hsafe_bind; [apply hsafe_where; exact T|]. cbn. intros b' h1 T1. now apply hsafe_keep.
      + eapply hsafe_bind; [apply (hsafe_where (hm_base m)); exact T|]. cbn. intros b' h1 T1. now apply hsafe_keep.
      + eapply hsafe_bind; [apply (hsafe_where (hss_base s)); exact T|]. cbn. intros b' h1 T1. now apply hsafe_keep.
      + eapply hsafe_bind; [apply hsafe_u_where; exact T|]. cbn. intros b' h1 T1. now apply hsafe_keep.
      + eapply hsafe_bind; [apply hsafe_d_where; exact T|]. cbn. intros b' h1 T1. now apply hsafe_keep.
    - apply hsafe_lift. intros v E. rewrite E in *. destruct v; try apply hsafe_panic.
      eapply hsafe_bind; [apply hsafe_join; exact T|]. cbn. intros b' h1 T1. now apply hsafe_keep.
    - apply hsafe_lift. intros v E. rewrite E in *. destruct v; try apply hsafe_panic.
      + apply hsafe_lift. intros tt _. eapply hsafe_bind; [apply (hsafe_join (hm_base m)); exact T|]. cbn. intros b' h1 T1. now apply hsafe_keep.
      + apply hsafe_lift. intros tt _. eapply hsafe_bind; [apply (hsafe_join (hss_base s)); exact T|]. cbn. intros b' h1 T1. now apply hsafe_keep.
    - apply hsafe_lift. intros v E. rewrite E in *. destruct v; try apply hsafe_panic.
      eapply hsafe_bind; [apply hsafe_many; exact T|]. cbn. intros b' h1 T1. now apply hsafe_keep.
    - apply hsafe_lift. intros v E. rewrite E in *. destruct v; try apply hsafe_panic. now apply hsafe_keep.
    - apply hsafe_lift. intros v E. rewrite E in *. destruct v; try apply hsafe_panic. apply hsafe_lift. intros f _. now apply hsafe_keep.
    - apply hsafe_lift. intros v E. rewrite E in *. destruct v; try apply hsafe_panic.
      eapply hsafe_bind; [apply hsafe_order; exact T|]. cbn. intros b' h1 T1. now apply hsafe_keep.
    - apply hsafe_lift. intros v E. rewrite E in *. destruct v; try apply hsafe_panic. now apply hsafe_keep.
    - apply hsafe_lift. intros v E. rewrite E in *. destruct v; try apply hsafe_panic. now apply hsafe_keep.
    - eapply hsafe_bind; [apply hsafe_insert|]. intros b' h1 T1. now apply hsafe_keep.
    - apply hsafe_lift. intros v E. rewrite E in *. destruct v; try apply hsafe_panic.
      eapply hsafe_bind; [apply hsafe_i_add; exact T|]. cbn. intros b' h1 T1. now apply hsafe_keep.
    - eapply hsafe_bind; [apply hsafe_update|]. intros b' h1 T1. now apply hsafe_keep.
    - apply hsafe_lift. intros v E. rewrite E in *. destruct v; try apply hsafe_panic.
      eapply hsafe_bind; [apply hsafe_u_add; exact T|]. cbn. intros b' h1 T1. now apply hsafe_keep.
    - eapply hsafe_bind; [apply hsafe_delete|]. intros b' h1 T1. now apply hsafe_keep.
    - apply hsafe_lift. intros v E. destruct v; try apply hsafe_panic;
        (eapply hsafe_bind; [apply hsafe_to_update|]; cbn; intros b' h1 T1; now apply hsafe_keep).
    - apply hsafe_lift. intros v E. destruct v; try apply hsafe_panic;
        (eapply hsafe_bind; [apply hsafe_to_delete|]; cbn; intros b' h1 T1; now apply hsafe_keep).
    - apply hsafe_lift. intros v E. destruct v; try apply hsafe_panic.
      eapply hsafe_bind; [apply hsafe_to_insert|]; cbn; intros b' h1 T1; now apply hsafe_keep.
  Qed.
End Builders.

(** * Whole programs *)

(** of all values not yet extended: each is the tip of its array, and no two share one *)
Definition Inv {A} (st : store A) (ts : list (option slice)) (used : list nat) : Prop :=
  (forall i s, nth_error ts i = Some (Some s) -> ~ In i used -> tip st s) /\
  (forall i j s t, i <> j -> nth_error ts i = Some (Some s) -> nth_error ts j = Some (Some t) -> ~ In i used -> ~ In j used -> sl_arr s <> sl_arr t).
Definition at_tip (ts : list (option slice)) (xs : list nat) : option slice :=
  match xs with x :: _ => match nth_error ts x with Some o => o | None => None end | [] => None end.

Lemma nth_snoc {X} (l : list X) a i o : nth_error (l ++ [a])%list i = Some o -> nth_error l i = Some o \/ i = length l /\ o = a.
Proof.
  intros H. destruct (Nat.lt_ge_cases i (length l)) as [L|L]; [left; now rewrite nth_error_app1 in H|].
  rewrite nth_error_app2 in H by exact L. destruct (i - length l) as [|k] eqn:E; cbn in H; [|now destruct k].
  right. split; [lia|congruence].
Qed.
Lemma Inv_step {A} (st st' : store A) ts used xs new : Inv st ts used -> length xs <= 1 -> (forall x, In x xs -> ~ In x used) ->
  moves st st' (at_tip ts xs) new -> Inv st' (ts ++ [new])%list (xs ++ used)%list.
Proof.
  intros [T D] L F (S & P & G & O & W).
  assert (K : forall i s, nth_error ts i = Some (Some s) -> ~ In i (xs ++ used)%list ->
    tip st s /\ (forall o, at_tip ts xs = Some o -> sl_arr o <> sl_arr s)).
  { intros i s E N. split; [apply (T i s E); intros I; apply N, in_or_app; now right|].
    intros o Eo. destruct xs as [|x xs]; [discriminate|]. cbn in Eo. destruct (nth_error ts x) as [o'|] eqn:Ex; [|discriminate]. subst o'.
    apply (D x i o s); auto.
    - intros ->. apply N. now left.
    - apply F. now left.
    - intros I. apply N, in_or_app. now right. }
  assert (Kn : forall i s t, nth_error ts i = Some (Some s) -> ~ In i (xs ++ used)%list -> new = Some t -> sl_arr s <> sl_arr t).
  { intros i s t E N Et. destruct (K i s E N) as [Ts Q]. destruct (W t Et) as [H|(o & Eo & Ho)].
    - pose proof (tip_bound _ _ Ts). lia.
    - rewrite Ho. intros H. now apply (Q o Eo). }
  split.
  - intros i s E N. destruct (nth_snoc _ _ _ _ E) as [E'|[_ E']]; [|subst new; exact O].
    destruct (K i s E' N) as [(a & Ea & Ua & La) Q]. exists a. split; [|auto]. apply P; auto.
  - intros i j s t NE Ei Ej Ni Nj. destruct (nth_snoc _ _ _ _ Ei) as [Ei'|[Hi Ei']], (nth_snoc _ _ _ _ Ej) as [Ej'|[Hj Ej']].
    + apply (D i j s t NE Ei' Ej'); intros I; [apply Ni|apply Nj]; apply in_or_app; now right.
    + now apply (Kn i s t).
    + intros H. symmetry in H. revert H. now apply (Kn j t s).
    + lia.
Qed.
Definition tips_r (r : res hval) : tips := match r with Ok v => tips_of v | Panic => no_tips end.
Definition HInv (h : heap) (env : list (res hval)) (used : list nat) : Prop :=
  Inv (hC h) (map (fun r => tC (tips_r r)) env) used /\ Inv (hO h) (map (fun r => tO (tips_r r)) env) used /\
  Inv (hJ h) (map (fun r => tJ (tips_r r)) env) used /\ Inv (hV h) (map (fun r => tV (tips_r r)) env) used.
Lemma consumed_one o : length (consumed o) <= 1.
Proof. destruct o; cbn; try lia. destruct xs as [|x [|y xs]]; cbn; lia. Qed.
Lemma taken_at env o : let t := taken env o in
  tC t = at_tip (map (fun r => tC (tips_r r)) env) (consumed o) /\ tO t = at_tip (map (fun r => tO (tips_r r)) env) (consumed o) /\
  tJ t = at_tip (map (fun r => tJ (tips_r r)) env) (consumed o) /\ tV t = at_tip (map (fun r => tV (tips_r r)) env) (consumed o).
Proof.
  cbn zeta. unfold taken, at_tip. destruct (consumed o) as [|x l]; [auto|]. rewrite !nth_error_map.
  assert (E : look env x = match nth_error env x with Some r => r | None => Panic end).
  { unfold look. destruct (nth_error env x) as [r|] eqn:E; [now apply nth_error_nth|]. now apply nth_overflow, nth_error_None. }
  rewrite E. destruct (nth_error env x) as [[v|]|]; cbn; auto.
Qed.
Lemma Inv_at {A} (st : store A) ts used xs : Inv st ts used -> (forall x, In x xs -> ~ In x used) -> otip st (at_tip ts xs).
Proof.
  intros [T _] F. destruct xs as [|x xs]; [exact I|]. cbn. destruct (nth_error ts x) as [[s|]|] eqn:E; cbn; auto.
  apply (T x s E). apply F. now left.
Qed.

Theorem linear_runs pol ops : forall env h used, NoDup (flat_map consumed ops) -> (forall x, In x (flat_map consumed ops) -> ~ In x used) ->
  HInv h env used -> stale h = false -> stale (snd (hrun pol ops env h)) = false.
Proof.
  induction ops as [|o ops IH]; intros env h used ND F HI S; [exact S|]. cbn [hrun]. cbn [flat_map] in *.
  assert (F1 : forall x, In x (consumed o) -> ~ In x used) by (intros x I; apply F, in_or_app; now left).
  destruct HI as (I1 & I2 & I3 & I4). pose proof (taken_at env o) as (Q1 & Q2 & Q3 & Q4).
  assert (T : htip h (taken env o)).
  { unfold htip. rewrite Q1, Q2, Q3, Q4. repeat split; eapply Inv_at; eauto. }
  pose proof (step_safe pol env o h T) as (M1 & M2 & M3 & M4 & M5). destruct (hstep pol env o h) as [r h'] eqn:E. cbn [fst snd] in *.
  assert (Er : match r with Ok x => tips_of x | Panic => no_tips end = tips_r r) by (now destruct r). rewrite Er in *.
  rewrite Q1 in M1. rewrite Q2 in M2. rewrite Q3 in M3. rewrite Q4 in M4.
  apply (IH _ _ (consumed o ++ used)%list).
  - clear -ND. induction (consumed o) as [|y l IHl]; [exact ND|]. cbn in ND. inversion ND; auto.
  - intros x Ix I. apply in_app_or in I. destruct I as [I|I].
    + clear -ND Ix I. induction (consumed o) as [|y l IHl]; [destruct I|]. cbn in ND. inversion ND; subst. destruct I as [->|I]; [apply H1, in_or_app; now right|auto].
    + apply (F x); [apply in_or_app; now right|exact I].
  - unfold HInv. rewrite !map_app. cbn [map]. pose proof (consumed_one o). repeat split; eapply Inv_step; eauto.
  - unfold stale in *. apply orb_false_elim in S. destruct S as [S SF]. apply orb_false_elim in S. destruct S as [S SV].
    apply orb_false_elim in S. destruct S as [S SJ]. apply orb_false_elim in S. destruct S as [SC SO].
    rewrite (proj1 M1 SC), (proj1 M2 SO), (proj1 M3 SJ), (proj1 M4 SV), (M5 SF). reflexivity.
Qed.
Theorem linear_fresh pol ops : linear ops -> stale (snd (hrun pol ops [] empty_heap)) = false.
Proof.
  intros L. apply (linear_runs pol ops [] empty_heap []); auto.
  repeat split; intros i; try (intros j); intros; destruct i; discriminate.
Qed.
