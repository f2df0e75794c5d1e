(** Facts about the slice heap: what append, alloc and assign change, and that values
    built without overwriting (ghost flag not set) denote their purely functional reading. *)
From Coq Require Import String Ascii List Bool Arith NArith ZArith Lia.
From Verif Require Import GoStr Value Names Cond Build Heap.
Import ListNotations.
Local Open Scope string_scope.
Local Open Scope nat_scope.

(** * Lists *)
Lemma set_nth_length {A} (n : nat) (x : A) l : n < length l -> length (set_nth n x l) = length l.
Proof. intros H. unfold set_nth. rewrite app_length. cbn [length]. rewrite firstn_length, skipn_length. lia. Qed.
Lemma set_nth_same {A} (n : nat) (x : A) l : n < length l -> nth_error (set_nth n x l) n = Some x.
Proof.
  intros H. unfold set_nth. rewrite nth_error_app2; rewrite firstn_length, Nat.min_l by lia; [|lia].
  now rewrite Nat.sub_diag.
Qed.
Lemma nth_error_firstn {A} (l : list A) k n : n < k -> nth_error (firstn k l) n = nth_error l n.
Proof.
  revert k n. induction l as [|x l IH]; intros [|k] [|n] H; cbn; try reflexivity; try lia. apply IH. lia.
Qed.
Lemma nth_error_skipn' {A} (l : list A) k n : nth_error (skipn k l) n = nth_error l (k + n).
Proof. revert l. induction k as [|k IH]; intros [|x l]; cbn; try reflexivity; [now destruct n|apply IH]. Qed.
Lemma set_nth_other {A} (n k : nat) (x : A) l : k <> n -> k < length l -> nth_error (set_nth n x l) k = nth_error l k.
Proof.
  intros N H. unfold set_nth. destruct (lt_dec k n) as [L|L].
  - rewrite nth_error_app1 by (rewrite firstn_length; lia). apply nth_error_firstn, L.
  - destruct (le_dec (length l) n) as [G|G]; [lia|].
    rewrite nth_error_app2 by (rewrite firstn_length; lia). rewrite firstn_length, Nat.min_l by lia.
    destruct (k - n) as [|m] eqn:E; [lia|]. cbn [nth_error]. rewrite nth_error_skipn'. f_equal. lia.
Qed.
Lemma write_at_length {A} n (xs l : list A) : n + length xs <= length l -> length (write_at n xs l) = length l.
Proof. intros H. unfold write_at. rewrite !app_length, firstn_length, skipn_length. lia. Qed.
Lemma write_at_below {A} n (xs l : list A) k : k <= n -> n <= length l -> firstn k (write_at n xs l) = firstn k l.
Proof.
  intros K H. unfold write_at. rewrite firstn_app, firstn_length, Nat.min_l by lia.
  replace (k - n) with 0 by lia. rewrite firstn_O, app_nil_r, firstn_firstn. now rewrite Nat.min_l by lia.
Qed.
Lemma write_at_read {A} n (xs l : list A) : n + length xs <= length l ->
  firstn (n + length xs) (write_at n xs l) = (firstn n l ++ xs)%list.
Proof.
  intros H. unfold write_at. rewrite app_assoc. rewrite firstn_app.
  rewrite app_length, firstn_length, Nat.min_l by lia. rewrite Nat.sub_diag, firstn_O, app_nil_r.
  apply firstn_all2. rewrite app_length, firstn_length. lia.
Qed.
Lemma firstn_le {A} k m (l l' : list A) : k <= m -> firstn m l = firstn m l' -> firstn k l = firstn k l'.
Proof.
  intros H E. replace k with (Nat.min k m) by lia. rewrite <- !firstn_firstn. now rewrite E.
Qed.

(** * Denotation *)

(** the slice [s] is in range and has elements [xs] *)
Definition DenL {A} (st : store A) (s : slice) (xs : list A) : Prop :=
  exists a, nth_error (st_arrs st) (sl_arr s) = Some a /\ sl_len s <= a_used a /\
            a_used a <= length (a_cells a) /\ firstn (sl_len s) (a_cells a) = xs.

Lemma DenL_read {A} (st : store A) s xs : DenL st s xs -> read st s = xs.
Proof.
  intros (a & E & _ & _ & F). unfold read, the_arr. now rewrite (nth_error_nth _ _ _ E).
Qed.
Lemma DenL_len {A} (st : store A) s xs : DenL st s xs -> length xs = sl_len s.
Proof. intros (a & E & L1 & L2 & F). rewrite <- F, firstn_length. lia. Qed.
Lemma DenL_fun {A} (st : store A) s xs ys : DenL st s xs -> DenL st s ys -> xs = ys.
Proof. intros H K. now rewrite <- (DenL_read _ _ _ H), (DenL_read _ _ _ K). Qed.

(** the interface value [h] denotes the finite condition tree [c] *)
Fixpoint Rep (st : store hcond) (h : hcond) (c : cond) {struct c} : Prop :=
  match c, h with
  | CNil, HNil => True
  | CLeaf l, HLeaf l' => l' = l
  | CGrp j n cs br, HGrp j' n' s br' =>
      j' = j /\ n' = n /\ br' = br /\
      exists hs, DenL st s hs /\
        (fix all (cs : list cond) (hs : list hcond) {struct cs} : Prop :=
           match cs, hs with
           | [], [] => True
           | c :: r, h :: hr => Rep st h c /\ all r hr
           | _, _ => False
           end) cs hs
  | _, _ => False
  end.
Definition Reps (st : store hcond) (hs : list hcond) (cs : list cond) : Prop := Forall2 (Rep st) hs cs.
Lemma Rep_grp st h j n cs br : Rep st h (CGrp j n cs br) <->
  exists s hs, h = HGrp j n s br /\ DenL st s hs /\ Reps st hs cs.
Proof.
  assert (A : forall cs hs, (fix all (cs : list cond) (hs : list hcond) {struct cs} : Prop :=
           match cs, hs with
           | [], [] => True
           | c :: r, h :: hr => Rep st h c /\ all r hr
           | _, _ => False
           end) cs hs <-> Reps st hs cs).
  { clear. induction cs as [|c cs IH]; intros [|h hs]; split; intros H.
    - constructor.
    - exact I.
    - destruct H.
    - inversion H.
    - destruct H.
    - inversion H.
    - destruct H as [H1 H2]. constructor; [exact H1|]. now apply IH.
    - inversion H; subst. split; [assumption|]. now apply IH. }
  destruct h as [|l|j' n' s br']; cbn [Rep]; split; intros H.
  - destruct H. 
  - destruct H as (s & hs & E & _). discriminate.
  - destruct H.
  - destruct H as (s & hs & E & _). discriminate.
  - destruct H as (-> & -> & -> & hs & D & R). exists s, hs. repeat split; [exact D|]. now apply A.
  - destruct H as (s0 & hs & E & D & R). injection E as -> -> -> ->. repeat split. exists hs. split; [exact D|]. now apply A.
Qed.

(** groups *)
Definition RepG (st : store hcond) (h : hgroup) (g : group) : Prop :=
  hg_join h = g_join g /\ hg_neg h = g_neg g /\ hg_br h = g_br g /\
  exists hs, DenL st (hg_sl h) hs /\ Reps st hs (g_cs g).
Lemma RepG_of st h g : Rep st (of_hg h) (of_g g) <-> RepG st h g.
Proof.
  destruct h as [j n s br], g as [j' n' cs br']. unfold of_hg, of_g, RepG. cbn [hg_join hg_neg hg_sl hg_br g_join g_neg g_cs g_br].
  rewrite Rep_grp. split.
  - intros (s0 & hs & E & D & R). injection E as -> -> -> ->. repeat split. eauto.
  - intros (-> & -> & -> & hs & D & R). exists s, hs. auto.
Qed.

(** * What changes *)

(** every cell that belongs to some slice ever handed out is preserved *)
Definition Ext {A} (st st' : store A) : Prop :=
  forall i a, nth_error (st_arrs st) i = Some a -> a_used a <= length (a_cells a) ->
  exists a', nth_error (st_arrs st') i = Some a' /\ a_used a <= a_used a' /\ a_used a' <= length (a_cells a') /\
             firstn (a_used a) (a_cells a') = firstn (a_used a) (a_cells a).
(** only the cells of the array of [s] behind the end of [s] may change (and new arrays
    may appear); the ghost flag stays set *)
Definition Frame {A} (s : slice) (st st' : store A) : Prop :=
  (st_stale st' = false -> st_stale st = false) /\
  forall i a, nth_error (st_arrs st) i = Some a ->
  exists a', nth_error (st_arrs st') i = Some a' /\ length (a_cells a') = length (a_cells a) /\
             a_used a <= a_used a' /\ (a_used a <= length (a_cells a) -> a_used a' <= length (a_cells a')) /\
             (i <> sl_arr s -> a_cells a' = a_cells a) /\
             firstn (sl_len s) (a_cells a') = firstn (sl_len s) (a_cells a).

Lemma Ext_refl {A} (st : store A) : Ext st st.
Proof. intros i a E U. exists a. auto. Qed.
Lemma Ext_trans {A} (s1 s2 s3 : store A) : Ext s1 s2 -> Ext s2 s3 -> Ext s1 s3.
Proof.
  intros H K i a E U. destruct (H i a E U) as (b & Eb & U1 & U2 & F). destruct (K i b Eb U2) as (c & Ec & V1 & V2 & G).
  exists c. split; [exact Ec|]. split; [lia|]. split; [exact V2|]. rewrite <- F. apply (firstn_le _ (a_used b)); [exact U1|exact G].
Qed.
Lemma DenL_ext {A} (st st' : store A) s xs : Ext st st' -> DenL st s xs -> DenL st' s xs.
Proof.
  intros H (a & E & L1 & L2 & F). destruct (H _ _ E L2) as (a' & E' & U1 & U2 & G). exists a'.
  split; [exact E'|]. split; [lia|]. split; [exact U2|]. rewrite <- F. apply (firstn_le _ (a_used a)); [exact L1|exact G].
Qed.
Lemma Rep_ext st st' : Ext st st' -> forall c h, Rep st h c -> Rep st' h c.
Proof.
  intros X. fix IH 1. intros [|l|j n cs br] h R.
  - destruct h; cbn in *; auto.
  - destruct h; cbn in *; auto.
  - apply Rep_grp in R. destruct R as (s & hs & -> & D & R). apply Rep_grp. exists s, hs.
    split; [reflexivity|]. split; [exact (DenL_ext _ _ _ _ X D)|].
    clear D. revert cs hs R. fix go 1. intros [|c cs] hs R; inversion R; subst; constructor.
    + apply IH. assumption.
    + apply go. assumption.
Qed.
Lemma Reps_ext st st' hs cs : Ext st st' -> Reps st hs cs -> Reps st' hs cs.
Proof. intros X R. induction R; constructor; [now apply (Rep_ext _ _ X)|assumption]. Qed.
Lemma RepG_ext st st' h g : Ext st st' -> RepG st h g -> RepG st' h g.
Proof. intros X R. apply RepG_of. apply (Rep_ext _ _ X). now apply RepG_of. Qed.

Lemma Frame_refl {A} s (st : store A) : Frame s st st.
Proof. split; [auto|]. intros i a E. exists a. repeat split; auto. Qed.
Lemma Frame_trans {A} s (s1 s2 s3 : store A) : Frame s s1 s2 -> Frame s s2 s3 -> Frame s s1 s3.
Proof.
  intros [F H] [G K]. split; [auto|]. intros i a E.
  destruct (H i a E) as (b & Eb & L1 & U1 & V1 & C1 & P1). destruct (K i b Eb) as (c & Ec & L2 & U2 & V2 & C2 & P2).
  exists c. split; [exact Ec|]. split; [lia|]. split; [lia|]. split; [auto|]. split; [|congruence].
  intros N. rewrite (C2 N), (C1 N). reflexivity.
Qed.

(** * The three primitives *)
Section Prim.
  Context {A : Type} (d : A) (pol : policy).

  Lemma alloc_frame s st (xs : list A) n : Frame s st (snd (alloc d st xs n)).
  Proof.
    split; [auto|]. intros i a E. exists a. cbn [alloc snd st_arrs].
    rewrite nth_error_app1 by (apply nth_error_Some; congruence). repeat split; auto.
  Qed.
  Lemma alloc_ext st (xs : list A) n : Ext st (snd (alloc d st xs n)).
  Proof.
    intros i a E U. exists a. cbn [alloc snd st_arrs].
    rewrite nth_error_app1 by (apply nth_error_Some; congruence). auto.
  Qed.
  Lemma alloc_den st (xs : list A) n : DenL (snd (alloc d st xs n)) (fst (alloc d st xs n)) xs.
  Proof.
    cbn [alloc fst snd]. exists (mkA (xs ++ repeat d n)%list (length xs)). cbn [sl_arr sl_len st_arrs a_used a_cells].
    split; [rewrite nth_error_app2 by lia; now rewrite Nat.sub_diag|].
    split; [lia|]. split; [rewrite app_length; lia|].
    rewrite firstn_app, Nat.sub_diag, firstn_O, app_nil_r. apply firstn_all.
  Qed.
  Lemma alloc_stale st (xs : list A) n : st_stale (snd (alloc d st xs n)) = st_stale st.
  Proof. reflexivity. Qed.

  Lemma the_arr_nth st s a : nth_error (st_arrs st) (sl_arr s) = Some a -> @the_arr A st s = a.
  Proof. intros E. unfold the_arr. now rewrite (nth_error_nth _ _ _ E). Qed.

  Lemma append_frame st s (xs : list A) : Frame s st (snd (append d pol st s xs)).
  Proof.
    unfold append. destruct (_ <=? _) eqn:C; [|apply alloc_frame]. apply Nat.leb_le in C. cbn [snd]. split.
    - cbn [st_stale]. intros H. now apply orb_false_iff in H.
    - intros i a E. cbn [st_arrs]. destruct (Nat.eq_dec i (sl_arr s)) as [->|N].
      + rewrite set_nth_same by (apply nth_error_Some; congruence). rewrite (the_arr_nth _ _ _ E) in C |- *.
        eexists. split; [reflexivity|]. cbn [a_cells a_used].
        split; [now apply write_at_length|]. split; [lia|]. split; [rewrite write_at_length by exact C; lia|].
        split; [congruence|]. apply write_at_below; lia.
      + exists a. rewrite set_nth_other; [|exact N|apply nth_error_Some; congruence]. repeat split; auto.
  Qed.
  Lemma append_den st s (xs ys : list A) : DenL st s xs ->
    DenL (snd (append d pol st s ys)) (fst (append d pol st s ys)) (xs ++ ys)%list.
  Proof.
    intros D. pose proof (DenL_read _ _ _ D) as R. pose proof (DenL_len _ _ _ D) as L.
    unfold append. destruct (_ <=? _) eqn:C.
    - apply Nat.leb_le in C. destruct D as (a & E & L1 & L2 & F). rewrite (the_arr_nth _ _ _ E) in C |- *. cbn [fst snd].
      eexists. cbn [sl_arr sl_len st_arrs]. rewrite set_nth_same by (apply nth_error_Some; congruence).
      split; [reflexivity|]. cbn [a_cells a_used]. split; [lia|]. split; [rewrite write_at_length by exact C; lia|].
      rewrite write_at_read by exact C. now rewrite F.
    - rewrite R. apply alloc_den.
  Qed.
  Lemma append_ext st s (xs ys : list A) : DenL st s xs -> st_stale (snd (append d pol st s ys)) = false ->
    Ext st (snd (append d pol st s ys)).
  Proof.
    intros D NS. unfold append in *. destruct (_ <=? _) eqn:C; [|apply alloc_ext]. apply Nat.leb_le in C.
    destruct D as (a & E & L1 & L2 & F). rewrite (the_arr_nth _ _ _ E) in *. cbn [snd st_stale] in NS |- *.
    apply orb_false_iff in NS. destruct NS as [_ NS].
    intros i b Eb U. cbn [st_arrs]. destruct (Nat.eq_dec i (sl_arr s)) as [->|N].
    - assert (b = a) by congruence. subst b. rewrite set_nth_same by (apply nth_error_Some; congruence).
      eexists. split; [reflexivity|]. cbn [a_cells a_used]. split; [lia|]. split; [rewrite write_at_length by exact C; lia|].
      apply andb_false_iff in NS. destruct NS as [NS|NS].
      + apply Nat.ltb_ge in NS. apply write_at_below; lia.
      + apply Nat.ltb_ge in NS. destruct ys as [|y ys]; [|cbn in NS; lia]. unfold write_at. cbn [length app].
        rewrite Nat.add_0_r. now rewrite firstn_skipn.
    - exists b. rewrite set_nth_other; [auto|exact N|apply nth_error_Some; congruence].
  Qed.
End Prim.

(** * Trees are determined, and a framed change does not touch them *)
Lemma Rep_fun st : forall c h c', Rep st h c -> Rep st h c' -> c = c'.
Proof.
  fix IH 1. intros [|l|j n cs br] h c' R R'.
  - destruct h; try (destruct R; fail). destruct c'; cbn in R'; try (destruct R'; fail). reflexivity.
  - destruct h; try (destruct R; fail). cbn in R. destruct c'; cbn in R'; try (destruct R'; fail). congruence.
  - apply Rep_grp in R. destruct R as (s & hs & -> & D & R). destruct c' as [|l'|j' n' cs' br']; try (cbn in R'; destruct R'; fail).
    apply Rep_grp in R'. destruct R' as (s' & hs' & E & D' & R'). injection E as -> -> <- ->.
    pose proof (DenL_fun _ _ _ _ D D') as <-. f_equal. clear D D'.
    revert cs hs cs' R R'. fix go 1. intros [|c cs] hs cs' R R'; inversion R; subst; inversion R'; subst; [reflexivity|].
    f_equal; [eapply IH; eassumption|eapply go; eassumption].
Qed.

(** number of nodes *)
Fixpoint nodes (c : cond) : nat :=
  match c with
  | CGrp _ _ cs _ => S ((fix go (cs : list cond) : nat := match cs with [] => 0 | c :: r => nodes c + go r end) cs)
  | _ => 1
  end.
Fixpoint nodes_l (cs : list cond) : nat := match cs with [] => 0 | c :: r => nodes c + nodes_l r end.
Lemma nodes_grp j n cs br : nodes (CGrp j n cs br) = S (nodes_l cs).
Proof. reflexivity. Qed.
Lemma nodes_l_app a b : nodes_l (a ++ b)%list = nodes_l a + nodes_l b.
Proof. induction a; cbn; lia. Qed.
Lemma nodes_l_in c cs : In c cs -> nodes c <= nodes_l cs.
Proof. induction cs as [|x cs IH]; cbn; [tauto|]. intros [->|H]; [lia|]. specialize (IH H). lia. Qed.

Lemma DenL_frame {A} s (st st' : store A) t xs : Frame s st st' -> DenL st t xs ->
  (sl_arr t = sl_arr s -> sl_len t <= sl_len s) -> DenL st' t xs.
Proof.
  intros [_ H] (a & E & L1 & L2 & F) K. destruct (H _ _ E) as (a' & E' & L & U & V & C & P).
  exists a'. split; [exact E'|]. split; [lia|]. split; [auto|].
  destruct (Nat.eq_dec (sl_arr t) (sl_arr s)) as [Q|Q].
  - rewrite <- F. apply (firstn_le _ (sl_len s)); auto.
  - now rewrite (C Q).
Qed.
Lemma Reps_firstn st hs cs k : Reps st hs cs -> Reps st (firstn k hs) (firstn k cs).
Proof. intros R. revert k. induction R; intros [|k]; cbn; constructor; auto. apply IHR. Qed.
Lemma Reps_fun st hs cs cs' : Reps st hs cs -> Reps st hs cs' -> cs = cs'.
Proof. intros R. revert cs'. induction R; intros cs' R'; inversion R'; subst; [reflexivity|]. f_equal; [eapply Rep_fun; eassumption|auto]. Qed.

(** a tree smaller than the one of [s] contains no longer slice on the same array *)
Lemma Rep_frame_small st st' s hs cs : DenL st s hs -> Reps st hs cs -> Frame s st st' ->
  forall c h, nodes c <= nodes_l cs -> Rep st h c -> Rep st' h c.
Proof.
  intros D R X. fix IH 1. intros [|l|j n cs' br] h N Q.
  - destruct h; cbn in *; auto.
  - destruct h; cbn in *; auto.
  - rewrite nodes_grp in N. apply Rep_grp in Q. destruct Q as (t & ht & -> & Dt & Rt). apply Rep_grp. exists t, ht.
    split; [reflexivity|]. split.
    + apply (DenL_frame s st); [exact X|exact Dt|]. intros E.
      destruct (le_lt_dec (sl_len t) (sl_len s)) as [L|L]; [exact L|]. exfalso.
      assert (P : firstn (sl_len s) ht = hs).
      { destruct D as (a & Ea & L1 & L2 & F). destruct Dt as (b & Eb & M1 & M2 & G). rewrite E in Eb.
        assert (b = a) by congruence. subst b. rewrite <- G, <- F, firstn_firstn. now rewrite Nat.min_l by lia. }
      pose proof (Reps_firstn _ _ _ (sl_len s) Rt) as Rf. rewrite P in Rf.
      pose proof (Reps_fun _ _ _ _ R Rf) as Q.
      assert (F : nodes_l cs' = nodes_l (firstn (sl_len s) cs') + nodes_l (skipn (sl_len s) cs'))
        by (rewrite <- nodes_l_app, firstn_skipn; reflexivity).
      rewrite <- Q in F.
      lia.
    + assert (N' : nodes_l cs' <= nodes_l cs) by lia. clear N Dt.
      revert cs' ht N' Rt. fix go 1. intros [|c cs'] ht N Rt; inversion Rt; subst; constructor.
      * apply IH; [|assumption]. cbn [nodes_l] in N. lia.
      * apply go; [|assumption]. cbn [nodes_l] in N. lia.
Qed.
Lemma RepG_frame st st' h g : Frame (hg_sl h) st st' -> RepG st h g -> RepG st' h g.
Proof.
  intros X (E1 & E2 & E3 & hs & D & R). split; [exact E1|]. split; [exact E2|]. split; [exact E3|]. exists hs.
  split; [apply (DenL_frame (hg_sl h) st); auto|].
  assert (K : forall hs' cs', (forall c, In c cs' -> nodes c <= nodes_l (g_cs g)) -> Reps st hs' cs' -> Reps st' hs' cs').
  { intros hs' cs' N Q. induction Q; constructor.
    - apply (Rep_frame_small st st' (hg_sl h) hs (g_cs g)); auto. apply N. now left.
    - apply IHQ. intros c Hc. apply N. now right. }
  apply K; [|exact R]. intros c Hc. now apply nodes_l_in.
Qed.
