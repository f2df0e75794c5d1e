(** Slices of the caller.  A variadic call x.Where(s...) hands the callee the caller's own
    array.  Here the arrays that the caller owns are kept apart from those of the library:
    no library value points into them and no library call writes to them. *)
From Coq Require Import String Ascii List Bool Arith NArith ZArith Lia.
From Verif Require Import GoStr Value Names Cond Build Heap HeapFacts HeapOps HeapBuild HeapRun.
Import ListNotations.
Local Open Scope string_scope.
Local Open Scope nat_scope.

(** * Stores *)

(** [F]: the arrays of the caller *)
Definition okS {A} (F : nat -> Prop) (st : store A) (s : slice) : Prop := ~ F (sl_arr s) /\ sl_arr s < length (st_arrs st).
Definition Mono {A} (F : nat -> Prop) (st st' : store A) : Prop :=
  length (st_arrs st) <= length (st_arrs st') /\ forall i, F i -> i < length (st_arrs st) -> nth_error (st_arrs st') i = nth_error (st_arrs st) i.
Lemma Mono_refl {A F} (st : store A) : Mono F st st.
Proof. split; auto. Qed.
Lemma Mono_trans {A F} (a b c : store A) : Mono F a b -> Mono F b c -> Mono F a c.
Proof. intros [L K] [L' K']. split; [lia|]. intros i Fi Li. rewrite K' by (auto; lia). auto. Qed.
Lemma okS_mono {A F} (st st' : store A) s : Mono F st st' -> okS F st s -> okS F st' s.
Proof. intros [L _] [N B]. split; [exact N|lia]. Qed.
Lemma nth_set_nth {X} n (x : X) : forall l i y, nth_error (set_nth n x l) i = Some y -> y = x \/ nth_error l i = Some y.
Proof.
  unfold set_nth. induction n as [|n IH]; intros [|a l] [|i] y; cbn; intros E; try (left; congruence); try (right; exact E).
  - destruct i; discriminate.
  - destruct i; discriminate.
  - now apply IH.
Qed.
Lemma set_nth_other' {X} n (x : X) : forall l i, i <> n -> i < length l -> nth_error (set_nth n x l) i = nth_error l i.
Proof.
  unfold set_nth. induction n as [|n IH]; intros [|a l] [|i]; cbn; intros N L; try lia; try reflexivity. apply IH; lia.
Qed.
Lemma set_nth_len {X} n (x : X) l : length l <= length (set_nth n x l).
Proof. unfold set_nth. rewrite app_length, firstn_length. cbn [length]. rewrite skipn_length. lia. Qed.
Lemma the_arr_in {A} (st : store A) s : the_arr st s = mkA [] 0 \/ nth_error (st_arrs st) (sl_arr s) = Some (the_arr st s).
Proof.
  unfold the_arr. destruct (nth_error (st_arrs st) (sl_arr s)) eqn:E; [right; f_equal; symmetry; now apply nth_error_nth|left; apply nth_overflow; now apply nth_error_None].
Qed.

Section Store.
  Context {A : Type} {F : nat -> Prop} (okE : store A -> A -> Prop).
  Hypothesis okE_mono : forall st st' x, length (st_arrs st) <= length (st_arrs st') -> okE st x -> okE st' x.
  (** the arrays of the caller exist, and what the arrays hold is fine *)
  Definition WF (st : store A) : Prop :=
    (forall i, F i -> i < length (st_arrs st)) /\ forall i a, nth_error (st_arrs st) i = Some a -> Forall (okE st) (a_cells a).
  Definition good {X} (st : store A) (ok : store A -> X -> Prop) (m : M A X) : Prop :=
    WF (snd (m st)) /\ Mono F st (snd (m st)) /\ match fst (m st) with Ok x => ok (snd (m st)) x | Panic => True end.

  Lemma good_ret {X} st (ok : store A -> X -> Prop) x : WF st -> ok st x -> good st ok (ret x).
  Proof. intros W O. split; [exact W|]. split; [apply Mono_refl|exact O]. Qed.
  Lemma good_lift {X} st (ok : store A -> X -> Prop) r : WF st -> (forall x, r = Ok x -> ok st x) -> good st ok (lift r).
  Proof. intros W O. split; [exact W|]. split; [apply Mono_refl|]. cbn. destruct r; auto. Qed.
  Lemma good_bind {X Y} st ok (ok' : store A -> Y -> Prop) (m : M A X) k : good st ok m ->
    (forall x st', WF st' -> Mono F st st' -> ok st' x -> good st' ok' (k x)) -> good st ok' (mbind m k).
  Proof.
    unfold good, mbind. intros (W & Mo & O) K. destruct (m st) as [[x|] st1]; cbn [fst snd] in *; [|auto].
    destruct (K x st1 W Mo O) as (W' & M' & O'). split; [exact W'|]. split; [exact (Mono_trans _ _ _ Mo M')|exact O'].
  Qed.

  Lemma okE_all st st' xs : length (st_arrs st) <= length (st_arrs st') -> Forall (okE st) xs -> Forall (okE st') xs.
  Proof. intros Mo. apply Forall_impl. intros x. now apply okE_mono. Qed.
  Lemma alloc_mono d (st : store A) xs n : Mono F st (snd (alloc d st xs n)).
  Proof. cbn. split; cbn; [rewrite app_length; lia|]. intros i _ L. now rewrite nth_error_app1. Qed.
  Lemma WF_alloc d st xs n : WF st -> (forall st, okE st d) -> Forall (okE st) xs -> WF (snd (alloc d st xs n)).
  Proof.
    intros [B W] Od Ox. cbn [alloc snd]. pose proof (proj1 (alloc_mono d st xs n)) as Mo. cbn [alloc snd] in Mo. split; [intros i Fi; specialize (B i Fi); lia|]. intros i a E.
    cbn [st_arrs] in E. destruct (Nat.lt_ge_cases i (length (st_arrs st))) as [L|L].
    - rewrite nth_error_app1 in E by exact L. apply (okE_all st); [exact Mo|]. exact (W _ _ E).
    - rewrite nth_error_app2 in E by exact L. destruct (i - length (st_arrs st)) as [|k]; cbn in E; [|now destruct k].
      injection E as <-. cbn [a_cells]. apply Forall_app. split; [apply (okE_all st); [exact Mo|exact Ox]|]. apply Forall_forall. intros y Hy. apply repeat_spec in Hy as ->. apply Od.
  Qed.
  Lemma alloc_okS d (st : store A) xs n : WF st -> okS F (snd (alloc d st xs n)) (fst (alloc d st xs n)).
  Proof. intros [B _]. cbn. split; cbn; [intros Fi; specialize (B _ Fi); lia|rewrite app_length; cbn; lia]. Qed.
  Lemma good_alloc d st xs : WF st -> (forall st, okE st d) -> Forall (okE st) xs -> good st (okS F) (m_alloc d xs).
  Proof.
    intros W Od Ox. pose proof (WF_alloc d st xs 0 W Od Ox) as W'. pose proof (alloc_okS d st xs 0 W) as O.
    pose proof (alloc_mono d st xs 0) as Mo. unfold good, m_alloc. destruct (alloc d st xs 0). cbn in *. auto.
  Qed.
  Lemma firstn_Forall {X} (P : X -> Prop) n l : Forall P l -> Forall P (firstn n l).
  Proof. intros H. revert n. induction H; intros [|n]; cbn; constructor; auto. Qed.
  Lemma skipn_Forall {X} (P : X -> Prop) n l : Forall P l -> Forall P (skipn n l).
  Proof. intros H. revert n. induction H; intros [|n]; cbn; try constructor; auto. Qed.
  Lemma cells_ok st s : WF st -> Forall (okE st) (a_cells (the_arr st s)).
  Proof. intros [_ W]. destruct (the_arr_in st s) as [E | E]; [rewrite E; constructor|eauto]. Qed.
  Lemma read_ok st s : WF st -> Forall (okE st) (read st s).
  Proof. intros W. apply firstn_Forall. now apply cells_ok. Qed.
  (** any write into an array *)
  Lemma WF_write st n a stale : WF st -> Forall (okE st) (a_cells a) -> WF (mkSt (set_nth n a (st_arrs st)) stale).
  Proof.
    intros [B W] O. pose proof (set_nth_len n a (st_arrs st)) as L. split; cbn; [intros i Fi; specialize (B i Fi); lia|]. intros i b E. apply nth_set_nth in E as [-> | E]; (apply (okE_all st); [exact L|]); [exact O|exact (W _ _ E)].
  Qed.
  Lemma Mono_write (st : store A) n (a : arr A) stale : ~ F n -> Mono F st (mkSt (set_nth n a (st_arrs st)) stale).
  Proof. intros N. split; cbn; [apply set_nth_len|]. intros i Fi L. apply set_nth_other'; [congruence|exact L]. Qed.
  Lemma write_at_Forall {X} (P : X -> Prop) n xs l : Forall P xs -> Forall P l -> Forall P (write_at n xs l).
  Proof. intros H K. unfold write_at. apply Forall_app. split; [now apply firstn_Forall|]. apply Forall_app. split; [exact H|now apply skipn_Forall]. Qed.
  Lemma WF_append d pol st s xs : WF st -> (forall st, okE st d) -> Forall (okE st) xs -> WF (snd (append d pol st s xs)).
  Proof.
    intros W Od Ox. unfold append. destruct (_ <=? _); [|apply WF_alloc; auto; apply Forall_app; split; [now apply read_ok|exact Ox]].
    cbn [snd]. apply WF_write; [exact W|]. cbn [a_cells]. apply write_at_Forall; [exact Ox|now apply cells_ok].
  Qed.
  Lemma append_mono d pol (st : store A) s xs : ~ F (sl_arr s) -> Mono F st (snd (append d pol st s xs)).
  Proof. intros N. unfold append. destruct (_ <=? _); [now apply Mono_write|apply alloc_mono]. Qed.
  Lemma good_append d pol st s xs : WF st -> (forall st, okE st d) -> okS F st s -> Forall (okE st) xs -> good st (okS F) (m_append d pol s xs).
  Proof.
    intros W Od Os Ox. unfold good, m_append. pose proof (append_mono d pol st s xs (proj1 Os)) as Mo. pose proof (WF_append d pol st s xs W Od Ox) as W'.
    enough (H : okS F (snd (append d pol st s xs)) (fst (append d pol st s xs))) by (destruct (append d pol st s xs); cbn in *; tauto).
    clear Mo W'. unfold append. destruct (_ <=? _); [|now apply alloc_okS]. cbn [fst snd]. destruct Os as [N B]. split; cbn; [exact N|]. pose proof (set_nth_len (sl_arr s) (mkA (write_at (sl_len s) xs (a_cells (the_arr st s))) (Nat.max (a_used (the_arr st s)) (sl_len s + length xs))) (st_arrs st)). lia.
  Qed.
  Lemma WF_assign st s i x : WF st -> okE st x -> WF (assign st s i x).
  Proof.
    intros W Ox. unfold assign. apply WF_write; [exact W|]. cbn [a_cells]. unfold set_nth. pose proof (cells_ok st s W) as C.
    apply Forall_app. split; [now apply firstn_Forall|]. constructor; [exact Ox|now apply skipn_Forall].
  Qed.
End Store.
Arguments WF {A} F okE. Arguments good {A} F okE {X}.

(** conditions *)
Section Regions.
(** the arrays of the caller, by element type (there are no variadic joins) *)
Variables fC fO fV fF : nat -> Prop.
Definition fJ : nat -> Prop := fun _ => False.

Definition okC (st : store hcond) (c : hcond) : Prop := match slice_of c with Some s => okS fC st s | None => True end.
Lemma okC_len st st' c : length (st_arrs st) <= length (st_arrs st') -> okC st c -> okC st' c.
Proof. unfold okC, okS. destruct (slice_of c); [|auto]. intros L [N B]. split; [exact N|lia]. Qed.
Lemma okC_mono st st' c : Mono fC st st' -> okC st c -> okC st' c.
Proof. intros [L _]. now apply okC_len. Qed.
Definition okAny {A} (st : store A) (x : A) : Prop := True.
Lemma okAny_len {A} (st st' : store A) x : length (st_arrs st) <= length (st_arrs st') -> okAny st x -> okAny st' x.
Proof. auto. Qed.
Notation WFC := (WF fC okC).
Definition okG (st : store hcond) (g : hgroup) : Prop := okS fC st (hg_sl g).
Definition okCs (st : store hcond) (cs : list hcond) : Prop := Forall (okC st) cs.
Lemma okCs_mono st st' cs : Mono fC st st' -> okCs st cs -> okCs st' cs.
Proof. intros Mo. apply Forall_impl. intros c. now apply okC_mono. Qed.
Lemma okG_mono st st' g : Mono fC st st' -> okG st g -> okG st' g.
Proof. apply okS_mono. Qed.
Lemma any_all {A} (st : store A) xs : Forall (okAny st) xs.
Proof. induction xs; constructor; auto. exact I. Qed.

Section Cond.
  Variable pol : policy.
  Lemma okC_cjoin st j c c' : okC st c -> h_cjoin j c = Ok c' -> okC st c'.
  Proof. intros O E. destruct c; cbn in E; try discriminate; injection E as <-; exact O. Qed.
  Lemma okC_negate st b c c' : okC st c -> h_negate b c = Ok c' -> okC st c'.
  Proof. intros O E. destruct c; cbn in E; try discriminate; injection E as <-; exact O. Qed.
  Lemma okCs_cjoin st j cs cs' : okCs st cs -> mapM (h_cjoin j) cs = Ok cs' -> okCs st cs'.
  Proof.
    intros O. revert cs'. induction O as [|c cs Oc O IH]; cbn [mapM]; intros cs' E; [injection E as <-; constructor|].
    destruct (h_cjoin j c) as [c'|] eqn:Ec; [|discriminate]. cbn [bind] in E. destruct (mapM (h_cjoin j) cs); [|discriminate]. cbn in E. injection E as <-.
    constructor; [eapply okC_cjoin; eauto|now apply IH].
  Qed.
  Notation good := (good fC okC).
  Lemma good_app_to st g xs : WFC st -> okG st g -> okCs st xs -> good st okG (app_to pol g xs).
  Proof.
    intros W G O. unfold app_to. eapply good_bind; [apply (good_append okC okC_len); auto; intros; exact I|]. intros s st' W' Mo Os. now apply good_ret.
  Qed.
  Lemma good_app_new st g x xs : WFC st -> okC st x -> okCs st xs -> good st okG (app_new pol g x xs).
  Proof.
    intros W Ox O. unfold app_new. eapply good_bind; [apply (good_alloc okC okC_len); auto; intros; exact I|]. intros s st' W' Mo Os.
    eapply good_bind; [apply (good_append okC okC_len); auto; [intros; exact I|now apply (okCs_mono st)]|]. intros s2 st2 W2 Mo2 Os2. now apply good_ret.
  Qed.
  Lemma good_put_new st g xs : WFC st -> okCs st xs -> good st okG (put_new g xs).
  Proof.
    intros W O. unfold put_new. eapply good_bind; [apply (good_alloc okC okC_len); auto; intros; exact I|]. intros s st' W' Mo Os. now apply good_ret.
  Qed.
  Lemma good_new_group st j cs : WFC st -> okCs st cs -> good st okG (h_new_group j cs).
  Proof.
    intros W O. unfold h_new_group. eapply (good_bind _ _ okCs); [apply good_lift; [exact W|]; intros xs; now apply okCs_cjoin|]. intros xs st1 W1 Mo1 O1.
    eapply good_bind; [apply (good_alloc okC okC_len); auto; intros; exact I|]. intros s st' W' Mo Os. now apply good_ret.
  Qed.
  (** reads and pure tests *)
  Lemma good_read st s : WFC st -> okS fC st s -> good st okCs (m_read s).
  Proof. intros W O. split; [exact W|]. split; [apply Mono_refl|]. cbn. now apply (read_ok (F := fC)). Qed.
  Lemma good_test {X Y} st (r : res X) (k : X -> M hcond Y) ok : WFC st -> (forall x, good st ok (k x)) -> good st ok (mbind (lift r) k).
  Proof. intros W K. destruct r; [apply K|]. split; [exact W|]. split; [apply Mono_refl|exact I]. Qed.
  Lemma good_cjoin {Y} st j c (k : hcond -> M hcond Y) ok : WFC st -> okC st c -> (forall x, okC st x -> good st ok (k x)) -> good st ok (mbind (lift (h_cjoin j c)) k).
  Proof.
    intros W O K. destruct (h_cjoin j c) eqn:E; [apply K; eapply okC_cjoin; eauto|]. split; [exact W|]. split; [apply Mono_refl|exact I].
  Qed.
  Lemma good_reads {Y} st s (k : list hcond -> M hcond Y) ok : WFC st -> okS fC st s -> (forall cs, okCs st cs -> good st ok (k cs)) -> good st ok (mbind (m_read s) k).
  Proof. intros W O K. apply K. now apply (read_ok (F := fC)). Qed.
  Lemma okC_brackets st g : okG st g -> okC st (of_hg (hg_brackets g)).
  Proof. auto. Qed.
  Lemma okCs_one st c : okC st c -> okCs st [c].
  Proof. intros O. constructor; [exact O|constructor]. Qed.
  Lemma okCs_two st c d : okC st c -> okC st d -> okCs st [c; d].
  Proof. intros O O'. constructor; [exact O|]. now apply okCs_one. Qed.
  Hint Resolve good_app_to good_app_new good_put_new okC_brackets okCs_one okCs_two : gd.
  Ltac gd := repeat first
    [ match goal with |- good _ _ (mbind (lift (h_cjoin _ _)) _) => apply good_cjoin; [eauto with gd|eauto with gd|intros ? ?] end
    | match goal with |- good _ _ (mbind (lift _) _) => apply good_test; [eauto with gd|intros ?] end
    | match goal with |- good _ _ (if ?b then _ else _) => destruct b end
    | match goal with |- good _ _ (ret _) => apply good_ret; auto end
    | solve [eauto 6 with gd] ].
  Lemma good_add_group st g another : WFC st -> okG st g -> okG st another -> good st okG (h_add_group pol g another).
  Proof.
    intros W G G'. unfold h_add_group. apply good_reads; [auto|exact G|]. intros cs O. apply good_reads; [auto|exact G'|]. intros acs O'. cbv zeta. gd.
  Qed.
  Lemma good_set_join st m op : good st okG m -> good st okG (run g' <- m; ret (hg_set_join g' op)).
  Proof. intros H. eapply good_bind; [exact H|]. intros x st' W Mo O. now apply good_ret. Qed.
  Lemma good_add_single st g c : WFC st -> okG st g -> okC st c -> good st okG (h_add_single pol g c).
  Proof.
    intros W G O. unfold h_add_single. apply good_reads; [auto|exact G|]. intros cs Os. cbv zeta. do 3 (apply good_test; [auto|intros ?]).
    destruct (as_hgroup c) as [g'|] eqn:E.
    - apply good_add_group; auto. destruct c; try discriminate. injection E as <-. exact O.
    - destruct (length cs =? 0); [apply good_set_join; auto with gd|]. gd.
  Qed.
  Lemma good_add_conditions st op g cs : WFC st -> okG st g -> okCs st cs -> good st okG (h_add_conditions pol op g cs).
  Proof.
    intros W G O. unfold h_add_conditions. apply good_reads; [auto|exact G|]. intros hs Os. do 2 (apply good_test; [auto|intros ?]).
    destruct cs as [|c0 rest]; [now apply good_ret|]. destruct hs as [|h hs]; [apply good_set_join; auto with gd|].
    destruct rest as [|c1 rest].
    - apply good_cjoin; [auto|now inversion O|]. intros c Oc. now apply good_add_single.
    - destruct (_ && _); [gd|]. destruct (_ && _).
      + eapply good_bind; [now apply good_new_group|]. intros ng st' W' Mo Gn. apply good_cjoin; [auto|exact Gn|]. intros c Oc.
        apply good_app_to; auto with gd. now apply (okG_mono st).
      + eapply good_bind; [now apply good_new_group|]. intros ng st' W' Mo Gn. apply good_app_new; auto with gd. apply okC_brackets. now apply (okG_mono st).
  Qed.
  Lemma good_of_g st m : good st okG m -> good st okC (run r <- m; ret (of_hg r)).
  Proof. intros H. eapply good_bind; [exact H|]. intros x st' W Mo O. now apply good_ret. Qed.
  Lemma good_jt_join st j cs : WFC st -> okCs st cs -> good st okC (h_jt_join j cs).
  Proof.
    intros W O. destruct cs as [|c [|d cs]]; cbn [h_jt_join].
    - apply good_lift; [auto|discriminate].
    - apply good_lift; [auto|]. intros x. apply okC_cjoin. now inversion O.
    - apply good_of_g. now apply good_new_group.
  Qed.
  Lemma good_extend st op m cs : okCs st cs -> good st okG m -> good st okC (run g <- m; run r <- h_add_conditions pol op g cs; ret (of_hg r)).
  Proof.
    intros O H. eapply good_bind; [exact H|]. intros g st' W Mo G. apply good_of_g. apply good_add_conditions; auto. now apply (okCs_mono st).
  Qed.
  Lemma good_start st j c : WFC st -> okC st c -> good st okG (h_start j c).
  Proof.
    intros W O. destruct c; cbn [h_start as_hgroup]; [apply good_new_group| |]; auto with gd; [apply good_new_group; auto with gd|now apply good_ret].
  Qed.
  Lemma good_and st c cs : WFC st -> okC st c -> okCs st cs -> good st okC (h_and pol c cs).
  Proof.
    intros W O Os. destruct cs; [apply good_jt_join; auto with gd|]. apply good_extend; [exact Os|]. now apply good_start.
  Qed.
  Lemma good_or st c cs : WFC st -> okC st c -> okCs st cs -> good st okC (h_or pol c cs).
  Proof.
    intros W O Os. destruct cs as [|c0 cs]; [apply good_jt_join; auto with gd|]. unfold h_or. eapply good_bind; [now apply good_start|].
    intros g st' W' Mo G. eapply good_bind; [apply good_add_conditions; auto; now apply (okCs_mono st)|]. intros r st2 W2 Mo2 G2. apply good_jt_join; auto with gd.
  Qed.
  Lemma good_m_and st c cs : WFC st -> okC st c -> okCs st cs -> good st okC (h_m_and pol c cs).
  Proof.
    intros W O Os. destruct c as [|l|j n s br]; cbn [h_m_and].
    - apply good_lift; [auto|discriminate].
    - destruct (l_kind l); first [now apply good_and|apply good_extend; [exact Os|]; apply good_new_group; auto with gd].
    - apply good_of_g. now apply good_add_conditions.
  Qed.
  Lemma good_m_or st c cs : WFC st -> okC st c -> okCs st cs -> good st okC (h_m_or pol c cs).
  Proof.
    intros W O Os. destruct c as [|l|j n s br]; cbn [h_m_or].
    - apply good_lift; [auto|discriminate].
    - destruct (l_kind l); first [now apply good_or|apply good_extend; [exact Os|]; apply good_new_group; solve [auto with gd]|idtac].
      eapply good_bind; [apply good_new_group; [auto|apply okCs_one; exact I]|]. intros g st1 W1 M1 G1.
      eapply good_bind; [apply good_add_conditions; auto; apply okCs_one; exact I|]. intros g2 st2 W2 M2 G2.
      apply good_of_g. apply good_add_conditions; auto. apply (okCs_mono st); [exact (Mono_trans _ _ _ M1 M2)|exact Os].
    - apply good_of_g. now apply good_add_conditions.
  Qed.
  Lemma good_conditions st g : WFC st -> okG st g -> good st (okS fC) (h_conditions g).
  Proof. intros W G. unfold h_conditions. apply good_reads; [auto|exact G|]. intros cs O. apply (good_alloc okC okC_len); auto. intros; exact I. Qed.
End Cond.

(** * The heap *)
Definition WFH (h : heap) : Prop := WF fC okC (hC h) /\ WF fO okAny (hO h) /\ WF fJ okAny (hJ h) /\ WF fV okAny (hV h) /\ WF fF okAny (hF h).
Definition HMono (h h' : heap) : Prop := Mono fC (hC h) (hC h') /\ Mono fO (hO h) (hO h') /\ Mono fJ (hJ h) (hJ h') /\ Mono fV (hV h) (hV h') /\ Mono fF (hF h) (hF h').
Lemma HMono_refl h : HMono h h.
Proof. unfold HMono. auto 10 using Mono_refl. Qed.
Lemma HMono_trans a b c : HMono a b -> HMono b c -> HMono a c.
Proof. intros (A & B & C & D & E) (A' & B' & C' & D' & E'). unfold HMono. eauto 10 using Mono_trans. Qed.
Definition okB (h : heap) (b : hbsel) : Prop := okS fJ (hJ h) (hb_joins b) /\ okS fF (hF h) (hb_fields b) /\ okG (hC h) (hb_where b).
Definition okM (h : heap) (m : hmsel) : Prop := okB h (hm_base m) /\ okS fO (hO h) (hm_order m).
Definition okI (h : heap) (i : hins) : Prop := okS fV (hV h) (hi_values i).
Definition okU (h : heap) (u : hupd) : Prop := okG (hC h) (hu_where u) /\ okS fV (hV h) (hu_values u).
Definition okD (h : heap) (d : hdel) : Prop := okG (hC h) (hd_where d).
Definition okV (h : heap) (v : hval) : Prop :=
  match v with
  | XC c => okC (hC h) c
  | XB b => okB h b
  | XM m => okM h m
  | XS s => okB h (hss_base s)
  | XN c => okB h (hcs_base c)
  | XI i => okI h i
  | XU u => okU h u
  | XD d => okD h d
  end.
Lemma okB_mono h h' b : HMono h h' -> okB h b -> okB h' b.
Proof. intros (A & B & C & D & E) (O1 & O2 & O3). split; [now apply (okS_mono (hJ h))|split; [now apply (okS_mono (hF h))|now apply (okG_mono (hC h))]]. Qed.
Lemma okM_mono h h' m : HMono h h' -> okM h m -> okM h' m.
Proof. intros Mo [O1 O2]. split; [now apply (okB_mono h)|]. apply (okS_mono (hO h)); [apply Mo|exact O2]. Qed.
Lemma okI_mono h h' i : HMono h h' -> okI h i -> okI h' i.
Proof. intros Mo. apply okS_mono. apply Mo. Qed.
Lemma okU_mono h h' u : HMono h h' -> okU h u -> okU h' u.
Proof. intros Mo [O1 O2]. split; [apply (okG_mono (hC h)); [apply Mo|exact O1]|apply (okS_mono (hV h)); [apply Mo|exact O2]]. Qed.
Lemma okD_mono h h' d : HMono h h' -> okD h d -> okD h' d.
Proof. intros Mo. apply okG_mono. apply Mo. Qed.
Lemma okV_mono h h' v : HMono h h' -> okV h v -> okV h' v.
Proof.
  intros Mo. destruct v; cbn [okV]; try (now apply okB_mono); [|now apply okM_mono|now apply okI_mono|now apply okU_mono|now apply okD_mono].
  apply okC_mono. apply Mo.
Qed.

Definition hgood {X} (h : heap) (ok : heap -> X -> Prop) (m : HM X) : Prop :=
  WFH (snd (m h)) /\ HMono h (snd (m h)) /\ match fst (m h) with Ok x => ok (snd (m h)) x | Panic => True end.
Lemma hgood_ret {X} h (ok : heap -> X -> Prop) x : WFH h -> ok h x -> hgood h ok (hret x).
Proof. intros W O. split; [exact W|]. split; [apply HMono_refl|exact O]. Qed.
Lemma hgood_panic {X} h (ok : heap -> X -> Prop) : WFH h -> hgood h ok (hlift Panic).
Proof. intros W. split; [exact W|]. split; [apply HMono_refl|exact I]. Qed.
Lemma hgood_bind {X Y} h ok (ok' : heap -> Y -> Prop) (m : HM X) k : hgood h ok m ->
  (forall x h', WFH h' -> HMono h h' -> ok h' x -> hgood h' ok' (k x)) -> hgood h ok' (hbind m k).
Proof.
  unfold hgood, hbind. intros (W & Mo & O) K. destruct (m h) as [[x|] h1]; cbn [fst snd] in *; [|auto].
  destruct (K x h1 W Mo O) as (W' & M' & O'). split; [exact W'|]. split; [exact (HMono_trans _ _ _ Mo M')|exact O'].
Qed.
Lemma hgood_lift {X Y} h (r : res X) (k : X -> HM Y) ok : WFH h -> (forall x, r = Ok x -> hgood h ok (k x)) -> hgood h ok (hbind (hlift r) k).
Proof. intros W K. destruct r; [now apply K|]. now apply (hgood_panic h ok). Qed.
Ltac on_good m st := intros (W1 & W2 & W3 & W4 & W5) (A & B & C); unfold hgood, onC, onO, onJ, onV, onF in *; destruct (m st) as [[x|] st']; cbn in *;
  (split; [|split; [|auto]]); unfold WFH, HMono; cbn; auto 10 using Mono_refl.
Lemma hgood_onC {X} h ok (m : M hcond X) : WFH h -> good fC okC (hC h) ok m -> hgood h (fun h' => ok (hC h')) (onC m).
Proof. on_good m (hC h). Qed.
Lemma hgood_onO {X} h ok (m : M fsort X) : WFH h -> good fO okAny (hO h) ok m -> hgood h (fun h' => ok (hO h')) (onO m).
Proof. on_good m (hO h). Qed.
Lemma hgood_onJ {X} h ok (m : M joiner X) : WFH h -> good fJ okAny (hJ h) ok m -> hgood h (fun h' => ok (hJ h')) (onJ m).
Proof. on_good m (hJ h). Qed.
Lemma hgood_onV {X} h ok (m : M fvalue X) : WFH h -> good fV okAny (hV h) ok m -> hgood h (fun h' => ok (hV h')) (onV m).
Proof. on_good m (hV h). Qed.
Lemma hgood_onF {X} h ok (m : M fdef X) : WFH h -> good fF okAny (hF h) ok m -> hgood h (fun h' => ok (hF h')) (onF m).
Proof. on_good m (hF h). Qed.
Lemma any_alloc {A} F (d : A) st xs : WF F okAny st -> good F okAny st (okS F) (m_alloc d xs).
Proof. intros W. apply good_alloc; auto using any_all; intros; exact I. Qed.
Lemma any_append {A} F (d : A) pol st s xs : WF F okAny st -> okS F st s -> good F okAny st (okS F) (m_append d pol s xs).
Proof. intros W O. apply good_append; auto using any_all; intros; exact I. Qed.

Section Builders.
  Variable pol : policy.
  Lemma hgood_select h p : WFH h -> hgood h okB (h_select_from p).
  Proof.
    intros W. unfold h_select_from. apply hgood_lift; [exact W|]. intros t _.
    eapply hgood_bind; [apply hgood_onJ; [exact W|apply any_alloc, W]|]. intros js h1 W1 M1 O1.
    eapply hgood_bind; [apply hgood_onC; [exact W1|apply good_new_group; [apply W1|constructor]]|]. intros g h2 W2 M2 O2.
    eapply hgood_bind; [apply hgood_onF; [exact W2|apply any_alloc, W2]|]. intros fs h3 W3 M3 O3. apply hgood_ret; [exact W3|].
    split; [apply (okS_mono (hJ h2)); [apply M3|]; apply (okS_mono (hJ h1)); [apply M2|exact O1]|]. split; [exact O3|]. apply (okG_mono (hC h2)); [apply M3|exact O2].
  Qed.
  Lemma hgood_zero h : WFH h -> hgood h okB h_zero_bsel.
  Proof.
    intros W. unfold h_zero_bsel.
    eapply hgood_bind; [apply hgood_onJ; [exact W|apply any_alloc, W]|]. intros js h1 W1 M1 O1.
    eapply hgood_bind; [apply hgood_onC; [exact W1|apply (good_alloc okC okC_len); [apply W1|intros; exact I|constructor]]|]. intros g h2 W2 M2 O2.
    eapply hgood_bind; [apply hgood_onF; [exact W2|apply any_alloc, W2]|]. intros fs h3 W3 M3 O3. apply hgood_ret; [exact W3|].
    split; [apply (okS_mono (hJ h2)); [apply M3|]; apply (okS_mono (hJ h1)); [apply M2|exact O1]|]. split; [exact O3|]. apply (okS_mono (hC h2)); [apply M3|exact O2].
  Qed.
  Lemma hgood_fields h b fs : WFH h -> okB h b -> hgood h okB (h_set_fields b fs).
  Proof.
    intros W O. unfold h_set_fields. eapply hgood_bind; [apply hgood_onF; [exact W|apply any_alloc, W]|]. intros s h1 W1 M1 O1. apply hgood_ret; [exact W1|].
    pose proof (okB_mono _ _ _ M1 O) as (A & B & C). split; [assumption|split; assumption].
  Qed.
  Lemma hgood_where h b cs : WFH h -> okB h b -> okCs (hC h) cs -> hgood h okB (h_add_where pol b cs).
  Proof.
    intros W O Os. unfold h_add_where. eapply hgood_bind; [apply hgood_onC; [exact W|apply good_add_conditions; [apply W|apply O|exact Os]]|]. intros s h1 W1 M1 O1. apply hgood_ret; [exact W1|].
    pose proof (okB_mono _ _ _ M1 O) as (A & B & C). split; [assumption|split; assumption].
  Qed.
  Lemma hgood_on h b l r : WFH h -> okB h b -> hgood h okB (h_on b l r).
  Proof.
    intros W O. unfold hgood, h_on. destruct (sl_len (hb_joins b)) as [|i] eqn:L; cbn [fst snd]; [split; [exact W|]; split; [apply HMono_refl|exact I]|].
    destruct W as (W1 & W2 & W3 & W4 & W5).
    pose proof (WF_assign okAny okAny_len (hJ h) (hb_joins b) i (j_by (nth i (read (hJ h) (hb_joins b)) zj) l r) W3 I) as W'.
    pose proof (Mono_write (F := fJ) (hJ h) (sl_arr (hb_joins b)) (mkA (set_nth i (j_by (nth i (read (hJ h) (hb_joins b)) zj) l r) (a_cells (the_arr (hJ h) (hb_joins b)))) (a_used (the_arr (hJ h) (hb_joins b)))) (st_stale (hJ h)) (fun x => x)) as M'.
    assert (Mo : HMono h (mkH (hC h) (hO h) (assign (hJ h) (hb_joins b) i (j_by (nth i (read (hJ h) (hb_joins b)) zj) l r)) (hV h) (hF h))) by (unfold HMono; cbn; auto 10 using Mono_refl).
    split; [unfold WFH; cbn; auto 10|]. split; [exact Mo|]. exact (okB_mono _ _ _ Mo O).
  Qed.
  Lemma hgood_join h b t jt l r : WFH h -> okB h b -> hgood h okB (h_join pol b t jt l r).
  Proof.
    intros W O. unfold h_join. eapply (hgood_bind _ okB).
    - unfold h_join_open. eapply hgood_bind; [apply hgood_onJ; [exact W|apply any_append; [apply W|apply O]]|]. intros s h1 W1 M1 O1. apply hgood_ret; [exact W1|].
      pose proof (okB_mono _ _ _ M1 O) as (A & B & C). split; [assumption|split; assumption].
    - intros b' h1 W1 M1 O1. now apply hgood_on.
  Qed.
  Lemma hgood_many h b : WFH h -> okB h b -> hgood h okM (h_many_of b).
  Proof.
    intros W O. unfold h_many_of. eapply hgood_bind; [apply hgood_onO; [exact W|apply any_alloc, W]|]. intros s h1 W1 M1 O1. apply hgood_ret; [exact W1|].
    split; [now apply (okB_mono h)|exact O1].
  Qed.
  Lemma hgood_order h m os : WFH h -> okM h m -> hgood h okM (h_add_order pol m os).
  Proof.
    intros W O. unfold h_add_order. eapply hgood_bind; [apply hgood_onO; [exact W|apply any_append; [apply W|apply O]]|]. intros s h1 W1 M1 O1. apply hgood_ret; [exact W1|].
    split; [apply (okB_mono h); [exact M1|apply O]|exact O1].
  Qed.
  Lemma hgood_insert h p : WFH h -> hgood h okI (h_insert_into p).
  Proof. intros W. unfold h_insert_into. eapply hgood_bind; [apply hgood_onV; [exact W|apply any_alloc, W]|]. intros s h1 W1 M1 O1. now apply hgood_ret. Qed.
  Lemma hgood_i_add h i vs : WFH h -> okI h i -> hgood h okI (h_i_add pol i vs).
  Proof. intros W O. unfold h_i_add. eapply hgood_bind; [apply hgood_onV; [exact W|apply any_append; [apply W|apply O]]|]. intros s h1 W1 M1 O1. now apply hgood_ret. Qed.
  Lemma hgood_update h p : WFH h -> hgood h okU (h_update_ p).
  Proof.
    intros W. unfold h_update_. eapply hgood_bind; [apply hgood_onC; [exact W|apply good_new_group; [apply W|constructor]]|]. intros g h1 W1 M1 O1.
    eapply hgood_bind; [apply hgood_onV; [exact W1|apply any_alloc, W1]|]. intros s h2 W2 M2 O2. apply hgood_ret; [exact W2|].
    split; [apply (okG_mono (hC h1)); [apply M2|exact O1]|exact O2].
  Qed.
  Lemma hgood_u_add h u vs : WFH h -> okU h u -> hgood h okU (h_u_add pol u vs).
  Proof.
    intros W O. unfold h_u_add. eapply hgood_bind; [apply hgood_onV; [exact W|apply any_append; [apply W|apply O]]|]. intros s h1 W1 M1 O1. apply hgood_ret; [exact W1|].
    split; [|exact O1]. apply (okU_mono _ _ _ M1 O).
  Qed.
  Lemma hgood_u_where h u cs : WFH h -> okU h u -> okCs (hC h) cs -> hgood h okU (h_u_where pol u cs).
  Proof.
    intros W O Os. unfold h_u_where. eapply hgood_bind; [apply hgood_onC; [exact W|apply good_add_conditions; [apply W|apply O|exact Os]]|]. intros s h1 W1 M1 O1. apply hgood_ret; [exact W1|].
    split; [exact O1|]. apply (okU_mono _ _ _ M1 O).
  Qed.
  Lemma hgood_delete h p : WFH h -> hgood h okD (h_delete_ p).
  Proof. intros W. unfold h_delete_. eapply hgood_bind; [apply hgood_onC; [exact W|apply good_new_group; [apply W|constructor]]|]. intros g h1 W1 M1 O1. now apply hgood_ret. Qed.
  Lemma hgood_d_where h u cs : WFH h -> okD h u -> okCs (hC h) cs -> hgood h okD (h_d_where pol u cs).
  Proof.
    intros W O Os. unfold h_d_where. eapply hgood_bind; [apply hgood_onC; [exact W|apply good_add_conditions; [apply W|apply O|exact Os]]|]. intros s h1 W1 M1 O1. now apply hgood_ret.
  Qed.
  Lemma hgood_copied {X} h g (k : list hcond -> HM X) ok : WFH h -> okG (hC h) g ->
    (forall cs h', WFH h' -> HMono h h' -> okCs (hC h') cs -> hgood h' ok (k cs)) ->
    hgood h ok (act s <- onC (h_conditions g); act cs <- onC (m_read s); k cs).
  Proof.
    intros W G K. eapply hgood_bind; [apply hgood_onC; [exact W|apply good_conditions; [apply W|exact G]]|]. intros s h1 W1 M1 O1.
    eapply hgood_bind; [apply hgood_onC; [exact W1|apply good_read; [apply W1|exact O1]]|]. intros cs h2 W2 M2 O2. apply K; auto. exact (HMono_trans _ _ _ M1 M2).
  Qed.
  Lemma hgood_to_update h tp b vs : WFH h -> okB h b -> hgood h okU (h_to_update pol tp b vs).
  Proof.
    intros W O. unfold h_to_update. eapply hgood_bind; [now apply hgood_update|]. intros u h1 W1 M1 O1.
    apply hgood_copied; [exact W1|apply (okB_mono _ _ _ M1 O)|]. intros cs h2 W2 M2 O2.
    eapply hgood_bind; [apply hgood_u_where; [exact W2|now apply (okU_mono h1)|exact O2]|]. intros u2 h3 W3 M3 O3. now apply hgood_u_add.
  Qed.
  Lemma hgood_to_delete h tp b : WFH h -> okB h b -> hgood h okD (h_to_delete pol tp b).
  Proof.
    intros W O. unfold h_to_delete. eapply hgood_bind; [now apply hgood_delete|]. intros u h1 W1 M1 O1.
    apply hgood_copied; [exact W1|apply (okB_mono _ _ _ M1 O)|]. intros cs h2 W2 M2 O2.
    apply hgood_d_where; [exact W2|now apply (okD_mono h1)|exact O2].
  Qed.
  Lemma hgood_to_insert h b vs : WFH h -> hgood h okI (h_to_insert pol b vs).
  Proof. intros W. unfold h_to_insert. eapply hgood_bind; [now apply hgood_insert|]. intros u h1 W1 M1 O1. now apply hgood_i_add. Qed.

  Definition okR (h : heap) (r : res hval) : Prop := match r with Ok v => okV h v | Panic => True end.
  Lemma okR_look h env x v : Forall (okR h) env -> look env x = Ok v -> okV h v.
  Proof.
    unfold look. intros F E. destruct (Nat.lt_ge_cases x (length env)) as [L|L]; [|rewrite nth_overflow in E by exact L; discriminate].
    pose proof (Forall_forall (okR h) env) as [G _]. specialize (G F (nth x env Panic) (nth_In _ _ L)). now rewrite E in G.
  Qed.
  Lemma okR_cond h env x c : Forall (okR h) env -> hcond_at env x = Ok c -> okC (hC h) c.
  Proof.
    unfold hcond_at. intros F E. destruct (look env x) as [v|] eqn:Ev; [|discriminate]. pose proof (okR_look _ _ _ _ F Ev) as O.
    cbn [bind] in E. destruct v; try discriminate. injection E as <-. exact O.
  Qed.
  Lemma okR_conds h env xs cs : Forall (okR h) env -> mapM (hcond_at env) xs = Ok cs -> okCs (hC h) cs.
  Proof.
    intros F. revert cs. induction xs as [|x xs IH]; cbn [mapM]; intros cs E; [injection E as <-; constructor|].
    destruct (hcond_at env x) as [c|] eqn:Ec; [|discriminate]. cbn [bind] in E. destruct (mapM (hcond_at env) xs); [|discriminate]. cbn in E. injection E as <-.
    constructor; [eapply okR_cond; eauto|now apply IH].
  Qed.
  Lemma step_good h env o : WFH h -> Forall (okR h) env -> hgood h okV (hstep pol env o).
  Proof.
    intros W F.
    assert (RC : forall m, good fC okC (hC h) okC m -> hgood h okV (act c <- onC m; hret (XC c))).
    { intros m G. eapply hgood_bind; [apply hgood_onC; eassumption|]. intros c h1 W1 M1 O1. now apply hgood_ret. }
    Ltac gval W F := apply hgood_lift; [exact W|]; let v := fresh "v" in let E := fresh "E" in intros v E; apply (okR_look _ _ _ _ F) in E; destruct v; try (now apply hgood_panic).
    Ltac gfin := intros ? ? ? ? ?; now apply hgood_ret.
    destruct o; cbn [hstep].
    - now apply hgood_ret.
    - now apply hgood_ret.
    - apply hgood_lift; [exact W|]. intros cs E. eapply hgood_bind; [apply hgood_onC; [exact W|apply good_new_group; [apply W|eapply okR_conds; eauto]]|]. gfin.
    - apply hgood_lift; [exact W|]. intros cs E. apply RC. apply good_jt_join; [apply W|eapply okR_conds; eauto].
    - apply hgood_lift; [exact W|]. intros c E. apply RC. apply good_lift; [apply W|]. intros c'. apply okC_cjoin. eapply okR_cond; eauto.
    - apply hgood_lift; [exact W|]. intros c E. apply RC. apply good_lift; [apply W|]. intros c'. apply okC_negate. eapply okR_cond; eauto.
    - apply hgood_lift; [exact W|]. intros c E. apply (okR_cond _ _ _ _ F) in E. destruct c; cbn [as_hgroup]; try (now apply hgood_panic). now apply hgood_ret.
    - apply hgood_lift; [exact W|]. intros c E. apply hgood_lift; [exact W|]. intros cs Es. apply RC. apply good_and; [apply W|eapply okR_cond; eauto|eapply okR_conds; eauto].
    - apply hgood_lift; [exact W|]. intros c E. apply hgood_lift; [exact W|]. intros cs Es. apply RC. apply good_or; [apply W|eapply okR_cond; eauto|eapply okR_conds; eauto].
    - apply hgood_lift; [exact W|]. intros c E. apply hgood_lift; [exact W|]. intros cs Es. apply RC. apply good_m_and; [apply W|eapply okR_cond; eauto|eapply okR_conds; eauto].
    - apply hgood_lift; [exact W|]. intros c E. apply hgood_lift; [exact W|]. intros cs Es. apply RC. apply good_m_or; [apply W|eapply okR_cond; eauto|eapply okR_conds; eauto].
    - eapply hgood_bind; [now apply hgood_select|]. gfin.
    - gval W F; apply hgood_ret; auto. apply E.
    - gval W F.
      + eapply hgood_bind; [apply hgood_fields; eassumption|]. gfin.
      + eapply hgood_bind; [apply hgood_fields; [eassumption|apply E]|]. intros b' h1 W1 M1 O1. apply hgood_ret; [exact W1|].
        split; [exact O1|apply (okM_mono _ _ _ M1 E)].
      + eapply hgood_bind; [apply hgood_zero; eassumption|]. intros z h1 W1 M1 O1. eapply hgood_bind; [apply hgood_fields; eassumption|]. gfin.
    - apply hgood_lift; [exact W|]. intros v E. apply (okR_look _ _ _ _ F) in E. apply hgood_lift; [exact W|]. intros cs Es. apply (okR_conds _ _ _ _ F) in Es.
      destruct v; try (now apply hgood_panic).
      + eapply hgood_bind; [apply hgood_where; eassumption|]. gfin.
      + eapply hgood_bind; [apply hgood_where; [eassumption|apply E|eassumption]|]. intros b' h1 W1 M1 O1. apply hgood_ret; [exact W1|].
        split; [exact O1|apply (okM_mono _ _ _ M1 E)].
      + eapply hgood_bind; [apply hgood_where; eassumption|]. gfin.
      + eapply hgood_bind; [apply hgood_u_where; eassumption|]. gfin.
      + eapply hgood_bind; [apply hgood_d_where; eassumption|]. gfin.
    - gval W F. eapply hgood_bind; [apply hgood_join; eassumption|]. gfin.
    - gval W F.
      + apply hgood_lift; [exact W|]. intros tt _. eapply hgood_bind; [apply hgood_join; [eassumption|apply E]|]. intros b' h1 W1 M1 O1. apply hgood_ret; [exact W1|].
        split; [exact O1|apply (okM_mono _ _ _ M1 E)].
      + apply hgood_lift; [exact W|]. intros tt _. eapply hgood_bind; [apply hgood_join; eassumption|]. gfin.
    - gval W F. eapply hgood_bind; [apply hgood_many; eassumption|]. gfin.
    - gval W F. now apply hgood_ret.
    - gval W F. apply hgood_lift; [exact W|]. intros f _. now apply hgood_ret.
    - gval W F. eapply hgood_bind; [apply hgood_order; eassumption|]. gfin.
    - gval W F. now apply hgood_ret.
    - gval W F. now apply hgood_ret.
    - eapply hgood_bind; [now apply hgood_insert|]. gfin.
    - gval W F. eapply hgood_bind; [apply hgood_i_add; eassumption|]. gfin.
    - eapply hgood_bind; [now apply hgood_update|]. gfin.
    - gval W F. eapply hgood_bind; [apply hgood_u_add; eassumption|]. gfin.
    - eapply hgood_bind; [now apply hgood_delete|]. gfin.
    - gval W F; (eapply hgood_bind; [apply hgood_to_update; [eassumption|apply E]|]; gfin).
    - gval W F; (eapply hgood_bind; [apply hgood_to_delete; [eassumption|apply E]|]; gfin).
    - gval W F. eapply hgood_bind; [apply hgood_to_insert; eassumption|]. gfin.
  Qed.
End Builders.
End Regions.

(** * What is said does not depend on the caller's arrays *)
Definition Agree {A} (F : nat -> Prop) (st st' : store A) : Prop :=
  forall i, ~ F i -> i < length (st_arrs st) -> nth_error (st_arrs st') i = nth_error (st_arrs st) i.
Lemma Agree_refl {A} F (st : store A) : Agree F st st.
Proof. intros i _ _. reflexivity. Qed.
Lemma read_agree {A} F (st st' : store A) s : Agree F st st' -> okS F st s -> read st' s = read st s.
Proof.
  intros G [N B]. specialize (G _ N B). unfold read, the_arr. f_equal. f_equal. destruct (nth_error (st_arrs st) (sl_arr s)) as [a|] eqn:E.
  - now rewrite (nth_error_nth _ _ _ E), (nth_error_nth _ _ _ G).
  - apply nth_error_None in E. lia.
Qed.
Section Agree.
  Variable F : nat -> Prop.
  Variables st st' : store hcond.
  Hypothesis W : WF F (okC F) st.
  Hypothesis G : Agree F st st'.
  Lemma values_agree fuel : forall c, okC F st c -> h_values fuel st' c = h_values fuel st c.
  Proof.
    induction fuel as [|f IH]; [reflexivity|]. intros [|l|j n s br] O; cbn [h_values]; try reflexivity.
    rewrite (read_agree F st st' s G O). pose proof (read_ok (F := F) (okC F) st s W) as R. induction R as [|c cs Oc R IHR]; [reflexivity|].
    rewrite (IH c Oc). destruct (h_values f st c) as [[v|]|]; [|reflexivity|reflexivity]. now rewrite IHR.
  Qed.
  Lemma render_agree fuel : forall c n, okC F st c -> h_render fuel st' c n = h_render fuel st c n.
  Proof.
    induction fuel as [|f IH]; [reflexivity|]. intros [|l|j n s br] m O; cbn [h_render]; try reflexivity.
    rewrite (read_agree F st st' s G O). pose proof (read_ok (F := F) (okC F) st s W) as R.
    match goal with |- match read st s with [] => _ | _ :: _ => match ?g _ _ _ with _ => _ end end = match read st s with [] => _ | _ :: _ => match ?g' _ _ _ with _ => _ end end =>
      assert (K : forall b k, g b (read st s) k = g' b (read st s) k) end.
    { induction R as [|c cs Oc R IHR]; intros b k; [reflexivity|]. rewrite (IH c k Oc), (values_agree f c Oc).
      destruct (h_jtype c); [|reflexivity]. destruct (h_render f st c k) as [[r|]|]; try reflexivity. destruct (h_values f st c) as [[v|]|]; try reflexivity. now rewrite IHR. }
    rewrite K. reflexivity.
  Qed.
End Agree.
Lemma says_agree fC fO fV fF h h' v fuel : WF fC (okC fC) (hC h) -> okV fC fO fV fF h v ->
  Agree fC (hC h) (hC h') -> Agree fO (hO h) (hO h') -> hJ h' = hJ h -> Agree fV (hV h) (hV h') -> Agree fF (hF h) (hF h') ->
  hsays v h' fuel = hsays v h fuel.
Proof.
  intros W O GC GO GJ GV GF.
  assert (Cl : forall g n, okG fC (hC h) g -> h_clause fuel h' g n = h_clause fuel h g n).
  { intros g n Og. unfold h_clause. rewrite (render_agree fC _ _ W GC fuel (of_hg g) n Og), (values_agree fC _ _ W GC fuel (of_hg g) Og). reflexivity. }
  assert (Fl : forall b, okB fC fF h b -> flat h' b = flat h b).
  { intros b (_ & O2 & _). unfold flat. now rewrite GJ, (read_agree fF _ _ _ GF O2). }
  assert (B : forall b, okB fC fF h b -> h_b_build fuel h' b = h_b_build fuel h b).
  { intros b Ob. unfold h_b_build. rewrite (Fl b Ob), (Cl _ 0); [reflexivity|apply Ob]. }
  destruct v; cbn [hsays okV] in *.
  - now rewrite (render_agree fC _ _ W GC fuel c 0 O), (values_agree fC _ _ W GC fuel c O).
  - now apply B.
  - unfold h_m_build. now rewrite (B _ (proj1 O)), (read_agree fO _ _ _ GO (proj2 O)).
  - unfold h_ss_build. now rewrite (B _ O).
  - unfold h_cs_build. rewrite (Fl _ O), (Cl _ 0); [reflexivity|apply O].
  - unfold h_i_build. now rewrite (read_agree fV _ _ _ GV O).
  - unfold h_u_build. rewrite (read_agree fV _ _ _ GV (proj2 O)). repeat (match goal with |- (if ?b then _ else _) = _ => destruct b; [reflexivity|] end).
    destruct (fields_and_values _) as [[sets ps]|]; [|reflexivity]. now rewrite (Cl _ (length ps) (proj1 O)).
  - unfold h_d_build. now rewrite (Cl _ 0 O).
Qed.

(** * Stores whose cells satisfy a fixed predicate *)
Section Cells.
  Context {A : Type} (P : A -> Prop).
  Definition Cells (st : store A) : Prop := forall i a, nth_error (st_arrs st) i = Some a -> Forall P (a_cells a).
  Lemma Cells_arr st s : Cells st -> Forall P (a_cells (the_arr st s)).
  Proof. intros W. destruct (the_arr_in st s) as [E | E]; [rewrite E; constructor|exact (W _ _ E)]. Qed.
  Lemma Cells_write st n a b : Cells st -> Forall P (a_cells a) -> Cells (mkSt (set_nth n a (st_arrs st)) b).
  Proof. intros W O i c E. apply nth_set_nth in E as [-> | E]; [exact O|exact (W _ _ E)]. Qed.
  Lemma Cells_alloc d st xs n : Cells st -> P d -> Forall P xs -> Cells (snd (alloc d st xs n)).
  Proof.
    intros W Od Ox i a E. cbn [alloc snd st_arrs] in E. destruct (Nat.lt_ge_cases i (length (st_arrs st))) as [L|L].
    - rewrite nth_error_app1 in E by exact L. exact (W _ _ E).
    - rewrite nth_error_app2 in E by exact L. destruct (i - length (st_arrs st)) as [|k]; cbn in E; [|now destruct k].
      injection E as <-. cbn [a_cells]. apply Forall_app. split; [exact Ox|]. apply Forall_forall. intros y Hy. now apply repeat_spec in Hy as ->.
  Qed.
  Lemma Cells_append d pol st s xs : Cells st -> P d -> Forall P xs -> Cells (snd (append d pol st s xs)).
  Proof.
    intros W Od Ox. unfold append. destruct (_ <=? _).
    - cbn [snd]. apply Cells_write; [exact W|]. cbn [a_cells]. apply write_at_Forall; [exact Ox|now apply Cells_arr].
    - apply Cells_alloc; [exact W|exact Od|]. apply Forall_app. split; [|exact Ox]. apply firstn_Forall. now apply Cells_arr.
  Qed.
  Lemma Cells_assign st s i x : Cells st -> P x -> Cells (assign st s i x).
  Proof.
    intros W Ox. unfold assign. apply Cells_write; [exact W|]. cbn [a_cells]. pose proof (Cells_arr st s W) as C. unfold set_nth.
    apply Forall_app. split; [now apply firstn_Forall|]. constructor; [exact Ox|now apply skipn_Forall].
  Qed.
End Cells.

(** * The caller's own slices *)

(** What a caller does with slices of its own: build one (with any spare capacity), set an
    element, append, cut s[:n].  Like the package, the caller makes no slice that starts
    inside its array (s[i:], i > 0); the header of Heap.v has no offset. *)
Inductive cop (A : Type) :=
| Make (xs : list A) (extra : nat)     (* make and fill, or a literal: a new slice *)
| Put (k i : nat) (x : A)              (* s_k[i] = x *)
| Push (k : nat) (xs : list A)         (* a new slice append(s_k, xs...) *)
| Cut (k n : nat).                     (* a new slice s_k[:n] *)
Arguments Make {A}. Arguments Put {A}. Arguments Push {A}. Arguments Cut {A}.
(** an index out of range panics and changes nothing *)
Definition cstep {A} (d : A) (pol : policy) (c : cop A) (sl : list slice) (st : store A) : list slice * store A :=
  match c with
  | Make xs extra => let '(s, st') := alloc d st xs extra in (sl ++ [s], st')%list
  | Put k i x => match nth_error sl k with
                 | Some s => if i <? sl_len s then (sl, assign st s i x) else (sl, st)
                 | None => (sl, st)
                 end
  | Push k xs => match nth_error sl k with
                 | Some s => let '(s', st') := append d pol st s xs in (sl ++ [s'], st')%list
                 | None => (sl, st)
                 end
  | Cut k n => match nth_error sl k with
               | Some s => if n <=? length (a_cells (the_arr st s)) then (sl ++ [mkSl (sl_arr s) n], st)%list else (sl, st)
               | None => (sl, st)
               end
  end.
Definition elements {A} (c : cop A) : list A := match c with Make xs _ | Push _ xs => xs | Put _ _ x => [x] | Cut _ _ => [] end.
Definition owned (sl : list slice) (i : nat) : Prop := In i (map sl_arr sl).

Lemma owned_in sl k s : nth_error sl k = Some s -> owned sl (sl_arr s).
Proof. intros E. apply in_map. now apply nth_error_In in E. Qed.
Lemma owned_add sl s i : owned (sl ++ [s])%list i -> owned sl i \/ i = sl_arr s.
Proof. unfold owned. rewrite map_app. intros H. apply in_app_iff in H as [H | [H | []]]; auto. Qed.
Lemma Agree_write {A} (F : nat -> Prop) (st : store A) n a b : F n -> Agree F st (mkSt (set_nth n a (st_arrs st)) b).
Proof. intros O i N L. cbn. apply set_nth_other'; [|exact L]. intros ->. contradiction. Qed.
Lemma Agree_alloc {A} F (d : A) st xs n : Agree F st (snd (alloc d st xs n)).
Proof. intros i N L. cbn. now rewrite nth_error_app1. Qed.

Lemma length_snoc {X} (l : list X) x : length (l ++ [x])%list = S (length l).
Proof. rewrite app_length. cbn. lia. Qed.
Lemma cstep_ok {A} (P : A -> Prop) (d : A) pol c sl st sl' st' :
  cstep d pol c sl st = (sl', st') -> (forall i, owned sl i -> i < length (st_arrs st)) -> Cells P st -> P d -> Forall P (elements c) ->
  length (st_arrs st) <= length (st_arrs st') /\ (forall i, owned sl' i -> owned sl i \/ length (st_arrs st) <= i) /\
  (forall i, owned sl' i -> i < length (st_arrs st')) /\ Agree (owned sl) st st' /\ Cells P st' /\ (forall s, In s sl -> In s sl').
Proof.
  intros E B C D X. 
  assert (Z : (sl, st) = (sl', st') -> length (st_arrs st) <= length (st_arrs st') /\ (forall i, owned sl' i -> owned sl i \/ length (st_arrs st) <= i) /\
    (forall i, owned sl' i -> i < length (st_arrs st')) /\ Agree (owned sl) st st' /\ Cells P st' /\ (forall s, In s sl -> In s sl')).
  { intros Q. injection Q as <- <-. repeat (split; auto). }
  destruct c as [xs extra|k i x|k xs|k n]; cbn [cstep elements] in *.
  - destruct (alloc d st xs extra) as [s st1] eqn:Q. pose proof (Cells_alloc P d st xs extra C D X) as C1. pose proof (Agree_alloc (owned sl) d st xs extra) as A1.
    rewrite Q in C1, A1. injection E as <- <-. unfold alloc in Q. injection Q as <- <-. cbn [st_arrs sl_arr snd] in *. rewrite length_snoc.
    split; [lia|]. split; [intros i [H | H]%owned_add; [auto|cbn in H; right; lia]|]. split; [intros i [H | H]%owned_add; [apply B in H; lia|cbn in H; lia]|].
    split; [exact A1|]. split; [exact C1|]. intros s H. apply in_app_iff. auto.
  - destruct (nth_error sl k) as [s|] eqn:K; [|auto]. destruct (i <? sl_len s); [|auto]. injection E as <- <-. pose proof (owned_in _ _ _ K) as O.
    split; [apply set_nth_len|]. split; [auto|]. split; [intros j Hj; apply B in Hj; eapply Nat.lt_le_trans; [exact Hj|apply set_nth_len]|].
    split; [now apply Agree_write|]. split; [|auto]. apply Cells_assign; [exact C|]. now apply Forall_inv in X.
  - destruct (nth_error sl k) as [s|] eqn:K; [|auto]. pose proof (owned_in _ _ _ K) as O.
    destruct (append d pol st s xs) as [s1 st1] eqn:Q. pose proof (Cells_append P d pol st s xs C D X) as C1. rewrite Q in C1. injection E as <- <-. cbn [snd] in C1.
    unfold append in Q. destruct (_ <=? _) in Q.
    + injection Q as <- <-. cbn [st_arrs]. split; [apply set_nth_len|]. split; [intros i [H | ->]%owned_add; auto|].
      split; [intros j [H | ->]%owned_add; (eapply Nat.lt_le_trans; [apply B; eassumption|apply set_nth_len])|]. split; [now apply Agree_write|]. split; [exact C1|].
      intros z H. apply in_app_iff. auto.
    + pose proof (Agree_alloc (owned sl) d st (read st s ++ xs)%list (pol (length (st_arrs st)) (length (a_cells (the_arr st s))) (sl_len s + length xs))) as A1.
      rewrite Q in A1. unfold alloc in Q. injection Q as <- <-. cbn [st_arrs sl_arr snd] in *. rewrite length_snoc.
      split; [lia|]. split; [intros i [H | H]%owned_add; [auto|cbn in H; right; lia]|]. split; [intros i [H | H]%owned_add; [apply B in H; lia|cbn in H; lia]|].
      split; [exact A1|]. split; [exact C1|]. intros z H. apply in_app_iff. auto.
  - destruct (nth_error sl k) as [s|] eqn:K; [|auto]. destruct (n <=? _); [|auto]. injection E as <- <-. pose proof (owned_in _ _ _ K) as O.
    split; [lia|]. split; [intros i [H | ->]%owned_add; auto|]. split; [intros i [H | ->]%owned_add; auto|]. split; [apply Agree_refl|]. split; [exact C|].
    intros z H. apply in_app_iff. auto.
Qed.

(** * Programs of calls and the caller's own steps *)
Record slices := mkSls { sC : list slice; sO : list slice; sV : list slice; sF : list slice }.
Record world := mkW { w_env : list (res hval); w_sls : slices; w_heap : heap }.
Inductive event :=
| Call (o : op)                  (* a call of the API *)
| Spread (o : op) (k : nat)      (* the call o with its variadic arguments given as s_k..., the caller's k-th slice of their type *)
| GetConditions (x : nat)        (* WhereClause.Conditions, where.go:39-44, of the group x: a new slice of the caller *)
| GetFields (x : nat)            (* FieldDefinitions, fields.go:40-45, select_base.go:125-127, select_many.go:69-71, select_single.go:33-35 *)
| EC (c : cop nat)               (* on []Condition; the elements are values of earlier calls *)
| EO (c : cop fsort)             (* on []FieldSorting *)
| EV (c : cop fvalue)            (* on []FieldValue *)
| EF (c : cop fdef).             (* on []FieldDefinition *)
Definition by_caller (e : event) : Prop := match e with EC _ | EO _ | EV _ | EF _ => True | _ => False end.

(** The arguments of a variadic call f(s...): Go passes the slice itself.  The code of the
    package reads it (append of s..., group.go:144, 149, 151, 154, insert.go:29, update.go:30,
    select_many.go:107; the loops fields.go:31-34 and logical.go:32-35) and keeps no header of
    it; the model reads the elements and runs the call on them. *)
Definition spread (w : world) (o : op) (k : nat) : list (res hval) * op :=
  let n := length (w_env w) in
  let h := w_heap w in
  let get (l : list slice) := nth k l (mkSl 0 0) in
  let cs := if k <? length (sC (w_sls w)) then read (hC h) (get (sC (w_sls w))) else [] in
  let os := if k <? length (sO (w_sls w)) then read (hO h) (get (sO (w_sls w))) else [] in
  let vs := if k <? length (sV (w_sls w)) then read (hV h) (get (sV (w_sls w))) else [] in
  let fs := if k <? length (sF (w_sls w)) then read (hF h) (get (sF (w_sls w))) else [] in
  let args := map (fun c => Ok (XC c)) cs in
  let ys := seq n (length cs) in
  match o with
  | OGroup j _ => (args, OGroup j ys)
  | OJoinAll j _ => (args, OJoinAll j ys)
  | OAnd x _ => (args, OAnd x ys)
  | OOr x _ => (args, OOr x ys)
  | OMAnd x _ => (args, OMAnd x ys)
  | OMOr x _ => (args, OMOr x ys)
  | OWhere x _ => (args, OWhere x ys)
  | OFields x _ => ([], OFields x fs)
  | OOrder x _ => ([], OOrder x os)
  | OValues x _ => ([], OValues x vs)
  | OSet x _ => ([], OSet x vs)
  | OToUpdate x _ => ([], OToUpdate x vs)
  | OToInsert x _ => ([], OToInsert x vs)
  | _ => ([], o)
  end.

Definition cmap {A B} (f : A -> res B) (c : cop A) : res (cop B) :=
  match c with
  | Make xs e => do ys <- mapM f xs; Ok (Make ys e)
  | Put k i x => do y <- f x; Ok (Put k i y)
  | Push k xs => do ys <- mapM f xs; Ok (Push k ys)
  | Cut k n => Ok (Cut k n)
  end.
Definition base_of (v : hval) : res hbsel :=
  match v with XB b => Ok b | XM m => Ok (hm_base m) | XS s => Ok (hss_base s) | _ => Panic end.

Section World.
  Variable pol : policy.
  Definition wstep (w : world) (e : event) : world :=
    let env := w_env w in let sl := w_sls w in let h := w_heap w in
    match e with
    | Call o => let '(v, h') := hstep pol env o h in mkW (env ++ [v])%list sl h'
    | Spread o k => let '(args, o') := spread w o k in let '(v, h') := hstep pol (env ++ args)%list o' h in mkW (env ++ [v])%list sl h'
    | GetConditions x =>
        match (do c <- hcond_at env x; match as_hgroup c with Some g => Ok g | None => Panic end) with
        | Ok g => match onC (h_conditions g) h with (Ok s, h') => mkW env (mkSls (sC sl ++ [s])%list (sO sl) (sV sl) (sF sl)) h' | (Panic, h') => mkW env sl h' end
        | Panic => w
        end
    | GetFields x =>
        match (do v <- look env x; base_of v) with
        | Ok b => match onF (h_field_definitions b) h with (Ok s, h') => mkW env (mkSls (sC sl) (sO sl) (sV sl) (sF sl ++ [s])%list) h' | (Panic, h') => mkW env sl h' end
        | Panic => w
        end
    | EC c => match cmap (hcond_at env) c with
              | Ok c' => let '(l, st) := cstep HNil pol c' (sC sl) (hC h) in mkW env (mkSls l (sO sl) (sV sl) (sF sl)) (mkH st (hO h) (hJ h) (hV h) (hF h))
              | Panic => w
              end
    | EO c => let '(l, st) := cstep zs pol c (sO sl) (hO h) in mkW env (mkSls (sC sl) l (sV sl) (sF sl)) (mkH (hC h) st (hJ h) (hV h) (hF h))
    | EV c => let '(l, st) := cstep zv pol c (sV sl) (hV h) in mkW env (mkSls (sC sl) (sO sl) l (sF sl)) (mkH (hC h) (hO h) (hJ h) st (hF h))
    | EF c => let '(l, st) := cstep zf pol c (sF sl) (hF h) in mkW env (mkSls (sC sl) (sO sl) (sV sl) l) (mkH (hC h) (hO h) (hJ h) (hV h) st)
    end.
  Definition wrun (es : list event) (w : world) : world := fold_left wstep es w.
End World.
Definition world0 : world := mkW [] (mkSls [] [] [] []) empty_heap.

(** * The caller's arrays and the package's stay apart *)
Notation WFHs sl := (WFH (owned (sC sl)) (owned (sO sl)) (owned (sV sl)) (owned (sF sl))).
Notation okVs sl := (okV (owned (sC sl)) (owned (sO sl)) (owned (sV sl)) (owned (sF sl))).
Notation okRs sl := (okR (owned (sC sl)) (owned (sO sl)) (owned (sV sl)) (owned (sF sl))).
Definition Inv (w : world) : Prop := WFHs (w_sls w) (w_heap w) /\ Forall (okRs (w_sls w) (w_heap w)) (w_env w).

(** a region that grows by arrays newer than the store *)
Definition Grow {A} (F F' : nat -> Prop) (st st' : store A) : Prop :=
  length (st_arrs st) <= length (st_arrs st') /\ forall i, F' i -> F i \/ length (st_arrs st) <= i.
Lemma Grow_refl {A} F (st : store A) : Grow F F st st.
Proof. split; auto. Qed.
Lemma okS_grow {A} F F' (st st' : store A) s : Grow F F' st st' -> okS F st s -> okS F' st' s.
Proof. intros [L G] [N B]. split; [|lia]. intros H. destruct (G _ H); [contradiction|lia]. Qed.
Lemma okC_grow F F' st st' c : Grow F F' st st' -> okC F st c -> okC F' st' c.
Proof. intros G. unfold okC. destruct (slice_of c); [|auto]. now apply okS_grow. Qed.
Definition GrowW (sl sl' : slices) (h h' : heap) : Prop :=
  Grow (owned (sC sl)) (owned (sC sl')) (hC h) (hC h') /\ Grow (owned (sO sl)) (owned (sO sl')) (hO h) (hO h') /\
  Grow fJ fJ (hJ h) (hJ h') /\ Grow (owned (sV sl)) (owned (sV sl')) (hV h) (hV h') /\ Grow (owned (sF sl)) (owned (sF sl')) (hF h) (hF h').
Lemma okV_grow sl sl' h h' v : GrowW sl sl' h h' -> okVs sl h v -> okVs sl' h' v.
Proof.
  intros (GC & GO & GJ & GV & GF).
  assert (B : forall b, okB (owned (sC sl)) (owned (sF sl)) h b -> okB (owned (sC sl')) (owned (sF sl')) h' b).
  { intros b (A1 & A2 & A3). split; [exact (okS_grow _ _ _ _ _ GJ A1)|split; [exact (okS_grow _ _ _ _ _ GF A2)|exact (okS_grow _ _ _ _ _ GC A3)]]. }
  destruct v; cbn [okV].
  - now apply okC_grow.
  - apply B.
  - intros [A1 A2]. split; [now apply B|exact (okS_grow _ _ _ _ _ GO A2)].
  - apply B.
  - apply B.
  - apply (okS_grow _ _ _ _ _ GV).
  - intros [A1 A2]. split; [exact (okS_grow _ _ _ _ _ GC A1)|exact (okS_grow _ _ _ _ _ GV A2)].
  - apply (okS_grow _ _ _ _ _ GC).
Qed.
Lemma okR_grow sl sl' h h' env : GrowW sl sl' h h' -> Forall (okRs sl h) env -> Forall (okRs sl' h') env.
Proof. intros G. apply Forall_impl. intros [v|]; [|auto]. now apply okV_grow. Qed.
Lemma Cells_impl {A} (P Q : A -> Prop) st : (forall x, P x -> Q x) -> Cells P st -> Cells Q st.
Proof. intros I C i a E. eapply Forall_impl; [|exact (C i a E)]. exact I. Qed.
Lemma WF_split {A} F (okE : store A -> A -> Prop) st : WF F okE st <-> (forall i, F i -> i < length (st_arrs st)) /\ Cells (okE st) st.
Proof. reflexivity. Qed.

Lemma owned_agree {A} sl (st st' : store A) s : (forall i, owned sl i -> i < length (st_arrs st)) -> Mono (owned sl) st st' -> In s sl -> read st' s = read st s.
Proof.
  intros B [L U] I. unfold read, the_arr. f_equal. f_equal. assert (O : owned sl (sl_arr s)) by now apply in_map. specialize (B _ O). specialize (U _ O B).
  destruct (nth_error (st_arrs st) (sl_arr s)) as [a|] eqn:E.
  - now rewrite (nth_error_nth _ _ _ E), (nth_error_nth _ _ _ U).
  - apply nth_error_None in E. lia.
Qed.

Definition unheard (w w' : world) : Prop := forall v fuel, In (Ok v) (w_env w) -> hsays v (w_heap w') fuel = hsays v (w_heap w) fuel.
Lemma unheard_refl w : unheard w w.
Proof. intros v fuel _. reflexivity. Qed.

Section Steps.
  Variable pol : policy.
  Lemma step_C env sl h c l st : Inv (mkW env sl h) -> cstep HNil pol c (sC sl) (hC h) = (l, st) -> Forall (okC (owned (sC sl)) (hC h)) (elements c) ->
    let w' := mkW env (mkSls l (sO sl) (sV sl) (sF sl)) (mkH st (hO h) (hJ h) (hV h) (hF h)) in Inv w' /\ unheard (mkW env sl h) w'.
  Proof.
    intros [(WC & WO & WJ & WV & WX) E] S X. cbn [w_sls w_heap w_env] in *. destruct WC as [WB WE].
    destruct (cstep_ok (okC (owned (sC sl)) (hC h)) HNil pol c (sC sl) (hC h) l st S WB WE I X) as (L & G & B & Ag & C & _).
    assert (Gw : GrowW sl (mkSls l (sO sl) (sV sl) (sF sl)) h (mkH st (hO h) (hJ h) (hV h) (hF h))).
    { refine (conj _ (conj _ (conj _ (conj _ _)))); first [apply Grow_refl|split; [exact L|exact G]]. }
    split.
    - split; cbn [w_sls w_heap w_env].
      + split; [|repeat (split; [assumption|]); assumption]. split; [exact B|]. eapply Cells_impl; [|exact C]. intros x. apply okC_grow. split; assumption.
      + exact (okR_grow _ _ _ _ _ Gw E).
    - intros v fuel V. cbn [w_env] in V. rewrite Forall_forall in E. specialize (E _ V). cbn in E.
      eapply says_agree; [exact (conj WB WE)|exact E|exact Ag|..]; cbn; try apply Agree_refl; reflexivity.
  Qed.
  Lemma step_O env sl h c l st : Inv (mkW env sl h) -> cstep zs pol c (sO sl) (hO h) = (l, st) ->
    let w' := mkW env (mkSls (sC sl) l (sV sl) (sF sl)) (mkH (hC h) st (hJ h) (hV h) (hF h)) in Inv w' /\ unheard (mkW env sl h) w'.
  Proof.
    intros [(WC & WO & WJ & WV & WX) E] S. cbn [w_sls w_heap w_env] in *. destruct WO as [WB WE].
    destruct (cstep_ok (fun _ => True) zs pol c (sO sl) (hO h) l st S WB WE I (any_all (hO h) _)) as (L & G & B & Ag & C & _).
    assert (Gw : GrowW sl (mkSls (sC sl) l (sV sl) (sF sl)) h (mkH (hC h) st (hJ h) (hV h) (hF h))).
    { refine (conj _ (conj _ (conj _ (conj _ _)))); first [apply Grow_refl|split; [exact L|exact G]]. }
    split.
    - split; cbn [w_sls w_heap w_env].
      + split; [exact WC|]. split; [|repeat (split; [assumption|]); assumption]. split; [exact B|exact C].
      + exact (okR_grow _ _ _ _ _ Gw E).
    - intros v fuel V. cbn [w_env] in V. rewrite Forall_forall in E. specialize (E _ V). cbn in E.
      eapply says_agree; [exact WC|exact E|..]; cbn; try apply Agree_refl; try exact Ag; reflexivity.
  Qed.
  Lemma step_V env sl h c l st : Inv (mkW env sl h) -> cstep zv pol c (sV sl) (hV h) = (l, st) ->
    let w' := mkW env (mkSls (sC sl) (sO sl) l (sF sl)) (mkH (hC h) (hO h) (hJ h) st (hF h)) in Inv w' /\ unheard (mkW env sl h) w'.
  Proof.
    intros [(WC & WO & WJ & WV & WX) E] S. cbn [w_sls w_heap w_env] in *. destruct WV as [WB WE].
    destruct (cstep_ok (fun _ => True) zv pol c (sV sl) (hV h) l st S WB WE I (any_all (hV h) _)) as (L & G & B & Ag & C & _).
    assert (Gw : GrowW sl (mkSls (sC sl) (sO sl) l (sF sl)) h (mkH (hC h) (hO h) (hJ h) st (hF h))).
    { refine (conj _ (conj _ (conj _ (conj _ _)))); first [apply Grow_refl|split; [exact L|exact G]]. }
    split.
    - split; cbn [w_sls w_heap w_env].
      + split; [exact WC|]. split; [exact WO|]. split; [exact WJ|]. split; [|assumption]. split; [exact B|exact C].
      + exact (okR_grow _ _ _ _ _ Gw E).
    - intros v fuel V. cbn [w_env] in V. rewrite Forall_forall in E. specialize (E _ V). cbn in E.
      eapply says_agree; [exact WC|exact E|..]; cbn; try apply Agree_refl; try exact Ag; reflexivity.
  Qed.
  Lemma step_F env sl h c l st : Inv (mkW env sl h) -> cstep zf pol c (sF sl) (hF h) = (l, st) ->
    let w' := mkW env (mkSls (sC sl) (sO sl) (sV sl) l) (mkH (hC h) (hO h) (hJ h) (hV h) st) in Inv w' /\ unheard (mkW env sl h) w'.
  Proof.
    intros [(WC & WO & WJ & WV & WX) E] S. cbn [w_sls w_heap w_env] in *. destruct WX as [WB WE].
    destruct (cstep_ok (fun _ => True) zf pol c (sF sl) (hF h) l st S WB WE I (any_all (hF h) _)) as (L & G & B & Ag & C & _).
    assert (Gw : GrowW sl (mkSls (sC sl) (sO sl) (sV sl) l) h (mkH (hC h) (hO h) (hJ h) (hV h) st)).
    { refine (conj _ (conj _ (conj _ (conj _ _)))); first [apply Grow_refl|split; [exact L|exact G]]. }
    split.
    - split; cbn [w_sls w_heap w_env].
      + split; [exact WC|]. split; [exact WO|]. split; [exact WJ|]. split; [exact WV|]. split; [exact B|exact C].
      + exact (okR_grow _ _ _ _ _ Gw E).
    - intros v fuel V. cbn [w_env] in V. rewrite Forall_forall in E. specialize (E _ V). cbn in E.
      eapply says_agree; [exact WC|exact E|..]; cbn; try apply Agree_refl; try exact Ag; reflexivity.
  Qed.

  (** the caller's slices hold in [w'] what they held in [w] *)
  Definition untouched (w w' : world) : Prop :=
    let sl := w_sls w in
    (forall s, In s (sC sl) -> In s (sC (w_sls w')) /\ read (hC (w_heap w')) s = read (hC (w_heap w)) s) /\
    (forall s, In s (sO sl) -> In s (sO (w_sls w')) /\ read (hO (w_heap w')) s = read (hO (w_heap w)) s) /\
    (forall s, In s (sV sl) -> In s (sV (w_sls w')) /\ read (hV (w_heap w')) s = read (hV (w_heap w)) s) /\
    (forall s, In s (sF sl) -> In s (sF (w_sls w')) /\ read (hF (w_heap w')) s = read (hF (w_heap w)) s).
  Lemma untouched_refl w : untouched w w.
  Proof. repeat split; auto. Qed.

  (** a call, on arguments that may include elements of the caller's slices *)
  Lemma step_call env args sl h o : Inv (mkW env sl h) -> Forall (okRs sl h) args ->
    let '(v, h') := hstep pol (env ++ args)%list o h in let w' := mkW (env ++ [v])%list sl h' in Inv w' /\ untouched (mkW env sl h) w'.
  Proof.
    intros [W E] A. cbn [w_sls w_heap w_env] in *.
    pose proof (step_good _ _ _ _ pol h (env ++ args)%list o W (proj2 (Forall_app _ _ _) (conj E A))) as (W' & M' & O').
    destruct (hstep pol (env ++ args)%list o h) as [v h']. cbn [fst snd] in *. split.
    - split; [exact W'|]. cbn [w_env]. apply Forall_app. split; [|constructor; [exact O'|constructor]].
      eapply Forall_impl; [|exact E]. intros [x|]; [|auto]. cbn [okR]. now apply okV_mono.
    - destruct W as (WC & WO & WJ & WV & WX). destruct M' as (MC & MO & MJ & MV & MX). cbn.
      repeat split; cbn; auto; eapply owned_agree; eauto; first [apply WC|apply WO|apply WV|apply WX].
  Qed.
  Lemma okR_args sl h s : WFHs sl h -> Forall (okRs sl h) (map (fun c => Ok (XC c)) (read (hC h) s)).
  Proof. intros W. apply Forall_map. pose proof (read_ok (F := owned (sC sl)) _ (hC h) s (proj1 W)) as R. eapply Forall_impl; [|exact R]. auto. Qed.
  Lemma okR_spread env sl h o k : Inv (mkW env sl h) -> Forall (okRs sl h) (fst (spread (mkW env sl h) o k)).
  Proof.
    intros [W _]. cbn [w_sls w_heap] in W. unfold spread. cbn [w_env w_sls w_heap].
    assert (X : Forall (okRs sl h) (map (fun c => Ok (XC c)) (if k <? length (sC sl) then read (hC h) (nth k (sC sl) (mkSl 0 0)) else []))).
    { destruct (k <? _); [now apply okR_args|constructor]. }
    destruct o; cbn [fst]; first [exact X|constructor].
  Qed.
  Lemma cond_args env sl h c c' : Inv (mkW env sl h) -> cmap (hcond_at env) c = Ok c' -> Forall (okC (owned (sC sl)) (hC h)) (elements c').
  Proof.
    intros [W E] M. cbn [w_sls w_heap w_env] in *. destruct c as [xs e|k i x|k xs|k n]; cbn [cmap] in M.
    - destruct (mapM _ xs) as [ys|] eqn:Y; [|discriminate]. injection M as <-. exact (okR_conds _ _ _ _ h env xs ys E Y).
    - destruct (hcond_at env x) as [y|] eqn:Y; [|discriminate]. injection M as <-. constructor; [exact (okR_cond _ _ _ _ h env x y E Y)|constructor].
    - destruct (mapM _ xs) as [ys|] eqn:Y; [|discriminate]. injection M as <-. exact (okR_conds _ _ _ _ h env xs ys E Y).
    - injection M as <-. constructor.
  Qed.
  Lemma step_inv w e : Inv w -> Inv (wstep pol w e).
  Proof.
    destruct w as [env sl h]. intros I. destruct e as [o|o k|x|x|c|c|c|c]; cbn [wstep w_env w_sls w_heap].
    - pose proof (step_call env [] sl h o I (Forall_nil _)) as S. rewrite app_nil_r in S. destruct (hstep pol env o h) as [v h']. apply S.
    - pose proof (okR_spread env sl h o k I) as A. destruct (spread _ o k) as [args o']. cbn [fst] in A.
      pose proof (step_call env args sl h o' I A) as S. destruct (hstep pol _ o' h) as [v h']. apply S.
    - destruct (hcond_at env x) as [c|]; cbn [bind]; [|exact I]. destruct (as_hgroup c) as [g|]; [|exact I].
      assert (X : Forall (okC (owned (sC sl)) (hC h)) (read (hC h) (hg_sl g))) by (apply (read_ok (F := owned (sC sl)) _ _ _ (proj1 (proj1 I)))).
      exact (proj1 (step_C env sl h (Make (read (hC h) (hg_sl g)) 0) _ _ I eq_refl X)).
    - destruct (look env x) as [v|]; cbn [bind]; [|exact I]. destruct (base_of v) as [b|]; [|exact I].
      exact (proj1 (step_F env sl h (Make (read (hF h) (hb_fields b)) 0) _ _ I eq_refl)).
    - destruct (cmap _ c) as [c'|] eqn:M; [|exact I]. destruct (cstep HNil pol c' (sC sl) (hC h)) as [l st] eqn:S.
      exact (proj1 (step_C env sl h c' l st I S (cond_args _ _ _ _ _ I M))).
    - destruct (cstep zs pol c (sO sl) (hO h)) as [l st] eqn:S. exact (proj1 (step_O env sl h c l st I S)).
    - destruct (cstep zv pol c (sV sl) (hV h)) as [l st] eqn:S. exact (proj1 (step_V env sl h c l st I S)).
    - destruct (cstep zf pol c (sF sl) (hF h)) as [l st] eqn:S. exact (proj1 (step_F env sl h c l st I S)).
  Qed.
  Lemma step_caller w e : Inv w -> by_caller e -> unheard w (wstep pol w e).
  Proof.
    destruct w as [env sl h]. intros I. destruct e as [o|o k|x|x|c|c|c|c]; intros Y; try destruct Y; cbn [wstep w_env w_sls w_heap].
    - destruct (cmap _ c) as [c'|] eqn:M; [|apply unheard_refl]. destruct (cstep HNil pol c' (sC sl) (hC h)) as [l st] eqn:S.
      exact (proj2 (step_C env sl h c' l st I S (cond_args _ _ _ _ _ I M))).
    - destruct (cstep zs pol c (sO sl) (hO h)) as [l st] eqn:S. exact (proj2 (step_O env sl h c l st I S)).
    - destruct (cstep zv pol c (sV sl) (hV h)) as [l st] eqn:S. exact (proj2 (step_V env sl h c l st I S)).
    - destruct (cstep zf pol c (sF sl) (hF h)) as [l st] eqn:S. exact (proj2 (step_F env sl h c l st I S)).
  Qed.
  Lemma read_alloc_old {A} (d : A) st xs n s : sl_arr s < length (st_arrs st) -> read (snd (alloc d st xs n)) s = read st s.
  Proof. intros L. unfold read, the_arr. cbn [alloc snd st_arrs]. now rewrite app_nth1. Qed.
  Lemma step_library w e : Inv w -> ~ by_caller e -> untouched w (wstep pol w e).
  Proof.
    destruct w as [env sl h]. intros I. destruct e as [o|o k|x|x|c|c|c|c]; intros Y; try (exfalso; apply Y; exact Logic.I); cbn [wstep w_env w_sls w_heap].
    - pose proof (step_call env [] sl h o I (Forall_nil _)) as S. rewrite app_nil_r in S. destruct (hstep pol env o h) as [v h']. apply S.
    - pose proof (okR_spread env sl h o k I) as A. destruct (spread _ o k) as [args o']. cbn [fst] in A.
      pose proof (step_call env args sl h o' I A) as S. destruct (hstep pol _ o' h) as [v h']. apply S.
    - destruct (hcond_at env x) as [c|]; cbn [bind]; [|apply untouched_refl]. destruct (as_hgroup c) as [g|]; [|apply untouched_refl].
      destruct I as [((B & _) & _) _]. repeat split; cbn; auto; try (apply in_app_iff; auto). apply (read_alloc_old HNil (hC h) (read (hC h) (hg_sl g)) 0). apply B. now apply in_map.
    - destruct (look env x) as [v|]; cbn [bind]; [|apply untouched_refl]. destruct (base_of v) as [b|]; [|apply untouched_refl].
      destruct I as [(_ & _ & _ & _ & B & _) _]. repeat split; cbn; auto; try (apply in_app_iff; auto). apply (read_alloc_old zf (hF h) (read (hF h) (hb_fields b)) 0). apply B. now apply in_map.
  Qed.
  Lemma Inv_0 : Inv world0.
  Proof.
    assert (Z : forall A (okE : store A -> A -> Prop), WF (owned []) okE empty_store) by (intros A okE; split; [intros i []|intros [|i] a; discriminate]).
    split; [|constructor]. split; [apply Z|]. split; [apply Z|]. split; [split; [intros i []|intros [|i] a; discriminate]|]. split; apply Z.
  Qed.
  Theorem run_inv es : Inv (wrun pol es world0).
  Proof. unfold wrun. generalize Inv_0. generalize world0. induction es as [|e es IH]; intros w I; [exact I|]. apply IH. now apply step_inv. Qed.
End Steps.
