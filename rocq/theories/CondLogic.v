(** What And, Or, Not and Where do to the meaning of conditions. *)
From Coq Require Import String Ascii List Bool Arith Lia.
From Verif Require Import GoStr Value Names Cond SqlSpec Spec StrFacts SqlFacts CondFacts CondText CondSem TreeFacts.
Import ListNotations.
Local Open Scope string_scope.
Local Open Scope nat_scope.

(** * Three-valued logic *)

Lemma and3_assoc a b c : and3 (and3 a b) c = and3 a (and3 b c).
Proof. destruct a, b, c; reflexivity. Qed.
Lemma or3_assoc a b c : or3 (or3 a b) c = or3 a (or3 b c).
Proof. destruct a, b, c; reflexivity. Qed.

Notation V := (prec and3 or3 U).
Notation go := (prec_go and3 or3).

Lemma go_some x a l : go (Some x) a l = or3 x (go None a l).
Proof.
  assert (H : forall l o a, go (Some (orO or3 (Some x) o)) a l = or3 x (go (Some o) a l)
                         /\ go (Some x) a l = or3 x (go None a l)).
  { clear. induction l as [|[j y] l IH]; intros o a; simpl.
    - split; [apply or3_assoc|reflexivity].
    - destruct (String.eqb j OR).
      + split.
        * simpl in IH. rewrite or3_assoc. apply (IH (or3 o a)).
        * simpl in IH. apply (IH a y).
      + split; apply IH; exact o. }
  apply (H l a a).
Qed.

Lemma go_or a l x m : go None a (l ++ (OR, x) :: m)%list = or3 (go None a l) (go None x m).
Proof.
  revert a; induction l as [|[j y] l IH]; intros a; simpl.
  - apply go_some.
  - destruct (String.eqb j OR); [|apply IH]. now rewrite !go_some, IH, or3_assoc.
Qed.

Definition ands (l : list (string * tv)) : Prop := Forall (fun i => fst i = AND) l.

Lemma go_and a b l : ands l -> go None (and3 a b) l = and3 a (go None b l).
Proof.
  revert b; induction l as [|[j y] l IH]; intros b H; simpl; [reflexivity|].
  inversion H as [|? ? Hj Hl]; subst. simpl in Hj; subst j. simpl. rewrite and3_assoc. now apply IH.
Qed.
Lemma go_ands a l x m : ands l -> ands m -> go None a (l ++ (AND, x) :: m)%list = and3 (go None a l) (go None x m).
Proof.
  revert a; induction l as [|[j y] l IH]; intros a Hl Hm; simpl.
  - now apply go_and.
  - inversion Hl as [|? ? Hj Hl']; subst. simpl in Hj; subst j. simpl. now apply IH.
Qed.

Lemma V_head j j' x m : V ((j, x) :: m) = V ((j', x) :: m).
Proof. reflexivity. Qed.
Lemma V_or l x m : l <> [] -> V (l ++ (OR, x) :: m)%list = or3 (V l) (V ((OR, x) :: m)).
Proof. destruct l as [|[j y] l]; [congruence|]. intros _. apply go_or. Qed.
Lemma V_and l x m : l <> [] -> ands (tl l) -> ands m -> V (l ++ (AND, x) :: m)%list = and3 (V l) (V ((AND, x) :: m)).
Proof. destruct l as [|[j y] l]; [congruence|]. intros _. apply go_ands. Qed.

(** * Meaning by the leaves' own texts *)

(** what the rendering of a leaf, on its own, says *)
Definition leaf_val (rho : row) (l : leaf) : tv :=
  match leaf_render l 0, leaf_values l with
  | Ok s, Ok vs => match truth rho s vs with Some t => t | None => U end
  | _, _ => U
  end.
Definition leaf_sound (rho : row) (l : leaf) : Prop := exists v, LeafOk rho l v.

Lemma leafok_means rho l v : LeafOk rho l v -> means rho (CLeaf l) v.
Proof.
  intros (vs & Ev & H). destruct (H 0) as (s & s' & ts & ts' & e & Es & Es' & Ls & Ls' & Hn & He & Hf).
  assert (HO : OrE ts e) by (now apply o_one, a_one).
  exists s, s', vs. repeat split; auto; unfold truth, truth_q.
  - rewrite (lexes_lex _ _ Ls), (parse_complete _ _ HO). specialize (Hf [] [] eq_refl). now rewrite app_nil_r in Hf.
  - rewrite (lexes_lex _ _ Ls'). rewrite <- (app_nil_r ts'). change 1 with (0 + 1). rewrite Hn. cbn [number_from].
    rewrite app_nil_r, (parse_complete _ _ HO). specialize (Hf [] [] eq_refl). now rewrite app_nil_r in Hf.
Qed.

Lemma leaf_sound_val rho l : leaf_sound rho l -> LeafOk rho l (leaf_val rho l).
Proof.
  intros (v & H). destruct (leafok_means _ _ _ H) as (s & s' & vs & Es & _ & Ev & Ht & _).
  simpl in Es, Ev. unfold leaf_val. now rewrite Es, Ev, Ht.
Qed.

Definition leaf_with_join (j : string) (l : leaf) : leaf := mkLeaf (l_kind l) j (l_neg l) (l_def l) (l_val l).
Lemma leaf_val_join rho j l : leaf_val rho (leaf_with_join j l) = leaf_val rho l.
Proof. destruct l; reflexivity. Qed.
Lemma leaf_sound_join rho j l : leaf_sound rho l -> leaf_sound rho (leaf_with_join j l).
Proof. destruct l; intros (v & H); exists v; exact H. Qed.

Lemma leaf_sound_core rho l l' : core l' = core l -> leaf_sound rho l -> leaf_sound rho l'.
Proof.
  destruct l as [k j ng d v], l' as [k' j' ng' d' v']. unfold core; simpl. intros [= -> -> -> ->].
  apply (leaf_sound_join rho j').
Qed.

Definition sound (rho : row) (c : cond) : Prop := forall l, In l (leaves c) -> leaf_sound rho l.

Lemma sound_cores rho cs c : cores c = cores_l cs -> Forall (sound rho) cs -> sound rho c.
Proof.
  intros E H l Hl.
  assert (In (core l) (cores_l cs)) as Hin by (rewrite <- E; unfold cores; now apply in_map).
  unfold cores_l in Hin. apply in_flat_map in Hin as (c0 & Hc0 & Hin). unfold cores in Hin.
  apply in_map_iff in Hin as (l0 & E0 & Hl0). rewrite Forall_forall in H.
  apply (leaf_sound_core rho l0); [now symmetry|]. now apply (H c0).
Qed.

Lemma sound_grp rho j n cs br : sound rho (CGrp j n cs br) <-> Forall (sound rho) cs.
Proof.
  rewrite Forall_forall. unfold sound; simpl. split.
  - intros H c Hc l Hl. apply H. apply in_flat_map. eauto.
  - intros H l Hl. apply in_flat_map in Hl as (c & Hc & Hl). eauto.
Qed.

(** the meaning of a sound tree is its mean *)
Lemma means_mean rho c : wf c -> sound rho c -> means rho c (mean (leaf_val rho) c).
Proof. intros Hw Hs. apply sem_means, tree_sem; auto. intros l Hl. apply leaf_sound_val; auto. Qed.
Lemma means_iff rho c v : wf c -> sound rho c -> (means rho c v <-> v = mean (leaf_val rho) c).
Proof.
  intros Hw Hs. pose proof (means_mean rho c Hw Hs) as H. split; [|now intros ->].
  intros H'. eapply means_fun; eauto.
Qed.

(** * Items *)

Section Items.
  Variable lv : leaf -> tv.
  Hypothesis lv_join : forall j l, lv (leaf_with_join j l) = lv l.
  Notation dens cs := (flat_map (den lv) cs).

  Lemma den_nonempty c : wf c -> den lv c <> [].
  Proof. intros H. destruct (wf_jtype _ H) as (j & Ej & _). destruct (den_head lv _ _ H Ej) as (v & r & ->). discriminate. Qed.
  Lemma dens_nonempty cs : Forall wf cs -> cs <> [] -> dens cs <> [].
  Proof.
    destruct 1 as [|c cs Hc Hcs]; [congruence|]. intros _. simpl.
    pose proof (den_nonempty _ Hc). destruct (den lv c); [congruence|discriminate].
  Qed.

  Lemma den_join j c c' : wf c -> c_join j c = Ok c' ->
    exists j0 v r, den lv c = (j0, v) :: r /\ den lv c' = (j, v) :: r.
  Proof.
    intros Hw E. destruct c as [|l|j0 n cs br]; inversion E; subst; clear E.
    - exists (l_join l), (lv l), []. split; [reflexivity|]. simpl. do 2 f_equal. apply lv_join.
    - simpl. destruct (br || n && (1 <? length cs)); [eauto 6|].
      inversion Hw as [|? ? ? ? _ Hne Hcs]; subst. pose proof (dens_nonempty _ Hcs Hne) as Hd.
      destruct (dens cs) as [|[j1 v] r]; [congruence|]. eauto 6.
  Qed.
  Lemma mean_join j c c' : wf c -> c_join j c = Ok c' -> mean lv c' = mean lv c.
  Proof. intros Hw E. destruct (den_join _ _ _ Hw E) as (j0 & v & r & E1 & E2). unfold mean. now rewrite E1, E2. Qed.

  (** an unnegated group means the list of its conditions *)
  Lemma mean_grp j cs br : mean lv (CGrp j false cs br) = V (dens cs).
  Proof.
    unfold mean; simpl. destruct br; simpl; [reflexivity|].
    destruct (dens cs) as [|[j0 v] r]; reflexivity.
  Qed.
  Lemma mean_neg j cs br : br || (1 <? length cs) = true -> mean lv (CGrp j true cs br) = not3 (V (dens cs)).
  Proof. unfold mean; simpl. intros ->. reflexivity. Qed.
  Lemma den_br j n cs : den lv (CGrp j n cs true) = [(j, if n then not3 (V (dens cs)) else V (dens cs))].
  Proof. reflexivity. Qed.
  Lemma mean_br j n cs : (n = true -> 1 <? length cs = true) -> mean lv (CGrp j n cs true) = mean lv (CGrp j n cs false).
  Proof.
    intros H. destruct n.
    - rewrite !mean_neg; [reflexivity|simpl; now apply H|reflexivity].
    - now rewrite !mean_grp.
  Qed.
End Items.

(** * No OR outside brackets *)

Inductive and_safe : cond -> Prop :=
| as_leaf l : and_safe (CLeaf l)
| as_br j n cs : and_safe (CGrp j n cs true)
| as_neg j cs br : 1 < length cs -> and_safe (CGrp j true cs br)
| as_and j n cs : Forall and_safe cs -> Forall (fun c => jtype c = Ok AND) (tl cs) -> and_safe (CGrp j n cs false).

Lemma and_safe_join j c c' : and_safe c -> c_join j c = Ok c' -> and_safe c'.
Proof. intros H E. destruct H; inversion E; subst; constructor; auto. Qed.

Section Safe.
  Variable lv : leaf -> tv.
  Notation dens cs := (flat_map (den lv) cs).

  Lemma safe_den c : wf c -> and_safe c -> ands (tl (den lv c)).
  Proof.
    induction c as [|l|j n cs br IH] using cond_ind'; intros Hw Hs.
    - inversion Hw.
    - constructor.
    - inversion Hw as [|? ? ? ? Hj Hne Hcs]; subst. simpl.
      destruct (br || n && (1 <? length cs)) eqn:B; [constructor|].
      apply orb_false_iff in B as [-> B].
      inversion Hs as [| |? ? ? L|? ? ? Ha Ht]; subst.
      { apply Nat.ltb_lt in L. rewrite L in B. discriminate. }
      assert (K : ands (tl (dens cs))).
      { destruct cs as [|c cs]; [constructor|]. simpl.
        inversion IH as [|? ? IHc IHcs]; inversion Hcs as [|? ? Hc Hcs']; inversion Ha as [|? ? Hac Hacs]; subst.
        simpl in Ht. destruct (wf_jtype _ Hc) as (jc & Ejc & _). destruct (den_head lv _ _ Hc Ejc) as (v & r & Ed).
        specialize (IHc Hc Hac). rewrite Ed in *. simpl in *. unfold ands. apply Forall_app. split; [exact IHc|].
        clear -Ht IHcs Hcs' Hacs. revert Ht. induction Hcs' as [|c cs Hc Hcs IH]; intros Ht; [constructor|]. simpl.
        inversion IHcs; inversion Hacs; inversion Ht; subst.
        apply Forall_app. split; [|now apply IH].
        destruct (den_head lv c AND Hc) as (v & r & E); [assumption|].
        match goal with H : wf c -> and_safe c -> _ |- _ => specialize (H Hc ltac:(assumption)); rewrite E in *; simpl in H end.
        constructor; auto. }
      destruct (dens cs) as [|[j0 v] r]; [constructor|exact K].
  Qed.

  (** children after the first joined by AND, all safe *)
  Definition conj_list (cs : list cond) : Prop :=
    Forall and_safe cs /\ Forall (fun c => jtype c = Ok AND) (tl cs).

  Lemma all_ands cs : Forall wf cs -> Forall and_safe cs -> Forall (fun c => jtype c = Ok AND) cs -> ands (dens cs).
  Proof.
    intros Hw Ha Ht. induction Hw as [|c cs Hc Hcs IH]; [constructor|]. simpl.
    inversion Ha; inversion Ht; subst. apply Forall_app. split; [|now apply IH].
    destruct (den_head lv c AND Hc) as (v & r & E); [assumption|].
    pose proof (safe_den c Hc ltac:(assumption)) as K. rewrite E in *. constructor; auto.
  Qed.
  Lemma conj_ands cs : Forall wf cs -> conj_list cs -> ands (tl (dens cs)).
  Proof.
    intros Hw [Ha Ht]. destruct Hw as [|c cs Hc Hcs]; [constructor|]. simpl in *.
    inversion Ha; subst. pose proof (safe_den c Hc ltac:(assumption)) as K.
    pose proof (den_nonempty lv c Hc) as Hn. destruct (den lv c) as [|i r]; [congruence|]. simpl in *.
    apply Forall_app. split; [exact K|]. now apply all_ands.
  Qed.

  (** conjunction of lists *)
  Lemma V_conj cs ds d : Forall wf cs -> cs <> [] -> conj_list cs -> Forall wf (d :: ds) ->
    Forall and_safe (d :: ds) -> Forall (fun c => jtype c = Ok AND) (d :: ds) ->
    V (dens (cs ++ d :: ds)%list) = and3 (V (dens cs)) (V (dens (d :: ds))).
  Proof.
    intros Hw Hne Hc Hwd Hsd Hjd. rewrite flat_map_app.
    pose proof (all_ands _ Hwd Hsd Hjd) as K. simpl in *.
    inversion Hwd as [|? ? Hwd1 _]; inversion Hjd as [|? ? Hj1 _]; subst.
    destruct (den_head lv d AND Hwd1 Hj1) as (v & r & E). rewrite E in *. simpl in *. inversion K; subst.
    apply V_and; [now apply dens_nonempty|now apply conj_ands|assumption].
  Qed.
  (** disjunction of lists *)
  Lemma V_disj cs ds d : Forall wf cs -> cs <> [] -> wf d -> jtype d = Ok OR ->
    V (dens (cs ++ d :: ds)%list) = or3 (V (dens cs)) (V (dens (d :: ds))).
  Proof.
    intros Hw Hne Hwd Hjd. rewrite flat_map_app. simpl.
    destruct (den_head lv d OR Hwd Hjd) as (v & r & E). rewrite E. simpl.
    now apply V_or, dens_nonempty.
  Qed.
End Safe.

(** * The helper predicates of the merge functions *)

Definition jt (c : cond) : string := match jtype c with Ok j => j | Panic => "" end.
Definition tails (j : string) (cs : list cond) : bool := forallb (fun c => String.eqb (jt c) j) (tl cs).
Definition someTail (j : string) (cs : list cond) : bool := existsb (fun c => String.eqb (jt c) j) (tl cs).

Lemma wf_jt c : wf c -> jtype c = Ok (jt c) /\ and_or (jt c).
Proof. intros H. destruct (wf_jtype _ H) as (j & E & Hj). unfold jt. rewrite E. auto. Qed.

Lemma all_join_eq j cs : Forall wf cs -> all_join j cs = Ok (forallb (fun c => String.eqb (jt c) j) cs).
Proof.
  induction 1 as [|c cs Hc _ IH]; simpl; [reflexivity|]. destruct (wf_jt _ Hc) as [-> _]. simpl.
  unfold str_eqb. destruct (String.eqb (jt c) j); [exact IH|reflexivity].
Qed.
Lemma one_join_eq j cs : Forall wf cs -> one_join j cs = Ok (existsb (fun c => String.eqb (jt c) j) cs).
Proof.
  induction 1 as [|c cs Hc _ IH]; simpl; [reflexivity|]. destruct (wf_jt _ Hc) as [-> _]. simpl.
  unfold str_eqb. destruct (String.eqb (jt c) j); [reflexivity|exact IH].
Qed.
Lemma has_all_eq g j : Forall wf (g_cs g) -> has_all g j = Ok (tails j (g_cs g)).
Proof. unfold has_all, tails. intros H; destruct H; [reflexivity|now apply all_join_eq]. Qed.
Lemma has_one_eq g j : Forall wf (g_cs g) -> has_one g j = Ok (someTail j (g_cs g)).
Proof. unfold has_one, someTail. intros H; destruct H; [reflexivity|now apply one_join_eq]. Qed.

Lemma tails_true j cs : Forall wf cs -> tails j cs = true -> Forall (fun c => jtype c = Ok j) (tl cs).
Proof.
  unfold tails. intros Hw H. rewrite forallb_forall in H. apply Forall_forall. intros c Hc.
  specialize (H c Hc). apply String.eqb_eq in H. subst j. apply wf_jt. rewrite Forall_forall in Hw. apply Hw.
  destruct cs; [destruct Hc|now right].
Qed.
(** AND or OR, nothing else *)
Lemma tails_some cs : Forall wf cs ->
  (tails AND cs = negb (someTail OR cs)) /\ (tails OR cs = negb (someTail AND cs)).
Proof.
  unfold tails, someTail. intros Hw.
  assert (H : Forall wf (tl cs)) by (destruct Hw; simpl; auto). clear Hw.
  induction H as [|c l Hc _ [IH1 IH2]]; simpl; [auto|].
  destruct (wf_jt _ Hc) as [_ [-> | ->]]; simpl; auto.
Qed.
Lemma tails_many j cs : 1 < length cs -> tails j cs = true -> someTail j cs = true.
Proof.
  unfold tails, someTail. destruct cs as [|a [|b cs]]; simpl; try lia.
  intros _ H%andb_true_iff. destruct H as [-> _]. reflexivity.
Qed.

Definition many (cs : list cond) : Prop := 1 < length cs.

(** * And *)

Definition conj3 (l : list tv) : tv := fold_right and3 T l.
Definition disj3 (l : list tv) : tv := fold_right or3 F l.
Lemma and3_T a : and3 a T = a. Proof. now destruct a. Qed.
Lemma or3_F a : or3 a F = a. Proof. now destruct a. Qed.

(** the conditions And and Or work with: those of a group, or the leaf itself *)
Definition members (c : cond) : list cond := match c with CGrp _ _ cs _ => cs | _ => [c] end.
Definition negated (c : cond) : bool := match c with CGrp _ n _ _ => n | _ => false end.

(** Receivers for which And works: a leaf, or a group that is not negated and,
    if its conditions are all joined by AND, has no OR outside brackets. *)
Definition and_receiver (c : cond) : Prop :=
  negated c = false /\ (tails AND (members c) = true -> Forall and_safe (members c)).

(** Single arguments for which And works: a leaf; an unnegated group of safe
    conditions all carrying AND; a group with an OR, which And puts in brackets
    (if there are ANDs too, only when the receiver's conditions are joined by AND). *)
Inductive and_argument (recv : list cond) : cond -> Prop :=
| aa_leaf l : and_argument recv (CLeaf l)
| aa_and j ds br : Forall and_safe ds -> Forall (fun c => jtype c = Ok AND) ds -> and_argument recv (CGrp j false ds br)
| aa_or j n ds br : someTail OR ds = true -> (someTail AND ds = false \/ tails AND recv = true) ->
    and_argument recv (CGrp j n ds br).

Section AndOr.
  Variable lv : leaf -> tv.
  Hypothesis lv_join : forall j l, lv (leaf_with_join j l) = lv l.
  Notation dens cs := (flat_map (den lv) cs).

  Lemma V_single c : wf c -> V (dens [c]) = mean lv c.
  Proof. intros _. simpl. now rewrite app_nil_r. Qed.

  Lemma V_all ds : Forall wf ds -> ds <> [] -> conj_list ds -> V (dens ds) = conj3 (map (mean lv) ds).
  Proof.
    intros Hw. induction Hw as [|d ds Hd Hds IH]; [congruence|]. intros _ [Ha Ht]. simpl in Ht.
    inversion Ha as [|? ? Ha1 Ha2]; subst. destruct ds as [|e ds].
    - rewrite V_single by exact Hd. simpl. now rewrite and3_T.
    - change (d :: e :: ds) with ([d] ++ e :: ds)%list at 1.
      assert (Hc : conj_list (e :: ds)) by (split; [auto|simpl; inversion Ht; auto]).
      assert (Hc1 : conj_list [d]) by (split; constructor; auto).
      rewrite V_conj by (auto; discriminate).
      rewrite V_single by exact Hd. rewrite IH by (auto; discriminate). reflexivity.
  Qed.

  Lemma V_all_or ds : Forall wf ds -> ds <> [] -> Forall (fun c => jtype c = Ok OR) (tl ds) ->
    V (dens ds) = disj3 (map (mean lv) ds).
  Proof.
    intros Hw. induction Hw as [|d ds Hd Hds IH]; [congruence|]. intros _ Ht. simpl in Ht.
    destruct ds as [|e ds].
    - rewrite V_single by exact Hd. simpl. now rewrite or3_F.
    - change (d :: e :: ds) with ([d] ++ e :: ds)%list at 1. inversion Ht; inversion Hds; subst.
      rewrite V_disj; auto; try discriminate.
      rewrite V_single, IH; auto; discriminate.
  Qed.

  (** a group put in brackets keeps its meaning when it is negated only if it has several conditions *)
  Lemma brackets_and c d op : wf c -> as_group c = Some d -> (g_neg d = true -> many (g_cs d)) ->
    forall c', c_join op (of_g (with_brackets d)) = Ok c' ->
    den lv c' = [(op, mean lv c)].
  Proof.
    intros Hw E Hn c' E'. destruct c as [|l|j n cs br]; inversion E; subst; clear E.
    simpl in E'. injection E' as <-. rewrite den_br. do 2 f_equal. destruct n.
    - symmetry. apply mean_neg. apply orb_true_iff. right. apply Nat.ltb_lt. now apply Hn.
    - symmetry. apply mean_grp.
  Qed.

  Lemma V_app_and cs c v : Forall wf cs -> cs <> [] -> conj_list cs -> den lv c = [(AND, v)] ->
    V (dens (cs ++ [c])%list) = and3 (V (dens cs)) v.
  Proof.
    intros Hw Hne Hc E. rewrite flat_map_app. simpl. rewrite E. simpl.
    rewrite V_and; [reflexivity|now apply dens_nonempty|now apply conj_ands|constructor].
  Qed.
  Lemma V_app_or cs c v : Forall wf cs -> cs <> [] -> den lv c = [(OR, v)] ->
    V (dens (cs ++ [c])%list) = or3 (V (dens cs)) v.
  Proof.
    intros Hw Hne E. rewrite flat_map_app. simpl. rewrite E. simpl.
    rewrite V_or; [reflexivity|now apply dens_nonempty].
  Qed.

  Definition g_ok (g : group) : Prop := and_or (g_join g) /\ Forall wf (g_cs g).
  Lemma g_ok_br g : g_ok g -> g_cs g <> [] -> wf (of_g (with_brackets g)).
  Proof. intros [Hj Hc] Hn. constructor; auto. Qed.

  Lemma conj_snoc cs c : cs <> [] -> conj_list cs -> and_safe c -> jtype c = Ok AND -> conj_list (cs ++ [c])%list.
  Proof.
    intros Hne [H1 H2] Hs Hj. split; [apply Forall_app; auto|].
    destruct cs; [congruence|]. simpl in *. apply Forall_app; auto.
  Qed.
  Lemma conj_app cs ds : cs <> [] -> conj_list cs -> Forall and_safe ds -> Forall (fun c => jtype c = Ok AND) ds ->
    conj_list (cs ++ ds)%list.
  Proof.
    intros Hne [H1 H2] Hs Hj. split; [apply Forall_app; auto|].
    destruct cs; [congruence|]. simpl in *. apply Forall_app; auto.
  Qed.

  Lemma head_and d ds : Forall (fun c => jtype c = Ok AND) (d :: ds) -> tails AND (d :: ds) = true.
  Proof.
    intros H. inversion H; subst. unfold tails; simpl. apply forallb_forall. intros c Hc.
    rewrite Forall_forall in *. unfold jt. now rewrite H3.
  Qed.

  Lemma conj_of g : g_ok g -> tails AND (g_cs g) = true -> Forall and_safe (g_cs g) -> conj_list (g_cs g).
  Proof. intros [_ Hw] Ht Hs. split; [exact Hs|now apply tails_true]. Qed.

  Lemma single_tails g j : (length (g_cs g) =? 1) = true -> tails j (g_cs g) = true /\ someTail j (g_cs g) = false.
  Proof. destruct (g_cs g) as [|a [|b l]]; simpl; auto; discriminate. Qed.

  Lemma many_of_or ds j : someTail j ds = true -> many ds.
  Proof. unfold someTail, many. destruct ds as [|a [|b ds]]; simpl; try discriminate. lia. Qed.

  (** one more condition with And *)
  Lemma and_one g d d' r : g_ok g -> g_cs g <> [] -> g_neg g = false ->
    (tails AND (g_cs g) = true -> Forall and_safe (g_cs g)) ->
    wf d -> and_argument (g_cs g) d -> c_join AND d = Ok d' -> add_single g d' = Ok r ->
    g_neg r = false /\ conj_list (g_cs r) /\ V (dens (g_cs r)) = and3 (V (dens (g_cs g))) (mean lv d).
  Proof.
    intros Hg Hne Hn Hs Hd Ha Ej Er. pose proof Hg as [Hgj Hw].
    assert (Hbr : den lv (of_g (with_brackets g)) = [(g_join g, V (dens (g_cs g)))]).
    { unfold of_g; simpl. rewrite Hn. reflexivity. }
    assert (Hbw : wf (of_g (with_brackets g))) by (now apply g_ok_br).
    assert (Hbs : and_safe (of_g (with_brackets g))) by constructor.
    assert (Hd' : wf d').
    { destruct d; inversion Ej; subst; inversion Hd; subst; constructor; auto; now left. }
    assert (Hm : mean lv d' = mean lv d) by (now apply (mean_join lv lv_join AND)).
    assert (Hjd : jtype d' = Ok AND) by (destruct d; inversion Ej; subst; reflexivity).
    (* shapes of the result *)
    assert (Kapp1 : forall c v, den lv c = [(AND, v)] -> and_safe c -> jtype c = Ok AND ->
      tails AND (g_cs g) = true ->
      conj_list (g_cs g ++ [c])%list /\ V (dens (g_cs g ++ [c])%list) = and3 (V (dens (g_cs g))) v).
    { intros c v Hc Hcs Hcj Ht. pose proof (conj_of g Hg Ht (Hs Ht)) as HC.
      split; [now apply conj_snoc|now apply V_app_and]. }
    assert (Kbr1 : forall c v, den lv c = [(AND, v)] -> and_safe c -> jtype c = Ok AND ->
      conj_list [of_g (with_brackets g); c] /\ V (dens [of_g (with_brackets g); c]) = and3 (V (dens (g_cs g))) v).
    { intros c v Hc Hcs Hcj. split; [split; repeat constructor; auto|].
      change [of_g (with_brackets g); c] with ([of_g (with_brackets g)] ++ [c])%list.
      rewrite (V_app_and _ _ v); auto; try discriminate; [|split; repeat constructor; auto].
      cbn [flat_map]. rewrite Hbr. reflexivity. }
    unfold add_single in Er. rewrite !has_all_eq in Er by exact Hw. rewrite Hjd in Er. cbn [bind] in Er.
    replace (length (g_cs g) =? 0) with false in Er by (destruct (g_cs g); [congruence|reflexivity]).
    destruct d as [|l|j n ds br]; inversion Ej; subst; clear Ej.
    - (* leaf *)
      cbn [as_group c_join bind] in Er. cbn [l_kind l_neg l_def l_val] in Er.
      change (mkLeaf (l_kind l) AND (l_neg l) (l_def l) (l_val l)) with (leaf_with_join AND l) in *.
      change (mean lv (CLeaf l)) with (V [(l_join l, lv l)]). simpl V.
      assert (El : den lv (CLeaf (leaf_with_join AND l)) = [(AND, lv l)]) by (simpl; now rewrite lv_join).
      destruct (length (g_cs g) =? 1) eqn:L1.
      { injection Er as <-. destruct (single_tails g AND L1) as [Ht _]. cbn [g_cs g_neg set_cs].
        split; [exact Hn|]. apply Kapp1; auto; constructor. }
      simpl str_eqb in Er. rewrite !andb_true_r, ?andb_false_r in Er. cbn [andb] in Er.
      destruct (tails AND (g_cs g)) eqn:Ht.
      { rewrite andb_true_r in Er. destruct (1 <? length (g_cs g)).
        - injection Er as <-. cbn [g_cs g_neg set_cs]. split; [exact Hn|]. apply Kapp1; auto; constructor.
        - injection Er as <-. cbn [g_cs g_neg set_cs]. split; [exact Hn|]. apply Kbr1; auto; constructor. }
      rewrite andb_false_r in Er. injection Er as <-. cbn [g_cs g_neg set_cs].
      split; [exact Hn|]. apply Kbr1; auto; constructor.
    - (* group *)
      cbn [as_group] in Er. set (a := {| g_join := AND; g_neg := n; g_cs := ds; g_br := br |}) in *.
      inversion Hd as [|? ? ? ? Hj Hdne Hdw]; subst.
      unfold add_group in Er. rewrite !has_all_eq, !has_one_eq in Er by (exact Hw || exact Hdw).
      cbn [bind] in Er.
      replace (length (g_cs g) =? 0) with false in Er by (destruct (g_cs g); [congruence|reflexivity]).
      change (g_join a) with AND in Er. change (str_eqb AND AND) with true in Er. change (str_eqb AND OR) with false in Er.
      change (g_cs a) with ds in Er.
      rewrite ?andb_true_r, ?andb_false_r in Er. cbn [andb] in Er.
      destruct (tails_some ds Hdw) as [TS1 TS2]. destruct (tails_some (g_cs g) Hw) as [TG1 TG2].
      assert (Hbra : (n = true -> many ds) ->
        forall op c', c_join op (of_g (with_brackets a)) = Ok c' -> den lv c' = [(op, mean lv (CGrp j n ds br))]).
      { intros Hnm op c' E. destruct n.
        - simpl in E. injection E as <-. rewrite den_br. do 2 f_equal. symmetry. apply mean_neg.
          apply orb_true_iff. right. apply Nat.ltb_lt. now apply Hnm.
        - simpl in E. injection E as <-. rewrite den_br. do 2 f_equal. symmetry. apply mean_grp. }
      inversion Ha as [|? ? ? Has Haj|? ? ? ? Hor Hmix]; subst.
      + (* all AND *)
        destruct ds as [|x ds]; [congruence|].
        pose proof (head_and _ _ Haj) as Hta. rewrite Hta in *.
        assert (HO : someTail OR (x :: ds) = false) by (destruct (someTail OR (x :: ds)); auto; discriminate).
        rewrite HO in *. rewrite ?andb_true_r, ?andb_false_r in Er. cbn [andb] in Er.
        rewrite mean_grp.
        assert (Kapp : tails AND (g_cs g) = true -> conj_list (g_cs g ++ x :: ds)%list /\
          V (dens (g_cs g ++ x :: ds)%list) = and3 (V (dens (g_cs g))) (V (dens (x :: ds)))).
        { intros Ht. pose proof (conj_of g Hg Ht (Hs Ht)) as HC. split; [now apply conj_app|now apply V_conj]. }
        destruct (length (g_cs g) =? 1) eqn:L1.
        { injection Er as <-. destruct (single_tails g AND L1) as [Ht _]. cbn [g_cs g_neg set_cs].
          split; [exact Hn|]. now apply Kapp. }
        destruct (someTail OR (g_cs g) && someTail AND (x :: ds)) eqn:B1.
        { injection Er as <-. cbn [g_cs g_neg set_cs]. split; [exact Hn|].
          change (of_g (with_brackets g) :: x :: ds) with ([of_g (with_brackets g)] ++ x :: ds)%list.
          split.
          - apply conj_app; auto; [discriminate|split; repeat constructor; auto].
          - rewrite V_conj; auto; try discriminate; [|split; repeat constructor; auto].
            cbn [flat_map]. now rewrite Hbr. }
        destruct (tails AND (g_cs g)) eqn:Ht.
        { injection Er as <-. cbn [g_cs g_neg set_cs]. split; [exact Hn|]. now apply Kapp. }
        destruct (c_join AND (of_g (with_brackets a))) as [c'|] eqn:Ec; [|discriminate].
        cbn [bind] in Er. injection Er as <-. cbn [g_cs g_neg set_cs]. split; [exact Hn|].
        rewrite <- (mean_grp lv j (x :: ds) br).
        apply Kbr1.
        * apply Hbra; [discriminate|exact Ec].
        * simpl in Ec. injection Ec as <-. constructor.
        * simpl in Ec. injection Ec as <-. reflexivity.
      + (* some OR *)
        rewrite Hor in *. simpl in TS1. rewrite TS1 in *.
        pose proof (many_of_or _ _ Hor) as Hmany.
        rewrite ?andb_true_r, ?andb_false_r in Er. cbn [andb] in Er.
        assert (Hjn : c_join AND (of_g (with_brackets a)) = Ok (CGrp AND n ds true)) by reflexivity.
        rewrite Hjn in Er. cbn [bind] in Er.
        change (of_g (with_brackets a)) with (CGrp AND n ds true) in Er.
        pose proof (Hbra (fun _ => Hmany) AND _ Hjn) as Hden.
        assert (Hsafe : and_safe (CGrp AND n ds true)) by constructor.
        destruct (length (g_cs g) =? 1) eqn:L1.
        { injection Er as <-. destruct (single_tails g AND L1) as [Ht _]. cbn [g_cs g_neg set_cs].
          split; [exact Hn|]. now apply Kapp1. }
        destruct (someTail OR (g_cs g) && someTail AND ds) eqn:B1.
        { apply andb_true_iff in B1 as [B1 B2]. destruct Hmix as [Hmix|Hmix]; [congruence|].
          rewrite TG1, B1 in Hmix. discriminate. }
        destruct (tails AND (g_cs g)) eqn:Ht.
        { injection Er as <-. cbn [g_cs g_neg set_cs]. split; [exact Hn|]. now apply Kapp1. }
        injection Er as <-. cbn [g_cs g_neg set_cs]. split; [exact Hn|]. now apply Kbr1.
  Qed.

  (** the meanings survive a change of the connective *)
  Lemma joined_list op ds ds' : and_or op -> Forall wf ds -> Forall2 (fun c c' => c_join op c = Ok c') ds ds' ->
    Forall wf ds' /\ Forall (fun c => jtype c = Ok op) ds' /\ map (mean lv) ds' = map (mean lv) ds /\
    length ds' = length ds /\ (Forall and_safe ds -> Forall and_safe ds').
  Proof.
    intros Hop Hw HF. induction HF as [|d d' ds ds' E _ IH]; [repeat split; auto; constructor|].
    inversion Hw as [|? ? Hd Hds]; subst. destruct (IH Hds) as (I1 & I2 & I3 & I4 & I5).
    repeat split.
    - constructor; auto. destruct d; inversion E; subst; inversion Hd; subst; constructor; auto.
    - constructor; auto. destruct d; inversion E; subst; reflexivity.
    - simpl. rewrite I3. f_equal. now apply (mean_join lv lv_join op).
    - simpl; congruence.
    - inversion 1; subst. constructor; auto. eapply and_safe_join; eauto.
  Qed.

  Lemma conj_all ds : Forall and_safe ds -> Forall (fun c => jtype c = Ok AND) ds -> conj_list ds.
  Proof. intros H1 H2. split; [exact H1|]. destruct H2; simpl; auto. Qed.

  Lemma new_group_cs op ds : and_or op -> Forall wf ds -> exists ds',
    new_group op ds = Ok {| g_join := AND; g_neg := false; g_cs := ds'; g_br := false |} /\
    Forall2 (fun c c' => c_join op c = Ok c') ds ds'.
  Proof.
    intros Hop Hw. destruct (new_group_tree and_or false op ds Hop) as (ds' & E & HF & _).
    - rewrite Forall_forall in *. intros c Hc. now apply wf_tree, Hw.
    - eauto.
  Qed.

  (** several more conditions with And *)
  Lemma and_several g ds r : g_ok g -> g_cs g <> [] -> g_neg g = false -> many ds ->
    Forall wf ds -> Forall and_safe ds ->
    (someTail OR (g_cs g) = true -> Forall (fun c => jtype c = Ok AND) ds) ->
    add_conditions AND g ds = Ok r ->
    g_neg r = false /\ conj_list (g_cs r) /\ V (dens (g_cs r)) = and3 (V (dens (g_cs g))) (conj3 (map (mean lv) ds)).
  Proof.
    intros Hg Hne Hn Hm Hw Hs Hj Er. pose proof Hg as [Hgj Hgw].
    assert (Hbr : den lv (of_g (with_brackets g)) = [(g_join g, V (dens (g_cs g)))]).
    { unfold of_g; simpl. rewrite Hn. reflexivity. }
    assert (Hbw : wf (of_g (with_brackets g))) by (now apply g_ok_br).
    assert (Hbs : and_safe (of_g (with_brackets g))) by constructor.
    assert (Hb1 : conj_list [of_g (with_brackets g)]) by (split; repeat constructor).
    assert (HV1 : V (dens [of_g (with_brackets g)]) = V (dens (g_cs g))) by (cbn [flat_map]; now rewrite Hbr).
    unfold add_conditions in Er. rewrite !has_one_eq in Er by exact Hgw. cbn [bind] in Er.
    destruct ds as [|d0 [|d1 ds]]; [inversion Hm|unfold many in Hm; simpl in Hm; lia|].
    remember (d0 :: d1 :: ds) as dl. assert (Hdn : dl <> []) by (subst; discriminate).
    destruct (g_cs g) as [|x xs] eqn:Eg; [congruence|]. rewrite <- Eg in *. clear Eg x xs.
    change (str_eqb AND AND) with true in Er. change (str_eqb AND OR) with false in Er.
    rewrite andb_true_r, andb_false_r in Er.
    destruct (someTail OR (g_cs g)) eqn:HO.
    - injection Er as <-. cbn [g_cs g_neg set_cs]. split; [exact Hn|]. specialize (Hj eq_refl).
      change (of_g (with_brackets g) :: dl) with ([of_g (with_brackets g)] ++ dl)%list. split.
      + apply conj_app; auto. discriminate.
      + subst dl. rewrite V_conj by (auto; discriminate). rewrite HV1.
        f_equal. apply V_all; auto. now apply conj_all.
    - destruct (new_group_cs AND dl (or_introl eq_refl) Hw) as (dl' & E & HF). rewrite E in Er. cbn [bind] in Er.
      injection Er as <-. cbn [g_cs g_neg set_cs]. split; [exact Hn|].
      destruct (joined_list AND dl dl' (or_introl eq_refl) Hw HF) as (I1 & I2 & I3 & I4 & I5).
      assert (Hdn' : dl' <> []) by (intros ->; destruct dl; [congruence|discriminate]).
      assert (Hc2 : den lv (of_g (with_brackets {| g_join := AND; g_neg := false; g_cs := dl'; g_br := false |}))
        = [(AND, conj3 (map (mean lv) dl))]).
      { unfold of_g; simpl. do 2 f_equal. rewrite <- I3. apply V_all; auto. apply conj_all; auto. }
      change [of_g (with_brackets g); of_g (with_brackets {| g_join := AND; g_neg := false; g_cs := dl'; g_br := false |})]
        with ([of_g (with_brackets g)] ++ [of_g (with_brackets {| g_join := AND; g_neg := false; g_cs := dl'; g_br := false |})])%list.
      split.
      + apply conj_snoc; auto; [discriminate|constructor].
      + rewrite (V_app_and _ _ (conj3 (map (mean lv) dl))) by (auto; discriminate). now rewrite HV1.
  Qed.

  Definition and_arguments (recv : list cond) (ds : list cond) : Prop :=
    match ds with
    | [] => True
    | [d] => and_argument recv d
    | _ => Forall and_safe ds /\ (someTail OR recv = true -> Forall (fun c => jtype c = Ok AND) ds)
    end.

  Lemma group_and_mean g ds r : g_ok g -> g_cs g <> [] -> g_neg g = false ->
    (tails AND (g_cs g) = true -> Forall and_safe (g_cs g)) ->
    Forall wf ds -> and_arguments (g_cs g) ds -> group_and g ds = Ok r ->
    g_neg r = false /\ (ds <> [] -> conj_list (g_cs r)) /\
    V (dens (g_cs r)) = and3 (V (dens (g_cs g))) (conj3 (map (mean lv) ds)).
  Proof.
    intros Hg Hne Hn Hs Hw Ha Er. destruct ds as [|d [|d1 ds]].
    - unfold group_and, add_conditions in Er. rewrite !has_one_eq in Er by apply Hg. cbn [bind] in Er.
      injection Er as <-. repeat split; auto; try congruence. simpl. now rewrite and3_T.
    - unfold group_and, add_conditions in Er. rewrite !has_one_eq in Er by apply Hg. cbn [bind] in Er.
      destruct (g_cs g) as [|x xs] eqn:Eg; [congruence|]. rewrite <- Eg in *. clear Eg x xs.
      apply bind_Ok in Er as (d' & Ej & Er). inversion Hw as [|? ? Hd _]; subst.
      destruct (and_one g d d' r Hg Hne Hn Hs Hd Ha Ej Er) as (H1 & H2 & H3).
      repeat split; auto; try apply H2. simpl. now rewrite and3_T.
    - destruct Ha as [Ha1 Ha2].
      destruct (and_several g (d :: d1 :: ds) r Hg Hne Hn) as (H1 & H2 & H3); auto.
      { unfold many; simpl; lia. }
  Qed.

  (** * Or *)

  (** Single arguments for which Or works: a leaf; a group with an AND, which Or
      puts in brackets; an unnegated group whose conditions all carry OR. *)
  Inductive or_argument : cond -> Prop :=
  | oa_leaf l : or_argument (CLeaf l)
  | oa_or j ds br : Forall (fun c => jtype c = Ok OR) ds -> or_argument (CGrp j false ds br)
  | oa_and j n ds br : someTail AND ds = true -> or_argument (CGrp j n ds br).

  Lemma head_or d ds : Forall (fun c => jtype c = Ok OR) (d :: ds) -> tails OR (d :: ds) = true.
  Proof.
    intros H. inversion H as [|? ? H1 H2]; subst. unfold tails; simpl. apply forallb_forall. intros c Hc.
    rewrite Forall_forall in H2. unfold jt. now rewrite H2.
  Qed.

  Lemma or_one g d d' r : g_ok g -> g_cs g <> [] -> g_neg g = false ->
    wf d -> or_argument d -> c_join OR d = Ok d' -> add_single g d' = Ok r ->
    g_neg r = false /\ V (dens (g_cs r)) = or3 (V (dens (g_cs g))) (mean lv d).
  Proof.
    intros Hg Hne Hn Hd Ha Ej Er. pose proof Hg as [Hgj Hw].
    assert (Hbr : den lv (of_g (with_brackets g)) = [(g_join g, V (dens (g_cs g)))]).
    { unfold of_g; simpl. rewrite Hn. reflexivity. }
    assert (Hbw : wf (of_g (with_brackets g))) by (now apply g_ok_br).
    assert (HV1 : V (dens [of_g (with_brackets g)]) = V (dens (g_cs g))) by (cbn [flat_map]; now rewrite Hbr).
    assert (Hjd : jtype d' = Ok OR) by (destruct d; inversion Ej; subst; reflexivity).
    assert (Kapp1 : forall c v, den lv c = [(OR, v)] -> V (dens (g_cs g ++ [c])%list) = or3 (V (dens (g_cs g))) v)
      by (intros c v Hc; now apply V_app_or).
    assert (Kbr1 : forall c v, den lv c = [(OR, v)] -> V (dens [of_g (with_brackets g); c]) = or3 (V (dens (g_cs g))) v).
    { intros c v Hc. change [of_g (with_brackets g); c] with ([of_g (with_brackets g)] ++ [c])%list.
      rewrite (V_app_or _ _ v); auto; [now rewrite HV1|discriminate]. }
    unfold add_single in Er. rewrite !has_all_eq in Er by exact Hw. rewrite Hjd in Er. cbn [bind] in Er.
    replace (length (g_cs g) =? 0) with false in Er by (destruct (g_cs g); [congruence|reflexivity]).
    destruct d as [|l|j n ds br]; inversion Ej; subst; clear Ej.
    - cbn [as_group c_join bind] in Er. cbn [l_kind l_neg l_def l_val] in Er.
      change (mkLeaf (l_kind l) OR (l_neg l) (l_def l) (l_val l)) with (leaf_with_join OR l) in *.
      change (mean lv (CLeaf l)) with (lv l).
      assert (El : den lv (CLeaf (leaf_with_join OR l)) = [(OR, lv l)]) by (simpl; now rewrite lv_join).
      repeat match type of Er with (if ?b then _ else _) = _ => destruct b end;
        injection Er as <-; cbn [g_cs g_neg set_cs]; split; auto.
    - cbn [as_group] in Er. set (a := {| g_join := OR; g_neg := n; g_cs := ds; g_br := br |}) in *.
      inversion Hd as [|? ? ? ? Hj Hdne Hdw]; subst.
      unfold add_group in Er. rewrite !has_all_eq, !has_one_eq in Er by (exact Hw || exact Hdw).
      cbn [bind] in Er.
      replace (length (g_cs g) =? 0) with false in Er by (destruct (g_cs g); [congruence|reflexivity]).
      change (g_join a) with OR in Er. change (str_eqb OR AND) with false in Er. change (str_eqb OR OR) with true in Er.
      change (g_cs a) with ds in Er.
      rewrite ?andb_true_r, ?andb_false_r in Er. cbn [andb] in Er.
      destruct (tails_some ds Hdw) as [TS1 TS2]. destruct (tails_some (g_cs g) Hw) as [TG1 TG2].
      assert (Hjn : c_join OR (of_g (with_brackets a)) = Ok (CGrp OR n ds true)) by reflexivity.
      rewrite Hjn in Er. cbn [bind] in Er.
      change (of_g (with_brackets a)) with (CGrp OR n ds true) in Er.
      assert (Hbra : (n = true -> many ds) -> den lv (CGrp OR n ds true) = [(OR, mean lv (CGrp j n ds br))]).
      { intros Hnm. rewrite den_br. do 2 f_equal. destruct n.
        - symmetry. apply mean_neg. apply orb_true_iff. right. apply Nat.ltb_lt. now apply Hnm.
        - symmetry. apply mean_grp. }
      inversion Ha as [|? ? ? Haj|? ? ? ? Hand]; subst.
      + destruct ds as [|x ds]; [congruence|].
        pose proof (head_or _ _ Haj) as Hta. rewrite Hta in *.
        assert (HO : someTail AND (x :: ds) = false) by (destruct (someTail AND (x :: ds)); auto; discriminate).
        rewrite HO in *. rewrite ?andb_true_r, ?andb_false_r in Er. cbn [andb] in Er.
        specialize (Hbra ltac:(intros; discriminate)).
        assert (Hx : wf x /\ jtype x = Ok OR) by (inversion Hdw; inversion Haj; subst; auto).
        assert (Kapp : V (dens (g_cs g ++ x :: ds)%list) = or3 (V (dens (g_cs g))) (mean lv (CGrp j false (x :: ds) br)))
          by (rewrite mean_grp; now apply V_disj).
        assert (Kbr : V (dens (of_g (with_brackets g) :: x :: ds)) = or3 (V (dens (g_cs g))) (mean lv (CGrp j false (x :: ds) br))).
        { change (of_g (with_brackets g) :: x :: ds) with ([of_g (with_brackets g)] ++ x :: ds)%list.
          rewrite mean_grp, V_disj by (auto; try discriminate; tauto). now rewrite HV1. }
        repeat match type of Er with (if ?b then _ else _) = _ => destruct b end;
          injection Er as <-; cbn [g_cs g_neg set_cs]; split; auto.
      + rewrite Hand in *. simpl in TS2. rewrite TS2 in *.
        pose proof (many_of_or _ _ Hand) as Hmany. specialize (Hbra (fun _ => Hmany)).
        rewrite ?andb_true_r, ?andb_false_r in Er. cbn [andb] in Er.
        repeat match type of Er with (if ?b then _ else _) = _ => destruct b end;
          injection Er as <-; cbn [g_cs g_neg set_cs]; split; auto.
  Qed.

  Lemma group_or_mean g d r : g_ok g -> g_cs g <> [] -> g_neg g = false -> wf d -> or_argument d ->
    group_or g [d] = Ok r -> g_neg r = false /\ V (dens (g_cs r)) = or3 (V (dens (g_cs g))) (mean lv d).
  Proof.
    intros Hg Hne Hn Hd Ha Er.
    unfold group_or, add_conditions in Er. rewrite !has_one_eq in Er by apply Hg. cbn [bind] in Er.
    destruct (g_cs g) as [|x xs] eqn:Eg; [congruence|]. rewrite <- Eg in *. clear Eg x xs.
    apply bind_Ok in Er as (d' & Ej & Er). eapply or_one; eauto.
  Qed.

  (** What Or does with several arguments: if the receiver has no AND, all the
      conditions are required; otherwise any of them is enough. *)
  Lemma group_or_many g ds r : g_ok g -> g_cs g <> [] -> g_neg g = false -> many ds ->
    Forall wf ds -> Forall and_safe ds -> group_or g ds = Ok r ->
    g_neg r = false /\
    V (dens (g_cs r)) = if someTail AND (g_cs g)
                        then or3 (V (dens (g_cs g))) (disj3 (map (mean lv) ds))
                        else and3 (V (dens (g_cs g))) (conj3 (map (mean lv) ds)).
  Proof.
    intros Hg Hne Hn Hm Hw Hs Er. pose proof Hg as [Hgj Hgw].
    assert (Hbr : den lv (of_g (with_brackets g)) = [(g_join g, V (dens (g_cs g)))]).
    { unfold of_g; simpl. rewrite Hn. reflexivity. }
    assert (Hbw : wf (of_g (with_brackets g))) by (now apply g_ok_br).
    assert (Hb1 : conj_list [of_g (with_brackets g)]) by (split; repeat constructor).
    assert (HV1 : V (dens [of_g (with_brackets g)]) = V (dens (g_cs g))) by (cbn [flat_map]; now rewrite Hbr).
    unfold group_or, add_conditions in Er. rewrite !has_one_eq in Er by exact Hgw. cbn [bind] in Er.
    destruct ds as [|d0 [|d1 ds]]; [inversion Hm|unfold many in Hm; simpl in Hm; lia|].
    remember (d0 :: d1 :: ds) as dl. assert (Hdn : dl <> []) by (subst; discriminate).
    destruct (g_cs g) as [|x xs] eqn:Eg; [congruence|]. rewrite <- Eg in *. clear Eg x xs.
    change (str_eqb OR AND) with false in Er. change (str_eqb OR OR) with true in Er.
    rewrite andb_true_r, andb_false_r in Er.
    destruct (someTail AND (g_cs g)) eqn:HO.
    - destruct (new_group_cs OR dl (or_intror eq_refl) Hw) as (dl' & E & HF). rewrite E in Er. cbn [bind] in Er.
      unfold of_g in Er; cbn [c_join bind g_join g_neg g_cs g_br] in Er. injection Er as <-. cbn [g_cs g_neg set_cs].
      split; [exact Hn|].
      destruct (joined_list OR dl dl' (or_intror eq_refl) Hw HF) as (I1 & I2 & I3 & I4 & I5).
      assert (Hdn' : dl' <> []) by (intros ->; destruct dl; [congruence|discriminate]).
      rewrite V_disj; auto.
      + f_equal. rewrite V_single; [|constructor; auto; now right]. rewrite mean_grp, <- I3. apply V_all_or; auto.
        destruct I2; simpl; auto.
      + constructor; auto. now right.
    - destruct (new_group_cs AND dl (or_introl eq_refl) Hw) as (dl' & E & HF). rewrite E in Er. cbn [bind] in Er.
      injection Er as <-. cbn [g_cs g_neg set_cs]. split; [exact Hn|].
      destruct (joined_list AND dl dl' (or_introl eq_refl) Hw HF) as (I1 & I2 & I3 & I4 & I5).
      assert (Hdn' : dl' <> []) by (intros ->; destruct dl; [congruence|discriminate]).
      assert (Hc2 : den lv (of_g (with_brackets {| g_join := AND; g_neg := false; g_cs := dl'; g_br := false |}))
        = [(AND, conj3 (map (mean lv) dl))]).
      { unfold of_g; simpl. do 2 f_equal. rewrite <- I3. apply V_all; auto. apply conj_all; auto. }
      change [of_g (with_brackets g); of_g (with_brackets {| g_join := AND; g_neg := false; g_cs := dl'; g_br := false |})]
        with ([of_g (with_brackets g)] ++ [of_g (with_brackets {| g_join := AND; g_neg := false; g_cs := dl'; g_br := false |})])%list.
      rewrite (V_app_and _ _ (conj3 (map (mean lv) dl))) by (auto; discriminate). now rewrite HV1.
  Qed.
End AndOr.
