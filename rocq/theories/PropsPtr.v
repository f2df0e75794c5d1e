(** C80: groups passed by pointer (Ptr.v). *)
From Coq Require Import String Ascii List Bool Arith Lia.
From Verif Require Import GoStr Value Names Cond SqlSpec Spec CondSem Built PropsCond Ptr.
Import ListNotations.
Local Open Scope string_scope.
Local Open Scope nat_scope.

(** * Specification *)

(** [names h p c]: p with every pointer replaced by what it points to is c. A nil pointer is
    as good as nil: every method call panics. *)
Inductive names (h : vars) : pcond -> cond -> Prop :=
| nm_nil : names h PNil CNil
| nm_leaf l : names h (PLeaf l) (CLeaf l)
| nm_grp j n cs cs' br : names_all h cs cs' -> names h (PGrp j n cs br) (CGrp j n cs' br)
| nm_ref a g c : h a = Some g -> names h (PGrp (pg_join g) (pg_neg g) (pg_cs g) (pg_br g)) c -> names h (PRef a) c
| nm_none a : h a = None -> names h (PRef a) CNil
with names_all (h : vars) : list pcond -> list cond -> Prop :=
| na_nil : names_all h [] []
| na_cons p ps c cs : names h p c -> names_all h ps cs -> names_all h (p :: ps) (c :: cs).
Scheme names_ind2 := Induction for names Sort Prop with names_all_ind2 := Induction for names_all Sort Prop.
Combined Scheme names_mut from names_ind2, names_all_ind2.

Definition names_group (h : vars) (g : pgroup) (g' : group) : Prop :=
  pg_join g = g_join g' /\ pg_neg g = g_neg g' /\ names_all h (pg_cs g) (g_cs g') /\ pg_br g = g_br g'.

(** both panic, or both return and the results correspond *)
Definition alike {A B} (R : A -> B -> Prop) (r : res A) (r' : res B) : Prop :=
  match r, r' with
  | Ok x, Ok y => R x y
  | Panic, Panic => True
  | _, _ => False
  end.

(** held by pointer *)
Definition pointer (c : pcond) : Prop := exists a, c = PRef a.

(** * Facts *)

Lemma names_of_pg h g g' : names_group h g g' -> names h (of_pg g) (of_g g').
Proof. intros (E1 & E2 & E3 & E4). unfold of_pg, of_g. rewrite E1, E2, E4. now constructor. Qed.
Lemma names_group_inv h j n cs br c : names h (PGrp j n cs br) c ->
  exists cs', c = CGrp j n cs' br /\ names_all h cs cs'.
Proof. intros H. inversion H; subst. eauto. Qed.

Lemma na_len h ps cs : names_all h ps cs -> length ps = length cs.
Proof. induction 1; cbn; congruence. Qed.
Lemma na_app h ps cs ps' cs' : names_all h ps cs -> names_all h ps' cs' -> names_all h (ps ++ ps')%list (cs ++ cs')%list.
Proof. induction 1; cbn; intros; [assumption|]. constructor; auto. Qed.
Lemma na_one h p c : names h p c -> names_all h [p] [c].
Proof. intros; constructor; [assumption|constructor]. Qed.

Lemma alike_bind {A B C D} (R : A -> B -> Prop) (S : C -> D -> Prop) r r' k k' :
  alike R r r' -> (forall x y, R x y -> alike S (k x) (k' y)) -> alike S (do x <- r; k x) (do y <- r'; k' y).
Proof. destruct r, r'; cbn; intros H K; try contradiction; auto. Qed.
Lemma alike_eq {A} (r r' : res A) : alike eq r r' <-> r = r'.
Proof.
  destruct r, r'; cbn; split; intros H; try contradiction; try discriminate; try congruence; auto.
Qed.

Lemma jtype_alike h p c : names h p c -> p_jtype h p = jtype c.
Proof.
  destruct 1; cbn; try reflexivity.
  - unfold receiver. rewrite H. cbn. apply names_group_inv in H0. destruct H0 as (cs' & -> & _). reflexivity.
  - unfold receiver. now rewrite H.
Qed.
Lemma join_alike h j p c : names h p c -> alike (names h) (p_join h j p) (c_join j c).
Proof.
  destruct 1; cbn; try exact I.
  - constructor.
  - now constructor.
  - unfold receiver. rewrite H. cbn. apply names_group_inv in H0. destruct H0 as (cs' & -> & ?). cbn. now constructor.
  - unfold receiver. rewrite H. exact I.
Qed.
Lemma negate_alike h b p c : names h p c -> alike (names h) (p_negate h b p) (c_negate b c).
Proof.
  destruct 1; cbn; try exact I.
  - constructor.
  - now constructor.
  - unfold receiver. rewrite H. cbn. apply names_group_inv in H0. destruct H0 as (cs' & -> & ?). cbn. now constructor.
  - unfold receiver. rewrite H. exact I.
Qed.
Lemma joins_alike h j ps cs : names_all h ps cs -> alike (names_all h) (mapM (p_join h j) ps) (mapM (c_join j) cs).
Proof.
  induction 1 as [|p ps c cs H Hs IH]; cbn; [constructor|].
  apply (alike_bind _ _ _ _ _ _ (join_alike h j p c H)). intros x y E.
  apply (alike_bind _ _ _ _ _ _ IH). intros xs ys Es. now constructor.
Qed.
Lemma new_alike h j ps cs : names_all h ps cs -> alike (names_group h) (p_new_group h j ps) (new_group j cs).
Proof.
  intros H. unfold p_new_group, new_group.
  apply (alike_bind _ _ _ _ _ _ (joins_alike h j ps cs H)). intros xs ys E. cbn. repeat split. exact E.
Qed.
Lemma all_alike h j ps cs : names_all h ps cs -> p_all_join h j ps = all_join j cs.
Proof.
  induction 1 as [|p ps c cs H Hs IH]; cbn; [reflexivity|].
  rewrite (jtype_alike h p c H). destruct (jtype c) as [t|]; cbn; [|reflexivity]. now rewrite IH.
Qed.
Lemma one_alike h j ps cs : names_all h ps cs -> p_one_join h j ps = one_join j cs.
Proof.
  induction 1 as [|p ps c cs H Hs IH]; cbn; [reflexivity|].
  rewrite (jtype_alike h p c H). destruct (jtype c) as [t|]; cbn; [|reflexivity]. now rewrite IH.
Qed.
Lemma has_all_alike h j g g' : names_group h g g' -> p_has_all h g j = has_all g' j.
Proof. intros (_ & _ & H & _). unfold p_has_all, has_all. destruct H; [reflexivity|]. now apply all_alike. Qed.
Lemma has_one_alike h j g g' : names_group h g g' -> p_has_one h g j = has_one g' j.
Proof. intros (_ & _ & H & _). unfold p_has_one, has_one. destruct H; [reflexivity|]. now apply one_alike. Qed.
Lemma brackets_alike h g g' : names_group h g g' -> names_group h (p_brackets g) (with_brackets g').
Proof. intros (E1 & E2 & E3 & E4). now repeat split. Qed.
Lemma set_cs_alike h g g' ps cs : names_group h g g' -> names_all h ps cs -> names_group h (p_set_cs g ps) (set_cs g' cs).
Proof. intros (E1 & E2 & E3 & E4) H. now repeat split. Qed.
Lemma set_join_alike h g g' j : names_group h g g' -> names_group h (p_set_join g j) (set_join g' j).
Proof. intros (E1 & E2 & E3 & E4). now repeat split. Qed.
Lemma cs_alike h g g' : names_group h g g' -> names_all h (pg_cs g) (g_cs g').
Proof. now intros (_ & _ & H & _). Qed.

Lemma joined_alike h j k k' : names_group h k k' ->
  names h (PGrp j (pg_neg k) (pg_cs k) (pg_br k)) (CGrp j (g_neg k') (g_cs k') (g_br k')).
Proof. intros (E1 & E2 & E3 & E4). rewrite E2, E4. now constructor. Qed.

Ltac lists := repeat first [apply na_app | apply na_one | apply cs_alike | apply names_of_pg
  | apply brackets_alike | apply joined_alike | apply na_cons | apply na_nil | assumption].
Ltac step := first
  [ apply set_cs_alike; [assumption|lists]
  | apply set_join_alike; apply set_cs_alike; [assumption|lists]
  | eapply alike_bind; [apply join_alike; lists|intros ? ? ?; cbn; apply set_cs_alike; [assumption|lists]] ].
Ltac cases := repeat match goal with |- alike _ (if ?b then _ else _) _ => destruct b end.

Lemma add_group_alike h g g' k k' : names_group h g g' -> names_group h k k' ->
  alike (names_group h) (p_add_group h g k) (add_group g' k').
Proof.
  intros Hg Hk. unfold p_add_group, add_group.
  rewrite !(has_all_alike h _ g g' Hg), !(has_one_alike h _ g g' Hg), !(has_all_alike h _ k k' Hk), !(has_one_alike h _ k k' Hk).
  rewrite (na_len _ _ _ (cs_alike _ _ _ Hg)). replace (pg_join k) with (g_join k') by (symmetry; apply Hk).
  destruct (has_all g' AND) as [b1|]; [|exact I]. cbn [bind].
  destruct (has_all g' OR) as [b2|]; [|exact I]. cbn [bind].
  destruct (has_one g' AND) as [b3|]; [|exact I]. cbn [bind].
  destruct (has_one g' OR) as [b4|]; [|exact I]. cbn [bind].
  destruct (has_all k' AND) as [b5|]; [|exact I]. cbn [bind].
  destruct (has_one k' AND) as [b6|]; [|exact I]. cbn [bind].
  destruct (has_all k' OR) as [b7|]; [|exact I]. cbn [bind].
  destruct (has_one k' OR) as [b8|]; [|exact I]. cbn [bind]. cbv zeta.
  cases; cbn [alike]; step.
Qed.

Lemma as_group_alike h p c g : names h p c -> p_as_group p = Some g ->
  exists g', as_group c = Some g' /\ names_group h g g'.
Proof.
  destruct p; cbn; try discriminate. intros H E. injection E as <-.
  apply names_group_inv in H. destruct H as (cs' & -> & H). eexists. split; [reflexivity|]. now repeat split.
Qed.
Lemma not_group_alike h p c : names h p c -> p_as_group p = None -> ~ pointer p -> as_group c = None.
Proof. destruct 1; cbn; try discriminate; auto. intros _ N. exfalso. apply N. now exists a. Qed.

Lemma joined_not_pointer h j p q : p_join h j p = Ok q -> ~ pointer q.
Proof.
  destruct p; cbn; try discriminate; intros E [b F]; try congruence.
  unfold receiver in E. destruct (h a); cbn in E; congruence.
Qed.

Lemma add_single_alike h g g' p c : names_group h g g' -> names h p c -> ~ pointer p ->
  alike (names_group h) (p_add_single h g p) (add_single g' c).
Proof.
  intros Hg Hp Np. unfold p_add_single, add_single.
  rewrite !(has_all_alike h _ g g' Hg), (jtype_alike h p c Hp).
  rewrite (na_len _ _ _ (cs_alike _ _ _ Hg)).
  destruct (has_all g' AND) as [b1|]; [|exact I]. cbn [bind].
  destruct (has_all g' OR) as [b2|]; [|exact I]. cbn [bind].
  destruct (jtype c) as [t|]; [|exact I]. cbn [bind]. cbv zeta.
  destruct (p_as_group p) as [k|] eqn:Ek.
  - destruct (as_group_alike h p c k Hp Ek) as (k' & -> & Hk). now apply add_group_alike.
  - rewrite (not_group_alike h p c Hp Ek Np). cases; cbn [alike]; step.
Qed.

Lemma add_conditions_alike h op g g' ps cs : names_group h g g' -> names_all h ps cs ->
  alike (names_group h) (p_add_conditions h op g ps) (add_conditions op g' cs).
Proof.
  intros Hg Hp. unfold p_add_conditions, add_conditions.
  rewrite !(has_one_alike h _ g g' Hg).
  destruct (has_one g' AND) as [b1|]; [|exact I]. cbn [bind].
  destruct (has_one g' OR) as [b2|]; [|exact I]. cbn [bind].
  assert (Hcs := cs_alike _ _ _ Hg).
  destruct Hp as [|p ps c cs Hp Hps]; [exact Hg|].
  destruct (pg_cs g) as [|q qs] eqn:E1; destruct (g_cs g') as [|d ds] eqn:E2; try solve [inversion Hcs].
  - cbn [alike]. apply set_join_alike, set_cs_alike; [assumption|]. now constructor.
  - rewrite <- E1, <- E2 in *.
    destruct Hps as [|p2 ps c2 cs Hp2 Hps].
    + destruct (p_jt_join h op p) as [x|] eqn:Ex; assert (A := join_alike h op p c Hp); unfold p_jt_join in Ex; rewrite Ex in A;
        destruct (c_join op c) as [y|]; cbn in A; try contradiction; [|exact I]. cbn [bind].
      apply add_single_alike; [assumption|assumption|]. exact (joined_not_pointer h op p x Ex).
    + assert (Hall : names_all h (p :: p2 :: ps) (c :: c2 :: cs)) by now repeat constructor.
      destruct (b2 && str_eqb op AND); [cbn [alike]; step|].
      destruct (b1 && str_eqb op OR).
      * eapply alike_bind; [exact (new_alike h op _ _ Hall)|]. intros x y Hxy.
        eapply alike_bind; [apply join_alike, names_of_pg, Hxy|]. intros u v Huv. cbn [alike]. step.
      * eapply alike_bind; [exact (new_alike h AND _ _ Hall)|]. intros x y Hxy. cbn [alike]. step.
Qed.

Lemma built_alike h op g g' ps cs : names_group h g g' -> names_all h ps cs ->
  alike (names h) (do r <- p_add_conditions h op g ps; Ok (of_pg r)) (do r <- add_conditions op g' cs; Ok (of_g r)).
Proof.
  intros Hg Hp. eapply alike_bind; [apply (add_conditions_alike h op g g' ps cs Hg Hp)|].
  intros x y H. now apply names_of_pg.
Qed.

Lemma start_alike h j p c : names h p c -> ~ pointer p ->
  alike (names_group h) (match p_as_group p with Some g => Ok g | None => p_new_group h j [p] end)
    (match as_group c with Some g => Ok g | None => new_group j [c] end).
Proof.
  intros H N. destruct (p_as_group p) as [g|] eqn:E.
  - destruct (as_group_alike h p c g H E) as (g' & -> & Hg). exact Hg.
  - rewrite (not_group_alike h p c H E N). apply new_alike, na_one, H.
Qed.

(** * C80 *)

(** Full statement (false): wherever a Condition is expected, a group may be passed by
    pointer with the same result as by value, and what is built does not change later. *)

(** a OR b in a variable *)
Definition a_or_b : pgroup := mkPG "OR" false
  [PLeaf (mkLeaf KEq "OR" false (mkF "a" "" "") (VOther 1)); PLeaf (mkLeaf KEq "OR" false (mkF "b" "" "") (VOther 1))] false.
Definition x_is_1 : pcond := PLeaf (mkLeaf KEq "AND" false (mkF "x" "" "") (VOther 1)).

(** And(&g, x) does not see that &g is a group: it renders "a=$1 OR b=$2 AND x=$3". *)
Theorem C80_and_refuted : exists h a c p x r pr c' rho v v',
  names h (PRef a) c /\ names h p x /\ built c /\ built x /\
  and_ c [x] = Ok r /\ p_and h (PRef a) [p] = Ok pr /\
  names h pr c' /\ means rho r v /\ means rho c' v' /\ v <> v'.
Proof.
  exists (assign no_vars 0 a_or_b), 0, (get (m_or (eqc "a" 1) [eqc "b" 1])), x_is_1, (eqc "x" 1).
  eexists _, _, _, (table_row (fun c => if String.eqb c "a" then 1 else 0)), _, _.
  split. { eapply nm_ref; [reflexivity|]. cbn. constructor. constructor; [constructor|]. constructor; constructor. }
  split; [constructor|]. split; [|split; [by_eqc|]].
  { apply (bt_or (eqc "a" 1) [eqc "b" 1]); [by_eqc|all_built|left; vm_compute; reflexivity]. }
  split; [vm_compute; reflexivity|]. split; [vm_compute; reflexivity|]. split.
  { constructor. constructor; [|constructor; [constructor|constructor]].
    constructor. constructor; [constructor|]. constructor; constructor. }
  split; [means_now|]. split; [means_now|]. vm_compute. discriminate.
Qed.

(** Everything except the first argument of the functions And and Or: passing groups by
    pointer gives what passing them by value gives.  Missing: that first argument, where
    it is false (C80_and_exactly says what happens). *)
Theorem C80_by_pointer_partial : forall h p c ps cs,
  names h p c -> names_all h ps cs ->
  alike (names h) (p_not h p) (not_ c) /\
  (forall j, alike (names h) (p_join h j p) (c_join j c)) /\
  (forall b, alike (names h) (p_negate h b p) (c_negate b c)) /\
  alike (names h) (p_m_and h p ps) (m_and c cs) /\
  alike (names h) (p_m_or h p ps) (m_or c cs) /\
  (forall j, alike (names_group h) (p_new_group h j ps) (new_group j cs)) /\
  (forall g g', names_group h g g' ->
     alike (names_group h) (p_group_and h g ps) (group_and g' cs) /\
     alike (names_group h) (p_group_or h g ps) (group_or g' cs)) /\
  (~ pointer p ->
     alike (names h) (p_and h p ps) (and_ c cs) /\ alike (names h) (p_or h p ps) (or_ c cs)).
Proof.
  intros h p c ps cs Hp Hps.
  assert (Hand : ~ pointer p -> alike (names h) (p_and h p ps) (and_ c cs)).
  { intros N. unfold p_and, and_. destruct Hps as [|p1 ps c1 cs H1 Hps]; [now apply join_alike|].
    eapply alike_bind; [exact (start_alike h AND p c Hp N)|]. intros g g' Hg. apply built_alike; [exact Hg|now constructor]. }
  assert (Hor : ~ pointer p -> alike (names h) (p_or h p ps) (or_ c cs)).
  { intros N. unfold p_or, or_. destruct Hps as [|p1 ps c1 cs H1 Hps]; [now apply join_alike|].
    eapply alike_bind; [exact (start_alike h OR p c Hp N)|]. intros g g' Hg.
    eapply alike_bind; [apply add_conditions_alike; [exact Hg|now constructor]|]. intros x y Hxy.
    now apply join_alike, names_of_pg. }
  split; [now apply negate_alike|]. split; [intros; now apply join_alike|]. split; [intros; now apply negate_alike|].
  split.
  { destruct Hp as [|l|j n ks ks' br H|a g c Ha Hg|a Ha]; cbn [p_m_and m_and].
    - exact I.
    - assert (N : ~ pointer (PLeaf l)) by (intros [? ?]; discriminate). specialize (Hand N).
      destruct (l_kind l); try exact Hand;
        (eapply alike_bind; [apply new_alike, na_one; constructor|]; intros g g' Hg; now apply built_alike).
    - apply built_alike; [now repeat split|exact Hps].
    - unfold receiver. rewrite Ha. cbn [bind]. apply names_group_inv in Hg. destruct Hg as (ks' & -> & Hk). cbn [m_and].
      apply built_alike; [now repeat split|exact Hps].
    - unfold receiver. rewrite Ha. exact I. }
  split.
  { destruct Hp as [|l|j n ks ks' br H|a g c Ha Hg|a Ha]; cbn [p_m_or m_or].
    - exact I.
    - assert (N : ~ pointer (PLeaf l)) by (intros [? ?]; discriminate). specialize (Hor N).
      destruct (l_kind l); try exact Hor; try exact I;
        (eapply alike_bind; [apply new_alike, na_one; constructor|]; intros g g' Hg; now apply built_alike).
    - apply built_alike; [now repeat split|exact Hps].
    - unfold receiver. rewrite Ha. cbn [bind]. apply names_group_inv in Hg. destruct Hg as (ks' & -> & Hk). cbn [m_or].
      apply built_alike; [now repeat split|exact Hps].
    - unfold receiver. rewrite Ha. exact I. }
  split; [intros; now apply new_alike|]. split; [|auto].
  intros g g' Hg. split; now apply add_conditions_alike.
Qed.

(** What And and Or do with a pointer to a group: the group becomes the first element of a
    new one, as a leaf would, however it is written. *)
Theorem C80_and_exactly : forall h a c ps cs, names h (PRef a) c -> names_all h ps cs -> ps <> [] ->
  alike (names h) (p_and h (PRef a) ps) (do g <- new_group AND [c]; do r <- group_and g cs; Ok (of_g r)) /\
  alike (names h) (p_or h (PRef a) ps) (do g <- new_group OR [c]; do r <- group_or g cs; c_join OR (of_g r)).
Proof.
  intros h a c ps cs Hp Hps N. unfold p_and, p_or. destruct Hps as [|p1 ps c1 cs H1 Hps]; [contradiction|].
  assert (Hall : names_all h (p1 :: ps) (c1 :: cs)) by now constructor. cbn [p_as_group]. split.
  - eapply alike_bind; [exact (new_alike h AND _ _ (na_one _ _ _ Hp))|]. intros g g' Hg. now apply built_alike.
  - eapply alike_bind; [exact (new_alike h OR _ _ (na_one _ _ _ Hp))|]. intros g g' Hg.
    eapply alike_bind; [apply add_conditions_alike; [exact Hg|exact Hall]|]. intros x y Hxy.
    now apply join_alike, names_of_pg.
Qed.

(** ** Rendering *)

Definition same_text (f : nat) (h : vars) (p : pcond) (c : cond) : Prop :=
  p_values f h p = Some (c_values c) /\ forall n, p_render f h p n = Some (c_render c n).

Lemma values_alike f h j n ps cs br : Forall2 (same_text f h) ps cs ->
  p_values (S f) h (PGrp j n ps br) = Some (c_values (CGrp j n cs br)).
Proof.
  cbn [p_values]. induction 1 as [|p c ps cs [H _] _ IH]; [reflexivity|]. cbn in IH |- *. rewrite H, IH.
  destruct (c_values c) as [v|]; [|reflexivity]. cbn.
  set (r := (fix go (cs : list cond) : res (list gval) := match cs with
         | [] => Ok [] | c :: r => do v <- c_values c; do vs <- go r; Ok (v ++ vs)%list end) cs).
  now destruct r.
Qed.
Lemma render_alike f h j ng ps cs br n : Forall2 (same_text f h) ps cs -> names_all h ps cs ->
  p_render (S f) h (PGrp j ng ps br) n = Some (c_render (CGrp j ng cs br) n).
Proof.
  intros H Hn. destruct H as [|p c ps cs H Hs]; [reflexivity|].
  set (M := fix go (first : bool) (cs0 : list cond) (n : nat) {struct cs0} : res string := match cs0 with
     | [] => Ok ""
     | c0 :: r0 => do j <- jtype c0; do s <- c_render c0 n; do vs <- c_values c0; do rest <- go false r0 (n + length vs);
                   Ok (join_token first j ++ s ++ rest) end).
  assert (E : forall ps cs, Forall2 (same_text f h) ps cs -> names_all h ps cs -> forall b n,
    render_loop h (p_render f h) (p_values f h) b ps n = Some (M b cs n)).
  { clear. induction 1 as [|p c ps cs [H1 H2] _ IH]; intros Hn b n; [reflexivity|]. cbn.
    inversion Hn as [|p' ps' c' cs' Hp Hps]; subst. rewrite (jtype_alike h p c Hp), (H2 n), H1.
    destruct (jtype c) as [j|]; [|reflexivity]. cbn.
    destruct (c_render c n) as [s|]; [|reflexivity]. cbn. destruct (c_values c) as [v|]; [|reflexivity]. cbn.
    rewrite (IH Hps false (n + length v)). now destruct (M false cs (n + length v)). }
  cbn [p_render pg_cs pg_neg pg_br].
  change (c_render (CGrp j ng (c :: cs) br) n) with (do sql <- M true (c :: cs) n; Ok (wrap ng br (1 <? length (c :: cs)) sql)).
  rewrite (E (p :: ps) (c :: cs)) by (try assumption; now constructor).
  rewrite <- (na_len _ _ _ Hn). now destruct (M true (c :: cs) n).
Qed.

Lemma text_mono h : (forall p c, names h p c -> exists f0, forall f, f0 <= f -> same_text f h p c) /\
  (forall ps cs, names_all h ps cs -> exists f0, forall f, f0 <= f -> Forall2 (same_text f h) ps cs).
Proof.
  apply names_mut.
  - exists 1. intros [|f] Hf; [lia|]. split; reflexivity.
  - intros l. exists 1. intros [|f] Hf; [lia|]. split; reflexivity.
  - intros j n ps cs br Hn [f0 H]. exists (S f0). intros [|f] Hf; [lia|]. assert (H' := H f ltac:(lia)). split.
    + now apply values_alike.
    + intros k. now apply render_alike.
  - intros a g c Ha Hn [f0 H]. exists (S f0). intros [|f] Hf; [lia|].
    destruct (H (S f) ltac:(lia)) as [H1 H2]. split.
    + rewrite <- H1. cbn. now rewrite Ha.
    + intros k. rewrite <- (H2 k). cbn. now rewrite Ha.
  - intros a Ha. exists 1. intros [|f] Hf; [lia|]. split; cbn; rewrite Ha; reflexivity.
  - exists 0. constructor.
  - intros p ps c cs _ [f1 H1] _ [f2 H2]. exists (Nat.max f1 f2). intros f Hf.
    constructor; [apply H1; lia|apply H2; lia].
Qed.

(** The text and the values are those of the condition with the pointers followed. *)
Theorem C80_text : forall h p c, names h p c ->
  exists f0, forall f, f0 <= f ->
    p_values f h p = Some (c_values c) /\ forall n, p_render f h p n = Some (c_render c n).
Proof. intros h p c H. exact (proj1 (text_mono h) p c H). Qed.


(** ** Builders *)

(** a sequence of Where calls on a clause *)
Fixpoint p_wheres (h : vars) (g : pgroup) (calls : list (list pcond)) : res pgroup :=
  match calls with
  | [] => Ok g
  | ps :: r => do g' <- p_group_and h g ps; p_wheres h g' r
  end.
Fixpoint v_wheres (g : group) (calls : list (list cond)) : res group :=
  match calls with
  | [] => Ok g
  | cs :: r => do g' <- group_and g cs; v_wheres g' r
  end.
Definition p_empty : pgroup := mkPG "AND" false [] false.

(** Any number of Where calls, groups by pointer or by value: the same clause text and the
    same values. *)
Theorem C80_where : forall h calls calls', Forall2 (names_all h) calls calls' ->
  match p_wheres h p_empty calls, v_wheres empty_group calls' with
  | Ok g, Ok g' => exists f0, forall f, f0 <= f ->
      p_values f h (of_pg g) = Some (c_values (of_g g')) /\
      forall n, p_render f h (of_pg g) n = Some (c_render (of_g g') n)
  | Panic, Panic => True
  | _, _ => False
  end.
Proof.
  intros h calls calls' H.
  assert (G : forall g g', names_group h g g' -> alike (names_group h) (p_wheres h g calls) (v_wheres g' calls')).
  { induction H as [|ps cs calls calls' Hc H IH]; intros g g' Hg; cbn; [exact Hg|].
    eapply alike_bind; [apply add_conditions_alike; [exact Hg|exact Hc]|]. intros x y Hxy. now apply IH. }
  specialize (G p_empty empty_group ltac:(repeat split; constructor)).
  destruct (p_wheres h p_empty calls) as [g|], (v_wheres empty_group calls') as [g'|]; cbn in G; try contradiction; [|exact I].
  apply C80_text. now apply names_of_pg.
Qed.

(** The first Where keeps the pointer: assigning to the variable afterwards changes the
    statement. *)
Theorem C80_later_refuted : exists h a v' w,
  p_group_and h p_empty [PRef a] = Ok w /\
  p_render 9 h (of_pg w) 0 = Some (Ok "a=$1 OR b=$2") /\
  p_render 9 (assign h a v') (of_pg w) 0 = Some (Ok "x=$1").
Proof.
  exists (assign no_vars 0 a_or_b), 0, (mkPG "AND" false [x_is_1] false). eexists.
  split; [vm_compute; reflexivity|]. split; vm_compute; reflexivity.
Qed.

(** g = g.GroupAND(&g) on an empty group: rendering never returns. *)
Theorem C80_cycle_refuted : exists h a g g',
  h a = Some g /\ p_group_and h g [PRef a] = Ok g' /\
  forall f n, p_render f (assign h a g') (PRef a) n = None.
Proof.
  exists (assign no_vars 0 p_empty), 0, p_empty, (mkPG "AND" false [PRef 0] false).
  split; [reflexivity|]. split; [vm_compute; reflexivity|].
  induction f as [|f IH]; intros n; [reflexivity|]. cbn. now rewrite IH.
Qed.

(** ** No pointer kept *)

Fixpoint by_value (c : pcond) : bool :=
  match c with
  | PRef _ => false
  | PGrp _ _ cs _ => forallb by_value cs
  | _ => true
  end.
Definition values_only (g : pgroup) : bool := forallb by_value (pg_cs g).

Lemma join_by_value h j p q : by_value p = true -> p_join h j p = Ok q -> by_value q = true.
Proof. destruct p; cbn; intros H E; try discriminate; injection E as <-; exact H. Qed.
Lemma joins_by_value h j ps qs : forallb by_value ps = true -> mapM (p_join h j) ps = Ok qs -> forallb by_value qs = true.
Proof.
  revert qs. induction ps as [|p ps IH]; intros qs H E; cbn in *; [injection E as <-; reflexivity|].
  apply andb_true_iff in H. destruct H as [H1 H2].
  destruct (p_join h j p) as [q|] eqn:Eq; [|discriminate]. cbn in E.
  destruct (mapM (p_join h j) ps) as [qs'|]; [|discriminate]. cbn in E. injection E as <-. cbn.
  now rewrite (join_by_value h j p q H1 Eq), (IH qs' H2 eq_refl).
Qed.

Ltac free := repeat first [assumption | reflexivity
  | rewrite forallb_app | progress (cbn [forallb by_value of_pg pg_cs p_set_cs p_set_join p_brackets values_only andb])
  | apply andb_true_iff; split].
Ltac open_binds E := repeat match type of E with
  | bind ?r _ = Ok _ => destruct r eqn:?; [cbn [bind] in E|discriminate E]
  | (if ?b then _ else _) = Ok _ => destruct b
  | Ok _ = Ok _ => injection E as <-
  end.

Lemma add_group_free h g k r : values_only g = true -> values_only k = true -> p_add_group h g k = Ok r -> values_only r = true.
Proof.
  unfold values_only. intros Hg Hk E. unfold p_add_group, p_jt_join in E. cbn [p_join of_pg] in E. cbv zeta in E.
  open_binds E; free.
Qed.
Lemma add_single_free h g c r : values_only g = true -> by_value c = true -> p_add_single h g c = Ok r -> values_only r = true.
Proof.
  intros Hg Hc E. unfold p_add_single in E. cbv zeta in E.
  destruct (p_has_all h g AND); [|discriminate]. destruct (p_has_all h g OR); [|discriminate].
  destruct (p_jtype h c) as [op|]; [|discriminate]. cbn [bind] in E.
  destruct (p_as_group c) as [k|] eqn:Ek.
  - destruct c; try discriminate. injection Ek as <-. exact (add_group_free h g (mkPG j n cs br) r Hg Hc E).
  - unfold values_only in *.
    assert (J : forall q, p_jt_join h op c = Ok q -> by_value q = true) by (intros q; now apply join_by_value).
    open_binds E; free; apply J; reflexivity.
Qed.

(** A condition given by value, or by pointer to a variable holding no pointers. *)
Definition settled (h : vars) (c : pcond) : Prop :=
  by_value c = true \/ exists a g, c = PRef a /\ h a = Some g /\ values_only g = true.

Lemma join_settled h j p q : settled h p -> p_join h j p = Ok q -> by_value q = true.
Proof.
  intros [H|(a & g & -> & Ha & H)] E; [exact (join_by_value h j p q H E)|].
  cbn in E. unfold receiver in E. rewrite Ha in E. cbn in E. injection E as <-. exact H.
Qed.
Lemma joins_settled h j ps qs : Forall (settled h) ps -> mapM (p_join h j) ps = Ok qs -> forallb by_value qs = true.
Proof.
  intros H. revert qs. induction H as [|p ps Hp H IH]; intros qs E; cbn in *; [injection E as <-; reflexivity|].
  destruct (p_join h j p) as [q|] eqn:Eq; [|discriminate]. cbn in E.
  destruct (mapM (p_join h j) ps) as [qs'|]; [|discriminate]. cbn in E. injection E as <-. cbn.
  now rewrite (join_settled h j p q Hp Eq), (IH qs' eq_refl).
Qed.

Lemma jtype_free h h' c : by_value c = true -> p_jtype h c = p_jtype h' c.
Proof. destruct c; cbn; try discriminate; reflexivity. Qed.
Lemma values_free f h h' : forall c, by_value c = true -> p_values f h c = p_values f h' c.
Proof.
  induction f as [|f IH]; intros c H; [reflexivity|]. destruct c as [|l|j n cs br|a]; try reflexivity; [|discriminate].
  cbn in *. induction cs as [|c cs IHc]; [reflexivity|]. cbn in H. apply andb_true_iff in H. destruct H as [H1 H2].
  cbn. rewrite (IH c H1). destruct (p_values f h' c) as [[v|]|]; cbn; try reflexivity. now rewrite (IHc H2).
Qed.
Lemma render_free f h h' : forall c n, by_value c = true -> p_render f h c n = p_render f h' c n.
Proof.
  induction f as [|f IH]; intros c n H; [reflexivity|]. destruct c as [|l|j ng cs br|a]; try reflexivity; [|discriminate].
  assert (E : forall cs, forallb by_value cs = true -> forall b n,
    render_loop h (p_render f h) (p_values f h) b cs n = render_loop h' (p_render f h') (p_values f h') b cs n).
  { clear H. induction cs0 as [|c cs0 IHc]; intros H b k; [reflexivity|]. cbn in H. apply andb_true_iff in H. destruct H as [H1 H2].
    cbn. rewrite (jtype_free h h' c H1), (IH c k H1), (values_free f h h' c H1).
    destruct (p_jtype h' c); cbn; [|reflexivity]. destruct (p_render f h' c k) as [[s|]|]; cbn; try reflexivity.
    destruct (p_values f h' c) as [[v|]|]; cbn; try reflexivity. now rewrite (IHc H2). }
  cbn [p_render pg_cs pg_neg pg_br]. destruct cs as [|c cs]; [reflexivity|]. now rewrite (E (c :: cs) H).
Qed.

(** What is built copies the group, except when a first Where (GroupAND, GroupOR on an
    empty group) or several conditions at once keep the pointers they are given: a further
    Where(&g), Not(&g), NewGroup(..., &g, ...) and the methods of &g give a condition that
    no later assignment changes. *)
Definition unaffected (h : vars) (c : pcond) : Prop :=
  forall h' f n, p_render f h' c n = p_render f h c n /\ p_values f h' c = p_values f h c.

Theorem C80_copied : forall h g c ps,
  values_only g = true -> settled h c -> Forall (settled h) ps ->
  (forall r, pg_cs g <> [] -> p_group_and h g [c] = Ok r \/ p_group_or h g [c] = Ok r -> unaffected h (of_pg r)) /\
  (forall r, p_not h c = Ok r -> unaffected h r) /\
  (forall r j, p_new_group h j ps = Ok r -> unaffected h (of_pg r)) /\
  (forall r, pg_cs g <> [] -> forall a, h a = Some g -> p_m_and h (PRef a) [c] = Ok r \/ p_m_or h (PRef a) [c] = Ok r ->
     unaffected h r).
Proof.
  intros h g c ps Hg Hc Hps.
  assert (U : forall r, by_value r = true -> unaffected h r).
  { intros r H h' f n. split; [now apply render_free|now apply values_free]. }
  assert (W : forall op r, pg_cs g <> [] -> p_add_conditions h op g [c] = Ok r -> by_value (of_pg r) = true).
  { intros op r N E. unfold p_add_conditions in E.
    destruct (p_has_one h g AND); [|discriminate]. destruct (p_has_one h g OR); [|discriminate]. cbn [bind] in E.
    destruct (pg_cs g) as [|q qs] eqn:Eq; [contradiction|].
    destruct (p_jt_join h op c) as [x|] eqn:Ex; [|discriminate]. cbn [bind] in E.
    exact (add_single_free h g x r Hg (join_settled h op c x Hc Ex) E). }
  split; [intros r N [E|E]; apply U; exact (W _ r N E)|].
  split.
  { intros r E. apply U. unfold p_not in E. destruct Hc as [H|(a & k & -> & Ha & H)].
    - destruct c; cbn in *; try discriminate; injection E as <-; exact H.
    - cbn in E. unfold receiver in E. rewrite Ha in E. injection E as <-. exact H. }
  split.
  { intros r j E. apply U. unfold p_new_group in E. destruct (mapM (p_join h j) ps) as [qs|] eqn:Eq; [|discriminate].
    cbn in E. injection E as <-. exact (joins_settled h j ps qs Hps Eq). }
  intros r N a Ha H. cbn in H. unfold receiver in H. rewrite Ha in H. cbn in H. apply U. unfold p_group_and, p_group_or in H.
  destruct H as [H|H].
  - destruct (p_add_conditions h AND g [c]) as [k|] eqn:E; [|discriminate]. injection H as <-. exact (W _ k N E).
  - destruct (p_add_conditions h OR g [c]) as [k|] eqn:E; [|discriminate]. injection H as <-. exact (W _ k N E).
Qed.

(** Examples *)
Example C80_example :
  let h := assign no_vars 0 a_or_b in
  names h (PRef 0) (CGrp "OR" false [CLeaf (mkLeaf KEq "OR" false (mkF "a" "" "") (VOther 1));
                                     CLeaf (mkLeaf KEq "OR" false (mkF "b" "" "") (VOther 1))] false) /\
  (do w <- p_wheres h p_empty [[x_is_1]; [PRef 0]]; Ok (p_render 9 h (of_pg w) 0)) = Ok (Some (Ok "x=$1 AND (a=$2 OR b=$3)")) /\
  settled h (PRef 0) /\ values_only a_or_b = true /\
  (do w <- p_and h (PRef 0) [x_is_1]; Ok (p_render 9 h w 0)) = Ok (Some (Ok "a=$1 OR b=$2 AND x=$3")) /\
  (do w <- p_m_and h (PRef 0) [x_is_1]; Ok (p_render 9 h w 0)) = Ok (Some (Ok "(a=$1 OR b=$2) AND x=$3")).
Proof.
  cbv zeta. split.
  { eapply nm_ref; [reflexivity|]. constructor. constructor; [constructor|]. constructor; constructor. }
  split; [vm_compute; reflexivity|]. split; [right; eexists 0, _; repeat split|].
  split; [reflexivity|]. split; vm_compute; reflexivity.
Qed.
Print Assumptions C80_copied.
Print Assumptions C80_by_pointer_partial.

Print Assumptions C80_and_refuted.
Print Assumptions C80_and_exactly.
Print Assumptions C80_text.
Print Assumptions C80_where.
Print Assumptions C80_later_refuted.
Print Assumptions C80_cycle_refuted.
