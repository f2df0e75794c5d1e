(** Property theorems about WhereClause as the caller uses it directly (C97). *)
From Coq Require Import String Ascii List Bool Arith Lia NArith ZArith.
From Verif Require Import GoStr Value Names Cond Build Surface SqlSpec Spec StrFacts SqlFacts CondFacts CondText CondSem TreeFacts
  CondLogic CondMeaning Built CondThms PropsCond NameFacts StmtFacts Calls BuildFacts BuildThms PropsSelect AtomFacts PropsAtoms
  CondExact CondIff CondRight PropsIff.
Import ListNotations.
Local Open Scope string_scope.
Local Open Scope nat_scope.

(** * C97 GroupAND and GroupOR of a WhereClause *)

(** the calls a caller makes on NewWhere() or on the zero WhereClause{} *)
Inductive wstep := GroupAND (cs : list cond) | GroupOR (cs : list cond).
Definition args (s : wstep) : list cond := match s with GroupAND cs => cs | GroupOR cs => cs end.
Definition w_step (w : group) (s : wstep) : res group :=
  match s with GroupAND cs => w_group_and w cs | GroupOR cs => w_group_or w cs end.
Definition clause (h : list wstep) (w : group) : Prop :=
  calls w_step empty_group h = Ok w \/ calls w_step zero_group h = Ok w.

(** What the comments of where.go promise (8-12, 19-23): the conditions of a call are joined
    by AND, and what was there before is joined to them by AND or by OR.  [None]: no condition yet. *)
Definition promised (v : option tv) (s : wstep) (vs : list tv) : option tv :=
  match vs with
  | [] => v
  | _ => match v with
         | None => Some (fold_right and3 T vs)
         | Some x => Some (match s with GroupAND _ => and3 x (fold_right and3 T vs) | GroupOR _ => or3 x (fold_right and3 T vs) end)
         end
  end.
Fixpoint promised_all (v : option tv) (h : list wstep) (vss : list (list tv)) : option tv :=
  match h, vss with
  | s :: h, vs :: vss => promised_all (promised v s vs) h vss
  | _, _ => v
  end.
(** what the clause says: nothing, or a text in either style with the truth value on the row *)
Definition clause_says (rho : row) (w : group) (v : option tv) : Prop :=
  exists s s' vs, w_render w 0 = Ok s /\ w_render_sql w = Ok s' /\ w_values w = Ok vs /\
    match v with
    | None => s = "" /\ s' = "" /\ vs = []
    | Some v => truth rho s vs = Some v /\ truth_q rho s' vs = Some v
    end.

Lemma says_means rho w v : clause_says rho w (Some v) <-> means rho (of_g w) v.
Proof. unfold clause_says, means, w_render, w_render_sql, w_values. tauto. Qed.
Lemma says_empty rho w : g_neg w = false -> g_br w = false -> g_cs w = [] -> clause_says rho w None.
Proof.
  destruct w as [j n cs br]. cbn [g_neg g_br g_cs]. intros -> -> ->. exists "", "", []. repeat split.
Qed.

(** ** The clauses that calls reach *)

Definition reached (w : group) : Prop := g_neg w = false /\ g_br w = false /\ Forall wf (g_cs w) /\ (g_cs w <> [] -> and_or (g_join w)).

Lemma step_eq w s : w_step w s = add_conditions (match s with GroupAND _ => AND | GroupOR _ => OR end) w (args s).
Proof. destruct s; reflexivity. Qed.
Lemma first_step w s : g_cs w = [] -> args s <> [] ->
  w_step w s = Ok (mkG (match s with GroupAND _ => AND | GroupOR _ => OR end) (g_neg w) (args s) (g_br w)).
Proof.
  intros E Hne. rewrite step_eq. unfold add_conditions, has_one. rewrite E. cbn [bind]. destruct (args s) as [|c cs]; [congruence|]. reflexivity.
Qed.
Lemma none_step w s : Forall wf (g_cs w) -> args s = [] -> w_step w s = Ok w.
Proof. intros Hw E. rewrite step_eq, E. unfold add_conditions. now rewrite !has_one_eq by exact Hw. Qed.

Lemma add_conditions_flags op g ds r : Forall wf (g_cs g) -> Forall wf ds -> add_conditions op g ds = Ok r -> g_neg r = g_neg g /\ g_br r = g_br g.
Proof.
  intros Hg Hd E. unfold add_conditions in E. rewrite !has_one_eq in E by exact Hg. cbn [bind] in E.
  assert (A : forall g d r, add_single g d = Ok r -> g_neg r = g_neg g /\ g_br r = g_br g).
  { clear. intros g d r E. unfold add_single in E. do 2 (apply bind_Ok in E as (? & _ & E)). apply bind_Ok in E as (op & _ & E).
    assert (K : forall a r, add_group g a = Ok r -> g_neg r = g_neg g /\ g_br r = g_br g).
    { clear. intros a r E. unfold add_group in E.
      repeat match type of E with
      | bind _ _ = Ok _ => let x := fresh in apply bind_Ok in E as (x & _ & E)
      | (if _ then _ else _) = Ok _ => match type of E with (if ?b then _ else _) = Ok _ => destruct b end
      end; injection E as <-; split; reflexivity. }
    destruct (as_group d) as [a|]; [now apply (K a)|].
    repeat match type of E with
    | (if ?b then _ else _) = Ok _ => destruct b
    | bind _ _ = Ok _ => let x := fresh in apply bind_Ok in E as (x & _ & E)
    end; injection E as <-; split; reflexivity. }
  destruct ds as [|d ds]; [injection E as <-; auto|]. destruct (g_cs g) as [|y ys]; [injection E as <-; auto|].
  destruct ds as [|d' ds]; [apply bind_Ok in E as (c & _ & E); now apply (A _ c)|].
  repeat match type of E with
  | (if ?b then _ else _) = Ok _ => destruct b
  | bind _ _ = Ok _ => let x := fresh in apply bind_Ok in E as (x & _ & E)
  end; injection E as <-; split; reflexivity.
Qed.

Lemma step_reached w s : reached w -> Forall wf (args s) ->
  exists w', w_step w s = Ok w' /\ reached w' /\ (g_cs w' = [] <-> g_cs w = [] /\ args s = []) /\
    cores_l (g_cs w') = (cores_l (g_cs w) ++ cores_l (args s))%list.
Proof.
  intros (Hn & Hb & Hw & Hj) Ha. destruct (args s) as [|c cs] eqn:E.
  - exists w. rewrite none_step by assumption. repeat split; auto; try tauto. unfold cores_l. cbn [flat_map]. now rewrite app_nil_r.
  - destruct (g_cs w) as [|x xs] eqn:Ew.
    + eexists. rewrite first_step by congruence. split; [reflexivity|]. rewrite E. cbn [g_cs g_neg g_br g_join].
      split; [|split; [split; [discriminate|now intros []]|reflexivity]]. repeat split; cbn [g_cs g_neg g_br g_join]; auto. intros _. destruct s; auto.
    + set (op := match s with GroupAND _ => AND | GroupOR _ => OR end).
      assert (Hop : and_or op) by (unfold op; destruct s; auto).
      assert (Hg : g_ok w) by (split; [apply Hj; discriminate|now rewrite Ew]).
      destruct (add_conditions_wf op w (c :: cs) Hop Hg Ha) as (r & Er & [R1 R2] & Rn & Rc). exists r.
      rewrite step_eq, E. fold op. split; [exact Er|]. rewrite Ew in Rc.
      assert (Nr : g_cs r <> []) by (apply Rn; left; discriminate).
      destruct (add_conditions_flags op w (c :: cs) r) as [F1 F2]; [now rewrite Ew|exact Ha|exact Er|].
      split; [|split; [split; [now intros ?|now intros [? _]]|exact Rc]]. repeat split; auto; congruence.
Qed.
Lemma calls_reached h : forall w, reached w -> Forall (fun s => Forall wf (args s)) h ->
  exists w', calls w_step w h = Ok w' /\ reached w' /\ cores_l (g_cs w') = (cores_l (g_cs w) ++ cores_l (flat_map args h))%list.
Proof.
  induction h as [|s h IH]; intros w Hr Ha; cbn [calls].
  - exists w. split; [reflexivity|]. split; [exact Hr|]. unfold cores_l. cbn [flat_map]. now rewrite app_nil_r.
  - inversion Ha as [|? ? H1 H2]; subst. destruct (step_reached w s Hr H1) as (w1 & E1 & R1 & _ & C1). rewrite E1. cbn [bind].
    destruct (IH w1 R1 H2) as (w2 & E2 & R2 & C2). exists w2. split; [exact E2|]. split; [exact R2|].
    rewrite C2, C1. cbn [flat_map]. rewrite cores_l_app. now rewrite app_assoc.
Qed.
Lemma empty_reached : reached empty_group. Proof. repeat split; [constructor|intros H; now destruct H]. Qed.
Lemma zero_reached : reached zero_group. Proof. repeat split; [constructor|intros H; now destruct H]. Qed.

Lemma regular_args h : Forall regular (flat_map args h) -> Forall (fun s => Forall wf (args s)) h.
Proof.
  intros H. apply Forall_forall. intros s Hs. apply Forall_forall. intros c Hc. rewrite Forall_forall in H.
  destruct (H c) as (H1 & H2 & _); [apply in_flat_map; eauto|]. now apply built_wf.
Qed.
Lemma clause_reached h w : Forall regular (flat_map args h) -> clause h w ->
  reached w /\ map core (leaves (of_g w)) = map core (flat_map leaves (flat_map args h)) /\ good (of_g w).
Proof.
  intros Hr Hc. pose proof (regular_args h Hr) as Ha.
  assert (K : reached w /\ cores_l (g_cs w) = cores_l (flat_map args h)).
  { destruct Hc as [E|E].
    - destruct (calls_reached h _ empty_reached Ha) as (w' & E' & R & C). rewrite E in E'. injection E' as <-. auto.
    - destruct (calls_reached h _ zero_reached Ha) as (w' & E' & R & C). rewrite E in E'. injection E' as <-. auto. }
  destruct K as [R C]. split; [exact R|].
  assert (M : map core (leaves (of_g w)) = map core (flat_map leaves (flat_map args h))).
  { rewrite !map_core_l, <- C, <- map_core_l. reflexivity. }
  split; [exact M|]. intros l Hl. apply (in_map core) in Hl. rewrite M in Hl. apply in_map_iff in Hl as (l0 & E0 & Hl).
  apply (good_leaf_core l0); [now symmetry|]. apply in_flat_map in Hl as (c0 & Hc0 & Hl). rewrite Forall_forall in Hr. now apply (Hr c0).
Qed.

(** ** Exactly which calls keep the promise *)

(** A call without arguments changes nothing.  The first call that brings conditions takes them
    as they are (C86).  After that GroupAND is And on the clause (C84); GroupOR with one argument is
    Or on the clause (C85), and with several it never keeps the promise. *)
Definition keeps (w : group) (s : wstep) : bool :=
  match args s with
  | [] => true
  | ds => match g_cs w with
          | [] => first_right ds
          | _ => match s with
                 | GroupAND _ => narrows (of_g w) ds
                 | GroupOR _ => match ds with [d] => or_right (of_g w) d | _ => false end
                 end
          end
  end.

Lemma means_any_join rho j j' n cs br v : means rho (CGrp j n cs br) v <-> means rho (CGrp j' n cs br) v.
Proof. reflexivity. Qed.
Lemma says_none rho w v : g_cs w = [] -> g_neg w = false -> g_br w = false -> clause_says rho w v -> v = None.
Proof.
  destruct w as [j n cs br]. cbn [g_cs g_neg g_br]. intros -> -> -> (s & s' & vs & E1 & E2 & E3 & H). destruct v as [v|]; [|reflexivity].
  cbv in E1, E2, E3. injection E1 as <-. injection E2 as <-. injection E3 as <-. destruct H as [H _]. assert (N : truth rho "" [] = None) by reflexivity. congruence.
Qed.
Lemma says_some rho w v : reached w -> g_cs w <> [] -> sound rho (of_g w) -> clause_says rho w v -> exists x, v = Some x /\ means rho (of_g w) x.
Proof.
  intros (_ & _ & Hw & Hj) Hne Hs H. destruct v as [x|]; [exists x; split; [reflexivity|now apply says_means]|].
  assert (Hm : means rho (of_g w) (mean (leaf_val rho) (of_g w))).
  { apply means_iff; auto. apply g_ok_wf; auto. split; auto. }
  destruct H as (s & s' & vs & E1 & E2 & E3 & -> & _). destruct Hm as (t & t' & us & F1 & _ & _ & F2 & _).
  unfold w_render in E1. rewrite E1 in F1. injection F1 as <-. assert (N : truth rho "" us = None) by reflexivity. congruence.
Qed.

Lemma w_and_m w ds w' : w_step w (GroupAND ds) = Ok w' -> m_and (of_g w) ds = Ok (of_g w').
Proof. cbn [w_step]. unfold w_group_and. intros E. destruct w as [j n k br]. cbn [m_and of_g g_join g_neg g_cs g_br]. now rewrite E. Qed.
Lemma w_or_m w ds w' : w_step w (GroupOR ds) = Ok w' -> m_or (of_g w) ds = Ok (of_g w').
Proof. cbn [w_step]. unfold w_group_or. intros E. destruct w as [j n k br]. cbn [m_or of_g g_join g_neg g_cs g_br]. now rewrite E. Qed.

Lemma reached_wf w : reached w -> g_cs w <> [] -> wf (of_g w).
Proof. intros (_ & _ & Hw & Hj) Hne. apply g_ok_wf; auto. split; auto. Qed.

(** Every clause that calls reach and every call on it: the rule suffices... *)
Theorem C97_suffices : forall rho h s w w' v vs, Forall regular (flat_map args h) -> Forall regular (args s) ->
  clause h w -> w_step w s = Ok w' -> keeps w s = true ->
  clause_says rho w v -> Forall2 (means rho) (args s) vs -> clause_says rho w' (promised v s vs).
Proof.
  intros rho h s w w' v vs Hh Hs Hc E R Hv Hvs. destruct (clause_reached h w Hh Hc) as (Hr & _ & Hg).
  assert (Hwd : Forall wf (args s)) by (eapply Forall_impl; [|exact Hs]; intros c (H1 & H2 & _); now apply built_wf).
  assert (Hsd : Forall (sound rho) (args s)) by (eapply Forall_impl; [|exact Hs]; intros c (_ & _ & H) l Hl; apply good_leaf_sound, H, Hl).
  assert (Hso : sound rho (of_g w)) by (intros l Hl; apply good_leaf_sound, Hg, Hl).
  unfold keeps in R. destruct (args s) as [|d ds] eqn:Ea.
  - inversion Hvs; subst. rewrite none_step in E; [injection E as <-; exact Hv|apply Hr|exact Ea].
  - destruct (g_cs w) as [|x xs] eqn:Ew.
    + rewrite first_step in E by congruence. injection E as <-. destruct Hr as (Hn & Hb & _).
      rewrite (says_none rho w v Ew Hn Hb Hv). destruct vs as [|y ys]; [inversion Hvs|]. cbn [promised].
      apply says_means. rewrite Hn, Hb, Ea. unfold of_g. cbn [g_join g_neg g_cs g_br].
      apply (means_any_join rho _ AND). now apply (proj1 (first_iff (d :: ds) Hwd ltac:(discriminate))).
    + assert (Hne : g_cs w <> []) by (rewrite Ew; discriminate). pose proof (reached_wf w Hr Hne) as Hww.
      destruct (says_some rho w v Hr Hne Hso Hv) as (q & -> & Hm). destruct vs as [|y ys]; [inversion Hvs|]. cbn [promised].
      apply says_means. destruct s as [cs|cs]; cbn [args] in Ea; subst cs.
      * apply w_and_m in E. unfold narrows in R. destruct ds as [|d' ds].
        -- inversion Hvs as [|? ? ? ? H1 H2]; subst. inversion H2; subst. cbn [fold_right]. rewrite and3_T.
           apply (proj1 (and_one_iff (of_g w) d (of_g w') Hww (Forall_inv Hwd) (or_introl E)) R); auto. exact (Forall_inv Hsd).
        -- assert (Hl : 1 < length (d :: d' :: ds)) by (simpl; lia).
           apply (proj1 (and_many_iff (of_g w) (d :: d' :: ds) (of_g w') Hww Hwd Hl (or_introl E)) R); auto.
      * apply w_or_m in E. destruct ds as [|d' ds]; [|discriminate].
        inversion Hvs as [|? ? ? ? H1 H2]; subst. inversion H2; subst. cbn [fold_right]. rewrite and3_T.
        apply (proj1 (or_one_iff (of_g w) d (of_g w') Hww (Forall_inv Hwd) (or_introl E)) R); auto. exact (Forall_inv Hsd).
Qed.
Print Assumptions C97_suffices.

(** ...and where it fails, and the conditions name different columns, some row shows it. *)
Theorem C97_exactly : forall h s w w', Forall regular (flat_map args h) -> Forall regular (args s) ->
  NoDup (flat_map cols (flat_map args h) ++ flat_map cols (args s)) -> clause h w -> w_step w s = Ok w' ->
  (keeps w s = true <->
   forall rho v vs, clause_says rho w v -> Forall2 (means rho) (args s) vs -> clause_says rho w' (promised v s vs)).
Proof.
  intros h s w w' Hh Hs Hn Hc E. split; [intros R rho v vs; now apply (C97_suffices rho h)|].
  intros H. destruct (clause_reached h w Hh Hc) as (Hr & Hco & Hg).
  assert (Hwd : Forall wf (args s)) by (eapply Forall_impl; [|exact Hs]; intros c (H1 & H2 & _); now apply built_wf).
  assert (Hgd : Forall good (args s)) by (eapply Forall_impl; [|exact Hs]; intros c (_ & _ & K); exact K).
  assert (Ecols : cols (of_g w) = flat_map cols (flat_map args h)).
  { assert (K : forall ls ls', map core ls = map core ls' -> map colof ls = map colof ls').
    { clear. induction ls as [|l ls IH]; intros [|l' ls'] E'; try discriminate; [reflexivity|]. cbn [map] in E' |- *. f_equal; [|apply IH; congruence].
      unfold colof. f_equal. unfold core in E'. congruence. }
    unfold cols at 1. rewrite (K _ _ Hco). unfold cols. clear. induction (flat_map args h) as [|c cs IH]; [reflexivity|]. cbn [flat_map]. now rewrite map_app, IH. }
  rewrite <- Ecols in Hn.
  assert (Fun : forall rho x y, clause_says rho w' (Some x) -> means rho (of_g w') y -> y = x).
  { intros rho x y Hx Hy. apply says_means in Hx. eapply means_fun; eassumption. }
  destruct (keeps w s) eqn:R; [reflexivity|]. exfalso. unfold keeps in R. destruct (args s) as [|d ds] eqn:Ea; [discriminate|].
  destruct (g_cs w) as [|x xs] eqn:Ew.
  - destruct (proj2 (first_iff (d :: ds) Hwd ltac:(discriminate)) R Hgd) as (rho & vds & q & M1 & M2 & Hv).
    { replace (cols (of_g w)) with (@nil string) in Hn; [exact Hn|]. unfold of_g, cols. cbn [leaves]. now rewrite Ew. }
    destruct Hr as (Hng & Hb & _). pose proof (says_empty rho w Hng Hb Ew) as Hsay. specialize (H rho None vds Hsay M1).
    rewrite first_step in E by congruence. injection E as <-. destruct vds as [|y ys]; [inversion M1|]. cbn [promised] in H.
    apply Hv. apply (Fun rho); [exact H|]. rewrite Hng, Hb, Ea. exact M2.
  - assert (Hne : g_cs w <> []) by (rewrite Ew; discriminate). pose proof (reached_wf w Hr Hne) as Hww.
    destruct s as [cs|cs]; cbn [args] in Ea; subst cs.
    + pose proof (w_and_m w _ w' E) as Em. unfold narrows in R. destruct ds as [|d' ds].
      * destruct (proj2 (and_one_iff (of_g w) d (of_g w') Hww (Forall_inv Hwd) (or_introl Em)) R Hg (Forall_inv Hgd)) as (rho & vc & vd & q & M1 & M2 & M3 & Hv).
        { simpl in Hn. now rewrite app_nil_r in Hn. }
        apply Hv. apply (Fun rho); [|exact M3]. specialize (H rho (Some vc) [vd] (proj2 (says_means rho w vc) M1) ltac:(now repeat constructor)).
        cbn [promised fold_right] in H. now rewrite and3_T in H.
      * assert (Hl : 1 < length (d :: d' :: ds)) by (simpl; lia).
        destruct (proj2 (and_many_iff (of_g w) (d :: d' :: ds) (of_g w') Hww Hwd Hl (or_introl Em)) R Hg Hgd Hn) as (rho & vc & vds & q & M1 & M2 & M3 & Hv).
        apply Hv. apply (Fun rho); [|exact M3]. specialize (H rho (Some vc) vds (proj2 (says_means rho w vc) M1) M2).
        destruct vds; [inversion M2|]. exact H.
    + pose proof (w_or_m w _ w' E) as Em. destruct ds as [|d' ds].
      * destruct (proj2 (or_one_iff (of_g w) d (of_g w') Hww (Forall_inv Hwd) (or_introl Em)) R Hg (Forall_inv Hgd)) as (rho & vc & vd & q & M1 & M2 & M3 & Hv).
        { simpl in Hn. now rewrite app_nil_r in Hn. }
        apply Hv. apply (Fun rho); [|exact M3]. specialize (H rho (Some vc) [vd] (proj2 (says_means rho w vc) M1) ltac:(now repeat constructor)).
        cbn [promised fold_right] in H. now rewrite and3_T in H.
      * assert (Hl : 1 < length (d :: d' :: ds)) by (simpl; lia).
        destruct (or_many_never (of_g w) (d :: d' :: ds) (of_g w') Hww Hwd Hl (or_introl Em) Hg Hgd Hn) as (rho & vc & vds & q & M1 & M2 & M3 & Hv).
        apply Hv. apply (Fun rho); [|exact M3]. specialize (H rho (Some vc) vds (proj2 (says_means rho w vc) M1) M2).
        destruct vds; [inversion M2|]. exact H.
Qed.
Print Assumptions C97_exactly.

(** Full statement (false): every call on every clause keeps the promise.  GroupOR with two
    conditions joins them by AND. *)
Theorem C97_refuted : exists rho w w' vs, clause [GroupAND [eqc "a" 1]] w /\ w_step w (GroupOR [eqc "b" 2; eqc "c" 3]) = Ok w' /\
  w_render w' 0 = Ok "(a=$1) AND (b=$2 AND c=$3)" /\
  clause_says rho w (Some T) /\ Forall2 (means rho) [eqc "b" 2; eqc "c" 3] vs /\
  clause_says rho w' (Some F) /\ promised (Some T) (GroupOR [eqc "b" 2; eqc "c" 3]) vs = Some T.
Proof.
  exists (table_row (fun c => if String.eqb c "a" then 1 else 9)). eexists _, _, [F; F].
  split; [left; vm_compute; reflexivity|]. split; [vm_compute; reflexivity|]. split; [vm_compute; reflexivity|].
  split; [apply says_means; means_now|]. split; [repeat (constructor; [means_now|]); constructor|]. split; [apply says_means; means_now|reflexivity].
Qed.
Print Assumptions C97_refuted.

(** ** Plain conditions *)

(** Proved part for plain conditions: GroupAND with any number of them and GroupOR with one, in any
    order, always keep the promise.  Missing: GroupOR with several conditions (never, C97_exactly) and
    groups as conditions (by the rule of C97_exactly). *)
Definition plain_step (s : wstep) : Prop :=
  Forall plain (args s) /\ match s with GroupOR (_ :: _ :: _) => False | _ => True end.

Definition closed (c : cond) : Prop := match c with CNil => False | CLeaf _ => True | CGrp _ _ _ br => br = true end.
Lemma closed_conns cs : Forall closed cs -> flat_map conns cs = map jt cs.
Proof.
  induction 1 as [|c cs Hc _ IH]; [reflexivity|]. cbn [flat_map map]. rewrite IH. destruct c as [|l|j n k br]; [destruct Hc|reflexivity|].
  cbn in Hc. subst br. reflexivity.
Qed.
Lemma plain_closed cs : Forall plain cs -> Forall closed cs.
Proof. intros H. eapply Forall_impl; [|exact H]. intros c (l & -> & _). exact I. Qed.
Lemma plain_all_wf cs : Forall plain cs -> Forall wf cs.
Proof. intros H. eapply Forall_impl; [|exact H]. apply plain_wf. Qed.

Lemma closed_step w s w' : Forall closed (g_cs w) -> Forall wf (g_cs w) -> plain_step s -> w_step w s = Ok w' -> Forall closed (g_cs w').
Proof.
  intros Hc Hw [Hp Ho] E. rewrite step_eq in E. unfold add_conditions in E. rewrite !has_one_eq in E by exact Hw. cbn [bind] in E.
  destruct (args s) as [|d ds] eqn:Ea; [injection E as <-; exact Hc|].
  destruct (g_cs w) as [|x xs] eqn:Ew; [injection E as <-; cbn [g_cs set_join set_cs]; now apply plain_closed|].
  destruct ds as [|d' ds].
  - destruct (Forall_inv Hp) as (l & -> & _). cbn [c_join bind] in E. unfold add_single in E. cbn [as_group jtype bind] in E.
    rewrite <- Ew in Hc, Hw. clear Ew.
    do 2 (apply bind_Ok in E as (? & _ & E)).
    destruct (length (g_cs w) =? 0); [injection E as <-; cbn [g_cs set_join set_cs]; apply Forall_app; split; [exact Hc|now repeat constructor]|].
    repeat match type of E with (if ?b then _ else _) = Ok _ => destruct b end; cbn [c_join bind] in E; injection E as <-; cbn [g_cs set_cs];
      try (apply Forall_app; split; [exact Hc|now repeat constructor]); repeat constructor.
  - destruct s as [cs|cs]; cbn [args] in Ea; subst cs; [|contradiction]. cbn [str_eqb] in E.
    replace (someTail AND (x :: xs) && str_eqb AND OR) with false in E by (now rewrite andb_false_r).
    destruct (someTail OR (x :: xs) && str_eqb AND AND).
    + injection E as <-. cbn [g_cs set_cs]. constructor; [reflexivity|now apply plain_closed].
    + apply bind_Ok in E as (ng & _ & [= <-]). cbn [g_cs set_cs]. repeat constructor.
Qed.

Lemma plain_keeps w s : reached w -> Forall closed (g_cs w) -> plain_step s -> keeps w s = true.
Proof.
  intros Hr Hc [Hp Ho]. destruct Hr as (Hn & Hb & Hw & Hj). unfold keeps. destruct (args s) as [|d ds] eqn:Ea; [reflexivity|].
  assert (Pj : forall cs, Forall plain cs -> forallb (String.eqb AND) (flat_map conns cs) = true).
  { clear. induction 1 as [|c cs (l & -> & Hl) _ IH]; [reflexivity|]. cbn [flat_map conns app forallb]. rewrite Hl, IH. reflexivity. }
  assert (Nor : forall js, forallb (String.eqb AND) js = true -> anyor js = false).
  { clear. induction js as [|j js IH]; [reflexivity|]. cbn [forallb anyor existsb]. intros H. apply andb_true_iff in H as [H1 H2].
    apply String.eqb_eq in H1. subst j. exact (IH H2). }
  destruct (g_cs w) as [|x xs] eqn:Ew.
  - unfold first_right. apply orb_true_iff. right. apply negb_true_iff. apply Nor. specialize (Pj (d :: ds) Hp).
    destruct (flat_map conns (d :: ds)) as [|k ks]; [reflexivity|]. cbn [forallb tl] in *. now apply andb_true_iff in Pj as [_ Pj].
  - assert (Out : tails AND (inside AND (of_g w)) = true -> anyor (outer (inside AND (of_g w))) = false).
    { unfold inside. cbn [start of_g g_cs]. rewrite Ew. intros Ht. apply Nor. unfold outer. rewrite (closed_conns (x :: xs)) by exact Hc.
      cbn [map tl]. unfold tails in Ht. cbn [tl] in Ht. clear -Ht. induction xs as [|y ys IH]; [reflexivity|]. cbn [map forallb] in *.
      apply andb_true_iff in Ht as [H1 H2]. rewrite (String.eqb_sym AND), H1. now apply IH. }
    assert (Neg : negated (of_g w) = false) by exact Hn.
    destruct s as [cs|cs]; cbn [args] in Ea; subst cs.
    + unfold narrows. destruct ds as [|d' ds].
      * destruct (Forall_inv Hp) as (l & -> & _). unfold and_right, rule_of, and_rule. rewrite Neg.
        apply andb_true_iff. split.
        -- destruct (tails AND (inside AND (of_g w))); [|reflexivity]. now rewrite Out.
        -- cbn [negated inside start g_cs lead outer conns flat_map hd tl leaf_with_join l_join app]. destruct (and_flat _ _); reflexivity.
      * unfold and_right_many. rewrite Neg. cbn [negb andb]. destruct (tails AND (inside AND (of_g w))); [|now apply Pj].
        apply forallb_forall. intros c Hin. rewrite Forall_forall in Hp. destruct (Hp c Hin) as (l & -> & _). reflexivity.
    + destruct ds as [|d' ds]; [|contradiction]. destruct (Forall_inv Hp) as (l & -> & _). unfold or_right, rule_of, or_rule. rewrite Neg. reflexivity.
Qed.

Theorem C97_plain_partial : forall rho h vss, Forall plain_step h -> Forall regular (flat_map args h) ->
  Forall2 (fun s vs => Forall2 (means rho) (args s) vs) h vss ->
  exists w, clause h w /\ clause_says rho w (promised_all None h vss).
Proof.
  intros rho h vss Hp Hr Hv.
  assert (K : forall h1 h0 w v vss, Forall plain_step h1 -> Forall regular (flat_map args (h0 ++ h1)) ->
    Forall2 (fun s vs => Forall2 (means rho) (args s) vs) h1 vss -> calls w_step empty_group h0 = Ok w -> Forall closed (g_cs w) -> clause_says rho w v ->
    exists w', calls w_step w h1 = Ok w' /\ clause_says rho w' (promised_all v h1 vss)).
  { clear. induction h1 as [|s h1 IH]; intros h0 w v vss Hp Hr Hv E Hc Hs; [exists w; split; [reflexivity|exact Hs]|].
    inversion Hp as [|? ? P1 P2]; subst. inversion Hv as [|? vs ? vss' V1 V2]; subst. cbn [promised_all calls].
    assert (Hr' := Hr). rewrite flat_map_app in Hr'. apply Forall_app in Hr' as [R0 R1]. cbn [flat_map] in R1. apply Forall_app in R1 as [R1 R2].
    destruct (clause_reached h0 w R0 (or_introl E)) as (Rw & _ & _).
    destruct (step_reached w s Rw (plain_all_wf _ (proj1 P1))) as (w1 & E1 & _). rewrite E1. cbn [bind].
    apply (IH (h0 ++ [s])%list w1); auto.
    - rewrite <- app_assoc. exact Hr.
    - rewrite calls_app, E. cbn [bind calls]. now rewrite E1.
    - apply (closed_step w s); auto. apply Rw.
    - apply (C97_suffices rho h0 s w w1 v vs); auto; [now left|]. now apply plain_keeps. }
  destruct (K h [] empty_group None vss Hp Hr Hv eq_refl) as (w & E & Hs); [constructor|now apply says_empty|]. exists w. split; [now left|exact Hs].
Qed.
Print Assumptions C97_plain_partial.

(** No call on a clause panics, whatever conditions the library built. *)
Theorem C97_total : forall h, (forall c, In c (flat_map args h) -> built c) ->
  (exists w, calls w_step empty_group h = Ok w) /\ (exists w, calls w_step zero_group h = Ok w).
Proof.
  intros h Hb.
  assert (K : forall h w, gtree and_or true w -> (forall c, In c (flat_map args h) -> built c) -> exists w', calls w_step w h = Ok w').
  { clear. induction h as [|s h IH]; intros w Hw Hb; [now exists w|]. cbn [calls flat_map] in *. rewrite step_eq.
    destruct (add_tree_ok (match s with GroupAND _ => AND | GroupOR _ => OR end) w (args s)) as (r & -> & Hr); [destruct s; auto|exact Hw| |].
    { apply Forall_forall. intros c Hc. apply built_tree. apply Hb. apply in_or_app. auto. }
    cbn [bind]. apply IH.
    - destruct r as [j n cs br]. inversion Hr; subst. split; assumption.
    - intros c Hc. apply Hb. apply in_or_app. auto. }
  split; [apply K; [split; [auto|constructor]|exact Hb]|].
  induction h as [|s h IH]; [now exists zero_group|]. cbn [calls flat_map] in *. destruct (args s) as [|d ds] eqn:Ea.
  - rewrite none_step; [|constructor|exact Ea]. cbn [bind]. apply IH. exact Hb.
  - rewrite first_step by (try reflexivity; congruence). cbn [bind]. apply K; [|intros c Hc; apply Hb; apply in_or_app; auto].
    rewrite Ea. split; [destruct s; auto|]. cbn [g_cs]. apply Forall_forall. intros c Hc. apply built_tree, Hb, in_or_app. auto.
Qed.
Print Assumptions C97_total.

Example C97_example : let h := [GroupAND [eqc "a" 1; eqc "b" 2]; GroupOR [eqc "c" 3]; GroupAND []; GroupAND [eqc "d" 4]; GroupOR [eqc "e" 5]] in
  (do w <- calls w_step empty_group h; w_render w 0) = Ok "(((a=$1 AND b=$2) OR c=$3) AND d=$4) OR e=$5" /\
  Forall plain_step h /\ Forall regular (flat_map args h) /\
  exists w, clause [GroupAND [eqc "a" 1; eqc "b" 2]] w /\ keeps w (GroupOR [eqc "c" 3]) = true /\ keeps w (GroupOR [eqc "c" 3; eqc "d" 4]) = false /\
    NoDup (flat_map cols [eqc "a" 1; eqc "b" 2] ++ flat_map cols [eqc "c" 3; eqc "d" 4]).
Proof.
  cbv zeta. split; [vm_compute; reflexivity|]. split.
  { repeat constructor; unfold plain; eexists; split; reflexivity. }
  split.
  { cbn [flat_map args app]. repeat apply Forall_cons; try apply Forall_nil; by_regular. }
  eexists. split; [left; vm_compute; reflexivity|]. split; [reflexivity|]. split; [reflexivity|].
  vm_compute. repeat constructor; simpl; intuition discriminate.
Qed.
