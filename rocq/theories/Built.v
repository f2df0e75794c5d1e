(** Every condition that can be obtained through the exported functions is a tree
    without nil whose connectives are AND or OR. *)
From Coq Require Import String Ascii List Bool Arith Lia.
From Verif Require Import GoStr Value Names Cond SqlSpec Spec StrFacts SqlFacts CondFacts CondText CondSem
  TreeFacts CondLogic CondMeaning.
Import ListNotations.
Local Open Scope string_scope.
Local Open Scope nat_scope.

(** Conditions built with the API from string names, or written by the user. *)
Inductive built : cond -> Prop :=
| bt_lib k fn v c : mk_cond k fn v = Ok c -> built c
| bt_null fn c : is_null fn = Ok c -> built c
| bt_user cu j n d v : and_or j -> built (CLeaf (mkLeaf (KCustom cu) j n d v))
| bt_join j c r : built c -> and_or j -> c_join j c = Ok r -> built r
| bt_negate b c r : built c -> c_negate b c = Ok r -> built r
| bt_not c r : built c -> not_ c = Ok r -> built r
| bt_group j cs g : (forall d, In d cs -> built d) -> and_or j -> new_group j cs = Ok g -> built (of_g g)
| bt_brackets c g : built c -> as_group c = Some g -> built (of_g (with_brackets g))
| bt_and c cs r : built c -> (forall d, In d cs -> built d) -> m_and c cs = Ok r \/ and_ c cs = Ok r -> built r
| bt_or c cs r : built c -> (forall d, In d cs -> built d) -> m_or c cs = Ok r \/ or_ c cs = Ok r -> built r
| bt_spec spec c r : built c -> c_apply_spec spec c = Ok r -> built r
| bt_table tn c r : built c -> c_apply_table tn c = Ok r -> built r.

Notation tr := (tree and_or true).

Lemma and_or_AND : and_or AND. Proof. now left. Qed.
Lemma and_or_OR : and_or OR. Proof. now right. Qed.
Global Hint Resolve and_or_AND and_or_OR : core.

Lemma group_of_tree c g : tr c -> as_group c = Some g -> gtree and_or true g.
Proof. intros H E. destruct c; inversion E; subst. inversion H; subst. split; assumption. Qed.
Lemma tree_of_g g : gtree and_or true g -> tr (of_g g).
Proof. intros [H1 H2]. constructor; auto. Qed.
Lemma add_tree op g cs r : and_or op -> gtree and_or true g -> Forall tr cs -> add_conditions op g cs = Ok r -> tr (of_g r).
Proof.
  intros Hop Hg Hc E. destruct (add_conditions_tree and_or true and_or_AND op g cs Hop Hg Hc) as (r' & E' & Hr & _).
  rewrite E in E'. injection E' as <-. now apply tree_of_g.
Qed.
Lemma add_tree_ok op g cs : and_or op -> gtree and_or true g -> Forall tr cs ->
  exists r, add_conditions op g cs = Ok r /\ tr (of_g r).
Proof.
  intros Hop Hg Hc. destruct (add_conditions_tree and_or true and_or_AND op g cs Hop Hg Hc) as (r & E & Hr & _).
  exists r. split; [exact E|now apply tree_of_g].
Qed.
Lemma start_tree op c : and_or op -> tr c -> gtree and_or true (start op c).
Proof.
  intros Hop H. destruct H; simpl; split; auto. cbn. constructor; [|constructor]. constructor; exact Hop.
Qed.

Lemma m_and_tree c ds : tr c -> Forall tr ds ->
  (exists r, m_and c ds = Ok r /\ tr r) /\ (exists r, and_ c ds = Ok r /\ tr r).
Proof.
  intros Hc Hd. assert (Hnil : c <> CNil) by (destruct Hc; discriminate).
  destruct (add_tree_ok AND (start AND c) ds and_or_AND (start_tree AND c and_or_AND Hc) Hd) as (r & E & Hr).
  destruct (tr_join and_or true AND c and_or_AND Hc) as (c' & Ec & Hc').
  split.
  - destruct (m_and_eq c ds Hnil) as [->|(-> & l & -> & ->)]; [|eauto]. unfold group_and. rewrite E. simpl; eauto.
  - destruct (and_eq c ds Hnil) as [->|(-> & ->)]; [|eauto]. unfold group_and. rewrite E. simpl; eauto.
Qed.

Lemma m_or_tree c ds : tr c -> Forall tr ds ->
  (null_leaf c = false -> exists r, m_or c ds = Ok r /\ tr r) /\ (exists r, or_ c ds = Ok r /\ tr r).
Proof.
  intros Hc Hd. assert (Hnil : c <> CNil) by (destruct Hc; discriminate).
  destruct (add_tree_ok OR (start OR c) ds and_or_OR (start_tree OR c and_or_OR Hc) Hd) as (r & E & Hr).
  destruct (tr_join and_or true OR c and_or_OR Hc) as (c' & Ec & Hc').
  destruct (tr_join and_or true OR (of_g r) and_or_OR Hr) as (r' & Er & Hr').
  split.
  - intros Hk. destruct (m_or_eq c ds Hnil Hk) as [(op & _ & ->)|(-> & ->)]; [|eauto].
    unfold group_or. rewrite E. cbn [bind]. destruct op; eauto.
  - destruct (or_eq c ds Hnil) as [->|(-> & ->)]; [|eauto]. unfold group_or. rewrite E. cbn [bind]. eauto.
Qed.

(** IsNull(f).Or(...) panics *)
Lemma null_or_panics l cs : l_kind l = KNull -> m_or (CLeaf l) cs = Panic.
Proof. intros H. simpl. rewrite H. reflexivity. Qed.

Lemma mapM_tree (f : cond -> res cond) cs : Forall (fun c => exists c', f c = Ok c' /\ tr c') cs ->
  exists cs', mapM f cs = Ok cs' /\ Forall tr cs'.
Proof.
  induction 1 as [|c cs (c' & E & H) _ (cs' & Es & Hs)]; simpl; [eauto|]. rewrite E, Es. simpl. eauto.
Qed.
Lemma apply_spec_tree spec c : tr c -> exists r, c_apply_spec spec c = Ok r /\ tr r.
Proof.
  induction c as [|l|j n cs br IH] using cond_ind'; intros H; inversion H as [|? ? ? ? H1 H2 H3]; subst.
  - simpl. eexists; split; [reflexivity|now constructor].
  - rewrite c_apply_spec_grp. destruct (mapM_tree (c_apply_spec spec) cs) as (cs' & -> & Hs).
    + rewrite Forall_forall in *. intros c Hc. apply IH; auto.
    + simpl. eexists; split; [reflexivity|]. constructor; auto.
Qed.
Lemma apply_table_tree tn c : tr c -> exists r, c_apply_table tn c = Ok r /\ tr r.
Proof.
  induction c as [|l|j n cs br IH] using cond_ind'; intros H; inversion H as [|? ? ? ? H1 H2 H3]; subst.
  - simpl. eexists; split; [reflexivity|now constructor].
  - rewrite c_apply_table_grp. destruct (mapM_tree (c_apply_table tn) cs) as (cs' & -> & Hs).
    + rewrite Forall_forall in *. intros c Hc. apply IH; auto.
    + simpl. eexists; split; [reflexivity|]. constructor; auto.
Qed.

Lemma new_group_ok_tree j cs : and_or j -> Forall tr cs -> exists g, new_group j cs = Ok g /\ gtree and_or true g.
Proof.
  intros Hj Hc. unfold new_group. destruct (mapM_tree (c_join j) cs) as (cs' & -> & Hs).
  - rewrite Forall_forall in *. intros c Hin. apply tr_join; auto.
  - simpl. eexists; split; [reflexivity|]. split; auto.
Qed.

Lemma built_tree c : built c -> tr c.
Proof.
  induction 1 as [k fn v c E|fn c E|cu j n d v Hj|j c r _ IH Hj E|b c r _ IH E|c r _ IH E|j cs g _ IH Hj E|c g _ IH E
    |c cs r _ IH _ IHs E|c cs r _ IH _ IHs E|spec c r _ IH E|tn c r _ IH E].
  - unfold mk_cond in E. apply bind_Ok in E as (fv & _ & [= <-]). now constructor.
  - unfold is_null in E. apply bind_Ok in E as (fv & _ & [= <-]). now constructor.
  - now constructor.
  - destruct (tr_join and_or true j c Hj IH) as (c' & Ec & Hc). congruence.
  - destruct (tr_negate and_or true b c IH) as (c' & Ec & Hc). congruence.
  - destruct (tr_negate and_or true true c IH) as (c' & Ec & Hc). unfold not_ in E. congruence.
  - apply Forall_forall in IH. destruct (new_group_ok_tree j cs Hj IH) as (g' & Eg & Hg).
    rewrite E in Eg. injection Eg as <-. now apply tree_of_g.
  - destruct (group_of_tree c g IH E) as [H1 H2]. constructor; auto.
  - apply Forall_forall in IHs. destruct (m_and_tree c cs IH IHs) as [(r1 & E1 & H1) (r2 & E2 & H2)].
    destruct E; congruence.
  - apply Forall_forall in IHs. destruct (m_or_tree c cs IH IHs) as [H1 (r2 & E2 & H2)].
    destruct E as [E|E]; [|congruence]. destruct (null_leaf c) eqn:K.
    + destruct c as [|l|]; try discriminate. simpl in K. destruct (l_kind l) eqn:KL; try discriminate.
      rewrite null_or_panics in E by exact KL. discriminate.
    + destruct (H1 eq_refl) as (r1 & E1 & Hr1). congruence.
  - destruct (apply_spec_tree spec c IH) as (c' & Ec & Hc). congruence.
  - destruct (apply_table_tree tn c IH) as (c' & Ec & Hc). congruence.
Qed.

Lemma tree_joins c : tr c -> joins_ok c.
Proof.
  intros H. apply joins_ok_tree. eapply tree_weaken; [|exact H].
  intros j [-> | ->]; (split; [discriminate|]); unfold lacks; simpl; intuition congruence.
Qed.
Lemma built_joins c : built c -> joins_ok c.
Proof. intros H. now apply tree_joins, built_tree. Qed.
Lemma built_no_nil c : built c -> no_nil c.
Proof. intros H. eapply tree_no_nil, built_tree, H. Qed.

(** conditions without empty groups *)
Fixpoint no_empty (c : cond) : Prop :=
  match c with
  | CNil => False
  | CLeaf _ => True
  | CGrp _ _ cs _ => cs <> [] /\ fold_right (fun c P => no_empty c /\ P) True cs
  end.
Lemma no_empty_grp j n cs br : no_empty (CGrp j n cs br) <-> cs <> [] /\ Forall no_empty cs.
Proof.
  simpl. split; intros [H1 H2]; split; auto.
  - clear H1. induction cs; simpl in *; constructor; tauto.
  - clear H1. induction H2; simpl; auto.
Qed.
Lemma tree_wf c : tr c -> no_empty c -> wf c.
Proof.
  induction c as [|l|j n cs br IH] using cond_ind'; intros H Hn; inversion H as [|? ? ? ? H1 H2 H3]; subst.
  - now constructor.
  - apply no_empty_grp in Hn as [Hn1 Hn2]. constructor; auto. rewrite Forall_forall in *. auto.
Qed.
Lemma built_wf c : built c -> no_empty c -> wf c.
Proof. intros H. apply tree_wf, built_tree, H. Qed.
