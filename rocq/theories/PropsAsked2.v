(** Exact forms of C28 and of the panics of C61. *)
From Coq Require Import String Ascii List Bool Arith Lia NArith ZArith Permutation.
From Verif Require Import GoStr Value Names Cond Build Asked SqlSpec Spec StrFacts CondFacts CondText CondSem TreeFacts Built CondThms PropsCond
  StmtFacts Calls BuildFacts PropsAsked PropsValid.
Import ListNotations.
Local Open Scope string_scope.
Local Open Scope nat_scope.

(** * C61 *)

(** a provider that always answers (it does not panic itself) *)
Definition answering (o : oracle) : Prop := forall i l, exists vs, o i l = Ok vs.
Definition has_in (c : cond) : Prop := exists l, In l (leaves c) /\ l_kind l = KIn.

Lemma answering_values o c : answering o -> no_nil c -> forall i, exists r, o_values o c i = Ok r.
Proof.
  intros Ho. induction c as [|l|j n cs br IH] using cond_ind'; intros H i; inversion H as [|? ? ? ? Hn]; subst.
  - destruct (Ho (length i) l) as (vs & E). cbn. rewrite E. cbn. eauto.
  - rewrite o_values_grp. clear H. revert i. induction Hn as [|c cs Hc Hn IHn]; intros i; [cbn; eauto|].
    inversion IH as [|? ? IHc IHcs]; subst. cbn [o_values_list]. destruct (IHc Hc i) as (r & ->). cbn [bind].
    destruct (IHn IHcs (snd r)) as (r' & ->). cbn. eauto.
Qed.
Lemma no_in_renders o c : answering o -> no_nil c -> ~ has_in c -> forall n i, exists r, o_render o c n i = Ok r.
Proof.
  intros Ho. induction c as [|l|j ng cs br IH] using cond_ind'; intros H Hi n i; inversion H as [|? ? ? ? Hn]; subst.
  - cbn [o_render]. unfold o_leaf_render. destruct (l_kind l) eqn:K; try (unfold leaf_render; rewrite K; cbn; eauto).
    destruct Hi. exists l. cbn. auto.
  - rewrite o_render_grp. destruct cs as [|c0 cs0]; [eauto|]. set (cs := c0 :: cs0) in *. clearbody cs.
    assert (L : forall first n i, exists r, o_render_list o first cs n i = Ok r).
    { clear H n i. induction Hn as [|c cs Hc Hn IHn]; intros first n i; [cbn; eauto|]. inversion IH as [|? ? IHc IHcs]; subst. cbn [o_render_list].
      assert (J : exists j', jtype c = Ok j') by (destruct Hc; cbn; eauto). destruct J as (j' & ->). cbn [bind].
      destruct (IHc Hc) with (n := n) (i := i) as (r & ->).
      { intros (l & Hl & K). apply Hi. exists l. split; [|exact K]. cbn. apply in_or_app. now left. }
      cbn [bind]. destruct (answering_values o c Ho Hc (snd r)) as (v & ->). cbn [bind].
      destruct (IHn IHcs) with (first := false) (n := n + length (fst v)) (i := snd v) as (r' & ->).
      { intros (l & Hl & K). apply Hi. exists l. split; [|exact K]. cbn. apply in_or_app. now right. }
      cbn. eauto. }
    destruct (L true n i) as (r & ->). cbn. eauto.
Qed.
(** one value more at each call *)
Definition one_more : oracle := fun i _ => Ok (repeat (VOther 0) i).
Lemma one_more_answers : answering one_more. Proof. intros i l. eexists. reflexivity. Qed.
Lemma in_panics c : no_nil c -> has_in c -> forall n i, o_render one_more c n i = Panic.
Proof.
  induction c as [|l|j ng cs br IH] using cond_ind'; intros H (l0 & Hl & K) n i; inversion H as [|? ? ? ? Hn]; subst.
  - destruct Hl as [<-|[]]. cbn [o_render]. unfold o_leaf_render. rewrite K. unfold one_more. cbn [bind]. rewrite !repeat_length.
    destruct (Nat.leb_spec (S (length i)) (length i)); [lia|reflexivity].
  - rewrite o_render_grp. destruct cs as [|c0 cs0]; [destruct Hl|]. set (cs := c0 :: cs0) in *. clearbody cs.
    assert (L : forall first n i, o_render_list one_more first cs n i = Panic); [|now rewrite L].
    cbn [leaves] in Hl. clear H n i. revert Hl. induction Hn as [|c cs Hc Hn IHn]; intros Hl first n i; [destruct Hl|].
    inversion IH as [|? ? IHc IHcs]; subst. cbn [o_render_list flat_map] in *. destruct (jtype c); [cbn [bind]|reflexivity].
    apply in_app_or in Hl as [Hl|Hl].
    + now rewrite (IHc Hc (ex_intro _ l0 (conj Hl K))).
    + destruct (o_render one_more c n i) as [r|]; [cbn [bind]|reflexivity]. destruct (o_values one_more c (snd r)) as [v|]; [cbn [bind]|reflexivity].
      now rewrite (IHn IHcs Hl).
Qed.

Lemma has_in_dec c : has_in c \/ ~ has_in c.
Proof.
  unfold has_in. induction (leaves c) as [|l ls [IH|IH]]; [right; now intros (l & [] & _)| |].
  - left. destruct IH as (x & Hx & K). exists x. split; [now right|exact K].
  - assert (X : l_kind l = KIn \/ l_kind l <> KIn) by (destruct (l_kind l); auto; right; discriminate). destruct X as [X|X].
    + left. exists l. split; [now left|exact X].
    + right. intros (x & [<-|Hx] & K); [contradiction|]. apply IH. eauto.
Qed.
Lemma panic_iff c n (f : oracle -> string * list leaf -> list gval * list leaf -> out * list leaf) : no_nil c ->
  ((exists o, answering o /\ (do w <- o_render o c n []; do vs <- o_values o c (snd w); Ok (f o w vs)) = Panic) <-> has_in c).
Proof.
  intros Hb. split.
  - intros (o & Ho & E). destruct (has_in_dec c) as [D|D]; [exact D|]. destruct (no_in_renders o c Ho Hb D n []) as (r & E').
    rewrite E' in E. cbn [bind] in E. destruct (answering_values o c Ho Hb (snd r)) as (v & E2). rewrite E2 in E. discriminate.
  - intros H. exists one_more. split; [exact one_more_answers|]. now rewrite in_panics.
Qed.

(** Rendering a condition panics for some answers of its value providers exactly if it contains IN. *)
Theorem C61_panic_exactly : forall c n, built c ->
  ((exists o, answering o /\ o_render o c n [] = Panic) <-> exists l, In l (leaves c) /\ l_kind l = KIn).
Proof.
  intros c n Hb. apply built_no_nil in Hb. split.
  - intros (o & Ho & E). destruct (has_in_dec c) as [D|D]; [exact D|]. destruct (no_in_renders o c Ho Hb D n []) as (r & E'). congruence.
  - intros H. exists one_more. split; [exact one_more_answers|]. now apply in_panics.
Qed.
Print Assumptions C61_panic_exactly.
Example C61_panic_exactly_example : built (CLeaf in_a) /\ built (CLeaf eq_b) /\ has_in (CLeaf in_a) /\ ~ has_in (CLeaf eq_b).
Proof.
  split; [apply (bt_lib KIn "a" (VOther 0)); reflexivity|]. split; [apply (bt_lib KEq "b" (VOther 7)); reflexivity|].
  split; [exists in_a; split; [now left|reflexivity]|]. intros (l & [<-|[]] & K). discriminate.
Qed.

(** The builds: a SELECT, COUNT or DELETE whose conditions contain no IN never panics, whatever the answers; with one it can. *)
Theorem C61_build_exactly : forall css g, calls group_and empty_group css = Ok g -> Forall built (List.concat css) -> List.concat css <> [] ->
  forall b m s c d, b_where b = g -> b_where (m_base m) = g -> b_where (ss_base s) = g -> b_where (cs_base c) = g -> d_where d = g -> d_table d <> "" ->
  ((exists o, answering o /\ o_build o b = Panic) <-> has_in (of_g g)) /\
  ((exists o, answering o /\ o_many o m = Panic) <-> has_in (of_g g)) /\
  ((exists o, answering o /\ o_single o s = Panic) <-> has_in (of_g g)) /\
  ((exists o, answering o /\ o_count o c = Panic) <-> has_in (of_g g)) /\
  ((exists o, answering o /\ o_delete o d = Panic) <-> has_in (of_g g)).
Proof.
  intros css g Eg Hb Hne b m s c d Eb Em Es Ec Ed Hd.
  assert (Hn : no_nil (of_g g)) by (eapply tree_no_nil, where_tree; [exact empty_tree|exact Hb|exact Eg]).
  assert (Hc : nonempty (g_cs g) = true).
  { destruct (g_cs g) eqn:E; [|reflexivity]. apply (where_grows _ _ _ Eg) in E as [_ E]. contradiction. }
  assert (B : forall b, b_where b = g -> ((exists o, answering o /\ o_build o b = Panic) <-> has_in (of_g g))).
  { intros b' E. unfold o_build. rewrite E, Hc. now apply (panic_iff (of_g g) 0 (fun _ w vs => (ok (join " " (b_tokens b' ++ ["WHERE"; fst w])%list) (fst vs), snd vs))). }
  split; [now apply B|]. split; [|split; [|split]].
  - rewrite <- (B (m_base m) Em). unfold o_many. split; intros (o & Ho & E); exists o; (split; [exact Ho|]).
    + destruct (o_build o (m_base m)) as [p|]; [|reflexivity]. cbn [bind] in E.
      destruct (0 <? m_offset m)%N, (0 <? m_limit m)%Z; discriminate E.
    + now rewrite E.
  - rewrite <- (B (ss_base s) Es). unfold o_single. split; intros (o & Ho & E); exists o; (split; [exact Ho|]).
    + destruct (o_build o (ss_base s)) as [p|]; [discriminate E|reflexivity].
    + now rewrite E.
  - unfold o_count. rewrite Ec, Hc.
    now apply (panic_iff (of_g g) 0 (fun _ w vs => (ok (join " " ([op_string DoSelect; ("COUNT" ++ "(" ++ render_field (cs_field c) ++ ")")%string; "FROM"; b_render_from (cs_base c)] ++ ["WHERE"; fst w])%list) (fst vs), snd vs))).
  - unfold o_delete. rewrite Ed, Hc. cbn [negb]. destruct (d_table d) as [|x T] eqn:ET; [congruence|]. cbn [is_empty]. rewrite <- ET.
    now apply (panic_iff (of_g g) 0 (fun _ w vs => (ok (join " " ["DELETE"; "FROM"; d_table d; "WHERE"; fst w]) (fst vs), snd vs))).
Qed.
Print Assumptions C61_build_exactly.
Example C61_build_exactly_example : exists g, calls group_and empty_group [[CLeaf in_a]; [CLeaf eq_b]] = Ok g /\
  Forall built (List.concat [[CLeaf in_a]; [CLeaf eq_b]]) /\ has_in (of_g g).
Proof.
  eexists. split; [vm_compute; reflexivity|]. destruct C61_panic_exactly_example as (A & B & _). split; [constructor; [exact A|constructor; [exact B|constructor]]|].
  exists in_a. split; [now left|reflexivity].
Qed.

(** * C28 *)

(** A predicate on a column (with values that can be converted) is a boolean expression exactly if no alias is written: the field has
    none, or its own name and no table (an IN list must also have an element). *)
Theorem C28_exactly : forall l n, (forall cu, l_kind l <> KCustom cu) -> name (f_name (l_def l)) = true ->
  (f_table (l_def l) = "" \/ name (f_table (l_def l)) = true) -> (exists vs, leaf_args l = Some vs) ->
  exists s, leaf_render l n = Ok s /\
    ((exists e, parse (lex s) = Some e) <->
     (f_alias (l_def l) = "" \/ (f_alias (l_def l) = f_name (l_def l) /\ f_table (l_def l) = "")) /\ (l_kind l = KIn -> leaf_args l <> Some [])).
Proof.
  intros l n H1 H2 H3 H4.
  assert (T : tr (CLeaf (mkLeaf (l_kind l) AND (l_neg l) (l_def l) (l_val l)))). { destruct l. constructor. now left. }
  destruct (read_tree (CLeaf (mkLeaf (l_kind l) AND (l_neg l) (l_def l) (l_val l))) T) with (n := n) as (s & vs & E & _ & O).
  { intros x [<-|[]]. destruct l. split; [exact H1|]. split; [exact H2|]. split; [exact H3|exact H4]. }
  exists s. split; [destruct l; exact E|]. rewrite (outcome_parse _ _ O). cbn. split.
  - intros [_ H]. specialize (H _ (or_introl eq_refl)). destruct l. exact H.
  - intros H. split; [destruct l; constructor|]. intros x [<-|[]]. destruct l. exact H.
Qed.
Print Assumptions C28_exactly.
(** t.f = 1 with and without the alias x, f AS f, and an empty list *)
Example C28_exactly_example :
  let l a := mkLeaf KEq AND false (mkF "f" "t" a) (VOther 1) in
  (exists s e, leaf_render (l "") 0 = Ok s /\ parse (lex s) = Some e) /\
  (exists s, leaf_render (l "x") 0 = Ok s /\ s = "t.f AS x=$1" /\ parse (lex s) = None) /\
  (exists s, leaf_render (l "f") 0 = Ok s /\ parse (lex s) = None) /\
  (exists s e, leaf_render (mkLeaf KEq AND false (mkF "f" "" "f") (VOther 1)) 0 = Ok s /\ parse (lex s) = Some e) /\
  (exists s, leaf_render (mkLeaf KIn AND false (mkF "f" "" "") (VSlice [])) 0 = Ok s).
Proof.
  split; [do 2 eexists; split; [vm_compute; reflexivity|vm_compute; reflexivity]|]. split; [eexists; split; [vm_compute; reflexivity|]; split; vm_compute; reflexivity|].
  split; [eexists; split; [vm_compute; reflexivity|vm_compute; reflexivity]|]. split; [do 2 eexists; split; [vm_compute; reflexivity|vm_compute; reflexivity]|]. eexists. vm_compute. reflexivity.
Qed.
