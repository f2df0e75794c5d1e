(** Lemmas behind the condition properties. *)
From Coq Require Import String Ascii List Bool Arith Lia NArith.
From Verif Require Import GoStr Value Names Cond Build SqlSpec Spec StrFacts SqlFacts CondFacts CondText CondSem
  TreeFacts CondLogic CondMeaning Built.
Import ListNotations.
Local Open Scope string_scope.
Local Open Scope nat_scope.

(** * Texts *)

Lemma built_text c : built c -> (forall l, In l (leaves c) -> leaf_contract l) -> forall n,
  exists s s' vs, c_render c n = Ok s /\ c_render_sql c = Ok s' /\ c_values c = Ok vs /\
    dollars s = seq (n + 1) (length vs) /\ qmarks s = s'.
Proof.
  intros Hb Hl n. destruct (tree_text c (built_joins c Hb) Hl n) as (s & s' & vs & H1 & H2 & H3 & H4 & H5).
  exists s, s', vs. auto.
Qed.

(** as many question marks as numbered placeholders *)
Lemma qcount_from s : forall cur, lacks "?" s ->
  qcount (qmarks_from (match cur with Some _ => true | None => false end) s) + match cur with Some _ => 1 | None => 0 end
  = length (dollars_from cur s).
Proof.
  induction s as [|c s IH]; intros cur H; [destruct cur; reflexivity|].
  apply lacks_cons in H as [Hc H]. simpl.
  destruct (c =? "$")%char eqn:E.
  - apply Ascii.eqb_eq in E; subst c. change (digit "$") with false. specialize (IH (Some 0) H). simpl in IH.
    destruct cur; simpl; lia.
  - destruct cur as [k|].
    + destruct (digit c) eqn:D; simpl.
      * specialize (IH (Some (10 * k + (nat_of_ascii c - 48))) H). simpl in IH. simpl. lia.
      * specialize (IH None H). simpl in IH. rewrite Hc. simpl. lia.
    + specialize (IH None H). simpl in IH |- *. rewrite Hc. simpl. lia.
Qed.
Lemma qcount_qmarks s : lacks "?" s -> qcount (qmarks s) = length (dollars s).
Proof. intros H. pose proof (qcount_from s None H) as K. simpl in K. unfold qmarks, dollars. lia. Qed.

(** the library's leaves obey the contract exactly when comparisons have one value *)
Definition is_cmp (k : kind) : bool :=
  match k with KEq | KGt | KGe | KLt | KLe => true | _ => false end.
Lemma leaf_count l vs : (forall cu, l_kind l <> KCustom cu) -> def_lacks (l_def l) -> leaf_values l = Ok vs ->
  forall n, exists s, leaf_render l n = Ok s /\
    (dollars s = seq (n + 1) (length vs) <-> (is_cmp (l_kind l) = true -> length vs = 1)).
Proof.
  intros Hk Hd Hv n.
  assert (K : forall op, delim op = true \/ True -> lacks "$" op -> dollars (cmp_render op (dollar (n + 1)) l) = [n + 1]).
  { intros op _ Ho. rewrite cmp_text. destruct (l_neg l);
      (rewrite (dollars_lacks _ (render_spec (l_def l) ++ op ++ dollar (n + 1))) by
        (unfold lacks; simpl; intuition congruence));
      rewrite dollars_lacks by (now apply spec_lacks); rewrite dollars_lacks by exact Ho; apply dollars_dollar. }
  assert (KC : forall op, is_cmp (l_kind l) = true -> lacks "$" op ->
    dollars (cmp_render op (dollar (n + 1)) l) = seq (n + 1) (length vs) <-> (is_cmp (l_kind l) = true -> length vs = 1)).
  { intros op Hc Ho. rewrite (K op (or_intror I) Ho). split.
    - intros E _. apply (f_equal (@length nat)) in E. rewrite seq_length in E. simpl in E. congruence.
    - intros E. rewrite (E Hc). reflexivity. }
  assert (KL : leaf_contract l -> is_cmp (l_kind l) = false -> exists s, leaf_render l n = Ok s /\
    (dollars s = seq (n + 1) (length vs) <-> (is_cmp (l_kind l) = true -> length vs = 1))).
  { intros Hl Hc. destruct (leaf_dollars l n Hl) as (s & s' & vs' & Ev & Es & _ & Ds & _).
    exists s. split; [exact Es|]. simpl in Ev. rewrite Hv in Ev. injection Ev as <-. rewrite Hc. split; [discriminate|auto]. }
  unfold leaf_render. destruct (l_kind l) eqn:E; cbn [is_cmp] in *.
  1-5: eexists; (split; [reflexivity|]); apply KC; [reflexivity|unfold lacks; simpl; intuition congruence].
  1-4: unfold leaf_render in KL; rewrite E in KL; apply KL; [exists vs; split; [exact Hv|]; rewrite E; exact Hd|reflexivity].
  now destruct (Hk cu).
Qed.

(** * Values and leaves of combinations *)

Definition combined (c : cond) (ds : list cond) (r : cond) : Prop :=
  m_and c ds = Ok r \/ and_ c ds = Ok r \/ m_or c ds = Ok r \/ or_ c ds = Ok r.

Lemma start_cores' op c : c <> CNil -> cores_l (g_cs (start op c)) = cores c.
Proof.
  destruct c as [|l|j n cs br]; intros H; [congruence| |]; cbn [start g_cs].
  - unfold cores_l. cbn [flat_map]. now rewrite app_nil_r.
  - now rewrite cores_grp.
Qed.
Lemma start_no_nil op c : no_nil c -> g_no_nil (start op c).
Proof. intros H. destruct c; inversion H; subst; unfold g_no_nil; simpl; [repeat constructor|assumption]. Qed.

Lemma combined_cores c ds r : no_nil c -> Forall no_nil ds -> combined c ds r ->
  no_nil r /\ cores r = (cores c ++ cores_l ds)%list.
Proof.
  intros Hc Hd H. assert (Hnil : c <> CNil) by (destruct Hc; discriminate).
  assert (K : forall op r0, add_conditions op (start op c) ds = Ok r0 -> no_nil (of_g r0) /\ cores (of_g r0) = (cores c ++ cores_l ds)%list).
  { intros op r0 E. destruct (add_conditions_spec op (start op c) ds (start_no_nil op c Hc) Hd) as (r1 & E1 & H1 & H2).
    rewrite E in E1. injection E1 as <-. split; [constructor; exact H1|]. now rewrite cores_of_g, H2, start_cores'. }
  assert (KJ : forall op c', c_join op c = Ok c' -> no_nil c').
  { intros op c' E. destruct (no_nil_join op c Hc) as (c1 & E1 & H1). congruence. }
  assert (KJ' : forall op g c', no_nil (of_g g) -> c_join op (of_g g) = Ok c' -> no_nil c').
  { intros op g c' Hg E. destruct (no_nil_join op _ Hg) as (c1 & E1 & H1). congruence. }
  destruct H as [E|[E|[E|E]]].
  - destruct (m_and_eq c ds Hnil) as [E'|(-> & l & -> & E')]; rewrite E' in E.
    + apply bind_Ok in E as (r0 & E0 & [= <-]). now apply (K AND).
    + split; [eapply KJ, E|]. rewrite (cores_join _ _ _ E). unfold cores_l; simpl; now rewrite ?app_nil_r.
  - destruct (and_eq c ds Hnil) as [E'|(-> & E')]; rewrite E' in E.
    + apply bind_Ok in E as (r0 & E0 & [= <-]). now apply (K AND).
    + split; [eapply KJ, E|]. rewrite (cores_join _ _ _ E). unfold cores_l; simpl; now rewrite ?app_nil_r.
  - destruct (null_leaf c) eqn:N.
    { destruct c as [|l|]; try discriminate. simpl in N. destruct (l_kind l) eqn:KL; try discriminate.
      rewrite null_or_panics in E by exact KL. discriminate. }
    destruct (m_or_eq c ds Hnil N) as [(op & _ & E')|(-> & E')]; rewrite E' in E.
    + apply bind_Ok in E as (r0 & E0 & E). destruct (K OR r0 E0) as [H1 H2]. destruct op.
      * split; [eapply KJ'; eauto|]. now rewrite (cores_join _ _ _ E).
      * injection E as <-. auto.
    + split; [eapply KJ, E|]. rewrite (cores_join _ _ _ E). unfold cores_l; simpl; now rewrite ?app_nil_r.
  - destruct (or_eq c ds Hnil) as [E'|(-> & E')]; rewrite E' in E.
    + apply bind_Ok in E as (r0 & E0 & E). destruct (K OR r0 E0) as [H1 H2].
      split; [eapply KJ'; eauto|]. now rewrite (cores_join _ _ _ E).
    + split; [eapply KJ, E|]. rewrite (cores_join _ _ _ E). unfold cores_l; simpl; now rewrite ?app_nil_r.
Qed.

Lemma cores_values c cs r vc vcs : no_nil c -> Forall no_nil cs -> no_nil r ->
  cores r = (cores c ++ cores_l cs)%list -> c_values c = Ok vc -> mapM c_values cs = Ok vcs ->
  c_values r = Ok (vc ++ List.concat vcs)%list.
Proof.
  intros Hc Hcs Hr E Ec Ecs. rewrite (c_values_cores r Hr), E, concatM_cons.
  rewrite <- (c_values_cores c Hc), Ec, (concatM_cores_l cs Hcs), Ecs. reflexivity.
Qed.

Lemma built_all_no_nil ds : (forall d, In d ds -> built d) -> Forall no_nil ds.
Proof. intros H. apply Forall_forall. intros d Hd. now apply built_no_nil, H. Qed.
Lemma built_all_tree ds : (forall d, In d ds -> built d) -> Forall (tree and_or true) ds.
Proof. intros H. apply Forall_forall. intros d Hd. now apply built_tree, H. Qed.

Lemma combined_values c ds r vc vds : built c -> (forall d, In d ds -> built d) -> combined c ds r ->
  c_values c = Ok vc -> mapM c_values ds = Ok vds ->
  c_values r = Ok (vc ++ List.concat vds)%list /\ map core (leaves r) = (map core (leaves c) ++ flat_map (fun d => map core (leaves d)) ds)%list.
Proof.
  intros Hc Hd H Ec Ed. pose proof (built_no_nil c Hc) as Nc. pose proof (built_all_no_nil ds Hd) as Nd.
  destruct (combined_cores c ds r Nc Nd H) as [Hr Hcores]. split; [|exact Hcores].
  now apply (cores_values c ds).
Qed.

(** * Meaning *)

Lemma good_sound rho c : (forall l, In l (leaves c) -> good_leaf l) -> sound rho c.
Proof. intros H l Hl. now apply good_leaf_sound, H. Qed.

Lemma built_meaning rho c : built c -> no_empty c -> (forall l, In l (leaves c) -> good_leaf l) -> forall n,
  exists s s' vs, c_render c n = Ok s /\ c_render_sql c = Ok s' /\ c_values c = Ok vs /\
    (forall pre post, length pre = n -> truth rho s (pre ++ vs ++ post)%list = Some (mean (leaf_tv rho) c)) /\
    truth_q rho s' vs = Some (mean (leaf_tv rho) c).
Proof.
  intros Hb He Hl n. assert (HS : Sem rho (leaf_tv rho) c).
  { apply tree_sem; [now apply built_wf|]. intros l Hin. now apply good_leaf_ok, Hl. }
  destruct (sem_expr _ _ _ HS n) as (s & vs & ts & e & Es & Ev & Ls & Ho & Hev).
  destruct (sem_means _ _ _ HS) as (s0 & s' & vs0 & _ & Es' & Ev0 & _ & Hq).
  rewrite Ev in Ev0. injection Ev0 as <-.
  exists s, s', vs. repeat split; auto. intros pre post Hp. unfold truth.
  rewrite (lexes_lex _ _ Ls), (parse_complete _ _ Ho). now apply Hev.
Qed.

(** * In *)

Lemma in_texts fn v c vs : in_ fn v = Ok c -> fv_values v = Ok vs ->
  forall n, exists s s' col, c_render c n = Ok s /\ c_render_sql c = Ok s' /\ c_values c = Ok vs /\
    s = col ++ " IN (" ++ String.concat "," (map (fun i => "$" ++ itoa i) (seq (n + 1) (length vs))) ++ ")" /\
    s' = col ++ " IN (" ++ String.concat "," (map (fun _ => "?") vs) ++ ")".
Proof.
  intros E Ev n. unfold in_, mk_cond in E. apply bind_Ok in E as (fv & Ef & [= <-]).
  unfold new_field_value in Ef. apply bind_Ok in Ef as (d & Ed & [= <-]).
  cbn [c_render leaf_render l_kind c_values c_render_sql leaf_render_sql leaf_values l_val fv_val fv_def].
  rewrite Ev. cbn [bind]. eexists _, _, (render_spec d). repeat split.
  - rewrite word_text. cbn [l_neg l_def]. rewrite <- (seq_shift_map n (length vs)), map_map. reflexivity.
Qed.

(** The parameters a list argument stands for: one per element. *)
Definition elements (v : gval) : option (list gval) :=
  match v with
  | VStrs l => Some (map VStr l)
  | VSlice l => Some l
  | VProviders l => if forallb (fun o => match o with Some _ => true | None => false end) l
                    then Some (flat_map (fun o => match o with Some x => [x] | None => [] end) l) else None
  | VValuers l | VValuerSlice l =>
      if forallb (fun o => match o with Some (ORet _ false) => true | _ => false end) l
      then Some (flat_map (fun o => match o with Some (ORet x _) => [x] | _ => [] end) l) else None
  | _ => None
  end.
Lemma elements_values v es : elements v = Some es -> (forall l, v <> VSlice l) -> fv_values v = Ok es.
Proof.
  intros E Hs. destruct v as [|?|?|?|?|?|?|?|l|l|l]; try discriminate; simpl in E |- *.
  - now destruct (Hs elems).
  - now injection E as <-.
  - clear Hs. revert es E. induction l as [|o l IH]; intros es E; simpl in *; [now injection E as <-|].
    destruct o as [[x [|]|]|]; simpl in E; try discriminate.
    destruct (forallb _ l); [|discriminate]. injection E as <-. simpl. now rewrite (IH _ eq_refl).
  - clear Hs. revert es E. induction l as [|o l IH]; intros es E; simpl in *; [now injection E as <-|].
    destruct o as [x|]; simpl in E; try discriminate.
    destruct (forallb _ l); [|discriminate]. injection E as <-. simpl. now rewrite (IH _ eq_refl).
  - clear Hs. revert es E. induction l as [|o l IH]; intros es E; simpl in *; [now injection E as <-|].
    destruct o as [[x [|]|]|]; simpl in E; try discriminate.
    destruct (forallb _ l); [|discriminate]. injection E as <-. simpl. now rewrite (IH _ eq_refl).
Qed.
Lemma in_partial fn v es c n : elements v = Some es -> (forall l, v <> VSlice l) -> in_ fn v = Ok c ->
  exists s s' col, c_render c n = Ok s /\ c_render_sql c = Ok s' /\ c_values c = Ok es /\
    s = col ++ " IN (" ++ String.concat "," (map (fun i => "$" ++ itoa i) (seq (n + 1) (length es))) ++ ")" /\
    s' = col ++ " IN (" ++ String.concat "," (map (fun _ => "?") es) ++ ")".
Proof. intros E Hs Ec. apply (in_texts fn v); auto. now apply elements_values. Qed.

(** * Aliases *)

Lemma parse_as c ts : parse (TId c :: TKw "AS" :: ts) = None.
Proof. reflexivity. Qed.
Lemma parse_not_as c ts : parse (TKw "NOT" :: TId c :: TKw "AS" :: ts) = None.
Proof. reflexivity. Qed.

Definition aliased (d : fdef) : Prop :=
  name (f_name d) = true /\ (f_table d = "" \/ name (f_table d) = true) /\
  f_alias d <> "" /\ (f_alias d <> f_name d \/ f_table d <> "").

Lemma aliased_spec d : aliased d -> render_spec d = column d ++ " AS " ++ f_alias d /\ qname (column d).
Proof.
  intros (Hn & Ht & Ha & Hx). unfold render_spec, column, GoStr.join. split.
  - replace (is_empty (f_alias d)) with false by (destruct (f_alias d); [congruence|reflexivity]).
    unfold str_eqb. destruct (String.eqb_spec (f_alias d) (f_name d)) as [E|E].
    + replace (is_empty (f_table d)) with false; [|destruct Hx as [Hx|Hx]; [congruence|destruct (f_table d); [congruence|reflexivity]]].
      cbn [negb andb app String.concat]. cbn [append]. rewrite !app_assoc_s. reflexivity.
    + cbn [negb andb]. destruct (is_empty (f_table d)); cbn [app String.concat append]; rewrite ?app_assoc_s; reflexivity.
  - destruct Ht as [->|Ht]; [now constructor|]. destruct (is_empty (f_table d)); now constructor.
Qed.

Lemma lex_aliased d x : aliased d -> exists ts, lex (render_spec d ++ x) = TId (column d) :: TKw "AS" :: ts.
Proof.
  intros H. destruct (aliased_spec d H) as [-> Hq]. rewrite app_assoc_s, lex_qname; [|exact Hq|reflexivity].
  exists (lex (f_alias d ++ x)). reflexivity.
Qed.

Lemma aliased_invalid rho l n s ps : (forall cu, l_kind l <> KCustom cu) -> aliased (l_def l) ->
  leaf_render l n = Ok s -> truth rho s ps = None.
Proof.
  intros Hk Ha E. assert (H : (exists x, s = render_spec (l_def l) ++ x) \/ (exists x, s = "NOT " ++ render_spec (l_def l) ++ x)).
  { unfold leaf_render in E. destruct (l_kind l); try (now destruct (Hk cu));
      try (injection E as <-; rewrite ?cmp_text, ?word_text, ?null_text; destruct (l_neg l);
           [right; eexists; reflexivity | left; eexists; reflexivity]);
      try (injection E as <-; rewrite ?cmp_text, ?word_text, ?null_text; left; eexists; reflexivity).
    apply bind_Ok in E as (vs & _ & [= <-]). rewrite word_text. left; eexists; reflexivity. }
  unfold truth. destruct H as [(x & ->)|(x & ->)].
  - destruct (lex_aliased (l_def l) x Ha) as (ts & ->). reflexivity.
  - assert (El : forall y, lex ("NOT " ++ y) = TKw "NOT" :: lex y) by reflexivity.
    rewrite El. destruct (lex_aliased (l_def l) x Ha) as (ts & ->). reflexivity.
Qed.

(** * ApplyFieldTable, ApplyFieldSpec *)

Definition upd_leaf (f : fdef -> fdef) (l : leaf) : leaf :=
  mkLeaf (l_kind l) (l_join l) (l_neg l) (f (l_def l)) (l_val l).
(** the same tree with every leaf's field changed by [f] *)
Fixpoint upd_tree (f : fdef -> fdef) (c : cond) : cond :=
  match c with
  | CNil => CNil
  | CLeaf l => CLeaf (upd_leaf f l)
  | CGrp j n cs br => CGrp j n (map (upd_tree f) cs) br
  end.

Lemma mapM_map {A B} (f : A -> res B) (h : A -> B) l : Forall (fun x => f x = Ok (h x)) l -> mapM f l = Ok (map h l).
Proof. induction 1 as [|x l H _ IH]; simpl; [reflexivity|]. now rewrite H, IH. Qed.

Lemma apply_spec_upd spec c : no_nil c -> c_apply_spec spec c = Ok (upd_tree (fun d => apply_spec d spec) c).
Proof.
  induction c as [|l|j n cs br IH] using cond_ind'; intros H; [inversion H|reflexivity|].
  inversion H as [|? ? ? ? Hcs]; subst. rewrite c_apply_spec_grp. rewrite (mapM_map _ (upd_tree (fun d => apply_spec d spec))).
  - reflexivity.
  - rewrite Forall_forall in *. auto.
Qed.
Lemma apply_table_upd tn c : no_nil c -> c_apply_table tn c = Ok (upd_tree (fun d => set_table d tn) c).
Proof.
  induction c as [|l|j n cs br IH] using cond_ind'; intros H; [inversion H|reflexivity|].
  inversion H as [|? ? ? ? Hcs]; subst. rewrite c_apply_table_grp. rewrite (mapM_map _ (upd_tree (fun d => set_table d tn))).
  - reflexivity.
  - rewrite Forall_forall in *. auto.
Qed.
Lemma upd_leaves f c : leaves (upd_tree f c) = map (upd_leaf f) (leaves c).
Proof.
  induction c as [|l|j n cs br IH] using cond_ind'; [reflexivity|reflexivity|].
  simpl. induction IH as [|c cs Hc _ IHcs]; simpl; [reflexivity|]. now rewrite map_app, Hc, IHcs.
Qed.
Lemma upd_values f c : (forall l cu, In l (leaves c) -> l_kind l <> KCustom cu) -> c_values (upd_tree f c) = c_values c.
Proof.
  induction c as [|l|j n cs br IH] using cond_ind'; intros Hk; [reflexivity| |].
  - simpl. unfold leaf_values; simpl. specialize (Hk l). simpl in Hk.
    destruct (l_kind l) eqn:E; try reflexivity. now destruct (Hk cu (or_introl eq_refl)).
  - cbn [upd_tree]. rewrite !c_values_grp. f_equal.
    assert (K : mapM c_values (map (upd_tree f) cs) = mapM c_values cs); [|now rewrite K].
    assert (Hk' : forall c, In c cs -> forall l cu, In l (leaves c) -> l_kind l <> KCustom cu).
    { intros c Hc l cu Hl. apply Hk. simpl. apply in_flat_map. eauto. }
    clear Hk. induction IH as [|c cs Hc _ IHcs]; simpl; [reflexivity|].
    rewrite Hc by (intros; apply (Hk' c); simpl; auto). rewrite IHcs; [reflexivity|].
    intros c0 H0. apply Hk'. simpl; auto.
Qed.
