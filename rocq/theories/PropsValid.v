(** Exactly which conditions are valid SQL. *)
From Coq Require Import String Ascii List Bool Arith NArith ZArith Lia.
From Verif Require Import GoStr Value Names Cond Build Surface SqlSpec Spec StrFacts SqlFacts CondFacts CondText CondSem
  TreeFacts CondLogic CondMeaning Built CondThms PropsCond NameFacts StmtFacts Calls BuildFacts BuildThms StmtText PropsSelect PropsWrite PropsSurface.
Import ListNotations.
Local Open Scope string_scope.
Local Open Scope nat_scope.

(** * C91: valid exactly without empty groups, empty lists and aliases *)

(** A predicate of the library on a column whose name (and table, if any) is an identifier; its value can be converted.  Any
    number of values, any alias. *)
Definition named (l : leaf) : Prop :=
  (forall cu, l_kind l <> KCustom cu) /\ name (f_name (l_def l)) = true /\ (f_table (l_def l) = "" \/ name (f_table (l_def l)) = true) /\
  exists vs, leaf_args l = Some vs.
(** no alias is written behind the column, and a list has an element *)
Definition unaliased (d : fdef) : Prop := f_alias d = "" \/ (f_alias d = f_name d /\ f_table d = "").
Definition fits (l : leaf) : Prop := unaliased (l_def l) /\ (l_kind l = KIn -> leaf_args l <> Some []).

(** ** The parser on one operand *)

(** read as an operand: the parser goes on to expect a connective; otherwise it stops, or still expects an operand *)
Definition Outcome (ok : Prop) (ts : list tok) : Prop := forall f st,
  (ok /\ exists f', run (MOperand, f, st) ts = Some (MOperator, f', st) /\ fr_and f' <> None) \/
  (~ ok /\ (run (MOperand, f, st) ts = None \/ exists f', run (MOperand, f, st) ts = Some (MOperand, f', st))).
Lemma outcome_noteq ts e : NotE ts e -> Outcome True ts.
Proof.
  intros H f st. left. split; [exact I|]. destruct grammar_run as (_ & G & _). specialize (G _ _ H f st []). rewrite app_nil_r in G.
  rewrite G. cbn [run]. unfold operand. eexists. split; [reflexivity|]. discriminate.
Qed.
Lemma outcome_iff P Q ts : (P <-> Q) -> Outcome P ts -> Outcome Q ts.
Proof. intros H O f st. destruct (O f st) as [(A & B)|(A & B)]; [left|right]; (split; [tauto|exact B]). Qed.
Lemma outcome_none ts : (forall f st, run (MOperand, f, st) ts = None) -> Outcome False ts.
Proof. intros H f st. right. split; [tauto|]. left. apply H. Qed.

(** the tail of a group: connective and operand, repeated *)
Definition After (ok : Prop) (ts : list tok) : Prop := forall f st, fr_and f <> None ->
  (ok /\ exists f', run (MOperator, f, st) ts = Some (MOperator, f', st) /\ fr_and f' <> None) \/
  (~ ok /\ (run (MOperator, f, st) ts = None \/ exists f', run (MOperator, f, st) ts = Some (MOperand, f', st))).
Lemma step_word j f st : and_or j -> fr_and f <> None -> exists f', step (MOperator, f, st) (TKw j) = Some (MOperand, f', st).
Proof. intros Hj Hf. destruct f as [o [a|] k]; [|now destruct Hf]. destruct Hj as [-> | ->]; cbn; eauto. Qed.
Lemma stuck_word j f st ts : and_or j -> run (MOperand, f, st) (TKw j :: ts) = None.
Proof. intros [-> | ->]; reflexivity. Qed.
Lemma after_nil : After True [].
Proof. intros f st H. left. split; [exact I|]. cbn. eauto. Qed.
(** the text of the tail is empty or begins with a connective *)
Definition led (ts : list tok) : Prop := ts = [] \/ exists j r, ts = TKw j :: r /\ and_or j.
Lemma outcome_after P Q a b : Outcome P a -> After Q b -> led b -> Outcome (P /\ Q) (a ++ b).
Proof.
  intros HA HB HL f st. rewrite run_app. destruct (HA f st) as [(p & f1 & -> & N)|(p & [-> |(f1 & ->)])].
  - destruct (HB f1 st N) as [(q & K)|(q & K)]; [left; auto|right; split; [tauto|exact K]].
  - right. split; [tauto|]. now left.
  - right. split; [tauto|]. destruct HL as [-> |(j & r & -> & Hj)]; [right; cbn; eauto|left; now apply stuck_word].
Qed.
Lemma after_cons P Q j a b : and_or j -> Outcome P a -> After Q b -> led b -> After (P /\ Q) (TKw j :: a ++ b).
Proof.
  intros Hj HA HB HL f st Hf. cbn [run]. destruct (step_word j f st Hj Hf) as (f1 & ->).
  exact (outcome_after P Q a b HA HB HL f1 st).
Qed.
Lemma outcome_paren P ts : Outcome P ts -> Outcome P ([TLP] ++ ts ++ [TRP]).
Proof.
  intros H f st. cbn [app run step]. rewrite run_app. destruct (H new_frame (f :: st)) as [(p & f1 & -> & N)|(p & [-> |(f1 & ->)])].
  - left. split; [exact p|]. destruct f1 as [o [a|] k]; [|now destruct N]. cbn. unfold operand. eexists. split; [reflexivity|discriminate].
  - right. split; [exact p|]. now left.
  - right. split; [exact p|]. left. reflexivity.
Qed.
Lemma outcome_not P ts : Outcome P ts -> Outcome P (TKw "NOT" :: ts).
Proof. intros H f st. cbn [run step is_kw]. cbn. apply H. Qed.

(** ** Predicates *)

(** the same predicate with a value of the right kind; the text is the same *)
Definition typical (l : leaf) : leaf :=
  match l_kind l with
  | KIn => l
  | KLike | KILike => mkLeaf (l_kind l) (l_join l) (l_neg l) (l_def l) (VStr "")
  | _ => mkLeaf (l_kind l) (l_join l) (l_neg l) (l_def l) (VOther 0)
  end.
Lemma typical_text l n : leaf_render (typical l) n = leaf_render l n \/ exists cu, l_kind l = KCustom cu.
Proof. destruct l as [[] j ng d v]; cbn; eauto. Qed.
Lemma leaf_text_ok l n : (forall cu, l_kind l <> KCustom cu) -> (exists vs, leaf_values l = Ok vs) -> exists s, leaf_render l n = Ok s.
Proof.
  intros Hk (vs & E). unfold leaf_render. destruct (l_kind l); eauto; try (now destruct (Hk cu)); try (rewrite E; cbn; eauto).
Qed.
Lemma aliased_text l n s : (forall cu, l_kind l <> KCustom cu) -> leaf_render l n = Ok s ->
  (exists x, s = render_spec (l_def l) ++ x) \/ (exists x, s = "NOT " ++ render_spec (l_def l) ++ x).
Proof.
  intros Hk E. unfold leaf_render in E. destruct (l_kind l); try (now destruct (Hk cu));
    try (injection E as <-; rewrite ?cmp_text, ?word_text, ?null_text; destruct (l_neg l);
         [right; eexists; reflexivity | left; eexists; reflexivity]);
    try (injection E as <-; rewrite ?cmp_text, ?word_text, ?null_text; left; eexists; reflexivity).
  apply bind_Ok in E as (vs & _ & [= <-]). rewrite word_text. left; eexists; reflexivity.
Qed.
Lemma leaf_outcome l n : named l -> exists s, leaf_render l n = Ok s /\ Outcome (fits l) (lex s).
Proof.
  intros (Hk & Hn & Ht & vs & Ea). pose proof (leaf_args_ok l vs Ea) as Ev.
  destruct (typical_text l n) as [Et|(cu & E)]; [|now destruct (Hk cu)].
  assert (A : unaliased (l_def l) \/ aliased (l_def l)).
  { unfold unaliased, aliased. destruct (string_dec (f_alias (l_def l)) ""); [tauto|].
    destruct (string_dec (f_alias (l_def l)) (f_name (l_def l))), (string_dec (f_table (l_def l)) ""); tauto. }
  destruct A as [A|A].
  - assert (D : good_def (l_def l)) by exact (conj Hn (conj Ht A)).
    assert (In_empty : (l_kind l = KIn /\ vs = []) \/ (l_kind l = KIn -> vs <> [])).
    { destruct vs; [|right; discriminate]. destruct (l_kind l); try (right; discriminate); left; auto. }
    destruct In_empty as [[K ->]|K].
    + unfold leaf_render. rewrite K, Ev. cbn [bind length seq map]. eexists. split; [reflexivity|]. rewrite word_text.
      destruct (good_def_spec _ D) as [-> Q]. rewrite lex_qname; [|exact Q|now destruct (l_neg l)].
      eapply outcome_iff; [|apply outcome_none; intros f st; destruct (l_neg l); reflexivity].
      split; [tauto|]. intros [_ N]. exact (N K Ea).
    + assert (G : good_leaf (typical l)).
      { destruct l as [k j ng d v]. cbn [l_kind l_def typical] in *. split; [destruct k; exact D|].
        destruct k; cbn; eauto; try (now destruct (Hk cu)).
        destruct vs as [|x vs]; [now destruct (K eq_refl)|]. exists x, vs. exact Ea. }
      destruct (good_leaf_text _ G) as (op & ws & _ & _ & X). destruct (X n) as (s & s' & ts & ts' & E1 & _ & E3 & _ & _ & E6).
      exists s. split; [now rewrite <- Et|]. rewrite (lexes_lex _ _ E3). eapply outcome_iff; [|exact (outcome_noteq _ _ E6)].
      split; [|tauto]. intros _. split; [exact A|]. intros KI. rewrite Ea. specialize (K KI). congruence.
  - destruct (leaf_text_ok l n Hk (ex_intro _ vs Ev)) as (s & E). exists s. split; [exact E|].
    assert (A' : aliased (l_def l)) by exact A.
    eapply outcome_iff; [|apply outcome_none].
    + split; [tauto|]. intros [U _]. destruct A as (_ & _ & A1 & A2). destruct U as [U|[U1 U2]]; tauto.
    + intros f st. destruct (aliased_text l n s Hk E) as [(x & ->)|(x & ->)].
      * destruct (lex_aliased (l_def l) x A') as (ts & ->). reflexivity.
      * change (lex ("NOT " ++ render_spec (l_def l) ++ x)) with (TKw "NOT" :: lex (render_spec (l_def l) ++ x)).
        destruct (lex_aliased (l_def l) x A') as (ts & ->). reflexivity.
Qed.

(** ** Trees *)

Definition Valid (c : cond) : Prop := no_empty c /\ forall l, In l (leaves c) -> fits l.
Definition Valids (cs : list cond) : Prop := Forall no_empty cs /\ forall l, In l (flat_map leaves cs) -> fits l.
Lemma valids_cons c cs : Valid c /\ Valids cs <-> Valids (c :: cs).
Proof.
  unfold Valid, Valids. cbn [flat_map]. split.
  - intros [[A B] [C D]]. split; [now constructor|]. intros l H. apply in_app_or in H as [H|H]; auto.
  - intros [A B]. inversion A; subst. split; (split; [assumption|]); intros l H; apply B, in_or_app; auto.
Qed.
Definition Read (c : cond) : Prop := forall n, exists s vs, c_render c n = Ok s /\ c_values c = Ok vs /\ Outcome (Valid c) (lex s).
Lemma tree_jtype c : tr c -> exists j, jtype c = Ok j /\ and_or j.
Proof. destruct 1; cbn; eauto. Qed.
Lemma word_lex j s : and_or j -> lex ((" " ++ j ++ " ") ++ s) = TKw j :: lex s.
Proof. intros [-> | ->]; reflexivity. Qed.
Lemma tail_read cs : Forall tr cs -> Forall Read cs -> forall n, exists s, render_list false cs n = Ok s /\ After (Valids cs) (lex s) /\ led (lex s) /\
  (forall t, lex (t ++ s) = (lex t ++ lex s)%list) /\ exists vss, mapM c_values cs = Ok vss.
Proof.
  induction cs as [|c cs IH]; intros Ht Hr n.
  - exists "". split; [reflexivity|]. split.
    { intros f st H. left. split; [split; [constructor|intros l []]|]. cbn. eauto. }
    split; [now left|]. split; [intros t; rewrite app_nil_r_s; now rewrite app_nil_r|]. now exists [].
  - inversion Ht as [|? ? T1 T2]; subst. inversion Hr as [|? ? R1 R2]; subst.
    destruct (tree_jtype c T1) as (j & Ej & Hj). destruct (R1 n) as (s & vs & Es & Ev & O).
    destruct (IH T2 R2 (n + length vs)) as (r & Er & A & L & X & vss & Em).
    exists (" " ++ j ++ " " ++ s ++ r). cbn [render_list]. rewrite Ej, Es, Ev. cbn [bind]. rewrite Er. cbn [bind].
    rewrite join_token_text by (destruct Hj; subst; discriminate).
    assert (EL : lex (" " ++ j ++ " " ++ s ++ r) = TKw j :: lex s ++ lex r).
    { rewrite <- X. rewrite <- (word_lex j (s ++ r) Hj). now rewrite !app_assoc_s. }
    split; [now rewrite !app_assoc_s|]. rewrite EL. split; [|split; [|split]].
    + intros f st Hf. destruct (after_cons _ _ j _ _ Hj O A L f st Hf) as [(p & K)|(p & K)]; [left|right]; (split; [|exact K]);
        rewrite <- valids_cons; exact p.
    + right. eauto.
    + intros t. exact (eq_trans (lex_sp t (j ++ " " ++ s ++ r)) (f_equal (app (lex t)) EL)).
    + cbn [mapM]. rewrite Ev. cbn [bind]. rewrite Em. cbn. eauto.
Qed.
Lemma read_tree c : tr c -> (forall l, In l (leaves c) -> named l) -> Read c.
Proof.
  induction c as [|l|j ng cs br IH] using cond_ind'; intros Ht Hl n.
  - inversion Ht.
  - destruct (leaf_outcome l n (Hl l (or_introl eq_refl))) as (s & E & O). destruct (Hl l (or_introl eq_refl)) as (_ & _ & _ & vs & Ev). apply leaf_args_ok in Ev.
    exists s, vs. refine (conj E (conj Ev _)). eapply outcome_iff; [|exact O]. unfold Valid. cbn [no_empty leaves].
    split; [intros H; split; [exact I|]; intros l' [<-|[]]; exact H|]. intros [_ H]. apply H. now left.
  - inversion Ht as [|? ? ? ? Hj _ Hts]; subst.
    assert (R : Forall Read cs).
    { rewrite Forall_forall in *. intros c Hc. apply IH; auto. intros l H. apply Hl. cbn [leaves]. apply in_flat_map. eauto. }
    destruct cs as [|c cs].
    + exists "", []. refine (conj eq_refl (conj eq_refl _)). intros f st. right. split; [intros [H _]; apply no_empty_grp in H as [H _]; congruence|].
      right. cbn. eauto.
    + inversion Hts as [|? ? T1 T2]; subst. inversion R as [|? ? R1 R2]; subst.
      destruct (tree_jtype c T1) as (j1 & Ej & _). destruct (R1 n) as (s & vs & Es & Ev & O).
      destruct (tail_read cs T2 R2 (n + length vs)) as (r & Er & A & L & X & vss & Em).
      exists (wrap ng br (1 <? length (c :: cs)) (s ++ r)), (List.concat (vs :: vss)).
      rewrite c_render_grp, c_values_grp. cbn [render_list mapM]. rewrite Ej, Es, Ev. cbn [bind]. rewrite Er, Em. cbn [bind].
      split; [reflexivity|]. split; [reflexivity|].
      assert (O1 : Outcome (Valid (CGrp j ng (c :: cs) br)) (lex (s ++ r))).
      { rewrite X. eapply outcome_iff; [|exact (outcome_after _ _ _ _ O A L)]. rewrite valids_cons. unfold Valid, Valids. rewrite no_empty_grp. cbn [leaves].
        split; [intros [H1 H2]; split; [split; [discriminate|exact H1]|exact H2]|intros [[_ H1] H2]; auto]. }
      rewrite wrap_text.
      assert (O2 : Outcome (Valid (CGrp j ng (c :: cs) br)) (lex (if br || ng && (1 <? length (c :: cs)) then "(" ++ (s ++ r) ++ ")" else s ++ r))).
      { destruct (br || _); [|exact O1]. change (lex ("(" ++ (s ++ r) ++ ")")) with (TLP :: lex ((s ++ r) ++ ")")). rewrite lex_close.
        exact (outcome_paren _ _ O1). }
      destruct ng; [|exact O2]. exact (outcome_not _ _ O2).
Qed.
Lemma outcome_parse P ts : Outcome P ts -> (exists e, parse ts = Some e) <-> P.
Proof.
  intros H. unfold parse. destruct (H new_frame []) as [(p & f & -> & N)|(p & K)].
  - destruct (fr_and f); [|congruence]. split; eauto.
  - split; [|tauto]. destruct K as [-> |(f & ->)]; intros (e & E); discriminate E.
Qed.

(** ** The same for the text with question marks *)

Fixpoint asked (ts : list tok) : nat := match ts with [] => 0 | TQ :: r => S (asked r) | _ :: r => asked r end.
Lemma number_app a b : forall k, number_from k (a ++ b) = (number_from k a ++ number_from (k + asked a) b)%list.
Proof.
  induction a as [|t a IH]; intros k; [now rewrite Nat.add_0_r|].
  destruct t; cbn [app number_from asked]; rewrite IH; try reflexivity.
  replace (k + 1 + asked a) with (k + S (asked a)) by lia. reflexivity.
Qed.
Definition OutcomeQ (P : Prop) (ts : list tok) : Prop := forall k, Outcome P (number_from (S k) ts).
Definition AfterQ (P : Prop) (ts : list tok) : Prop := forall k, After P (number_from (S k) ts).
Lemma led_number k ts : led ts -> led (number_from k ts).
Proof. intros [-> |(j & r & -> & H)]; [now left|]. right. cbn [number_from]. eauto. Qed.
Lemma leaf_outcome_q l : named l -> exists s, leaf_render_sql l = Ok s /\ OutcomeQ (fits l) (lex s).
Proof.
  intros (Hk & Hn & Ht & vs & Ea). pose proof (leaf_args_ok l vs Ea) as Ev.
  assert (Et : leaf_render_sql (typical l) = leaf_render_sql l) by (destruct l as [[] j ng d v]; cbn; try reflexivity; now destruct (Hk cu)).
  assert (A : unaliased (l_def l) \/ aliased (l_def l)).
  { unfold unaliased, aliased. destruct (string_dec (f_alias (l_def l)) ""); [tauto|].
    destruct (string_dec (f_alias (l_def l)) (f_name (l_def l))), (string_dec (f_table (l_def l)) ""); tauto. }
  destruct A as [A|A].
  - assert (D : good_def (l_def l)) by exact (conj Hn (conj Ht A)).
    assert (In_empty : (l_kind l = KIn /\ vs = []) \/ (l_kind l = KIn -> vs <> [])).
    { destruct vs; [|right; discriminate]. destruct (l_kind l); try (right; discriminate); left; auto. }
    destruct In_empty as [[K ->]|K].
    + unfold leaf_render_sql. rewrite K, Ev. cbn [bind map]. eexists. split; [reflexivity|]. rewrite word_text.
      destruct (good_def_spec _ D) as [-> Q]. rewrite lex_qname; [|exact Q|now destruct (l_neg l)]. intros k.
      eapply outcome_iff; [|apply outcome_none; intros f st; destruct (l_neg l); reflexivity].
      split; [tauto|]. intros [_ N]. exact (N K Ea).
    + assert (G : good_leaf (typical l)).
      { destruct l as [k j ng d v]. cbn [l_kind l_def typical] in *. split; [destruct k; exact D|].
        destruct k; cbn; eauto; try (now destruct (Hk cu)).
        destruct vs as [|x vs]; [now destruct (K eq_refl)|]. exists x, vs. exact Ea. }
      destruct (good_leaf_text _ G) as (op & ws & _ & _ & X). destruct (X 0) as (s0 & s & t0 & t & _ & E & _ & Lx & _).
      exists s. split; [now rewrite <- Et|]. intros k. destruct (X k) as (s1 & s2 & ts & ts' & _ & E2 & _ & Lx2 & N & O).
      assert (s2 = s) by congruence. subst s2. rewrite (lexes_lex _ _ Lx2). specialize (N []). rewrite !app_nil_r, Nat.add_1_r in N. rewrite N.
      eapply outcome_iff; [|exact (outcome_noteq _ _ O)].
      split; [|tauto]. intros _. split; [exact A|]. intros KI. rewrite Ea. specialize (K KI). congruence.
  - assert (X : exists s, leaf_render_sql l = Ok s /\
      ((exists x, s = render_spec (l_def l) ++ x) \/ (exists x, s = "NOT " ++ render_spec (l_def l) ++ x))).
    { unfold leaf_render_sql. destruct (l_kind l); try (now destruct (Hk cu)); try rewrite Ev; cbn [bind];
        (eexists; split; [reflexivity|]); rewrite ?cmp_text, ?word_text, ?null_text; try (left; eexists; reflexivity);
        (destruct (l_neg l); [right; eexists; reflexivity | left; eexists; reflexivity]). }
    destruct X as (s & E & X). exists s. split; [exact E|]. intros k. eapply outcome_iff; [|apply outcome_none].
    + split; [tauto|]. intros [U _]. destruct A as (_ & _ & A1 & A2). destruct U as [U|[U1 U2]]; tauto.
    + intros f st. destruct X as [(x & ->)|(x & ->)].
      * destruct (lex_aliased (l_def l) x A) as (ts & ->). reflexivity.
      * change (lex ("NOT " ++ render_spec (l_def l) ++ x)) with (TKw "NOT" :: lex (render_spec (l_def l) ++ x)).
        destruct (lex_aliased (l_def l) x A) as (ts & ->). reflexivity.
Qed.
Definition ReadQ (c : cond) : Prop := exists s, c_render_sql c = Ok s /\ OutcomeQ (Valid c) (lex s).
Lemma tail_read_q cs : Forall tr cs -> Forall ReadQ cs -> exists s, render_sql_list false cs = Ok s /\ AfterQ (Valids cs) (lex s) /\ led (lex s) /\
  forall t, lex (t ++ s) = (lex t ++ lex s)%list.
Proof.
  induction cs as [|c cs IH]; intros Ht Hr.
  - exists "". split; [reflexivity|]. split.
    { intros k f st H. left. split; [split; [constructor|intros l []]|]. cbn. eauto. }
    split; [now left|]. intros t; rewrite app_nil_r_s; now rewrite app_nil_r.
  - inversion Ht as [|? ? T1 T2]; subst. inversion Hr as [|? ? R1 R2]; subst.
    destruct (tree_jtype c T1) as (j & Ej & Hj). destruct R1 as (s & Es & O). destruct (IH T2 R2) as (r & Er & A & L & X).
    exists (" " ++ j ++ " " ++ s ++ r). cbn [render_sql_list]. rewrite Ej, Es. cbn [bind]. rewrite Er. cbn [bind].
    rewrite join_token_text by (destruct Hj; subst; discriminate).
    assert (EL : lex (" " ++ j ++ " " ++ s ++ r) = TKw j :: lex s ++ lex r).
    { rewrite <- X. rewrite <- (word_lex j (s ++ r) Hj). now rewrite !app_assoc_s. }
    split; [now rewrite !app_assoc_s|]. rewrite EL. split; [|split].
    + intros k f st Hf. cbn [number_from]. rewrite number_app.
      destruct (after_cons _ _ j _ _ Hj (O k) (A (k + asked (lex s))) (led_number _ _ L) f st Hf) as [(p & K)|(p & K)]; [left|right]; (split; [|exact K]);
        rewrite <- valids_cons; exact p.
    + right. eauto.
    + intros t. exact (eq_trans (lex_sp t (j ++ " " ++ s ++ r)) (f_equal (app (lex t)) EL)).
Qed.
Lemma read_tree_q c : tr c -> (forall l, In l (leaves c) -> named l) -> ReadQ c.
Proof.
  induction c as [|l|j ng cs br IH] using cond_ind'; intros Ht Hl.
  - inversion Ht.
  - destruct (leaf_outcome_q l (Hl l (or_introl eq_refl))) as (s & E & O).
    exists s. split; [exact E|]. intros k. eapply outcome_iff; [|exact (O k)]. unfold Valid. cbn [no_empty leaves].
    split; [intros H; split; [exact I|]; intros l' [<-|[]]; exact H|]. intros [_ H]. apply H. now left.
  - inversion Ht as [|? ? ? ? Hj _ Hts]; subst.
    assert (R : Forall ReadQ cs).
    { rewrite Forall_forall in *. intros c Hc. apply IH; auto. intros l H. apply Hl. cbn [leaves]. apply in_flat_map. eauto. }
    destruct cs as [|c cs].
    + exists "". split; [reflexivity|]. intros k f st. right. split; [intros [H _]; apply no_empty_grp in H as [H _]; congruence|].
      right. cbn. eauto.
    + inversion Hts as [|? ? T1 T2]; subst. inversion R as [|? ? R1 R2]; subst.
      destruct (tree_jtype c T1) as (j1 & Ej & _). destruct R1 as (s & Es & O). destruct (tail_read_q cs T2 R2) as (r & Er & A & L & X).
      exists (wrap ng br (1 <? length (c :: cs)) (s ++ r)).
      rewrite c_render_sql_grp. cbn [render_sql_list]. rewrite Ej, Es. cbn [bind]. rewrite Er. cbn [bind]. split; [reflexivity|].
      assert (O1 : OutcomeQ (Valid (CGrp j ng (c :: cs) br)) (lex (s ++ r))).
      { intros k. rewrite X, number_app. eapply outcome_iff; [|exact (outcome_after _ _ _ _ (O k) (A (k + asked (lex s))) (led_number _ _ L))].
        rewrite valids_cons. unfold Valid, Valids. rewrite no_empty_grp. cbn [leaves].
        split; [intros [H1 H2]; split; [split; [discriminate|exact H1]|exact H2]|intros [[_ H1] H2]; auto]. }
      rewrite wrap_text.
      assert (O2 : OutcomeQ (Valid (CGrp j ng (c :: cs) br)) (lex (if br || ng && (1 <? length (c :: cs)) then "(" ++ (s ++ r) ++ ")" else s ++ r))).
      { destruct (br || _); [|exact O1]. change (lex ("(" ++ (s ++ r) ++ ")")) with (TLP :: lex ((s ++ r) ++ ")")). rewrite lex_close.
        intros k. cbn [number_from]. rewrite number_app. exact (outcome_paren _ _ (O1 k)). }
      intros k. destruct ng; [|exact (O2 k)]. exact (outcome_not _ _ (O2 k)).
Qed.

(** ** The theorems *)

(** Both texts of a condition are boolean SQL expressions if and only if no group in it is empty, no alias is written behind a
    column and every list has an element.  For every condition the API can build from predicates of the library on named columns
    (nested and negated in any way), every argument of Render. *)
Theorem C91_valid_exactly : forall c n, built c -> (forall l, In l (leaves c) -> named l) ->
  exists s s', c_render c n = Ok s /\ c_render_sql c = Ok s' /\
    ((exists e, parse (lex s) = Some e) <-> no_empty c /\ forall l, In l (leaves c) -> fits l) /\
    ((exists e, parse (number_from 1 (lex s')) = Some e) <-> no_empty c /\ forall l, In l (leaves c) -> fits l).
Proof.
  intros c n Hb Hl. destruct (read_tree c (built_tree c Hb) Hl n) as (s & vs & E & _ & O).
  destruct (read_tree_q c (built_tree c Hb) Hl) as (s' & E' & O'). exists s, s'. refine (conj E (conj E' (conj _ _))).
  - exact (outcome_parse _ _ O).
  - exact (outcome_parse _ _ (O' 0)).
Qed.
Print Assumptions C91_valid_exactly.

Lemma where_tree css : forall g r, tr (of_g g) -> Forall built (List.concat css) -> calls group_and g css = Ok r -> tr (of_g r).
Proof.
  induction css as [|cs css IH]; intros g r Hg Hb E; simpl in *; [now injection E as <-|].
  destruct (group_and g cs) as [g1|] eqn:E1; [|discriminate]. apply Forall_app in Hb as [H1 H2]. refine (IH g1 r _ H2 E).
  eapply add_tree; [| |exact (Forall_impl _ built_tree H1)|exact E1]; [now left|]. inversion Hg; subst. split; assumption.
Qed.
Lemma empty_tree : tr (of_g empty_group).
Proof. constructor; [now left|now left|constructor]. Qed.

(** DELETE and UPDATE: the text behind WHERE is a boolean expression exactly under the same conditions on the condition they
    hold.  With them a built statement is not always valid SQL ([C13_refuted], [C13_in_refuted]). *)
Theorem C91_delete : forall p h d o, calls d_add_where (delete_ p) h = Ok d -> Forall built (List.concat h) ->
  (forall l, In l (leaves (of_g (d_where d))) -> named l) -> d_build d = Ok o -> o_err o = None ->
  exists w, o_sql o = "DELETE FROM " ++ raw_table_name p ++ " WHERE " ++ w /\
    ((exists e, parse (lex w) = Some e) <-> no_empty (of_g (d_where d)) /\ forall l, In l (leaves (of_g (d_where d))) -> fits l).
Proof.
  intros p h u o Eu Hb Hl E Ho. destruct (d_calls_is h (delete_ p) u [] eq_refl Eu) as (_ & I2 & I4). cbn in I2, I4.
  unfold d_build in E. destruct (nonempty (g_cs (d_where u))); [|injection E as <-; discriminate]. cbn [negb] in E.
  destruct (is_empty (d_table u)); [injection E as <-; discriminate|].
  destruct (read_tree _ (where_tree _ _ _ empty_tree Hb I4) Hl 0) as (w & vs & E1 & E2 & O).
  rewrite E1, E2 in E. cbn [bind] in E.
  assert (Es : o_sql o = join " " ["DELETE"; "FROM"; d_table u; "WHERE"; w]) by (unfold ok in E; injection E as <-; reflexivity).
  exists w. split; [|exact (outcome_parse _ _ O)]. rewrite Es, I2. reflexivity.
Qed.
Print Assumptions C91_delete.
Theorem C91_update : forall p h u o, calls u_call (update_ p) h = Ok u -> Forall built (List.concat (flat_map uc_where h)) ->
  (forall l, In l (leaves (of_g (u_where u))) -> named l) -> u_build u = Ok o -> o_err o = None ->
  exists sets w, o_sql o = "UPDATE " ++ raw_table_name p ++ " SET " ++ sets ++ " WHERE " ++ w /\
    ((exists e, parse (lex w) = Some e) <-> no_empty (of_g (u_where u)) /\ forall l, In l (leaves (of_g (u_where u))) -> fits l).
Proof.
  intros p h u o Eu Hb Hl E Ho. destruct (u_calls_is h (update_ p) u [] eq_refl Eu) as (_ & I2 & I3 & I4). cbn in I2, I3, I4.
  unfold u_build in E. destruct (nonempty (g_cs (u_where u))); [|injection E as <-; discriminate]. cbn [negb] in E.
  destruct (nonempty (u_values u)); [|injection E as <-; discriminate]. cbn [negb] in E.
  destruct (is_empty (u_table u)); [injection E as <-; discriminate|].
  apply bind_inv in E as ([sets params] & _ & E).
  destruct (read_tree _ (where_tree _ _ _ empty_tree Hb I4) Hl (length params)) as (w & vs & E1 & E2 & O).
  rewrite E1, E2 in E. cbn [bind] in E.
  assert (Es : o_sql o = join " " ["UPDATE"; u_table u; "SET"; sets; "WHERE"; w]) by (unfold ok in E; injection E as <-; reflexivity).
  exists sets, w. split; [|exact (outcome_parse _ _ O)]. rewrite Es, I2. reflexivity.
Qed.
Print Assumptions C91_update.

(** SELECT: behind the text of the same select without conditions. *)
Theorem C91_select : forall p b0 h b o, select_from p = Ok b0 -> calls b_call b0 h = Ok b ->
  Forall built (List.concat (flat_map bc_where h)) -> List.concat (flat_map bc_where h) <> [] ->
  (forall l, In l (leaves (of_g (b_where b))) -> named l) -> b_build b = Ok o ->
  exists s w, b_build (mkB (b_op b) (b_table b) (b_joins b) (b_fields b) empty_group) = Ok (mkOut s [] None) /\ o_sql o = s ++ " WHERE " ++ w /\
    ((exists e, parse (lex w) = Some e) <-> no_empty (of_g (b_where b)) /\ forall l, In l (leaves (of_g (b_where b))) -> fits l).
Proof.
  intros p b0 h b o E0 Eh Hb Hne Hl E. destruct (select_from_is p b0 E0) as (t & _ & I0).
  destruct (b_calls_is h b0 b t [] [] [] I0 Eh) as (_ & _ & _ & _ & I). cbn [app] in I.
  destruct (read_tree _ (where_tree _ _ _ empty_tree Hb I) Hl 0) as (w & vs & E1 & E2 & O).
  unfold b_build in E. destruct (g_cs (b_where b)) as [|c cs] eqn:Eg; [apply (where_grows _ _ _ I) in Eg as [_ Eg]; contradiction|].
  cbn [nonempty] in E. rewrite E1, E2 in E. cbn [bind] in E.
  exists (join " " (b_tokens b)), w. split; [reflexivity|]. split; [|exact (outcome_parse _ _ O)].
  assert (Es : o_sql o = join " " (b_tokens b ++ ["WHERE"; w])) by (unfold ok in E; injection E as <-; reflexivity).
  rewrite Es, where_join by apply b_tokens_ne. now rewrite app_assoc_s.
Qed.
Print Assumptions C91_select.

(** * C32: when the two texts of SelectMany agree *)

Lemma qmarks_sp a b : qmarks (a ++ String " " b) = qmarks a ++ String " " (qmarks b).
Proof. now rewrite qmarks_app. Qed.
Lemma grown a b c : a ++ String c b <> a.
Proof. induction a as [|x a IH]; [discriminate|]. cbn. congruence. Qed.
(** RenderSQL of SelectMany is Build with question marks if and only if there is no sorting, no offset and no limit; its
    Values are the parameters if and only if there is no offset and no limit. *)
Theorem C32_many_exactly : forall m, base_lacks (m_base m) -> ready (b_where (m_base m)) ->
  exists s ps s' vs, m_build m = Ok (mkOut s ps None) /\ m_render_sql m = Ok s' /\ m_values m = Ok vs /\
    (s' = qmarks s <-> m_order m = [] /\ m_offset m = 0%N /\ (m_limit m <= 0)%Z) /\
    (vs = ps <-> m_offset m = 0%N /\ (m_limit m <= 0)%Z).
Proof.
  intros m Hl Hr. destruct (base_text (m_base m) 0 Hl Hr) as (t & t' & vs & _ & E1 & E2 & Eb & _ & Q).
  unfold m_build, m_render_sql, m_values. rewrite (Eb eq_refl), E1, E2. cbn [bind ok o_sql o_params].
  assert (G : forall (l x : list gval), x <> [] -> l <> (l ++ x)%list).
  { intros l x H K. apply H. apply (app_inv_head l). now rewrite app_nil_r. }
  assert (T : forall r, r = "" \/ (exists r', r = String " " r') -> t' = qmarks (t ++ r) <-> r = "").
  { intros r [-> |(r' & ->)]; [rewrite app_nil_r_s; split; auto|]. rewrite qmarks_sp, Q. split; [|discriminate].
    intros K. symmetry in K. now apply grown in K. }
  assert (OC : order_clause (m_order m) = "" /\ m_order m = [] \/ (exists r, order_clause (m_order m) = String " " r) /\ m_order m <> []).
  { destruct (m_order m); [left; auto|right]. split; [|discriminate]. unfold order_clause. eexists. reflexivity. }
  destruct (N.ltb_spec 0 (m_offset m)) as [Ho|Ho], (Z.ltb_spec 0 (m_limit m)) as [Hm|Hm];
    (eexists _, _, t', vs; split; [unfold ok; reflexivity|]; split; [reflexivity|]; split; [reflexivity|]); rewrite ?app_assoc_s, <- ?app_assoc;
    (split; [rewrite T; destruct OC as [[-> Eo]|[(r & ->) No]]; try (right; eexists; reflexivity); try (now left)|]);
    try (split; [intros K; apply G in K; [contradiction|discriminate]|intros [K1 K2]; lia]);
    try (split; [discriminate|intros (K1 & K2 & K3); lia]).
  - split; [intros _; split; [exact Eo|lia]|reflexivity].
  - split; [discriminate|intros (K1 & _); contradiction].
  - split; [intros _; lia|reflexivity].
Qed.
Print Assumptions C32_many_exactly.

(** * C48: when Value keeps the field *)

(** A field read from a text, its table possibly replaced afterwards: Value panics if and only if the name is empty, and
    otherwise keeps the field if and only if it has no alias; the value is always kept. *)
Theorem C48_exactly : forall s d t v, field s = Ok d ->
  let d' := f_of d t in
  (f_value d' v = Panic <-> f_name d = "") /\
  ((exists fv, f_value d' v = Ok fv /\ fv_val fv = v /\ fv_def fv = d') <-> f_name d <> "" /\ f_alias d = "").
Proof.
  intros s d t v Hs d'. assert (N : f_name d' = f_name d) by reflexivity. assert (A : f_alias d' = f_alias d) by reflexivity.
  destruct (string_dec (f_name d) "") as [E|E].
  - assert (P : f_value d' v = Panic) by (unfold f_value; rewrite N, E; reflexivity). rewrite P.
    split; [tauto|]. split; [intros (fv & K & _); discriminate|tauto].
  - pose proof (C48_value_partial s d d' v Hs N) as P. rewrite N in P. specialize (P E). rewrite P. split; [split; [discriminate|contradiction]|].
    split.
    + intros (fv & [= <-] & _ & K). cbn [fv_def] in K. split; [exact E|]. rewrite <- A, <- K. reflexivity.
    + intros [_ K]. eexists. split; [reflexivity|]. split; [reflexivity|]. cbn [fv_def]. unfold d', f_of. now rewrite K.
Qed.
Print Assumptions C48_exactly.

(** * Examples *)

Ltac is_named := split; [intros cu; discriminate|split; [reflexivity|split; [first [left; reflexivity | right; reflexivity]|eexists; reflexivity]]].
Example C91_example : built sample /\ (forall l, In l (leaves sample) -> named l) /\ no_empty sample /\ (forall l, In l (leaves sample) -> fits l).
Proof.
  split; [exact sample_built|]. split; [|split; [cbn; intuition discriminate|]].
  - intros l Hl. simpl in Hl. destruct Hl as [<-|[<-|[<-|[]]]]; is_named.
  - intros l Hl. simpl in Hl. destruct Hl as [<-|[<-|[<-|[]]]]; (split; [left; reflexivity|discriminate]).
Qed.
(** three conditions on named columns that are not valid, one for each reason *)
Definition bad_alias : cond := Eval vm_compute in get (equal_to "u.id as x" (VOther 1)).
Definition bad_list : cond := Eval vm_compute in get (do n <- in_ "f" (VStrs []); not_ n).
Definition bad_group : cond := Eval vm_compute in get (m_and (eqc "b" 1) [of_g empty_group; eqc "c" 2]).
Lemma bad_alias_built : built bad_alias. Proof. apply (bt_lib KEq "u.id as x" (VOther 1)). reflexivity. Qed.
Lemma bad_list_built : built bad_list.
Proof. eapply bt_not; [apply (bt_lib KIn "f" (VStrs []))|]; reflexivity. Qed.
Lemma bad_group_built : built bad_group.
Proof.
  apply (bt_and (eqc "b" 1) [of_g empty_group; eqc "c" 2]); [by_eqc| |left; reflexivity].
  intros d [<-|[<-|[]]]; [|by_eqc]. apply (bt_group AND []); [intros d []|now left|reflexivity].
Qed.
Example C91_bad : (forall l, In l (leaves bad_alias ++ leaves bad_list ++ leaves bad_group) -> named l) /\
  c_render bad_alias 0 = Ok "u.id AS x=$1" /\ c_render bad_list 0 = Ok "f NOT IN ()" /\ c_render bad_group 0 = Ok "(b=$1) AND ( AND c=$2)" /\
  no_empty bad_alias /\ no_empty bad_list /\ ~ no_empty bad_group.
Proof.
  split; [intros l Hl; simpl in Hl; destruct Hl as [<-|[<-|[<-|[<-|[]]]]]; is_named|]. split; [reflexivity|]. split; [reflexivity|]. split; [reflexivity|].
  cbn. split; [exact I|]. split; [exact I|]. intuition congruence.
Qed.
Example C91_delete_example : exists d o, calls d_add_where (delete_ (TPName "t")) [[bad_group]; [bad_list]] = Ok d /\
  Forall built (List.concat [[bad_group]; [bad_list]]) /\ (forall l, In l (leaves (of_g (d_where d))) -> named l) /\ d_build d = Ok o /\ o_err o = None /\
  o_sql o = "DELETE FROM t WHERE (b=$1) AND ( AND c=$2) AND f NOT IN ()" /\ parse_delete (o_sql o) = None.
Proof.
  eexists _, _. split; [vm_compute; reflexivity|]. split; [repeat constructor; auto using bad_group_built, bad_list_built|].
  split; [intros l Hl; simpl in Hl; destruct Hl as [<-|[<-|[<-|[]]]]; is_named|]. split; [vm_compute; reflexivity|]. split; [reflexivity|]. split; vm_compute; reflexivity.
Qed.
Example C32_many_example : base_lacks b_sample /\ ready (b_where b_sample) /\
  exists s ps, m_build (mkM b_sample 0 0 [mkS (mkF "id" "u" "") "DESC"]) = Ok (mkOut s ps None) /\ m_values (mkM b_sample 0 0 []) = Ok ps.
Proof. split; [exact b_sample_lacks|]. split; [exact b_sample_ready|]. eexists _, _. split; vm_compute; reflexivity. Qed.
Example C48_exactly_example : exists d, field "u.id" = Ok d /\ f_name d <> "" /\ f_alias d = "" /\ f_value (f_of d "v") (VOther 1) = Ok (mkFV (mkF "id" "v" "") (VOther 1)).
Proof. eexists. split; [reflexivity|]. split; [discriminate|]. split; reflexivity. Qed.
Example C91_select_example : exists b0 b o, select_from (TPName "t") = Ok b0 /\ calls b_call b0 [BWhere [bad_list]; BWhere [sample]] = Ok b /\
  (forall l, In l (leaves (of_g (b_where b))) -> named l) /\ b_build b = Ok o /\
  o_sql o = "SELECT * FROM t WHERE f NOT IN () AND t.a IN ($1,$2) AND (b=$3 OR c NOT LIKE $4)".
Proof.
  eexists _, _, _. split; [vm_compute; reflexivity|]. split; [vm_compute; reflexivity|].
  split; [intros l Hl; simpl in Hl; destruct Hl as [<-|[<-|[<-|[<-|[]]]]]; is_named|]. split; vm_compute; reflexivity.
Qed.
Example C91_update_example : exists u o, calls u_call (update_ (TPName "t")) [USet [mkFV (mkF "a" "" "") (VOther 7)]; UWhere [bad_alias]] = Ok u /\
  (forall l, In l (leaves (of_g (u_where u))) -> named l) /\ u_build u = Ok o /\ o_err o = None /\ o_sql o = "UPDATE t SET a=$1 WHERE u.id AS x=$2".
Proof.
  eexists _, _. split; [vm_compute; reflexivity|]. split; [intros l Hl; simpl in Hl; destruct Hl as [<-|[]]; is_named|].
  split; [vm_compute; reflexivity|]. split; vm_compute; reflexivity.
Qed.
