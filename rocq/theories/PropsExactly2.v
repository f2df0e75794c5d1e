(** Further exact conditions for properties that hold for some inputs only. *)
From Coq Require Import String Ascii List Bool Arith NArith ZArith Lia.
From Verif Require Import GoStr Value Names Cond Build Surface SqlSpec Spec StrFacts SqlFacts CondFacts CondText CondSem
  TreeFacts CondLogic CondMeaning Built CondThms PropsCond NameFacts PropsNames StmtFacts Calls BuildFacts BuildThms StmtText PropsSelect
  PropsWrite PropsSurface PropsMore AtomFacts PropsAtoms PropsString.
Import ListNotations.
Local Open Scope string_scope.
Local Open Scope nat_scope.

(** * C27: a table specification is refused exactly if it has none of the three forms or repeats the name *)

Theorem C27_exactly : forall s t, table_or_error (TPStr s) = Some t <->
  ~ (exists n, Spec.Toks [n; n] s) /\ exists n al, table_form s n al /\ t = mkT n (if String.eqb al n then "" else al).
Proof.
  intros s t. split.
  - intros E. assert (N : ~ exists n, Spec.Toks [n; n] s).
    { intros (n & H). apply toks_iff in H. cbn [table_or_error] in E. unfold parse_table in E. rewrite H in E.
      change str_eqb with String.eqb in E. rewrite String.eqb_refl, andb_false_r in E. discriminate. }
    split; [exact N|]. now apply C27_exact_partial.
  - intros [N H]. now apply C27_exact_partial.
Qed.
Print Assumptions C27_exactly.
Example C27_exactly_example : table_or_error (TPStr " users  As u") = Some (mkT "users" "u") /\
  table_or_error (TPStr "users users") = None /\ table_or_error (TPStr "users as users") = Some (mkT "users" "").
Proof. repeat split; vm_compute; reflexivity. Qed.

(** * C54, C55: SelectSingle with Fields *)

(** Fields makes everything before it irrelevant: the builder is the one that a new SelectSingleBuilder{}
    gives after the calls from the last Fields on, and its table is lost. *)
Theorem C55_single_exactly : forall q h1 fs h2, calls s_call q h1 <> Panic ->
  calls s_call q (h1 ++ SFields fs :: h2) = calls s_call (single_of (b_set_fields zero_bsel fs)) h2.
Proof.
  intros q h1. revert q. induction h1 as [|c h1 IH]; intros q fs h2 H; cbn [app calls s_call]; [reflexivity|].
  cbn [calls] in H. destruct (s_call q c) as [q1|]; [|congruence]. now apply IH.
Qed.
Print Assumptions C55_single_exactly.

(** Exchanging Fields with the call before it changes nothing only if that call adds nothing, panics
    anyway or is the same Fields. *)
Lemma zero_where cs : group_and zero_group cs = Ok (match cs with [] => zero_group | _ => set_join (set_cs zero_group cs) AND end).
Proof. destruct cs; reflexivity. Qed.
Theorem C55_exchange_exactly : forall q c fs,
  calls s_call q [c; SFields fs] = calls s_call q [SFields fs; c] <->
  c = SFields fs \/ (c = SWhere [] /\ s_call q c <> Panic) \/ exists tn jt l r, c = SJoin tn jt l r /\ table tn = Panic.
Proof.
  intros q c fs. destruct c as [fs'|cs|tn jt l r]; cbn [calls s_call].
  - split.
    + intros E. left. unfold ss_set_fields, b_set_fields in E. injection E as ->. reflexivity.
    + intros [[= ->]|[[? _]|(? & ? & ? & ? & ? & _)]]; [reflexivity|discriminate..].
  - unfold ss_add_where, b_add_where. cbn [ss_base ss_set_fields b_where b_set_fields zero_bsel]. rewrite zero_where. split.
    + intros E. right. left. destruct cs as [|c cs]; [|destruct (group_and (b_where (ss_base q)) (c :: cs)); cbn in E; discriminate].
      split; [reflexivity|]. destruct (group_and (b_where (ss_base q)) []); [discriminate|]. cbn in E. discriminate.
    + intros [?|[[[= ->] N]|(? & ? & ? & ? & ? & _)]]; [discriminate| |discriminate].
      destruct (group_and (b_where (ss_base q)) []) as [g|] eqn:E; [reflexivity|]. now destruct N.
  - unfold ss_join. destruct (table tn) as [t|] eqn:Et; cbn [bind].
    + split; [|intros [?|[[? _]|(? & ? & ? & ? & [= <- <- <- <-] & ?)]]; congruence].
      rewrite !b_join_is. cbn. intros E. discriminate.
    + split; [|reflexivity]. intros _. right. right. exists tn, jt, l, r. auto.
Qed.
Print Assumptions C55_exchange_exactly.
Definition id_f : fdef := mkF "id" "" "".
Example C55_exactly_example : exists q, select_single_from (TPName "t") = Ok q /\
  (exists q', calls s_call q [SWhere [eqc "a" 1]; SJoin "o" LeftJoin id_f id_f; SFields [id_f]; SWhere [eqc "b" 2]] = Ok q' /\
     calls s_call (single_of (b_set_fields zero_bsel [id_f])) [SWhere [eqc "b" 2]] = Ok q') /\
  calls s_call q [SWhere [eqc "a" 1]; SFields [id_f]] <> calls s_call q [SFields [id_f]; SWhere [eqc "a" 1]] /\
  calls s_call q [SWhere []; SFields [id_f]] = calls s_call q [SFields [id_f]; SWhere []].
Proof.
  eexists. split; [reflexivity|]. split; [eexists; split; reflexivity|]. split; [|reflexivity].
  rewrite C55_exchange_exactly. intros [?|[[? _]|(? & ? & ? & ? & ? & _)]]; discriminate.
Qed.

(** What the accessors report after any calls: the table is forgotten exactly if Fields was called, the fields
    are those of the last Fields. *)
Theorem C54_single_exactly : forall p t q hs q', table_p p = Ok t -> select_single_from p = Ok q -> calls s_call q hs = Ok q' ->
  ss_field_definitions q' = last_of sc_fields [] hs /\
  ss_field_list q' = match last_of sc_fields [] hs with [] => "*" | fs => join ", " (map render_spec fs) end /\
  ((exists fs, In (SFields fs) hs) -> b_table_name (ss_base q') = "") /\
  (~ (exists fs, In (SFields fs) hs) -> b_table_name (ss_base q') = t_name t).
Proof.
  intros p t q hs q' Et Eq Eh.
  assert (K : forall hs q q', calls s_call q hs = Ok q' ->
    b_fields (ss_base q') = last_of sc_fields (b_fields (ss_base q)) hs /\
    (b_table (ss_base q') = b_table (ss_base q) /\ ~ (exists fs, In (SFields fs) hs) \/
     b_table (ss_base q') = mkT "" "" /\ exists fs, In (SFields fs) hs)).
  { clear. induction hs as [|c hs IH]; intros q q' E; cbn [calls] in E.
    - injection E as <-. split; [reflexivity|]. left. split; [reflexivity|]. now intros [? []].
    - destruct (s_call q c) as [q1|] eqn:E1; [|discriminate]. destruct (IH _ _ E) as [F T]. destruct c as [fs|cs|tn jt l r].
      + injection E1 as <-. split; [rewrite F; reflexivity|]. right. destruct T as [[T N]|[T (fs' & Hf)]]; (split; [exact T|]);
          [exists fs; now left|exists fs'; now right].
      + cbn [s_call] in E1. unfold ss_add_where, b_add_where in E1. unbind. cbn [ss_base b_fields b_table] in *. split; [exact F|].
        destruct T as [[T N]|[T (fs' & Hf)]]; [left|right]; (split; [exact T|]).
        * intros (fs & [?|Hf]); [discriminate|apply N; eauto].
        * exists fs'; now right.
      + cbn [s_call] in E1. unfold ss_join in E1. unbind. rewrite b_join_is in *. unbind. cbn [ss_base b_fields b_table b_set_joins] in *. split; [exact F|].
        destruct T as [[T N]|[T (fs' & Hf)]]; [left|right]; (split; [exact T|]).
        * intros (fs & [?|Hf]); [discriminate|apply N; eauto].
        * exists fs'; now right. }
  unfold select_single_from in Eq. apply bind_inv in Eq as (b & Eb & [= <-]). destruct (select_from_is p b Eb) as (t' & E' & (_ & H1 & H2 & _)).
  assert (t' = t) by congruence. subst t'. destruct (K _ _ _ Eh) as [F T]. cbn [ss_base single_of] in F, T. rewrite H2 in F.
  unfold ss_field_definitions, ss_field_list, b_table_name. rewrite F. split; [reflexivity|]. split; [unfold field_list; now destruct (last_of _ _ _)|].
  destruct T as [[T N]|[T N]]; rewrite T; (split; intros X); [tauto|congruence|reflexivity|tauto].
Qed.
Print Assumptions C54_single_exactly.
Example C54_exactly_example : exists q q', select_single_from (TPStr "users u") = Ok q /\
  calls s_call q [SWhere [eqc "a" 1]; SFields [mkF "n" "" "m"]; SFields [id_f; mkF "n" "u" ""]; SWhere [eqc "b" 2]] = Ok q' /\
  ss_field_list q' = "id, u.n" /\ b_table_name (ss_base q') = "".
Proof. do 2 eexists. repeat (split; [reflexivity|]). reflexivity. Qed.

(** * C64: statements derived from a select *)

Lemma in_scope_inv ns d : wf_field d -> in_scope ns (column d) -> f_table d = "" \/ In (f_table d) ns.
Proof.
  intros (H1 & H2 & _) H. destruct H2 as [H2|H2]; [now left|]. right. unfold in_scope, column in H.
  destruct (f_table d) as [|x y] eqn:E; [discriminate|]. cbn [is_empty] in H. rewrite <- E in *.
  now rewrite (after_dot_some _ _ (name_ident _ H2)) in H.
Qed.
Lemma atoms_scope_iff ts ps ats ls : Forall2 (says ps) ats ls -> Forall good_leaf ls ->
  (Forall (in_scope (map (fun t => exposed (table_item t)) ts)) (map (fun a : atom => snd (fst a)) ats) <-> Forall (of_tables ts) (map l_def ls)).
Proof.
  induction 1 as [|[[op c] ns] l ats ls Hs _ IH]; intros Hl; cbn [map]; [split; constructor|].
  inversion Hl as [|? ? [Hd _] Hl']; subst. rewrite !Forall_cons_iff, (IH Hl'). destruct Hs as (_ & -> & _). cbn [fst snd].
  assert (in_scope (map (fun t => exposed (table_item t)) ts) (column (l_def l)) <-> of_tables ts (l_def l)); [|tauto].
  split; [|now apply of_tables_scope, good_def_wf]. intros H. destruct (in_scope_inv _ _ (good_def_wf _ Hd) H) as [E|Hi]; [now left|].
  right. apply in_map_iff in Hi as (t & E & Ht). eauto.
Qed.

Lemma derived_scope_iff b toU toD css : derived b toU toD -> Forall regular (List.concat css) -> List.concat css <> [] ->
  calls group_and empty_group css = Ok (b_where b) -> qname (t_name (b_table b)) ->
  (exists d, toD = Ok d /\ (delete_in_scope d <-> Forall (of_tables [mkT (t_name (b_table b)) ""]) (where_defs (List.concat css)))) /\
  forall fvs vs, fvs <> [] -> singles fvs vs -> Forall (fun c => name c = true) (col_names fvs) -> exists u, toU fvs = Ok u /\
    (update_in_scope u <-> Forall (of_tables [mkT (t_name (b_table b)) ""]) (where_defs (List.concat css))).
Proof.
  intros (d & Ed & Td & Cd & HU) Hr Hne E Hq.
  assert (Hw : wanted css (Some (of_g (b_where b)))).
  { split; [exact Hne|]. change (CGrp AND false [] false) with (of_g empty_group). now rewrite calls_m_and, E. }
  destruct (wanted_leaves css _ Hr Hw) as (W1 & W2 & W3).
  assert (Hso : sound row0 (of_g (b_where b))) by now apply good_sound.
  assert (Hg : g_cs (b_where b) <> []) by (intros K; apply (where_grows _ _ _ E) in K as [_ K]; contradiction).
  assert (Hready : where_ready row0 (b_where b)) by (right; auto).
  assert (S : forall g n e ws, carries (b_where b) g -> reads (of_g g) n e -> c_values (of_g g) = Ok ws ->
    (Forall (in_scope (only (t_name (b_table b)))) (expr_columns e) <-> Forall (of_tables [mkT (t_name (b_table b)) ""]) (where_defs (List.concat css)))).
  { intros g n e ws (C1 & _ & C3 & _) (w & R1 & R2) Ev. rewrite C1 in R1. rewrite C3 in Ev.
    pose proof (wanted_says css _ n e ws Hr Hw (ex_intro _ w (conj R1 R2)) Ev (repeat VNil n) [] (repeat_length _ _)) as K.
    change (only (t_name (b_table b))) with (map (fun t => exposed (table_item t)) [mkT (t_name (b_table b)) ""]).
    apply (atoms_scope_iff _ _ _ _ K). rewrite Forall_forall. now apply given_good. }
  split.
  - destruct (carries_ready row0 _ _ Cd Hg Hready) as [Hwf Hs].
    destruct (delete_build row0 d) as (s & ws & e & v & E1 & E2 & E3 & E6 & _); auto.
    { now rewrite Td. } { destruct Cd as (_ & _ & _ & C4 & _). now rewrite C4. }
    exists d. split; [exact Ed|]. rewrite <- (S (d_where d) 0 e ws Cd E6 E2). rewrite <- Td. split.
    + intros (s' & ps' & st & F1 & F2 & F3). rewrite E1 in F1. injection F1 as <- <-. rewrite E3 in F2. injection F2 as <-. exact F3.
    + intros F. exists s, ws. eexists. split; [exact E1|]. split; [exact E3|]. exact F.
  - intros fvs vs Hf Hsi Hc. destruct (HU fvs) as (u & Eu & Tu & Vu & Cu).
    destruct (carries_ready row0 _ _ Cu Hg Hready) as [Hwf Hs].
    destruct (update_build row0 u vs) as (s & ws & e & v & E1 & E2 & E3 & E6 & _); rewrite ?Tu, ?Vu; auto.
    { destruct Cu as (_ & _ & _ & C4 & _). now rewrite C4. }
    exists u. split; [exact Eu|]. rewrite <- (S (u_where u) (length vs) e ws Cu E6 E2). split.
    + intros (s' & ps' & st & F1 & F2 & F3). rewrite E1 in F1. injection F1 as <- <-. rewrite E3 in F2. injection F2 as <-.
      apply Forall_app in F3 as [_ F3]. cbn [up_table up_where] in F3. now rewrite Tu in F3.
    + intros F. exists s, (vs ++ ws)%list. eexists. split; [exact E1|]. split; [exact E3|]. cbn [up_table up_where up_sets].
      rewrite Tu. apply Forall_app. split; [|exact F].
      rewrite Vu. rewrite Forall_forall in *. intros x Hx. apply name_scope, Hc. apply in_map_iff in Hx as ([a k] & <- & Hx). now apply in_combine_l in Hx.
Qed.

(** An UPDATE or DELETE made from a select refers to its own table only exactly if every column of the WHERE is
    unqualified or qualified with the name of the table, not its alias. *)
Theorem C64_derived_exactly : forall p t hb, table_p p = Ok t -> wf_table t -> Forall plain_b hb ->
  List.concat (flat_map bc_where hb) <> [] ->
  exists b0 b, select_from p = Ok b0 /\ calls b_call b0 hb = Ok b /\
    let own cs := Forall (of_tables [mkT (t_name t) ""]) (where_defs cs) in
    let cs := List.concat (flat_map bc_where hb) in
    (exists d, b_delete b = Ok d /\ (delete_in_scope d <-> own cs)) /\
    (forall fvs vs, fvs <> [] -> singles fvs vs -> Forall (fun c => name c = true) (col_names fvs) ->
       exists u, b_update b fvs = Ok u /\ (update_in_scope u <-> own cs)) /\
    forall hm, Forall plain_m hm -> let cs' := (cs ++ List.concat (flat_map mc_where hm))%list in
      exists m, calls m_call (many_of b) hm = Ok m /\ (exists d, m_delete m = Ok d /\ (delete_in_scope d <-> own cs')) /\
      (forall fvs vs, fvs <> [] -> singles fvs vs -> Forall (fun c => name c = true) (col_names fvs) ->
         exists u, m_update m fvs = Ok u /\ (update_in_scope u <-> own cs')).
Proof.
  intros p t hb Et Ht Hb Hne. destruct (base_history row0 p t hb Et Ht (plain_b_wf _ _ Hb)) as (b0 & b & E0 & Eb & Gb & Ib).
  destruct (C33_conditions p b0 hb b E0 Eb) as (D1 & D2 & _). exists b0, b. split; [exact E0|]. split; [exact Eb|]. cbv zeta.
  pose proof Ib as (_ & I2 & _ & _ & I5). pose proof (plain_b_regular _ Hb) as Rb.
  destruct (derived_scope_iff b _ _ _ D1 Rb Hne I5) as [S1 S2]; [rewrite I2; apply Ht|]. rewrite I2 in S1, S2. split; [exact S1|]. split; [exact S2|].
  intros hm Hm. pose proof (plain_m_wf row0 _ Hm) as Hm'.
  destruct (C06_select_many row0 p t hb hm Et Ht (plain_b_wf _ _ Hb) Hm') as (b0' & b' & m & s & ps & vs & c & sel & E0' & Eb' & Em & _).
  assert (b0' = b0) by congruence. subst b0'. assert (b' = b) by congruence. subst b'. exists m. split; [exact Em|].
  destruct (m_calls_is hm (many_of b) m _ _ _ _ [] 0%N (-1)%Z (conj Ib (conj eq_refl (conj eq_refl eq_refl))) Em) as ((_ & J2 & _ & _ & J5) & _).
  rewrite <- List.concat_app. rewrite <- J2. apply (derived_scope_iff (m_base m) _ _ (flat_map bc_where hb ++ flat_map mc_where hm) (D2 hm m Em)).
  - rewrite List.concat_app. apply Forall_app. split; [exact Rb|now apply plain_m_regular].
  - rewrite List.concat_app. intros K. now apply app_eq_nil in K.
  - exact J5.
  - rewrite J2. apply Ht.
Qed.
Print Assumptions C64_derived_exactly.
Example C64_derived_exactly_example :
  (exists t, table_p (TPStr "users u") = Ok t /\ wf_table t /\ Forall plain_b hb_scope /\ List.concat (flat_map bc_where hb_scope) <> [] /\
     ~ Forall (of_tables [mkT (t_name t) ""]) (where_defs (List.concat (flat_map bc_where hb_scope)))) /\
  (do b <- select_from (TPStr "users u"); do b <- calls b_call b hb_scope; do d <- b_delete b; d_build d) =
    Ok (mkOut "DELETE FROM users WHERE u.id=$1" [VOther 3] None) /\
  Forall (of_tables [mkT "u" ""]) (where_defs (List.concat (flat_map bc_where hb_scope))) /\
  (do b <- select_from (TPStr "u"); do b <- calls b_call b hb_scope; do d <- b_delete b; d_build d) =
    Ok (mkOut "DELETE FROM u WHERE u.id=$1" [VOther 3] None).
Proof.
  split; [|split; [vm_compute; reflexivity|split; [|vm_compute; reflexivity]]].
  - exists (mkT "users" "u"). split; [reflexivity|]. split; [split; [constructor; reflexivity|now right]|].
    split; [apply C64_example|]. split; [discriminate|]. intros H. inversion H as [|? ? [K|(t & [<-|[]] & K)] _]; discriminate.
  - constructor; [|constructor]. right. exists (mkT "u" ""). split; [now left|reflexivity].
Qed.

(** * C81: String() and RenderSQL() tell base selects apart equally well *)

Definition item_text (i : item) : string := it_text i ++ match it_alias i with Some a => " AS " ++ a | None => "" end.
Lemma field_by_item d : render_spec d = item_text (field_item d).
Proof.
  rewrite spec_text. unfold item_text, field_item, column. cbn [it_text it_alias]. change str_eqb with String.eqb.
  destruct (is_empty (f_table d)), (is_empty (f_alias d)), (String.eqb (f_alias d) (f_name d)); cbn [negb andb orb];
    now rewrite ?app_nil_r_s, ?app_assoc_s.
Qed.
Lemma table_by_item t : t_render t = item_text (table_item t).
Proof.
  unfold t_render, item_text, table_item. cbn [it_text it_alias]. change str_eqb with String.eqb.
  destruct (is_empty (t_alias t)), (String.eqb (t_alias t) (t_name t)); cbn [negb andb orb]; now rewrite ?app_nil_r_s.
Qed.
Definition join_text (j : sjoin) : string :=
  join " " [sj_kind j ++ " JOIN"; item_text (sj_table j); "ON"; sj_left j ++ "=" ++ sj_right j].
Lemma join_by_item j : wf_join j -> j_render j = join_text (join_item j).
Proof.
  intros (_ & Hj & _). unfold j_render, join_text, join_item, jc_render, render_table_spec. cbn [sj_kind sj_table sj_left sj_right].
  rewrite table_by_item. f_equal. f_equal.
  assert (C : (j_type j = 0 \/ j_type j = 1 \/ j_type j = 2 \/ j_type j = 3)%Z) by lia.
  destruct C as [-> | [-> | [-> | ->]]]; reflexivity.
Qed.

Lemma cut_eq k a a' r r' : StmtFacts.free [k] a -> StmtFacts.free [k] a' -> (a ++ TKw k :: r = a' ++ TKw k :: r')%list -> a = a' /\ r = r'.
Proof.
  intros H. revert a'. induction H as [|x a Hx Ha IH]; intros [|y a'] Ha' E; cbn [app] in E.
  - now injection E.
  - injection E as <- _. inversion Ha' as [|? ? K _]. cbn in K. rewrite String.eqb_refl in K. discriminate.
  - injection E as -> _. cbn in Hx. rewrite String.eqb_refl in Hx. discriminate.
  - injection E as <- E. inversion Ha'; subst. destruct (IH a') as [-> ->]; auto.
Qed.
Lemma cut_none k a r a' : StmtFacts.free [k] a' -> (a ++ TKw k :: r)%list <> a'.
Proof.
  intros H E. subst a'. apply Forall_app in H as [_ H]. inversion H as [|? ? K _]. cbn in K. rewrite String.eqb_refl in K. discriminate.
Qed.

Definition from_toks (b : bsel) : list tok := (item_toks (table_item (b_table b)) ++ flat_map join_toks (b_joins b))%list.
Lemma lex_tokens b rest : names_ok b ->
  lex (join " " (b_tokens b ++ rest)%list) = (TKw "SELECT" :: lex (field_list (b_fields b)) ++ TKw "FROM" :: from_toks b ++ flat_map lex rest)%list.
Proof.
  intros (_ & Ht & Hj). rewrite lex_join. unfold b_tokens. rewrite flat_map_app, flat_map_app. cbn [flat_map]. rewrite (lex_table _ Ht), app_nil_r.
  change (lex (op_string DoSelect)) with [TKw "SELECT"]. change (lex "FROM") with [TKw "FROM"]. cbn [app]. f_equal.
  rewrite <- !app_assoc. cbn [app]. do 2 f_equal. unfold from_toks. rewrite <- app_assoc. do 2 f_equal.
  clear rest Ht. induction Hj as [|j js Hj _ IH]; [reflexivity|]. cbn [map flat_map]. now rewrite (lex_joiner j Hj), IH.
Qed.
Lemma from_toks_free b : names_ok b -> StmtFacts.free ["WHERE"] (from_toks b).
Proof.
  intros (_ & _ & Hj). assert (H : StmtFacts.free clauses4 (from_toks b)).
  { apply StmtFacts.from_free, Forall_app. split; [apply item_from|now apply joins_from]. }
  eapply Forall_impl; [|exact H]. intros t. unfold clauses4. cbn [existsb]. rewrite !orb_false_iff. tauto.
Qed.
Lemma tokens_eq b b' : names_ok b -> names_ok b' -> lex (field_list (b_fields b)) = lex (field_list (b_fields b')) -> from_toks b = from_toks b' ->
  b_tokens b = b_tokens b' /\ map render_spec (b_fields b) = map render_spec (b_fields b').
Proof.
  intros (F & T & J) (F' & T' & J') EC EF.
  assert (IC : map field_item (b_fields b) = map field_item (b_fields b')).
  { pose proof (proj1 (cols_ok _ F)) as K. pose proof (proj1 (cols_ok _ F')) as K'. rewrite <- EC, K in K'. injection K' as K'.
    destruct (b_fields b), (b_fields b'); try discriminate; [reflexivity|]. exact (f_equal (fun c => match c with Cols l => l | _ => [] end) K'). }
  assert (IR : map render_spec (b_fields b) = map render_spec (b_fields b')).
  { rewrite (map_ext _ _ field_by_item (b_fields b)), (map_ext _ _ field_by_item (b_fields b')).
    now rewrite <- !(map_map field_item item_text), IC. }
  split; [|exact IR].
  pose proof (p_from_ok (b_table b) _ J) as K. pose proof (p_from_ok (b_table b') _ J') as K'. unfold from_toks in EF. rewrite <- EF, K in K'.
  assert (K1 : table_item (b_table b) = table_item (b_table b')) by congruence.
  assert (K3 : map join_item (b_joins b) = map join_item (b_joins b')) by congruence.
  assert (ET : t_render (b_table b) = t_render (b_table b')).
  { now rewrite !table_by_item, K1. }
  assert (EJ : map j_render (b_joins b) = map j_render (b_joins b')).
  { assert (X : forall js, Forall wf_join js -> map j_render js = map join_text (map join_item js)).
    { intros js H. rewrite map_map. apply map_ext_in. intros j Hj. apply join_by_item. rewrite Forall_forall in H. auto. }
    now rewrite (X _ J), (X _ J'), K3. }
  assert (EL : field_list (b_fields b) = field_list (b_fields b')).
  { unfold field_list. rewrite IR. destruct (b_fields b), (b_fields b'); try discriminate; reflexivity. }
  unfold b_tokens. now rewrite ET, EJ, EL.
Qed.

Lemma join_snoc2 l w : l <> [] -> join " " (l ++ ["WHERE"; w])%list = join " " l ++ " WHERE " ++ w.
Proof. intros H. unfold join. rewrite concat_app by (discriminate || assumption). reflexivity. Qed.

Theorem C81_base_exactly : forall rho b b', names_ok b -> names_ok b' -> where_ready rho (b_where b) -> where_ready rho (b_where b') ->
  (b_string b = b_string b' <-> b_render_sql b = b_render_sql b').
Proof.
  intros rho b b' Hn Hn' Hr Hr'.
  assert (W : forall g, where_ready rho g -> exists w, c_render_sql (of_g g) = Ok w).
  { intros g [E|[H1 H2]].
    - destruct g as [j n cs br]. cbn in E. subst cs. destruct br, n; eexists; reflexivity.
    - destruct (where_sem rho g 0 H1 H2) as (_ & _ & _ & v & _ & _ & _ & (s & s' & vs & _ & E & _) & _). eauto. }
  destruct (W _ Hr) as (w & Ew), (W _ Hr') as (w' & Ew'). split.
  - intros E. destruct (b_string b) as [s|] eqn:Es; [|unfold b_string, w_string, w_render_sql in Es; rewrite Ew in Es; discriminate].
    destruct (C81_base_partial rho b b' s Hn Hn' Hr Hr' Es (eq_sym E)) as (sql & -> & ->). reflexivity.
  - intros E.
    assert (K : b_tokens b = b_tokens b' /\ map render_spec (b_fields b) = map render_spec (b_fields b') /\ w = w').
    { assert (X0 : forall x y : string, Ok x = Ok y -> x = y) by congruence.
      unfold b_render_sql in E. rewrite Ew, Ew' in E. destruct (cols_ok _ (proj1 Hn)) as [_ FC]. destruct (cols_ok _ (proj1 Hn')) as [_ FC'].
      pose proof (from_toks_free b Hn) as FF. pose proof (from_toks_free b' Hn') as FF'.
      assert (L : forall rest rest', join " " (b_tokens b ++ rest)%list = join " " (b_tokens b' ++ rest')%list ->
        lex (field_list (b_fields b)) = lex (field_list (b_fields b')) /\ (from_toks b ++ flat_map lex rest = from_toks b' ++ flat_map lex rest')%list).
      { intros rest rest' K. apply (f_equal lex) in K. rewrite (lex_tokens b rest Hn), (lex_tokens b' rest' Hn') in K. apply (f_equal (@tl tok)) in K. cbn [tl] in K.
        now apply cut_eq in K. }
      destruct (g_cs (b_where b)) as [|c cs] eqn:Eg, (g_cs (b_where b')) as [|c' cs'] eqn:Eg'; cbn [nonempty bind] in E; apply X0 in E.
      - rewrite <- (app_nil_r (b_tokens b)), <- (app_nil_r (b_tokens b')) in E. apply L in E as [E1 E2]. cbn [flat_map] in E2. rewrite !app_nil_r in E2.
        destruct (tokens_eq b b' Hn Hn' E1 E2) as [T1 T2]. split; [exact T1|]. split; [exact T2|].
        apply (where_nonempty rho _ _ Hr Ew) in Eg. apply (where_nonempty rho _ _ Hr' Ew') in Eg'. congruence.
      - exfalso. rewrite <- (app_nil_r (b_tokens b)) in E. apply L in E as [_ E2]. cbn [flat_map] in E2. rewrite !app_nil_r in E2.
        symmetry in E2. exact (cut_none _ _ _ _ FF E2).
      - exfalso. rewrite <- (app_nil_r (b_tokens b')) in E. apply L in E as [_ E2]. cbn [flat_map] in E2. rewrite !app_nil_r in E2.
        exact (cut_none _ _ _ _ FF' E2).
      - pose proof E as E0. apply L in E0 as [E1 E2]. cbn [flat_map] in E2. apply cut_eq in E2 as [E2 _]; [|exact FF|exact FF'].
        destruct (tokens_eq b b' Hn Hn' E1 E2) as [T1 T2]. split; [exact T1|]. split; [exact T2|].
        rewrite T1 in E. rewrite !join_snoc2 in E by discriminate.
        assert (X : forall a x y : string, a ++ x = a ++ y -> x = y) by (induction a as [|z a IH]; intros x y K; [exact K|injection K; auto]).
        apply X in E. now apply (X " WHERE ") in E. }
    destruct K as (K1 & K2 & <-). unfold b_tokens in K1. injection K1 as KL KT KJ.
    unfold b_string, w_string, w_render_sql, b_render_from, fs_string. rewrite Ew, Ew'. cbn [bind]. now rewrite KT, KJ, K2.
Qed.
Print Assumptions C81_base_exactly.
Example C81_exactly_example :
  let b k t := mkB DoSelect (mkT "users" t) [] [id_f] (mkG AND false [eqc "a" k] false) in
  (forall rho k t, t = "" \/ name t = true -> names_ok (b k t) /\ where_ready rho (b_where (b k t))) /\
  b_string (b 1 "u") = b_string (b 2 "u") /\ b_render_sql (b 1 "u") = b_render_sql (b 2 "u") /\
  b_string (b 1 "u") <> b_string (b 1 "") /\ b_render_sql (b 1 "u") <> b_render_sql (b 1 "") /\
  (* an alias that repeats the name is not written by either *)
  b_string (b 1 "users") = b_string (b 1 "").
Proof.
  cbv zeta. split; [|vm_compute; repeat split; discriminate].
  intros rho k t Ht. split.
  - split; [repeat constructor; now left|]. split; [|constructor]. split; [now constructor|exact Ht].
  - eapply (where_ready_calls rho [[eqc "a" k]]); [|reflexivity]. constructor; [|constructor]. apply regular_usable. by_regular.
Qed.
