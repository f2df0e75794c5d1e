(** The builders: what their texts are and what call histories do to their states. *)
From Coq Require Import String Ascii List Bool Arith Lia NArith ZArith.
From Verif Require Import GoStr Value Names Cond Build SqlSpec Spec StrFacts SqlFacts CondFacts CondText CondSem
  TreeFacts CondLogic CondMeaning Built CondThms NameFacts StmtFacts Calls.
Import ListNotations.
Local Open Scope string_scope.
Local Open Scope nat_scope.

(** * The WHERE group *)

Lemma parse_complete_or ts e : OrE ts e -> parse ts = Some e.
Proof. apply parse_complete. Qed.

Lemma where_sem rho g n : wf (of_g g) -> sound rho (of_g g) ->
  exists s vs e v, c_render (of_g g) n = Ok s /\ c_values (of_g g) = Ok vs /\ parse (lex s) = Some e /\
    means rho (of_g g) v /\
    forall pre post, length pre = n -> eval rho (pre ++ vs ++ post)%list e = Some v.
Proof.
  intros Hw Hs.
  assert (HS : Sem rho (leaf_val rho) (of_g g)).
  { apply tree_sem; auto. intros l Hl. apply leaf_sound_val; auto. }
  destruct (sem_expr rho (leaf_val rho) (of_g g) HS n) as (s & vs & ts & e & E1 & E2 & Hl & Ho & He).
  exists s, vs, e, (mean (leaf_val rho) (of_g g)). repeat split; auto.
  - rewrite (lexes_lex s ts Hl). now apply parse_complete_or.
  - now apply means_mean.
Qed.

(** [e] is what the text of [c], numbered after [n], is read as *)
Definition reads (c : cond) (n : nat) (e : expr) : Prop := exists w, c_render c n = Ok w /\ parse (lex w) = Some e.

(** builder states with well-formed names *)
Definition names_ok (b : bsel) : Prop := Forall wf_field (b_fields b) /\ wf_table (b_table b) /\ Forall wf_join (b_joins b).
Definition where_ready (rho : row) (g : group) : Prop := g_cs g = [] \/ (wf (of_g g) /\ sound rho (of_g g)).

Definition base_toks (b : bsel) : list tok :=
  (TKw "SELECT" :: lex (field_list (b_fields b)) ++ TKw "FROM" :: item_toks (table_item (b_table b)) ++ flat_map join_toks (b_joins b))%list.

Lemma flat_map_join_toks js : Forall wf_join js -> flat_map lex (map j_render js) = flat_map join_toks js.
Proof. induction 1 as [|j js Hj _ IH]; [reflexivity|]. cbn [map flat_map]. now rewrite IH, lex_joiner. Qed.

Lemma lex_base b rest : names_ok b -> lex (join " " (b_tokens b ++ rest)) = (base_toks b ++ flat_map lex rest)%list.
Proof.
  intros (Hf & Ht & Hj). rewrite lex_join, flat_map_app. f_equal. unfold b_tokens. rewrite flat_map_app, flat_map_join_toks by exact Hj.
  cbn [flat_map]. rewrite (lex_table _ Ht). unfold base_toks.
  change (lex (op_string DoSelect)) with [TKw "SELECT"]. change (lex "FROM") with [TKw "FROM"].
  rewrite app_nil_r. cbn [app]. rewrite <- !app_assoc. reflexivity.
Qed.

(** what the where group of a state contributes *)
Definition where_says (rho : row) (g : group) (we : option expr) (ps : list gval) : Prop :=
  match we with
  | None => g_cs g = [] /\ ps = []
  | Some e => g_cs g <> [] /\ c_values (of_g g) = Ok ps /\
      reads (of_g g) 0 e /\
      exists v, means rho (of_g g) v /\ forall post, eval rho (ps ++ post)%list e = Some v
  end.

Lemma base_build rho b : names_ok b -> where_ready rho (b_where b) ->
  exists s ps w we, b_build b = Ok (ok s ps) /\ lex s = (base_toks b ++ where_toks w)%list /\ where_is w we /\
    where_says rho (b_where b) we ps.
Proof.
  intros Hn Hr. unfold b_build. destruct (g_cs (b_where b)) as [|c cs] eqn:Eg; cbn [nonempty].
  - exists (join " " (b_tokens b)), [], None, None. split; [reflexivity|]. split.
    + rewrite <- (app_nil_r (b_tokens b)), lex_base by exact Hn. reflexivity.
    + split; [exact I|]. split; auto.
  - destruct Hr as [Hr|[Hw Hs]]; [congruence|].
    destruct (where_sem rho (b_where b) 0 Hw Hs) as (s & vs & e & v & E1 & E2 & E3 & Hm & He).
    rewrite E1, E2. cbn [bind]. eexists _, vs, (Some (lex s)), (Some e). split; [reflexivity|]. split.
    + rewrite lex_base by exact Hn. cbn [flat_map]. rewrite app_nil_r. reflexivity.
    + split; [exact E3|]. split; [congruence|]. split; [exact E2|]. split; [exists s; auto|]. exists v. split; [exact Hm|]. intros post. now apply (He []).
Qed.

Lemma base_select b w we os off lim ts : names_ok b -> where_is w we -> Forall wf_sort os ->
  ts = (base_toks b ++ where_toks w ++ order_toks os ++ bound_toks "OFFSET" off ++ bound_toks "LIMIT" lim)%list ->
  p_select ts = Some (mkSel (cols_item (b_fields b)) (table_item (b_table b)) (map join_item (b_joins b)) we (map sort_item os) off lim).
Proof.
  intros (Hf & Ht & Hj) Hw Ho ->. destruct (cols_ok _ Hf) as [Hc Hfr].
  rewrite <- (p_select_ok _ _ _ _ _ _ _ off lim Hc Hfr Hj Hw Ho). f_equal. unfold base_toks. cbn [app].
  rewrite <- !app_assoc. cbn [app]. now rewrite <- !app_assoc.
Qed.

(** the statement of a base select *)
Definition base_sel (b : bsel) (we : option expr) : select :=
  mkSel (cols_item (b_fields b)) (table_item (b_table b)) (map join_item (b_joins b)) we [] None None.
Lemma base_parse b s w we : names_ok b -> lex s = (base_toks b ++ where_toks w)%list -> where_is w we ->
  parse_select s = Some (base_sel b we).
Proof.
  intros Hn El Hw. unfold parse_select. eapply (base_select _ _ _ [] None None); [exact Hn|exact Hw|constructor|].
  rewrite El. cbn [order_toks bound_toks app]. now rewrite app_nil_r.
Qed.

(** * Select many *)

Definition off_bound (m : msel) (k : nat) : option bound := if (0 <? m_offset m)%N then Some (BParam (k + 1)) else None.
Definition lim_bound (m : msel) (k : nat) : option bound :=
  if (0 <? m_limit m)%Z then Some (BParam (k + (if (0 <? m_offset m)%N then 1 else 0) + 1)) else None.
Definition page_params (m : msel) : list gval :=
  ((if (0 <? m_offset m)%N then [VUint (m_offset m)] else []) ++ (if (0 <? m_limit m)%Z then [VUint (Z.to_N (m_limit m))] else []))%list.

Lemma lex_offset s n : lex (s ++ " OFFSET $" ++ itoa n) = (lex s ++ [TKw "OFFSET"; TParam n])%list.
Proof. exact (lex_bound s "OFFSET" n eq_refl). Qed.
Lemma lex_limit s n : lex (s ++ " LIMIT $" ++ itoa n) = (lex s ++ [TKw "LIMIT"; TParam n])%list.
Proof. exact (lex_bound s "LIMIT" n eq_refl). Qed.

Lemma many_build rho m : names_ok (m_base m) -> Forall wf_sort (m_order m) -> where_ready rho (b_where (m_base m)) ->
  exists s ps we, m_build m = Ok (ok s (ps ++ page_params m)%list) /\ where_says rho (b_where (m_base m)) we ps /\
    (exists t, b_build (m_base m) = Ok (ok t ps) /\ parse_select t = Some (base_sel (m_base m) we)) /\
    parse_select s = Some (mkSel (cols_item (b_fields (m_base m))) (table_item (b_table (m_base m)))
      (map join_item (b_joins (m_base m))) we (map sort_item (m_order m)) (off_bound m (length ps)) (lim_bound m (length ps))).
Proof.
  intros Hn Ho Hr. destruct (base_build rho _ Hn Hr) as (s & ps & w & we & E & El & Hw & Hs).
  unfold m_build. rewrite E. cbn [bind ok o_sql o_params].
  pose proof (base_parse _ _ _ _ Hn El Hw) as HB.
  assert (L1 : lex (s ++ order_clause (m_order m)) = (base_toks (m_base m) ++ where_toks w ++ order_toks (m_order m))%list).
  { rewrite lex_order by exact Ho. rewrite El. now rewrite app_assoc. }
  unfold off_bound, lim_bound, page_params, parse_select.
  destruct (0 <? m_offset m)%N, (0 <? m_limit m)%Z; cbn [app]; rewrite ?app_length; cbn [length].
  - eexists _, ps, we. split; [rewrite <- app_assoc; reflexivity|]. split; [exact Hs|]. split; [exists s; split; [reflexivity|exact HB]|].
    eapply base_select; [exact Hn|exact Hw|exact Ho|]. rewrite lex_limit, lex_offset, L1. cbn [bound_toks].
    now rewrite <- !app_assoc.
  - eexists _, ps, we. split; [reflexivity|]. split; [exact Hs|]. split; [exists s; split; [reflexivity|exact HB]|].
    eapply base_select; [exact Hn|exact Hw|exact Ho|]. rewrite lex_offset, L1. cbn [bound_toks].
    now rewrite <- !app_assoc.
  - eexists _, ps, we. split; [reflexivity|]. split; [exact Hs|]. split; [exists s; split; [reflexivity|exact HB]|].
    eapply base_select; [exact Hn|exact Hw|exact Ho|]. rewrite lex_limit, L1. cbn [bound_toks].
    rewrite <- !app_assoc. now rewrite Nat.add_0_r.
  - eexists _, ps, we. split; [rewrite app_nil_r; reflexivity|]. split; [exact Hs|]. split; [exists s; split; [reflexivity|exact HB]|].
    eapply base_select; [exact Hn|exact Hw|exact Ho|]. rewrite L1. cbn [bound_toks].
    now rewrite !app_nil_r.
Qed.

(** * Select single *)

Lemma single_build rho s : names_ok (ss_base s) -> where_ready rho (b_where (ss_base s)) ->
  exists t ps we, ss_build s = Ok (ok (t ++ " LIMIT 1") ps) /\ b_build (ss_base s) = Ok (ok t ps) /\
    where_says rho (b_where (ss_base s)) we ps /\
    parse_select t = Some (mkSel (cols_item (b_fields (ss_base s))) (table_item (b_table (ss_base s)))
      (map join_item (b_joins (ss_base s))) we [] None None) /\
    parse_select (t ++ " LIMIT 1") = Some (mkSel (cols_item (b_fields (ss_base s))) (table_item (b_table (ss_base s)))
      (map join_item (b_joins (ss_base s))) we [] None (Some (BLit 1))).
Proof.
  intros Hn Hr. destruct (base_build rho _ Hn Hr) as (t & ps & w & we & E & El & Hw & Hs).
  exists t, ps, we. unfold ss_build. rewrite E. split; [reflexivity|]. split; [reflexivity|]. split; [exact Hs|].
  unfold parse_select. split.
  - eapply (base_select _ _ _ [] None None); [exact Hn|exact Hw|constructor|]. rewrite El. cbn [order_toks bound_toks app].
    now rewrite app_nil_r.
  - eapply (base_select _ _ _ [] None (Some (BLit 1))); [exact Hn|exact Hw|constructor|].
    change (t ++ " LIMIT 1") with (t ++ " " ++ "LIMIT 1"). rewrite lex_sp, El.
    change (lex "LIMIT 1") with [TKw "LIMIT"; TNum 1]. cbn [order_toks bound_toks app]. now rewrite <- app_assoc.
Qed.

(** * Count *)

Definition count_item (f : fdef) : colspec :=
  if String.eqb (f_name f) "*" then CountStar else CountCol (fst (sort_item (mkS f "ASC"))).
Definition wf_count (f : fdef) : Prop := f = mkF "*" "" "" \/ wf_field f.

Lemma count_cols f : wf_count f ->
  let cs := lex ("COUNT" ++ "(" ++ render_field f ++ ")") in p_cols cs = Some (count_item f) /\ free ["FROM"] cs.
Proof.
  intros [-> |H]; [split; [reflexivity|repeat constructor]|]. cbv zeta.
  pose proof (lex_sort (mkS f "ASC") (conj H (or_introl eq_refl))) as E. unfold s_render in E. cbn [s_def s_dir] in E.
  rewrite lex_sp in E. unfold sort_toks in E. cbn [s_dir] in E.
  change (lex "ASC") with [TKw "ASC"] in E.
  assert (E' : lex (render_field f) = [TId (fst (sort_item (mkS f "ASC")))]).
  { apply (app_inj_tail _ [_]) in E. destruct E as [E _]. exact E. }
  assert (L : lex ("COUNT" ++ "(" ++ render_field f ++ ")") = TId "COUNT" :: TLP :: lex (render_field f) ++ [TRP]).
  { change (lex ("COUNT" ++ "(" ++ render_field f ++ ")")) with (TId "COUNT" :: TLP :: lex (render_field f ++ ")")).
    rewrite (lex_cut _ ")" "" eq_refl). reflexivity. }
  rewrite L, E'. cbn [app]. unfold count_item.
  assert (N : String.eqb (f_name f) "*" = false).
  { apply String.eqb_neq. intros N. destruct H as (H & _). rewrite N in H. discriminate. }
  rewrite N. split; [reflexivity|repeat constructor].
Qed.

Lemma count_build rho c : names_ok (cs_base c) -> wf_count (cs_field c) -> where_ready rho (b_where (cs_base c)) ->
  exists s ps we, cs_build c = Ok (ok s ps) /\ where_says rho (b_where (cs_base c)) we ps /\
    (exists t, b_build (cs_base c) = Ok (ok t ps) /\ parse_select t = Some (base_sel (cs_base c) we)) /\
    parse_select s = Some (mkSel (count_item (cs_field c)) (table_item (b_table (cs_base c)))
      (map join_item (b_joins (cs_base c))) we [] None None).
Proof.
  intros Hn Hc Hr. destruct (base_build rho _ Hn Hr) as (t & ps & w & we & E & El & Hw & Hs).
  pose proof (base_parse _ _ _ _ Hn El Hw) as HB. pose proof E as E0.
  destruct (count_cols _ Hc) as [Hp Hf]. destruct Hn as (Hfs & Ht & Hj).
  unfold cs_build. unfold b_build in E.
  set (cnt := "COUNT" ++ "(" ++ render_field (cs_field c) ++ ")") in *.
  assert (L : forall rest, lex (join " " ([op_string DoSelect; cnt; "FROM"; b_render_from (cs_base c)] ++ rest)) =
    (TKw "SELECT" :: lex cnt ++ TKw "FROM" :: (item_toks (table_item (b_table (cs_base c))) ++ flat_map join_toks (b_joins (cs_base c)))
      ++ flat_map lex rest)%list).
  { intros rest. rewrite lex_join, flat_map_app. cbn [flat_map]. unfold b_render_from. rewrite lex_join. cbn [flat_map].
    rewrite (lex_table _ Ht), flat_map_join_toks by exact Hj. rewrite app_nil_r.
    change (lex (op_string DoSelect)) with [TKw "SELECT"]. change (lex "FROM") with [TKw "FROM"]. cbn [app].
    rewrite <- !app_assoc. cbn [app]. now rewrite <- !app_assoc. }
  destruct (g_cs (b_where (cs_base c))) as [|x xs] eqn:Eg; cbn [nonempty] in *.
  - destruct we as [e|]; [destruct Hs as [Hs _]; congruence|]. destruct w as [w|]; [contradiction|].
    injection E as <- <-. eexists _, [], None. split; [reflexivity|]. split; [split; auto|]. split; [exists (join " " (b_tokens (cs_base c))); split; [exact E0|exact HB]|].
    unfold parse_select. rewrite <- (app_nil_r [op_string DoSelect; _; _; _]), L.
    exact (p_select_ok _ _ (b_table (cs_base c)) _ None None [] None None Hp Hf Hj I (Forall_nil _)).
  - destruct we as [e|]; [|destruct Hs as [Hs _]; congruence]. destruct w as [w|]; [|contradiction].
    destruct (c_render (of_g (b_where (cs_base c))) 0) as [ws|] eqn:E1; [|discriminate].
    destruct (c_values (of_g (b_where (cs_base c)))) as [vs|] eqn:E2; [|discriminate].
    cbn [bind] in *. assert (Et : t = join " " (b_tokens (cs_base c) ++ ["WHERE"; ws])) by (unfold ok in E; congruence).
    assert (Ep : ps = vs) by (unfold ok in E; congruence). subst t ps. clear E. eexists _, vs, (Some e). split; [reflexivity|]. split; [exact Hs|]. split; [eexists; split; [exact E0|exact HB]|].
    unfold parse_select. rewrite L.
    assert (W : lex ws = w).
    { rewrite lex_base in El by (split; [|split]; assumption). cbn [flat_map] in El. apply app_inv_head in El.
      change (lex "WHERE") with [TKw "WHERE"] in El. cbn [app where_toks] in El. rewrite app_nil_r in El. congruence. }
    etransitivity; [|exact (p_select_ok _ _ (b_table (cs_base c)) _ (Some w) (Some e) [] None None Hp Hf Hj Hw (Forall_nil _))].
    cbn [flat_map where_toks order_toks bound_toks app]. rewrite W. change (lex "WHERE") with [TKw "WHERE"]. cbn [app].
    now rewrite !app_nil_r.
Qed.

(** * Insert *)

(** every field value is one parameter *)
Definition singles (fvs : list fvalue) (vs : list gval) : Prop := Forall2 (fun fv v => bound_values (fv_val fv) = Some [v]) fvs vs.
Definition expands (fvs : list fvalue) (vss : list (list gval)) : Prop := Forall2 (fun x vs => bound_values (fv_val x) = Some vs) fvs vss.
Lemma expands_fv fvs vss : expands fvs vss -> Forall2 (fun x vs => fv_values (fv_val x) = Ok vs) fvs vss.
Proof. induction 1; constructor; auto. now apply bound_values_iff. Qed.
Definition col_names (fvs : list fvalue) : list string := map (fun fv => f_name (fv_def fv)) fvs.

Lemma ins_loop_singles fvs vs : singles fvs vs -> forall ps,
  ins_loop ps fvs = Ok (col_names fvs, map dollar (seq (length ps + 1) (length vs)), (ps ++ vs)%list).
Proof.
  induction 1 as [|fv v fvs vs H _ IH]; intros ps; simpl; [now rewrite app_nil_r|].
  apply bound_values_iff in H. rewrite H. cbn [bind]. rewrite IH. cbn [bind]. rewrite app_length. simpl length. rewrite <- app_assoc. cbn [app].
  repeat f_equal. lia.
Qed.

Lemma lex_dollar n : lex (dollar n) = [TParam n].
Proof. pose proof (lex_param n "" eq_refl) as E. now rewrite app_nil_r_s in E. Qed.
Lemma lex_close s : lex (s ++ ")") = (lex s ++ [TRP])%list.
Proof. exact (lex_cut s ")" "" eq_refl). Qed.

Lemma p_ids_ok l : l <> [] -> p_ids (sep (map (fun c => [TId c]) l) ++ [TRP]) = Some l.
Proof.
  induction l as [|x [|y l] IH]; intros H; [congruence|reflexivity|]. specialize (IH ltac:(discriminate)).
  cbn [map] in *. change (sep ([TId x] :: [TId y] :: map (fun c => [TId c]) l))
    with ([TId x] ++ TComma :: sep ([TId y] :: map (fun c => [TId c]) l))%list.
  set (R := sep ([TId y] :: map (fun c => [TId c]) l)) in *. clearbody R. cbn [app].
  change (p_ids (TId x :: TComma :: (R ++ [TRP])%list)) with (match p_ids (R ++ [TRP]) with Some l => Some (x :: l) | None => None end).
  now rewrite IH.
Qed.
Lemma p_params_ok l : l <> [] -> p_params (sep (map (fun c => [TParam c]) l) ++ [TRP]) = Some l.
Proof.
  induction l as [|x [|y l] IH]; intros H; [congruence|reflexivity|]. specialize (IH ltac:(discriminate)).
  cbn [map] in *. change (sep ([TParam x] :: [TParam y] :: map (fun c => [TParam c]) l))
    with ([TParam x] ++ TComma :: sep ([TParam y] :: map (fun c => [TParam c]) l))%list.
  set (R := sep ([TParam y] :: map (fun c => [TParam c]) l)) in *. clearbody R. cbn [app].
  change (p_params (TParam x :: TComma :: (R ++ [TRP])%list)) with (match p_params (R ++ [TRP]) with Some l => Some (x :: l) | None => None end).
  now rewrite IH.
Qed.

Lemma insert_parse t cols ns : qname t -> Forall (fun c => name c = true) cols -> cols <> [] -> ns <> [] ->
  parse_insert (join " " ["INSERT"; "INTO"; t ++ "(" ++ join ", " cols ++ ")"; "VALUES"; "(" ++ join ", " (map dollar ns) ++ ")"]) =
  Some (mkIns t cols ns).
Proof.
  intros Ht Hc Hcn Hnn. unfold parse_insert. rewrite lex_join. cbn [flat_map].
  change (lex "INSERT") with [TKw "INSERT"]. change (lex "INTO") with [TKw "INTO"]. change (lex "VALUES") with [TKw "VALUES"].
  rewrite lex_qname by (auto; reflexivity).
  assert (O : forall x, lex ("(" ++ x) = TLP :: lex x) by reflexivity. rewrite !O, !lex_close.
  assert (E1 : lex (join ", " cols) = sep (map (fun c => [TId c]) cols)).
  { rewrite <- (map_id cols) at 1. apply lex_commas. intros c Hin. apply lex_name. rewrite Forall_forall in Hc. auto. }
  rewrite E1, (lex_commas dollar (fun n => [TParam n])) by (intros; apply lex_dollar).
  rewrite app_nil_r. cbn [app]. unfold p_insert. simpl (_ && _). cbv iota.
  rewrite (until_app ["VALUES"]).
  - rewrite p_ids_ok, p_params_ok by assumption. reflexivity.
  - apply free_app; [|repeat constructor]. apply sep_Forall; [reflexivity|]. apply Forall_forall.
    intros x Hx. apply in_map_iff in Hx as (c & <- & _). repeat constructor.
  - right. eexists _, _. split; reflexivity.
Qed.

Lemma insert_build i vs : qname (i_table i) -> i_values i <> [] -> singles (i_values i) vs ->
  Forall (fun c => name c = true) (col_names (i_values i)) ->
  exists s, i_build i = Ok (ok s vs) /\ parse_insert s = Some (mkIns (i_table i) (col_names (i_values i)) (seq 1 (length vs))).
Proof.
  intros Ht Hn Hs Hc. unfold i_build. destruct (i_values i) as [|fv fvs] eqn:Ev; [congruence|]. cbn [nonempty negb].
  destruct (is_empty (i_table i)) eqn:Ee.
  { rewrite <- empty_eqb in Ee; apply String.eqb_eq in Ee. exfalso. now apply (qname_nonempty _ Ht). }
  rewrite <- Ev in *. rewrite (ins_loop_singles _ _ Hs). cbn [bind length Nat.add app].
  eexists. split; [reflexivity|]. apply insert_parse; auto.
  - rewrite Ev. discriminate.
  - rewrite Ev in Hs. inversion Hs; subst. discriminate.
Qed.

(** * Update *)

Lemma first_values fvs vs : singles fvs vs -> mapM first_value fvs = Ok vs.
Proof.
  induction 1 as [|fv v fvs vs H _ IH]; [reflexivity|]. cbn [mapM]. unfold first_value at 1. apply bound_values_iff in H. rewrite H. cbn [bind].
  rewrite IH. reflexivity.
Qed.

Definition set_toks (p : string * nat) : list tok := [TId (fst p); TEq; TParam (snd p)].
Lemma p_sets_ok l : l <> [] -> p_sets (sep (map set_toks l)) = Some l.
Proof.
  induction l as [|x [|y l] IH]; intros H; [congruence|destruct x; reflexivity|]. specialize (IH ltac:(discriminate)).
  cbn [map] in *. change (sep (set_toks x :: set_toks y :: map set_toks l))
    with (set_toks x ++ TComma :: sep (set_toks y :: map set_toks l))%list.
  set (R := sep (set_toks y :: map set_toks l)) in *. clearbody R. cbn [app set_toks].
  change (p_sets (TId (fst x) :: TEq :: TParam (snd x) :: TComma :: R))
    with (match p_sets R with Some l => Some ((fst x, snd x) :: l) | None => None end).
  rewrite IH. now destruct x.
Qed.

Lemma combine_sets {A} (f : A -> string) fvs k :
  map (fun p => f (snd p) ++ "=" ++ dollar (fst p + 1)) (combine (seq k (length fvs)) fvs) =
  map (fun p => fst p ++ "=" ++ dollar (snd p)) (combine (map f fvs) (seq (k + 1) (length fvs))).
Proof.
  revert k. induction fvs as [|x fvs IH]; intros k; [reflexivity|]. cbn [length seq combine map fst snd]. now rewrite IH.
Qed.

Lemma update_parse t cols ns w e : qname t -> Forall (fun c => name c = true) cols -> cols <> [] -> length ns = length cols ->
  parse (lex w) = Some e ->
  parse_update (join " " ["UPDATE"; t; "SET"; join ", " (map (fun p => fst p ++ "=" ++ dollar (snd p)) (combine cols ns)); "WHERE"; w]) =
  Some (mkUpd t (combine cols ns) e).
Proof.
  intros Ht Hc Hn Hl Hw. unfold parse_update. rewrite lex_join. cbn [flat_map].
  change (lex "UPDATE") with [TKw "UPDATE"]. change (lex "SET") with [TKw "SET"]. change (lex "WHERE") with [TKw "WHERE"].
  rewrite (lex_q t Ht), app_nil_r.
  rewrite (lex_commas _ set_toks).
  - cbn [app]. unfold p_update. simpl (_ && _). cbv iota. rewrite (until_app ["WHERE"]).
    + rewrite p_sets_ok; [simpl; now rewrite Hw|]. destruct cols; [congruence|]. destruct ns; [discriminate|discriminate].
    + apply sep_Forall; [reflexivity|]. apply Forall_forall. intros x Hx. apply in_map_iff in Hx as (c & <- & _). repeat constructor.
    + right. eexists _, _. split; reflexivity.
  - intros [c n] Hin. apply in_combine_l in Hin. rewrite Forall_forall in Hc. cbn [fst snd set_toks].
    rewrite lex_qname; [|constructor; auto|reflexivity]. f_equal.
    change (lex ("=" ++ dollar n)) with (TEq :: lex (dollar n)). now rewrite lex_dollar.
Qed.

Lemma update_build rho u vs : qname (u_table u) -> u_values u <> [] -> singles (u_values u) vs ->
  Forall (fun c => name c = true) (col_names (u_values u)) -> g_cs (u_where u) <> [] ->
  wf (of_g (u_where u)) -> sound rho (of_g (u_where u)) ->
  exists s ws e v, u_build u = Ok (ok s (vs ++ ws)%list) /\ c_values (of_g (u_where u)) = Ok ws /\
    parse_update s = Some (mkUpd (u_table u) (combine (col_names (u_values u)) (seq 1 (length vs))) e) /\
    reads (of_g (u_where u)) (length vs) e /\ means rho (of_g (u_where u)) v /\ eval rho (vs ++ ws)%list e = Some v.
Proof.
  intros Ht Hn Hs Hc Hg Hw Hso. unfold u_build.
  destruct (g_cs (u_where u)) as [|x xs] eqn:Eg; [congruence|]. cbn [nonempty negb].
  destruct (u_values u) as [|fv fvs] eqn:Ev; [congruence|]. cbn [nonempty negb].
  destruct (is_empty (u_table u)) eqn:Ee.
  { rewrite <- empty_eqb in Ee; apply String.eqb_eq in Ee. exfalso. now apply (qname_nonempty _ Ht). }
  rewrite <- Ev in *. unfold fields_and_values. rewrite (first_values _ _ Hs). cbn [bind].
  destruct (where_sem rho (u_where u) (length vs) Hw Hso) as (s & ws & e & v & E1 & E2 & E3 & Hm & He).
  rewrite E1, E2. cbn [bind]. eexists _, ws, e, v. split; [reflexivity|]. split; [reflexivity|].
  split; [|split; [exists s; auto|split; [exact Hm|]]].
  - rewrite (combine_sets (fun fv => f_name (fv_def fv))). cbn [Nat.add].
    assert (L : length (u_values u) = length vs) by (unfold singles in Hs; clear -Hs; induction Hs; simpl; congruence). rewrite L.
    apply update_parse; auto.
    + unfold col_names. rewrite Ev. discriminate.
    + unfold col_names. now rewrite seq_length, map_length.
  - specialize (He vs [] eq_refl). now rewrite app_nil_r in He.
Qed.

(** * Delete *)

Lemma delete_build rho d : qname (d_table d) -> g_cs (d_where d) <> [] ->
  wf (of_g (d_where d)) -> sound rho (of_g (d_where d)) ->
  exists s ws e v, d_build d = Ok (ok s ws) /\ c_values (of_g (d_where d)) = Ok ws /\
    parse_delete s = Some (mkDel (d_table d) e) /\ reads (of_g (d_where d)) 0 e /\
    means rho (of_g (d_where d)) v /\ eval rho ws e = Some v.
Proof.
  intros Ht Hg Hw Hso. unfold d_build.
  destruct (g_cs (d_where d)) as [|x xs] eqn:Eg; [congruence|]. cbn [nonempty negb].
  destruct (is_empty (d_table d)) eqn:Ee.
  { rewrite <- empty_eqb in Ee; apply String.eqb_eq in Ee. exfalso. now apply (qname_nonempty _ Ht). }
  destruct (where_sem rho (d_where d) 0 Hw Hso) as (s & ws & e & v & E1 & E2 & E3 & Hm & He).
  rewrite E1, E2. cbn [bind]. eexists _, ws, e, v. split; [reflexivity|]. split; [reflexivity|].
  split; [|split; [exists s; auto|split; [exact Hm|]]].
  - unfold parse_delete. rewrite lex_join. cbn [flat_map]. rewrite (lex_q _ Ht), app_nil_r.
    change (lex "DELETE") with [TKw "DELETE"]. change (lex "FROM") with [TKw "FROM"]. change (lex "WHERE") with [TKw "WHERE"].
    cbn [app]. unfold p_delete. simpl (_ && _). cbv iota. unfold p_where. cbn [is_kw]. simpl String.eqb. cbv iota. now rewrite E3.
  - specialize (He [] [] eq_refl). now rewrite app_nil_r in He.
Qed.

(** * Histories *)

Lemma calls_app {A B} (f : A -> B -> res A) a l l' :
  calls f a (l ++ l') = match calls f a l with Ok a' => calls f a' l' | Panic => Panic end.
Proof. revert a; induction l as [|x l IH]; intros a; simpl; [reflexivity|]. destruct (f a x); auto. Qed.

Lemma calls_m_and g css : calls m_and (of_g g) css = match calls group_and g css with Ok r => Ok (of_g r) | Panic => Panic end.
Proof.
  revert g; induction css as [|cs css IH]; intros g; [reflexivity|]. simpl. unfold of_g at 1. cbn [m_and].
  destruct g as [j n l br]; cbn [g_join g_neg g_cs g_br of_g].
  destruct (group_and _ cs) as [r|]; simpl; [apply IH|reflexivity].
Qed.

(** the where group is empty exactly when no condition was given *)
Lemma bind_inv {A B} (e : res A) (f : A -> res B) y : bind e f = Ok y -> exists x, e = Ok x /\ f x = Ok y.
Proof. destruct e; simpl; intros H; [eauto|discriminate]. Qed.
Ltac unbind := repeat match goal with
  | H : bind _ _ = Ok _ |- _ => apply bind_inv in H as (? & ? & H)
  | H : (if ?b then _ else _) = Ok _ |- _ => destruct b
  | H : Ok _ = Ok _ |- _ => injection H as <-
  | H : Panic = Ok _ |- _ => discriminate
  end.
Lemma add_group_grows g a r : g_cs g <> [] -> add_group g a = Ok r -> g_cs r <> [].
Proof.
  intros Hg E. unfold add_group in E. destruct (g_cs g) as [|x xs] eqn:Eg; [congruence|]. simpl (_ =? 0) in E.
  cbv zeta in E. unbind; cbn [g_cs set_cs]; try discriminate; rewrite ?Eg; discriminate.
Qed.
Lemma add_single_grows g c r : g_cs g <> [] -> add_single g c = Ok r -> g_cs r <> [].
Proof.
  intros Hg E. unfold add_single in E. destruct (as_group c) as [a|].
  - unbind. eapply add_group_grows; eauto.
  - destruct (g_cs g) as [|x xs] eqn:Eg; [congruence|]. simpl (_ =? 0) in E.
    cbv zeta in E. unbind; cbn [g_cs set_cs]; try discriminate; rewrite ?Eg; discriminate.
Qed.
Lemma add_conditions_grows op g cs r : add_conditions op g cs = Ok r -> (g_cs r = [] <-> g_cs g = [] /\ cs = []).
Proof.
  intros E. unfold add_conditions in E. unbind. destruct cs as [|c cs]; [injection E as <-; tauto|].
  destruct (g_cs g) as [|y ys] eqn:Eg; [injection E as <-; simpl; split; [discriminate|intros [_ ?]; discriminate]|].
  split; [|intros [? _]; discriminate]. intros Er. exfalso. revert Er.
  destruct cs as [|c2 cs].
  - unbind. eapply add_single_grows; [|exact E]. rewrite Eg. discriminate.
  - unbind; cbn [g_cs set_cs]; try discriminate; rewrite ?Eg; discriminate.
Qed.
Lemma where_grows css : forall g r, calls group_and g css = Ok r -> (g_cs r = [] <-> g_cs g = [] /\ List.concat css = []).
Proof.
  induction css as [|cs css IH]; intros g r E; simpl in *; [injection E as <-; tauto|].
  destruct (group_and g cs) as [g1|] eqn:E1; [|discriminate]. rewrite (IH g1 r E), (add_conditions_grows _ _ _ _ E1).
  destruct cs; simpl; [tauto|]. split; [intros [[_ ?] _]|intros [_ ?]]; discriminate.
Qed.

(** ** Base selects *)

(** the state of a builder in terms of what was asked for *)
Definition b_is (b : bsel) (t : tident) (fs : list fdef) (js : list joiner) (css : list (list cond)) : Prop :=
  b_op b = DoSelect /\ b_table b = t /\ b_fields b = fs /\ b_joins b = js /\ calls group_and empty_group css = Ok (b_where b).

Lemma select_from_is p b : select_from p = Ok b -> exists t, table_p p = Ok t /\ b_is b t [] [] [].
Proof.
  unfold select_from. intros E. apply bind_inv in E as (t & Et & [= <-]). exists t. split; [|repeat split].
  destruct p; exact Et.
Qed.

Lemma on_last_join js t jt l r : on_last (js ++ [mkJ t jt zero_jcond]) l r = Ok (js ++ [mkJ t jt (mkJC l r)])%list.
Proof. unfold on_last. rewrite rev_unit. now rewrite rev_involutive. Qed.

Lemma b_call_is b c b' t fs js css : b_is b t fs js css -> b_call b c = Ok b' ->
  b_is b' t (match bc_fields c with Some f => f | None => fs end) (js ++ bc_join c) (css ++ bc_where c).
Proof.
  intros (H1 & H2 & H3 & H4 & H5) E. destruct c as [f|cs|u jt l r]; simpl in E; cbn [bc_fields bc_join bc_where].
  - injection E as <-. rewrite !app_nil_r. repeat split; auto.
  - unfold b_add_where in E. apply bind_inv in E as (g & Eg & [= <-]). rewrite app_nil_r. repeat split; auto.
    cbn [b_where b_set_where]. rewrite calls_app, H5. simpl. now rewrite Eg.
  - unfold b_join, b_on, b_join_open in E. cbn [b_joins b_set_joins] in E. rewrite on_last_join in E. simpl in E.
    injection E as <-. rewrite app_nil_r. repeat split; auto. cbn [b_joins b_set_joins]. now rewrite H4.
Qed.
Lemma b_calls_is h : forall b b' t fs js css, b_is b t fs js css -> calls b_call b h = Ok b' ->
  b_is b' t (last_of bc_fields fs h) (js ++ flat_map bc_join h) (css ++ flat_map bc_where h).
Proof.
  induction h as [|c h IH]; intros b b' t fs js css Hb E; simpl in *.
  - injection E as <-. now rewrite !app_nil_r.
  - destruct (b_call b c) as [b1|] eqn:E1; [|discriminate]. pose proof (b_call_is _ _ _ _ _ _ _ Hb E1) as H1.
    specialize (IH _ _ _ _ _ _ H1 E). now rewrite <- !app_assoc in IH.
Qed.

(** ** Select many *)

Definition m_is (m : msel) t fs js css os off lim : Prop :=
  b_is (m_base m) t fs js css /\ m_order m = os /\ m_offset m = off /\ m_limit m = lim.
Definition opt {A} (o : option A) (d : A) : A := match o with Some x => x | None => d end.

Lemma m_join_is m tn jt l r m' t fs js css os off lim : m_is m t fs js css os off lim -> m_join m tn jt l r = Ok m' ->
  m_is m' t fs (js ++ mc_join (MJoin tn jt l r)) css os off lim.
Proof.
  intros (Hb & Ho & Hf & Hl) E. unfold m_join in E. apply bind_inv in E as (u & Eu & E). apply bind_inv in E as (b & Eb & [= <-]).
  cbn [mc_join]. rewrite Eu. pose proof (b_call_is _ (BJoin u jt l r) _ _ _ _ _ Hb Eb) as H. simpl in H. rewrite app_nil_r in H.
  repeat split; auto; apply H.
Qed.
Lemma m_call_is m c m' t fs js css os off lim : m_is m t fs js css os off lim -> m_call m c = Ok m' ->
  m_is m' t (opt (mc_fields c) fs) (js ++ mc_join c) (css ++ mc_where c) (os ++ mc_order c) (opt (mc_offset c) off) (opt (mc_limit c) lim).
Proof.
  intros H E. destruct c as [f|cs|tn jt l r|o|o|o]; cbn [m_call] in E; cbn [mc_fields mc_join mc_where mc_order mc_offset mc_limit opt];
    rewrite ?app_nil_r.
  - injection E as <-. destruct H as (Hb & Ho & Hf & Hl). repeat split; auto; apply Hb.
  - unfold m_add_where in E. apply bind_inv in E as (b & Eb & [= <-]). destruct H as (Hb & Ho & Hf & Hl).
    pose proof (b_call_is _ (BWhere cs) _ _ _ _ _ Hb Eb) as K. simpl in K. rewrite app_nil_r in K.
    repeat split; auto; apply K.
  - eapply m_join_is; eauto.
  - injection E as <-. destruct H as (Hb & Ho & Hf & Hl). repeat split; auto; try apply Hb. simpl. now rewrite Ho.
  - injection E as <-. destruct H as (Hb & Ho & Hf & Hl). repeat split; auto; apply Hb.
  - injection E as <-. destruct H as (Hb & Ho & Hf & Hl). repeat split; auto; apply Hb.
Qed.
Lemma m_calls_is h : forall m m' t fs js css os off lim, m_is m t fs js css os off lim -> calls m_call m h = Ok m' ->
  m_is m' t (last_of mc_fields fs h) (js ++ flat_map mc_join h) (css ++ flat_map mc_where h) (os ++ flat_map mc_order h)
    (last_of mc_offset off h) (last_of mc_limit lim h).
Proof.
  induction h as [|c h IH]; intros m m' t fs js css os off lim Hb E; simpl in *.
  - injection E as <-. now rewrite !app_nil_r.
  - destruct (m_call m c) as [b1|] eqn:E1; [|discriminate]. pose proof (m_call_is _ _ _ _ _ _ _ _ _ _ Hb E1) as H1.
    specialize (IH _ _ _ _ _ _ _ _ _ H1 E). now rewrite <- !app_assoc in IH.
Qed.

(** ** Select single (without Fields, which loses the rest, see C31) *)

Definition no_fields (c : scall) : Prop := match c with SFields _ => False | _ => True end.
Lemma s_call_is s c s' t fs js css : no_fields c -> b_is (ss_base s) t fs js css -> s_call s c = Ok s' ->
  b_is (ss_base s') t fs (js ++ sc_join c) (css ++ sc_where c).
Proof.
  intros Hn Hb E. destruct c as [f|cs|tn jt l r]; [contradiction| |]; cbn [s_call] in E; cbn [sc_join sc_where]; rewrite ?app_nil_r.
  - unfold ss_add_where in E. apply bind_inv in E as (b & Eb & [= <-]).
    pose proof (b_call_is _ (BWhere cs) _ _ _ _ _ Hb Eb) as K. simpl in K. now rewrite app_nil_r in K.
  - unfold ss_join in E. apply bind_inv in E as (u & Eu & E). apply bind_inv in E as (b & Eb & [= <-]). rewrite Eu.
    pose proof (b_call_is _ (BJoin u jt l r) _ _ _ _ _ Hb Eb) as H. simpl in H. now rewrite app_nil_r in H.
Qed.
Lemma s_calls_is h : forall s s' t fs js css, Forall no_fields h -> b_is (ss_base s) t fs js css -> calls s_call s h = Ok s' ->
  b_is (ss_base s') t fs (js ++ flat_map sc_join h) (css ++ flat_map sc_where h).
Proof.
  induction h as [|c h IH]; intros s s' t fs js css Hn Hb E; simpl in *.
  - injection E as <-. now rewrite !app_nil_r.
  - inversion Hn as [|? ? N1 N2]; subst.
    destruct (s_call s c) as [b1|] eqn:E1; [|discriminate]. pose proof (s_call_is _ _ _ _ _ _ _ N1 Hb E1) as H1.
    specialize (IH _ _ _ _ _ _ N2 H1 E). now rewrite <- !app_assoc in IH.
Qed.

(** ** Insert, update, delete *)

Lemma i_calls_is h : forall i i', calls i_call i h = Ok i' ->
  i_op i' = i_op i /\ i_table i' = i_table i /\ i_values i' = (i_values i ++ List.concat h)%list.
Proof.
  induction h as [|vs h IH]; intros i i' E; simpl in *; [injection E as <-; now rewrite app_nil_r|].
  apply IH in E as (E1 & E2 & E3). cbn in *. now rewrite <- app_assoc in E3.
Qed.
Lemma u_calls_is h : forall u u' css, calls group_and empty_group css = Ok (u_where u) -> calls u_call u h = Ok u' ->
  u_op u' = u_op u /\ u_table u' = u_table u /\ u_values u' = (u_values u ++ flat_map uc_set h)%list /\
  calls group_and empty_group (css ++ flat_map uc_where h) = Ok (u_where u').
Proof.
  induction h as [|c h IH]; intros u u' css Hw E; simpl in *; [injection E as <-; rewrite !app_nil_r; auto|].
  destruct c as [vs|cs]; cbn [u_call uc_set uc_where flat_map app] in *.
  - apply (IH _ _ css) in E as (E1 & E2 & E3 & E4); [|exact Hw]. cbn in *. rewrite <- app_assoc in E3. auto.
  - destruct (u_add_where u cs) as [u1|] eqn:Eu; [|discriminate]. unfold u_add_where in Eu.
    apply bind_inv in Eu as (g & Eg & [= <-]).
    apply (IH _ _ (css ++ [cs])%list) in E as (E1 & E2 & E3 & E4).
    + cbn in *. rewrite <- app_assoc in E4. auto.
    + rewrite calls_app, Hw. simpl. now rewrite Eg.
Qed.
Lemma d_calls_is h : forall d d' css, calls group_and empty_group css = Ok (d_where d) -> calls d_add_where d h = Ok d' ->
  d_op d' = d_op d /\ d_table d' = d_table d /\ calls group_and empty_group (css ++ h) = Ok (d_where d').
Proof.
  induction h as [|cs h IH]; intros d d' css Hw E; simpl in *; [injection E as <-; rewrite !app_nil_r; auto|].
  destruct (d_add_where d cs) as [u1|] eqn:Eu; [|discriminate]. unfold d_add_where in Eu.
  apply bind_inv in Eu as (g & Eg & [= <-]).
  apply (IH _ _ (css ++ [cs])%list) in E as (E1 & E2 & E4).
  - cbn in *. rewrite <- app_assoc in E4. auto.
  - rewrite calls_app, Hw. simpl. now rewrite Eg.
Qed.

(** ** The where group asked for *)

(** conditions the statement theorems are about: made with the API (or by the user),
    without empty groups, each leaf rendering an SQL operand on the row *)
Definition usable (rho : row) (c : cond) : Prop := built c /\ no_empty c /\ sound rho c.

Lemma concat_Forall {A} (P : A -> Prop) l : Forall P (List.concat l) <-> Forall (Forall P) l.
Proof.
  induction l as [|x l IH]; simpl; [split; constructor|]. rewrite Forall_app, IH. split.
  - intros [H1 H2]. now constructor.
  - inversion 1; auto.
Qed.

Lemma where_group rho css : forall g r, g_ok g -> Forall (sound rho) (g_cs g) -> Forall (usable rho) (List.concat css) ->
  calls group_and g css = Ok r -> g_ok r /\ Forall (sound rho) (g_cs r).
Proof.
  induction css as [|cs css IH]; intros g r Hg Hs Hu E; simpl in *; [injection E as <-; auto|].
  apply Forall_app in Hu as [Hu1 Hu2]. destruct (group_and g cs) as [g1|] eqn:E1; [|discriminate].
  assert (Hw : Forall wf cs).
  { rewrite Forall_forall in *. intros c Hc. destruct (Hu1 c Hc) as (H1 & H2 & _). now apply built_wf. }
  assert (Hcs : Forall (sound rho) cs) by (rewrite Forall_forall in *; intros c Hc; now apply Hu1).
  destruct (add_conditions_wf AND g cs (or_introl eq_refl) Hg Hw) as (g1' & E1' & Hok & _ & Hco).
  unfold group_and in E1. rewrite E1 in E1'. injection E1' as <-.
  apply (IH g1 r); auto. apply sound_grp with (j := AND) (n := false) (br := false).
  pose proof (sound_of_g rho g1 (g_cs g) cs Hco Hs Hcs) as K. unfold of_g in K. apply sound_grp in K. now apply sound_grp.
Qed.

Lemma empty_ok : g_ok empty_group. Proof. split; [now left|constructor]. Qed.

Lemma where_ready_calls rho css g : Forall (usable rho) (List.concat css) -> calls group_and empty_group css = Ok g ->
  where_ready rho g.
Proof.
  intros Hu E. destruct (where_group rho css empty_group g empty_ok (Forall_nil _) Hu E) as [H1 H2].
  destruct (g_cs g) as [|c cs] eqn:Eg; [now left|]. right. split.
  - apply g_ok_wf; [exact H1|]. rewrite Eg. discriminate.
  - unfold of_g. apply sound_grp. now rewrite Eg.
Qed.

(** the WHERE expression [we] with parameters [ps] says what condition [c] says *)
Definition where_as (rho : row) (c : option cond) (we : option expr) (ps : list gval) : Prop :=
  match c, we with
  | None, None => True
  | Some c, Some e => reads c 0 e /\ exists v, means rho c v /\ eval rho ps e = Some v
  | _, _ => False
  end.
Definition cond_values (c : option cond) (vs : list gval) : Prop :=
  match c with None => vs = [] | Some c => c_values c = Ok vs end.

Lemma where_says_wanted rho css g we ps : calls group_and empty_group css = Ok g -> where_says rho g we ps ->
  exists c, wanted css c /\ cond_values c ps /\ forall post, where_as rho c we (ps ++ post).
Proof.
  intros E H. pose proof (where_grows css empty_group g E) as Hg. destruct we as [e|]; simpl in H.
  - destruct H as (Hn & Hv & Hr & v & Hm & He). exists (Some (of_g g)). split; [split|split].
    + intros Hc. apply Hn, Hg. split; [reflexivity|exact Hc].
    + change (CGrp AND false [] false) with (of_g empty_group). rewrite calls_m_and, E. reflexivity.
    + exact Hv.
    + intros post. split; [exact Hr|]. exists v. auto.
  - destruct H as (Hn & ->). exists None. split; [|split; [reflexivity|intros; exact I]]. apply Hg in Hn. apply Hn.
Qed.
