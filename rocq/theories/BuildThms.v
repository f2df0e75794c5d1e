(** Lemmas behind the builder properties. *)
From Coq Require Import String Ascii List Bool Arith Lia NArith ZArith.
From Verif Require Import GoStr Value Names Cond Build SqlSpec Spec StrFacts SqlFacts CondFacts CondText CondSem
  TreeFacts CondLogic CondMeaning Built CondThms NameFacts StmtFacts Calls BuildFacts.
Import ListNotations.
Local Open Scope string_scope.
Local Open Scope nat_scope.

(** * Calls with well-formed arguments *)

Definition wf_bcall (rho : row) (c : bcall) : Prop :=
  match c with
  | BFields fs => Forall wf_field fs
  | BWhere cs => Forall (usable rho) cs
  | BJoin t jt l r => wf_join (mkJ t jt (mkJC l r))
  end.
Definition wf_mcall (rho : row) (c : mcall) : Prop :=
  match c with
  | MFields fs => Forall wf_field fs
  | MWhere cs => Forall (usable rho) cs
  | MJoin tn jt l r => exists t, table tn = Ok t /\ wf_join (mkJ t jt (mkJC l r))
  | MOrder os => Forall wf_sort os
  | MOffset _ | MLimit _ => True
  end.
(** Fields excluded, see C31 *)
Definition wf_scall (rho : row) (c : scall) : Prop :=
  match c with
  | SFields _ => False
  | SWhere cs => Forall (usable rho) cs
  | SJoin tn jt l r => exists t, table tn = Ok t /\ wf_join (mkJ t jt (mkJC l r))
  end.

(** * No call panics *)

Lemma group_and_total rho g cs : g_ok g -> Forall (usable rho) cs -> exists r, group_and g cs = Ok r /\ g_ok r.
Proof.
  intros Hg Hu. assert (Hw : Forall wf cs).
  { rewrite Forall_forall in *. intros c Hc. destruct (Hu c Hc) as (H1 & H2 & _). now apply built_wf. }
  destruct (add_conditions_wf AND g cs (or_introl eq_refl) Hg Hw) as (r & E & Hok & _). eauto.
Qed.
Lemma b_join_total b t jt l r : exists b', b_join b t jt l r = Ok b' /\ b_where b' = b_where b.
Proof.
  unfold b_join, b_on, b_join_open. cbn [b_joins b_set_joins]. rewrite on_last_join. simpl. eexists. split; reflexivity.
Qed.
Lemma b_call_total rho b c : g_ok (b_where b) -> wf_bcall rho c -> exists b', b_call b c = Ok b' /\ g_ok (b_where b').
Proof.
  intros Hg Hc. destruct c as [fs|cs|t jt l r]; simpl in *.
  - eexists. split; [reflexivity|exact Hg].
  - unfold b_add_where. destruct (group_and_total rho (b_where b) cs Hg Hc) as (g & -> & Hr). eexists. split; [reflexivity|exact Hr].
  - destruct (b_join_total b t jt l r) as (b' & E & Ew). exists b'. split; [exact E|]. now rewrite Ew.
Qed.
Lemma m_call_total rho m c : g_ok (b_where (m_base m)) -> wf_mcall rho c ->
  exists m', m_call m c = Ok m' /\ g_ok (b_where (m_base m')).
Proof.
  intros Hg Hc. destruct c as [fs|cs|tn jt l r|os|o|o]; simpl in *; try (eexists; split; [reflexivity|exact Hg]).
  - unfold m_add_where. destruct (b_call_total rho (m_base m) (BWhere cs) Hg Hc) as (b' & E & Hb). simpl in E. rewrite E.
    eexists. split; [reflexivity|exact Hb].
  - destruct Hc as (t & Et & Hj). unfold m_join. rewrite Et. cbn [bind].
    destruct (b_call_total rho (m_base m) (BJoin t jt l r) Hg Hj) as (b' & E & Hb). simpl in E. rewrite E.
    eexists. split; [reflexivity|exact Hb].
Qed.
Lemma s_call_total rho s c : g_ok (b_where (ss_base s)) -> wf_scall rho c ->
  exists s', s_call s c = Ok s' /\ g_ok (b_where (ss_base s')).
Proof.
  intros Hg Hc. destruct c as [fs|cs|tn jt l r]; simpl in *; [contradiction| |].
  - unfold ss_add_where. destruct (b_call_total rho (ss_base s) (BWhere cs) Hg Hc) as (b' & E & Hb). simpl in E. rewrite E.
    eexists. split; [reflexivity|exact Hb].
  - destruct Hc as (t & Et & Hj). unfold ss_join. rewrite Et. cbn [bind].
    destruct (b_call_total rho (ss_base s) (BJoin t jt l r) Hg Hj) as (b' & E & Hb). simpl in E. rewrite E.
    eexists. split; [reflexivity|exact Hb].
Qed.
Lemma calls_total {A B} (f : A -> B -> res A) (I : A -> Prop) (W : B -> Prop) :
  (forall a x, I a -> W x -> exists a', f a x = Ok a' /\ I a') ->
  forall h a, I a -> Forall W h -> exists a', calls f a h = Ok a' /\ I a'.
Proof.
  intros H h. induction h as [|x h IH]; intros a Ha Hh; simpl; [eauto|]. inversion Hh; subst.
  destruct (H a x) as (a' & -> & Ha'); auto.
Qed.

(** * Arguments of a well-formed history *)

Lemma Forall_flat_map {A B} (P : B -> Prop) (f : A -> list B) l : Forall (fun x => Forall P (f x)) l -> Forall P (flat_map f l).
Proof. induction 1 as [|x l H _ IH]; simpl; [constructor|]. apply Forall_app; auto. Qed.
Lemma last_of_P {A B} (P : B -> Prop) (f : A -> option B) h : forall d,
  P d -> Forall (fun x => match f x with Some y => P y | None => True end) h -> P (last_of f d h).
Proof.
  induction h as [|x h IH]; intros d Hd Hh; simpl; [exact Hd|]. inversion Hh; subst. apply IH; auto. now destruct (f x).
Qed.
Lemma concat_flat {A} (P : cond -> Prop) (f : A -> list (list cond)) h :
  Forall (fun x => Forall (Forall P) (f x)) h -> Forall P (List.concat (flat_map f h)).
Proof. intros H. apply concat_Forall. now apply Forall_flat_map. Qed.

Lemma bcall_args rho h : Forall (wf_bcall rho) h ->
  Forall wf_field (last_of bc_fields [] h) /\ Forall wf_join (flat_map bc_join h) /\
  Forall (usable rho) (List.concat (flat_map bc_where h)).
Proof.
  intros H. repeat split.
  - apply last_of_P; [constructor|]. eapply Forall_impl; [|exact H]. intros [f|cs|t jt l r]; simpl; auto.
  - apply Forall_flat_map. eapply Forall_impl; [|exact H]. intros [f|cs|t jt l r]; simpl; auto.
  - apply concat_flat. eapply Forall_impl; [|exact H]. intros [f|cs|t jt l r]; simpl; auto.
Qed.
Lemma mcall_args rho h fs0 : Forall wf_field fs0 -> Forall (wf_mcall rho) h ->
  Forall wf_field (last_of mc_fields fs0 h) /\ Forall wf_join (flat_map mc_join h) /\
  Forall (usable rho) (List.concat (flat_map mc_where h)) /\ Forall wf_sort (flat_map mc_order h).
Proof.
  intros H0 H. repeat split.
  - apply last_of_P; [exact H0|]. eapply Forall_impl; [|exact H]. intros [f|cs|t jt l r|o|o|o]; simpl; auto.
  - apply Forall_flat_map. eapply Forall_impl; [|exact H]. intros [f|cs|t jt l r|o|o|o]; simpl; auto.
    intros (u & -> & Hj). auto.
  - apply concat_flat. eapply Forall_impl; [|exact H]. intros [f|cs|t jt l r|o|o|o]; simpl; auto.
  - apply Forall_flat_map. eapply Forall_impl; [|exact H]. intros [f|cs|t jt l r|o|o|o]; simpl; auto.
Qed.
Lemma scall_args rho h : Forall (wf_scall rho) h ->
  Forall no_fields h /\ Forall wf_join (flat_map sc_join h) /\ Forall (usable rho) (List.concat (flat_map sc_where h)).
Proof.
  intros H. repeat split.
  - eapply Forall_impl; [|exact H]. intros [f|cs|t jt l r]; simpl; auto.
  - apply Forall_flat_map. eapply Forall_impl; [|exact H]. intros [f|cs|t jt l r]; simpl; auto.
    intros (u & -> & Hj). auto.
  - apply concat_flat. eapply Forall_impl; [|exact H]. intros [f|cs|t jt l r]; simpl; auto.
Qed.

Lemma select_from_total p t : table_p p = Ok t -> exists b, select_from p = Ok b /\ b_is b t [] [] [].
Proof.
  intros E. assert (exists b, select_from p = Ok b) as (b & Eb).
  { unfold select_from, table. destruct p as [x|x|u]; [change (table_p (TPName x)) with (table_p (TPStr x))| |]; rewrite ?E; eexists; reflexivity. }
  exists b. split; [exact Eb|]. destruct (select_from_is p b Eb) as (t' & E' & H). rewrite E in E'. now injection E' as <-.
Qed.

(** * Whole histories *)

(** a base select reached from SelectFrom *)
Lemma base_history rho p t hb : table_p p = Ok t -> wf_table t -> Forall (wf_bcall rho) hb ->
  exists b0 b, select_from p = Ok b0 /\ calls b_call b0 hb = Ok b /\ g_ok (b_where b) /\
    b_is b t (last_of bc_fields [] hb) (flat_map bc_join hb) (flat_map bc_where hb).
Proof.
  intros Et Ht Hb. destruct (select_from_total p t Et) as (b0 & E0 & I0).
  assert (G0 : g_ok (b_where b0)).
  { destruct I0 as (_ & _ & _ & _ & E). injection E as <-. exact empty_ok. }
  destruct (calls_total b_call (fun b => g_ok (b_where b)) (wf_bcall rho)) with (h := hb) (a := b0) as (b & Eb & Gb); auto.
  { intros a x. apply b_call_total. }
  exists b0, b. split; [exact E0|]. split; [exact Eb|]. split; [exact Gb|]. exact (b_calls_is hb b0 b t [] [] [] I0 Eb).
Qed.

(** a LIMIT or OFFSET: absent if [n] is 0, otherwise a placeholder bound to [n] *)
Definition bound_to (ps : list gval) (o : option bound) (n : N) : Prop :=
  if (0 <? n)%N then exists k, o = Some (BParam (S k)) /\ nth_error ps k = Some (VUint n) else o = None.
Definition page_values (off lim : N) : list gval := map (fun p => VUint (snd p)) (page off lim).

Lemma page_params_values m : page_params m = page_values (m_offset m) (Z.to_N (m_limit m)).
Proof.
  unfold page_params, page_values, page. rewrite map_app. f_equal; [now destruct (0 <? m_offset m)%N|].
  destruct (Z.ltb_spec 0 (m_limit m)); destruct (N.ltb_spec 0 (Z.to_N (m_limit m))); auto; lia.
Qed.
Lemma limit_pos l : (0 <? Z.to_N l)%N = (0 <? l)%Z.
Proof. destruct (Z.ltb_spec 0 l); destruct (N.ltb_spec 0 (Z.to_N l)); auto; lia. Qed.
Lemma bounds_ok m ps : let qs := (ps ++ page_params m)%list in
  bound_to qs (off_bound m (length ps)) (m_offset m) /\ bound_to qs (lim_bound m (length ps)) (Z.to_N (m_limit m)).
Proof.
  cbv zeta. unfold bound_to, off_bound, lim_bound, page_params. rewrite limit_pos. split.
  - destruct (0 <? m_offset m)%N; [|reflexivity]. exists (length ps). rewrite Nat.add_1_r. split; [reflexivity|].
    rewrite nth_error_app2 by lia. now rewrite Nat.sub_diag.
  - destruct (0 <? m_limit m)%Z; [|reflexivity]. destruct (0 <? m_offset m)%N.
    + exists (length ps + 1). split; [do 2 f_equal; lia|]. rewrite nth_error_app2 by lia.
      now replace (length ps + 1 - length ps) with 1 by lia.
    + exists (length ps). split; [do 2 f_equal; lia|]. rewrite nth_error_app2 by lia. now rewrite Nat.sub_diag.
Qed.

Lemma many_history rho p t hb hm : table_p p = Ok t -> wf_table t -> Forall (wf_bcall rho) hb -> Forall (wf_mcall rho) hm ->
  exists b0 b m s ps vs c sel,
    select_from p = Ok b0 /\ calls b_call b0 hb = Ok b /\ calls m_call (many_of b) hm = Ok m /\
    m_build m = Ok (mkOut s ps None) /\ parse_select s = Some sel /\
    s_cols sel = cols_item (last_of mc_fields (last_of bc_fields [] hb) hm) /\
    s_from sel = table_item t /\
    s_joins sel = map join_item (flat_map bc_join hb ++ flat_map mc_join hm) /\
    s_order sel = map sort_item (flat_map mc_order hm) /\
    wanted (flat_map bc_where hb ++ flat_map mc_where hm) c /\ cond_values c vs /\ where_as rho c (s_where sel) ps /\
    let off := last_of mc_offset 0%N hm in
    let lim := Z.to_N (last_of mc_limit (-1)%Z hm) in
    ps = (vs ++ page_values off lim)%list /\ bound_to ps (s_offset sel) off /\ bound_to ps (s_limit sel) lim.
Proof.
  intros Et Ht Hb Hm. destruct (base_history rho p t hb Et Ht Hb) as (b0 & b & E0 & Eb & Gb & Ib).
  destruct (calls_total m_call (fun m => g_ok (b_where (m_base m))) (wf_mcall rho)) with (h := hm) (a := many_of b) as (m & Em & Gm); auto.
  { intros a x. apply m_call_total. }
  destruct (m_calls_is hm (many_of b) m t _ _ _ [] 0%N (-1)%Z (conj Ib (conj eq_refl (conj eq_refl eq_refl))) Em)
    as ((_ & I2 & I3 & I4 & I5) & Io & If & Il).
  destruct (bcall_args rho hb Hb) as (A1 & A2 & A3). destruct (mcall_args rho hm _ A1 Hm) as (B1 & B2 & B3 & B4).
  assert (Hu : Forall (usable rho) (List.concat (flat_map bc_where hb ++ flat_map mc_where hm))).
  { rewrite List.concat_app. apply Forall_app; auto. }
  destruct (many_build rho m) as (s & vs & we & E1 & E2 & _ & E3).
  { split; [now rewrite I3|]. split; [now rewrite I2|]. rewrite I4. apply Forall_app; auto. }
  { now rewrite Io. }
  { eapply where_ready_calls; [exact Hu|exact I5]. }
  destruct (where_says_wanted rho _ _ _ _ I5 E2) as (c & W1 & W2 & W3).
  pose proof (page_params_values m) as Pv. pose proof (bounds_ok m vs) as Bv. cbv zeta in Bv.
  exists b0, b, m, s, (vs ++ page_params m)%list, vs, c. eexists. rewrite If, Il in *. cbn [app] in Io.
  repeat (split; [first [eassumption|reflexivity]|]).
  cbn [s_cols s_from s_joins s_order s_where s_offset s_limit]. rewrite I2, I3, I4, Io.
  repeat (split; [first [eassumption|reflexivity|apply W3]|]). cbv zeta. rewrite <- Pv. auto.
Qed.

Lemma single_history rho p t hb hs : table_p p = Ok t -> wf_table t -> Forall (wf_bcall rho) hb -> Forall (wf_scall rho) hs ->
  exists b0 b q s s0 ps c sel,
    select_from p = Ok b0 /\ calls b_call b0 hb = Ok b /\ calls s_call (single_of b) hs = Ok q /\
    ss_build q = Ok (mkOut s ps None) /\ b_build (ss_base q) = Ok (mkOut s0 ps None) /\
    parse_select s0 = Some sel /\
    sel = mkSel (cols_item (last_of bc_fields [] hb)) (table_item t)
            (map join_item (flat_map bc_join hb ++ flat_map sc_join hs)) (s_where sel) [] None None /\
    parse_select s = Some (mkSel (s_cols sel) (s_from sel) (s_joins sel) (s_where sel) [] None (Some (BLit 1))) /\
    wanted (flat_map bc_where hb ++ flat_map sc_where hs) c /\ cond_values c ps /\ where_as rho c (s_where sel) ps.
Proof.
  intros Et Ht Hb Hs. destruct (base_history rho p t hb Et Ht Hb) as (b0 & b & E0 & Eb & Gb & Ib).
  destruct (calls_total s_call (fun m => g_ok (b_where (ss_base m))) (wf_scall rho)) with (h := hs) (a := single_of b) as (q & Eq & Gq); auto.
  { intros a x. apply s_call_total. }
  destruct (bcall_args rho hb Hb) as (A1 & A2 & A3). destruct (scall_args rho hs Hs) as (B1 & B2 & B3).
  destruct (s_calls_is hs (single_of b) q t _ _ _ B1 Ib Eq) as (_ & I2 & I3 & I4 & I5).
  assert (Hu : Forall (usable rho) (List.concat (flat_map bc_where hb ++ flat_map sc_where hs))).
  { rewrite List.concat_app. apply Forall_app; auto. }
  destruct (single_build rho q) as (s & vs & we & E1 & E2 & E3 & E4 & E5).
  { split; [now rewrite I3|]. split; [now rewrite I2|]. rewrite I4. apply Forall_app; auto. }
  { eapply where_ready_calls; [exact Hu|exact I5]. }
  destruct (where_says_wanted rho _ _ _ _ I5 E3) as (c & W1 & W2 & W3).
  specialize (W3 []). rewrite app_nil_r in W3. rewrite I2, I3, I4 in *.
  eexists b0, b, q, _, s, vs, c, _. repeat (split; [first [eassumption|reflexivity]|]). exact W3.
Qed.

(** * Insert, update, delete *)

Lemma insert_history p h vs : qname (raw_table_name p) -> List.concat h <> [] -> singles (List.concat h) vs ->
  Forall (fun c => name c = true) (col_names (List.concat h)) ->
  exists i s, calls i_call (insert_into p) h = Ok i /\ i_build i = Ok (mkOut s vs None) /\
    parse_insert s = Some (mkIns (raw_table_name p) (col_names (List.concat h)) (seq 1 (length vs))).
Proof.
  intros Ht Hne Hs Hc.
  destruct (calls_total i_call (fun _ => True) (fun _ => True)) with (h := h) (a := insert_into p) as (i & Ei & _); auto.
  { intros a x _ _. eexists. split; [reflexivity|exact I]. }
  { apply Forall_forall. auto. }
  destruct (i_calls_is h _ _ Ei) as (_ & I2 & I3). cbn in I2, I3.
  destruct (insert_build i vs) as (s & E1 & E2); try (rewrite ?I2, ?I3; assumption).
  exists i, s. rewrite I2, I3 in E2. repeat split; assumption.
Qed.

Definition uc_usable (rho : row) (c : ucall) : Prop := match c with USet _ => True | UWhere cs => Forall (usable rho) cs end.
Lemma u_total rho h : forall u, g_ok (u_where u) -> Forall (uc_usable rho) h -> exists u', calls u_call u h = Ok u'.
Proof.
  intros u Hg Hh. destruct (calls_total u_call (fun u => g_ok (u_where u)) (uc_usable rho)) with (h := h) (a := u) as (u' & E & _); eauto.
  intros a [vs|cs] Ha Hx; simpl in *; [eauto|]. unfold u_add_where.
  destruct (group_and_total rho (u_where a) cs Ha Hx) as (r & -> & Hr). eexists. split; [reflexivity|exact Hr].
Qed.
Lemma d_total rho h : forall d, g_ok (d_where d) -> Forall (Forall (usable rho)) h -> exists d', calls d_add_where d h = Ok d'.
Proof.
  intros u Hg Hh. destruct (calls_total d_add_where (fun u => g_ok (d_where u)) (Forall (usable rho))) with (h := h) (a := u) as (u' & E & _); eauto.
  intros a cs Ha Hx. unfold d_add_where.
  destruct (group_and_total rho (d_where a) cs Ha Hx) as (r & -> & Hr). eexists. split; [reflexivity|exact Hr].
Qed.

Lemma update_history rho p h vs : let sets := flat_map uc_set h in
  qname (raw_table_name p) -> sets <> [] -> singles sets vs -> Forall (fun c => name c = true) (col_names sets) ->
  Forall (uc_usable rho) h -> List.concat (flat_map uc_where h) <> [] ->
  exists u s ws c e v, calls u_call (update_ p) h = Ok u /\ u_build u = Ok (mkOut s (vs ++ ws) None) /\
    parse_update s = Some (mkUpd (raw_table_name p) (combine (col_names sets) (seq 1 (length vs))) e) /\
    wanted (flat_map uc_where h) (Some c) /\ c_values c = Ok ws /\ reads c (length vs) e /\
    means rho c v /\ eval rho (vs ++ ws)%list e = Some v.
Proof.
  intros sets Ht Hne Hs Hc Hu Hw. destruct (u_total rho h (update_ p) empty_ok Hu) as (u & Eu).
  destruct (u_calls_is h (update_ p) _ [] eq_refl Eu) as (_ & I2 & I3 & I4). cbn in I2, I3, I4.
  assert (Hu' : Forall (usable rho) (List.concat (flat_map uc_where h))).
  { apply concat_flat. eapply Forall_impl; [|exact Hu]. intros [x|cs]; simpl; auto. }
  pose proof (where_grows _ _ _ I4) as Hg.
  assert (Hgn : g_cs (u_where u) <> []) by (intros K; apply Hg in K as [_ K]; contradiction).
  destruct (where_ready_calls rho _ _ Hu' I4) as [R|[R1 R2]]; [contradiction|].
  destruct (update_build rho u vs) as (s & ws & e & v & E1 & E2 & E3 & E6 & E4 & E5); try (rewrite ?I2, ?I3; assumption); auto.
  exists u, s, ws, (of_g (u_where u)), e, v. rewrite I2, I3 in E3. repeat split; auto.
  change (CGrp AND false [] false) with (of_g empty_group). now rewrite calls_m_and, I4.
Qed.

Lemma delete_history rho p h : qname (raw_table_name p) -> Forall (Forall (usable rho)) h -> List.concat h <> [] ->
  exists d s ws c e v, calls d_add_where (delete_ p) h = Ok d /\ d_build d = Ok (mkOut s ws None) /\
    parse_delete s = Some (mkDel (raw_table_name p) e) /\
    wanted h (Some c) /\ c_values c = Ok ws /\ reads c 0 e /\ means rho c v /\ eval rho ws e = Some v.
Proof.
  intros Ht Hu Hw. destruct (d_total rho h (delete_ p) empty_ok Hu) as (d & Ed).
  destruct (d_calls_is h (delete_ p) _ [] eq_refl Ed) as (_ & I2 & I4). cbn in I2, I4.
  pose proof (where_grows _ _ _ I4) as Hg.
  assert (Hgn : g_cs (d_where d) <> []) by (intros K; apply Hg in K as [_ K]; contradiction).
  destruct (where_ready_calls rho _ _ (proj2 (concat_Forall _ h) Hu) I4) as [R|[R1 R2]]; [contradiction|].
  destruct (delete_build rho d) as (s & ws & e & v & E1 & E2 & E3 & E6 & E4 & E5); try (rewrite ?I2, ?I3; assumption); auto.
  exists d, s, ws, (of_g (d_where d)), e, v. rewrite I2 in E3. repeat split; auto.
  change (CGrp AND false [] false) with (of_g empty_group). now rewrite calls_m_and, I4.
Qed.
