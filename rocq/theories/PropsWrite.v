(** Property theorems about the insert, update and delete builders. *)
From Coq Require Import String Ascii List Bool Arith Lia NArith ZArith.
From Verif Require Import GoStr Value Names Cond Build SqlSpec Spec StrFacts SqlFacts CondFacts CondText CondSem TreeFacts
  CondLogic CondMeaning Built CondThms PropsCond NameFacts PropsNames StmtFacts Calls BuildFacts BuildThms StmtText PropsSelect.
Import ListNotations.
Local Open Scope string_scope.
Local Open Scope nat_scope.

Definition fv (n : string) (v : gval) : fvalue := mkFV (mkF n "" "") v.

(** * C09 INSERT, end to end *)

(** For every table name that is an SQL name and every history of Values calls whose
    values are single and whose columns are SQL names. *)
Theorem C09_insert : forall p h vs, qname (raw_table_name p) -> List.concat h <> [] -> singles (List.concat h) vs ->
  Forall (fun c => name c = true) (col_names (List.concat h)) ->
  exists i s, calls i_call (insert_into p) h = Ok i /\ i_build i = Ok (mkOut s vs None) /\
    parse_insert s = Some (mkIns (raw_table_name p) (map (fun x => f_name (fv_def x)) (List.concat h)) (seq 1 (length vs))).
Proof. exact insert_history. Qed.
Print Assumptions C09_insert.
Example C09_example : let h := [[fv "a" (VOther 1); fv "b" (VStr "x")]; []; [fv "c" (VUint 3)]] in
  (do i <- calls i_call (insert_into (TPName "t")) h; i_build i) =
    Ok (mkOut "INSERT INTO t(a, b, c) VALUES ($1, $2, $3)" [VOther 1; VStr "x"; VUint 3] None) /\
  singles (List.concat h) [VOther 1; VStr "x"; VUint 3] /\ qname "t".
Proof.
  cbv zeta. split; [vm_compute; reflexivity|]. split; [|constructor; reflexivity].
  repeat apply Forall2_cons; try apply Forall2_nil; reflexivity.
Qed.

(** * C10 UPDATE, end to end *)

Theorem C10_update : forall rho p h vs, let sets := flat_map uc_set h in
  qname (raw_table_name p) -> sets <> [] -> singles sets vs -> Forall (fun c => name c = true) (col_names sets) ->
  Forall (uc_usable rho) h -> List.concat (flat_map uc_where h) <> [] ->
  exists u s ws c e v, calls u_call (update_ p) h = Ok u /\ u_build u = Ok (mkOut s (vs ++ ws) None) /\
    parse_update s = Some (mkUpd (raw_table_name p) (combine (map (fun x => f_name (fv_def x)) sets) (seq 1 (length vs))) e) /\
    wanted (flat_map uc_where h) (Some c) /\ c_values c = Ok ws /\ reads c (length vs) e /\
    means rho c v /\ eval rho (vs ++ ws)%list e = Some v.
Proof. exact update_history. Qed.
Print Assumptions C10_update.
Example C10_example : let h := [USet [fv "a" (VOther 1)]; UWhere [sample]; USet [fv "b" (VStr "x")]; UWhere [eqc "d" 7]] in
  (do u <- calls u_call (update_ (TPName "t")) h; u_build u) =
    Ok (mkOut "UPDATE t SET a=$1, b=$2 WHERE t.a IN ($3,$4) AND (b=$5 OR c NOT LIKE $6) AND d=$7"
      [VOther 1; VStr "x"; VStr "x"; VStr "y"; VOther 1; VStr "%z%"; VOther 7] None) /\
  forall rho, Forall (uc_usable rho) h.
Proof.
  cbv zeta. split; [vm_compute; reflexivity|]. intros rho. constructor; [exact I|]. constructor; [constructor; [apply sample_usable|constructor]|].
  constructor; [exact I|]. constructor; [constructor; [by_usable|constructor]|constructor].
Qed.

(** * C11 DELETE, end to end *)

Theorem C11_delete : forall rho p h, qname (raw_table_name p) -> Forall (Forall (usable rho)) h -> List.concat h <> [] ->
  exists d s ws c e v, calls d_add_where (delete_ p) h = Ok d /\ d_build d = Ok (mkOut s ws None) /\
    parse_delete s = Some (mkDel (raw_table_name p) e) /\
    wanted h (Some c) /\ c_values c = Ok ws /\ reads c 0 e /\ means rho c v /\ eval rho ws e = Some v.
Proof. exact delete_history. Qed.
Print Assumptions C11_delete.
Example C11_example : (do d <- calls d_add_where (delete_ (TPName "t")) [[sample]; [eqc "d" 7]]; d_build d) =
    Ok (mkOut "DELETE FROM t WHERE t.a IN ($1,$2) AND (b=$3 OR c NOT LIKE $4) AND d=$5"
      [VStr "x"; VStr "y"; VOther 1; VStr "%z%"; VOther 7] None) /\
  forall rho, Forall (Forall (usable rho)) [[sample]; [eqc "d" 7]].
Proof.
  split; [vm_compute; reflexivity|]. intros rho. constructor; [constructor; [apply sample_usable|constructor]|].
  constructor; [constructor; [by_usable|constructor]|constructor].
Qed.

(** * C12 UPDATE and DELETE without conditions are refused *)

Definition refused (o : out) : Prop := o_err o <> None /\ o_sql o = "" /\ o_params o = [].

Lemma no_where css g : calls group_and empty_group css = Ok g -> List.concat css = [] -> nonempty (g_cs g) = false.
Proof. intros E H. assert (K : g_cs g = []) by (apply (where_grows _ _ _ E); auto). now rewrite K. Qed.
Lemma some_where css g : calls group_and empty_group css = Ok g -> nonempty (g_cs g) = true -> List.concat css <> [].
Proof. intros E H K. rewrite (no_where _ _ E K) in H. discriminate. Qed.

Theorem C12_update : forall p h u o, calls u_call (update_ p) h = Ok u -> u_build u = Ok o ->
  (List.concat (flat_map uc_where h) = [] -> refused o) /\
  (o_err o = None -> List.concat (flat_map uc_where h) <> [] /\ raw_table_name p <> "" /\ flat_map uc_set h <> []).
Proof.
  intros p h u o Eu E. destruct (u_calls_is h (update_ p) u [] eq_refl Eu) as (_ & I2 & I3 & I4). cbn in I2, I3, I4.
  unfold u_build in E. split.
  - intros H. rewrite (no_where _ _ I4 H) in E. injection E as <-. repeat split. discriminate.
  - intros H. destruct (nonempty (g_cs (u_where u))) eqn:Eg; [|injection E as <-; discriminate].
    split; [eapply some_where; eauto|]. cbn [negb] in E.
    rewrite <- I2, <- I3. destruct (u_values u); [injection E as <-; discriminate|]. cbn [nonempty negb] in E.
    destruct (u_table u); [injection E as <-; discriminate|]. split; discriminate.
Qed.
Print Assumptions C12_update.
Theorem C12_delete : forall p h d o, calls d_add_where (delete_ p) h = Ok d -> d_build d = Ok o ->
  (List.concat h = [] -> refused o) /\ (o_err o = None -> List.concat h <> [] /\ raw_table_name p <> "").
Proof.
  intros p h u o Eu E. destruct (d_calls_is h (delete_ p) u [] eq_refl Eu) as (_ & I2 & I4). cbn in I2, I4.
  unfold d_build in E. split.
  - intros H. rewrite (no_where _ _ I4 H) in E. injection E as <-. repeat split. discriminate.
  - intros H. destruct (nonempty (g_cs (d_where u))) eqn:Eg; [|injection E as <-; discriminate].
    split; [eapply some_where; eauto|]. cbn [negb] in E. rewrite <- I2.
    destruct (d_table u); [injection E as <-; discriminate|]. discriminate.
Qed.
Print Assumptions C12_delete.
(** without conditions the call does return (no panic) *)
Theorem C12_refusal_returns : forall p h h', List.concat (flat_map uc_where h) = [] -> List.concat h' = [] ->
  (exists u o, calls u_call (update_ p) h = Ok u /\ u_build u = Ok o /\ refused o) /\
  (exists d o, calls d_add_where (delete_ p) h' = Ok d /\ d_build d = Ok o /\ refused o).
Proof.
  intros p h h' H H'. split.
  - destruct (u_total (table_row (fun _ => 0)) h (update_ p) empty_ok) as (u & Eu).
    { clear -H. induction h as [|[vs|cs] h IH]; constructor; simpl in *; auto. - apply app_eq_nil in H as [-> _]. constructor.
      - apply app_eq_nil in H as [_ H]. auto. }
    destruct (u_calls_is h (update_ p) u [] eq_refl Eu) as (_ & _ & _ & I4). cbn in I4.
    exists u, (fail ENoConditions). split; [exact Eu|]. unfold u_build. rewrite (no_where _ _ I4 H). split; [reflexivity|]. repeat split. discriminate.
  - destruct (d_total (table_row (fun _ => 0)) h' (delete_ p) empty_ok) as (u & Eu).
    { apply concat_Forall. rewrite H'. constructor. }
    destruct (d_calls_is h' (delete_ p) u [] eq_refl Eu) as (_ & _ & I4). cbn in I4.
    exists u, (fail ENoConditions). split; [exact Eu|]. unfold d_build. rewrite (no_where _ _ I4 H'). split; [reflexivity|]. repeat split. discriminate.
Qed.
Print Assumptions C12_refusal_returns.
(** conversions from a select without conditions, followed by any calls without conditions *)
Lemma group_and_none g : g_cs g = [] -> group_and g [] = Ok g.
Proof. intros H. destruct g as [j n cs b]. cbn in H. subst. reflexivity. Qed.
Lemma update_refused u h u' : g_cs (u_where u) = [] -> calls u_call u h = Ok u' -> List.concat (flat_map uc_where h) = [] ->
  exists o, u_build u' = Ok o /\ refused o.
Proof.
  intros Hg E H. assert (K : g_cs (u_where u') = []).
  { revert u Hg E. induction h as [|[vs|cs] h IH]; intros u Hg E; simpl in *.
    - now injection E as <-.
    - now apply (IH H (u_add u vs)).
    - apply app_eq_nil in H as [-> H]. unfold u_add_where in E. rewrite (group_and_none _ Hg) in E. cbn [bind] in E. exact (IH H (mkU _ _ (u_where u) _) Hg E). }
  unfold u_build. rewrite K. cbn [nonempty negb]. eexists. split; [reflexivity|]. repeat split. discriminate.
Qed.
Lemma delete_refused u h u' : g_cs (d_where u) = [] -> calls d_add_where u h = Ok u' -> List.concat h = [] ->
  exists o, d_build u' = Ok o /\ refused o.
Proof.
  intros Hg E H. assert (K : g_cs (d_where u') = []).
  { revert u Hg E. induction h as [|cs h IH]; intros u Hg E; simpl in *.
    - now injection E as <-.
    - apply app_eq_nil in H as [-> H]. unfold d_add_where in E. rewrite (group_and_none _ Hg) in E. cbn [bind] in E. exact (IH H (mkD _ _ (d_where u)) Hg E). }
  unfold d_build. rewrite K. cbn [nonempty negb]. eexists. split; [reflexivity|]. repeat split. discriminate.
Qed.
Theorem C12_converted : forall p b0 hb b hm m, select_from p = Ok b0 -> calls b_call b0 hb = Ok b -> calls m_call (many_of b) hm = Ok m ->
  (List.concat (flat_map bc_where hb) = [] ->
    (forall vs u h u', b_update b vs = Ok u -> calls u_call u h = Ok u' -> List.concat (flat_map uc_where h) = [] -> exists o, u_build u' = Ok o /\ refused o) /\
    (forall d h d', b_delete b = Ok d -> calls d_add_where d h = Ok d' -> List.concat h = [] -> exists o, d_build d' = Ok o /\ refused o) /\
    (List.concat (flat_map mc_where hm) = [] ->
      (forall vs u h u', m_update m vs = Ok u -> calls u_call u h = Ok u' -> List.concat (flat_map uc_where h) = [] -> exists o, u_build u' = Ok o /\ refused o) /\
      (forall d h d', m_delete m = Ok d -> calls d_add_where d h = Ok d' -> List.concat h = [] -> exists o, d_build d' = Ok o /\ refused o))).
Proof.
  intros p b0 hb b hm m E0 Eb Em H. destruct (select_from_is p b0 E0) as (t & _ & I0).
  pose proof (b_calls_is hb b0 b t [] [] [] I0 Eb) as Ib.
  assert (Gb : g_cs (b_where b) = []). { destruct Ib as (_ & _ & _ & _ & I5). apply (where_grows _ _ _ I5); auto. }
  assert (BU : forall (f : tident -> tparam) (b : bsel) vs u, g_cs (b_where b) = [] ->
     (do u <- u_add_where (update_ (f (b_table b))) (g_cs (b_where b)); Ok (u_add u vs)) = Ok u -> g_cs (u_where u) = []).
  { intros f b' vs u Hg E. rewrite Hg in E. injection E as <-. reflexivity. }
  assert (BD : forall (f : tident -> tparam) (b : bsel) u, g_cs (b_where b) = [] ->
     d_add_where (delete_ (f (b_table b))) (g_cs (b_where b)) = Ok u -> g_cs (d_where u) = []).
  { intros f b' u Hg E. rewrite Hg in E. injection E as <-. reflexivity. }
  split; [|split].
  - intros vs u h u' E. apply update_refused. exact (BU TPIdent b vs u Gb E).
  - intros d h d' E. apply delete_refused. exact (BD TPIdent b d Gb E).
  - intros Hm. destruct (m_calls_is hm (many_of b) m _ _ _ _ [] 0%N (-1)%Z (conj Ib (conj eq_refl (conj eq_refl eq_refl))) Em)
      as ((_ & _ & _ & _ & I5) & _).
    assert (Gm : g_cs (b_where (m_base m)) = []).
    { apply (where_grows _ _ _ I5). split; [reflexivity|]. rewrite List.concat_app. simpl. rewrite H. exact Hm. }
    split.
    + intros vs u h u' E. apply update_refused. exact (BU (fun t => TPName (t_name t)) (m_base m) vs u Gm E).
    + intros d h d' E. apply delete_refused. exact (BD (fun t => TPName (t_name t)) (m_base m) d Gm E).
Qed.
Print Assumptions C12_converted.
Example C12_example : (do u <- calls u_call (update_ (TPName "t")) [USet [fv "a" (VOther 1)]; UWhere []]; u_build u) = Ok (fail ENoConditions) /\
  (do b <- select_from (TPName "t"); do d <- b_delete b; d_build d) = Ok (fail ENoConditions).
Proof. split; vm_compute; reflexivity. Qed.

(** * C13 Never an empty WHERE expression *)

(** Full statement (false): whenever SQL is returned without error the text after WHERE is
    an expression.  Delete("t").Where(GroupAND()) gives "DELETE FROM t WHERE ". *)
Theorem C13_refuted : exists c d s ps, built c /\ d_add_where (delete_ (TPName "t")) [c] = Ok d /\
  d_build d = Ok (mkOut s ps None) /\ s = "DELETE FROM t WHERE " /\ parse_delete s = None.
Proof.
  exists (of_g empty_group). eexists _, _, _. split; [apply (bt_group AND []); [intros d []|now left|reflexivity]|].
  split; [vm_compute; reflexivity|]. split; [vm_compute; reflexivity|]. split; vm_compute; reflexivity.
Qed.
Print Assumptions C13_refuted.
(** In(f, []string{}) gives "DELETE FROM t WHERE f IN ()". *)
Theorem C13_in_refuted : exists c d s ps, in_ "f" (VStrs []) = Ok c /\ d_add_where (delete_ (TPName "t")) [c] = Ok d /\
  d_build d = Ok (mkOut s ps None) /\ s = "DELETE FROM t WHERE f IN ()" /\ parse_delete s = None.
Proof.
  eexists _, _, _, _. split; [vm_compute; reflexivity|]. split; [vm_compute; reflexivity|].
  split; [vm_compute; reflexivity|]. split; vm_compute; reflexivity.
Qed.
Print Assumptions C13_in_refuted.
(** Proved part: conditions without empty groups whose leaves are SQL operands; any
    table, any values.  Missing: empty groups, In with an empty list. *)
Theorem C13_update_partial : forall rho p h u o, calls u_call (update_ p) h = Ok u -> Forall (uc_usable rho) h ->
  u_build u = Ok o -> o_err o = None ->
  exists sets w e, o_sql o = "UPDATE " ++ raw_table_name p ++ " SET " ++ sets ++ " WHERE " ++ w /\ parse (lex w) = Some e.
Proof.
  intros rho p h u o Eu Hu E Ho. destruct (C12_update p h u o Eu E) as [_ K]. destruct (K Ho) as (K1 & K2 & K3).
  destruct (u_calls_is h (update_ p) u [] eq_refl Eu) as (_ & I2 & I3 & I4). cbn in I2, I3, I4.
  assert (Hu' : Forall (usable rho) (List.concat (flat_map uc_where h))).
  { apply concat_flat. eapply Forall_impl; [|exact Hu]. intros [x|cs]; simpl; auto. }
  destruct (where_ready_calls rho _ _ Hu' I4) as [R|[R1 R2]]; [apply (where_grows _ _ _ I4) in R as [_ R]; contradiction|].
  unfold u_build in E. destruct (nonempty (g_cs (u_where u))); [|injection E as <-; discriminate]. cbn [negb] in E.
  destruct (nonempty (u_values u)); [|injection E as <-; discriminate]. cbn [negb] in E.
  destruct (is_empty (u_table u)); [injection E as <-; discriminate|].
  apply bind_inv in E as ([sets params] & _ & E).
  destruct (where_sem rho (u_where u) (length params) R1 R2) as (w & vs & e & v & E1 & E2 & E3 & _).
  rewrite E1, E2 in E. cbn [bind] in E. assert (Es : o_sql o = join " " ["UPDATE"; u_table u; "SET"; sets; "WHERE"; w]) by (unfold ok in E; injection E as <-; reflexivity).
  exists sets, w, e. split; [|exact E3]. rewrite Es, I2. reflexivity.
Qed.
Print Assumptions C13_update_partial.
Theorem C13_delete_partial : forall rho p h d o, calls d_add_where (delete_ p) h = Ok d -> Forall (Forall (usable rho)) h ->
  d_build d = Ok o -> o_err o = None ->
  exists w e, o_sql o = "DELETE FROM " ++ raw_table_name p ++ " WHERE " ++ w /\ parse (lex w) = Some e.
Proof.
  intros rho p h u o Eu Hu E Ho. destruct (C12_delete p h u o Eu E) as [_ K]. destruct (K Ho) as (K1 & K2).
  destruct (d_calls_is h (delete_ p) u [] eq_refl Eu) as (_ & I2 & I4). cbn in I2, I4.
  destruct (where_ready_calls rho _ _ (proj2 (concat_Forall _ _) Hu) I4) as [R|[R1 R2]]; [apply (where_grows _ _ _ I4) in R as [_ R]; contradiction|].
  unfold d_build in E. destruct (nonempty (g_cs (d_where u))); [|injection E as <-; discriminate]. cbn [negb] in E.
  destruct (is_empty (d_table u)); [injection E as <-; discriminate|].
  destruct (where_sem rho (d_where u) 0 R1 R2) as (w & vs & e & v & E1 & E2 & E3 & _).
  rewrite E1, E2 in E. cbn [bind] in E.
  assert (Es : o_sql o = join " " ["DELETE"; "FROM"; d_table u; "WHERE"; w]) by (unfold ok in E; injection E as <-; reflexivity).
  exists w, e. split; [|exact E3]. rewrite Es, I2. reflexivity.
Qed.
Print Assumptions C13_delete_partial.
Example C13_example : exists d o, calls d_add_where (delete_ (TPStr "my table")) [[sample_or]] = Ok d /\ d_build d = Ok o /\ o_err o = None /\
  o_sql o = "DELETE FROM my table WHERE b=$1 OR c NOT LIKE $2".
Proof. eexists _, _. split; [vm_compute; reflexivity|]. split; [vm_compute; reflexivity|]. split; vm_compute; reflexivity. Qed.

(** * C14 The guards, exactly *)

Theorem C14_insert : forall p h i o, calls i_call (insert_into p) h = Ok i -> i_build i = Ok o ->
  (o_err o <> None <-> List.concat h = [] \/ raw_table_name p = "") /\ (o_err o <> None -> o_sql o = "" /\ o_params o = []).
Proof.
  intros p h i o Ei E. destruct (i_calls_is h _ _ Ei) as (_ & I2 & I3). cbn in I2, I3. rewrite <- I2, <- I3. unfold i_build in E.
  destruct (i_values i) as [|x l]; cbn [nonempty negb] in E.
  - injection E as <-. cbn. split; [split; [auto|discriminate]|auto].
  - destruct (i_table i) as [|a s]; cbn [is_empty] in E.
    + injection E as <-. cbn. split; [split; [auto|discriminate]|auto].
    + apply bind_inv in E as ([[cols phs] ps] & _ & E). unfold ok in E. injection E as <-. cbn.
      split; [split; [congruence|intros [K|K]; discriminate]|congruence].
Qed.
Print Assumptions C14_insert.
Theorem C14_update : forall p h u o, calls u_call (update_ p) h = Ok u -> u_build u = Ok o ->
  (o_err o <> None <-> List.concat (flat_map uc_where h) = [] \/ flat_map uc_set h = [] \/ raw_table_name p = "") /\
  (o_err o <> None -> o_sql o = "" /\ o_params o = []).
Proof.
  intros p h u o Eu E. destruct (u_calls_is h (update_ p) u [] eq_refl Eu) as (_ & I2 & I3 & I4). cbn in I2, I3, I4.
  pose proof (where_grows _ _ _ I4) as Hg. rewrite <- I2, <- I3. unfold u_build in E.
  destruct (g_cs (u_where u)) as [|c cs]; cbn [nonempty negb] in E.
  - injection E as <-. cbn. split; [split; [intros _; left; now apply Hg|discriminate]|auto].
  - assert (Hne : List.concat (flat_map uc_where h) <> []).
    { intros K. destruct Hg as [_ Hg]. discriminate (Hg (conj eq_refl K)). }
    destruct (u_values u) as [|x l]; cbn [nonempty negb] in E.
    + injection E as <-. cbn. split; [split; [auto|discriminate]|auto].
    + destruct (u_table u) as [|a s]; cbn [is_empty] in E.
      * injection E as <-. cbn. split; [split; [auto|discriminate]|auto].
      * apply bind_inv in E as ([sets ps] & _ & E). apply bind_inv in E as (w & _ & E). apply bind_inv in E as (vs & _ & E).
        unfold ok in E. injection E as <-. cbn. split; [split; [congruence|intros [K|[K|K]]; [contradiction|discriminate|discriminate]]|congruence].
Qed.
Print Assumptions C14_update.
Theorem C14_delete : forall p h d o, calls d_add_where (delete_ p) h = Ok d -> d_build d = Ok o ->
  (o_err o <> None <-> List.concat h = [] \/ raw_table_name p = "") /\ (o_err o <> None -> o_sql o = "" /\ o_params o = []).
Proof.
  intros p h u o Eu E. destruct (d_calls_is h (delete_ p) u [] eq_refl Eu) as (_ & I2 & I4). cbn in I2, I4.
  pose proof (where_grows _ _ _ I4) as Hg. rewrite <- I2. unfold d_build in E.
  destruct (g_cs (d_where u)) as [|c cs]; cbn [nonempty negb] in E.
  - injection E as <-. cbn. split; [split; [intros _; left; now apply Hg|discriminate]|auto].
  - assert (Hne : List.concat h <> []). { intros K. destruct Hg as [_ Hg]. discriminate (Hg (conj eq_refl K)). }
    destruct (d_table u) as [|a s]; cbn [is_empty] in E.
    + injection E as <-. cbn. split; [split; [auto|discriminate]|auto].
    + apply bind_inv in E as (w & _ & E). apply bind_inv in E as (vs & _ & E).
      unfold ok in E. injection E as <-. cbn. split; [split; [congruence|intros [K|K]; [contradiction|discriminate]]|congruence].
Qed.
Print Assumptions C14_delete.
(** and the builders return: insert whenever the values convert, update and delete
    whenever in addition the first values exist and the conditions are well formed *)
Theorem C14_returns : forall rho,
  (forall p h, Forall (fun x => exists vs, fv_values (fv_val x) = Ok vs) (List.concat h) ->
     exists i o, calls i_call (insert_into p) h = Ok i /\ i_build i = Ok o) /\
  (forall p h, Forall (uc_usable rho) h -> Forall (fun x => exists v vs, fv_values (fv_val x) = Ok (v :: vs)) (flat_map uc_set h) ->
     exists u o, calls u_call (update_ p) h = Ok u /\ u_build u = Ok o) /\
  (forall p h, Forall (Forall (usable rho)) h -> exists d o, calls d_add_where (delete_ p) h = Ok d /\ d_build d = Ok o).
Proof.
  intros rho. split; [|split].
  - intros p h H.
    destruct (calls_total i_call (fun _ => True) (fun _ => True)) with (h := h) (a := insert_into p) as (i & Ei & _); auto.
    { intros a x _ _. eexists. split; [reflexivity|exact I]. }
    { apply Forall_forall. auto. }
    exists i. destruct (i_calls_is h _ _ Ei) as (_ & I2 & I3). cbn in I2, I3. unfold i_build. rewrite I3.
    destruct (negb _); [eauto|]. destruct (is_empty _); [eauto|].
    assert (K : exists vss, Forall2 (fun x vs => fv_values (fv_val x) = Ok vs) (List.concat h) vss).
    { clear -H. induction H as [|x l (vs & Hx) _ (vss & IH)]; [exists []; constructor|exists (vs :: vss); now constructor]. }
    destruct K as (vss & K). rewrite (ins_loop_any _ _ [] K). eexists. split; [exact Ei|reflexivity].
  - intros p h Hu H. destruct (u_total rho h (update_ p) empty_ok Hu) as (u & Eu). exists u.
    destruct (u_calls_is h (update_ p) u [] eq_refl Eu) as (_ & I2 & I3 & I4). cbn in I2, I3, I4.
    assert (Hu' : Forall (usable rho) (List.concat (flat_map uc_where h))).
    { apply concat_flat. eapply Forall_impl; [|exact Hu]. intros [x|cs]; simpl; auto. }
    unfold u_build. rewrite I3. destruct (g_cs (u_where u)) as [|c0 cs0] eqn:Eg; cbn [nonempty negb]; [eauto|].
    destruct (negb (nonempty (flat_map uc_set h))); [eauto|]. destruct (is_empty _); [eauto|]. unfold fields_and_values.
    assert (K : exists vs, mapM first_value (flat_map uc_set h) = Ok vs).
    { clear -H. induction H as [|x l (v & vs & Hx) _ (vss & IH)]; [eexists; reflexivity|]. simpl. unfold first_value at 1. rewrite Hx. cbn [bind].
      rewrite IH. eexists; reflexivity. }
    destruct K as (vs & ->). cbn [bind].
    destruct (where_ready_calls rho _ _ Hu' I4) as [R|[R1 R2]]; [congruence|].
    destruct (where_sem rho (u_where u) (length vs) R1 R2) as (w & ws & e & v & E1 & E2 & E3 & _). rewrite E1, E2. eexists. split; [exact Eu|reflexivity].
  - intros p h Hu. destruct (d_total rho h (delete_ p) empty_ok Hu) as (u & Eu). exists u.
    destruct (d_calls_is h (delete_ p) u [] eq_refl Eu) as (_ & I2 & I4). cbn in I2, I4.
    unfold d_build. destruct (g_cs (d_where u)) as [|c0 cs0] eqn:Eg; cbn [nonempty negb]; [eauto|]. destruct (is_empty _); [eauto|].
    destruct (where_ready_calls rho _ _ (proj2 (concat_Forall _ _) Hu) I4) as [R|[R1 R2]]; [congruence|].
    destruct (where_sem rho (d_where u) 0 R1 R2) as (w & ws & e & v & E1 & E2 & E3 & _). rewrite E1, E2. eexists. split; [exact Eu|reflexivity].
Qed.
Print Assumptions C14_returns.
Example C14_example : (do u <- calls u_call (update_ (TPName "")) [USet [fv "a" (VOther 1)]; UWhere [eqc "a" 1]]; u_build u) = Ok (fail ENoTable) /\
  (do u <- calls u_call (update_ (TPName "t")) [UWhere [eqc "a" 1]]; u_build u) = Ok (fail ENoValues) /\
  (do i <- calls i_call (insert_into (TPName "")) [[fv "a" (VOther 1)]]; i_build i) = Ok (fail ENoTable) /\
  (do i <- calls i_call (insert_into (TPName "")) [[]]; i_build i) = Ok (fail ENoValues).
Proof. repeat split; vm_compute; reflexivity. Qed.

(** * C15 INSERT and UPDATE with any value *)

(** Full statement (false): for every value accepted by FieldName.Value.
    InsertInto("t").Values(a: []string{"x","y"}, b: 1) gives
    "INSERT INTO t(a, b) VALUES ($2, $3)" with three parameters. *)
Theorem C15_insert_refuted : exists v i s ps, fv_values v <> Panic /\ i = i_add (insert_into (TPName "t")) [fv "a" v; fv "b" (VOther 1)] /\
  i_build i = Ok (mkOut s ps None) /\ s = "INSERT INTO t(a, b) VALUES ($2, $3)" /\ ps = [VStr "x"; VStr "y"; VOther 1].
Proof.
  exists (VStrs ["x"; "y"]). eexists _, _, _. split; [vm_compute; discriminate|]. split; [reflexivity|].
  split; [vm_compute; reflexivity|]. split; vm_compute; reflexivity.
Qed.
Print Assumptions C15_insert_refuted.
(** Update keeps the first element only, and panics on an empty list. *)
Theorem C15_update_refuted : exists u u' s ps, u_add_where (u_add (update_ (TPName "t")) [fv "a" (VStrs ["x"; "y"])]) [eqc "k" 1] = Ok u /\
  u_build u = Ok (mkOut s ps None) /\ s = "UPDATE t SET a=$1 WHERE k=$2" /\ ps = [VStr "x"; VOther 1] /\
  u_add_where (u_add (update_ (TPName "t")) [fv "a" (VStrs [])]) [eqc "k" 1] = Ok u' /\ u_build u' = Panic.
Proof.
  eexists _, _, _, _. split; [vm_compute; reflexivity|]. split; [vm_compute; reflexivity|].
  split; [vm_compute; reflexivity|]. split; [vm_compute; reflexivity|]. split; vm_compute; reflexivity.
Qed.
Print Assumptions C15_update_refuted.
Lemma ends_seq k lens : ends_at k lens = seq (k + 1) (length lens) <-> Forall (fun n => n = 1) lens.
Proof.
  revert k; induction lens as [|n l IH]; intros k; simpl; [split; constructor|]. split.
  - intros [= H1 H2]. assert (n = 1) by lia. subst n. constructor; [reflexivity|]. apply (IH (k + 1)). rewrite H2. f_equal; lia.
  - inversion 1 as [|? ? H1 H2]; subst. f_equal. rewrite (proj2 (IH _) H2). f_equal; lia.
Qed.
(** Proved part: exactly which inserts are right.  [vss] are the parameters each value
    expands to; the numbering is 1..k for k columns if and only if every value expands
    to one parameter (then column i gets value i, C09). *)
Theorem C15_insert_partial : forall i vss, i_values i <> [] -> i_table i <> "" ->
  expands (i_values i) vss ->
  lacks "$" (i_table i) -> Forall (fun x => lacks "$" (f_name (fv_def x))) (i_values i) ->
  exists s ps, i_build i = Ok (mkOut s ps None) /\ ps = List.concat vss /\ length (dollars s) = length (i_values i) /\
    (dollars s = seq 1 (length (i_values i)) <-> Forall (fun vs => length vs = 1) vss).
Proof.
  intros i vss Hv Ht H Hl Hc. apply expands_fv in H. destruct (insert_text i vss Hv Ht H Hl) as (s & E & D).
  { unfold col_names. now apply Forall_map. }
  exists s, (List.concat vss). split; [exact E|]. split; [reflexivity|]. rewrite D.
  assert (L : length vss = length (i_values i)) by (clear -H; induction H; simpl; congruence).
  assert (L2 : forall k l, length (ends_at k l) = length l) by (intros k l; revert k; induction l; intros; simpl; auto).
  split; [now rewrite L2, map_length|]. pose proof (ends_seq 0 (map (@length _) vss)) as K. rewrite map_length, L in K. cbn [Nat.add] in K.
  rewrite K. apply Forall_map.
Qed.
Print Assumptions C15_insert_partial.
(** Update: the parameters are always the first value of each field followed by those of
    WHERE, so nothing is lost if and only if every value is single. *)
Theorem C15_update_partial : forall u vss s ps, u_build u = Ok (mkOut s ps None) ->
  expands (u_values u) vss ->
  exists firsts ws, ps = (firsts ++ ws)%list /\ c_values (of_g (u_where u)) = Ok ws /\ Forall2 (fun vs v => exists r, vs = v :: r) vss firsts /\
    (firsts = List.concat vss <-> Forall (fun vs => length vs = 1) vss).
Proof.
  intros u vss s ps E H. apply expands_fv in H. unfold u_build in E. destruct (negb _); [discriminate|]. destruct (negb _); [discriminate|].
  destruct (is_empty _); [discriminate|]. apply bind_inv in E as ([sets firsts] & Ef & E).
  apply bind_inv in E as (w & _ & E). apply bind_inv in E as (ws & Ew & E). unfold ok in E. injection E as _ <-.
  unfold fields_and_values in Ef. apply bind_inv in Ef as (l & El & Ef). injection Ef as _ <-.
  exists l, ws. split; [reflexivity|]. split; [exact Ew|]. clear -H El.
  assert (K : Forall2 (fun vs v => exists r, vs = v :: r) vss l).
  { revert l El. induction H as [|x vs xs vss Hx _ IH]; intros l El; simpl in El; [injection El as <-; constructor|].
    apply bind_inv in El as (v & Ev & El). apply bind_inv in El as (l' & El' & [= <-]). unfold first_value in Ev. rewrite Hx in Ev. cbn [bind] in Ev.
    destruct vs as [|v0 r]; [discriminate|]. injection Ev as <-. constructor; eauto. }
  split; [exact K|]. clear -K. split.
  - intros E. assert (Hl : length l = length (List.concat vss)) by now rewrite E. clear E.
    assert (HL : length l = length vss) by (clear -K; induction K; simpl; congruence). rewrite HL in Hl. clear HL.
    assert (G : forall vss l, Forall2 (fun (vs : list gval) (v : gval) => exists r, vs = v :: r) vss l -> length vss <= length (List.concat vss)).
    { clear. induction 1 as [|vs v vss l (r & ->) _ IH]; simpl; [lia|]. rewrite app_length. lia. }
    revert Hl. induction K as [|vs v vss l (r & ->) K IH]; intros Hl; constructor.
    + simpl in *. rewrite app_length in Hl. specialize (G _ _ K). lia.
    + apply IH. simpl in Hl. rewrite app_length in Hl. specialize (G _ _ K). lia.
  - intros F. induction K as [|vs v vss l (r & ->) K IH]; [reflexivity|]. inversion F as [|? ? F1 F2]; subst. simpl in *.
    destruct r; [|discriminate]. simpl. f_equal. auto.
Qed.
Print Assumptions C15_update_partial.
Example C15_example : exists s ps, i_build (i_add (insert_into (TPName "t")) [fv "a" (VStrs ["x"]); fv "b" (VOther 1)]) = Ok (mkOut s ps None) /\
  s = "INSERT INTO t(a, b) VALUES ($1, $2)" /\ ps = [VStr "x"; VOther 1].
Proof. eexists _, _. split; [vm_compute; reflexivity|]. split; reflexivity. Qed.

(** * C01 Placeholders of write statements *)

Theorem C01_write :
  (forall i vs, i_values i <> [] -> i_table i <> "" -> singles (i_values i) vs -> lacks "$" (i_table i) ->
     Forall (lacks "$") (col_names (i_values i)) -> exists s, i_build i = Ok (mkOut s vs None) /\ dollars s = seq 1 (length vs)) /\
  (forall u vs, u_values u <> [] -> u_table u <> "" -> g_cs (u_where u) <> [] -> singles (u_values u) vs ->
     lacks "$" (u_table u) -> Forall (lacks "$") (col_names (u_values u)) -> written (of_g (u_where u)) ->
     exists s ps, u_build u = Ok (mkOut s ps None) /\ dollars s = seq 1 (length ps)) /\
  (forall d, d_table d <> "" -> g_cs (d_where d) <> [] -> lacks "$" (d_table d) -> written (of_g (d_where d)) ->
     exists s ps, d_build d = Ok (mkOut s ps None) /\ dollars s = seq 1 (length ps)).
Proof.
  split; [|split].
  - intros i vs Hv Ht H Hl Hc. destruct (insert_text i (map (fun v => [v]) vs) Hv Ht) as (s & E & D); auto.
    { clear -H. unfold singles in H. induction H; constructor; auto. now apply bound_values_iff. }
    exists s. assert (K : List.concat (map (fun v => [v]) vs) = vs) by (clear; induction vs; simpl; congruence). rewrite K in E.
    split; [exact E|]. rewrite D, map_map. pose proof (ends_seq 0 (map (fun x : gval => length [x]) vs)) as Q. rewrite map_length in Q.
    apply Q. clear. induction vs; constructor; auto.
  - intros u vs Hv Ht Hg H Hl Hc Hw. destruct (update_text u vs Hv Ht Hg (first_values _ _ H) Hl Hc Hw) as (s & ws & E & D).
    exists s, (vs ++ ws)%list. split; [exact E|]. now rewrite app_length.
  - intros d Ht Hg Hl Hw. exact (delete_text d Ht Hg Hl Hw).
Qed.
Print Assumptions C01_write.
Example C01_write_example : exists u o, calls u_call (update_ (TPName "t")) [USet [fv "a" (VOther 1)]; UWhere [sample]] = Ok u /\
  written (of_g (u_where u)) /\ u_build u = Ok o /\ dollars (o_sql o) = [1; 2; 3; 4; 5].
Proof.
  eexists _, _. split; [vm_compute; reflexivity|]. split; [|split; vm_compute; reflexivity].
  apply (where_written [[sample]] empty_group); [exact empty_written|constructor; [exact sample_written|constructor]|].
  vm_compute. reflexivity.
Qed.

(** * C33 UPDATE and DELETE made from a select *)

(** the condition of the select as the new builder holds it *)
Lemma add_group_plain g a r : add_group g a = Ok r -> g_neg r = g_neg g /\ g_br r = g_br g.
Proof. intros E. unfold add_group in E. cbv zeta in E. unbind; repeat split. Qed.
Lemma add_single_plain g c r : add_single g c = Ok r -> g_neg r = g_neg g /\ g_br r = g_br g.
Proof.
  intros E. unfold add_single in E. cbv zeta in E. unbind.
  destruct (as_group c); [now apply add_group_plain in E|]. unbind; repeat split.
Qed.
Lemma group_and_plain g cs r : add_conditions AND g cs = Ok r -> g_neg g = false -> g_br g = false -> g_neg r = false /\ g_br r = false.
Proof.
  intros E Hn Hb. enough (g_neg r = g_neg g /\ g_br r = g_br g) as [-> ->] by auto. unfold add_conditions in E. unbind.
  destruct cs as [|c cs]; [injection E as <-; auto|].
  destruct (g_cs g) as [|y ys] eqn:Eg; [injection E as <-; split; reflexivity|]. destruct cs as [|c2 cs].
  - unbind. now apply add_single_plain in E.
  - unbind; split; reflexivity.
Qed.
Lemma where_plain css : forall g r, calls group_and g css = Ok r -> g_neg g = false -> g_br g = false -> g_neg r = false /\ g_br r = false.
Proof.
  induction css as [|cs css IH]; intros g r E Hn Hb; simpl in *; [injection E as <-; auto|].
  destruct (group_and g cs) as [g1|] eqn:E1; [|discriminate]. destruct (group_and_plain _ _ _ E1 Hn Hb). eauto.
Qed.

(** the two groups render and bind alike *)
Definition carries (g g' : group) : Prop :=
  (forall n, c_render (of_g g') n = c_render (of_g g) n) /\ c_render_sql (of_g g') = c_render_sql (of_g g) /\
  c_values (of_g g') = c_values (of_g g) /\ g_cs g' = g_cs g /\ g_join g' = AND.
Lemma carried g : g_neg g = false -> g_br g = false -> exists r, group_and empty_group (g_cs g) = Ok r /\ carries g r.
Proof.
  intros Hn Hb. destruct g as [j ng cs br]. cbn [g_neg g_br g_cs] in *. subst. unfold group_and, add_conditions.
  change (has_one empty_group AND) with (Ok false). change (has_one empty_group OR) with (Ok false). cbn [bind].
  destruct cs as [|c cs]; eexists; (split; [reflexivity|]); repeat split.
Qed.
Lemma to_update p b vs : g_neg (b_where b) = false -> g_br (b_where b) = false ->
  exists u, (do u <- u_add_where (update_ p) (g_cs (b_where b)); Ok (u_add u vs)) = Ok u /\
    u_table u = raw_table_name p /\ u_values u = vs /\ carries (b_where b) (u_where u).
Proof.
  intros Hn Hb. destruct (carried (b_where b) Hn Hb) as (r & E & C). unfold u_add_where. cbn [u_where update_]. rewrite E.
  eexists. split; [reflexivity|]. repeat split; apply C.
Qed.
Lemma to_delete p b : g_neg (b_where b) = false -> g_br (b_where b) = false ->
  exists d, d_add_where (delete_ p) (g_cs (b_where b)) = Ok d /\ d_table d = raw_table_name p /\ carries (b_where b) (d_where d).
Proof.
  intros Hn Hb. destruct (carried (b_where b) Hn Hb) as (r & E & C). unfold d_add_where. cbn [d_where delete_]. rewrite E.
  eexists. split; [reflexivity|]. repeat split; apply C.
Qed.

(** [b] is what Update/Delete of a select see; [upd]/[del] are their results *)
Definition derived (b : bsel) (toU : list fvalue -> res upd) (toD : res del) : Prop :=
  exists d, toD = Ok d /\ d_table d = t_name (b_table b) /\ carries (b_where b) (d_where d) /\
  forall vs, exists u, toU vs = Ok u /\ u_table u = t_name (b_table b) /\ u_values u = vs /\ carries (b_where b) (u_where u).
Lemma derived_intro p b : raw_table_name p = t_name (b_table b) -> g_neg (b_where b) = false -> g_br (b_where b) = false ->
  derived b (fun vs => do u <- u_add_where (update_ p) (g_cs (b_where b)); Ok (u_add u vs)) (d_add_where (delete_ p) (g_cs (b_where b))).
Proof.
  intros Hp Hn Hb. destruct (to_delete p b Hn Hb) as (d & E1 & E2 & E3). exists d. rewrite <- Hp. repeat (split; [assumption|]).
  intros vs. exact (to_update p b vs Hn Hb).
Qed.

(** For every history of calls: conversions never panic, keep the table name, and carry
    exactly the select's WHERE (text at every starting number, '?' text and values). *)
Theorem C33_conditions : forall p b0 hb b, select_from p = Ok b0 -> calls b_call b0 hb = Ok b ->
  derived b (b_update b) (b_delete b) /\
  (forall hm m, calls m_call (many_of b) hm = Ok m -> derived (m_base m) (m_update m) (m_delete m)) /\
  (forall hs q, calls s_call (single_of b) hs = Ok q -> derived (ss_base q) (ss_update q) (ss_delete q)).
Proof.
  intros p b0 hb b E0 Eb. destruct (select_from_is p b0 E0) as (t & _ & I0).
  pose proof (b_calls_is hb b0 b t [] [] [] I0 Eb) as Ib.
  split; [|split].
  - destruct Ib as (_ & _ & _ & _ & I5). destruct (where_plain _ _ _ I5 eq_refl eq_refl) as [Hn Hb].
    now apply (derived_intro (TPIdent (b_table b))).
  - intros hm m Em. destruct (m_calls_is hm (many_of b) m _ _ _ _ [] 0%N (-1)%Z (conj Ib (conj eq_refl (conj eq_refl eq_refl))) Em)
      as ((_ & _ & _ & _ & I5) & _). destruct (where_plain _ _ _ I5 eq_refl eq_refl) as [Hn Hb].
    now apply (derived_intro (TPName (t_name (b_table (m_base m))))).
  - intros hs q Eq. assert (K : g_neg (b_where (ss_base q)) = false /\ g_br (b_where (ss_base q)) = false).
    { assert (K0 : g_neg (b_where (ss_base (single_of b))) = false /\ g_br (b_where (ss_base (single_of b))) = false).
      { destruct Ib as (_ & _ & _ & _ & I5). exact (where_plain _ _ _ I5 eq_refl eq_refl). }
      revert Eq K0. generalize (single_of b). induction hs as [|c hs IH]; intros q0 Eq K0; simpl in *; [injection Eq as <-; auto|].
      destruct (s_call q0 c) as [q1|] eqn:E1; [|discriminate]. apply (IH q1); auto. destruct K0 as [K0 K1].
      destruct c as [fs|cs|tn jt l r]; cbn [s_call] in E1.
      - unfold ss_set_fields in E1. unbind. split; reflexivity.
      - unfold ss_add_where, b_add_where in E1. unbind. cbn [ss_base b_where]. eapply group_and_plain; eauto.
      - unfold ss_join, b_join, b_on, b_join_open in E1. unbind. split; assumption. }
    destruct K as [Hn Hb]. now apply (derived_intro (TPIdent (b_table (ss_base q)))).
Qed.
Print Assumptions C33_conditions.

Lemma carries_ready rho g g' : carries g g' -> g_cs g <> [] -> where_ready rho g -> wf (of_g g') /\ sound rho (of_g g').
Proof.
  intros (_ & _ & _ & E & J) Hg [R|[Hw Hs]]; [contradiction|]. destruct g as [j n cs b], g' as [j' n' cs' b']. cbn in *. subst.
  inversion Hw; subst. split; [constructor; auto; now left|]. eapply sound_grp. apply sound_grp in Hs. exact Hs.
Qed.
Lemma carries_means rho g g' v : carries g g' -> means rho (of_g g) v <-> means rho (of_g g') v.
Proof. intros (C1 & C2 & C3 & _). unfold means. rewrite C1, C2, C3. reflexivity. Qed.

(** the statements of a select and of the UPDATE/DELETE made from it accept the same rows *)
Definition agrees (rho : row) (b : bsel) (toU : list fvalue -> res upd) (toD : res del) : Prop :=
  exists s ws sel e v, b_build b = Ok (mkOut s ws None) /\ parse_select s = Some sel /\ s_where sel = Some e /\
    eval rho ws e = Some v /\
    (exists d s' e', toD = Ok d /\ d_build d = Ok (mkOut s' ws None) /\
       parse_delete s' = Some (mkDel (t_name (b_table b)) e') /\ eval rho ws e' = Some v) /\
    (forall fvs vs, fvs <> [] -> singles fvs vs -> Forall (fun c => name c = true) (col_names fvs) ->
     exists u s' e', toU fvs = Ok u /\ u_build u = Ok (mkOut s' (vs ++ ws) None) /\
       parse_update s' = Some (mkUpd (t_name (b_table b)) (combine (col_names fvs) (seq 1 (length vs))) e') /\
       eval rho (vs ++ ws)%list e' = Some v).
Lemma derived_agrees rho b toU toD : derived b toU toD -> names_ok b -> where_ready rho (b_where b) -> g_cs (b_where b) <> [] ->
  agrees rho b toU toD.
Proof.
  intros (d & Ed & Td & Cd & HU) Hn Hr Hg.
  destruct (base_build rho b Hn Hr) as (s & ws & w & we & E & El & Hw & Hs).
  assert (Hp : parse_select s = Some (base_sel b we)) by (eapply base_parse; eauto).
  destruct we as [e|]; [|destruct Hs; contradiction]. destruct Hs as (_ & Ev & _ & v & Hm & He).
  exists s, ws, (base_sel b (Some e)), e, v. split; [exact E|]. split; [exact Hp|]. split; [reflexivity|].
  split; [specialize (He []); now rewrite app_nil_r in He|].
  assert (Hq : qname (t_name (b_table b))) by (destruct Hn as (_ & Ht & _); apply Ht). split.
  - destruct (carries_ready rho _ _ Cd Hg Hr) as [Hwf Hso].
    destruct (delete_build rho d) as (s' & ws' & e' & v' & E1 & E2 & E3 & E6 & E4 & E5); auto.
    { now rewrite Td. } { destruct Cd as (_ & _ & _ & C4 & _). now rewrite C4. }
    destruct Cd as (C1 & C2 & C3 & C4). assert (ws' = ws) by congruence. subst ws'.
    rewrite <- (means_fun _ _ _ _ Hm (proj2 (carries_means rho (b_where b) _ v' (conj C1 (conj C2 (conj C3 C4)))) E4)) in E5.
    exists d, s', e'. rewrite Td in E3. auto.
  - intros fvs vs Hf Hsi Hc. destruct (HU fvs) as (u & Eu & Tu & Vu & Cu).
    destruct (carries_ready rho _ _ Cu Hg Hr) as [Hwf Hso].
    destruct (update_build rho u vs) as (s' & ws' & e' & v' & E1 & E2 & E3 & E6 & E4 & E5); rewrite ?Tu, ?Vu; auto.
    { destruct Cu as (_ & _ & _ & C4 & _). now rewrite C4. }
    destruct Cu as (C1 & C2 & C3 & C4). assert (ws' = ws) by congruence. subst ws'.
    rewrite <- (means_fun _ _ _ _ Hm (proj2 (carries_means rho (b_where b) _ v' (conj C1 (conj C2 (conj C3 C4)))) E4)) in E5.
    exists u, s', e'. rewrite Tu, Vu in E3. auto.
Qed.
(** With well-formed names and at least one condition: on every row the WHERE of the
    derived UPDATE/DELETE has the value of the WHERE of the select, with its parameters. *)
Theorem C33_meaning : forall rho p t hb, table_p p = Ok t -> wf_table t -> Forall (wf_bcall rho) hb ->
  exists b0 b, select_from p = Ok b0 /\ calls b_call b0 hb = Ok b /\
  (List.concat (flat_map bc_where hb) <> [] -> agrees rho b (b_update b) (b_delete b)) /\
  (forall hm, Forall (wf_mcall rho) hm -> List.concat (flat_map bc_where hb ++ flat_map mc_where hm) <> [] ->
     exists m, calls m_call (many_of b) hm = Ok m /\ agrees rho (m_base m) (m_update m) (m_delete m)) /\
  (forall hs, Forall (wf_scall rho) hs -> List.concat (flat_map bc_where hb ++ flat_map sc_where hs) <> [] ->
     exists q, calls s_call (single_of b) hs = Ok q /\ agrees rho (ss_base q) (ss_update q) (ss_delete q)).
Proof.
  intros rho p t hb Et Ht Hb. destruct (base_history rho p t hb Et Ht Hb) as (b0 & b & E0 & Eb & Gb & Ib).
  destruct (bcall_args rho hb Hb) as (A1 & A2 & A3). destruct (C33_conditions p b0 hb b E0 Eb) as (D1 & D2 & D3).
  assert (NE : forall css g, calls group_and empty_group css = Ok g -> List.concat css <> [] -> g_cs g <> []).
  { intros css g E K K'. apply (where_grows _ _ _ E) in K' as [_ K']. contradiction. }
  exists b0, b. split; [exact E0|]. split; [exact Eb|]. split; [|split].
  - intros Hne. destruct Ib as (_ & I2 & I3 & I4 & I5). apply derived_agrees; auto.
    + split; [now rewrite I3|]. split; [now rewrite I2|]. now rewrite I4.
    + eapply where_ready_calls; [|exact I5]. exact A3.
    + eauto.
  - intros hm Hm Hne.
    destruct (calls_total m_call (fun m => g_ok (b_where (m_base m))) (wf_mcall rho)) with (h := hm) (a := many_of b) as (m & Em & Gm); auto.
    { intros a x. apply m_call_total. }
    destruct (m_calls_is hm (many_of b) m t _ _ _ [] 0%N (-1)%Z (conj Ib (conj eq_refl (conj eq_refl eq_refl))) Em)
      as ((_ & I2 & I3 & I4 & I5) & _). destruct (mcall_args rho hm _ A1 Hm) as (B1 & B2 & B3 & B4).
    exists m. split; [exact Em|]. apply derived_agrees; eauto.
    + split; [now rewrite I3|]. split; [now rewrite I2|]. rewrite I4. apply Forall_app; auto.
    + eapply where_ready_calls; [|exact I5]. rewrite List.concat_app. apply Forall_app; auto.
  - intros hs Hs Hne.
    destruct (calls_total s_call (fun m => g_ok (b_where (ss_base m))) (wf_scall rho)) with (h := hs) (a := single_of b) as (q & Eq & Gq); auto.
    { intros a x. apply s_call_total. }
    destruct (scall_args rho hs Hs) as (B1 & B2 & B3).
    destruct (s_calls_is hs (single_of b) q t _ _ _ B1 Ib Eq) as (_ & I2 & I3 & I4 & I5).
    exists q. split; [exact Eq|]. apply derived_agrees; eauto.
    + split; [now rewrite I3|]. split; [now rewrite I2|]. rewrite I4. apply Forall_app; auto.
    + eapply where_ready_calls; [|exact I5]. rewrite List.concat_app. apply Forall_app; auto.
Qed.
Print Assumptions C33_meaning.
(** and without conditions it is refused: C12_converted *)
Example C33_example : exists b0 b u d, select_from (TPStr "users as u") = Ok b0 /\ calls b_call b0 hb0 = Ok b /\
  b_update b [fv "x" (VOther 9); fv "y" (VOther 8)] = Ok u /\ b_delete b = Ok d /\
  (do r <- u_build u; Ok (o_sql r)) = Ok "UPDATE users SET x=$1, y=$2 WHERE t.a IN ($3,$4) AND (b=$5 OR c NOT LIKE $6)" /\
  (do r <- d_build d; Ok (o_sql r)) = Ok "DELETE FROM users WHERE t.a IN ($1,$2) AND (b=$3 OR c NOT LIKE $4)" /\
  List.concat (flat_map bc_where hb0) <> [] /\ forall rho, Forall (wf_bcall rho) hb0.
Proof.
  eexists _, _, _, _. split; [vm_compute; reflexivity|]. split; [vm_compute; reflexivity|]. split; [vm_compute; reflexivity|].
  split; [vm_compute; reflexivity|]. split; [vm_compute; reflexivity|]. split; [vm_compute; reflexivity|]. split; [discriminate|exact hb0_wf].
Qed.

(** * C04 Values never reach the text of a statement *)

Definition same_values (x y : fvalue) : Prop := fv_def y = fv_def x /\
  exists vs vs', fv_values (fv_val x) = Ok vs /\ fv_values (fv_val y) = Ok vs' /\ length vs' = length vs.

(** select-many builders that differ only in values (of conditions, offset, limit) *)
Theorem C04_select : forall m m', same_shape (of_g (b_where (m_base m))) (of_g (b_where (m_base m'))) ->
  b_fields (m_base m') = b_fields (m_base m) -> b_table (m_base m') = b_table (m_base m) -> b_joins (m_base m') = b_joins (m_base m) ->
  m_order m' = m_order m ->
  (0 <? m_offset m')%N = (0 <? m_offset m)%N -> (0 <? m_limit m')%Z = (0 <? m_limit m)%Z ->
  (do r <- m_build m'; Ok (o_sql r)) = (do r <- m_build m; Ok (o_sql r)) /\
  (do r <- b_build (m_base m'); Ok (o_sql r)) = (do r <- b_build (m_base m); Ok (o_sql r)) /\
  (do r <- ss_build (single_of (m_base m')); Ok (o_sql r)) = (do r <- ss_build (single_of (m_base m)); Ok (o_sql r)) /\
  m_render_sql m' = m_render_sql m /\ (forall n, m_render m' n = m_render m n) /\
  (forall fs, (do q <- count (m_base m') fs; do r <- cs_build q; Ok (o_sql r)) = (do q <- count (m_base m) fs; do r <- cs_build q; Ok (o_sql r))).
Proof.
  intros m m' H F1 F2 F3 F5 F6 F7. pose proof (same_shape_text _ _ H) as (_ & T1 & T2 & vs & vs' & V1 & V2 & L).
  assert (N : nonempty (g_cs (b_where (m_base m'))) = nonempty (g_cs (b_where (m_base m)))).
  { unfold of_g in H. inversion H as [|? ? ? ? ? K]; subst. destruct K; reflexivity. }
  assert (Tk : b_tokens (m_base m') = b_tokens (m_base m)).
  { unfold b_tokens, b_render_from. now rewrite F1, F2, F3. }
  assert (B : (exists s ps ps', b_build (m_base m) = Ok (ok s ps) /\ b_build (m_base m') = Ok (ok s ps') /\ length ps' = length ps) \/
    (b_build (m_base m) = Panic /\ b_build (m_base m') = Panic)).
  { unfold b_build. rewrite N, Tk, T1, V1, V2. destruct (nonempty (g_cs (b_where (m_base m)))); [|left; eexists _, _, _; repeat split].
    destruct (c_render (of_g (b_where (m_base m))) 0); [left|right; split; reflexivity].
    eexists _, vs, vs'. split; [reflexivity|]. split; [reflexivity|exact L]. }
  split; [|split; [|split; [|split; [|split]]]].
  - unfold m_build. rewrite F5, F6, F7. destruct B as [(s & ps & ps' & -> & -> & Lp)|[-> ->]]; [|reflexivity].
    cbn [bind ok o_sql o_params]. destruct (0 <? m_offset m)%N; destruct (0 <? m_limit m)%Z; cbn [bind ok o_sql]; rewrite ?app_length; simpl length; rewrite ?Lp; reflexivity.
  - destruct B as [(s & ps & ps' & -> & -> & Lp)|[-> ->]]; reflexivity.
  - unfold ss_build, single_of. cbn [ss_base]. destruct B as [(s & ps & ps' & -> & -> & Lp)|[-> ->]]; reflexivity.
  - unfold m_render_sql, b_render_sql. now rewrite N, Tk, T2.
  - intros n. unfold m_render, b_render. now rewrite N, Tk, T1.
  - intros fs. unfold count. destruct (match fs with [] => _ | _ => _ end) as [f|]; [|reflexivity]. cbn [bind]. unfold cs_build. cbn [cs_base cs_field].
    assert (RF : b_render_from (m_base m') = b_render_from (m_base m)) by (unfold b_render_from; now rewrite F2, F3).
    rewrite N, RF, T1, V1, V2. destruct (nonempty (g_cs (b_where (m_base m)))); [|reflexivity].
    destruct (c_render (of_g (b_where (m_base m))) 0); reflexivity.
Qed.
Print Assumptions C04_select.
Theorem C04_write :
  (forall i i', i_table i' = i_table i -> Forall2 same_values (i_values i) (i_values i') ->
     (do r <- i_build i'; Ok (o_sql r)) = (do r <- i_build i; Ok (o_sql r))) /\
  (forall u u', u_table u' = u_table u -> Forall2 same_values (u_values u) (u_values u') -> same_shape (of_g (u_where u)) (of_g (u_where u')) ->
     (do r <- u_build u'; Ok (o_sql r)) = (do r <- u_build u; Ok (o_sql r))) /\
  (forall d d', d_table d' = d_table d -> same_shape (of_g (d_where d)) (of_g (d_where d')) ->
     (do r <- d_build d'; Ok (o_sql r)) = (do r <- d_build d; Ok (o_sql r))).
Proof.
  assert (NE : forall {A B} (R : A -> B -> Prop) l l', Forall2 R l l' -> nonempty l' = nonempty l) by (intros A B R l l' []; reflexivity).
  split; [|split].
  - intros i i' Ht H. unfold i_build. rewrite Ht, (NE _ _ _ _ _ H). destruct (negb _); [reflexivity|]. destruct (is_empty _); [reflexivity|].
    assert (K : exists vss vss', Forall2 (fun x vs => fv_values (fv_val x) = Ok vs) (i_values i) vss /\
      Forall2 (fun x vs => fv_values (fv_val x) = Ok vs) (i_values i') vss' /\ map (@length _) vss' = map (@length _) vss /\
      map (fun x => f_name (fv_def x)) (i_values i') = map (fun x => f_name (fv_def x)) (i_values i)).
    { clear -H. induction H as [|x y l l' (Hd & vs & vs' & E & E' & L) _ (vss & vss' & I1 & I2 & I3 & I4)].
      - exists [], []. repeat split; constructor.
      - exists (vs :: vss), (vs' :: vss'). repeat split; try (constructor; assumption); simpl; congruence. }
    destruct K as (vss & vss' & K1 & K2 & K3 & K4). rewrite (ins_loop_any _ _ [] K1), (ins_loop_any _ _ [] K2).
    cbn [bind ok o_sql]. unfold col_names. rewrite K3, K4. reflexivity.
  - intros u u' Ht H Hs. pose proof (same_shape_text _ _ Hs) as (_ & T1 & T2 & vs & vs' & V1 & V2 & L).
    assert (N : nonempty (g_cs (u_where u')) = nonempty (g_cs (u_where u))).
    { unfold of_g in Hs. inversion Hs as [|? ? ? ? ? K]; subst. eapply NE, K. }
    unfold u_build. rewrite Ht, N, (NE _ _ _ _ _ H), V1, V2. destruct (negb _); [reflexivity|]. destruct (negb _); [reflexivity|].
    destruct (is_empty _); [reflexivity|].
    assert (K : (exists sets ps ps', fields_and_values (u_values u) = Ok (sets, ps) /\ fields_and_values (u_values u') = Ok (sets, ps') /\ length ps' = length ps) \/
      (fields_and_values (u_values u) = Panic /\ fields_and_values (u_values u') = Panic)).
    { assert (Q : (exists ps ps', mapM first_value (u_values u) = Ok ps /\ mapM first_value (u_values u') = Ok ps' /\ length ps' = length ps) \/
        (mapM first_value (u_values u) = Panic /\ mapM first_value (u_values u') = Panic)).
      { clear -H. induction H as [|x y l l' (Hd & vs & vs' & E & E' & L) _ IH]; [left; exists [], []; repeat split|].
        cbn [mapM].
        assert (F : first_value x = match vs with [] => Panic | v :: _ => Ok v end) by (unfold first_value; now rewrite E).
        assert (F' : first_value y = match vs' with [] => Panic | v :: _ => Ok v end) by (unfold first_value; now rewrite E').
        rewrite F, F'. destruct vs as [|v vs], vs' as [|v' vs']; try discriminate L; [right; split; reflexivity|]. cbn [bind].
        destruct IH as [(ps & ps' & -> & -> & Lp)|[-> ->]]; [left|right; split; reflexivity].
        exists (v :: ps), (v' :: ps'). repeat split. simpl. congruence. }
      assert (S : forall k, map (fun p : nat * fvalue => f_name (fv_def (snd p)) ++ "=" ++ dollar (fst p + 1)) (combine (seq k (length (u_values u'))) (u_values u')) =
        map (fun p : nat * fvalue => f_name (fv_def (snd p)) ++ "=" ++ dollar (fst p + 1)) (combine (seq k (length (u_values u))) (u_values u))).
      { clear -H. induction H as [|x y l l' (Hd & _) _ IH]; intros k; [reflexivity|]. simpl. rewrite Hd, IH. reflexivity. }
      unfold fields_and_values. rewrite S. destruct Q as [(ps & ps' & -> & -> & Lp)|[-> ->]]; [left|right; split; reflexivity]. cbn [bind]. eauto 8. }
    destruct K as [(sets & ps & ps' & -> & -> & Lp)|[-> ->]]; [|reflexivity]. cbn [bind]. rewrite T1, Lp.
    destruct (c_render (of_g (u_where u)) (length ps)); reflexivity.
  - intros u u' Ht Hs. pose proof (same_shape_text _ _ Hs) as (_ & T1 & T2 & vs & vs' & V1 & V2 & L).
    assert (N : nonempty (g_cs (d_where u')) = nonempty (g_cs (d_where u))).
    { unfold of_g in Hs. inversion Hs as [|? ? ? ? ? K]; subst. eapply NE, K. }
    unfold d_build. rewrite Ht, N, T1, V1, V2. destruct (negb _); [reflexivity|]. destruct (is_empty _); [reflexivity|].
    destruct (c_render (of_g (d_where u)) 0); reflexivity.
Qed.
Print Assumptions C04_write.
Example C04_write_example : let i v := i_add (insert_into (TPName "t")) [fv "a" v; fv "b" (VOther 1)] in
  Forall2 same_values (i_values (i (VStr "x"))) (i_values (i (VStr "'); DROP TABLE t; --"))) /\
  (do r <- i_build (i (VStr "'); DROP TABLE t; --")); Ok (o_sql r)) = Ok "INSERT INTO t(a, b) VALUES ($1, $2)".
Proof.
  cbv zeta. split; [|vm_compute; reflexivity]. constructor; [split; [reflexivity|eexists _, _; repeat split]|].
  constructor; [split; [reflexivity|eexists _, _; repeat split]|constructor].
Qed.

(** * C35 A panicking conversion stops every builder *)

Lemma ins_loop_panic fvs : forall ps, (exists x, In x fvs /\ fv_values (fv_val x) = Panic) -> ins_loop ps fvs = Panic.
Proof.
  induction fvs as [|x l IH]; intros ps (y & Hy & E); [destruct Hy|]. cbn [ins_loop].
  destruct (fv_values (fv_val x)) as [vs|] eqn:Ex; [|reflexivity]. cbn [bind]. rewrite IH; [reflexivity|].
  destruct Hy as [->|Hy]; [congruence|eauto].
Qed.
Lemma mapM_panic {A B} (f : A -> res B) l : (exists x, In x l /\ f x = Panic) -> mapM f l = Panic.
Proof.
  induction l as [|x l IH]; intros (y & Hy & E); [destruct Hy|]. cbn [mapM]. destruct Hy as [->|Hy]; [now rewrite E|].
  destruct (f x); [|reflexivity]. cbn [bind]. rewrite IH; eauto.
Qed.
Lemma c_values_panic c : no_nil c -> (exists l, In l (leaves c) /\ leaf_values l = Panic) -> c_values c = Panic.
Proof.
  intros Hn (l & Hl & E). rewrite (c_values_cores c Hn). unfold concatM. rewrite mapM_panic; [reflexivity|].
  exists (core l). split; [unfold cores; now apply in_map|]. now rewrite <- leaf_values_core.
Qed.
Definition where_panics (g : group) : Prop := g_cs g <> [] /\ no_nil (of_g g) /\ exists l, In l (leaves (of_g g)) /\ leaf_values l = Panic.
Lemma where_panic {B} g n (k : string -> list gval -> res B) : where_panics g ->
  (do w <- c_render (of_g g) n; do vs <- c_values (of_g g); k w vs) = Panic.
Proof. intros (_ & Hn & Hl). rewrite (c_values_panic _ Hn Hl). destruct (c_render (of_g g) n); reflexivity. Qed.

(** Full statement (false, see C35_refuted): a failing conversion anywhere is reported.
    Proved part: every conversion that panics (slices of types implementing
    driver.Valuer, C35_reported_partial) makes every builder panic, whatever else it holds. *)
Theorem C35_builders_partial :
  (forall b, where_panics (b_where b) -> b_build b = Panic) /\
  (forall m, where_panics (b_where (m_base m)) -> m_build m = Panic) /\
  (forall q, where_panics (b_where (ss_base q)) -> ss_build q = Panic) /\
  (forall q, where_panics (b_where (cs_base q)) -> cs_build q = Panic) /\
  (forall d, d_table d <> "" -> where_panics (d_where d) -> d_build d = Panic) /\
  (forall u, u_table u <> "" -> u_values u <> [] -> g_cs (u_where u) <> [] ->
     where_panics (u_where u) \/ (exists x, In x (u_values u) /\ fv_values (fv_val x) = Panic) -> u_build u = Panic) /\
  (forall i, i_table i <> "" -> (exists x, In x (i_values i) /\ fv_values (fv_val x) = Panic) -> i_build i = Panic).
Proof.
  assert (NE : forall {A} (l : list A), l <> [] -> nonempty l = true) by (intros A [|]; [congruence|reflexivity]).
  assert (IE : forall s, s <> "" -> is_empty s = false) by (intros [|]; [congruence|reflexivity]).
  assert (B : forall b, where_panics (b_where b) -> b_build b = Panic).
  { intros b H. unfold b_build. rewrite (NE _ _ (proj1 H)). now apply where_panic. }
  split; [exact B|]. split; [intros m H; unfold m_build; now rewrite (B _ H)|].
  split; [intros m H; unfold ss_build; now rewrite (B _ H)|].
  split; [intros q H; unfold cs_build; rewrite (NE _ _ (proj1 H)); now apply where_panic|].
  split; [intros d Ht H; unfold d_build; rewrite (NE _ _ (proj1 H)), (IE _ Ht); cbn [negb]; now apply where_panic|]. split.
  - intros u Ht Hv Hg H. unfold u_build. rewrite (NE _ _ Hg), (NE _ _ Hv), (IE _ Ht). cbn [negb]. destruct H as [H|(x & Hx & E)].
    + destruct (fields_and_values (u_values u)) as [[sets ps]|]; [|reflexivity]. cbn [bind]. now apply where_panic.
    + unfold fields_and_values. rewrite mapM_panic; [reflexivity|]. exists x. split; [exact Hx|]. unfold first_value. now rewrite E.
  - intros i Ht H. unfold i_build. rewrite (IE _ Ht), ins_loop_panic by exact H.
    destruct (i_values i) eqn:Ev; [destruct H as (x & [] & _)|reflexivity].
Qed.
Print Assumptions C35_builders_partial.
Example C35_builders_example : let bad := VValuerSlice [Some (ORet (VOther 1) false); Some (ORet (VOther 2) true)] in
  exists c b d, in_ "f" bad = Ok c /\ (do b <- select_from (TPName "t"); b_add_where b [eqc "a" 1; c]) = Ok b /\
  where_panics (b_where b) /\ b_delete b = Ok d /\ d_build d = Panic.
Proof.
  cbv zeta. eexists _, _, _. split; [vm_compute; reflexivity|]. split; [vm_compute; reflexivity|]. split; [|split; vm_compute; reflexivity].
  split; [discriminate|]. split; [repeat constructor|]. eexists. split; [right; left; reflexivity|reflexivity].
Qed.
Example C04_select_example : let q n l := (do m <- select_many_from (TPName "t"); do m <- m_add_where m [eqc "a" n]; Ok (m_set_limit m l)) in
  exists m m', q 1 5%Z = Ok m /\ q 7 9%Z = Ok m' /\ same_shape (of_g (b_where (m_base m))) (of_g (b_where (m_base m'))) /\
  (do r <- m_build m; Ok (o_sql r)) = Ok "SELECT * FROM t WHERE a=$1 LIMIT $2" /\
  (do r <- m_build m'; Ok (o_sql r)) = Ok "SELECT * FROM t WHERE a=$1 LIMIT $2".
Proof.
  cbv zeta. eexists _, _. split; [vm_compute; reflexivity|]. split; [vm_compute; reflexivity|]. split; [|split; vm_compute; reflexivity].
  constructor. repeat (constructor; [constructor; repeat split; try discriminate; eexists _, _; repeat split|]). constructor.
Qed.
