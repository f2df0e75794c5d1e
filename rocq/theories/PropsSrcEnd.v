(** C103: what the statements mean, for the source text itself.  C06, C07, C09-C12 are about the
    model's builders; here the statements are the ones that running the Go text gives (C102). *)
From Coq Require Import String Ascii List Bool Arith NArith ZArith Lia.
From Verif Require PropsSrc PropsSrcCond PropsSrcBuild PropsSrcExpr.
From Verif Require Import SrcSem SrcFacts SrcLoops SrcValues SrcBuilders SrcWrite Open PropsSrcLib.
From Verif Require Import GoStr Value Names Cond Build SqlSpec Spec StrFacts SqlFacts CondFacts CondText CondSem TreeFacts
  CondLogic CondMeaning Built CondThms PropsCond NameFacts StmtFacts Calls Surface BuildFacts BuildThms StmtText PropsSelect PropsWrite.
Import ListNotations.
Local Open Scope string_scope.
Local Open Scope nat_scope.

(** BuildQueryAndParams returned this text, these parameters and no error *)
Definition returned (s : string) (ps : list gval) : rr (val nobody) := Done (RTuple [RStr "string" s; RSlice (gvals ps); RNil]).
(** it returned no text, no parameters and an error *)
Definition turned_down (r : rr (val nobody)) : Prop := exists e, e <> RNil /\ r = Done (RTuple [RStr "string" ""; RSlice []; e]).

(** SelectFrom(p), any Fields, Where and Join...On calls, Many(), any Fields, Where, Join...On, OrderBy,
    Offset and Limit calls, BuildQueryAndParams(), names being well formed: the source runs without
    a panic, returns no error, and the text reads back as what was asked for (C06). *)
Theorem C103_select_many : forall (i : impl nobody) rho p t hb hm,
  table_p p = Ok t -> wf_table t -> Forall (wf_bcall rho) hb -> Forall (wf_mcall rho) hm ->
  exists s ps vs c sel,
    program i "SelectFrom" [of_tparam p] (flat_map b_text hb ++ ("Many", []) :: flat_map m_text hm ++ build)%list (returned s ps) /\
    parse_select s = Some sel /\
    s_cols sel = cols_item (last_of mc_fields (last_of bc_fields [] hb) hm) /\
    s_from sel = table_item t /\
    s_joins sel = map join_item (flat_map bc_join hb ++ flat_map mc_join hm) /\
    s_order sel = map sort_item (flat_map mc_order hm) /\
    wanted (flat_map bc_where hb ++ flat_map mc_where hm) c /\ cond_values c vs /\ where_as rho c (s_where sel) ps /\
    let off := last_of mc_offset 0%N hm in
    let lim := Z.to_N (last_of mc_limit (-1)%Z hm) in
    ps = (vs ++ page_values off lim)%list /\ bound_to ps (s_offset sel) off /\ bound_to ps (s_limit sel) lim.
Proof.
  intros i rho p t hb hm H1 H2 H3 H4. destruct (C06_select_many rho p t hb hm H1 H2 H3 H4) as (b0 & b & m & s & ps & vs & c & sel & E0 & E1 & E2 & E3 & R).
  exists s, ps, vs, c, sel. split; [|exact R].
  eapply program_is; [apply (proj1 (C102_derived_from_source i p hb))|].
  rewrite E0. cbn [bind]. rewrite E1. cbn [bind]. unfold b_many. rewrite E2. cbn [bind]. rewrite E3. reflexivity.
Qed.

(** the same with Single() and its Where and Join...On calls (C07) *)
Theorem C103_select_single : forall (i : impl nobody) rho p t hb hs,
  table_p p = Ok t -> wf_table t -> Forall (wf_bcall rho) hb -> Forall (wf_scall rho) hs ->
  exists s ps c we,
    program i "SelectFrom" [of_tparam p] (flat_map b_text hb ++ ("Single", []) :: flat_map s_text hs ++ build)%list (returned s ps) /\
    parse_select s = Some (mkSel (cols_item (last_of bc_fields [] hb)) (table_item t)
      (map join_item (flat_map bc_join hb ++ flat_map sc_join hs)) we [] None (Some (BLit 1))) /\
    wanted (flat_map bc_where hb ++ flat_map sc_where hs) c /\ cond_values c ps /\ where_as rho c we ps.
Proof.
  intros i rho p t hb hs H1 H2 H3 H4. destruct (C07_select_single rho p t hb hs H1 H2 H3 H4) as (b0 & b & q & s & s0 & ps & c & sel & E0 & E1 & E2 & E3 & _ & _ & Es & Ep & R).
  exists s, ps, c, (s_where sel). split; [|split; [|exact R]].
  - eapply program_is; [apply (proj1 (proj2 (C102_derived_from_source i p hb)))|].
    rewrite E0. cbn [bind]. rewrite E1. cbn [bind]. rewrite E2. cbn [bind]. rewrite E3. reflexivity.
  - rewrite Ep, Es. reflexivity.
Qed.

(** InsertInto(p), any Values calls, BuildQueryAndParams() (C09) *)
Theorem C103_insert : forall (i : impl nobody) p h vs, qname (raw_table_name p) -> List.concat h <> [] -> singles (List.concat h) vs ->
  Forall (fun c => name c = true) (col_names (List.concat h)) ->
  exists s, program i "InsertInto" [of_tparam p] (flat_map i_text h ++ build)%list (returned s vs) /\
    parse_insert s = Some (mkIns (raw_table_name p) (map (fun x => f_name (fv_def x)) (List.concat h)) (seq 1 (length vs))).
Proof.
  intros i p h vs H1 H2 H3 H4. destruct (C09_insert p h vs H1 H2 H3 H4) as (x & s & E1 & E2 & R). exists s. split; [|exact R].
  eapply program_is; [apply (proj1 (proj2 (proj2 (proj2 (C102_programs_from_source i p)))))|]. rewrite E1. cbn [bind]. rewrite E2. reflexivity.
Qed.

(** Update(p), any Set and Where calls, BuildQueryAndParams() (C10) *)
Theorem C103_update : forall (i : impl nobody) rho p h vs, let sets := flat_map uc_set h in
  qname (raw_table_name p) -> sets <> [] -> singles sets vs -> Forall (fun c => name c = true) (col_names sets) ->
  Forall (uc_usable rho) h -> List.concat (flat_map uc_where h) <> [] ->
  exists s ws c e v, program i "Update" [of_tparam p] (flat_map u_text h ++ build)%list (returned s (vs ++ ws)) /\
    parse_update s = Some (mkUpd (raw_table_name p) (combine (map (fun x => f_name (fv_def x)) sets) (seq 1 (length vs))) e) /\
    wanted (flat_map uc_where h) (Some c) /\ c_values c = Ok ws /\ reads c (length vs) e /\
    means rho c v /\ eval rho (vs ++ ws)%list e = Some v.
Proof.
  intros i rho p h vs sets H1 H2 H3 H4 H5 H6. destruct (C10_update rho p h vs H1 H2 H3 H4 H5 H6) as (u & s & ws & c & e & v & E1 & E2 & R).
  exists s, ws, c, e, v. split; [|exact R].
  eapply program_is; [apply (proj1 (proj2 (proj2 (proj2 (proj2 (C102_programs_from_source i p))))))|]. rewrite E1. cbn [bind]. rewrite E2. reflexivity.
Qed.

(** Delete(p), any Where calls, BuildQueryAndParams() (C11) *)
Theorem C103_delete : forall (i : impl nobody) rho p h, qname (raw_table_name p) -> Forall (Forall (usable rho)) h -> List.concat h <> [] ->
  exists s ws c e v, program i "Delete" [of_tparam p] (flat_map d_text h ++ build)%list (returned s ws) /\
    parse_delete s = Some (mkDel (raw_table_name p) e) /\
    wanted h (Some c) /\ c_values c = Ok ws /\ reads c 0 e /\ means rho c v /\ eval rho ws e = Some v.
Proof.
  intros i rho p h H1 H2 H3. destruct (C11_delete rho p h H1 H2 H3) as (d & s & ws & c & e & v & E1 & E2 & R).
  exists s, ws, c, e, v. split; [|exact R].
  eapply program_is; [apply (proj2 (proj2 (proj2 (proj2 (proj2 (C102_programs_from_source i p))))))|]. rewrite E1. cbn [bind]. rewrite E2. reflexivity.
Qed.

(** Update and Delete without any condition are turned down, whatever else is called; and whatever
    such a program ends with, if it is a text without an error, some condition was given (C12). *)
Lemma refused_down e o : refused o -> turned_down (Done (of_out e o)).
Proof.
  intros (H1 & H2 & H3). destruct o as [s ps [k|]]; cbn in *; [|congruence]. subst. eexists. split; [|reflexivity]. discriminate.
Qed.
Lemma ended e r s ps : of_res (of_out e) r = returned s ps -> exists o, r = Ok o /\ o_err o = None /\ o_sql o = s.
Proof.
  destruct r as [[t qs [k|]]|]; cbn; intros H; try discriminate. injection H as <- _. eexists. split; [reflexivity|]. split; reflexivity.
Qed.
Theorem C103_refused : forall (i : impl nobody) p,
  (forall h, List.concat (flat_map uc_where h) = [] -> exists r, program i "Update" [of_tparam p] (flat_map u_text h ++ build)%list r /\ turned_down r) /\
  (forall h, List.concat h = [] -> exists r, program i "Delete" [of_tparam p] (flat_map d_text h ++ build)%list r /\ turned_down r) /\
  (forall h s ps, program i "Update" [of_tparam p] (flat_map u_text h ++ build)%list (returned s ps) ->
     List.concat (flat_map uc_where h) <> [] /\ raw_table_name p <> "" /\ flat_map uc_set h <> []) /\
  (forall h s ps, program i "Delete" [of_tparam p] (flat_map d_text h ++ build)%list (returned s ps) ->
     List.concat h <> [] /\ raw_table_name p <> "").
Proof.
  intros i p. pose proof (proj1 (proj2 (proj2 (proj2 (proj2 (C102_programs_from_source i p)))))) as Pu.
  pose proof (proj2 (proj2 (proj2 (proj2 (proj2 (C102_programs_from_source i p)))))) as Pd.
  split; [|split; [|split]].
  - intros h H. eexists. split; [apply Pu|]. destruct (proj1 (C12_refusal_returns p h [] H eq_refl)) as (u & o & E1 & E2 & R).
    rewrite E1. cbn [bind]. rewrite E2. now apply refused_down.
  - intros h H. eexists. split; [apply Pd|]. destruct (proj2 (C12_refusal_returns p [] h eq_refl H)) as (u & o & E1 & E2 & R).
    rewrite E1. cbn [bind]. rewrite E2. now apply refused_down.
  - intros h s ps H. pose proof (program_once _ _ _ _ _ _ (Pu h) H) as E. apply ended in E as (o & E & Eo & _).
    destruct (Spec.calls u_call (update_ p) h) as [u|] eqn:Eu; [|discriminate]. cbn [bind] in E. now apply (C12_update p h u o Eu E).
  - intros h s ps H. pose proof (program_once _ _ _ _ _ _ (Pd h) H) as E. apply ended in E as (o & E & Eo & _).
    destruct (Spec.calls d_add_where (delete_ p) h) as [u|] eqn:Eu; [|discriminate]. cbn [bind] in E. now apply (C12_delete p h u o Eu E).
Qed.

Example C103_example : forall i : impl nobody,
  program i "SelectFrom" [of_tparam (TPStr "users as u")] (flat_map b_text hb0 ++ ("Many", []) :: flat_map m_text hm0 ++ build)%list (returned
    ("SELECT u.id, o.total AS sum FROM users AS u LEFT JOIN orders AS o ON u.id=o.uid INNER JOIN items AS i ON o.id=i.oid " ++
     "WHERE t.a IN ($1,$2) AND (b=$3 OR c NOT LIKE $4) AND d=$5 ORDER BY id ASC, o.total DESC OFFSET $6 LIMIT $7")
    [VStr "x"; VStr "y"; VOther 1; VStr "%z%"; VOther 7; VUint 20; VUint 10]) /\
  (forall rho, Forall (wf_bcall rho) hb0 /\ Forall (wf_mcall rho) hm0) /\
  table_p (TPStr "users as u") = Ok (mkT "users" "u") /\ wf_table (mkT "users" "u").
Proof.
  intros i. split; [|exact (proj2 C06_example)]. eapply program_is; [apply (proj1 (C102_derived_from_source i _ _))|]. vm_compute. reflexivity.
Qed.
Example C103_refused_example : forall i : impl nobody,
  exists r, program i "Update" [of_tparam (TPName "t")] (flat_map u_text [USet [fv "a" (VOther 1)]; UWhere []] ++ build)%list r /\ turned_down r.
Proof. intros i. apply (proj1 (C103_refused i (TPName "t"))). reflexivity. Qed.

(** Print Assumptions: see PropsSrcResults.v. *)
