(** Property theorems about entry points on tables, aliases, orderings and FROM clauses. *)
From Coq Require Import String Ascii List Bool Arith Lia NArith ZArith.
From Verif Require Import GoStr Value Names Cond Build Surface SqlSpec Spec StrFacts SqlFacts CondFacts CondText CondSem TreeFacts
  CondLogic CondMeaning Built CondThms PropsCond NameFacts PropsNames StmtFacts Calls BuildFacts BuildThms StmtText PropsSelect PropsWrite.
Import ListNotations.
Local Open Scope string_scope.
Local Open Scope nat_scope.

(** * C62 The shorthands on tables *)

(** Select(cs), SelectMany(cs), SelectOne(cs) and Count(cs) on a table name or identifier: the statement reads
    all columns of that table (one row; or counts), under the condition that And of the arguments makes. *)
Theorem C62_select : forall rho p t cs, table_p p = Ok t -> wf_table t -> Forall (usable rho) cs ->
  exists b m q n s s1 s2 ps we c,
    tp_select p cs = Ok b /\ b_build b = Ok (mkOut s ps None) /\
    tp_select_many p cs = Ok m /\ m_build m = Ok (mkOut s ps None) /\
    tp_select_one p cs = Ok q /\ ss_build q = Ok (mkOut s1 ps None) /\
    t_count t cs = Ok n /\ cs_build n = Ok (mkOut s2 ps None) /\
    parse_select s = Some (mkSel Star (table_item t) [] we [] None None) /\
    parse_select s1 = Some (mkSel Star (table_item t) [] we [] None (Some (BLit 1))) /\
    parse_select s2 = Some (mkSel CountStar (table_item t) [] we [] None None) /\
    wanted [cs] c /\ cond_values c ps /\ where_as rho c we ps.
Proof.
  intros rho p t cs Et Ht Hc.
  assert (Hb : Forall (wf_bcall rho) [BWhere cs]) by (constructor; [exact Hc|constructor]).
  destruct (C07_select_single rho p t [BWhere cs] [] Et Ht Hb (Forall_nil _)) as
    (b0 & b & q & s1 & s & ps & c & sel & E0 & Eb & Eq & Es1 & Es & P & Ps & P1 & W & V & A).
  injection Eq as <-. cbn [single_of ss_base] in *. cbn [flat_map bc_where bc_join last_of bc_fields app map] in *.
  assert (E1 : b_add_where b0 cs = Ok b).
  { cbn [calls b_call] in Eb. destruct (b_add_where b0 cs); [|discriminate]. now injection Eb as ->. }
  clear Eb. set (we := s_where sel) in *. rewrite Ps in P, P1. cbn [s_cols s_from s_joins s_where] in P1.
  assert (Em : m_build (many_of b) = Ok (mkOut s ps None)).
  { unfold m_build. cbn [many_of m_base m_order m_offset m_limit]. rewrite Es. cbn -[append]. now rewrite app_nil_r_s. }
  assert (E0' : select_from (TPIdent t) = Ok b0).
  { rewrite <- E0. unfold select_from, table. destruct p as [x|x|u]; [change (table_p (TPName x)) with (table_p (TPStr x))| |];
      rewrite ?Et; try reflexivity. cbn in Et. now injection Et as ->. }
  assert (I : b_is b t [] [] [cs]).
  { destruct (select_from_total p t Et) as (b0'' & E' & I0). rewrite E0 in E'. injection E' as <-.
    exact (b_calls_is [BWhere cs] b0 b t [] [] [] I0 ltac:(cbn [calls b_call]; now rewrite E1)). }
  destruct I as (_ & I2 & I3 & I4 & I5).
  destruct (count_build rho (mkCS b (mkF "*" "" ""))) as (s2 & ps' & we' & C1 & C2 & (tx & Cb & Ct) & C3); cbn [cs_base cs_field].
  { split; [|split]; rewrite ?I2, ?I3, ?I4; [constructor|exact Ht|constructor]. }
  { now left. }
  { eapply where_ready_calls; [|exact I5]. simpl. rewrite app_nil_r. exact Hc. }
  cbn [cs_base cs_field] in *. rewrite Es in Cb. injection Cb as <- <-.
  rewrite P in Ct. apply (f_equal (fun o => match o with Some x => s_where x | None => None end)) in Ct. cbn [base_sel s_where] in Ct.
  rewrite <- Ct, I2, I4 in C3.
  exists b, (many_of b), (single_of b), (mkCS b (mkF "*" "" "")), s, s1, s2, ps, we, c.
  unfold tp_select, tp_select_many, tp_select_one, select_many_from, select_single_from, t_count, tp_select, m_add_where, ss_add_where.
  rewrite E0, E0'. cbn [bind many_of m_base single_of ss_base]. rewrite E1. repeat apply conj; auto.
Qed.
Print Assumptions C62_select.
Example C62_select_example :
  (do b <- tp_select (TPName "users AS u") [eqc "a" 1]; b_build b) = Ok (mkOut "SELECT * FROM users AS u WHERE a=$1" [VOther 1] None) /\
  (do b <- tp_select_many (TPName "users AS u") [eqc "a" 1]; m_build b) = Ok (mkOut "SELECT * FROM users AS u WHERE a=$1" [VOther 1] None) /\
  (do b <- tp_select_one (TPName "users AS u") [eqc "a" 1]; ss_build b) = Ok (mkOut "SELECT * FROM users AS u WHERE a=$1 LIMIT 1" [VOther 1] None) /\
  (do b <- t_count (mkT "users" "u") [eqc "a" 1]; cs_build b) = Ok (mkOut "SELECT COUNT(*) FROM users AS u WHERE a=$1" [VOther 1] None) /\
  table_p (TPName "users AS u") = Ok (mkT "users" "u") /\ wf_table (mkT "users" "u") /\ forall rho, Forall (usable rho) [eqc "a" 1].
Proof.
  do 5 (split; [vm_compute; reflexivity|]). split.
  - split; [constructor; reflexivity|right; reflexivity].
  - intros rho. constructor; [by_usable|constructor].
Qed.

(** Insert(values), Update(values) and Delete(cs) on a table, and InsertInto(values) on a select: the statement
    writes to that table (without its alias), the named columns get the values, and Delete removes the rows
    meeting the And of the arguments.  Update has no condition yet and is completed by Where. *)
Theorem C62_insert : forall p vs xs, qname (raw_table_name p) -> vs <> [] -> singles vs xs ->
  Forall (fun c => name c = true) (col_names vs) ->
  exists s, i_build (tp_insert p vs) = Ok (mkOut s xs None) /\
    parse_insert s = Some (mkIns (raw_table_name p) (map (fun x => f_name (fv_def x)) vs) (seq 1 (length xs))) /\
    forall b, t_name (b_table b) = raw_table_name p ->
      i_build (b_insert b vs) = Ok (mkOut s xs None) /\
      (forall o l os, i_build (m_insert (mkM b o l os) vs) = Ok (mkOut s xs None)) /\
      i_build (ss_insert (single_of b) vs) = Ok (mkOut s xs None).
Proof.
  intros p vs xs Hq Hv Hs Hn. destruct (C09_insert p [vs] xs) as (i & s & E & B & P); cbn [List.concat]; rewrite ?app_nil_r; auto.
  cbn [List.concat] in P. rewrite app_nil_r in P. injection E as <-. exists s. split; [exact B|]. split; [exact P|].
  intros b Hb. unfold m_insert, ss_insert, b_insert. cbn [m_base ss_base single_of].
  assert (K : insert_into (TPIdent (b_table b)) = insert_into p) by (unfold insert_into; cbn [raw_table_name]; now rewrite Hb).
  rewrite K. auto.
Qed.
Print Assumptions C62_insert.
Theorem C62_update : forall rho p vs xs cs, qname (raw_table_name p) -> vs <> [] -> singles vs xs ->
  Forall (fun c => name c = true) (col_names vs) -> Forall (usable rho) cs -> cs <> [] ->
  exists u s ws c e v, u_add_where (tp_update p vs) cs = Ok u /\ u_build u = Ok (mkOut s (xs ++ ws) None) /\
    parse_update s = Some (mkUpd (raw_table_name p) (combine (map (fun x => f_name (fv_def x)) vs) (seq 1 (length xs))) e) /\
    wanted [cs] (Some c) /\ c_values c = Ok ws /\ reads c (length xs) e /\ means rho c v /\ eval rho (xs ++ ws)%list e = Some v.
Proof.
  intros rho p vs xs cs Hq Hv Hs Hn Hc Hne.
  destruct (C10_update rho p [USet vs; UWhere cs] xs) as (u & s & ws & c & e & v & E & R); cbn [flat_map uc_set uc_where app List.concat];
    rewrite ?app_nil_r; auto.
  { constructor; [exact I|]. constructor; [exact Hc|constructor]. }
  cbn [flat_map uc_set uc_where app] in R. rewrite app_nil_r in R.
  exists u, s, ws, c, e, v. split; [|exact R]. cbn [calls u_call] in E. unfold tp_update.
  destruct (u_add_where (u_add (update_ p) vs) cs); [|discriminate]. now injection E as ->.
Qed.
Print Assumptions C62_update.
Theorem C62_delete : forall rho p cs, qname (raw_table_name p) -> Forall (usable rho) cs -> cs <> [] ->
  exists d s ws c e v, tp_delete p cs = Ok d /\ d_build d = Ok (mkOut s ws None) /\
    parse_delete s = Some (mkDel (raw_table_name p) e) /\
    wanted [cs] (Some c) /\ c_values c = Ok ws /\ reads c 0 e /\ means rho c v /\ eval rho ws e = Some v.
Proof.
  intros rho p cs Hq Hc Hne.
  destruct (C11_delete rho p [cs]) as (d & s & ws & c & e & v & E & R); auto.
  { cbn [List.concat]. now rewrite app_nil_r. }
  exists d, s, ws, c, e, v. split; [|exact R]. cbn [calls] in E. unfold tp_delete.
  destruct (d_add_where (delete_ p) cs); [|discriminate]. now injection E as ->.
Qed.
Print Assumptions C62_delete.
Example C62_write_example :
  i_build (tp_insert (TPIdent (mkT "users" "u")) [fv "a" (VOther 1)]) = Ok (mkOut "INSERT INTO users(a) VALUES ($1)" [VOther 1] None) /\
  (do u <- u_add_where (tp_update (TPName "users") [fv "a" (VOther 1)]) [eqc "d" 7]; u_build u) =
    Ok (mkOut "UPDATE users SET a=$1 WHERE d=$2" [VOther 1; VOther 7] None) /\
  (do d <- tp_delete (TPName "users") [eqc "d" 7]; d_build d) = Ok (mkOut "DELETE FROM users WHERE d=$1" [VOther 7] None) /\
  singles [fv "a" (VOther 1)] [VOther 1] /\ qname "users".
Proof.
  do 3 (split; [vm_compute; reflexivity|]). split; [|constructor; reflexivity].
  repeat apply Forall2_cons; try apply Forall2_nil; reflexivity.
Qed.

