(** C107: the results of the statements, for the source text itself: pages, the single row, counts, order and
    joins.  C71, C72, C82, C89 and C90 are about the model's builders; here the programs are chains of calls
    run from the Go text (C102), and the rows are those of DbSpec.v. *)
From Coq Require Import String Ascii List Bool Arith NArith ZArith Lia Permutation Sorted.
From Verif Require Import SrcSem SrcFacts SrcLoops SrcValues SrcCalls SrcBuilders SrcWrite Open PropsSrcLib PropsSrcSurface PropsSrcEnd.
From Verif Require Import GoStr Value Names Cond Build SqlSpec Spec StrFacts SqlFacts CondFacts CondText CondSem TreeFacts
  CondLogic CondMeaning Built CondThms PropsCond NameFacts StmtFacts Calls Surface BuildFacts BuildThms StmtText AtomFacts PropsSelect PropsAtoms PropsWrite DbSpec PropsDb PropsRows.
From Verif Require PropsShort PropsSorted PropsJoin PropsSrc PropsSrcCond PropsSrcBuild PropsSrcRows PropsSrcBugs.
Import ListNotations.
Local Open Scope string_scope.
Local Open Scope nat_scope.

(** SelectFrom(p), the calls hb, Many(), the calls hm, then ms *)
Definition many_program (i : impl nobody) p hb hm ms r : Prop :=
  program i "SelectFrom" [of_tparam p] (flat_map b_text hb ++ ("Many", []) :: flat_map m_text hm ++ ms)%list r.

(** * Facts *)

Lemma made_many p t hb hm : table_p p = Ok t -> wf_table t -> Forall plain_b hb -> Forall plain_m hm ->
  exists b0 b m, select_from p = Ok b0 /\ Spec.calls b_call b0 hb = Ok b /\ made_b b /\ Spec.calls m_call (many_of b) hm = Ok m /\ made m.
Proof.
  intros Et Ht Hb Hm.
  destruct (C06_select_many (fun _ _ _ => U) p t hb hm Et Ht (plain_b_wf _ _ Hb) (plain_m_wf _ _ Hm)) as (b0 & b & m & s & ps & vs & c & sel & E0 & E1 & E2 & _).
  assert (B : made_b b) by (exists p, t, b0, hb; auto 10). exists b0, b, m. split; [exact E0|]. split; [exact E1|]. split; [exact B|]. split; [exact E2|].
  exists b, hm. auto.
Qed.
Lemma made_single p t hb hs : table_p p = Ok t -> wf_table t -> Forall plain_b hb -> Forall plain_s hs ->
  exists b0 b q, select_from p = Ok b0 /\ Spec.calls b_call b0 hb = Ok b /\ made_b b /\ Spec.calls s_call (single_of b) hs = Ok q /\ made_s q.
Proof.
  intros Et Ht Hb Hs.
  destruct (C07_select_single (fun _ _ _ => U) p t hb hs Et Ht (plain_b_wf _ _ Hb) (plain_s_wf _ _ Hs)) as (b0 & b & m & s & s0 & ps & c & sel & E0 & E1 & E2 & _).
  assert (B : made_b b) by (exists p, t, b0, hb; auto 10). exists b0, b, m. split; [exact E0|]. split; [exact E1|]. split; [exact B|]. split; [exact E2|].
  exists b, hs. auto.
Qed.
Lemma many_goes i p b0 b m hb hm k o : select_from p = Ok b0 -> Spec.calls b_call b0 hb = Ok b -> Spec.calls m_call (many_of b) hm = Ok m ->
  (do m' <- Spec.calls m_call m k; m_build m') = Ok o -> o_err o = None -> many_program i p hb (hm ++ k) build (returned (o_sql o) (o_params o)).
Proof.
  intros E0 E1 E2 E3 E4. eapply program_is; [apply (proj1 (C102_derived_from_source i p hb))|]. rewrite E0. cbn [bind]. rewrite E1. cbn [bind].
  assert (A : Spec.calls m_call (b_many b) (hm ++ k) = Spec.calls m_call m k).
  { unfold b_many. clear - E2. revert E2. generalize (many_of b). induction hm as [|c hm IH]; intros x E; cbn [Spec.calls app] in *; [now injection E as ->|].
    destruct (m_call x c); [|discriminate]. cbn [bind] in *. now apply IH. }
  rewrite A, E3. unfold of_out. cbn [of_res]. now rewrite E4.
Qed.
Lemma joined_then i v m a l r {A} (x : res A) enc ms R : joined i v m a l r (of_res enc x) -> (forall y, x = Ok y -> gives i (enc y) ms (R y)) ->
  gives i v ((m, a) :: ("On", [of_fdef l; of_fdef r]) :: ms) (PropsSrcLib.on x R).
Proof.
  intros [k H] K. assert (C : forall n, chain i n v ((m, a) :: ("On", [of_fdef l; of_fdef r]) :: ms) =
    match chain i n v [(m, a); ("On", [of_fdef l; of_fdef r])] with Done w => chain i n w ms | Halt => Halt | Wrong => Wrong | Spent => Spent end).
  { intros n. cbn [chain]. destruct (SrcSem.mcall i (SrcSem.run i n) v m a); [|reflexivity..]. now destruct (SrcSem.mcall i (SrcSem.run i n) _ "On" _). }
  destruct x as [y|].
  - destruct (K y eq_refl) as [k' H']. exists (k + k'). intros n Hn. rewrite C, H by lia. cbn [of_res PropsSrcLib.on]. apply H'. lia.
  - exists k. intros n Hn. now rewrite C, H by lia.
Qed.

Lemma join_goes i p f (op : bsel -> tident -> fdef -> fdef -> res bsel) tb l r o :
  (forall b t, joined i (src_base b) f [of_tident t] l r (of_res src_base (op b t l r))) -> (do b <- select_from p; do b <- op b tb l r; b_build b) = Ok o -> o_err o = None ->
  program i "SelectFrom" [of_tparam p] ((f, [of_tident tb]) :: ("On", [of_fdef l; of_fdef r]) :: build) (returned (o_sql o) (o_params o)).
Proof.
  intros J Eo En. eapply (program_on i _ _ _ src_base _ (fun x => PropsSrcLib.on (op x tb l r) (fun b => of_res (of_out no_error) (b_build b)))).
  - eapply calls_is; [picks (PropsSrcBuild.C101_base_select_from_source _ i)|reflexivity|]. instantiate (1 := select_from p).
    unfold select_from. destruct p as [x|x|x]; [destruct (table x)..|]; reflexivity.
  - intros x. apply (joined_then i _ _ _ l r _ src_base); [apply J|]. intros y _. apply (gives_last i _ _ _ _ (of_out no_error)), PropsSrcLib.base_build.
  - destruct (select_from p) as [b0|]; [|discriminate]. cbn [bind PropsSrcLib.on] in *. destruct (op b0 tb l r) as [b|]; [|discriminate]. cbn [bind PropsSrcLib.on] in *.
    rewrite Eo. unfold of_out. cbn [of_res]. now rewrite En.
Qed.

(** * Pages *)

(** Whatever was asked for before: Offset(off).Limit(lim) returns that slice of what Offset(0).Limit(0) returns (C72). *)
Theorem C107_page : forall (i : impl nobody) p t hb hm, table_p p = Ok t -> wf_table t -> Forall plain_b hb -> Forall plain_m hm ->
  exists s0 ps0, many_program i p hb hm (("Offset", [RInt "uint" 0]) :: ("Limit", [RInt "int" 0]) :: build) (returned s0 ps0) /\
  forall off lim, exists s ps, many_program i p hb hm (("Offset", [RInt "uint" (Z.of_N off)]) :: ("Limit", [RInt "int" lim]) :: build) (returned s ps) /\
  forall E db, query E db s ps = match query E db s0 ps0 with Some (Rows _ l) => Some (Rows E (slice off lim l)) | r => r end.
Proof.
  intros i p t hb hm Et Ht Hb Hm. destruct (made_many p t hb hm Et Ht Hb Hm) as (b0 & b & m & E0 & E1 & Mb & E2 & Mm).
  assert (P : forall off lim s ps, m_build (m_set_limit (m_set_offset m off) lim) = Ok (mkOut s ps None) ->
    many_program i p hb hm (("Offset", [RInt "uint" (Z.of_N off)]) :: ("Limit", [RInt "int" lim]) :: build) (returned s ps)).
  { intros off lim s ps E. pose proof (many_goes i p b0 b m hb hm [MOffset off; MLimit lim] (mkOut s ps None) E0 E1 E2 E eq_refl) as K.
    unfold many_program in K |- *. rewrite flat_map_app, <- app_assoc in K. exact K. }
  destruct (C72_page m Mm) as (s0 & ps0 & F0 & K). exists s0, ps0. split; [exact (P 0%N 0%Z s0 ps0 F0)|].
  intros off lim. destruct (K off lim) as (s & ps & F & Q). exists s, ps. split; [now apply P|exact Q].
Qed.

(** Single() with any calls of Where and Join returns the first row of the same select without Single(), or no row. *)
Theorem C107_single : forall (i : impl nobody) p t hb, table_p p = Ok t -> wf_table t -> Forall plain_b hb ->
  exists s ps s0 ps0, program i "SelectFrom" [of_tparam p] (flat_map b_text hb ++ ("Single", []) :: build)%list (returned s ps) /\
    program i "SelectFrom" [of_tparam p] (flat_map b_text hb ++ build)%list (returned s0 ps0) /\
    forall E db, query E db s ps = match query E db s0 ps0 with Some (Rows _ l) => Some (Rows E (match l with x :: _ => [x] | [] => [] end)) | r => r end.
Proof.
  intros i p t hb Et Ht Hb. destruct (made_single p t hb [] Et Ht Hb (Forall_nil _)) as (b0 & b & q & E0 & E1 & Mb & E2 & Mq).
  injection E2 as <-. destruct (C72_single (single_of b) Mq) as (s & ps & s0 & ps0 & F & F0 & Q). exists s, ps, s0, ps0. split; [|split; [|exact Q]].
  - eapply program_is; [apply (proj1 (proj2 (C102_derived_from_source i p hb)) [])|]. rewrite E0. cbn [bind]. rewrite E1. cbn [bind Spec.calls]. now rewrite F.
  - eapply program_is; [apply (proj1 (C102_programs_from_source i p))|]. rewrite E0. cbn [bind]. rewrite E1. cbn [bind]. change (ss_base (single_of b)) with b in F0. now rewrite F0.
Qed.

(** * Counts *)

(** Count() on any select, paged or not, returns the number of rows the select returns without its page (C71). *)
Theorem C107_count : forall (i : impl nobody) p t hb hm, table_p p = Ok t -> wf_table t -> Forall plain_b hb -> Forall plain_m hm ->
  exists s ps s' ps', many_program i p hb hm (("Offset", [RInt "uint" 0]) :: ("Limit", [RInt "int" 0]) :: build) (returned s ps) /\
    many_program i p hb hm (("Count", []) :: build) (returned s' ps') /\
    forall E db l, query E db s ps = Some (Rows E l) -> query E db s' ps' = Some (Number E (length l)).
Proof.
  intros i p t hb hm Et Ht Hb Hm. destruct (made_many p t hb hm Et Ht Hb Hm) as (b0 & b & m & E0 & E1 & Mb & E2 & Mm).
  destruct (C71_count_rows m Mm) as (s & ps & q & s' & ps' & F & Fq & F' & Q). exists s, ps, s', ps'. split; [|split; [|exact Q]].
  - pose proof (many_goes i p b0 b m hb hm [MOffset 0%N; MLimit 0%Z] (mkOut s ps None) E0 E1 E2 F eq_refl) as K.
    unfold many_program in K |- *. rewrite flat_map_app, <- app_assoc in K. exact K.
  - unfold many_program. eapply (program_on i _ _ _ src_base _ (fun b => PropsSrcLib.on (Spec.calls b_call b hb) (fun b => PropsSrcLib.on (Spec.calls m_call (b_many b) hm) (fun m => PropsSrcLib.on (m_count m) (fun c => of_res (of_out no_error) (cs_build c)))))).
    + eapply calls_is; [picks (PropsSrcBuild.C101_base_select_from_source _ i)|reflexivity|]. instantiate (1 := select_from p).
      unfold select_from. destruct p as [x|x|x]; [destruct (table x)..|]; reflexivity.
    + intros b'. apply PropsSrcLib.base_history. intros b1. apply (gives_done i _ _ _ (b_many b1) src_many); [apply PropsSrcLib.base_many|]. apply PropsSrcLib.many_history. intros m1.
      apply (gives_call i _ _ _ _ src_count); [apply PropsSrcLib.many_count|]. intros c _. apply (gives_last i _ _ _ _ (of_out no_error)), PropsSrcLib.count_build.
    + rewrite E0. cbn [PropsSrcLib.on]. rewrite E1. cbn [PropsSrcLib.on]. unfold b_many. rewrite E2. cbn [PropsSrcLib.on]. rewrite Fq. cbn [PropsSrcLib.on]. rewrite F'. reflexivity.
Qed.

(** * Order *)

(** The rows come in the order of the OrderBy calls, the first deciding first, and no row is lost or doubled (C82), if the
    field of each ordering is a column of the tables and not the alias of another selected column ([sorted_on]). *)
Theorem C107_sorted_partial : forall (i : impl nobody) p t hb hm, table_p p = Ok t -> wf_table t -> Forall plain_b hb -> Forall plain_m hm ->
  forall cs, Forall2 (fun o c => PropsSorted.sorted_on (last_of mc_fields (last_of bc_fields [] hb) hm) (s_def o) c) (flat_map mc_order hm) cs ->
  exists s ps sel, many_program i p hb hm (("Offset", [RInt "uint" 0]) :: ("Limit", [RInt "int" 0]) :: build) (returned s ps) /\ parse_select s = Some sel /\
  forall E db l, PropsSorted.weak_order (before E) -> query E db s ps = Some (Rows E l) ->
  exists rows0 rows, kept_rows E db ps sel = Some rows0 /\ Permutation rows0 rows /\ map (output E (s_cols sel)) rows = map Some l /\
    StronglySorted (PropsSorted.may_precede E (combine cs (map s_dir (flat_map mc_order hm)))) rows.
Proof.
  intros i p t hb hm Et Ht Hb Hm cs Hs. destruct (made_many p t hb hm Et Ht Hb Hm) as (b0 & b & m & E0 & E1 & Mb & E2 & Mm).
  assert (Ef : b_fields (m_base m) = last_of mc_fields (last_of bc_fields [] hb) hm).
  { destruct (select_from_is p b0 E0) as (t' & Et' & I0). pose proof (b_calls_is hb b0 b t' [] [] [] I0 E1) as I1.
    assert (I2 : m_is (many_of b) t' (last_of bc_fields [] hb) ([] ++ flat_map bc_join hb) ([] ++ flat_map bc_where hb) [] 0%N (-1)%Z) by (split; [exact I1|repeat split]).
    apply (m_calls_is hm _ _ _ _ _ _ _ _ _ I2 E2). }
  rewrite <- Ef in Hs. destruct (PropsSorted.C82_sorted_partial b hm m Mb Hm E2 cs Hs) as (s & ps & s0 & ps0 & sel & F & F0 & Ep & Q).
  exists s, ps, sel. split; [|split; [exact Ep|]].
  - pose proof (many_goes i p b0 b m hb hm [MOffset 0%N; MLimit 0%Z] (mkOut s ps None) E0 E1 E2 F eq_refl) as K.
    unfold many_program in K |- *. rewrite flat_map_app, <- app_assoc in K. exact K.
  - intros E db l W K. destruct (Q E db l W K) as (l0 & rows0 & rows & K1 & K2 & K3 & K4 & K5 & K6). exists rows0, rows. auto.
Qed.

(** * Joins *)

(** SelectFrom(p).InnerJoin(t).On(l, r) and its three relatives return the pairs of rows with equal columns, with the unmatched
    rows of the left, the right or both sides (C89). *)
Theorem C107_joins : forall (i : impl nobody) p ta tb l r, table_p p = Ok ta -> wf_table ta -> wf_join (mkJ tb 0 (mkJC l r)) ->
  label (table_item ta) <> label (table_item tb) ->
  let statement f s := program i "SelectFrom" [of_tparam p] ((f, [of_tident tb]) :: ("On", [of_fdef l; of_fdef r]) :: build) (returned s []) in
  exists si sl sr sf, statement "InnerJoin" si /\ statement "LeftJoin" sl /\ statement "RightJoin" sr /\ statement "FullJoin" sf /\
    forall E db A B ca cb, db (t_name ta) = Some A -> db (t_name tb) = Some B -> PropsJoin.table_ok E A ca -> PropsJoin.table_ok E B cb ->
      PropsJoin.compares E l r (label (table_item ta)) (label (table_item tb)) ca cb ->
      exists zi zl zr zf, query E db si [] = Some (Rows E zi) /\ query E db sl [] = Some (Rows E zl) /\
        query E db sr [] = Some (Rows E zr) /\ query E db sf [] = Some (Rows E zf) /\
        forall z, (In z zi <-> PropsJoin.equal_pair E A B ca cb z) /\
                  (In z zl <-> PropsJoin.equal_pair E A B ca cb z \/ PropsJoin.left_alone E A B ca cb z) /\
                  (In z zr <-> PropsJoin.equal_pair E A B ca cb z \/ PropsJoin.right_alone E A B ca cb z) /\
                  (In z zf <-> PropsJoin.equal_pair E A B ca cb z \/ PropsJoin.left_alone E A B ca cb z \/ PropsJoin.right_alone E A B ca cb z).
Proof.
  intros i p ta tb l r Et Ht Hj Hd statement.
  destruct (PropsJoin.C89_methods p ta tb l r Et Ht Hj Hd) as (b0 & bi & bl & br & bf & si & sl & sr & sf & E0 & Ei & El & Er & Ef & Bi & Bl & Br & Bf & R).
  destruct (C105_joins_from_source i l r) as (Ji & Jl & Jr & Jf & _).
  assert (P : forall f (op : bsel -> tident -> fdef -> fdef -> res bsel) b s,
    (forall b t, joined i (src_base b) f [of_tident t] l r (of_res src_base (op b t l r))) -> op b0 tb l r = Ok b -> b_build b = Ok (mkOut s [] None) -> statement f s).
  { intros f op b s J Eb Es. apply (join_goes i p f op tb l r (mkOut s [] None) J); [|reflexivity]. rewrite E0. cbn [bind]. rewrite Eb. exact Es. }
  exists si, sl, sr, sf. split; [exact (P _ b_inner bi si Ji Ei Bi)|]. split; [exact (P _ b_left bl sl Jl El Bl)|].
  split; [exact (P _ b_right br sr Jr Er Br)|]. split; [exact (P _ b_full bf sf Jf Ef Bf)|exact R].
Qed.

(** Any number of inner joins: the combinations of rows for which every On holds (C90). *)
Theorem C107_inner_joins : forall (i : impl nobody) p t0 js, table_p p = Ok t0 -> wf_table t0 -> Forall wf_join js -> Forall (fun j => j_type j = InnerJoin) js ->
  NoDup (map (fun t => label (table_item t)) (t0 :: map j_right js)) ->
  exists s, program i "SelectFrom" [of_tparam p] (flat_map (fun j => [("Join", [of_tident (j_right j); RInt "TableJoinType" (j_type j)]);
      ("On", [of_fdef (jc_left (j_cond j)); of_fdef (jc_right (j_cond j))])]) js ++ build)%list (returned s []) /\
    forall E db A0 ts, db (t_name t0) = Some A0 -> Forall2 (fun j A => db (t_name (j_right j)) = Some A) js ts ->
      let named := combine (map (fun j => label (table_item (j_right j))) js) ts in let first := (label (table_item t0), A0) in
      PropsJoin.on_known E [first] named js ->
      query E db s [] = Some (Rows E (PropsJoin.all_joined E (first :: named) js)).
Proof.
  intros i p t0 js Et Ht Hj Hi ND. destruct (PropsJoin.C90_inner_joins p t0 js Et Ht Hj Hi ND) as (b0 & b & s & E0 & E1 & E2 & R).
  exists s. split; [|exact R]. pose proof (proj1 (C102_programs_from_source i p) (map (fun j => BJoin (j_right j) (j_type j) (jc_left (j_cond j)) (jc_right (j_cond j))) js)) as K.
  replace (flat_map _ js) with (flat_map b_text (map (fun j => BJoin (j_right j) (j_type j) (jc_left (j_cond j)) (jc_right (j_cond j))) js)).
  - eapply program_is; [exact K|]. rewrite E0. cbn [bind]. rewrite E1. cbn [bind]. now rewrite E2.
  - clear. induction js as [|j js IH]; [reflexivity|]. cbn [map flat_map]. now rewrite IH.
Qed.

(** The orders of the users of at least 20, the largest first: the hypotheses, page 2 of two rows, the count, and a full join. *)
Example C107_example : forall i : impl nobody,
  table_p (TPStr "users u") = Ok (mkT "users" "u") /\ wf_table (mkT "users" "u") /\ Forall plain_b hb_shop /\ Forall plain_m PropsSorted.hm_sorted /\
  Forall2 (fun o c => PropsSorted.sorted_on (last_of mc_fields (last_of bc_fields [] hb_shop) PropsSorted.hm_sorted) (s_def o) c)
    (flat_map mc_order PropsSorted.hm_sorted) ["o.total"; "u.id"] /\
  (exists s, many_program i (TPStr "users u") hb_shop PropsSorted.hm_sorted (("Offset", [RInt "uint" 2]) :: ("Limit", [RInt "int" 2]) :: build)
     (returned s [VOther 20; VUint 2; VUint 2]) /\
     s = "SELECT u.id, o.total AS sum FROM users AS u LEFT JOIN orders AS o ON u.id=o.uid WHERE u.age>=$1 ORDER BY sum DESC, u.id ASC OFFSET $2 LIMIT $3" /\
     query numbers shop s [VOther 20; VUint 2; VUint 2] = Some (Rows numbers [[("id", Some 1); ("sum", Some 7)]; [("id", Some 1); ("sum", Some 5)]])) /\
  (exists s, program i "SelectFrom" [of_tparam (TPStr "users AS u")] (("FullJoin", [of_tident (mkT "orders" "")]) :: ("On", [of_fdef (mkF "id" "u" ""); of_fdef (mkF "uid" "orders" "")]) :: build) (returned s []) /\
     s = "SELECT * FROM users AS u FULL JOIN orders ON u.id=orders.uid").
Proof.
  intros i. destruct PropsSorted.C82_example as (b & m & E & _ & Hm & Em & Hs & _).
  split; [reflexivity|]. split; [split; [constructor; reflexivity|by_name]|]. split.
  { constructor; [constructor; [by_field|constructor; [by_field|constructor]]|].
    constructor; [split; [split; [constructor; reflexivity|by_name]|]; split; [simpl; lia|]; repeat split|].
    constructor; [constructor; [by_num "u.age"|constructor]|constructor]. }
  split; [exact Hm|]. split; [vm_compute in E; injection E as <-; vm_compute in Em; injection Em as <-; exact Hs|]. split.
  - eexists. split; [|split; [reflexivity|vm_compute; reflexivity]].
    apply (program_is i _ _ _ _ _ (proj1 (C102_derived_from_source i (TPStr "users u") hb_shop) (PropsSorted.hm_sorted ++ [MOffset 2%N; MLimit 2%Z])%list)). vm_compute. reflexivity.
  - eexists. split; [|reflexivity]. destruct (C105_joins_from_source i (mkF "id" "u" "") (mkF "uid" "orders" "")) as (_ & _ & _ & J & _).
    exact (join_goes i (TPStr "users AS u") "FullJoin" b_full (mkT "orders" "") _ _ (mkOut _ [] None) J eq_refl eq_refl).
Qed.

(** All theorems of C100-C107 at once (the definitions they use are the same and large). *)
Definition all_from_source := (PropsSrc.names_from_source, PropsSrcCond.conditions_from_source, PropsSrcBuild.builders_from_source, programs_from_source, surface_from_source,
  PropsSrcRows.rows_from_source, PropsSrcBugs.bugs_from_source,
  (@C107_page, @C107_single, @C107_count, @C107_sorted_partial, @C107_joins, @C107_inner_joins)).
Print Assumptions all_from_source.
