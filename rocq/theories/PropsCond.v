(** Property theorems about conditions. *)
From Coq Require Import String Ascii List Bool Arith NArith.
From Verif Require Import GoStr Value Names Cond Build SqlSpec Spec CondFacts CondText CondSem TreeFacts CondLogic
  CondMeaning Built CondThms.
Import ListNotations.
Local Open Scope string_scope.
Local Open Scope nat_scope.

(** * Sample conditions *)

Definition eqc (f : string) (k : nat) : cond := CLeaf (mkLeaf KEq AND false (mkF f "" "") (VOther k)).
Definition inc (f : string) (l : list string) : cond := CLeaf (mkLeaf KIn AND false (mkF f "t" "") (VStrs l)).
Definition likec (f s : string) : cond := CLeaf (mkLeaf KLike AND false (mkF f "" "") (VStr s)).
Definition grp (j : string) (cs : list cond) : cond := CGrp j false cs false.
Lemma eqc_built f k : go_fields f = [f] -> has_byte "." f = false -> built (eqc f k).
Proof.
  intros H1 H2. apply (bt_lib KEq f (VOther k)). unfold mk_cond, new_field_value, field, field_p, field_or_error, parse_field.
  rewrite H1, H2. reflexivity.
Qed.
Ltac by_eqc := apply eqc_built; reflexivity.

Definition get (r : res cond) : cond := match r with Ok c => c | Panic => CNil end.
(** the result of the last computation, whatever it is *)
Ltac result := eexists; (split; [vm_compute; reflexivity|]).
Ltac all_built := let d := fresh "d" in intros d H; simpl in H; repeat destruct H as [<-|H]; try contradiction; try by_eqc.

(** t.a IN ('x','y') AND (b=1 OR NOT c LIKE '%z%') *)
Definition sample_or : cond := Eval vm_compute in
  get (do n <- not_ (likec "c" "z"); m_or (eqc "b" 1) [n]).
Definition sample : cond := Eval vm_compute in get (m_and (inc "a" ["x"; "y"]) [sample_or]).
Lemma sample_or_built : built sample_or.
Proof.
  apply (bt_or (eqc "b" 1) [CLeaf (mkLeaf KLike AND true (mkF "c" "" "") (VStr "z"))]).
  - by_eqc.
  - intros d [<-|[]]. apply (bt_not (likec "c" "z")); [|reflexivity].
    apply (bt_lib KLike "c" (VStr "z")). reflexivity.
  - left. reflexivity.
Qed.
Lemma sample_built : built sample.
Proof.
  apply (bt_and (inc "a" ["x"; "y"]) [sample_or]).
  - apply (bt_lib KIn "t.a" (VStrs ["x"; "y"])). reflexivity.
  - intros d [<-|[]]. exact sample_or_built.
  - left. reflexivity.
Qed.
Lemma sample_leaves : forall l, In l (leaves sample) -> good_leaf l /\ leaf_contract l.
Proof.
  assert (D : forall n t, lacks "$" n -> lacks "$" t -> def_lacks (mkF n t "")).
  { intros n t Hn Ht. repeat split; auto. apply lacks_nil. }
  assert (L : forall s, forallb (fun c => negb (c =? "$")%char) (chars s) = true -> lacks "$" s).
  { intros s H Hin. rewrite forallb_forall in H. specialize (H _ Hin). discriminate. }
  intros l Hl. simpl in Hl. destruct Hl as [<-|[<-|[<-|[]]]]; (split; [split; [split; [reflexivity|split; [first [left; reflexivity | right; reflexivity]|left; reflexivity]]|]|]); simpl.
  - exists (VStr "x"), [VStr "y"]. reflexivity.
  - eexists; split; [reflexivity|]. apply D; apply L; reflexivity.
  - exists (VOther 1). reflexivity.
  - eexists; split; [reflexivity|]. split; [apply D; apply L; reflexivity|reflexivity].
  - exists "z". reflexivity.
  - eexists; split; [reflexivity|]. apply D; apply L; reflexivity.
Qed.
Example sample_text : c_render sample 3 = Ok "t.a IN ($4,$5) AND (b=$6 OR c NOT LIKE $7)"
  /\ c_values sample = Ok [VStr "x"; VStr "y"; VOther 1; VStr "%z%"].
Proof. split; vm_compute; reflexivity. Qed.

(** * C01 Numbered placeholders match the value list *)

(** For every condition made with the API whose leaves obey the contract (comparisons
    with one value; any In, Contains, IContains, IsNull; names without '$'), the
    placeholders of Render(n) are exactly $n+1 ... $n+len(Values()). *)
Theorem C01_placeholders : forall c n, built c -> (forall l, In l (leaves c) -> leaf_contract l) ->
  exists s vs, c_render c n = Ok s /\ c_values c = Ok vs /\ dollars s = seq (n + 1) (length vs).
Proof. intros c n Hb Hl. destruct (built_text c Hb Hl n) as (s & s' & vs & H1 & H2 & H3 & H4 & H5). exists s, vs. auto. Qed.
Print Assumptions C01_placeholders.
Example C01_example : built sample /\ (forall l, In l (leaves sample) -> leaf_contract l) /\
  dollars "t.a IN ($4,$5) AND (b=$6 OR c NOT LIKE $7)" = [4; 5; 6; 7].
Proof. split; [exact sample_built|split; [intros l Hl; now apply sample_leaves|reflexivity]]. Qed.

(** * C02 The contract for every value *)

(** Full statement (false): for every condition made with the API and every value,
    Render has as many placeholders as there are values. *)
Theorem C02_refuted : exists c s vs, built c /\ (forall l, In l (leaves c) -> def_lacks (l_def l)) /\
  c_render c 0 = Ok s /\ c_values c = Ok vs /\ length (dollars s) <> length vs.
Proof.
  exists (CLeaf (mkLeaf KEq AND false (mkF "f" "" "") (VStrs ["x"; "y"]))), "f=$1", [VStr "x"; VStr "y"].
  split; [apply (bt_lib KEq "f" (VStrs ["x"; "y"])); reflexivity|].
  split; [|repeat split; vm_compute; congruence].
  intros l [<-|[]]. repeat split; unfold lacks; simpl; intuition congruence.
Qed.
Print Assumptions C02_refuted.

(** Proved part: exactly when it holds for the library's leaves. *)
Theorem C02_leaf_partial : forall l vs n, (forall cu, l_kind l <> KCustom cu) -> def_lacks (l_def l) ->
  leaf_values l = Ok vs ->
  exists s, leaf_render l n = Ok s /\
    (dollars s = seq (n + 1) (length vs) <->
     (l_kind l = KEq \/ l_kind l = KGt \/ l_kind l = KGe \/ l_kind l = KLt \/ l_kind l = KLe -> length vs = 1)).
Proof.
  intros l vs n Hk Hd Hv. destruct (leaf_count l vs Hk Hd Hv n) as (s & Es & H). exists s. split; [exact Es|].
  rewrite H. split; intros K E; apply K; destruct (l_kind l); simpl in *; try reflexivity; try discriminate;
    intuition congruence.
Qed.
Print Assumptions C02_leaf_partial.
Example C02_example : leaf_values (mkLeaf KIn AND false (mkF "f" "" "") (VStrs ["x"; "y"])) = Ok [VStr "x"; VStr "y"].
Proof. reflexivity. Qed.

(** * C03 '$N' and '?' renderings are the same clause *)

Theorem C03_same_clause : forall c n, built c -> (forall l, In l (leaves c) -> leaf_contract l) ->
  exists s, c_render c n = Ok s /\ c_render_sql c = Ok (qmarks s).
Proof.
  intros c n Hb Hl. destruct (built_text c Hb Hl n) as (s & s' & vs & H1 & H2 & H3 & H4 & H5).
  exists s. split; [exact H1|]. now rewrite H5.
Qed.
Print Assumptions C03_same_clause.
(** the '?' text has one question mark per value, unless a name brings its own *)
Theorem C03_question_marks : forall c s s' vs, built c -> (forall l, In l (leaves c) -> leaf_contract l) ->
  c_render c 0 = Ok s -> c_render_sql c = Ok s' -> c_values c = Ok vs -> lacks "?" s -> qcount s' = length vs.
Proof.
  intros c s s' vs Hb Hl Es Es' Ev Hq. destruct (built_text c Hb Hl 0) as (s1 & s1' & vs1 & H1 & H2 & H3 & H4 & H5).
  replace s' with (qmarks s) by congruence. rewrite qcount_qmarks by exact Hq.
  replace s with s1 by congruence. rewrite H4, seq_length. congruence.
Qed.
Print Assumptions C03_question_marks.
Example C03_example : c_render_sql sample = Ok "t.a IN (?,?) AND (b=? OR c NOT LIKE ?)" /\
  lacks "?" "t.a IN ($1,$2) AND (b=$3 OR c NOT LIKE $4)".
Proof. split; [vm_compute; reflexivity|]. unfold lacks. vm_compute. intuition congruence. Qed.

(** * C04 Values never reach the SQL text (conditions; for statements see PropsBuild.v) *)

Theorem C04_conditions : forall c c', same_shape c c' ->
  (forall n, c_render c' n = c_render c n) /\ c_render_sql c' = c_render_sql c.
Proof. intros c c' H. destruct (same_shape_text c c' H) as (_ & H1 & H2 & _). auto. Qed.
Print Assumptions C04_conditions.
Example C04_example : same_shape (grp AND [eqc "a" 1; inc "b" ["x"; "y"]]) (grp AND [eqc "a" 7; inc "b" ["' OR 1=1"; "$9"]]).
Proof.
  constructor. repeat (constructor; [constructor; repeat split; try discriminate; eexists _, _; repeat split|]).
  constructor.
Qed.

(** * C05 Combining keeps values and leaves, in order *)

(** [combined c ds r]: [r] is the result of c.And(ds...), c.Or(ds...), And(c, ds...) or Or(c, ds...). *)
Theorem C05_values_in_order : forall c ds r vc vds, built c -> (forall d, In d ds -> built d) -> combined c ds r ->
  c_values c = Ok vc -> mapM c_values ds = Ok vds ->
  c_values r = Ok (vc ++ List.concat vds)%list /\
  map core (leaves r) = (map core (leaves c) ++ flat_map (fun d => map core (leaves d)) ds)%list.
Proof. exact combined_values. Qed.
Print Assumptions C05_values_in_order.
Example C05_example : exists r, combined sample [eqc "d" 1; sample] r /\
  c_values r = Ok [VStr "x"; VStr "y"; VOther 1; VStr "%z%"; VOther 1; VStr "x"; VStr "y"; VOther 1; VStr "%z%"].
Proof. eexists. split; [left; vm_compute; reflexivity|vm_compute; reflexivity]. Qed.

(** * C16 Rendered conditions are valid SQL with a determined meaning *)

(** The text is a condition of the grammar; its value on a row, with any parameters
    before and after its own, is the value [mean] of the tree: operands joined by
    AND/OR with AND binding tighter, brackets and negation as the tree says. *)
Theorem C16_valid_sql : forall rho c n, built c -> no_empty c -> (forall l, In l (leaves c) -> good_leaf l) ->
  exists s s' vs, c_render c n = Ok s /\ c_render_sql c = Ok s' /\ c_values c = Ok vs /\
    (forall pre post, length pre = n -> truth rho s (pre ++ vs ++ post)%list = Some (mean (leaf_tv rho) c)) /\
    truth_q rho s' vs = Some (mean (leaf_tv rho) c).
Proof. intros rho c n Hb He Hl. exact (built_meaning rho c Hb He Hl n). Qed.
Print Assumptions C16_valid_sql.
Example C16_example : built sample /\ no_empty sample /\ (forall l, In l (leaves sample) -> good_leaf l) /\
  forall rho, mean (leaf_tv rho) sample =
    and3 (rho AIn "t.a" [VStr "x"; VStr "y"]) (or3 (rho AEq "b" [VOther 1]) (not3 (rho ALike "c" [VStr "%z%"]))).
Proof.
  split; [exact sample_built|split; [simpl; intuition discriminate|split; [intros l Hl; now apply sample_leaves|reflexivity]]].
Qed.

(** * C17 Not negates *)

(** Full statement (false): forall c, Not(c) means not3 of what c means. *)
Theorem C17_refuted : exists rho c r v v', built c /\ no_empty c /\ (forall l, In l (leaves c) -> good_leaf l) /\
  not_ c = Ok r /\ means rho c v /\ means rho r v' /\ v' <> not3 v.
Proof.
  exists (table_row (fun _ => 1)), (CLeaf (mkLeaf KEq AND true (mkF "a" "" "") (VOther 1))).
  eexists _, _, _. split; [apply (bt_not (eqc "a" 1)); [by_eqc|reflexivity]|].
  split; [exact I|]. split.
  { intros l [<-|[]]. repeat split; [now left|now left|]. exists (VOther 1). reflexivity. }
  split; [reflexivity|]. split; [eexists _, _, _; repeat split|]. split; [eexists _, _, _; repeat split|]. discriminate.
Qed.
Print Assumptions C17_refuted.
(** The same with an unnegated argument: Not(NewGroup(AND, a.Or(b))) renders "NOT a=$1 OR b=$2". *)
Ltac means_now := eexists _, _, _; repeat split.
Theorem C17_group_refuted : exists rho c r v v', built c /\ no_empty c /\ negated c = false /\
  not_ c = Ok r /\ means rho c v /\ means rho r v' /\ v' <> not3 v.
Proof.
  exists (table_row (fun _ => 1)), (get (do o <- m_or (eqc "a" 1) [eqc "b" 1]; do g <- new_group AND [o]; Ok (of_g g))).
  eexists _, _, _. split.
  { apply (bt_group AND [get (m_or (eqc "a" 1) [eqc "b" 1])]
      (mkG AND false [get (c_join AND (get (m_or (eqc "a" 1) [eqc "b" 1])))] false)); [|auto|vm_compute; reflexivity].
    intros d [<-|[]]. apply (bt_or (eqc "a" 1) [eqc "b" 1]); [by_eqc|all_built|left; vm_compute; reflexivity]. }
  split; [vm_compute; intuition discriminate|]. split; [reflexivity|]. split; [vm_compute; reflexivity|].
  split; [means_now|]. split; [means_now|]. vm_compute; discriminate.
Qed.
Print Assumptions C17_group_refuted.

(** Proved part: plain leaves of the library and unnegated groups that have brackets,
    or several conditions, or one condition that is a leaf or bracketed.
    Missing: already negated conditions (Not(Not(c)) is Not(c)) and unnegated groups
    holding one unbracketed group. *)
Theorem C17_not_partial : forall rho c v r, built c -> no_empty c -> sound rho c -> not_argument c ->
  means rho c v -> not_ c = Ok r -> means rho r (not3 v).
Proof. intros rho c v r Hb He. apply not_means. now apply built_wf. Qed.
Print Assumptions C17_not_partial.
Example C17_example : forall rho, not_argument sample /\ sound rho sample.
Proof.
  intros rho. split; [apply na_many; right; simpl; auto|]. apply good_sound. intros l Hl. now apply sample_leaves.
Qed.

(** * C18 And means conjunction *)

(** Full statement (false): forall c d1 ... dk, c.And(d1, ..., dk) means and3 of all of them.
    x.And(a.Or(b).And(c)) renders "x=$1 OR (a=$2 OR b=$3) AND c=$4". *)
Theorem C18_refuted : exists rho c d r vc vd v, built c /\ built d /\ no_empty c /\ no_empty d /\
  m_and c [d] = Ok r /\ means rho c vc /\ means rho d vd /\ means rho r v /\ v <> and3 vc vd.
Proof.
  exists (table_row (fun c => if String.eqb c "x" then 1 else 0)), (eqc "x" 1),
    (get (do o <- m_or (eqc "a" 1) [eqc "b" 1]; m_and o [eqc "c" 1])). eexists _, _, _, _.
  split; [by_eqc|]. split.
  { apply (bt_and (get (m_or (eqc "a" 1) [eqc "b" 1])) [eqc "c" 1]); [|all_built|left; vm_compute; reflexivity].
    apply (bt_or (eqc "a" 1) [eqc "b" 1]); [by_eqc|all_built|left; vm_compute; reflexivity]. }
  split; [exact I|]. split; [vm_compute; intuition discriminate|]. split; [vm_compute; reflexivity|].
  split; [means_now|]. split; [means_now|]. split; [means_now|]. vm_compute. discriminate.
Qed.
Print Assumptions C18_refuted.
(** a.And(Not(b.And(c))) renders "a=$1 AND b=$2 AND c=$3": the negation is lost. *)
Theorem C18_negation_refuted : exists rho c d r vc vd v, built c /\ built d /\ no_empty c /\ no_empty d /\
  m_and c [d] = Ok r /\ means rho c vc /\ means rho d vd /\ means rho r v /\ v <> and3 vc vd.
Proof.
  exists (table_row (fun c => 1)), (eqc "a" 1), (get (do o <- m_and (eqc "b" 1) [eqc "c" 1]; not_ o)). eexists _, _, _, _.
  split; [by_eqc|]. split.
  { apply (bt_not (get (m_and (eqc "b" 1) [eqc "c" 1]))); [|vm_compute; reflexivity].
    apply (bt_and (eqc "b" 1) [eqc "c" 1]); [by_eqc|all_built|left; vm_compute; reflexivity]. }
  split; [exact I|]. split; [vm_compute; intuition discriminate|]. split; [vm_compute; reflexivity|].
  split; [means_now|]. split; [means_now|]. split; [means_now|]. vm_compute. discriminate.
Qed.
Print Assumptions C18_negation_refuted.

(** Proved part, for the And method and the And function.  Missing: negated groups as
    receiver or among AND-joined arguments, and groups with an OR outside brackets
    in the positions excluded by [and_receiver] and [and_arguments]. *)
Theorem C18_and_partial : forall rho c vc ds vds r,
  built c -> (forall d, In d ds -> built d) -> no_empty c -> Forall no_empty ds ->
  sound rho c -> Forall (sound rho) ds -> and_receiver c -> and_arguments (members c) ds ->
  means rho c vc -> Forall2 (means rho) ds vds ->
  m_and c ds = Ok r \/ and_ c ds = Ok r ->
  means rho r (fold_right and3 T (vc :: vds)).
Proof.
  intros rho c vc ds vds r Hb Hbd He Hed. apply and_means; [now apply built_wf|].
  rewrite Forall_forall in *. intros d Hd. apply built_wf; auto.
Qed.
Print Assumptions C18_and_partial.
Example C18_example : forall rho, and_receiver sample_or /\ and_arguments (members sample_or) [sample; eqc "d" 1] /\ and_arguments (members sample_or) [sample_or] /\
  sound rho sample /\ exists r, m_and sample_or [sample; eqc "d" 1] = Ok r /\
  c_render r 0 = Ok "(b=$1 OR c NOT LIKE $2) AND t.a IN ($3,$4) AND (b=$5 OR c NOT LIKE $6) AND d=$7".
Proof.
  intros rho. split; [split; [reflexivity|discriminate]|]. split; [|split; [|split]].
  - split; [|repeat constructor]. constructor; [|constructor; [constructor|constructor]].
    apply as_and; repeat constructor.
  - apply aa_or; [reflexivity|left; reflexivity].
  - apply good_sound. intros l Hl. now apply sample_leaves.
  - eexists. split; vm_compute; reflexivity.
Qed.

(** * C19 Or: receiver or all of the arguments *)

(** Full statement (false): c.Or(d1, ..., dk) means c OR (d1 AND ... AND dk).
    a.Or(b, c) renders "(a=$1) AND (b=$2 AND c=$3)". *)
Theorem C19_refuted : exists rho c d1 d2 r vc v1 v2 v, built c /\ built d1 /\ built d2 /\
  m_or c [d1; d2] = Ok r /\ means rho c vc /\ means rho d1 v1 /\ means rho d2 v2 /\ means rho r v /\ v <> or3 vc (and3 v1 v2).
Proof.
  exists (table_row (fun c => if String.eqb c "a" then 1 else 0)), (eqc "a" 1), (eqc "b" 1), (eqc "c" 1).
  eexists _, _, _, _, _. do 3 (split; [by_eqc|]). split; [vm_compute; reflexivity|].
  do 4 (split; [means_now|]). vm_compute. discriminate.
Qed.
Print Assumptions C19_refuted.
(** With one argument: x.Or(a.And(b).Or(c)) renders "x=$1 AND (a=$2 AND b=$3) OR c=$4". *)
Theorem C19_single_refuted : exists rho c d r vc vd v, built c /\ built d /\ no_empty d /\
  m_or c [d] = Ok r /\ means rho c vc /\ means rho d vd /\ means rho r v /\ v <> or3 vc vd.
Proof.
  exists (table_row (fun c => if String.eqb c "x" then 1 else 0)), (eqc "x" 1),
    (get (do o <- m_and (eqc "a" 1) [eqc "b" 1]; m_or o [eqc "c" 1])). eexists _, _, _, _.
  split; [by_eqc|]. split.
  { apply (bt_or (get (m_and (eqc "a" 1) [eqc "b" 1])) [eqc "c" 1]); [|all_built|left; vm_compute; reflexivity].
    apply (bt_and (eqc "a" 1) [eqc "b" 1]); [by_eqc|all_built|left; vm_compute; reflexivity]. }
  split; [vm_compute; intuition discriminate|]. split; [vm_compute; reflexivity|].
  split; [means_now|]. split; [means_now|]. split; [means_now|]. vm_compute. discriminate.
Qed.
Print Assumptions C19_single_refuted.

(** Proved part: one argument.  Missing: a negated group as receiver, and as argument a
    group whose conditions carry neither only OR nor, after the first, an AND. *)
Theorem C19_or_partial : forall rho c vc d vd r,
  built c -> built d -> no_empty c -> no_empty d -> sound rho c -> sound rho d ->
  negated c = false -> or_argument d -> means rho c vc -> means rho d vd ->
  m_or c [d] = Ok r \/ or_ c [d] = Ok r -> means rho r (or3 vc vd).
Proof.
  intros rho c vc d vd r Hb Hbd He Hed Hs Hsd Hn Ha Hm Hmd E.
  apply (or_means rho c vc d vd r); auto using built_wf. destruct E as [E|E]; [left|now right]. split; [|exact E].
  destruct c as [|l|]; auto. simpl. destruct (l_kind l) eqn:K; auto. rewrite null_or_panics in E by exact K. discriminate.
Qed.
Print Assumptions C19_or_partial.
(** With two or more arguments the result is never the documented one: it is the
    conjunction of everything, or, if the receiver has an AND after its first
    condition, the disjunction of everything. *)
Theorem C19_many_arguments : forall rho c vc ds vds r,
  built c -> (forall d, In d ds -> built d) -> no_empty c -> Forall no_empty ds ->
  sound rho c -> Forall (sound rho) ds -> negated c = false -> 1 < length ds -> Forall and_safe ds ->
  means rho c vc -> Forall2 (means rho) ds vds ->
  m_or c ds = Ok r \/ or_ c ds = Ok r ->
  means rho r (if someTail AND (members c) then fold_right or3 F (vc :: vds) else fold_right and3 T (vc :: vds)).
Proof.
  intros rho c vc ds vds r Hb Hbd He Hed Hs Hsd Hn Hl Ha Hm Hmd E.
  apply (or_many_means rho c vc ds vds r); auto using built_wf.
  - rewrite Forall_forall in *. intros d Hd. apply built_wf; auto.
  - destruct E as [E|E]; [left|now right]. split; [|exact E].
    destruct c as [|l|]; auto. simpl. destruct (l_kind l) eqn:K; auto. rewrite null_or_panics in E by exact K. discriminate.
Qed.
Print Assumptions C19_many_arguments.
Example C19_example : negated sample = false /\ or_argument sample /\ and_safe sample /\ someTail AND (members sample) = true /\
  (exists r, m_or sample_or [sample] = Ok r /\ c_render r 0 = Ok "b=$1 OR c NOT LIKE $2 OR (t.a IN ($3,$4) AND (b=$5 OR c NOT LIKE $6))") /\
  (exists r, m_or sample [eqc "d" 1; eqc "e" 2] = Ok r).
Proof.
  split; [reflexivity|]. split; [apply oa_and; reflexivity|]. split; [apply as_and; repeat constructor|].
  split; [reflexivity|]. split; eexists; [split|]; vm_compute; reflexivity.
Qed.

(** * C22 Building conditions never panics *)

(** Full statement (false): And, Or, Not on non-nil conditions never panic; IsNull(f).Or(c) does. *)
Theorem C22_refuted : exists c d, is_null "a" = Ok c /\ built c /\ built d /\ m_or c [d] = Panic.
Proof.
  eexists _, (eqc "b" 1). split; [reflexivity|]. split; [apply (bt_null "a"); reflexivity|].
  split; [by_eqc|reflexivity].
Qed.
Print Assumptions C22_refuted.
(** Proved part: everything else.  Missing: the Or method of an IsNull condition,
    which panics for every argument list (second theorem). *)
Theorem C22_no_panic_partial : forall c ds, built c -> (forall d, In d ds -> built d) ->
  (exists r, m_and c ds = Ok r) /\ (exists r, and_ c ds = Ok r) /\ (exists r, or_ c ds = Ok r) /\
  (exists r, not_ c = Ok r) /\ (forall j, and_or j -> exists g, new_group j (c :: ds) = Ok g) /\
  (null_leaf c = false -> exists r, m_or c ds = Ok r).
Proof.
  intros c ds Hc Hd. apply built_tree in Hc. apply built_all_tree in Hd.
  destruct (m_and_tree c ds Hc Hd) as [(r1 & E1 & _) (r2 & E2 & _)].
  destruct (m_or_tree c ds Hc Hd) as [H3 (r4 & E4 & _)].
  destruct (tr_negate and_or true true c Hc) as (r5 & E5 & _).
  repeat split; eauto.
  - intros j Hj. destruct (new_group_ok_tree j (c :: ds) Hj) as (g & Eg & _); eauto.
  - intros Hk. destruct (H3 Hk) as (r & E & _). eauto.
Qed.
Print Assumptions C22_no_panic_partial.
Theorem C22_isnull_or_panics : forall fn c ds, is_null fn = Ok c -> m_or c ds = Panic.
Proof.
  intros fn c ds E. unfold is_null in E. apply bind_Ok in E as (d & _ & [= <-]). reflexivity.
Qed.
Print Assumptions C22_isnull_or_panics.
Example C22_example : built sample /\ built sample_or /\ null_leaf sample = false.
Proof. split; [exact sample_built|split; [exact sample_or_built|reflexivity]]. Qed.

(** * C28 A condition on an aliased field stays valid SQL *)

(** Full statement (false): the condition of an aliased field refers to the column or the alias. *)
Theorem C28_refuted : exists c s vs, equal_to "f as x" (VOther 1) = Ok c /\ c_render c 0 = Ok s /\ c_values c = Ok vs /\
  forall rho, truth rho s vs = None.
Proof. eexists _, _, _. repeat split. Qed.
Print Assumptions C28_refuted.
(** In fact no condition on an aliased field is valid. *)
Theorem C28_aliased_never_valid : forall rho l n s ps, (forall cu, l_kind l <> KCustom cu) -> aliased (l_def l) ->
  leaf_render l n = Ok s -> truth rho s ps = None.
Proof. exact aliased_invalid. Qed.
Print Assumptions C28_aliased_never_valid.
(** Proved part: without an alias (or with the field's own name as alias and no table)
    the condition refers to the column. *)
Theorem C28_unaliased_partial : forall rho l, good_leaf l ->
  exists s vs, leaf_render l 0 = Ok s /\ leaf_values l = Ok vs /\ truth rho s vs = Some (leaf_tv rho l).
Proof.
  intros rho l Hl. destruct (leafok_means _ _ _ (good_leaf_ok rho l Hl)) as (s & s' & vs & H1 & _ & H3 & H4 & _).
  exists s, vs. auto.
Qed.
Print Assumptions C28_unaliased_partial.
Example C28_example : aliased (mkF "f" "t" "x") /\ good_leaf (mkLeaf KEq AND false (mkF "f" "t" "") (VOther 1)).
Proof.
  split; [repeat split; [now right|discriminate|left; discriminate]|].
  split; [repeat split; [now right|now left]|exists (VOther 1); reflexivity].
Qed.

(** * C34 In lists one placeholder per element *)

(** [elements v]: the parameters a list argument stands for, one per element. *)
(** Full statement (false): one placeholder and one parameter per element, for every slice. *)
Theorem C34_refuted : exists v es c s vs, elements v = Some es /\ in_ "f" v = Ok c /\ c_render c 0 = Ok s /\ c_values c = Ok vs /\
  length (dollars s) <> length es /\ vs <> es.
Proof.
  exists (VSlice [VOther 1; VOther 2]). eexists _, _, _, _. repeat split; vm_compute; discriminate.
Qed.
Print Assumptions C34_refuted.
(** Proved part: every slice type except the plain ones ([]int, []any, ...). *)
Theorem C34_in_partial : forall fn v es c n, elements v = Some es -> (forall l, v <> VSlice l) ->
  in_ fn v = Ok c ->
  exists s s' col, c_render c n = Ok s /\ c_render_sql c = Ok s' /\ c_values c = Ok es /\
    s = col ++ " IN (" ++ String.concat "," (map (fun i => "$" ++ itoa i) (seq (n + 1) (length es))) ++ ")" /\
    s' = col ++ " IN (" ++ String.concat "," (map (fun _ => "?") es) ++ ")".
Proof. exact in_partial. Qed.
Print Assumptions C34_in_partial.
Example C34_example : elements (VValuers [Some (ORet (VOther 1) false); Some (ORet VNil false)]) = Some [VOther 1; VNil].
Proof. reflexivity. Qed.

(** * C44 ApplyFieldTable and ApplyFieldSpec reach exactly the matching leaves *)

Theorem C44_apply_table : forall tn c, built c -> exists r, c_apply_table tn c = Ok r /\
  r = upd_tree (fun d => mkF (f_name d) tn (f_alias d)) c /\
  leaves r = map (fun l => mkLeaf (l_kind l) (l_join l) (l_neg l) (mkF (f_name (l_def l)) tn (f_alias (l_def l))) (l_val l)) (leaves c).
Proof.
  intros tn c Hb. eexists. split; [apply apply_table_upd; now apply built_no_nil|]. split; [reflexivity|apply upd_leaves].
Qed.
Print Assumptions C44_apply_table.
Theorem C44_apply_spec : forall spec c, built c -> exists r, c_apply_spec spec c = Ok r /\
  r = upd_tree (fun d => if String.eqb (f_name d) (f_name spec) then spec else d) c /\
  leaves r = map (fun l => mkLeaf (l_kind l) (l_join l) (l_neg l)
    (if String.eqb (f_name (l_def l)) (f_name spec) then spec else l_def l) (l_val l)) (leaves c).
Proof.
  intros spec c Hb. eexists. split; [apply apply_spec_upd; now apply built_no_nil|]. split; [reflexivity|apply upd_leaves].
Qed.
Print Assumptions C44_apply_spec.
Theorem C44_values_unchanged : forall f c, (forall l cu, In l (leaves c) -> l_kind l <> KCustom cu) ->
  c_values (upd_tree f c) = c_values c.
Proof. exact upd_values. Qed.
Print Assumptions C44_values_unchanged.
Example C44_example : c_apply_table "u" sample_or = Ok (upd_tree (fun d => mkF (f_name d) "u" (f_alias d)) sample_or) /\
  (do r <- c_apply_table "u" sample; c_render r 0) = Ok "u.a IN ($1,$2) AND (u.b=$3 OR u.c NOT LIKE $4)".
Proof. split; vm_compute; reflexivity. Qed.
