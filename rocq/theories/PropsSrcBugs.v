(** C106: what the refutations found is in the text.  The expressions and chains of calls that do not mean
    what is written, run from the Go source of the package itself. *)
From Coq Require Import String Ascii List Bool Arith NArith ZArith Lia.
From Verif Require Import SrcSem SrcFacts SrcLoops SrcValues SrcCalls SrcBuilders SrcWrite Open PropsSrc PropsSrcCond PropsSrcBuild PropsSrcLib PropsSrcSurface PropsSrcEnd.
From Verif Require Import GoStr Value Names Cond Build SqlSpec Spec Calls Surface DbSpec PropsDb PropsRows.
From Verif Require Import PropsSrcExpr PropsSrcRows.
Import ListNotations.
Local Open Scope string_scope.
Local Open Scope nat_scope.

(** * Expressions *)

(** a table t with the columns x, a, b, c and all rows of zeros and ones *)
Definition bits : list (option nat) := [Some 0; Some 1].
Definition all_rows : list (list (option nat)) :=
  flat_map (fun x => flat_map (fun a => flat_map (fun b => map (fun c => [x; a; b; c]) bits) bits) bits) bits.
Definition cube_t : relation numbers := mkRel numbers ["x"; "a"; "b"; "c"] all_rows.
Definition cube : database numbers := fun n => if String.eqb n "t" then Some cube_t else None.

Definition is1 (f : string) : expr := ECmp Eq_ f (VOther 1).
(** x.And(a.Or(b).And(c)), x.Or(a.And(b).Or(c)), a.And(Not(b.And(c))), a.Or(Not(b.Or(c))), Not(a.And(b)).And(c),
    Not(a.And(b)).Or(c), Not(Not(a)), Not(Not(a.And(b))): each with a row that is treated wrongly *)
Definition misread_go : list (expr * list nat) :=
  [ (EThen false (is1 "x") [EThen false (EThen true (is1 "a") [is1 "b"]) [is1 "c"]], [1; 0; 0; 0]);
    (EThen true (is1 "x") [EThen true (EThen false (is1 "a") [is1 "b"]) [is1 "c"]], [1; 0; 0; 0]);
    (EThen false (is1 "a") [ENot (EThen false (is1 "b") [is1 "c"])], [0; 1; 1; 1]);
    (EThen true (is1 "a") [ENot (EThen true (is1 "b") [is1 "c"])], [0; 0; 1; 1]);
    (EThen false (ENot (EThen false (is1 "a") [is1 "b"])) [is1 "c"], [0; 0; 0; 0]);
    (EThen true (ENot (EThen false (is1 "a") [is1 "b"])) [is1 "c"], [0; 1; 1; 1]);
    (ENot (ENot (is1 "a")), [0; 1; 0; 0]);
    (ENot (ENot (EThen false (is1 "a") [is1 "b"])), [0; 1; 1; 0]) ].

Lemma delete_goes i x c o p : eval_model x = Ok c -> (do d <- d_add_where (delete_ p) [c]; d_build d) = Ok o -> o_err o = None ->
  exists v, has_value i x v /\ program i "Delete" [of_tparam p] (("Where", [v]) :: build) (returned (o_sql o) (o_params o)).
Proof.
  intros Ex Eo En. exists (src_cond c). split.
  { destruct (C102_expressions_from_source i x) as [k H]. exists k. intros n Hn. now rewrite (H n Hn), Ex. }
  eapply program_is; [apply (proj2 (proj2 (proj2 (proj2 (proj2 (C102_programs_from_source i p))))) [[c]])|].
  cbn [Spec.calls]. destruct (d_add_where (delete_ p) [c]) as [d|]; [|discriminate]. cbn [bind] in *. rewrite Eo. unfold of_out. cbn [of_res].
  now rewrite En.
Qed.

(** The statement "the DELETE removes exactly the rows for which the expression as written is true" without the
    rules of C104 is false: for each of these a row is removed for which the expression is false, or one is kept
    for which it is true. *)
Theorem C106_rows_refuted : forall i : impl nobody, Forall (fun y => exists v s ps rows,
    has_value i (fst y) v /\ program i "Delete" [of_tparam (TPName "t")] (("Where", [v]) :: build) (returned s ps) /\
    table_of (change numbers cube s ps) "t" = Some rows /\ In (map Some (snd y)) all_rows /\
    (said (the_row numbers "t" cube_t (map Some (snd y))) (fst y) = F /\ ~ In (map Some (snd y)) rows \/
     said (the_row numbers "t" cube_t (map Some (snd y))) (fst y) = T /\ In (map Some (snd y)) rows)) misread_go.
Proof.
  intros i. unfold misread_go. repeat apply Forall_cons; try apply Forall_nil; cbn [fst snd].
  all: match goal with |- exists v s ps rows, has_value ?j ?x v /\ _ =>
    let c := eval vm_compute in (eval_model x) in match c with Ok ?c =>
    let o := eval vm_compute in (do d <- d_add_where (delete_ (TPName "t")) [c]; d_build d) in match o with Ok ?o =>
      destruct (delete_goes j x c o (TPName "t") eq_refl eq_refl eq_refl) as (v & H1 & H2); exists v, (o_sql o), (o_params o);
      let t := eval vm_compute in (table_of (change numbers cube (o_sql o) (o_params o)) "t") in match t with Some ?t => exists t end end end end.
  all: split; [exact H1|]; split; [exact H2|]; split; [vm_compute; reflexivity|]; split; [vm_compute; tauto|].
  all: first [left; split; [vm_compute; reflexivity|]; vm_compute; intuition discriminate
             |right; split; [vm_compute; reflexivity|]; vm_compute; tauto].
Qed.

(** * Statements *)

(** The condition [x] put into DELETE FROM t gives this text and these parameters. *)
Definition deletes (i : impl nobody) (x : expr) (s : string) (ps : list gval) : Prop :=
  exists v, has_value i x v /\ program i "Delete" [of_tparam (TPName "t")] (("Where", [v]) :: build) (returned s ps).
Definition tabbed : string := "a" ++ String (ascii_of_nat 9) "b".

(** The claims "every DELETE built without an error is a statement with as many parameters as it asks for",
    "no expression of valid names panics" and "a condition speaks of the column of its name only" are false of the text. *)
Theorem C106_conditions_refuted : forall i : impl nobody,
  (exists x s ps, deletes i x s ps /\ parse_delete s <> None /\ length (dollars s) < length ps) /\
  (exists x s ps, deletes i x s ps /\ s = "DELETE FROM t WHERE a IN ()" /\ parse_delete s = None) /\
  (exists x s ps, deletes i x s ps /\ s = "DELETE FROM t WHERE a AS x=$1" /\ parse_delete s = None) /\
  (exists x s ps, deletes i x s ps /\ s = "DELETE FROM t WHERE " /\ parse_delete s = None) /\
  (exists x, x = EThen true (ENull "a") [is1 "b"] /\ exists k, forall n, k <= n -> eval_go i n x = Halt) /\
  (SrcCalls.calls i "FieldName.Validate" [RStr "FieldName" tabbed] (Done RNil) /\ exists k, forall n, k <= n -> eval_go i n (is1 tabbed) = Halt) /\
  (exists fn s ps st rho, SrcCalls.calls i "FieldName.Validate" [RStr "FieldName" fn] (Done RNil) /\
     deletes i (EThen false (is1 "x") [EThen true (is1 fn) [is1 "c"]]) s ps /\ parse_delete s = Some st /\
     rho AEq "x" [VOther 1] = F /\ eval rho ps (de_where st) = Some T).
Proof.
  intros i.
  assert (D : forall x c o, eval_model x = Ok c -> (do d <- d_add_where (delete_ (TPName "t")) [c]; d_build d) = Ok o -> o_err o = None -> deletes i x (o_sql o) (o_params o)).
  { intros x c o H1 H2 H3. exact (delete_goes i x c o (TPName "t") H1 H2 H3). }
  assert (K : forall x, eval_model x = Panic -> exists k, forall n, k <= n -> eval_go i n x = Halt).
  { intros x Ex. destruct (C102_expressions_from_source i x) as [k H]. exists k. intros n Hn. now rewrite (H n Hn), Ex. }
  split; [|split; [|split; [|split; [|split; [|split]]]]].
  - exists (ECmp Eq_ "a" (VStrs ["x"; "y"])). eexists _, _. split; [eapply D; vm_compute; reflexivity|]. split; [vm_compute; discriminate|]. vm_compute. lia.
  - exists (ECmp In_ "a" (VStrs [])). eexists _, _. split; [eapply D; vm_compute; reflexivity|]. split; vm_compute; reflexivity.
  - exists (is1 "a as x"). eexists _, _. split; [eapply D; vm_compute; reflexivity|]. split; vm_compute; reflexivity.
  - exists (EGrp AND []). eexists _, _. split; [eapply D; vm_compute; reflexivity|]. split; vm_compute; reflexivity.
  - eexists. split; [reflexivity|]. apply K. reflexivity.
  - split; [|apply K; reflexivity]. eapply calls_is; [picks (C100_fields_from_source _ i)|reflexivity|]. vm_compute. reflexivity.
  - exists "a=$1)OR(b". eexists _, _, _, (fun _ c _ => if String.eqb c "c" then T else F).
    split; [eapply calls_is; [picks (C100_fields_from_source _ i)|reflexivity|]; vm_compute; reflexivity|].
    split; [eapply D; vm_compute; reflexivity|]. split; [vm_compute; reflexivity|]. split; vm_compute; reflexivity.
Qed.

(** The claims "Fields keeps the table, the joins and the WHERE", "each value of an INSERT has its parameter", "the DELETE made
    from a select speaks of its own table" and "Many() keeps ordering and page" are false of the text. *)
Theorem C106_builders_refuted : forall i : impl nobody,
  (exists s, program i "SelectSingleFrom" [of_tparam (TPName "t")]
     (("Where", [src_cond (condition (equal_to "a" (VOther 1)))]) :: ("Fields", [of_fdef (mkF "id" "" "")]) :: build) (returned s []) /\
     s = "SELECT id FROM  LIMIT 1" /\ parse_select s = None) /\
  (exists s ps, program i "InsertInto" [of_tparam (TPName "t")]
     (("Values", fvals [mkFV (mkF "a" "" "") (VStrs ["x"; "y"]); mkFV (mkF "b" "" "") (VOther 1)]) :: build) (returned s ps) /\
     s = "INSERT INTO t(a, b) VALUES ($2, $3)" /\ ps = [VStr "x"; VStr "y"; VOther 1]) /\
  (exists s ps, program i "SelectFrom" [of_tparam (TPStr "users u")]
     (("Where", [src_cond (condition (equal_to "u.id" (VOther 1)))]) :: ("Delete", []) :: build) (returned s ps) /\
     s = "DELETE FROM users WHERE u.id=$1" /\ change numbers shop s ps = None) /\
  (exists o s, SrcCalls.calls i "ASC" [RStr "FieldName" "id"] (Done o) /\
     program i "SelectManyFrom" [of_tparam (TPName "t")] (("OrderBy", [o]) :: ("Limit", [RInt "int" 5]) :: ("Many", []) :: build) (returned s []) /\ s = "SELECT * FROM t").
Proof.
  intros i. split; [|split; [|split]].
  - eexists. split; [eapply program_is; [apply (proj1 (proj2 (proj2 (C102_programs_from_source i (TPName "t")))) [SWhere [condition (equal_to "a" (VOther 1))]; SFields [mkF "id" "" ""]])|vm_compute; reflexivity]|].
    split; vm_compute; reflexivity.
  - eexists _, [VStr "x"; VStr "y"; VOther 1]. split; [eapply program_is; [apply (proj1 (proj2 (proj2 (proj2 (C102_programs_from_source i (TPName "t"))))) [[mkFV (mkF "a" "" "") (VStrs ["x"; "y"]); mkFV (mkF "b" "" "") (VOther 1)]])|vm_compute; reflexivity]|].
    split; vm_compute; reflexivity.
  - eexists _, [VOther 1]. split; [eapply program_is; [apply (proj2 (proj2 (proj2 (proj2 (proj2 (C102_derived_from_source i (TPStr "users u") [BWhere [condition (equal_to "u.id" (VOther 1))]]))))) [])|vm_compute; reflexivity]|].
    split; vm_compute; reflexivity.
  - exists (of_fsort (mkS (mkF "id" "" "") "ASC")), "SELECT * FROM t".
    split; [eapply calls_is; [picks (C100_sorting_joins_pages_from_source _ i)|reflexivity|]; vm_compute; reflexivity|]. split; [|reflexivity].
    eapply (program_on i _ _ (select_many_from (TPName "t")) src_many _ (fun x => PropsSrcLib.on (Spec.calls m_call x [MOrder [mkS (mkF "id" "" "") "ASC"]; MLimit 5]) (fun x => of_res (of_out no_error) (m_build (m_many x))))).
    + eapply calls_is; [picks (C101_select_many_from_source _ i)|reflexivity|]. vm_compute. reflexivity.
    + intros m. apply (PropsSrcLib.many_history i [MOrder [mkS (mkF "id" "" "") "ASC"]; MLimit 5]).
      intros m'. apply (gives_done i _ _ _ (m_many m') src_many); [picks (C105_promoted_from_source i)|].
      apply (gives_last i _ _ _ _ (of_out no_error)), PropsSrcLib.many_build.
    + vm_compute. reflexivity.
Qed.

(** Print Assumptions is in PropsSrcResults.v. *)
Definition bugs_from_source := (@C106_rows_refuted, @C106_conditions_refuted, @C106_builders_refuted).
