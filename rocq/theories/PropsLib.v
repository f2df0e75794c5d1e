(** C79: the nine condition types of lib_*.go, method by method (Lib.v): what each method
    does, and that the one type of leaves of Cond.v, about which the other theorems
    speak, is a faithful reading of all nine. *)
From Coq Require Import String Ascii List Bool Arith.
From Verif Require Import GoStr StrFacts Value Names Cond Lib.
Import ListNotations.
Local Open Scope string_scope.
Local Open Scope nat_scope.

(** * The method table of a condition type *)
Record condition_type := mkCT {
  ct : Type;
  ct_base : ct -> base; ct_field : ct -> fdef; ct_arg : ct -> gval; ct_cond : ct -> cond;
  ct_table : ct -> string -> ct; ct_spec : ct -> fdef -> ct;
  ct_join : ct -> string -> ct; ct_negate : ct -> bool -> ct;
  ct_render : ct -> nat -> res string; ct_sql : ct -> res string; ct_values : ct -> res (list gval);
  ct_and : ct -> list cond -> res cond; ct_or : ct -> list cond -> res cond
}.

(** How a type words its test; [Compare] sign, [Word] operator, list, or IS NULL. *)
Inductive wording := Compare (sign : string) | Word (op : string) | Listed | Nothing.

Definition equalTo_type := mkCT equalTo equalTo_base (fun x => fv_def (equalTo_value x)) (fun x => fv_val (equalTo_value x)) equalTo_cond
  equalTo_ApplyFieldTable equalTo_ApplyFieldSpec equalTo_Join equalTo_Negate
  equalTo_Render equalTo_RenderSQL equalTo_Values equalTo_And equalTo_Or.
Definition greater_type := mkCT greater greater_base (fun x => fv_def (greater_value x)) (fun x => fv_val (greater_value x)) greater_cond
  greater_ApplyFieldTable greater_ApplyFieldSpec greater_Join greater_Negate
  greater_Render greater_RenderSQL greater_Values greater_And greater_Or.
Definition greaterOrEqual_type := mkCT greaterOrEqual greaterOrEqual_base (fun x => fv_def (greaterOrEqual_value x)) (fun x => fv_val (greaterOrEqual_value x)) greaterOrEqual_cond
  greaterOrEqual_ApplyFieldTable greaterOrEqual_ApplyFieldSpec greaterOrEqual_Join greaterOrEqual_Negate
  greaterOrEqual_Render greaterOrEqual_RenderSQL greaterOrEqual_Values greaterOrEqual_And greaterOrEqual_Or.
Definition less_type := mkCT less less_base (fun x => fv_def (less_value x)) (fun x => fv_val (less_value x)) less_cond
  less_ApplyFieldTable less_ApplyFieldSpec less_Join less_Negate
  less_Render less_RenderSQL less_Values less_And less_Or.
Definition lessOrEqual_type := mkCT lessOrEqual lessOrEqual_base (fun x => fv_def (lessOrEqual_value x)) (fun x => fv_val (lessOrEqual_value x)) lessOrEqual_cond
  lessOrEqual_ApplyFieldTable lessOrEqual_ApplyFieldSpec lessOrEqual_Join lessOrEqual_Negate
  lessOrEqual_Render lessOrEqual_RenderSQL lessOrEqual_Values lessOrEqual_And lessOrEqual_Or.
Definition contains_type := mkCT contains contains_base (fun x => fv_def (contains_value x)) (fun x => fv_val (contains_value x)) contains_cond
  contains_ApplyFieldTable contains_ApplyFieldSpec contains_Join contains_Negate
  contains_Render contains_RenderSQL contains_Values contains_And contains_Or.
Definition iContains_type := mkCT iContains iContains_base (fun x => fv_def (iContains_value x)) (fun x => fv_val (iContains_value x)) iContains_cond
  iContains_ApplyFieldTable iContains_ApplyFieldSpec iContains_Join iContains_Negate
  iContains_Render iContains_RenderSQL iContains_Values iContains_And iContains_Or.
Definition inList_type := mkCT inList inList_base (fun x => fv_def (inList_value x)) (fun x => fv_val (inList_value x)) inList_cond
  inList_ApplyFieldTable inList_ApplyFieldSpec inList_Join inList_Negate
  inList_Render inList_RenderSQL inList_Values inList_And inList_Or.
Definition nullValue_type := mkCT nullValue nullValue_base nullValue_def (fun _ => VNil) nullValue_cond
  nullValue_ApplyFieldTable nullValue_ApplyFieldSpec nullValue_Join nullValue_Negate
  nullValue_Render nullValue_RenderSQL nullValue_Values nullValue_And nullValue_Or.

Definition nine : list (kind * wording * condition_type) :=
  [(KEq, Compare "=", equalTo_type);
   (KGt, Compare ">", greater_type);
   (KGe, Compare ">=", greaterOrEqual_type);
   (KLt, Compare "<", less_type);
   (KLe, Compare "<=", lessOrEqual_type);
   (KLike, Word "LIKE", contains_type);
   (KILike, Word "ILIKE", iContains_type);
   (KIn, Listed, inList_type);
   (KNull, Nothing, nullValue_type)].

(** * Specification *)

(** k placeholders separated by commas, the first numbered n+1 (or k question marks) *)
Fixpoint marks (mark : nat -> string) (n k : nat) : string :=
  match k with
  | 0 => ""
  | 1 => mark (S n)
  | S k' => mark (S n) ++ "," ++ marks mark (S n) k'
  end.

(** the text of a test of a field, negated or not, with [k] placeholders after the first n *)
Definition worded (w : wording) (neg : bool) (field : string) (mark : nat -> string) (n k : nat) : string :=
  match w with
  | Compare sign => (if neg then "NOT " else "") ++ field ++ sign ++ mark (S n)
  | Word op => field ++ (if neg then " NOT " else " ") ++ op ++ " " ++ mark (S n)
  | Listed => field ++ (if neg then " NOT " else " ") ++ "IN (" ++ marks mark n k ++ ")"
  | Nothing => field ++ " IS " ++ (if neg then "NOT " else "") ++ "NULL"
  end.

Definition numbered_mark (i : nat) : string := "$" ++ itoa i.
Definition question (_ : nat) : string := "?".

(** the field a condition is about after ApplyFieldSpec: the given one if the names agree *)
Definition respecified (d spec : fdef) : fdef := if string_dec (f_name d) (f_name spec) then spec else d.

(** * Facts *)

Lemma marks_numbered (P : nat -> string) vs (n : nat) :
  join "," (map (fun idx => P (n + idx + 1)) (seq 0 vs)) = marks P n vs.
Proof.
  assert (H : forall k m i, n + i = m ->
    join "," (map (fun idx => P (n + idx + 1)) (seq i k)) = marks P m k).
  { induction k as [|k IH]; intros m i E; [reflexivity|].
    assert (E1 : n + i + 1 = S m) by (subst m; now rewrite Nat.add_1_r).
    destruct k as [|k]; [cbn; now rewrite E1|].
    change (P (n + i + 1) ++ "," ++ join "," (map (fun idx => P (n + idx + 1)) (seq (S i) (S k)))
            = P (S m) ++ "," ++ marks P (S m) (S k)).
    rewrite E1, (IH (S m) (S i)); [reflexivity|]. subst m. apply Nat.add_succ_r. }
  apply H. apply Nat.add_0_r.
Qed.

Lemma app_a (a b c : string) : (a ++ b) ++ c = a ++ b ++ c.
Proof. induction a; cbn; congruence. Qed.
Lemma app_e (a : string) : a ++ "" = a.
Proof. induction a; cbn; congruence. Qed.

Lemma app_spec_is d spec : apply_spec d spec = respecified d spec.
Proof.
  unfold apply_spec, respecified, str_eqb.
  destruct (string_dec _ _) as [E|E]; [now rewrite E, String.eqb_refl|].
  apply String.eqb_neq in E. now rewrite E.
Qed.
Lemma value_spec_is fv spec :
  value_ApplyFieldSpec fv spec = mkFV (respecified (fv_def fv) spec) (fv_val fv).
Proof.
  rewrite <- app_spec_is. unfold value_ApplyFieldSpec, apply_spec.
  destruct fv as [d v]; cbn. now destruct (str_eqb _ _).
Qed.
Lemma null_spec_is x spec :
  nullValue_ApplyFieldSpec x spec = mk_nullValue (nullValue_base x) (respecified (nullValue_def x) spec).
Proof.
  rewrite <- app_spec_is. unfold nullValue_ApplyFieldSpec, apply_spec.
  destruct x as [b d]; cbn. now destruct (str_eqb _ _).
Qed.

Lemma const_map (A : Type) (y : string) (l : list A) i :
  map (fun _ => y) l = map (fun _ => y) (seq i (length l)).
Proof. revert i. induction l as [|a l IH]; intros i; cbn; [reflexivity|]. now rewrite (IH (S i)). Qed.

(** * C79 *)

(** Each method that returns a changed copy changes exactly what it names. *)
Theorem C79_copies : forall k w t, List.In (k, w, t) nine -> forall x : ct t,
  (forall j, ct_base t (ct_join t x j) = mkBase j (negate (ct_base t x))
             /\ ct_field t (ct_join t x j) = ct_field t x /\ ct_arg t (ct_join t x j) = ct_arg t x) /\
  (forall b, ct_base t (ct_negate t x b) = mkBase (joinType (ct_base t x)) b
             /\ ct_field t (ct_negate t x b) = ct_field t x /\ ct_arg t (ct_negate t x b) = ct_arg t x) /\
  (forall tn, ct_base t (ct_table t x tn) = ct_base t x
              /\ ct_field t (ct_table t x tn) = mkF (f_name (ct_field t x)) tn (f_alias (ct_field t x))
              /\ ct_arg t (ct_table t x tn) = ct_arg t x) /\
  (forall spec, ct_base t (ct_spec t x spec) = ct_base t x
                /\ ct_field t (ct_spec t x spec) = respecified (ct_field t x) spec
                /\ ct_arg t (ct_spec t x spec) = ct_arg t x).
Proof.
  intros k w t H x. unfold nine in H.
  repeat (destruct H as [H|H]; [injection H as <- <- <-; cbn in *; destruct x as [[j n] fv]; cbn;
    split; [intros; repeat split|split; [intros; repeat split|split; [intros; repeat split|
      intros spec; rewrite ?value_spec_is, ?null_spec_is; repeat split]]]|]).
  destruct H.
Qed.

(** Rendering words the test as the type's operator says, with numbered placeholders after
    the n used before or with question marks; as many as values for IN. *)
Theorem C79_text : forall k w t, List.In (k, w, t) nine -> forall (x : ct t) vs n,
  ct_values t x = Ok vs ->
  ct_render t x n = Ok (worded w (negate (ct_base t x)) (render_spec (ct_field t x)) numbered_mark n (length vs)) /\
  ct_sql t x = Ok (worded w (negate (ct_base t x)) (render_spec (ct_field t x)) question n (length vs)).
Proof.
  intros k w t H x vs n. unfold nine in H.
  assert (P1 := marks_numbered numbered_mark (length vs) n).
  assert (P2 := marks_numbered question (length vs) n).
  unfold numbered_mark in P1. unfold question in P2. cbn -[join marks itoa] in P1.
  destruct H as [H|[H|[H|[H|[H|[H|[H|[H|[H|[]]]]]]]]]]; injection H as <- <- <-; cbn in x; destruct x as [[j b] fv];
    cbn -[inList_Render inList_RenderSQL join marks itoa Nat.add]; intros E;
    unfold equalTo_Render, equalTo_RenderSQL, greater_Render, greater_RenderSQL, greaterOrEqual_Render, greaterOrEqual_RenderSQL,
      less_Render, less_RenderSQL, lessOrEqual_Render, lessOrEqual_RenderSQL, contains_Render, contains_RenderSQL,
      iContains_Render, iContains_RenderSQL, inList_Render, inList_RenderSQL, nullValue_Render, nullValue_RenderSQL;
    rewrite ?E; unfold value_RenderSpec, numbered_mark, question; cbn -[join marks itoa Nat.add]; rewrite ?P1, ?P2;
    destruct b; cbn -[marks itoa Nat.add]; rewrite ?app_a, ?Nat.add_1_r; cbn -[marks itoa]; rewrite ?app_a; split; reflexivity.
Qed.

(** Cond.v's leaves behave as the nine types do, method by method: what the other
    theorems say about conditions they say about these types. *)
Theorem C79_model : forall k w t, List.In (k, w, t) nine -> forall x : ct t,
  ct_cond t x = CLeaf (mkLeaf k (joinType (ct_base t x)) (negate (ct_base t x)) (ct_field t x) (ct_arg t x)) /\
  jtype (ct_cond t x) = Ok (base_JoinType (ct_base t x)) /\
  (forall b, render_join b (joinType (ct_base t x)) = base_RenderJoin (ct_base t x) b) /\
  (forall j, c_join j (ct_cond t x) = Ok (ct_cond t (ct_join t x j))) /\
  (forall b, c_negate b (ct_cond t x) = Ok (ct_cond t (ct_negate t x b))) /\
  (forall tn, c_apply_table tn (ct_cond t x) = Ok (ct_cond t (ct_table t x tn))) /\
  (forall spec, c_apply_spec spec (ct_cond t x) = Ok (ct_cond t (ct_spec t x spec))) /\
  (forall n, c_render (ct_cond t x) n = ct_render t x n) /\
  c_render_sql (ct_cond t x) = ct_sql t x /\
  c_values (ct_cond t x) = ct_values t x /\
  (forall cs, m_and (ct_cond t x) cs = ct_and t x cs) /\
  (forall cs, m_or (ct_cond t x) cs = ct_or t x cs).
Proof.
  intros k w t H x. unfold nine in H.
  destruct H as [H|[H|[H|[H|[H|[H|[H|[H|[H|[]]]]]]]]]]; injection H as <- <- <-; cbn in x; destruct x as [[j b] fv];
    (split; [reflexivity|]; split; [reflexivity|]; split; [intros []; reflexivity|];
     split; [reflexivity|]; split; [reflexivity|]; split; [reflexivity|];
     split; [intros spec; cbn; rewrite app_spec_is; unfold equalTo_ApplyFieldSpec, greater_ApplyFieldSpec,
               greaterOrEqual_ApplyFieldSpec, less_ApplyFieldSpec, lessOrEqual_ApplyFieldSpec, contains_ApplyFieldSpec,
               iContains_ApplyFieldSpec, inList_ApplyFieldSpec;
             rewrite ?value_spec_is, ?null_spec_is; reflexivity|];
     split; [intros n; try reflexivity; now destruct b|]).
  all: split; [first [reflexivity|now destruct b|cbn; unfold leaf_render_sql, inList_RenderSQL; cbn;
               unfold inList_Values, leaf_values, value_Values; cbn;
               destruct (fv_values (fv_val fv)) as [vs|]; cbn; [rewrite (const_map _ "?" vs 0)|]; now destruct b]|];
       split; [reflexivity|]; split; [reflexivity|]; try reflexivity.
Qed.

(** What a constructor returns: the default join, not negated, the field as Field parses
    it, the value given. *)
Definition fresh (t : condition_type) (r : res (ct t)) (fn : string) (v : gval) : Prop :=
  match field fn with
  | Ok d => exists x, r = Ok x /\ ct_base t x = mkBase "AND" false /\ ct_field t x = d /\ ct_arg t x = v
  | Panic => r = Panic
  end.
Theorem C79_constructors : forall fn v s,
  fresh equalTo_type (EqualTo fn v) fn v /\ fresh greater_type (GreaterThan fn v) fn v /\
  fresh greaterOrEqual_type (GreaterOrEqual fn v) fn v /\ fresh less_type (Less fn v) fn v /\
  fresh lessOrEqual_type (LessOrEqual fn v) fn v /\ fresh contains_type (Contains fn s) fn (VStr s) /\
  fresh iContains_type (IContains fn s) fn (VStr s) /\ fresh inList_type (In fn v) fn v /\
  fresh nullValue_type (IsNull fn) fn VNil.
Proof.
  intros fn v s.
  unfold fresh, EqualTo, GreaterThan, GreaterOrEqual, Less, LessOrEqual, Contains, IContains, In, IsNull, new_field_value.
  destruct (field fn) as [d|]; cbn; [|tauto].
  split; [eexists; cbn; eauto|]. split; [eexists; cbn; eauto|]. split; [eexists; cbn; eauto|].
  split; [eexists; cbn; eauto|]. split; [eexists; cbn; eauto|]. split; [eexists; cbn; eauto|].
  split; [eexists; cbn; eauto|]. split; [eexists; cbn; eauto|]. eexists; cbn; eauto.
Qed.

(** The constructors of Cond.v are these. *)
Theorem C79_constructors_model : forall fn v s,
  (do x <- EqualTo fn v; Ok (equalTo_cond x)) = equal_to fn v /\
  (do x <- GreaterThan fn v; Ok (greater_cond x)) = greater_than fn v /\
  (do x <- GreaterOrEqual fn v; Ok (greaterOrEqual_cond x)) = greater_or_equal fn v /\
  (do x <- Less fn v; Ok (less_cond x)) = less_ fn v /\
  (do x <- LessOrEqual fn v; Ok (lessOrEqual_cond x)) = less_or_equal fn v /\
  (do x <- Contains fn s; Ok (contains_cond x)) = contains_ fn s /\
  (do x <- IContains fn s; Ok (iContains_cond x)) = icontains_ fn s /\
  (do x <- In fn v; Ok (inList_cond x)) = in_ fn v /\
  (do x <- IsNull fn; Ok (nullValue_cond x)) = is_null fn.
Proof.
  intros fn v s.
  unfold EqualTo, GreaterThan, GreaterOrEqual, Less, LessOrEqual, Contains, IContains, In, IsNull,
    equal_to, greater_than, greater_or_equal, less_, less_or_equal, contains_, icontains_, in_, is_null, mk_cond, new_field_value.
  destruct (field fn) as [d|]; cbn; tauto.
Qed.

(** Examples: a negated IN on a qualified field, numbered after two other parameters, then
    moved to another table. *)
Example C79_example :
  exists x, In "t.a" (VStrs ["p"; "q"]) = Ok x /\
    inList_Render (inList_Negate x true) 2 = Ok "t.a NOT IN ($3,$4)" /\
    inList_RenderSQL (inList_ApplyFieldTable (inList_Negate x true) "u") = Ok "u.a NOT IN (?,?)" /\
    ct_values inList_type x = Ok [VStr "p"; VStr "q"] /\
    worded Listed true "t.a" numbered_mark 2 2 = "t.a NOT IN ($3,$4)".
Proof. eexists. split; [reflexivity|]. repeat split. Qed.
Example C79_example_less :
  exists x, Less "a" (VOther 1) = Ok x /\ less_Render (less_Negate x true) 0 = Ok "NOT a<$1" /\
    less_ApplyFieldSpec x (mkF "a" "t" "") <> x /\ less_ApplyFieldSpec x (mkF "b" "t" "") = x.
Proof. eexists. split; [reflexivity|]. split; [reflexivity|]. split; [discriminate|reflexivity]. Qed.
Example C79_example_types : length nine = 9 /\ List.In (KIn, Listed, inList_type) nine.
Proof. split; [reflexivity|]. cbn. auto 12. Qed.

Print Assumptions C79_copies.
Print Assumptions C79_text.
Print Assumptions C79_model.
Print Assumptions C79_constructors.
Print Assumptions C79_constructors_model.
