(** Property theorems about names, tables, value maps and the Limiter. *)
From Coq Require Import String Ascii List Bool Arith NArith Lia Permutation Sorted.
From Verif Require Import GoStr Value Names SqlSpec Spec StrFacts NameFacts.
Import ListNotations.
Local Open Scope string_scope.
Local Open Scope nat_scope.

Definition tab : string := bytes [9].

(** * C23 FieldName.Validate accepts exactly the documented names *)
Theorem C23_validate : forall s, validate s = None <-> documented_name s.
Proof. exact validate_iff. Qed.
Print Assumptions C23_validate.
Example C23_example : validate "users.id" = None /\ validate "a.b.c" = Some EDots /\ validate "it's" = Some EQuote.
Proof. repeat split. Qed.

(** * C24 Field specifications round-trip *)

(** Any text of the documented form, with any white space and any case of "as", is read
    as the field, table and alias it names. *)
Theorem C24_read : forall s table name alias, field_form s table name alias ->
  field_or_error (FPStr s) = Some (mkF name table alias) /\ field_or_error (FPName s) = Some (mkF name table alias).
Proof. intros s t n al H. split; now apply form_accepted. Qed.
Print Assumptions C24_read.
(** The rendered specification is such a text.  [clean] names contain neither white space nor dots. *)
Theorem C24_round_trip : forall name table alias, name <> "" -> clean name -> clean table -> spaceless alias ->
  let alias' := if String.eqb table "" && String.eqb alias name then "" else alias in
  field_or_error (FPStr (render_spec (mkF name table alias))) = Some (mkF name table alias').
Proof.
  intros n t al Hn Cn Ct Sa. rewrite empty_eqb. apply form_accepted. exact (render_form (mkF n t al) Hn Cn Ct Sa).
Qed.
Print Assumptions C24_round_trip.
Example C24_example : field_form ("  u.id" ++ tab ++ "aS x ") "u" "id" "x" /\
  render_spec (mkF "id" "u" "x") = "u.id AS x" /\ clean "id".
Proof.
  split; [|split; [reflexivity|]].
  - split; [discriminate|]. repeat split; try (intros H; vm_compute in H; intuition discriminate).
    right. exists "aS". split; [simpl; tauto|]. apply toks_iff. reflexivity.
  - split; [|intros H; vm_compute in H; intuition discriminate].
    assert (T : Toks ["id"] "id") by (apply toks_iff; reflexivity). apply toks_tokens in T. now inversion T.
Qed.

(** * C25 Field specifications outside the documented forms are rejected *)

(** Full statement (false): forall s d, field_or_error (FPStr s) = Some d ->
    field_form s (f_table d) (f_name d) (f_alias d). *)
Theorem C25_refuted : exists s d, field_or_error (FPStr s) = Some d /\
  forall table name alias, ~ field_form s table name alias.
Proof.
  exists "a.b.c". eexists. split; [reflexivity|]. intros t n al H.
  pose proof (form_accepted _ _ _ _ H) as E. vm_compute in E. injection E as <- <- <-.
  destruct H as (_ & _ & _ & [[_ H]|(w & _ & H)]); apply toks_iff in H; discriminate.
Qed.
Print Assumptions C25_refuted.
(** "a." is accepted with an empty field name *)
Theorem C25_empty_name_refuted : exists s d, field_or_error (FPStr s) = Some d /\ f_name d = "".
Proof. exists "a.". eexists. split; reflexivity. Qed.
Print Assumptions C25_empty_name_refuted.
(** Proved part: all strings whose first token has at most one dot, not at its ends.
    Missing: strings whose first token has more dots, or a dot at an end; these are accepted. *)
Theorem C25_exact_partial : forall s table name alias, (forall q ts, Toks (q :: ts) s -> dots_ok q) ->
  (field_or_error (FPStr s) = Some (mkF name table alias) <-> field_form s table name alias).
Proof. exact form_iff. Qed.
Print Assumptions C25_exact_partial.
(** What is accepted in general, and how it is read. *)
Theorem C25_accepted : forall s d, field_or_error (FPStr s) = Some d <->
  exists q, splits q (f_table d) (f_name d) /\
    ((f_alias d = "" /\ Toks [q] s) \/ exists w, In w as_words /\ Toks [q; w; f_alias d] s).
Proof. exact parse_field_iff. Qed.
Print Assumptions C25_accepted.
Example C25_example : field_or_error (FPStr "a b") = None /\ field_or_error (FPStr "") = None /\
  field_or_error (FPStr "a to b") = None /\ dots_ok "a".
Proof.
  repeat split; [vm_compute; repeat constructor|intros r H; discriminate|].
  intros [|x [|]] H; discriminate.
Qed.

(** * C26 A validated name never makes the builders panic *)

(** Full statement (false): forall fn, validate fn = None -> Field, ASC, ... do not panic. *)
Theorem C26_refuted : exists fn v, validate fn = None /\ field fn = Panic /\ asc fn = Panic /\ desc fn = Panic /\
  order_by fn [] = Panic /\ map_field_values [(fn, v)] = Panic.
Proof. exists ("a" ++ tab ++ "b"), (VOther 1). repeat split. Qed.
Print Assumptions C26_refuted.
(** Proved part: names without white space. *)
Theorem C26_no_panic_partial : forall fn, validate fn = None -> spaceless fn ->
  (exists d, field fn = Ok d /\ render_spec d = fn) /\
  (exists o, asc fn = Ok o /\ s_render o = fn ++ " ASC") /\
  (exists o, desc fn = Ok o /\ s_render o = fn ++ " DESC") /\
  (exists o, order_by fn [] = Ok o /\ s_render o = fn ++ " ASC") /\
  (forall dir more, dir = "ASC" \/ dir = "DESC" -> exists o, order_by fn (dir :: more) = Ok o /\ s_render o = fn ++ " " ++ dir) /\
  (forall v, exists fv, map_field_values [(fn, v)] = Ok (Some [fv]) /\ render_spec (fv_def fv) = fn /\ fv_val fv = v).
Proof.
  intros fn Hv Hs. split; [|split; [|split; [|split; [|split]]]].
  - destruct (valid_field fn Hv Hs) as (d & A & B & _). eauto.
  - exact (sort_valid "ASC" fn Hv Hs).
  - exact (sort_valid "DESC" fn Hv Hs).
  - exact (sort_valid "ASC" fn Hv Hs).
  - intros dir more [->| ->]; [exact (sort_valid "ASC" fn Hv Hs)|exact (sort_valid "DESC" fn Hv Hs)].
  - intros v. destruct (map_valid [(fn, v)]) as (l & E & H); [repeat constructor; auto|].
    inversion H as [|? fv ? ? [A B] H2]; subst. inversion H2; subst. exists fv. auto.
Qed.
Print Assumptions C26_no_panic_partial.
(** The hypothesis is the weakest: a validated name with white space is not rendered back. *)
Theorem C26_exactly : forall fn, validate fn = None ->
  (spaceless fn <-> exists d, field fn = Ok d /\ render_spec d = fn).
Proof.
  intros fn Hv. split.
  - intros Hs. destruct (valid_field fn Hv Hs) as (d & A & B & _). eauto.
  - intros (d & A & B). eapply valid_field_converse; eauto.
Qed.
Print Assumptions C26_exactly.
Example C26_example : validate "users.id" = None /\ spaceless "users.id".
Proof.
  split; [reflexivity|]. apply C26_exactly; [reflexivity|]. exists (mkF "id" "users" ""). split; reflexivity.
Qed.

(** * C27 Table specifications *)

(** Full statement (false): accepted exactly when of the form name, name alias or name as alias. *)
Theorem C27_refuted : exists s n, table_form s n n /\ table_or_error (TPStr s) = None.
Proof. exists "t t", "t". split; [right; left; apply toks_iff; reflexivity|reflexivity]. Qed.
Print Assumptions C27_refuted.
(** Proved part: every string except "name name" (the same word twice). *)
Theorem C27_exact_partial : forall s t, ~ (exists n, Toks [n; n] s) ->
  (table_or_error (TPStr s) = Some t <->
   exists n al, table_form s n al /\ t = mkT n (if String.eqb al n then "" else al)).
Proof. exact parse_table_iff. Qed.
Print Assumptions C27_exact_partial.
Theorem C27_round_trip : forall s t, table_or_error (TPStr s) = Some t -> table_or_error (TPStr (t_render t)) = Some t.
Proof. exact table_round_trip. Qed.
Print Assumptions C27_round_trip.
Theorem C27_same_alias_dropped : forall s n w, In w as_words -> Toks [n; w; n] s ->
  table_or_error (TPStr s) = Some (mkT n "").
Proof.
  intros s n w Hw HT. apply (parse_table_iff s (mkT n "")).
  - intros (m & Hm). apply toks_iff in Hm, HT. congruence.
  - exists n, n. split; [right; right; eauto|]. now rewrite String.eqb_refl.
Qed.
Print Assumptions C27_same_alias_dropped.
Example C27_example : table_or_error (TPStr " users  As u") = Some (mkT "users" "u") /\
  table_or_error (TPStr "users u") = Some (mkT "users" "u") /\ table_or_error (TPStr "a b c") = None /\
  ~ (exists n, Toks [n; n] " users  As u").
Proof. repeat split. intros (n & H). apply toks_iff in H. discriminate. Qed.

(** * C29 UniqFieldNames *)
Theorem C29_uniq : forall a, NoDup (uniq_field_names a) /\ (forall x, In x (uniq_field_names a) <-> In x a) /\
  StronglySorted (fun x y => first_idx x a < first_idx y a) (uniq_field_names a).
Proof. exact uniq_spec. Qed.
Print Assumptions C29_uniq.
Example C29_example : uniq_field_names ["b"; "a"; "b"; "c"; "a"] = ["b"; "a"; "c"].
Proof. reflexivity. Qed.

(** * C30 Pagination: the Limiter *)

(** a history of Offset (true) and Limit (false) calls *)
Definition lim_calls (cs : list (bool * N)) : limiter :=
  fold_left (fun (q : limiter) (c : bool * N) => if fst c then lim_set_offset q (snd c) else lim_set_limit q (snd c)) cs (mkL 0 0).
Definition args_of (b : bool) (cs : list (bool * N)) : list N := map snd (filter (fun c : bool * N => Bool.eqb (fst c) b) cs).

Lemma lim_calls_last cs : lim_calls cs = mkL (last_set 0 (args_of false cs)) (last_set 0 (args_of true cs)).
Proof.
  unfold lim_calls. rewrite <- (rev_involutive cs). induction (rev cs) as [|[b v] l IH]; [reflexivity|].
  simpl rev. rewrite fold_left_app, IH. unfold args_of. rewrite !filter_app, !map_app.
  destruct b; simpl; rewrite ?app_nil_r; unfold last_set; rewrite last_last; reflexivity.
Qed.
Theorem C30_limiter : forall cs n, let q := lim_calls cs in
  let clauses := page (last_set 0 (args_of true cs)) (last_set 0 (args_of false cs)) in
  lim_render q n = String.concat " " (map (fun ic : nat * (string * N) => fst (snd ic) ++ " $" ++ itoa (fst ic)) (combine (seq (n + 1) (length clauses)) clauses)) /\
  lim_render_sql q = String.concat " " (map (fun c : string * N => fst c ++ " ?") clauses) /\
  lim_values q = map (fun c : string * N => VUint (snd c)) clauses.
Proof.
  intros cs n. rewrite lim_calls_last. generalize (last_set 0 (args_of true cs)) as o, (last_set 0 (args_of false cs)) as l.
  intros o l. unfold lim_render, lim_render_sql, lim_values, page. cbn [lim_offset lim_limit].
  destruct (N.ltb_spec 0 o) as [Ho|Ho], (N.ltb_spec 0 l) as [Hl|Hl];
    repeat match goal with |- context [(?x =? 0)%N] => destruct (N.eqb_spec x 0); try lia end;
    cbn [andb app length seq combine map fst snd]; repeat split.
  - replace (n + 1 + 1) with (S (n + 1)) by lia. unfold String.concat. change (is_empty ("OFFSET $" ++ itoa (n + 1))) with false. cbv iota. rewrite !app_assoc_s. reflexivity.
Qed.
Print Assumptions C30_limiter.
Example C30_example : lim_render (lim_calls [(true, 5%N); (false, 10%N); (true, 7%N)]) 3 = "OFFSET $4 LIMIT $5" /\
  lim_values (lim_calls [(true, 5%N); (false, 10%N); (true, 7%N)]) = [VUint 7; VUint 10].
Proof. split; reflexivity. Qed.

(** * C35 Value conversion errors are reported *)

(** [conversion_fails v]: converting the value reports an error *)
Inductive conversion_fails : gval -> Prop :=
| cf_valuer v p : conversion_fails (VValuer (ORet v true) p)
| cf_valuers v l : In (Some (ORet v true)) l -> conversion_fails (VValuers l)
| cf_slice v l : In (Some (ORet v true)) l -> conversion_fails (VValuerSlice l).
(** Full statement (false): forall v, conversion_fails v -> fv_values v = Panic. *)
Theorem C35_refuted : exists v vs, conversion_fails v /\ fv_values v = Ok vs /\ vs = [VOther 0].
Proof. exists (VValuer (ORet (VOther 0) true) None). eexists. repeat split. constructor. Qed.
Print Assumptions C35_refuted.
Theorem C35_list_refuted : exists l vs, conversion_fails (VValuers l) /\ fv_values (VValuers l) = Ok vs.
Proof. exists [Some (ORet (VOther 0) true)]. eexists. split; [econstructor; now left|reflexivity]. Qed.
Print Assumptions C35_list_refuted.
(** Proved part: slices of a type implementing driver.Valuer.  Missing: a single
    driver.Valuer and []driver.Valuer, whose errors are always dropped. *)
Lemma slice_fails v l : In (Some (ORet v true)) l -> mapM valuer_slice_value l = Panic.
Proof.
  induction l as [|o l IH]; intros H; [destruct H|]. simpl. destruct H as [->|H]; [reflexivity|].
  rewrite (IH H). destruct (valuer_slice_value o); reflexivity.
Qed.
Theorem C35_reported_partial : forall l, conversion_fails (VValuerSlice l) -> fv_values (VValuerSlice l) = Panic.
Proof. intros l H. inversion H; subst. simpl. eapply slice_fails; eauto. Qed.
Print Assumptions C35_reported_partial.
Example C35_example : conversion_fails (VValuerSlice [Some (ORet VNil false); Some (ORet VNil true)]).
Proof. econstructor. right. now left. Qed.

(** * C36 ValuesMap.FieldValues covers exactly the map *)

(** Full statement (false): one value per key, or an error if a key is invalid. *)
Theorem C36_refuted : exists m, Forall (fun kv => validate (fst kv) = None) m /\ map_field_values m = Panic.
Proof. exists [("a" ++ tab ++ "b", VOther 1)]. split; [repeat constructor|reflexivity]. Qed.
Print Assumptions C36_refuted.
(** Proved part: maps without white space in the keys, for every iteration order. *)
Theorem C36_values_partial : forall m order, Permutation m order ->
  Forall (fun kv => documented_name (fst kv) /\ spaceless (fst kv)) m ->
  exists l l0, map_field_values order = Ok (Some l) /\ Permutation l0 l /\
    Forall2 (fun kv fv => render_spec (fv_def fv) = fst kv /\ fv_val fv = snd kv) m l0.
Proof.
  intros m order HP HF. destruct (map_valid order) as (l & E & H2).
  - rewrite Forall_forall in *. intros kv Hk. destruct (HF kv) as [A B].
    + apply Permutation_in with order; [now symmetry|exact Hk].
    + split; [now apply validate_iff|exact B].
  - exists l. destruct (Permutation_Forall2 (Permutation_sym HP) H2) as (l0 & P & F2).
    exists l0. repeat split; auto. now symmetry.
Qed.
Print Assumptions C36_values_partial.
Theorem C36_error_partial : forall m, Forall (fun kv => spaceless (fst kv)) m ->
  Exists (fun kv => ~ documented_name (fst kv)) m -> map_field_values m = Ok None.
Proof.
  intros m Hs He. apply map_invalid; auto. apply Exists_exists in He as (kv & Hi & Hn).
  apply Exists_exists. exists kv. split; auto. intros E. apply Hn. now apply validate_iff.
Qed.
Print Assumptions C36_error_partial.
Example C36_example : Forall (fun kv => documented_name (fst kv) /\ spaceless (fst kv)) [("id", VOther 1); ("t.x", VNil)] /\
  Exists (fun kv : string * gval => ~ documented_name (fst kv)) [("id", VOther 1); ("a.b.c", VNil)].
Proof.
  split.
  - repeat constructor; simpl fst; try (apply validate_iff; reflexivity).
    + apply C26_exactly; [reflexivity|]. eexists; split; reflexivity.
    + apply C26_exactly; [reflexivity|]. eexists; split; reflexivity.
  - right. left. simpl. rewrite <- validate_iff. discriminate.
Qed.
