(** Property theorems about the errors the package returns and what it panics with. *)
From Coq Require Import String Ascii List Bool Arith Lia NArith ZArith Permutation.
From Verif Require Import GoStr Value Names Cond Build Surface SqlSpec Spec Calls StrFacts NameFacts BuildFacts BuildThms StmtText Errors PropsCond PropsNames PropsWrite PropsMore.
Import ListNotations.
Local Open Scope string_scope.
Local Open Scope nat_scope.

(** * C92 Returned errors are query errors and tell the truth *)

(** the error is recognised by errors.Is(err, query.Error) and its text is "query: " and [why] *)
Definition says (e : gerr) (why : string) : Prop := err_is e Error_id = true /\ err_text e = "query: " ++ why.

(** what the texts say about a field name *)
Definition true_of (why fn : string) : Prop :=
  (why = "field name contains quote character" /\ exists a b, fn = a ++ "'" ++ b) \/
  (why = "field name contains double quote character" /\ exists a b, fn = a ++ """" ++ b) \/
  (why = "field name contains space character" /\ exists a b, fn = a ++ " " ++ b) \/
  (why = "too many dots inside field name" /\ exists a b c, fn = a ++ "." ++ b ++ "." ++ c) \/
  (why = "empty field name" /\ fn = "") \/
  (why = "field name could not end with dot" /\ exists a, fn = a ++ ".") \/
  (why = "field name could not start with dot" /\ exists a, fn = "." ++ a).

Lemma has_byte_split c s : has_byte c s = true -> exists a b, s = a ++ String c b.
Proof.
  induction s as [|x s IH]; cbn [has_byte]; [discriminate|]. destruct (Ascii.eqb x c) eqn:E.
  - intros _. apply Ascii.eqb_eq in E. subst. now exists "", s.
  - intros H. destruct (IH H) as (a & b & ->). now exists (String x a), b.
Qed.
Lemma count_byte_one c s : 0 < count_byte c s -> exists a b, s = a ++ String c b.
Proof.
  induction s as [|x s IH]; cbn [count_byte]; [lia|]. destruct (Ascii.eqb x c) eqn:E.
  - intros _. apply Ascii.eqb_eq in E. subst. now exists "", s.
  - intros H. destruct (IH H) as (a & b & ->). now exists (String x a), b.
Qed.
Lemma count_byte_two c s : 1 < count_byte c s -> exists a b d, s = a ++ String c (b ++ String c d).
Proof.
  induction s as [|x s IH]; cbn [count_byte]; [lia|]. destruct (Ascii.eqb x c) eqn:E.
  - intros H. apply Ascii.eqb_eq in E. subst. destruct (count_byte_one c s) as (a & b & ->); [lia|]. now exists "", a, b.
  - intros H. destruct (IH H) as (a & b & d & ->). now exists (String x a), b, d.
Qed.

Theorem C92_validate : forall fn, (validate_error fn = None <-> documented_name fn) /\
  (forall e, validate_error fn = Some e -> exists why, says e why /\ true_of why fn).
Proof.
  intros fn. unfold validate_error. split.
  - rewrite <- validate_iff. destruct (validate fn); [split; discriminate|tauto].
  - unfold validate. intros e H.
    destruct (has_byte "'" fn) eqn:E1.
    { injection H as <-. eexists. split; [split; reflexivity|]. left. split; [reflexivity|exact (has_byte_split _ _ E1)]. }
    destruct (has_byte """" fn) eqn:E2.
    { injection H as <-. eexists. split; [split; reflexivity|]. right; left. split; [reflexivity|exact (has_byte_split _ _ E2)]. }
    destruct (has_byte " " fn) eqn:E3.
    { injection H as <-. eexists. split; [split; reflexivity|]. do 2 right; left. split; [reflexivity|exact (has_byte_split _ _ E3)]. }
    destruct (1 <? count_byte "." fn) eqn:E4.
    { injection H as <-. eexists. split; [split; reflexivity|]. do 3 right; left. split; [reflexivity|].
      apply Nat.ltb_lt in E4. exact (count_byte_two _ _ E4). }
    destruct (is_empty fn) eqn:E5.
    { injection H as <-. eexists. split; [split; reflexivity|]. do 4 right; left. split; [reflexivity|]. now destruct fn. }
    destruct (has_suffix_byte "." fn) eqn:E6.
    { injection H as <-. eexists. split; [split; reflexivity|]. do 5 right; left. split; [reflexivity|]. now apply suffix_iff. }
    destruct (has_prefix_byte "." fn) eqn:E7; [|discriminate].
    injection H as <-. eexists. split; [split; reflexivity|]. do 6 right. split; [reflexivity|]. now apply prefix_iff.
Qed.
Print Assumptions C92_validate.
Example C92_validate_example : map (fun s => option_map err_text (validate_error s)) ["users.id"; "it's"; "a.b.c"; ".a"; ""] =
  [None; Some "query: field name contains quote character"; Some "query: too many dots inside field name";
   Some "query: field name could not start with dot"; Some "query: empty field name"].
Proof. reflexivity. Qed.

(** FieldOrError and TableOrError return an error exactly when they return no definition, and the error quotes the text *)
Theorem C92_specifications :
  (forall p, (field_error p = None <-> exists d, field_or_error p = Some d) /\
     forall e, field_error p = Some e -> exists s, (p = FPStr s \/ p = FPName s) /\ says e ("unexpected field specification: " ++ s)) /\
  (forall p, (table_error p = None <-> exists t, table_or_error p = Some t) /\
     forall e, table_error p = Some e -> exists s, (p = TPStr s \/ p = TPName s) /\ says e ("unexpected table ident: `" ++ s ++ "`")).
Proof.
  split; intros [s|s|d]; cbn [field_error table_error field_or_error table_or_error].
  - destruct (parse_field s); split; try (intros; discriminate); try (split; [eauto|auto]; fail).
    + split; [discriminate|intros [d H]; discriminate].
    + intros e [= <-]. exists s. split; [auto|split; reflexivity].
  - destruct (parse_field s); split; try (intros; discriminate); try (split; [eauto|auto]; fail).
    + split; [discriminate|intros [d H]; discriminate].
    + intros e [= <-]. exists s. split; [auto|split; reflexivity].
  - split; [split; eauto|discriminate].
  - destruct (parse_table s); split; try (intros; discriminate); try (split; [eauto|auto]; fail).
    + split; [discriminate|intros [d H]; discriminate].
    + intros e [= <-]. exists s. split; [auto|split; reflexivity].
  - destruct (parse_table s); split; try (intros; discriminate); try (split; [eauto|auto]; fail).
    + split; [discriminate|intros [d H]; discriminate].
    + intros e [= <-]. exists s. split; [auto|split; reflexivity].
  - split; [split; eauto|discriminate].
Qed.
Print Assumptions C92_specifications.
Example C92_specifications_example :
  option_map err_text (field_error (FPName "life is life")) = Some "query: unexpected field specification: life is life" /\
  option_map err_text (table_error (TPStr "t not t1")) = Some "query: unexpected table ident: `t not t1`" /\
  field_error (FPStr "t.f as x") = None.
Proof. repeat split. Qed.

(** The error of a build names a reason that holds of the calls that were made; each reason, when it comes first, is named. *)
Theorem C92_insert : forall p h i o e, calls i_call (insert_into p) h = Ok i -> i_build i = Ok o -> o_err o = Some e ->
  List.concat h = [] /\ says (insert_error e) "no fields to insert" \/
  List.concat h <> [] /\ given_name p = "" /\ says (insert_error e) "table name empty".
Proof.
  intros p h i o e Ei Eb Eo. destruct (proj1 (C54_write_partial p) h i Ei) as [Et Ev]. unfold i_table_name, i_set_values in *.
  unfold i_build in Eb. rewrite Ev, Et in Eb. destruct (List.concat h) as [|x l] eqn:El.
  - cbn in Eb. injection Eb as <-. cbn in Eo. injection Eo as <-. left. split; [reflexivity|split; reflexivity].
  - cbn [nonempty negb] in Eb. destruct (given_name p) as [|c s] eqn:Eg.
    + cbn in Eb. injection Eb as <-. cbn in Eo. injection Eo as <-. right. split; [discriminate|split; [reflexivity|split; reflexivity]].
    + cbn [is_empty] in Eb. destruct (ins_loop [] (x :: l)) as [[[a b] ps]|]; [|discriminate]. cbn [bind] in Eb. injection Eb as <-. discriminate.
Qed.
Print Assumptions C92_insert.
Theorem C92_update : forall p h u o e, calls u_call (update_ p) h = Ok u -> u_build u = Ok o -> o_err o = Some e ->
  List.concat (flat_map uc_where h) = [] /\ says (update_error e) "empty conditions, will not update every record" \/
  List.concat (flat_map uc_where h) <> [] /\ flat_map uc_set h = [] /\ says (update_error e) "no fields to update set" \/
  List.concat (flat_map uc_where h) <> [] /\ flat_map uc_set h <> [] /\ given_name p = "" /\ says (update_error e) "no table name set".
Proof.
  intros p h u o e Eu Eb Eo. destruct (proj1 (proj2 (C54_write_partial p)) h u Eu) as [Et Ev]. unfold u_table_name, u_set_values in *.
  destruct (u_calls_is h (update_ p) u [] eq_refl Eu) as (_ & _ & _ & I4). cbn in I4.
  unfold u_build in Eb. rewrite Ev, Et in Eb. destruct (nonempty (g_cs (u_where u))) eqn:Eg.
  - pose proof (some_where _ _ I4 Eg) as Hw. right. cbn [negb] in Eb. destruct (flat_map uc_set h) as [|x l].
    + cbn in Eb. injection Eb as <-. cbn in Eo. injection Eo as <-. left. split; [exact Hw|split; [reflexivity|split; reflexivity]].
    + cbn [nonempty negb] in Eb. destruct (given_name p) as [|c s].
      * cbn in Eb. injection Eb as <-. cbn in Eo. injection Eo as <-. right. split; [exact Hw|split; [discriminate|split; [reflexivity|split; reflexivity]]].
      * cbn [is_empty] in Eb. destruct (fields_and_values (x :: l)) as [[a b]|]; [|discriminate]. cbn [bind] in Eb.
        destruct (c_render (of_g (u_where u)) (length b)); [|discriminate]. cbn [bind] in Eb.
        destruct (c_values (of_g (u_where u))); [|discriminate]. cbn [bind] in Eb. injection Eb as <-. discriminate.
  - cbn [negb] in Eb. injection Eb as <-. cbn in Eo. injection Eo as <-. left. split; [|split; reflexivity].
    apply (where_grows _ _ _ I4). destruct (g_cs (u_where u)); [reflexivity|discriminate].
Qed.
Print Assumptions C92_update.
Theorem C92_delete : forall p h d o e, calls d_add_where (delete_ p) h = Ok d -> d_build d = Ok o -> o_err o = Some e ->
  List.concat h = [] /\ says (delete_error e) "empty conditions, will not delete every record" \/
  List.concat h <> [] /\ given_name p = "" /\ says (delete_error e) "no table name set".
Proof.
  intros p h u o e Eu Eb Eo. pose proof (proj2 (proj2 (C54_write_partial p)) h u Eu) as Et. unfold d_table_name in *.
  destruct (d_calls_is h (delete_ p) u [] eq_refl Eu) as (_ & _ & I4). cbn in I4.
  unfold d_build in Eb. rewrite Et in Eb. destruct (nonempty (g_cs (d_where u))) eqn:Eg.
  - pose proof (some_where _ _ I4 Eg) as Hw. right. cbn [negb] in Eb. destruct (given_name p) as [|c s].
    + cbn in Eb. injection Eb as <-. cbn in Eo. injection Eo as <-. split; [exact Hw|split; [reflexivity|split; reflexivity]].
    + cbn [is_empty] in Eb. destruct (c_render (of_g (d_where u)) 0); [|discriminate]. cbn [bind] in Eb.
      destruct (c_values (of_g (d_where u))); [|discriminate]. cbn [bind] in Eb. injection Eb as <-. discriminate.
  - cbn [negb] in Eb. injection Eb as <-. cbn in Eo. injection Eo as <-. left. split; [|split; reflexivity].
    apply (where_grows _ _ _ I4). destruct (g_cs (d_where u)); [reflexivity|discriminate].
Qed.
Print Assumptions C92_delete.
Example C92_builds_example :
  (do i <- calls i_call (insert_into (TPName "t")) [[]; []]; do o <- i_build i; Ok (option_map (fun e => err_text (insert_error e)) (o_err o)))
    = Ok (Some "query: no fields to insert") /\
  (do u <- calls u_call (update_ (TPName "")) [UWhere [eqc "a" 1]; USet [fv "a" (VOther 1)]]; do o <- u_build u;
     Ok (option_map (fun e => err_text (update_error e)) (o_err o))) = Ok (Some "query: no table name set") /\
  (do d <- calls d_add_where (delete_ (TPName "")) [[]]; do o <- d_build d; Ok (option_map (fun e => err_text (delete_error e)) (o_err o)))
    = Ok (Some "query: empty conditions, will not delete every record").
Proof. repeat split. Qed.

(** FieldValues returns an error exactly when it returns no values; the error names a key of the map and why it is invalid *)
Theorem C92_map : forall m order, Permutation order m ->
  (map_field_values order = Ok None <-> exists e, map_error order = Ok (Some e)) /\
  (map_field_values order = Panic <-> map_error order = Panic) /\
  forall e, map_error order = Ok (Some e) -> err_is e Error_id = true /\
    exists k v why, In (k, v) m /\ ~ documented_name k /\ true_of why k /\
      err_text e = "query: invalid field name `" ++ k ++ "`" ++ String (ascii_of_nat 10) ("query: " ++ why).
Proof.
  intros m order P. assert (A : (map_field_values order = Ok None <-> exists e, map_error order = Ok (Some e)) /\
    (map_field_values order = Panic <-> map_error order = Panic) /\
    forall e, map_error order = Ok (Some e) -> err_is e Error_id = true /\
      exists k v why, In (k, v) order /\ ~ documented_name k /\ true_of why k /\
        err_text e = "query: invalid field name `" ++ k ++ "`" ++ String (ascii_of_nat 10) ("query: " ++ why)).
  { clear P. induction order as [|[k v] r IH]; cbn [map_field_values map_error].
    - split; [split; [discriminate|intros [e H]; discriminate]|]. split; [split; discriminate|discriminate].
    - destruct (C92_validate k) as [Hn He]. unfold validate_error in *. destruct (validate k) as [x|] eqn:Ek; cbn [option_map] in *.
      + split; [split; [eauto|reflexivity]|]. split; [split; discriminate|]. intros e [= <-]. split; [reflexivity|].
        destruct (He _ eq_refl) as (why & [_ Ht] & Hw). exists k, v, why. split; [now left|].
        split; [intros D; apply Hn in D; discriminate|]. split; [exact Hw|]. cbn [err_text]. rewrite Ht. cbn [err_text Error append].
        now rewrite !app_assoc_s.
      + destruct (new_field_value k v) as [fv|]; cbn [bind].
        * destruct IH as (I1 & I2 & I3). destruct (map_field_values r) as [rest|]; cbn [bind].
          -- destruct (map_error r) as [me|] eqn:Em.
             ++ split; [|split; [split; discriminate|]].
                ** rewrite <- I1. destruct rest; split; congruence.
                ** intros e H. destruct (I3 e H) as (X & k' & v' & why & Hi & R). split; [exact X|]. exists k', v', why. split; [now right|exact R].
             ++ destruct I2 as [_ I2]. now specialize (I2 eq_refl).
          -- destruct I2 as [I2 _]. rewrite (I2 eq_refl). split; [split; [discriminate|intros [e H]; discriminate]|]. split; [tauto|discriminate].
        * split; [split; [discriminate|intros [e H]; discriminate]|]. split; [tauto|discriminate]. }
  destruct A as (A1 & A2 & A3). split; [exact A1|]. split; [exact A2|]. intros e H. destruct (A3 e H) as (X & k & v & why & Hi & R).
  split; [exact X|]. exists k, v, why. split; [now apply (Permutation_in _ P)|exact R].
Qed.
Print Assumptions C92_map.
Example C92_map_example :
  (do e <- map_error [("id", VOther 1); ("field name", VOther 0)]; Ok (option_map err_text e)) =
  Ok (Some ("query: invalid field name `field name`" ++ String (ascii_of_nat 10) "query: field name contains space character")).
Proof. reflexivity. Qed.

(** * C93 Panics carry query errors *)

Definition query_panic (p : payload) : Prop := exists e, p = PErr e /\ err_is e Error_id = true.

(** Full statement: whatever the package panics with is an error recognised by errors.Is(err, query.Error).  False for the
    constructors of orderings with an invalid name and for NewFields with an argument of another type, which panic with a
    text; for values with nil elements, where Go panics; and for a Valuer that itself panics. *)
Theorem C93_refuted :
  (order_by "it's" [] = Panic /\ order_panic "it's" [] = Some (PText "invalid field name: query: field name contains quote character")) /\
  (asc "" = Panic /\ sort_panic "" = Some (PText "invalid field name: query: empty field name")) /\
  (new_fields [None] = Panic /\ fields_panic [None] = Some (PText "only string, FieldName or FieldDefinition types allowed")) /\
  (fv_values (VValuers [None]) = Panic /\ forall show, values_panic show (VValuers [None]) = Some PRuntime).
Proof. repeat split. Qed.
Print Assumptions C93_refuted.

(** [panics x p]: the call [x] panics exactly if [p] is a payload *)
Definition panics {A} (x : res A) (p : option payload) : Prop := x = Panic <-> p <> None.
Lemma ok_none {A} (a : A) : panics (Ok a) None.
Proof. split; [discriminate|congruence]. Qed.
Lemma panic_some {A} p : @panics A Panic (Some p).
Proof. split; [discriminate|reflexivity]. Qed.

(** Field, Table and the constructors of predicates panic only with query errors. *)
Theorem C93_names : (forall p, panics (field_p p) (field_panic p) /\ forall x, field_panic p = Some x -> query_panic x) /\
  (forall p, panics (table_p p) (table_panic p) /\ forall x, table_panic p = Some x -> query_panic x) /\
  (forall k fn v, panics (mk_cond k fn v) (field_panic (FPName fn))) /\ (forall fn, panics (is_null fn) (field_panic (FPName fn))).
Proof.
  destruct C92_specifications as [Hf Ht]. assert (F : forall p, panics (field_p p) (field_panic p)).
  { intros p. destruct (Hf p) as [H _]. unfold field_p, field_panic. destruct (field_error p) as [e|].
    - destruct (field_or_error p) as [d|] eqn:E; [|apply panic_some]. exfalso. now assert (Some e = None) by (apply H; eauto).
    - destruct (proj1 H eq_refl) as [d ->]. apply ok_none. }
  split; [|split; [|split]].
  - intros p. split; [apply F|]. intros x E. unfold field_panic in E. destruct (Hf p) as [_ H]. destruct (field_error p) as [e|]; [|discriminate].
    injection E as <-. exists e. split; [reflexivity|]. destruct (H e eq_refl) as (s & _ & [X _]). exact X.
  - intros p. destruct (Ht p) as [H H']. split.
    + unfold table_p, table_panic. destruct (table_error p) as [e|].
      * destruct (table_or_error p) as [d|] eqn:E; [|apply panic_some]. exfalso. now assert (Some e = None) by (apply H; eauto).
      * destruct (proj1 H eq_refl) as [d ->]. apply ok_none.
    + intros x E. unfold table_panic in E. destruct (table_error p) as [e|]; [|discriminate].
      injection E as <-. exists e. split; [reflexivity|]. destruct (H' e eq_refl) as (s & _ & [X _]). exact X.
  - intros k fn v. specialize (F (FPName fn)). unfold mk_cond, new_field_value, field. destruct (field_p (FPName fn)); [|split; [intros _; now apply F|reflexivity]].
    cbn [bind]. split; [discriminate|]. intros X. apply F in X. discriminate.
  - intros fn. specialize (F (FPName fn)). unfold is_null, field. destruct (field_p (FPName fn)); [|split; [intros _; now apply F|reflexivity]].
    cbn [bind]. split; [discriminate|]. intros X. apply F in X. discriminate.
Qed.
Print Assumptions C93_names.
Example C93_names_example : field_p (FPStr "a b") = Panic /\ equal_to "a b" (VOther 1) = Panic /\
  field_panic (FPName "a b") = Some (PErr (EWrap Error ": unexpected field specification: a b")).
Proof. repeat split. Qed.

(** An ordering panics with a query error exactly for an unknown direction and for a valid name that is not one word; with a
    text exactly for a known direction and an invalid name. *)
Theorem C93_ordering_exactly : forall fn dirs,
  let known := dirs = [] \/ exists d r, dirs = d :: r /\ (d = "ASC" \/ d = "DESC") in
  panics (order_by fn dirs) (order_panic fn dirs) /\
  ((exists x, order_panic fn dirs = Some x /\ query_panic x) <->
     ~ known \/ documented_name fn /\ field_or_error (FPName fn) = None) /\
  ((exists s, order_panic fn dirs = Some (PText s)) <-> known /\ ~ documented_name fn) /\
  (forall s, order_panic fn dirs = Some (PText s) -> exists why, s = "invalid field name: query: " ++ why /\ true_of why fn).
Proof.
  intros fn dirs known. destruct C93_names as [Hf _]. destruct (Hf (FPName fn)) as [Fp Fq]. destruct (C92_validate fn) as [Vn Ve].
  assert (S : forall dir, panics (sort_by dir fn) (sort_panic fn)).
  { intros dir. unfold sort_by, sort_panic, validate_error. destruct (validate fn); cbn [option_map]; [apply panic_some|].
    unfold field. destruct (field_p (FPName fn)) eqn:E; cbn [bind].
    - split; [discriminate|]. intros X. apply Fp in X. discriminate.
    - exact (conj (fun _ => proj1 Fp eq_refl) (fun _ => eq_refl)). }
  assert (Q : (exists x, sort_panic fn = Some x /\ query_panic x) <-> documented_name fn /\ field_or_error (FPName fn) = None).
  { unfold sort_panic. destruct (validate_error fn) as [e|] eqn:E.
    - split; [intros (x & [= <-] & (e' & H & _)); discriminate|]. intros [H _]. apply Vn in H. discriminate.
    - split.
      + intros (x & H & _). split; [now apply Vn|]. unfold field_p in Fp. destruct (field_or_error (FPName fn)); [|reflexivity].
        exfalso. assert (Y : field_panic (FPName fn) <> None) by congruence. apply Fp in Y. discriminate.
      + intros [_ H]. unfold field_p in Fp. rewrite H in Fp. destruct (field_panic (FPName fn)) as [x|] eqn:X.
        * exists x. split; [reflexivity|now apply Fq].
        * exfalso. now apply (proj1 Fp eq_refl). }
  assert (T : (exists s, sort_panic fn = Some (PText s)) <-> ~ documented_name fn).
  { unfold sort_panic. destruct (validate_error fn) as [e|] eqn:E.
    - split; [|eauto]. intros _ D. apply Vn in D. discriminate.
    - split; [|intros D; exfalso; apply D, Vn; reflexivity]. intros (s & H). destruct (Fq _ H) as (e & X & _). discriminate. }
  assert (W : forall s, sort_panic fn = Some (PText s) -> exists why, s = "invalid field name: query: " ++ why /\ true_of why fn).
  { intros s. unfold sort_panic. destruct (validate_error fn) as [e|] eqn:E.
    - intros [= <-]. destruct (Ve e eq_refl) as (why & [_ Ht] & Hw). exists why. now rewrite Ht.
    - intros H. destruct (Fq _ H) as (e & X & _). discriminate. }
  destruct dirs as [|d r].
  - assert (K : known) by now left. cbn [order_by order_panic]. unfold asc. split; [apply S|]. rewrite Q, T. split; [tauto|]. split; [tauto|exact W].
  - cbn [order_by order_panic]. unfold str_eqb, asc, desc in *.
    destruct (String.eqb_spec d "ASC") as [->|N1]; [|destruct (String.eqb_spec d "DESC") as [->|N2]].
    + assert (K : known) by (right; eauto). cbn [orb]. split; [apply S|]. rewrite Q, T. split; [tauto|]. split; [tauto|exact W].
    + assert (K : known) by (right; eauto). cbn [orb]. split; [apply S|]. rewrite Q, T. split; [tauto|]. split; [tauto|exact W].
    + assert (K : ~ known) by (intros [X|(d' & r' & [= <- <-] & [X|X])]; [discriminate|congruence|congruence]). cbn [orb].
      split; [apply panic_some|]. split; [|split].
      * split; [now left|]. intros _. eexists. split; [reflexivity|]. eexists. split; reflexivity.
      * split; [intros [s H]; discriminate|tauto].
      * discriminate.
Qed.
Print Assumptions C93_ordering_exactly.
Example C93_ordering_example :
  order_panic "f" ["up"; "ASC"] = Some (PErr (EWrap Error ": unexpected order: f: [up ASC]")) /\
  order_panic "a.b" ["DESC"] = None /\ documented_name ("a" ++ tab ++ "b") /\ order_by ("a" ++ tab ++ "b") [] = Panic /\
  order_panic ("a" ++ tab ++ "b") [] = Some (PErr (EWrap Error (": unexpected field specification: a" ++ tab ++ "b"))).
Proof. repeat split; try reflexivity. all: apply validate_iff; reflexivity. Qed.

(** NewFields: a query error exactly if the first argument that is not accepted has a type that is *)
Theorem C93_fields_exactly : forall args,
  panics (new_fields args) (fields_panic args) /\
  ((exists x, fields_panic args = Some x /\ query_panic x) <->
   exists pre p post, args = (pre ++ Some p :: post)%list /\ field_or_error p = None /\
     Forall (fun a => exists q d, a = Some q /\ field_or_error q = Some d) pre) /\
  ((exists s, fields_panic args = Some (PText s)) <->
   exists pre post, args = (pre ++ None :: post)%list /\ Forall (fun a => exists q d, a = Some q /\ field_or_error q = Some d) pre).
Proof.
  destruct C93_names as [Hf _]. induction args as [|[p|] args (IH1 & IH2 & IH3)].
  - split; [apply ok_none|]. split.
    + split; [intros (x & H & _); discriminate|]. intros ([|] & p & post & H & _); discriminate.
    + split; [intros (x & H); discriminate|]. intros ([|] & post & H & _); discriminate.
  - destruct (Hf p) as [Fp Fq]. unfold new_fields in *. cbn [mapM fields_panic]. unfold field_p in *.
    destruct (field_or_error p) as [d|] eqn:E.
    + destruct (field_panic p) as [x|]; [exfalso; assert (Y : Some x <> None) by congruence; apply Fp in Y; discriminate|]. cbn [bind].
      split; [|split].
      * unfold panics in *. rewrite <- IH1. destruct (mapM _ args); cbn [bind]; [split; discriminate|tauto].
      * rewrite IH2. split.
        -- intros (pre & q & post & -> & Hq & Hp). exists (Some p :: pre), q, post. split; [reflexivity|]. split; [exact Hq|]. constructor; eauto.
        -- intros (pre & q & post & Ha & Hq & Hp). destruct pre as [|a pre]; cbn in Ha; injection Ha as Ha1 Ha2; [congruence|].
           inversion Hp; subst. eauto 7.
      * rewrite IH3. split.
        -- intros (pre & post & -> & Hp). exists (Some p :: pre), post. split; [reflexivity|]. constructor; eauto.
        -- intros (pre & post & Ha & Hp). destruct pre as [|a pre]; cbn in Ha; [discriminate|]. injection Ha as Ha1 Ha2. inversion Hp; subst. eauto 7.
    + destruct (field_panic p) as [x|] eqn:X; [|exfalso; now apply (proj1 Fp eq_refl)]. cbn [bind]. split; [apply panic_some|]. split.
      * split; [|eauto]. intros _. exists [], p, args. auto.
      * split; [intros (s & [= ->]); destruct (Fq _ eq_refl) as (e & Y & _); discriminate|].
        intros (pre & post & Ha & Hp). destruct pre as [|a pre]; cbn in Ha; [discriminate|]. injection Ha as <- Ha2. inversion Hp as [|? ? (q & d & Z & Y)]; injection Z as ->; congruence.
  - unfold new_fields in *. cbn [mapM fields_panic bind]. split; [apply panic_some|]. split.
    + split; [intros (x & [= <-] & (e & X & _)); discriminate|]. intros (pre & p & post & Ha & _ & Hp).
      destruct pre as [|a pre]; cbn in Ha; [discriminate|]. injection Ha as <- Ha2. inversion Hp as [|? ? (q & d & X & _)]; discriminate.
    + split; [|eauto]. intros _. exists [], args. auto.
Qed.
Print Assumptions C93_fields_exactly.
Example C93_fields_example :
  fields_panic [Some (FPStr "a"); Some (FPName "b c"); None] = Some (PErr (EWrap Error ": unexpected field specification: b c")) /\
  fields_panic [Some (FPStr "a"); None; Some (FPName "b c")] = Some (PText "only string, FieldName or FieldDefinition types allowed").
Proof. repeat split. Qed.

(** Values panics with a query error exactly if the first element that does not convert, of a slice whose elements are Valuers,
    reports an error; nil elements give a runtime error of Go, and a Valuer's own panic passes through. *)
Lemma first_panic_mapM {A B} (f : A -> res B) (q : A -> option payload) l : (forall x, panics (f x) (q x)) -> panics (mapM f l) (first_panic q l).
Proof.
  intros H. induction l as [|x l IH]; [apply ok_none|]. cbn [mapM first_panic]. specialize (H x). unfold panics in *.
  destruct (f x) as [y|].
  - destruct (q x); [exfalso; assert (Y : Some p <> None) by congruence; apply H in Y; discriminate|]. cbn [bind]. rewrite <- IH.
    destruct (mapM f l); cbn [bind]; [split; discriminate|tauto].
  - destruct (q x); [|exfalso; now apply (proj1 H eq_refl)]. cbn [bind]. split; [discriminate|reflexivity].
Qed.
Lemma first_panic_iff {A} (q : A -> option payload) p l : first_panic q l = Some p <->
  exists pre x post, l = (pre ++ x :: post)%list /\ q x = Some p /\ Forall (fun y => q y = None) pre.
Proof.
  induction l as [|a l IH]; cbn [first_panic]; [split; [discriminate|intros ([|] & x & post & H & _); discriminate]|].
  destruct (q a) as [p'|] eqn:E.
  - split.
    + intros [= ->]. now exists [], a, l.
    + intros ([|b pre] & x & post & H & Hx & Hp); cbn in H; injection H as -> ->; [congruence|]. inversion Hp; congruence.
  - rewrite IH. split.
    + intros (pre & x & post & -> & Hx & Hp). exists (a :: pre), x, post. auto.
    + intros ([|b pre] & x & post & H & Hx & Hp); cbn in H; injection H as -> ->; [congruence|]. inversion Hp; subst. eauto 7.
Qed.
Theorem C93_values_exactly : forall show v,
  panics (fv_values v) (values_panic show v) /\
  ((exists x, values_panic show v = Some x /\ query_panic x) <->
   exists pre y post, v = VValuerSlice (pre ++ Some (ORet y true) :: post) /\
     Forall (fun o => exists z, o = Some (ORet z false)) pre).
Proof.
  intros show v. split.
  - destruct v; cbn [fv_values values_panic]; try apply ok_none.
    + destruct o; [apply ok_none|apply panic_some].
    + apply first_panic_mapM. intros [[x b|]|]; [apply ok_none|apply panic_some|apply panic_some].
    + apply first_panic_mapM. intros [x|]; [apply ok_none|apply panic_some].
    + apply first_panic_mapM. intros [[x [|]|]|]; [apply panic_some|apply ok_none|apply panic_some|apply panic_some].
  - split.
    + intros (x & H & (e & -> & _)). destruct v; cbn [values_panic] in H; try discriminate.
      * destruct o; discriminate.
      * apply first_panic_iff in H as (pre & o & post & _ & H & _). destruct o as [[]|]; discriminate.
      * apply first_panic_iff in H as (pre & o & post & _ & H & _). destruct o; discriminate.
      * apply first_panic_iff in H as (pre & o & post & -> & H & Hp). destruct o as [[y [|]|]|]; try discriminate.
        exists pre, y, post. split; [reflexivity|]. eapply Forall_impl; [|exact Hp]. intros [[z [|]|]|]; try discriminate. eauto.
    + intros (pre & y & post & -> & Hp). eexists. split.
      * apply first_panic_iff. exists pre, (Some (ORet y true)), post. split; [reflexivity|]. split; [reflexivity|].
        eapply Forall_impl; [|exact Hp]. intros o [z ->]. reflexivity.
      * eexists. split; reflexivity.
Qed.
Print Assumptions C93_values_exactly.
Example C93_values_example :
  values_panic (fun _ => "x") (VValuerSlice [Some (ORet (VOther 1) false); Some (ORet VNil true); None]) = Some (PErr (EWrap Error ": translate value x")) /\
  values_panic (fun _ => "x") (VValuerSlice [None; Some (ORet VNil true)]) = Some PRuntime /\
  values_panic (fun _ => "x") (VValuer (ORet VNil true) None) = None.
Proof. repeat split. Qed.
