(** C95: after an UPDATE the same conditions find the changed rows. *)
From Coq Require Import String Ascii List Bool Arith NArith ZArith Lia Permutation.
From Verif Require Import GoStr Value Names Cond Build Surface SqlSpec DbSpec Spec StrFacts SqlFacts CondFacts CondText CondSem
  TreeFacts CondLogic CondMeaning Built CondThms PropsCond NameFacts PropsNames StmtFacts Calls BuildFacts BuildThms StmtText PropsSelect
  PropsWrite PropsSurface PropsMore AtomFacts PropsAtoms PropsOrder PropsDb PropsRows.
Import ListNotations.
Local Open Scope string_scope.
Local Open Scope nat_scope.

(** a row of the result with the new values in the columns [cs] *)
Definition rewritten (E : engine) (cs : list string) (vs : list gval) (u : tuple E) : tuple E :=
  map (fun cv => (fst cv, match assoc (fst cv) (combine cs (map (stored E) vs)) with Some v => v | None => snd cv end)) u.

Lemma updated_tuple E cols (sets : list (string * cell E)) r :
  combine cols (updated E cols sets r) = map (fun cv => (fst cv, match assoc (fst cv) sets with Some v => v | None => snd cv end)) (combine cols r).
Proof.
  unfold updated. revert r. induction cols as [|c cols IH]; intros [|x r]; try reflexivity. cbn. now rewrite IH.
Qed.
Lemma updated_twice E cols (sets : list (string * cell E)) r : updated E cols sets (updated E cols sets r) = updated E cols sets r.
Proof.
  unfold updated at 1. rewrite updated_tuple, map_map. unfold updated. apply map_ext. intros [c x]. cbn. now destruct (assoc c sets).
Qed.
Lemma assoc_unset {A} c cs (vs : list A) : ~ In c cs -> assoc c (combine cs vs) = None.
Proof.
  revert vs. induction cs as [|x cs IH]; intros [|v vs] H; try reflexivity. cbn in *. destruct (String.eqb_spec c x); [subst; tauto|]. apply IH. tauto.
Qed.
Lemma assoc_rewritten E cs vs c u : ~ In c cs -> assoc c (rewritten E cs vs u) = assoc c u.
Proof.
  intros H. induction u as [|[k x] u IH]; [reflexivity|]. cbn. destruct (String.eqb_spec c k); [|exact IH]. subst. now rewrite (assoc_unset _ _ _ H).
Qed.
Lemma column_rewritten E cs vs n u d : good_def d -> ~ In (f_name d) cs ->
  column_of E [(n, rewritten E cs vs u)] (column d) = column_of E [(n, u)] (column d).
Proof.
  intros (Hn & Ht & _) Hc. unfold column_of, column. destruct (is_empty (f_table d)) eqn:Em.
  - rewrite (after_dot_none _ (name_ident _ Hn)). cbn [filter]. unfold has_column. cbn [snd]. rewrite (assoc_rewritten _ _ _ _ _ Hc).
    destruct (assoc (f_name d) u); [|reflexivity]. now apply assoc_rewritten.
  - destruct Ht as [Ht|Ht]; [rewrite Ht in Em; discriminate|]. rewrite (after_dot_some _ _ (name_ident _ Ht)). cbn [assoc].
    destruct (String.eqb (f_table d) n); [|reflexivity]. now apply assoc_rewritten.
Qed.
Lemma eval_atoms E r r' ps e : (forall c, In c (where_columns e) -> column_of E r c = column_of E r' c) ->
  eval (row_of E r) ps e = eval (row_of E r') ps e.
Proof.
  induction e as [op c ns|e IH|a IHa b IHb|a IHa b IHb]; cbn [eval where_columns]; intros H.
  - unfold row_of. now rewrite H by (now left).
  - now rewrite IH.
  - rewrite IHa, IHb; auto; intros c Hc; apply H, in_or_app; auto.
  - rewrite IHa, IHb; auto; intros c Hc; apply H, in_or_app; auto.
Qed.
Lemma accepts_same E r r' ps e : (forall c, In c (where_columns e) -> column_of E r c = column_of E r' c) -> accepts E ps e r = accepts E ps e r'.
Proof.
  intros H. unfold accepts. rewrite (eval_atoms E r r' ps e H). replace (forallb _ (where_columns e)) with
    (forallb (fun c => match column_of E r' c with Some _ => true | None => false end) (where_columns e)); [reflexivity|].
  revert H. generalize (where_columns e). induction l as [|c l IH]; intros H; [reflexivity|]. cbn. rewrite (H c) by (now left). f_equal.
  apply IH. intros x Hx. apply H. now right.
Qed.

Definition marked {A} (f : A -> A) (l : list (A * bool)) : list A := map (fun rh : A * bool => if snd rh then f (fst rh) else fst rh) l.
Lemma marked_map {A B} (g : A -> option B) f : (forall x, g (f x) = g x) -> forall l hs, length l = length hs ->
  map g (marked f (combine l hs)) = map g l.
Proof.
  intros H. unfold marked. induction l as [|x l IH]; intros [|h hs] Hl; try discriminate; [reflexivity|]. cbn. rewrite IH by auto. f_equal. now destruct h.
Qed.
Lemma marked_chosen {A} (f : A -> A) l : forall hs, chosen (combine (marked f (combine l hs)) hs) = map f (chosen (combine l hs)).
Proof.
  unfold marked, chosen. induction l as [|x l IH]; intros [|h hs]; try reflexivity. cbn. destruct h; cbn; now rewrite IH.
Qed.
Lemma marked_twice {A} (f : A -> A) l : (forall x, f (f x) = f x) -> forall hs, marked f (combine (marked f (combine l hs)) hs) = marked f (combine l hs).
Proof.
  intros H. unfold marked. induction l as [|x l IH]; intros [|h hs]; try reflexivity. cbn. rewrite IH. f_equal. destruct h; [apply H|reflexivity].
Qed.

(** Select(t).Where(h...) and Update(t).Set(...).Where(h...), where the conditions do not use the columns that are set: after the
    UPDATE the SELECT returns the rows it returned before, in the same order, with the new values; and repeating the UPDATE changes nothing. *)
Theorem C95_update_found : forall p T h vs, let sets := flat_map uc_set h in let cs := map (fun x => f_name (fv_def x)) sets in
  table_p p = Ok (mkT T "") -> raw_table_name p = T -> qname T -> sets <> [] -> singles sets vs -> Forall (fun c => name c = true) cs ->
  Forall plain_u h -> List.concat (flat_map uc_where h) <> [] ->
  (forall l, In l (flat_map leaves (List.concat (flat_map uc_where h))) -> ~ In (f_name (l_def l)) cs) ->
  exists b0 b u s ps s' ps',
    select_from p = Ok b0 /\ calls b_add_where b0 (flat_map uc_where h) = Ok b /\ b_build b = Ok (mkOut s ps None) /\
    calls u_call (update_ p) h = Ok u /\ u_build u = Ok (mkOut s' ps' None) /\
    forall E db t l, db T = Some t -> NoDup cs -> incl cs (r_columns E t) -> query E db s ps = Some (Rows E l) ->
    exists db', change E db s' ps' = Some db' /\ query E db' s ps = Some (Rows E (map (rewritten E cs vs) l)) /\
    exists db'', change E db' s' ps' = Some db'' /\ forall n, db'' n = db' n.
Proof.
  intros p T h vs sets cs Et Hp Hq Hs1 Hs2 Hs3 Hu Hne Hun.
  assert (Hh : Forall (Forall regular) (flat_map uc_where h)) by now apply concat_Forall, plain_u_regular.
  destruct (where_state p T _ Et Hq Hh Hne) as (b0 & b & E0 & Eb & Hsi & Hr & Hg & I5).
  destruct (u_total row0 h (update_ p) empty_ok (plain_u_wf _ _ Hu)) as (u & Eu).
  destruct (u_calls_is h (update_ p) _ [] eq_refl Eu) as (_ & J2 & J3 & J4). cbn in J2, J3, J4. rewrite I5 in J4. injection J4 as J4.
  destruct (base_query b Hr) as (s & ps & we & E1 & F3 & E3 & E5).
  destruct (update_text u (b_where b) T sets vs) as (s' & e & ps' & D1 & D2 & D3 & D4); auto.
  { now rewrite J2. } { now left. }
  destruct (solid_facts _ Hg) as (Hgne & _ & _ & Hgl). specialize (F3 row0). destruct we as [e0|]; [|destruct F3; contradiction].
  destruct F3 as (_ & Ev & Hre & _). rewrite D2 in Ev. injection Ev as ->.
  rewrite (simple_item _ _ Hsi) in E5. destruct Hsi as (Hf & Hj & _). rewrite Hf, Hj in E5. cbn [cols_item map] in E5.
  exists b0, b, u, s, ps, s', (vs ++ ps)%list. do 5 (split; [assumption|]).
  intros E db t l Edb Hnd Hin K. rewrite E5, one_table_plain, Edb in K.
  destruct (hits E ps T t e0) as [hs|] eqn:Eh; [|discriminate].
  assert (El : l = chosen (combine (tuples E t) hs)) by congruence. clear K.
  assert (Sh : forall r, accepts E (vs ++ ps)%list e r = accepts E ps e0 r) by (intros r; now apply (accepts_shift (b_where b))).
  assert (Ht : forall t0, hits E (vs ++ ps)%list T t0 e = hits E ps T t0 e0).
  { intros t0. unfold hits. f_equal. apply map_ext. intros x. apply Sh. }
  set (sets' := combine cs (map (stored E) vs)).
  assert (Ch : forall db1 t1 hs1, db1 T = Some t1 -> r_columns E t1 = r_columns E t -> hits E ps T t1 e0 = Some hs1 ->
    change E db1 s' (vs ++ ps) = Some (with_table E db1 T (mkRel E (r_columns E t1) (marked (updated E (r_columns E t1) sets') (combine (r_rows E t1) hs1))))).
  { intros db1 t1 hs1 Ed1 Ec1 Eh1. rewrite (change_update _ _ D4). unfold run_update. cbn [up_table up_sets up_where].
    assert (L : length (col_names sets) = length vs) by now apply singles_length.
    rewrite map_fst_combine, map_snd_combine by (now rewrite seq_length). unfold params.
    rewrite (bind_seq [] vs ps : bind_params (vs ++ ps) (seq 1 (length vs)) = Some vs), Ed1, Ht, Eh1.
    change (col_names sets) with cs. rewrite known_incl; [reflexivity|assumption|now rewrite Ec1]. }
  set (t1 := mkRel E (r_columns E t) (marked (updated E (r_columns E t) sets') (combine (r_rows E t) hs))).
  assert (Lh : length (r_rows E t) = length hs) by (symmetry; now apply hits_length in Eh).
  (* the columns of the condition are not set *)
  assert (Hc : forall n x c, In c (where_columns e0) -> column_of E [(n, rewritten E cs vs x)] c = column_of E [(n, x)] c).
  { destruct (solid_facts _ Hg) as (_ & Hw & _ & _). destruct (reads_says _ _ _ _ Hw Hgl Hre D2) as [A0 _].
    intros n x c Hc. rewrite where_columns_atoms, A0, numbered_columns in Hc. apply in_map_iff in Hc as (lf & <- & Hlf).
    apply column_rewritten; [now apply Hgl|].
    assert (Hw' : wanted (flat_map uc_where h) (Some (of_g (b_where b)))).
    { split; [exact Hne|]. change (CGrp AND false [] false) with (of_g empty_group). now rewrite calls_m_and, I5. }
    destruct (wanted_leaves _ _ (proj2 (concat_Forall _ _) Hh) Hw') as (_ & Kc & _). apply cores_defs in Kc.
    assert (Hd : In (l_def lf) (map l_def (flat_map leaves (List.concat (flat_map uc_where h))))) by (rewrite <- Kc; now apply in_map).
    apply in_map_iff in Hd as (lg & <- & Hlg). now apply Hun. }
  assert (Eh1 : hits E ps T t1 e0 = Some hs).
  { rewrite <- Eh, !hits_rows. cbn [t1 r_columns r_rows]. f_equal. apply marked_map; [|exact Lh]. intros r.
    apply accepts_same. intros c Hi. rewrite updated_tuple. now apply Hc. }
  eexists. split; [apply (Ch db t hs Edb eq_refl Eh)|]. fold t1. split.
  - rewrite E5, one_table_plain, with_same, Eh1, El. f_equal. f_equal. unfold tuples. cbn [t1 r_columns r_rows].
    rewrite !chosen_map, marked_chosen, !map_map. apply map_ext. intros r. apply updated_tuple.
  - eexists. split; [apply (Ch _ t1 hs (with_same _ _ _ _) eq_refl Eh1)|]. intros n. cbn [t1 r_columns r_rows].
    rewrite marked_twice by (intros r; apply updated_twice). fold t1. unfold with_table. now destruct (String.eqb n T).
Qed.
Print Assumptions C95_update_found.

(** age = 21 for the users with 1 < id < 4: afterwards they are found again, with the new age *)
Definition hu_after : list ucall := [USet [fv "age" (VOther 21)]; UWhere [num_cond KGt "" "id" 1]; UWhere [num_cond KLt "users" "id" 4]].
Example C95_example :
  singles (flat_map uc_set hu_after) [VOther 21] /\ Forall plain_u hu_after /\ List.concat (flat_map uc_where hu_after) <> [] /\
  (forall l, In l (flat_map leaves (List.concat (flat_map uc_where hu_after))) -> ~ In (f_name (l_def l)) ["age"]) /\
  exists b0 b o u o' db', select_from (TPName "users") = Ok b0 /\ calls b_add_where b0 (flat_map uc_where hu_after) = Ok b /\ b_build b = Ok o /\
    calls u_call (update_ (TPName "users")) hu_after = Ok u /\ u_build u = Ok o' /\
    query numbers shop (o_sql o) (o_params o) = rows [[("id", Some 2); ("age", None)]; [("id", Some 3); ("age", Some 20)]] /\
    change numbers shop (o_sql o') (o_params o') = Some db' /\
    query numbers db' (o_sql o) (o_params o) = rows [[("id", Some 2); ("age", Some 21)]; [("id", Some 3); ("age", Some 21)]].
Proof.
  split; [constructor; [reflexivity|constructor]|]. split.
  { constructor; [exact I|]. constructor; [constructor; [by_num "id"|constructor]|].
    constructor; [constructor; [by_num "users.id"|constructor]|constructor]. }
  split; [discriminate|]. split.
  { intros l [<-|[<-|[]]] [H|[]]; discriminate. }
  do 6 eexists. do 5 (split; [vm_compute; reflexivity|]). split; [vm_compute; reflexivity|]. split; [reflexivity|]. vm_compute. reflexivity.
Qed.
(** The hypothesis is needed: age = 21 for the users with age = 30, who are then not found. *)
Example C95_own_column : exists b0 b o u o' db', select_from (TPName "users") = Ok b0 /\ b_add_where b0 [age30 ""] = Ok b /\ b_build b = Ok o /\
  calls u_call (update_ (TPName "users")) [USet [fv "age" (VOther 21)]; UWhere [age30 ""]] = Ok u /\ u_build u = Ok o' /\
  query numbers shop (o_sql o) (o_params o) = rows [[("id", Some 1); ("age", Some 30)]; [("id", Some 4); ("age", Some 30)]] /\
  change numbers shop (o_sql o') (o_params o') = Some db' /\ query numbers db' (o_sql o) (o_params o) = rows [].
Proof. do 6 eexists. do 5 (split; [vm_compute; reflexivity|]). split; [vm_compute; reflexivity|]. split; [reflexivity|]. vm_compute. reflexivity. Qed.
