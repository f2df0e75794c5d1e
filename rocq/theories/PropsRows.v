(** Which rows SELECT, DELETE and UPDATE concern, in terms of the conditions passed to Where. *)
From Coq Require Import String Ascii List Bool Arith NArith ZArith Lia Permutation.
From Verif Require Import GoStr Value Names Cond Build SqlSpec Spec StrFacts SqlFacts CondFacts CondText CondSem
  TreeFacts CondLogic CondMeaning Built CondThms PropsCond NameFacts StmtFacts Calls BuildFacts BuildThms StmtText AtomFacts PropsSelect PropsAtoms PropsWrite DbSpec PropsDb.
From Verif Require PropsChain.
Import ListNotations.
Local Open Scope string_scope.
Local Open Scope nat_scope.

(** every row has a value for every column *)
Definition wide E (t : relation E) : Prop := Forall (fun r => length r = length (r_columns E t)) (r_rows E t).
(** the row [r] of table [T], as the predicates see it *)
Definition the_row E (T : string) (t : relation E) (r : list (cell E)) : row := row_of E [(label (mkItem T None), combine (r_columns E t) r)].
Definition is_true (v : tv) : bool := match v with T => true | _ => false end.
(** a column of table [T], with or without the name of the table in front *)
Definition col_of_table E (T : string) (t : relation E) (d : fdef) : Prop :=
  In (f_name d) (r_columns E t) /\ (f_table d = "" \/ f_table d = label (mkItem T None)).

Lemma assoc_some {A} c (cs : list string) (r : list A) : In c cs -> length r = length cs -> exists v, assoc c (combine cs r) = Some v.
Proof.
  revert r. induction cs as [|x cs IH]; intros [|y r] Hi Hl; try contradiction; try discriminate. cbn.
  destruct (String.eqb_spec c x) as [|N]; [eauto|]. destruct Hi as [->|Hi]; [congruence|]. apply IH; auto.
Qed.
Lemma column_found E T t d r : good_def d -> col_of_table E T t d -> length r = length (r_columns E t) ->
  exists v, column_of E [(label (mkItem T None), combine (r_columns E t) r)] (column d) = Some v.
Proof.
  intros (Hn & Ht & _) [Hi Hq] Hl. destruct (assoc_some (f_name d) (r_columns E t) r Hi Hl) as (v & Hv).
  exists v. unfold column_of, column. destruct (is_empty (f_table d)) eqn:Em.
  - rewrite (after_dot_none _ (name_ident _ Hn)). cbn [filter]. unfold has_column. cbn [snd]. rewrite Hv. exact Hv.
  - destruct Ht as [Ht|Ht]; [rewrite Ht in Em; discriminate|]. rewrite (after_dot_some _ _ (name_ident _ Ht)).
    destruct Hq as [Hq|Hq]; [rewrite Hq in Em; discriminate|]. cbn [assoc]. rewrite Hq, String.eqb_refl. exact Hv.
Qed.

(** the columns of a clause *)
Definition defs_of (c : cond) : list fdef := map l_def (leaves c).
Lemma cores_defs ls ls' : map core ls = map core ls' -> map l_def ls = map l_def ls'.
Proof.
  revert ls'. induction ls as [|l ls IH]; intros [|l' ls'] H; try discriminate; [reflexivity|]. cbn in H |- *. injection H as _ _ H _ H'. f_equal; auto.
Qed.

(** A WHERE expression whose group means [v] accepts the rows where [v] is true. *)
Lemma accepts_is E g e ps pre r v : solid g -> c_values (of_g g) = Ok ps -> reads (of_g g) (length pre) e -> means (row_of E r) (of_g g) v ->
  Forall (fun d => exists x, column_of E r (column d) = Some x) (defs_of (of_g g)) -> accepts E (pre ++ ps)%list e r = Some (is_true v).
Proof.
  intros Hg Ev Hn Hm Hc. destruct (solid_facts g Hg) as (_ & Hw & Hs & Hl). unfold accepts.
  destruct (reads_says _ _ _ _ Hw Hl Hn Ev) as [An _].
  rewrite where_columns_atoms, An, numbered_columns, (eval_reads _ g (length pre) e ps v pre Hw (Hs _) Hn Ev Hm eq_refl).
  replace (forallb _ _) with true; [now destruct v|]. symmetry. apply forallb_forall. intros c Hi.
  apply in_map_iff in Hi as (l & <- & Hi). rewrite Forall_forall in Hc. destruct (Hc (l_def l)) as (x & ->); [now apply in_map|reflexivity].
Qed.
Lemma all_some_map {A} (l : list A) : all_some (map Some l) = Some l.
Proof. induction l as [|x l IH]; cbn; [reflexivity|now rewrite IH]. Qed.

(** What was asked for: [v] is the value of the conditions [h] passed to Where, [ds] their columns. *)
Definition asked (h : list (list cond)) (v : row -> tv) (ds : list fdef) : Prop :=
  Forall (Forall regular) h /\ List.concat h <> [] /\ ds = map l_def (flat_map leaves (List.concat h)) /\
  forall g, calls group_and empty_group h = Ok g -> forall rho, means rho (of_g g) (v rho).
Lemma asked_defs h v ds g : asked h v ds -> calls group_and empty_group h = Ok g -> defs_of (of_g g) = ds.
Proof.
  intros (H1 & H2 & -> & _) E. unfold defs_of. apply cores_defs.
  assert (Hw : wanted h (Some (of_g g))).
  { split; [exact H2|]. change (CGrp AND false [] false) with (of_g empty_group). now rewrite calls_m_and, E. }
  destruct (wanted_leaves h _ (proj2 (concat_Forall _ _) H1) Hw) as (_ & K & _). exact K.
Qed.
Lemma hits_is E h v ds g e ps pre T t : asked h v ds -> calls group_and empty_group h = Ok g -> solid g ->
  c_values (of_g g) = Ok ps -> reads (of_g g) (length pre) e -> wide E t -> Forall (col_of_table E T t) ds ->
  hits E (pre ++ ps)%list T t e = Some (map (fun r => is_true (v (the_row E T t r))) (r_rows E t)).
Proof.
  intros Ha Eg Hg Ev Hn Hw Hc. rewrite hits_rows. rewrite <- all_some_map, map_map. f_equal. apply map_ext_in. intros r Hr.
  apply (accepts_is E g); auto.
  - destruct Ha as (_ & _ & _ & Hm). now apply Hm.
  - rewrite (asked_defs h v ds g Ha Eg). unfold wide in Hw. rewrite Forall_forall in Hw, Hc. apply Forall_forall. intros d Hd. apply column_found; auto.
    rewrite <- (asked_defs h v ds g Ha Eg) in Hd. unfold defs_of in Hd. apply in_map_iff in Hd as (l & <- & Hl).
    destruct (solid_facts g Hg) as (_ & _ & _ & Hgl). now destruct (Hgl l Hl).
Qed.
Lemma chosen_filter {A} (f : A -> bool) l : chosen (combine l (map f l)) = filter f l.
Proof. unfold chosen. induction l as [|x l IH]; cbn; [reflexivity|]. destruct (f x); cbn; now rewrite IH. Qed.
Lemma rejected_filter {A} (f : A -> bool) l : map fst (filter (fun rh => negb (snd rh)) (combine l (map f l))) = filter (fun x => negb (f x)) l.
Proof. induction l as [|x l IH]; cbn; [reflexivity|]. destruct (f x); cbn; now rewrite IH. Qed.
Lemma combine_map {A B C} (f : A -> B) (g : A * B -> C) l : map g (combine l (map f l)) = map (fun x => g (x, f x)) l.
Proof. induction l as [|x l IH]; cbn; [reflexivity|now rewrite IH]. Qed.

(** SELECT * FROM T, DELETE FROM T and UPDATE T with the calls [h] of Where return, remove and change exactly the rows of T for
    which [v] is true (not unknown), given that T has the columns [ds]. *)
Definition select_where (p : tparam) (T : string) (h : list (list cond)) (v : row -> tv) (ds : list fdef) : Prop :=
  exists b0 b s ps, select_from p = Ok b0 /\ calls b_add_where b0 h = Ok b /\ b_build b = Ok (mkOut s ps None) /\
  forall E db t, db T = Some t -> wide E t -> Forall (col_of_table E T t) ds ->
    query E db s ps = Some (Rows E (map (combine (r_columns E t)) (filter (fun r => is_true (v (the_row E T t r))) (r_rows E t)))).
Definition delete_where (p : tparam) (T : string) (h : list (list cond)) (v : row -> tv) (ds : list fdef) : Prop :=
  exists d s ps, calls d_add_where (delete_ p) h = Ok d /\ d_build d = Ok (mkOut s ps None) /\
  forall E db t, db T = Some t -> wide E t -> Forall (col_of_table E T t) ds -> exists db', change E db s ps = Some db' /\
    (forall n, n <> T -> db' n = db n) /\
    db' T = Some (mkRel E (r_columns E t) (filter (fun r => negb (is_true (v (the_row E T t r)))) (r_rows E t))).
Definition update_where (p : tparam) (T : string) (h : list (list cond)) (v : row -> tv) (ds : list fdef) : Prop :=
  forall hu vs, let sets := flat_map uc_set hu in let cs := map (fun x => f_name (fv_def x)) sets in
  flat_map uc_where hu = h -> sets <> [] -> singles sets vs -> Forall (fun c => name c = true) cs ->
  exists u s ps, calls u_call (update_ p) hu = Ok u /\ u_build u = Ok (mkOut s ps None) /\
  forall E db t, db T = Some t -> wide E t -> Forall (col_of_table E T t) ds -> NoDup cs -> incl cs (r_columns E t) ->
  exists db', change E db s ps = Some db' /\ (forall n, n <> T -> db' n = db n) /\
    db' T = Some (mkRel E (r_columns E t) (map (fun r => if is_true (v (the_row E T t r))
      then map (fun cv => match assoc (fst cv) (combine cs (map (stored E) vs)) with Some x => x | None => snd cv end) (combine (r_columns E t) r)
      else r) (r_rows E t))).

Lemma select_asked p T h v ds : table_p p = Ok (mkT T "") -> qname T -> asked h v ds -> select_where p T h v ds.
Proof.
  intros Et Hq Ha. destruct Ha as (H1 & H2 & H3 & H4). assert (Ha : asked h v ds) by (split; auto).
  destruct (where_state p T h Et Hq H1 H2) as (b0 & b & E0 & Eb & Hsi & Hr & Hg & I5).
  destruct (base_query b Hr) as (s & ps & we & E1 & F3 & E3 & E5). exists b0, b, s, ps. repeat (split; [assumption|]).
  intros E db t Edb Hw Hc. rewrite E5, (simple_item _ _ Hsi). destruct Hsi as (-> & -> & _). cbn [cols_item map].
  destruct (solid_facts _ Hg) as (Hne & _). specialize (F3 row0). destruct we as [e|]; [|destruct F3; contradiction].
  destruct F3 as (_ & Ev & Hre & _). rewrite one_table_plain, Edb.
  rewrite (hits_is E h v ds (b_where b) e ps [] T t Ha I5 Hg Ev Hre Hw Hc : hits E ps T t e = _).
  unfold tuples. now rewrite chosen_map, chosen_filter.
Qed.
Lemma delete_asked p T h v ds : table_p p = Ok (mkT T "") -> raw_table_name p = T -> qname T -> asked h v ds -> delete_where p T h v ds.
Proof.
  intros Et Hp Hq Ha. destruct Ha as (H1 & H2 & H3 & H4). assert (Ha : asked h v ds) by (split; auto).
  destruct (where_state p T h Et Hq H1 H2) as (b0 & b & E0 & Eb & Hsi & Hr & Hg & I5).
  destruct (d_total row0 h (delete_ p) empty_ok) as (d & Ed).
  { eapply Forall_impl; [|exact H1]. intros cs. apply regular_all. }
  destruct (d_calls_is h (delete_ p) _ [] eq_refl Ed) as (_ & J2 & J4). cbn in J2, J4. rewrite I5 in J4. injection J4 as J4.
  destruct (delete_text d (b_where b) T) as (s & e & ps & D1 & D2 & D3 & D4); auto; [now rewrite J2|now left|].
  exists d, s, ps. split; [exact Ed|]. split; [exact D1|]. intros E db t Edb Hw Hc. rewrite (change_delete _ _ D4). unfold run_delete.
  cbn [de_table de_where]. rewrite Edb, (hits_is E h v ds (b_where b) e ps [] T t Ha I5 Hg D2 D3 Hw Hc : hits E ps T t e = _), rejected_filter.
  eexists. split; [reflexivity|]. split; [intros n; apply with_other|apply with_same].
Qed.
Lemma update_asked p T h v ds : table_p p = Ok (mkT T "") -> raw_table_name p = T -> qname T -> asked h v ds -> update_where p T h v ds.
Proof.
  intros Et Hp Hq Ha hu vs sets cs Eh Hs1 Hs2 Hs3. destruct Ha as (H1 & H2 & H3 & H4). assert (Ha : asked h v ds) by (split; auto).
  destruct (where_state p T h Et Hq H1 H2) as (b0 & b & E0 & Eb & Hsi & Hr & Hg & I5).
  assert (Hu : Forall plain_u hu).
  { apply Forall_forall. intros [x|x] Hx; [exact I|]. rewrite Forall_forall in H1. apply H1. rewrite <- Eh. apply in_flat_map. exists (UWhere x). split; [exact Hx|now left]. }
  destruct (u_total row0 hu (update_ p) empty_ok (plain_u_wf _ _ Hu)) as (u & Eu).
  destruct (u_calls_is hu (update_ p) _ [] eq_refl Eu) as (_ & J2 & J3 & J4). cbn in J2, J3, J4. rewrite Eh, I5 in J4. injection J4 as J4.
  destruct (update_text u (b_where b) T sets vs) as (s & e & ps & D1 & D2 & D3 & D4); auto; [now rewrite J2|now left|].
  exists u, s, (vs ++ ps)%list. split; [exact Eu|]. split; [exact D1|]. intros E db t Edb Hw Hc Hn Hi.
  rewrite (change_update _ _ D4). unfold run_update. cbn [up_table up_where up_sets]. rewrite Edb.
  pose proof (singles_length _ _ Hs2) as Hl. change (col_names sets) with cs in *.
  rewrite map_snd_combine by (now rewrite seq_length). rewrite map_fst_combine by (now rewrite seq_length). rewrite known_incl by assumption.
  unfold params. pose proof (bind_seq [] vs ps) as Hb. cbn [app] in Hb.
  change (length (@nil gval) + 1) with 1 in Hb.
  rewrite Hb, (hits_is E h v ds (b_where b) e ps vs T t Ha I5 Hg D2 D3 Hw Hc).
  eexists. split; [reflexivity|]. split; [intros n; apply with_other|]. rewrite with_same. f_equal. f_equal. now rewrite combine_map.
Qed.

(** * C76: the rows for which the formula is true *)

Definition acts (p : tparam) (T : string) (h : list (list cond)) (v : row -> tv) (ds : list fdef) : Prop :=
  select_where p T h v ds /\ delete_where p T h v ds /\ update_where p T h v ds.
Lemma acts_asked p T h v ds : table_p p = Ok (mkT T "") -> raw_table_name p = T -> qname T -> asked h v ds -> acts p T h v ds.
Proof. intros Et Hp Hq Ha. split; [now apply select_asked|]. split; [now apply delete_asked|now apply update_asked]. Qed.

Lemma leaf_regular l : built (CLeaf l) -> good_leaf l -> regular (CLeaf l).
Proof. intros H1 H2. split; [exact H1|]. split; [exact I|]. now intros x [<-|[]]. Qed.

Lemma preds_asked h : List.concat h <> [] -> (forall l, In l (List.concat h) -> built (CLeaf l) /\ good_leaf l /\ l_join l = AND) ->
  asked (map (map CLeaf) h) (fun rho => conj3 (map (leaf_tv rho) (List.concat h))) (map l_def (List.concat h)).
Proof.
  intros Hne Hl.
  assert (Ec : List.concat (map (map CLeaf) h) = map CLeaf (List.concat h)) by (symmetry; apply concat_map).
  assert (Hr : Forall regular (map CLeaf (List.concat h))).
  { apply Forall_forall. intros c Hc. apply in_map_iff in Hc as (l & <- & Hi). destruct (Hl l Hi) as (H1 & H2 & _). now apply leaf_regular. }
  assert (Hn' : List.concat (map (map CLeaf) h) <> []) by (rewrite Ec; intros K; apply map_eq_nil in K; contradiction).
  split; [apply concat_Forall; now rewrite Ec|]. split; [exact Hn'|].
  split. { rewrite Ec. clear. induction (List.concat h) as [|l ls IH]; [reflexivity|]. cbn. now f_equal. }
  intros g Eg rho. apply (plain_wanted rho (map (map CLeaf) h)); rewrite ?Ec.
  - now apply regular_all.
  - apply Forall_forall. intros c Hc. apply in_map_iff in Hc as (l & <- & Hi). exists l. split; [reflexivity|now apply Hl].
  - clear Hr Hn' Eg Ec Hne. revert Hl. induction (List.concat h) as [|l ls IH]; intros Hl; [constructor|]. cbn. constructor.
    + now apply leafok_means, good_leaf_ok, (Hl l); left.
    + apply IH. intros x Hx. apply Hl. now right.
  - split; [exact Hn'|]. change (CGrp AND false [] false) with (of_g empty_group). now rewrite calls_m_and, Eg.
Qed.

(** predicates passed to any number of Where calls: all of them *)
Theorem C76_predicates : forall p T h, table_p p = Ok (mkT T "") -> raw_table_name p = T -> qname T -> List.concat h <> [] ->
  (forall l, In l (List.concat h) -> built (CLeaf l) /\ good_leaf l /\ l_join l = AND) ->
  acts p T (map (map CLeaf) h) (fun rho => conj3 (map (leaf_tv rho) (List.concat h))) (map l_def (List.concat h)).
Proof. intros p T h Et Hp Hq Hne Hl. apply acts_asked; auto. now apply preds_asked. Qed.
Print Assumptions C76_predicates.

(** a formula written with And, Or and Not within the rules of C70 *)
Definition shape (l : leaf) : kind * fdef * gval := (l_kind l, l_def l, l_val l).
Definition shape_of (k : kind * bool * fdef * gval) : kind * fdef * gval := let '(k, _, d, v) := k in (k, d, v).
Lemma shape_core ls : map shape ls = map shape_of (map core ls).
Proof. rewrite map_map. now apply map_ext. Qed.
Lemma leaf_cores ls : cores_l (map CLeaf ls) = map core ls.
Proof. unfold cores_l. induction ls as [|l ls IH]; [reflexivity|]. cbn [map flat_map]. rewrite IH. reflexivity. Qed.
Lemma run_shape e : forall c, PropsChain.run e = Ok c -> no_nil c /\ map shape (leaves c) = map shape (PropsChain.preds e).
Proof.
  induction e as [l|e IH|and fn e IHe d IHd|fn e IHe ls]; intros c E; cbn [PropsChain.run PropsChain.preds] in *.
  - injection E as <-. split; [constructor|reflexivity].
  - apply bind_Ok in E as (x & Ex & E). destruct (IH x Ex) as [Hx <-]. destruct (no_nil_negate true x Hx) as (c' & E' & Hc).
    unfold not_ in E. rewrite E in E'. injection E' as <-. split; [exact Hc|]. destruct x; try discriminate; cbn in E; injection E as <-; reflexivity.
  - apply bind_Ok in E as (x & Ex & E). apply bind_Ok in E as (y & Ey & E). destruct (IHe x Ex) as [Hx Sx]. destruct (IHd y Ey) as [Hy Sy].
    destruct (combined_cores x [y] c Hx) as [Hc K]; [repeat constructor; exact Hy|unfold combined; destruct and, fn; auto|].
    split; [exact Hc|]. rewrite shape_core. change (map core (leaves c)) with (cores c). rewrite K, !map_app, <- Sx, <- Sy, !shape_core.
    unfold cores_l. cbn [flat_map]. now rewrite app_nil_r.
  - apply bind_Ok in E as (x & Ex & E). destruct (IHe x Ex) as [Hx Sx].
    destruct (combined_cores x (map CLeaf ls) c Hx) as [Hc K]; [apply Forall_forall; intros z Hz; apply in_map_iff in Hz as (l & <- & _); constructor|unfold combined; destruct fn; auto|].
    split; [exact Hc|]. rewrite shape_core. change (map core (leaves c)) with (cores c). now rewrite K, leaf_cores, !map_app, <- Sx, !shape_core.
Qed.
Lemma shape_good l l' : shape l = shape l' -> good_leaf l -> good_leaf l'.
Proof. destruct l, l'. unfold shape, good_leaf. cbn. intros [= -> -> ->]. auto. Qed.
Lemma shape_defs ls ls' : map shape ls = map shape ls' -> map l_def ls = map l_def ls'.
Proof. revert ls'. induction ls as [|l ls IH]; intros [|l' ls'] H; try discriminate; [reflexivity|]. cbn in H |- *. injection H as _ H _ H'. f_equal; auto. Qed.
Lemma run_regular e c : PropsChain.kind e <> None -> (forall l, In l (PropsChain.preds e) -> built (CLeaf l) /\ good_leaf l /\ l_join l = AND) ->
  PropsChain.run e = Ok c -> regular c /\ wf c.
Proof.
  intros Hk Hl Ec. destruct (PropsChain.kind e) as [k|] eqn:Ek; [|congruence].
  destruct (PropsChain.run_ok row0 e k Ek) as (c' & Ec' & Hw & _); [intros l H; split; now apply Hl|]. rewrite Ec in Ec'. injection Ec' as <-.
  split; [|exact Hw]. split; [apply (PropsChain.run_built e); auto; intros l H; now apply Hl|]. split; [now apply PropsChain.wf_no_empty|].
  intros l Hi. destruct (run_shape e c Ec) as [_ Hsh]. apply (in_map shape) in Hi. rewrite Hsh in Hi. apply in_map_iff in Hi as (l' & Es & Hi').
  apply (shape_good l'); [exact Es|now apply Hl].
Qed.
Lemma formula_asked e : PropsChain.kind e <> None -> (forall l, In l (PropsChain.preds e) -> built (CLeaf l) /\ good_leaf l /\ l_join l = AND) ->
  exists c, PropsChain.run e = Ok c /\ asked [[c]] (fun rho => PropsChain.meant rho e) (map l_def (PropsChain.preds e)).
Proof.
  intros Hk Hl. destruct (PropsChain.C70_chain_partial row0 e Hk) as (c & Ec & _); [intros l H; split; now apply Hl|].
  destruct (run_regular e c Hk Hl Ec) as [Hr Hw]. exists c. split; [exact Ec|]. split; [constructor; [constructor; [exact Hr|constructor]|constructor]|]. split; [discriminate|].
  split. { cbn [List.concat flat_map app]. rewrite app_nil_r. apply shape_defs. symmetry. now apply run_shape. }
  intros g Eg rho. destruct (PropsChain.C70_chain_partial rho e Hk) as (c' & Ec' & Hm); [intros l H; split; now apply Hl|]. rewrite Ec in Ec'. injection Ec' as <-.
  apply (PropsChain.lone_where rho c); auto; [now apply regular_usable|].
  split; [discriminate|]. change (CGrp AND false [] false) with (of_g empty_group). now rewrite calls_m_and, Eg.
Qed.

Theorem C76_formula : forall e, PropsChain.kind e <> None ->
  (forall l, In l (PropsChain.preds e) -> built (CLeaf l) /\ good_leaf l /\ l_join l = AND) ->
  exists c, PropsChain.run e = Ok c /\ forall p T, table_p p = Ok (mkT T "") -> raw_table_name p = T -> qname T ->
    acts p T [[c]] (fun rho => PropsChain.meant rho e) (map l_def (PropsChain.preds e)).
Proof.
  intros e Hk Hl. destruct (formula_asked e Hk Hl) as (c & Ec & Ha). exists c. split; [exact Ec|]. intros p T Et Hp Hq. now apply acts_asked.
Qed.
Print Assumptions C76_formula.

(** every formula can be written so that the rows for which it is true are the ones concerned *)
Theorem C76_every_formula : forall f, (forall l, In l (PropsChain.atoms f) -> built (CLeaf l) /\ good_leaf l /\ l_join l = AND /\ l_neg l = false) ->
  exists e c, PropsChain.run e = Ok c /\ incl (PropsChain.preds e) (PropsChain.atoms f) /\
    forall p T, table_p p = Ok (mkT T "") -> raw_table_name p = T -> qname T ->
    acts p T [[c]] (fun rho => PropsChain.truth rho f) (map l_def (PropsChain.preds e)).
Proof.
  intros f Hl. destruct (PropsChain.C70_expressible f) as (e & c & Hk & Hi & Ec & Hm).
  { intros l H. now destruct (Hl l H) as (_ & H2 & H3 & H4). }
  assert (Hp : forall l, In l (PropsChain.preds e) -> built (CLeaf l) /\ good_leaf l /\ l_join l = AND).
  { intros l H. apply Hi in H. now destruct (Hl l H) as (H1 & H2 & H3 & _). }
  destruct (run_regular e c Hk Hp Ec) as [Hr Hw].
  exists e, c. split; [exact Ec|]. split; [exact Hi|]. intros p T Et Hpn Hq. apply acts_asked; auto.
  split; [constructor; [constructor; [exact Hr|constructor]|constructor]|]. split; [discriminate|].
  split. { cbn [List.concat flat_map app]. rewrite app_nil_r. apply shape_defs. symmetry. now apply run_shape. }
  intros g Eg rho. apply (PropsChain.lone_where rho c); auto; [now apply regular_usable|].
  split; [discriminate|]. change (CGrp AND false [] false) with (of_g empty_group). now rewrite calls_m_and, Eg.
Qed.
Print Assumptions C76_every_formula.

(** users of 30 whose id is not 1, and users without an age: (age = 30 AND NOT id = 1) OR age IS NULL *)
Definition p_age : leaf := mkLeaf KEq AND false (mkF "age" "" "") (VOther 30).
Definition p_id : leaf := mkLeaf KEq AND false (mkF "id" "users" "") (VOther 1).
Definition p_null : leaf := mkLeaf KNull AND false (mkF "age" "" "") VNil.
Definition e_shop : PropsChain.call :=
  PropsChain.Two false false (PropsChain.Two true false (PropsChain.Pred p_age) (PropsChain.NotC (PropsChain.Pred p_id))) (PropsChain.Pred p_null).
Lemma p_ok l : In l [p_age; p_id; p_null] -> built (CLeaf l) /\ good_leaf l /\ l_join l = AND.
Proof.
  intros [<-|[<-|[<-|[]]]].
  - split; [apply (bt_lib KEq "age" (VOther 30)); reflexivity|]. split; [|reflexivity]. split; [split; [reflexivity|split; by_name]|]. now exists (VOther 30).
  - split; [apply (bt_lib KEq "users.id" (VOther 1)); reflexivity|]. split; [|reflexivity]. split; [split; [reflexivity|split; by_name]|]. now exists (VOther 1).
  - split; [apply (bt_null "age"); reflexivity|]. split; [|reflexivity]. split; [split; [reflexivity|split; by_name]|]. exact I.
Qed.
Definition run_where : res cond := PropsChain.run e_shop.
Definition users : relation numbers := mkRel numbers ["id"; "age"] [[Some 1; Some 30]; [Some 2; None]; [Some 3; Some 20]; [Some 4; Some 30]].
Example C76_example :
  PropsChain.kind e_shop <> None /\ (forall l, In l (PropsChain.preds e_shop) -> built (CLeaf l) /\ good_leaf l /\ l_join l = AND) /\
  shop "users" = Some users /\ wide numbers users /\ Forall (col_of_table numbers "users" users) (map l_def (PropsChain.preds e_shop)) /\
  map (fun r => PropsChain.meant (the_row numbers "users" users r) e_shop) (r_rows numbers users) = [F; T; F; T] /\
  (do c <- run_where; do b <- select_from (TPName "users"); do b <- b_add_where b [c]; do o <- b_build b; Ok (o_sql o)) =
    Ok "SELECT * FROM users WHERE (age=$1 AND NOT users.id=$2) OR age IS NULL" /\
  ask (do c <- run_where; do b <- select_from (TPName "users"); do b <- b_add_where b [c]; b_build b) =
    Ok (rows [[("id", Some 2); ("age", None)]; [("id", Some 4); ("age", Some 30)]]) /\
  users_after (do c <- run_where; do d <- d_add_where (delete_ (TPName "users")) [c]; d_build d) = Ok (Some [[Some 1; Some 30]; [Some 3; Some 20]]) /\
  users_after (do c <- run_where; do u <- calls u_call (update_ (TPName "users")) [USet [fv "id" (VOther 7)]; UWhere [c]]; u_build u) =
    Ok (Some [[Some 1; Some 30]; [Some 7; None]; [Some 3; Some 20]; [Some 7; Some 30]]) /\
  (* predicates: age = 30 and id = 1 *)
  ask (do b <- select_from (TPName "users"); do b <- calls b_add_where b (map (map CLeaf) [[p_age]; [p_id]]); b_build b) =
    Ok (rows [[("id", Some 1); ("age", Some 30)]]).
Proof.
  split; [discriminate|]. split; [exact p_ok|]. split; [reflexivity|]. split; [repeat constructor|].
  split. { constructor; [split; [cbn; auto|now left]|]. constructor; [split; [cbn; auto|now right]|]. constructor; [split; [cbn; auto|now left]|constructor]. }
  split; [vm_compute; reflexivity|]. split; [vm_compute; reflexivity|]. split; [vm_compute; reflexivity|]. split; [vm_compute; reflexivity|].
  split; vm_compute; reflexivity.
Qed.

(** * C77: Where narrows any select, joined or not *)

Definition not_where_b (c : bcall) : bool := match c with BWhere _ => false | _ => true end.
Definition not_where_m (c : mcall) : bool := match c with MWhere _ => false | _ => true end.
(** The statement of the select [hb], [hm] keeps, of the rows the same select without its Where calls goes over, those for which
    [v] is true; columns, tables, joins, ordering and page are the same. *)
Definition narrows (p : tparam) (hb : list bcall) (hm : list mcall) (v : row -> tv) (ds : list fdef) : Prop :=
  exists b0 b m s ps q b' m' s' ps' q',
    select_from p = Ok b0 /\
    calls b_call b0 hb = Ok b /\ calls m_call (many_of b) hm = Ok m /\ m_build m = Ok (mkOut s ps None) /\ parse_select s = Some q /\
    calls b_call b0 (filter not_where_b hb) = Ok b' /\ calls m_call (many_of b') (filter not_where_m hm) = Ok m' /\
    m_build m' = Ok (mkOut s' ps' None) /\ parse_select s' = Some q' /\
    s_cols q = s_cols q' /\ s_from q = s_from q' /\ s_joins q = s_joins q' /\ s_order q = s_order q' /\
    amount ps (s_offset q) = amount ps' (s_offset q') /\ amount ps (s_limit q) = amount ps' (s_limit q') /\
    s_where q' = None /\
    forall E db rs, kept_rows E db ps' q' = Some rs -> (forall r d, In r rs -> In d ds -> column_of E r (column d) <> None) ->
      kept_rows E db ps q = Some (filter (fun r => is_true (v (row_of E r))) rs).

Lemma last_of_filter {A B} (f : A -> option B) (k : A -> bool) h : (forall x, k x = false -> f x = None) -> forall d, last_of f d (filter k h) = last_of f d h.
Proof.
  intros H. induction h as [|x h IH]; intros d; [reflexivity|]. cbn. destruct (k x) eqn:K; cbn; [apply IH|]. rewrite (H x K). apply IH.
Qed.
Lemma flat_map_filter {A B} (f : A -> list B) (k : A -> bool) h : (forall x, k x = false -> f x = []) -> flat_map f (filter k h) = flat_map f h.
Proof. intros H. induction h as [|x h IH]; [reflexivity|]. cbn. destruct (k x) eqn:K; cbn; [now rewrite IH|]. now rewrite (H x K). Qed.
Lemma flat_map_none {A B} (f : A -> list B) (k : A -> bool) h : (forall x, k x = true -> f x = []) -> flat_map f (filter k h) = [].
Proof. intros H. induction h as [|x h IH]; [reflexivity|]. cbn. destruct (k x) eqn:K; cbn; [|exact IH]. now rewrite (H x K). Qed.
Lemma Forall_filter {A} (P : A -> Prop) k l : Forall P l -> Forall P (filter k l).
Proof. intros H. apply Forall_forall. intros x Hx. apply filter_In in Hx as [Hx _]. rewrite Forall_forall in H. auto. Qed.

(** the state and the statement of a history *)
Lemma history p t hb hm : table_p p = Ok t -> wf_table t -> Forall plain_b hb -> Forall plain_m hm ->
  exists b0 b m s ps we, select_from p = Ok b0 /\ calls b_call b0 hb = Ok b /\ calls m_call (many_of b) hm = Ok m /\
    m_build m = Ok (mkOut s (ps ++ page_params m)%list None) /\
    m_is m t (last_of mc_fields (last_of bc_fields [] hb) hm) (flat_map bc_join hb ++ flat_map mc_join hm)
      (flat_map bc_where hb ++ flat_map mc_where hm) (flat_map mc_order hm) (last_of mc_offset 0%N hm) (last_of mc_limit (-1)%Z hm) /\
    parse_select s = Some (mkSel (cols_item (b_fields (m_base m))) (table_item (b_table (m_base m)))
      (map join_item (b_joins (m_base m))) we (map sort_item (m_order m)) (off_bound m (length ps)) (lim_bound m (length ps))) /\
    bound_where ps we /\ (forall rho, where_says rho (b_where (m_base m)) we ps).
Proof.
  intros Et Ht Hb Hm.
  destruct (base_history row0 p t hb Et Ht (plain_b_wf _ _ Hb)) as (b0 & b & E0 & Eb & Gb & Ib).
  destruct (many_history row0 p t hb hm Et Ht (plain_b_wf _ _ Hb) (plain_m_wf _ _ Hm)) as (b0' & b' & m & _ & _ & _ & _ & _ & E0' & Eb' & Em & _).
  rewrite E0 in E0'. injection E0' as <-. rewrite Eb in Eb'. injection Eb' as <-.
  pose proof (m_calls_is hm (many_of b) m t _ _ _ [] 0%N (-1)%Z (conj Ib (conj eq_refl (conj eq_refl eq_refl))) Em) as I.
  destruct (made_ready m) as [Hr Ho].
  { exists b, hm. split; [|auto]. exists p, t, b0, hb. auto. }
  destruct (many_where m Hr Ho) as (s & u & ps & we & E1 & E2 & E3 & E4 & E5).
  destruct (ready_where _ Hr) as (u' & ps1 & we1 & F1 & F2 & F3 & _). rewrite E1 in F1. injection F1 as <- <-. rewrite E2 in F2. injection F2 as <-.
  exists b0, b, m, s, ps, we. repeat (split; [assumption|]). assumption.
Qed.
Lemma narrow_asked p t hb hm v ds : table_p p = Ok t -> wf_table t -> Forall plain_b hb -> Forall plain_m hm ->
  asked (flat_map bc_where hb ++ flat_map mc_where hm) v ds -> narrows p hb hm v ds.
Proof.
  intros Et Ht Hb Hm Ha.
  destruct (history p t hb hm Et Ht Hb Hm) as (b0 & b & m & s & ps & we & E0 & Eb & Em & E1 & I & E2 & E3 & E4).
  destruct (history p t (filter not_where_b hb) (filter not_where_m hm) Et Ht (Forall_filter _ _ _ Hb) (Forall_filter _ _ _ Hm))
    as (b0' & b' & m' & s' & ps' & we' & E0' & Eb' & Em' & E1' & I' & E2' & E3' & E4').
  rewrite E0 in E0'. injection E0' as <-.
  rewrite (last_of_filter bc_fields not_where_b) in I' by (intros []; easy). rewrite (last_of_filter mc_fields not_where_m) in I' by (intros []; easy).
  rewrite (last_of_filter mc_offset not_where_m) in I' by (intros []; easy). rewrite (last_of_filter mc_limit not_where_m) in I' by (intros []; easy).
  rewrite (flat_map_filter bc_join not_where_b) in I' by (intros []; easy). rewrite (flat_map_filter mc_join not_where_m) in I' by (intros []; easy).
  rewrite (flat_map_filter mc_order not_where_m) in I' by (intros []; easy).
  rewrite (flat_map_none bc_where not_where_b) in I' by (intros []; easy). rewrite (flat_map_none mc_where not_where_m) in I' by (intros []; easy).
  destruct I as ((I1 & I2 & I3 & I4 & I5) & I6 & I7 & I8). destruct I' as ((J1 & J2 & J3 & J4 & J5) & J6 & J7 & J8).
  assert (Hg : solid (b_where (m_base m))).
  { destruct Ha as (A1 & A2 & _). exists (flat_map bc_where hb ++ flat_map mc_where hm)%list. split; [exact I5|]. split; [now apply concat_Forall|exact A2]. }
  destruct (solid_facts _ Hg) as (Hne & _). pose proof (E4 row0) as Ew. destruct we as [e|]; [|destruct Ew; contradiction].
  destruct Ew as (_ & Ev & Hre & _).
  assert (we' = None) as ->.
  { specialize (E4' row0). destruct we' as [e'|]; [|reflexivity]. destruct E4' as (K & _). cbn in J5. injection J5 as J5. rewrite <- J5 in K. now destruct K. }
  eexists b0, b, m, s, _, _, b', m', s', _, _. split; [exact E0|]. split; [exact Eb|]. split; [exact Em|]. split; [exact E1|]. split; [exact E2|].
  split; [exact Eb'|]. split; [exact Em'|]. split; [exact E1'|]. split; [exact E2'|].
  cbn [s_cols s_from s_joins s_order s_offset s_limit s_where]. rewrite !amount_off, !amount_lim, I2, I3, I4, I6, I7, I8, J2, J3, J4, J6, J7, J8.
  repeat (split; [reflexivity|]). intros E db rs K Hc. unfold kept_rows in *. cbn [s_from s_joins s_where where_rows] in *.
  destruct (from_rows E db _ _) as [rows|]; [|discriminate]. injection K as ->.
  replace (map (accepts E (ps ++ page_params m)%list e) rs) with (map (fun r => Some (is_true (v (row_of E r)))) rs).
  - rewrite <- map_map with (f := fun r => is_true (v (row_of E r))) (g := Some), all_some_map, chosen_filter. reflexivity.
  - apply map_ext_in. intros r Hr. rewrite accepts_post by exact E3. symmetry.
    apply (accepts_is E (b_where (m_base m)) e ps []); auto.
    + destruct Ha as (_ & _ & _ & A4). now apply A4.
    + rewrite (asked_defs _ v ds _ Ha I5). apply Forall_forall. intros d Hd. specialize (Hc r d Hr Hd). destruct (column_of E r (column d)); [eauto|congruence].
Qed.

Theorem C77_predicates : forall p t hb hm h, table_p p = Ok t -> wf_table t -> Forall plain_b hb -> Forall plain_m hm ->
  (flat_map bc_where hb ++ flat_map mc_where hm)%list = map (map CLeaf) h -> List.concat h <> [] ->
  (forall l, In l (List.concat h) -> built (CLeaf l) /\ good_leaf l /\ l_join l = AND) ->
  narrows p hb hm (fun rho => conj3 (map (leaf_tv rho) (List.concat h))) (map l_def (List.concat h)).
Proof. intros p t hb hm h Et Ht Hb Hm Eh Hne Hl. apply (narrow_asked p t); auto. rewrite Eh. now apply preds_asked. Qed.
Print Assumptions C77_predicates.

Theorem C77_formula : forall e, PropsChain.kind e <> None ->
  (forall l, In l (PropsChain.preds e) -> built (CLeaf l) /\ good_leaf l /\ l_join l = AND) ->
  exists c, PropsChain.run e = Ok c /\ forall p t hb hm, table_p p = Ok t -> wf_table t ->
    (flat_map bc_where hb ++ flat_map mc_where hm)%list = [[c]] ->
    Forall (fun x => not_where_b x = true -> plain_b x) hb -> Forall (fun x => not_where_m x = true -> plain_m x) hm ->
    narrows p hb hm (fun rho => PropsChain.meant rho e) (map l_def (PropsChain.preds e)).
Proof.
  intros e Hk Hl. destruct (formula_asked e Hk Hl) as (c & Ec & Ha). exists c. split; [exact Ec|].
  destruct (run_regular e c Hk Hl Ec) as [Hr _]. intros p t hb hm Et Ht Eh Hb Hm.
  assert (Hc : forall cs, In cs (flat_map bc_where hb ++ flat_map mc_where hm)%list -> Forall regular cs).
  { intros cs. rewrite Eh. intros [<-|[]]. constructor; [exact Hr|constructor]. }
  apply (narrow_asked p t); auto; [| |now rewrite Eh].
  - apply Forall_forall. intros x Hx. rewrite Forall_forall in Hb. specialize (Hb x Hx). destruct x as [fs|cs|? ? ? ?]; try (now apply Hb).
    apply Hc, in_app_iff. left. apply in_flat_map. exists (BWhere cs). split; [exact Hx|now left].
  - apply Forall_forall. intros x Hx. rewrite Forall_forall in Hm. specialize (Hm x Hx). destruct x as [|cs| | | |]; try (now apply Hm).
    apply Hc, in_app_iff. right. apply in_flat_map. exists (MWhere cs). split; [exact Hx|now left].
Qed.
Print Assumptions C77_formula.

(** the select of C71 without its condition, narrowed to total < 9 or no total *)
Definition hb_joined (c : cond) : list bcall :=
  [BFields [mkF "id" "u" ""; mkF "total" "o" "sum"]; BJoin (mkT "orders" "o") 1 (mkF "id" "u" "") (mkF "uid" "o" ""); BWhere [c]].
Definition e_total : PropsChain.call :=
  PropsChain.Two false false (PropsChain.Pred (mkLeaf KLt AND false (mkF "total" "o" "") (VOther 9))) (PropsChain.Pred (mkLeaf KNull AND false (mkF "total" "" "") VNil)).
Example C77_example : exists c, PropsChain.run e_total = Ok c /\ PropsChain.kind e_total <> None /\
  Forall (fun x => not_where_b x = true -> plain_b x) (hb_joined c) /\
  ask (do b <- select_from (TPStr "users u"); do b <- calls b_call b (filter not_where_b (hb_joined c)); m_build (many_of b)) =
    Ok (rows [[("id", Some 1); ("sum", Some 7)]; [("id", Some 1); ("sum", Some 5)]; [("id", Some 2); ("sum", None)]; [("id", Some 3); ("sum", Some 9)]; [("id", Some 4); ("sum", None)]]) /\
  ask (do b <- select_from (TPStr "users u"); do b <- calls b_call b (hb_joined c); m_build (many_of b)) =
    Ok (rows [[("id", Some 1); ("sum", Some 7)]; [("id", Some 1); ("sum", Some 5)]; [("id", Some 2); ("sum", None)]; [("id", Some 4); ("sum", None)]]).
Proof.
  eexists. split; [vm_compute; reflexivity|]. split; [discriminate|]. split; [|split; vm_compute; reflexivity].
  constructor; [intros _; constructor; [by_field|constructor; [by_field|constructor]]|].
  constructor; [intros _; split; [split; [constructor; reflexivity|by_name]|]; split; [simpl; lia|]; repeat split|].
  constructor; [discriminate|constructor].
Qed.

(** * C78: an inserted row is found again *)

(** If the engine finds a stored value equal to the parameter it was stored from, then selecting by equality with (some of) the
    inserted values returns the new row: the last of the result. *)
Lemma assoc_mapped {A} c (cs : list string) (f : string -> A) : In c cs -> assoc c (combine cs (map f cs)) = Some (f c).
Proof.
  induction cs as [|x cs IH]; intros H; [contradiction|]. cbn. destruct (String.eqb_spec c x) as [->|N]; [reflexivity|].
  destruct H as [->|H]; [congruence|auto].
Qed.
Lemma stored_at E sets vs d w : singles sets vs -> NoDup (map (fun x => f_name (fv_def x)) sets) -> In (mkFV d w) sets ->
  exists v, bound_values w = Some [v] /\ In v vs /\
    assoc (f_name d) (combine (map (fun x => f_name (fv_def x)) sets) (map (stored E) vs)) = Some (stored E v).
Proof.
  intros H. induction H as [|x v sets vs Hx H IH]; intros Hn Hi; [contradiction|]. cbn in Hn |- *. inversion Hn as [|? ? Hn1 Hn2]; subst.
  destruct Hi as [->|Hi].
  - exists v. split; [exact Hx|]. split; [now left|]. cbn. now rewrite String.eqb_refl.
  - destruct (IH Hn2 Hi) as (v' & K1 & K2 & K3). exists v'. split; [exact K1|]. split; [now right|].
    destruct (String.eqb_spec (f_name d) (f_name (fv_def x))) as [K|K]; [|exact K3].
    destruct Hn1. rewrite <- K. now apply (in_map (fun x => f_name (fv_def x)) _ (mkFV d w)).
Qed.
Theorem C78_read_back : forall p T sets vs ls, table_p p = Ok (mkT T "") -> raw_table_name p = T -> qname T ->
  sets <> [] -> singles sets vs -> Forall (fun c => name c = true) (map (fun x => f_name (fv_def x)) sets) -> NoDup (map (fun x => f_name (fv_def x)) sets) ->
  ls <> [] -> (forall l, In l ls -> built (CLeaf l) /\ l_kind l = KEq /\ l_join l = AND /\ l_neg l = false /\
     f_table (l_def l) = "" /\ f_alias (l_def l) = "" /\ In (mkFV (l_def l) (l_val l)) sets) ->
  exists i s b0 b s' ps', calls i_call (insert_into p) [sets] = Ok i /\ i_build i = Ok (mkOut s vs None) /\
    select_from p = Ok b0 /\ b_add_where b0 (map CLeaf ls) = Ok b /\ b_build b = Ok (mkOut s' ps' None) /\
    forall E db t, db T = Some t -> wide E t -> incl (map (fun x => f_name (fv_def x)) sets) (r_columns E t) ->
      (forall v, In v vs -> holds E AEq (stored E v) [v] = SqlSpec.T) ->
      exists db' t' l r, change E db s vs = Some db' /\ db' T = Some t' /\
        r_rows E t' = (r_rows E t ++ [r])%list /\ query E db' s' ps' = Some (Rows E (l ++ [combine (r_columns E t) r])) /\
        query E db s' ps' = Some (Rows E l).
Proof.
  intros p T sets vs ls Et Hp Hq Hs1 Hs2 Hs3 Hnd Hls Hl.
  assert (Hgl : forall l, In l (List.concat [ls]) -> built (CLeaf l) /\ good_leaf l /\ l_join l = AND).
  { cbn. rewrite app_nil_r. intros l Hi. destruct (Hl l Hi) as (L1 & L2 & L3 & L4 & L5 & L6 & L7). split; [exact L1|]. split; [|exact L3].
    destruct (stored_at numbers sets vs _ _ Hs2 Hnd L7) as (v & K1 & _). split; [|rewrite L2; eauto]. split; [|auto].
    rewrite Forall_forall in Hs3. apply Hs3. now apply (in_map (fun x => f_name (fv_def x)) _ (mkFV (l_def l) (l_val l))). }
  assert (Hc : List.concat [ls] <> []) by (cbn; now rewrite app_nil_r).
  destruct (select_asked p T (map (map CLeaf) [ls]) _ _ Et Hq (preds_asked [ls] Hc Hgl)) as (b0 & b & s' & ps' & F1 & F2 & F3 & F4).
  destruct (C75_insert p T [sets] vs) as (i & s & G1 & G2 & G3); auto; rewrite ?app_nil_r; cbn [List.concat]; rewrite ?app_nil_r; auto.
  cbn [List.concat] in G3. rewrite app_nil_r in G3.
  exists i, s, b0, b, s', ps'. split; [exact G1|]. split; [exact G2|]. split; [exact F1|]. cbn [map calls] in F2.
  destruct (b_add_where b0 (map CLeaf ls)) as [b1|] eqn:Eb; [|discriminate]. cbn in F2. injection F2 as ->.
  split; [reflexivity|]. split; [exact F3|]. intros E db t Edb Hw Hi Hh.
  destruct (G3 E db t Edb Hnd Hi) as (db' & D1 & _ & D3).
  set (cs := map (fun x => f_name (fv_def x)) sets) in *. set (r := new_row E (r_columns E t) cs vs) in *.
  assert (Hcols : Forall (col_of_table E T t) (map l_def (List.concat [ls]))).
  { cbn. rewrite app_nil_r. apply Forall_forall. intros d Hd. apply in_map_iff in Hd as (l & <- & Hin). destruct (Hl l Hin) as (_ & _ & _ & _ & L5 & _ & L7).
    split; [|now left]. apply Hi. now apply (in_map (fun x => f_name (fv_def x)) _ (mkFV (l_def l) (l_val l))). }
  assert (Hw' : wide E (mkRel E (r_columns E t) (r_rows E t ++ [r]))).
  { apply Forall_app. split; [exact Hw|]. constructor; [|constructor]. unfold r, new_row. cbn. apply map_length. }
  pose proof (F4 E db t Edb Hw Hcols) as Q. pose proof (F4 E db' _ D3 Hw' Hcols) as Q'. cbn [r_columns r_rows] in Q'.
  eexists db', _, _, r. split; [exact D1|]. split; [exact D3|]. split; [reflexivity|]. split; [|exact Q].
  rewrite Q', filter_app, map_app. f_equal. f_equal. f_equal. cbn [filter].
  replace (is_true _) with true; [reflexivity|]. symmetry. cbn [List.concat]. rewrite app_nil_r.
  assert (K : forall l, In l ls -> leaf_tv (the_row E T (mkRel E (r_columns E t) (r_rows E t ++ [r])) r) l = SqlSpec.T).
  { intros l Hin. destruct (Hl l Hin) as (_ & L2 & _ & L4 & L5 & _ & L7). destruct (stored_at E sets vs _ _ Hs2 Hnd L7) as (v & K1 & K2 & K3).
    unfold leaf_tv, leaf_args. rewrite L2, L4, K1. cbn [aop_of]. unfold the_row, row_of, column_of, column. rewrite L5. cbn [is_empty r_columns].
    assert (Hin' : In (f_name (l_def l)) cs) by (now apply (in_map (fun x => f_name (fv_def x)) _ (mkFV (l_def l) (l_val l)))).
    rewrite after_dot_none by (apply name_ident; rewrite Forall_forall in Hs3; now apply Hs3).
    assert (Ha : assoc (f_name (l_def l)) (combine (r_columns E t) r) = Some (stored E v)).
    { unfold r, new_row. rewrite assoc_mapped by (now apply Hi). unfold cs. now rewrite K3. }
    cbn [filter]. unfold has_column. cbn [snd]. rewrite Ha. rewrite Ha. now apply Hh. }
  replace (conj3 _) with SqlSpec.T; [reflexivity|]. symmetry. clear - K. induction ls as [|l ls IH]; [reflexivity|]. cbn [map conj3 fold_right].
  change (and3 (leaf_tv (the_row E T (mkRel E (r_columns E t) (r_rows E t ++ [r])) r) l) (conj3 (map (leaf_tv (the_row E T (mkRel E (r_columns E t) (r_rows E t ++ [r])) r)) ls)) = SqlSpec.T).
  rewrite (K l) by (now left). rewrite IH; [reflexivity|]. intros x Hx. apply K. now right.
Qed.
Print Assumptions C78_read_back.

Definition new_user : list fvalue := [mkFV (mkF "age" "" "") (VOther 40); mkFV (mkF "id" "" "") (VOther 5)].
Definition find_user : list leaf := [mkLeaf KEq AND false (mkF "id" "" "") (VOther 5)].
Example C78_example :
  (forall v, In v [VOther 40; VOther 5] -> holds numbers AEq (stored numbers v) [v] = SqlSpec.T) /\
  singles new_user [VOther 40; VOther 5] /\
  (forall l, In l find_user -> built (CLeaf l) /\ l_kind l = KEq /\ l_join l = AND /\ l_neg l = false /\
     f_table (l_def l) = "" /\ f_alias (l_def l) = "" /\ In (mkFV (l_def l) (l_val l)) new_user) /\
  exists s ps db', (do i <- calls i_call (insert_into (TPName "users")) [new_user]; i_build i) = Ok (mkOut s ps None) /\
    change numbers shop s ps = Some db' /\
    (do b <- select_from (TPName "users"); do b <- b_add_where b (map CLeaf find_user); do o <- b_build b; Ok (query numbers db' (o_sql o) (o_params o))) =
      Ok (rows [[("id", Some 5); ("age", Some 40)]]) /\
    ask (do b <- select_from (TPName "users"); do b <- b_add_where b (map CLeaf find_user); b_build b) = Ok (rows []).
Proof.
  split; [intros v [<-|[<-|[]]]; reflexivity|]. split; [repeat constructor|]. split.
  - intros l [<-|[]]. split; [apply (bt_lib KEq "id" (VOther 5)); reflexivity|]. repeat (split; [reflexivity|]). right. now left.
  - do 3 eexists. split; [vm_compute; reflexivity|]. split; [vm_compute; reflexivity|]. split; vm_compute; reflexivity.
Qed.
