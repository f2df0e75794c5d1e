(** What joined selects return when a database (DbSpec.v) executes them. *)
From Coq Require Import String Ascii List Bool Arith NArith ZArith Lia Permutation.
From Verif Require Import GoStr Value Names Cond Build Surface SqlSpec Spec StrFacts SqlFacts CondFacts CondText CondSem
  TreeFacts CondLogic CondMeaning Built CondThms PropsCond NameFacts StmtFacts Calls BuildFacts BuildThms StmtText AtomFacts PropsSelect PropsAtoms PropsWrite DbSpec PropsDb.
Import ListNotations.
Local Open Scope string_scope.
Local Open Scope nat_scope.

(** * What a join of two tables should return *)

(** Written without DbSpec's join: rows of the left and the right table are put side by side if
    the two columns are equal; a row without partner is kept beside NULLs on the side(s) the join
    keeps. *)
Section Joined.
  Variable E : engine.
  Variables (A B : relation E) (ca cb : string).
  Definition value (c : string) (t : tuple E) : cell E := match assoc c t with Some v => v | None => null E end.
  Definition meets (x y : tuple E) : bool := match same E (value ca x) (value cb y) with T => true | _ => false end.
  Definition no_left : tuple E := map (fun c => (c, null E)) (r_columns E A).
  Definition no_right : tuple E := map (fun c => (c, null E)) (r_columns E B).
  Definition partners (x : tuple E) : list (tuple E) := filter (meets x) (tuples E B).
  Definition lonely_right : list (tuple E) := filter (fun y => forallb (fun x => negb (meets x y)) (tuples E A)) (tuples E B).
  Definition inner_rows : list (tuple E) := flat_map (fun x => map (fun y => x ++ y)%list (partners x)) (tuples E A).
  Definition left_rows : list (tuple E) :=
    flat_map (fun x => match partners x with [] => [(x ++ no_right)%list] | ys => map (fun y => x ++ y)%list ys end) (tuples E A).
  Definition right_only : list (tuple E) := map (fun y => no_left ++ y)%list lonely_right.
  (** join types in the order of the constants of join_type.go: inner, left, right, full *)
  Definition joined (jt : Z) : list (tuple E) :=
    match jt with
    | 0%Z => inner_rows
    | 1%Z => left_rows
    | 2%Z => (inner_rows ++ right_only)%list
    | _ => (left_rows ++ right_only)%list
    end.
End Joined.

(** every row of the table has a value in each column, and the column exists *)
Definition table_ok E (t : relation E) (c : string) : Prop :=
  In c (r_columns E t) /\ Forall (fun r => length r = length (r_columns E t)) (r_rows E t).
Lemma assoc_combine {A} c cs (r : list A) : In c cs -> length r = length cs -> exists v, assoc c (combine cs r) = Some v.
Proof.
  revert r. induction cs as [|k cs IH]; intros r I L; [destruct I|]. destruct r as [|x r]; [discriminate|]. cbn [combine assoc].
  destruct (String.eqb_spec c k); [eauto|]. destruct I as [->|I]; [congruence|]. apply IH; [exact I|cbn in L; lia].
Qed.
Lemma table_value E t c x : table_ok E t c -> In x (tuples E t) -> assoc c x = Some (value E c x).
Proof.
  intros [I L] X. unfold tuples in X. apply in_map_iff in X as (r & <- & R). rewrite Forall_forall in L.
  destruct (assoc_combine c (r_columns E t) r I (L r R)) as [v V]. unfold value. now rewrite V.
Qed.

(** * The database's join *)
Lemma all_some_some {A B} (f : A -> option B) g l : (forall x, In x l -> f x = Some (g x)) -> all_some (map f l) = Some (map g l).
Proof.
  induction l as [|x l IH]; intros H; [reflexivity|]. cbn [map all_some]. rewrite (H x (or_introl eq_refl)), IH; [reflexivity|]. intros y Y. apply H. now right.
Qed.
Lemma chosen_filter {A} (f : A -> bool) l : chosen (combine l (map f l)) = filter f l.
Proof. unfold chosen. induction l as [|x l IH]; [reflexivity|]. cbn. destruct (f x); cbn; now rewrite IH. Qed.
Lemma chosen_map {A} (f : A -> bool) l : chosen (map (fun x => (x, f x)) l) = filter f l.
Proof. unfold chosen. induction l as [|x l IH]; [reflexivity|]. cbn. destruct (f x); cbn; now rewrite IH. Qed.
Lemma nth_seq {A} (d : A) l : map (fun k => nth k l d) (seq 0 (length l)) = l.
Proof.
  induction l as [|x l IH]; [reflexivity|]. cbn [length seq map nth]. f_equal. rewrite <- seq_shift, map_map. exact IH.
Qed.
Lemma existsb_negb {A} (f : A -> bool) l : negb (existsb f l) = forallb (fun x => negb (f x)) l.
Proof. induction l as [|x l IH]; [reflexivity|]. cbn. now rewrite negb_orb, IH. Qed.

Lemma F2_length {A B} (R : A -> B -> Prop) l l' : Forall2 R l l' -> length l = length l'.
Proof. induction 1; cbn; congruence. Qed.
Lemma map_flat_map {A B C} (f : B -> C) (g : A -> list B) l : map f (flat_map g l) = flat_map (fun x => map f (g x)) l.
Proof. induction l as [|x l IH]; [reflexivity|]. cbn. now rewrite map_app, IH. Qed.
Lemma forallb_map_c {A B} (f : B -> bool) (g : A -> B) l : forallb f (map g l) = forallb (fun x => f (g x)) l.
Proof. induction l as [|x l IH]; [reflexivity|]. cbn. now rewrite IH. Qed.
Lemma forallb_ext_c {A} (f g : A -> bool) l : (forall x, f x = g x) -> forallb f l = forallb g l.
Proof. intros H. induction l as [|x l IH]; [reflexivity|]. cbn. now rewrite H, IH. Qed.

Section Db.
  Variable E : engine.
  Variables (A B : relation E) (na nb ca cb : string).
  Hypothesis na_name : name na = true.
  Hypothesis nb_name : name nb = true.
  Hypothesis differ : na <> nb.
  Hypothesis A_ok : table_ok E A ca.
  Hypothesis B_ok : table_ok E B cb.
  Lemma left_column x y : In x (tuples E A) -> column_of E [(na, x); (nb, y)] (na ++ "." ++ ca) = Some (value E ca x).
  Proof. intros X. unfold column_of. rewrite (after_dot_some _ _ (name_ident _ na_name)). cbn [assoc]. rewrite String.eqb_refl. exact (table_value E A ca x A_ok X). Qed.
  Lemma right_column x y : In y (tuples E B) -> column_of E [(na, x); (nb, y)] (nb ++ "." ++ cb) = Some (value E cb y).
  Proof.
    intros Y. unfold column_of. rewrite (after_dot_some _ _ (name_ident _ nb_name)). cbn [assoc].
    destruct (String.eqb_spec nb na); [congruence|]. rewrite String.eqb_refl. exact (table_value E B cb y B_ok Y).
  Qed.
  (** [m x y]: the verdict of the ON condition on a pair *)
  Lemma join_rows_are jt tb l r (m : tuple E -> tuple E -> bool) : (0 <= jt <= 3)%Z -> label tb = nb ->
    (forall x y, In x (tuples E A) -> In y (tuples E B) -> on E (mkSJ (join_word jt) tb l r) [(na, x); (nb, y)] = Some (m x y)) ->
    let keep_left := (jt =? 1)%Z || (jt =? 3)%Z in let keep_right := (jt =? 2)%Z || (jt =? 3)%Z in
    join_rows E [(na, A)] B (mkSJ (join_word jt) tb l r) (map (fun u => [(na, u)]) (tuples E A)) =
    Some (flat_map (fun x => match filter (m x) (tuples E B) with
                             | [] => if keep_left then [[(na, x); (nb, no_right E B)]] else []
                             | ys => map (fun y => [(na, x); (nb, y)]) ys
                             end) (tuples E A) ++
          (if keep_right then map (fun y => [(na, no_left E A); (nb, y)]) (filter (fun y => forallb (fun x => negb (m x y)) (tuples E A)) (tuples E B)) else []))%list.
  Proof.
    intros J Lb O. cbv zeta. unfold join_rows, verdicts. cbn [sj_table sj_kind]. rewrite Lb. rewrite map_map.
    rewrite (all_some_some _ (fun x => map (m x) (tuples E B))).
    2: { intros x X. apply (all_some_some _ (m x)). intros y Y. cbn [app]. exact (O x y X Y). }
    assert (KL : existsb (String.eqb (join_word jt)) ["LEFT"; "FULL"] = (jt =? 1)%Z || (jt =? 3)%Z).
    { assert (jt = 0 \/ jt = 1 \/ jt = 2 \/ jt = 3)%Z as [->|[->|[->| ->]]] by lia; reflexivity. }
    assert (KR : existsb (String.eqb (join_word jt)) ["RIGHT"; "FULL"] = (jt =? 2)%Z || (jt =? 3)%Z).
    { assert (jt = 0 \/ jt = 1 \/ jt = 2 \/ jt = 3)%Z as [->|[->|[->| ->]]] by lia; reflexivity. }
    rewrite KL, KR. f_equal. f_equal.
    - rewrite !flat_map_concat_map. f_equal. clear O. induction (tuples E A) as [|x la IH]; [reflexivity|].
      cbn [map combine]. f_equal; [|exact IH]. cbn [fst snd]. rewrite chosen_filter. destruct (filter (m x) (tuples E B)); [|reflexivity].
      destruct (_ || _); reflexivity.
    - destruct ((jt =? 2)%Z || (jt =? 3)%Z); [|reflexivity]. cbn [null_row map fst snd app]. f_equal.
      transitivity (chosen (map (fun y => (y, forallb (fun x => negb (m x y)) (tuples E A))) (tuples E B))); [|apply chosen_map].
      f_equal. set (P := fun y : tuple E => forallb (fun x => negb (m x y)) (tuples E A)).
      transitivity (map (fun y => (y, P y)) (map (fun k => nth k (tuples E B) []) (seq 0 (length (tuples E B))))); [|now rewrite nth_seq]. rewrite map_map. apply map_ext_in. intros k Hk. apply in_seq in Hk. f_equal.
      rewrite existsb_negb. unfold P. rewrite forallb_map_c. apply forallb_ext_c. intros x. f_equal.
      rewrite (nth_indep _ false (m x [])) by (rewrite map_length; lia). apply map_nth.
  Qed.

  Lemma on_left x y jt tb : In x (tuples E A) -> In y (tuples E B) ->
    on E (mkSJ jt tb (na ++ "." ++ ca) (nb ++ "." ++ cb)) [(na, x); (nb, y)] = Some (meets E ca cb x y).
  Proof. intros X Y. unfold on. cbn [sj_left sj_right]. now rewrite left_column, right_column. Qed.
  Lemma on_right x y jt tb : (forall a b, same E a b = same E b a) -> In x (tuples E A) -> In y (tuples E B) ->
    on E (mkSJ jt tb (nb ++ "." ++ cb) (na ++ "." ++ ca)) [(na, x); (nb, y)] = Some (meets E ca cb x y).
  Proof. intros S X Y. unfold on. cbn [sj_left sj_right]. rewrite left_column, right_column by assumption. rewrite S. reflexivity. Qed.

  Lemma star_rows (rows : list (frow E)) : all_some (map (output E Star) rows) = Some (map (fun r => List.concat (map snd r)) rows).
  Proof. apply all_some_some. reflexivity. Qed.
  (** the rows of the join with their columns side by side *)
  Lemma joined_is jt : (0 <= jt <= 3)%Z -> map (fun r : frow E => List.concat (map snd r))
    (flat_map (fun x => match filter (meets E ca cb x) (tuples E B) with
                        | [] => if (jt =? 1)%Z || (jt =? 3)%Z then [[(na, x); (nb, no_right E B)]] else []
                        | ys => map (fun y => [(na, x); (nb, y)]) ys
                        end) (tuples E A) ++
     (if (jt =? 2)%Z || (jt =? 3)%Z
      then map (fun y => [(na, no_left E A); (nb, y)]) (filter (fun y => forallb (fun x => negb (meets E ca cb x y)) (tuples E A)) (tuples E B))
      else []))%list = joined E A B ca cb jt.
  Proof.
    intros J. rewrite map_app.
    assert (IN : forall b : bool, map (fun r : frow E => List.concat (map snd r)) (flat_map (fun x => match filter (meets E ca cb x) (tuples E B) with
        | [] => if b then [[(na, x); (nb, no_right E B)]] else [] | ys => map (fun y => [(na, x); (nb, y)]) ys end) (tuples E A)) =
        if b then left_rows E A B ca cb else inner_rows E A B ca cb).
    { intros b. rewrite map_flat_map. unfold left_rows, inner_rows, partners.
      destruct b; apply flat_map_ext; intros x; destruct (filter _ _) as [|y ys]; cbn [map snd List.concat app]; rewrite ?app_nil_r; try reflexivity;
        f_equal; rewrite map_map; apply map_ext; intros z; cbn [map snd List.concat]; now rewrite app_nil_r. }
    rewrite IN.
    assert (RI : map (fun r : frow E => List.concat (map snd r)) (map (fun y => [(na, no_left E A); (nb, y)])
        (filter (fun y => forallb (fun x => negb (meets E ca cb x y)) (tuples E A)) (tuples E B))) = right_only E A B ca cb).
    { unfold right_only, lonely_right. rewrite map_map. apply map_ext. intros z. cbn [map snd List.concat]. now rewrite app_nil_r. }
    assert (jt = 0 \/ jt = 1 \/ jt = 2 \/ jt = 3)%Z as [->|[->|[->| ->]]] by lia; cbn [Z.eqb Pos.eqb orb joined]; [now rewrite app_nil_r|now rewrite app_nil_r|f_equal; exact RI|f_equal; exact RI].
  Qed.
End Db.

(** * C89: a join relates the rows with equal columns *)

(** the columns that On compares, in either order; if the second is named first, the engine's equality has to be symmetric *)
Definition compares E (l r : fdef) (na nb ca cb : string) : Prop :=
  (f_table l = na /\ f_name l = ca /\ f_table r = nb /\ f_name r = cb) \/
  (f_table l = nb /\ f_name l = cb /\ f_table r = na /\ f_name r = ca /\ forall a b, same E a b = same E b a).

Lemma join_query p ta tb jt l r : table_p p = Ok ta -> wf_table ta -> wf_join (mkJ tb jt (mkJC l r)) ->
  exists b0 b s, select_from p = Ok b0 /\ b_join b0 tb jt l r = Ok b /\ b_build b = Ok (mkOut s [] None) /\
    parse_select s = Some (mkSel Star (table_item ta) [join_item (mkJ tb jt (mkJC l r))] None [] None None).
Proof.
  intros Et Ht Hj. destruct (select_from_total p ta Et) as (b0 & E0 & I0). exists b0.
  assert (exists b, b_join b0 tb jt l r = Ok b) as (b & Eb).
  { destruct I0 as (_ & _ & _ & I4 & _). unfold b_join, Build.b_on, b_join_open. cbn [b_joins b_set_joins]. rewrite I4. eexists. reflexivity. }
  assert (M : made_b b). { exists p, ta, b0, [BJoin tb jt l r]. refine (conj Et (conj Ht (conj _ (conj E0 _)))); [constructor; [exact Hj|constructor]|]. cbn. now rewrite Eb. }
  pose proof (b_call_is _ (BJoin tb jt l r) _ _ _ _ _ I0 Eb) as (_ & J2 & J3 & J4 & J5). cbn in J3, J4, J5. injection J5 as J5.
  destruct (ready_where b (made_b_ready b M)) as (s & ps & we & B1 & B2 & B3 & _). specialize (B3 row0).
  destruct we as [e|]; [destruct B3 as (N & _); rewrite <- J5 in N; now destruct N|]. destruct B3 as [_ ->].
  exists b, s. split; [exact E0|]. split; [exact Eb|]. split; [exact B1|]. rewrite B2. unfold base_sel. now rewrite J2, J3, J4.
Qed.
Lemma label_name t : wf_table t -> name (label (table_item t)) = true.
Proof.
  intros [Hq Ha]. unfold label, table_item. cbn [it_alias it_text].
  destruct (is_empty (t_alias t) || String.eqb (t_alias t) (t_name t)) eqn:K.
  - destruct Hq as [n Hn|q n Hq Hn]; [now rewrite (after_dot_none _ (name_ident _ Hn))|now rewrite (after_dot_some _ _ (name_ident _ Hq))].
  - apply orb_false_iff in K as [K _]. destruct Ha as [Ha|Ha]; [rewrite Ha in K; discriminate|exact Ha].
Qed.

Theorem C89_joined p ta tb jt l r : table_p p = Ok ta -> wf_table ta -> wf_join (mkJ tb jt (mkJC l r)) ->
  label (table_item ta) <> label (table_item tb) ->
  exists b0 b s, select_from p = Ok b0 /\ b_join b0 tb jt l r = Ok b /\ b_build b = Ok (mkOut s [] None) /\
    forall E db A B ca cb, db (t_name ta) = Some A -> db (t_name tb) = Some B -> table_ok E A ca -> table_ok E B cb ->
      compares E l r (label (table_item ta)) (label (table_item tb)) ca cb ->
      query E db s [] = Some (Rows E (joined E A B ca cb jt)).
Proof.
  intros Et Ht Hj D. destruct (join_query p ta tb jt l r Et Ht Hj) as (b0 & b & s & E0 & Eb & Es & Ep).
  exists b0, b, s. refine (conj E0 (conj Eb (conj Es _))). intros E db A B ca cb HA HB OA OB C.
  pose proof (proj1 Hj) as Hb. pose proof (proj1 (proj2 Hj)) as J. cbn [j_right j_type] in Hb, J.
  unfold query. rewrite Ep. unfold run_select, kept_rows, from_rows. cbn [s_from s_joins s_where s_cols s_order s_offset s_limit amount].
  change (it_text (table_item ta)) with (t_name ta). rewrite HA. unfold join_item. cbn [map sj_table j_right j_type j_cond jc_left jc_right join_all].
  assert (D' : distinct [label (table_item ta); label (table_item tb)] = true).
  { cbn. destruct (String.eqb_spec (label (table_item ta)) (label (table_item tb))); [contradiction|reflexivity]. }
  rewrite D'. change (it_text (table_item tb)) with (t_name tb). rewrite HB.
  rewrite (join_rows_are E A B (label (table_item ta)) (label (table_item tb)) jt (table_item tb) _ _ (meets E ca cb) J eq_refl).
  2: { intros x y X Y. destruct C as [(-> & -> & -> & ->)|(-> & -> & -> & -> & S)].
       - apply on_left with (A := A) (B := B); auto using label_name.
       - apply on_right with (A := A) (B := B); auto using label_name. }
  cbv zeta. cbn [where_rows]. rewrite ordered_nil, star_rows. cbn [page_of]. rewrite <- (joined_is E A B (label (table_item ta)) (label (table_item tb)) ca cb jt J). reflexivity.
Qed.

(** What [joined] holds, row by row.  InnerJoin: exactly the pairs with equal columns.  LeftJoin: these and the left rows without
    partner beside NULLs.  RightJoin: the other way round.  FullJoin: both. *)
Section Rows.
  Variable E : engine.
  Variables (A B : relation E) (ca cb : string).
  Definition equal_pair (z : tuple E) : Prop := exists x y, In x (tuples E A) /\ In y (tuples E B) /\ z = (x ++ y)%list /\
    same E (value E ca x) (value E cb y) = T.
  Definition left_alone (z : tuple E) : Prop := exists x, In x (tuples E A) /\ z = (x ++ map (fun c => (c, null E)) (r_columns E B))%list /\
    forall y, In y (tuples E B) -> same E (value E ca x) (value E cb y) <> T.
  Definition right_alone (z : tuple E) : Prop := exists y, In y (tuples E B) /\ z = (map (fun c => (c, null E)) (r_columns E A) ++ y)%list /\
    forall x, In x (tuples E A) -> same E (value E ca x) (value E cb y) <> T.
  Lemma meets_T x y : meets E ca cb x y = true <-> same E (value E ca x) (value E cb y) = T.
  Proof. unfold meets. destruct (same E _ _); split; congruence. Qed.
  Lemma in_inner z : In z (inner_rows E A B ca cb) <-> equal_pair z.
  Proof.
    unfold inner_rows, equal_pair. rewrite in_flat_map. split.
    - intros (x & X & Z). apply in_map_iff in Z as (y & <- & Y). apply filter_In in Y as [Y M]. apply meets_T in M. eauto 8.
    - intros (x & y & X & Y & -> & M). exists x. split; [exact X|]. apply in_map_iff. exists y. split; [reflexivity|]. apply filter_In. split; [exact Y|]. now apply meets_T.
  Qed.
  Lemma no_partner x : partners E B ca cb x = [] <-> forall y, In y (tuples E B) -> same E (value E ca x) (value E cb y) <> T.
  Proof.
    unfold partners. split.
    - intros F y Y M. apply meets_T in M. assert (K : In y (filter (meets E ca cb x) (tuples E B))) by (apply filter_In; auto). rewrite F in K. exact K.
    - intros H. destruct (filter _ _) as [|y ys] eqn:F; [reflexivity|]. assert (K : In y (y :: ys)) by now left. rewrite <- F in K.
      apply filter_In in K as [Y M]. apply meets_T in M. now destruct (H y Y).
  Qed.
  Lemma in_left z : In z (left_rows E A B ca cb) <-> equal_pair z \/ left_alone z.
  Proof.
    rewrite <- in_inner. unfold left_rows, inner_rows, left_alone. rewrite !in_flat_map. split.
    - intros (x & X & Z). destruct (partners E B ca cb x) as [|y ys] eqn:P.
      + right. destruct Z as [<-|[]]. exists x. split; [exact X|]. split; [reflexivity|]. now apply no_partner.
      + left. exists x. split; [exact X|]. now rewrite P.
    - intros [(x & X & Z)|(x & X & -> & N)]; exists x; (split; [exact X|]).
      + destruct (partners E B ca cb x); [destruct Z|exact Z].
      + apply no_partner in N. rewrite N. now left.
  Qed.
  Lemma in_right z : In z (right_only E A B ca cb) <-> right_alone z.
  Proof.
    unfold right_only, lonely_right, right_alone. rewrite in_map_iff. split.
    - intros (y & <- & Y). apply filter_In in Y as [Y M]. rewrite forallb_forall in M. exists y. split; [exact Y|]. split; [reflexivity|].
      intros x X K. apply meets_T in K. specialize (M x X). now rewrite K in M.
    - intros (y & Y & -> & N). exists y. split; [reflexivity|]. apply filter_In. split; [exact Y|]. apply forallb_forall. intros x X.
      destruct (meets E ca cb x y) eqn:M; [|reflexivity]. apply meets_T in M. now destruct (N x X).
  Qed.
End Rows.

(** the four methods by name *)
Theorem C89_methods p ta tb l r : table_p p = Ok ta -> wf_table ta -> wf_join (mkJ tb 0 (mkJC l r)) ->
  label (table_item ta) <> label (table_item tb) ->
  exists b0 bi bl br bf si sl sr sf, select_from p = Ok b0 /\
    b_inner b0 tb l r = Ok bi /\ b_left b0 tb l r = Ok bl /\ b_right b0 tb l r = Ok br /\ b_full b0 tb l r = Ok bf /\
    b_build bi = Ok (mkOut si [] None) /\ b_build bl = Ok (mkOut sl [] None) /\ b_build br = Ok (mkOut sr [] None) /\ b_build bf = Ok (mkOut sf [] None) /\
    forall E db A B ca cb, db (t_name ta) = Some A -> db (t_name tb) = Some B -> table_ok E A ca -> table_ok E B cb ->
      compares E l r (label (table_item ta)) (label (table_item tb)) ca cb ->
      exists zi zl zr zf, query E db si [] = Some (Rows E zi) /\ query E db sl [] = Some (Rows E zl) /\
        query E db sr [] = Some (Rows E zr) /\ query E db sf [] = Some (Rows E zf) /\
        forall z, (In z zi <-> equal_pair E A B ca cb z) /\
                  (In z zl <-> equal_pair E A B ca cb z \/ left_alone E A B ca cb z) /\
                  (In z zr <-> equal_pair E A B ca cb z \/ right_alone E A B ca cb z) /\
                  (In z zf <-> equal_pair E A B ca cb z \/ left_alone E A B ca cb z \/ right_alone E A B ca cb z).
Proof.
  intros Et Ht Hj D.
  assert (J : forall jt, (0 <= jt <= 3)%Z -> wf_join (mkJ tb jt (mkJC l r))).
  { intros jt H. destruct Hj as (H1 & _ & H3). exact (conj H1 (conj H H3)). }
  destruct (C89_joined p ta tb 0 l r Et Ht (J 0%Z ltac:(lia)) D) as (b0 & bi & si & E0 & I1 & I2 & I3).
  destruct (C89_joined p ta tb 1 l r Et Ht (J 1%Z ltac:(lia)) D) as (b1 & bl & sl & E1 & L1 & L2 & L3). rewrite E0 in E1. injection E1 as <-.
  destruct (C89_joined p ta tb 2 l r Et Ht (J 2%Z ltac:(lia)) D) as (b1 & br & sr & E1 & R1 & R2 & R3). rewrite E0 in E1. injection E1 as <-.
  destruct (C89_joined p ta tb 3 l r Et Ht (J 3%Z ltac:(lia)) D) as (b1 & bf & sf & E1 & F1 & F2 & F3). rewrite E0 in E1. injection E1 as <-.
  exists b0, bi, bl, br, bf, si, sl, sr, sf.
  refine (conj E0 (conj I1 (conj L1 (conj R1 (conj F1 (conj I2 (conj L2 (conj R2 (conj F2 _))))))))).
  intros E db A B ca cb HA HB OA OB C. eexists _, _, _, _.
  refine (conj (I3 E db A B ca cb HA HB OA OB C) (conj (L3 E db A B ca cb HA HB OA OB C) (conj (R3 E db A B ca cb HA HB OA OB C) (conj (F3 E db A B ca cb HA HB OA OB C) _)))).
  intros z. cbn [joined]. rewrite !in_app_iff, in_inner, in_left, in_right. tauto.
Qed.

(** users and their orders; the second call names the columns in the other order and the tables by alias *)
Example C89_example :
  let u := mkT "users" "u" in let o := mkT "orders" "" in
  let l := mkF "id" "u" "" in let r := mkF "uid" "orders" "" in
  table_p (TPStr "users AS u") = Ok u /\ t_field u "id" = Ok l /\ t_field o "uid" = Ok r /\ wf_table u /\ wf_join (mkJ o 0 (mkJC l r)) /\ label (table_item u) <> label (table_item o) /\
  (exists A B, shop "users" = Some A /\ shop "orders" = Some B /\ table_ok numbers A "id" /\ table_ok numbers B "uid") /\
  compares numbers l r "u" "orders" "id" "uid" /\ compares numbers r l "u" "orders" "id" "uid" /\
  (forall s, (do b <- select_from (TPStr "users AS u"); do b <- b_full b o r l; b_build b) = Ok (mkOut s [] None) ->
     query numbers shop s [] = Some (Rows numbers
      [[("id", Some 1); ("age", Some 30); ("uid", Some 1); ("total", Some 7)]; [("id", Some 1); ("age", Some 30); ("uid", Some 1); ("total", Some 5)];
       [("id", Some 2); ("age", None); ("uid", None); ("total", None)]; [("id", Some 3); ("age", Some 20); ("uid", Some 3); ("total", Some 9)];
       [("id", Some 4); ("age", Some 30); ("uid", None); ("total", None)]; [("id", None); ("age", None); ("uid", Some 8); ("total", Some 1)]])) /\
  (do b <- select_from (TPStr "users AS u"); do b <- b_full b o r l; b_build b) =
    Ok (mkOut "SELECT * FROM users AS u FULL JOIN orders ON orders.uid=u.id" [] None).
Proof.
  cbv zeta. split; [reflexivity|]. split; [reflexivity|]. split; [reflexivity|]. split; [split; [now constructor|now right]|].
  split. { refine (conj (conj _ _) (conj _ _)); cbn; [now constructor|now left|lia|auto]. }
  split; [discriminate|]. split. { do 2 eexists. split; [reflexivity|]. split; [reflexivity|]. split; (split; [now left|repeat constructor]). }
  split; [now left|]. split.
  { right. repeat split. intros [a|] [b|]; try reflexivity. cbn. now rewrite Nat.eqb_sym. }
  split; [|reflexivity]. intros s H. vm_compute in H. injection H as <-. reflexivity.
Qed.
(** the two tables need different names: a table joined with itself without alias is not accepted *)
Example C89_needs_alias : forall s, (do b <- select_from (TPStr "users"); do b <- b_inner b (mkT "users" "") (mkF "id" "users" "") (mkF "id" "users" ""); b_build b) = Ok (mkOut s [] None) ->
  query numbers shop s [] = None.
Proof. intros s H. vm_compute in H. injection H as <-. reflexivity. Qed.

(** * C90: inner joins of any number of tables *)

(** Spec: one row of each table, all combinations; kept if for every join the two columns named by On are equal. *)
Section Many.
  Variable E : engine.
  (** the rows of the tables, under the names they are known by *)
  Fixpoint combinations (ts : list (string * relation E)) : list (list (string * tuple E)) :=
    match ts with
    | [] => [[]]
    | (n, t) :: ts => flat_map (fun u => map (fun r => (n, u) :: r) (combinations ts)) (tuples E t)
    end.
  Definition cell_at (r : list (string * tuple E)) (t c : string) : cell E := match assoc t r with Some u => value E c u | None => null E end.
  Definition agrees (r : list (string * tuple E)) (j : joiner) : bool :=
    let l := jc_left (j_cond j) in let k := jc_right (j_cond j) in
    match same E (cell_at r (f_table l) (f_name l)) (cell_at r (f_table k) (f_name k)) with T => true | _ => false end.
  Definition all_joined (ts : list (string * relation E)) (js : list joiner) : list (tuple E) :=
    map (fun r => List.concat (map snd r)) (filter (fun r => forallb (agrees r) js) (combinations ts)).
  (** a column of one of the tables *)
  Definition has (ts : list (string * relation E)) (d : fdef) : Prop := exists t, assoc (f_table d) ts = Some t /\ table_ok E t (f_name d).
  (** each On names columns of the tables joined so far *)
  Fixpoint on_known (known : list (string * relation E)) (ts : list (string * relation E)) (js : list joiner) : Prop :=
    match ts, js with
    | t :: ts, j :: js => has (known ++ [t])%list (jc_left (j_cond j)) /\ has (known ++ [t])%list (jc_right (j_cond j)) /\ on_known (known ++ [t])%list ts js
    | _, _ => True
    end.

  (** rows made of the tables [ts] *)
  Definition of_tables (ts : list (string * relation E)) (r : list (string * tuple E)) : Prop :=
    Forall2 (fun t u => fst u = fst t /\ In (snd u) (tuples E (snd t))) ts r.
  Lemma of_tables_assoc ts r d : of_tables ts r -> has ts d -> name (f_table d) = true ->
    column_of E r (f_table d ++ "." ++ f_name d) = Some (cell_at r (f_table d) (f_name d)).
  Proof.
    intros R (t & A & O) N. unfold column_of, cell_at. rewrite (after_dot_some _ _ (name_ident _ N)).
    assert (exists u, assoc (f_table d) r = Some u /\ In u (tuples E t)) as (u & U & I).
    { revert A. induction R as [|[k t'] [k' u] ts r [K I] R IH]; cbn [assoc]; [discriminate|]. cbn in K, I. subst k'.
      destruct (String.eqb (f_table d) k); [intros [= ->]; eauto|exact IH]. }
    rewrite U. exact (table_value E t _ u O I).
  Qed.
  Lemma assoc_app {X} k (a b : list (string * X)) v : assoc k a = Some v -> assoc k (a ++ b)%list = Some v.
  Proof. induction a as [|[k' x] a IH]; cbn [assoc app]; [discriminate|]. now destruct (String.eqb k k'). Qed.
  Lemma cell_at_app ts r r' d : of_tables ts r -> has ts d -> cell_at (r ++ r') (f_table d) (f_name d) = cell_at r (f_table d) (f_name d).
  Proof.
    intros R (t & A & O). unfold cell_at.
    assert (exists u, assoc (f_table d) r = Some u) as (u & U).
    { revert A. clear O. induction R as [|[k t'] [k' u] ts r [K I] R IH]; cbn [assoc]; [discriminate|]. cbn in K, I. subst k'.
      destruct (String.eqb (f_table d) k); [eauto|exact IH]. }
    now rewrite U, (assoc_app _ _ _ _ U).
  Qed.
  Lemma agrees_app ts r r' j : of_tables ts r -> has ts (jc_left (j_cond j)) -> has ts (jc_right (j_cond j)) -> agrees (r ++ r') j = agrees r j.
  Proof. intros R L K. unfold agrees. now rewrite !(cell_at_app ts) by assumption. Qed.

  (** [join_all] extends every row by the partners in the remaining tables *)
  Lemma inner_step known t j rows : j_type j = 0%Z -> wf_join j ->
    has (known ++ [(label (table_item (j_right j)), t)])%list (jc_left (j_cond j)) ->
    has (known ++ [(label (table_item (j_right j)), t)])%list (jc_right (j_cond j)) -> Forall (of_tables known) rows ->
    join_rows E known t (join_item j) rows =
    Some (flat_map (fun r => filter (fun r' => agrees r' j) (map (fun u => r ++ [(label (table_item (j_right j)), u)])%list (tuples E t))) rows).
  Proof.
    intros J W L R F. unfold join_rows, verdicts. cbn [join_item sj_table sj_kind]. rewrite J. set (n := label (table_item (j_right j))) in *.
    rewrite (all_some_some _ (fun r => map (fun u => agrees (r ++ [(n, u)]) j) (tuples E t))).
    2: { intros r Hr. rewrite Forall_forall in F. specialize (F r Hr). apply all_some_some. intros u U.
         assert (O : of_tables (known ++ [(n, t)])%list (r ++ [(n, u)])%list).
         { apply Forall2_app; [exact F|]. constructor; [|constructor]. split; [reflexivity|exact U]. }
         unfold on. cbn [join_item sj_left sj_right]. destruct W as (_ & _ & _ & W1 & _ & W2).
         now rewrite (of_tables_assoc _ _ _ O L W1), (of_tables_assoc _ _ _ O R W2). }
    cbn [existsb String.eqb join_word Z.to_nat nth Ascii.eqb Bool.eqb orb]. rewrite app_nil_r. f_equal. clear F. rewrite flat_map_concat_map. f_equal.
    induction rows as [|r rows IH]; [reflexivity|]. cbn [map combine]. f_equal; [|exact IH]. cbn [fst snd].
    rewrite chosen_filter. clear. induction (tuples E t) as [|u us IH]; [reflexivity|]. cbn [filter map].
    destruct (agrees _ j); [|exact IH]. cbn [map]. f_equal. destruct (filter _ us); [|exact IH]. exact IH.
  Qed.
  Fixpoint extend (rows : list (list (string * tuple E))) (ts : list (string * relation E)) (js : list joiner) : list (list (string * tuple E)) :=
    match ts, js with
    | (n, t) :: ts, j :: js => extend (flat_map (fun r => filter (fun r' => agrees r' j) (map (fun u => r ++ [(n, u)])%list (tuples E t))) rows) ts js
    | _, _ => rows
    end.
  Lemma extend_tables known n t j rows : Forall (of_tables known) rows ->
    Forall (of_tables (known ++ [(n, t)])%list) (flat_map (fun r => filter (fun r' => agrees r' j) (map (fun u => r ++ [(n, u)])%list (tuples E t))) rows).
  Proof.
    intros F. apply Forall_forall. intros z Z. apply in_flat_map in Z as (r & Hr & Z). apply filter_In in Z as [Z _]. apply in_map_iff in Z as (u & <- & U).
    rewrite Forall_forall in F. apply Forall2_app; [now apply F|]. constructor; [|constructor]. split; [reflexivity|exact U].
  Qed.
  Lemma join_all_extend db ts : forall js known rows, map (fun j => label (table_item (j_right j))) js = map fst ts ->
    Forall2 (fun j t => db (t_name (j_right j)) = Some (snd t)) js ts -> Forall wf_join js -> Forall (fun j => j_type j = 0%Z) js ->
    on_known known ts js -> Forall (of_tables known) rows ->
    join_all E db known (map join_item js) rows = Some (extend rows ts js).
  Proof.
    induction ts as [|[n t] ts IH]; intros js known rows M D W J K F; destruct js as [|j js]; try discriminate M; [reflexivity|].
    cbn [map] in M. injection M as M1 M2. inversion D; subst. inversion W; subst. inversion J; subst. cbn [on_known] in K. destruct K as (K1 & K2 & K3).
    cbn [map join_all]. change (it_text (sj_table (join_item j))) with (t_name (j_right j)). rewrite H2. cbn [snd].
    rewrite (inner_step known t j rows); auto. cbn [join_item sj_table]. cbn [extend].
    apply IH; auto. now apply extend_tables.
  Qed.
  Lemma filter_flat_map {X Y} (P : Y -> bool) (f : X -> list Y) l : filter P (flat_map f l) = flat_map (fun x => filter P (f x)) l.
  Proof. induction l as [|x l IH]; [reflexivity|]. cbn. now rewrite filter_app, IH. Qed.
  Lemma extend_combinations ts : forall js known rows, length js = length ts -> on_known known ts js -> Forall (of_tables known) rows ->
    extend rows ts js = flat_map (fun r => filter (fun r' => forallb (agrees r') js) (map (fun c => r ++ c)%list (combinations ts))) rows.
  Proof.
    induction ts as [|[n t] ts IH]; intros js known rows Lj K F; destruct js as [|j js]; try discriminate Lj.
    { cbn. clear F. induction rows as [|r rows IH]; [reflexivity|]. cbn. now rewrite app_nil_r, <- IH. }
    cbn [on_known] in K. destruct K as (K1 & K2 & K3). cbn [extend].
    rewrite (IH js (known ++ [(n, t)])%list) by (auto using extend_tables). clear IH.
    rewrite !flat_map_concat_map. induction rows as [|r rows IHr]; [reflexivity|]. inversion F; subst.
    cbn [flat_map map List.concat]. rewrite map_app, List.concat_app, (IHr H2). f_equal. clear IHr F.
    cbn [combinations]. rewrite <- flat_map_concat_map, map_flat_map, filter_flat_map.
    assert (Z : forall u, In u (tuples E t) -> of_tables (known ++ [(n, t)])%list (r ++ [(n, u)])%list).
    { intros u U. apply Forall2_app; [exact H1|]. constructor; [|constructor]. split; [reflexivity|exact U]. }
    induction (tuples E t) as [|u us IHu]; [reflexivity|]. cbn [map filter flat_map].
    assert (S : filter (fun r' => forallb (agrees r') (j :: js)) (map (fun c => r ++ c)%list (map (fun r' => (n, u) :: r') (combinations ts))) =
      if agrees (r ++ [(n, u)]) j then filter (fun r' => forallb (agrees r') js) (map (fun c => (r ++ [(n, u)]) ++ c)%list (combinations ts)) else []).
    { clear IHu. rewrite map_map. specialize (Z u (or_introl eq_refl)). induction (combinations ts) as [|c cs IHc]; [now destruct (agrees _ j)|].
      cbn [map filter]. replace (r ++ (n, u) :: c)%list with ((r ++ [(n, u)]) ++ c)%list by now rewrite <- app_assoc.
      cbn [forallb] in IHc |- *. rewrite (agrees_app (known ++ [(n, t)])%list) by assumption. rewrite IHc. destruct (agrees (r ++ [(n, u)]) j); reflexivity. }
    rewrite S. specialize (IHu (fun u' H => Z u' (or_intror H))). destruct (agrees (r ++ [(n, u)]) j); cbn [flat_map]; now rewrite IHu.
  Qed.
End Many.

(** The ON columns of each join belong to tables named before or by that join; the names are different. *)
Theorem C90_inner_joins p t0 js : table_p p = Ok t0 -> wf_table t0 -> Forall wf_join js -> Forall (fun j => j_type j = InnerJoin) js ->
  NoDup (map (fun t => label (table_item t)) (t0 :: map j_right js)) ->
  exists b0 b s, select_from p = Ok b0 /\ calls b_call b0 (map (fun j => BJoin (j_right j) (j_type j) (jc_left (j_cond j)) (jc_right (j_cond j))) js) = Ok b /\
    b_build b = Ok (mkOut s [] None) /\
    forall E db A0 ts, db (t_name t0) = Some A0 -> Forall2 (fun j A => db (t_name (j_right j)) = Some A) js ts ->
      let named := combine (map (fun j => label (table_item (j_right j))) js) ts in let first := (label (table_item t0), A0) in
      on_known E [first] named js ->
      query E db s [] = Some (Rows E (all_joined E (first :: named) js)).
Proof.
  intros Et Ht Hj Hi ND. destruct (select_from_total p t0 Et) as (b0 & E0 & I0).
  set (h := map (fun j => BJoin (j_right j) (j_type j) (jc_left (j_cond j)) (jc_right (j_cond j))) js).
  assert (Hh : flat_map bc_join h = js /\ flat_map bc_where h = [] /\ forall fs, last_of bc_fields fs h = fs).
  { subst h. clear. induction js as [|[t jt [l r]] js (I1 & I2 & I3)]; [repeat split|]. cbn [map flat_map bc_join bc_where app last_of j_right j_type j_cond jc_left jc_right].
    rewrite I1, I2. split; [reflexivity|]. split; [reflexivity|]. intros fs. apply I3. }
  destruct Hh as (Hh1 & Hh2 & Hh3).
  assert (PB : Forall plain_b h).
  { subst h. apply Forall_forall. intros c C. apply in_map_iff in C as ([t jt [l r]] & <- & C). rewrite Forall_forall in Hj. exact (Hj _ C). }
  assert (exists b, calls b_call b0 h = Ok b) as (b & Eb).
  { destruct (calls_total b_call (fun b => g_ok (b_where b)) (wf_bcall row0) (b_call_total row0) h b0) as (b & Eb & _); [| |eauto].
    - destruct I0 as (_ & _ & _ & _ & I5). cbn in I5. injection I5 as <-. exact empty_ok.
    - exact (plain_b_wf _ _ PB). }
  assert (M : made_b b) by (exists p, t0, b0, h; auto).
  pose proof (b_calls_is h _ _ _ _ _ _ I0 Eb) as (_ & J2 & J3 & J4 & J5). rewrite Hh1 in J4. rewrite Hh2 in J5. rewrite Hh3 in J3. cbn in J4, J5. injection J5 as J5.
  destruct (ready_where b (made_b_ready b M)) as (s & ps & we & B1 & B2 & B3 & _). specialize (B3 row0).
  destruct we as [e|]; [destruct B3 as (N & _); rewrite <- J5 in N; now destruct N|]. destruct B3 as [_ ->].
  exists b0, b, s. refine (conj E0 (conj Eb (conj B1 _))). intros E db A0 ts HA HT. cbv zeta. intros OK.
  set (named := combine _ ts) in *.
  assert (LT : length js = length ts) by (exact (F2_length _ _ _ HT)).
  assert (N1 : map (fun j => label (table_item (j_right j))) js = map fst named).
  { subst named. clear - LT. revert ts LT. induction js as [|j js IH]; intros [|t ts] L; try discriminate L; [reflexivity|]. cbn. f_equal. apply IH. now injection L. }
  assert (N2 : Forall2 (fun j t => db (t_name (j_right j)) = Some (snd t)) js named).
  { subst named. clear - HT. induction HT as [|j t js ts H HT IH]; [constructor|]. cbn [map combine]. constructor; [exact H|exact IH]. }
  unfold query. rewrite B2. unfold base_sel. rewrite J2, J3, J4. unfold run_select, kept_rows, from_rows.
  cbn [s_from s_joins s_where s_cols s_order s_offset s_limit amount cols_item]. change (it_text (table_item t0)) with (t_name t0). rewrite HA.
  assert (D : distinct (map label (table_item t0 :: map sj_table (map join_item js))) = true).
  { replace (map label (table_item t0 :: map sj_table (map join_item js))) with (map (fun t => label (table_item t)) (t0 :: map j_right js)).
    2: { cbn [map]. f_equal. rewrite !map_map. reflexivity. }
    clear - ND. induction ND as [|x l NI ND IH]; [reflexivity|]. cbn [distinct]. rewrite IH, andb_true_r. apply negb_true_iff, not_true_iff_false.
    intros X. apply existsb_exists in X as (y & Y & K). apply String.eqb_eq in K. now subst. }
  rewrite D. assert (R0 : Forall (of_tables E [(label (table_item t0), A0)]) (map (fun u => [(label (table_item t0), u)]) (tuples E A0))).
  { apply Forall_forall. intros r R. apply in_map_iff in R as (u & <- & U). constructor; [split; [reflexivity|exact U]|constructor]. }
  rewrite (join_all_extend E db named js _ _ N1 N2 Hj Hi OK R0).
  cbn [where_rows]. rewrite ordered_nil, star_rows. cbn [page_of].
  rewrite (extend_combinations E named js [(label (table_item t0), A0)]).
  2: { exact (F2_length _ _ _ N2). }
  2: exact OK.
  2: exact R0.
  unfold all_joined. cbn [combinations]. rewrite filter_flat_map. do 3 f_equal. generalize (tuples E A0). intros l0.
  induction l0 as [|u us IH]; [reflexivity|]. cbn [map flat_map]. rewrite IH. f_equal.
Qed.

(** users with orders, and all users of the same age *)
Definition c90_joins : list joiner :=
  [mkJ (mkT "orders" "o") InnerJoin (mkJC (mkF "id" "u" "") (mkF "uid" "o" ""));
   mkJ (mkT "users" "v") InnerJoin (mkJC (mkF "age" "v" "") (mkF "age" "u" ""))].
Example C90_example :
  let users := mkRel numbers ["id"; "age"] [[Some 1; Some 30]; [Some 2; None]; [Some 3; Some 20]; [Some 4; Some 30]] in
  let orders := mkRel numbers ["uid"; "total"] [[Some 1; Some 7]; [Some 1; Some 5]; [Some 3; Some 9]; [Some 8; Some 1]] in
  table_p (TPStr "users u") = Ok (mkT "users" "u") /\ wf_table (mkT "users" "u") /\ Forall wf_join c90_joins /\
  Forall (fun j => j_type j = InnerJoin) c90_joins /\ NoDup (map (fun t => label (table_item t)) (mkT "users" "u" :: map j_right c90_joins)) /\
  shop "users" = Some users /\ Forall2 (fun j A => shop (t_name (j_right j)) = Some A) c90_joins [orders; users] /\
  on_known numbers [("u", users)] [("o", orders); ("v", users)] c90_joins /\
  (do b <- select_from (TPStr "users u"); do b <- b_inner b (mkT "orders" "o") (mkF "id" "u" "") (mkF "uid" "o" "");
   do b <- b_inner b (mkT "users" "v") (mkF "age" "v" "") (mkF "age" "u" ""); b_build b) =
    Ok (mkOut "SELECT * FROM users AS u INNER JOIN orders AS o ON u.id=o.uid INNER JOIN users AS v ON v.age=u.age" [] None) /\
  map (map snd) (all_joined numbers [("u", users); ("o", orders); ("v", users)] c90_joins) =
    [[Some 1; Some 30; Some 1; Some 7; Some 1; Some 30]; [Some 1; Some 30; Some 1; Some 7; Some 4; Some 30];
     [Some 1; Some 30; Some 1; Some 5; Some 1; Some 30]; [Some 1; Some 30; Some 1; Some 5; Some 4; Some 30];
     [Some 3; Some 20; Some 3; Some 9; Some 3; Some 20]].
Proof.
  cbv zeta. assert (Q : forall n, name n = true -> qname n) by (intros; now constructor).
  split; [reflexivity|]. split; [split; [now apply Q|now right]|].
  split. { constructor; [|constructor; [|constructor]]; (refine (conj (conj _ _) (conj _ _)); cbn; [now apply Q|now right|unfold InnerJoin; lia|auto]). }
  split; [repeat constructor|]. split. { repeat constructor; cbn; intuition discriminate. }
  split; [reflexivity|]. split; [repeat constructor|].
  split. { cbn [on_known c90_joins j_cond jc_left jc_right app]. repeat split; eexists; (split; [reflexivity|split; [cbn; auto|repeat constructor]]). }
  split; reflexivity.
Qed.

Print Assumptions C89_joined.
Print Assumptions C89_methods.
Print Assumptions C90_inner_joins.
