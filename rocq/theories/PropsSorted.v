(** Sorted results and counted columns, as a database (DbSpec.v) gives them. *)
From Coq Require Import String Ascii List Bool Arith NArith ZArith Lia Permutation Sorted.
From Verif Require Import GoStr Value Names Cond Build Surface SqlSpec Spec StrFacts SqlFacts CondFacts CondText CondSem
  TreeFacts CondLogic CondMeaning Built CondThms PropsCond NameFacts StmtFacts Calls BuildFacts BuildThms StmtText AtomFacts
  PropsSelect PropsAtoms PropsWrite PropsOrder DbSpec PropsDb.
Import ListNotations.
Local Open Scope string_scope.
Local Open Scope nat_scope.

(** * Specification *)

(** The engine's order is a strict weak order: rows with equal keys form classes, the classes
    are totally ordered. *)
Definition weak_order {A} (lt : A -> A -> bool) : Prop :=
  (forall x y, lt x y = true -> lt y x = false) /\
  (forall x y z, lt x y = false -> lt y z = false -> lt x z = false).

(** row r need not come after row r': in the first column in which they differ, r has the smaller
    value, or the greater one if that column is sorted in descending order *)
Fixpoint may_precede (E : engine) (os : list (string * string)) (r r' : frow E) : Prop :=
  match os with
  | [] => True
  | (c, dir) :: os => exists v v', column_of E r c = Some v /\ column_of E r' c = Some v' /\
      let less := if String.eqb dir "DESC" then before E v' v else before E v v' in
      let greater := if String.eqb dir "DESC" then before E v v' else before E v' v in
      less = true \/ (less = false /\ greater = false /\ may_precede E os r r')
  end.

(** * Sorting *)

Section Sort.
  Variable E : engine.
  Hypothesis W : weak_order (before E).
  Local Notation ks := (list (cell E * bool)).

  Lemma weak_flip (d : bool) : weak_order (fun x y => if d then before E y x else before E x y).
  Proof.
    destruct W as [A N]. destruct d; [|exact W]. split; [intros x y; apply A|]. intros x y z H1 H2. exact (N z y x H2 H1).
  Qed.

  Lemma not_later_trans (a b c : ks) : map snd a = map snd b -> map snd b = map snd c ->
    earlier E b a = false -> earlier E c b = false -> earlier E c a = false.
  Proof.
    revert b c. induction a as [|[x d] a IH]; intros [|[y d'] b] [|[z d''] c] H1 H2; cbn [map snd] in *; try discriminate; [reflexivity|].
    injection H1 as <- H1. injection H2 as <- H2. cbn [earlier]. destruct (weak_flip d) as [A N].
    set (lt := fun x y => if d then before E y x else before E x y) in *.
    change (forall x y, lt x y = true -> lt y x = false) in A. change (forall x y z, lt x y = false -> lt y z = false -> lt x z = false) in N.
    change (if d then before E x y else before E y x) with (lt y x). change (if d then before E y x else before E x y) with (lt x y).
    change (if d then before E y z else before E z y) with (lt z y). change (if d then before E z y else before E y z) with (lt y z).
    change (if d then before E x z else before E z x) with (lt z x). change (if d then before E z x else before E x z) with (lt x z).
    destruct (lt y x) eqn:Eyx; [discriminate|]. destruct (lt z y) eqn:Ezy; [discriminate|]. intros K1 K2.
    rewrite (N z y x Ezy Eyx). destruct (lt x z) eqn:Exz; [reflexivity|].
    pose proof (N x z y Exz Ezy) as Q. rewrite Q in K1.
    pose proof (N y x z Eyx Exz) as Q'. rewrite Q' in K2. exact (IH b c H1 H2 K1 K2).
  Qed.
  Lemma earlier_asym (a b : ks) : map snd a = map snd b -> earlier E a b = true -> earlier E b a = false.
  Proof.
    revert b. induction a as [|[x d] a IH]; intros [|[y d'] b] H1; cbn [map snd] in *; try discriminate.
    injection H1 as <- H1. cbn [earlier]. destruct (weak_flip d) as [A N].
    set (lt := fun x y => if d then before E y x else before E x y) in *.
    change (forall x y, lt x y = true -> lt y x = false) in A. change (forall x y z, lt x y = false -> lt y z = false -> lt x z = false) in N.
    change (if d then before E x y else before E y x) with (lt y x). change (if d then before E y x else before E x y) with (lt x y).
    destruct (lt x y) eqn:K; [now rewrite (A _ _ K)|]. destruct (lt y x); [discriminate|]. auto.
  Qed.

  Context {A : Type}.
  Definition sorted (l : list (ks * A)) : Prop := StronglySorted (fun x y => earlier E (fst y) (fst x) = false) l.
  Definition alike (ds : list bool) (x : ks * A) : Prop := map snd (fst x) = ds.

  Lemma insert_perm x (l : list (ks * A)) : Permutation (x :: l) (insert_row E x l).
  Proof.
    induction l as [|y l IH]; [reflexivity|]. cbn [insert_row]. destruct (earlier E (fst y) (fst x)); [|reflexivity].
    rewrite perm_swap. now constructor.
  Qed.
  Lemma insert_sorted ds x (l : list (ks * A)) : alike ds x -> Forall (alike ds) l -> sorted l -> sorted (insert_row E x l).
  Proof.
    intros Hx Hl. induction Hl as [|y l Hy Hl IH]; intros Hs; cbn [insert_row].
    - constructor; constructor.
    - inversion Hs as [|? ? Hs1 Hs2]; subst. destruct (earlier E (fst y) (fst x)) eqn:K.
      + constructor; [now apply IH|]. eapply Permutation_Forall; [apply insert_perm|]. constructor; [|exact Hs2].
        apply earlier_asym; [|exact K]. now rewrite Hx, Hy.
      + constructor; [exact Hs|]. constructor; [exact K|]. rewrite Forall_forall in *. intros z Hz.
        apply (not_later_trans (fst x) (fst y) (fst z)); [now rewrite Hx, Hy|rewrite Hy; symmetry; now apply Hl|exact K|now apply Hs2].
  Qed.
  Lemma sort_perm (l : list (ks * A)) : Permutation l (sort_rows E l).
  Proof.
    induction l as [|x l IH]; [reflexivity|]. cbn [sort_rows fold_right]. change (fold_right (insert_row E) [] l) with (sort_rows E l).
    rewrite <- insert_perm. now constructor.
  Qed.
  Lemma sort_sorted ds (l : list (ks * A)) : Forall (alike ds) l -> sorted (sort_rows E l).
  Proof.
    induction 1 as [|x l Hx Hl IH]; [constructor|]. cbn [sort_rows fold_right]. change (fold_right (insert_row E) [] l) with (sort_rows E l).
    apply (insert_sorted ds); [exact Hx| |exact IH]. eapply Permutation_Forall; [apply sort_perm|exact Hl].
  Qed.
End Sort.

Lemma all_some_in {A} (l : list (option A)) r : all_some l = Some r -> l = map Some r.
Proof.
  revert r. induction l as [|[x|] l IH]; intros r H; cbn in H; [now injection H as <-| |discriminate].
  destruct (all_some l) as [xs|]; [|discriminate]. injection H as <-. cbn. f_equal. now apply IH.
Qed.
Lemma all_some_of {A} (r : list A) : all_some (map Some r) = Some r.
Proof. induction r as [|x r IH]; [reflexivity|]. cbn. now rewrite IH. Qed.

Lemma denotes_key cols key col : denotes (col_items cols) key col -> key_column cols key = col.
Proof.
  intros [H1 H2]. unfold key_column. assert (N : col_items cols = [] -> key = col).
  { intros E0. destruct H2 as [(i & Hi & _)|K]; [rewrite E0 in Hi; destruct Hi|exact K]. }
  destruct cols as [|l| |c]; try now apply N.
  destruct (find _ l) as [i|] eqn:F.
  - apply find_some in F as [Hi F]. destruct (it_alias i) as [a|] eqn:Ea; [|discriminate]. apply String.eqb_eq in F. subst a. now apply (H1 i).
  - destruct H2 as [(i & Hi & Ea)|K]; [|exact K]. apply (find_none _ _ F) in Hi. rewrite Ea, String.eqb_refl in Hi. discriminate.
Qed.

Lemma keys_dirs E cols os r k : keys E cols os r = Some k -> map snd k = map (fun o => String.eqb (snd o) "DESC") os.
Proof.
  unfold keys. intros H. apply all_some_in in H. revert k H. induction os as [|o os IH]; intros [|x k] H; cbn in H; try discriminate; [reflexivity|].
  injection H as H0 H. cbn. f_equal; [|now apply IH]. destruct (column_of _ _ _); [|discriminate]. now injection H0 as <-.
Qed.

(** keys that are not in the wrong order are rows that are not *)
Lemma keys_precede E cols os os' r r' k k' :
  Forall2 (fun o o' => key_column cols (fst o) = fst o' /\ snd o = snd o') os os' ->
  keys E cols os r = Some k -> keys E cols os r' = Some k' -> earlier E k' k = false -> may_precede E os' r r'.
Proof.
  unfold keys. intros HF H H'. apply all_some_in in H, H'. revert k k' H H'.
  induction HF as [|[key dir] [c dir'] os os' [Hc Hd] HF IH]; intros [|x k] [|x' k'] H H'; cbn [map] in H, H'; try discriminate; [intros _; exact I|].
  cbn [fst snd] in *. subst c dir'. injection H as H0 H. injection H' as H0' H'. cbn [may_precede].
  destruct (column_of E r _) as [v|]; [|discriminate]. destruct (column_of E r' _) as [v'|]; [|discriminate].
  injection H0 as <-. injection H0' as <-. cbn [earlier]. intros K. exists v, v'. split; [reflexivity|]. split; [reflexivity|].
  destruct (String.eqb dir "DESC"); cbn [fst snd] in *.
  - destruct (before E v v') eqn:G; [discriminate|]. destruct (before E v' v) eqn:L; [now left|right]. repeat split; auto. now apply (IH k k').
  - destruct (before E v' v) eqn:G; [discriminate|]. destruct (before E v v') eqn:L; [now left|right]. repeat split; auto. now apply (IH k k').
Qed.

Lemma ordered_sorted E cols os os' rows r : weak_order (before E) ->
  Forall2 (fun o o' => key_column cols (fst o) = fst o' /\ snd o = snd o') os os' ->
  ordered E cols os rows = Some r -> Permutation rows r /\ StronglySorted (may_precede E os') r.
Proof.
  intros W HF. unfold ordered. destruct (all_some _) as [ks|] eqn:K; [|discriminate]. intros [= <-].
  apply all_some_in in K. set (l := combine ks rows).
  assert (HK : Forall (fun x => keys E cols os (snd x) = Some (fst x)) l /\ map snd l = rows).
  { unfold l. clear HF l. revert ks K. induction rows as [|x rows IH]; intros [|k ks] K; cbn in K; try discriminate; [split; [constructor|reflexivity]|].
    injection K as K0 K. destruct (IH ks K) as [A B]. cbn. split; [constructor; auto|now rewrite B]. }
  destruct HK as [HK HS]. split; [rewrite <- HS at 1; apply Permutation_map, sort_perm|].
  assert (HA : Forall (alike E (map (fun o => String.eqb (snd o) "DESC") os)) l).
  { eapply Forall_impl; [|exact HK]. intros x Hx. unfold alike. now apply (keys_dirs E cols os (snd x)). }
  pose proof (sort_sorted E W _ l HA) as Hs.
  assert (HK' : Forall (fun x => keys E cols os (snd x) = Some (fst x)) (sort_rows E l)).
  { eapply Permutation_Forall; [apply sort_perm|exact HK]. }
  clear - Hs HK' HF. set (q := sort_rows E l) in *. clearbody q. clear l. rename q into l. revert HK'. induction Hs as [|x l Hs IH Hx]; intros HK; cbn [map]; [constructor|].
  inversion HK as [|? ? K1 K2]; subst. constructor; [now apply IH|]. apply Forall_map. rewrite Forall_forall in *. intros y Hy.
  apply (keys_precede E cols os os' (snd x) (snd y) (fst x) (fst y)); auto.
Qed.

Lemma ordered_none E cols rows : ordered E cols [] rows = Some rows.
Proof.
  unfold ordered, keys. cbn [map all_some]. rewrite <- (map_map (fun _ => []) Some). rewrite all_some_of. f_equal.
  induction rows as [|x l IH]; [reflexivity|]. cbn [map combine sort_rows fold_right].
  change (fold_right (insert_row E) [] (combine (map (fun _ => []) l) l)) with (@sort_rows E _ (combine (map (fun _ => []) l) l)).
  set (s := sort_rows E _) in *. assert (Hi : forall y, insert_row E ([], x) y = ([], x) :: y).
  { intros [|[[|[k d] ks] z] y]; reflexivity. }
  rewrite Hi. cbn. now rewrite IH.
Qed.

(** * C82: results come in the order asked for *)

(** The select without its ordering. *)
Definition unordered (m : msel) : msel := m_set_order m [].

(** The column an ordering sorts by: the one of the field given to OrderBy (see C65 for the
    conditions), or, if what was given is the name under which a column is selected, that column. *)
Definition sorted_on (fs : list fdef) (d : fdef) (c : string) : Prop :=
  (sortable fs d /\ c = column d) \/
  (own_name d /\ (exists f, List.In f fs /\ f_alias f = column d) /\ forall f, List.In f fs -> f_alias f = column d -> column f = c).
Lemma sorted_on_denotes fs o c : wf_sort o -> sorted_on fs (s_def o) c -> denotes (col_items (cols_item fs)) (fst (sort_item o)) c.
Proof.
  intros [(Hn & _) _] [[H ->]|(Ho & (f & Hf & Ea) & H)]; [now apply sortable_denotes|].
  change (fst (sort_item o)) with (fst (sort_item (mkS (s_def o) ""))). rewrite (own_key _ Ho). split.
  - intros i Hi. apply in_cols in Hi as (g & Hg & ->). intros E. apply item_alias in E. exact (H _ Hg E).
  - destruct (it_alias (field_item f)) as [k|] eqn:E.
    + left. exists (field_item f). split; [apply in_cols; eauto|]. pose proof (item_alias _ _ E). congruence.
    + right. rewrite <- (H _ Hf Ea), <- Ea. cbn [field_item it_alias] in E. unfold column.
      destruct (is_empty (f_alias f)) eqn:E1.
      * exfalso. destruct (f_alias f); [|discriminate]. unfold column in Ea. destruct (s_def o) as [n t a]. cbn in Ea.
        cbn in Hn. destruct t; cbn in Ea; [|discriminate]. subst n. discriminate.
      * cbn [orb] in E. destruct (_ && _) eqn:E2; [|discriminate]. apply andb_true_iff in E2 as [E2 E3].
        apply String.eqb_eq in E2. now rewrite E3.
Qed.

(** the rows come sorted by the columns the keys of ORDER BY stand for *)
Lemma sorted_rows : forall b hm m, made_b b -> Forall plain_m hm -> calls m_call (many_of b) hm = Ok m ->
  forall cs, Forall2 (fun o c => key_column (cols_item (b_fields (m_base m))) (fst (sort_item o)) = c) (flat_map mc_order hm) cs ->
  exists s ps s0 ps0 sel,
    m_build (m_set_limit (m_set_offset m 0) 0) = Ok (mkOut s ps None) /\
    m_build (unordered (m_set_limit (m_set_offset m 0) 0)) = Ok (mkOut s0 ps0 None) /\
    parse_select s = Some sel /\
    forall E db l, weak_order (before E) -> query E db s ps = Some (Rows E l) ->
    exists l0 rows0 rows,
      query E db s0 ps0 = Some (Rows E l0) /\ kept_rows E db ps sel = Some rows0 /\
      map (output E (s_cols sel)) rows0 = map Some l0 /\ map (output E (s_cols sel)) rows = map Some l /\
      Permutation rows0 rows /\
      StronglySorted (may_precede E (combine cs (map s_dir (flat_map mc_order hm)))) rows.
Proof.
  intros b hm m Hb Hm Em cs Hs. destruct (made_ready m (ex_intro _ b (ex_intro _ hm (conj Hb (conj Hm Em))))) as [Hr Ho].
  change (m_set_limit (m_set_offset m 0) 0) with (unpaged m).
  destruct (made_b_is b Hb) as (t & fs & js & css & K & _).
  destruct (m_calls_is hm (many_of b) m t fs js css [] 0%N (-1)%Z (conj K (conj eq_refl (conj eq_refl eq_refl))) Em) as (_ & Io & _).
  cbn [app] in Io. rewrite <- Io in *.
  destruct (many_where (unpaged m) Hr Ho) as (s & tt & ps & we & E1 & E2 & E3 & E4 & E5).
  destruct (many_query (unordered (unpaged m)) Hr (Forall_nil _)) as (s0 & t0 & ps0 & we0 & F1 & F2 & F3 & F4 & F5).
  change (m_base (unordered (unpaged m))) with (m_base m) in *. change (m_base (unpaged m)) with (m_base m) in *.
  rewrite E1 in F1. injection F1 as <- <-. rewrite E2 in F2. injection F2 as <-.
  change (page_params (unpaged m)) with (@nil gval) in *. change (page_params (unordered (unpaged m))) with (@nil gval) in *.
  rewrite app_nil_r in *.
  eexists s, ps, s0, ps, _. split; [exact E4|]. split; [exact F4|]. split; [exact E5|]. intros E db l W Q.
  cbn [s_cols s_from s_joins s_where kept_rows]. unfold query in Q. rewrite E5, run_rows in Q.
  specialize (F5 E db). change (map sort_item (m_order (unordered (unpaged m)))) with (@nil (string * string)) in F5.
  change (slice (m_offset (unordered (unpaged m))) (m_limit (unordered (unpaged m)))) with (@slice (tuple E) 0 0) in F5.
  change (m_order (unpaged m)) with (m_order m) in Q.
  change (off_bound (unpaged m) (length ps)) with (@None bound) in Q. change (lim_bound (unpaged m) (length ps)) with (@None bound) in Q.
  unfold all_rows, kept_rows in Q, F5. cbn [s_from s_joins s_where amount] in Q, F5.
  unfold kept_rows. cbn [s_from s_joins s_where].
  destruct (from_rows E db _ _) as [fr|]; [|discriminate]. destruct (where_rows E ps we fr) as [rows0|]; [|discriminate].
  set (cols := cols_item (b_fields (m_base m))) in *.
  destruct (ordered E cols (map sort_item (m_order m)) rows0) as [rows|] eqn:Er; [|discriminate].
  destruct (all_some (map (output E cols) rows)) as [l'|] eqn:El; [|discriminate]. cbn [page_of] in Q. injection Q as ->.
  assert (HF : Forall2 (fun o o' => key_column cols (fst o) = fst o' /\ snd o = snd o') (map sort_item (m_order m))
    (combine cs (map s_dir (m_order m)))).
  { clear - Hs Ho. revert Ho. induction Hs as [|o c os cs Hd Hs IH]; intros Ho; cbn [map combine]; [constructor|].
    inversion Ho as [|? ? Ho1 Ho2]; subst. constructor; [|now apply IH]. cbn [fst snd]. split; reflexivity. }
  destruct (ordered_sorted E cols _ _ rows0 rows W HF Er) as [P S].
  apply all_some_in in El. assert (X : exists l0, map (output E cols) rows0 = map Some l0).
  { assert (A : Forall (fun r => exists o, output E cols r = Some o) rows0).
    { apply (Permutation_Forall (Permutation_sym P)). clear - El. revert l El. induction rows as [|x rows IH]; intros [|y l] El; cbn in El; try discriminate; constructor.
      - injection El as El _. eauto.
      - injection El as _ El. eauto. }
    clear - A. induction A as [|x rows0 [o Ho] A [l0 IH]]; [now exists []|]. exists (o :: l0). cbn. now rewrite Ho, IH. }
  destruct X as (l0 & X). rewrite ordered_none, X, all_some_of in F5. rewrite slice_all in F5.
  exists l0, rows0, rows. auto 10.
Qed.

(** Full statement (false, C82_shadow_refuted): the columns are always those of the fields given to OrderBy. *)
Theorem C82_sorted_partial : forall b hm m, made_b b -> Forall plain_m hm -> calls m_call (many_of b) hm = Ok m ->
  forall cs, Forall2 (fun o c => sorted_on (b_fields (m_base m)) (s_def o) c) (flat_map mc_order hm) cs ->
  exists s ps s0 ps0 sel,
    m_build (m_set_limit (m_set_offset m 0) 0) = Ok (mkOut s ps None) /\
    m_build (unordered (m_set_limit (m_set_offset m 0) 0)) = Ok (mkOut s0 ps0 None) /\
    parse_select s = Some sel /\
    forall E db l, weak_order (before E) -> query E db s ps = Some (Rows E l) ->
    exists l0 rows0 rows,
      query E db s0 ps0 = Some (Rows E l0) /\ kept_rows E db ps sel = Some rows0 /\
      map (output E (s_cols sel)) rows0 = map Some l0 /\ map (output E (s_cols sel)) rows = map Some l /\
      Permutation rows0 rows /\
      StronglySorted (may_precede E (combine cs (map s_dir (flat_map mc_order hm)))) rows.
Proof.
  intros b hm m Hb Hm Em cs Hs. apply (sorted_rows b hm m Hb Hm Em).
  destruct (made_ready m (ex_intro _ b (ex_intro _ hm (conj Hb (conj Hm Em))))) as [_ Ho].
  destruct (made_b_is b Hb) as (t & fs & js & css & K & _).
  destruct (m_calls_is hm (many_of b) m t fs js css [] 0%N (-1)%Z (conj K (conj eq_refl (conj eq_refl eq_refl))) Em) as (_ & Io & _).
  cbn [app] in Io. rewrite <- Io in *. clear - Hs Ho. revert Ho. induction Hs as [|o c os cs Hd Hs IH]; intros Ho; [constructor|].
  inversion Ho as [|? ? Ho1 Ho2]; subst. constructor; [|now apply IH]. now apply denotes_key, sorted_on_denotes.
Qed.
Print Assumptions C82_sorted_partial.

Lemma numbers_order : weak_order (before numbers).
Proof.
  split.
  - intros [x|] [y|]; cbn [before numbers]; try congruence. rewrite Nat.ltb_lt, Nat.ltb_ge. lia.
  - intros [x|] [y|] [z|]; cbn [before numbers]; try congruence. rewrite !Nat.ltb_ge. lia.
Qed.

(** Fields("age as id").OrderBy("id"): the field given to OrderBy is the column id, but no arrangement of the rows in which
    they come in the order of id gives the result. *)
Theorem C82_shadow_refuted : exists b0 o f m s sel l rows0,
  select_from (TPName "users") = Ok b0 /\ asc "id" = Ok o /\ field "age as id" = Ok f /\
  calls m_call (many_of b0) [MFields [f]; MOrder [o]] = Ok m /\ m_build m = Ok (mkOut s [] None) /\ parse_select s = Some sel /\
  query numbers shop s [] = Some (Rows numbers l) /\ kept_rows numbers shop [] sel = Some rows0 /\
  ~ exists rows, Permutation rows0 rows /\ map (output numbers (s_cols sel)) rows = map Some l /\
    StronglySorted (may_precede numbers [(column (s_def o), s_dir o)]) rows.
Proof.
  do 8 eexists. split; [vm_compute; reflexivity|]. split; [vm_compute; reflexivity|]. split; [vm_compute; reflexivity|].
  split; [vm_compute; reflexivity|]. split; [vm_compute; reflexivity|]. split; [vm_compute; reflexivity|].
  split; [vm_compute; reflexivity|]. split; [vm_compute; reflexivity|].
  intros (rows & P & M & S). cbn [s_cols map] in M.
  destruct rows as [|r1 [|r2 [|r3 [|r4 [|r5 rows]]]]]; try discriminate M.
  injection M as M1 M2 M3 M4. inversion S as [|? ? _ S1]; subst. rewrite Forall_forall in S1.
  assert (S4 := S1 r4 ltac:(cbn; tauto)). clear S S1.
  assert (I1 : List.In r1 [r1; r2; r3; r4]) by (cbn; tauto). assert (I4 : List.In r4 [r1; r2; r3; r4]) by (cbn; tauto).
  apply (Permutation_in _ (Permutation_sym P)) in I1, I4. clear P.
  destruct I1 as [<-|[<-|[<-|[<-|[]]]]]; vm_compute in M1; try discriminate M1.
  destruct I4 as [<-|[<-|[<-|[<-|[]]]]]; vm_compute in M4; try discriminate M4.
  destruct S4 as (v & v' & E1 & E2 & S4). vm_compute in E1, E2. injection E1 as <-. injection E2 as <-. vm_compute in S4.
  destruct S4 as [S4|(_ & S4 & _)]; discriminate.
Qed.
Print Assumptions C82_shadow_refuted.

(** the orders of the users of at least 20 by total, the largest first, then by user *)
Definition hm_sorted : list mcall := [MOrder [mkS (mkF "sum" "" "") "DESC"]; MOrder [mkS (mkF "id" "u" "") "ASC"]].
Example C82_example : exists b m, b_shop = Ok b /\ made_b b /\ Forall plain_m hm_sorted /\ calls m_call (many_of b) hm_sorted = Ok m /\
  Forall2 (fun o c => sorted_on (b_fields (m_base m)) (s_def o) c) (flat_map mc_order hm_sorted) ["o.total"; "u.id"] /\
  weak_order (before numbers) /\
  ask (m_build (m_set_limit (m_set_offset m 0) 0)) =
    Ok (rows [[("id", Some 4); ("sum", None)]; [("id", Some 3); ("sum", Some 9)]; [("id", Some 1); ("sum", Some 7)]; [("id", Some 1); ("sum", Some 5)]]).
Proof.
  destruct b_shop as [b|] eqn:E; [|discriminate]. exists b. pose proof (b_shop_made b E) as Hb. vm_compute in E. injection E as <-.
  eexists. split; [reflexivity|]. split; [exact Hb|].
  split. { constructor; [constructor; [split; [by_field|right; reflexivity]|constructor]|].
           constructor; [constructor; [split; [by_field|left; reflexivity]|constructor]|constructor]. }
  split; [vm_compute; reflexivity|].
  split; [|split; [exact numbers_order|vm_compute; reflexivity]].
  constructor; [|constructor; [|constructor]].
  - right. split; [now left|]. split; [exists (mkF "total" "o" "sum"); split; [right; now left|reflexivity]|].
    intros f [<-|[<-|[]]]; [discriminate|reflexivity].
  - left. split; [|reflexivity]. left. split; [now left|]. intros f [<-|[<-|[]]]; discriminate.
Qed.

(** * C83: COUNT of a column counts its values *)

(** the rows whose value is not NULL *)
Definition present {E : engine} (l : list (tuple E)) : list (tuple E) := filter (fun t => existsb (fun c => negb (absent E (snd c))) t) l.

(** Counting a field with an alias asks for a column of that name. *)
Theorem C83_alias_refuted : exists b f s ps q s' ps' l,
  select_from (TPName "users") = Ok b /\ field "age as years" = Ok f /\ b_build (b_set_fields b [f]) = Ok (mkOut s ps None) /\
  count b ["age as years"] = Ok q /\ cs_build q = Ok (mkOut s' ps' None) /\
  query numbers shop s ps = Some (Rows numbers l) /\ query numbers shop s' ps' = None.
Proof. do 8 eexists. repeat (split; [vm_compute; reflexivity|]). vm_compute. reflexivity. Qed.
Print Assumptions C83_alias_refuted.

(** Full statement: for every field. Missing: fields with another alias (refuted). *)
Theorem C83_count_partial : forall b x f more, made_b b -> field x = Ok f -> wf_field f -> own_name f ->
  exists s ps q s' ps',
    b_build (b_set_fields b [f]) = Ok (mkOut s ps None) /\ count b (x :: more) = Ok q /\ cs_build q = Ok (mkOut s' ps' None) /\
    forall E db, query E db s' ps' = match query E db s ps with Some (Rows _ l) => Some (Number E (length (present l))) | r => r end.
Proof.
  intros b x f more Hb Ef Hf Ho. destruct (made_b_ready b Hb) as [Hn Hr].
  assert (Hn' : names_ok (b_set_fields b [f])). { destruct Hn as (_ & Ht & Hj). split; [now constructor|]. now split. }
  assert (Hr' : ready (b_set_fields b [f])) by (split; assumption).
  destruct (ready_where _ Hr') as (s & ps & we & E1 & E2 & _ & _).
  destruct (count_build (fun _ _ _ => U) (mkCS b f) Hn (or_intror Hf) (Hr _)) as (s' & ps' & we' & F1 & _ & (t & F2 & F3) & F4).
  cbn [cs_base cs_field] in *.
  assert (Q : ps' = ps /\ we' = we).
  { pose proof E1 as E1'. unfold b_build in E1', F2. cbn [b_where b_set_fields] in E1'.
    destruct (nonempty (g_cs (b_where b))).
    - destruct (c_render (of_g (b_where b)) 0); [|discriminate]. destruct (c_values (of_g (b_where b))); [|discriminate].
      cbn [bind] in *. injection E1' as _ <-. injection F2 as _ <-. split; [reflexivity|].
      destruct (count_build (fun _ _ _ => U) (mkCS (b_set_fields b [f]) f) Hn' (or_intror Hf) (Hr _)) as (s2 & ps2 & we2 & G1 & _ & (t2 & G2 & G3) & G4).
      cbn [cs_base cs_field] in *. rewrite E1 in G2. injection G2 as <- <-. rewrite E2 in G3. injection G3 as <-.
      change (cs_build (mkCS (b_set_fields b [f]) f)) with (cs_build (mkCS b f)) in G1. rewrite F1 in G1. injection G1 as <-.
      rewrite F4 in G4. now injection G4.
    - cbn [bind] in *. injection E1' as _ <-. injection F2 as _ <-. split; [reflexivity|].
      destruct (count_build (fun _ _ _ => U) (mkCS (b_set_fields b [f]) f) Hn' (or_intror Hf) (Hr _)) as (s2 & ps2 & we2 & G1 & _ & (t2 & G2 & G3) & G4).
      cbn [cs_base cs_field] in *. rewrite E1 in G2. injection G2 as <- <-. rewrite E2 in G3. injection G3 as <-.
      change (cs_build (mkCS (b_set_fields b [f]) f)) with (cs_build (mkCS b f)) in G1. rewrite F1 in G1. injection G1 as <-.
      rewrite F4 in G4. now injection G4. }
  destruct Q as [-> ->]. exists s, ps, (mkCS b f), s', ps. split; [exact E1|]. split; [unfold count; now rewrite Ef|]. split; [exact F1|].
  intros E db. unfold query. rewrite E2, F4. unfold base_sel. rewrite run_rows. cbn [b_table b_joins b_fields b_set_fields amount].
  assert (Ec : count_item f = CountCol (column f)).
  { unfold count_item. change (fst (sort_item (mkS f "ASC"))) with (fst (sort_item (mkS f ""))). rewrite (own_key f Ho).
    destruct (String.eqb_spec (f_name f) "*") as [e|_]; [|reflexivity]. destruct Hf as [Hf _]. rewrite e in Hf. discriminate. }
  unfold run_select, all_rows. cbn [s_cols s_order s_offset s_limit]. unfold kept_rows. cbn [s_from s_joins s_where].
  rewrite Ec. destruct (from_rows E db _ _) as [fr|]; [|reflexivity]. destruct (where_rows E ps we fr) as [rows|]; [|reflexivity].
  cbn [amount]. rewrite ordered_none. cbn [cols_item].
  assert (K : all_some (map (output E (Cols (map field_item [f]))) rows) =
    match all_some (map (fun r => column_of E r (column f)) rows) with
    | Some vs => Some (map (fun v => [(item_name (field_item f), v)]) vs)
    | None => None end).
  { induction rows as [|r rows IH]; [reflexivity|]. cbn [map all_some output] in *. change (it_text (field_item f)) with (column f) in *.
    destruct (column_of E r (column f)) as [v|]; [|reflexivity]. cbn [all_some map] in *. rewrite IH.
    destruct (all_some (map (fun r => column_of E r (column f)) rows)); reflexivity. }
  rewrite K. destruct (all_some (map (fun r => column_of E r (column f)) rows)) as [vs|]; [|reflexivity].
  cbn [page_of]. f_equal. f_equal. unfold present. clear. induction vs as [|v vs IH]; [reflexivity|]. cbn. rewrite orb_false_r.
  destruct (negb (absent E v)); cbn; now rewrite IH.
Qed.
Print Assumptions C83_count_partial.

Example C83_example : exists b q, b_shop = Ok b /\ made_b b /\ field "o.total" = Ok (mkF "total" "o" "") /\
  wf_field (mkF "total" "o" "") /\ own_name (mkF "total" "o" "") /\ count b ["o.total"] = Ok q /\
  ask (b_build (b_set_fields b [mkF "total" "o" ""])) =
    Ok (rows [[("total", Some 7)]; [("total", Some 5)]; [("total", Some 9)]; [("total", None)]]) /\
  ask (cs_build q) = Ok (Some (Number numbers 3)).
Proof.
  destruct b_shop as [b|] eqn:E; [|discriminate]. exists b. pose proof (b_shop_made b E) as Hb. vm_compute in E. injection E as <-.
  eexists. split; [reflexivity|]. split; [exact Hb|]. split; [vm_compute; reflexivity|]. split; [by_field|]. split; [now left|].
  split; [vm_compute; reflexivity|]. split; vm_compute; reflexivity.
Qed.
