(** What the statements do when a database (DbSpec.v) executes them. *)
From Coq Require Import String Ascii List Bool Arith NArith ZArith Lia Permutation.
From Verif Require Import GoStr Value Names Cond Build SqlSpec Spec StrFacts SqlFacts CondFacts CondText CondSem
  TreeFacts CondLogic CondMeaning Built CondThms PropsCond NameFacts StmtFacts Calls BuildFacts BuildThms StmtText AtomFacts PropsSelect PropsAtoms PropsWrite DbSpec.
Import ListNotations.
Local Open Scope string_scope.
Local Open Scope nat_scope.

(** * Facts about the database *)

Lemma all_some_length {A} (l : list (option A)) r : all_some l = Some r -> length r = length l.
Proof.
  revert r. induction l as [|[x|] l IH]; intros r E; cbn in E; [now injection E as <-| |discriminate].
  destruct (all_some l) as [xs|]; [|discriminate]. injection E as <-. cbn. now rewrite IH.
Qed.
Lemma insert_row_length {A} E x l : length (@insert_row E A x l) = S (length l).
Proof. induction l as [|y l IH]; [reflexivity|]. cbn. destruct (earlier E (fst y) (fst x)); cbn; [now rewrite IH|reflexivity]. Qed.
Lemma sort_rows_length {A} E l : length (@sort_rows E A l) = length l.
Proof. induction l as [|x l IH]; [reflexivity|]. cbn [sort_rows fold_right]. change (fold_right (insert_row E) [] l) with (sort_rows E l). now rewrite insert_row_length, IH. Qed.
Lemma ordered_length E cols os rows r : ordered E cols os rows = Some r -> length r = length rows.
Proof.
  unfold ordered. destruct (all_some _) as [ks|] eqn:K; [|discriminate]. intros [= <-].
  rewrite map_length, sort_rows_length, combine_length. apply all_some_length in K. rewrite map_length in K. lia.
Qed.

Definition bound_in (ps : list gval) (e : expr) : Prop := forall rho post, eval rho (ps ++ post)%list e = eval rho ps e.
Lemma accepts_post E ps post e r : bound_in ps e -> accepts E (ps ++ post)%list e r = accepts E ps e r.
Proof. intros H. unfold accepts. now rewrite H. Qed.
Definition bound_where (ps : list gval) (we : option expr) : Prop := match we with None => True | Some e => bound_in ps e end.
Lemma where_rows_post E ps post we l : bound_where ps we -> where_rows E (ps ++ post)%list we l = where_rows E ps we l.
Proof.
  destruct we as [e|]; [|reflexivity]. intros H. cbn [where_rows].
  replace (map (accepts E (ps ++ post)%list e) l) with (map (accepts E ps e) l); [reflexivity|].
  apply map_ext. intros r. symmetry. now apply accepts_post.
Qed.

(** * Selects reached from SelectFrom *)

(** names are identifiers, conditions are regular (PropsAtoms.v), nothing else is assumed of the calls *)
Definition made_b (b : bsel) : Prop := exists p t b0 hb,
  table_p p = Ok t /\ wf_table t /\ Forall plain_b hb /\ select_from p = Ok b0 /\ calls b_call b0 hb = Ok b.
Definition made (m : msel) : Prop := exists b hm, made_b b /\ Forall plain_m hm /\ calls m_call (many_of b) hm = Ok m.
Definition made_s (q : ssel) : Prop := exists b hs, made_b b /\ Forall plain_s hs /\ calls s_call (single_of b) hs = Ok q.

Definition ready (b : bsel) : Prop := names_ok b /\ forall rho, where_ready rho (b_where b).

Lemma made_b_is b : made_b b -> exists t fs js css, b_is b t fs js css /\ wf_table t /\ Forall wf_field fs /\ Forall wf_join js /\
  Forall regular (List.concat css).
Proof.
  intros (p & t & b0 & hb & Et & Ht & Hb & E0 & Eb). destruct (select_from_is p b0 E0) as (t' & Et' & I0).
  rewrite Et in Et'. injection Et' as <-. destruct (bcall_args (fun _ _ _ => U) hb (plain_b_wf _ _ Hb)) as (A1 & A2 & _).
  eexists t, _, _, _. split; [exact (b_calls_is hb b0 b t [] [] [] I0 Eb)|].
  split; [exact Ht|]. split; [exact A1|]. split; [exact A2|]. cbn [app]. exact (plain_b_regular hb Hb).
Qed.
Lemma is_ready b t fs js css : b_is b t fs js css -> wf_table t -> Forall wf_field fs -> Forall wf_join js ->
  Forall regular (List.concat css) -> ready b.
Proof.
  intros (_ & I2 & I3 & I4 & I5) Ht Hf Hj Hc. split.
  - split; [now rewrite I3|]. split; [now rewrite I2|]. now rewrite I4.
  - intros rho. apply (where_ready_calls rho css); [|exact I5]. now apply regular_all.
Qed.
Lemma made_b_ready b : made_b b -> ready b.
Proof. intros H. destruct (made_b_is b H) as (t & fs & js & css & K & K1 & K2 & K3 & K4). now apply (is_ready b t fs js css). Qed.
Lemma made_ready m : made m -> ready (m_base m) /\ Forall wf_sort (m_order m).
Proof.
  intros (b & hm & Hb & Hm & Em). destruct (made_b_is b Hb) as (t & fs & js & css & K & K1 & K2 & K3 & K4).
  destruct (m_calls_is hm (many_of b) m t fs js css [] 0%N (-1)%Z (conj K (conj eq_refl (conj eq_refl eq_refl))) Em) as (I1 & I2 & _).
  destruct (mcall_args (fun _ _ _ => U) hm fs K2 (plain_m_wf _ _ Hm)) as (B1 & B2 & _ & B4).
  split; [|now rewrite I2].
  apply (is_ready _ _ _ _ _ I1 K1 B1); [now apply Forall_app|]. rewrite List.concat_app. apply Forall_app. split; [exact K4|].
  now apply plain_m_regular.
Qed.
Lemma made_s_ready q : made_s q -> ready (ss_base q).
Proof.
  intros (b & hs & Hb & Hs & Es). destruct (made_b_is b Hb) as (t & fs & js & css & K & K1 & K2 & K3 & K4).
  destruct (scall_args (fun _ _ _ => U) hs (plain_s_wf _ _ Hs)) as (B1 & B2 & _).
  pose proof (s_calls_is hs (single_of b) q t fs js css B1 K Es) as I1.
  apply (is_ready _ _ _ _ _ I1 K1 K2); [now apply Forall_app|]. rewrite List.concat_app. apply Forall_app. split; [exact K4|].
  now apply plain_s_regular.
Qed.

(** the WHERE expression of a state, its parameters, and the text it is part of *)
Lemma ready_where b : ready b -> exists s ps we, b_build b = Ok (mkOut s ps None) /\ parse_select s = Some (base_sel b we) /\
  (forall rho, where_says rho (b_where b) we ps) /\ bound_where ps we.
Proof.
  intros [Hn Hr]. destruct (base_build (fun _ _ _ => U) b Hn (Hr _)) as (s & ps & w & we & E & El & Hw & Hs).
  pose proof (base_parse _ _ _ _ Hn El Hw) as Ep.
  assert (K : forall rho, where_says rho (b_where b) we ps).
  { intros rho. destruct (base_build rho b Hn (Hr _)) as (s' & ps' & w' & we' & E' & El' & Hw' & Hs').
    pose proof (base_parse _ _ _ _ Hn El' Hw') as Ep'. rewrite E in E'. injection E' as <- <-.
    rewrite Ep in Ep'. injection Ep' as <-. exact Hs'. }
  exists s, ps, we. split; [exact E|]. split; [exact Ep|]. split; [exact K|].
  destruct we as [e|]; [|exact I]. intros rho post. destruct (K rho) as (_ & _ & _ & v & _ & Hv).
  rewrite (Hv post). specialize (Hv []). now rewrite app_nil_r in Hv.
Qed.

Definition unpaged (m : msel) : msel := m_set_limit (m_set_offset m 0) 0.
(** the rows after the first [off], and of those the first [lim] if a positive limit is set *)
Definition slice {A} (off : N) (lim : Z) (l : list A) : list A :=
  let r := skipn (N.to_nat off) l in if (0 <? lim)%Z then firstn (Z.to_nat lim) r else r.

Lemma many_where m : ready (m_base m) -> Forall wf_sort (m_order m) -> exists s t ps we,
  b_build (m_base m) = Ok (mkOut t ps None) /\ parse_select t = Some (base_sel (m_base m) we) /\ bound_where ps we /\
  m_build m = Ok (mkOut s (ps ++ page_params m)%list None) /\
  parse_select s = Some (mkSel (cols_item (b_fields (m_base m))) (table_item (b_table (m_base m)))
      (map join_item (b_joins (m_base m))) we (map sort_item (m_order m)) (off_bound m (length ps)) (lim_bound m (length ps))).
Proof.
  intros Hr Ho. destruct (ready_where _ Hr) as (t & ps & we & E1 & E2 & _ & E3). destruct Hr as [Hn Hr].
  destruct (many_build (fun _ _ _ => U) m Hn Ho (Hr _)) as (s & ps' & we' & F1 & _ & (t' & F2 & F3) & F4).
  rewrite E1 in F2. injection F2 as <- <-. rewrite E2 in F3. injection F3 as <-.
  exists s, t, ps, we. auto.
Qed.
Lemma cols_not_count fs : match cols_item fs with CountStar | CountCol _ => False | _ => True end.
Proof. destruct fs; exact I. Qed.

Lemma amount_off ps m : amount (ps ++ page_params m)%list (off_bound m (length ps)) =
  Some (if (0 <? m_offset m)%N then Some (N.to_nat (m_offset m)) else None).
Proof.
  pose proof (proj1 (bounds_ok m ps)) as H. cbv zeta in H. unfold bound_to in H. destruct (0 <? m_offset m)%N; [|now rewrite H].
  destruct H as (k & -> & Hk). cbn. now rewrite Hk.
Qed.
Lemma amount_lim ps m : amount (ps ++ page_params m)%list (lim_bound m (length ps)) =
  Some (if (0 <? m_limit m)%Z then Some (Z.to_nat (m_limit m)) else None).
Proof.
  pose proof (proj2 (bounds_ok m ps)) as H. cbv zeta in H. unfold bound_to in H. rewrite limit_pos in H.
  destruct (0 <? m_limit m)%Z; [|now rewrite H]. destruct H as (k & -> & Hk). cbn. rewrite Hk.
  f_equal. f_equal. lia.
Qed.
Lemma page_slice {A} m (l : list A) :
  page_of (if (0 <? m_offset m)%N then Some (N.to_nat (m_offset m)) else None)
    (if (0 <? m_limit m)%Z then Some (Z.to_nat (m_limit m)) else None) l = slice (m_offset m) (m_limit m) l.
Proof.
  unfold page_of, slice. destruct (N.ltb_spec 0 (m_offset m)) as [H|H].
  - now destruct (0 <? m_limit m)%Z.
  - replace (m_offset m) with 0%N by lia. cbn [N.to_nat skipn]. now destruct (0 <? m_limit m)%Z.
Qed.

(** the rows of a select before its page is cut *)
Definition all_rows E (db : database E) (ps : list gval) (cols : colspec) f js we os : option (list (tuple E)) :=
  match kept_rows E db ps (mkSel cols f js we os None None) with
  | Some rows => match ordered E cols os rows with Some rows => all_some (map (output E cols) rows) | None => None end
  | None => None
  end.
Lemma run_rows E db ps fs f js we os off lim : run_select E db ps (mkSel (cols_item fs) f js we os off lim) =
  match all_rows E db ps (cols_item fs) f js we os, amount ps off, amount ps lim with
  | Some l, Some o, Some n => Some (Rows E (page_of o n l))
  | _, _, _ => None
  end.
Proof.
  unfold run_select, all_rows, kept_rows. cbn [s_from s_joins s_where s_offset s_limit s_cols s_order].
  pose proof (cols_not_count fs) as K.
  destruct (from_rows E db f js) as [l|]; [|reflexivity]. destruct (where_rows E ps we l) as [l'|]; [|reflexivity].
  destruct (amount ps off) as [o|], (amount ps lim) as [n|];
    destruct (cols_item fs); try contradiction; destruct (ordered E _ os l') as [r|]; try reflexivity; now destruct (all_some _).
Qed.
Lemma all_rows_post E db ps post cols f js we os : bound_where ps we ->
  all_rows E db (ps ++ post)%list cols f js we os = all_rows E db ps cols f js we os.
Proof.
  intros H. unfold all_rows, kept_rows. cbn [s_from s_joins s_where]. destruct (from_rows E db f js) as [l|]; [|reflexivity].
  now rewrite where_rows_post.
Qed.

Lemma many_query m : ready (m_base m) -> Forall wf_sort (m_order m) -> exists s t ps we,
  b_build (m_base m) = Ok (mkOut t ps None) /\ parse_select t = Some (base_sel (m_base m) we) /\ bound_where ps we /\
  m_build m = Ok (mkOut s (ps ++ page_params m)%list None) /\
  forall E db, query E db s (ps ++ page_params m)%list =
    match all_rows E db ps (cols_item (b_fields (m_base m))) (table_item (b_table (m_base m))) (map join_item (b_joins (m_base m))) we (map sort_item (m_order m)) with
    | Some l => Some (Rows E (slice (m_offset m) (m_limit m) l))
    | None => None
    end.
Proof.
  intros Hr Ho. destruct (many_where m Hr Ho) as (s & t & ps & we & E1 & E2 & E3 & E4 & E5).
  exists s, t, ps, we. repeat (split; [assumption|]). intros E db. unfold query. rewrite E5, run_rows, amount_off, amount_lim, all_rows_post by exact E3.
  destruct (all_rows _ _ _ _ _ _ _ _) as [l|]; [|reflexivity]. now rewrite page_slice.
Qed.

(** * C71: COUNT returns the number of rows *)

Lemma slice_all {A} (l : list A) : slice 0 0 l = l. Proof. reflexivity. Qed.
Lemma all_rows_length E db ps cols f js we os l : all_rows E db ps cols f js we os = Some l ->
  exists k, kept_rows E db ps (mkSel cols f js we os None None) = Some k /\ length k = length l.
Proof.
  unfold all_rows. destruct (kept_rows _ _ _ _) as [k|]; [|discriminate]. destruct (ordered E cols os k) as [r|] eqn:Er; [|discriminate].
  intros H. exists k. split; [reflexivity|]. apply ordered_length in Er. apply all_some_length in H. rewrite map_length in H. congruence.
Qed.

Theorem C71_count_rows : forall m, made m -> exists s ps q s' ps',
  m_build (m_set_limit (m_set_offset m 0) 0) = Ok (mkOut s ps None) /\ m_count m = Ok q /\ cs_build q = Ok (mkOut s' ps' None) /\
  forall E db l, query E db s ps = Some (Rows E l) -> query E db s' ps' = Some (Number E (length l)).
Proof.
  intros m H. destruct (made_ready m H) as [Hr Ho]. change (m_set_limit (m_set_offset m 0) 0) with (unpaged m).
  destruct (many_query (unpaged m) Hr Ho) as (s & t & ps & we & E1 & E2 & E3 & E4 & E5). cbn [unpaged m_base m_set_offset m_set_limit] in *.
  assert (Eq : m_count m = Ok (mkCS (m_base m) (mkF "*" "" ""))) by reflexivity.
  destruct Hr as [Hn Hr]. destruct (count_build (fun _ _ _ => U) (mkCS (m_base m) (mkF "*" "" "")) Hn (or_introl eq_refl) (Hr _))
    as (s' & ps' & we' & F1 & _ & (t' & F2 & F3) & F4).
  cbn [cs_base cs_field] in *. rewrite E1 in F2. injection F2 as <- <-. rewrite E2 in F3. injection F3 as <-.
  eexists s, _, _, s', ps. split; [exact E4|]. split; [exact Eq|]. split; [exact F1|].
  intros E db l K. rewrite E5 in K. unfold query. rewrite F4.
  destruct (all_rows _ _ _ _ _ _ _ _) as [r|] eqn:Er; [|discriminate]. change (slice _ _ r) with r in K. injection K as <-.
  destruct (all_rows_length _ _ _ _ _ _ _ _ _ Er) as (k & Ek & <-). unfold run_select, kept_rows in *.
  cbn [s_from s_joins s_where s_offset s_limit s_cols s_order amount count_item f_name String.eqb] in *. now rewrite Ek.
Qed.
Print Assumptions C71_count_rows.

Definition num_cond (k : kind) (t c : string) (n : nat) : cond := CLeaf (mkLeaf k AND false (mkF c t "") (VOther n)).
Definition age30 (t : string) : cond := num_cond KEq t "age" 30.
Lemma num_regular k fn t c n : In k [KEq; KGt; KGe; KLt; KLe] -> mk_cond k fn (VOther n) = Ok (num_cond k t c n) ->
  name c = true -> t = "" \/ name t = true -> regular (num_cond k t c n).
Proof.
  intros Hk E Hc Ht. split; [exact (bt_lib k fn (VOther n) _ E)|]. split; [exact I|]. intros l [<-|[]]. split.
  - split; [exact Hc|]. split; [exact Ht|]. now left.
  - cbn [l_kind l_val]. destruct Hk as [<-|[<-|[<-|[<-|[<-|[]]]]]]; now exists (VOther n).
Qed.
Ltac by_num fn := apply (num_regular _ fn); [cbn; tauto|reflexivity|reflexivity|by_name].
(** the orders of users of at least 20, the largest first *)
Definition hb_shop : list bcall :=
  [BFields [mkF "id" "u" ""; mkF "total" "o" "sum"]; BJoin (mkT "orders" "o") 1 (mkF "id" "u" "") (mkF "uid" "o" ""); BWhere [num_cond KGe "u" "age" 20]].
Definition hm_shop : list mcall := [MOrder [mkS (mkF "sum" "" "") "DESC"]].
Definition b_shop : res bsel := do b <- select_from (TPStr "users u"); calls b_call b hb_shop.
Definition m_shop : res msel := do b <- b_shop; calls m_call (many_of b) hm_shop.
Lemma b_shop_made b : b_shop = Ok b -> made_b b.
Proof.
  intros E. vm_compute in E. injection E as <-. eexists (TPStr "users u"), _, _, hb_shop.
  split; [vm_compute; reflexivity|]. split; [split; [constructor; reflexivity|by_name]|]. split; [|split; vm_compute; reflexivity].
  constructor; [constructor; [by_field|constructor; [by_field|constructor]]|].
  constructor; [split; [split; [constructor; reflexivity|by_name]|]; split; [simpl; lia|]; repeat split|].
  constructor; [constructor; [by_num "u.age"|constructor]|constructor].
Qed.
Lemma m_shop_made m : m_shop = Ok m -> made m.
Proof.
  unfold m_shop. destruct b_shop as [b|] eqn:E; [|discriminate]. intros Em. exists b, hm_shop. split; [now apply b_shop_made|].
  split; [|exact Em]. constructor; [|constructor]. constructor; [|constructor]. split; [by_field|right; reflexivity].
Qed.
Definition ask (o : res out) : res (option (reply numbers)) := do r <- o; Ok (query numbers shop (o_sql r) (o_params r)).
Example C71_example : exists m, m_shop = Ok m /\ made m /\
  (do o <- m_build m; Ok (o_sql o)) = Ok "SELECT u.id, o.total AS sum FROM users AS u LEFT JOIN orders AS o ON u.id=o.uid WHERE u.age>=$1 ORDER BY sum DESC" /\
  ask (m_build (m_set_limit (m_set_offset m 0) 0)) =
    Ok (rows [[("id", Some 4); ("sum", None)]; [("id", Some 3); ("sum", Some 9)]; [("id", Some 1); ("sum", Some 7)]; [("id", Some 1); ("sum", Some 5)]]) /\
  ask (do q <- m_count m; cs_build q) = Ok (Some (Number numbers 4)).
Proof.
  eexists. split; [vm_compute; reflexivity|]. split; [now apply m_shop_made|]. split; [vm_compute; reflexivity|].
  split; vm_compute; reflexivity.
Qed.

(** * C72: pages *)

Theorem C72_page : forall m, made m -> exists s0 ps0, m_build (m_set_limit (m_set_offset m 0) 0) = Ok (mkOut s0 ps0 None) /\
  forall off lim, exists s ps, m_build (m_set_limit (m_set_offset m off) lim) = Ok (mkOut s ps None) /\
  forall E db, query E db s ps = match query E db s0 ps0 with Some (Rows _ l) => Some (Rows E (slice off lim l)) | r => r end.
Proof.
  intros m H. destruct (made_ready m H) as [Hr Ho]. change (m_set_limit (m_set_offset m 0) 0) with (unpaged m).
  destruct (many_query (unpaged m) Hr Ho) as (s0 & t & ps0 & we & E1 & E2 & E3 & E4 & E5).
  eexists s0, _. split; [exact E4|]. intros off lim.
  destruct (many_query (m_set_limit (m_set_offset m off) lim) Hr Ho) as (s & t' & ps & we' & F1 & F2 & F3 & F4 & F5).
  eexists s, _. split; [exact F4|]. intros E db. rewrite E5, F5. cbn [unpaged m_base m_set_offset m_set_limit m_offset m_limit m_order] in *.
  rewrite E1 in F1. injection F1 as <- <-. rewrite E2 in F2. injection F2 as <-. now destruct (all_rows _ _ _ _ _ _ _ _).
Qed.
Print Assumptions C72_page.

Lemma slices {A} (l : list A) n k : List.concat (map (fun i => firstn n (skipn (i * n) l)) (seq 0 k)) = firstn (k * n) l.
Proof.
  induction k as [|k IH]; [reflexivity|]. rewrite seq_S, map_app, List.concat_app, IH. cbn [map List.concat Nat.add]. rewrite app_nil_r.
  replace (S k * n) with (k * n + n) by lia. clear IH. revert l. induction (k * n) as [|j IH]; intros l; [reflexivity|].
  destruct l as [|x l]; [cbn; now rewrite firstn_nil|]. cbn. now rewrite IH.
Qed.

(** reading page after page, [n] rows at a time, gives the result without pagination, nothing twice and nothing left out *)
Theorem C72_pages : forall m n, made m -> 0 < n -> exists s0 ps0, m_build (m_set_limit (m_set_offset m 0) 0) = Ok (mkOut s0 ps0 None) /\
  forall E db l k, query E db s0 ps0 = Some (Rows E l) -> length l <= k * n -> exists pages, length pages = k /\ List.concat pages = l /\
  forall i, i < k -> exists s ps, m_build (m_set_limit (m_set_offset m (N.of_nat (i * n))) (Z.of_nat n)) = Ok (mkOut s ps None) /\
    query E db s ps = Some (Rows E (nth i pages [])).
Proof.
  intros m n H Hn. destruct (C72_page m H) as (s0 & ps0 & E0 & K). exists s0, ps0. split; [exact E0|].
  intros E db l k El Hk. exists (map (fun i => firstn n (skipn (i * n) l)) (seq 0 k)).
  split; [now rewrite map_length, seq_length|]. split; [rewrite slices; now apply firstn_all2|].
  intros i Hi. destruct (K (N.of_nat (i * n)) (Z.of_nat n)) as (s & ps & E1 & E2). exists s, ps. split; [exact E1|].
  rewrite E2, El. f_equal. f_equal.
  rewrite (nth_indep _ [] (firstn n (skipn (0 * n) l))) by (now rewrite map_length, seq_length).
  rewrite (map_nth (fun i => firstn n (skipn (i * n) l))), seq_nth by exact Hi. cbn [Nat.add].
  unfold slice. rewrite Nat2N.id, Nat2Z.id. destruct (Z.ltb_spec 0 (Z.of_nat n)) as [J|J]; [reflexivity|lia].
Qed.
Print Assumptions C72_pages.

(** Single: the first row, if there is one *)
Theorem C72_single : forall q, made_s q -> exists s ps s0 ps0,
  ss_build q = Ok (mkOut s ps None) /\ b_build (ss_base q) = Ok (mkOut s0 ps0 None) /\
  forall E db, query E db s ps = match query E db s0 ps0 with Some (Rows _ l) => Some (Rows E (match l with x :: _ => [x] | [] => [] end)) | r => r end.
Proof.
  intros q H. pose proof (made_s_ready q H) as [Hn Hr].
  destruct (single_build (fun _ _ _ => U) q Hn (Hr _)) as (t & ps & we & E1 & E2 & _ & E3 & E4).
  exists (t ++ " LIMIT 1"), ps, t, ps. split; [exact E1|]. split; [exact E2|]. intros E db. unfold query. rewrite E3, E4, !run_rows.
  cbn [amount]. destruct (all_rows _ _ _ _ _ _ _ _) as [l|]; [|reflexivity]. unfold page_of. now destruct l.
Qed.
Print Assumptions C72_single.

Example C72_example :
  (exists m, m_shop = Ok m /\ made m /\
    ask (m_build (m_set_limit (m_set_offset m 1) 2)) = Ok (rows [[("id", Some 3); ("sum", Some 9)]; [("id", Some 1); ("sum", Some 7)]]) /\
    map (fun i => ask (m_build (m_set_limit (m_set_offset m (N.of_nat (i * 3))) (Z.of_nat 3)))) [0; 1] =
      [Ok (rows [[("id", Some 4); ("sum", None)]; [("id", Some 3); ("sum", Some 9)]; [("id", Some 1); ("sum", Some 7)]]); Ok (rows [[("id", Some 1); ("sum", Some 5)]])]) /\
  (exists b, b_shop = Ok b /\ made_s (single_of b) /\ ask (ss_build (single_of b)) = Ok (rows [[("id", Some 1); ("sum", Some 7)]]) /\
    exists rs, ask (b_build b) = Ok (rows ([("id", Some 1); ("sum", Some 7)] :: rs)) /\ length rs = 3).
Proof.
  split.
  - eexists. split; [vm_compute; reflexivity|]. split; [now apply m_shop_made|]. split; vm_compute; reflexivity.
  - eexists. split; [vm_compute; reflexivity|]. split; [|split; [vm_compute; reflexivity|]].
    + eexists _, []. split; [now apply b_shop_made|]. split; [constructor|reflexivity].
    + eexists. split; vm_compute; reflexivity.
Qed.

(** * Conditions in different statements *)

Lemma where_columns_atoms e : where_columns e = map (fun a => snd (fst a)) (atoms e).
Proof. induction e as [op c ns|e IH|a IHa b IHb|a IHa b IHb]; cbn; auto; now rewrite map_app, IHa, IHb. Qed.
Lemma numbered_columns ls : forall n, map (fun a => snd (fst a)) (numbered n ls) = map (fun l => column (l_def l)) ls.
Proof. induction ls as [|l ls IH]; intros n; [reflexivity|]. cbn. now rewrite IH. Qed.
Lemma reads_fun c n e e' : reads c n e -> reads c n e' -> e = e'.
Proof. intros (w & E1 & E2) (w' & E3 & E4). rewrite E1 in E3. injection E3 as <-. congruence. Qed.

(** a WHERE group whose conditions are regular *)
Definition solid (g : group) : Prop := exists css, calls group_and empty_group css = Ok g /\ Forall regular (List.concat css) /\ List.concat css <> [].
Lemma solid_facts g : solid g -> g_cs g <> [] /\ wf (of_g g) /\ (forall rho, sound rho (of_g g)) /\ forall l, In l (leaves (of_g g)) -> good_leaf l.
Proof.
  intros (css & E & Hr & Hne).
  assert (Hg : g_cs g <> []) by (intros K; apply (where_grows _ _ _ E) in K as [_ K]; contradiction).
  assert (Hw : wanted css (Some (of_g g))).
  { split; [exact Hne|]. change (CGrp AND false [] false) with (of_g empty_group). now rewrite calls_m_and, E. }
  destruct (wanted_leaves css _ Hr Hw) as (W1 & _ & W3). split; [exact Hg|]. split; [exact W1|]. split; [|exact W3]. intros rho. now apply good_sound.
Qed.
Lemma eval_reads rho g n e vs v pre : wf (of_g g) -> sound rho (of_g g) -> reads (of_g g) n e -> c_values (of_g g) = Ok vs ->
  means rho (of_g g) v -> length pre = n -> eval rho (pre ++ vs)%list e = Some v.
Proof.
  intros Hw Hs (w & E1 & E2) Ev Hm Hn. destruct (where_sem rho g n Hw Hs) as (s & vs' & e' & v' & F1 & F2 & F3 & F4 & F5).
  rewrite E1 in F1. injection F1 as <-. rewrite E2 in F3. injection F3 as <-. rewrite Ev in F2. injection F2 as <-.
  rewrite (means_fun _ _ _ _ Hm F4). specialize (F5 pre [] Hn). now rewrite app_nil_r in F5.
Qed.
(** the same condition numbered after the parameters [pre] accepts the same rows *)
Lemma accepts_shift g e e' ps pre E r : solid g -> c_values (of_g g) = Ok ps -> reads (of_g g) 0 e -> reads (of_g g) (length pre) e' ->
  accepts E (pre ++ ps)%list e' r = accepts E ps e r.
Proof.
  intros Hg Ev H0 Hn. destruct (solid_facts g Hg) as (_ & Hw & Hs & Hl). unfold accepts.
  destruct (reads_says _ _ _ _ Hw Hl H0 Ev) as [A0 _]. destruct (reads_says _ _ _ _ Hw Hl Hn Ev) as [An _].
  rewrite !where_columns_atoms, A0, An, !numbered_columns.
  assert (exists v, means (row_of E r) (of_g g) v) as (v & Hm).
  { destruct (where_sem (row_of E r) g 0 Hw (Hs _)) as (s & vs' & e1 & v & _ & _ & _ & F & _). eauto. }
  rewrite (eval_reads _ g (length pre) e' ps v pre Hw (Hs _) Hn Ev Hm eq_refl).
  now rewrite (eval_reads _ g 0 e ps v [] Hw (Hs _) H0 Ev Hm eq_refl : eval _ ps e = _).
Qed.

(** * A select from one table *)

Lemma all_some_app {A} (l l' : list (option A)) : all_some (l ++ l') =
  match all_some l, all_some l' with Some a, Some b => Some (a ++ b)%list | _, _ => None end.
Proof.
  induction l as [|[x|] l IH]; cbn; [now destruct (all_some l')| |reflexivity].
  rewrite IH. destruct (all_some l), (all_some l'); reflexivity.
Qed.
Lemma insert_row_perm {A} E x l : Permutation (@insert_row E A x l) (x :: l).
Proof.
  induction l as [|y l IH]; [reflexivity|]. cbn. destruct (earlier E (fst y) (fst x)); [|reflexivity].
  rewrite IH. apply perm_swap.
Qed.
Lemma sort_rows_perm {A} E l : Permutation (@sort_rows E A l) l.
Proof.
  induction l as [|x l IH]; [reflexivity|]. cbn [sort_rows fold_right]. change (fold_right (insert_row E) [] l) with (sort_rows E l).
  rewrite insert_row_perm. now constructor.
Qed.
Lemma map_snd_combine {A B} (a : list A) (b : list B) : length a = length b -> map snd (combine a b) = b.
Proof. revert b. induction a as [|x a IH]; intros [|y b] H; try discriminate; [reflexivity|]. cbn. rewrite IH; auto. Qed.
Lemma ordered_perm E cols os rows r : ordered E cols os rows = Some r -> Permutation r rows.
Proof.
  unfold ordered. destruct (all_some _) as [ks|] eqn:K; [|discriminate]. intros [= <-].
  apply all_some_length in K. rewrite map_length in K. rewrite <- (map_snd_combine ks rows K) at 2. apply Permutation_map, sort_rows_perm.
Qed.
Lemma ordered_nil E cols rows : ordered E cols [] rows = Some rows.
Proof.
  unfold ordered, keys. cbn [map all_some].
  assert (K : all_some (map (fun _ : frow E => Some (@nil (cell E * bool))) rows) = Some (map (fun _ => []) rows)).
  { induction rows as [|r rows IH]; [reflexivity|]. cbn. now rewrite IH. }
  rewrite K. f_equal. induction rows as [|r rows IH]; [reflexivity|]. cbn [map combine sort_rows fold_right].
  change (fold_right (insert_row E) [] (combine (map (fun _ => []) rows) rows)) with (sort_rows E (combine (map (fun _ : frow E => []) rows) rows)).
  assert (K' : all_some (map (fun _ : frow E => Some (@nil (cell E * bool))) rows) = Some (map (fun _ => []) rows)).
  { clear IH K. induction rows as [|r' rows IH]; [reflexivity|]. cbn. now rewrite IH. }
  specialize (IH K'). remember (sort_rows E (combine (map (fun _ : frow E => []) rows) rows)) as z eqn:Ez.
  destruct z as [|[ky y] z]; [now cbn in *; rewrite <- IH|]. cbn [insert_row fst].
  assert (E0 : earlier E ky [] = false) by (destruct ky as [|[? ?] ?]; reflexivity). rewrite E0. cbn [map snd]. cbn [map snd] in IH. now rewrite IH.
Qed.
Lemma chosen_map {A B} (f : A -> B) l hs : chosen (combine (map f l) hs) = map f (chosen (combine l hs)).
Proof.
  unfold chosen. revert hs. induction l as [|x l IH]; intros [|h hs]; try reflexivity. cbn. destruct h; cbn; now rewrite IH.
Qed.
Lemma output_star E (n : string) (us : list (tuple E)) : all_some (map (output E Star) (map (fun u => [(n, u)]) us)) = Some us.
Proof. induction us as [|u us IH]; [reflexivity|]. cbn in *. rewrite IH, app_nil_r. reflexivity. Qed.

Lemma one_table E db ps T e : kept_rows E db ps (mkSel Star (mkItem T None) [] (Some e) [] None None) =
  match db T with
  | Some t => match hits E ps T t e with Some hs => Some (map (fun u => [(label (mkItem T None), u)]) (chosen (combine (tuples E t) hs))) | None => None end
  | None => None
  end.
Proof.
  unfold kept_rows, from_rows. cbn [s_from s_joins s_where it_text]. destruct (db T) as [t|]; [|reflexivity].
  cbn [map distinct existsb negb andb join_all where_rows]. unfold hits. rewrite map_map.
  destruct (all_some (map (fun u => accepts E ps e [(label (mkItem T None), u)]) (tuples E t))) as [hs|]; [|reflexivity]. now rewrite chosen_map.
Qed.
Lemma one_table_rows E db ps T e os l : all_rows E db ps Star (mkItem T None) [] (Some e) os = Some l ->
  exists t hs, db T = Some t /\ hits E ps T t e = Some hs /\ Permutation l (chosen (combine (tuples E t) hs)).
Proof.
  unfold all_rows. change (kept_rows E db ps (mkSel Star (mkItem T None) [] (Some e) os None None)) with (kept_rows E db ps (mkSel Star (mkItem T None) [] (Some e) [] None None)).
  rewrite one_table. destruct (db T) as [t|]; [|discriminate]. destruct (hits E ps T t e) as [hs|] eqn:Eh; [|discriminate].
  destruct (ordered E Star os _) as [r|] eqn:Er; [|discriminate]. apply ordered_perm in Er. intros El. exists t, hs. split; [reflexivity|]. split; [exact Eh|].
  apply Permutation_map_inv in Er as (us & -> & Hp). rewrite output_star in El. injection El as <-. now symmetry.
Qed.
Lemma one_table_plain E db ps T e : all_rows E db ps Star (mkItem T None) [] (Some e) [] =
  match db T with
  | Some t => match hits E ps T t e with Some hs => Some (chosen (combine (tuples E t) hs)) | None => None end
  | None => None
  end.
Proof.
  unfold all_rows. rewrite one_table. destruct (db T) as [t|]; [|reflexivity]. destruct (hits E ps T t e) as [hs|]; [|reflexivity].
  now rewrite ordered_nil, output_star.
Qed.
Lemma hits_length E ps T t e hs : hits E ps T t e = Some hs -> length hs = length (r_rows E t).
Proof. intros H. apply all_some_length in H. unfold tuples in H. now rewrite !map_length in H. Qed.

(** * C73: DELETE removes the rows the SELECT returns *)

(** the flags [hs] say which rows of the table the SELECT [s], [ps] returns; the statement [s'], [ps'] removes these, changes nothing
    else, and after it the SELECT returns nothing *)
Definition deletes_selected (T : string) (s : string) (ps : list gval) (s' : string) (ps' : list gval) : Prop :=
  forall E db l, query E db s ps = Some (Rows E l) -> exists t hs db',
    db T = Some t /\ length hs = length (r_rows E t) /\
    Permutation l (map (combine (r_columns E t)) (chosen (combine (r_rows E t) hs))) /\
    change E db s' ps' = Some db' /\
    db' T = Some (mkRel E (r_columns E t) (chosen (combine (r_rows E t) (map negb hs)))) /\
    (forall n, n <> T -> db' n = db n) /\ query E db' s ps = Some (Rows E []).

Lemma others {A} (l : list A) hs : map fst (filter (fun rh => negb (snd rh)) (combine l hs)) = chosen (combine l (map negb hs)).
Proof.
  unfold chosen. revert hs. induction l as [|x l IH]; intros [|h hs]; try reflexivity. cbn. destruct h; cbn; now rewrite IH.
Qed.
Lemma all_some_chosen {A B} (f : A -> option B) (g : B -> bool) l : forall bs, all_some (map f l) = Some bs ->
  all_some (map f (chosen (combine l (map g bs)))) = Some (filter g bs).
Proof.
  unfold chosen. induction l as [|x l IH]; intros bs H; [cbn in H; injection H as <-; reflexivity|]. cbn in H.
  destruct (f x) as [b|] eqn:Ef; [|discriminate]. destruct (all_some (map f l)) as [r|]; [|discriminate]. injection H as <-.
  cbn. destruct (g b); cbn; [rewrite Ef|]; now rewrite (IH r eq_refl).
Qed.
Lemma none_chosen {A} (l : list A) hs : chosen (combine l (filter negb hs)) = [].
Proof.
  unfold chosen. revert l. induction hs as [|h hs IH]; intros l; [now destruct l|]. destruct h; cbn; [apply IH|].
  destruct l as [|x l]; [reflexivity|]. cbn. apply IH.
Qed.
Lemma hits_rows E ps T t e : hits E ps T t e = all_some (map (fun r => accepts E ps e [(label (mkItem T None), combine (r_columns E t) r)]) (r_rows E t)).
Proof. unfold hits, tuples. now rewrite map_map. Qed.

Lemma change_delete s d : parse_delete s = Some d -> forall E db ps, change E db s ps = run_delete E db ps d.
Proof.
  intros H E db ps. unfold change. rewrite H. unfold parse_delete, parse_insert, parse_update in *.
  destruct (lex s) as [|[a| | | | | | | | | | | | | |] [|[b|w| | | | | | | | | | | | |] r]]; try discriminate H.
  unfold p_delete in H. destruct r as [|[c|w| | | | | | | | | | | | |] r]; try discriminate H.
  destruct (String.eqb a "DELETE" && String.eqb b "FROM") eqn:K; [|discriminate H]. apply andb_true_iff in K as [K1 K2].
  apply String.eqb_eq in K1. apply String.eqb_eq in K2. subst a b.
  assert (I : p_insert (TKw "DELETE" :: TKw "FROM" :: TId w :: r) = None) by (destruct r as [|[]]; reflexivity).
  now rewrite I.
Qed.
Lemma with_same E db n t : with_table E db n t n = Some t. Proof. unfold with_table. now rewrite String.eqb_refl. Qed.
Lemma with_other E db n t m : m <> n -> with_table E db n t m = db m.
Proof. intros H. unfold with_table. apply String.eqb_neq in H. now rewrite H. Qed.

(** [e] selects, and deletes, in table [T]; [os]: an ORDER BY *)
Lemma deletes_intro T e os s ps ps1 s' ps' :
  (forall E db, query E db s ps = match all_rows E db ps1 Star (mkItem T None) [] (Some e) os with Some l => Some (Rows E l) | None => None end) ->
  parse_delete s' = Some (mkDel T e) -> (forall E r, accepts E ps' e r = accepts E ps1 e r) ->
  deletes_selected T s ps s' ps'.
Proof.
  intros Hq Hd Hp E db l K. rewrite Hq in K. destruct (all_rows _ _ _ _ _ _ _ _) as [l'|] eqn:El; [|discriminate]. injection K as ->.
  destruct (one_table_rows _ _ _ _ _ _ _ El) as (t & hs & Et & Eh & Pl).
  assert (Eh' : hits E ps' T t e = Some hs).
  { rewrite <- Eh. unfold hits. f_equal. apply map_ext. intros u. apply Hp. }
  set (t' := mkRel E (r_columns E t) (chosen (combine (r_rows E t) (map negb hs)))).
  exists t, hs, (with_table E db T t'). split; [exact Et|]. split; [now apply hits_length in Eh|].
  split; [unfold tuples in Pl; now rewrite chosen_map in Pl|]. split.
  { rewrite (change_delete _ _ Hd). unfold run_delete. cbn [de_table de_where]. rewrite Et, Eh', others. reflexivity. }
  split; [apply with_same|]. split; [intros n; apply with_other|].
  rewrite Hq. assert (Eh2 : hits E ps1 T t' e = Some (filter negb hs)).
  { rewrite hits_rows in *. cbn [t' r_columns r_rows]. now apply all_some_chosen. }
  destruct (all_rows E (with_table E db T t') ps1 Star (mkItem T None) [] (Some e) os) as [l'|] eqn:El'.
  - destruct (one_table_rows _ _ _ _ _ _ _ El') as (t2 & hs2 & Et2 & Eh3 & Pl2). rewrite with_same in Et2. injection Et2 as <-.
    rewrite Eh2 in Eh3. injection Eh3 as <-. rewrite none_chosen in Pl2. apply Permutation_sym, Permutation_nil in Pl2. now subst.
  - exfalso. unfold all_rows in El'.
    change (kept_rows E (with_table E db T t') ps1 (mkSel Star (mkItem T None) [] (Some e) os None None))
      with (kept_rows E (with_table E db T t') ps1 (mkSel Star (mkItem T None) [] (Some e) [] None None)) in El'.
    rewrite one_table, with_same, Eh2, none_chosen in El'. discriminate El'.
Qed.

Definition alike (g g' : group) : Prop := g' = g \/ carries g g'.
Lemma alike_facts g g' : alike g g' -> solid g -> g_cs g' <> [] /\ wf (of_g g') /\ (forall rho, sound rho (of_g g')) /\
  (forall n e, reads (of_g g') n e -> reads (of_g g) n e) /\ c_values (of_g g') = c_values (of_g g).
Proof.
  intros Ha Hg. destruct (solid_facts g Hg) as (Hne & Hw & Hs & _). destruct Ha as [-> |Hc]; [repeat (split; [assumption|]); auto|].
  pose proof (fun rho => carries_ready rho _ _ Hc Hne (or_intror (conj Hw (Hs rho)))) as K.
  destruct Hc as (C1 & _ & C3 & C4 & _). split; [now rewrite C4|]. split; [apply (K row0)|]. split; [intros rho; apply K|].
  split; [|exact C3]. intros n e (w & R1 & R2). exists w. now rewrite <- C1.
Qed.
(** the statement of a DELETE whose conditions are those of [g] *)
Lemma delete_text d g T : d_table d = T -> qname T -> alike g (d_where d) -> solid g -> exists s e ps,
  d_build d = Ok (mkOut s ps None) /\ c_values (of_g g) = Ok ps /\ reads (of_g g) 0 e /\ parse_delete s = Some (mkDel T e).
Proof.
  intros Td Hq Hc Hg. destruct (alike_facts _ _ Hc Hg) as (Hne & Hw & Hs & Hr & Hv).
  destruct (delete_build row0 d) as (s & ws & e & v & E1 & E2 & E3 & E6 & _); auto.
  { now rewrite Td. }
  exists s, e, ws. split; [exact E1|]. split; [congruence|]. split; [auto|now rewrite <- Td].
Qed.
(** a select from one table without alias, without Fields and joins *)
Definition simple (b : bsel) (T : string) : Prop := b_fields b = [] /\ b_joins b = [] /\ b_table b = mkT T "".
Lemma simple_item b T : simple b T -> table_item (b_table b) = mkItem T None.
Proof. intros (_ & _ & ->). reflexivity. Qed.

Lemma delete_of m d T : simple (m_base m) T -> qname T -> Forall wf_sort (m_order m) -> ready (m_base m) -> solid (b_where (m_base m)) ->
  m_offset m = 0%N -> (m_limit m <= 0)%Z -> d_table d = T -> alike (b_where (m_base m)) (d_where d) ->
  exists s ps s' ps', m_build m = Ok (mkOut s ps None) /\ d_build d = Ok (mkOut s' ps' None) /\ deletes_selected T s ps s' ps'.
Proof.
  intros Hsi Hq Ho Hr Hg Hof Hl Td Hc. destruct (many_query m Hr Ho) as (s & t & ps & we & E1 & E2 & E3 & E4 & E5).
  destruct (delete_text d _ T Td Hq Hc Hg) as (s' & e & ps' & D1 & D2 & D3 & D4).
  destruct (ready_where _ Hr) as (t' & ps1 & we1 & F1 & F2 & F3 & _). rewrite E1 in F1. injection F1 as <- <-. rewrite E2 in F2. injection F2 as <-.
  destruct (solid_facts _ Hg) as (Hne & _). specialize (F3 row0). destruct we as [e'|]; [|destruct F3; contradiction].
  destruct F3 as (_ & Ev & Hre & _). rewrite D2 in Ev. injection Ev as ->. rewrite (reads_fun _ _ _ _ Hre D3) in *.
  eexists s, _, s', ps. split; [exact E4|]. split; [exact D1|]. apply (deletes_intro T e (map sort_item (m_order m)) _ _ ps); auto.
  intros E db. rewrite E5. rewrite (simple_item _ _ Hsi). destruct Hsi as (-> & -> & _). cbn [cols_item map].
  destruct (all_rows _ _ _ _ _ _ _ _) as [l|]; [|reflexivity]. unfold slice. rewrite Hof.
  destruct (Z.ltb_spec 0 (m_limit m)); [lia|]. reflexivity.
Qed.

Lemma base_query b : ready b -> exists t ps we, b_build b = Ok (mkOut t ps None) /\ (forall rho, where_says rho (b_where b) we ps) /\ bound_where ps we /\
  forall E db, query E db t ps =
    match all_rows E db ps (cols_item (b_fields b)) (table_item (b_table b)) (map join_item (b_joins b)) we [] with
    | Some l => Some (Rows E l)
    | None => None
    end.
Proof.
  intros Hr. destruct (ready_where b Hr) as (t & ps & we & E1 & E2 & E3 & E4). exists t, ps, we. repeat (split; [assumption|]).
  intros E db. unfold query. rewrite E2. unfold base_sel. rewrite run_rows. cbn [amount]. now destruct (all_rows _ _ _ _ _ _ _ _).
Qed.

Lemma delete_of_base b d T : simple b T -> qname T -> ready b -> solid (b_where b) -> d_table d = T -> alike (b_where b) (d_where d) ->
  exists s ps s' ps', b_build b = Ok (mkOut s ps None) /\ d_build d = Ok (mkOut s' ps' None) /\ deletes_selected T s ps s' ps' /\
    forall E db, query E db s ps = None -> change E db s' ps' = None.
Proof.
  intros Hsi Hq Hr Hg Td Hc. destruct (base_query b Hr) as (s & ps & we & E1 & F3 & E3 & E5).
  destruct (delete_text d _ T Td Hq Hc Hg) as (s' & e & ps' & D1 & D2 & D3 & D4).
  destruct (solid_facts _ Hg) as (Hne & _). specialize (F3 row0). destruct we as [e'|]; [|destruct F3; contradiction].
  destruct F3 as (_ & Ev & Hre & _). rewrite D2 in Ev. injection Ev as ->. rewrite (reads_fun _ _ _ _ Hre D3) in *.
  rewrite (simple_item _ _ Hsi) in E5. destruct Hsi as (Hf & Hj & _). rewrite Hf, Hj in E5. cbn [cols_item map] in E5.
  exists s, ps, s', ps. split; [exact E1|]. split; [exact D1|]. split; [now apply (deletes_intro T e [] _ _ ps)|].
  intros E db K. rewrite E5, one_table_plain in K. rewrite (change_delete _ _ D4). unfold run_delete. cbn [de_table de_where].
  destruct (db T) as [t|]; [|reflexivity]. destruct (hits E ps T t e) as [hs|]; [discriminate|reflexivity].
Qed.

Lemma wheres_calls h : forall b, calls b_add_where b h = calls b_call b (map BWhere h).
Proof. induction h as [|cs h IH]; intros b; [reflexivity|]. cbn. destruct (b_add_where b cs); auto. Qed.
Lemma wheres_flat (h : list (list cond)) : flat_map bc_where (map BWhere h) = h.
Proof. induction h as [|cs h IH]; [reflexivity|]. cbn. now rewrite IH. Qed.
Lemma wheres_fields (h : list (list cond)) d : last_of bc_fields d (map BWhere h) = d.
Proof. revert d. induction h as [|cs h IH]; intros d; [reflexivity|]. apply IH. Qed.
Lemma wheres_joins (h : list (list cond)) : flat_map bc_join (map BWhere h) = [].
Proof. induction h as [|cs h IH]; [reflexivity|]. exact IH. Qed.

(** the state after Where calls *)
Lemma where_state p T h : table_p p = Ok (mkT T "") -> qname T -> Forall (Forall regular) h -> List.concat h <> [] ->
  exists b0 b, select_from p = Ok b0 /\ calls b_add_where b0 h = Ok b /\ simple b T /\ ready b /\ solid (b_where b) /\
    calls group_and empty_group h = Ok (b_where b).
Proof.
  intros Et Hq Hh Hne. assert (Hb : Forall plain_b (map BWhere h)) by (apply Forall_map; eapply Forall_impl; [|exact Hh]; auto).
  assert (Ht : wf_table (mkT T "")) by (split; [exact Hq|now left]).
  destruct (base_history row0 p _ _ Et Ht (plain_b_wf _ _ Hb)) as (b0 & b & E0 & Eb & _ & Ib).
  exists b0, b. split; [exact E0|]. rewrite wheres_calls. split; [exact Eb|].
  rewrite wheres_flat, wheres_fields, wheres_joins in Ib. pose proof (proj2 (concat_Forall _ _) Hh) as Hr.
  destruct Ib as (I1 & I2 & I3 & I4 & I5). split; [repeat split; assumption|]. split.
  { apply (is_ready b (mkT T "") [] [] h); auto. repeat split; auto. }
  split; [exists h; auto|exact I5].
Qed.

Theorem C73_delete : forall p T h, table_p p = Ok (mkT T "") -> raw_table_name p = T -> qname T -> Forall (Forall regular) h -> List.concat h <> [] ->
  exists b0 b d s ps s' ps',
    select_from p = Ok b0 /\ calls b_add_where b0 h = Ok b /\ b_build b = Ok (mkOut s ps None) /\
    calls d_add_where (delete_ p) h = Ok d /\ d_build d = Ok (mkOut s' ps' None) /\
    deletes_selected T s ps s' ps' /\ forall E db, query E db s ps = None -> change E db s' ps' = None.
Proof.
  intros p T h Et Hp Hq Hh Hne. destruct (where_state p T h Et Hq Hh Hne) as (b0 & b & E0 & Eb & Hsi & Hr & Hg & I5).
  destruct (d_total row0 h (delete_ p) empty_ok) as (d & Ed).
  { eapply Forall_impl; [|exact Hh]. intros cs. apply regular_all. }
  destruct (d_calls_is h (delete_ p) _ [] eq_refl Ed) as (_ & J2 & J4). cbn in J2, J4. rewrite I5 in J4. injection J4 as J4.
  destruct (delete_of_base b d T Hsi Hq Hr Hg) as (s & ps & s' & ps' & K1 & K2 & K3 & K4).
  { now rewrite J2. } { now left. }
  exists b0, b, d, s, ps, s', ps'. auto 10.
Qed.
Print Assumptions C73_delete.

(** the statement of a select run on [shop], and the table users after a statement *)
Definition users_after (o : res out) : res (option (list (list (option nat)))) :=
  do r <- o; Ok (table_of (change numbers shop (o_sql r) (o_params r)) "users").
Definition h_shop : list (list cond) := [[num_cond KGe "" "age" 20]; [num_cond KLt "users" "id" 4]].
Lemma h_shop_regular : Forall (Forall regular) h_shop.
Proof. constructor; [constructor; [by_num "age"|constructor]|]. constructor; [constructor; [by_num "users.id"|constructor]|constructor]. Qed.
Example C73_delete_example :
  table_p (TPName "users") = Ok (mkT "users" "") /\ raw_table_name (TPName "users") = "users" /\ qname "users" /\
  Forall (Forall regular) h_shop /\ List.concat h_shop <> [] /\
  ask (do b0 <- select_from (TPName "users"); do b <- calls b_add_where b0 h_shop; b_build b) =
    Ok (rows [[("id", Some 1); ("age", Some 30)]; [("id", Some 3); ("age", Some 20)]]) /\
  users_after (do d <- calls d_add_where (delete_ (TPName "users")) h_shop; d_build d) = Ok (Some [[Some 2; None]; [Some 4; Some 30]]).
Proof.
  split; [vm_compute; reflexivity|]. split; [vm_compute; reflexivity|]. split; [constructor; reflexivity|]. split; [exact h_shop_regular|].
  split; [discriminate|]. split; vm_compute; reflexivity.
Qed.

(** ** The DELETE derived from a select *)

Lemma base_state p T h : table_p p = Ok (mkT T "") -> qname T -> Forall (Forall regular) h ->
  exists b0 b, select_from p = Ok b0 /\ calls b_add_where b0 h = Ok b /\ b_is b (mkT T "") [] [] h /\ wf_table (mkT T "").
Proof.
  intros Et Hq Hh. assert (Hb : Forall plain_b (map BWhere h)) by (apply Forall_map; eapply Forall_impl; [|exact Hh]; auto).
  assert (Ht : wf_table (mkT T "")) by (split; [exact Hq|now left]).
  destruct (base_history row0 p _ _ Et Ht (plain_b_wf _ _ Hb)) as (b0 & b & E0 & Eb & _ & Ib).
  exists b0, b. split; [exact E0|]. rewrite wheres_calls. split; [exact Eb|]. rewrite wheres_flat, wheres_fields, wheres_joins in Ib. auto.
Qed.

(** Where and OrderBy *)
Definition filters (c : mcall) : Prop :=
  match c with MWhere cs => Forall regular cs | MOrder os => Forall wf_sort os | _ => False end.
Lemma filters_plain h : Forall filters h -> Forall plain_m h.
Proof. apply Forall_impl. intros [fs|cs|t jt l r|os|o|l]; simpl; tauto. Qed.
Lemma filters_keep h : Forall filters h -> flat_map mc_join h = [] /\
  (forall d, last_of mc_fields d h = d) /\ (forall d, last_of mc_offset d h = d) /\ (forall d, last_of mc_limit d h = d).
Proof.
  induction 1 as [|c h Hc _ (I1 & I2 & I3 & I4)]; [repeat split|]. destruct c; cbn in Hc; try contradiction; cbn; auto.
Qed.

Lemma many_state p T h hm : table_p p = Ok (mkT T "") -> qname T -> Forall (Forall regular) h -> Forall filters hm ->
  List.concat (h ++ flat_map mc_where hm) <> [] ->
  exists b0 b m, select_from p = Ok b0 /\ calls b_add_where b0 h = Ok b /\ calls m_call (many_of b) hm = Ok m /\
    simple (m_base m) T /\ Forall wf_sort (m_order m) /\ ready (m_base m) /\ solid (b_where (m_base m)) /\ m_offset m = 0%N /\ m_limit m = (-1)%Z /\
    derived (m_base m) (m_update m) (m_delete m).
Proof.
  intros Et Hq Hh Hm Hne. destruct (base_state p T h Et Hq Hh) as (b0 & b & E0 & Eb & Ib & Ht).
  pose proof (filters_plain hm Hm) as Hm'. destruct (filters_keep hm Hm) as (K1 & K2 & K3 & K4).
  assert (Gb : g_ok (b_where b)).
  { destruct Ib as (_ & _ & _ & _ & I5). destruct (where_group row0 h empty_group _ empty_ok (Forall_nil _) (regular_all _ _ (proj2 (concat_Forall _ _) Hh)) I5). assumption. }
  destruct (calls_total m_call (fun m => g_ok (b_where (m_base m))) (wf_mcall row0)) with (h := hm) (a := many_of b) as (m & Em & Gm); auto.
  { intros a x. apply m_call_total. } { now apply plain_m_wf. }
  destruct (m_calls_is hm (many_of b) m _ _ _ _ [] 0%N (-1)%Z (conj Ib (conj eq_refl (conj eq_refl eq_refl))) Em) as (J & Jo & Jf & Jl).
  rewrite K1, K2, app_nil_r in J. rewrite K3 in Jf. rewrite K4 in Jl. cbn [app] in Jo.
  assert (Hr : Forall regular (List.concat (h ++ flat_map mc_where hm))).
  { rewrite List.concat_app. apply Forall_app. split; [now apply concat_Forall|now apply plain_m_regular]. }
  exists b0, b, m. split; [exact E0|]. split; [exact Eb|]. split; [exact Em|]. pose proof J as (_ & J2 & J3 & J4 & J5).
  split; [repeat split; assumption|]. split; [rewrite Jo; apply (mcall_args row0 hm [] (Forall_nil _) (plain_m_wf _ _ Hm'))|].
  split; [now apply (is_ready _ _ _ _ _ J)|]. split; [eexists; eauto|]. split; [exact Jf|]. split; [exact Jl|].
  rewrite wheres_calls in Eb. apply (proj1 (proj2 (C33_conditions p b0 _ b E0 Eb)) hm m Em).
Qed.

(** The claim "the DELETE derived from a select removes the rows the select returns" is false: Limit and Offset are dropped, so rows
    the select does not return are removed; joins and the alias are dropped, so the database rejects the statement. *)
Theorem C73_derived_refuted :
  (exists b0 m m1 d s ps s' ps' l db' t', select_from (TPName "users") = Ok b0 /\ m_add_where (many_of b0) [age30 ""] = Ok m /\
     m1 = m_set_limit m 1 /\ m_build m1 = Ok (mkOut s ps None) /\ m_delete m1 = Ok d /\ d_build d = Ok (mkOut s' ps' None) /\
     query numbers shop s ps = Some (Rows numbers l) /\ length l = 1 /\ change numbers shop s' ps' = Some db' /\
     db' "users" = Some t' /\ length (r_rows numbers t') = 2) /\
  (exists b0 b d s ps s' ps' l, select_from (TPName "users as u") = Ok b0 /\ b_add_where b0 [age30 "u"] = Ok b /\
     b_build b = Ok (mkOut s ps None) /\ b_delete b = Ok d /\ d_build d = Ok (mkOut s' ps' None) /\
     query numbers shop s ps = Some (Rows numbers l) /\ length l = 2 /\ change numbers shop s' ps' = None) /\
  (exists b0 b1 b d s ps s' ps' l, select_from (TPName "users") = Ok b0 /\
     b_join b0 (mkT "orders" "") 0 (mkF "id" "users" "") (mkF "uid" "orders" "") = Ok b1 /\
     b_add_where b1 [CLeaf (mkLeaf KEq AND false (mkF "total" "orders" "") (VOther 9))] = Ok b /\
     b_build b = Ok (mkOut s ps None) /\ b_delete b = Ok d /\ d_build d = Ok (mkOut s' ps' None) /\
     query numbers shop s ps = Some (Rows numbers l) /\ length l = 1 /\ change numbers shop s' ps' = None).
Proof.
  split; [|split].
  - do 11 eexists. repeat (split; [reflexivity|]). reflexivity.
  - do 8 eexists. repeat (split; [reflexivity|]). reflexivity.
  - do 9 eexists. repeat (split; [reflexivity|]). reflexivity.
Qed.
Print Assumptions C73_derived_refuted.

(** It holds for a select from a table without alias that has only Where and OrderBy calls. *)
Theorem C73_derived_partial : forall p T h hm, table_p p = Ok (mkT T "") -> qname T -> Forall (Forall regular) h -> Forall filters hm ->
  List.concat (h ++ flat_map mc_where hm) <> [] ->
  exists b0 b m d s ps s' ps', select_from p = Ok b0 /\ calls b_add_where b0 h = Ok b /\ calls m_call (many_of b) hm = Ok m /\
    m_build m = Ok (mkOut s ps None) /\ m_delete m = Ok d /\ d_build d = Ok (mkOut s' ps' None) /\ deletes_selected T s ps s' ps'.
Proof.
  intros p T h hm Et Hq Hh Hm Hne. destruct (many_state p T h hm Et Hq Hh Hm Hne) as (b0 & b & m & E0 & Eb & Em & Hsi & Ho & Hr & Hg & Hof & Hl & Hd).
  destruct Hd as (d & Ed & Td & Cd & _). assert (Tt : t_name (b_table (m_base m)) = T) by (destruct Hsi as (_ & _ & ->); reflexivity).
  destruct (delete_of m d T Hsi Hq Ho Hr Hg Hof) as (s & ps & s' & ps' & K1 & K2 & K3); [lia|congruence|now right|].
  exists b0, b, m, d, s, ps, s', ps'. auto 10.
Qed.
Print Assumptions C73_derived_partial.

Definition hm_users : list mcall := [MOrder [mkS (mkF "age" "" "") "DESC"]; MWhere [num_cond KLt "" "id" 4]].
Lemma hm_users_filters : Forall filters hm_users.
Proof.
  constructor; [constructor; [split; [by_field|right; reflexivity]|constructor]|].
  constructor; [constructor; [by_num "id"|constructor]|constructor].
Qed.
Definition m_users : res msel :=
  do b0 <- select_from (TPStr "users"); do b <- calls b_add_where b0 [[num_cond KGe "" "age" 20]]; calls m_call (many_of b) hm_users.
Example C73_derived_example :
  table_p (TPStr "users") = Ok (mkT "users" "") /\ Forall (Forall regular) [[num_cond KGe "" "age" 20]] /\ Forall filters hm_users /\
  ask (do m <- m_users; m_build m) = Ok (rows [[("id", Some 1); ("age", Some 30)]; [("id", Some 3); ("age", Some 20)]]) /\
  users_after (do m <- m_users; do d <- m_delete m; d_build d) = Ok (Some [[Some 2; None]; [Some 4; Some 30]]).
Proof.
  split; [vm_compute; reflexivity|]. split; [constructor; [constructor; [by_num "age"|constructor]|constructor]|].
  split; [exact hm_users_filters|]. split; vm_compute; reflexivity.
Qed.

(** * C74: UPDATE changes the rows the SELECT returns, in the given columns *)

(** the columns [cs] get the stored values of [vs]; the other columns keep their value *)
Definition updates_selected (T : string) (cs : list string) (vs : list gval) (s : string) (ps : list gval) (s' : string) (ps' : list gval) : Prop :=
  forall E db l, query E db s ps = Some (Rows E l) -> exists t hs,
    db T = Some t /\ length hs = length (r_rows E t) /\
    Permutation l (map (combine (r_columns E t)) (chosen (combine (r_rows E t) hs))) /\
    (NoDup cs -> incl cs (r_columns E t) -> exists db',
     change E db s' ps' = Some db' /\ (forall n, n <> T -> db' n = db n) /\
     db' T = Some (mkRel E (r_columns E t) (map (fun rh : list (cell E) * bool =>
       if snd rh then map (fun cv => match assoc (fst cv) (combine cs (map (stored E) vs)) with Some v => v | None => snd cv end)
                          (combine (r_columns E t) (fst rh))
       else fst rh) (combine (r_rows E t) hs)))).

Lemma distinct_nodup l : NoDup l -> distinct l = true.
Proof.
  induction 1 as [|x l Hx _ IH]; [reflexivity|]. cbn. rewrite IH, andb_true_r. apply negb_true_iff. destruct (existsb (String.eqb x) l) eqn:K; [|reflexivity].
  exfalso. apply existsb_exists in K as (y & Hy & K). apply String.eqb_eq in K. now subst.
Qed.
Lemma known_incl E t cs : NoDup cs -> incl cs (r_columns E t) -> known_columns E t cs = true.
Proof.
  intros H1 H2. unfold known_columns. rewrite distinct_nodup by exact H1. apply forallb_forall. intros c Hc. apply existsb_exists.
  exists c. split; [now apply H2|apply String.eqb_refl].
Qed.
Lemma change_update s d : parse_update s = Some d -> forall E db ps, change E db s ps = run_update E db ps d.
Proof.
  intros H E db ps. unfold change. rewrite H. unfold parse_insert, parse_update in *.
  destruct (lex s) as [|[a| | | | | | | | | | | | | |] [|[b|w| | | | | | | | | | | | |] r]]; try discriminate H. reflexivity.
Qed.
Lemma map_fst_combine {A B} (a : list A) (b : list B) : length a = length b -> map fst (combine a b) = a.
Proof. revert b. induction a as [|x a IH]; intros [|y b] H; try discriminate; [reflexivity|]. cbn. rewrite IH; auto. Qed.
Lemma singles_length fvs vs : singles fvs vs -> length (col_names fvs) = length vs.
Proof. intros H. unfold col_names. rewrite map_length. induction H; cbn; auto. Qed.

Lemma updates_intro T cs vs e e' os s ps ps1 s' : length cs = length vs ->
  (forall E db, query E db s ps = match all_rows E db ps1 Star (mkItem T None) [] (Some e) os with Some l => Some (Rows E l) | None => None end) ->
  parse_update s' = Some (mkUpd T (combine cs (seq 1 (length vs))) e') -> (forall E r, accepts E (vs ++ ps1)%list e' r = accepts E ps1 e r) ->
  updates_selected T cs vs s ps s' (vs ++ ps1).
Proof.
  intros Hlen Hq Hd Hp E db l K. rewrite Hq in K. destruct (all_rows _ _ _ _ _ _ _ _) as [l'|] eqn:El; [|discriminate]. injection K as ->.
  destruct (one_table_rows _ _ _ _ _ _ _ El) as (t & hs & Et & Eh & Pl).
  assert (Eh' : hits E (vs ++ ps1)%list T t e' = Some hs).
  { rewrite <- Eh. unfold hits. f_equal. apply map_ext. intros u. apply Hp. }
  exists t, hs. split; [exact Et|]. split; [now apply hits_length in Eh|].
  split; [unfold tuples in Pl; now rewrite chosen_map in Pl|]. intros Hn Hi. eexists. split.
  - rewrite (change_update _ _ Hd). unfold run_update. cbn [up_table up_sets up_where].
    rewrite map_fst_combine, map_snd_combine by (now rewrite seq_length). unfold params.
    rewrite (bind_seq [] vs ps1 : bind_params (vs ++ ps1) (seq 1 (length vs)) = Some vs), Et, known_incl, Eh' by assumption. reflexivity.
  - split; [intros n; apply with_other|]. now rewrite with_same.
Qed.

Lemma update_text u g T fvs vs : u_table u = T -> u_values u = fvs -> fvs <> [] -> singles fvs vs -> Forall (fun c => name c = true) (col_names fvs) ->
  qname T -> alike g (u_where u) -> solid g -> exists s e ps,
  u_build u = Ok (mkOut s (vs ++ ps) None) /\ c_values (of_g g) = Ok ps /\ reads (of_g g) (length vs) e /\
  parse_update s = Some (mkUpd T (combine (col_names fvs) (seq 1 (length vs))) e).
Proof.
  intros Td Hv Hn Hs Hc Hq Ha Hg. destruct (alike_facts _ _ Ha Hg) as (Hne & Hw & Hso & Hr & Hvs).
  destruct (update_build row0 u vs) as (s & ws & e & v & E1 & E2 & E3 & E6 & _); auto; rewrite ?Td, ?Hv; auto.
  exists s, e, ws. split; [exact E1|]. split; [congruence|]. split; [auto|now rewrite <- Td, <- Hv].
Qed.

Lemma update_of m u T fvs vs : simple (m_base m) T -> qname T -> Forall wf_sort (m_order m) -> ready (m_base m) -> solid (b_where (m_base m)) ->
  m_offset m = 0%N -> (m_limit m <= 0)%Z -> u_table u = T -> u_values u = fvs -> fvs <> [] -> singles fvs vs ->
  Forall (fun c => name c = true) (col_names fvs) -> alike (b_where (m_base m)) (u_where u) ->
  exists s ps s' ps', m_build m = Ok (mkOut s ps None) /\ u_build u = Ok (mkOut s' ps' None) /\ updates_selected T (col_names fvs) vs s ps s' ps'.
Proof.
  intros Hsi Hq Ho Hr Hg Hof Hl Td Hv Hn Hs Hcn Hc. destruct (many_query m Hr Ho) as (s & t & ps & we & E1 & E2 & E3 & E4 & E5).
  destruct (update_text u _ T fvs vs Td Hv Hn Hs Hcn Hq Hc Hg) as (s' & e & ps' & D1 & D2 & D3 & D4).
  destruct (ready_where _ Hr) as (t' & ps1 & we1 & F1 & F2 & F3 & _). rewrite E1 in F1. injection F1 as <- <-. rewrite E2 in F2. injection F2 as <-.
  destruct (solid_facts _ Hg) as (Hne & _). specialize (F3 row0). destruct we as [e'|]; [|destruct F3; contradiction].
  destruct F3 as (_ & Ev & Hre & _). rewrite D2 in Ev. injection Ev as ->.
  eexists s, _, s', _. split; [exact E4|]. split; [exact D1|]. apply (updates_intro T _ _ e' e (map sort_item (m_order m))); auto.
  - now apply singles_length.
  - intros E db. rewrite E5. rewrite (simple_item _ _ Hsi). destruct Hsi as (-> & -> & _). cbn [cols_item map].
    destruct (all_rows _ _ _ _ _ _ _ _) as [l|]; [|reflexivity]. unfold slice. rewrite Hof.
    destruct (Z.ltb_spec 0 (m_limit m)); [lia|]. reflexivity.
  - intros E r. now apply (accepts_shift (b_where (m_base m))).
Qed.

(** a base select builds what the select many made from it builds *)
Lemma base_many b : ready b -> exists s ps, b_build b = Ok (mkOut s ps None) /\ m_build (many_of b) = Ok (mkOut s ps None).
Proof.
  intros Hr. destruct (ready_where b Hr) as (s & ps & we & E1 & _). exists s, ps. split; [exact E1|].
  unfold m_build. cbn [m_base many_of]. rewrite E1. cbn [bind o_sql o_params m_order m_offset m_limit many_of].
  change (0 <? 0)%N with false. change (0 <? -1)%Z with false. cbv iota. cbn [order_clause]. now rewrite app_nil_r_s.
Qed.

Theorem C74_update : forall p T h vs, let sets := flat_map uc_set h in
  table_p p = Ok (mkT T "") -> raw_table_name p = T -> qname T -> sets <> [] -> singles sets vs ->
  Forall (fun c => name c = true) (map (fun x => f_name (fv_def x)) sets) ->
  Forall plain_u h -> List.concat (flat_map uc_where h) <> [] ->
  exists b0 b u s ps s' ps',
    select_from p = Ok b0 /\ calls b_add_where b0 (flat_map uc_where h) = Ok b /\ b_build b = Ok (mkOut s ps None) /\
    calls u_call (update_ p) h = Ok u /\ u_build u = Ok (mkOut s' ps' None) /\
    updates_selected T (map (fun x => f_name (fv_def x)) sets) vs s ps s' ps'.
Proof.
  intros p T h vs sets Et Hp Hq Hs1 Hs2 Hs3 Hu Hne.
  assert (Hh : Forall (Forall regular) (flat_map uc_where h)) by now apply concat_Forall, plain_u_regular.
  destruct (where_state p T _ Et Hq Hh Hne) as (b0 & b & E0 & Eb & Hsi & Hr & Hg & I5).
  destruct (u_total row0 h (update_ p) empty_ok (plain_u_wf _ _ Hu)) as (u & Eu).
  destruct (u_calls_is h (update_ p) _ [] eq_refl Eu) as (_ & J2 & J3 & J4). cbn in J2, J3, J4. rewrite I5 in J4. injection J4 as J4.
  destruct (base_many b Hr) as (s & ps & K1 & K2).
  destruct (update_of (many_of b) u T sets vs) as (s2 & ps2 & s' & ps' & L1 & L2 & L3); auto; try now constructor.
  { cbn. lia. } { now rewrite J2. }
  rewrite K2 in L1. injection L1 as <- <-. exists b0, b, u, s, ps, s', ps'. auto 10.
Qed.
Print Assumptions C74_update.

Definition hu_shop : list ucall := [USet [fv "age" (VOther 21)]; UWhere [num_cond KGe "" "age" 20]; UWhere [num_cond KLt "users" "id" 4]].
Example C74_update_example :
  singles (flat_map uc_set hu_shop) [VOther 21] /\ Forall plain_u hu_shop /\ List.concat (flat_map uc_where hu_shop) <> [] /\
  users_after (do u <- calls u_call (update_ (TPName "users")) hu_shop; u_build u) =
    Ok (Some [[Some 1; Some 21]; [Some 2; None]; [Some 3; Some 21]; [Some 4; Some 30]]).
Proof.
  split; [constructor; [reflexivity|constructor]|]. split; [|split; [discriminate|vm_compute; reflexivity]].
  constructor; [exact I|]. constructor; [constructor; [by_num "age"|constructor]|].
  constructor; [constructor; [by_num "users.id"|constructor]|constructor].
Qed.

(** As for DELETE: the UPDATE derived from a select forgets Limit, so it changes rows the select does not return. *)
Theorem C74_derived_refuted : exists b0 m m1 u s ps s' ps' l db', select_from (TPName "users") = Ok b0 /\ m_add_where (many_of b0) [age30 ""] = Ok m /\
  m1 = m_set_limit m 1 /\ m_build m1 = Ok (mkOut s ps None) /\ m_update m1 [fv "age" (VOther 31)] = Ok u /\ u_build u = Ok (mkOut s' ps' None) /\
  query numbers shop s ps = Some (Rows numbers l) /\ length l = 1 /\ change numbers shop s' ps' = Some db' /\
  table_of (Some db') "users" = Some [[Some 1; Some 31]; [Some 2; None]; [Some 3; Some 20]; [Some 4; Some 31]].
Proof. do 10 eexists. repeat (split; [reflexivity|]). reflexivity. Qed.
Print Assumptions C74_derived_refuted.

Theorem C74_derived_partial : forall p T h hm fvs vs, table_p p = Ok (mkT T "") -> qname T -> Forall (Forall regular) h -> Forall filters hm ->
  List.concat (h ++ flat_map mc_where hm) <> [] -> fvs <> [] -> singles fvs vs -> Forall (fun c => name c = true) (map (fun x => f_name (fv_def x)) fvs) ->
  exists b0 b m u s ps s' ps', select_from p = Ok b0 /\ calls b_add_where b0 h = Ok b /\ calls m_call (many_of b) hm = Ok m /\
    m_build m = Ok (mkOut s ps None) /\ m_update m fvs = Ok u /\ u_build u = Ok (mkOut s' ps' None) /\
    updates_selected T (map (fun x => f_name (fv_def x)) fvs) vs s ps s' ps'.
Proof.
  intros p T h hm fvs vs Et Hq Hh Hm Hne Hf Hs Hc. destruct (many_state p T h hm Et Hq Hh Hm Hne) as (b0 & b & m & E0 & Eb & Em & Hsi & Ho & Hr & Hg & Hof & Hl & Hd).
  destruct Hd as (d & _ & _ & _ & HU). destruct (HU fvs) as (u & Eu & Tu & Vu & Cu).
  assert (Tt : t_name (b_table (m_base m)) = T) by (destruct Hsi as (_ & _ & ->); reflexivity).
  destruct (update_of m u T fvs vs Hsi Hq Ho Hr Hg Hof) as (s & ps & s' & ps' & K1 & K2 & K3); auto; [lia|congruence|now right|].
  exists b0, b, m, u, s, ps, s', ps'. auto 10.
Qed.
Print Assumptions C74_derived_partial.

Example C74_derived_example :
  Forall filters hm_users /\ singles [fv "age" (VOther 21); fv "id" (VOther 9)] [VOther 21; VOther 9] /\
  (do m <- m_users; do u <- m_update m [fv "age" (VOther 21); fv "id" (VOther 9)]; do o <- u_build u; Ok (o_sql o)) =
    Ok "UPDATE users SET age=$1, id=$2 WHERE age>=$3 AND id<$4" /\
  users_after (do m <- m_users; do u <- m_update m [fv "age" (VOther 21); fv "id" (VOther 9)]; u_build u) =
    Ok (Some [[Some 9; Some 21]; [Some 2; None]; [Some 9; Some 21]; [Some 4; Some 30]]).
Proof.
  split; [exact hm_users_filters|]. split; [constructor; [reflexivity|constructor; [reflexivity|constructor]]|].
  split; vm_compute; reflexivity.
Qed.

(** * C75: INSERT adds one row *)

Lemma change_insert s d : parse_insert s = Some d -> forall E db ps, change E db s ps = run_insert E db ps d.
Proof. intros H E db ps. unfold change. now rewrite H. Qed.

(** the new row has the stored values in the given columns and NULL in the others *)
Definition new_row E (columns cs : list string) (vs : list gval) : list (cell E) :=
  map (fun c => match assoc c (combine cs (map (stored E) vs)) with Some v => v | None => null E end) columns.

Theorem C75_insert : forall p T h vs, let sets := List.concat h in let cs := map (fun x => f_name (fv_def x)) sets in
  raw_table_name p = T -> qname T -> sets <> [] -> singles sets vs -> Forall (fun c => name c = true) cs ->
  exists i s, calls i_call (insert_into p) h = Ok i /\ i_build i = Ok (mkOut s vs None) /\
  forall E db t, db T = Some t -> NoDup cs -> incl cs (r_columns E t) -> exists db', change E db s vs = Some db' /\
    (forall n, n <> T -> db' n = db n) /\ db' T = Some (mkRel E (r_columns E t) (r_rows E t ++ [new_row E (r_columns E t) cs vs])).
Proof.
  intros p T h vs sets cs Hp Hq Hn Hs Hc. destruct (insert_history p h vs) as (i & s & E1 & E2 & E3); auto; [now rewrite Hp|].
  exists i, s. split; [exact E1|]. split; [exact E2|]. intros E db t Et Hd Hi. eexists. split.
  - rewrite (change_insert _ _ E3). unfold run_insert. cbn [in_table in_cols in_params]. rewrite Hp, Et. unfold params.
    replace (bind_params vs (seq 1 (length vs))) with (Some vs).
    + change (col_names (List.concat h)) with cs. rewrite known_incl by assumption. rewrite map_length. 
      replace (length cs) with (length vs) by (symmetry; now apply singles_length). rewrite Nat.eqb_refl. reflexivity.
    + symmetry. pose proof (bind_seq [] vs []) as K. rewrite !app_nil_r in K. exact K.
  - split; [intros n; apply with_other|]. now rewrite with_same.
Qed.
Print Assumptions C75_insert.

Example C75_example :
  singles [fv "age" (VOther 40); fv "id" (VOther 5)] [VOther 40; VOther 5] /\
  Forall (fun c => name c = true) ["age"; "id"] /\ NoDup ["age"; "id"] /\ incl ["age"; "id"] ["id"; "age"] /\
  new_row numbers ["id"; "age"] ["age"; "id"] [VOther 40; VOther 5] = [Some 5; Some 40] /\
  users_after (do i <- calls i_call (insert_into (TPName "users")) [[fv "age" (VOther 40)]; [fv "id" (VOther 5)]]; i_build i) =
    Ok (Some [[Some 1; Some 30]; [Some 2; None]; [Some 3; Some 20]; [Some 4; Some 30]; [Some 5; Some 40]]).
Proof.
  split; [constructor; [reflexivity|constructor; [reflexivity|constructor]]|]. split; [repeat constructor|].
  split; [constructor; [intros [|[]]; discriminate|constructor; [intros []|constructor]]|].
  split; [intros x [<-|[<-|[]]]; cbn; auto|]. split; vm_compute; reflexivity.
Qed.
