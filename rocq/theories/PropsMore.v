(** Further property theorems: conversions between builders, laws of Negate and of the
    join word, accessors, order of calls, pagination, names in ORDER BY. *)
From Coq Require Import String Ascii List Bool Arith Lia NArith ZArith.
From Verif Require Import GoStr Value Names Cond Build Surface SqlSpec Spec StrFacts SqlFacts CondFacts CondText CondSem TreeFacts
  CondLogic CondMeaning Built CondThms PropsCond NameFacts PropsNames StmtFacts Calls BuildFacts BuildThms StmtText PropsSelect.
Import ListNotations.
Local Open Scope string_scope.
Local Open Scope nat_scope.

(** * C52 Conversions between select builders *)

(** Full statement (false): calling Many() or Single() on a SelectMany builder changes
    nothing else: its ordering and its pagination stay.  The methods are promoted from
    the embedded base builder and see only that. *)
Theorem C52_refuted : exists m o o', (do m <- select_many_from (TPName "t"); calls m_call m [MOrder [ord_asc "id"]; MLimit 5]) = Ok m /\
  m_build m = Ok o /\ m_build (m_many m) = Ok o' /\ parse_select (o_sql o) <> None /\ parse_select (o_sql o') <> None /\
  parse_select (o_sql o) <> parse_select (o_sql o') /\ o_params o = [VUint 5] /\ o_params o' = [].
Proof.
  eexists _, _, _. split; [vm_compute; reflexivity|]. split; [vm_compute; reflexivity|]. split; [vm_compute; reflexivity|].
  repeat split; vm_compute; congruence.
Qed.
Print Assumptions C52_refuted.

(** a builder's statement and the same with other ordering and bounds *)
Definition reordered (s : select) (os : list (string * string)) (off lim : option bound) : select :=
  mkSel (s_cols s) (s_from s) (s_joins s) (s_where s) os off lim.

Lemma base_unique b t ps we t' ps' we' : b_build b = Ok (ok t ps) -> b_build b = Ok (ok t' ps') ->
  parse_select t = Some (base_sel b we) -> parse_select t' = Some (base_sel b we') -> t' = t /\ ps' = ps /\ we' = we.
Proof.
  intros E E' P P'. rewrite E in E'. unfold ok in E'. assert (t' = t) by congruence. assert (ps' = ps) by congruence. subst.
  rewrite P in P'. unfold base_sel in P'. repeat split; congruence.
Qed.

(** Proved part: columns, table, joins, WHERE and its parameters are kept; the ordering
    and the pagination are exactly what is dropped. *)
Theorem C52_from_many_partial : forall rho m, names_ok (m_base m) -> Forall wf_sort (m_order m) ->
  where_ready rho (b_where (m_base m)) ->
  exists s s1 s2 ps pg sel, m_build m = Ok (mkOut s (ps ++ pg)%list None) /\ parse_select s = Some sel /\
    m_build (m_many m) = Ok (mkOut s1 ps None) /\ parse_select s1 = Some (reordered sel [] None None) /\
    ss_build (m_single m) = Ok (mkOut s2 ps None) /\ parse_select s2 = Some (reordered sel [] None (Some (BLit 1))).
Proof.
  intros rho m Hn Ho Hr. destruct (many_build rho m Hn Ho Hr) as (s & ps & we & E & _ & (t & Et & Pt) & P).
  destruct (many_build rho (m_many m) Hn (Forall_nil _) Hr) as (s1 & p1 & w1 & E1 & _ & (t1 & Et1 & Pt1) & P1).
  destruct (single_build rho (m_single m) Hn Hr) as (t2 & p2 & w2 & E2 & Et2 & _ & Pt2 & P2).
  cbn [m_base m_many b_many many_of m_single ss_base single_of m_order m_offset m_limit] in *.
  destruct (base_unique _ _ _ _ _ _ _ Et Et1 Pt Pt1) as (-> & -> & ->).
  destruct (base_unique _ _ _ _ _ _ _ Et Et2 Pt Pt2) as (-> & -> & ->).
  eexists s, s1, _, ps, (page_params m), _. split; [exact E|]. split; [exact P|].
  split; [rewrite E1; unfold page_params; cbn [m_offset m_limit m_many b_many many_of]; now rewrite app_nil_r|].
  split; [exact P1|]. split; [exact E2|exact P2].
Qed.
Print Assumptions C52_from_many_partial.

(** From a SelectSingle builder nothing but LIMIT 1 is lost, and Offset, Limit and OrderBy
    add their clause. *)
Theorem C52_from_single_partial : forall rho q o l os, names_ok (ss_base q) -> where_ready rho (b_where (ss_base q)) ->
  Forall wf_sort os -> (0 < o)%N -> (0 < l)%Z ->
  exists s s1 s2 s3 s4 ps sel, ss_build q = Ok (mkOut s ps None) /\ parse_select s = Some sel /\
    ss_build (ss_single q) = Ok (mkOut s ps None) /\
    m_build (ss_many q) = Ok (mkOut s1 ps None) /\ parse_select s1 = Some (reordered sel [] None None) /\
    m_build (ss_offset q o) = Ok (mkOut s2 (ps ++ [VUint o]) None) /\
      parse_select s2 = Some (reordered sel [] (Some (BParam (length ps + 1))) None) /\
    m_build (ss_limit q l) = Ok (mkOut s3 (ps ++ [VUint (Z.to_N l)]) None) /\
      parse_select s3 = Some (reordered sel [] None (Some (BParam (length ps + 1)))) /\
    m_build (ss_order q os) = Ok (mkOut s4 ps None) /\ parse_select s4 = Some (reordered sel (map sort_item os) None None).
Proof.
  intros rho q o l os Hn Hr Ho Hpo Hpl.
  destruct (single_build rho q Hn Hr) as (t & ps & we & E & Et & _ & Pt & P).
  destruct (many_build rho (ss_many q) Hn (Forall_nil _) Hr) as (s1 & p1 & w1 & E1 & _ & (t1 & Et1 & Pt1) & P1).
  destruct (many_build rho (ss_offset q o) Hn (Forall_nil _) Hr) as (s2 & p2 & w2 & E2 & _ & (t2 & Et2 & Pt2) & P2).
  destruct (many_build rho (ss_limit q l) Hn (Forall_nil _) Hr) as (s3 & p3 & w3 & E3 & _ & (t3 & Et3 & Pt3) & P3).
  destruct (many_build rho (ss_order q os) Hn Ho Hr) as (s4 & p4 & w4 & E4 & _ & (t4 & Et4 & Pt4) & P4).
  unfold ss_many, ss_offset, ss_limit, ss_order, b_offset, b_limit, b_order, b_many, page_params, off_bound, lim_bound in *.
  cbn [m_base many_of ss_base m_order m_offset m_limit m_set_offset m_set_limit m_add_order] in *.
  destruct (base_unique _ _ _ _ _ _ _ Et Et1 Pt Pt1) as (-> & -> & ->).
  destruct (base_unique _ _ _ _ _ _ _ Et Et2 Pt Pt2) as (-> & -> & ->).
  destruct (base_unique _ _ _ _ _ _ _ Et Et3 Pt Pt3) as (-> & -> & ->).
  destruct (base_unique _ _ _ _ _ _ _ Et Et4 Pt Pt4) as (-> & -> & ->).
  change (0 <? 0)%N with false in *. change (0 <? -1)%Z with false in *.
  replace (0 <? o)%N with true in * by (symmetry; now apply N.ltb_lt).
  replace (0 <? l)%Z with true in * by (symmetry; now apply Z.ltb_lt).
  rewrite ?Nat.add_0_r, ?app_nil_r in *. cbn [app] in *.
  eexists _, s1, s2, s3, s4, ps, _. split; [exact E|]. split; [exact P|]. split; [exact E|].
  split; [exact E1|]. split; [exact P1|]. split; [exact E2|]. split; [exact P2|]. split; [exact E3|]. split; [exact P3|].
  split; [exact E4|exact P4].
Qed.
Print Assumptions C52_from_single_partial.
Example C52_example : exists m, m_sample = Ok m /\ names_ok (m_base m) /\ Forall wf_sort (m_order m) /\
  (forall rho, where_ready rho (b_where (m_base m))) /\
  (do o <- m_build m; Ok (o_sql o)) = Ok
    ("SELECT u.id, o.total AS sum FROM users AS u LEFT JOIN orders AS o ON u.id=o.uid INNER JOIN items AS i ON o.id=i.oid " ++
     "WHERE t.a IN ($1,$2) AND (b=$3 OR c NOT LIKE $4) AND d=$5 ORDER BY id ASC, o.total DESC OFFSET $6 LIMIT $7") /\
  (do o <- ss_build (m_single m); Ok (o_sql o)) = Ok
    ("SELECT u.id, o.total AS sum FROM users AS u LEFT JOIN orders AS o ON u.id=o.uid INNER JOIN items AS i ON o.id=i.oid " ++
     "WHERE t.a IN ($1,$2) AND (b=$3 OR c NOT LIKE $4) AND d=$5 LIMIT 1").
Proof.
  destruct C08_example as [_ (m & E & H1 & H2 & H3)]. exists m. split; [exact E|]. split; [exact H1|]. split; [exact H2|].
  split; [exact H3|].
  split.
  - transitivity (do m <- m_sample; do o <- m_build m; Ok (o_sql o)); [now rewrite E|vm_compute; reflexivity].
  - transitivity (do m <- m_sample; do o <- ss_build (m_single m); Ok (o_sql o)); [now rewrite E|vm_compute; reflexivity].
Qed.

(** * C53 Negate and Join change one thing each *)

(** calls of Negate and Join on a condition *)
Inductive ncall := NNegate (b : bool) | NJoin (j : string).
Definition n_call (c : cond) (x : ncall) : res cond :=
  match x with NNegate b => c_negate b c | NJoin j => c_join j c end.
Definition nc_negate (x : ncall) : option bool := match x with NNegate b => Some b | _ => None end.
Definition nc_join (x : ncall) : option string := match x with NJoin j => Some j | _ => None end.

Definition flagged (j : string) (b : bool) (c : cond) : cond :=
  match c with
  | CNil => CNil
  | CLeaf l => CLeaf {| l_kind := l_kind l; l_join := j; l_neg := b; l_def := l_def l; l_val := l_val l |}
  | CGrp _ _ cs br => CGrp j b cs br
  end.
Lemma flagged_text j j' b c n : c_render (flagged j b c) n = c_render (flagged j' b c) n /\
  c_render_sql (flagged j b c) = c_render_sql (flagged j' b c) /\ c_values (flagged j b c) = c_values (flagged j' b c).
Proof. destruct c as [|l|i ng cs br]; cbn [flagged]; auto; destruct l as [k]; destruct k; auto. Qed.
Lemma flagged_calls h : forall c j b, c <> CNil -> calls n_call (flagged j b c) h =
  Ok (flagged (last_of nc_join j h) (last_of nc_negate b h) c).
Proof.
  induction h as [|x h IH]; intros c j b N; [reflexivity|]. destruct c as [|l|i ng cs br]; [congruence| |];
    destruct x; cbn [calls n_call flagged c_negate c_join l_kind l_join l_neg l_def l_val bind last_of nc_join nc_negate];
    [apply (IH (CLeaf l))|apply (IH (CLeaf l))|apply (IH (CGrp i ng cs br))|apply (IH (CGrp i ng cs br))]; discriminate.
Qed.

(** After any sequence of Negate and Join calls on any condition: IsNegate is the last
    Negate, JoinType the last Join (or what they were); the text is the one a single
    Negate gives, in both placeholder styles and at every offset; a sequence that ends at
    the original flag changes neither text nor values.  The values never change for the
    library's conditions (a user-written one may look at the flag). *)
Theorem C53_modifiers : forall c h j b, is_negate c = Ok b -> jtype c = Ok j ->
  exists c' cn, calls n_call c h = Ok c' /\ is_negate c' = Ok (last_of nc_negate b h) /\ jtype c' = Ok (last_of nc_join j h) /\
  c_negate (last_of nc_negate b h) c = Ok cn /\ c_values c' = c_values cn /\ c_render_sql c' = c_render_sql cn /\
  (forall n, c_render c' n = c_render cn n) /\
  (last_of nc_negate b h = b -> c_values c' = c_values c /\ c_render_sql c' = c_render_sql c /\ forall n, c_render c' n = c_render c n) /\
  ((forall l cu, c = CLeaf l -> l_kind l <> KCustom cu) -> c_values c' = c_values c).
Proof.
  intros c h j b Eb Ej. assert (N : c <> CNil) by (intros ->; discriminate).
  assert (F : c = flagged j b c) by (destruct c as [|l|]; cbn in *; [congruence| |]; try destruct l; cbn in *; congruence).
  assert (FN : forall b', c_negate b' c = Ok (flagged j b' c)) by (intros b'; rewrite F; destruct c; [congruence|reflexivity|reflexivity]).
  pose proof (flagged_calls h c j b N) as E. rewrite <- F in E.
  pose proof (fun n => flagged_text (last_of nc_join j h) j (last_of nc_negate b h) c n) as T.
  exists (flagged (last_of nc_join j h) (last_of nc_negate b h) c), (flagged j (last_of nc_negate b h) c).
  split; [exact E|]. split; [destruct c; [congruence|reflexivity|reflexivity]|]. split; [destruct c; [congruence|reflexivity|reflexivity]|].
  split; [apply FN|]. split; [apply (T 0)|]. split; [apply (T 0)|]. split; [intros n; apply T|]. split.
  - intros ->. split; [rewrite F at 2; apply (flagged_text _ j b c 0)|]. split; [rewrite F at 2; apply (flagged_text _ j b c 0)|].
    intros n. rewrite F at 2. apply flagged_text.
  - intros NC. destruct c as [|l|i ng cs br]; [congruence| |reflexivity]. destruct l as [k]. specialize (NC _ (match k with KCustom cu => cu | _ =>
      mkCustom (fun _ _ _ _ => "") (fun _ _ _ => "") (fun _ _ _ => Panic) end) eq_refl). destruct k; try reflexivity. now contradiction NC.
Qed.
Print Assumptions C53_modifiers.
Example C53_example : exists c, (do x <- equal_to "a" (VOther 1); do y <- is_null "b"; or_ x [y]) = Ok c /\
  is_negate c = Ok false /\ jtype c = Ok "OR" /\
  (do c' <- calls n_call c [NNegate true; NJoin "OR"; NNegate false; NNegate true]; c_render c' 4) = Ok "NOT (a=$5 OR b IS NULL)".
Proof. eexists. split; [vm_compute; reflexivity|]. repeat split; vm_compute; reflexivity. Qed.

(** * C54 Accessors report what was asked for *)

(** Full statement (false): after any calls TableName() is the table the builder was made
    for, FieldDefinitions() the last field list and SetValues() everything set.  Fields on
    a SelectSingle builder forgets the table (C31). *)
Theorem C54_refuted : exists q fs, select_single_from (TPName "t") = Ok q /\ b_table_name (ss_base q) = "t" /\
  (do q' <- s_call q (SFields fs); Ok (b_table_name (ss_base q'))) = Ok "".
Proof. eexists _, [mkF "id" "" ""]. repeat split; vm_compute; reflexivity. Qed.
Print Assumptions C54_refuted.

Definition sc_fields (c : scall) : option (list fdef) := match c with SFields fs => Some fs | _ => None end.
(** Proved part: select builders, where for SelectSingle no call is Fields; insert, update
    and delete builders.  A table name with an alias is split for selects and taken as it
    is for the others. *)
Theorem C54_select_partial : forall p t, table_p p = Ok t ->
  (forall b hb b', select_from p = Ok b -> calls b_call b hb = Ok b' ->
     b_table_name b' = t_name t /\ b_field_definitions b' = last_of bc_fields [] hb) /\
  (forall m hm m', select_many_from p = Ok m -> calls m_call m hm = Ok m' ->
     b_table_name (m_base m') = t_name t /\ m_field_definitions m' = last_of mc_fields [] hm /\
     m_field_list m' = match last_of mc_fields [] hm with [] => "*" | fs => join ", " (map render_spec fs) end) /\
  (forall q hs q', select_single_from p = Ok q -> Forall (fun c => sc_fields c = None) hs -> calls s_call q hs = Ok q' ->
     b_table_name (ss_base q') = t_name t /\ ss_field_definitions q' = []).
Proof.
  intros p t Et.
  assert (F : forall b, select_from p = Ok b -> b_is b t [] [] []).
  { intros b E. destruct (select_from_is p b E) as (t' & E' & H). rewrite Et in E'. now injection E' as <-. }
  split; [|split].
  - intros b hb b' E Eh. destruct (b_calls_is hb b b' _ _ _ _ (F b E) Eh) as (_ & H1 & H2 & _).
    unfold b_table_name, b_field_definitions. rewrite H1. auto.
  - intros m hm m' E Eh. unfold select_many_from in E. apply bind_inv in E as (b & Eb & [= <-]).
    destruct (m_calls_is hm (many_of b) m' t [] [] [] [] 0%N (-1)%Z (conj (F b Eb) (conj eq_refl (conj eq_refl eq_refl))) Eh)
      as ((_ & H1 & H2 & _) & _).
    unfold b_table_name, m_field_definitions, m_field_list. rewrite H1, H2. split; [reflexivity|]. split; [reflexivity|].
    unfold field_list. destruct (last_of mc_fields [] hm); reflexivity.
  - intros q hs q' E Hs Eh. unfold select_single_from in E. apply bind_inv in E as (b & Eb & [= <-]).
    assert (K : forall hs q q', Forall (fun c => sc_fields c = None) hs -> calls s_call q hs = Ok q' ->
      b_table (ss_base q') = b_table (ss_base q) /\ b_fields (ss_base q') = b_fields (ss_base q)).
    { clear. induction hs as [|c hs IH]; intros q q' H E; simpl in E; [injection E as <-; auto|]. inversion H; subst.
      destruct (s_call q c) as [q1|] eqn:E1; [|discriminate]. destruct (IH _ _ H3 E) as [-> ->].
      destruct c; [discriminate| |]; cbn [s_call] in E1.
      - unfold ss_add_where, b_add_where in E1. unbind. split; reflexivity.
      - unfold ss_join, b_join, b_on, b_join_open in E1. unbind. split; reflexivity. }
    destruct (K _ _ _ Hs Eh) as [K1 K2]. destruct (F b Eb) as (_ & H1 & H2 & _). unfold b_table_name, ss_field_definitions.
    rewrite K1, K2. cbn [ss_base single_of]. rewrite H1, H2. auto.
Qed.
Print Assumptions C54_select_partial.
(** the table name a caller passed *)
Definition given_name (p : tparam) : string := match p with TPStr s | TPName s => s | TPIdent t => t_name t end.
Theorem C54_write_partial : forall p,
  (forall hi i', calls i_call (insert_into p) hi = Ok i' -> i_table_name i' = given_name p /\ i_set_values i' = List.concat hi) /\
  (forall hu u', calls u_call (update_ p) hu = Ok u' -> u_table_name u' = given_name p /\ u_set_values u' = flat_map uc_set hu) /\
  (forall hd d', calls d_add_where (delete_ p) hd = Ok d' -> d_table_name d' = given_name p).
Proof.
  intros p. replace (given_name p) with (raw_table_name p) by (destruct p; reflexivity). split; [|split].
  - intros hi i' E. destruct (i_calls_is _ _ _ E) as (_ & H1 & H2). auto.
  - intros hu u' E. destruct (u_calls_is hu (update_ p) u' [] eq_refl E) as (_ & H1 & H2 & _). auto.
  - assert (K : forall hd d d', calls d_add_where d hd = Ok d' -> d_table d' = d_table d).
    { induction hd as [|cs hd IH]; intros d d' E; simpl in E; [now injection E as <-|].
      destruct (d_add_where d cs) as [d1|] eqn:E1; [|discriminate]. rewrite (IH _ _ E).
      unfold d_add_where in E1. unbind. reflexivity. }
    intros hd d' E. exact (K _ _ _ E).
Qed.
Print Assumptions C54_write_partial.
Example C54_example : table_p (TPStr "users as u") = Ok (mkT "users" "u") /\
  (do m <- select_many_from (TPStr "users as u");
   do m <- calls m_call m [MFields [mkF "id" "" ""]; MWhere [eqc "a" 1]; MFields [mkF "id" "u" ""; mkF "n" "" "m"]; MLimit 3];
   Ok (b_table_name (m_base m), m_field_list m)) = Ok ("users", "u.id, n AS m") /\
  (do q <- select_single_from (TPStr "users as u"); do q <- calls s_call q [SWhere [eqc "a" 1]; SJoin "o" LeftJoin (mkF "id" "u" "") (mkF "uid" "o" "")];
   Ok (b_table_name (ss_base q))) = Ok "users" /\
  (do u <- calls u_call (update_ (TPName "t")) [USet [mkFV (mkF "a" "" "") (VOther 1)]; UWhere [eqc "id" 1]; USet [mkFV (mkF "b" "" "") (VOther 2)]];
   Ok (u_table_name u, length (u_set_values u))) = Ok ("t", 2).
Proof. repeat split; vm_compute; reflexivity. Qed.

(** * C55 The order of different calls does not matter *)

(** Full statement (false): two histories that make the same calls of each kind in the
    same order (for Fields, Offset and Limit: with the same last value) give the same
    builder.  On SelectSingle, Where before Fields is lost and Where after Fields is not. *)
Definition sc_joins (c : scall) : list (string * Z * fdef * fdef) := match c with SJoin tn jt l r => [(tn, jt, l, r)] | _ => [] end.
Theorem C55_single_refuted : exists q h1 h2 o1 o2, select_single_from (TPName "t") = Ok q /\
  flat_map sc_where h1 = flat_map sc_where h2 /\ flat_map sc_joins h1 = flat_map sc_joins h2 /\
  last_of sc_fields [] h1 = last_of sc_fields [] h2 /\
  (do q1 <- calls s_call q h1; ss_build q1) = Ok o1 /\ (do q2 <- calls s_call q h2; ss_build q2) = Ok o2 /\
  o_params o1 = [] /\ o_params o2 = [VOther 1].
Proof.
  eexists _, [SWhere [eqc "a" 1]; SFields [mkF "id" "" ""]], [SFields [mkF "id" "" ""]; SWhere [eqc "a" 1]], _, _.
  split; [vm_compute; reflexivity|]. do 3 (split; [reflexivity|]). repeat split; vm_compute; reflexivity.
Qed.
Print Assumptions C55_single_refuted.

Definition mc_joins (c : mcall) : list (string * Z * fdef * fdef) := match c with MJoin tn jt l r => [(tn, jt, l, r)] | _ => [] end.
Definition joined (x : string * Z * fdef * fdef) : res joiner :=
  let '(tn, jt, l, r) := x in do t <- table tn; Ok (mkJ t jt (mkJC l r)).
Lemma b_join_is b t jt l r : b_join b t jt l r = Ok (b_set_joins b (b_joins b ++ [mkJ t jt (mkJC l r)])).
Proof. unfold b_join, b_on, b_join_open. cbn [b_joins b_set_joins]. rewrite on_last_join. reflexivity. Qed.

Lemma b_calls_normal h : forall b, calls b_call b h =
  (do g <- calls group_and (b_where b) (flat_map bc_where h);
   Ok (mkB (b_op b) (b_table b) (b_joins b ++ flat_map bc_join h) (last_of bc_fields (b_fields b) h) g)).
Proof.
  induction h as [|c h IH]; intros b; cbn [calls flat_map last_of]; [destruct b; cbn; now rewrite app_nil_r|].
  destruct c as [fs|cs|t jt l r]; cbn [b_call bc_where bc_join bc_fields app bind calls].
  - now rewrite IH.
  - unfold b_add_where. destruct (group_and (b_where b) cs) as [g|]; cbn [bind]; [|reflexivity]. now rewrite IH.
  - rewrite b_join_is. cbn [bind]. rewrite IH. cbn [b_where b_set_joins b_op b_table b_joins b_fields].
    destruct (calls group_and (b_where b) _); cbn [bind]; [|reflexivity]. now rewrite <- app_assoc.
Qed.
Lemma m_calls_normal h : forall m, calls m_call m h =
  (do g <- calls group_and (b_where (m_base m)) (flat_map mc_where h);
   do js <- mapM joined (flat_map mc_joins h);
   Ok (mkM (mkB (b_op (m_base m)) (b_table (m_base m)) (b_joins (m_base m) ++ js) (last_of mc_fields (b_fields (m_base m)) h) g)
     (last_of mc_offset (m_offset m) h) (last_of mc_limit (m_limit m) h) (m_order m ++ flat_map mc_order h))).
Proof.
  induction h as [|c h IH]; intros m; cbn [calls flat_map last_of mapM bind]; [destruct m as [[]]; cbn; now rewrite !app_nil_r|].
  destruct c as [fs|cs|tn jt l r|os|o|l]; cbn [m_call mc_where mc_joins mc_fields mc_offset mc_limit mc_order app bind calls].
  - now rewrite IH.
  - unfold m_add_where, b_add_where. destruct (group_and (b_where (m_base m)) cs) as [g|]; cbn [bind]; [|reflexivity]. now rewrite IH.
  - unfold m_join. cbn [mapM joined]. destruct (table tn) as [t|] eqn:Et; cbn [bind].
    2: { destruct (calls group_and _ _); reflexivity. }
    rewrite b_join_is. cbn [bind]. rewrite IH. cbn [m_base m_set_base b_where b_set_joins b_op b_table b_joins b_fields m_offset m_limit m_order].
    destruct (calls group_and (b_where (m_base m)) _); cbn [bind]; [|reflexivity].
    destruct (mapM joined _); cbn [bind]; [|reflexivity]. now rewrite <- app_assoc.
  - rewrite IH. cbn [m_base m_add_order m_offset m_limit m_order].
    destruct (calls group_and (b_where (m_base m)) _); cbn [bind]; [|reflexivity].
    destruct (mapM joined _); cbn [bind]; [|reflexivity]. now rewrite <- app_assoc.
  - now rewrite IH.
  - now rewrite IH.
Qed.
Lemma u_calls_normal h : forall u, calls u_call u h =
  (do g <- calls group_and (u_where u) (flat_map uc_where h); Ok (mkU (u_op u) (u_table u) g (u_values u ++ flat_map uc_set h))).
Proof.
  induction h as [|c h IH]; intros u; cbn [calls flat_map bind]; [destruct u; cbn; now rewrite app_nil_r|].
  destruct c as [vs|cs]; cbn [u_call uc_where uc_set app bind calls].
  - rewrite IH. cbn [u_add u_where u_op u_table u_values]. destruct (calls group_and (u_where u) _); cbn [bind]; [|reflexivity].
    now rewrite <- app_assoc.
  - unfold u_add_where. destruct (group_and (u_where u) cs) as [g|]; cbn [bind]; [|reflexivity]. now rewrite IH.
Qed.
Lemma s_calls_normal h : forall q, Forall (fun c => sc_fields c = None) h -> calls s_call q h =
  (do g <- calls group_and (b_where (ss_base q)) (flat_map sc_where h);
   do js <- mapM joined (flat_map sc_joins h);
   Ok (single_of (mkB (b_op (ss_base q)) (b_table (ss_base q)) (b_joins (ss_base q) ++ js) (b_fields (ss_base q)) g))).
Proof.
  induction h as [|c h IH]; intros q H; cbn [calls flat_map mapM bind]; [destruct q as [[]]; cbn; now rewrite app_nil_r|].
  inversion H as [|? ? H1 H2]; subst. specialize (fun q => IH q H2).
  destruct c as [fs|cs|tn jt l r]; [discriminate| |]; cbn [s_call sc_where sc_joins app bind calls].
  - unfold ss_add_where, b_add_where. destruct (group_and (b_where (ss_base q)) cs) as [g|]; cbn [bind]; [|reflexivity]. now rewrite IH.
  - unfold ss_join. cbn [mapM joined]. destruct (table tn) as [t|] eqn:Et; cbn [bind].
    2: { destruct (calls group_and _ _); reflexivity. }
    rewrite b_join_is. cbn [bind]. rewrite IH. cbn [ss_base single_of b_where b_set_joins b_op b_table b_joins b_fields].
    destruct (calls group_and (b_where (ss_base q)) _); cbn [bind]; [|reflexivity].
    destruct (mapM joined _); cbn [bind]; [|reflexivity]. now rewrite <- app_assoc.
Qed.

(** Proved part: all other builders, from any state; also a panic is independent of the
    order of the calls. *)
Theorem C55_partial :
  (forall b h1 h2, flat_map bc_where h1 = flat_map bc_where h2 -> flat_map bc_join h1 = flat_map bc_join h2 ->
     last_of bc_fields (b_fields b) h1 = last_of bc_fields (b_fields b) h2 -> calls b_call b h1 = calls b_call b h2) /\
  (forall m h1 h2, flat_map mc_where h1 = flat_map mc_where h2 -> flat_map mc_joins h1 = flat_map mc_joins h2 ->
     flat_map mc_order h1 = flat_map mc_order h2 ->
     last_of mc_fields (b_fields (m_base m)) h1 = last_of mc_fields (b_fields (m_base m)) h2 ->
     last_of mc_offset (m_offset m) h1 = last_of mc_offset (m_offset m) h2 ->
     last_of mc_limit (m_limit m) h1 = last_of mc_limit (m_limit m) h2 -> calls m_call m h1 = calls m_call m h2) /\
  (forall q h1 h2, Forall (fun c => sc_fields c = None) (h1 ++ h2) -> flat_map sc_where h1 = flat_map sc_where h2 ->
     flat_map sc_joins h1 = flat_map sc_joins h2 -> calls s_call q h1 = calls s_call q h2) /\
  (forall u h1 h2, flat_map uc_where h1 = flat_map uc_where h2 -> flat_map uc_set h1 = flat_map uc_set h2 ->
     calls u_call u h1 = calls u_call u h2).
Proof.
  split; [|split; [|split]].
  - intros b h1 h2 E1 E2 E3. now rewrite !b_calls_normal, E1, E2, E3.
  - intros m h1 h2 E1 E2 E3 E4 E5 E6. now rewrite !m_calls_normal, E1, E2, E3, E4, E5, E6.
  - intros q h1 h2 H E1 E2. apply Forall_app in H as [H1 H2]. now rewrite !s_calls_normal, E1, E2 by assumption.
  - intros u h1 h2 E1 E2. now rewrite !u_calls_normal, E1, E2.
Qed.
Print Assumptions C55_partial.
Example C55_example :
  let h1 := [MLimit 5; MWhere [eqc "a" 1]; MJoin "o" LeftJoin (mkF "id" "t" "") (mkF "uid" "o" ""); MOrder [ord_asc "id"]; MWhere [eqc "b" 2]] in
  let h2 := [MOrder [ord_asc "id"]; MWhere [eqc "a" 1]; MWhere [eqc "b" 2]; MLimit 9; MJoin "o" LeftJoin (mkF "id" "t" "") (mkF "uid" "o" ""); MLimit 5] in
  h1 <> h2 /\ flat_map mc_where h1 = flat_map mc_where h2 /\ flat_map mc_joins h1 = flat_map mc_joins h2 /\
  flat_map mc_order h1 = flat_map mc_order h2 /\ last_of mc_fields [] h1 = last_of mc_fields [] h2 /\
  last_of mc_offset 0%N h1 = last_of mc_offset 0%N h2 /\ last_of mc_limit (-1)%Z h1 = last_of mc_limit (-1)%Z h2 /\
  (do b <- select_from (TPName "t"); do m <- calls m_call (many_of b) h2; m_build m) =
  Ok (mkOut "SELECT * FROM t LEFT JOIN o ON t.id=o.uid WHERE a=$1 AND b=$2 ORDER BY id ASC LIMIT $3" [VOther 1; VOther 2; VUint 5] None).
Proof. cbv zeta. split; [discriminate|]. repeat split; vm_compute; reflexivity. Qed.

(** * C56 The SelectMany builder paginates as a Limiter does *)

(** For every builder: the statement is the one without pagination followed by what a
    Limiter with the same offset and limit renders at that point (nothing when it renders
    nothing), and the parameters are followed by the Limiter's values. *)
Theorem C56_limiter : forall m body ps, m_build (m_set_limit (m_set_offset m 0) (-1)) = Ok (mkOut body ps None) ->
  let q := mkL (Z.to_N (m_limit m)) (m_offset m) in let clause := lim_render q (length ps) in
  m_build m = Ok (mkOut (if String.eqb clause "" then body else body ++ " " ++ clause) (ps ++ lim_values q) None) /\
  (clause = "" <-> lim_values q = []).
Proof.
  intros m body ps E. cbv zeta. unfold m_build in *. cbn [m_base m_set_limit m_set_offset m_order m_offset m_limit] in E.
  destruct (b_build (m_base m)) as [r|]; [|discriminate]. cbn [bind] in *.
  change (0 <? 0)%N with false in E. change (0 <? -1)%Z with false in E. cbv iota in E. unfold ok in E. injection E as <- <-.
  unfold lim_render, lim_values. cbn [lim_offset lim_limit]. rewrite limit_pos.
  destruct (N.ltb_spec 0 (m_offset m)) as [Ho|Ho], (Z.ltb_spec 0 (m_limit m)) as [Hl|Hl];
    repeat match goal with |- context [(?x =? 0)%N] => destruct (N.eqb_spec x 0); try lia end;
    cbn [andb]; unfold ok; rewrite ?app_length; cbn [length]; rewrite ?app_assoc_s, ?app_nil_r, <- ?app_assoc.
  - change (is_empty ("OFFSET $" ++ itoa (Datatypes.length (o_params r) + 1))) with false. cbv iota. rewrite !app_assoc_s.
    split; [reflexivity|]. split; discriminate.
  - split; [reflexivity|]. split; discriminate.
  - split; [reflexivity|]. split; discriminate.
  - split; [reflexivity|]. split; reflexivity.
Qed.
Print Assumptions C56_limiter.
Example C56_example : exists m, (do m <- select_many_from (TPName "t"); calls m_call m [MLimit 5; MOffset 7; MWhere [eqc "a" 1]]) = Ok m /\
  m_build (m_set_limit (m_set_offset m 0) (-1)) = Ok (mkOut "SELECT * FROM t WHERE a=$1" [VOther 1] None) /\
  lim_render (mkL (Z.to_N (m_limit m)) (m_offset m)) 1 = "OFFSET $2 LIMIT $3".
Proof. eexists. split; [vm_compute; reflexivity|]. split; vm_compute; reflexivity. Qed.

(** * C57 A validated field name cannot change the statement *)

Lemma after_dot_inv w : forall a b, after_dot w = Some (a, b) -> w = a ++ "." ++ b.
Proof.
  induction w as [|c w IH]; intros a b E; [discriminate|]. cbn [after_dot] in E. destruct (Ascii.eqb_spec c "."); [injection E as <- <-; now subst|].
  destruct (after_dot w) as [[x y]|]; [|discriminate]. injection E as <- <-. rewrite (IH x y eq_refl). reflexivity.
Qed.
Lemma classify_inv w x : classify w = TId x -> x = w /\ qname w.
Proof.
  unfold classify. destruct w as [|c r]; [discriminate|]. destruct (Ascii.eqb c "$").
  { destruct r; [discriminate|]. destruct (all_chars digit _); discriminate. }
  destruct (all_chars digit _); [discriminate|]. destruct (reserved _); [discriminate|].
  destruct (after_dot (String c r)) as [[a b]|] eqn:E.
  - destruct (name a) eqn:Ea; [|discriminate]. destruct (name b) eqn:Eb; [|discriminate]. intros [= <-]. split; [reflexivity|].
    rewrite (after_dot_inv _ _ _ E). now constructor.
  - destruct (name (String c r)) eqn:En; [|discriminate]. intros [= <-]. split; [reflexivity|now constructor].
Qed.
Lemma end_word_ids w ts x : In (TId x) (end_word w ts) -> qname x \/ In (TId x) ts.
Proof.
  destruct w; [right; assumption|]. cbn [end_word]. intros [H|H]; [left|right; exact H]. apply classify_inv in H as [-> H]. exact H.
Qed.
Lemma lex_from_ids n : forall s w x, String.length s <= n -> In (TId x) (lex_from w s) -> qname x.
Proof.
  induction n as [|n IH]; intros s w x Hn H.
  - destruct s; [|simpl in Hn; lia]. apply end_word_ids in H as [H|[]]; exact H.
  - destruct s as [|c r]; [apply end_word_ids in H as [H|[]]; exact H|]. cbn [String.length] in Hn. cbn [lex_from] in H.
    destruct (word_char c); [eapply IH; [|exact H]; lia|]. apply end_word_ids in H as [H|H]; [exact H|].
    repeat match type of H with
    | In _ (if ?b then _ else _) => destruct b
    | In _ (_ :: _) => destruct H as [H|H]; [discriminate|]
    | In _ (match ?r with EmptyString => _ | String _ _ => _ end) => destruct r
    | In _ [] => destruct H
    end; try (eapply IH; [|exact H]; cbn [String.length] in *; lia).
Qed.
Lemma lex_ids s x : In (TId x) (lex s) -> qname x.
Proof. apply (lex_from_ids (String.length s) s "" x). lia. Qed.

Fixpoint has_col (c : string) (e : expr) : Prop :=
  match e with
  | EAtom _ d _ => d = c
  | ENot a => has_col c a
  | EAnd a b | EOr a b => has_col c a \/ has_col c b
  end.
Lemma grammar_cols c :
  (forall ts e, Prim ts e -> has_col c e -> In (TId c) ts) /\ (forall ts e, NotE ts e -> has_col c e -> In (TId c) ts) /\
  (forall ts e, AndE ts e -> has_col c e -> In (TId c) ts) /\ (forall ts e, OrE ts e -> has_col c e -> In (TId c) ts).
Proof.
  apply grammar_ind; intros; cbn [has_col] in *; subst; try (left; reflexivity); auto; try (right; auto; fail).
  - cbn [app]. right. apply in_or_app. left. auto.
  - apply in_or_app. destruct H3 as [H3|H3]; [left|right; right]; auto.
  - apply in_or_app. destruct H3 as [H3|H3]; [left|right; right]; auto.
Qed.
Lemma parse_col s e c : parse (lex s) = Some e -> has_col c e -> qname c.
Proof. intros E H. apply parse_sound in E. apply (lex_ids s). revert H. now apply grammar_cols. Qed.
Lemma eval_no_col c ps (rho rho' : row) e : ~ has_col c e -> (forall op d vs, d <> c -> rho op d vs = rho' op d vs) ->
  eval rho ps e = eval rho' ps e.
Proof.
  intros N H. induction e as [op d ns|a IH|a IHa b IHb|a IHa b IHb]; cbn [has_col eval] in *.
  - destruct (bind_params ps ns); [|reflexivity]. now rewrite H.
  - now rewrite IH.
  - now rewrite IHa, IHb by tauto.
  - now rewrite IHa, IHb by tauto.
Qed.
Lemma has_col_dec c e : has_col c e \/ ~ has_col c e.
Proof. induction e as [op d ns|a IH|a IHa b IHb|a IHa b IHb]; cbn [has_col]; [destruct (string_dec d c); auto|tauto|tauto|tauto]. Qed.
(** a text that on every row means something about the column c contains c as an identifier *)
Lemma means_col s ps op c vs : (forall rho, truth rho s ps = Some (rho op c vs)) -> qname c.
Proof.
  intros H. unfold truth in H. destruct (parse (lex s)) as [e|] eqn:E; [|specialize (H (fun _ _ _ => T)); discriminate].
  destruct (has_col_dec c e) as [Y|N]; [exact (parse_col _ _ _ E Y)|]. exfalso.
  pose proof (H (fun _ _ _ => F)) as H1. pose proof (H (fun _ d _ => if String.eqb d c then T else F)) as H2.
  rewrite (eval_no_col c ps _ (fun _ _ _ => F) e N) in H2.
  - rewrite H1 in H2. rewrite String.eqb_refl in H2. discriminate.
  - intros op' d vs' Hd. apply String.eqb_neq in Hd. now rewrite Hd.
Qed.

(** Full statement (false): whatever name Validate accepts, the statement is about the
    column of that name and nothing else.  Quotes, blanks and misplaced dots are refused,
    brackets and operators are not: with the name "a=$1)OR(b" the condition
    x=1 AND (<name>=2 OR c=3) accepts rows on which x=1 is false. *)
Definition injected : string := "a=$1)OR(b".
Theorem C57_refuted : exists fn x y z c o s, validate fn = None /\ equal_to "x" (VOther 1) = Ok x /\ equal_to fn (VOther 2) = Ok y /\
  equal_to "c" (VOther 3) = Ok z /\ (do yz <- or_ y [z]; and_ x [yz]) = Ok c /\
  (do b <- select_from (TPName "t"); do b <- b_add_where b [c]; b_build b) = Ok o /\ parse_select (o_sql o) = Some s /\
  exists e rho, s_where s = Some e /\ rho AEq "x" [VOther 1] = F /\ eval rho (o_params o) e = Some T.
Proof.
  eexists injected, _, _, _, _, _, _. split; [reflexivity|]. split; [vm_compute; reflexivity|]. split; [vm_compute; reflexivity|].
  split; [vm_compute; reflexivity|]. split; [vm_compute; reflexivity|]. split; [vm_compute; reflexivity|]. split; [vm_compute; reflexivity|].
  eexists _, (fun _ c _ => if String.eqb c "c" then T else F). repeat split; vm_compute; reflexivity.
Qed.
Print Assumptions C57_refuted.

Lemma valid_equal fn v : validate fn = None -> spaceless fn ->
  exists c, equal_to fn v = Ok c /\ c_render c 0 = Ok (fn ++ "=$1").
Proof.
  intros Hv Hs. destruct (valid_field fn Hv Hs) as (d & Ed & Er & _). unfold equal_to, mk_cond, new_field_value. rewrite Ed.
  cbn [bind fv_def fv_val]. eexists. split; [reflexivity|]. cbn [c_render leaf_render l_kind]. unfold cmp_render. cbn [l_neg l_def].
  rewrite Er. reflexivity.
Qed.
(** Proved part, exact: a condition on a validated name means the comparison of the column
    of that name if and only if the name is an identifier or two with a dot between, not
    reserved.  The same for a sort item: it is read back as that column. *)
Theorem C57_condition_partial : forall fn v, validate fn = None -> spaceless fn ->
  exists c s, equal_to fn v = Ok c /\ c_render c 0 = Ok s /\
    ((forall rho, truth rho s [v] = Some (rho AEq fn [v])) <-> qname fn).
Proof.
  intros fn v Hv Hs. destruct (valid_equal fn v Hv Hs) as (c & Ec & Er). exists c, (fn ++ "=$1"). split; [exact Ec|]. split; [exact Er|].
  split; [apply means_col|]. intros Hq rho. unfold truth. rewrite lex_qname by (auto; reflexivity). reflexivity.
Qed.
Print Assumptions C57_condition_partial.

Lemma until_in ks ts a b x : until ks ts = (a, b) -> (In x a \/ In x b) -> In x ts.
Proof.
  revert a b. induction ts as [|t ts IH]; intros a b E H; simpl in E; [injection E as <- <-; tauto|].
  destruct (existsb _ ks); [injection E as <- <-; destruct H as [[]|H]; exact H|].
  destruct (until ks ts) as [a' b'] eqn:E'. injection E as <- <-. destruct H as [[->|H]|H]; [now left| |]; right; eapply IH; eauto.
Qed.
Lemma p_sorts_in n : forall ts l c d, length ts <= n -> p_sorts ts = Some l -> In (c, d) l -> In (TId c) ts.
Proof.
  induction n as [|n IH]; intros ts l c d Hn E H; [destruct ts; [discriminate|simpl in Hn; lia]|].
  destruct ts as [|[| x | | | | | | | | | | | | |] [|[k| | | | | | | | | | | | | |] ts]]; try discriminate.
  cbn [p_sorts] in E. destruct ts as [|[] ts]; try discriminate.
  - destruct (direction k); [|discriminate]. injection E as <-. destruct H as [[= <- <-]|[]]. now left.
  - destruct (direction k); [|discriminate]. destruct (p_sorts ts) as [l'|] eqn:E'; [|discriminate]. injection E as <-.
    destruct H as [[= <- <-]|H]; [now left|]. do 3 right. eapply IH; [|exact E'|exact H]. simpl in Hn. lia.
Qed.
Lemma select_order_ids s sel c d : parse_select s = Some sel -> In (c, d) (s_order sel) -> qname c.
Proof.
  intros E H. apply (lex_ids s). unfold parse_select, p_select in E. destruct (lex s) as [|[k| | | | | | | | | | | | | |] r0]; try discriminate.
  destruct (String.eqb k "SELECT"); [|discriminate]. right.
  destruct (until ["FROM"] r0) as [cs r1] eqn:E1. destruct r1 as [|[k1| | | | | | | | | | | | | |] r2]; try discriminate.
  destruct (until _ r2) as [fs r3] eqn:E2. destruct (until _ r3) as [ws r4] eqn:E3. destruct (until _ r4) as [os r5] eqn:E4.
  destruct (until _ r5) as [offs lims] eqn:E5.
  destruct (p_cols cs); [|discriminate]. destruct (p_from fs) as [[f js]|]; [|discriminate]. destruct (p_where ws); [|discriminate].
  destruct (p_order os) as [ords|] eqn:Eo; [|discriminate]. destruct (p_bound "OFFSET" offs); [|discriminate].
  destruct (p_bound "LIMIT" lims); [|discriminate]. injection E as <-. cbn [s_order] in H.
  eapply until_in; [exact E1|]. right. right. eapply until_in; [exact E2|]. right. eapply until_in; [exact E3|]. right.
  eapply until_in; [exact E4|]. left. unfold p_order in Eo. destruct os as [|[k2| | | | | | | | | | | | | |] [|[k3| | | | | | | | | | | | | |] os]]; try discriminate.
  - injection Eo as <-. destruct H.
  - destruct (_ && _); [|discriminate]. right. right. eapply p_sorts_in; [|exact Eo|exact H]. reflexivity.
Qed.
Theorem C57_order_partial : forall fn, validate fn = None -> spaceless fn ->
  exists o m s, asc fn = Ok o /\ (do m <- select_many_from (TPName "t"); Ok (m_add_order m [o])) = Ok m /\
    m_build m = Ok (mkOut s [] None) /\
    ((exists sel, parse_select s = Some sel /\ s_order sel = [(fn, "ASC")]) <-> qname fn).
Proof.
  intros fn Hv Hs. destruct (valid_field fn Hv Hs) as (d & Ed & Er & Ef & Ea).
  pose (b := mkB DoSelect (mkT "t" "") [] [] empty_group). pose (m := mkM b 0%N (-1)%Z [mkS d "ASC"]).
  assert (Em : m_build m = Ok (mkOut ("SELECT * FROM t ORDER BY " ++ fn ++ " ASC") [] None)).
  { unfold m_build, m, b. cbn [m_base m_order m_offset m_limit]. change (b_build _) with (Ok (ok "SELECT * FROM t" [])).
    cbn [bind ok o_sql o_params]. unfold order_clause, s_render. cbn [map s_def s_dir]. rewrite Ef. reflexivity. }
  exists (mkS d "ASC"), m. eexists. split; [unfold asc, sort_by; rewrite Hv, Ed; reflexivity|]. split; [reflexivity|]. split; [exact Em|].
  split.
  - intros (sel & E & Eo). eapply select_order_ids; [exact E|]. rewrite Eo. now left.
  - intros Hq. unfold parse_select. change ("SELECT * FROM t ORDER BY " ++ fn ++ " ASC") with ("SELECT * FROM t ORDER BY" ++ " " ++ fn ++ " ASC").
    rewrite lex_sp, lex_qname by (auto; reflexivity). eexists. split; [reflexivity|reflexivity].
Qed.
Print Assumptions C57_order_partial.
Example C57_example : validate "users.id" = None /\ spaceless "users.id" /\ qname "users.id" /\
  validate injected = None /\ spaceless injected /\ ~ qname injected.
Proof.
  split; [reflexivity|]. split; [apply C26_example|]. split; [apply (qn_dot "users" "id"); reflexivity|]. split; [reflexivity|].
  split.
  - apply C26_exactly; [reflexivity|]. eexists. split; vm_compute; reflexivity.
  - intros H. apply qname_word in H. discriminate.
Qed.

(** * C59 Calls without arguments *)

(** Full statement (false): a call without arguments changes nothing.  Fields() resets the
    selected columns. *)
Theorem C59_fields_refuted : exists b r r', b_build b = Ok r /\ b_build (b_set_fields b []) = Ok r' /\
  parse_select (o_sql r) <> None /\ parse_select (o_sql r') <> None /\ parse_select (o_sql r) <> parse_select (o_sql r').
Proof.
  exists (mkB DoSelect (mkT "t" "") [] [mkF "id" "" ""] empty_group). eexists _, _.
  split; [vm_compute; reflexivity|]. split; [vm_compute; reflexivity|]. repeat split; vm_compute; congruence.
Qed.
Print Assumptions C59_fields_refuted.

(** calls that say something *)
Definition b_says (c : bcall) : bool := match c with BWhere [] => false | _ => true end.
Definition m_says (c : mcall) : bool := match c with MWhere [] | MOrder [] => false | _ => true end.
Definition s_says (c : scall) : bool := match c with SWhere [] => false | _ => true end.
Definition u_says (c : ucall) : bool := match c with UWhere [] | USet [] => false | _ => true end.
Definition says {A} (l : list A) : bool := match l with [] => false | _ => true end.
(** a clause without nil conditions: every clause made with the API from non-nil conditions *)
Definition filled (g : group) : Prop := Forall (fun c => no_nil c) (g_cs g).

Lemma filled_and g cs : filled g -> Forall built cs -> exists g', group_and g cs = Ok g' /\ filled g'.
Proof.
  intros Hg Hc. destruct (add_conditions_spec AND g cs Hg) as (r & E & H & _); [|eauto].
  rewrite Forall_forall in *. intros c Hi. now apply built_no_nil, Hc.
Qed.
Lemma and_nothing g : filled g -> group_and g [] = Ok g.
Proof.
  intros Hg. unfold group_and, add_conditions. destruct (has_one_ok g AND Hg) as (x & ->), (has_one_ok g OR Hg) as (y & ->). reflexivity.
Qed.
Lemma skip_calls {A B} (f : A -> B -> res A) (I : A -> Prop) (ok : B -> Prop) (p : B -> bool) :
  (forall a x a', I a -> ok x -> f a x = Ok a' -> I a') -> (forall a x, I a -> p x = false -> f a x = Ok a) ->
  forall h a, I a -> Forall ok h -> calls f a h = calls f a (filter p h).
Proof.
  intros Hi Hp. induction h as [|x h IH]; intros a Ha Hh; [reflexivity|]. inversion Hh; subst. simpl.
  destruct (p x) eqn:P; simpl.
  - destruct (f a x) eqn:E; [|reflexivity]. apply IH; eauto.
  - rewrite Hp by assumption. now apply IH.
Qed.

Theorem C59_noop_partial :
  (forall b h, filled (b_where b) -> Forall built (List.concat (flat_map bc_where h)) -> calls b_call b h = calls b_call b (filter b_says h)) /\
  (forall m h, filled (b_where (m_base m)) -> Forall built (List.concat (flat_map mc_where h)) -> calls m_call m h = calls m_call m (filter m_says h)) /\
  (forall s h, filled (b_where (ss_base s)) -> Forall built (List.concat (flat_map sc_where h)) -> calls s_call s h = calls s_call s (filter s_says h)) /\
  (forall i h, calls i_call i h = calls i_call i (filter says h)) /\
  (forall u h, filled (u_where u) -> Forall built (List.concat (flat_map uc_where h)) -> calls u_call u h = calls u_call u (filter u_says h)) /\
  (forall d h, filled (d_where d) -> Forall built (List.concat h) -> calls d_add_where d h = calls d_add_where d (filter says h)).
Proof.
  assert (S : forall (B : Type) (proj : B -> list (list cond)) h, Forall built (List.concat (flat_map proj h)) ->
    Forall (fun x => Forall built (List.concat (proj x))) h).
  { intros B proj. induction h as [|x h IH]; simpl; intros H; constructor.
    - rewrite List.concat_app in H. now apply Forall_app in H.
    - apply IH. rewrite List.concat_app in H. now apply Forall_app in H. }
  split; [|split; [|split; [|split; [|split]]]].
  - intros b h Hb Hh. apply S in Hh. revert h b Hb Hh. apply (skip_calls b_call (fun b => filled (b_where b)) _ b_says).
    + intros b [fs|cs|t jt l r] b' Hb Hx E; simpl in *; unfold b_add_where, b_join, b_on in *.
      * now inversion E.
      * rewrite app_nil_r in Hx. destruct (filled_and _ cs Hb Hx) as (g & Eg & Hg). rewrite Eg in E. now inversion E.
      * unbind. subst. exact Hb.
    + intros b [fs|[|]|] Hb P; try discriminate. simpl. unfold b_add_where. rewrite and_nothing by assumption. now destruct b.
  - intros b h Hb Hh. apply S in Hh. revert h b Hb Hh. apply (skip_calls m_call (fun m => filled (b_where (m_base m))) _ m_says).
    + intros b [fs|cs|t jt l r|os|o|z] b' Hb Hx E; simpl in *; unfold m_add_where, m_join, b_join, b_on, b_add_where in *.
      * now inversion E.
      * rewrite app_nil_r in Hx. destruct (filled_and _ cs Hb Hx) as (g & Eg & Hg). rewrite Eg in E. now inversion E.
      * unbind. subst. exact Hb.
      * now inversion E.
      * now inversion E.
      * now inversion E.
    + intros b [fs|[|]| |[|]| |] Hb P; try discriminate; simpl.
      * unfold m_add_where, b_add_where. rewrite and_nothing by assumption. now destruct b as [[] ? ? ?].
      * unfold m_add_order. rewrite app_nil_r. now destruct b.
  - intros b h Hb Hh. apply S in Hh. revert h b Hb Hh. apply (skip_calls s_call (fun m => filled (b_where (ss_base m))) _ s_says).
    + intros b [fs|cs|t jt l r] b' Hb Hx E; simpl in *; unfold ss_add_where, ss_join, b_join, b_on, b_add_where in *.
      * inversion E. constructor.
      * rewrite app_nil_r in Hx. destruct (filled_and _ cs Hb Hx) as (g & Eg & Hg). rewrite Eg in E. now inversion E.
      * unbind. subst. exact Hb.
    + intros b [fs|[|]|] Hb P; try discriminate; simpl. unfold ss_add_where, b_add_where. rewrite and_nothing by assumption. now destruct b as [[]].
  - intros i h. apply (skip_calls i_call (fun _ => True) (fun _ => True) says); auto.
    + intros a [|] _ P; [|discriminate]. unfold i_call, i_add. rewrite app_nil_r. now destruct a.
    + now apply Forall_forall.
  - intros b h Hb Hh. apply S in Hh. revert h b Hb Hh. apply (skip_calls u_call (fun m => filled (u_where m)) _ u_says).
    + intros b [vs|cs] b' Hb Hx E; simpl in *; unfold u_add_where in *.
      * now inversion E.
      * rewrite app_nil_r in Hx. destruct (filled_and _ cs Hb Hx) as (g & Eg & Hg). rewrite Eg in E. now inversion E.
    + intros b [[|]|[|]] Hb P; try discriminate; simpl.
      * unfold u_add. rewrite app_nil_r. now destruct b.
      * unfold u_add_where. rewrite and_nothing by assumption. now destruct b.
  - intros b h Hb Hh. assert (Hh' : Forall (Forall built) h).
    { clear -Hh. induction h as [|x h IH]; simpl in *; constructor; apply Forall_app in Hh; [apply Hh|apply IH, Hh]. }
    clear Hh. revert h b Hb Hh'. apply (skip_calls d_add_where (fun m => filled (d_where m)) _ says).
    + intros b cs b' Hb Hx E; unfold d_add_where in *. destruct (filled_and _ cs Hb Hx) as (g & Eg & Hg). rewrite Eg in E. now inversion E.
    + intros b [|] Hb P; try discriminate. unfold d_add_where. rewrite and_nothing by assumption. now destruct b.
Qed.
Print Assumptions C59_noop_partial.
Example C59_example : filled (b_where (mkB DoSelect (mkT "t" "") [] [] empty_group)) /\ built (eqc "a" 1) /\
  filter b_says [BWhere []; BWhere [eqc "a" 1]; BWhere []; BFields []] = [BWhere [eqc "a" 1]; BFields []].
Proof. split; [constructor|]. split; [apply (bt_lib KEq "a" (VOther 1)); reflexivity|reflexivity]. Qed.

(** * C60 WhereClause.ApplyFieldSpec *)

(** The clause is the same clause with the definition replaced on the conditions of that name, and
    what it says about a row is what the old clause says when those conditions read the new column. *)
Theorem C60_clause_spec : forall w spec, built (of_g w) -> exists w', w_apply_spec w spec = Ok w' /\
  g_join w' = g_join w /\ g_neg w' = g_neg w /\ g_br w' = g_br w /\ length (w_conditions w') = length (w_conditions w) /\
  leaves (of_g w') = map (fun l => mkLeaf (l_kind l) (l_join l) (l_neg l)
    (if String.eqb (f_name (l_def l)) (f_name spec) then spec else l_def l) (l_val l)) (leaves (of_g w)) /\
  ((forall l cu, In l (leaves (of_g w)) -> l_kind l <> KCustom cu) -> w_values w' = w_values w) /\
  built (of_g w').
Proof.
  intros w spec Hb. pose proof (built_no_nil _ Hb) as Hn. unfold w_apply_spec.
  destruct (C44_apply_spec spec _ Hb) as (r & E & Er & El). rewrite E. cbn [bind]. subst r.
  eexists. split; [reflexivity|]. repeat split.
  - unfold w_conditions. simpl. apply map_length.
  - exact El.
  - intros Hk. exact (upd_values _ _ Hk).
  - eapply bt_spec; [exact Hb|]. rewrite E. reflexivity.
Qed.
Print Assumptions C60_clause_spec.
Example C60_example : exists w, built (of_g w) /\ w_render w 0 = Ok "a=$1 AND b=$2" /\
  (do w' <- w_apply_spec w (mkF "b" "u" ""); w_render w' 0) = Ok "a=$1 AND u.b=$2".
Proof.
  assert (Hd : forall d, In d [eqc "a" 1; eqc "b" 2] -> built d).
  { intros d [<-|[<-|[]]]; [apply (bt_lib KEq "a" (VOther 1))|apply (bt_lib KEq "b" (VOther 2))]; reflexivity. }
  eexists. split; [exact (bt_group AND _ _ Hd and_or_AND eq_refl)|]. split; reflexivity.
Qed.
