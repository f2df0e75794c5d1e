(** Exact forms of C73 and C74: what DELETE and UPDATE made from a select with a page do. *)
From Coq Require Import String Ascii List Bool Arith NArith ZArith Lia Permutation.
From Verif Require Import GoStr Value Names Cond Build Surface SqlSpec DbSpec Spec StrFacts SqlFacts CondFacts CondText CondSem
  TreeFacts CondLogic CondMeaning Built CondThms PropsCond NameFacts PropsNames StmtFacts Calls BuildFacts BuildThms StmtText PropsSelect
  PropsWrite PropsSurface PropsMore AtomFacts PropsAtoms PropsOrder PropsDb.
Import ListNotations.
Local Open Scope string_scope.
Local Open Scope nat_scope.

(** Where, OrderBy, Offset and Limit *)
Definition narrows (c : mcall) : Prop := match c with MOffset _ | MLimit _ => True | _ => filters c end.
Lemma narrows_plain h : Forall narrows h -> Forall plain_m h.
Proof. apply Forall_impl. intros [fs|cs|t jt l r|os|o|l]; simpl; tauto. Qed.
Lemma narrows_keep h : Forall narrows h -> flat_map mc_join h = [] /\ forall d, last_of mc_fields d h = d.
Proof.
  induction 1 as [|c h Hc _ (I1 & I2)]; [split; reflexivity|]. destruct c; cbn in Hc; try contradiction; cbn; auto.
Qed.

Lemma paged_state p T h hm : table_p p = Ok (mkT T "") -> qname T -> Forall (Forall regular) h -> Forall narrows hm ->
  List.concat (h ++ flat_map mc_where hm) <> [] ->
  exists b0 b m, select_from p = Ok b0 /\ calls b_add_where b0 h = Ok b /\ calls m_call (many_of b) hm = Ok m /\ made m /\
    simple (m_base m) T /\ Forall wf_sort (m_order m) /\ ready (m_base m) /\ solid (b_where (m_base m)) /\
    m_offset m = last_of mc_offset 0%N hm /\ m_limit m = last_of mc_limit (-1)%Z hm /\
    derived (m_base m) (m_update m) (m_delete m).
Proof.
  intros Et Hq Hh Hm Hne. destruct (base_state p T h Et Hq Hh) as (b0 & b & E0 & Eb & Ib & Ht).
  pose proof (narrows_plain hm Hm) as Hm'. destruct (narrows_keep hm Hm) as (K1 & K2).
  assert (Gb : g_ok (b_where b)).
  { destruct Ib as (_ & _ & _ & _ & I5). destruct (where_group row0 h empty_group _ empty_ok (Forall_nil _) (regular_all _ _ (proj2 (concat_Forall _ _) Hh)) I5). assumption. }
  destruct (calls_total m_call (fun m => g_ok (b_where (m_base m))) (wf_mcall row0)) with (h := hm) (a := many_of b) as (m & Em & Gm); auto.
  { intros a x. apply m_call_total. } { now apply plain_m_wf. }
  destruct (m_calls_is hm (many_of b) m _ _ _ _ [] 0%N (-1)%Z (conj Ib (conj eq_refl (conj eq_refl eq_refl))) Em) as (J & Jo & Jf & Jl).
  rewrite K1, K2, app_nil_r in J. cbn [app] in Jo.
  assert (Hr : Forall regular (List.concat (h ++ flat_map mc_where hm))).
  { rewrite List.concat_app. apply Forall_app. split; [now apply concat_Forall|now apply plain_m_regular]. }
  exists b0, b, m. split; [exact E0|]. split; [exact Eb|]. split; [exact Em|]. pose proof J as (_ & J2 & J3 & J4 & J5). rewrite wheres_calls in Eb. split.
  { exists b, hm. split; [|auto]. exists p, (mkT T ""), b0, (map BWhere h).
    assert (Hb : Forall plain_b (map BWhere h)) by (apply Forall_map; eapply Forall_impl; [|exact Hh]; auto). auto 10. }
  split; [repeat split; assumption|]. split; [rewrite Jo; apply (mcall_args row0 hm [] (Forall_nil _) (plain_m_wf _ _ Hm'))|].
  split; [now apply (is_ready _ _ _ _ _ J)|]. split; [eexists; eauto|]. split; [exact Jf|]. split; [exact Jl|].
  apply (proj1 (proj2 (C33_conditions p b0 _ b E0 Eb)) hm m Em).
Qed.

(** the page shows all of [n] rows *)
Definition shows_all (off : N) (lim : Z) (n : nat) : Prop := (n = 0 \/ off = 0%N) /\ (n = 0 \/ (lim <= 0)%Z \/ (Z.of_nat n <= lim)%Z).
Lemma slice_length {A} off lim (l : list A) : length (slice off lim l) <= length l /\ (length (slice off lim l) = length l <-> shows_all off lim (length l)).
Proof.
  unfold slice, shows_all. pose proof (skipn_length (N.to_nat off) l) as K. destruct (Z.ltb_spec 0 lim).
  - rewrite firstn_length. split; [lia|]. split; lia.
  - split; [lia|]. split; lia.
Qed.
Lemma slice_shown {A} off lim (l : list A) : shows_all off lim (length l) -> slice off lim l = l.
Proof.
  intros H. unfold slice. destruct l as [|x l]; [rewrite skipn_nil, firstn_nil; now destruct (0 <? lim)%Z|]. destruct H as [[H|H] [K|K]]; try discriminate.
  rewrite H. cbn [N.to_nat skipn]. destruct (Z.ltb_spec 0 lim); [|reflexivity]. apply firstn_all2. lia.
Qed.

(** The DELETE made from a select with Where, OrderBy, Offset and Limit calls removes every row that the select without the
    page returns; these are the rows the select returns exactly if its page shows all of them. *)
Theorem C73_paged_exactly : forall p T h hm, table_p p = Ok (mkT T "") -> qname T -> Forall (Forall regular) h -> Forall narrows hm ->
  List.concat (h ++ flat_map mc_where hm) <> [] ->
  exists b0 b m d s0 ps0 s ps s' ps', select_from p = Ok b0 /\ calls b_add_where b0 h = Ok b /\ calls m_call (many_of b) hm = Ok m /\
    m_build (m_set_limit (m_set_offset m 0) 0) = Ok (mkOut s0 ps0 None) /\ m_build m = Ok (mkOut s ps None) /\
    m_delete m = Ok d /\ d_build d = Ok (mkOut s' ps' None) /\ deletes_selected T s0 ps0 s' ps' /\
    forall E db l0, query E db s0 ps0 = Some (Rows E l0) -> exists l, query E db s ps = Some (Rows E l) /\
      length l <= length l0 /\
      let all := shows_all (last_of mc_offset 0%N hm) (last_of mc_limit (-1)%Z hm) (length l0) in
      (all -> l = l0) /\ (~ all -> length l < length l0).
Proof.
  intros p T h hm Et Hq Hh Hm Hne.
  destruct (paged_state p T h hm Et Hq Hh Hm Hne) as (b0 & b & m & E0 & Eb & Em & Hma & Hsi & Ho & Hr & Hg & Hof & Hl & Hd).
  destruct Hd as (d & Ed & Td & Cd & _). assert (Tt : t_name (b_table (m_base m)) = T) by (destruct Hsi as (_ & _ & ->); reflexivity).
  destruct (delete_of (unpaged m) d T Hsi Hq Ho Hr Hg eq_refl) as (s0 & ps0 & s' & ps' & K1 & K2 & K3); [cbn; lia|congruence|now right|].
  destruct (C72_page m Hma) as (s1 & ps1 & P0 & P). change (m_set_limit (m_set_offset m 0) 0) with (unpaged m) in P0.
  assert (X : mkOut s1 ps1 None = mkOut s0 ps0 None) by congruence. injection X as -> ->.
  destruct (P (m_offset m) (m_limit m)) as (s & ps & F1 & F2). replace (m_set_limit (m_set_offset m (m_offset m)) (m_limit m)) with m in F1 by now destruct m.
  exists b0, b, m, d, s0, ps0, s, ps, s', ps'. repeat (split; [assumption|]). intros E db l0 El.
  exists (slice (m_offset m) (m_limit m) l0). split; [now rewrite F2, El|]. destruct (slice_length (m_offset m) (m_limit m) l0) as [S1 S2].
  split; [exact S1|]. cbv zeta. rewrite <- Hof, <- Hl. split; [apply slice_shown|]. intros N. assert (length (slice (m_offset m) (m_limit m) l0) <> length l0) by tauto. lia.
Qed.
Print Assumptions C73_paged_exactly.

(** The same for UPDATE. *)
Theorem C74_paged_exactly : forall p T h hm fvs vs, table_p p = Ok (mkT T "") -> qname T -> Forall (Forall regular) h -> Forall narrows hm ->
  List.concat (h ++ flat_map mc_where hm) <> [] -> fvs <> [] -> singles fvs vs -> Forall (fun c => name c = true) (map (fun x => f_name (fv_def x)) fvs) ->
  exists b0 b m u s0 ps0 s ps s' ps', select_from p = Ok b0 /\ calls b_add_where b0 h = Ok b /\ calls m_call (many_of b) hm = Ok m /\
    m_build (m_set_limit (m_set_offset m 0) 0) = Ok (mkOut s0 ps0 None) /\ m_build m = Ok (mkOut s ps None) /\
    m_update m fvs = Ok u /\ u_build u = Ok (mkOut s' ps' None) /\
    updates_selected T (map (fun x => f_name (fv_def x)) fvs) vs s0 ps0 s' ps' /\
    forall E db l0, query E db s0 ps0 = Some (Rows E l0) -> exists l, query E db s ps = Some (Rows E l) /\
      length l <= length l0 /\
      let all := shows_all (last_of mc_offset 0%N hm) (last_of mc_limit (-1)%Z hm) (length l0) in
      (all -> l = l0) /\ (~ all -> length l < length l0).
Proof.
  intros p T h hm fvs vs Et Hq Hh Hm Hne Hf Hs Hc.
  destruct (paged_state p T h hm Et Hq Hh Hm Hne) as (b0 & b & m & E0 & Eb & Em & Hma & Hsi & Ho & Hr & Hg & Hof & Hl & Hd).
  destruct Hd as (d & _ & _ & _ & HU). destruct (HU fvs) as (u & Eu & Tu & Vu & Cu).
  assert (Tt : t_name (b_table (m_base m)) = T) by (destruct Hsi as (_ & _ & ->); reflexivity).
  destruct (update_of (unpaged m) u T fvs vs Hsi Hq Ho Hr Hg eq_refl) as (s0 & ps0 & s' & ps' & K1 & K2 & K3); auto; [cbn; lia|congruence|now right|].
  destruct (C72_page m Hma) as (s1 & ps1 & P0 & P). change (m_set_limit (m_set_offset m 0) 0) with (unpaged m) in P0.
  assert (X : mkOut s1 ps1 None = mkOut s0 ps0 None) by congruence. injection X as -> ->.
  destruct (P (m_offset m) (m_limit m)) as (s & ps & F1 & F2). replace (m_set_limit (m_set_offset m (m_offset m)) (m_limit m)) with m in F1 by now destruct m.
  exists b0, b, m, u, s0, ps0, s, ps, s', ps'. repeat (split; [assumption|]). intros E db l0 El.
  exists (slice (m_offset m) (m_limit m) l0). split; [now rewrite F2, El|]. destruct (slice_length (m_offset m) (m_limit m) l0) as [S1 S2].
  split; [exact S1|]. cbv zeta. rewrite <- Hof, <- Hl. split; [apply slice_shown|]. intros N. assert (length (slice (m_offset m) (m_limit m) l0) <> length l0) by tauto. lia.
Qed.
Print Assumptions C74_paged_exactly.

Definition hm_paged (n : Z) : list mcall := (hm_users ++ [MOffset 7; MLimit n; MOffset 0])%list.
Definition m_paged (n : Z) : res msel :=
  do b0 <- select_from (TPStr "users"); do b <- calls b_add_where b0 [[num_cond KGe "" "age" 20]]; calls m_call (many_of b) (hm_paged n).
Example C73_paged_example :
  table_p (TPStr "users") = Ok (mkT "users" "") /\ Forall (Forall regular) [[num_cond KGe "" "age" 20]] /\ Forall narrows (hm_paged 1) /\
  ask (do m <- m_paged 0; m_build m) = Ok (rows [[("id", Some 1); ("age", Some 30)]; [("id", Some 3); ("age", Some 20)]]) /\
  ask (do m <- m_paged 1; m_build m) = Ok (rows [[("id", Some 1); ("age", Some 30)]]) /\
  ~ shows_all 0 1 2 /\ shows_all 0 2 2 /\
  users_after (do m <- m_paged 1; do d <- m_delete m; d_build d) = Ok (Some [[Some 2; None]; [Some 4; Some 30]]) /\
  users_after (do m <- m_paged 1; do u <- m_update m [fv "age" (VOther 21)]; u_build u) =
    Ok (Some [[Some 1; Some 21]; [Some 2; None]; [Some 3; Some 21]; [Some 4; Some 30]]).
Proof.
  split; [vm_compute; reflexivity|]. split; [constructor; [constructor; [by_num "age"|constructor]|constructor]|]. split.
  { apply Forall_app. split; [|repeat constructor]. eapply Forall_impl; [|exact hm_users_filters]. intros [fs|cs|t jt l r|os|o|l]; simpl; auto. }
  split; [vm_compute; reflexivity|]. split; [vm_compute; reflexivity|]. split; [unfold shows_all; lia|]. split; [unfold shows_all; lia|].
  split; vm_compute; reflexivity.
Qed.
