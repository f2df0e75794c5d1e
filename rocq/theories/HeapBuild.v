(** Rendering and building from the heap, and the builder operations on it. *)
From Coq Require Import String Ascii List Bool Arith NArith ZArith Lia.
From Verif Require Import GoStr Value Names Cond Build Heap HeapFacts HeapOps.
Import ListNotations.
Local Open Scope string_scope.
Local Open Scope nat_scope.

(** * Rendering a finite tree terminates with the functional result *)
Lemma values_rep st : forall fuel c h, nodes c <= fuel -> Rep st h c -> h_values fuel st h = Some (c_values c).
Proof.
  induction fuel as [|f IH]; intros c h N R.
  - destruct c; cbn in N; lia.
  - destruct c as [|l|j n cs br].
    + destruct h; cbn in R; try contradiction. reflexivity.
    + destruct h; cbn in R; try contradiction. now subst.
    + apply Rep_grp in R. destruct R as (s & hs & -> & D & R). cbn [h_values c_values]. rewrite (DenL_read _ _ _ D).
      rewrite nodes_grp in N. assert (N' : nodes_l cs <= f) by lia. clear N D.
      induction R as [|x c hs cs Rx R IR]; [reflexivity|]. cbn [nodes_l] in N'. rewrite (IH c x) by (auto; lia).
      destruct (c_values c) as [vs|]; cbn [bind]; [|reflexivity]. rewrite IR by lia.
      match goal with |- _ = Some (bind ?t _) => destruct t end; reflexivity.
Qed.
Lemma some_bind {A B} (t : res A) (f : A -> B) :
  Some (do x <- t; Ok (f x)) = match Some t with Some (Ok x) => Some (Ok (f x)) | Some Panic => Some Panic | None => None end.
Proof. destruct t; reflexivity. Qed.
Lemma render_rep st : forall fuel c h n, nodes c <= fuel -> Rep st h c -> h_render fuel st h n = Some (c_render c n).
Proof.
  induction fuel as [|f IH]; intros c h n N R.
  - destruct c; cbn in N; lia.
  - destruct c as [|l|j ng cs br].
    + destruct h; cbn in R; try contradiction. reflexivity.
    + destruct h; cbn in R; try contradiction. now subst.
    + apply Rep_grp in R. destruct R as (s & hs & -> & D & R). cbn [h_render c_render]. rewrite (DenL_read _ _ _ D).
      rewrite nodes_grp in N. assert (N' : nodes_l cs <= f) by lia. clear N D.
      rewrite (Reps_length _ _ _ R).
      set (L := length cs). clearbody L.
      assert (K : forall b n, (fix go (first : bool) (cs : list hcond) (n : nat) : option (res string) :=
                       match cs with
                       | [] => Some (Ok "")
                       | c :: r =>
                           match h_jtype c, h_render f st c n, h_values f st c with
                           | Panic, _, _ => Some Panic
                           | _, Some Panic, _ => Some Panic
                           | _, None, _ => None
                           | _, _, None => None
                           | _, _, Some Panic => Some Panic
                           | Ok j, Some (Ok sql), Some (Ok vs) =>
                               match go false r (n + length vs) with
                               | Some (Ok rest) => Some (Ok (join_token first j ++ sql ++ rest))
                               | x => x
                               end
                           end
                       end) b hs n =
             Some ((fix go (first : bool) (cs : list cond) (n : nat) : res string :=
               match cs with
               | [] => Ok ""
               | c :: r =>
                   do j <- jtype c;
                   do s <- c_render c n;
                   do vs <- c_values c;
                   do rest <- go false r (n + length vs);
                   Ok (join_token first j ++ s ++ rest)
               end) b cs n)).
      { clear n. induction R as [|x c hs cs Rx R IR]; intros b n; [reflexivity|]. cbn [nodes_l] in N'.
        rewrite (jtype_agree st _ _ Rx), (IH c x) by (auto; lia). rewrite (values_rep st f c x) by (auto; lia).
        destruct (jtype c) as [jc|]; cbn [bind]; [|reflexivity]. destruct (c_render c n) as [sc|]; cbn [bind]; [|reflexivity].
        destruct (c_values c) as [vc|]; cbn [bind]; [|reflexivity]. rewrite IR by lia.
        match goal with |- _ = Some (bind ?t _) => destruct t end; reflexivity. }
      rewrite K. destruct R; [reflexivity|]. clear K. symmetry. apply some_bind.
Qed.

(** * Builders *)
Definition RepB (h : heap) (b : hbsel) (p : bsel) : Prop :=
  hb_op b = b_op p /\ hb_table b = b_table p /\ DenL (hJ h) (hb_joins b) (b_joins p) /\
  DenL (hF h) (hb_fields b) (b_fields p) /\ RepG (hC h) (hb_where b) (b_where p).
Definition RepM (h : heap) (m : hmsel) (p : msel) : Prop :=
  RepB h (hm_base m) (m_base p) /\ hm_offset m = m_offset p /\ hm_limit m = m_limit p /\ DenL (hO h) (hm_order m) (m_order p).
Definition RepS (h : heap) (s : hssel) (p : ssel) : Prop := RepB h (hss_base s) (ss_base p).
Definition RepCS (h : heap) (c : hcsel) (p : csel) : Prop := RepB h (hcs_base c) (cs_base p) /\ hcs_field c = cs_field p.
Definition RepI (h : heap) (i : hins) (p : ins) : Prop :=
  hi_op i = i_op p /\ hi_table i = i_table p /\ DenL (hV h) (hi_values i) (i_values p).
Definition RepU (h : heap) (u : hupd) (p : upd) : Prop :=
  hu_op u = u_op p /\ hu_table u = u_table p /\ RepG (hC h) (hu_where u) (u_where p) /\ DenL (hV h) (hu_values u) (u_values p).
Definition RepD (h : heap) (d : hdel) (p : del) : Prop :=
  hd_op d = d_op p /\ hd_table d = d_table p /\ RepG (hC h) (hd_where d) (d_where p).

(** [x] computes [r] when given enough stack *)
Definition yields {A} (x : nat -> option (res A)) (r : res A) : Prop := exists k, forall fuel, k <= fuel -> x fuel = Some r.

Lemma clause_rep h g p fuel n : nodes (of_g p) <= fuel -> RepG (hC h) g p ->
  h_clause fuel h g n = Some (do w <- c_render (of_g p) n; do vs <- c_values (of_g p); Ok (w, vs)).
Proof.
  intros N R. apply RepG_of in R. unfold h_clause. rewrite (render_rep _ fuel (of_g p)), (values_rep _ fuel (of_g p)) by assumption.
  destruct (c_render (of_g p) n); cbn [bind]; [|reflexivity]. now destruct (c_values (of_g p)).
Qed.
Lemma RepG_len st g p : RepG st g p -> sl_len (hg_sl g) = length (g_cs p).
Proof. intros (E1 & E2 & E3 & hs & D & R). rewrite <- (DenL_len _ _ _ D). apply (Reps_length _ _ _ R). Qed.
Lemma len0 {A} (l : list A) : (length l =? 0) = negb (nonempty l).
Proof. destruct l; reflexivity. Qed.
Lemma flat_eq h b p : RepB h b p -> b_tokens (flat h b) = b_tokens p /\ b_render_from (flat h b) = b_render_from p.
Proof.
  intros (E1 & E2 & DJ & DF & _). unfold b_tokens, b_render_from, flat. cbn [b_fields b_table b_joins].
  now rewrite (DenL_read _ _ _ DJ), (DenL_read _ _ _ DF), E2.
Qed.

Lemma build_b h b p : RepB h b p -> yields (fun f => h_b_build f h b) (b_build p).
Proof.
  intros R. exists (nodes (of_g (b_where p))). intros f N. unfold h_b_build, b_build. rewrite (proj1 (flat_eq _ _ _ R)).
  destruct R as (_ & _ & _ & _ & G). rewrite (RepG_len _ _ _ G), len0. destruct (nonempty (g_cs (b_where p))); cbn [negb]; [|reflexivity].
  rewrite (clause_rep h _ _ f 0 N G). destruct (c_render (of_g (b_where p)) 0); cbn [bind]; [|reflexivity]. now destruct (c_values (of_g (b_where p))).
Qed.
Lemma m_build_tail m : m_build m = do r <- b_build (m_base m); Ok (m_tail (m_order m) (m_offset m) (m_limit m) r).
Proof.
  unfold m_build, m_tail. destruct (b_build (m_base m)); cbn [bind]; [|reflexivity].
  destruct (0 <? m_offset m)%N, (0 <? m_limit m)%Z; reflexivity.
Qed.
Lemma build_m h m p : RepM h m p -> yields (fun f => h_m_build f h m) (m_build p).
Proof.
  intros (R & E1 & E2 & D). destruct (build_b _ _ _ R) as [k K]. exists k. intros f N. unfold h_m_build. rewrite (K f N), m_build_tail.
  rewrite (DenL_read _ _ _ D), E1, E2. now destruct (b_build (m_base p)).
Qed.
Lemma build_s h s p : RepS h s p -> yields (fun f => h_ss_build f h s) (ss_build p).
Proof.
  intros R. destruct (build_b _ _ _ R) as [k K]. exists k. intros f N. unfold h_ss_build, ss_build. rewrite (K f N). now destruct (b_build (ss_base p)).
Qed.
Lemma build_c h c p : RepCS h c p -> yields (fun f => h_cs_build f h c) (cs_build p).
Proof.
  intros [R E]. exists (nodes (of_g (b_where (cs_base p)))). intros f N. unfold h_cs_build, cs_build. cbv zeta.
  rewrite (proj2 (flat_eq _ _ _ R)), E.
  destruct R as (_ & _ & _ & _ & G). rewrite (RepG_len _ _ _ G), len0. destruct (nonempty (g_cs (b_where (cs_base p)))); cbn [negb]; [|reflexivity].
  rewrite (clause_rep h _ _ f 0 N G). destruct (c_render (of_g (b_where (cs_base p))) 0); cbn [bind]; [|reflexivity].
  now destruct (c_values (of_g (b_where (cs_base p)))).
Qed.
Lemma build_i h i p : RepI h i p -> h_i_build h i = i_build p.
Proof. intros (E1 & E2 & D). unfold h_i_build. rewrite (DenL_read _ _ _ D), E1, E2. now destruct p. Qed.
Lemma build_u h u p : RepU h u p -> yields (fun f => h_u_build f h u) (u_build p).
Proof.
  intros (E1 & E2 & G & D). exists (nodes (of_g (u_where p))). intros f N. unfold h_u_build, u_build. cbv zeta.
  rewrite (RepG_len _ _ _ G), len0, (DenL_read _ _ _ D), E2. destruct (nonempty (g_cs (u_where p))); cbn [negb]; [|reflexivity].
  destruct (nonempty (u_values p)); cbn [negb]; [|reflexivity]. destruct (is_empty (u_table p)); [reflexivity|].
  destruct (fields_and_values (u_values p)) as [[sets params]|]; cbn [bind]; [|reflexivity].
  rewrite (clause_rep h _ _ f _ N G). destruct (c_render (of_g (u_where p)) (length params)); cbn [bind]; [|reflexivity].
  now destruct (c_values (of_g (u_where p))).
Qed.
Lemma build_d h d p : RepD h d p -> yields (fun f => h_d_build f h d) (d_build p).
Proof.
  intros (E1 & E2 & G). exists (nodes (of_g (d_where p))). intros f N. unfold h_d_build, d_build.
  rewrite (RepG_len _ _ _ G), len0, E2. destruct (nonempty (g_cs (d_where p))); cbn [negb]; [|reflexivity].
  destruct (is_empty (d_table p)); [reflexivity|].
  rewrite (clause_rep h _ _ f _ N G). destruct (c_render (of_g (d_where p)) 0); cbn [bind]; [|reflexivity].
  now destruct (c_values (of_g (d_where p))).
Qed.

(** * Extension of the whole heap *)
Definition HExt (h h' : heap) : Prop :=
  Ext (hC h) (hC h') /\ Ext (hO h) (hO h') /\ Ext (hJ h) (hJ h') /\ Ext (hV h) (hV h') /\ Ext (hF h) (hF h').
Lemma HExt_refl h : HExt h h.
Proof. repeat split; apply Ext_refl. Qed.
Lemma HExt_trans a b c : HExt a b -> HExt b c -> HExt a c.
Proof. intros (A1 & A2 & A3 & A4 & A5) (B1 & B2 & B3 & B4 & B5). repeat split; eapply Ext_trans; eassumption. Qed.
Lemma RepB_ext h h' b p : HExt h h' -> RepB h b p -> RepB h' b p.
Proof.
  intros (A1 & A2 & A3 & A4 & A5) (E1 & E2 & DJ & DF & G). split; [exact E1|]. split; [exact E2|].
  split; [exact (DenL_ext _ _ _ _ A3 DJ)|]. split; [exact (DenL_ext _ _ _ _ A5 DF)|]. exact (RepG_ext _ _ _ _ A1 G).
Qed.
Lemma RepM_ext h h' b p : HExt h h' -> RepM h b p -> RepM h' b p.
Proof. intros A (R & E1 & E2 & D). split; [exact (RepB_ext _ _ _ _ A R)|]. repeat split; auto. apply (DenL_ext (hO h)); [apply A|exact D]. Qed.
Lemma RepCS_ext h h' b p : HExt h h' -> RepCS h b p -> RepCS h' b p.
Proof. intros A (R & E1). split; [exact (RepB_ext _ _ _ _ A R)|exact E1]. Qed.
Lemma RepI_ext h h' b p : HExt h h' -> RepI h b p -> RepI h' b p.
Proof. intros A (E1 & E2 & D). repeat split; auto. apply (DenL_ext (hV h)); [apply A|exact D]. Qed.
Lemma RepU_ext h h' b p : HExt h h' -> RepU h b p -> RepU h' b p.
Proof. intros A (E1 & E2 & G & D). split; [exact E1|]. split; [exact E2|]. split; [apply (RepG_ext (hC h)); [apply A|exact G]|apply (DenL_ext (hV h)); [apply A|exact D]]. Qed.
Lemma RepD_ext h h' b p : HExt h h' -> RepD h b p -> RepD h' b p.
Proof. intros A (E1 & E2 & G). split; [exact E1|]. split; [exact E2|]. apply (RepG_ext (hC h)); [apply A|exact G]. Qed.

(** * Agreement of heap computations *)
Definition hgrows {X} (m : HM X) : Prop := forall h, stale (snd (m h)) = false -> stale h = false.
Definition hagree {X Y} (R : heap -> X -> Y -> Prop) (h : heap) (m : HM X) (p : res Y) : Prop :=
  stale (snd (m h)) = false ->
  HExt h (snd (m h)) /\
  match fst (m h), p with Ok x, Ok y => R (snd (m h)) x y | Panic, Panic => True | _, _ => False end.
Lemma hagree_bind {X Y X' Y'} (R : heap -> X -> Y -> Prop) (R' : heap -> X' -> Y' -> Prop) h m p k q :
  hagree R h m p -> (forall x, hgrows (k x)) ->
  (forall x y h', HExt h h' -> R h' x y -> hagree R' h' (k x) (q y)) -> hagree R' h (hbind m k) (bind p q).
Proof.
  intros H G K. unfold hagree, hbind in *. destruct (m h) as [[x|] h1]; cbn [fst snd] in *.
  - intros NS. destruct (H (G x h1 NS)) as [E Q]. destruct p as [y|]; [|destruct Q].
    destruct (K x y h1 E Q NS) as [E' Q']. split; [exact (HExt_trans _ _ _ E E')|exact Q'].
  - intros NS. destruct (H NS) as [E Q]. destruct p as [y|]; [destruct Q|]. split; [exact E|exact I].
Qed.
Lemma hagree_ret {X Y} (R : heap -> X -> Y -> Prop) h x y : R h x y -> hagree R h (hret x) (Ok y).
Proof. intros H _. cbn. split; [apply HExt_refl|exact H]. Qed.
Lemma hgrows_ret {X} (x : X) : hgrows (hret x).
Proof. intros h H. exact H. Qed.
Lemma hgrows_lift {X} (r : res X) : hgrows (hlift r).
Proof. intros h H. exact H. Qed.
Lemma hgrows_bind {X Y} (m : HM X) (k : X -> HM Y) : hgrows m -> (forall x, hgrows (k x)) -> hgrows (hbind m k).
Proof.
  intros H K h. unfold hbind. specialize (H h). destruct (m h) as [[x|] h1]; cbn [snd] in *; [|exact H].
  intros NS. apply H. exact (K x h1 NS).
Qed.
Lemma stale_parts h : stale h = false <->
  st_stale (hC h) = false /\ st_stale (hO h) = false /\ st_stale (hJ h) = false /\ st_stale (hV h) = false /\ st_stale (hF h) = false.
Proof. unfold stale. rewrite !orb_false_iff. tauto. Qed.
Ltac on_store := intros H h; unfold onC, onO, onJ, onV, onF; match goal with |- context [?m (?p h)] => specialize (H (p h)); destruct (m (p h)) as [r st] end;
  cbn [snd] in *; rewrite !stale_parts; cbn; intuition.
Lemma hgrows_onC {X} (m : M hcond X) : grows m -> hgrows (onC m). Proof. on_store. Qed.
Lemma hgrows_onO {X} (m : M fsort X) : grows m -> hgrows (onO m). Proof. on_store. Qed.
Lemma hgrows_onJ {X} (m : M joiner X) : grows m -> hgrows (onJ m). Proof. on_store. Qed.
Lemma hgrows_onV {X} (m : M fvalue X) : grows m -> hgrows (onV m). Proof. on_store. Qed.
Lemma hgrows_onF {X} (m : M fdef X) : grows m -> hgrows (onF m). Proof. on_store. Qed.

Lemma hagree_onC {X Y} (R : store hcond -> X -> Y -> Prop) h m p : agree R (hC h) m p ->
  hagree (fun h' x y => R (hC h') x y) h (onC m) p.
Proof.
  intros H NS. unfold agree, onC in *. destruct (m (hC h)) as [r st]. cbn [fst snd hC] in *.
  apply stale_parts in NS. destruct (H (proj1 NS)) as [X1 Q]. split; [|exact Q]. repeat split; cbn; auto using Ext_refl.
Qed.

(** a slice of plain elements *)
Definition allocs {A} (d : A) (xs : list A) : forall st, exists s st', m_alloc d xs st = (Ok s, st') /\ Ext st st' /\ DenL st' s xs /\ st_stale st' = st_stale st.
Proof.
  intros st. unfold m_alloc. pose proof (alloc_ext d st xs 0) as X. pose proof (alloc_den d st xs 0) as D.
  exists (fst (alloc d st xs 0)), (snd (alloc d st xs 0)). auto.
Qed.
Lemma appends {A} (d : A) pol s xs ys st : DenL st s xs -> exists s' st', m_append d pol s ys st = (Ok s', st') /\
  DenL st' s' (xs ++ ys)%list /\ (st_stale st' = false -> Ext st st').
Proof.
  intros D. unfold m_append. pose proof (append_den d pol st s xs ys D) as D'. pose proof (append_ext d pol st s xs ys D) as X.
  destruct (append d pol st s ys) as [s' st']. cbn [fst snd] in *. eauto.
Qed.

Lemma hagree_step {X Y X' Y'} (R : heap -> X -> Y -> Prop) (R' : heap -> X' -> Y' -> Prop) h m y k p' :
  hagree R h m (Ok y) -> (forall x, hgrows (k x)) ->
  (forall x h', HExt h h' -> R h' x y -> hagree R' h' (k x) p') -> hagree R' h (hbind m k) p'.
Proof.
  intros H G K. change p' with (bind (Ok y) (fun _ : Y => p')). apply (hagree_bind (fun h' x z => R h' x y /\ z = y)).
  - intros NS. destruct (H NS) as [E Q]. split; [exact E|]. destruct (fst (m h)); [|exact Q]. auto.
  - exact G.
  - intros x z h' E [Q _]. now apply K.
Qed.
Lemma hagree_lift_bind {X X' Y'} (R' : heap -> X' -> Y' -> Prop) h (r : res X) (k : X -> HM X') (q : X -> res Y') :
  (forall x, hagree R' h (k x) (q x)) -> hagree R' h (hbind (hlift r) k) (bind r q).
Proof. intros K. destruct r as [x|]; [exact (K x)|]. intros _. cbn. split; [apply HExt_refl|exact I]. Qed.

Ltac by_alloc := intros; match goal with |- context [m_alloc ?d ?xs] => match goal with |- hagree _ ?h (?on _) _ =>
    let st := match on with onC => constr:(hC h) | onO => constr:(hO h) | onJ => constr:(hJ h) | onV => constr:(hV h) | onF => constr:(hF h) end in
    let E := fresh in let X := fresh in let D := fresh in
    destruct (allocs d xs st) as (s & st' & E & X & D & _); intros _; unfold onC, onO, onJ, onV, onF; rewrite E; cbn;
    split; [repeat split; cbn; auto using Ext_refl|exact D] end end.
Lemma alloc_O h xs : hagree (fun h' s l => DenL (hO h') s l) h (onO (m_alloc zs xs)) (Ok xs). Proof. by_alloc. Qed.
Lemma alloc_J h xs : hagree (fun h' s l => DenL (hJ h') s l) h (onJ (m_alloc zj xs)) (Ok xs). Proof. by_alloc. Qed.
Lemma alloc_V h xs : hagree (fun h' s l => DenL (hV h') s l) h (onV (m_alloc zv xs)) (Ok xs). Proof. by_alloc. Qed.
Lemma alloc_F h xs : hagree (fun h' s l => DenL (hF h') s l) h (onF (m_alloc zf xs)) (Ok xs). Proof. by_alloc. Qed.
Ltac by_append := intros D NS; match goal with |- context [m_append ?d ?pol ?s ?ys] =>
    let st := match type of D with DenL ?st _ _ => st end in
    let E := fresh in let X := fresh in let D' := fresh in
    destruct (appends d pol s _ ys st D) as (s' & st' & E & D' & X);
    unfold onC, onO, onJ, onV, onF in *; rewrite E in *; cbn in *; apply stale_parts in NS; cbn in NS;
    split; [repeat split; cbn; try apply Ext_refl; apply X; apply NS|exact D'] end.
Lemma append_O pol h s xs ys : DenL (hO h) s xs -> hagree (fun h' s l => DenL (hO h') s l) h (onO (m_append zs pol s ys)) (Ok (xs ++ ys)%list). Proof. by_append. Qed.
Lemma append_J pol h s xs ys : DenL (hJ h) s xs -> hagree (fun h' s l => DenL (hJ h') s l) h (onJ (m_append zj pol s ys)) (Ok (xs ++ ys)%list). Proof. by_append. Qed.
Lemma append_V pol h s xs ys : DenL (hV h) s xs -> hagree (fun h' s l => DenL (hV h') s l) h (onV (m_append zv pol s ys)) (Ok (xs ++ ys)%list). Proof. by_append. Qed.

Lemma grows_alloc {A} (d : A) xs : grows (m_alloc d xs).
Proof. apply (frames_grows (mkSl 0 0)), frames_alloc. Qed.
Lemma grows_append {A} (d : A) pol s xs : grows (m_append d pol s xs).
Proof. apply (frames_grows s), frames_append. Qed.
Lemma grows_new_group j cs : grows (h_new_group j cs).
Proof. apply (frames_grows (mkSl 0 0)), frames_new_group. Qed.
Lemma grows_group pol op g cs : grows (h_add_conditions pol op g cs).
Proof. apply (frames_grows (hg_sl g)), frames_add_conditions. Qed.
Lemma grows_read {A} s : @grows A _ (m_read s).
Proof. intros st H. exact H. Qed.
Lemma grows_conditions_copy g : grows (h_conditions g).
Proof. apply (frames_grows (mkSl 0 0)). apply frames_bind; [apply frames_read|]. intros x. apply frames_alloc. Qed.

Create HintDb hg.
#[global] Hint Resolve hgrows_ret hgrows_lift hgrows_onC hgrows_onO hgrows_onJ hgrows_onV hgrows_onF grows_alloc grows_append grows_new_group
  grows_group grows_read grows_conditions_copy : hg.
Ltac hg := repeat match goal with
  | |- hgrows (hbind _ _) => apply hgrows_bind; [|intros ?]
  | |- forall _, hgrows _ => intros ?
  | |- hgrows _ => solve [eauto with hg]
  end.

(** element assignment *)
Lemma assign_stale {A} (st : store A) s i x : st_stale (assign st s i x) = st_stale st.
Proof. reflexivity. Qed.
Lemma firstn_set_nth_le {A} n k (x : A) l : k <= n -> n < length l -> firstn k (set_nth n x l) = firstn k l.
Proof.
  intros K L. unfold set_nth. rewrite firstn_app, firstn_length, Nat.min_l by lia. replace (k - n) with 0 by lia.
  rewrite firstn_O, app_nil_r, firstn_firstn. now rewrite Nat.min_l by lia.
Qed.
Lemma firstn_set_nth_S {A} n (x : A) l : n < length l -> firstn (S n) (set_nth n x l) = (firstn n l ++ [x])%list.
Proof.
  intros L. unfold set_nth. rewrite firstn_app, firstn_length, Nat.min_l by lia.
  replace (S n - n) with 1 by lia. rewrite firstn_cons, firstn_O, firstn_firstn. now rewrite Nat.min_r by lia.
Qed.
Lemma assign_den {A} (st : store A) s t i x xs ys : DenL st t xs -> i < sl_len t -> (sl_arr t = sl_arr s -> sl_len s <= i) ->
  DenL st s ys -> DenL (assign st t i x) s ys.
Proof.
  intros (a & E & L1 & L2 & F) Li K (b & Eb & M1 & M2 & G). unfold assign. rewrite (the_arr_nth _ _ _ E).
  destruct (Nat.eq_dec (sl_arr s) (sl_arr t)) as [Q|Q].
  - rewrite Q in Eb. assert (b = a) by congruence. subst b. eexists. cbn [st_arrs]. rewrite Q, set_nth_same by (apply nth_error_Some; congruence).
    split; [reflexivity|]. cbn [a_cells a_used]. rewrite set_nth_length by lia. split; [exact M1|]. split; [exact M2|].
    rewrite firstn_set_nth_le; [exact G|auto|lia].
  - exists b. cbn [st_arrs]. rewrite set_nth_other; [auto|exact Q|apply nth_error_Some; congruence].
Qed.
Lemma assign_ext {A} (st st' : store A) t i x xs : Ext st st' -> DenL st' t xs -> i < sl_len t ->
  (forall a, nth_error (st_arrs st) (sl_arr t) = Some a -> a_used a <= i) -> Ext st (assign st' t i x).
Proof.
  intros X (a & E & L1 & L2 & F) Li K k b Eb U. destruct (X k b Eb U) as (b' & Eb' & U1 & U2 & G).
  unfold assign. cbn [st_arrs]. rewrite (the_arr_nth _ _ _ E). destruct (Nat.eq_dec k (sl_arr t)) as [->|N].
  - assert (b' = a) by congruence. subst b'. eexists. rewrite set_nth_same by (apply nth_error_Some; congruence). split; [reflexivity|].
    cbn [a_cells a_used]. rewrite set_nth_length by lia. split; [exact U1|]. split; [exact U2|].
    rewrite firstn_set_nth_le; [exact G|auto|lia].
  - exists b'. rewrite set_nth_other; [auto|exact N|apply nth_error_Some; congruence].
Qed.
Lemma assign_last {A} (st : store A) t x xs y : DenL st t (xs ++ [x])%list -> DenL (assign st t (length xs) y) t (xs ++ [y])%list.
Proof.
  intros D. pose proof (DenL_len _ _ _ D) as L. rewrite app_length in L. cbn [length] in L.
  destruct D as (a & E & L1 & L2 & F). unfold assign. rewrite (the_arr_nth _ _ _ E). eexists. cbn [st_arrs].
  rewrite set_nth_same by (apply nth_error_Some; congruence). split; [reflexivity|]. cbn [a_cells a_used]. rewrite set_nth_length by lia.
  split; [exact L1|]. split; [exact L2|]. replace (sl_len t) with (S (length xs)) by lia. rewrite firstn_set_nth_S by lia. f_equal.
  assert (firstn (length xs) (firstn (sl_len t) (a_cells a)) = firstn (length xs) (xs ++ [x])) as Q by now rewrite F.
  rewrite firstn_firstn, Nat.min_l in Q by lia. rewrite Q, firstn_app, Nat.sub_diag, firstn_O, app_nil_r. apply firstn_all.
Qed.
(** an append that is not stale writes at or behind the used part of an old array *)
Lemma append_room {A} (d : A) pol st s xs y : DenL st s xs -> st_stale (snd (append d pol st s [y])) = false ->
  forall a, nth_error (st_arrs st) (sl_arr (fst (append d pol st s [y]))) = Some a -> a_used a <= length xs.
Proof.
  intros D NS a Ea. pose proof (DenL_len _ _ _ D) as L. unfold append in *. destruct (_ <=? _) eqn:C; cbn [fst snd] in *.
  - cbn [sl_arr st_stale] in *. rewrite (the_arr_nth _ _ _ Ea) in *. apply orb_false_iff in NS. destruct NS as [_ NS].
    cbn [length] in NS. change (0 <? 1) with true in NS. rewrite andb_true_r in NS. apply Nat.ltb_ge in NS. lia.
  - cbn [alloc fst sl_arr] in Ea. assert (length (st_arrs st) < length (st_arrs st)) by (apply nth_error_Some; congruence). lia.
Qed.

(** * The builder operations *)
Section BuilderOps.
  Variable pol : policy.

  Lemma new_where h : hagree (fun h' g p => RepG (hC h') g p) h (onC (h_new_group AND [])) (Ok empty_group).
  Proof. apply (hagree_onC RepG). apply (agree_new_group (hC h) AND [] []). constructor. Qed.

  Lemma agree_select p h : hagree RepB h (h_select_from p) (select_from p).
  Proof.
    unfold h_select_from, select_from. apply hagree_lift_bind. intros t.
    eapply hagree_step; [apply alloc_J|hg|]. intros js h1 X1 D1. eapply hagree_step; [apply new_where|hg|]. intros g h2 X2 D2.
    eapply hagree_step; [apply alloc_F|hg|]. intros fs h3 X3 D3. apply hagree_ret.
    split; [reflexivity|]. split; [reflexivity|].
    split; [apply (DenL_ext (hJ h2)); [apply X3|]; apply (DenL_ext (hJ h1)); [apply X2|exact D1]|]. split; [exact D3|].
    apply (RepG_ext (hC h2)); [apply X3|exact D2].
  Qed.
  Lemma alloc_C h : hagree (fun h' s l => DenL (hC h') s l) h (onC (m_alloc HNil [])) (Ok []).
  Proof. by_alloc. Qed.
  Lemma agree_zero h : hagree RepB h h_zero_bsel (Ok zero_bsel).
  Proof.
    unfold h_zero_bsel. eapply hagree_step; [apply alloc_J|hg|]. intros js h1 X1 D1. eapply hagree_step; [apply alloc_C|hg|]. intros g h2 X2 D2.
    eapply hagree_step; [apply alloc_F|hg|]. intros fs h3 X3 D3. apply hagree_ret.
    split; [reflexivity|]. split; [reflexivity|].
    split; [apply (DenL_ext (hJ h2)); [apply X3|]; apply (DenL_ext (hJ h1)); [apply X2|exact D1]|]. split; [exact D3|].
    apply (RepG_ext (hC h2)); [apply X3|]. repeat split. exists []. split; [exact D2|constructor].
  Qed.
  Lemma agree_fields h b p fs : RepB h b p -> hagree RepB h (h_set_fields b fs) (Ok (b_set_fields p fs)).
  Proof.
    intros R. unfold h_set_fields. eapply hagree_step; [apply alloc_F|hg|]. intros s h1 X1 D1. apply hagree_ret.
    apply (RepB_ext h h1) in R; [|exact X1]. destruct R as (E1 & E2 & DJ & DF & G). repeat split; auto; apply G.
  Qed.
  Lemma agree_where h b p hs cs : RepB h b p -> Reps (hC h) hs cs -> hagree RepB h (h_add_where pol b hs) (b_add_where p cs).
  Proof.
    intros R Q. unfold h_add_where, b_add_where. eapply hagree_bind; [apply (hagree_onC RepG); apply agree_add_conditions; [apply R|exact Q]|hg|].
    intros g q h1 X1 D1. apply hagree_ret. apply (RepB_ext h h1) in R; [|exact X1]. destruct R as (E1 & E2 & DJ & DF & G).
    repeat split; auto; apply D1.
  Qed.
  Lemma hgrows_on b l r : hgrows (h_on b l r).
  Proof. intros h. unfold h_on. destruct (sl_len (hb_joins b)); cbn [snd]; auto. Qed.
  Lemma agree_join h b p t jt l r : RepB h b p -> hagree RepB h (h_join pol b t jt l r) (b_join p t jt l r).
  Proof.
    intros R NS. pose proof R as (E1 & E2 & DJ & DF & G). unfold h_join, h_join_open, hbind, onJ, m_append in *.
    set (j0 := mkJ t jt zero_jcond) in *.
    pose proof (append_den zj pol (hJ h) (hb_joins b) (b_joins p) [j0] DJ) as D'.
    pose proof (append_ext zj pol (hJ h) (hb_joins b) (b_joins p) [j0] DJ) as X.
    pose proof (append_room zj pol (hJ h) (hb_joins b) (b_joins p) j0 DJ) as Room.
    destruct (append zj pol (hJ h) (hb_joins b) [j0]) as [s' st']. cbn [fst snd hret] in *.
    pose proof (DenL_len _ _ _ D') as L. rewrite app_length in L. cbn [length] in L.
    unfold h_on in *. cbn [hb_joins hb_set_joins hJ hC hO hV hF] in *.
    assert (SL : sl_len s' = S (length (b_joins p))) by lia. rewrite SL in NS |- *. cbn [fst snd] in *.
    apply stale_parts in NS. cbn [hJ hC hO hV hF] in NS. rewrite assign_stale in NS. destruct NS as (N1 & N2 & N3 & N4 & N5).
    specialize (X N3). specialize (Room N3).
    rewrite (DenL_read _ _ _ D'). rewrite app_nth2, Nat.sub_diag by lia. cbn [nth].
    unfold b_join, b_on, b_join_open, on_last. cbn [b_joins b_set_joins]. rewrite rev_app_distr. cbn [rev app bind].
    rewrite rev_involutive. cbn [bind]. split.
    - repeat split; cbn [hC hO hJ hV hF]; try apply Ext_refl. apply (assign_ext _ st' _ _ _ _ X D'); [lia|exact Room].
    - repeat split; cbn; auto.
      + eapply assign_last. exact D'.
      + apply G.
      + apply G.
      + apply G.
      + apply G.
  Qed.
  Lemma agree_many h b p : RepB h b p -> hagree RepM h (h_many_of b) (Ok (many_of p)).
  Proof.
    intros R. unfold h_many_of. eapply hagree_step; [apply alloc_O|hg|]. intros s h1 X1 D1. apply hagree_ret.
    split; [exact (RepB_ext _ _ _ _ X1 R)|]. repeat split; auto.
  Qed.
  Lemma agree_order h m p os : RepM h m p -> hagree RepM h (h_add_order pol m os) (Ok (m_add_order p os)).
  Proof.
    intros (R & E1 & E2 & D). unfold h_add_order. eapply hagree_step; [apply append_O; exact D|hg|]. intros s h1 X1 D1. apply hagree_ret.
    split; [exact (RepB_ext _ _ _ _ X1 R)|]. repeat split; auto.
  Qed.
  Lemma agree_insert h p : hagree RepI h (h_insert_into p) (Ok (insert_into p)).
  Proof. unfold h_insert_into. eapply hagree_step; [apply alloc_V|hg|]. intros s h1 X1 D1. apply hagree_ret. repeat split; auto. Qed.
  Lemma agree_i_add h i p vs : RepI h i p -> hagree RepI h (h_i_add pol i vs) (Ok (i_add p vs)).
  Proof.
    intros (E1 & E2 & D). unfold h_i_add. eapply hagree_step; [apply append_V; exact D|hg|]. intros s h1 X1 D1. apply hagree_ret. repeat split; auto.
  Qed.
  Lemma agree_update h p : hagree RepU h (h_update_ p) (Ok (update_ p)).
  Proof.
    unfold h_update_. eapply hagree_step; [apply new_where|hg|]. intros g h1 X1 D1. eapply hagree_step; [apply alloc_V|hg|]. intros s h2 X2 D2.
    apply hagree_ret. split; [reflexivity|]. split; [reflexivity|]. split; [apply (RepG_ext (hC h1)); [apply X2|exact D1]|exact D2].
  Qed.
  Lemma agree_u_add h u p vs : RepU h u p -> hagree RepU h (h_u_add pol u vs) (Ok (u_add p vs)).
  Proof.
    intros (E1 & E2 & G & D). unfold h_u_add. eapply hagree_step; [apply append_V; exact D|hg|]. intros s h1 X1 D1. apply hagree_ret.
    split; [exact E1|]. split; [exact E2|]. split; [apply (RepG_ext (hC h)); [apply X1|exact G]|exact D1].
  Qed.
  Lemma agree_u_where h u p hs cs : RepU h u p -> Reps (hC h) hs cs -> hagree RepU h (h_u_where pol u hs) (u_add_where p cs).
  Proof.
    intros (E1 & E2 & G & D) Q. unfold h_u_where, u_add_where.
    eapply hagree_bind; [apply (hagree_onC RepG); apply agree_add_conditions; [exact G|exact Q]|hg|].
    intros g q h1 X1 D1. apply hagree_ret. split; [exact E1|]. split; [exact E2|]. split; [exact D1|]. apply (DenL_ext (hV h)); [apply X1|exact D].
  Qed.
  Lemma agree_delete h p : hagree RepD h (h_delete_ p) (Ok (delete_ p)).
  Proof. unfold h_delete_. eapply hagree_step; [apply new_where|hg|]. intros g h1 X1 D1. apply hagree_ret. repeat split; apply D1. Qed.
  Lemma agree_d_where h d p hs cs : RepD h d p -> Reps (hC h) hs cs -> hagree RepD h (h_d_where pol d hs) (d_add_where p cs).
  Proof.
    intros (E1 & E2 & G) Q. unfold h_d_where, d_add_where.
    eapply hagree_bind; [apply (hagree_onC RepG); apply agree_add_conditions; [exact G|exact Q]|hg|].
    intros g q h1 X1 D1. apply hagree_ret. split; [exact E1|]. split; [exact E2|]. exact D1.
  Qed.
  (** Conditions() *)
  Lemma agree_conditions h g p : RepG (hC h) g p ->
    hagree (fun h' s cs => exists hs, DenL (hC h') s hs /\ Reps (hC h') hs cs) h (onC (h_conditions g)) (Ok (g_cs p)).
  Proof.
    intros R _. unfold onC, h_conditions, mbind, m_read.
    pose proof (RepG_read _ _ _ R) as Q. destruct (allocs HNil (read (hC h) (hg_sl g)) (hC h)) as (s & st' & E & X & D & _).
    rewrite E. cbn. split; [repeat split; cbn; auto using Ext_refl|]. exists (read (hC h) (hg_sl g)). split; [exact D|]. now apply (Reps_ext (hC h)).
  Qed.
  Lemma agree_read_C h s cs : (exists hs, DenL (hC h) s hs /\ Reps (hC h) hs cs) ->
    hagree (fun h' hs cs => Reps (hC h') hs cs) h (onC (m_read s)) (Ok cs).
  Proof.
    intros (hs & D & R) _. unfold onC, m_read. rewrite (DenL_read _ _ _ D). cbn. split; [|exact R]. repeat split; cbn; apply Ext_refl.
  Qed.
  Lemma hgrows_u_where u cs : hgrows (h_u_where pol u cs). Proof. unfold h_u_where, h_group_and. hg. Qed.
  Lemma hgrows_d_where u cs : hgrows (h_d_where pol u cs). Proof. unfold h_d_where, h_group_and. hg. Qed.
  Lemma hgrows_u_add u vs : hgrows (h_u_add pol u vs). Proof. unfold h_u_add. hg. Qed.
  Lemma hgrows_i_add u vs : hgrows (h_i_add pol u vs). Proof. unfold h_i_add. hg. Qed.
  Hint Resolve hgrows_u_where hgrows_d_where hgrows_u_add hgrows_i_add : hg.
  Lemma agree_to_update h tp b p vs : RepB h b p ->
    hagree RepU h (h_to_update pol tp b vs) (do u <- u_add_where (update_ tp) (g_cs (b_where p)); Ok (u_add u vs)).
  Proof.
    intros R. unfold h_to_update. eapply hagree_step; [apply agree_update|hg|]. intros u h1 X1 D1.
    apply (RepB_ext _ _ _ _ X1) in R. eapply hagree_step; [apply agree_conditions; apply R|hg|]. intros s h2 X2 D2.
    eapply hagree_step; [apply agree_read_C; exact D2|hg|]. intros cs h3 X3 D3.
    eapply hagree_bind; [apply agree_u_where; [|exact D3]|hg|].
    - apply (RepU_ext h1); [exact (HExt_trans _ _ _ X2 X3)|exact D1].
    - intros u2 p2 h4 X4 D4. now apply agree_u_add.
  Qed.
  Lemma agree_to_delete h tp b p : RepB h b p -> hagree RepD h (h_to_delete pol tp b) (d_add_where (delete_ tp) (g_cs (b_where p))).
  Proof.
    intros R. unfold h_to_delete. eapply hagree_step; [apply agree_delete|hg|]. intros u h1 X1 D1.
    apply (RepB_ext _ _ _ _ X1) in R. eapply hagree_step; [apply agree_conditions; apply R|hg|]. intros s h2 X2 D2.
    eapply hagree_step; [apply agree_read_C; exact D2|hg|]. intros cs h3 X3 D3.
    apply agree_d_where; [|exact D3]. apply (RepD_ext h1); [exact (HExt_trans _ _ _ X2 X3)|exact D1].
  Qed.
  Lemma agree_to_insert h b p vs : RepB h b p -> hagree RepI h (h_to_insert pol b vs) (Ok (b_insert p vs)).
  Proof.
    intros R. unfold h_to_insert. eapply hagree_step; [apply agree_insert|hg|]. intros i h1 X1 D1.
    unfold b_insert. rewrite (proj1 (proj2 R)) in D1. now apply agree_i_add.
  Qed.
End BuilderOps.
