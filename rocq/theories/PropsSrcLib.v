(** C102: whole programs.  With conditions made by the package only, the functions of Cond.v, Build.v
    and Surface.v themselves are what the source text does, and so are chains of calls of any
    length that make a builder and ask it for its statement. *)
From Coq Require Import String Ascii List Bool Arith NArith ZArith Lia.
From Verif Require Import GoStr StrFacts Value Names Cond Build Spec Calls Surface Open PropsOpen SrcAst SrcSem SrcProg SrcFacts SrcLoops SrcValues SrcConds SrcGroups SrcTree SrcMake SrcMethods SrcWhere SrcCalls SrcBuilders SrcBuild SrcWrite SrcSelect SrcSelectB SrcMany SrcManyB SrcManyC SrcSingle SrcTables SrcPromoted PropsSrcCond PropsSrcBuild.
Import ListNotations.
Local Open Scope string_scope.
Local Open Scope nat_scope.

(** * Specification *)

(** No condition comes from outside the package. *)
Definition nobody := Empty_set.
(** The builders and conditions of the model as values of the running source. *)
Definition upg (g : group) : xgroup nobody := mkXG (g_join g) (g_neg g) (map up (g_cs g)) (g_br g).
Definition src_cond (c : cond) : val nobody := of_cond c.
Definition src_conds (cs : list cond) : list (val nobody) := map src_cond cs.
Definition src_base (b : bsel) : val nobody := of_bsel b (upg (b_where b)).
Definition src_many (m : msel) : val nobody := of_msel m (upg (b_where (m_base m))).
Definition src_single (s : ssel) : val nobody := of_ssel s (upg (b_where (ss_base s))).
Definition src_count (c : csel) : val nobody := of_csel c (upg (b_where (cs_base c))).
Definition src_insert (x : ins) : val nobody := of_ins x.
Definition src_update (u : upd) : val nobody := of_upd u (upg (u_where u)).
Definition src_delete (d : del) : val nobody := of_del d (upg (d_where d)).

(** Not a condition of a type of the user's ([KCustom] of Cond.v is one, with And and Or of its own). *)
Definition of_package (c : cond) : Prop := match c with CLeaf l => library (l_kind l) | _ => True end.

(** [v.m1(a1).m2(a2)...]: each call is on the value the one before returned; a panic ends it *)
Definition step := (string * list (val nobody))%type.
Fixpoint chain (i : impl nobody) (n : nat) (v : val nobody) (ms : list step) : rr (val nobody) :=
  match ms with
  | [] => Done v
  | (m, a) :: r => match SrcSem.mcall i (run i n) v m a with Done w => chain i n w r | Halt => Halt | Wrong => Wrong | Spent => Spent end
  end.
(** [f(a).m1(a1).m2(a2)...] ends with [r], whatever the bound on the depth of calls, if it is large enough *)
Definition program (i : impl nobody) (f : string) (a : list (val nobody)) (ms : list step) (r : rr (val nobody)) : Prop :=
  exists k, forall n, k <= n -> match run i n f a with Done w => chain i n w ms | Halt => Halt | Wrong => Wrong | Spent => Spent end = r.

(** The calls of the histories of Calls.v as they are written in Go. *)
Definition b_text (c : bcall) : list step :=
  match c with
  | BFields fs => [("Fields", fdefs fs)]
  | BWhere cs => [("Where", src_conds cs)]
  | BJoin t jt l r => [("Join", [of_tident t; RInt "TableJoinType" jt]); ("On", [of_fdef l; of_fdef r])]
  end.
Definition m_text (c : Calls.mcall) : list step :=
  match c with
  | MFields fs => [("Fields", fdefs fs)]
  | MWhere cs => [("Where", src_conds cs)]
  | MJoin tn jt l r => [("Join", [RStr "TableName" tn; RInt "TableJoinType" jt]); ("On", [of_fdef l; of_fdef r])]
  | MOrder os => [("OrderBy", fsorts os)]
  | MOffset o => [("Offset", [RInt "uint" (Z.of_N o)])]
  | MLimit l => [("Limit", [RInt "int" l])]
  end.
Definition s_text (c : scall) : list step :=
  match c with
  | SFields fs => [("Fields", fdefs fs)]
  | SWhere cs => [("Where", src_conds cs)]
  | SJoin tn jt l r => [("Join", [RStr "TableName" tn; RInt "TableJoinType" jt]); ("On", [of_fdef l; of_fdef r])]
  end.
Definition i_text (vs : list fvalue) : list step := [("Values", fvals vs)].
Definition u_text (c : ucall) : list step :=
  match c with USet vs => [("Set", fvals vs)] | UWhere cs => [("Where", src_conds cs)] end.
Definition d_text (cs : list cond) : list step := [("Where", src_conds cs)].
Definition build : list step := [("BuildQueryAndParams", [])].

(** * Facts *)

Definition unseen : nobody -> leaf := fun e => match e with end.
Lemma nobody_follows (i : impl nobody) : follows i unseen.
Proof. constructor; intros []. Qed.
Lemma seen_up : forall c, seen unseen (up c) = c.
Proof.
  fix go 1. intros [|l|j n cs br]; try reflexivity. cbn [up seen]. f_equal.
  induction cs as [|c cs IH]; [reflexivity|]. cbn [map]. now rewrite go, IH.
Qed.
Lemma up_seen : forall c : xcond nobody, up (seen unseen c) = c.
Proof.
  induction c as [|l|[]|j n cs br IH] using xcond_ind'; try reflexivity. cbn [up seen]. f_equal.
  induction IH as [|c cs H _ IH]; [reflexivity|]. cbn [map]. now rewrite H, IH.
Qed.
Lemma seen_ups cs : map (seen unseen) (map up cs) = cs.
Proof. induction cs as [|c cs IH]; [reflexivity|]. cbn [map]. now rewrite seen_up, IH. Qed.
Lemma up_seens cs : map up (map (seen unseen) cs) = cs.
Proof. induction cs as [|c cs IH]; [reflexivity|]. cbn [map]. now rewrite up_seen, IH. Qed.
Lemma seen_upg g : seen_g unseen (upg g) = g.
Proof. destruct g as [j n cs br]. unfold seen_g, upg. cbn. now rewrite seen_ups. Qed.
Lemma upg_seen g : upg (seen_g unseen g) = g.
Proof. destruct g as [j n cs br]. unfold seen_g, upg. cbn. now rewrite up_seens. Qed.
Lemma lib_cond r q : rmap (seen unseen) r = q -> r = rmap up q.
Proof. intros <-. destruct r as [c|]; [|reflexivity]. cbn. now rewrite up_seen. Qed.
Lemma lib_group r q : rmap (seen_g unseen) r = q -> r = rmap upg q.
Proof. intros <-. destruct r as [c|]; [|reflexivity]. cbn [rmap]. now rewrite upg_seen. Qed.

Section Lib.
  Variable i : impl nobody.
  Let F := nobody_follows i.
  Lemma up_join j c : x_join i j (up c) = rmap up (c_join j c).
  Proof. apply lib_cond. now rewrite (sn_join i unseen F), seen_up. Qed.
  Lemma up_negate b c : x_negate i b (up c) = rmap up (c_negate b c).
  Proof. apply lib_cond. now rewrite (sn_negate i unseen F), seen_up. Qed.
  Lemma up_new_group j cs : x_new_group i j (map up cs) = rmap upg (new_group j cs).
  Proof. apply lib_group. now rewrite (sn_new_group i unseen F), seen_ups. Qed.
  Lemma up_jt_join j cs : x_jt_join i j (map up cs) = rmap up (jt_join j cs).
  Proof. apply lib_cond. now rewrite (sn_jt_join i unseen F), seen_ups. Qed.
  Lemma up_group_and g cs : x_group_and i (upg g) (map up cs) = rmap upg (group_and g cs).
  Proof. apply lib_group. unfold x_group_and. now rewrite (sn_add_conditions i unseen F), seen_ups, seen_upg. Qed.
  Lemma up_group_or g cs : x_group_or i (upg g) (map up cs) = rmap upg (group_or g cs).
  Proof. apply lib_group. unfold x_group_or. now rewrite (sn_add_conditions i unseen F), seen_ups, seen_upg. Qed.
  Lemma up_and c cs : x_and i (up c) (map up cs) = rmap up (and_ c cs).
  Proof. apply lib_cond. now rewrite (sn_and i unseen F), seen_ups, seen_up. Qed.
  Lemma up_or c cs : x_or i (up c) (map up cs) = rmap up (or_ c cs).
  Proof. apply lib_cond. now rewrite (sn_or i unseen F), seen_ups, seen_up. Qed.
  Lemma up_spec s c : x_apply_spec i s (up c) = rmap up (c_apply_spec s c).
  Proof. apply lib_cond. now rewrite (sn_apply_spec i unseen F), seen_up. Qed.
  Lemma up_table t c : x_apply_table i t (up c) = rmap up (c_apply_table t c).
  Proof. apply lib_cond. now rewrite (sn_apply_table i unseen F), seen_up. Qed.
  Lemma up_render c n : x_render i (up c) n = c_render c n.
  Proof. now rewrite (sn_render i unseen F), seen_up. Qed.
  Lemma up_render_sql c : x_render_sql i (up c) = c_render_sql c.
  Proof. now rewrite (sn_render_sql i unseen F), seen_up. Qed.
  Lemma up_values c : x_values i (up c) = c_values c.
  Proof. now rewrite (sn_values i unseen F), seen_up. Qed.
  Lemma up_of_g g : of_xg (upg g) = up (of_g g).
  Proof. now destruct g. Qed.
  Lemma up_nonempty g : nonempty (xg_cs (upg g)) = nonempty (g_cs g).
  Proof. now destruct g as [? ? [|] ?]. Qed.
  Lemma up_empty : x_empty = upg (mkG AND false [] false).
  Proof. reflexivity. Qed.
End Lib.

Lemma calls_is {S} (i : impl S) f a r a' r' : SrcCalls.calls i f a r -> a = a' -> r = r' -> SrcCalls.calls i f a' r'.
Proof. now intros H <- <-. Qed.
Lemma asks_is {S} (i : impl S) v m a r v' a' r' : asks i v m a r -> v = v' -> a = a' -> r = r' -> asks i v' m a' r'.
Proof. now intros H <- <- <-. Qed.
Lemma asks_by {S} (i : impl S) v m f v' a r :
  (forall c, SrcSem.mcall i c v m a = c f (v' :: a)) -> SrcCalls.calls i f (v' :: a) r -> asks i v m a r.
Proof. intros E [k H]. exists k. intros n Hn. rewrite E. now apply H. Qed.
(** one of the statements of a conjunction *)
Ltac pick H := match type of H with
  | _ /\ _ => let A := fresh in let B := fresh in destruct H as [A B]; first [simple apply A | clear A; pick B]
  | _ => simple apply H
  end.
Ltac picks T := let H := fresh in pose proof T as H; pick H.
Lemma xvals_conds cs : xvals (map up cs) = src_conds cs.
Proof. unfold xvals, src_conds. rewrite map_map. reflexivity. Qed.

Lemma src_group g : src_cond (of_g g) = of_group (upg g).
Proof. reflexivity. Qed.

(** * Conditions *)
Theorem C102_conditions_from_source : forall i : impl nobody,
  (forall c, asks i (src_cond c) "JoinType" [] (of_res (RStr "JoinType") (jtype c))) /\
  (forall f c, asks i (src_cond c) "RenderJoin" [RBool f] (of_res (RStr "string") (c_render_join f c))) /\
  (forall y j c, asks i (src_cond c) "Join" [RStr y j] (of_res src_cond (c_join j c))) /\
  (forall b c, asks i (src_cond c) "Negate" [RBool b] (of_res src_cond (c_negate b c))) /\
  (forall c, SrcCalls.calls i "Not" [src_cond c] (of_res src_cond (not_ c))) /\
  (forall c cs, SrcCalls.calls i "And" (src_cond c :: src_conds cs) (of_res src_cond (and_ c cs))) /\
  (forall c cs, SrcCalls.calls i "Or" (src_cond c :: src_conds cs) (of_res src_cond (or_ c cs))) /\
  (forall y j cs, SrcCalls.calls i "JoinType.Join" (RStr y j :: src_conds cs) (of_res src_cond (jt_join j cs))) /\
  (forall y j cs, SrcCalls.calls i "NewGroup" (RStr y j :: src_conds cs) (of_res (fun g => src_cond (of_g g)) (new_group j cs))) /\
  (forall g cs, SrcCalls.calls i "Group.GroupAND" (src_cond (of_g g) :: src_conds cs) (of_res (fun g => src_cond (of_g g)) (group_and g cs))) /\
  (forall g cs, SrcCalls.calls i "Group.GroupOR" (src_cond (of_g g) :: src_conds cs) (of_res (fun g => src_cond (of_g g)) (group_or g cs))) /\
  (forall c cs, of_package c -> asks i (src_cond c) "And" (src_conds cs) (of_res src_cond (m_and c cs))) /\
  (forall c cs, of_package c -> asks i (src_cond c) "Or" (src_conds cs) (of_res src_cond (m_or c cs))) /\
  (forall c, asks i (src_cond c) "Values" [] (of_res (fun l => RSlice (gvals l)) (c_values c))) /\
  (forall c k, asks i (src_cond c) "Render" [RInt "int" (Z.of_nat k)] (of_res (RStr "string") (c_render c k))) /\
  (forall c, asks i (src_cond c) "RenderSQL" [] (of_res (RStr "string") (c_render_sql c))) /\
  (forall s c, asks i (src_cond c) "ApplyFieldSpec" [of_fdef s] (of_res src_cond (c_apply_spec s c))) /\
  (forall y t c, asks i (src_cond c) "ApplyFieldTable" [RStr y t] (of_res src_cond (c_apply_table t c))).
Proof.
  intros i. repeat match goal with |- _ /\ _ => split end; intros.
  - eapply asks_is; [picks (C100_groups_from_source _ i)|reflexivity..|]. now rewrite (sn_jtype i unseen (nobody_follows i)), seen_up.
  - eapply asks_is; [picks (C100_groups_from_source _ i)|reflexivity..|].
    rewrite (sn_render_join i unseen (nobody_follows i)), seen_up. reflexivity.
  - eapply asks_is; [picks (C100_groups_from_source _ i)|reflexivity..|]. rewrite up_join. now destruct (c_join _ _).
  - eapply asks_is; [picks (C100_groups_from_source _ i)|reflexivity..|]. rewrite up_negate. now destruct (c_negate _ _).
  - eapply calls_is; [picks (C100_groups_from_source _ i)|reflexivity|]. unfold x_not, not_. rewrite up_negate. now destruct (c_negate _ _).
  - rewrite <- xvals_conds. eapply calls_is; [picks (C100_groups_from_source _ i)|reflexivity|]. rewrite up_and. now destruct (and_ _ _).
  - rewrite <- xvals_conds. eapply calls_is; [picks (C100_groups_from_source _ i)|reflexivity|]. rewrite up_or. now destruct (or_ _ _).
  - rewrite <- xvals_conds. eapply calls_is; [picks (C100_groups_from_source _ i)|reflexivity|]. rewrite up_jt_join. now destruct (jt_join _ _).
  - rewrite <- xvals_conds. eapply calls_is; [picks (C100_groups_from_source _ i)|reflexivity|]. rewrite up_new_group. now destruct (new_group _ _).
  - rewrite <- xvals_conds, src_group. eapply calls_is; [picks (C100_groups_from_source _ i)|reflexivity|]. rewrite up_group_and. now destruct (group_and _ _).
  - rewrite <- xvals_conds, src_group. eapply calls_is; [picks (C100_groups_from_source _ i)|reflexivity|]. rewrite up_group_or. now destruct (group_or _ _).
  - rewrite <- xvals_conds. destruct c as [|l|j b ks br].
    { exists 0. intros n _. reflexivity. }
    2: { apply (asks_by i _ _ "Group.And" (of_group (upg (mkG j b ks br)))); [reflexivity|]. eapply calls_is; [picks (C100_groups_from_source _ i)|reflexivity|].
         rewrite up_group_and. cbn [m_and]. now destruct (group_and _ _). }
    cbn [of_package] in *. eapply asks_is; [picks (C100_condition_types_from_source _ i); eassumption|reflexivity..|].
    unfold x_leaf_and, m_and. change (XLeaf l) with (@up nobody (CLeaf l)). change [@up nobody (CLeaf l)] with (map (@up nobody) [CLeaf l]).
    destruct (l_kind l); rewrite ?up_and, ?up_new_group; try (now destruct (and_ _ _)); (destruct (new_group _ _); [|reflexivity]; cbn [rmap bind]; rewrite up_group_and; now destruct (group_and _ _)).
  - rewrite <- xvals_conds. destruct c as [|l|j b ks br].
    { exists 0. intros n _. reflexivity. }
    2: { apply (asks_by i _ _ "Group.Or" (of_group (upg (mkG j b ks br)))); [reflexivity|]. eapply calls_is; [picks (C100_groups_from_source _ i)|reflexivity|].
         rewrite up_group_or. cbn [m_or]. now destruct (group_or _ _). }
    cbn [of_package] in *. eapply asks_is; [picks (C100_condition_types_from_source _ i); eassumption|reflexivity..|].
    unfold x_leaf_or, m_or. change (XLeaf l) with (@up nobody (CLeaf l)). change [@up nobody (CLeaf l)] with (map (@up nobody) [CLeaf l]). change [@XNil nobody] with (map (@up nobody) [CNil]).
    destruct (l_kind l); rewrite ?up_or, ?up_new_group; try (now destruct (or_ _ _)); (destruct (new_group _ _); [|reflexivity]; cbn [rmap bind]; rewrite ?up_group_or, ?up_group_and); try now destruct (group_or _ _).
    destruct (group_and _ _); [|reflexivity]; cbn [rmap bind]; rewrite up_group_or; now destruct (group_or _ _).
  - eapply asks_is; [picks (C100_groups_from_source _ i)|reflexivity..|]. now rewrite up_values.
  - eapply asks_is; [picks (C100_groups_from_source _ i)|reflexivity..|]. now rewrite up_render.
  - eapply asks_is; [picks (C100_groups_from_source _ i)|reflexivity..|]. now rewrite up_render_sql.
  - eapply asks_is; [picks (C100_groups_from_source _ i)|reflexivity..|]. rewrite up_spec. now destruct (c_apply_spec _ _).
  - eapply asks_is; [picks (C100_groups_from_source _ i)|reflexivity..|]. rewrite up_table. now destruct (c_apply_table _ _).
Qed.

(** * Builders *)

Definition gives (i : impl nobody) (v : val nobody) (ms : list step) (r : rr (val nobody)) : Prop :=
  exists k, forall n, k <= n -> chain i n v ms = r.
(** what comes of the rest after a call that may panic *)
Definition on {A} (r : res A) (R : A -> rr (val nobody)) : rr (val nobody) := match r with Ok x => R x | Panic => Halt end.
Lemma gives_call {A} (i : impl nobody) v m a (r : res A) (f : A -> val nobody) ms R :
  asks i v m a (of_res f r) -> (forall x, r = Ok x -> gives i (f x) ms (R x)) -> gives i v ((m, a) :: ms) (on r R).
Proof.
  intros [k H] K. destruct r as [x|].
  - destruct (K x eq_refl) as [k' H']. exists (k + k'). intros n Hn. cbn [chain]. rewrite H by lia. cbn [of_res on]. apply H'. lia.
  - exists k. intros n Hn. cbn [chain]. rewrite H by lia. reflexivity.
Qed.
Lemma gives_last {A} (i : impl nobody) v m a (r : res A) (f : A -> val nobody) :
  asks i v m a (of_res f r) -> gives i v [(m, a)] (of_res f r).
Proof.
  intros [k H]. exists k. intros n Hn. cbn [chain]. rewrite H by lia. now destruct r.
Qed.
Lemma gives_done {A} (i : impl nobody) v m a (x : A) (f : A -> val nobody) ms R :
  asks i v m a (Done (f x)) -> gives i (f x) ms R -> gives i v ((m, a) :: ms) R.
Proof. intros H K. apply (gives_call i v m a (Ok x) f ms (fun _ => R)); [exact H|]. now intros y [= <-]. Qed.

Section History.
  Context (i : impl nobody) {A B : Type} (enc : A -> val nobody) (f : A -> B -> res A) (text : B -> list step).
  Hypothesis Hstep : forall a b ms R, (forall a', gives i (enc a') ms (R a')) -> gives i (enc a) (text b ++ ms)%list (on (f a b) R).
  Lemma history_gives : forall h a ms R, (forall a', gives i (enc a') ms (R a')) ->
    gives i (enc a) (flat_map text h ++ ms)%list (on (Spec.calls f a h) R).
  Proof.
    induction h as [|b h IH]; intros a ms R H; [apply H|].
    cbn [flat_map Spec.calls]. rewrite <- app_assoc.
    replace (on (match f a b with Ok a' => Spec.calls f a' h | Panic => Panic end) R) with (on (f a b) (fun a' => on (Spec.calls f a' h) R)) by now destruct (f a b).
    apply Hstep. intros a'. now apply IH.
  Qed.
End History.

Section Steps.
  Variable i : impl nobody.
  Let F := nobody_follows i.
  (* the method is the builder's own *)
  Ltac own K := eapply asks_by; [let x := fresh in intros x; apply (K nobody i x); cbn; tauto|].
  Ltac from T := picks (T nobody i).

  (** ** BaseSelectBuilder *)
  Lemma base_fields b fs : asks i (src_base b) "Fields" (fdefs fs) (Done (src_base (b_set_fields b fs))).
  Proof. own @base_own. eapply calls_is; [from C101_base_select_from_source|reflexivity..]. Qed.
  Lemma base_where b cs : asks i (src_base b) "Where" (src_conds cs) (of_res src_base (b_add_where b cs)).
  Proof.
    own @base_own. rewrite <- xvals_conds. eapply calls_is; [from C101_base_select_from_source|reflexivity|].
    rewrite up_group_and. unfold b_add_where. now destruct (group_and _ _).
  Qed.
  Lemma base_join b t jt l r ms R : (forall b', gives i (src_base b') ms (R b')) ->
    gives i (src_base b) (("Join", [of_tident t; RInt "TableJoinType" jt]) :: ("On", [of_fdef l; of_fdef r]) :: ms) (on (b_join b t jt l r) R).
  Proof.
    intros H. apply (gives_done i _ _ _ (b_join_open b t jt) (fun x => of_bjoin x (upg (b_where b)))).
    { own @base_own. from C101_base_select_from_source. }
    unfold b_join. apply (gives_call i _ _ _ _ src_base).
    { eapply asks_by; [intros c; apply (proj1 (joiner_own i c _ (many_of b) (single_of b) _ _))|].
      eapply calls_is; [from C101_base_select_from_source|reflexivity|].
      unfold b_on. destruct (on_last _ _ _); reflexivity. }
    intros x _. apply H.
  Qed.
  Lemma base_build b : asks i (src_base b) "BuildQueryAndParams" [] (of_res (of_out no_error) (b_build b)).
  Proof.
    own @base_own. eapply calls_is; [from C101_base_select_from_source|reflexivity|].
    rewrite (sn_b_build i unseen F), seen_upg. now destruct b.
  Qed.
  Lemma base_values b : asks i (src_base b) "Values" [] (of_res (fun l => RSlice (gvals l)) (b_values b)).
  Proof.
    own @base_own. eapply calls_is; [from C101_base_select_from_source|reflexivity|].
    unfold x_b_values, b_values. rewrite up_nonempty, up_of_g, up_values. now destruct (nonempty _).
  Qed.
  Lemma base_render b k : asks i (src_base b) "Render" [RInt "int" (Z.of_nat k)] (of_res (RStr "string") (b_render b k)).
  Proof.
    own @base_own. eapply calls_is; [from C101_base_select_from_source|reflexivity|].
    unfold x_b_render, b_render. now rewrite up_nonempty, up_of_g, up_render.
  Qed.
  Lemma base_render_sql b : asks i (src_base b) "RenderSQL" [] (of_res (RStr "string") (b_render_sql b)).
  Proof.
    own @base_own. eapply calls_is; [from C101_base_select_from_source|reflexivity|].
    unfold x_b_render_sql, b_render_sql. now rewrite up_nonempty, up_of_g, up_render_sql.
  Qed.
  Lemma base_string b : asks i (src_base b) "String" [] (of_res (RStr "string") (b_string b)).
  Proof.
    own @base_own. eapply calls_is; [from C101_base_select_from_source|reflexivity|].
    unfold x_b_string, b_string, w_string, w_render_sql. now rewrite up_of_g, up_render_sql.
  Qed.
  Lemma up_kept g : x_group_and i x_empty (xg_cs (upg g)) = rmap upg (group_and (mkG AND false [] false) (g_cs g)).
  Proof. rewrite up_empty. apply up_group_and. Qed.
  Lemma base_update b vs : asks i (src_base b) "Update" (fvals vs) (of_res src_update (b_update b vs)).
  Proof.
    own @base_own. eapply calls_is; [from C101_base_select_from_source|reflexivity|].
    unfold x_b_update, b_update, u_add_where. rewrite up_kept. cbn [update_ u_where]. now destruct (group_and _ _).
  Qed.
  Lemma base_delete b : asks i (src_base b) "Delete" [] (of_res src_delete (b_delete b)).
  Proof.
    own @base_own. eapply calls_is; [from C101_base_select_from_source|reflexivity|].
    unfold x_b_delete, b_delete, d_add_where. rewrite up_kept. cbn [delete_ d_where]. now destruct (group_and _ _).
  Qed.
  Lemma base_insert b vs : asks i (src_base b) "InsertInto" (fvals vs) (Done (src_insert (b_insert b vs))).
  Proof. own @base_own. eapply calls_is; [from C101_base_select_from_source|reflexivity..]. Qed.
  Lemma base_single b : asks i (src_base b) "Single" [] (Done (src_single (single_of b))).
  Proof. own @base_own. eapply calls_is; [from C101_base_select_from_source|reflexivity..]. Qed.
  Lemma base_many b : asks i (src_base b) "Many" [] (Done (src_many (b_many b))).
  Proof. own @base_own. eapply calls_is; [from C101_base_select_from_source|reflexivity..]. Qed.
  Lemma base_count b : asks i (src_base b) "Count" [] (of_res src_count (b_count b)).
  Proof.
    own @base_own. eapply calls_is; [from C101_base_select_from_source|reflexivity|]. unfold b_count, count.
    destruct (field "*"); reflexivity.
  Qed.

  (** ** SelectManyBuilder *)
  Lemma many_fields m fs : asks i (src_many m) "Fields" (fdefs fs) (Done (src_many (m_set_fields m fs))).
  Proof. own @many_own. eapply calls_is; [from C101_select_many_from_source|reflexivity..]. Qed.
  Lemma many_where m cs : asks i (src_many m) "Where" (src_conds cs) (of_res src_many (m_add_where m cs)).
  Proof.
    own @many_own. rewrite <- xvals_conds. eapply calls_is; [from C101_select_many_from_source|reflexivity|].
    rewrite up_group_and. unfold m_add_where, b_add_where. now destruct (group_and _ _).
  Qed.
  Lemma many_order m os : asks i (src_many m) "OrderBy" (fsorts os) (Done (src_many (m_add_order m os))).
  Proof. own @many_own. eapply calls_is; [from C101_select_many_from_source|reflexivity..]. Qed.
  Lemma many_offset m o : asks i (src_many m) "Offset" [RInt "uint" (Z.of_N o)] (Done (src_many (m_set_offset m o))).
  Proof. own @many_own. eapply calls_is; [from C101_select_many_from_source|reflexivity..]. Qed.
  Lemma many_limit m l : asks i (src_many m) "Limit" [RInt "int" l] (Done (src_many (m_set_limit m l))).
  Proof. own @many_own. eapply calls_is; [from C101_select_many_from_source|reflexivity..]. Qed.
  Lemma many_join m tn jt l r ms R : (forall m', gives i (src_many m') ms (R m')) ->
    gives i (src_many m) (("Join", [RStr "TableName" tn; RInt "TableJoinType" jt]) :: ("On", [of_fdef l; of_fdef r]) :: ms) (on (m_join m tn jt l r) R).
  Proof.
    intros H. replace (on (m_join m tn jt l r) R) with (on (m_join_open m tn jt) (fun x => on (m_on x l r) R)).
    2: { unfold m_join, m_join_open, m_on. destruct (table tn); [|reflexivity]. cbn [bind on]. unfold m_join_ident, b_join. cbn [m_base m_set_base]. now destruct (b_on _ _ _). }
    apply (gives_call i _ _ _ _ (fun x => of_mjoin x (upg (b_where (m_base m))))).
    { own @many_own. from C101_select_many_from_source. }
    intros x E. apply (gives_call i _ _ _ _ src_many).
    { eapply asks_by; [intros c; apply (proj1 (proj2 (joiner_own i c (m_base m) _ (single_of (m_base m)) _ _)))|].
      eapply calls_is; [from C101_select_many_from_source|reflexivity|].
      unfold m_join_open in E. destruct (table tn); [|discriminate]. cbn [bind] in E. injection E as <-.
      unfold m_on, b_on. destruct (on_last _ _ _); reflexivity. }
    intros y _. apply H.
  Qed.
  Lemma many_build m : asks i (src_many m) "BuildQueryAndParams" [] (of_res (of_out no_error) (m_build m)).
  Proof.
    own @many_own. eapply calls_is; [from C101_select_many_from_source|reflexivity|].
    unfold x_m_build. rewrite (sn_b_build i unseen F), seen_upg. now destruct m as [[] ? ? ?].
  Qed.
  Lemma many_update m vs : asks i (src_many m) "Update" (fvals vs) (of_res src_update (m_update m vs)).
  Proof.
    own @many_own. eapply calls_is; [from C101_select_many_from_source|reflexivity|].
    unfold x_m_update, m_update, u_add_where. rewrite up_kept. cbn [update_ u_where]. now destruct (group_and _ _).
  Qed.
  Lemma many_delete m : asks i (src_many m) "Delete" [] (of_res src_delete (m_delete m)).
  Proof.
    own @many_own. eapply calls_is; [from C101_select_many_from_source|reflexivity|].
    unfold x_m_delete, m_delete, d_add_where. rewrite up_kept. cbn [delete_ d_where]. now destruct (group_and _ _).
  Qed.
  Lemma many_count m : asks i (src_many m) "Count" [] (of_res src_count (m_count m)).
  Proof.
    own @many_own. eapply calls_is; [from C101_select_many_from_source|reflexivity|]. unfold m_count, count.
    destruct (field "*"); reflexivity.
  Qed.

  (** ** SelectSingleBuilder *)
  Lemma single_fields s fs : asks i (src_single s) "Fields" (fdefs fs) (Done (src_single (ss_set_fields s fs))).
  Proof. own @single_own. eapply calls_is; [from C101_select_single_from_source|reflexivity..]. Qed.
  Lemma single_where s cs : asks i (src_single s) "Where" (src_conds cs) (of_res src_single (ss_add_where s cs)).
  Proof.
    own @single_own. rewrite <- xvals_conds. eapply calls_is; [from C101_select_single_from_source|reflexivity|].
    rewrite up_group_and. unfold ss_add_where, b_add_where. now destruct (group_and _ _).
  Qed.
  Lemma single_join s tn jt l r ms R : (forall s', gives i (src_single s') ms (R s')) ->
    gives i (src_single s) (("Join", [RStr "TableName" tn; RInt "TableJoinType" jt]) :: ("On", [of_fdef l; of_fdef r]) :: ms) (on (ss_join s tn jt l r) R).
  Proof.
    intros H. replace (on (ss_join s tn jt l r) R) with (on (ss_join_open s tn jt) (fun x => on (ss_on x l r) R)).
    2: { unfold ss_join, ss_join_open, ss_on. destruct (table tn); [|reflexivity]. cbn [bind on]. unfold ss_join_ident, b_join. cbn [ss_base single_of]. now destruct (b_on _ _ _). }
    apply (gives_call i _ _ _ _ (fun x => of_sjoin x (upg (b_where (ss_base s))))).
    { own @single_own. from C101_select_single_from_source. }
    intros x E. apply (gives_call i _ _ _ _ src_single).
    { eapply asks_by; [intros c; apply (proj2 (proj2 (joiner_own i c (ss_base s) (many_of (ss_base s)) _ _ _)))|].
      eapply calls_is; [from C101_select_single_from_source|reflexivity|].
      unfold ss_join_open in E. destruct (table tn); [|discriminate]. cbn [bind] in E. injection E as <-.
      unfold ss_on, b_on. destruct (on_last _ _ _); reflexivity. }
    intros y _. apply H.
  Qed.
  Lemma single_build s : asks i (src_single s) "BuildQueryAndParams" [] (of_res (of_out no_error) (ss_build s)).
  Proof.
    own @single_own. eapply calls_is; [from C101_select_single_from_source|reflexivity|].
    unfold x_ss_build. rewrite (sn_b_build i unseen F), seen_upg. now destruct s as [[]].
  Qed.
  Lemma single_update s vs : asks i (src_single s) "Update" (fvals vs) (of_res src_update (ss_update s vs)).
  Proof.
    own @single_own. eapply calls_is; [from C101_select_single_from_source|reflexivity|].
    unfold ss_update, x_b_update, b_update, u_add_where. rewrite up_kept. cbn [update_ u_where]. now destruct (group_and _ _).
  Qed.

  (** ** CountBuilder, InsertBuilder, UpdateBuilder, DeleteBuilder *)
  Lemma count_build c : asks i (src_count c) "BuildQueryAndParams" [] (of_res (of_out no_error) (cs_build c)).
  Proof.
    own @count_own. eapply calls_is; [from C101_count_from_source|reflexivity|].
    unfold x_cs_build, cs_build. rewrite up_nonempty, up_of_g, up_render, up_values. reflexivity.
  Qed.
  Lemma insert_values x vs : asks i (src_insert x) "Values" (fvals vs) (Done (src_insert (i_add x vs))).
  Proof. own @insert_own. eapply calls_is; [from C101_write_from_source|reflexivity..]. Qed.
  Lemma insert_build x : asks i (src_insert x) "BuildQueryAndParams" [] (of_res (of_out insert_error) (i_build x)).
  Proof. own @insert_own. eapply calls_is; [from C101_write_from_source|reflexivity..]. Qed.
  Lemma update_set u vs : asks i (src_update u) "Set" (fvals vs) (Done (src_update (u_add u vs))).
  Proof. own @update_own. eapply calls_is; [from C101_write_from_source|reflexivity..]. Qed.
  Lemma update_where u cs : asks i (src_update u) "Where" (src_conds cs) (of_res src_update (u_add_where u cs)).
  Proof.
    own @update_own. rewrite <- xvals_conds. eapply calls_is; [from C101_write_from_source|reflexivity|].
    rewrite up_group_and. unfold u_add_where. now destruct (group_and _ _).
  Qed.
  Lemma update_build u : asks i (src_update u) "BuildQueryAndParams" [] (of_res (of_out update_error) (u_build u)).
  Proof.
    own @update_own. eapply calls_is; [from C101_write_from_source|reflexivity|].
    rewrite (sn_u_build i unseen F), seen_upg. now destruct u.
  Qed.
  Lemma delete_where d cs : asks i (src_delete d) "Where" (src_conds cs) (of_res src_delete (d_add_where d cs)).
  Proof.
    own @delete_own. rewrite <- xvals_conds. eapply calls_is; [from C101_write_from_source|reflexivity|].
    rewrite up_group_and. unfold d_add_where. now destruct (group_and _ _).
  Qed.
  Lemma delete_build d : asks i (src_delete d) "BuildQueryAndParams" [] (of_res (of_out delete_error) (d_build d)).
  Proof.
    own @delete_own. eapply calls_is; [from C101_write_from_source|reflexivity|].
    rewrite (sn_d_build i unseen F), seen_upg. now destruct d.
  Qed.
End Steps.

Section Programs.
  Variable i : impl nobody.
  Lemma base_history h b ms R : (forall b', gives i (src_base b') ms (R b')) ->
    gives i (src_base b) (flat_map b_text h ++ ms)%list (on (Spec.calls b_call b h) R).
  Proof.
    apply (history_gives i src_base b_call b_text). clear. intros b [fs|cs|t jt l r] ms R H; cbn [b_text app b_call].
    - apply (gives_done i _ _ _ (b_set_fields b fs) src_base); [apply base_fields|apply H].
    - apply (gives_call i _ _ _ _ src_base); [apply base_where|intros x _; apply H].
    - now apply base_join.
  Qed.
  Lemma many_history h m ms R : (forall m', gives i (src_many m') ms (R m')) ->
    gives i (src_many m) (flat_map m_text h ++ ms)%list (on (Spec.calls m_call m h) R).
  Proof.
    apply (history_gives i src_many m_call m_text). clear. intros m [fs|cs|t jt l r|os|o|l] ms R H; cbn [m_text app m_call].
    - apply (gives_done i _ _ _ (m_set_fields m fs) src_many); [apply many_fields|apply H].
    - apply (gives_call i _ _ _ _ src_many); [apply many_where|intros x _; apply H].
    - now apply many_join.
    - apply (gives_done i _ _ _ (m_add_order m os) src_many); [apply many_order|apply H].
    - apply (gives_done i _ _ _ (m_set_offset m o) src_many); [apply many_offset|apply H].
    - apply (gives_done i _ _ _ (m_set_limit m l) src_many); [apply many_limit|apply H].
  Qed.
  Lemma single_history h s ms R : (forall s', gives i (src_single s') ms (R s')) ->
    gives i (src_single s) (flat_map s_text h ++ ms)%list (on (Spec.calls s_call s h) R).
  Proof.
    apply (history_gives i src_single s_call s_text). clear. intros s [fs|cs|t jt l r] ms R H; cbn [s_text app s_call].
    - apply (gives_done i _ _ _ (ss_set_fields s fs) src_single); [apply single_fields|apply H].
    - apply (gives_call i _ _ _ _ src_single); [apply single_where|intros x _; apply H].
    - now apply single_join.
  Qed.
  Lemma insert_history h x ms R : (forall x', gives i (src_insert x') ms (R x')) ->
    gives i (src_insert x) (flat_map i_text h ++ ms)%list (on (Spec.calls i_call x h) R).
  Proof.
    apply (history_gives i src_insert i_call i_text). clear. intros x vs ms R H; cbn [i_text app i_call].
    apply (gives_done i _ _ _ (i_add x vs) src_insert); [apply insert_values|apply H].
  Qed.
  Lemma update_history h u ms R : (forall u', gives i (src_update u') ms (R u')) ->
    gives i (src_update u) (flat_map u_text h ++ ms)%list (on (Spec.calls u_call u h) R).
  Proof.
    apply (history_gives i src_update u_call u_text). clear. intros u [vs|cs] ms R H; cbn [u_text app u_call].
    - apply (gives_done i _ _ _ (u_add u vs) src_update); [apply update_set|apply H].
    - apply (gives_call i _ _ _ _ src_update); [apply update_where|intros x _; apply H].
  Qed.
  Lemma delete_history h d ms R : (forall d', gives i (src_delete d') ms (R d')) ->
    gives i (src_delete d) (flat_map d_text h ++ ms)%list (on (Spec.calls d_add_where d h) R).
  Proof.
    apply (history_gives i src_delete d_add_where d_text). clear. intros d cs ms R H; cbn [d_text app].
    apply (gives_call i _ _ _ _ src_delete); [apply delete_where|intros x _; apply H].
  Qed.
  Lemma program_on {A} f a (r : res A) enc ms R r' : SrcCalls.calls i f a (of_res enc r) -> (forall x, gives i (enc x) ms (R x)) -> on r R = r' ->
    program i f a ms r'.
  Proof.
    intros [k H] K <-. destruct r as [x|].
    - destruct (K x) as [k' H']. exists (k + k'). intros n Hn. rewrite H by lia. cbn [of_res on]. apply H'. lia.
    - exists k. intros n Hn. now rewrite H.
  Qed.
  Lemma program_made {A} f a (x : A) enc ms R r' : SrcCalls.calls i f a (Done (enc x)) -> (forall x, gives i (enc x) ms (R x)) -> R x = r' ->
    program i f a ms r'.
  Proof. intros H K E. exact (program_on f a (Ok x) enc ms R r' H K E). Qed.
End Programs.

(** * Programs *)

(** A builder is made, changed by any calls in any order, and asked for its statement. *)
Theorem C102_programs_from_source : forall (i : impl nobody) p,
  (forall h, program i "SelectFrom" [of_tparam p] (flat_map b_text h ++ build)%list
     (of_res (of_out no_error) (do b <- select_from p; do b <- Spec.calls b_call b h; b_build b))) /\
  (forall h, program i "SelectManyFrom" [of_tparam p] (flat_map m_text h ++ build)%list
     (of_res (of_out no_error) (do m <- select_many_from p; do m <- Spec.calls m_call m h; m_build m))) /\
  (forall h, program i "SelectSingleFrom" [of_tparam p] (flat_map s_text h ++ build)%list
     (of_res (of_out no_error) (do s <- select_single_from p; do s <- Spec.calls s_call s h; ss_build s))) /\
  (forall h, program i "InsertInto" [of_tparam p] (flat_map i_text h ++ build)%list
     (of_res (of_out insert_error) (do x <- Spec.calls i_call (insert_into p) h; i_build x))) /\
  (forall h, program i "Update" [of_tparam p] (flat_map u_text h ++ build)%list
     (of_res (of_out update_error) (do u <- Spec.calls u_call (update_ p) h; u_build u))) /\
  (forall h, program i "Delete" [of_tparam p] (flat_map d_text h ++ build)%list
     (of_res (of_out delete_error) (do d <- Spec.calls d_add_where (delete_ p) h; d_build d))).
Proof.
  intros i p. repeat match goal with |- _ /\ _ => split end; intros h.
  - eapply (program_on i _ _ _ src_base _ (fun x => on (Spec.calls b_call x h) (fun x => of_res (of_out no_error) (b_build x)))); [eapply calls_is; [picks (C101_base_select_from_source _ i)|reflexivity|]| |].
    + instantiate (1 := select_from p). unfold select_from. destruct p as [x|x|x]; [destruct (table x)..|]; reflexivity.
    + intros b. apply base_history. intros b'. apply (gives_last i _ _ _ _ (of_out no_error)), base_build.
    + destruct (select_from p) as [b|]; [|reflexivity]. cbn [on bind]. now destruct (Spec.calls _ _ _).
  - eapply (program_on i _ _ _ src_many _ (fun x => on (Spec.calls m_call x h) (fun x => of_res (of_out no_error) (m_build x)))); [eapply calls_is; [picks (C101_select_many_from_source _ i)|reflexivity|]| |].
    + instantiate (1 := select_many_from p). unfold select_many_from, select_from. destruct p as [x|x|x]; [destruct (table x)..|]; reflexivity.
    + intros b. apply many_history. intros b'. apply (gives_last i _ _ _ _ (of_out no_error)), many_build.
    + destruct (select_many_from p) as [b|]; [|reflexivity]. cbn [on bind]. now destruct (Spec.calls _ _ _).
  - eapply (program_on i _ _ _ src_single _ (fun x => on (Spec.calls s_call x h) (fun x => of_res (of_out no_error) (ss_build x)))); [eapply calls_is; [picks (C101_select_single_from_source _ i)|reflexivity|]| |].
    + instantiate (1 := select_single_from p). unfold select_single_from, select_from. destruct p as [x|x|x]; [destruct (table x)..|]; reflexivity.
    + intros b. apply single_history. intros b'. apply (gives_last i _ _ _ _ (of_out no_error)), single_build.
    + destruct (select_single_from p) as [b|]; [|reflexivity]. cbn [on bind]. now destruct (Spec.calls _ _ _).
  - eapply (program_made i _ _ (insert_into p) src_insert _ (fun x => on (Spec.calls i_call x h) (fun x => of_res (of_out insert_error) (i_build x)))); [eapply calls_is; [picks (C101_write_from_source _ i)|reflexivity..]| |].
    + intros b. apply insert_history. intros b'. apply (gives_last i _ _ _ _ (of_out insert_error)), insert_build.
    + now destruct (Spec.calls _ _ _).
  - eapply (program_made i _ _ (update_ p) src_update _ (fun x => on (Spec.calls u_call x h) (fun x => of_res (of_out update_error) (u_build x)))); [eapply calls_is; [picks (C101_write_from_source _ i)|reflexivity..]| |].
    + intros b. apply update_history. intros b'. apply (gives_last i _ _ _ _ (of_out update_error)), update_build.
    + now destruct (Spec.calls _ _ _).
  - eapply (program_made i _ _ (delete_ p) src_delete _ (fun x => on (Spec.calls d_add_where x h) (fun x => of_res (of_out delete_error) (d_build x)))); [eapply calls_is; [picks (C101_write_from_source _ i)|reflexivity..]| |].
    + intros b. apply delete_history. intros b'. apply (gives_last i _ _ _ _ (of_out delete_error)), delete_build.
    + now destruct (Spec.calls _ _ _).
Qed.

(** A builder turned into another one on the way. *)
Theorem C102_derived_from_source : forall (i : impl nobody) p h,
  (forall k, program i "SelectFrom" [of_tparam p] (flat_map b_text h ++ ("Many", []) :: flat_map m_text k ++ build)%list
     (of_res (of_out no_error) (do b <- select_from p; do b <- Spec.calls b_call b h; do m <- Spec.calls m_call (b_many b) k; m_build m))) /\
  (forall k, program i "SelectFrom" [of_tparam p] (flat_map b_text h ++ ("Single", []) :: flat_map s_text k ++ build)%list
     (of_res (of_out no_error) (do b <- select_from p; do b <- Spec.calls b_call b h; do s <- Spec.calls s_call (single_of b) k; ss_build s))) /\
  program i "SelectFrom" [of_tparam p] (flat_map b_text h ++ ("Count", []) :: build)%list
     (of_res (of_out no_error) (do b <- select_from p; do b <- Spec.calls b_call b h; do c <- b_count b; cs_build c)) /\
  (forall vs k, program i "SelectFrom" [of_tparam p] (flat_map b_text h ++ ("InsertInto", fvals vs) :: flat_map i_text k ++ build)%list
     (of_res (of_out insert_error) (do b <- select_from p; do b <- Spec.calls b_call b h; do x <- Spec.calls i_call (b_insert b vs) k; i_build x))) /\
  (forall vs k, program i "SelectFrom" [of_tparam p] (flat_map b_text h ++ ("Update", fvals vs) :: flat_map u_text k ++ build)%list
     (of_res (of_out update_error) (do b <- select_from p; do b <- Spec.calls b_call b h; do u <- b_update b vs; do u <- Spec.calls u_call u k; u_build u))) /\
  (forall k, program i "SelectFrom" [of_tparam p] (flat_map b_text h ++ ("Delete", []) :: flat_map d_text k ++ build)%list
     (of_res (of_out delete_error) (do b <- select_from p; do b <- Spec.calls b_call b h; do d <- b_delete b; do d <- Spec.calls d_add_where d k; d_build d))).
Proof.
  intros i p h.
  assert (start : forall ms R r, (forall b, gives i (src_base b) ms (R b)) ->
    on (select_from p) (fun b => on (Spec.calls b_call b h) R) = r -> program i "SelectFrom" [of_tparam p] (flat_map b_text h ++ ms)%list r).
  { intros ms R r H <-. eapply (program_on i _ _ _ src_base _ (fun b => on (Spec.calls b_call b h) R)); [eapply calls_is; [picks (C101_base_select_from_source _ i)|reflexivity|]| |reflexivity].
    - unfold select_from. destruct p as [x|x|x]; [destruct (table x)..|]; reflexivity.
    - intros b. now apply base_history. }
  repeat match goal with |- _ /\ _ => split end; intros.
  - apply (start _ (fun b => on (Spec.calls m_call (b_many b) k) (fun m => of_res (of_out no_error) (m_build m)))).
    + intros b. apply (gives_done i _ _ _ (b_many b) src_many); [apply base_many|]. apply many_history.
      intros m. apply (gives_last i _ _ _ _ (of_out no_error)), many_build.
    + destruct (select_from p); [|reflexivity]. cbn [on bind]. destruct (Spec.calls b_call _ _); [|reflexivity]. cbn [on bind]. now destruct (Spec.calls _ _ _).
  - apply (start _ (fun b => on (Spec.calls s_call (single_of b) k) (fun m => of_res (of_out no_error) (ss_build m)))).
    + intros b. apply (gives_done i _ _ _ (single_of b) src_single); [apply base_single|]. apply single_history.
      intros m. apply (gives_last i _ _ _ _ (of_out no_error)), single_build.
    + destruct (select_from p); [|reflexivity]. cbn [on bind]. destruct (Spec.calls b_call _ _); [|reflexivity]. cbn [on bind]. now destruct (Spec.calls _ _ _).
  - apply (start _ (fun b => on (b_count b) (fun m => of_res (of_out no_error) (cs_build m)))).
    + intros b. apply (gives_call i _ _ _ _ src_count); [apply base_count|]. intros c _.
      apply (gives_last i _ _ _ _ (of_out no_error)), count_build.
    + destruct (select_from p); [|reflexivity]. cbn [on bind]. destruct (Spec.calls b_call _ _); [|reflexivity]. cbn [on bind]. now destruct (b_count _).
  - apply (start _ (fun b => on (Spec.calls i_call (b_insert b vs) k) (fun m => of_res (of_out insert_error) (i_build m)))).
    + intros b. apply (gives_done i _ _ _ (b_insert b vs) src_insert); [apply base_insert|]. apply insert_history.
      intros m. apply (gives_last i _ _ _ _ (of_out insert_error)), insert_build.
    + destruct (select_from p); [|reflexivity]. cbn [on bind]. destruct (Spec.calls b_call _ _); [|reflexivity]. cbn [on bind]. now destruct (Spec.calls _ _ _).
  - apply (start _ (fun b => on (b_update b vs) (fun u => on (Spec.calls u_call u k) (fun m => of_res (of_out update_error) (u_build m))))).
    + intros b. apply (gives_call i _ _ _ _ src_update); [apply base_update|]. intros u _. apply update_history.
      intros m. apply (gives_last i _ _ _ _ (of_out update_error)), update_build.
    + destruct (select_from p); [|reflexivity]. cbn [on bind]. destruct (Spec.calls b_call _ _); [|reflexivity]. cbn [on bind].
      destruct (b_update _ _); [|reflexivity]. cbn [on bind]. now destruct (Spec.calls _ _ _).
  - apply (start _ (fun b => on (b_delete b) (fun u => on (Spec.calls d_add_where u k) (fun m => of_res (of_out delete_error) (d_build m))))).
    + intros b. apply (gives_call i _ _ _ _ src_delete); [apply base_delete|]. intros u _. apply delete_history.
      intros m. apply (gives_last i _ _ _ _ (of_out delete_error)), delete_build.
    + destruct (select_from p); [|reflexivity]. cbn [on bind]. destruct (Spec.calls b_call _ _); [|reflexivity]. cbn [on bind].
      destruct (b_delete _); [|reflexivity]. cbn [on bind]. now destruct (Spec.calls _ _ _).
Qed.

(** The other questions a select builder answers, and the builders made by tables. *)
Theorem C102_builders_from_source : forall i : impl nobody,
  (forall b, asks i (src_base b) "Values" [] (of_res (fun l => RSlice (gvals l)) (b_values b))) /\
  (forall b k, asks i (src_base b) "Render" [RInt "int" (Z.of_nat k)] (of_res (RStr "string") (b_render b k))) /\
  (forall b, asks i (src_base b) "RenderSQL" [] (of_res (RStr "string") (b_render_sql b))) /\
  (forall b, asks i (src_base b) "String" [] (of_res (RStr "string") (b_string b))) /\
  (forall m vs, asks i (src_many m) "Update" (fvals vs) (of_res src_update (m_update m vs))) /\
  (forall m, asks i (src_many m) "Delete" [] (of_res src_delete (m_delete m))) /\
  (forall m, asks i (src_many m) "Count" [] (of_res src_count (m_count m))) /\
  (forall s vs, asks i (src_single s) "Update" (fvals vs) (of_res src_update (ss_update s vs))) /\
  (forall t cs, SrcCalls.calls i "TableName.Select" (RStr "TableName" t :: src_conds cs) (of_res src_base (tp_select (TPName t) cs))) /\
  (forall t cs, SrcCalls.calls i "TableName.SelectOne" (RStr "TableName" t :: src_conds cs) (of_res src_single (tp_select_one (TPName t) cs))) /\
  (forall t cs, SrcCalls.calls i "TableName.SelectMany" (RStr "TableName" t :: src_conds cs) (of_res src_many (tp_select_many (TPName t) cs))) /\
  (forall t cs, SrcCalls.calls i "TableName.Delete" (RStr "TableName" t :: src_conds cs) (of_res src_delete (tp_delete (TPName t) cs))) /\
  (forall t cs, SrcCalls.calls i "TableIdent.Select" (of_tident t :: src_conds cs) (of_res src_base (tp_select (TPIdent t) cs))) /\
  (forall t cs, SrcCalls.calls i "TableIdent.SelectOne" (of_tident t :: src_conds cs) (of_res src_single (tp_select_one (TPIdent t) cs))) /\
  (forall t cs, SrcCalls.calls i "TableIdent.SelectMany" (of_tident t :: src_conds cs) (of_res src_many (tp_select_many (TPIdent t) cs))) /\
  (forall t cs, SrcCalls.calls i "TableIdent.Delete" (of_tident t :: src_conds cs) (of_res src_delete (tp_delete (TPIdent t) cs))) /\
  (forall t cs, SrcCalls.calls i "TableIdent.Count" (of_tident t :: src_conds cs) (of_res src_count (t_count t cs))).
Proof.
  intros i. do 8 (split; [first [apply base_values|apply base_render|apply base_render_sql|apply base_string|apply many_update|apply many_delete|apply many_count|apply single_update]|]).
  assert (K : forall cs, x_group_and i x_empty (map up cs) = rmap upg (group_and empty_group cs)) by (intros cs; rewrite <- (up_group_and i); reflexivity).
  assert (W : forall p b, select_from p = Ok b -> b_where b = empty_group).
  { intros p b E. unfold select_from in E. destruct p as [x|x|x]; [destruct (table x) eqn:Ex; [|discriminate]..|]; cbn [bind] in E; now injection E as <-. }
  repeat match goal with |- _ /\ _ => split end; intros t cs; rewrite <- xvals_conds; (eapply calls_is; [picks (C101_table_builders_from_source _ i)|reflexivity|]);
    unfold x_select, x_select_one, x_select_many, x_count, x_delete, tp_select, tp_select_one, tp_select_many, tp_delete, t_count, tp_select, select_single_from, select_many_from, d_add_where; rewrite ?K;
    repeat match goal with |- context [select_from ?p] => let E := fresh in destruct (select_from p) as [b|] eqn:E; [apply W in E|reflexivity]; cbn [bind] end;
    unfold b_add_where, ss_add_where, m_add_where, b_add_where; cbn [ss_base single_of m_base many_of delete_ d_where];
    repeat match goal with E : b_where _ = _ |- _ => rewrite E; clear E end;
    try (destruct (group_and empty_group cs); reflexivity).
Qed.

Lemma program_is i f a ms r r' : program i f a ms r -> r = r' -> program i f a ms r'.
Proof. now intros H <-. Qed.
Lemma program_once i f a ms r r' : program i f a ms r -> program i f a ms r' -> r = r'.
Proof. intros [k H] [k' H']. rewrite <- (H (k + k')) by lia. apply H'. lia. Qed.

(** SelectManyFrom("users as u").Fields(id).Where(EqualTo("a", 1)).Join("orders", LeftJoin).On(id, uid).Where(Or(b = "x", c IS NULL)).Limit(5).BuildQueryAndParams() *)
Definition condition (r : res cond) : cond := match r with Ok c => c | Panic => CNil end.
Definition example_calls : list Calls.mcall :=
  [MFields [mkF "id" "u" ""]; MWhere [condition (equal_to "a" (VOther 1))];
   MJoin "orders" LeftJoin (mkF "id" "u" "") (mkF "uid" "orders" "");
   MWhere [condition (do x <- equal_to "b" (VStr "x"); do y <- is_null "c"; or_ x [y])]; MLimit 5].
Example C102_example : forall i : impl nobody,
  program i "SelectManyFrom" [of_tparam (TPStr "users as u")] (flat_map m_text example_calls ++ build)%list
    (Done (RTuple [RStr "string" "SELECT u.id FROM users AS u LEFT JOIN orders ON u.id=orders.uid WHERE a=$1 AND (b=$2 OR c IS NULL) LIMIT $3";
                   RSlice [of_gval (VOther 1); of_gval (VStr "x"); of_gval (VUint 5)]; RNil])).
Proof.
  intros i. eapply program_is; [apply (proj1 (proj2 (C102_programs_from_source i (TPStr "users as u"))))|]. vm_compute. reflexivity.
Qed.
(** a nil condition makes the program panic, in the source as in the model *)
Example C102_panic : forall i : impl nobody,
  program i "Delete" [of_tparam (TPName "t")] (flat_map d_text [[condition (equal_to "a" (VOther 1)); CNil]] ++ build)%list Halt.
Proof.
  intros i. eapply program_is; [apply (proj2 (proj2 (proj2 (proj2 (proj2 (C102_programs_from_source i (TPName "t")))))))|]. vm_compute. reflexivity.
Qed.

Definition programs_from_source := (@C102_conditions_from_source, @C102_programs_from_source, @C102_derived_from_source, @C102_builders_from_source).
(** Its assumptions are printed in PropsSrcResults.v. *)
