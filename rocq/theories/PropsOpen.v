(** C99: conditions of types written by users (Open.v). *)
From Coq Require Import String Ascii List Bool Arith Lia NArith ZArith.
From Verif Require Import GoStr Value Names Cond Build SqlSpec Spec StrFacts CondFacts CondText CondSem Built Calls BuildFacts StmtText Open.
Import ListNotations.
Local Open Scope string_scope.
Local Open Scope nat_scope.

(** * Specification *)

(** The contract of interfaces.go:121-165, for a type whose values are described by [view]: a
    value has a connective, a flag, a field and a value, and its texts and values are functions of
    the latter three.  Join returns a copy with another connective (138-139), Negate a copy with
    another flag (141-142), ApplyFieldSpec and ApplyFieldTable a copy with another field
    (159-164), RenderJoin the connective unless the condition is the first (132-133). *)
Record follows {S} (i : impl S) (view : S -> leaf) : Prop := {
  fw_jtype : forall o, wr_jtype i o = Ok (l_join (view o));
  fw_render_join : forall o first, wr_render_join i o first = Ok (if first then "" else l_join (view o));
  fw_join : forall o j, exists o', wr_join i o j = Ok (XObj o') /\
    view o' = mkLeaf (l_kind (view o)) j (l_neg (view o)) (l_def (view o)) (l_val (view o));
  fw_negate : forall o b, exists o', wr_negate i o b = Ok (XObj o') /\
    view o' = mkLeaf (l_kind (view o)) (l_join (view o)) b (l_def (view o)) (l_val (view o));
  fw_spec : forall o d, exists o', wr_spec i o d = Ok (XObj o') /\
    view o' = mkLeaf (l_kind (view o)) (l_join (view o)) (l_neg (view o)) (if String.eqb (f_name (l_def (view o))) (f_name d) then d else l_def (view o)) (l_val (view o));
  fw_table : forall o t, exists o', wr_table i o t = Ok (XObj o') /\
    view o' = mkLeaf (l_kind (view o)) (l_join (view o)) (l_neg (view o)) (mkF (f_name (l_def (view o))) t (f_alias (l_def (view o)))) (l_val (view o));
  fw_render : forall o n, wr_render i o n = leaf_render (view o) n;
  fw_sql : forall o, wr_sql i o = leaf_render_sql (view o);
  fw_values : forall o, wr_values i o = leaf_values (view o) }.

(** a condition as one of the conditions of Cond.v *)
Fixpoint seen {S} (view : S -> leaf) (c : xcond S) : cond :=
  match c with
  | XNil => CNil
  | XLeaf l => CLeaf l
  | XObj o => CLeaf (view o)
  | XGrp j n cs br => CGrp j n (map (seen view) cs) br
  end.
Definition seen_g {S} (view : S -> leaf) (g : xgroup S) : group := mkG (xg_join g) (xg_neg g) (map (seen view) (xg_cs g)) (xg_br g).
Definition rmap {A B} (f : A -> B) (r : res A) : res B := match r with Ok x => Ok (f x) | Panic => Panic end.

(** * Facts *)

Lemma ok_inj {A} (x y : A) : Ok x = Ok y -> x = y.
Proof. congruence. Qed.

Section XInd.
  Context {S : Type}.
  Variable P : xcond S -> Prop.
  Hypothesis Hnil : P XNil.
  Hypothesis Hleaf : forall l, P (XLeaf l).
  Hypothesis Hobj : forall o, P (XObj o).
  Hypothesis Hgrp : forall j n cs br, Forall P cs -> P (XGrp j n cs br).
  Fixpoint xcond_ind' (c : xcond S) : P c :=
    match c with
    | XNil => Hnil
    | XLeaf l => Hleaf l
    | XObj o => Hobj o
    | XGrp j n cs br => Hgrp j n cs br ((fix go cs : Forall P cs := match cs with [] => Forall_nil _ | c :: r => Forall_cons _ (xcond_ind' c) (go r) end) cs)
    end.
End XInd.

Definition x_list {S} (i : impl S) := fix go (first : bool) (cs : list (xcond S)) (n : nat) : res string :=
  match cs with
  | [] => Ok ""
  | c :: r =>
      do t <- x_render_join i first c; do s <- x_render i c n; do vs <- x_values i c;
      do rest <- go false r (n + length vs); Ok (x_token t ++ s ++ rest)
  end.
Lemma x_render_grp {S} (i : impl S) j ng cs br n : x_render i (XGrp j ng cs br) n =
  match cs with [] => Ok "" | _ => do sql <- x_list i true cs n; Ok (wrap ng br (1 <? length cs) sql) end.
Proof. reflexivity. Qed.
Definition x_sql_list {S} (i : impl S) := fix go (first : bool) (cs : list (xcond S)) : res string :=
  match cs with
  | [] => Ok ""
  | c :: r => do t <- x_render_join i first c; do s <- x_render_sql i c; do rest <- go false r; Ok (x_token t ++ s ++ rest)
  end.
Lemma x_render_sql_grp {S} (i : impl S) j ng cs br : x_render_sql i (XGrp j ng cs br) =
  match cs with [] => Ok "" | _ => do sql <- x_sql_list i true cs; Ok (wrap ng br (1 <? length cs) sql) end.
Proof. reflexivity. Qed.
Definition x_values_list {S} (i : impl S) := fix go (cs : list (xcond S)) : res (list gval) :=
  match cs with [] => Ok [] | c :: r => do v <- x_values i c; do vs <- go r; Ok (v ++ vs)%list end.
Lemma x_values_grp {S} (i : impl S) j ng cs br : x_values i (XGrp j ng cs br) = x_values_list i cs.
Proof. reflexivity. Qed.

Section View.
  Context {S : Type} (i : impl S) (view : S -> leaf) (F : follows i view).
  Notation sn := (seen view).
  Notation sg := (seen_g view).

  Lemma sn_jtype c : x_jtype i c = jtype (sn c).
  Proof. destruct c; try reflexivity. apply F. Qed.
  Lemma sn_render_join first c : x_render_join i first c = (do j <- jtype (sn c); Ok (render_join first j)).
  Proof. destruct c; try reflexivity. apply F. Qed.
  Lemma sn_join j c : rmap sn (x_join i j c) = c_join j (sn c).
  Proof. destruct c as [| | |o]; try reflexivity. destruct (fw_join i view F o j) as (o' & E & V). cbn [x_join seen c_join]. rewrite E. cbn. now rewrite V. Qed.
  Lemma sn_negate b c : rmap sn (x_negate i b c) = c_negate b (sn c).
  Proof. destruct c as [| | |o]; try reflexivity. destruct (fw_negate i view F o b) as (o' & E & V). cbn [x_negate seen c_negate]. rewrite E. cbn. now rewrite V. Qed.
  Lemma sn_mapM_join j cs : rmap (map sn) (mapM (x_join i j) cs) = mapM (c_join j) (map sn cs).
  Proof.
    induction cs as [|c cs IH]; [reflexivity|]. cbn [mapM map]. rewrite <- sn_join, <- IH.
    destruct (x_join i j c); [|reflexivity]. cbn [bind rmap]. now destruct (mapM _ _).
  Qed.
  Lemma sn_new_group j cs : rmap sg (x_new_group i j cs) = new_group j (map sn cs).
  Proof. unfold x_new_group, new_group. rewrite <- sn_mapM_join. now destruct (mapM _ _). Qed.
  Lemma sn_of_xg g : sn (of_xg g) = of_g (sg g).
  Proof. reflexivity. Qed.
  Lemma sn_jt_join j cs : rmap sn (x_jt_join i j cs) = jt_join j (map sn cs).
  Proof.
    destruct cs as [|c [|d cs]]; [reflexivity|apply sn_join|].
    change (rmap sn (do g <- x_new_group i j (c :: d :: cs); Ok (of_xg g)) = do g <- new_group j (map sn (c :: d :: cs)); Ok (of_g g)).
    rewrite <- sn_new_group. now destruct (x_new_group _ _ _).
  Qed.
  Lemma sn_all_join j cs : x_all_join i j cs = all_join j (map sn cs).
  Proof. induction cs as [|c cs IH]; [reflexivity|]. cbn [x_all_join all_join map]. now rewrite sn_jtype, IH. Qed.
  Lemma sn_one_join j cs : x_one_join i j cs = one_join j (map sn cs).
  Proof. induction cs as [|c cs IH]; [reflexivity|]. cbn [x_one_join one_join map]. now rewrite sn_jtype, IH. Qed.
  Lemma sn_has_all g j : x_has_all i g j = has_all (sg g) j.
  Proof. unfold x_has_all, has_all. destruct g as [a b [|c cs] d]; [reflexivity|]. apply sn_all_join. Qed.
  Lemma sn_has_one g j : x_has_one i g j = has_one (sg g) j.
  Proof. unfold x_has_one, has_one. destruct g as [a b [|c cs] d]; [reflexivity|]. apply sn_one_join. Qed.
  Lemma sn_length g : length (xg_cs g) = length (g_cs (sg g)).
  Proof. cbn. now rewrite map_length. Qed.
  Lemma sn_as_group c : option_map sg (x_as_group c) = as_group (sn c).
  Proof. now destruct c. Qed.

  Ltac sets := unfold seen_g, set_cs, set_join, with_brackets, of_g; cbn [g_join g_neg g_cs g_br xg_join xg_neg xg_cs xg_br x_set_cs x_set_join x_brackets of_xg rmap seen map];
    rewrite ?map_app; cbn [map seen]; reflexivity.
  Ltac conds := repeat match goal with
    | |- context [bind (has_all ?g ?j) _] => destruct (has_all g j); cbn [bind]; [|reflexivity]
    | |- context [bind (has_one ?g ?j) _] => destruct (has_one g j); cbn [bind]; [|reflexivity]
    | |- context [bind (jtype ?c) _] => destruct (jtype c); cbn [bind]; [|reflexivity]
    end.

  Lemma sn_add_group g a : rmap sg (x_add_group i g a) = add_group (sg g) (sg a).
  Proof.
    unfold x_add_group, add_group. rewrite !sn_has_all, !sn_has_one, !sn_length. cbv zeta.
    conds. change (g_join (sg a)) with (xg_join a).
    repeat match goal with |- context [if ?b then _ else _] => destruct b; [cbn [x_jt_join jt_join x_join c_join bind of_xg of_g]; sets|] end.
    cbn [x_jt_join jt_join x_join c_join bind of_xg of_g]. sets.
  Qed.
  Lemma sn_add_single g c : rmap sg (x_add_single i g c) = add_single (sg g) (sn c).
  Proof.
    unfold x_add_single, add_single. rewrite !sn_has_all, !sn_length, sn_jtype, <- sn_as_group. cbv zeta. conds.
    destruct (x_as_group c) as [ag|]; cbn [option_map]; [apply sn_add_group|].
    assert (J : forall op (f : list (xcond S) -> list (xcond S)) (f' : list cond -> list cond),
      (forall l, map sn (f l) = f' (map sn l)) ->
      rmap sg (do c' <- x_jt_join i op [c]; Ok (x_set_cs g (f [c']))) = do c' <- jt_join op [sn c]; Ok (set_cs (sg g) (f' [c']))).
    { intros op f f' Hf. pose proof (sn_jt_join op [c]) as E. cbn [map] in E. rewrite <- E. destruct (x_jt_join i op [c]) as [c'|]; [|reflexivity].
      cbn [rmap bind]. unfold set_cs, seen_g, x_set_cs. cbn [g_join g_neg g_cs g_br xg_join xg_neg xg_cs xg_br]. rewrite Hf. reflexivity. }
    assert (A : forall l, map sn (xg_cs g ++ l)%list = (g_cs (sg g) ++ map sn l)%list) by (intros l; apply map_app).
    repeat match goal with |- context [if ?b then _ else _] => destruct b;
      [first [sets | exact (J _ (fun l => (xg_cs g ++ l)%list) (fun l => (g_cs (sg g) ++ l)%list) A)]|] end.
    exact (J _ (fun l => of_xg (x_brackets g) :: l) (fun l => of_g (with_brackets (sg g)) :: l) (fun l => eq_refl)).
  Qed.
  Lemma sn_add_conditions op g cs : rmap sg (x_add_conditions i op g cs) = add_conditions op (sg g) (map sn cs).
  Proof.
    unfold x_add_conditions, add_conditions. rewrite !sn_has_one. conds.
    destruct cs as [|c rest]; [reflexivity|]. cbn [map].
    destruct g as [j n [|x xs] br]; [reflexivity|]. cbn [xg_cs seen_g g_cs map].
    destruct rest as [|d rest].
    - cbn [map x_jt_join]. rewrite <- sn_join. destruct (x_join i op c) as [c'|]; [|reflexivity].
      cbn [rmap bind]. apply (sn_add_single (mkXG j n (x :: xs) br)).
    - cbn [map]. destruct (a0 && str_eqb op AND); [sets|]. destruct (a && str_eqb op OR).
      + pose proof (sn_new_group op (c :: d :: rest)) as E. cbn [map] in E. rewrite <- E. destruct (x_new_group i op (c :: d :: rest)) as [ng|]; [|reflexivity].
        cbn [rmap bind x_jt_join x_join of_xg jt_join c_join of_g]. sets.
      + pose proof (sn_new_group AND (c :: d :: rest)) as E. cbn [map] in E. rewrite <- E. destruct (x_new_group i AND (c :: d :: rest)) as [ng|]; [|reflexivity].
        cbn [rmap bind]. sets.
  Qed.
  Lemma sn_start op c : rmap sg (match x_as_group c with Some g => Ok g | None => x_new_group i op [c] end) =
    match as_group (sn c) with Some g => Ok g | None => new_group op [sn c] end.
  Proof. rewrite <- sn_as_group. destruct (x_as_group c) as [g|]; [reflexivity|]. apply (sn_new_group op [c]). Qed.
  Lemma sn_and c ds : rmap sn (x_and i c ds) = and_ (sn c) (map sn ds).
  Proof.
    destruct ds as [|d ds]; [apply (sn_jt_join AND [c])|]. unfold x_and, and_. cbn [map].
    rewrite <- sn_start. destruct (match x_as_group c with Some g => _ | None => _ end) as [g|]; [|reflexivity]. cbn [rmap bind].
    pose proof (sn_add_conditions AND g (d :: ds)) as E. cbn [map] in E. unfold x_group_and, group_and. rewrite <- E.
    now destruct (x_add_conditions i AND g (d :: ds)).
  Qed.
  Lemma sn_or c ds : rmap sn (x_or i c ds) = or_ (sn c) (map sn ds).
  Proof.
    destruct ds as [|d ds]; [apply (sn_jt_join OR [c])|]. unfold x_or, or_. cbn [map].
    rewrite <- sn_start. destruct (match x_as_group c with Some g => _ | None => _ end) as [g|]; [|reflexivity]. cbn [rmap bind].
    pose proof (sn_add_conditions OR g (d :: ds)) as E. cbn [map] in E. unfold x_group_or, group_or. rewrite <- E.
    destruct (x_add_conditions i OR g (d :: ds)) as [r|]; [|reflexivity]. cbn [rmap bind]. apply (sn_jt_join OR [of_xg r]).
  Qed.

  Lemma sn_values c : x_values i c = c_values (sn c).
  Proof.
    induction c as [|l|o|j n cs br IH] using xcond_ind'; try reflexivity; [apply F|]. cbn [x_values seen c_values].
    induction IH as [|c cs Hc _ IHcs]; [reflexivity|]. cbn [map]. now rewrite Hc, IHcs.
  Qed.
  Lemma sn_render c : forall n, x_render i c n = c_render (sn c) n.
  Proof.
    induction c as [|l|o|j ng cs br IH] using xcond_ind'; intros n; try reflexivity; [apply F|].
    cbn [seen]. rewrite x_render_grp, c_render_grp, map_length.
    assert (K : forall first n, x_list i first cs n = render_list first (map sn cs) n).
    { induction IH as [|c cs Hc _ IHcs]; intros first m; [reflexivity|]. cbn [map render_list]. change (x_list i first (c :: cs) m) with (do t <- x_render_join i first c; do s <- x_render i c m; do vs <- x_values i c; do rest <- x_list i false cs (m + length vs); Ok (x_token t ++ s ++ rest)).
      rewrite sn_render_join, Hc, sn_values. destruct (jtype (sn c)); [|reflexivity]. cbn [bind].
      destruct (c_render (sn c) m); [|reflexivity]. cbn [bind]. destruct (c_values (sn c)); [|reflexivity]. cbn [bind]. now rewrite IHcs. }
    rewrite K. now destruct cs.
  Qed.
  Lemma sn_render_sql c : x_render_sql i c = c_render_sql (sn c).
  Proof.
    induction c as [|l|o|j ng cs br IH] using xcond_ind'; try reflexivity; [apply F|].
    cbn [seen]. rewrite x_render_sql_grp, c_render_sql_grp, map_length.
    assert (K : forall first, x_sql_list i first cs = render_sql_list first (map sn cs)).
    { induction IH as [|c cs Hc _ IHcs]; intros first; [reflexivity|]. cbn [map render_sql_list]. change (x_sql_list i first (c :: cs)) with (do t <- x_render_join i first c; do s <- x_render_sql i c; do rest <- x_sql_list i false cs; Ok (x_token t ++ s ++ rest)).
      rewrite sn_render_join, Hc. destruct (jtype (sn c)); [|reflexivity]. cbn [bind].
      destruct (c_render_sql (sn c)); [|reflexivity]. cbn [bind]. now rewrite IHcs. }
    rewrite K. now destruct cs.
  Qed.
  Lemma sn_apply_spec d c : rmap sn (x_apply_spec i d c) = c_apply_spec d (sn c).
  Proof.
    induction c as [|l|o|j n cs br IH] using xcond_ind'; try reflexivity.
    - destruct (fw_spec i view F o d) as (o' & E & V). cbn [x_apply_spec seen c_apply_spec]. rewrite E. cbn [rmap seen]. now rewrite V.
    - cbn [x_apply_spec seen c_apply_spec].
      match goal with |- rmap _ (bind ?a _) = bind ?b _ => assert (E : rmap (map sn) a = b); [|rewrite <- E; now destruct a] end.
      induction IH as [|c cs Hc _ IHcs]; [reflexivity|]. cbn [map]. rewrite <- Hc, <- IHcs.
      destruct (x_apply_spec i d c); [|reflexivity]. cbn [bind rmap]. match goal with |- context [bind ?a _] => now destruct a end.
  Qed.
  Lemma sn_apply_table t c : rmap sn (x_apply_table i t c) = c_apply_table t (sn c).
  Proof.
    induction c as [|l|o|j n cs br IH] using xcond_ind'; try reflexivity.
    - destruct (fw_table i view F o t) as (o' & E & V). cbn [x_apply_table seen c_apply_table]. rewrite E. cbn [rmap seen]. now rewrite V.
    - cbn [x_apply_table seen c_apply_table].
      match goal with |- rmap _ (bind ?a _) = bind ?b _ => assert (E : rmap (map sn) a = b); [|rewrite <- E; now destruct a] end.
      induction IH as [|c cs Hc _ IHcs]; [reflexivity|]. cbn [map]. rewrite <- Hc, <- IHcs.
      destruct (x_apply_table i t c); [|reflexivity]. cbn [bind rmap]. match goal with |- context [bind ?a _] => now destruct a end.
  Qed.

  Lemma sn_wheres css : forall g, rmap sg (x_wheres i g css) = calls group_and (sg g) (map (map sn) css).
  Proof.
    induction css as [|cs css IH]; intros g; [reflexivity|]. cbn [x_wheres map calls].
    unfold x_group_and, group_and. rewrite <- sn_add_conditions. destruct (x_add_conditions i AND g cs) as [g'|]; [|reflexivity].
    cbn [rmap bind]. apply IH.
  Qed.
  Lemma sn_nonempty g : nonempty (xg_cs g) = nonempty (g_cs (sg g)).
  Proof. now destruct g as [? ? [|] ?]. Qed.
  Lemma sn_b_build b w : x_b_build i b w = b_build (b_set_where b (sg w)).
  Proof. unfold x_b_build, b_build. cbn [b_where b_set_where]. rewrite sn_nonempty, sn_render, sn_values. reflexivity. Qed.
  Lemma sn_u_build u w : x_u_build i u w = u_build (mkU (u_op u) (u_table u) (sg w) (u_values u)).
  Proof. unfold x_u_build, u_build. cbn [u_where u_table u_values]. rewrite sn_nonempty, sn_values. destruct (fields_and_values (u_values u)) as [[a b]|]; cbn [bind]; rewrite ?sn_render; reflexivity. Qed.
  Lemma sn_d_build d w : x_d_build i d w = d_build (mkD (d_op d) (d_table d) (sg w)).
  Proof. unfold x_d_build, d_build. cbn [d_where d_table]. rewrite sn_nonempty, sn_render, sn_values. reflexivity. Qed.
  Lemma b_wheres b css : calls b_call b (map (fun cs => BWhere cs) css) = do w <- calls group_and (b_where b) css; Ok (b_set_where b w).
  Proof.
    revert b; induction css as [|cs css IH]; intros b; [now destruct b|]. cbn [map calls b_call]. unfold b_add_where.
    destruct (group_and (b_where b) cs) as [g|]; [|reflexivity]. cbn [bind]. rewrite IH. now destruct b.
  Qed.
  Lemma u_wheres u css : calls u_call u (map (fun cs => UWhere cs) css) = do w <- calls group_and (u_where u) css; Ok (mkU (u_op u) (u_table u) w (u_values u)).
  Proof.
    revert u; induction css as [|cs css IH]; intros u; [now destruct u|]. cbn [map calls u_call]. unfold u_add_where.
    destruct (group_and (u_where u) cs) as [g|]; [|reflexivity]. cbn [bind]. rewrite IH. now destruct u.
  Qed.
  Lemma d_wheres d css : calls d_add_where d css = do w <- calls group_and (d_where d) css; Ok (mkD (d_op d) (d_table d) w).
  Proof.
    revert d; induction css as [|cs css IH]; intros d; [now destruct d|]. cbn [calls]. unfold d_add_where at 1.
    destruct (group_and (d_where d) cs) as [g|]; [|reflexivity]. cbn [bind]. rewrite IH. now destruct d.
  Qed.
End View.

(** * C99 User-written conditions *)

(** A type that keeps to the documented contract is treated as the library's own types: the
    functions of the package give the same tree, with the same panics. *)
Theorem C99_as_library : forall S (i : impl S) view, follows i view ->
  (forall c ds, rmap (seen view) (x_and i c ds) = and_ (seen view c) (map (seen view) ds)) /\
  (forall c ds, rmap (seen view) (x_or i c ds) = or_ (seen view c) (map (seen view) ds)) /\
  (forall c, rmap (seen view) (x_not i c) = not_ (seen view c)) /\
  (forall j cs, rmap (seen view) (x_jt_join i j cs) = jt_join j (map (seen view) cs)) /\
  (forall j cs, rmap (seen_g view) (x_new_group i j cs) = new_group j (map (seen view) cs)) /\
  (forall d c, rmap (seen view) (x_apply_spec i d c) = c_apply_spec d (seen view c)) /\
  (forall t c, rmap (seen view) (x_apply_table i t c) = c_apply_table t (seen view c)).
Proof.
  intros S i view F. split; [intros; now apply sn_and|]. split; [intros; now apply sn_or|]. split; [intros; now apply sn_negate|].
  split; [intros; now apply sn_jt_join|]. split; [intros; now apply sn_new_group|]. split; intros; [now apply sn_apply_spec|now apply sn_apply_table].
Qed.
Print Assumptions C99_as_library.
(** … with the same texts and parameters … *)
Theorem C99_texts : forall S (i : impl S) view, follows i view -> forall c,
  (forall n, x_render i c n = c_render (seen view c) n) /\ x_render_sql i c = c_render_sql (seen view c) /\ x_values i c = c_values (seen view c).
Proof. intros S i view F c. split; [intros; now apply sn_render|]. split; [now apply sn_render_sql|now apply sn_values]. Qed.
Print Assumptions C99_texts.
(** … and statements. *)
Theorem C99_statements : forall S (i : impl S) view, follows i view -> forall css,
  (forall b, b_where b = empty_group ->
     (do w <- x_wheres i x_empty css; x_b_build i b w) = (do b' <- calls b_call b (map (fun cs => BWhere (map (seen view) cs)) css); b_build b')) /\
  (forall u, u_where u = empty_group ->
     (do w <- x_wheres i x_empty css; x_u_build i u w) = (do u' <- calls u_call u (map (fun cs => UWhere (map (seen view) cs)) css); u_build u')) /\
  (forall d, d_where d = empty_group ->
     (do w <- x_wheres i x_empty css; x_d_build i d w) = (do d' <- calls d_add_where d (map (map (seen view)) css); d_build d')).
Proof.
  intros S i view F css. pose proof (sn_wheres i view F css x_empty) as E. change (seen_g view x_empty) with empty_group in E.
  split; [|split].
  - intros b Hb. rewrite <- (map_map (map (seen view)) (fun cs => BWhere cs)), b_wheres, Hb, <- E.
    destruct (x_wheres i x_empty css) as [w|]; [|reflexivity]. cbn [rmap bind]. now apply sn_b_build.
  - intros u Hu. rewrite <- (map_map (map (seen view)) (fun cs => UWhere cs)), u_wheres, Hu, <- E.
    destruct (x_wheres i x_empty css) as [w|]; [|reflexivity]. cbn [rmap bind]. now apply sn_u_build.
  - intros d Hd. rewrite d_wheres, Hd, <- E.
    destruct (x_wheres i x_empty css) as [w|]; [|reflexivity]. cbn [rmap bind]. now apply sn_d_build.
Qed.
Print Assumptions C99_statements.

(** ** Any type at all *)

(** A condition as what stands in it, in order. *)
Fixpoint parts {S} (c : xcond S) : list (xcond S) :=
  match c with XGrp _ _ cs _ => flat_map parts cs | _ => [c] end.
(** The text of each, counting the parameters of those before it. *)
Fixpoint in_turn {S} (i : impl S) (ps : list (xcond S)) (n : nat) : res (list string) :=
  match ps with
  | [] => Ok []
  | p :: r => do s <- x_render i p n; do vs <- x_values i p; do rest <- in_turn i r (n + length vs); Ok (s :: rest)
  end.
(** What may stand between them: brackets, NOT, and answers of RenderJoin between blanks. *)
Inductive between {S} (i : impl S) : string -> Prop :=
| bw_nil : between i ""
| bw_open s : between i s -> between i ("(" ++ s)
| bw_close s : between i s -> between i (")" ++ s)
| bw_not s : between i s -> between i ("NOT " ++ s)
| bw_join first c t s : x_render_join i first c = Ok t -> t <> "" -> between i s -> between i (" " ++ t ++ " " ++ s).
Inductive laid_out {S} (i : impl S) : list string -> string -> Prop :=
| lo_end t : between i t -> laid_out i [] t
| lo_next t r rs s : between i t -> laid_out i rs s -> laid_out i (r :: rs) (t ++ r ++ s).

Lemma between_app {S} (i : impl S) a b : between i a -> between i b -> between i (a ++ b).
Proof.
  intros Ha Hb. induction Ha as [|s _ IH|s _ IH|s _ IH|first c t s E Ht _ IH]; [exact Hb| | | |].
  - exact (bw_open i _ IH).
  - exact (bw_close i _ IH).
  - exact (bw_not i _ IH).
  - rewrite !app_assoc_s. exact (bw_join i first c t _ E Ht IH).
Qed.
Lemma laid_before {S} (i : impl S) a rs s : between i a -> laid_out i rs s -> laid_out i rs (a ++ s).
Proof. intros Ha H. destruct H as [t Ht|t r rs s Ht H]; [constructor; now apply between_app|]. rewrite <- app_assoc_s. constructor; [now apply between_app|exact H]. Qed.
Lemma laid_after {S} (i : impl S) a rs s : between i a -> laid_out i rs s -> laid_out i rs (s ++ a).
Proof. intros Ha H. induction H as [t Ht|t r rs s Ht H IH]; [constructor; now apply between_app|]. rewrite !app_assoc_s. constructor; [exact Ht|exact IH]. Qed.
Lemma laid_app {S} (i : impl S) rs rs' s s' : laid_out i rs s -> laid_out i rs' s' -> laid_out i (rs ++ rs') (s ++ s').
Proof. intros H H'. induction H as [t Ht|t r rs s Ht H IH]; [now apply laid_before|]. rewrite !app_assoc_s. cbn [app]. constructor; [exact Ht|exact IH]. Qed.
Lemma laid_wrap {S} (i : impl S) ng br many rs s : laid_out i rs s -> laid_out i rs (wrap ng br many s).
Proof.
  intros H. rewrite wrap_text. apply laid_before; [destruct ng; [exact (bw_not i "" (bw_nil i))|constructor]|].
  destruct (br || ng && many); [|exact H]. apply (laid_before i "("); [exact (bw_open i "" (bw_nil i))|]. apply laid_after; [exact (bw_close i "" (bw_nil i))|exact H].
Qed.
Lemma token_between {S} (i : impl S) first c t : x_render_join i first c = Ok t -> between i (x_token t).
Proof.
  intros E. unfold x_token. destruct t as [|a t]; [constructor|]. cbn [is_empty].
  apply (bw_join i first c (String a t) "" E); [discriminate|constructor].
Qed.
Lemma values_parts {S} (i : impl S) c : x_values i c = do vss <- mapM (x_values i) (parts c); Ok (List.concat vss).
Proof.
  induction c as [|l|o|j n cs br IH] using xcond_ind'; try (cbn [parts mapM]; destruct (x_values i _) as [v|]; [cbn; now rewrite app_nil_r|reflexivity]).
  rewrite x_values_grp. cbn [parts]. induction IH as [|c cs Hc _ IHcs]; [reflexivity|].
  change (x_values_list i (c :: cs)) with (do v <- x_values i c; do vs <- x_values_list i cs; Ok (v ++ vs)%list).
  cbn [flat_map]. rewrite Hc, IHcs, mapM_app. destruct (mapM (x_values i) (parts c)) as [vs|]; [|reflexivity]. cbn [bind].
  destruct (mapM (x_values i) (flat_map parts cs)) as [vs'|]; [|reflexivity]. cbn [bind]. now rewrite List.concat_app.
Qed.
Lemma in_turn_app {S} (i : impl S) ps qs n vs rs rs' : in_turn i ps n = Ok rs -> mapM (x_values i) ps = Ok vs ->
  in_turn i qs (n + length (List.concat vs)) = Ok rs' -> in_turn i (ps ++ qs) n = Ok (rs ++ rs')%list.
Proof.
  revert n vs rs. induction ps as [|p ps IH]; intros n vs rs E V Q.
  - injection E as <-. injection V as <-. cbn in Q. rewrite Nat.add_0_r in Q. exact Q.
  - cbn [in_turn app mapM] in *. apply bind_inv in E as (s & Es & E). apply bind_inv in E as (v & Ev & E). apply bind_inv in E as (r & Er & [= <-]).
    apply bind_inv in V as (v' & Ev' & V). apply bind_inv in V as (vs' & Evs & [= <-]). rewrite Ev in Ev'. injection Ev' as <-.
    rewrite Es, Ev. cbn [bind]. rewrite (IH _ vs' r Er Evs); [reflexivity|]. cbn [List.concat] in Q. rewrite app_length, Nat.add_assoc in Q. exact Q.
Qed.

(** Whatever the types in a condition do: each part is rendered once, in order, told how many
    parameters stand before it, and only connectives, NOT and brackets are put around the texts;
    and the parameters are those of the parts, in the same order. *)
Lemma layout {S} (i : impl S) c : forall n s vs, x_render i c n = Ok s -> x_values i c = Ok vs ->
  exists rs, in_turn i (parts c) n = Ok rs /\ laid_out i rs s.
Proof.
  assert (One : forall p n s vs, parts p = [p] -> x_render i p n = Ok s -> x_values i p = Ok vs -> exists rs, in_turn i (parts p) n = Ok rs /\ laid_out i rs s).
  { intros p n s vs -> E V. exists [s]. cbn [in_turn]. rewrite E, V. split; [reflexivity|].
    pose proof (lo_next i "" s [] "" (bw_nil i) (lo_end i "" (bw_nil i))) as K. rewrite app_nil_r_s in K. exact K. }
  induction c as [|l|o|j ng cs br IH] using xcond_ind'; intros n s vs E V; [discriminate|eapply One; eauto|eapply One; eauto|].
  rewrite x_render_grp in E. rewrite x_values_grp in V. cbn [parts]. destruct cs as [|c0 cs0]; [injection E as <-; exists []; split; [reflexivity|constructor; constructor]|].
  apply bind_inv in E as (t & Et & [= <-]).
  enough (K : exists rs, in_turn i (flat_map parts (c0 :: cs0)) n = Ok rs /\ laid_out i rs t).
  { destruct K as (rs & K1 & K2). exists rs. split; [exact K1|]. now apply laid_wrap. }
  revert Et V. generalize true as first. revert n t vs. induction IH as [|c cs Hc _ IHcs]; intros n t vs first Et V.
  { injection Et as <-. exists []. split; [reflexivity|constructor; constructor]. }
  change (x_list i first (c :: cs) n) with (do t <- x_render_join i first c; do s <- x_render i c n; do vs <- x_values i c; do rest <- x_list i false cs (n + length vs); Ok (x_token t ++ s ++ rest)) in Et.
  change (x_values_list i (c :: cs)) with (do v <- x_values i c; do vs <- x_values_list i cs; Ok (v ++ vs)%list) in V.
  apply bind_inv in Et as (tk & Etk & Et). apply bind_inv in Et as (s & Es & Et). apply bind_inv in Et as (v & Ev & Et). apply bind_inv in Et as (rest & Er & Et).
  apply ok_inj in Et. subst t. rewrite Ev in V. cbn [bind] in V. apply bind_inv in V as (vs' & Evs & _).
  destruct (Hc n s v Es Ev) as (rs & R1 & R2). destruct (IHcs _ _ _ _ Er Evs) as (rs' & R1' & R2').
  exists (rs ++ rs')%list. split.
  - cbn [flat_map]. pose proof (values_parts i c) as P. rewrite Ev in P. symmetry in P. apply bind_inv in P as (vss & P1 & P2). apply ok_inj in P2. subst v.
    eapply in_turn_app; eassumption.
  - apply laid_before; [eapply token_between; eassumption|]. now apply laid_app.
Qed.
Theorem C99_layout : forall S (i : impl S) c n s vs, x_render i c n = Ok s -> x_values i c = Ok vs ->
  exists rs vss, in_turn i (parts c) n = Ok rs /\ laid_out i rs s /\ mapM (x_values i) (parts c) = Ok vss /\ vs = List.concat vss.
Proof.
  intros S i c n s vs E V. destruct (layout i c n s vs E V) as (rs & R1 & R2). rewrite values_parts in V. apply bind_inv in V as (vss & V1 & V2). apply ok_inj in V2.
  exists rs, vss. auto.
Qed.
Print Assumptions C99_layout.

(** ** Numbering *)

(** The part of the contract that concerns placeholders (interfaces.go:46-60, 132-133), for the
    values of which [P] is true: Render numbers the Values from the given number on, RenderSQL is
    the same text with question marks, RenderJoin is never empty between conditions.  The
    methods may panic, and Join and Negate may return conditions of any type, if those are again
    such conditions. *)
Definition joinable (j : string) : Prop := j <> "" /\ lacks "$" j.
Inductive sound {S} (P : S -> Prop) : xcond S -> Prop :=
| so_nil : sound P XNil
| so_leaf l : (forall cu, l_kind l <> KCustom cu) -> leaf_contract l -> joinable (l_join l) -> sound P (XLeaf l)
| so_obj o : P o -> sound P (XObj o)
| so_grp j n cs br : joinable j -> Forall (sound P) cs -> sound P (XGrp j n cs br).
Record numbers {S} (i : impl S) (P : S -> Prop) : Prop := {
  nb_text : forall o n s vs, P o -> wr_render i o n = Ok s -> wr_values i o = Ok vs -> dollars s = seq (n + 1) (length vs);
  nb_sql : forall o n s s', P o -> wr_render i o n = Ok s -> wr_sql i o = Ok s' -> qmarks s = s';
  nb_first : forall o t, P o -> wr_render_join i o true = Ok t -> lacks "$" t;
  nb_next : forall o t, P o -> wr_render_join i o false = Ok t -> joinable t;
  nb_jtype : forall o j, P o -> wr_jtype i o = Ok j -> joinable j;
  nb_join : forall o j c, P o -> joinable j -> wr_join i o j = Ok c -> sound P c;
  nb_negate : forall o b c, P o -> wr_negate i o b = Ok c -> sound P c }.
(** what the functions of the package make of conditions *)
Inductive composed {S} (i : impl S) (base : xcond S -> Prop) : xcond S -> Prop :=
| co_base c : base c -> composed i base c
| co_join j cs c : joinable j -> Forall (composed i base) cs -> x_jt_join i j cs = Ok c -> composed i base c
| co_group j cs g : joinable j -> Forall (composed i base) cs -> x_new_group i j cs = Ok g -> composed i base (of_xg g)
| co_brackets c g : composed i base c -> x_as_group c = Some g -> composed i base (of_xg (x_brackets g))
| co_and c ds r : composed i base c -> Forall (composed i base) ds -> x_and i c ds = Ok r -> composed i base r
| co_or c ds r : composed i base c -> Forall (composed i base) ds -> x_or i c ds = Ok r -> composed i base r
| co_not c r : composed i base c -> x_not i c = Ok r -> composed i base r.

Section Sound.
  Context {S : Type} (i : impl S) (P : S -> Prop) (N : numbers i P).
  Definition gsound (g : xgroup S) : Prop := joinable (xg_join g) /\ Forall (sound P) (xg_cs g).

  Lemma joinable_and : joinable AND.
  Proof. split; [discriminate|lacks_const]. Qed.
  Lemma joinable_or : joinable OR.
  Proof. split; [discriminate|lacks_const]. Qed.
  Lemma so_of_xg g : sound P (of_xg g) <-> gsound g.
  Proof. split; [intros H; inversion H; subst; split; auto|intros [H1 H2]; now constructor]. Qed.
  Lemma so_as_group c g : x_as_group c = Some g -> sound P c -> gsound g.
  Proof. destruct c; try discriminate. intros [= <-] H. now apply so_of_xg. Qed.
  Lemma so_jtype c j : sound P c -> x_jtype i c = Ok j -> joinable j.
  Proof. intros H E. destruct H as [|l _ _ Hj|o Ho|j' n cs br Hj _]; cbn [x_jtype] in E; [discriminate|injection E as <-; exact Hj|now apply (nb_jtype i P N o)|injection E as <-; exact Hj]. Qed.
  Lemma so_join j c r : joinable j -> sound P c -> x_join i j c = Ok r -> sound P r.
  Proof.
    intros Hj H E. destruct H as [|l Hk Hc _|o Ho|j' n cs br _ Hcs]; cbn [x_join] in E; [discriminate| | |].
    - injection E as <-. constructor; [exact Hk| |exact Hj]. destruct l as [k j0 n d v]. exact Hc.
    - now apply (nb_join i P N o j).
    - injection E as <-. now constructor.
  Qed.
  Lemma so_negate b c r : sound P c -> x_negate i b c = Ok r -> sound P r.
  Proof.
    intros H E. destruct H as [|l Hk Hc Hj|o Ho|j' n cs br Hj Hcs]; cbn [x_negate] in E; [discriminate| | |].
    - injection E as <-. constructor; [exact Hk| |exact Hj]. destruct l as [k j0 n d v]. cbn [l_kind l_join l_def l_val] in *.
      destruct Hc as (vs & Ev & Hc). exists vs. unfold leaf_values in *. cbn [l_kind l_neg l_def l_val] in *.
      destruct k; try (split; assumption). now destruct (Hk cu).
    - now apply (nb_negate i P N o b).
    - injection E as <-. now constructor.
  Qed.
  Lemma so_mapM j cs l : joinable j -> Forall (sound P) cs -> mapM (x_join i j) cs = Ok l -> Forall (sound P) l.
  Proof.
    intros Hj H. revert l. induction H as [|c cs Hc _ IH]; intros l E; cbn [mapM] in E; [injection E as <-; constructor|].
    apply bind_inv in E as (c' & Ec & E). apply bind_inv in E as (l' & El & E). apply ok_inj in E. subst l. constructor; [eapply so_join; eauto|auto].
  Qed.
  Lemma so_new_group j cs g : joinable j -> Forall (sound P) cs -> x_new_group i j cs = Ok g -> gsound g.
  Proof. intros Hj H E. apply bind_inv in E as (l & El & E). apply ok_inj in E. subst g. split; [apply joinable_and|eapply so_mapM; eauto]. Qed.
  Lemma so_jt_join j cs r : joinable j -> Forall (sound P) cs -> x_jt_join i j cs = Ok r -> sound P r.
  Proof.
    intros Hj H E. destruct cs as [|c [|d cs]]; [discriminate| |].
    - inversion H; subst. now apply (so_join j c).
    - unfold x_jt_join in E. apply bind_inv in E as (g & Eg & E). apply ok_inj in E. subst r. apply so_of_xg. eapply so_new_group; eauto.
  Qed.
  Lemma so_brackets g : gsound g -> gsound (x_brackets g).
  Proof. intros H. exact H. Qed.
  Lemma so_single_join j g c : joinable j -> gsound g -> x_jt_join i j [of_xg g] = Ok c -> sound P c.
  Proof. intros Hj [_ H] E. cbn in E. injection E as <-. now constructor. Qed.

  Ltac fin := first [exact joinable_and | exact joinable_or | assumption | match goal with H : gsound ?g |- _ => exact (proj1 H) end].
  Ltac lists := repeat first [assumption | apply Forall_app; split | apply Forall_cons | apply Forall_nil | match goal with H : gsound ?g |- Forall _ (xg_cs ?g) => exact (proj2 H) end
    | apply so_of_xg; apply so_brackets; assumption | apply so_of_xg; assumption].
  Lemma so_add_group g a r : gsound g -> gsound a -> x_add_group i g a = Ok r -> gsound r.
  Proof.
    intros Hg Ha E. unfold x_add_group in E. do 8 (apply bind_inv in E as (? & _ & E)).
    assert (K : forall c, x_jt_join i (xg_join a) [of_xg (x_brackets a)] = Ok c -> sound P c) by (intros c Ec; eapply so_single_join; [exact (proj1 Ha)|exact (so_brackets _ Ha)|exact Ec]).
    destruct (length (xg_cs g) =? 0); [apply ok_inj in E; subst r; split; [exact (proj1 Ha)|exact (proj2 Ha)]|].
    repeat match type of E with (if ?b then _ else _) = _ => destruct b end;
      try (apply bind_inv in E as (c & Ec & E); apply K in Ec); apply ok_inj in E; subst r; (split; [exact (proj1 Hg)|]); cbn [x_set_cs xg_cs]; lists.
  Qed.
  Lemma so_add_single g c r : gsound g -> sound P c -> x_add_single i g c = Ok r -> gsound r.
  Proof.
    intros Hg Hc E. unfold x_add_single in E. do 2 (apply bind_inv in E as (? & _ & E)). apply bind_inv in E as (op & Eop & E).
    pose proof (so_jtype c op Hc Eop) as Hop.
    destruct (x_as_group c) as [a|] eqn:Ea; [apply (so_add_group g a r Hg); [eapply so_as_group; eauto|exact E]|].
    assert (K : forall c', x_jt_join i op [c] = Ok c' -> sound P c') by (intros c' Ec'; eapply so_jt_join; [exact Hop| |exact Ec']; constructor; [exact Hc|constructor]).
    destruct (length (xg_cs g) =? 0); [apply ok_inj in E; subst r; split; [exact Hop|cbn [x_set_join x_set_cs xg_cs]; lists]|].
    repeat match type of E with (if ?b then _ else _) = _ => destruct b end;
      (apply bind_inv in E as (c' & Ec & E); apply K in Ec); apply ok_inj in E; subst r; (split; [exact (proj1 Hg)|]); cbn [x_set_cs xg_cs]; lists.
  Qed.
  Lemma so_add_conditions op g cs r : joinable op -> gsound g -> Forall (sound P) cs -> x_add_conditions i op g cs = Ok r -> gsound r.
  Proof.
    intros Hop Hg Hcs E. unfold x_add_conditions in E. do 2 (apply bind_inv in E as (? & _ & E)).
    destruct cs as [|c rest]; [apply ok_inj in E; now subst r|].
    destruct (xg_cs g) eqn:Eg; [apply ok_inj in E; subst r; split; assumption|]. rewrite <- Eg in E.
    destruct rest as [|d rest].
    - apply bind_inv in E as (c' & Ec & E). apply (so_jt_join op [c] c' Hop Hcs) in Ec. now apply (so_add_single g c').
    - destruct (_ && _).
      + apply ok_inj in E. subst r. split; [exact (proj1 Hg)|]. cbn [x_set_cs xg_cs]. lists.
      + destruct (_ && _); apply bind_inv in E as (ng & En & E).
        * apply (so_new_group _ _ _ Hop Hcs) in En. apply bind_inv in E as (c' & Ec & E). apply ok_inj in E. subst r.
          apply (so_single_join _ _ _ Hop En) in Ec. split; [exact (proj1 Hg)|]. cbn [x_set_cs xg_cs]. lists.
        * apply (so_new_group _ _ _ joinable_and Hcs) in En. apply ok_inj in E. subst r. split; [exact (proj1 Hg)|]. cbn [x_set_cs xg_cs]. lists.
  Qed.
  Lemma so_wheres css : forall g r, gsound g -> Forall (Forall (sound P)) css -> x_wheres i g css = Ok r -> gsound r.
  Proof.
    induction css as [|cs css IH]; intros g r Hg H E; cbn [x_wheres] in E; [apply ok_inj in E; now subst r|].
    apply bind_inv in E as (g' & Eg & E). inversion H; subst. apply (IH g' r); auto. eapply so_add_conditions; eauto using joinable_and.
  Qed.
  Lemma so_start op c g : joinable op -> sound P c -> match x_as_group c with Some g => Ok g | None => x_new_group i op [c] end = Ok g -> gsound g.
  Proof.
    intros Hop Hc E. destruct (x_as_group c) as [g'|] eqn:Eg; [injection E as <-; now apply (so_as_group c)|]. eapply so_new_group; [exact Hop| |exact E]. constructor; [exact Hc|constructor].
  Qed.
  Lemma so_and c ds r : sound P c -> Forall (sound P) ds -> x_and i c ds = Ok r -> sound P r.
  Proof.
    intros Hc Hd E. destruct ds as [|d ds]; [eapply (so_jt_join AND [c]); [exact joinable_and|constructor; [exact Hc|constructor]|exact E]|]. unfold x_and in E.
    apply bind_inv in E as (g & Eg & E). apply bind_inv in E as (r' & Er & E). apply ok_inj in E. subst r. apply so_of_xg.
    eapply so_add_conditions; [exact joinable_and| |exact Hd|exact Er]. eapply so_start; eauto using joinable_and.
  Qed.
  Lemma so_or c ds r : sound P c -> Forall (sound P) ds -> x_or i c ds = Ok r -> sound P r.
  Proof.
    intros Hc Hd E. destruct ds as [|d ds]; [apply (so_jt_join OR [c]); auto using joinable_or|]. unfold x_or in E.
    apply bind_inv in E as (g & Eg & E). apply bind_inv in E as (r' & Er & E). apply (so_single_join OR r'); [exact joinable_or| |exact E].
    eapply so_add_conditions; [exact joinable_or| |exact Hd|exact Er]. eapply so_start; eauto using joinable_or.
  Qed.

  Lemma so_token first c t : sound P c -> x_render_join i first c = Ok t -> lacks "$" (x_token t) /\ (first = false -> exists r, x_token t = String " " r).
  Proof.
    intros H E.
    assert (K : forall t, joinable t -> lacks "$" (x_token t) /\ exists r, x_token t = String " " r).
    { intros t' [H1 H2]. unfold x_token. destruct t' as [|a t']; [congruence|]. cbn [is_empty]. split; [|eexists; reflexivity].
      rewrite !lacks_app. split; [lacks_const|]. split; [exact H2|lacks_const]. }
    assert (K' : forall j, joinable j -> Ok (render_join first j) = Ok t -> lacks "$" (x_token t) /\ (first = false -> exists r, x_token t = String " " r)).
    { intros j Hj E'. apply ok_inj in E'. subst t. destruct first; cbn [render_join].
      - split; [apply lacks_nil|discriminate].
      - destruct (K j Hj). auto. }
    destruct H as [|l _ _ Hj|o Ho|j n cs br Hj _]; cbn [x_render_join] in E; [discriminate|now apply (K' (l_join l))| |now apply (K' j)].
    destruct first.
    - split; [|discriminate]. pose proof (nb_first i P N o t Ho E) as L. unfold x_token. destruct t; [exact L|]. cbn [is_empty].
      rewrite !lacks_app. split; [lacks_const|]. split; [exact L|lacks_const].
    - destruct (K t (nb_next i P N o t Ho E)). auto.
  Qed.
  Lemma so_text c : sound P c -> forall n s vs, x_render i c n = Ok s -> x_values i c = Ok vs ->
    dollars s = seq (n + 1) (length vs) /\ (forall s', x_render_sql i c = Ok s' -> qmarks s = s').
  Proof.
    induction c as [|l|o|j ng cs br IH] using xcond_ind'; intros H n s vs E V; [discriminate| | |]; inversion H as [|? Hk Hc Hj|? Ho|? ? ? ? Hj Hcs]; subst.
    - destruct (leaf_dollars l n Hc) as (s0 & s0' & vs0 & E1 & E2 & E3 & D & Q). cbn [x_render x_values x_render_sql] in *.
      rewrite E2 in E. apply ok_inj in E. subst s0. rewrite E1 in V. apply ok_inj in V. subst vs0. split; [exact D|].
      intros s' Es'. rewrite E3 in Es'. apply ok_inj in Es'. congruence.
    - split; [exact (nb_text i P N o n s vs Ho E V)|]. intros s' Es'. exact (nb_sql i P N o n s s' Ho E Es').
    - rewrite x_render_grp in E. rewrite x_values_grp in V. rewrite x_render_sql_grp. clear H.
      destruct cs as [|c0 cs0] eqn:Ecs.
      { apply ok_inj in E. apply ok_inj in V. subst s vs. split; [reflexivity|]. intros s' Es'. apply ok_inj in Es'. now subst s'. }
      rewrite <- Ecs in *. clear Ecs c0 cs0. apply bind_inv in E as (t & Et & E). apply ok_inj in E. subst s.
      enough (K : forall first n t vs, x_list i first cs n = Ok t -> x_values_list i cs = Ok vs ->
        dollars t = seq (n + 1) (length vs) /\ (forall t', x_sql_list i first cs = Ok t' -> qmarks t = t') /\ (first = false -> head_space t)).
      { destruct (K true n t vs Et V) as (D & Q & _). rewrite wrap_dollars. split; [exact D|]. intros s' Es'. apply bind_inv in Es' as (t' & Et' & Es').
        apply ok_inj in Es'. subst s'. rewrite wrap_qmarks. now rewrite (Q t' Et'). }
      clear n t vs Et V. induction Hcs as [|c cs Hc Hcs IHcs]; intros first n t vs Et V.
      { apply ok_inj in Et. apply ok_inj in V. subst t vs. split; [reflexivity|]. split; [|intros _; now left]. intros t' E'. apply ok_inj in E'. now subst t'. }
      inversion IH as [|? ? IH1 IH2]; subst. specialize (IHcs IH2).
      change (x_list i first (c :: cs) n) with (do t <- x_render_join i first c; do s <- x_render i c n; do vs <- x_values i c; do rest <- x_list i false cs (n + length vs); Ok (x_token t ++ s ++ rest)) in Et.
      change (x_values_list i (c :: cs)) with (do v <- x_values i c; do vs <- x_values_list i cs; Ok (v ++ vs)%list) in V.
      change (x_sql_list i first (c :: cs)) with (do t <- x_render_join i first c; do s <- x_render_sql i c; do rest <- x_sql_list i false cs; Ok (x_token t ++ s ++ rest)).
      apply bind_inv in Et as (tk & Etk & Et). apply bind_inv in Et as (s & Es & Et). apply bind_inv in Et as (v & Ev & Et). apply bind_inv in Et as (rest & Er & Et).
      apply ok_inj in Et. subst t. rewrite Ev in V. cbn [bind] in V. apply bind_inv in V as (vs' & Evs & V). apply ok_inj in V. subst vs.
      destruct (IH1 Hc n s v Es Ev) as (D1 & Q1). destruct (IHcs false _ _ _ Er Evs) as (D2 & Q2 & H2). specialize (H2 eq_refl).
      destruct (so_token first c tk Hc Etk) as (L1 & L2). pose proof (head_space_nd _ H2) as Hnd.
      split; [|split].
      + rewrite dollars_lacks, dollars_app, D1, D2 by assumption. rewrite app_length, seq_app. do 2 f_equal. lia.
      + intros t' E'. rewrite Etk in E'. cbn [bind] in E'. apply bind_inv in E' as (s' & Es' & E'). apply bind_inv in E' as (r' & Er' & E'). apply ok_inj in E'. subst t'.
        rewrite qmarks_lacks, qmarks_app by assumption. now rewrite (Q1 s' Es'), (Q2 r' Er').
      + intros Hf. destruct (L2 Hf) as (x & Ex). rewrite Ex. right. simpl. eauto.
  Qed.
End Sound.

Section ComposedInd.
  Context {S : Type} (i : impl S) (base Q : xcond S -> Prop).
  Hypothesis Hbase : forall c, base c -> Q c.
  Hypothesis Hjoin : forall j cs c, joinable j -> Forall Q cs -> x_jt_join i j cs = Ok c -> Q c.
  Hypothesis Hgroup : forall j cs g, joinable j -> Forall Q cs -> x_new_group i j cs = Ok g -> Q (of_xg g).
  Hypothesis Hbr : forall c g, Q c -> x_as_group c = Some g -> Q (of_xg (x_brackets g)).
  Hypothesis Hand : forall c ds r, Q c -> Forall Q ds -> x_and i c ds = Ok r -> Q r.
  Hypothesis Hor : forall c ds r, Q c -> Forall Q ds -> x_or i c ds = Ok r -> Q r.
  Hypothesis Hnot : forall c r, Q c -> x_not i c = Ok r -> Q r.
  Fixpoint composed_ind' c (H : composed i base c) : Q c :=
    let go := fix go l (H : Forall (composed i base) l) : Forall Q l := match H with Forall_nil _ => Forall_nil _ | Forall_cons _ h t => Forall_cons _ (composed_ind' _ h) (go _ t) end in
    match H with
    | co_base _ _ c h => Hbase c h
    | co_join _ _ j cs c hj h e => Hjoin j cs c hj (go _ h) e
    | co_group _ _ j cs g hj h e => Hgroup j cs g hj (go _ h) e
    | co_brackets _ _ c g h e => Hbr c g (composed_ind' _ h) e
    | co_and _ _ c ds r h hs e => Hand c ds r (composed_ind' _ h) (go _ hs) e
    | co_or _ _ c ds r h hs e => Hor c ds r (composed_ind' _ h) (go _ hs) e
    | co_not _ _ c r h e => Hnot c r (composed_ind' _ h) e
    end.
End ComposedInd.

Lemma composed_sound {S} (i : impl S) P : numbers i P -> forall c, composed i (sound P) c -> sound P c.
Proof.
  intros N. apply composed_ind'.
  - auto.
  - intros j cs c. now apply (so_jt_join i P N).
  - intros j cs g Hj Hcs E. apply so_of_xg. now apply (so_new_group i P N j cs).
  - intros c g Hc E. apply so_of_xg. apply so_brackets. now apply (so_as_group P c).
  - intros c ds r. now apply (so_and i P N).
  - intros c ds r. now apply (so_or i P N).
  - intros c r. now apply (so_negate i P N).
Qed.

(** Whatever is composed of such conditions numbers its parameters, in both styles. *)
Theorem C99_numbering : forall S (i : impl S) P, numbers i P -> forall c n s vs, composed i (sound P) c ->
  x_render i c n = Ok s -> x_values i c = Ok vs ->
  dollars s = seq (n + 1) (length vs) /\ (forall s', x_render_sql i c = Ok s' -> qmarks s = s').
Proof. intros S i P N c n s vs H. apply (so_text i P N). now apply (composed_sound i P N). Qed.
Print Assumptions C99_numbering.
(** So do the statements, after any calls of Where. *)
Theorem C99_statement_numbering : forall S (i : impl S) P, numbers i P -> forall css w, Forall (Forall (composed i (sound P))) css -> x_wheres i x_empty css = Ok w ->
  (forall b s ps, base_lacks b -> x_b_build i b w = Ok (mkOut s ps None) -> dollars s = seq 1 (length ps)) /\
  (forall u s ps, lacks "$" (u_table u) -> Forall (lacks "$") (col_names (u_values u)) -> x_u_build i u w = Ok (mkOut s ps None) -> dollars s = seq 1 (length ps)) /\
  (forall d s ps, lacks "$" (d_table d) -> x_d_build i d w = Ok (mkOut s ps None) -> dollars s = seq 1 (length ps)).
Proof.
  intros S i P N css w Hcs E.
  assert (Hw : sound P (of_xg w)).
  { apply so_of_xg. eapply so_wheres; [exact N| | |exact E]; [split; [apply joinable_and|constructor]|].
    clear -N Hcs. induction Hcs as [|cs css H _ IH]; constructor; [|exact IH]. induction H; constructor; auto. now apply (composed_sound i P N). }
  pose proof (so_text i P N _ Hw) as T. split; [|split].
  - intros b s ps Hb B. unfold x_b_build in B. pose proof (lacks_join " " _ ltac:(lacks_const) (b_tokens_lack b Hb)) as HL.
    destruct (nonempty (xg_cs w)).
    + apply bind_inv in B as (t & Et & B). apply bind_inv in B as (vs & Ev & B). apply ok_inj in B. unfold ok in B.
      assert (Es : s = join " " (b_tokens b ++ ["WHERE"; t])%list /\ ps = vs) by (split; congruence). destruct Es as [-> ->].
      rewrite where_join by apply b_tokens_ne.
      assert (HL' : lacks "$" (join " " (b_tokens b) ++ " WHERE ")) by (rewrite lacks_app; split; [exact HL|lacks_const]).
      rewrite dollars_lacks by exact HL'. exact (proj1 (T 0 t vs Et Ev)).
    + apply ok_inj in B. unfold ok in B. assert (Es : s = join " " (b_tokens b) /\ ps = []) by (split; congruence). destruct Es as [-> ->].
      rewrite <- (app_nil_r_s (join " " (b_tokens b))). rewrite dollars_lacks by exact HL. reflexivity.
  - intros u s ps Hl Hc B. unfold x_u_build in B. destruct (negb (nonempty (xg_cs w))); [discriminate|]. destruct (negb (nonempty (u_values u))); [discriminate|].
    destruct (is_empty (u_table u)); [discriminate|]. apply bind_inv in B as ([sets params] & Ef & B). apply bind_inv in B as (t & Et & B). apply bind_inv in B as (vs & Ev & B).
    apply ok_inj in B. unfold ok in B. assert (Es : s = join " " ["UPDATE"; u_table u; "SET"; sets; "WHERE"; t] /\ ps = (params ++ vs)%list) by (split; congruence). destruct Es as [-> ->].
    unfold fields_and_values in Ef. apply bind_inv in Ef as (l & El & Ef). apply ok_inj in Ef.
    assert (L : length (u_values u) = length l).
    { clear -El. revert l El. induction (u_values u) as [|x fs IH]; intros l H; simpl in H; [now injection H as <-|].
      destruct (first_value x); [|discriminate]. simpl in H. destruct (mapM first_value fs) as [l'|]; [|discriminate]. injection H as <-. simpl. now rewrite (IH l'). }
    pose proof (f_equal snd Ef) as Ep. pose proof (f_equal fst Ef) as Es. cbn [fst snd] in Ep, Es. subst params sets. clear Ef.
    rewrite (combine_sets (fun fv => f_name (fv_def fv))). cbn [Nat.add].
    set (ss := join ", " _).
    change (join " " ["UPDATE"; u_table u; "SET"; ss; "WHERE"; t]) with ("UPDATE " ++ u_table u ++ " SET " ++ ss ++ " WHERE " ++ t).
    rewrite dollars_lacks by lacks_const. rewrite dollars_lacks by exact Hl. rewrite dollars_lacks by lacks_const.
    unfold ss. rewrite sets_dollars; [|exact Hc|unfold col_names; now rewrite seq_length, map_length|reflexivity].
    rewrite dollars_lacks by lacks_const. rewrite (proj1 (T _ t vs Et Ev)), L, app_length, seq_app. f_equal. f_equal. lia.
  - intros d s ps Hl B. unfold x_d_build in B. destruct (negb (nonempty (xg_cs w))); [discriminate|].
    destruct (is_empty (d_table d)); [discriminate|]. apply bind_inv in B as (t & Et & B). apply bind_inv in B as (vs & Ev & B).
    apply ok_inj in B. unfold ok in B. assert (Es : s = join " " ["DELETE"; "FROM"; d_table d; "WHERE"; t] /\ ps = vs) by (split; congruence). destruct Es as [-> ->].
    change (join " " ["DELETE"; "FROM"; d_table d; "WHERE"; t]) with ("DELETE FROM " ++ d_table d ++ " WHERE " ++ t).
    rewrite dollars_lacks by lacks_const. rewrite dollars_lacks by exact Hl. rewrite dollars_lacks by lacks_const. exact (proj1 (T 0 t vs Et Ev)).
Qed.
Print Assumptions C99_statement_numbering.

(** ** Examples *)

(** field BETWEEN lo AND hi *)
Record range := mkRange { r_join : string; r_neg : bool; r_def : fdef; r_lo : nat; r_hi : nat }.
Definition range_text (neg : bool) (d : fdef) (lo hi : string) : string :=
  render_spec d ++ (if neg then " NOT" else "") ++ " BETWEEN " ++ lo ++ " AND " ++ hi.
Definition range_impl : impl range := mkImpl range
  (fun o => Ok (r_join o)) (fun o first => Ok (if first then "" else r_join o))
  (fun o j => Ok (XObj (mkRange j (r_neg o) (r_def o) (r_lo o) (r_hi o))))
  (fun o b => Ok (XObj (mkRange (r_join o) b (r_def o) (r_lo o) (r_hi o))))
  (fun o n => Ok (range_text (r_neg o) (r_def o) (dollar (n + 1)) (dollar (n + 2))))
  (fun o => Ok (range_text (r_neg o) (r_def o) "?" "?"))
  (fun o => Ok [VOther (r_lo o); VOther (r_hi o)])
  (fun o d => Ok (XObj (mkRange (r_join o) (r_neg o) (apply_spec (r_def o) d) (r_lo o) (r_hi o))))
  (fun o t => Ok (XObj (mkRange (r_join o) (r_neg o) (set_table (r_def o) t) (r_lo o) (r_hi o)))).
Definition range_kind (lo hi : nat) : custom := mkCustom
  (fun neg d _ n => range_text neg d (dollar (n + 1)) (dollar (n + 2))) (fun neg d _ => range_text neg d "?" "?") (fun _ _ _ => Ok [VOther lo; VOther hi]).
Definition range_view (o : range) : leaf := mkLeaf (KCustom (range_kind (r_lo o) (r_hi o))) (r_join o) (r_neg o) (r_def o) VNil.
Lemma range_follows : follows range_impl range_view.
Proof.
  constructor; try reflexivity.
  - intros o j. eexists. split; reflexivity.
  - intros o b. eexists. split; reflexivity.
  - intros o d. eexists. split; [reflexivity|]. destruct o; reflexivity.
  - intros o t. eexists. split; [reflexivity|]. destruct o; reflexivity.
Qed.
Definition x_eq (f : string) (k : nat) : xcond range := XLeaf (mkLeaf KEq AND false (mkF f "" "") (VOther k)).
Definition aged (lo hi : nat) : xcond range := XObj (mkRange AND false (mkF "age" "u" "") lo hi).
Definition three : res (xcond range) :=
  do c <- x_and range_impl (x_eq "a" 1) [aged 18 65]; do d <- x_not range_impl (aged 30 40); x_or range_impl c [d; x_eq "b" 2].
Example C99_example : follows range_impl range_view /\
  (do r <- three; x_render range_impl r 0) = Ok "a=$1 AND u.age BETWEEN $2 AND $3 OR u.age NOT BETWEEN $4 AND $5 OR b=$6" /\
  (do r <- three; x_values range_impl r) = Ok [VOther 1; VOther 18; VOther 65; VOther 30; VOther 40; VOther 2] /\
  (do r <- three; in_turn range_impl (parts r) 0) = Ok ["a=$1"; "u.age BETWEEN $2 AND $3"; "u.age NOT BETWEEN $4 AND $5"; "b=$6"].
Proof. split; [exact range_follows|]. split; [vm_compute; reflexivity|]. split; vm_compute; reflexivity. Qed.
Example C99_statements_example :
  (do w <- x_wheres range_impl x_empty [[x_eq "a" 1]; [aged 18 65]];
   x_u_build range_impl (u_add (update_ (TPName "users")) [mkFV (mkF "name" "" "") (VStr "x")]) w) =
  Ok (mkOut "UPDATE users SET name=$1 WHERE a=$2 AND u.age BETWEEN $3 AND $4" [VStr "x"; VOther 1; VOther 18; VOther 65] None).
Proof. vm_compute. reflexivity. Qed.

(** a condition whose Join and Negate answer with a Group around it *)
Definition boxed_impl : impl unit := mkImpl unit
  (fun _ => Ok AND) (fun _ first => Ok (if first then "" else AND))
  (fun o j => Ok (XGrp j false [XObj o] true)) (fun o b => Ok (XGrp AND b [XObj o] false))
  (fun _ n => Ok ("age > all(" ++ dollar (n + 1) ++ ")")) (fun _ => Ok "age > all(?)") (fun _ => Ok [VOther 7])
  (fun o _ => Ok (XObj o)) (fun o _ => Ok (XObj o)).
Lemma boxed_numbers : numbers boxed_impl (fun _ => True).
Proof.
  constructor.
  - intros o n s vs _ E [= <-]. apply (ok_inj ("age > all(" ++ dollar (n + 1) ++ ")") s) in E. subst s. rewrite dollars_lacks by lacks_const. rewrite dollars_app by reflexivity. now rewrite dollars_dollar.
  - intros o n s s' _ E [= <-]. apply (ok_inj ("age > all(" ++ dollar (n + 1) ++ ")") s) in E. subst s. rewrite qmarks_lacks by lacks_const. rewrite qmarks_app by reflexivity. now rewrite qmarks_dollar.
  - intros o t _ [= <-]. apply lacks_nil.
  - intros o t _ [= <-]. apply joinable_and.
  - intros o j _ [= <-]. apply joinable_and.
  - intros o j c _ Hj [= <-]. constructor; [exact Hj|]. constructor; [now constructor|constructor].
  - intros o b c _ [= <-]. constructor; [exact joinable_and|]. constructor; [now constructor|constructor].
Qed.
Definition boxed_a : xcond unit := XLeaf (mkLeaf KEq AND false (mkF "a" "" "") (VOther 1)).
Lemma boxed_a_sound : sound (fun _ : unit => True) boxed_a.
Proof.
  constructor; [discriminate| |exact joinable_and]. exists [VOther 1]. split; [reflexivity|]. split; [|reflexivity].
  split; [lacks_const|]. split; apply lacks_nil.
Qed.
Example C99_numbering_example : exists c d, numbers boxed_impl (fun _ => True) /\
  x_or boxed_impl boxed_a [XObj tt] = Ok c /\ x_not boxed_impl (XObj tt) = Ok d /\
  composed boxed_impl (sound (fun _ => True)) c /\ composed boxed_impl (sound (fun _ => True)) d /\
  x_render boxed_impl c 0 = Ok "a=$1 AND age > all($2)" /\
  (do w <- x_wheres boxed_impl x_empty [[c]; [d]]; x_d_build boxed_impl (delete_ (TPName "t")) w) =
    Ok (mkOut "DELETE FROM t WHERE a=$1 AND age > all($2) AND age > all($3)" [VOther 1; VOther 7; VOther 7] None).
Proof.
  eexists _, _. split; [exact boxed_numbers|]. split; [reflexivity|]. split; [reflexivity|]. split; [|split; [|split]].
  - apply (co_or _ _ boxed_a [XObj tt]); [apply co_base, boxed_a_sound| |reflexivity]. constructor; [apply co_base; now constructor|constructor].
  - apply (co_not _ _ (XObj tt)); [apply co_base; now constructor|reflexivity].
  - vm_compute. reflexivity.
  - vm_compute. reflexivity.
Qed.

(** ** The contract is needed *)

(** Nothing in the package checks the contract: with a type whose Join ignores its argument, And
    says OR; with one whose Join answers with a Group around it, Or says AND, as addGroup
    (group.go:72-73) takes the Group apart again, although the numbering is right; with one
    whose RenderJoin is empty, a placeholder runs into the next text and its number is wrong. *)
Definition stubborn_impl : impl unit := mkImpl unit
  (fun _ => Ok OR) (fun _ first => Ok (if first then "" else OR)) (fun o _ => Ok (XObj o)) (fun o _ => Ok (XObj o))
  (fun _ _ => Ok "1=1") (fun _ => Ok "1=1") (fun _ => Ok []) (fun o _ => Ok (XObj o)) (fun o _ => Ok (XObj o)).
Definition silent_impl : impl unit := mkImpl unit
  (fun _ => Ok AND) (fun _ _ => Ok "") (fun o _ => Ok (XObj o)) (fun o _ => Ok (XObj o))
  (fun _ _ => Ok "1=1") (fun _ => Ok "1=1") (fun _ => Ok []) (fun o _ => Ok (XObj o)) (fun o _ => Ok (XObj o)).
Theorem C99_any_type_refuted :
  (exists (i : impl unit) a u c s, x_and i a [u] = Ok c /\ x_render i c 0 = Ok s /\ s = "a=$1 OR 1=1") /\
  (exists (i : impl unit) a u c s, numbers i (fun _ => True) /\ x_or i a [u] = Ok c /\ x_render i c 0 = Ok s /\ s = "a=$1 AND age > all($2)") /\
  (exists (i : impl unit) a u c s vs, x_and i a [u] = Ok c /\ x_render i c 0 = Ok s /\ x_values i c = Ok vs /\
     length vs = 1 /\ s = "a=$11=1" /\ dollars s = [11]).
Proof.
  split; [|split].
  - exists stubborn_impl, boxed_a, (XObj tt). eexists _, _. split; [reflexivity|]. split; [vm_compute; reflexivity|]. reflexivity.
  - exists boxed_impl, boxed_a, (XObj tt). eexists _, _. split; [exact boxed_numbers|]. split; [reflexivity|]. split; [vm_compute; reflexivity|]. reflexivity.
  - exists silent_impl, boxed_a, (XObj tt). eexists _, _, _. split; [reflexivity|]. split; [vm_compute; reflexivity|]. split; [vm_compute; reflexivity|].
    split; [reflexivity|]. split; [reflexivity|]. vm_compute. reflexivity.
Qed.
Print Assumptions C99_any_type_refuted.
