(** where.go, run from its source. *)
From Coq Require Import String Ascii List Bool Arith NArith ZArith Lia.
From Verif Require Import GoStr StrFacts Value Names Cond SrcAst SrcSem SrcProg Surface Open SrcFacts SrcNames SrcNamesB SrcNamesC SrcLoops SrcValues SrcConds SrcGroups SrcAddGroup SrcAdding SrcAddingB SrcAddingC SrcLeafRender SrcLeafSQL SrcTree SrcTreeRender SrcTreeSQL.
Import ListNotations.
Local Open Scope string_scope.
Local Open Scope nat_scope.

Definition of_where {S} (g : xgroup S) : val S := RStruct "WhereClause" [("group", of_group g)].

(** where.go:32-36: .(Group) holds, since Group.ApplyFieldSpec returns a group *)
Definition x_w_spec {S} (i : impl S) (g : xgroup S) (s : fdef) : res (xgroup S) :=
  do c <- x_apply_spec i s (of_xg g); match x_as_group c with Some g => Ok g | None => Panic end.

Ltac known ::= first [known_numbers | known_dispatch | known_joins | known_groups | known_sums | known_lists | known_base | known_names].

Section Groups.
Context {S : Type} (i : impl S).
Lemma src_Group_Values : forall n d g, deep (of_xg g) <= d ->
  run i (S3 (d + n)) "Group.Values" [of_group g] = of_res (fun l => RSlice (gvals l)) (x_values i (of_xg g)).
Proof. intros n d [j b cs br] H. exact (x_Values i d _ n H). Qed.
Lemma src_Group_Render : forall n d g k, deep (of_xg g) <= d ->
  run i (S4 (d + n)) "Group.Render" [of_group g; RInt "int" (Z.of_nat k)] = of_res (RStr "string") (x_render i (of_xg g) k).
Proof. intros n d [j b cs br] k H. exact (x_Render i d _ n k H). Qed.
Lemma src_Group_RenderSQL : forall n d g, deep (of_xg g) <= d ->
  run i (S4 (d + n)) "Group.RenderSQL" [of_group g] = of_res (RStr "string") (x_render_sql i (of_xg g)).
Proof. intros n d [j b cs br] H. exact (x_RenderSQL i d _ n H). Qed.
Lemma src_Group_ApplyFieldSpec : forall n d g s, deep (of_xg g) <= d ->
  run i (S4 (d + n)) "Group.ApplyFieldSpec" [of_group g; of_fdef s] = of_res of_x (x_apply_spec i s (of_xg g)).
Proof. intros n d [j b cs br] s H. exact (x_ApplyFieldSpec i s d _ n H). Qed.
Lemma src_Group_ApplyFieldTable : forall n d g y t, deep (of_xg g) <= d ->
  run i (S4 (d + n)) "Group.ApplyFieldTable" [of_group g; RStr y t] = of_res of_x (x_apply_table i t (of_xg g)).
Proof. intros n d [j b cs br] y t H. exact (x_ApplyFieldTable i t d _ n y H). Qed.

(** ** WhereClause *)
Lemma src_WhereClause_GroupAND : forall n g cs,
  run i (S10 n) "WhereClause.GroupAND" (of_where g :: xvals cs) = of_res of_where (x_group_and i g cs).
Proof.
  intros n g cs. pose proof (src_Group_GroupAND i n g cs) as H. unfold of_where. destruct g as [j0 b0 c0 d0].
  destruct (x_group_and i (mkXG j0 b0 c0 d0) cs) as [[a b c d]|]; opened H; enter; walk; reflexivity.
Qed.
Lemma src_WhereClause_GroupOR : forall n g cs,
  run i (S10 n) "WhereClause.GroupOR" (of_where g :: xvals cs) = of_res of_where (x_group_or i g cs).
Proof.
  intros n g cs. pose proof (src_Group_GroupOR i n g cs) as H. unfold of_where. destruct g as [j0 b0 c0 d0].
  destruct (x_group_or i (mkXG j0 b0 c0 d0) cs) as [[a b c d]|]; opened H; enter; walk; reflexivity.
Qed.
Lemma src_WhereClause_ApplyFieldSpec : forall n d g s, deep (of_xg g) <= d ->
  run i (S5 (d + n)) "WhereClause.ApplyFieldSpec" [of_where g; of_fdef s] = of_res of_where (x_w_spec i g s).
Proof.
  intros n d g s Hd. pose proof (src_Group_ApplyFieldSpec n d g s Hd) as H. unfold of_where, x_w_spec. destruct g as [j0 b0 c0 d0], s as [s1 s2 s3].
  unfold of_xg in *; cbn [xg_join xg_neg xg_cs xg_br] in H |- *. change (x_apply_spec i (mkF s1 s2 s3) (XGrp j0 b0 c0 d0)) with (do l <- xs_spec i (mkF s1 s2 s3) c0; Ok (XGrp j0 b0 l d0)) in H |- *.
  destruct (xs_spec i (mkF s1 s2 s3) c0) as [l|]; cbn [bind of_res x_as_group] in H |- *; [change (of_x (XGrp j0 b0 l d0)) with (of_group (mkXG j0 b0 l d0)) in H|]; opened H; enter; walk; reflexivity.
Qed.
Lemma src_WhereClause_Render : forall n d g k, deep (of_xg g) <= d ->
  run i (S5 (d + n)) "WhereClause.Render" [of_where g; RInt "int" (Z.of_nat k)] = of_res (RStr "string") (x_render i (of_xg g) k).
Proof.
  intros n d g k Hd. pose proof (src_Group_Render n d g k Hd) as H. unfold of_where. destruct g as [j0 b0 c0 d0].
  destruct (x_render i _ k); opened H; enter; walk; reflexivity.
Qed.
Lemma src_WhereClause_RenderSQL : forall n d g, deep (of_xg g) <= d ->
  run i (S5 (d + n)) "WhereClause.RenderSQL" [of_where g] = of_res (RStr "string") (x_render_sql i (of_xg g)).
Proof.
  intros n d g Hd. pose proof (src_Group_RenderSQL n d g Hd) as H. unfold of_where. destruct g as [j0 b0 c0 d0].
  destruct (x_render_sql i _); opened H; enter; walk; reflexivity.
Qed.
Lemma src_WhereClause_Values : forall n d g, deep (of_xg g) <= d ->
  run i (S4 (d + n)) "WhereClause.Values" [of_where g] = of_res (fun l => RSlice (gvals l)) (x_values i (of_xg g)).
Proof.
  intros n d g Hd. pose proof (src_Group_Values n d g Hd) as H. unfold of_where. destruct g as [j0 b0 c0 d0].
  destruct (x_values i _); opened H; enter; walk; reflexivity.
Qed.
Lemma src_WhereClause_String : forall n d g, deep (of_xg g) <= d ->
  run i (S5 (d + n)) "WhereClause.String" [of_where g] =
  of_res (RStr "string") (do s <- x_render_sql i (of_xg g); Ok ("Where(" ++ s ++ ")")).
Proof.
  intros n d g Hd. pose proof (src_Group_RenderSQL n d g Hd) as H. unfold of_where. destruct g as [j0 b0 c0 d0].
  destruct (x_render_sql i _); opened H; enter; walk; rewrite ?app_assoc_s; reflexivity.
Qed.
Lemma src_WhereClause_Conditions : forall n g,
  run i (S1 n) "WhereClause.Conditions" [of_where g] = Done (RSlice (xvals (xg_cs g))).
Proof.
  intros n [j b cs br]. unfold of_where, of_group. cbn [xg_join xg_neg xg_cs xg_br]. enter. walk.
  rewrite repeat_length, firstn_all2, skipn_all2, app_nil_r by (rewrite ?xvals_length, ?repeat_length; lia). reflexivity.
Qed.
Lemma src_NewWhere : forall n,
  run i (S6 n) "NewWhere" [] = Done (of_where x_empty).
Proof.
  intros n. assert (E : x_new_group i "AND" [] = Ok (mkXG "AND" false [] false)) by reflexivity. note E.
  enter. walk. reflexivity.
Qed.
End Groups.
