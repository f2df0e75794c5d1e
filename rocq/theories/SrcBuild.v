(** select_base.go, run from its source: statements and texts. *)
From Coq Require Import String Ascii List Bool Arith NArith ZArith Lia.
From Verif Require Import GoStr StrFacts Value Names Cond Build SrcAst SrcSem SrcProg Surface Open SrcFacts SrcNames SrcNamesB SrcNamesC SrcLoops SrcValues SrcConds SrcGroups SrcAddGroup SrcAdding SrcAddingB SrcAddingC SrcLeafRender SrcLeafSQL SrcTree SrcTreeRender SrcTreeSQL SrcWhere SrcBuilders.
Import ListNotations.
Local Open Scope string_scope.
Local Open Scope nat_scope.

(** select_base.go:48-65, 29-46, 67-75, 21-27 Render, RenderSQL, Values and String of the builder [b] with the
    conditions [w] (its own group is not read), as x_b_build in Open.v *)
Definition x_b_render {S} (i : impl S) (b : bsel) (w : xgroup S) (n : nat) : res string :=
  if nonempty (xg_cs w) then
    do s <- x_render i (of_xg w) n; Ok (join " " (b_tokens b ++ ["WHERE"; s])%list)
  else Ok (join " " (b_tokens b)).
Definition x_b_render_sql {S} (i : impl S) (b : bsel) (w : xgroup S) : res string :=
  if nonempty (xg_cs w) then
    do s <- x_render_sql i (of_xg w); Ok (join " " (b_tokens b ++ ["WHERE"; s])%list)
  else Ok (join " " (b_tokens b)).
Definition x_b_values {S} (i : impl S) (w : xgroup S) : res (list gval) :=
  if nonempty (xg_cs w) then x_values i (of_xg w) else Ok [].
Definition x_b_string {S} (i : impl S) (b : bsel) (w : xgroup S) : res string :=
  do s <- (do s <- x_render_sql i (of_xg w); Ok ("Where(" ++ s ++ ")"));
  Ok (join "," ["query.BaseSelectBuilder(" ++ b_render_from b ++ ")"; fs_string (b_fields b); s]).

Ltac known ::= first [known_numbers | known_dispatch | known_joins | known_groups | known_sums | known_lists | known_base | known_names | known_build].

Section Build.
Context {S : Type} (i : impl S).
Lemma src_BaseSelectBuilder_RenderFrom : forall n b w,
  run i (S4 n) "BaseSelectBuilder.RenderFrom" [of_bsel b w] = Done (RStr "string" (b_render_from b)).
Proof.
  intros n [o t js fs w0] w. unfold of_bsel, of_op, of_where, of_group, of_fields, b_render_from. cbn [b_op b_table b_joins b_fields].
  enter. walk. rewrite repeat_map.
  range (@of_joiner S) js "fromClauseItems" (fun done rest : list joiner =>
      RSlice (S := S) (RStr "string" (t_render {| t_name := t_name; t_alias := t_alias |}) ::
        map (fun d => RStr "string" (j_render d)) done ++ map (fun _ => RStr "string" "") rest)).
  - walk. apply H. grown.
  - rewrite <- (map_map j_render (RStr "string")).
    change (RStr "string" (t_render (mkT t_name t_alias)) :: map (RStr "string") (map j_render js))
      with (@texts S (t_render (mkT t_name t_alias) :: map j_render js)).
    walk. reflexivity.
Qed.
(** The loop that adds the joins to the tokens. *)
Ltac add_joins fs t js :=
  lazymatch goal with
  | |- context [RSlice [RStr "string" ?a; RStr "string" ?b; RStr "string" ?c; RStr "string" ?e]] =>
    change (RSlice [RStr "string" a; RStr "string" b; RStr "string" c; RStr "string" e]) with (RSlice (@texts S [a; b; c; e]));
    range (@of_joiner S) js "tokens" (fun done rest : list joiner => RSlice (S := S) (texts ([a; b; c; e] ++ map j_render done)))
  end; [walk|].
Lemma src_BaseSelectBuilder_BuildQueryAndParams : forall n d b w, deep (of_xg w) <= d ->
  run i (S6 (d + n)) "BaseSelectBuilder.BuildQueryAndParams" [of_bsel b w] = of_res (of_out no_error) (x_b_build i b w).
Proof.
  intros n d [o t js fs w0] w Hd. unfold x_b_build, b_tokens.
  pose proof (src_WhereClause_Conditions i (S4 (d + n)) w) as H1.
  pose proof (src_WhereClause_Render i n d w 0 Hd) as H2. change (Z.of_nat 0) with 0%Z in H2.
  pose proof (src_WhereClause_Values i (Datatypes.S n) d w Hd) as H3. rewrite <- plus_n_Sm in H3.
  bsel_open w. opened H1; opened H2; opened H3.
  enter. walk. add_joins fs t js. { apply H. rewrite map_app, ?app_assoc. reflexivity. }
  walk. all: built.
Qed.
Lemma src_BaseSelectBuilder_Render : forall n d b w k, deep (of_xg w) <= d ->
  run i (S6 (d + n)) "BaseSelectBuilder.Render" [of_bsel b w; RInt "int" (Z.of_nat k)] = of_res (RStr "string") (x_b_render i b w k).
Proof.
  intros n d [o t js fs w0] w k Hd. unfold x_b_render, b_tokens.
  pose proof (src_WhereClause_Conditions i (S4 (d + n)) w) as H1.
  pose proof (src_WhereClause_Render i n d w k Hd) as H2.
  bsel_open w. opened H1; opened H2.
  enter. walk. add_joins fs t js. { apply H. rewrite map_app, ?app_assoc. reflexivity. }
  walk. all: built.
Qed.
Lemma src_BaseSelectBuilder_RenderSQL : forall n d b w, deep (of_xg w) <= d ->
  run i (S6 (d + n)) "BaseSelectBuilder.RenderSQL" [of_bsel b w] = of_res (RStr "string") (x_b_render_sql i b w).
Proof.
  intros n d [o t js fs w0] w Hd. unfold x_b_render_sql, b_tokens.
  pose proof (src_WhereClause_Conditions i (S4 (d + n)) w) as H1.
  pose proof (src_WhereClause_RenderSQL i n d w Hd) as H2.
  bsel_open w. opened H1; opened H2.
  enter. walk. add_joins fs t js. { apply H. rewrite map_app, ?app_assoc. reflexivity. }
  walk. all: built.
Qed.
Lemma src_BaseSelectBuilder_Values : forall n d b w, deep (of_xg w) <= d ->
  run i (S5 (d + n)) "BaseSelectBuilder.Values" [of_bsel b w] = of_res (fun l => RSlice (gvals l)) (x_b_values i w).
Proof.
  intros n d [o t js fs w0] w Hd. unfold x_b_values.
  pose proof (src_WhereClause_Conditions i (S3 (d + n)) w) as H1.
  pose proof (src_WhereClause_Values i n d w Hd) as H2.
  bsel_open w. opened H1; opened H2.
  enter. walk. all: built.
Qed.
Lemma src_BaseSelectBuilder_String : forall n d b w, deep (of_xg w) <= d ->
  run i (S6 (d + n)) "BaseSelectBuilder.String" [of_bsel b w] = of_res (RStr "string") (x_b_string i b w).
Proof.
  intros n d b w Hd. unfold x_b_string.
  pose proof (src_WhereClause_String i n d w Hd) as H1.
  pose proof (src_BaseSelectBuilder_RenderFrom (Datatypes.S (d + n)) b w) as H2.
  destruct b as [o t js fs w0].
  bsel_open w. cbn [b_op b_table b_joins b_fields b_where] in H2. opened H1; opened H2.
  enter. walk. all: built.
Qed.
End Build.
