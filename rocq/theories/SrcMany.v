(** select_many.go and count.go, run from their source. *)
From Coq Require Import String Ascii List Bool Arith NArith ZArith Lia.
From Verif Require Import GoStr StrFacts Value Names Cond Build SrcAst SrcSem SrcProg Surface Open SrcFacts SrcNames SrcNamesB SrcNamesC SrcLoops SrcValues SrcConds SrcGroups SrcAddGroup SrcAdding SrcAddingB SrcAddingC SrcLeafRender SrcLeafSQL SrcTree SrcTreeRender SrcTreeSQL SrcWhere SrcBuilders SrcWrite SrcSelect SrcSelectB SrcBuild.
Import ListNotations.
Local Open Scope string_scope.
Local Open Scope nat_scope.


Ltac known ::= first [known_joined | known_numbers | known_dispatch | known_joins | known_groups | known_sums | known_lists | known_base | known_names | known_build].

(** select_many.go:27-52, count.go:22-36 BuildQueryAndParams of a builder with the conditions [w], as x_b_build in Open.v *)
Definition x_m_build {S} (i : impl S) (m : msel) (w : xgroup S) : res out :=
  do r <- x_b_build i (m_base m) w;
  let sql := o_sql r ++ order_clause (m_order m) in
  let params := o_params r in
  let '(sql, params) :=
    if (0 <? m_offset m)%N
    then let params := (params ++ [VUint (m_offset m)])%list in
         (sql ++ " OFFSET $" ++ itoa (length params), params)
    else (sql, params) in
  let '(sql, params) :=
    if (0 <? m_limit m)%Z
    then let params := (params ++ [VUint (Z.to_N (m_limit m))])%list in
         (sql ++ " LIMIT $" ++ itoa (length params), params)
    else (sql, params) in
  Ok (ok sql params).
Definition x_cs_build {S} (i : impl S) (c : csel) (w : xgroup S) : res out :=
  let toks := [op_string DoSelect; "COUNT" ++ "(" ++ render_field (cs_field c) ++ ")"; "FROM";
               b_render_from (cs_base c)] in
  if nonempty (xg_cs w) then
    do s <- x_render i (of_xg w) 0;
    do vs <- x_values i (of_xg w);
    Ok (ok (join " " (toks ++ ["WHERE"; s])%list) vs)
  else Ok (ok (join " " toks) []).
(** select_many.go:120-122 and 126-128 Update and Delete *)
Definition x_m_update {S} (i : impl S) (m : msel) (w : xgroup S) (vs : list fvalue) : res (val S) :=
  do g <- x_group_and i x_empty (xg_cs w); Ok (of_upd (u_add (update_ (TPName (t_name (b_table (m_base m))))) vs) g).
Definition x_m_delete {S} (i : impl S) (m : msel) (w : xgroup S) : res (val S) :=
  do g <- x_group_and i x_empty (xg_cs w); Ok (of_del (delete_ (TPName (t_name (b_table (m_base m))))) g).

Section Many.
Context {S : Type} (i : impl S).
Lemma src_CountBuilder_RenderFrom : forall n c w,
  run i (S5 n) "CountBuilder.RenderFrom" [of_csel c w] = Done (RStr "string" (cs_render_from c)).
Proof.
  intros n [b f] w. pose proof (src_BaseSelectBuilder_RenderFrom i n b w) as H. unfold cs_render_from. bopen. bopen_in H. enter; walk; reflexivity.
Qed.
Lemma src_CountBuilder_BuildQueryAndParams : forall n d c w, deep (of_xg w) <= d ->
  run i (S6 (d + n)) "CountBuilder.BuildQueryAndParams" [of_csel c w] = of_res (of_out no_error) (x_cs_build i c w).
Proof.
  intros n d [b f] w Hd. unfold x_cs_build.
  pose proof (src_WhereClause_Conditions i (S4 (d + n)) w) as H1.
  pose proof (src_WhereClause_Render i n d w 0 Hd) as H2. change (Z.of_nat 0) with 0%Z in H2.
  pose proof (src_WhereClause_Values i (Datatypes.S n) d w Hd) as H3. rewrite <- plus_n_Sm in H3.
  pose proof (src_BaseSelectBuilder_RenderFrom i (S1 (d + n)) b w) as H4.
  bopen. bopen_in H1; bopen_in H2; bopen_in H3; bopen_in H4. enter; walk.
  all: built.
Qed.
Lemma src_SelectManyBuilder_RenderFrom : forall n m w,
  run i (S5 n) "SelectManyBuilder.RenderFrom" [of_msel m w] = Done (RStr "string" (m_render_from m)).
Proof.
  intros n [b o l os] w. pose proof (src_BaseSelectBuilder_RenderFrom i n b w) as H. unfold m_render_from. bopen. bopen_in H. enter; walk; reflexivity.
Qed.
Lemma src_SelectManyBuilder_FieldList : forall n m w,
  run i (S4 n) "SelectManyBuilder.FieldList" [of_msel m w] = Done (RStr "string" (m_field_list m)).
Proof. intros. unfold m_field_list. bopen. enter; walk; reflexivity. Qed.
Lemma src_SelectManyBuilder_Fields : forall n m w fs,
  run i (S3 n) "SelectManyBuilder.Fields" (of_msel m w :: fdefs fs) = Done (of_msel (m_set_fields m fs) w).
Proof.
  intros n [b o l os] w fs. pose proof (src_BaseSelectBuilder_Fields i n b w fs) as H. unfold m_set_fields. bopen. bopen_in H. enter; walk; reflexivity.
Qed.
Lemma src_SelectManyBuilder_FieldDefinitions : forall n m w,
  run i (S3 n) "SelectManyBuilder.FieldDefinitions" [of_msel m w] = Done (RSlice (fdefs (m_field_definitions m))).
Proof.
  intros n [b o l os] w. pose proof (src_BaseSelectBuilder_FieldDefinitions i n b w) as H. unfold m_field_definitions, b_field_definitions in *. bopen. bopen_in H. enter; walk; reflexivity.
Qed.
Lemma src_SelectManyBuilder_Where : forall n m w cs,
  run i (S11 n) "SelectManyBuilder.Where" (of_msel m w :: xvals cs) = of_res (of_msel m) (x_group_and i w cs).
Proof.
  intros n m w cs. pose proof (src_WhereClause_GroupAND i n w cs) as H.
  bopen. destruct (x_group_and i _ cs) as [[a b' c d]|]; bopen_in H; enter; walk; reflexivity.
Qed.
Lemma src_SelectManyBuilder_Update : forall n m w vs,
  run i (S11 n) "SelectManyBuilder.Update" (of_msel m w :: fvals vs) = of_res (fun v => v) (x_m_update i m w vs).
Proof.
  intros n m w vs. unfold x_m_update. set (p := TPName (t_name (b_table (m_base m)))).
  pose proof (src_BaseSelectBuilder_TableName i (S8 n) (m_base m) w) as H0. unfold b_table_name in H0.
  pose proof (src_Update i (S4 n) p) as H1. pose proof (src_WhereClause_Conditions i (S9 n) w) as H2.
  pose proof (src_UpdateBuilder_Where i n (update_ p) x_empty (xg_cs w)) as H3.
  pose proof (fun g => src_UpdateBuilder_Set i (S9 n) (update_ p) g vs) as H4.
  subst p. bopen. unfold x_empty, AND in H3. cbn [xg_cs] in H3. destruct (x_group_and i _ c0) as [[a b' c d]|]; cbn [bind of_res]; bopen_in H0; bopen_in H1; bopen_in H2; bopen_in H3.
  - pose proof (H4 (mkXG a b' c d)) as H5. clear H4. bopen_in H5. enter; walk; reflexivity.
  - clear H4. enter; walk; reflexivity.
Qed.
Lemma src_SelectManyBuilder_Delete : forall n m w,
  run i (S11 n) "SelectManyBuilder.Delete" [of_msel m w] = of_res (fun v => v) (x_m_delete i m w).
Proof.
  intros n m w. unfold x_m_delete. set (p := TPName (t_name (b_table (m_base m)))).
  pose proof (src_BaseSelectBuilder_TableName i (S8 n) (m_base m) w) as H0. unfold b_table_name in H0.
  pose proof (src_Delete i (S4 n) p) as H1. pose proof (src_WhereClause_Conditions i (S9 n) w) as H2.
  pose proof (src_DeleteBuilder_Where i n (delete_ p) x_empty (xg_cs w)) as H3.
  subst p. bopen. unfold x_empty, AND in H3. cbn [xg_cs] in H3. destruct (x_group_and i _ c0) as [[a b' c d]|]; cbn [bind of_res]; bopen_in H0; bopen_in H1; bopen_in H2; bopen_in H3;
  enter; walk; reflexivity.
Qed.
Lemma src_SelectManyBuilder_Count : forall n m w,
  run i (S5 n) "SelectManyBuilder.Count" [of_msel m w] = of_res (fun c => of_csel c w) (m_count m).
Proof.
  intros n m w. pose proof (src_Count i n (m_base m) w []) as H. unfold m_count in *. destruct (count (m_base m) []) as [[b' f]|];
  bopen; cbn [map of_res] in H; bopen_in H; enter; walk; reflexivity.
Qed.
Lemma src_SelectManyFrom : forall n p,
  run i (S8 n) "SelectManyFrom" [of_tparam p] = of_res (fun b => of_msel b x_empty) (select_many_from p).
Proof.
  intros n p. pose proof (src_SelectFrom i n p) as H. unfold select_many_from. destruct (select_from p) as [b|]; destruct p as [s|s|t]; bopen; bopen_in H;
  enter; walk; reflexivity.
Qed.
End Many.
