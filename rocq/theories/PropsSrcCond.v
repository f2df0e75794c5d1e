(** C100: the functions of the model are what the source text does.  SrcText.v has the text of
    the package, SrcParse.v reads it, SrcSem.v runs it; here every function of the model is said
    to give what a call of the corresponding function of the source gives. *)
From Coq Require Import String Ascii List Bool Arith NArith ZArith Lia.
From Verif Require Import GoStr StrFacts Value Names Cond SrcAst SrcSem SrcProg Surface Open SrcFacts SrcLoops SrcValues SrcConds SrcLeafRender SrcLeafSQL SrcGroups SrcAddGroup SrcAdding SrcAddingB SrcAddingC SrcTree SrcTreeRender SrcTreeSQL SrcMake SrcMethods SrcWhere SrcCalls.
Import ListNotations.
Local Open Scope string_scope.
Local Open Scope nat_scope.

(** base.go and the nine types of lib_*.go; field_name.go: the shorthands *)
Theorem C100_condition_types_from_source : forall S (i : impl S),
  (forall j b, calls i "BaseCondition.JoinType" [of_base j b] (Done (RStr "JoinType" j))) /\
  (forall j b y k, calls i "BaseCondition.Join" [of_base j b; RStr y k] (Done (of_base k b))) /\
  (forall j b c, calls i "BaseCondition.Negate" [of_base j b; RBool c] (Done (of_base j c))) /\
  (forall j b, calls i "BaseCondition.IsNegate" [of_base j b] (Done (RBool b))) /\
  (forall j b, calls i "BaseCondition.RenderNegate" [of_base j b] (Done (RStr "string" (render_negate b)))) /\
  (forall j b f, calls i "BaseCondition.RenderJoin" [of_base j b; RBool f] (Done (RStr "string" (render_join f j)))) /\
  (forall y j b, calls i "newBaseCondition" [RStr y j; RBool b] (Done (of_base j b))) /\
  (forall l, asks i (of_leaf l) "JoinType" [] (Done (RStr "JoinType" (l_join l)))) /\
  (forall l f, asks i (of_leaf l) "RenderJoin" [RBool f] (Done (RStr "string" (render_join f (l_join l))))) /\
  (forall l y k, asks i (of_leaf l) "Join" [RStr y k] (Done (of_leaf (mkLeaf (l_kind l) k (l_neg l) (l_def l) (l_val l))))) /\
  (forall l c, asks i (of_leaf l) "Negate" [RBool c] (Done (of_leaf (mkLeaf (l_kind l) (l_join l) c (l_def l) (l_val l))))) /\
  (forall l y t, asks i (of_leaf l) "ApplyFieldTable" [RStr y t] (Done (of_leaf (mkLeaf (l_kind l) (l_join l) (l_neg l) (set_table (l_def l) t) (l_val l))))) /\
  (forall l s, asks i (of_leaf l) "ApplyFieldSpec" [of_fdef s] (Done (of_leaf (mkLeaf (l_kind l) (l_join l) (l_neg l) (apply_spec (l_def l) s) (l_val l))))) /\
  (forall l, asks i (of_leaf l) "Values" [] (of_res (fun l => RSlice (gvals l)) (leaf_values l))) /\
  (forall l k, asks i (of_leaf l) "Render" [RInt "int" (Z.of_nat k)] (of_res (RStr "string") (leaf_render l k))) /\
  (forall l, asks i (of_leaf l) "RenderSQL" [] (of_res (RStr "string") (leaf_render_sql l))) /\
  (forall t s v, calls i "EqualTo" [RStr t s; of_gval v] (of_res of_cond (equal_to s v))) /\
  (forall t s v, calls i "GreaterThan" [RStr t s; of_gval v] (of_res of_cond (greater_than s v))) /\
  (forall t s v, calls i "GreaterOrEqual" [RStr t s; of_gval v] (of_res of_cond (greater_or_equal s v))) /\
  (forall t s v, calls i "Less" [RStr t s; of_gval v] (of_res of_cond (less_ s v))) /\
  (forall t s v, calls i "LessOrEqual" [RStr t s; of_gval v] (of_res of_cond (less_or_equal s v))) /\
  (forall t s v, calls i "In" [RStr t s; of_gval v] (of_res of_cond (in_ s v))) /\
  (forall t s v, calls i "Contains" [RStr t s; RStr "string" v] (of_res of_cond (contains_ s v))) /\
  (forall t s v, calls i "IContains" [RStr t s; RStr "string" v] (of_res of_cond (icontains_ s v))) /\
  (forall t s, calls i "IsNull" [RStr t s] (of_res of_cond (is_null s))) /\
  (forall s v, calls i "FieldName.EqualTo" [RStr "FieldName" s; of_gval v] (of_res of_cond (fn_equal_to s v))) /\
  (forall s v, calls i "FieldName.In" [RStr "FieldName" s; of_gval v] (of_res of_cond (fn_in s v))) /\
  (forall s v, calls i "FieldName.Contains" [RStr "FieldName" s; RStr "string" v] (of_res of_cond (fn_contains s v))) /\
  (forall s v, calls i "FieldName.IContains" [RStr "FieldName" s; RStr "string" v] (of_res of_cond (fn_icontains s v))) /\
  (forall s, calls i "FieldName.IsNull" [RStr "FieldName" s] (of_res of_cond (fn_is_null s))) /\
  (forall l cs, library (l_kind l) -> asks i (of_leaf l) "And" (xvals cs) (of_res of_x (x_leaf_and i l cs))) /\
  (forall l cs, library (l_kind l) -> asks i (of_leaf l) "Or" (xvals cs) (of_res of_x (x_leaf_or i l cs))).
Proof.
  intros S i. repeat match goal with |- _ /\ _ => split end.
  - intros j b. exact (calls_at i 1 _ _ _ (fun n => src_BaseCondition_JoinType i n j b )).
  - intros j b y k. exact (calls_at i 1 _ _ _ (fun n => src_BaseCondition_Join i n j b y k )).
  - intros j b c. exact (calls_at i 1 _ _ _ (fun n => src_BaseCondition_Negate i n j b c )).
  - intros j b. exact (calls_at i 1 _ _ _ (fun n => src_BaseCondition_IsNegate i n j b )).
  - intros j b. exact (calls_at i 1 _ _ _ (fun n => src_BaseCondition_RenderNegate i n j b )).
  - intros j b f. exact (calls_at i 1 _ _ _ (fun n => src_BaseCondition_RenderJoin i n j b f )).
  - intros y j b. exact (calls_at i 1 _ _ _ (fun n => src_newBaseCondition i n y j b )).
  - intros l. exact (asks_at i 1 _ _ _ _ (fun n => leaf_JoinType i n l )).
  - intros l f. exact (asks_at i 1 _ _ _ _ (fun n => leaf_RenderJoin i n l f )).
  - intros l y k. exact (asks_at i 2 _ _ _ _ (fun n => leaf_Join i n l y k )).
  - intros l c. exact (asks_at i 2 _ _ _ _ (fun n => leaf_Negate i n l c )).
  - intros l y t. exact (asks_at i 4 _ _ _ _ (fun n => leaf_ApplyFieldTable i n l y t )).
  - intros l s. exact (asks_at i 4 _ _ _ _ (fun n => leaf_ApplyFieldSpec i n l s )).
  - intros l. exact (asks_at i 3 _ _ _ _ (fun n => leaf_Values i n l )).
  - intros l k. exact (asks_at i 4 _ _ _ _ (fun n => leaf_Render i n l k )).
  - intros l. exact (asks_at i 4 _ _ _ _ (fun n => leaf_RenderSQL i n l )).
  - intros t s v. exact (calls_at i 5 _ _ _ (fun n => src_EqualTo i n t s v )).
  - intros t s v. exact (calls_at i 5 _ _ _ (fun n => src_GreaterThan i n t s v )).
  - intros t s v. exact (calls_at i 5 _ _ _ (fun n => src_GreaterOrEqual i n t s v )).
  - intros t s v. exact (calls_at i 5 _ _ _ (fun n => src_Less i n t s v )).
  - intros t s v. exact (calls_at i 5 _ _ _ (fun n => src_LessOrEqual i n t s v )).
  - intros t s v. exact (calls_at i 5 _ _ _ (fun n => src_In i n t s v )).
  - intros t s v. exact (calls_at i 5 _ _ _ (fun n => src_Contains i n t s v )).
  - intros t s v. exact (calls_at i 5 _ _ _ (fun n => src_IContains i n t s v )).
  - intros t s. exact (calls_at i 5 _ _ _ (fun n => src_IsNull i n t s )).
  - intros s v. exact (calls_at i 6 _ _ _ (fun n => src_FieldName_EqualTo i n s v )).
  - intros s v. exact (calls_at i 6 _ _ _ (fun n => src_FieldName_In i n s v )).
  - intros s v. exact (calls_at i 6 _ _ _ (fun n => src_FieldName_Contains i n s v )).
  - intros s v. exact (calls_at i 6 _ _ _ (fun n => src_FieldName_IContains i n s v )).
  - intros s. exact (calls_at i 6 _ _ _ (fun n => src_FieldName_IsNull i n s )).
  - intros l cs H0. exact (asks_at i 12 _ _ _ _ (fun n => leaf_And i n l cs H0)).
  - intros l cs H0. exact (asks_at i 12 _ _ _ _ (fun n => leaf_Or i n l cs H0)).
Qed.

(** group.go, logical.go, operations.go, and the methods of whatever condition stands in a group *)
Theorem C100_groups_from_source : forall S (i : impl S),
  (forall c, asks i (of_x c) "JoinType" [] (of_res (RStr "JoinType") (x_jtype i c))) /\
  (forall c f, asks i (of_x c) "RenderJoin" [RBool f] (of_res (RStr "string") (x_render_join i f c))) /\
  (forall j b cs br y k, calls i "Group.Join" [of_group (mkXG j b cs br); RStr y k] (Done (of_group (mkXG k b cs br)))) /\
  (forall j b cs br k, calls i "Group.Negate" [of_group (mkXG j b cs br); RBool k] (Done (of_group (mkXG j k cs br)))) /\
  (forall g, calls i "Group.WithBrackets" [of_group g] (Done (of_group (x_brackets g)))) /\
  (forall g, calls i "Group.FieldName" [of_group g] (Done (RStr "FieldName" ""))) /\
  (forall c y j, asks i (of_x c) "Join" [RStr y j] (of_res of_x (x_join i j c))) /\
  (forall c b, asks i (of_x c) "Negate" [RBool b] (of_res of_x (x_negate i b c))) /\
  (forall c, calls i "Not" [of_x c] (of_res of_x (x_not i c))) /\
  (forall y j cs, calls i "JoinType.SetToAll" (RStr y j :: xvals cs) (of_res (fun l => RSlice (xvals l)) (mapM (x_join i j) cs))) /\
  (forall y j cs, calls i "NewGroup" (RStr y j :: xvals cs) (of_res of_group (x_new_group i j cs))) /\
  (forall y j cs, calls i "JoinType.Join" (RStr y j :: xvals cs) (of_res of_x (x_jt_join i j cs))) /\
  (forall g y j, calls i "Group.hasAll" [of_group g; RStr y j] (of_res RBool (x_has_all i g j))) /\
  (forall g y j, calls i "Group.hasOne" [of_group g; RStr y j] (of_res RBool (x_has_one i g j))) /\
  (forall g h, calls i "Group.addGroup" [of_group g; of_group h] (of_res of_group (x_add_group i g h))) /\
  (forall g c, calls i "Group.addSingleCondition" [of_group g; of_x c] (of_res of_group (x_add_single i g c))) /\
  (forall g y op cs, calls i "Group.addConditions" (of_group g :: RStr y op :: xvals cs) (of_res of_group (x_add_conditions i op g cs))) /\
  (forall g cs, calls i "Group.GroupAND" (of_group g :: xvals cs) (of_res of_group (x_group_and i g cs))) /\
  (forall g cs, calls i "Group.GroupOR" (of_group g :: xvals cs) (of_res of_group (x_group_or i g cs))) /\
  (forall g cs, calls i "Group.And" (of_group g :: xvals cs) (of_res of_group (x_group_and i g cs))) /\
  (forall g cs, calls i "Group.Or" (of_group g :: xvals cs) (of_res of_group (x_group_or i g cs))) /\
  (forall c cs, calls i "And" (of_x c :: xvals cs) (of_res of_x (x_and i c cs))) /\
  (forall c cs, calls i "Or" (of_x c :: xvals cs) (of_res of_x (x_or i c cs))) /\
  (forall c, asks i (of_x c) "Values" [] (of_res (fun l => RSlice (gvals l)) (x_values i c))) /\
  (forall s c, asks i (of_x c) "ApplyFieldSpec" [of_fdef s] (of_res of_x (x_apply_spec i s c))) /\
  (forall t c y, asks i (of_x c) "ApplyFieldTable" [RStr y t] (of_res of_x (x_apply_table i t c))) /\
  (forall c k, asks i (of_x c) "Render" [RInt "int" (Z.of_nat k)] (of_res (RStr "string") (x_render i c k))) /\
  (forall c, asks i (of_x c) "RenderSQL" [] (of_res (RStr "string") (x_render_sql i c))).
Proof.
  intros S i. repeat match goal with |- _ /\ _ => split end.
  - intros c. exact (asks_at i 1 _ _ _ _ (fun n => x_JoinType i n c )).
  - intros c f. exact (asks_at i 1 _ _ _ _ (fun n => x_RenderJoin i n c f )).
  - intros j b cs br y k. exact (calls_at i 2 _ _ _ (fun n => src_Group_Join i n j b cs br y k )).
  - intros j b cs br k. exact (calls_at i 2 _ _ _ (fun n => src_Group_Negate i n j b cs br k )).
  - intros g. exact (calls_at i 1 _ _ _ (fun n => src_Group_WithBrackets i n g )).
  - intros g. exact (calls_at i 1 _ _ _ (fun n => src_Group_FieldName i n g )).
  - intros c y j. exact (asks_at i 2 _ _ _ _ (fun n => x_Join i n c y j )).
  - intros c b. exact (asks_at i 2 _ _ _ _ (fun n => x_Negate i n c b )).
  - intros c. exact (calls_at i 3 _ _ _ (fun n => src_Not i n c )).
  - intros y j cs. exact (calls_at i 4 _ _ _ (fun n => src_JoinType_SetToAll i n y j cs )).
  - intros y j cs. exact (calls_at i 5 _ _ _ (fun n => src_NewGroup i n y j cs )).
  - intros y j cs. exact (calls_at i 6 _ _ _ (fun n => src_JoinType_Join i n y j cs )).
  - intros g y j. exact (calls_at i 2 _ _ _ (fun n => src_Group_hasAll i n g y j )).
  - intros g y j. exact (calls_at i 2 _ _ _ (fun n => src_Group_hasOne i n g y j )).
  - intros g h. exact (calls_at i 6 _ _ _ (fun n => src_Group_addGroup i n g h )).
  - intros g c. exact (calls_at i 7 _ _ _ (fun n => src_Group_addSingleCondition i n g c )).
  - intros g y op cs. exact (calls_at i 8 _ _ _ (fun n => src_Group_addConditions i n g y op cs )).
  - intros g cs. exact (calls_at i 9 _ _ _ (fun n => src_Group_GroupAND i n g cs )).
  - intros g cs. exact (calls_at i 9 _ _ _ (fun n => src_Group_GroupOR i n g cs )).
  - intros g cs. exact (calls_at i 10 _ _ _ (fun n => src_Group_And i n g cs )).
  - intros g cs. exact (calls_at i 10 _ _ _ (fun n => src_Group_Or i n g cs )).
  - intros c cs. exact (calls_at i 11 _ _ _ (fun n => src_And i n c cs )).
  - intros c cs. exact (calls_at i 11 _ _ _ (fun n => src_Or i n c cs )).
  - intros c. exact (asks_at i (3 + deep c) _ _ _ _ (fun n => x_Values i (deep c) c n (le_n _))).
  - intros s c. exact (asks_at i (4 + deep c) _ _ _ _ (fun n => x_ApplyFieldSpec i s (deep c) c n (le_n _))).
  - intros t c y. exact (asks_at i (4 + deep c) _ _ _ _ (fun n => x_ApplyFieldTable i t (deep c) c n y (le_n _))).
  - intros c k. exact (asks_at i (4 + deep c) _ _ _ _ (fun n => x_Render i (deep c) c n k (le_n _))).
  - intros c. exact (asks_at i (4 + deep c) _ _ _ _ (fun n => x_RenderSQL i (deep c) c n (le_n _))).
Qed.

(** where.go *)
Theorem C100_where_from_source : forall S (i : impl S),
  (forall g cs, calls i "WhereClause.GroupAND" (of_where g :: xvals cs) (of_res of_where (x_group_and i g cs))) /\
  (forall g cs, calls i "WhereClause.GroupOR" (of_where g :: xvals cs) (of_res of_where (x_group_or i g cs))) /\
  (forall g s, calls i "WhereClause.ApplyFieldSpec" [of_where g; of_fdef s] (of_res of_where (x_w_spec i g s))) /\
  (forall g k, calls i "WhereClause.Render" [of_where g; RInt "int" (Z.of_nat k)] (of_res (RStr "string") (x_render i (of_xg g) k))) /\
  (forall g, calls i "WhereClause.RenderSQL" [of_where g] (of_res (RStr "string") (x_render_sql i (of_xg g)))) /\
  (forall g, calls i "WhereClause.Values" [of_where g] (of_res (fun l => RSlice (gvals l)) (x_values i (of_xg g)))) /\
  (forall g, calls i "WhereClause.String" [of_where g] (of_res (RStr "string") (do s <- x_render_sql i (of_xg g); Ok ("Where(" ++ s ++ ")")))) /\
  (forall g, calls i "WhereClause.Conditions" [of_where g] (Done (RSlice (xvals (xg_cs g))))) /\
  (calls i "NewWhere" [] (Done (of_where x_empty))).
Proof.
  intros S i. repeat match goal with |- _ /\ _ => split end.
  - intros g cs. exact (calls_at i 10 _ _ _ (fun n => src_WhereClause_GroupAND i n g cs )).
  - intros g cs. exact (calls_at i 10 _ _ _ (fun n => src_WhereClause_GroupOR i n g cs )).
  - intros g s. exact (calls_at i (5 + deep (of_xg g)) _ _ _ (fun n => src_WhereClause_ApplyFieldSpec i n (deep (of_xg g)) g s (le_n _))).
  - intros g k. exact (calls_at i (5 + deep (of_xg g)) _ _ _ (fun n => src_WhereClause_Render i n (deep (of_xg g)) g k (le_n _))).
  - intros g. exact (calls_at i (5 + deep (of_xg g)) _ _ _ (fun n => src_WhereClause_RenderSQL i n (deep (of_xg g)) g (le_n _))).
  - intros g. exact (calls_at i (4 + deep (of_xg g)) _ _ _ (fun n => src_WhereClause_Values i n (deep (of_xg g)) g (le_n _))).
  - intros g. exact (calls_at i (5 + deep (of_xg g)) _ _ _ (fun n => src_WhereClause_String i n (deep (of_xg g)) g (le_n _))).
  - intros g. exact (calls_at i 1 _ _ _ (fun n => src_WhereClause_Conditions i n g )).
  - exact (calls_at i 6 _ _ _ (fun n => src_NewWhere i n )).
Qed.

Definition conditions_from_source := (@C100_condition_types_from_source, @C100_groups_from_source, @C100_where_from_source).
(** Its assumptions are printed in PropsSrcResults.v. *)

(** The hypotheses-free statements above are about concrete runs such as these. *)
Definition nobody : impl Empty_set := mkImpl Empty_set
  (fun o => match o with end) (fun o => match o with end) (fun o => match o with end) (fun o => match o with end)
  (fun o => match o with end) (fun o => match o with end) (fun o => match o with end) (fun o => match o with end) (fun o => match o with end).
Definition and_then {A B} (r : rr A) (f : A -> rr B) : rr B :=
  match r with Done a => f a | Halt => Halt | Wrong => Wrong | Spent => Spent end.
Example from_source_tree :
  and_then (run nobody 20 "EqualTo" [RStr "FieldName" "a"; of_gval (VOther 1)]) (fun a =>
  and_then (run nobody 20 "Contains" [RStr "FieldName" "b"; RStr "string" "x"]) (fun b =>
  and_then (run nobody 20 "IsNull" [RStr "FieldName" "c"]) (fun c =>
  and_then (run nobody 20 "Or" [a; b]) (fun ab =>
  and_then (run nobody 20 "And" [ab; c]) (fun g =>
  mcall nobody (run nobody 20) g "Render" [RInt "int" 0])))))
  = Done (RStr "string" "(a=$1 OR b LIKE $2) AND c IS NULL").
Proof. vm_compute. reflexivity. Qed.
Example from_source_null_or :
  and_then (run nobody 20 "IsNull" [RStr "FieldName" "c"]) (fun c => mcall nobody (run nobody 20) c "Or" [c]) = Halt.
Proof. vm_compute. reflexivity. Qed.
Example from_source_where :
  and_then (run nobody 20 "NewWhere" []) (fun w =>
  and_then (run nobody 20 "EqualTo" [RStr "FieldName" "a"; of_gval (VOther 1)]) (fun a =>
  and_then (run nobody 20 "WhereClause.GroupAND" [w; a; a]) (fun w' =>
  run nobody 20 "WhereClause.String" [w']))) = Done (RStr "string" "Where(a=? AND a=?)").
Proof. vm_compute. reflexivity. Qed.
