(** C100: the functions of the model are what the source text does.  SrcText.v has the text of
    the package, SrcParse.v reads it, SrcSem.v runs it; here every function of the model is said
    to give what a call of the corresponding function of the source gives. *)
From Coq Require Import String Ascii List Bool Arith NArith ZArith Lia.
From Verif Require Import GoStr StrFacts Value Names Cond SrcAst SrcSem SrcProg Surface Open SrcFacts SrcNames SrcNamesB SrcNamesC SrcLoops SrcValues SrcCalls.
Import ListNotations.
Local Open Scope string_scope.
Local Open Scope nat_scope.

(** field_name.go, field_definition.go, value.go *)
Theorem C100_fields_from_source : forall S (i : impl S),
  (forall t s, calls i "FieldName.String" [RStr t s] (Done (RStr "string" s))) /\
  (forall d, calls i "FieldDefinition.FieldName" [of_fdef d] (Done (RStr "FieldName" (f_name d)))) /\
  (forall d, calls i "FieldDefinition.Alias" [of_fdef d] (Done (RStr "FieldName" (f_alias d)))) /\
  (forall d, calls i "FieldDefinition.TableName" [of_fdef d] (Done (RStr "TableName" (f_table d)))) /\
  (forall d t a, calls i "FieldDefinition.As" [of_fdef d; RStr t a] (Done (of_fdef (f_as d a)))) /\
  (forall d t a, calls i "FieldDefinition.Of" [of_fdef d; RStr t a] (Done (of_fdef (f_of d a)))) /\
  (forall d, calls i "FieldDefinition.RenderSpec" [of_fdef d] (Done (RStr "string" (render_spec d)))) /\
  (forall d, calls i "FieldDefinition.RenderField" [of_fdef d] (Done (RStr "string" (render_field d)))) /\
  (forall d, calls i "FieldDefinition.RenderTableSpec" [of_fdef d] (Done (RStr "string" (render_table_spec d)))) /\
  (forall p, exists k, forall n, k <= n -> exists e, run i n "FieldOrError" [of_fparam p] = Done (RTuple match field_or_error p with | Some d => [of_fdef d; RNil] | None => [RNil; RRefl "error" e] end)) /\
  (forall p, calls i "mustField" [of_fparam p] (of_res of_fdef (field_p p))) /\
  (forall p, calls i "Field" [of_fparam p] (of_res of_fdef (field_p p))) /\
  (forall d, calls i "FieldDefinition.TableFieldName" [of_fdef d] (Done (RStr "FieldName" (render_table_spec d)))) /\
  (forall s, calls i "FieldName.Field" [RStr "FieldName" s] (of_res of_fdef (field s))) /\
  (forall s, calls i "FieldName.Validate" [RStr "FieldName" s] (Done (of_err (validate s)))) /\
  (forall t s g, calls i "NewFieldValue" [RStr t s; of_gval g] (of_res of_fvalue (new_field_value s g))) /\
  (forall v t s, calls i "FieldValue.ApplyFieldTable" [of_fvalue v; RStr t s] (Done (of_fvalue (mkFV (set_table (fv_def v) s) (fv_val v))))) /\
  (forall v d, calls i "FieldValue.ApplyFieldSpec" [of_fvalue v; of_fdef d] (Done (of_fvalue (mkFV (apply_spec (fv_def v) d) (fv_val v))))) /\
  (forall d g, calls i "FieldDefinition.Value" [of_fdef d; of_gval g] (of_res of_fvalue (f_value d g))) /\
  (forall s g, calls i "FieldName.Value" [RStr "FieldName" s; of_gval g] (of_res of_fvalue (fn_value s g))).
Proof.
  intros S i. repeat match goal with |- _ /\ _ => split end.
  - intros t s. exact (calls_at i 1 _ _ _ (fun n => src_FieldName_String i n t s )).
  - intros d. exact (calls_at i 1 _ _ _ (fun n => src_FieldDefinition_FieldName i n d )).
  - intros d. exact (calls_at i 1 _ _ _ (fun n => src_FieldDefinition_Alias i n d )).
  - intros d. exact (calls_at i 1 _ _ _ (fun n => src_FieldDefinition_TableName i n d )).
  - intros d t a. exact (calls_at i 1 _ _ _ (fun n => src_FieldDefinition_As i n d t a )).
  - intros d t a. exact (calls_at i 1 _ _ _ (fun n => src_FieldDefinition_Of i n d t a )).
  - intros d. exact (calls_at i 2 _ _ _ (fun n => src_FieldDefinition_RenderSpec i n d )).
  - intros d. exact (calls_at i 1 _ _ _ (fun n => src_FieldDefinition_RenderField i n d )).
  - intros d. exact (calls_at i 1 _ _ _ (fun n => src_FieldDefinition_RenderTableSpec i n d )).
  - intros p. exists 1. intros n Hn. destruct (from_enough 1 n Hn) as [m ->]. exact (src_FieldOrError i m p).
  - intros p. exact (calls_at i 2 _ _ _ (fun n => src_mustField i n p )).
  - intros p. exact (calls_at i 3 _ _ _ (fun n => src_Field i n p )).
  - intros d. exact (calls_at i 2 _ _ _ (fun n => src_FieldDefinition_TableFieldName i n d )).
  - intros s. exact (calls_at i 4 _ _ _ (fun n => src_FieldName_Field i n s )).
  - intros s. exact (calls_at i 1 _ _ _ (fun n => src_FieldName_Validate i n s )).
  - intros t s g. exact (calls_at i 4 _ _ _ (fun n => src_NewFieldValue i n t s g )).
  - intros v t s. exact (calls_at i 1 _ _ _ (fun n => src_FieldValue_ApplyFieldTable i n v t s )).
  - intros v d. exact (calls_at i 1 _ _ _ (fun n => src_FieldValue_ApplyFieldSpec i n v d )).
  - intros d g. exact (calls_at i 5 _ _ _ (fun n => src_FieldDefinition_Value i n d g )).
  - intros s g. exact (calls_at i 5 _ _ _ (fun n => src_FieldName_Value i n s g )).
Qed.

(** table_name.go, table_ident.go, keywords.go and the String methods of the other named strings *)
Theorem C100_tables_from_source : forall S (i : impl S),
  (forall t s, calls i "SQLKeyWord.String" [RStr t s] (Done (RStr "string" s))) /\
  (forall t s, calls i "TableName.String" [RStr t s] (Done (RStr "string" s))) /\
  (forall t s, calls i "TableName.RenderFrom" [RStr t s] (Done (RStr "string" s))) /\
  (forall t s, calls i "SortDirection.String" [RStr t s] (Done (RStr "string" s))) /\
  (forall t s, calls i "JoinType.String" [RStr t s] (Done (RStr "string" s))) /\
  (forall p, exists k, forall n, k <= n -> exists e, run i n "TableOrError" [of_tparam p] = Done (RTuple match table_or_error p with | Some d => [of_tident d; RNil] | None => [RNil; RRefl "error" e] end)) /\
  (forall p, calls i "Table" [of_tparam p] (of_res of_tident (table_p p))) /\
  (forall s, calls i "TableName.Ident" [RStr "TableName" s] (of_res of_tident (table s))) /\
  (forall t, calls i "TableIdent.TableName" [of_tident t] (Done (RStr "TableName" (t_name t)))) /\
  (forall t, calls i "TableIdent.Alias" [of_tident t] (Done (RStr "TableName" (t_alias t)))) /\
  (forall t, calls i "TableIdent.RenderFrom" [of_tident t] (Done (RStr "string" (t_render t)))) /\
  (forall t y s, calls i "TableIdent.As" [of_tident t; RStr y s] (Done (of_tident (t_as t s)))) /\
  (forall t, calls i "TableIdent.aliasOrName" [of_tident t] (Done (RStr "string" (alias_or_name t)))) /\
  (forall t s, calls i "TableIdent.Field" [of_tident t; RStr "FieldName" s] (of_res of_fdef (t_field t s))) /\
  (forall t s, calls i "TableName.Field" [RStr "TableName" t; RStr "FieldName" s] (of_res of_fdef (tn_field t s))).
Proof.
  intros S i. repeat match goal with |- _ /\ _ => split end.
  - intros t s. exact (calls_at i 1 _ _ _ (fun n => src_SQLKeyWord_String i n t s )).
  - intros t s. exact (calls_at i 1 _ _ _ (fun n => src_TableName_String i n t s )).
  - intros t s. exact (calls_at i 1 _ _ _ (fun n => src_TableName_RenderFrom i n t s )).
  - intros t s. exact (calls_at i 1 _ _ _ (fun n => src_SortDirection_String i n t s )).
  - intros t s. exact (calls_at i 1 _ _ _ (fun n => src_JoinType_String i n t s )).
  - intros p. exists 1. intros n Hn. destruct (from_enough 1 n Hn) as [m ->]. exact (src_TableOrError i m p).
  - intros p. exact (calls_at i 2 _ _ _ (fun n => src_Table i n p )).
  - intros s. exact (calls_at i 3 _ _ _ (fun n => src_TableName_Ident i n s )).
  - intros t. exact (calls_at i 1 _ _ _ (fun n => src_TableIdent_TableName i n t )).
  - intros t. exact (calls_at i 1 _ _ _ (fun n => src_TableIdent_Alias i n t )).
  - intros t. exact (calls_at i 1 _ _ _ (fun n => src_TableIdent_RenderFrom i n t )).
  - intros t y s. exact (calls_at i 1 _ _ _ (fun n => src_TableIdent_As i n t y s )).
  - intros t. exact (calls_at i 1 _ _ _ (fun n => src_TableIdent_aliasOrName i n t )).
  - intros t s. exact (calls_at i 4 _ _ _ (fun n => src_TableIdent_Field i n t s )).
  - intros t s. exact (calls_at i 4 _ _ _ (fun n => src_TableName_Field i n t s )).
Qed.

(** ordering.go, join_condition.go, join_tables.go, join_type.go, op_type.go, build_base.go, limiter.go *)
Theorem C100_sorting_joins_pages_from_source : forall S (i : impl S),
  (forall o, calls i "FieldSorting.Direction" [of_fsort o] (Done (RStr "SortDirection" (s_dir o)))) /\
  (forall o, calls i "FieldSorting.Render" [of_fsort o] (Done (RStr "string" (s_render o)))) /\
  (forall o d, calls i "FieldSorting.ApplyFieldSpec" [of_fsort o; of_fdef d] (Done (of_fsort (s_apply_spec o d)))) /\
  (forall o t s, calls i "FieldSorting.applyFieldTable" [of_fsort o; RStr t s] (Done (of_fsort (s_apply_table o s)))) /\
  (forall t s, calls i "ASC" [RStr t s] (of_res of_fsort (asc s))) /\
  (forall t s, calls i "DESC" [RStr t s] (of_res of_fsort (desc s))) /\
  (forall t s ds, calls i "OrderBy" (RStr t s :: map (RStr "SortDirection") ds) (of_res of_fsort (order_by s ds))) /\
  (forall l r, calls i "JoinFields" [of_fdef l; of_fdef r] (Done (of_jcond (mkJC l r)))) /\
  (forall c t j, calls i "JoinCondition.Using" [of_jcond c; RInt t j] (of_res of_joiner (jt_by j (jc_left c) (jc_right c)))) /\
  (forall c, calls i "JoinCondition.Render" [of_jcond c] (Done (RStr "string" (jc_render c)))) /\
  (forall j, calls i "TableJoiner.JoinCondition" [of_joiner j] (Done (of_jcond (j_cond j)))) /\
  (forall j, calls i "TableJoiner.JoinType" [of_joiner j] (Done (RInt "TableJoinType" (j_type j)))) /\
  (forall j l r, calls i "TableJoiner.By" [of_joiner j; of_fdef l; of_fdef r] (Done (of_joiner (j_by j l r)))) /\
  (forall t j, calls i "TableJoinType.String" [RInt t j] (Done (RStr "string" (jt_string j)))) /\
  (forall j, calls i "TableJoiner.RenderFrom" [of_joiner j] (Done (RStr "string" (j_render j)))) /\
  (forall t y j c, calls i "NewTableJoiner" [of_tident t; RInt y j; of_jcond c] (Done (of_joiner (mkJ t j c)))) /\
  (forall c, calls i "JoinCondition.InnerJoin" [of_jcond c] (of_res of_joiner (jt_by InnerJoin (jc_left c) (jc_right c)))) /\
  (forall c, calls i "JoinCondition.LeftJoin" [of_jcond c] (of_res of_joiner (jt_by LeftJoin (jc_left c) (jc_right c)))) /\
  (forall c, calls i "JoinCondition.RightJoin" [of_jcond c] (of_res of_joiner (jt_by RightJoin (jc_left c) (jc_right c)))) /\
  (forall c, calls i "JoinCondition.FullJoin" [of_jcond c] (of_res of_joiner (jt_by FullJoin (jc_left c) (jc_right c)))) /\
  (forall t j l r, calls i "TableJoinType.By" [RInt t j; of_fdef l; of_fdef r] (of_res of_joiner (jt_by j l r))) /\
  (forall t o, calls i "Operation.String" [RInt t o] (Done (RStr "string" (op_string o)))) /\
  (forall t o, calls i "Operation.New" [RInt t o] (Done (RStruct "BaseBuilder" [("op", RInt "Operation" o)]))) /\
  (forall o, calls i "BaseBuilder.Operation" [RStruct "BaseBuilder" [("op", RInt "Operation" o)]] (Done (RInt "Operation" o))) /\
  (forall q o, calls i "Limiter.Offset" [of_limiter q; RInt "uint" (Z.of_N o)] (Done (of_limiter (lim_set_offset q o)))) /\
  (forall q o, calls i "Limiter.Limit" [of_limiter q; RInt "uint" (Z.of_N o)] (Done (of_limiter (lim_set_limit q o)))) /\
  (forall q k, calls i "Limiter.Render" [of_limiter q; RInt "int" (Z.of_nat k)] (Done (RStr "string" (lim_render q k)))) /\
  (forall q, calls i "Limiter.RenderSQL" [of_limiter q] (Done (RStr "string" (lim_render_sql q)))) /\
  (forall q, calls i "Limiter.Values" [of_limiter q] (Done (RSlice (map of_gval (lim_values q))))).
Proof.
  intros S i. repeat match goal with |- _ /\ _ => split end.
  - intros o. exact (calls_at i 1 _ _ _ (fun n => src_FieldSorting_Direction i n o )).
  - intros o. exact (calls_at i 2 _ _ _ (fun n => src_FieldSorting_Render i n o )).
  - intros o d. exact (calls_at i 1 _ _ _ (fun n => src_FieldSorting_ApplyFieldSpec i n o d )).
  - intros o t s. exact (calls_at i 1 _ _ _ (fun n => src_FieldSorting_applyFieldTable i n o t s )).
  - intros t s. exact (calls_at i 4 _ _ _ (fun n => src_ASC i n t s )).
  - intros t s. exact (calls_at i 4 _ _ _ (fun n => src_DESC i n t s )).
  - intros t s ds. exact (calls_at i 5 _ _ _ (fun n => src_OrderBy i n t s ds )).
  - intros l r. exact (calls_at i 1 _ _ _ (fun n => src_JoinFields i n l r )).
  - intros c t j. exact (calls_at i 3 _ _ _ (fun n => src_JoinCondition_Using i n c t j )).
  - intros c. exact (calls_at i 2 _ _ _ (fun n => src_JoinCondition_Render i n c )).
  - intros j. exact (calls_at i 1 _ _ _ (fun n => src_TableJoiner_JoinCondition i n j )).
  - intros j. exact (calls_at i 1 _ _ _ (fun n => src_TableJoiner_JoinType i n j )).
  - intros j l r. exact (calls_at i 2 _ _ _ (fun n => src_TableJoiner_By i n j l r )).
  - intros t j. exact (calls_at i 1 _ _ _ (fun n => src_TableJoinType_String i n t j )).
  - intros j. exact (calls_at i 3 _ _ _ (fun n => src_TableJoiner_RenderFrom i n j )).
  - intros t y j c. exact (calls_at i 1 _ _ _ (fun n => src_NewTableJoiner i n t y j c )).
  - intros c. exact (calls_at i 4 _ _ _ (fun n => proj1 (src_JoinCondition_joins i n c))).
  - intros c. exact (calls_at i 4 _ _ _ (fun n => proj1 (proj2 (src_JoinCondition_joins i n c)))).
  - intros c. exact (calls_at i 4 _ _ _ (fun n => proj1 (proj2 (proj2 (src_JoinCondition_joins i n c))))).
  - intros c. exact (calls_at i 4 _ _ _ (fun n => proj2 (proj2 (proj2 (src_JoinCondition_joins i n c))))).
  - intros t j l r. exact (calls_at i 4 _ _ _ (fun n => src_TableJoinType_By i n t j l r )).
  - intros t o. exact (calls_at i 2 _ _ _ (fun n => src_Operation_String i n t o )).
  - intros t o. exact (calls_at i 1 _ _ _ (fun n => src_Operation_New i n t o )).
  - intros o. exact (calls_at i 1 _ _ _ (fun n => src_BaseBuilder_Operation i n o )).
  - intros q o. exact (calls_at i 1 _ _ _ (fun n => src_Limiter_Offset i n q o )).
  - intros q o. exact (calls_at i 1 _ _ _ (fun n => src_Limiter_Limit i n q o )).
  - intros q k. exact (calls_at i 1 _ _ _ (fun n => src_Limiter_Render i n q k )).
  - intros q. exact (calls_at i 1 _ _ _ (fun n => src_Limiter_RenderSQL i n q )).
  - intros q. exact (calls_at i 1 _ _ _ (fun n => src_Limiter_Values i n q )).
Qed.

(** fields.go, utils.go, values_map.go and FieldValue.Values *)
Theorem C100_lists_from_source : forall S (i : impl S),
  (forall l, calls i "Fields.Len" [of_fields l] (Done (RInt "int" (Z.of_nat (length l))))) /\
  (forall l, calls i "Fields.FieldList" [of_fields l] (Done (RStr "string" (field_list l)))) /\
  (forall l, calls i "Fields.String" [of_fields l] (Done (RStr "string" (fs_string l)))) /\
  (forall l fs, calls i "Fields.Fields" (of_fields l :: fdefs fs) (Done (of_fields fs))) /\
  (forall l, calls i "Fields.FieldDefinitions" [of_fields l] (Done (RSlice (fdefs l)))) /\
  (forall l, calls i "NewFields" (map of_arg l) (of_res of_fields (new_fields l))) /\
  (forall v, calls i "FieldValue.Values" [of_fvalue v] (of_res (fun l => RSlice (gvals l)) (fv_values (fv_val v)))) /\
  (forall l, calls i "UniqFieldNames" [RSlice (map (RStr "FieldName") l)] (Done (RSlice (map (RStr "FieldName") (uniq_field_names l))))) /\
  (forall m, calls i "ValuesMap.FieldValues" [of_map m] (of_res (fun o => match o with | Some l => RTuple [RSlice (fvals l); RNil] | None => RTuple [RSlice []; map_err m] end) (map_field_values m))).
Proof.
  intros S i. repeat match goal with |- _ /\ _ => split end.
  - intros l. exact (calls_at i 1 _ _ _ (fun n => src_Fields_Len i n l )).
  - intros l. exact (calls_at i 3 _ _ _ (fun n => src_Fields_FieldList i n l )).
  - intros l. exact (calls_at i 3 _ _ _ (fun n => src_Fields_String i n l )).
  - intros l fs. exact (calls_at i 1 _ _ _ (fun n => src_Fields_Fields i n l fs )).
  - intros l. exact (calls_at i 1 _ _ _ (fun n => src_Fields_FieldDefinitions i n l )).
  - intros l. exact (calls_at i 4 _ _ _ (fun n => src_NewFields i n l )).
  - intros v. exact (calls_at i 1 _ _ _ (fun n => src_FieldValue_Values i n v )).
  - intros l. exact (calls_at i 1 _ _ _ (fun n => src_UniqFieldNames i n l )).
  - intros m. exact (calls_at i 5 _ _ _ (fun n => src_ValuesMap_FieldValues i n m )).
Qed.

Definition names_from_source := (@C100_fields_from_source, @C100_tables_from_source, @C100_sorting_joins_pages_from_source, @C100_lists_from_source).
(** Its assumptions are printed in PropsSrcResults.v. *)

(** The hypotheses-free statements above are about concrete runs such as these. *)
Definition nobody : impl Empty_set := mkImpl Empty_set
  (fun o => match o with end) (fun o => match o with end) (fun o => match o with end) (fun o => match o with end)
  (fun o => match o with end) (fun o => match o with end) (fun o => match o with end) (fun o => match o with end) (fun o => match o with end).
Definition and_then {A B} (r : rr A) (f : A -> rr B) : rr B :=
  match r with Done a => f a | Halt => Halt | Wrong => Wrong | Spent => Spent end.
Example from_source_field :
  and_then (run nobody 20 "Field" [RStr "string" "u.name"]) (fun d =>
  and_then (run nobody 20 "FieldDefinition.As" [d; RStr "string" "n"]) (fun d' =>
  run nobody 20 "FieldDefinition.RenderSpec" [d'])) = Done (RStr "string" "u.name AS n")
  /\ run nobody 20 "Field" [RStr "string" ""] = Halt.
Proof. vm_compute. auto. Qed.
Example from_source_join :
  and_then (run nobody 20 "Field" [RStr "string" "u.id"]) (fun l =>
  and_then (run nobody 20 "Field" [RStr "string" "o.uid"]) (fun r =>
  and_then (run nobody 20 "TableJoinType.By" [RInt "TableJoinType" 1; l; r]) (fun j =>
  run nobody 20 "TableJoiner.RenderFrom" [j]))) = Done (RStr "string" "LEFT JOIN o ON u.id=o.uid").
Proof. vm_compute. reflexivity. Qed.
Example from_source_names :
  run nobody 20 "UniqFieldNames" [RSlice [RStr "FieldName" "a"; RStr "FieldName" "b"; RStr "FieldName" "a"]]
  = Done (RSlice [RStr "FieldName" "a"; RStr "FieldName" "b"]).
Proof. vm_compute. reflexivity. Qed.
