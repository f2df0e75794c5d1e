(** C101: the query builders of the model are what the source text does.  As PropsSrc.v, for
    select_base.go, select_many.go, select_single.go, count.go, insert.go, update.go, delete.go,
    join_unfinished.go, and the methods of tables that make builders. *)
From Coq Require Import String Ascii List Bool Arith NArith ZArith Lia.
From Verif Require Import GoStr StrFacts Value Names Cond Build SrcAst SrcSem SrcProg Surface Open SrcFacts SrcLoops SrcValues SrcConds SrcGroups SrcTree SrcWhere SrcCalls SrcBuilders SrcBuild SrcWrite SrcSelect SrcSelectB SrcMany SrcManyB SrcManyC SrcSingle SrcTables SrcPromoted.
Import ListNotations.
Local Open Scope string_scope.
Local Open Scope nat_scope.

(** select_base.go; join_unfinished.go:12-18 *)
Theorem C101_base_select_from_source : forall S (i : impl S),
  (forall b w, calls i "BaseSelectBuilder.RenderFrom" [of_bsel b w] (Done (RStr "string" (b_render_from b)))) /\
  (forall b w, calls i "BaseSelectBuilder.BuildQueryAndParams" [of_bsel b w] (of_res (of_out no_error) (x_b_build i b w))) /\
  (forall b w k, calls i "BaseSelectBuilder.Render" [of_bsel b w; RInt "int" (Z.of_nat k)] (of_res (RStr "string") (x_b_render i b w k))) /\
  (forall b w, calls i "BaseSelectBuilder.RenderSQL" [of_bsel b w] (of_res (RStr "string") (x_b_render_sql i b w))) /\
  (forall b w, calls i "BaseSelectBuilder.Values" [of_bsel b w] (of_res (fun l => RSlice (gvals l)) (x_b_values i w))) /\
  (forall b w, calls i "BaseSelectBuilder.String" [of_bsel b w] (of_res (RStr "string") (x_b_string i b w))) /\
  (forall b w, calls i "BaseSelectBuilder.TableName" [of_bsel b w] (Done (RStr "TableName" (b_table_name b)))) /\
  (forall b w fs, calls i "BaseSelectBuilder.Fields" (of_bsel b w :: fdefs fs) (Done (of_bsel (b_set_fields b fs) w))) /\
  (forall b w, calls i "BaseSelectBuilder.FieldDefinitions" [of_bsel b w] (Done (RSlice (fdefs (b_field_definitions b))))) /\
  (forall b w cs, calls i "BaseSelectBuilder.Where" (of_bsel b w :: xvals cs) (of_res (of_bsel b) (x_group_and i w cs))) /\
  (forall b w vs, calls i "BaseSelectBuilder.InsertInto" (of_bsel b w :: fvals vs) (Done (of_ins (b_insert b vs)))) /\
  (forall b w vs, calls i "BaseSelectBuilder.Update" (of_bsel b w :: fvals vs) (of_res (fun v => v) (x_b_update i b w vs))) /\
  (forall b w, calls i "BaseSelectBuilder.Delete" [of_bsel b w] (of_res (fun v => v) (x_b_delete i b w))) /\
  (forall b w, calls i "BaseSelectBuilder.Single" [of_bsel b w] (Done (of_ssel (single_of b) w))) /\
  (forall b w, calls i "BaseSelectBuilder.Many" [of_bsel b w] (Done (of_msel (b_many b) w))) /\
  (forall b w o, calls i "BaseSelectBuilder.Offset" [of_bsel b w; RInt "uint" (Z.of_N o)] (Done (of_msel (b_offset b o) w))) /\
  (forall b w l, calls i "BaseSelectBuilder.Limit" [of_bsel b w; RInt "int" l] (Done (of_msel (b_limit b l) w))) /\
  (forall b w os, calls i "BaseSelectBuilder.OrderBy" (of_bsel b w :: fsorts os) (Done (of_msel (b_order b os) w))) /\
  (forall p, calls i "SelectFrom" [of_tparam p] (of_res (fun b => of_bsel b x_empty) (select_from p))) /\
  (forall b w t y jt, calls i "BaseSelectBuilder.joinIdent" [of_bsel b w; of_tident t; RInt y jt] (Done (of_bjoin (b_join_open b t jt) w))) /\
  (forall b w t y jt, calls i "BaseSelectBuilder.Join" [of_bsel b w; of_tident t; RInt y jt] (Done (of_bjoin (b_join_open b t jt) w))) /\
  (forall b w t, calls i "BaseSelectBuilder.InnerJoin" [of_bsel b w; of_tident t] (Done (of_bjoin (b_join_open b t InnerJoin) w))) /\
  (forall b w t, calls i "BaseSelectBuilder.LeftJoin" [of_bsel b w; of_tident t] (Done (of_bjoin (b_join_open b t LeftJoin) w))) /\
  (forall b w t, calls i "BaseSelectBuilder.RightJoin" [of_bsel b w; of_tident t] (Done (of_bjoin (b_join_open b t RightJoin) w))) /\
  (forall b w t, calls i "BaseSelectBuilder.FullJoin" [of_bsel b w; of_tident t] (Done (of_bjoin (b_join_open b t FullJoin) w))) /\
  (forall b w l r, calls i "incompleteBaseJoiner.On" [of_bjoin b w; of_fdef l; of_fdef r] (of_res (fun b => of_bsel b w) (b_on b l r))) /\
  (forall b w, calls i "BaseSelectBuilder.Count" [of_bsel b w] (of_res (fun c => of_csel c w) (b_count b))).
Proof.
  intros S i. repeat match goal with |- _ /\ _ => split end.
  - intros b w. exact (calls_at i 4 _ _ _ (fun n => src_BaseSelectBuilder_RenderFrom i n b w )).
  - intros b w. exact (calls_at i (6 + deep (of_xg w)) _ _ _ (fun n => src_BaseSelectBuilder_BuildQueryAndParams i n (deep (of_xg w)) b w (le_n _))).
  - intros b w k. exact (calls_at i (6 + deep (of_xg w)) _ _ _ (fun n => src_BaseSelectBuilder_Render i n (deep (of_xg w)) b w k (le_n _))).
  - intros b w. exact (calls_at i (6 + deep (of_xg w)) _ _ _ (fun n => src_BaseSelectBuilder_RenderSQL i n (deep (of_xg w)) b w (le_n _))).
  - intros b w. exact (calls_at i (5 + deep (of_xg w)) _ _ _ (fun n => src_BaseSelectBuilder_Values i n (deep (of_xg w)) b w (le_n _))).
  - intros b w. exact (calls_at i (6 + deep (of_xg w)) _ _ _ (fun n => src_BaseSelectBuilder_String i n (deep (of_xg w)) b w (le_n _))).
  - intros b w. exact (calls_at i 2 _ _ _ (fun n => src_BaseSelectBuilder_TableName i n b w )).
  - intros b w fs. exact (calls_at i 2 _ _ _ (fun n => src_BaseSelectBuilder_Fields i n b w fs )).
  - intros b w. exact (calls_at i 2 _ _ _ (fun n => src_BaseSelectBuilder_FieldDefinitions i n b w )).
  - intros b w cs. exact (calls_at i 11 _ _ _ (fun n => src_BaseSelectBuilder_Where i n b w cs )).
  - intros b w vs. exact (calls_at i 3 _ _ _ (fun n => src_BaseSelectBuilder_InsertInto i n b w vs )).
  - intros b w vs. exact (calls_at i 11 _ _ _ (fun n => src_BaseSelectBuilder_Update i n b w vs )).
  - intros b w. exact (calls_at i 11 _ _ _ (fun n => src_BaseSelectBuilder_Delete i n b w )).
  - intros b w. exact (calls_at i 1 _ _ _ (fun n => src_BaseSelectBuilder_Single i n b w )).
  - intros b w. exact (calls_at i 2 _ _ _ (fun n => src_BaseSelectBuilder_Many i n b w )).
  - intros b w o. exact (calls_at i 3 _ _ _ (fun n => src_BaseSelectBuilder_Offset i n b w o )).
  - intros b w l. exact (calls_at i 3 _ _ _ (fun n => src_BaseSelectBuilder_Limit i n b w l )).
  - intros b w os. exact (calls_at i 3 _ _ _ (fun n => src_BaseSelectBuilder_OrderBy i n b w os )).
  - intros p. exact (calls_at i 7 _ _ _ (fun n => src_SelectFrom i n p )).
  - intros b w t y jt. exact (calls_at i 1 _ _ _ (fun n => src_BaseSelectBuilder_joinIdent i n b w t y jt )).
  - intros b w t y jt. exact (calls_at i 2 _ _ _ (fun n => src_BaseSelectBuilder_Join i n b w t y jt )).
  - intros b w t. exact (calls_at i 3 _ _ _ (fun n => src_BaseSelectBuilder_InnerJoin i n b w t )).
  - intros b w t. exact (calls_at i 3 _ _ _ (fun n => src_BaseSelectBuilder_LeftJoin i n b w t )).
  - intros b w t. exact (calls_at i 3 _ _ _ (fun n => src_BaseSelectBuilder_RightJoin i n b w t )).
  - intros b w t. exact (calls_at i 3 _ _ _ (fun n => src_BaseSelectBuilder_FullJoin i n b w t )).
  - intros b w l r. exact (calls_at i 3 _ _ _ (fun n => src_incompleteBaseJoiner_On i n b w l r )).
  - intros b w. exact (calls_at i 5 _ _ _ (fun n => src_BaseSelectBuilder_Count i n b w )).
Qed.

(** count.go *)
Theorem C101_count_from_source : forall S (i : impl S),
  (forall b w fs, calls i "Count" (of_bsel b w :: map (RStr "FieldName") fs) (of_res (fun c => of_csel c w) (count b fs))) /\
  (forall c w, calls i "CountBuilder.RenderFrom" [of_csel c w] (Done (RStr "string" (cs_render_from c)))) /\
  (forall c w, calls i "CountBuilder.BuildQueryAndParams" [of_csel c w] (of_res (of_out no_error) (x_cs_build i c w))).
Proof.
  intros S i. repeat match goal with |- _ /\ _ => split end.
  - intros b w fs. exact (calls_at i 4 _ _ _ (fun n => src_Count i n b w fs )).
  - intros c w. exact (calls_at i 5 _ _ _ (fun n => src_CountBuilder_RenderFrom i n c w )).
  - intros c w. exact (calls_at i (6 + deep (of_xg w)) _ _ _ (fun n => src_CountBuilder_BuildQueryAndParams i n (deep (of_xg w)) c w (le_n _))).
Qed.

(** select_many.go; join_unfinished.go:29-35 *)
Theorem C101_select_many_from_source : forall S (i : impl S),
  (forall b w, calls i "SelectManyFromBase" [of_bsel b w] (Done (of_msel (many_of b) w))) /\
  (forall m w o, calls i "SelectManyBuilder.Offset" [of_msel m w; RInt "uint" (Z.of_N o)] (Done (of_msel (m_set_offset m o) w))) /\
  (forall m w l, calls i "SelectManyBuilder.Limit" [of_msel m w; RInt "int" l] (Done (of_msel (m_set_limit m l) w))) /\
  (forall m w os, calls i "SelectManyBuilder.OrderBy" (of_msel m w :: fsorts os) (Done (of_msel (m_add_order m os) w))) /\
  (forall m w, calls i "SelectManyBuilder.RenderFrom" [of_msel m w] (Done (RStr "string" (m_render_from m)))) /\
  (forall m w, calls i "SelectManyBuilder.FieldList" [of_msel m w] (Done (RStr "string" (m_field_list m)))) /\
  (forall m w fs, calls i "SelectManyBuilder.Fields" (of_msel m w :: fdefs fs) (Done (of_msel (m_set_fields m fs) w))) /\
  (forall m w, calls i "SelectManyBuilder.FieldDefinitions" [of_msel m w] (Done (RSlice (fdefs (m_field_definitions m))))) /\
  (forall m w cs, calls i "SelectManyBuilder.Where" (of_msel m w :: xvals cs) (of_res (of_msel m) (x_group_and i w cs))) /\
  (forall m w vs, calls i "SelectManyBuilder.Update" (of_msel m w :: fvals vs) (of_res (fun v => v) (x_m_update i m w vs))) /\
  (forall m w, calls i "SelectManyBuilder.Delete" [of_msel m w] (of_res (fun v => v) (x_m_delete i m w))) /\
  (forall m w, calls i "SelectManyBuilder.Count" [of_msel m w] (of_res (fun c => of_csel c w) (m_count m))) /\
  (forall p, calls i "SelectManyFrom" [of_tparam p] (of_res (fun b => of_msel b x_empty) (select_many_from p))) /\
  (forall m w, calls i "SelectManyBuilder.BuildQueryAndParams" [of_msel m w] (of_res (of_out no_error) (x_m_build i m w))) /\
  (forall m w t y jt, calls i "SelectManyBuilder.joinIdent" [of_msel m w; of_tident t; RInt y jt] (Done (of_mjoin (m_join_ident m t jt) w))) /\
  (forall m w y tn z jt, calls i "SelectManyBuilder.Join" [of_msel m w; RStr y tn; RInt z jt] (of_res (fun m => of_mjoin m w) (m_join_open m tn jt))) /\
  (forall m w y tn, calls i "SelectManyBuilder.InnerJoin" [of_msel m w; RStr y tn] (of_res (fun m => of_mjoin m w) (m_join_open m tn InnerJoin))) /\
  (forall m w y tn, calls i "SelectManyBuilder.LeftJoin" [of_msel m w; RStr y tn] (of_res (fun m => of_mjoin m w) (m_join_open m tn LeftJoin))) /\
  (forall m w y tn, calls i "SelectManyBuilder.RightJoin" [of_msel m w; RStr y tn] (of_res (fun m => of_mjoin m w) (m_join_open m tn RightJoin))) /\
  (forall m w y tn, calls i "SelectManyBuilder.FullJoin" [of_msel m w; RStr y tn] (of_res (fun m => of_mjoin m w) (m_join_open m tn FullJoin))) /\
  (forall m w l r, calls i "incompleteManyJoiner.On" [of_mjoin m w; of_fdef l; of_fdef r] (of_res (fun m => of_msel m w) (m_on m l r))) /\
  (forall m w f, calls i "SelectManyBuilder.applySpecToOrdering" [of_msel m w; of_fdef f] (Done (of_msel (m_spec_order m f) w))) /\
  (forall m w y t, calls i "SelectManyBuilder.applyFieldTableToOrdering" [of_msel m w; RStr y t] (Done (of_msel (m_table_order m t) w))).
Proof.
  intros S i. repeat match goal with |- _ /\ _ => split end.
  - intros b w. exact (calls_at i 1 _ _ _ (fun n => src_SelectManyFromBase i n b w )).
  - intros m w o. exact (calls_at i 1 _ _ _ (fun n => src_SelectManyBuilder_Offset i n m w o )).
  - intros m w l. exact (calls_at i 1 _ _ _ (fun n => src_SelectManyBuilder_Limit i n m w l )).
  - intros m w os. exact (calls_at i 1 _ _ _ (fun n => src_SelectManyBuilder_OrderBy i n m w os )).
  - intros m w. exact (calls_at i 5 _ _ _ (fun n => src_SelectManyBuilder_RenderFrom i n m w )).
  - intros m w. exact (calls_at i 4 _ _ _ (fun n => src_SelectManyBuilder_FieldList i n m w )).
  - intros m w fs. exact (calls_at i 3 _ _ _ (fun n => src_SelectManyBuilder_Fields i n m w fs )).
  - intros m w. exact (calls_at i 3 _ _ _ (fun n => src_SelectManyBuilder_FieldDefinitions i n m w )).
  - intros m w cs. exact (calls_at i 11 _ _ _ (fun n => src_SelectManyBuilder_Where i n m w cs )).
  - intros m w vs. exact (calls_at i 11 _ _ _ (fun n => src_SelectManyBuilder_Update i n m w vs )).
  - intros m w. exact (calls_at i 11 _ _ _ (fun n => src_SelectManyBuilder_Delete i n m w )).
  - intros m w. exact (calls_at i 5 _ _ _ (fun n => src_SelectManyBuilder_Count i n m w )).
  - intros p. exact (calls_at i 8 _ _ _ (fun n => src_SelectManyFrom i n p )).
  - intros m w. exact (calls_at i (7 + deep (of_xg w)) _ _ _ (fun n => src_SelectManyBuilder_BuildQueryAndParams i n (deep (of_xg w)) m w (le_n _))).
  - intros m w t y jt. exact (calls_at i 1 _ _ _ (fun n => src_SelectManyBuilder_joinIdent i n m w t y jt )).
  - intros m w y tn z jt. exact (calls_at i 4 _ _ _ (fun n => src_SelectManyBuilder_Join i n m w y tn z jt )).
  - intros m w y tn. exact (calls_at i 5 _ _ _ (fun n => src_SelectManyBuilder_InnerJoin i n m w y tn )).
  - intros m w y tn. exact (calls_at i 5 _ _ _ (fun n => src_SelectManyBuilder_LeftJoin i n m w y tn )).
  - intros m w y tn. exact (calls_at i 5 _ _ _ (fun n => src_SelectManyBuilder_RightJoin i n m w y tn )).
  - intros m w y tn. exact (calls_at i 5 _ _ _ (fun n => src_SelectManyBuilder_FullJoin i n m w y tn )).
  - intros m w l r. exact (calls_at i 3 _ _ _ (fun n => src_incompleteManyJoiner_On i n m w l r )).
  - intros m w f. exact (calls_at i 3 _ _ _ (fun n => src_SelectManyBuilder_applySpecToOrdering i n m w f )).
  - intros m w y t. exact (calls_at i 3 _ _ _ (fun n => src_SelectManyBuilder_applyFieldTableToOrdering i n m w y t )).
Qed.

(** select_single.go; join_unfinished.go:46-52 *)
Theorem C101_select_single_from_source : forall S (i : impl S),
  (forall b w, calls i "SelectSingleFromBase" [of_bsel b w] (Done (of_ssel (single_of b) w))) /\
  (forall s w, calls i "SelectSingleBuilder.RenderFrom" [of_ssel s w] (Done (RStr "string" (ss_render_from s)))) /\
  (forall s w, calls i "SelectSingleBuilder.BuildQueryAndParams" [of_ssel s w] (of_res (of_out no_error) (x_ss_build i s w))) /\
  (forall s w, calls i "SelectSingleBuilder.FieldList" [of_ssel s w] (Done (RStr "string" (ss_field_list s)))) /\
  (forall s w fs, calls i "SelectSingleBuilder.Fields" (of_ssel s w :: fdefs fs) (Done (of_ssel (ss_set_fields s fs) x_zero))) /\
  (forall s w, calls i "SelectSingleBuilder.FieldDefinitions" [of_ssel s w] (Done (RSlice (fdefs (ss_field_definitions s))))) /\
  (forall s w cs, calls i "SelectSingleBuilder.Where" (of_ssel s w :: xvals cs) (of_res (of_ssel s) (x_group_and i w cs))) /\
  (forall s w vs, calls i "SelectSingleBuilder.Update" (of_ssel s w :: fvals vs) (of_res (fun v => v) (x_b_update i (ss_base s) w vs))) /\
  (forall s w t y jt, calls i "SelectSingleBuilder.joinIdent" [of_ssel s w; of_tident t; RInt y jt] (Done (of_sjoin (ss_join_ident s t jt) w))) /\
  (forall s w y tn z jt, calls i "SelectSingleBuilder.Join" [of_ssel s w; RStr y tn; RInt z jt] (of_res (fun s => of_sjoin s w) (ss_join_open s tn jt))) /\
  (forall s w y tn, calls i "SelectSingleBuilder.InnerJoin" [of_ssel s w; RStr y tn] (of_res (fun s => of_sjoin s w) (ss_join_open s tn InnerJoin))) /\
  (forall s w y tn, calls i "SelectSingleBuilder.LeftJoin" [of_ssel s w; RStr y tn] (of_res (fun s => of_sjoin s w) (ss_join_open s tn LeftJoin))) /\
  (forall s w y tn, calls i "SelectSingleBuilder.RightJoin" [of_ssel s w; RStr y tn] (of_res (fun s => of_sjoin s w) (ss_join_open s tn RightJoin))) /\
  (forall s w y tn, calls i "SelectSingleBuilder.FullJoin" [of_ssel s w; RStr y tn] (of_res (fun s => of_sjoin s w) (ss_join_open s tn FullJoin))) /\
  (forall s w l r, calls i "incompleteSingleJoiner.On" [of_sjoin s w; of_fdef l; of_fdef r] (of_res (fun s => of_ssel s w) (ss_on s l r))) /\
  (forall p, calls i "SelectSingleFrom" [of_tparam p] (of_res (fun s => of_ssel s x_empty) (select_single_from p))).
Proof.
  intros S i. repeat match goal with |- _ /\ _ => split end.
  - intros b w. exact (calls_at i 1 _ _ _ (fun n => src_SelectSingleFromBase i n b w )).
  - intros s w. exact (calls_at i 5 _ _ _ (fun n => src_SelectSingleBuilder_RenderFrom i n s w )).
  - intros s w. exact (calls_at i (7 + deep (of_xg w)) _ _ _ (fun n => src_SelectSingleBuilder_BuildQueryAndParams i n (deep (of_xg w)) s w (le_n _))).
  - intros s w. exact (calls_at i 4 _ _ _ (fun n => src_SelectSingleBuilder_FieldList i n s w )).
  - intros s w fs. exact (calls_at i 3 _ _ _ (fun n => src_SelectSingleBuilder_Fields i n s w fs )).
  - intros s w. exact (calls_at i 3 _ _ _ (fun n => src_SelectSingleBuilder_FieldDefinitions i n s w )).
  - intros s w cs. exact (calls_at i 11 _ _ _ (fun n => src_SelectSingleBuilder_Where i n s w cs )).
  - intros s w vs. exact (calls_at i 11 _ _ _ (fun n => src_SelectSingleBuilder_Update i n s w vs )).
  - intros s w t y jt. exact (calls_at i 1 _ _ _ (fun n => src_SelectSingleBuilder_joinIdent i n s w t y jt )).
  - intros s w y tn z jt. exact (calls_at i 4 _ _ _ (fun n => src_SelectSingleBuilder_Join i n s w y tn z jt )).
  - intros s w y tn. exact (calls_at i 5 _ _ _ (fun n => src_SelectSingleBuilder_InnerJoin i n s w y tn )).
  - intros s w y tn. exact (calls_at i 5 _ _ _ (fun n => src_SelectSingleBuilder_LeftJoin i n s w y tn )).
  - intros s w y tn. exact (calls_at i 5 _ _ _ (fun n => src_SelectSingleBuilder_RightJoin i n s w y tn )).
  - intros s w y tn. exact (calls_at i 5 _ _ _ (fun n => src_SelectSingleBuilder_FullJoin i n s w y tn )).
  - intros s w l r. exact (calls_at i 3 _ _ _ (fun n => src_incompleteSingleJoiner_On i n s w l r )).
  - intros p. exact (calls_at i 8 _ _ _ (fun n => src_SelectSingleFrom i n p )).
Qed.

(** insert.go, update.go, delete.go *)
Theorem C101_write_from_source : forall S (i : impl S),
  (forall p, calls i "InsertInto" [of_tparam p] (Done (of_ins (insert_into p)))) /\
  (forall x vs, calls i "InsertBuilder.Values" (of_ins x :: fvals vs) (Done (of_ins (i_add x vs)))) /\
  (forall x, calls i "InsertBuilder.SetValues" [of_ins x] (Done (RSlice (fvals (i_set_values x))))) /\
  (forall x, calls i "InsertBuilder.TableName" [of_ins x] (Done (RStr "TableName" (i_table_name x)))) /\
  (forall x, calls i "InsertBuilder.RenderFrom" [of_ins x] (Done (RStr "string" (i_render_from x)))) /\
  (forall x, calls i "InsertBuilder.BuildQueryAndParams" [of_ins x] (of_res (of_out insert_error) (i_build x))) /\
  (forall p, calls i "Update" [of_tparam p] (Done (of_upd (update_ p) x_empty))) /\
  (forall x w vs, calls i "UpdateBuilder.Set" (of_upd x w :: fvals vs) (Done (of_upd (u_add x vs) w))) /\
  (forall x w, calls i "UpdateBuilder.SetValues" [of_upd x w] (Done (RSlice (fvals (u_set_values x))))) /\
  (forall x w, calls i "UpdateBuilder.TableName" [of_upd x w] (Done (RStr "TableName" (u_table_name x)))) /\
  (forall x w, calls i "UpdateBuilder.RenderFrom" [of_upd x w] (Done (RStr "string" (u_render_from x)))) /\
  (forall x w cs, calls i "UpdateBuilder.Where" (of_upd x w :: xvals cs) (of_res (of_upd x) (x_group_and i w cs))) /\
  (forall x w, calls i "UpdateBuilder.fieldsAndValues" [of_upd x w] (of_res (fun p => RTuple [RStr "string" (fst p); RSlice (gvals (snd p))]) (fields_and_values (u_values x)))) /\
  (forall x w, calls i "UpdateBuilder.BuildQueryAndParams" [of_upd x w] (of_res (of_out update_error) (x_u_build i x w))) /\
  (forall p, calls i "Delete" [of_tparam p] (Done (of_del (delete_ p) x_empty))) /\
  (forall x w, calls i "DeleteBuilder.TableName" [of_del x w] (Done (RStr "TableName" (d_table_name x)))) /\
  (forall x w, calls i "DeleteBuilder.RenderFrom" [of_del x w] (Done (RStr "string" (d_render_from x)))) /\
  (forall x w cs, calls i "DeleteBuilder.Where" (of_del x w :: xvals cs) (of_res (of_del x) (x_group_and i w cs))) /\
  (forall x w, calls i "DeleteBuilder.BuildQueryAndParams" [of_del x w] (of_res (of_out delete_error) (x_d_build i x w))).
Proof.
  intros S i. repeat match goal with |- _ /\ _ => split end.
  - intros p. exact (calls_at i 2 _ _ _ (fun n => src_InsertInto i n p )).
  - intros x vs. exact (calls_at i 1 _ _ _ (fun n => src_InsertBuilder_Values i n x vs )).
  - intros x. exact (calls_at i 1 _ _ _ (fun n => src_InsertBuilder_SetValues i n x )).
  - intros x. exact (calls_at i 1 _ _ _ (fun n => src_InsertBuilder_TableName i n x )).
  - intros x. exact (calls_at i 2 _ _ _ (fun n => src_InsertBuilder_RenderFrom i n x )).
  - intros x. exact (calls_at i 2 _ _ _ (fun n => src_InsertBuilder_BuildQueryAndParams i n x )).
  - intros p. exact (calls_at i 6 _ _ _ (fun n => src_Update i n p )).
  - intros x w vs. exact (calls_at i 1 _ _ _ (fun n => src_UpdateBuilder_Set i n x w vs )).
  - intros x w. exact (calls_at i 1 _ _ _ (fun n => src_UpdateBuilder_SetValues i n x w )).
  - intros x w. exact (calls_at i 1 _ _ _ (fun n => src_UpdateBuilder_TableName i n x w )).
  - intros x w. exact (calls_at i 2 _ _ _ (fun n => src_UpdateBuilder_RenderFrom i n x w )).
  - intros x w cs. exact (calls_at i 10 _ _ _ (fun n => src_UpdateBuilder_Where i n x w cs )).
  - intros x w. exact (calls_at i 2 _ _ _ (fun n => src_UpdateBuilder_fieldsAndValues i n x w )).
  - intros x w. exact (calls_at i (5 + deep (of_xg w)) _ _ _ (fun n => src_UpdateBuilder_BuildQueryAndParams i n (deep (of_xg w)) x w (le_n _))).
  - intros p. exact (calls_at i 6 _ _ _ (fun n => src_Delete i n p )).
  - intros x w. exact (calls_at i 1 _ _ _ (fun n => src_DeleteBuilder_TableName i n x w )).
  - intros x w. exact (calls_at i 2 _ _ _ (fun n => src_DeleteBuilder_RenderFrom i n x w )).
  - intros x w cs. exact (calls_at i 10 _ _ _ (fun n => src_DeleteBuilder_Where i n x w cs )).
  - intros x w. exact (calls_at i (5 + deep (of_xg w)) _ _ _ (fun n => src_DeleteBuilder_BuildQueryAndParams i n (deep (of_xg w)) x w (le_n _))).
Qed.

(** table_name.go, table_ident.go, join_type.go *)
Theorem C101_table_builders_from_source : forall S (i : impl S),
  (forall (t : string) vs, calls i "TableName.InsertInto" (RStr "TableName" t :: fvals vs) (Done (of_ins (tp_insert (TPName t) vs)))) /\
  (forall (t : string) vs, calls i "TableName.Update" (RStr "TableName" t :: fvals vs) (Done (of_upd (tp_update (TPName t) vs) x_empty))) /\
  (forall (t : string) cs, calls i "TableName.Delete" (RStr "TableName" t :: xvals cs) (of_res (fun v => v) (x_delete i (TPName t) cs))) /\
  (forall (t : string) cs, calls i "TableName.Select" (RStr "TableName" t :: xvals cs) (of_res (fun v => v) (x_select i (TPName t) cs))) /\
  (forall (t : string) cs, calls i "TableName.SelectOne" (RStr "TableName" t :: xvals cs) (of_res (fun v => v) (x_select_one i (TPName t) cs))) /\
  (forall (t : string) cs, calls i "TableName.SelectMany" (RStr "TableName" t :: xvals cs) (of_res (fun v => v) (x_select_many i (TPName t) cs))) /\
  (forall (t : string) r y jt, calls i "TableName.Join" [RStr "TableName" t; of_tident r; RInt y jt] (of_res (fun b => of_bjoin b x_empty) (tp_join_open (TPName t) r jt))) /\
  (forall (t : string) r, calls i "TableName.InnerJoin" [RStr "TableName" t; of_tident r] (of_res (fun b => of_bjoin b x_empty) (tp_join_open (TPName t) r InnerJoin))) /\
  (forall (t : string) r, calls i "TableName.LeftJoin" [RStr "TableName" t; of_tident r] (of_res (fun b => of_bjoin b x_empty) (tp_join_open (TPName t) r LeftJoin))) /\
  (forall (t : string) r, calls i "TableName.RightJoin" [RStr "TableName" t; of_tident r] (of_res (fun b => of_bjoin b x_empty) (tp_join_open (TPName t) r RightJoin))) /\
  (forall (t : string) r, calls i "TableName.FullJoin" [RStr "TableName" t; of_tident r] (of_res (fun b => of_bjoin b x_empty) (tp_join_open (TPName t) r FullJoin))) /\
  (forall (t : tident) vs, calls i "TableIdent.InsertInto" (of_tident t :: fvals vs) (Done (of_ins (tp_insert (TPIdent t) vs)))) /\
  (forall (t : tident) vs, calls i "TableIdent.Update" (of_tident t :: fvals vs) (Done (of_upd (tp_update (TPIdent t) vs) x_empty))) /\
  (forall (t : tident) cs, calls i "TableIdent.Delete" (of_tident t :: xvals cs) (of_res (fun v => v) (x_delete i (TPIdent t) cs))) /\
  (forall (t : tident) cs, calls i "TableIdent.Select" (of_tident t :: xvals cs) (of_res (fun v => v) (x_select i (TPIdent t) cs))) /\
  (forall (t : tident) cs, calls i "TableIdent.SelectOne" (of_tident t :: xvals cs) (of_res (fun v => v) (x_select_one i (TPIdent t) cs))) /\
  (forall (t : tident) cs, calls i "TableIdent.SelectMany" (of_tident t :: xvals cs) (of_res (fun v => v) (x_select_many i (TPIdent t) cs))) /\
  (forall t cs, calls i "TableIdent.Count" (of_tident t :: xvals cs) (of_res (fun v => v) (x_count i t cs))) /\
  (forall (t : tident) r y jt, calls i "TableIdent.Join" [of_tident t; of_tident r; RInt y jt] (of_res (fun b => of_bjoin b x_empty) (tp_join_open (TPIdent t) r jt))) /\
  (forall (t : tident) r, calls i "TableIdent.InnerJoin" [of_tident t; of_tident r] (of_res (fun b => of_bjoin b x_empty) (tp_join_open (TPIdent t) r InnerJoin))) /\
  (forall (t : tident) r, calls i "TableIdent.LeftJoin" [of_tident t; of_tident r] (of_res (fun b => of_bjoin b x_empty) (tp_join_open (TPIdent t) r LeftJoin))) /\
  (forall (t : tident) r, calls i "TableIdent.RightJoin" [of_tident t; of_tident r] (of_res (fun b => of_bjoin b x_empty) (tp_join_open (TPIdent t) r RightJoin))) /\
  (forall (t : tident) r, calls i "TableIdent.FullJoin" [of_tident t; of_tident r] (of_res (fun b => of_bjoin b x_empty) (tp_join_open (TPIdent t) r FullJoin))) /\
  (forall y jt l r, calls i "TableJoinType.Tables" [RInt y jt; of_tident l; of_tident r] (of_res (fun b => of_bjoin b x_empty) (tp_join_open (TPIdent l) r jt))).
Proof.
  intros S i. repeat match goal with |- _ /\ _ => split end.
  - intros t vs. exact (calls_at i 3 _ _ _ (fun n => src_TableName_InsertInto i n t vs )).
  - intros t vs. exact (calls_at i 7 _ _ _ (fun n => src_TableName_Update i n t vs )).
  - intros t cs. exact (calls_at i 11 _ _ _ (fun n => src_TableName_Delete i n t cs )).
  - intros t cs. exact (calls_at i 12 _ _ _ (fun n => src_TableName_Select i n t cs )).
  - intros t cs. exact (calls_at i 12 _ _ _ (fun n => src_TableName_SelectOne i n t cs )).
  - intros t cs. exact (calls_at i 12 _ _ _ (fun n => src_TableName_SelectMany i n t cs )).
  - intros t r y jt. exact (calls_at i 13 _ _ _ (fun n => src_TableName_Join i n t r y jt )).
  - intros t r. exact (calls_at i 14 _ _ _ (fun n => src_TableName_InnerJoin i n t r )).
  - intros t r. exact (calls_at i 14 _ _ _ (fun n => src_TableName_LeftJoin i n t r )).
  - intros t r. exact (calls_at i 14 _ _ _ (fun n => src_TableName_RightJoin i n t r )).
  - intros t r. exact (calls_at i 14 _ _ _ (fun n => src_TableName_FullJoin i n t r )).
  - intros t vs. exact (calls_at i 3 _ _ _ (fun n => src_TableIdent_InsertInto i n t vs )).
  - intros t vs. exact (calls_at i 7 _ _ _ (fun n => src_TableIdent_Update i n t vs )).
  - intros t cs. exact (calls_at i 11 _ _ _ (fun n => src_TableIdent_Delete i n t cs )).
  - intros t cs. exact (calls_at i 12 _ _ _ (fun n => src_TableIdent_Select i n t cs )).
  - intros t cs. exact (calls_at i 12 _ _ _ (fun n => src_TableIdent_SelectOne i n t cs )).
  - intros t cs. exact (calls_at i 12 _ _ _ (fun n => src_TableIdent_SelectMany i n t cs )).
  - intros t cs. exact (calls_at i 12 _ _ _ (fun n => src_TableIdent_Count i n t cs )).
  - intros t r y jt. exact (calls_at i 13 _ _ _ (fun n => src_TableIdent_Join i n t r y jt )).
  - intros t r. exact (calls_at i 14 _ _ _ (fun n => src_TableIdent_InnerJoin i n t r )).
  - intros t r. exact (calls_at i 14 _ _ _ (fun n => src_TableIdent_LeftJoin i n t r )).
  - intros t r. exact (calls_at i 14 _ _ _ (fun n => src_TableIdent_RightJoin i n t r )).
  - intros t r. exact (calls_at i 14 _ _ _ (fun n => src_TableIdent_FullJoin i n t r )).
  - intros y jt l r. exact (calls_at i 13 _ _ _ (fun n => src_TableJoinType_Tables i n y jt l r )).
Qed.

(** Which function of the source a method call on a builder is: methods of an embedded struct get that struct only. *)
Theorem C101_methods_from_source : forall S (i : impl S) c,
  (forall b w f vs, In f ["String"; "RenderSQL"; "Render"; "Values"; "RenderFrom"; "BuildQueryAndParams"; "TableName"; "Fields"; "FieldDefinitions"; "Where"; "InsertInto"; "Update"; "Delete"; "Single"; "Many"; "Offset"; "Limit"; "OrderBy"; "Join"; "InnerJoin"; "LeftJoin"; "RightJoin"; "FullJoin"; "Count"] -> mcall i c (of_bsel b w) f vs = c ("BaseSelectBuilder." ++ f) (of_bsel b w :: vs)) /\
  (forall m w f vs, In f ["RenderFrom"; "BuildQueryAndParams"; "FieldList"; "Fields"; "FieldDefinitions"; "Where"; "Update"; "Delete"; "Count"; "Offset"; "Limit"; "OrderBy"; "Join"; "InnerJoin"; "LeftJoin"; "RightJoin"; "FullJoin"] -> mcall i c (of_msel m w) f vs = c ("SelectManyBuilder." ++ f) (of_msel m w :: vs)) /\
  (forall m w f vs, In f ["String"; "Render"; "RenderSQL"; "Values"; "TableName"; "InsertInto"; "Single"; "Many"] -> mcall i c (of_msel m w) f vs = c ("BaseSelectBuilder." ++ f) (of_bsel (m_base m) w :: vs)) /\
  (forall s w f vs, In f ["RenderFrom"; "BuildQueryAndParams"; "FieldList"; "Fields"; "FieldDefinitions"; "Where"; "Update"; "Join"; "InnerJoin"; "LeftJoin"; "RightJoin"; "FullJoin"] -> mcall i c (of_ssel s w) f vs = c ("SelectSingleBuilder." ++ f) (of_ssel s w :: vs)) /\
  (forall s w f vs, In f ["String"; "Render"; "RenderSQL"; "Values"; "TableName"; "InsertInto"; "Delete"; "Single"; "Many"; "Offset"; "Limit"; "OrderBy"; "Count"] -> mcall i c (of_ssel s w) f vs = c ("BaseSelectBuilder." ++ f) (of_bsel (ss_base s) w :: vs)) /\
  (forall b m s w vs, mcall i c (of_bjoin b w) "On" vs = c "incompleteBaseJoiner.On" (of_bjoin b w :: vs) /\ mcall i c (of_mjoin m w) "On" vs = c "incompleteManyJoiner.On" (of_mjoin m w :: vs) /\ mcall i c (of_sjoin s w) "On" vs = c "incompleteSingleJoiner.On" (of_sjoin s w :: vs)) /\
  (forall s w f vs, In f ["RenderFrom"; "BuildQueryAndParams"] -> mcall i c (of_csel s w) f vs = c ("CountBuilder." ++ f) (of_csel s w :: vs)) /\
  (forall x f vs, In f ["RenderFrom"; "SetValues"; "Values"; "TableName"; "BuildQueryAndParams"] -> mcall i c (of_ins x) f vs = c ("InsertBuilder." ++ f) (of_ins x :: vs)) /\
  (forall x w f vs, In f ["RenderFrom"; "SetValues"; "Set"; "Where"; "TableName"; "BuildQueryAndParams"] -> mcall i c (of_upd x w) f vs = c ("UpdateBuilder." ++ f) (of_upd x w :: vs)) /\
  (forall x w f vs, In f ["RenderFrom"; "Where"; "TableName"; "BuildQueryAndParams"] -> mcall i c (of_del x w) f vs = c ("DeleteBuilder." ++ f) (of_del x w :: vs)) /\
  (forall b m s x u d w vs, mcall i c (of_bsel b w) "Operation" vs = c "BaseBuilder.Operation" (of_op (b_op b) :: vs) /\ mcall i c (of_msel m w) "Operation" vs = c "BaseBuilder.Operation" (of_op (b_op (m_base m)) :: vs) /\ mcall i c (of_ssel s w) "Operation" vs = c "BaseBuilder.Operation" (of_op (b_op (ss_base s)) :: vs) /\ mcall i c (of_ins x) "Operation" vs = c "BaseBuilder.Operation" (of_op (i_op x) :: vs) /\ mcall i c (of_upd u w) "Operation" vs = c "BaseBuilder.Operation" (of_op (u_op u) :: vs) /\ mcall i c (of_del d w) "Operation" vs = c "BaseBuilder.Operation" (of_op (d_op d) :: vs)).
Proof.
  intros S i c.
  split; [exact (base_own i c)|].
  split; [exact (many_own i c)|].
  split; [exact (many_promoted i c)|].
  split; [exact (single_own i c)|].
  split; [exact (single_promoted i c)|].
  split; [exact (joiner_own i c)|].
  split; [exact (count_own i c)|].
  split; [exact (insert_own i c)|].
  split; [exact (update_own i c)|].
  split; [exact (delete_own i c)|].
  exact (operation_promoted i c).
Qed.

Definition builders_from_source := (@C101_base_select_from_source, @C101_count_from_source, @C101_select_many_from_source, @C101_select_single_from_source, @C101_write_from_source, @C101_table_builders_from_source, @C101_methods_from_source).
(** Its assumptions are printed in PropsSrcResults.v. *)

(** The statements above are about concrete runs such as these. *)
Definition nobody : impl Empty_set := mkImpl Empty_set
  (fun o => match o with end) (fun o => match o with end) (fun o => match o with end) (fun o => match o with end)
  (fun o => match o with end) (fun o => match o with end) (fun o => match o with end) (fun o => match o with end) (fun o => match o with end).
Definition and_then {A B} (r : rr A) (f : A -> rr B) : rr B :=
  match r with Done a => f a | Halt => Halt | Wrong => Wrong | Spent => Spent end.
Notation "v <-- r ; s" := (and_then r (fun v => s)) (at level 100, r at next level, right associativity).
Definition ask (v : val Empty_set) (m : string) (vs : list (val Empty_set)) := mcall nobody (run nobody 30) v m vs.
Example from_source_select :
  (u <-- run nobody 30 "Table" [RStr "string" "users AS u"]; o <-- run nobody 30 "Table" [RStr "string" "orders o"];
   uid <-- run nobody 30 "Field" [RStr "string" "u.id"]; oid <-- run nobody 30 "Field" [RStr "string" "o.uid"];
   age <-- run nobody 30 "GreaterThan" [RStr "FieldName" "age"; of_gval (VOther 1)];
   srt <-- run nobody 30 "DESC" [RStr "FieldName" "age"];
   b <-- ask u "Select" [age]; j <-- ask b "LeftJoin" [o]; b <-- ask j "On" [uid; oid]; b <-- ask b "Fields" [uid; oid];
   m <-- ask b "Offset" [RInt "uint" 3]; m <-- ask m "Limit" [RInt "int" 10]; m <-- ask m "OrderBy" [srt];
   ask m "BuildQueryAndParams" [])
  = Done (RTuple [RStr "string" "SELECT u.id, o.uid FROM users AS u LEFT JOIN orders AS o ON u.id=o.uid WHERE age>$1 ORDER BY age DESC OFFSET $2 LIMIT $3";
                  RSlice [of_gval (VOther 1); RInt "uint" 3; RInt "uint" 10]; RNil]).
Proof. vm_compute. reflexivity. Qed.
Example from_source_single_fields :
  (u <-- run nobody 30 "Table" [RStr "string" "users"]; s <-- ask u "SelectOne" []; f <-- run nobody 30 "Field" [RStr "string" "name"];
   s <-- ask s "Fields" [f]; ask s "BuildQueryAndParams" [])
  = Done (RTuple [RStr "string" "SELECT name FROM  LIMIT 1"; RSlice []; RNil]).
Proof. vm_compute. reflexivity. Qed.
Example from_source_update :
  (a <-- run nobody 30 "EqualTo" [RStr "FieldName" "id"; of_gval (VOther 7)];
   v <-- run nobody 30 "NewFieldValue" [RStr "FieldName" "name"; RStr "string" "x"];
   u <-- ask (RStr "TableName" "users") "Update" [v]; u <-- ask u "Where" [a]; ask u "BuildQueryAndParams" [])
  = Done (RTuple [RStr "string" "UPDATE users SET name=$1 WHERE id=$2"; RSlice [RStr "string" "x"; of_gval (VOther 7)]; RNil]).
Proof. vm_compute. reflexivity. Qed.
