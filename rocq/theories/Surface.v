(** The rest of the exported surface: shorthand constructors, promoted methods, join
    entry points, accessors, ordering rewrites and the WhereClause wrapper. *)
From Coq Require Import String Ascii List Bool Arith NArith ZArith.
From Verif Require Import GoStr Value Names Cond Build.
Import ListNotations.
Local Open Scope string_scope.
Local Open Scope nat_scope.

(** * Shorthands on FieldName *)

(** field_name.go:47-49 Contains, 53-55 IContains, 58-60 EqualTo, 63-65 In, 79-81 IsNull, 85-87 Field *)
Definition fn_contains (fn s : string) : res cond := contains_ fn s.
Definition fn_icontains (fn s : string) : res cond := icontains_ fn s.
Definition fn_equal_to (fn : string) (v : gval) : res cond := equal_to fn v.
Definition fn_in (fn : string) (v : gval) : res cond := in_ fn v.
Definition fn_is_null (fn : string) : res cond := is_null fn.
Definition fn_field (fn : string) : res fdef := field fn.

(** * Accessors of conditions *)

(** base.go:49-51 IsNegate *)
Definition is_negate (c : cond) : res bool :=
  match c with
  | CNil => Panic
  | CLeaf l => Ok (l_neg l)
  | CGrp _ n _ _ => Ok n
  end.
(** field_definition.go:109-111 FieldName (promoted to the leaves), group.go:29-31 *)
Definition c_field_name (c : cond) : res string :=
  match c with
  | CNil => Panic
  | CLeaf l => Ok (f_name (l_def l))
  | CGrp _ _ _ _ => Ok ""
  end.
(** base.go:68-74 RenderJoin *)
Definition c_render_join (isFirst : bool) (c : cond) : res string :=
  do j <- jtype c; Ok (render_join isFirst j).

(** * WhereClause *)

(** where.go:13-17 GroupAND, 24-28 GroupOR; the clause is its group (where.go:4-6) *)
Definition w_group_and (w : group) (cs : list cond) : res group := group_and w cs.
Definition w_group_or (w : group) (cs : list cond) : res group := group_or w cs.
(** where.go:32-36 ApplyFieldSpec: the type assertion .(Group) panics on anything else *)
Definition w_apply_spec (w : group) (spec : fdef) : res group :=
  do c <- c_apply_spec spec (of_g w);
  match as_group c with Some g => Ok g | None => Panic end.
(** where.go:39-44 Conditions: a copy of the slice (aliasing: C42 in PropsHeap.v) *)
Definition w_conditions (w : group) : list cond := g_cs w.
(** where.go:50-52 Render, 57-59 RenderSQL, 62-64 Values *)
Definition w_render (w : group) (n : nat) : res string := c_render (of_g w) n.
Definition w_render_sql (w : group) : res string := c_render_sql (of_g w).
Definition w_values (w : group) : res (list gval) := c_values (of_g w).
(** where.go:67-69 String *)
Definition w_string (w : group) : res string := do s <- w_render_sql w; Ok ("Where(" ++ s ++ ")").
(** fields.go:14-20 String, 24-26 Len *)
Definition fs_string (fs : list fdef) : string := "Fields(" ++ join "," (map render_spec fs) ++ ")".
Definition fs_len (fs : list fdef) : nat := length fs.

(** * Promoted methods *)

(** select_base.go:164-166 Many, 169-171 Offset, 174-176 Limit, 179-181 OrderBy *)
Definition b_many (b : bsel) : msel := many_of b.
Definition b_offset (b : bsel) (o : N) : msel := m_set_offset (b_many b) o.
Definition b_limit (b : bsel) (l : Z) : msel := m_set_limit (b_many b) l.
Definition b_order (b : bsel) (os : list fsort) : msel := m_add_order (b_many b) os.

(** SelectManyBuilder embeds BaseSelectBuilder (select_many.go:13) and does not define
    Single, Many and InsertInto: the base's methods are promoted and get the embedded
    base only (select_base.go:158-160, 164-166, 141-143). *)
Definition m_single (m : msel) : ssel := single_of (m_base m).
Definition m_many (m : msel) : msel := b_many (m_base m).
Definition m_insert (m : msel) (vs : list fvalue) : ins := b_insert (m_base m) vs.

(** SelectSingleBuilder embeds BaseSelectBuilder (select_single.go:5) and does not define
    Single, Many, Offset, Limit, OrderBy, Count and InsertInto (select_base.go:158-181, 240-242, 141-143). *)
Definition ss_single (s : ssel) : ssel := single_of (ss_base s).
Definition ss_many (s : ssel) : msel := b_many (ss_base s).
Definition ss_offset (s : ssel) (o : N) : msel := b_offset (ss_base s) o.
Definition ss_limit (s : ssel) (l : Z) : msel := b_limit (ss_base s) l.
Definition ss_order (s : ssel) (os : list fsort) : msel := b_order (ss_base s) os.
Definition ss_count (s : ssel) : res csel := b_count (ss_base s).
Definition ss_insert (s : ssel) (vs : list fvalue) : ins := b_insert (ss_base s) vs.

(** * Join entry points, each followed by On(l, r) *)

(** table_name.go:72-74, table_ident.go:180-182 Join: Select() first (49-51, 151-153) *)
Definition tp_join (p : tparam) (t : tident) (jt : Z) (l r : fdef) : res bsel :=
  do b <- tp_select p []; b_join b t jt l r.
(** table_name.go:81-83, table_ident.go:189-191 InnerJoin and the three others *)
Definition tp_inner (p : tparam) (t : tident) := tp_join p t InnerJoin.
Definition tp_left (p : tparam) (t : tident) := tp_join p t LeftJoin.      (* 90-92, 198-200 *)
Definition tp_right (p : tparam) (t : tident) := tp_join p t RightJoin.    (* 99-101, 207-209 *)
Definition tp_full (p : tparam) (t : tident) := tp_join p t FullJoin.      (* 108-110, 216-218 *)
(** select_base.go:208-237 *)
Definition b_inner (b : bsel) (t : tident) := b_join b t InnerJoin.
Definition b_left (b : bsel) (t : tident) := b_join b t LeftJoin.
Definition b_right (b : bsel) (t : tident) := b_join b t RightJoin.
Definition b_full (b : bsel) (t : tident) := b_join b t FullJoin.
(** select_many.go:152-178 *)
Definition m_inner (m : msel) (tn : string) := m_join m tn InnerJoin.
Definition m_left (m : msel) (tn : string) := m_join m tn LeftJoin.
Definition m_right (m : msel) (tn : string) := m_join m tn RightJoin.
Definition m_full (m : msel) (tn : string) := m_join m tn FullJoin.
(** select_single.go:72-98 *)
Definition ss_inner (s : ssel) (tn : string) := ss_join s tn InnerJoin.
Definition ss_left (s : ssel) (tn : string) := ss_join s tn LeftJoin.
Definition ss_right (s : ssel) (tn : string) := ss_join s tn RightJoin.
Definition ss_full (s : ssel) (tn : string) := ss_join s tn FullJoin.
(** join_type.go:51-53 Tables *)
Definition jt_tables (jt : Z) (left right : tident) (l r : fdef) : res bsel :=
  do b <- tp_select (TPIdent left) []; b_join b right jt l r.
(** join_condition.go:24-44: Using with a fixed type ([jt_by] of Names.v is JoinFields(l, r).Using) *)
Definition jf_inner := jt_by InnerJoin.
Definition jf_left := jt_by LeftJoin.
Definition jf_right := jt_by RightJoin.
Definition jf_full := jt_by FullJoin.

(** * Orderings of a SelectManyBuilder *)

Definition m_set_order (m : msel) (os : list fsort) : msel :=
  {| m_base := m_base m; m_offset := m_offset m; m_limit := m_limit m; m_order := os |}.
(** select_many.go:74-82 applySpecToOrdering (unexported and never called); functional
    reading: the writes to query.order[idx] replace the elements of the list *)
Definition m_spec_order (m : msel) (spec : fdef) : msel :=
  m_set_order m (map (fun o => if str_eqb (f_name spec) (f_name (s_def o)) then s_apply_spec o spec else o) (m_order m)).
(** select_many.go:85-91 applyFieldTableToOrdering (unexported and never called) *)
Definition m_table_order (m : msel) (tn : string) : msel :=
  m_set_order m (map (fun o => s_apply_table o tn) (m_order m)).

(** * Accessors of builders *)

(** select_base.go:112-114, insert.go:68-70, update.go:83-85, delete.go:51-53 TableName;
    table_ident.go:99-101 *)
Definition b_table_name (b : bsel) : string := t_name (b_table b).
Definition i_table_name (i : ins) : string := i_table i.
Definition u_table_name (u : upd) : string := u_table u.
Definition d_table_name (d : del) : string := d_table d.
(** select_base.go:125-127 with fields.go:40-45 FieldDefinitions; select_many.go:69-71, select_single.go:33-35 *)
Definition b_field_definitions (b : bsel) : list fdef := b_fields b.
Definition m_field_definitions (m : msel) : list fdef := b_fields (m_base m).
Definition ss_field_definitions (s : ssel) : list fdef := b_fields (ss_base s).
(** select_many.go:55-57, select_single.go:21-23 FieldList *)
Definition m_field_list (m : msel) : string := field_list (b_fields (m_base m)).
Definition ss_field_list (s : ssel) : string := field_list (b_fields (ss_base s)).
(** insert.go:22-24, update.go:23-25 SetValues *)
Definition i_set_values (i : ins) : list fvalue := i_values i.
Definition u_set_values (u : upd) : list fvalue := u_values u.
(** insert.go:17-19, update.go:18-20, delete.go:16-18 RenderFrom (table_name.go:42-44) *)
Definition i_render_from (i : ins) : string := i_table i.
Definition u_render_from (u : upd) : string := u_table u.
Definition d_render_from (d : del) : string := d_table d.
(** count.go:16-18, select_many.go:21-23, select_single.go:9-11 RenderFrom *)
Definition cs_render_from (c : csel) : string := b_render_from (cs_base c).
Definition m_render_from (m : msel) : string := b_render_from (m_base m).
Definition ss_render_from (s : ssel) : string := b_render_from (ss_base s).
(** field_definition.go:183-185 TableFieldName *)
Definition table_field_name (d : fdef) : string := render_table_spec d.
(** table_name.go:30-32 Ident *)
Definition tn_ident (tn : string) : res tident := table tn.

(** * String and plain accessors *)

(** select_base.go:21-27 String; %T of the receiver is "query.BaseSelectBuilder" (the package is
    called query) and %v of a string is the string. SelectManyBuilder (select_many.go:13) and
    SelectSingleBuilder (select_single.go:5) embed the base and have its String promoted: the
    receiver is the embedded base. *)
Definition b_string (b : bsel) : res string :=
  do w <- w_string (b_where b);
  Ok (join "," ["query.BaseSelectBuilder(" ++ b_render_from b ++ ")"; fs_string (b_fields b); w]).
Definition m_string (m : msel) : res string := b_string (m_base m).
Definition ss_string (s : ssel) : res string := b_string (ss_base s).

(** Functions read as the record constructors and projections of Names.v or as the identity on
    strings: join_condition.go:53-55 JoinFields = mkJC, join_tables.go:48-50 NewTableJoiner = mkJ,
    22-24 JoinCondition = j_cond, 27-29 JoinType = j_type; table_ident.go:104-106 Alias = t_alias;
    field_definition.go:114-116 Alias = f_alias, 119-121 TableName = f_table, 96-106 Field = field_p;
    ordering.go:30-32 Direction = s_dir; String of FieldName (field_name.go:42-44), TableName
    (table_name.go:7-9), SortDirection (ordering.go:11-13), SQLKeyWord (keywords.go:21-23) and JoinType
    (logical.go:7-9); op_type.go:40-42 New and build_base.go:10-12 Operation: a BaseBuilder is its
    operation. *)
