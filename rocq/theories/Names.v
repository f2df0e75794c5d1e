(** Field, table, ordering and join descriptions:
    field_name.go, field_definition.go, fields.go, table_name.go, table_ident.go,
    ordering.go, join_*.go, limiter.go, utils.go, op_type.go, keywords.go, values_map.go. *)
From Coq Require Import String Ascii List NArith ZArith Bool Arith.
From Verif Require Import GoStr Value.
Import ListNotations.
Local Open Scope string_scope.
Local Open Scope nat_scope.

(** * Field names *)

(** The error reasons of FieldName.Validate (field_name.go:18-39). *)
Inductive name_err := EQuote | EDQuote | ESpace | EDots | EEmpty | EEndDot | EStartDot.

(** field_name.go:18-39 FieldName.Validate; None is a nil error. *)
Definition validate (fn : string) : option name_err :=
  if has_byte "'" fn then Some EQuote                       (* 22 *)
  else if has_byte """" fn then Some EDQuote                (* 24 *)
  else if has_byte " " fn then Some ESpace                  (* 26 *)
  else if 1 <? count_byte "." fn then Some EDots            (* 28 *)
  else if is_empty fn then Some EEmpty                      (* 30 *)
  else if has_suffix_byte "." fn then Some EEndDot          (* 32 *)
  else if has_prefix_byte "." fn then Some EStartDot        (* 34 *)
  else None.

(** * Field definitions *)

(** field_definition.go:11-15 *)
Record fdef := mkF { f_name : string; f_table : string; f_alias : string }.

(** interfaces.go:13-15 FieldNameParameter: string | FieldName | FieldDefinition. *)
Inductive fparam := FPStr (s : string) | FPName (s : string) | FPDef (d : fdef).

(** field_definition.go:45-59, the parsing part of FieldOrError; None is an error.
    [nth 1 ... ""] is nameTokens[1]: strings.Split of a string containing "." has
    at least two elements, so the default is never used. *)
Definition parse_field (s : string) : option fdef :=
  match go_fields s with
  | [t] =>
      if has_byte "." t
      then let nt := split_byte "." t in
           Some {| f_name := nth 1 nt ""; f_table := nth 0 nt ""; f_alias := "" |}   (* 49-51 *)
      else Some {| f_name := t; f_table := ""; f_alias := "" |}                      (* 47-48 *)
  | [t; a; al] =>
      if is_as a then
        if has_byte "." t
        then let nt := split_byte "." t in
             Some {| f_name := nth 1 nt ""; f_table := nth 0 nt ""; f_alias := al |} (* 54-56 *)
        else Some {| f_name := t; f_table := ""; f_alias := al |}                    (* 52-53 *)
      else None
  | _ => None                                                                        (* 57-58 *)
  end.

(** field_definition.go:28-60 FieldOrError *)
Definition field_or_error (p : fparam) : option fdef :=
  match p with
  | FPDef d => Some d
  | FPName s | FPStr s => parse_field s
  end.

(** field_definition.go:62-86 mustField and 96-106 Field *)
Definition field_p (p : fparam) : res fdef :=
  match field_or_error p with Some d => Ok d | None => Panic end.

(** Field on a FieldName or string. *)
Definition field (s : string) : res fdef := field_p (FPName s).

(** field_definition.go:125-128 As *)
Definition f_as (d : fdef) (alias : string) : fdef :=
  {| f_name := f_name d; f_table := f_table d; f_alias := alias |}.

(** field_definition.go:131-134 Of *)
Definition f_of (d : fdef) (table : string) : fdef :=
  {| f_name := f_name d; f_table := table; f_alias := f_alias d |}.

(** field_definition.go:137-153 RenderSpec *)
Definition render_spec (d : fdef) : string :=
  let items := (if is_empty (f_table d) then [] else [f_table d ++ "."]) in
  let items := (items ++ [f_name d])%list in
  let items :=
    if negb (is_empty (f_alias d)) && negb (str_eqb (f_alias d) (f_name d))
    then (items ++ [" AS "; f_alias d])%list
    else if negb (is_empty (f_alias d)) && str_eqb (f_alias d) (f_name d) && negb (is_empty (f_table d))
    then (items ++ [" AS "; f_alias d])%list
    else items in
  join "" items.

(** field_definition.go:156-172 RenderField (the local items of 157-161 is unused) *)
Definition render_field (d : fdef) : string :=
  if negb (is_empty (f_alias d)) && negb (str_eqb (f_alias d) (f_name d)) then f_alias d
  else if negb (is_empty (f_table d)) then f_table d ++ "." ++ f_name d
  else f_name d.

(** field_definition.go:177-179 RenderTableSpec *)
Definition render_table_spec (d : fdef) : string := f_table d ++ "." ++ f_name d.

(** * Field values *)

(** value.go:10-13 *)
Record fvalue := mkFV { fv_def : fdef; fv_val : gval }.

(** value.go:99-104 NewFieldValue *)
Definition new_field_value (fn : string) (v : gval) : res fvalue :=
  do d <- field fn; Ok {| fv_def := d; fv_val := v |}.

(** field_name.go:69-76 FieldName.Value *)
Definition fn_value (fn : string) (v : gval) : res fvalue :=
  new_field_value fn (eager_provider v).

(** value.go:17-20 FieldValue.ApplyFieldTable *)
Definition set_table (d : fdef) (table : string) : fdef :=
  {| f_name := f_name d; f_table := table; f_alias := f_alias d |}.

(** value.go:24-30 FieldValue.ApplyFieldSpec (definition part) *)
Definition apply_spec (d spec : fdef) : fdef :=
  if str_eqb (f_name d) (f_name spec) then spec else d.

(** field_definition.go:191-193 FieldDefinition.Value: the alias is dropped and the
    bare field name parsed again. *)
Definition f_value (d : fdef) (v : gval) : res fvalue :=
  do fv <- new_field_value (f_name d) v;
  Ok {| fv_def := set_table (fv_def fv) (f_table d); fv_val := fv_val fv |}.

(** values_map.go:15-29 ValuesMap.FieldValues.  The map is given as its
    (key, value) pairs in the order the runtime happens to iterate; the theorems
    quantify over every order.  Ok None is a non-nil error with a nil slice. *)
Fixpoint map_field_values (m : list (string * gval)) : res (option (list fvalue)) :=
  match m with
  | [] => Ok (Some [])
  | (k, v) :: r =>
      match validate k with
      | Some _ => Ok None                                           (* 20-22 *)
      | None =>
          do fv <- new_field_value k v;                             (* 23 *)
          do rest <- map_field_values r;
          Ok (match rest with Some l => Some (fv :: l) | None => None end)
      end
  end.

(** * Tables *)

(** table_ident.go:15-18 *)
Record tident := mkT { t_name : string; t_alias : string }.

(** interfaces.go:8-10 TableNameParameter *)
Inductive tparam := TPStr (s : string) | TPName (s : string) | TPIdent (t : tident).

(** table_ident.go:47-59, the parsing part of TableOrError *)
Definition parse_table (s : string) : option tident :=
  match go_fields s with
  | [n] => Some {| t_name := n; t_alias := "" |}                                     (* 49-50 *)
  | [n; a; al] =>
      if is_as a && negb (is_empty al) && negb (str_eqb al n)
      then Some {| t_name := n; t_alias := al |}                                     (* 51-52 *)
      else if is_as a && negb (is_empty al) && str_eqb al n
      then Some {| t_name := n; t_alias := "" |}                                     (* 53-54 *)
      else None
  | [n; al] =>
      if negb (is_empty al) && negb (str_eqb al n)
      then Some {| t_name := n; t_alias := al |}                                     (* 55-56 *)
      else None
  | _ => None                                                                        (* 57-58 *)
  end.

(** table_ident.go:31-60 TableOrError *)
Definition table_or_error (p : tparam) : option tident :=
  match p with
  | TPIdent t => Some t
  | TPStr s | TPName s => parse_table s
  end.

(** table_ident.go:69-76 Table *)
Definition table_p (p : tparam) : res tident :=
  match table_or_error p with Some t => Ok t | None => Panic end.

Definition table (s : string) : res tident := table_p (TPName s).

(** table_ident.go:111-118 RenderFrom *)
Definition t_render (t : tident) : string :=
  if negb (is_empty (t_alias t)) && negb (str_eqb (t_alias t) (t_name t))
  then t_name t ++ " AS " ++ t_alias t
  else t_name t.

(** table_ident.go:122-130 As *)
Definition t_as (t : tident) (alias : string) : tident :=
  {| t_name := t_name t; t_alias := if str_eqb alias (t_name t) then "" else alias |}.

(** table_ident.go:140-146 aliasOrName *)
Definition alias_or_name (t : tident) : string :=
  if negb (is_empty (t_alias t)) then t_alias t else t_name t.

(** table_ident.go:135-137 Field; table_name.go:36-38 TableName.Field is [tn_field] *)
Definition t_field (t : tident) (fn : string) : res fdef :=
  do d <- field fn; Ok (f_of d (alias_or_name t)).
Definition tn_field (tn : string) (fn : string) : res fdef :=
  do d <- field fn; Ok (f_of d tn).

(** * Field lists *)

(** fields.go:48-59 FieldList *)
Definition field_list (fs : list fdef) : string :=
  match fs with
  | [] => "*"
  | _ => join ", " (map render_spec fs)
  end.

(** fields.go:64-81 NewFields; None is an argument of another type (panic, line 76). *)
Definition new_fields (args : list (option fparam)) : res (list fdef) :=
  mapM (fun a => match a with Some p => field_p p | None => Panic end) args.

(** * Ordering *)

(** ordering.go:24-27 FieldSorting; the direction is a string *)
Record fsort := mkS { s_def : fdef; s_dir : string }.

(** ordering.go:35-37 *)
Definition s_render (o : fsort) : string := render_field (s_def o) ++ " " ++ s_dir o.

(** ordering.go:60-68 ASC, 72-80 DESC *)
Definition sort_by (dir fn : string) : res fsort :=
  match validate fn with
  | Some _ => Panic
  | None => do d <- field fn; Ok {| s_def := d; s_dir := dir |}
  end.
Definition asc : string -> res fsort := sort_by "ASC".
Definition desc : string -> res fsort := sort_by "DESC".

(** ordering.go:86-97 OrderBy *)
Definition order_by (fn : string) (dirs : list string) : res fsort :=
  match dirs with
  | [] => asc fn
  | d :: _ => if str_eqb d "ASC" then asc fn else if str_eqb d "DESC" then desc fn else Panic
  end.

(** ordering.go:41-47 ApplyFieldSpec, 50-54 applyFieldTable *)
Definition s_apply_spec (o : fsort) (spec : fdef) : fsort :=
  {| s_def := apply_spec (s_def o) spec; s_dir := s_dir o |}.
Definition s_apply_table (o : fsort) (tn : string) : fsort :=
  {| s_def := set_table (s_def o) tn; s_dir := s_dir o |}.

(** * Joins *)

(** join_type.go:8-25, 29-42; a TableJoinType is any int *)
Definition InnerJoin : Z := 0%Z.
Definition LeftJoin : Z := 1%Z.
Definition RightJoin : Z := 2%Z.
Definition FullJoin : Z := 3%Z.
Definition jt_string (j : Z) : string :=
  if (j =? 0)%Z then "INNER JOIN"
  else if (j =? 1)%Z then "LEFT JOIN"
  else if (j =? 2)%Z then "RIGHT JOIN"
  else if (j =? 3)%Z then "FULL JOIN"
  else "unknown JOIN(" ++ itoaZ j ++ ")".

(** join_condition.go:6-9 *)
Record jcond := mkJC { jc_left : fdef; jc_right : fdef }.

(** join_condition.go:47-49 *)
Definition jc_render (c : jcond) : string :=
  render_table_spec (jc_left c) ++ "=" ++ render_table_spec (jc_right c).

(** join_tables.go:15-19 *)
Record joiner := mkJ { j_right : tident; j_type : Z; j_cond : jcond }.

(** the zero values left by the composite literals of select_base.go:190, select_many.go:137 *)
Definition zero_fdef : fdef := {| f_name := ""; f_table := ""; f_alias := "" |}.
Definition zero_jcond : jcond := {| jc_left := zero_fdef; jc_right := zero_fdef |}.

(** join_tables.go:32-35 By *)
Definition j_by (j : joiner) (l r : fdef) : joiner :=
  {| j_right := j_right j; j_type := j_type j; j_cond := {| jc_left := l; jc_right := r |} |}.

(** join_tables.go:38-45 RenderFrom *)
Definition j_render (j : joiner) : string :=
  join " " [jt_string (j_type j); t_render (j_right j); "ON"; jc_render (j_cond j)].

(** join_condition.go:14-20 Using and join_type.go:45-47 By *)
Definition jt_by (j : Z) (l r : fdef) : res joiner :=
  do t <- table (f_table r);
  Ok {| j_right := t; j_type := j; j_cond := {| jc_left := l; jc_right := r |} |}.

(** * Limiter *)

(** limiter.go:12-15; uint modelled as N (no 64-bit wrap-around occurs: values are only stored) *)
Record limiter := mkL { lim_limit : N; lim_offset : N }.

(** limiter.go:36-53 Render; every paramNum++ is [n + 1] *)
Definition lim_render (q : limiter) (n : nat) : string :=
  let '(sql, n) := if (0 <? lim_offset q)%N then ("OFFSET $" ++ itoa (n + 1), n + 1) else ("", n) in
  if (0 <? lim_limit q)%N
  then (if is_empty sql then sql else sql ++ " ") ++ "LIMIT $" ++ itoa (n + 1)
  else sql.

(** limiter.go:57-72 RenderSQL *)
Definition lim_render_sql (q : limiter) : string :=
  let sql := if (0 <? lim_offset q)%N then "OFFSET ?" else "" in
  if (0 <? lim_limit q)%N
  then (if is_empty sql then sql else sql ++ " ") ++ "LIMIT ?"
  else sql.

(** limiter.go:77-91 Values *)
Definition lim_values (q : limiter) : list gval :=
  if (0 <? lim_offset q)%N && (0 <? lim_limit q)%N then [VUint (lim_offset q); VUint (lim_limit q)]
  else if (0 <? lim_offset q)%N && (lim_limit q =? 0)%N then [VUint (lim_offset q)]
  else if (lim_offset q =? 0)%N && (0 <? lim_limit q)%N then [VUint (lim_limit q)]
  else [].

(** limiter.go:19-22 Offset, 27-30 Limit *)
Definition lim_set_offset (q : limiter) (o : N) : limiter := {| lim_limit := lim_limit q; lim_offset := o |}.
Definition lim_set_limit (q : limiter) (l : N) : limiter := {| lim_limit := l; lim_offset := lim_offset q |}.

(** * Utilities *)

(** utils.go:7-13: linear search *)
Fixpoint found (l : list string) (s : string) : bool :=
  match l with
  | [] => false
  | x :: r => if str_eqb x s then true else found r s
  end.

(** utils.go:4-19 UniqFieldNames *)
Fixpoint uniq_aux (answer a : list string) : list string :=
  match a with
  | [] => answer
  | s :: r => uniq_aux (if found answer s then answer else (answer ++ [s])%list) r
  end.
Definition uniq_field_names (a : list string) : list string := uniq_aux [] a.

(** op_type.go:8-37; an Operation is any int *)
Definition DoSelect : Z := 0%Z.
Definition DoInsert : Z := 1%Z.
Definition DoUpdate : Z := 2%Z.
Definition DoDelete : Z := 3%Z.
Definition op_string (o : Z) : string :=
  if (o =? 0)%Z then "SELECT"
  else if (o =? 1)%Z then "INSERT"
  else if (o =? 2)%Z then "UPDATE"
  else if (o =? 3)%Z then "DELETE"
  else "unknown(" ++ itoaZ o ++ ")".
