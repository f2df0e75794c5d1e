(** Query builders: build_base.go, select_base.go, select_many.go, select_single.go,
    count.go, insert.go, update.go, delete.go, join_unfinished.go.
    Functional reading: slices are lists; sharing of backing arrays is in Heap.v. *)
From Coq Require Import String Ascii List NArith ZArith Bool Arith.
From Verif Require Import GoStr Value Names Cond.
Import ListNotations.
Local Open Scope string_scope.
Local Open Scope nat_scope.

(** Results of BuildQueryAndParams (sql, params, err).  A nil and an empty params
    slice are not distinguished. *)
Inductive berr := ENoConditions | ENoValues | ENoTable.
Record out := mkOut { o_sql : string; o_params : list gval; o_err : option berr }.
Definition fail (e : berr) : out := {| o_sql := ""; o_params := []; o_err := Some e |}.
Definition ok (s : string) (p : list gval) : out := {| o_sql := s; o_params := p; o_err := None |}.

Definition nonempty {A} (l : list A) : bool := match l with [] => false | _ => true end.

(** * Base select *)

(** select_base.go:12-18, with BaseBuilder.op (build_base.go:4-6) *)
Record bsel := mkB {
  b_op : Z; b_table : tident; b_joins : list joiner; b_fields : list fdef; b_where : group
}.

(** select_base.go:246-267 SelectFrom; op is left at its zero value DoSelect *)
Definition select_from (p : tparam) : res bsel :=
  do t <- match p with
          | TPStr s => table s                                   (* 253-254 *)
          | TPName s => table s                                  (* 255-256 *)
          | TPIdent t => Ok t                                    (* 257-258 *)
          end;
  Ok {| b_op := DoSelect; b_table := t; b_joins := []; b_fields := []; b_where := empty_group |}.

(** the zero BaseSelectBuilder (select_single.go:27) *)
Definition zero_bsel : bsel :=
  {| b_op := DoSelect; b_table := {| t_name := ""; t_alias := "" |}; b_joins := [];
     b_fields := []; b_where := zero_group |}.

(** select_base.go:117-122 Fields with fields.go:29-37: the list is replaced *)
Definition b_set_fields (b : bsel) (fs : list fdef) : bsel :=
  {| b_op := b_op b; b_table := b_table b; b_joins := b_joins b; b_fields := fs; b_where := b_where b |}.

Definition b_set_where (b : bsel) (g : group) : bsel :=
  {| b_op := b_op b; b_table := b_table b; b_joins := b_joins b; b_fields := b_fields b; b_where := g |}.

Definition b_set_joins (b : bsel) (js : list joiner) : bsel :=
  {| b_op := b_op b; b_table := b_table b; b_joins := js; b_fields := b_fields b; b_where := b_where b |}.

(** select_base.go:131-136 Where *)
Definition b_add_where (b : bsel) (cs : list cond) : res bsel :=
  do g <- group_and (b_where b) cs; Ok (b_set_where b g).

(** select_base.go:188-192 joinIdent; the result is wrapped in incompleteBaseJoiner
    (join_unfinished.go:5-7), which has the same data *)
Definition b_join_open (b : bsel) (t : tident) (jt : Z) : bsel :=
  b_set_joins b (b_joins b ++ [{| j_right := t; j_type := jt; j_cond := zero_jcond |}])%list.

(** join_unfinished.go:12-18 On: overwrites the last join (also 29-35 and 46-52).
    An index of -1 panics; it cannot happen after joinIdent. *)
Definition on_last (js : list joiner) (l r : fdef) : res (list joiner) :=
  match rev js with
  | [] => Panic
  | j :: before => Ok (rev before ++ [j_by j l r])%list
  end.
Definition b_on (b : bsel) (l r : fdef) : res bsel :=
  do js <- on_last (b_joins b) l r; Ok (b_set_joins b js).

(** select_base.go:199-201 Join(...).On(l, r); 208-237 are Join with a fixed type *)
Definition b_join (b : bsel) (t : tident) (jt : Z) (l r : fdef) : res bsel :=
  b_on (b_join_open b t jt) l r.

(** select_base.go:77-86 RenderFrom *)
Definition b_render_from (b : bsel) : string :=
  join " " (t_render (b_table b) :: map j_render (b_joins b)).

(** select_base.go:92-101, 49-58, 30-39: the tokens before WHERE *)
Definition b_tokens (b : bsel) : list string :=
  ([op_string DoSelect; field_list (b_fields b); "FROM"; t_render (b_table b)]
   ++ map j_render (b_joins b))%list.

(** select_base.go:90-109 BuildQueryAndParams *)
Definition b_build (b : bsel) : res out :=
  if nonempty (g_cs (b_where b)) then
    do w <- c_render (of_g (b_where b)) 0;
    do vs <- c_values (of_g (b_where b));
    Ok (ok (join " " (b_tokens b ++ ["WHERE"; w])%list) vs)
  else Ok (ok (join " " (b_tokens b)) []).

(** select_base.go:48-65 Render *)
Definition b_render (b : bsel) (n : nat) : res string :=
  if nonempty (g_cs (b_where b)) then
    do w <- c_render (of_g (b_where b)) n;
    Ok (join " " (b_tokens b ++ ["WHERE"; w])%list)
  else Ok (join " " (b_tokens b)).

(** select_base.go:29-46 RenderSQL *)
Definition b_render_sql (b : bsel) : res string :=
  if nonempty (g_cs (b_where b)) then
    do w <- c_render_sql (of_g (b_where b));
    Ok (join " " (b_tokens b ++ ["WHERE"; w])%list)
  else Ok (join " " (b_tokens b)).

(** select_base.go:67-75 Values *)
Definition b_values (b : bsel) : res (list gval) :=
  if nonempty (g_cs (b_where b)) then c_values (of_g (b_where b)) else Ok [].

(** * Select many *)

(** select_many.go:12-18; tableSpec is never read *)
Record msel := mkM { m_base : bsel; m_offset : N; m_limit : Z; m_order : list fsort }.

(** select_many.go:186-194 SelectManyFromBase, 162-166 of select_base.go Many; noLimit = -1 *)
Definition many_of (b : bsel) : msel :=
  {| m_base := b; m_offset := 0%N; m_limit := (-1)%Z; m_order := [] |}.

(** select_many.go:197-205 *)
Definition select_many_from (p : tparam) : res msel := do b <- select_from p; Ok (many_of b).

Definition m_set_base (m : msel) (b : bsel) : msel :=
  {| m_base := b; m_offset := m_offset m; m_limit := m_limit m; m_order := m_order m |}.

(** select_many.go:61-66 Fields *)
Definition m_set_fields (m : msel) (fs : list fdef) : msel := m_set_base m (b_set_fields (m_base m) fs).
(** select_many.go:94-97 Offset, 100-103 Limit *)
Definition m_set_offset (m : msel) (o : N) : msel :=
  {| m_base := m_base m; m_offset := o; m_limit := m_limit m; m_order := m_order m |}.
Definition m_set_limit (m : msel) (l : Z) : msel :=
  {| m_base := m_base m; m_offset := m_offset m; m_limit := l; m_order := m_order m |}.
(** select_many.go:106-109 OrderBy *)
Definition m_add_order (m : msel) (os : list fsort) : msel :=
  {| m_base := m_base m; m_offset := m_offset m; m_limit := m_limit m; m_order := (m_order m ++ os)%list |}.
(** select_many.go:113-116 Where *)
Definition m_add_where (m : msel) (cs : list cond) : res msel :=
  do b <- b_add_where (m_base m) cs; Ok (m_set_base m b).
(** select_many.go:144-146 Join (right table is a TableName) with 135-139 and join_unfinished.go:29-35 *)
Definition m_join (m : msel) (tn : string) (jt : Z) (l r : fdef) : res msel :=
  do t <- table tn; do b <- b_join (m_base m) t jt l r; Ok (m_set_base m b).

(** select_many.go:30-38 *)
Definition order_clause (os : list fsort) : string :=
  match os with
  | [] => ""
  | _ => " ORDER BY " ++ join ", " (map s_render os)
  end.

(** select_many.go:27-52 BuildQueryAndParams.  [sql += ...] in the ORDER BY loop
    (32-37) is a comma-separated join. *)
Definition m_build (m : msel) : res out :=
  do r <- b_build (m_base m);
  let sql := o_sql r ++ order_clause (m_order m) in
  let params := o_params r in
  let '(sql, params) :=
    if (0 <? m_offset m)%N
    then let params := (params ++ [VUint (m_offset m)])%list in
         (sql ++ " OFFSET $" ++ itoa (length params), params)
    else (sql, params) in
  let '(sql, params) :=
    if (0 <? m_limit m)%Z
    then let params := (params ++ [VUint (Z.to_N (m_limit m))])%list in
         (sql ++ " LIMIT $" ++ itoa (length params), params)
    else (sql, params) in
  Ok (ok sql params).

(** RenderSQL, Render and Values of a SelectManyBuilder are the promoted methods of
    the embedded BaseSelectBuilder (select_many.go:13). *)
Definition m_render_sql (m : msel) : res string := b_render_sql (m_base m).
Definition m_render (m : msel) (n : nat) : res string := b_render (m_base m) n.
Definition m_values (m : msel) : res (list gval) := b_values (m_base m).

(** * Select single *)

(** select_single.go:4-6 *)
Record ssel := mkSS { ss_base : bsel }.

(** select_single.go:101-110, select_base.go:158-160 *)
Definition single_of (b : bsel) : ssel := {| ss_base := b |}.
Definition select_single_from (p : tparam) : res ssel := do b <- select_from p; Ok (single_of b).

(** select_single.go:27-30 Fields: works on the zero builder [updated], not on [query] *)
Definition ss_set_fields (s : ssel) (fs : list fdef) : ssel :=
  {| ss_base := b_set_fields zero_bsel fs |}.
(** select_single.go:39-42 *)
Definition ss_add_where (s : ssel) (cs : list cond) : res ssel :=
  do b <- b_add_where (ss_base s) cs; Ok {| ss_base := b |}.
(** select_single.go:64-66 *)
Definition ss_join (s : ssel) (tn : string) (jt : Z) (l r : fdef) : res ssel :=
  do t <- table tn; do b <- b_join (ss_base s) t jt l r; Ok {| ss_base := b |}.
(** select_single.go:15-18 *)
Definition ss_build (s : ssel) : res out :=
  do r <- b_build (ss_base s);
  Ok (ok (o_sql r ++ " LIMIT 1") (o_params r)).
(** promoted from BaseSelectBuilder (select_single.go:5) *)
Definition ss_render_sql (s : ssel) : res string := b_render_sql (ss_base s).
Definition ss_values (s : ssel) : res (list gval) := b_values (ss_base s).

(** * Count *)

(** count.go:9-12 *)
Record csel := mkCS { cs_base : bsel; cs_field : fdef }.

(** count.go:42-52 Count *)
Definition count (b : bsel) (fs : list string) : res csel :=
  do f <- match fs with fn :: _ => field fn | [] => field "*" end;
  Ok {| cs_base := b; cs_field := f |}.
(** select_many.go:181-183, select_base.go:240-242 *)
Definition m_count (m : msel) : res csel := count (m_base m) [].
Definition b_count (b : bsel) : res csel := count b [].

(** count.go:22-36 *)
Definition cs_build (c : csel) : res out :=
  let toks := [op_string DoSelect; "COUNT" ++ "(" ++ render_field (cs_field c) ++ ")"; "FROM";
               b_render_from (cs_base c)] in
  if nonempty (g_cs (b_where (cs_base c))) then
    do w <- c_render (of_g (b_where (cs_base c))) 0;
    do vs <- c_values (of_g (b_where (cs_base c)));
    Ok (ok (join " " (toks ++ ["WHERE"; w])%list) vs)
  else Ok (ok (join " " toks) []).

(** * Insert *)

(** insert.go:10-14 *)
Record ins := mkI { i_op : Z; i_table : string; i_values : list fvalue }.

(** insert.go:81-88, update.go:96-103, delete.go:64-71: the name is taken as is *)
Definition raw_table_name (p : tparam) : string :=
  match p with TPStr s => s | TPName s => s | TPIdent t => t_name t end.

(** insert.go:75-95 InsertInto *)
Definition insert_into (p : tparam) : ins :=
  {| i_op := DoInsert; i_table := raw_table_name p; i_values := [] |}.
(** insert.go:28-31 Values *)
Definition i_add (i : ins) (vs : list fvalue) : ins :=
  {| i_op := i_op i; i_table := i_table i; i_values := (i_values i ++ vs)%list |}.

(** insert.go:50-55: columns, placeholders and params, given the params so far *)
Fixpoint ins_loop (params : list gval) (fvs : list fvalue) : res (list string * list string * list gval) :=
  match fvs with
  | [] => Ok ([], [], params)
  | fv :: r =>
      do vs <- fv_values (fv_val fv);
      let params := (params ++ vs)%list in
      let ph := dollar (length params) in
      do t <- ins_loop params r;
      let '(cols, phs, params') := t in
      Ok (f_name (fv_def fv) :: cols, ph :: phs, params')
  end.

(** insert.go:36-65 BuildQueryAndParams *)
Definition i_build (i : ins) : res out :=
  if negb (nonempty (i_values i)) then Ok (fail ENoValues)
  else if is_empty (i_table i) then Ok (fail ENoTable)
  else
    do t <- ins_loop [] (i_values i);
    let '(cols, phs, params) := t in
    Ok (ok (join " " ["INSERT"; "INTO"; i_table i ++ "(" ++ join ", " cols ++ ")"; "VALUES";
                      "(" ++ join ", " phs ++ ")"]) params).

(** * Update *)

(** update.go:10-15 *)
Record upd := mkU { u_op : Z; u_table : string; u_where : group; u_values : list fvalue }.

(** update.go:90-111 Update *)
Definition update_ (p : tparam) : upd :=
  {| u_op := DoUpdate; u_table := raw_table_name p; u_where := empty_group; u_values := [] |}.
(** update.go:29-32 Set *)
Definition u_add (u : upd) (vs : list fvalue) : upd :=
  {| u_op := u_op u; u_table := u_table u; u_where := u_where u; u_values := (u_values u ++ vs)%list |}.
(** update.go:35-38 Where *)
Definition u_add_where (u : upd) (cs : list cond) : res upd :=
  do g <- group_and (u_where u) cs;
  Ok {| u_op := u_op u; u_table := u_table u; u_where := g; u_values := u_values u |}.

(** update.go:44-47: fieldValue.Values()[0] panics on an empty list *)
Definition first_value (fv : fvalue) : res gval :=
  do vs <- fv_values (fv_val fv);
  match vs with [] => Panic | v :: _ => Ok v end.

(** update.go:40-50 fieldsAndValues *)
Definition fields_and_values (fvs : list fvalue) : res (string * list gval) :=
  do params <- mapM first_value fvs;
  Ok (join ", " (map (fun p => f_name (fv_def (snd p)) ++ "=" ++ dollar (fst p + 1))
                     (combine (seq 0 (length fvs)) fvs)), params).

(** update.go:54-80 BuildQueryAndParams *)
Definition u_build (u : upd) : res out :=
  if negb (nonempty (g_cs (u_where u))) then Ok (fail ENoConditions)
  else if negb (nonempty (u_values u)) then Ok (fail ENoValues)
  else if is_empty (u_table u) then Ok (fail ENoTable)
  else
    do t <- fields_and_values (u_values u);
    let '(sets, params) := t in
    do w <- c_render (of_g (u_where u)) (length params);
    do vs <- c_values (of_g (u_where u));
    Ok (ok (join " " ["UPDATE"; u_table u; "SET"; sets; "WHERE"; w]) (params ++ vs)%list).

(** * Delete *)

(** delete.go:9-13 *)
Record del := mkD { d_op : Z; d_table : string; d_where : group }.

(** delete.go:58-78 Delete *)
Definition delete_ (p : tparam) : del :=
  {| d_op := DoDelete; d_table := raw_table_name p; d_where := empty_group |}.
(** delete.go:21-24 Where *)
Definition d_add_where (d : del) (cs : list cond) : res del :=
  do g <- group_and (d_where d) cs;
  Ok {| d_op := d_op d; d_table := d_table d; d_where := g |}.

(** delete.go:28-48 BuildQueryAndParams; len(params) is 0 at line 42 *)
Definition d_build (d : del) : res out :=
  if negb (nonempty (g_cs (d_where d))) then Ok (fail ENoConditions)
  else if is_empty (d_table d) then Ok (fail ENoTable)
  else
    do w <- c_render (of_g (d_where d)) 0;
    do vs <- c_values (of_g (d_where d));
    Ok (ok (join " " ["DELETE"; "FROM"; d_table d; "WHERE"; w]) vs).

(** * Conversions *)

(** select_base.go:147-149 Update; select_single.go:46-48 *)
Definition b_update (b : bsel) (vs : list fvalue) : res upd :=
  do u <- u_add_where (update_ (TPIdent (b_table b))) (g_cs (b_where b)); Ok (u_add u vs).
(** select_base.go:153-155 Delete *)
Definition b_delete (b : bsel) : res del :=
  d_add_where (delete_ (TPIdent (b_table b))) (g_cs (b_where b)).
(** select_many.go:120-122 Update, 126-128 Delete: via TableName() *)
Definition m_update (m : msel) (vs : list fvalue) : res upd :=
  do u <- u_add_where (update_ (TPName (t_name (b_table (m_base m))))) (g_cs (b_where (m_base m)));
  Ok (u_add u vs).
Definition m_delete (m : msel) : res del :=
  d_add_where (delete_ (TPName (t_name (b_table (m_base m))))) (g_cs (b_where (m_base m))).
(** select_single.go:46-48 Update; Delete is promoted from BaseSelectBuilder *)
Definition ss_update (s : ssel) (vs : list fvalue) : res upd := b_update (ss_base s) vs.
Definition ss_delete (s : ssel) : res del := b_delete (ss_base s).
(** select_base.go:141-143 InsertInto *)
Definition b_insert (b : bsel) (vs : list fvalue) : ins := i_add (insert_into (TPIdent (b_table b))) vs.

(** * Shorthands of table_name.go and table_ident.go *)

(** table_name.go:49-51, table_ident.go:151-153 *)
Definition tp_select (p : tparam) (cs : list cond) : res bsel := do b <- select_from p; b_add_where b cs.
(** table_name.go:56-58, table_ident.go:158-160 *)
Definition tp_select_one (p : tparam) (cs : list cond) : res ssel :=
  do s <- select_single_from p; ss_add_where s cs.
(** table_name.go:63-65, table_ident.go:165-167 *)
Definition tp_select_many (p : tparam) (cs : list cond) : res msel :=
  do m <- select_many_from p; m_add_where m cs.
(** table_name.go:12-14, table_ident.go:80-82 *)
Definition tp_insert (p : tparam) (vs : list fvalue) : ins := i_add (insert_into p) vs.
(** table_name.go:18-20, table_ident.go:86-88 *)
Definition tp_update (p : tparam) (vs : list fvalue) : upd := u_add (update_ p) vs.
(** table_name.go:24-26, table_ident.go:92-94 *)
Definition tp_delete (p : tparam) (cs : list cond) : res del := d_add_where (delete_ p) cs.
(** table_ident.go:171-173 *)
Definition t_count (t : tident) (cs : list cond) : res csel := do b <- tp_select (TPIdent t) cs; b_count b.
