(** Conditions: base.go, logical.go, operations.go, group.go, lib_*.go, where.go. *)
From Coq Require Import String Ascii List Bool Arith.
From Verif Require Import GoStr Value Names.
Import ListNotations.
Local Open Scope string_scope.
Local Open Scope nat_scope.

(** logical.go:4-17; a JoinType is any string. *)
Definition AND : string := "AND".
Definition OR : string := "OR".

(** A user-written Condition type (README.md:17), built like the library's own
    ones from BaseCondition and FieldValue: its three renderers are arbitrary
    functions of the embedded data.  Simplification: its Join, Negate, And, Or,
    ApplyField* follow the library pattern (lib_equal.go). *)
Record custom := mkCustom {
  cu_render : bool -> fdef -> gval -> nat -> string;
  cu_sql    : bool -> fdef -> gval -> string;
  cu_values : bool -> fdef -> gval -> res (list gval)
}.

(** The condition types of lib_*.go. *)
Inductive kind :=
| KEq      (* lib_equal.go:9  equalTo *)
| KGt      (* lib_gt.go:9     greater *)
| KGe      (* lib_gte.go:10   greaterOrEqual *)
| KLt      (* lib_lt.go:13    less *)
| KLe      (* lib_lte.go:14   lessOrEqual *)
| KLike    (* lib_like.go:10  contains *)
| KILike   (* lib_ilike.go:12 iContains *)
| KIn      (* lib_in.go:13    in *)
| KNull    (* lib_isnull.go:7 nullValue *)
| KCustom (cu : custom).

(** BaseCondition (base.go:18-21) + FieldValue (value.go:10-13); for nullValue
    (lib_isnull.go:7-10) there is no value and [l_val] is unused. *)
Record leaf := mkLeaf {
  l_kind : kind; l_join : string; l_neg : bool; l_def : fdef; l_val : gval
}.

(** A Condition interface value: nil, a leaf, or a Group value (group.go:4-8).
    Simplification: *Group used as a Condition is not modelled; leaves behind a
    pointer (as the constructors return them) and leaf values behave alike. *)
Inductive cond :=
| CNil
| CLeaf (l : leaf)
| CGrp (j : string) (n : bool) (cs : list cond) (br : bool).

(** group.go:4-8 *)
Record group := mkG { g_join : string; g_neg : bool; g_cs : list cond; g_br : bool }.

(** Group to Condition and the type assertion condition.(Group) *)
Definition of_g (g : group) : cond := CGrp (g_join g) (g_neg g) (g_cs g) (g_br g).
Definition as_group (c : cond) : option group :=
  match c with
  | CGrp j n cs br => Some {| g_join := j; g_neg := n; g_cs := cs; g_br := br |}
  | _ => None
  end.

(** * Small methods; a call on the nil interface panics *)

(** base.go:24-26 JoinType *)
Definition jtype (c : cond) : res string :=
  match c with
  | CNil => Panic
  | CLeaf l => Ok (l_join l)
  | CGrp j _ _ _ => Ok j
  end.

(** base.go:29-32, lib_*.go Join, group.go:17-20 *)
Definition c_join (j : string) (c : cond) : res cond :=
  match c with
  | CNil => Panic
  | CLeaf l => Ok (CLeaf {| l_kind := l_kind l; l_join := j; l_neg := l_neg l; l_def := l_def l; l_val := l_val l |})
  | CGrp _ n cs br => Ok (CGrp j n cs br)
  end.

(** base.go:35-38, lib_*.go Negate, group.go:23-26 *)
Definition c_negate (b : bool) (c : cond) : res cond :=
  match c with
  | CNil => Panic
  | CLeaf l => Ok (CLeaf {| l_kind := l_kind l; l_join := l_join l; l_neg := b; l_def := l_def l; l_val := l_val l |})
  | CGrp j _ cs br => Ok (CGrp j b cs br)
  end.

(** base.go:68-74 RenderJoin *)
Definition render_join (isFirst : bool) (joinType : string) : string :=
  if isFirst then "" else joinType.

(** base.go:55-61 RenderNegate *)
Definition render_negate (n : bool) : string := if n then "NOT" else "".

(** group.go:11-14 WithBrackets *)
Definition with_brackets (g : group) : group :=
  {| g_join := g_join g; g_neg := g_neg g; g_cs := g_cs g; g_br := true |}.

Definition set_join (g : group) (j : string) : group :=
  {| g_join := j; g_neg := g_neg g; g_cs := g_cs g; g_br := g_br g |}.
Definition set_cs (g : group) (cs : list cond) : group :=
  {| g_join := g_join g; g_neg := g_neg g; g_cs := cs; g_br := g_br g |}.

(** group.go:35-44 NewGroup with logical.go:31-38 SetToAll: every element is passed
    through JoinType.Join with a single argument (logical.go:26-27), i.e. c_join. *)
Definition new_group (j : string) (cs : list cond) : res group :=
  do cs' <- mapM (c_join j) cs;
  Ok {| g_join := AND; g_neg := false; g_cs := cs'; g_br := false |}.

(** logical.go:21-28 JoinType.Join; conditions[0] of an empty list panics. *)
Definition jt_join (j : string) (cs : list cond) : res cond :=
  match cs with
  | [] => Panic
  | [c] => c_join j c
  | _ => do g <- new_group j cs; Ok (of_g g)
  end.

(** * Leaves *)

(** Values: lib_like.go:81-83 and lib_ilike.go (same), lib_isnull.go:58-60,
    otherwise value.go:33-96. *)
Definition leaf_values (l : leaf) : res (list gval) :=
  match l_kind l with
  | KLike | KILike =>
      match l_val l with
      | VStr s => Ok [VStr ("%" ++ s ++ "%")]
      | _ => Panic
      end
  | KNull => Ok []
  | KCustom cu => cu_values cu (l_neg l) (l_def l) (l_val l)
  | _ => fv_values (l_val l)
  end.

(** lib_equal.go:42-50, lib_gt.go:42-50, lib_gte.go:43-51, lib_lt.go:46-54, lib_lte.go:47-55 *)
Definition cmp_render (op ph : string) (l : leaf) : string :=
  if l_neg l
  then join "" [render_negate (l_neg l) ++ " "; render_spec (l_def l); op ++ ph]
  else join "" [render_spec (l_def l); op ++ ph].

(** lib_like.go:56-65, lib_ilike.go:58-67, lib_in.go:57-63 *)
Definition word_render (op ph : string) (l : leaf) : string :=
  if l_neg l
  then join " " [render_spec (l_def l); render_negate (l_neg l); op; ph]
  else join " " [render_spec (l_def l); op; ph].

(** lib_isnull.go:47-55 *)
Definition null_render (l : leaf) : string :=
  if l_neg l
  then join " " [render_spec (l_def l); "IS"; "NOT"; "NULL"]
  else join " " [render_spec (l_def l); "IS"; "NULL"].

(** "$" + strconv.Itoa(n) *)
Definition dollar (n : nat) : string := "$" ++ itoa n.

(** Render: the nine lib_*.go types *)
Definition leaf_render (l : leaf) (n : nat) : res string :=
  match l_kind l with
  | KEq => Ok (cmp_render "=" (dollar (n + 1)) l)
  | KGt => Ok (cmp_render ">" (dollar (n + 1)) l)
  | KGe => Ok (cmp_render ">=" (dollar (n + 1)) l)
  | KLt => Ok (cmp_render "<" (dollar (n + 1)) l)
  | KLe => Ok (cmp_render "<=" (dollar (n + 1)) l)
  | KLike => Ok (word_render "LIKE" (dollar (n + 1)) l)
  | KILike => Ok (word_render "ILIKE" (dollar (n + 1)) l)
  | KIn =>                                                     (* lib_in.go:46-64 *)
      do vs <- leaf_values l;
      Ok (word_render "IN" ("(" ++ join "," (map (fun i => dollar (n + i + 1)) (seq 0 (length vs))) ++ ")") l)
  | KNull => Ok (null_render l)
  | KCustom cu => Ok (cu_render cu (l_neg l) (l_def l) (l_val l) n)
  end.

(** RenderSQL: the nine lib_*.go types *)
Definition leaf_render_sql (l : leaf) : res string :=
  match l_kind l with
  | KEq => Ok (cmp_render "=" "?" l)
  | KGt => Ok (cmp_render ">" "?" l)
  | KGe => Ok (cmp_render ">=" "?" l)
  | KLt => Ok (cmp_render "<" "?" l)
  | KLe => Ok (cmp_render "<=" "?" l)
  | KLike => Ok (word_render "LIKE" "?" l)
  | KILike => Ok (word_render "ILIKE" "?" l)
  | KIn =>                                                     (* lib_in.go:68-86 *)
      do vs <- leaf_values l;
      Ok (word_render "IN" ("(" ++ join "," (map (fun _ => "?") vs) ++ ")") l)
  | KNull => Ok (null_render l)
  | KCustom cu => Ok (cu_sql cu (l_neg l) (l_def l) (l_val l))
  end.

(** * Trees *)

(** group.go:297-305 Values *)
Fixpoint c_values (c : cond) : res (list gval) :=
  match c with
  | CNil => Panic
  | CLeaf l => leaf_values l
  | CGrp _ _ cs _ =>
      (fix go (cs : list cond) : res (list gval) :=
         match cs with
         | [] => Ok []
         | c :: r => do v <- c_values c; do vs <- go r; Ok (v ++ vs)%list
         end) cs
  end.

(** group.go:248-260, 281-293: brackets (forced by a negated group of more than
    one condition) and the negation prefix. *)
Definition wrap (n br : bool) (many : bool) (sql : string) : string :=
  let br := br || (n && many) in
  let sql := if br then "(" ++ sql ++ ")" else sql in
  if n then render_negate n ++ " " ++ sql else sql.

(** group.go:239-242: the join token before a condition *)
Definition join_token (isFirst : bool) (j : string) : string :=
  let t := render_join isFirst j in
  if is_empty t then "" else " " ++ t ++ " ".

(** group.go:231-261 Render *)
Fixpoint c_render (c : cond) (n : nat) : res string :=
  match c with
  | CNil => Panic
  | CLeaf l => leaf_render l n
  | CGrp _ ng cs br =>
      match cs with
      | [] => Ok ""                                            (* 234-236 *)
      | _ =>
          do sql <-
            (fix go (first : bool) (cs : list cond) (n : nat) : res string :=
               match cs with
               | [] => Ok ""
               | c :: r =>
                   do j <- jtype c;
                   do s <- c_render c n;
                   do vs <- c_values c;
                   do rest <- go false r (n + length vs);
                   Ok (join_token first j ++ s ++ rest)
               end) true cs n;
          Ok (wrap ng br (1 <? length cs) sql)
      end
  end.

(** group.go:265-294 RenderSQL *)
Fixpoint c_render_sql (c : cond) : res string :=
  match c with
  | CNil => Panic
  | CLeaf l => leaf_render_sql l
  | CGrp _ ng cs br =>
      match cs with
      | [] => Ok ""
      | _ =>
          do sql <-
            (fix go (first : bool) (cs : list cond) : res string :=
               match cs with
               | [] => Ok ""
               | c :: r =>
                   do j <- jtype c;
                   do s <- c_render_sql c;
                   do rest <- go false r;
                   Ok (join_token first j ++ s ++ rest)
               end) true cs;
          Ok (wrap ng br (1 <? length cs) sql)
      end
  end.

(** group.go:309-315 ApplyFieldSpec and the lib_*.go ones (value.go:24-30,
    lib_isnull.go:15-21).  Functional reading; the in-place update of the shared
    slice is modelled in Heap.v. *)
Fixpoint c_apply_spec (spec : fdef) (c : cond) : res cond :=
  match c with
  | CNil => Panic
  | CLeaf l => Ok (CLeaf {| l_kind := l_kind l; l_join := l_join l; l_neg := l_neg l;
                            l_def := apply_spec (l_def l) spec; l_val := l_val l |})
  | CGrp j n cs br =>
      do cs' <- (fix go (cs : list cond) : res (list cond) :=
                   match cs with
                   | [] => Ok []
                   | c :: r => do c' <- c_apply_spec spec c; do r' <- go r; Ok (c' :: r')
                   end) cs;
      Ok (CGrp j n cs' br)
  end.

(** group.go:319-325 ApplyFieldTable and the lib_*.go ones *)
Fixpoint c_apply_table (tn : string) (c : cond) : res cond :=
  match c with
  | CNil => Panic
  | CLeaf l => Ok (CLeaf {| l_kind := l_kind l; l_join := l_join l; l_neg := l_neg l;
                            l_def := set_table (l_def l) tn; l_val := l_val l |})
  | CGrp j n cs br =>
      do cs' <- (fix go (cs : list cond) : res (list cond) :=
                   match cs with
                   | [] => Ok []
                   | c :: r => do c' <- c_apply_table tn c; do r' <- go r; Ok (c' :: r')
                   end) cs;
      Ok (CGrp j n cs' br)
  end.

(** * Combining conditions *)

(** group.go:164-175 hasAll; the loop stops at the first mismatch, so a nil
    element behind it is not touched *)
Fixpoint all_join (j : string) (cs : list cond) : res bool :=
  match cs with
  | [] => Ok true
  | c :: r => do t <- jtype c; if str_eqb t j then all_join j r else Ok false
  end.
Definition has_all (g : group) (j : string) : res bool :=
  match g_cs g with [] => Ok true | _ :: r => all_join j r end.

(** group.go:179-190 hasOne *)
Fixpoint one_join (j : string) (cs : list cond) : res bool :=
  match cs with
  | [] => Ok false
  | c :: r => do t <- jtype c; if str_eqb t j then Ok true else one_join j r
  end.
Definition has_one (g : group) (j : string) : res bool :=
  match g_cs g with [] => Ok false | _ :: r => one_join j r end.

(** group.go:48-101 addGroup *)
Definition add_group (g another : group) : res group :=
  let haveNone := length (g_cs g) =? 0 in
  let haveSingle := length (g_cs g) =? 1 in
  do havingOnlyAND <- has_all g AND;
  do havingOnlyOR <- has_all g OR;
  do havingAnyAND <- has_one g AND;
  do havingAnyOR <- has_one g OR;
  do addingOnlyAnd <- has_all another AND;
  do addingAnyAnd <- has_one another AND;
  do addingOnlyOR <- has_all another OR;
  do addingAnyOR <- has_one another OR;
  let op := g_join another in
  let opAnd := str_eqb op AND in
  let opOr := str_eqb op OR in
  if haveNone then                                                             (* 65-67 *)
    Ok (set_join (set_cs g (g_cs another)) op)
  else if haveSingle && opAnd && addingOnlyAnd then                            (* 70-71 *)
    Ok (set_cs g (g_cs g ++ g_cs another)%list)
  else if haveSingle && opOr && addingOnlyOR then                              (* 72-73 *)
    Ok (set_cs g (g_cs g ++ g_cs another)%list)
  else if haveSingle then                                                      (* 74-75 *)
    do c <- c_join op (of_g (with_brackets another));
    Ok (set_cs g (g_cs g ++ [c])%list)
  else if havingOnlyOR && opOr && addingOnlyOR then                            (* 78-79 *)
    Ok (set_cs g (g_cs g ++ g_cs another)%list)
  else if havingOnlyOR && opOr && addingAnyAnd then                            (* 80-81 *)
    Ok (set_cs g (g_cs g ++ [of_g (with_brackets another)])%list)
  else if havingAnyOR && opAnd && addingAnyAnd then                            (* 82-83 *)
    Ok (set_cs g (of_g (with_brackets g) :: g_cs another))
  else if havingOnlyAND && opAnd && addingOnlyAnd then                         (* 86-87 *)
    Ok (set_cs g (g_cs g ++ g_cs another)%list)
  else if havingOnlyAND && opAnd && addingAnyOR then                           (* 89-90 *)
    Ok (set_cs g (g_cs g ++ [of_g (with_brackets another)])%list)
  else if havingAnyAND && opOr && addingOnlyOR then                            (* 93-94 *)
    Ok (set_cs g (of_g (with_brackets g) :: g_cs another))
  else                                                                         (* 96-97 *)
    do c <- c_join op (of_g (with_brackets another));
    Ok (set_cs g [of_g (with_brackets g); c]).

(** group.go:105-131 addSingleCondition *)
Definition add_single (g : group) (c : cond) : res group :=
  let haveNone := length (g_cs g) =? 0 in
  let haveSingle := length (g_cs g) =? 1 in
  let haveMany := 1 <? length (g_cs g) in
  do havingOnlyAND <- has_all g AND;
  do havingOnlyOR <- has_all g OR;
  do op <- jtype c;
  match as_group c with
  | Some groupToAdd => add_group g groupToAdd                                  (* 115-116 *)
  | None =>
      if haveNone then                                                         (* 117-119 *)
        Ok (set_join (set_cs g (g_cs g ++ [c])%list) op)
      else if haveSingle then                                                  (* 120-121 *)
        do c' <- c_join op c; Ok (set_cs g (g_cs g ++ [c'])%list)
      else if haveMany && str_eqb op AND && havingOnlyAND then                 (* 122-123 *)
        do c' <- c_join op c; Ok (set_cs g (g_cs g ++ [c'])%list)
      else if haveMany && str_eqb op OR && havingOnlyOR then                   (* 124-125 *)
        do c' <- c_join op c; Ok (set_cs g (g_cs g ++ [c'])%list)
      else                                                                     (* 126-127 *)
        do c' <- c_join op c; Ok (set_cs g [of_g (with_brackets g); c'])
  end.

(** group.go:135-160 addConditions *)
Definition add_conditions (op : string) (g : group) (cs : list cond) : res group :=
  do havingAnyAND <- has_one g AND;
  do havingAnyOR <- has_one g OR;
  match cs with
  | [] => Ok g                                                                 (* 141-142 *)
  | c0 :: rest =>
      match g_cs g with
      | [] => Ok (set_join (set_cs g cs) op)                                   (* 143-145 *)
      | _ =>
          match rest with
          | [] => do c <- c_join op c0; add_single g c                         (* 146-147 *)
          | _ =>
              if havingAnyOR && str_eqb op AND then                            (* 148-149 *)
                Ok (set_cs g (of_g (with_brackets g) :: cs))
              else if havingAnyAND && str_eqb op OR then                       (* 150-151 *)
                do ng <- new_group op cs;
                do c <- c_join op (of_g ng);
                Ok (set_cs g (g_cs g ++ [c])%list)
              else                                                             (* 152-156 *)
                do ng <- new_group AND cs;
                Ok (set_cs g [of_g (with_brackets g); of_g (with_brackets ng)])
          end
      end
  end.

(** group.go:197-199 GroupAND and 215-217 GroupOR (And/Or of Group, 205-207, 223-225) *)
Definition group_and (g : group) (cs : list cond) : res group := add_conditions AND g cs.
Definition group_or (g : group) (cs : list cond) : res group := add_conditions OR g cs.

(** operations.go:4-6 Not *)
Definition not_ (c : cond) : res cond := c_negate true c.

(** operations.go:10-25 And *)
Definition and_ (c : cond) (adds : list cond) : res cond :=
  match adds with
  | [] => jt_join AND [c]
  | _ =>
      do g <- match as_group c with Some g => Ok g | None => new_group AND [c] end;
      do r <- group_and g adds; Ok (of_g r)
  end.

(** operations.go:29-44 Or *)
Definition or_ (c : cond) (adds : list cond) : res cond :=
  match adds with
  | [] => jt_join OR [c]
  | _ =>
      do g <- match as_group c with Some g => Ok g | None => new_group OR [c] end;
      do r <- group_or g adds; jt_join OR [of_g r]
  end.

(** The method call c.And(conditions...):
    lib_equal.go:66, lib_gt.go:66, lib_gte.go:67, lib_lt.go:70, lib_lte.go:71, lib_in.go:90 call And;
    lib_like.go:44, lib_ilike.go:46, lib_isnull.go:64 call NewGroup(LogicalAND, impl).And;
    group.go:205. *)
Definition m_and (c : cond) (cs : list cond) : res cond :=
  match c with
  | CNil => Panic
  | CLeaf l =>
      match l_kind l with
      | KLike | KILike | KNull => do g <- new_group AND [c]; do r <- group_and g cs; Ok (of_g r)
      | _ => and_ c cs
      end
  | CGrp j n k br =>
      do r <- group_and {| g_join := j; g_neg := n; g_cs := k; g_br := br |} cs; Ok (of_g r)
  end.

(** The method call c.Or(conditions...):
    lib_equal.go:72 and the other comparison types and lib_in.go:96 call Or;
    lib_like.go:50, lib_ilike.go:52 call NewGroup(LogicalOR, impl).Or;
    lib_isnull.go:70-72 calls NewGroup(LogicalAND, nil).And(impl).Or(...), where the
    variadic parameter receives the one-element slice []Condition{nil} (an argument list
    without "..." is always wrapped), so SetToAll calls Join on a nil interface;
    group.go:223. *)
Definition m_or (c : cond) (cs : list cond) : res cond :=
  match c with
  | CNil => Panic
  | CLeaf l =>
      match l_kind l with
      | KLike | KILike => do g <- new_group OR [c]; do r <- group_or g cs; Ok (of_g r)
      | KNull =>
          do g0 <- new_group AND [CNil];
          do g1 <- group_and g0 [c];
          do r <- group_or g1 cs; Ok (of_g r)
      | _ => or_ c cs
      end
  | CGrp j n k br =>
      do r <- group_or {| g_join := j; g_neg := n; g_cs := k; g_br := br |} cs; Ok (of_g r)
  end.

(** * Constructors *)

(** lib_equal.go:77, lib_gt.go:77, lib_gte.go:79, lib_lt.go:80, lib_lte.go:82,
    lib_like.go:87, lib_ilike.go:90, lib_in.go:101 (Contains and IContains take a string) *)
Definition mk_cond (k : kind) (fn : string) (v : gval) : res cond :=
  do fv <- new_field_value fn v;
  Ok (CLeaf {| l_kind := k; l_join := AND; l_neg := false; l_def := fv_def fv; l_val := fv_val fv |}).
Definition equal_to := mk_cond KEq.
Definition greater_than := mk_cond KGt.
Definition greater_or_equal := mk_cond KGe.
Definition less_ := mk_cond KLt.
Definition less_or_equal := mk_cond KLe.
Definition contains_ (fn s : string) := mk_cond KLike fn (VStr s).
Definition icontains_ (fn s : string) := mk_cond KILike fn (VStr s).
Definition in_ := mk_cond KIn.

(** lib_isnull.go:75-80 IsNull *)
Definition is_null (fn : string) : res cond :=
  do d <- field fn;
  Ok (CLeaf {| l_kind := KNull; l_join := AND; l_neg := false; l_def := d; l_val := VNil |}).

(** where.go:72-74 NewWhere and NewGroup(LogicalAND) of update.go:108, delete.go:76.
    WhereClause (where.go:4-6) only wraps the group; its methods (13-64) are the
    group's. *)
Definition empty_group : group := {| g_join := AND; g_neg := false; g_cs := []; g_br := false |}.

(** the zero Group left by SelectSingleBuilder.Fields (select_single.go:27-30) *)
Definition zero_group : group := {| g_join := ""; g_neg := false; g_cs := []; g_br := false |}.
