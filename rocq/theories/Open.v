(** Conditions of types written by users of the package (README.md:17).  Condition is an
    interface (interfaces.go:121-165), so any type with its methods will do.  In Cond.v such a
    type follows the pattern of the library's own; here its methods are arbitrary: they may
    return anything, panic, and return conditions of other types.  [S] are all the values of
    such types.  Simplified: the methods are deterministic and change no state (Asked.v is
    about answers that vary).  The code of the package is transcribed once more over these
    conditions; slices are read as lists (sharing is in Heap.v). *)
From Coq Require Import String Ascii List Bool Arith NArith ZArith.
From Verif Require Import GoStr Value Names Cond Build.
Import ListNotations.
Local Open Scope string_scope.
Local Open Scope nat_scope.

(** a Condition: nil, one of the nine library types (lib_*.go), a Group, another type *)
Inductive xcond (S : Type) :=
| XNil
| XLeaf (l : leaf)
| XGrp (j : string) (n : bool) (cs : list (xcond S)) (br : bool)
| XObj (o : S).
Arguments XNil {S}.
Arguments XLeaf {S} l.
Arguments XGrp {S} j n cs br.
Arguments XObj {S} o.

(** interfaces.go:121-165: the methods of the other types which the package calls.  And, Or,
    FieldName, IsNegate and RenderNegate are never called on a Condition by the package. *)
Record impl (S : Type) := mkImpl {
  wr_jtype : S -> res string;
  wr_render_join : S -> bool -> res string;
  wr_join : S -> string -> res (xcond S);
  wr_negate : S -> bool -> res (xcond S);
  wr_render : S -> nat -> res string;
  wr_sql : S -> res string;
  wr_values : S -> res (list gval);
  wr_spec : S -> fdef -> res (xcond S);
  wr_table : S -> string -> res (xcond S) }.
Arguments wr_jtype {S} i o.
Arguments wr_render_join {S} i o.
Arguments wr_join {S} i o.
Arguments wr_negate {S} i o.
Arguments wr_render {S} i o.
Arguments wr_sql {S} i o.
Arguments wr_values {S} i o.
Arguments wr_spec {S} i o.
Arguments wr_table {S} i o.

(** group.go:4-8 *)
Record xgroup (S : Type) := mkXG { xg_join : string; xg_neg : bool; xg_cs : list (xcond S); xg_br : bool }.
Arguments mkXG {S}.
Arguments xg_join {S}.
Arguments xg_neg {S}.
Arguments xg_cs {S}.
Arguments xg_br {S}.
Definition of_xg {S} (g : xgroup S) : xcond S := XGrp (xg_join g) (xg_neg g) (xg_cs g) (xg_br g).
(** the type assertion condition.(Group) *)
Definition x_as_group {S} (c : xcond S) : option (xgroup S) :=
  match c with XGrp j n cs br => Some (mkXG j n cs br) | _ => None end.

(** base.go:24-26 JoinType *)
Definition x_jtype {S} (i : impl S) (c : xcond S) : res string :=
  match c with
  | XNil => Panic
  | XLeaf l => Ok (l_join l)
  | XGrp j _ _ _ => Ok j
  | XObj o => wr_jtype i o
  end.

(** base.go:68-74 RenderJoin *)
Definition x_render_join {S} (i : impl S) (first : bool) (c : xcond S) : res string :=
  match c with
  | XNil => Panic
  | XLeaf l => Ok (render_join first (l_join l))
  | XGrp j _ _ _ => Ok (render_join first j)
  | XObj o => wr_render_join i o first
  end.

(** base.go:29-32, lib_*.go Join, group.go:17-20 *)
Definition x_join {S} (i : impl S) (j : string) (c : xcond S) : res (xcond S) :=
  match c with
  | XNil => Panic
  | XLeaf l => Ok (XLeaf (mkLeaf (l_kind l) j (l_neg l) (l_def l) (l_val l)))
  | XGrp _ n cs br => Ok (XGrp j n cs br)
  | XObj o => wr_join i o j
  end.

(** base.go:35-38, lib_*.go Negate, group.go:23-26 *)
Definition x_negate {S} (i : impl S) (b : bool) (c : xcond S) : res (xcond S) :=
  match c with
  | XNil => Panic
  | XLeaf l => Ok (XLeaf (mkLeaf (l_kind l) (l_join l) b (l_def l) (l_val l)))
  | XGrp j _ cs br => Ok (XGrp j b cs br)
  | XObj o => wr_negate i o b
  end.

(** group.go:11-14 WithBrackets *)
Definition x_brackets {S} (g : xgroup S) : xgroup S := mkXG (xg_join g) (xg_neg g) (xg_cs g) true.
Definition x_set_join {S} (g : xgroup S) (j : string) : xgroup S := mkXG j (xg_neg g) (xg_cs g) (xg_br g).
Definition x_set_cs {S} (g : xgroup S) (cs : list (xcond S)) : xgroup S := mkXG (xg_join g) (xg_neg g) cs (xg_br g).

(** group.go:35-44 NewGroup, logical.go:31-38 SetToAll *)
Definition x_new_group {S} (i : impl S) (j : string) (cs : list (xcond S)) : res (xgroup S) :=
  do cs' <- mapM (x_join i j) cs; Ok (mkXG AND false cs' false).

(** logical.go:21-28 JoinType.Join *)
Definition x_jt_join {S} (i : impl S) (j : string) (cs : list (xcond S)) : res (xcond S) :=
  match cs with
  | [] => Panic
  | [c] => x_join i j c
  | _ => do g <- x_new_group i j cs; Ok (of_xg g)
  end.

(** group.go:164-175 hasAll *)
Fixpoint x_all_join {S} (i : impl S) (j : string) (cs : list (xcond S)) : res bool :=
  match cs with
  | [] => Ok true
  | c :: r => do t <- x_jtype i c; if str_eqb t j then x_all_join i j r else Ok false
  end.
Definition x_has_all {S} (i : impl S) (g : xgroup S) (j : string) : res bool :=
  match xg_cs g with [] => Ok true | _ :: r => x_all_join i j r end.

(** group.go:179-190 hasOne *)
Fixpoint x_one_join {S} (i : impl S) (j : string) (cs : list (xcond S)) : res bool :=
  match cs with
  | [] => Ok false
  | c :: r => do t <- x_jtype i c; if str_eqb t j then Ok true else x_one_join i j r
  end.
Definition x_has_one {S} (i : impl S) (g : xgroup S) (j : string) : res bool :=
  match xg_cs g with [] => Ok false | _ :: r => x_one_join i j r end.

(** group.go:48-101 addGroup *)
Definition x_add_group {S} (i : impl S) (g another : xgroup S) : res (xgroup S) :=
  let haveNone := length (xg_cs g) =? 0 in
  let haveSingle := length (xg_cs g) =? 1 in
  do havingOnlyAND <- x_has_all i g AND;
  do havingOnlyOR <- x_has_all i g OR;
  do havingAnyAND <- x_has_one i g AND;
  do havingAnyOR <- x_has_one i g OR;
  do addingOnlyAnd <- x_has_all i another AND;
  do addingAnyAnd <- x_has_one i another AND;
  do addingOnlyOR <- x_has_all i another OR;
  do addingAnyOR <- x_has_one i another OR;
  let op := xg_join another in
  let opAnd := str_eqb op AND in
  let opOr := str_eqb op OR in
  if haveNone then                                                             (* 65-67 *)
    Ok (x_set_join (x_set_cs g (xg_cs another)) op)
  else if haveSingle && opAnd && addingOnlyAnd then                            (* 70-71 *)
    Ok (x_set_cs g (xg_cs g ++ xg_cs another)%list)
  else if haveSingle && opOr && addingOnlyOR then                              (* 72-73 *)
    Ok (x_set_cs g (xg_cs g ++ xg_cs another)%list)
  else if haveSingle then                                                      (* 74-75 *)
    do c <- x_jt_join i op [of_xg (x_brackets another)];
    Ok (x_set_cs g (xg_cs g ++ [c])%list)
  else if havingOnlyOR && opOr && addingOnlyOR then                            (* 78-79 *)
    Ok (x_set_cs g (xg_cs g ++ xg_cs another)%list)
  else if havingOnlyOR && opOr && addingAnyAnd then                            (* 80-81 *)
    Ok (x_set_cs g (xg_cs g ++ [of_xg (x_brackets another)])%list)
  else if havingAnyOR && opAnd && addingAnyAnd then                            (* 82-83 *)
    Ok (x_set_cs g (of_xg (x_brackets g) :: xg_cs another))
  else if havingOnlyAND && opAnd && addingOnlyAnd then                         (* 86-87 *)
    Ok (x_set_cs g (xg_cs g ++ xg_cs another)%list)
  else if havingOnlyAND && opAnd && addingAnyOR then                           (* 89-90 *)
    Ok (x_set_cs g (xg_cs g ++ [of_xg (x_brackets another)])%list)
  else if havingAnyAND && opOr && addingOnlyOR then                            (* 93-94 *)
    Ok (x_set_cs g (of_xg (x_brackets g) :: xg_cs another))
  else                                                                         (* 96-97 *)
    do c <- x_jt_join i op [of_xg (x_brackets another)];
    Ok (x_set_cs g [of_xg (x_brackets g); c]).

(** group.go:105-131 addSingleCondition *)
Definition x_add_single {S} (i : impl S) (g : xgroup S) (c : xcond S) : res (xgroup S) :=
  let haveNone := length (xg_cs g) =? 0 in
  let haveSingle := length (xg_cs g) =? 1 in
  let haveMany := 1 <? length (xg_cs g) in
  do havingOnlyAND <- x_has_all i g AND;
  do havingOnlyOR <- x_has_all i g OR;
  do op <- x_jtype i c;
  match x_as_group c with
  | Some groupToAdd => x_add_group i g groupToAdd                              (* 115-116 *)
  | None =>
      if haveNone then                                                         (* 117-119 *)
        Ok (x_set_join (x_set_cs g (xg_cs g ++ [c])%list) op)
      else if haveSingle then                                                  (* 120-121 *)
        do c' <- x_jt_join i op [c]; Ok (x_set_cs g (xg_cs g ++ [c'])%list)
      else if haveMany && str_eqb op AND && havingOnlyAND then                 (* 122-123 *)
        do c' <- x_jt_join i op [c]; Ok (x_set_cs g (xg_cs g ++ [c'])%list)
      else if haveMany && str_eqb op OR && havingOnlyOR then                   (* 124-125 *)
        do c' <- x_jt_join i op [c]; Ok (x_set_cs g (xg_cs g ++ [c'])%list)
      else                                                                     (* 126-127 *)
        do c' <- x_jt_join i op [c]; Ok (x_set_cs g [of_xg (x_brackets g); c'])
  end.

(** group.go:135-160 addConditions *)
Definition x_add_conditions {S} (i : impl S) (op : string) (g : xgroup S) (cs : list (xcond S)) : res (xgroup S) :=
  do havingAnyAND <- x_has_one i g AND;
  do havingAnyOR <- x_has_one i g OR;
  match cs with
  | [] => Ok g                                                                 (* 141-142 *)
  | c0 :: rest =>
      match xg_cs g with
      | [] => Ok (x_set_join (x_set_cs g cs) op)                               (* 143-145 *)
      | _ =>
          match rest with
          | [] => do c <- x_jt_join i op [c0]; x_add_single i g c              (* 146-147 *)
          | _ =>
              if havingAnyOR && str_eqb op AND then                            (* 148-149 *)
                Ok (x_set_cs g (of_xg (x_brackets g) :: cs))
              else if havingAnyAND && str_eqb op OR then                       (* 150-151 *)
                do ng <- x_new_group i op cs;
                do c <- x_jt_join i op [of_xg ng];
                Ok (x_set_cs g (xg_cs g ++ [c])%list)
              else                                                             (* 152-156 *)
                do ng <- x_new_group i AND cs;
                Ok (x_set_cs g [of_xg (x_brackets g); of_xg (x_brackets ng)])
          end
      end
  end.

(** group.go:197-199 GroupAND, 215-217 GroupOR *)
Definition x_group_and {S} (i : impl S) (g : xgroup S) (cs : list (xcond S)) : res (xgroup S) := x_add_conditions i AND g cs.
Definition x_group_or {S} (i : impl S) (g : xgroup S) (cs : list (xcond S)) : res (xgroup S) := x_add_conditions i OR g cs.

(** operations.go:4-6 Not, 10-25 And, 29-44 Or *)
Definition x_not {S} (i : impl S) (c : xcond S) : res (xcond S) := x_negate i true c.
Definition x_and {S} (i : impl S) (c : xcond S) (adds : list (xcond S)) : res (xcond S) :=
  match adds with
  | [] => x_jt_join i AND [c]
  | _ =>
      do g <- match x_as_group c with Some g => Ok g | None => x_new_group i AND [c] end;
      do r <- x_group_and i g adds; Ok (of_xg r)
  end.
Definition x_or {S} (i : impl S) (c : xcond S) (adds : list (xcond S)) : res (xcond S) :=
  match adds with
  | [] => x_jt_join i OR [c]
  | _ =>
      do g <- match x_as_group c with Some g => Ok g | None => x_new_group i OR [c] end;
      do r <- x_group_or i g adds; x_jt_join i OR [of_xg r]
  end.

(** group.go:297-305 Values *)
Fixpoint x_values {S} (i : impl S) (c : xcond S) : res (list gval) :=
  match c with
  | XNil => Panic
  | XLeaf l => leaf_values l
  | XObj o => wr_values i o
  | XGrp _ _ cs _ =>
      (fix go (cs : list (xcond S)) : res (list gval) :=
         match cs with
         | [] => Ok []
         | c :: r => do v <- x_values i c; do vs <- go r; Ok (v ++ vs)%list
         end) cs
  end.

(** group.go:239-242: the token before a condition *)
Definition x_token (t : string) : string := if is_empty t then "" else " " ++ t ++ " ".

(** group.go:231-261 Render *)
Fixpoint x_render {S} (i : impl S) (c : xcond S) (n : nat) : res string :=
  match c with
  | XNil => Panic
  | XLeaf l => leaf_render l n
  | XObj o => wr_render i o n
  | XGrp _ ng cs br =>
      match cs with
      | [] => Ok ""
      | _ =>
          do sql <-
            (fix go (first : bool) (cs : list (xcond S)) (n : nat) : res string :=
               match cs with
               | [] => Ok ""
               | c :: r =>
                   do t <- x_render_join i first c;
                   do s <- x_render i c n;
                   do vs <- x_values i c;
                   do rest <- go false r (n + length vs);
                   Ok (x_token t ++ s ++ rest)
               end) true cs n;
          Ok (wrap ng br (1 <? length cs) sql)
      end
  end.

(** group.go:265-294 RenderSQL *)
Fixpoint x_render_sql {S} (i : impl S) (c : xcond S) : res string :=
  match c with
  | XNil => Panic
  | XLeaf l => leaf_render_sql l
  | XObj o => wr_sql i o
  | XGrp _ ng cs br =>
      match cs with
      | [] => Ok ""
      | _ =>
          do sql <-
            (fix go (first : bool) (cs : list (xcond S)) : res string :=
               match cs with
               | [] => Ok ""
               | c :: r =>
                   do t <- x_render_join i first c;
                   do s <- x_render_sql i c;
                   do rest <- go false r;
                   Ok (x_token t ++ s ++ rest)
               end) true cs;
          Ok (wrap ng br (1 <? length cs) sql)
      end
  end.

(** group.go:309-315 ApplyFieldSpec, 319-325 ApplyFieldTable *)
Fixpoint x_apply_spec {S} (i : impl S) (spec : fdef) (c : xcond S) : res (xcond S) :=
  match c with
  | XNil => Panic
  | XLeaf l => Ok (XLeaf (mkLeaf (l_kind l) (l_join l) (l_neg l) (apply_spec (l_def l) spec) (l_val l)))
  | XObj o => wr_spec i o spec
  | XGrp j n cs br =>
      do cs' <- (fix go (cs : list (xcond S)) : res (list (xcond S)) :=
                   match cs with
                   | [] => Ok []
                   | c :: r => do c' <- x_apply_spec i spec c; do r' <- go r; Ok (c' :: r')
                   end) cs;
      Ok (XGrp j n cs' br)
  end.
Fixpoint x_apply_table {S} (i : impl S) (tn : string) (c : xcond S) : res (xcond S) :=
  match c with
  | XNil => Panic
  | XLeaf l => Ok (XLeaf (mkLeaf (l_kind l) (l_join l) (l_neg l) (set_table (l_def l) tn) (l_val l)))
  | XObj o => wr_table i o tn
  | XGrp j n cs br =>
      do cs' <- (fix go (cs : list (xcond S)) : res (list (xcond S)) :=
                   match cs with
                   | [] => Ok []
                   | c :: r => do c' <- x_apply_table i tn c; do r' <- go r; Ok (c' :: r')
                   end) cs;
      Ok (XGrp j n cs' br)
  end.

(** Where of the builders (select_base.go:131-136 through where.go:13-17, update.go:35-38,
    delete.go:21-24): GroupAND on the builder's group, once per call *)
Fixpoint x_wheres {S} (i : impl S) (g : xgroup S) (css : list (list (xcond S))) : res (xgroup S) :=
  match css with
  | [] => Ok g
  | cs :: r => do g' <- x_group_and i g cs; x_wheres i g' r
  end.
(** where.go:72-74, update.go:108, delete.go:76 *)
Definition x_empty {S} : xgroup S := mkXG AND false [] false.

(** select_base.go:90-109, update.go:54-80, delete.go:28-48 BuildQueryAndParams of the builder [b], [u], [d] with
    the conditions [w] (its own group is not read) *)
Definition x_b_build {S} (i : impl S) (b : bsel) (w : xgroup S) : res out :=
  if nonempty (xg_cs w) then
    do s <- x_render i (of_xg w) 0;
    do vs <- x_values i (of_xg w);
    Ok (ok (join " " (b_tokens b ++ ["WHERE"; s])%list) vs)
  else Ok (ok (join " " (b_tokens b)) []).
Definition x_u_build {S} (i : impl S) (u : upd) (w : xgroup S) : res out :=
  if negb (nonempty (xg_cs w)) then Ok (fail ENoConditions)
  else if negb (nonempty (u_values u)) then Ok (fail ENoValues)
  else if is_empty (u_table u) then Ok (fail ENoTable)
  else
    do t <- fields_and_values (u_values u);
    let '(sets, params) := t in
    do s <- x_render i (of_xg w) (length params);
    do vs <- x_values i (of_xg w);
    Ok (ok (join " " ["UPDATE"; u_table u; "SET"; sets; "WHERE"; s]) (params ++ vs)%list).
Definition x_d_build {S} (i : impl S) (d : del) (w : xgroup S) : res out :=
  if negb (nonempty (xg_cs w)) then Ok (fail ENoConditions)
  else if is_empty (d_table d) then Ok (fail ENoTable)
  else
    do s <- x_render i (of_xg w) 0;
    do vs <- x_values i (of_xg w);
    Ok (ok (join " " ["DELETE"; "FROM"; d_table d; "WHERE"; s]) vs).
