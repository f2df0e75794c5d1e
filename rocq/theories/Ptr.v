(** Groups behind pointers.  The methods of Group have value receivers (group.go), so a
    *Group is a Condition too, and a caller may write Where(&g) or And(&g, ...).  Here a
    Condition interface value may hold such a pointer: an address of a variable of type
    Group.  A method call through the pointer copies the variable first (Go's method set
    rules), through a nil pointer it panics.  The variables can be assigned to at any time.
    The code is that of Cond.v, transcribed once more over these values; slices are read as
    lists (sharing of slices is the subject of Heap.v). *)
From Coq Require Import String Ascii List Bool Arith.
From Verif Require Import GoStr Value Names Cond.
Import ListNotations.
Local Open Scope string_scope.
Local Open Scope nat_scope.

(** interfaces.go Condition values: nil, a leaf, a Group, a *Group *)
Inductive pcond :=
| PNil
| PLeaf (l : leaf)
| PGrp (j : string) (n : bool) (cs : list pcond) (br : bool)
| PRef (a : nat).

(** group.go:4-8 *)
Record pgroup := mkPG { pg_join : string; pg_neg : bool; pg_cs : list pcond; pg_br : bool }.
Definition of_pg (g : pgroup) : pcond := PGrp (pg_join g) (pg_neg g) (pg_cs g) (pg_br g).

(** the variables of type Group; None: no variable, the pointer is nil *)
Definition vars := nat -> option pgroup.
Definition no_vars : vars := fun _ => None.
(** the assignment v = g *)
Definition assign (h : vars) (a : nat) (g : pgroup) : vars := fun b => if b =? a then Some g else h b.

(** the type assertion condition.(Group): it fails for a *Group *)
Definition p_as_group (c : pcond) : option pgroup :=
  match c with PGrp j n cs br => Some (mkPG j n cs br) | _ => None end.

(** the receiver of a method of Group called on the interface value *)
Definition receiver (h : vars) (a : nat) : res pgroup :=
  match h a with Some g => Ok g | None => Panic end.

(** base.go:24-26 JoinType *)
Definition p_jtype (h : vars) (c : pcond) : res string :=
  match c with
  | PNil => Panic
  | PLeaf l => Ok (l_join l)
  | PGrp j _ _ _ => Ok j
  | PRef a => do g <- receiver h a; Ok (pg_join g)
  end.

(** group.go:17-20 Join (and base.go:29-32, lib_*.go): the result holds a Group, not a pointer *)
Definition p_join (h : vars) (j : string) (c : pcond) : res pcond :=
  match c with
  | PNil => Panic
  | PLeaf l => Ok (PLeaf (mkLeaf (l_kind l) j (l_neg l) (l_def l) (l_val l)))
  | PGrp _ n cs br => Ok (PGrp j n cs br)
  | PRef a => do g <- receiver h a; Ok (PGrp j (pg_neg g) (pg_cs g) (pg_br g))
  end.

(** group.go:23-26 Negate *)
Definition p_negate (h : vars) (b : bool) (c : pcond) : res pcond :=
  match c with
  | PNil => Panic
  | PLeaf l => Ok (PLeaf (mkLeaf (l_kind l) (l_join l) b (l_def l) (l_val l)))
  | PGrp j _ cs br => Ok (PGrp j b cs br)
  | PRef a => do g <- receiver h a; Ok (PGrp (pg_join g) b (pg_cs g) (pg_br g))
  end.

(** group.go:11-14 WithBrackets *)
Definition p_brackets (g : pgroup) : pgroup := mkPG (pg_join g) (pg_neg g) (pg_cs g) true.
Definition p_set_join (g : pgroup) (j : string) : pgroup := mkPG j (pg_neg g) (pg_cs g) (pg_br g).
Definition p_set_cs (g : pgroup) (cs : list pcond) : pgroup := mkPG (pg_join g) (pg_neg g) cs (pg_br g).

(** group.go:35-44 NewGroup, logical.go:31-38 SetToAll *)
Definition p_new_group (h : vars) (j : string) (cs : list pcond) : res pgroup :=
  do cs' <- mapM (p_join h j) cs; Ok (mkPG AND false cs' false).

(** logical.go:21-28 JoinType.Join with one argument *)
Definition p_jt_join (h : vars) (j : string) (c : pcond) : res pcond := p_join h j c.

(** group.go:164-175 hasAll *)
Fixpoint p_all_join (h : vars) (j : string) (cs : list pcond) : res bool :=
  match cs with
  | [] => Ok true
  | c :: r => do t <- p_jtype h c; if str_eqb t j then p_all_join h j r else Ok false
  end.
Definition p_has_all (h : vars) (g : pgroup) (j : string) : res bool :=
  match pg_cs g with [] => Ok true | _ :: r => p_all_join h j r end.

(** group.go:179-190 hasOne *)
Fixpoint p_one_join (h : vars) (j : string) (cs : list pcond) : res bool :=
  match cs with
  | [] => Ok false
  | c :: r => do t <- p_jtype h c; if str_eqb t j then Ok true else p_one_join h j r
  end.
Definition p_has_one (h : vars) (g : pgroup) (j : string) : res bool :=
  match pg_cs g with [] => Ok false | _ :: r => p_one_join h j r end.

(** group.go:48-101 addGroup *)
Definition p_add_group (h : vars) (g another : pgroup) : res pgroup :=
  let haveNone := length (pg_cs g) =? 0 in
  let haveSingle := length (pg_cs g) =? 1 in
  do havingOnlyAND <- p_has_all h g AND;
  do havingOnlyOR <- p_has_all h g OR;
  do havingAnyAND <- p_has_one h g AND;
  do havingAnyOR <- p_has_one h g OR;
  do addingOnlyAnd <- p_has_all h another AND;
  do addingAnyAnd <- p_has_one h another AND;
  do addingOnlyOR <- p_has_all h another OR;
  do addingAnyOR <- p_has_one h another OR;
  let op := pg_join another in
  let opAnd := str_eqb op AND in
  let opOr := str_eqb op OR in
  if haveNone then                                                             (* 65-67 *)
    Ok (p_set_join (p_set_cs g (pg_cs another)) op)
  else if haveSingle && opAnd && addingOnlyAnd then                            (* 70-71 *)
    Ok (p_set_cs g (pg_cs g ++ pg_cs another)%list)
  else if haveSingle && opOr && addingOnlyOR then                              (* 72-73 *)
    Ok (p_set_cs g (pg_cs g ++ pg_cs another)%list)
  else if haveSingle then                                                      (* 74-75 *)
    do c <- p_jt_join h op (of_pg (p_brackets another));
    Ok (p_set_cs g (pg_cs g ++ [c])%list)
  else if havingOnlyOR && opOr && addingOnlyOR then                            (* 78-79 *)
    Ok (p_set_cs g (pg_cs g ++ pg_cs another)%list)
  else if havingOnlyOR && opOr && addingAnyAnd then                            (* 80-81 *)
    Ok (p_set_cs g (pg_cs g ++ [of_pg (p_brackets another)])%list)
  else if havingAnyOR && opAnd && addingAnyAnd then                            (* 82-83 *)
    Ok (p_set_cs g (of_pg (p_brackets g) :: pg_cs another))
  else if havingOnlyAND && opAnd && addingOnlyAnd then                         (* 86-87 *)
    Ok (p_set_cs g (pg_cs g ++ pg_cs another)%list)
  else if havingOnlyAND && opAnd && addingAnyOR then                           (* 89-90 *)
    Ok (p_set_cs g (pg_cs g ++ [of_pg (p_brackets another)])%list)
  else if havingAnyAND && opOr && addingOnlyOR then                            (* 93-94 *)
    Ok (p_set_cs g (of_pg (p_brackets g) :: pg_cs another))
  else                                                                         (* 96-97 *)
    do c <- p_jt_join h op (of_pg (p_brackets another));
    Ok (p_set_cs g [of_pg (p_brackets g); c]).

(** group.go:105-131 addSingleCondition *)
Definition p_add_single (h : vars) (g : pgroup) (c : pcond) : res pgroup :=
  let haveNone := length (pg_cs g) =? 0 in
  let haveSingle := length (pg_cs g) =? 1 in
  let haveMany := 1 <? length (pg_cs g) in
  do havingOnlyAND <- p_has_all h g AND;
  do havingOnlyOR <- p_has_all h g OR;
  do op <- p_jtype h c;
  match p_as_group c with
  | Some groupToAdd => p_add_group h g groupToAdd                              (* 115-116 *)
  | None =>
      if haveNone then                                                         (* 117-119 *)
        Ok (p_set_join (p_set_cs g (pg_cs g ++ [c])%list) op)
      else if haveSingle then                                                  (* 120-121 *)
        do c' <- p_jt_join h op c; Ok (p_set_cs g (pg_cs g ++ [c'])%list)
      else if haveMany && str_eqb op AND && havingOnlyAND then                 (* 122-123 *)
        do c' <- p_jt_join h op c; Ok (p_set_cs g (pg_cs g ++ [c'])%list)
      else if haveMany && str_eqb op OR && havingOnlyOR then                   (* 124-125 *)
        do c' <- p_jt_join h op c; Ok (p_set_cs g (pg_cs g ++ [c'])%list)
      else                                                                     (* 126-127 *)
        do c' <- p_jt_join h op c; Ok (p_set_cs g [of_pg (p_brackets g); c'])
  end.

(** group.go:135-160 addConditions *)
Definition p_add_conditions (h : vars) (op : string) (g : pgroup) (cs : list pcond) : res pgroup :=
  do havingAnyAND <- p_has_one h g AND;
  do havingAnyOR <- p_has_one h g OR;
  match cs with
  | [] => Ok g                                                                 (* 141-142 *)
  | c0 :: rest =>
      match pg_cs g with
      | [] => Ok (p_set_join (p_set_cs g cs) op)                               (* 143-145 *)
      | _ =>
          match rest with
          | [] => do c <- p_jt_join h op c0; p_add_single h g c                (* 146-147 *)
          | _ =>
              if havingAnyOR && str_eqb op AND then                            (* 148-149 *)
                Ok (p_set_cs g (of_pg (p_brackets g) :: cs))
              else if havingAnyAND && str_eqb op OR then                       (* 150-151 *)
                do ng <- p_new_group h op cs;
                do c <- p_jt_join h op (of_pg ng);
                Ok (p_set_cs g (pg_cs g ++ [c])%list)
              else                                                             (* 152-156 *)
                do ng <- p_new_group h AND cs;
                Ok (p_set_cs g [of_pg (p_brackets g); of_pg (p_brackets ng)])
          end
      end
  end.

(** group.go:197-199 GroupAND, 215-217 GroupOR; Where of the builders is GroupAND on
    the builder's group (select_base.go:131-136 through where.go:13-17, update.go:35-38, delete.go:21-24) *)
Definition p_group_and (h : vars) (g : pgroup) (cs : list pcond) : res pgroup := p_add_conditions h AND g cs.
Definition p_group_or (h : vars) (g : pgroup) (cs : list pcond) : res pgroup := p_add_conditions h OR g cs.

(** operations.go:4-6 Not *)
Definition p_not (h : vars) (c : pcond) : res pcond := p_negate h true c.

(** operations.go:10-25 And *)
Definition p_and (h : vars) (c : pcond) (adds : list pcond) : res pcond :=
  match adds with
  | [] => p_jt_join h AND c
  | _ =>
      do g <- match p_as_group c with Some g => Ok g | None => p_new_group h AND [c] end;
      do r <- p_group_and h g adds; Ok (of_pg r)
  end.

(** operations.go:29-44 Or *)
Definition p_or (h : vars) (c : pcond) (adds : list pcond) : res pcond :=
  match adds with
  | [] => p_jt_join h OR c
  | _ =>
      do g <- match p_as_group c with Some g => Ok g | None => p_new_group h OR [c] end;
      do r <- p_group_or h g adds; p_jt_join h OR (of_pg r)
  end.

(** the method calls c.And(...), c.Or(...): see m_and, m_or of Cond.v for the leaves *)
Definition p_m_and (h : vars) (c : pcond) (cs : list pcond) : res pcond :=
  match c with
  | PNil => Panic
  | PLeaf l =>
      match l_kind l with
      | KLike | KILike | KNull => do g <- p_new_group h AND [c]; do r <- p_group_and h g cs; Ok (of_pg r)
      | _ => p_and h c cs
      end
  | PGrp j n k br => do r <- p_group_and h (mkPG j n k br) cs; Ok (of_pg r)
  | PRef a => do g <- receiver h a; do r <- p_group_and h g cs; Ok (of_pg r)
  end.
Definition p_m_or (h : vars) (c : pcond) (cs : list pcond) : res pcond :=
  match c with
  | PNil => Panic
  | PLeaf l =>
      match l_kind l with
      | KLike | KILike => do g <- p_new_group h OR [c]; do r <- p_group_or h g cs; Ok (of_pg r)
      | KNull =>
          do g0 <- p_new_group h AND [PNil];
          do g1 <- p_group_and h g0 [c];
          do r <- p_group_or h g1 cs; Ok (of_pg r)
      | _ => p_or h c cs
      end
  | PGrp j n k br => do r <- p_group_or h (mkPG j n k br) cs; Ok (of_pg r)
  | PRef a => do g <- receiver h a; do r <- p_group_or h g cs; Ok (of_pg r)
  end.

(** Rendering follows the pointers when it is called.  A variable may (through a pointer)
    contain itself, so the calls are bounded by [f]; None: more than f nested calls. *)
Definition obind {A B} (o : option (res A)) (k : A -> option (res B)) : option (res B) :=
  match o with
  | None => None
  | Some Panic => Some Panic
  | Some (Ok x) => k x
  end.

(** group.go:300-302, the loop over the conditions of a group; [vl] is condition.Values *)
Fixpoint values_loop (vl : pcond -> option (res (list gval))) (cs : list pcond) : option (res (list gval)) :=
  match cs with
  | [] => Some (Ok [])
  | c :: r => obind (vl c) (fun v => obind (values_loop vl r) (fun vs => Some (Ok (v ++ vs)%list)))
  end.
(** group.go:297-305 Values *)
Fixpoint p_values (f : nat) (h : vars) (c : pcond) : option (res (list gval)) :=
  match f with
  | 0 => None
  | S f =>
      match c with
      | PNil => Some Panic
      | PLeaf l => Some (leaf_values l)
      | PGrp _ _ cs _ => values_loop (p_values f h) cs
      | PRef a => match h a with None => Some Panic | Some g => values_loop (p_values f h) (pg_cs g) end
      end
  end.

(** group.go:238-246, the loop over the conditions; [rd] and [vl] are condition.Render and
    condition.Values *)
Fixpoint render_loop (h : vars) (rd : pcond -> nat -> option (res string)) (vl : pcond -> option (res (list gval)))
    (first : bool) (cs : list pcond) (n : nat) : option (res string) :=
  match cs with
  | [] => Some (Ok "")
  | c :: r =>
      obind (Some (p_jtype h c)) (fun j =>
      obind (rd c n) (fun s =>
      obind (vl c) (fun vs =>
      obind (render_loop h rd vl false r (n + length vs)) (fun rest =>
      Some (Ok (join_token first j ++ s ++ rest))))))
  end.
(** group.go:231-261 Render *)
Fixpoint p_render (f : nat) (h : vars) (c : pcond) (n : nat) : option (res string) :=
  match f with
  | 0 => None
  | S f =>
      let group := fun g : pgroup =>
        match pg_cs g with
        | [] => Some (Ok "")
        | cs => obind (render_loop h (p_render f h) (p_values f h) true cs n)
                  (fun sql => Some (Ok (wrap (pg_neg g) (pg_br g) (1 <? length cs) sql)))
        end in
      match c with
      | PNil => Some Panic
      | PLeaf l => Some (leaf_render l n)
      | PGrp j ng cs br => group (mkPG j ng cs br)
      | PRef a => match h a with None => Some Panic | Some g => group g end
      end
  end.
