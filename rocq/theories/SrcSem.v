(** What the part of Go that the package is written in does.

    Like SrcAst.v and SrcParse.v this describes the language, not the package:
    of the package it uses what SrcProg.v has read, its types, the names and
    the bodies of its functions, its constants.
    Simplified: a slice is the list of its elements (what two slices share is
    the subject of Heap.v), so a nil slice and an empty one are the same and a
    slice is equal to nil when it has no elements (the source compares a slice
    with nil once, group.go:36, only to put an empty one in its place); a pointer is read as
    what it points to (the package has no pointer receivers and no assignment
    through a pointer, and no type test of it is for a type that it takes the
    address of); maps are lists in the order in which range
    happens to visit them.  Whatever is not covered comes out as [Wrong], so a
    theorem that says how a call ends also says that nothing outside this
    description was met on the way. *)
From Coq Require Import String Ascii List Bool Arith NArith ZArith.
From Verif Require Import GoStr Value SrcAst SrcProg Open.
Import ListNotations.
Local Open Scope string_scope.
Local Open Scope nat_scope.

(** * How an evaluation ends *)
Inductive rr (A : Type) : Type :=
  | Done (a : A)
  | Halt                       (* panic *)
  | Wrong                      (* outside this description *)
  | Spent.                     (* more calls or rounds than allowed *)
Arguments Done {A} a.
Arguments Halt {A}.
Arguments Wrong {A}.
Arguments Spent {A}.

Definition rbind {A B} (r : rr A) (f : A -> rr B) : rr B :=
  match r with
  | Done a => f a
  | Halt => Halt
  | Wrong => Wrong
  | Spent => Spent
  end.
Notation "'let!' x ':=' e 'in' f" := (rbind e (fun x => f))
  (at level 200, x pattern, e at level 200, f at level 200, right associativity).

(** * Values *)
Section Values.
Context {S : Type}.

Inductive val : Type :=
  | RNil                                        (* nil pointer or interface *)
  | RStr (t : string) (s : string)              (* of string or a type based on it *)
  | RInt (t : string) (z : Z)                   (* of int, uint or a type based on them *)
  | RBool (b : bool)
  | RStruct (n : string) (fs : list (string * val))
  | RSlice (l : list val)
  | RMap (l : list (string * val))
  | RTuple (l : list val)                       (* several results of a call *)
  | RType (t : ty)                              (* a type as an argument *)
  | RUpper (s : string)                         (* strings.ToUpper s *)
  | RHost (g : gval)                            (* a value handed in from outside *)
  | RRefl (what : string) (v : val)             (* results of the reflect package, formatted texts *)
  | RUser (l : Cond.leaf)                       (* a condition of a user-written type built like the library's *)
  | RObj (o : S).                               (* a condition of any other user-written type *)

(** A value from outside: nil, strings and uints are plain, the rest is opaque. *)
Definition of_gval (g : gval) : val :=
  match g with
  | VNil => RNil
  | VStr s => RStr "string" s
  | VUint n => RInt "uint" (Z.of_N n)
  | _ => RHost g
  end.

Definition env : Type := list (string * (option ty * val)).

Fixpoint find_env (x : string) (E : env) : option (option ty * val) :=
  match E with
  | [] => None
  | (y, p) :: r => if String.eqb x y then Some p else find_env x r
  end.

Fixpoint assoc {A} (x : string) (l : list (string * A)) : option A :=
  match l with
  | [] => None
  | (y, a) :: r => if String.eqb x y then Some a else assoc x r
  end.

Fixpoint set_assoc {A} (x : string) (a : A) (l : list (string * A)) : list (string * A) :=
  match l with
  | [] => []
  | (y, b) :: r => if String.eqb x y then (y, a) :: r else (y, b) :: set_assoc x a r
  end.

(** List functions of its own, so that running the interpreter can be told
    apart from computing with what it works on. *)
Fixpoint vmap {A B} (f : A -> B) (l : list A) : list B :=
  match l with
  | [] => []
  | a :: r => f a :: vmap f r
  end.
Fixpoint same_length {A B} (l : list A) (m : list B) : bool :=
  match l, m with
  | [], [] => true
  | _ :: l, _ :: m => same_length l m
  | _, _ => false
  end.
(** The key of the method [m] of the type [t], or the full name of [m] of the
    package [t]. *)
Fixpoint key (t m : string) : string :=
  match t with
  | EmptyString => String "." m
  | String c r => String c (key r m)
  end.
Fixpoint mem_s (x : string) (l : list string) : bool :=
  match l with
  | [] => false
  | y :: r => if String.eqb x y then true else mem_s x r
  end.

(** What one function or statement after another leaves behind. *)
Inductive ctl : Type :=
  | Next (E : env)
  | Ret (vs : list val)        (* return with values *)
  | RetNames (E : env)         (* return of the named results *)
  | Brk (E : env)
  | Cont (E : env).

End Values.
Arguments val : clear implicits.
Arguments env : clear implicits.
Arguments ctl : clear implicits.

Section Sem.
Context {S : Type} (i : impl S).
Notation val := (val S).
Notation env := (env S).
Notation ctl := (ctl S).

(** * Types *)

Definition ints : list string := ["int"; "uint"].

(** Is a type, or the type it is based on, string; or int or uint. *)
Definition is_string_ty (n : string) : bool :=
  if String.eqb n "string" then true
  else
    match assoc n pkg_types with
    | Some (TdIs (TyName m)) => String.eqb m "string"
    | _ => false
    end.
Definition is_int_ty (n : string) : bool :=
  if mem_s n ints then true
  else
    match assoc n pkg_types with
    | Some (TdIs (TyName m)) => mem_s m ints
    | _ => false
    end.

(** A value put where a value of type [t] is declared: an untyped constant
    takes that type. *)
Definition coerce (t : ty) (v : val) : val :=
  match t with
  | TyName n =>
    if is_string_ty n then match v with RStr _ s => RStr n s | _ => v end
    else if is_int_ty n then match v with RInt _ z => RInt n z | _ => v end
    else v
  | TySlice _ => match v with RNil => RSlice [] | _ => v end
  | _ => v
  end.

(** The conversion [n(v)]; an int made a uint wraps around. *)
Definition convert (n : string) (v : val) : rr val :=
  match v with
  | RStr _ s => if is_string_ty n then Done (RStr n s) else Wrong
  | RInt _ z =>
    if is_int_ty n then
      Done (RInt n (if String.eqb n "uint" then (if (z <? 0)%Z then z + 2 ^ 64 else z)%Z else z))
    else Wrong
  | _ => Wrong
  end.

Fixpoint zero (d : nat) (t : ty) : val :=
  match t with
  | TySlice _ => RSlice []
  | TyName n =>
    if String.eqb n "bool" then RBool false
    else if is_string_ty n then RStr n ""
    else if is_int_ty n then RInt n 0
    else
      match d with
      | 0 => RNil
      | Datatypes.S d =>
        match assoc n pkg_types with
        | Some (TdStruct fs) =>
          RStruct n (vmap (fun f => (fd_name f, zero d (fd_ty f))) fs)
        | _ => RNil
        end
      end
  | _ => RNil
  end.

Definition struct_fields (n : string) : list fdecl :=
  match assoc n pkg_types with
  | Some (TdStruct fs) => fs
  | _ => []
  end.
Definition field_ty (n f : string) : option ty :=
  match find (fun d => String.eqb (fd_name d) f) (struct_fields n) with
  | Some d => Some (fd_ty d)
  | None => None
  end.
Definition embedded (n : string) : list string :=
  vmap fd_name (filter fd_emb (struct_fields n)).

Fixpoint first_some {A B} (f : A -> option B) (l : list A) : option B :=
  match l with
  | [] => None
  | a :: r => match f a with Some b => Some b | None => first_some f r end
  end.

(** * Fields and methods, promoted through embedded structs: the least deep
    one is meant. *)

Fixpoint field_at (d : nat) (v : val) (f : string) : option val :=
  match v with
  | RStruct n fs =>
    match d with
    | 0 => assoc f fs
    | Datatypes.S d =>
      first_some (fun e => match assoc e fs with Some w => field_at d w f | None => None end)
                 (embedded n)
    end
  | _ => None
  end.

Definition sel (v : val) (f : string) : rr val :=
  match v with
  | RNil => Halt
  | _ =>
    match first_some (fun d => field_at d v f) [0; 1; 2; 3; 4] with
    | Some w => Done w
    | None => Wrong
    end
  end.

Definition set_own (n : string) (fs : list (string * val)) (f : string) (w : val) : val :=
  RStruct n (set_assoc f (match field_ty n f with Some t => coerce t w | None => w end) fs).

Fixpoint set_at (d : nat) (v : val) (f : string) (w : val) : option val :=
  match v with
  | RStruct n fs =>
    match d with
    | 0 => match assoc f fs with Some _ => Some (set_own n fs f w) | None => None end
    | Datatypes.S d =>
      first_some (fun e => match assoc e fs with
                           | Some u => option_map (fun u' => RStruct n (set_assoc e u' fs)) (set_at d u f w)
                           | None => None
                           end)
                 (embedded n)
    end
  | _ => None
  end.

Definition set_field (v : val) (f : string) (w : val) : rr val :=
  match first_some (fun d => set_at d v f w) [0; 1; 2; 3; 4] with
  | Some v' => Done v'
  | None => Wrong
  end.

Definition type_of (v : val) : string :=
  match v with
  | RStruct n _ => n
  | RStr t _ => t
  | RInt t _ => t
  | _ => ""
  end.

Definition has_func (k : string) : bool :=
  mem_s k pkg_keys.

Fixpoint method_at (d : nat) (v : val) (m : string) : option (string * val) :=
  match d with
  | 0 => let k := key (type_of v) m in if has_func k then Some (k, v) else None
  | Datatypes.S d =>
    match v with
    | RStruct n fs =>
      first_some (fun e => match assoc e fs with Some w => method_at d w m | None => None end)
                 (embedded n)
    | _ => None
    end
  end.

Definition find_method (v : val) (m : string) : option (string * val) :=
  first_some (fun d => method_at d v m) [0; 1; 2; 3; 4].

(** * Values from outside *)

Definition host_is (g : gval) (t : ty) : bool :=
  match g, t with
  | VValuer _ _, TyQual "driver" "Valuer" => true
  | VValuers _, TySlice (TyQual "driver" "Valuer") => true
  | VProvider _, TyName "ValueProvider" => true
  | VValuer _ (Some _), TyName "ValueProvider" => true
  | VProviders _, TySlice (TyName "ValueProvider") => true
  | VStrs _, TySlice (TyName "string") => true
  | _, _ => false
  end.

Definition type_is (v : val) (t : ty) : bool :=
  match v, t with
  | RStruct n _, TyName m => String.eqb n m
  | RStr n _, TyName m => String.eqb n m
  | RInt n _, TyName m => String.eqb n m
  | RHost g, _ => host_is g t
  | _, _ => false
  end.

Definition opt_valuer (o : option vout) : val :=
  match o with Some u => RHost (VValuer u None) | None => RNil end.
Definition opt_provider (o : option gval) : val :=
  match o with Some u => RHost (VProvider u) | None => RNil end.

(** The elements of a slice. *)
Definition elems (v : val) : rr (list val) :=
  match v with
  | RSlice l => Done l
  | RHost (VValuers l) => Done (map opt_valuer l)
  | RHost (VProviders l) => Done (map opt_provider l)
  | RHost (VStrs l) => Done (map (RStr "string") l)
  | RHost (VValuerSlice l) => Done (map opt_valuer l)
  | _ => Wrong
  end.

(** Methods of the driver.Valuer and ValueProvider interfaces: the error is
    nil or something that is not nil. *)
Definition host_call (g : gval) (m : string) (vs : list val) : rr val :=
  match g, m, vs with
  | VValuer (ORet v failed) _, "Value", [] =>
    Done (RTuple [of_gval v; if failed then RRefl "error" RNil else RNil])
  | VValuer OPanic _, "Value", [] => Halt
  | VProvider v, "DatabaseValue", [] => Done (of_gval v)
  | VValuer _ (Some v), "DatabaseValue", [] => Done (of_gval v)
  | _, _, _ => Wrong
  end.

(** The few uses of the reflect package in value.go:71-84. *)
Definition refl_call (what : string) (v : val) (m : string) (vs : list val) : rr val :=
  match what, m, vs with
  | "value", "Kind", [] =>
    Done (RStr "reflect.Kind"
            match v with
            | RHost (VSlice _) | RHost (VStrs _) | RHost (VValuers _)
            | RHost (VProviders _) | RHost (VValuerSlice _) => "slice"
            | _ => "other"
            end)
  | "value", "Type", [] => Done (RRefl "type" v)
  | "type", "Elem", [] => Done (RRefl "elem" v)
  | "elem", "Implements", [RRefl "elem" RNil] =>
    Done (RBool match v with
                | RHost (VValuerSlice _) | RHost (VValuers _) => true
                | _ => false
                end)
  | "value", "Len", [] => let! l := elems v in Done (RInt "int" (Z.of_nat (length l)))
  | "value", "Index", [RInt _ z] =>
    let! l := elems v in
    match nth_error l (Z.to_nat z) with
    | Some w => Done (RRefl "value" w)
    | None => Halt
    end
  | "value", "Interface", [] => Done v
  | _, _, _ => Wrong
  end.

(** * Conditions of user-written types: what they give back is any condition;
    which of the representations of it is unknown, [of_x] takes one. *)

Definition kind_type (k : Cond.kind) : string :=
  match k with
  | Cond.KEq => "equalTo"
  | Cond.KGt => "greater"
  | Cond.KGe => "greaterOrEqual"
  | Cond.KLt => "less"
  | Cond.KLe => "lessOrEqual"
  | Cond.KLike => "contains"
  | Cond.KILike => "iContains"
  | Cond.KIn => "in"
  | Cond.KNull => "nullValue"
  | Cond.KCustom _ => ""
  end.

Definition of_fdef (d : Names.fdef) : val :=
  RStruct "FieldDefinition"
    [("fieldName", RStr "string" (Names.f_name d));
     ("tableName", RStr "string" (Names.f_table d));
     ("alias", RStr "string" (Names.f_alias d))].
Definition of_base (j : string) (n : bool) : val :=
  RStruct "BaseCondition" [("joinType", RStr "JoinType" j); ("negate", RBool n)].
Definition of_leaf (l : Cond.leaf) : val :=
  match Cond.l_kind l with
  | Cond.KCustom _ => RUser l
  | Cond.KNull =>
    RStruct "nullValue"
      [("BaseCondition", of_base (Cond.l_join l) (Cond.l_neg l)); ("FieldDefinition", of_fdef (Cond.l_def l))]
  | k =>
    RStruct (kind_type k)
      [("BaseCondition", of_base (Cond.l_join l) (Cond.l_neg l));
       ("FieldValue", RStruct "FieldValue"
          [("FieldDefinition", of_fdef (Cond.l_def l)); ("value", of_gval (Cond.l_val l))])]
  end.
Fixpoint of_x (c : xcond S) : val :=
  match c with
  | XNil => RNil
  | XLeaf l => of_leaf l
  | XGrp j n cs br =>
    RStruct "Group"
      [("BaseCondition", of_base j n); ("conditions", RSlice (map of_x cs));
       ("withBrackets", RBool br)]
  | XObj o => RObj o
  end.

Definition to_fdef (v : val) : option Names.fdef :=
  match v with
  | RStruct _ [(_, RStr _ a); (_, RStr _ b); (_, RStr _ c)] => Some (Names.mkF a b c)
  | _ => None
  end.

Definition of_res {A} (f : A -> val) (r : res A) : rr val :=
  match r with Ok a => Done (f a) | Panic => Halt end.

Definition obj_call (o : S) (m : string) (vs : list val) : rr val :=
  match m, vs with
  | "JoinType", [] => of_res (RStr "JoinType") (wr_jtype i o)
  | "RenderJoin", [RBool b] => of_res (RStr "string") (wr_render_join i o b)
  | "Join", [RStr _ j] => of_res of_x (wr_join i o j)
  | "Negate", [RBool b] => of_res of_x (wr_negate i o b)
  | "Render", [RInt _ z] =>
    if (0 <=? z)%Z then of_res (RStr "string") (wr_render i o (Z.to_nat z)) else Wrong
  | "RenderSQL", [] => of_res (RStr "string") (wr_sql i o)
  | "Values", [] => of_res (fun l => RSlice (map of_gval l)) (wr_values i o)
  | "ApplyFieldSpec", [v] =>
    match to_fdef v with Some d => of_res of_x (wr_spec i o d) | None => Wrong end
  | "ApplyFieldTable", [RStr _ t] => of_res of_x (wr_table i o t)
  | _, _ => Wrong
  end.
Definition user_call (l : Cond.leaf) (m : string) (vs : list val) : rr val :=
  match m, vs with
  | "JoinType", [] => Done (RStr "JoinType" (Cond.l_join l))
  | "RenderJoin", [RBool b] => Done (RStr "string" (Cond.render_join b (Cond.l_join l)))
  | "Join", [RStr _ j] =>
    Done (of_leaf (Cond.mkLeaf (Cond.l_kind l) j (Cond.l_neg l) (Cond.l_def l) (Cond.l_val l)))
  | "Negate", [RBool b] =>
    Done (of_leaf (Cond.mkLeaf (Cond.l_kind l) (Cond.l_join l) b (Cond.l_def l) (Cond.l_val l)))
  | "Render", [RInt _ z] =>
    if (0 <=? z)%Z then of_res (RStr "string") (Cond.leaf_render l (Z.to_nat z)) else Wrong
  | "RenderSQL", [] => of_res (RStr "string") (Cond.leaf_render_sql l)
  | "Values", [] => of_res (fun l => RSlice (map of_gval l)) (Cond.leaf_values l)
  | "ApplyFieldSpec", [v] =>
    match to_fdef v with
    | Some d =>
      Done (of_leaf (Cond.mkLeaf (Cond.l_kind l) (Cond.l_join l) (Cond.l_neg l)
                       (Names.apply_spec (Cond.l_def l) d) (Cond.l_val l)))
    | None => Wrong
    end
  | "ApplyFieldTable", [RStr _ t] =>
    Done (of_leaf (Cond.mkLeaf (Cond.l_kind l) (Cond.l_join l) (Cond.l_neg l)
                     (Names.set_table (Cond.l_def l) t) (Cond.l_val l)))
  | _, _ => Wrong
  end.

(** * Library functions *)

Fixpoint strs (l : list val) : rr (list string) :=
  match l with
  | [] => Done []
  | RStr _ s :: r => let! t := strs r in Done (s :: t)
  | _ => Wrong
  end.

Definition one_byte (s : string) : option ascii :=
  match s with String c EmptyString => Some c | _ => None end.

Definition library (f : string) (vs : list val) : rr val :=
  match f, vs with
  | "strings.Contains", [RStr _ s; RStr _ p] =>
    match one_byte p with Some c => Done (RBool (has_byte c s)) | None => Wrong end
  | "strings.Count", [RStr _ s; RStr _ p] =>
    match one_byte p with Some c => Done (RInt "int" (Z.of_nat (count_byte c s))) | None => Wrong end
  | "strings.HasPrefix", [RStr _ s; RStr _ p] =>
    match one_byte p with Some c => Done (RBool (has_prefix_byte c s)) | None => Wrong end
  | "strings.HasSuffix", [RStr _ s; RStr _ p] =>
    match one_byte p with Some c => Done (RBool (has_suffix_byte c s)) | None => Wrong end
  | "strings.Split", [RStr _ s; RStr _ p] =>
    match one_byte p with
    | Some c => Done (RSlice (map (RStr "string") (split_byte c s)))
    | None => Wrong
    end
  | "strings.Fields", [RStr _ s] => Done (RSlice (map (RStr "string") (go_fields s)))
  | "strings.ToUpper", [RStr _ s] => Done (RUpper s)
  | "strings.Join", [RSlice l; RStr _ sep] =>
    let! t := strs l in Done (RStr "string" (join sep t))
  | "strconv.Itoa", [RInt _ z] => Done (RStr "string" (itoaZ z))
  | "errors.New", [RStr _ s] => Done (RRefl "error" (RStr "string" s))
  | "fmt.Errorf", RStr _ s :: r => Done (RRefl "error" (RSlice (RStr "string" s :: r)))
  | "errors.Join", r => Done (RRefl "error" (RSlice r))
  | "fmt.Sprintf", [RStr _ "%v"; RStr _ s] => Done (RStr "string" s)
  | "fmt.Sprintf", [RStr _ "%T(%v)"; RStruct n _; RStr _ s] =>
    Done (RStr "string" ("query." ++ n ++ "(" ++ s ++ ")"))
  | "fmt.Sprintf", r => Done (RRefl "text" (RSlice r))
  | "reflect.ValueOf", [v] => Done (RRefl "value" v)
  | "reflect.TypeOf", [v] => Done (RRefl "type" v)
  | _, _ => Wrong
  end.

Definition packages : list string :=
  ["strings"; "strconv"; "fmt"; "errors"; "reflect"; "driver"].

Definition package_value (p x : string) : rr val :=
  if String.eqb (key p x) "reflect.Slice" then Done (RStr "reflect.Kind" "slice") else Wrong.

Definition length_of (v : val) : rr val :=
  match v with
  | RStr _ s => Done (RInt "int" (Z.of_nat (String.length s)))
  | RMap l => Done (RInt "int" (Z.of_nat (length l)))
  | _ => let! l := elems v in Done (RInt "int" (Z.of_nat (length l)))
  end.

(** make: elements of the zero value, a negative length panics. *)
Definition make_slice (t : ty) (z : Z) : rr val :=
  if (z <? 0)%Z then Halt else Done (RSlice (repeat (zero 6 t) (Z.to_nat z))).

Definition builtin (f : string) (vs : list val) : option (rr val) :=
  match f, vs with
  | "len", [v] => Some (length_of v)
  | "append", v :: r => Some (let! l := elems v in Done (RSlice (l ++ r)))
  | "make", RType (TySlice t) :: RInt _ z :: _ => Some (make_slice t z)
  | "panic", _ => Some Halt
  | _, _ => None
  end.

(** * Operators *)

Definition equal (a b : val) : rr bool :=
  match a, b with
  | RStr _ s, RStr _ t => Done (str_eqb s t)
  | RUpper s, RStr _ t => if String.eqb t "AS" then Done (is_as s) else Wrong
  | RInt _ x, RInt _ y => Done (x =? y)%Z
  | RBool x, RBool y => Done (Bool.eqb x y)
  | RNil, RNil => Done true
  | RSlice l, RNil => Done (match l with [] => true | _ => false end)
  | RNil, (RHost _ | RRefl _ _ | RStruct _ _) => Done false
  | (RHost _ | RRefl _ _ | RStruct _ _), RNil => Done false
  | _, _ => Wrong
  end.

Definition binary (op : string) (a b : val) : rr val :=
  match op with
  | "==" => let! x := equal a b in Done (RBool x)
  | "!=" => let! x := equal a b in Done (RBool (negb x))
  | _ =>
    match op, a, b with
    | "+", RStr t s, RStr u r => Done (RStr t (s ++ r))
    | "+", RInt t x, RInt _ y => Done (RInt t (x + y))
    | "-", RInt t x, RInt _ y => Done (RInt t (x - y))
    | ">", RInt _ x, RInt _ y => Done (RBool (y <? x)%Z)
    | "<", RInt _ x, RInt _ y => Done (RBool (x <? y)%Z)
    | ">=", RInt _ x, RInt _ y => Done (RBool (y <=? x)%Z)
    | "<=", RInt _ x, RInt _ y => Done (RBool (x <=? y)%Z)
    | _, _, _ => Wrong
    end
  end.

Definition unary (op : string) (v : val) : rr val :=
  match op, v with
  | "!", RBool b => Done (RBool (negb b))
  | "-", RInt t z => Done (RInt t (- z))
  | "&", RStruct _ _ => Done v
  | "*", RStruct _ _ => Done v
  | "*", RNil => Halt
  | _, _ => Wrong
  end.

Definition index (v : val) (k : val) : rr val :=
  let! l := elems v in
  match k with
  | RInt _ z =>
    if (z <? 0)%Z then Halt
    else match nth_error l (Z.to_nat z) with Some w => Done w | None => Halt end
  | _ => Wrong
  end.

Fixpoint update (l : list val) (n : nat) (v : val) : option (list val) :=
  match l, n with
  | [], _ => None
  | _ :: r, 0 => Some (v :: r)
  | a :: r, Datatypes.S n => option_map (cons a) (update r n v)
  end.

Definition set_index (v : val) (k : val) (w : val) : rr val :=
  match v, k with
  | RSlice l, RInt _ z =>
    if (z <? 0)%Z then Halt
    else match update l (Z.to_nat z) w with Some l' => Done (RSlice l') | None => Halt end
  | _, _ => Wrong
  end.

(** * The constants and variables of the package: literals, [iota], a minus
    sign, errors.New, repeated lines *)
Definition const_val (e : expr) (k : Z) : option val :=
  match e with
  | EInt n => Some (RInt "int" n)
  | EStr s => Some (RStr "string" s)
  | EUn "-" (EInt n) => Some (RInt "int" (- n))
  | EId "iota" => Some (RInt "int" k)
  | ECall (ESel (EId "errors") "New") [EStr s] false => Some (RRefl "error" (RStr "string" s))
  | _ => None
  end.
Definition with_type (t : option ty) (v : val) : val :=
  match t with Some u => coerce u v | None => v end.
Fixpoint globals_of (l : list decl) : list (string * val) :=
  match l with
  | [] => []
  | DConst n t e k :: r =>
    match const_val e k with
    | Some v => (n, with_type t v) :: globals_of r
    | None => globals_of r
    end
  | DVarTop n t e :: r =>
    match const_val e 0 with
    | Some v => (n, with_type t v) :: globals_of r
    | None => globals_of r
    end
  | _ :: r => globals_of r
  end.
Definition globals : list (string * val) := Eval vm_compute in globals_of decls.

(** * Evaluation, given what calls do *)
Variable call : string -> list val -> rr val.

(** A call of a method on a value. *)
Definition mcall (v : val) (m : string) (vs : list val) : rr val :=
  match v with
  | RNil => Halt
  | RUser l => user_call l m vs
  | RObj o => obj_call o m vs
  | RHost g => host_call g m vs
  | RRefl what w => refl_call what w m vs
  | _ =>
    match find_method v m with
    | Some (k, r) => call k (r :: vs)
    | None => Wrong
    end
  end.

Fixpoint spread (l : list val) : rr (list val) :=
  match l with
  | [] => Wrong
  | [v] => elems v
  | v :: r => let! r' := spread r in Done (v :: r')
  end.

Definition lookup (E : env) (x : string) : rr val :=
  match find_env x E with
  | Some (_, v) => Done v
  | None =>
    if String.eqb x "nil" then Done RNil
    else if String.eqb x "true" then Done (RBool true)
    else if String.eqb x "false" then Done (RBool false)
    else match assoc x globals with Some v => Done v | None => Wrong end
  end.

Definition is_package (E : env) (p : string) : bool :=
  if mem_s p packages then match find_env p E with Some _ => false | None => true end else false.

Definition is_type (x : string) : bool :=
  if mem_s x ["string"; "int"; "uint"] then true
  else match assoc x pkg_types with Some _ => true | None => false end.

Definition call_name (f : string) (vs : list val) : rr val :=
  match builtin f vs with
  | Some r => r
  | None =>
    if has_func f then call f vs
    else if is_type f then match vs with [v] => convert f v | _ => Wrong end
    else Wrong
  end.

(** A composite literal of a struct type: what is not named is zero. *)
Definition fill (n : string) (given : list (string * val)) : val :=
  RStruct n (vmap (fun d => (fd_name d,
                             match assoc (fd_name d) given with
                             | Some v => coerce (fd_ty d) v
                             | None => zero 6 (fd_ty d)
                             end)) (struct_fields n)).

Fixpoint keyed (l : list (option string * val)) : list (string * val) :=
  match l with
  | [] => []
  | (Some k, v) :: r => (k, v) :: keyed r
  | (None, _) :: r => keyed r
  end.

Definition literal (t : ty) (els : list (option string * val)) : rr val :=
  match t with
  | TySlice u => Done (RSlice (vmap (fun p => coerce u (snd p)) els))
  | TyName n =>
    match assoc n pkg_types with
    | Some (TdStruct _) =>
      Done (fill n (keyed els))
    | _ => Wrong
    end
  | _ => Wrong
  end.

Definition assert_ty (v : val) (t : ty) : rr val := if type_is v t then Done v else Halt.

Fixpoint eval (E : env) (e : expr) {struct e} : rr val :=
  match e with
  | EId x => lookup E x
  | EInt n => Done (RInt "int" n)
  | EStr s => Done (RStr "string" s)
  | ETy t => Done (RType t)
  | ESel b f =>
    match b with
    | EId p => if is_package E p then package_value p f
               else let! v := lookup E p in sel v f
    | _ => let! v := eval E b in sel v f
    end
  | EIdx b k => let! v := eval E b in let! w := eval E k in index v w
  | EUn op b => let! v := eval E b in unary op v
  | EBin op a b =>
    let! v := eval E a in
    if String.eqb op "&&" then
      match v with RBool true => eval E b | RBool false => Done (RBool false) | _ => Wrong end
    else if String.eqb op "||" then
      match v with RBool true => Done (RBool true) | RBool false => eval E b | _ => Wrong end
    else let! w := eval E b in binary op v w
  | EAssert b t => let! v := eval E b in assert_ty v t
  | ETypeOf _ => Wrong
  | ELit t els =>
    let! l := (fix go (l : list (option string * expr)) : rr (list (option string * val)) :=
                 match l with
                 | [] => Done []
                 | (k, e) :: r => let! v := eval E e in let! r' := go r in Done ((k, v) :: r')
                 end) els in
    literal t l
  | ECall f args sp =>
    let! head :=
      match f with
      | ESel (EId p) m => if is_package E p then Done None else let! v := lookup E p in Done (Some v)
      | ESel b m => let! v := eval E b in Done (Some v)
      | _ => Done None
      end in
    let! vs := (fix go (l : list expr) : rr (list val) :=
                  match l with
                  | [] => Done []
                  | e :: r => let! v := eval E e in let! r' := go r in Done (v :: r')
                  end) args in
    let! vs := if sp then spread vs else Done vs in
    match f, head with
    | EId x, _ => call_name x vs
    | ESel _ m, Some v => mcall v m vs
    | ESel (EId p) m, None => library (key p m) vs
    | EUn _ _, _ => Done RNil                     (* ( *T)(nil) *)
    | _, _ => Wrong
    end
  end.

(** * Statements *)

Definition set_var (x : string) (v : val) (E : env) : rr env :=
  if String.eqb x "_" then Done E
  else
    match find_env x E with
    | Some (t, _) =>
      Done (set_assoc x (t, match t with Some u => coerce u v | None => v end) E)
    | None => Wrong
    end.

(** Assignment to a variable, a field of one, an element of one, and so on. *)
Fixpoint assign (E : env) (l : expr) (v : val) {struct l} : rr env :=
  match l with
  | EId x => set_var x v E
  | ESel b f => let! old := eval E b in let! new := set_field old f v in assign E b new
  | EIdx b k =>
    let! old := eval E b in
    let! n := eval E k in
    let! new := set_index old n v in assign E b new
  | _ => Wrong
  end.

Fixpoint assign_all (E : env) (ls : list expr) (vs : list val) : rr env :=
  match ls, vs with
  | [], [] => Done E
  | l :: ls, v :: vs => let! E' := assign E l v in assign_all E' ls vs
  | _, _ => Wrong
  end.

Definition bind_new (E : env) (t : option ty) (x : string) (v : val) : env :=
  if String.eqb x "_" then E
  else (x, (t, match t with Some u => coerce u v | None => v end)) :: E.

Fixpoint bind_all (E : env) (t : option ty) (xs : list string) (vs : list val) : rr env :=
  match xs, vs with
  | [], [] => Done E
  | x :: xs, v :: vs => bind_all (bind_new E t x v) t xs vs
  | _, _ => Wrong
  end.

Definition two {A} (l : list A) : bool := match l with [_; _] => true | _ => false end.

(** The results of a call. *)
Definition values_of (v : val) : list val := match v with RTuple l => l | _ => [v] end.

(** The values on the right of an assignment; [n] says that it is one to two
    places. *)
Definition rights (E : env) (n : bool) (es : list expr) : rr (list val) :=
  match es with
  | [EAssert b t] =>
    if n then
      let! v := eval E b in
      Done (if type_is v t then [v; RBool true] else [zero 6 t; RBool false])
    else let! v := eval E (EAssert b t) in Done [v]
  | [e] =>
    let! v := eval E e in Done (values_of v)
  | _ =>
    (fix go (l : list expr) : rr (list val) :=
       match l with
       | [] => Done []
       | e :: r => let! v := eval E e in let! r' := go r in Done (v :: r')
       end) es
  end.

Fixpoint cut (E E' : env) : env :=
  match E' with
  | [] => []
  | _ :: r => if same_length E E' then E' else cut E r
  end.

(** Leaving a block: the variables declared in it are gone. *)
Definition leave (E : env) (c : ctl) : ctl :=
  match c with
  | Next E' => Next (cut E E')
  | Brk E' => Brk (cut E E')
  | Cont E' => Cont (cut E E')
  | _ => c
  end.

Definition lleave (E : env) (r : rr ctl) : rr ctl := let! c := r in Done (leave E c).

(** A range loop over a list of pairs of key and element. *)
Fixpoint loop (body : env -> rr ctl) (k v : string) (l : list (val * val)) (E : env) : rr ctl :=
  match l with
  | [] => Done (Next E)
  | (kv, vv) :: r =>
    let! c := lleave E (body (bind_new (bind_new E None k kv) None v vv)) in
    match c with
    | Next E' | Cont E' => loop body k v r E'
    | Brk E' => Done (Next E')
    | _ => Done c
    end
  end.

(** A loop with a condition, at most [n] rounds. *)
Fixpoint while (n : nat) (c : env -> rr val) (post body : env -> rr ctl) (E : env) : rr ctl :=
  match n with
  | 0 => Spent
  | Datatypes.S n =>
    let! b := c E in
    match b with
    | RBool false => Done (Next E)
    | RBool true =>
      let! r := lleave E (body E) in
      match r with
      | Next E' | Cont E' =>
        let! p := post E' in
        match p with
        | Next E'' => while n c post body E''
        | _ => Wrong
        end
      | Brk E' => Done (Next E')
      | _ => Done r
      end
    | _ => Wrong
    end
  end.

Fixpoint numbered (n : nat) (l : list val) : list (val * val) :=
  match l with
  | [] => []
  | v :: r => (RInt "int" (Z.of_nat n), v) :: numbered (Datatypes.S n) r
  end.

Definition range_of (v : val) : rr (list (val * val)) :=
  match v with
  | RMap l => Done (map (fun p => (RStr "string" (fst p), snd p)) l)
  | _ => let! l := elems v in Done (numbered 0 l)
  end.

(** Does a case of a switch apply: is one of its expressions the tag, or true. *)
Fixpoint case_holds (E : env) (tag : option val) (es : list expr) : rr bool :=
  match es with
  | [] => Done false
  | e :: r =>
    let! v := eval E e in
    let! b := match tag with
              | Some t => equal t v
              | None => match v with RBool b => Done b | _ => Wrong end
              end in
    if b then Done true else case_holds E tag r
  end.

Definition type_name_of (e : expr) : option ty :=
  match e with
  | EId x => Some (TyName x)
  | ESel (EId p) x => Some (TyQual p x)
  | ETy t => Some t
  | _ => None
  end.

Fixpoint type_case_holds (v : val) (es : list expr) : rr bool :=
  match es with
  | [] => Done false
  | e :: r =>
    match type_name_of e with
    | Some t => if type_is v t then Done true else type_case_holds v r
    | None => Wrong
    end
  end.

Definition unbrk (c : ctl) : ctl := match c with Brk E => Next E | _ => c end.

(** How many rounds of a loop with a condition are gone through: some more than there are elements in
    the slices at hand.  A loop that needs more is [Spent]. *)
Fixpoint room (E : env) : nat :=
  match E with
  | [] => 1
  | (_, (_, RSlice l)) :: r => length l + room r
  | _ :: r => room r
  end.
Variable rounds : nat.

(** A statement. *)
Fixpoint exec (s : stmt) (E : env) {struct s} : rr ctl :=
  let block := fix block (l : list stmt) (E : env) {struct l} : rr ctl :=
    match l with
    | [] => Done (Next E)
    | s :: r =>
      let! c := exec s E in
      match c with
      | Next E' => block r E'
      | _ => Done c
      end
    end in
  match s with
  | SExpr (ECall (EId "copy") [dst; src] false) =>
    let! d := eval E dst in
    let! s := eval E src in
    let! dl := elems d in
    let! sl := elems s in
    let! E' := assign E dst (RSlice (firstn (length dl) sl ++ skipn (length sl) dl)) in
    Done (Next E')
  | SExpr e => let! _ := eval E e in Done (Next E)
  | SDefine xs es =>
    let! vs := rights E (two xs) es in
    let! E' := bind_all E None xs vs in Done (Next E')
  | SAssign ls op es =>
    let! vs := rights E (two ls) es in
    let! vs := if String.eqb op "+=" then
                 match ls, vs with
                 | [l], [v] => let! old := eval E l in let! w := binary "+" old v in Done [w]
                 | _, _ => Wrong
                 end
               else Done vs in
    let! E' := assign_all E ls vs in Done (Next E')
  | SVar xs t es =>
    let! vs := match es, t with
               | [], Some u => Done (vmap (fun _ => zero 6 u) xs)
               | _, _ => rights E (two xs) es
               end in
    let! E' := bind_all E t xs vs in Done (Next E')
  | SReturn [] => Done (RetNames E)
  | SReturn es => let! vs := rights E false es in Done (Ret vs)
  | SIf ini c th el =>
    let! k := block ini E in
    match k with
    | Next E' =>
      let! b := eval E' c in
      match b with
      | RBool true => lleave E (block th E')
      | RBool false => lleave E (block el E')
      | _ => Wrong
      end
    | _ => Wrong
    end
  | SSwitch tag cases dflt =>
    let! t := match tag with Some e => let! v := eval E e in Done (Some v) | None => Done None end in
    let! c := lleave E
      ((fix go (l : list (list expr * list stmt)) : rr ctl :=
          match l with
          | [] => block dflt E
          | (es, b) :: r => let! h := case_holds E t es in if h then block b E else go r
          end) cases) in
    Done (unbrk c)
  | STypeSwitch x e cases dflt =>
    let! v := eval E e in
    let E' := match x with Some y => bind_new E None y v | None => E end in
    let! c := lleave E
      ((fix go (l : list (list expr * list stmt)) : rr ctl :=
          match l with
          | [] => block dflt E'
          | (es, b) :: r => let! h := type_case_holds v es in if h then block b E' else go r
          end) cases) in
    Done (unbrk c)
  | SRange k v e body =>
    let! w := eval E e in
    let! l := range_of w in
    loop (block body) k v l E
  | SFor ini c post body =>
    let! k := block ini E in
    match k with
    | Next E' => lleave E (while (rounds + room E') (fun E => eval E c) (block post) (block body) E')
    | _ => Wrong
    end
  | SBlock l => lleave E (block l E)
  | SBreak => Done (Brk E)
  | SContinue => Done (Cont E)
  end.

(** Statements one after another. *)
Fixpoint block (l : list stmt) (E : env) {struct l} : rr ctl :=
  match l with
  | [] => Done (Next E)
  | s :: r =>
    let! c := exec s E in
    match c with
    | Next E' => block r E'
    | _ => Done c
    end
  end.

(** * Functions *)

Fixpoint bind_params (ps : list param) (vs : list val) (E : env) : rr env :=
  match ps with
  | [] => match vs with [] => Done E | _ => Wrong end
  | p :: r =>
    if p_var p then Done (bind_new E (Some (TySlice (p_ty p))) (p_name p) (RSlice vs))
    else
      match vs with
      | v :: vs => bind_params r vs (bind_new E (Some (p_ty p)) (p_name p) v)
      | [] => Wrong
      end
  end.

Fixpoint bind_results (rs : list param) (E : env) : env :=
  match rs with
  | [] => E
  | p :: r =>
    bind_results r (if String.eqb (p_name p) "" then E
                    else (p_name p, (Some (p_ty p), zero 6 (p_ty p))) :: E)
  end.

Fixpoint coerce_all (rs : list param) (vs : list val) : rr (list val) :=
  match rs, vs with
  | [], [] => Done []
  | p :: rs, v :: vs => let! r := coerce_all rs vs in Done (coerce (p_ty p) v :: r)
  | _, _ => Wrong
  end.

Fixpoint named_results (rs : list param) (E : env) : rr (list val) :=
  match rs with
  | [] => Done []
  | p :: r => let! v := lookup E (p_name p) in let! l := named_results r E in Done (v :: l)
  end.

Definition tuple (l : list val) : val := match l with [v] => v | _ => RTuple l end.

Definition finish (rs : list param) (c : ctl) : rr val :=
  match c with
  | Ret vs => let! l := coerce_all rs vs in Done (tuple l)
  | RetNames E => let! l := named_results rs E in Done (tuple l)
  | Next E => match rs with [] => Done (RTuple []) | _ => Wrong end
  | _ => Wrong
  end.

Definition all_params (f : func) : list param :=
  match f_recv f with Some p => p :: f_params f | None => f_params f end.

Definition apply (f : func) (vs : list val) : rr val :=
  let! E := bind_params (all_params f) vs [] in
  let! c := block (f_body f) (bind_results (f_results f) E) in
  finish (f_results f) c.

End Sem.

(** Calls, at most [n] inside each other. *)
Fixpoint run {S} (i : impl S) (n : nat) (f : string) (vs : list (val S)) : rr (val S) :=
  match n with
  | 0 => Spent
  | Datatypes.S n =>
    match assoc f pkg_funcs with
    | Some fn => apply i (run i n) n fn vs
    | None => Wrong
    end
  end.
