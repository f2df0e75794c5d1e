(** Syntax trees for the part of Go that the package's source is written in.

    This file, SrcParse.v and SrcSem.v do not describe the package: they
    describe the language.  The package enters through SrcText.v, which holds
    the files of /repo letter by letter. *)
From Coq Require Import String List ZArith Bool.
Import ListNotations.
Local Open Scope string_scope.

(** Tokens: identifiers and keywords, whole numbers, strings, and everything
    else. *)
Inductive tok : Type :=
  | TId (s : string)
  | TInt (n : Z)
  | TStr (s : string)
  | TOp (s : string).

(** Types.  The body of an interface type is not kept. *)
Inductive ty : Type :=
  | TyName (n : string)
  | TyQual (pkg n : string)
  | TySlice (t : ty)
  | TyPtr (t : ty)
  | TyMap (k v : ty)
  | TyFace.

(** Expressions.  [EAssert e t] is [e.(t)], [ETypeOf e] is [e.(type)],
    [ELit t l] is a composite literal, [ETy t] a type standing as an argument.
    The flag of [ECall] says that the last argument is followed by [...]. *)
Inductive expr : Type :=
  | EId (x : string)
  | EInt (n : Z)
  | EStr (s : string)
  | ESel (e : expr) (f : string)
  | EIdx (e i : expr)
  | ECall (f : expr) (args : list expr) (spread : bool)
  | EUn (op : string) (e : expr)
  | EBin (op : string) (a b : expr)
  | ELit (t : ty) (els : list (option string * expr))
  | EAssert (e : expr) (t : ty)
  | ETypeOf (e : expr)
  | ETy (t : ty).

(** Statements.  [SAssign l op r] covers [=] and [+=]. *)
Inductive stmt : Type :=
  | SExpr (e : expr)
  | SDefine (xs : list string) (es : list expr)
  | SAssign (ls : list expr) (op : string) (es : list expr)
  | SVar (xs : list string) (t : option ty) (es : list expr)
  | SReturn (es : list expr)
  | SIf (ini : list stmt) (c : expr) (th el : list stmt)
  | SSwitch (tag : option expr) (cases : list (list expr * list stmt)) (dflt : list stmt)
  | STypeSwitch (x : option string) (e : expr) (cases : list (list expr * list stmt)) (dflt : list stmt)
  | SRange (k v : string) (e : expr) (body : list stmt)
  | SFor (ini : list stmt) (c : expr) (post body : list stmt)
  | SBlock (l : list stmt)
  | SBreak
  | SContinue.

(** Parameters and results: a name (empty for none), a type, and whether the
    parameter is variadic. *)
Record param := mkP { p_name : string; p_ty : ty; p_var : bool }.

(** A struct field: its name, its type, whether it is embedded. *)
Record fdecl := mkFd { fd_name : string; fd_ty : ty; fd_emb : bool }.

Inductive tdef : Type :=
  | TdStruct (fs : list fdecl)
  | TdIs (t : ty).

(** A function or method.  The key of a method is [Type.Method]. *)
Record func := mkFn {
  f_recv : option param;
  f_params : list param;
  f_results : list param;
  f_body : list stmt }.

Inductive decl : Type :=
  | DFunc (key : string) (f : func)
  | DType (n : string) (d : tdef)
  | DConst (n : string) (t : option ty) (e : expr) (iota : Z)
  | DVarTop (n : string) (t : option ty) (e : expr).
