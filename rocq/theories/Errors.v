(** The errors the package returns and what it panics with. *)
From Coq Require Import String Ascii List Bool Arith.
From Verif Require Import GoStr Value Names Build.
Import ListNotations.
Local Open Scope string_scope.
Local Open Scope nat_scope.

(** * Go's errors *)

(** errors.New makes a new error with an identity of its own; fmt.Errorf with one %w at the start of the
    format wraps an error, its text being the wrapped text and the rest; errors.Join wraps two errors. *)
Inductive gerr :=
| ENew (id : nat) (text : string)
| EWrap (inner : gerr) (rest : string)
| EJoin (a b : gerr).

(** Error(); the lines of a joined error are separated by a line feed *)
Fixpoint err_text (e : gerr) : string :=
  match e with
  | ENew _ s => s
  | EWrap e s => err_text e ++ s
  | EJoin a b => err_text a ++ String (ascii_of_nat 10) (err_text b)
  end.

(** errors.Is(e, target) for a target made by errors.New: reached by unwrapping *)
Fixpoint err_is (e : gerr) (target : nat) : bool :=
  match e with
  | ENew id _ => id =? target
  | EWrap e _ => err_is e target
  | EJoin a b => err_is a target || err_is b target
  end.

(** base.go:11-14 Error (the variable is never assigned by the package) *)
Definition Error_id : nat := 0.
Definition Error : gerr := ENew Error_id "query".

(** * Returned errors *)

(** field_name.go:21-36, the error for each case of Validate *)
Definition name_error (e : name_err) : gerr :=
  EWrap Error (match e with
    | EQuote => ": field name contains quote character"            (* 23 *)
    | EDQuote => ": field name contains double quote character"    (* 25 *)
    | ESpace => ": field name contains space character"            (* 27 *)
    | EDots => ": too many dots inside field name"                 (* 29 *)
    | EEmpty => ": empty field name"                               (* 31 *)
    | EEndDot => ": field name could not end with dot"             (* 33 *)
    | EStartDot => ": field name could not start with dot"         (* 35 *)
    end).
Definition validate_error (fn : string) : option gerr := option_map name_error (validate fn).

(** field_definition.go:28-60 FieldOrError, the error result; 57-58 prints the text that was given *)
Definition field_error (p : fparam) : option gerr :=
  match p with
  | FPDef _ => None
  | FPName s | FPStr s =>
      match parse_field s with
      | Some _ => None
      | None => Some (EWrap Error (": unexpected field specification: " ++ s))
      end
  end.

(** table_ident.go:31-60 TableOrError, the error result; %v of a string or TableName (which has a
    String method, table_name.go:7-9) is its text *)
Definition table_error (p : tparam) : option gerr :=
  match p with
  | TPIdent _ => None
  | TPStr s | TPName s =>
      match parse_table s with
      | Some _ => None
      | None => Some (EWrap Error (": unexpected table ident: `" ++ s ++ "`"))
      end
  end.

(** values_map.go:15-29 ValuesMap.FieldValues, the error result, for the order in which the map is read *)
Fixpoint map_error (m : list (string * gval)) : res (option gerr) :=
  match m with
  | [] => Ok None
  | (k, v) :: r =>
      match validate_error k with
      | Some e => Ok (Some (EJoin (EWrap Error (": invalid field name `" ++ k ++ "`")) e))   (* 20-22 *)
      | None => do _ <- new_field_value k v; map_error r
      end
  end.

(** insert.go:40-45, update.go:58-65, delete.go:30-35 *)
Definition insert_error (e : berr) : gerr :=
  EWrap Error (match e with
    | ENoValues => ": no fields to insert"
    | _ => ": table name empty" end).
Definition update_error (e : berr) : gerr :=
  EWrap Error (match e with
    | ENoConditions => ": empty conditions, will not update every record"
    | ENoValues => ": no fields to update set"
    | ENoTable => ": no table name set" end).
Definition delete_error (e : berr) : gerr :=
  EWrap Error (match e with
    | ENoConditions => ": empty conditions, will not delete every record"
    | _ => ": no table name set" end).

(** * Panics *)

(** What recover() would return: an error made by the package, a text, a runtime error of Go (nil
    dereference, failed type assertion), or whatever foreign code panicked with. *)
Inductive payload := PErr (e : gerr) | PText (s : string) | PRuntime | PForeign.

(** field_definition.go:62-86 mustField: panic(err), 80-83 *)
Definition field_panic (p : fparam) : option payload := option_map PErr (field_error p).
(** table_ident.go:69-76 Table *)
Definition table_panic (p : tparam) : option payload := option_map PErr (table_error p).

(** ordering.go:60-68 ASC, 72-80 DESC: fmt.Sprintf("invalid field name: %v", err) *)
Definition sort_panic (fn : string) : option payload :=
  match validate_error fn with
  | Some e => Some (PText ("invalid field name: " ++ err_text e))
  | None => field_panic (FPName fn)
  end.
(** ordering.go:86-97 OrderBy; 95 prints the directions as a slice, [a b] *)
Definition order_panic (fn : string) (dirs : list string) : option payload :=
  match dirs with
  | [] => sort_panic fn
  | d :: _ =>
      if str_eqb d "ASC" || str_eqb d "DESC" then sort_panic fn
      else Some (PErr (EWrap Error (": unexpected order: " ++ fn ++ ": [" ++ join " " dirs ++ "]")))
  end.
(** fields.go:64-81 NewFields *)
Fixpoint fields_panic (args : list (option fparam)) : option payload :=
  match args with
  | [] => None
  | None :: _ => Some (PText "only string, FieldName or FieldDefinition types allowed")   (* 76 *)
  | Some p :: r => match field_panic p with Some x => Some x | None => fields_panic r end
  end.

(** value.go:33-96 FieldValue.Values.  [show] is the text of the failed element and its error (line 87
    prints them with %v: the error of the Valuer is not wrapped). *)
Fixpoint first_panic {A} (f : A -> option payload) (l : list A) : option payload :=
  match l with [] => None | x :: r => match f x with Some p => Some p | None => first_panic f r end end.
Definition valuer_panic (o : option vout) : option payload :=           (* 38, 44 *)
  match o with Some (ORet _ _) => None | Some OPanic => Some PForeign | None => Some PRuntime end.
Definition provider_panic (o : option gval) : option payload :=         (* 55 *)
  match o with Some _ => None | None => Some PRuntime end.
Definition slice_panic (show : vout -> string) (o : option vout) : option payload :=  (* 79-90 *)
  match o with
  | Some (ORet v true) => Some (PErr (EWrap Error (": translate value " ++ show (ORet v true))))
  | Some (ORet _ false) => None
  | Some OPanic => Some PForeign
  | None => Some PRuntime
  end.
Definition values_panic (show : vout -> string) (v : gval) : option payload :=
  match v with
  | VValuer o _ => valuer_panic (Some o)
  | VValuers l => first_panic valuer_panic l
  | VProviders l => first_panic provider_panic l
  | VValuerSlice l => first_panic (slice_panic show) l
  | _ => None
  end.
