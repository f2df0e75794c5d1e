(** Values passed through the query builders (value.go, field_name.go:69-76). *)
From Coq Require Import String List NArith Bool.
From Verif Require Import GoStr.
Import ListNotations.
Local Open Scope string_scope.

(** interface{} values, split exactly as far as /repo distinguishes them.
    A driver.Valuer or ValueProvider carries the outcome of its method; the
    outcome is arbitrary but the same on every call (simplification: pure
    Valuers). *)
Inductive gval : Type :=
| VNil                                        (* untyped nil *)
| VStr (s : string)                           (* string *)
| VUint (n : N)                               (* uint *)
| VOther (id : nat)                           (* any other non-slice value: ints, structs, times ... *)
| VSlice (elems : list gval)                  (* a slice of any other type: []int, []any, ... *)
| VStrs (l : list string)                     (* []string *)
| VValuer (o : vout) (prov : option gval)     (* implements driver.Valuer; prov: also a ValueProvider *)
| VProvider (v : gval)                        (* implements ValueProvider only *)
| VValuers (l : list (option vout))           (* []driver.Valuer; None is a nil element *)
| VProviders (l : list (option gval))         (* []ValueProvider; None is a nil element *)
| VValuerSlice (l : list (option vout))       (* slice of another type whose elements implement driver.Valuer *)
with vout : Type :=                           (* outcome of driver.Valuer.Value() *)
| ORet (v : gval) (failed : bool)             (* returned v and an error iff failed *)
| OPanic.

(** value.go:37-39 and 43-46: [singleValue, _ := typedValue.Value()]; the error is dropped.
    A nil element of []driver.Valuer is a nil method call, a panic. *)
Definition valuer_value (o : option vout) : res gval :=
  match o with
  | Some (ORet v _) => Ok v
  | Some OPanic => Panic
  | None => Panic
  end.

(** value.go:54-56: value.DatabaseValue() on a possibly nil interface. *)
Definition provider_value (o : option gval) : res gval :=
  match o with Some v => Ok v | None => Panic end.

(** value.go:79-90: element of a reflected slice; a failing Valuer panics (86-88);
    a nil interface element fails the type assertion of line 82, a panic. *)
Definition valuer_slice_value (o : option vout) : res gval :=
  match o with
  | Some (ORet v failed) => if failed then Panic else Ok v
  | Some OPanic => Panic
  | None => Panic
  end.

(** value.go:33-96 FieldValue.Values, in the order of the type switch. *)
Definition fv_values (v : gval) : res (list gval) :=
  match v with
  | VValuer o _ => do x <- valuer_value (Some o); Ok [x]          (* 37-39 *)
  | VValuers l => mapM valuer_value l                              (* 40-48 *)
  | VProvider x => Ok [x]                                          (* 49-50 *)
  | VProviders l => mapM provider_value l                          (* 51-58 *)
  | VStrs l => Ok (map VStr l)                                     (* 59-66 *)
  | VValuerSlice l => mapM valuer_slice_value l                    (* 71-93 *)
  | _ => Ok [v]                                                    (* 95 *)
  end.

(** field_name.go:69-76 FieldName.Value: a ValueProvider is replaced by its
    DatabaseValue() at once (the field name part is in Names.v). *)
Definition eager_provider (v : gval) : gval :=
  match v with
  | VProvider x => x
  | VValuer _ (Some x) => x
  | _ => v
  end.
