(** SQL's LIKE: which texts a pattern matches (SQL:1999 8.5 with the default escape
    character of PostgreSQL).  Characters are bytes.  Specification: does not mention the
    model. *)
From Coq Require Import String Ascii List Bool.
Import ListNotations.
Local Open Scope string_scope.

Definition special (c : ascii) : bool := ((c =? "%") || (c =? "_") || (c =? "\"))%char.

Inductive Like : string -> string -> Prop :=
| lk_end : Like "" ""
| lk_any a p t : Like p t -> Like (String "%" p) (a ++ t)
| lk_one c p t : Like p t -> Like (String "_" p) (String c t)
| lk_esc c p t : Like p t -> Like (String "\" (String c p)) (String c t)
| lk_char c p t : special c = false -> Like p t -> Like (String c p) (String c t).

(** ASCII letters in lower case; ILIKE compares in lower case *)
Definition low (c : ascii) : ascii :=
  let n := nat_of_ascii c in if (Nat.leb 65 n && Nat.leb n 90)%bool then ascii_of_nat (n + 32) else c.
Fixpoint lower (s : string) : string := match s with EmptyString => "" | String c r => String (low c) (lower r) end.
Definition ILike (p t : string) : Prop := Like (lower p) (lower t).

Definition substring_of (s t : string) : Prop := exists a b, t = a ++ s ++ b.
(** no wildcard and no escape character *)
Fixpoint literal (s : string) : bool := match s with EmptyString => true | String c r => negb (special c) && literal r end.
