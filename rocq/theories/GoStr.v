(** Go strings (byte sequences) and the functions of packages [strings] and
    [strconv] that /repo uses. *)
From Coq Require Import String Ascii List Arith Bool NArith ZArith Decimal DecimalString.
Import ListNotations.
Local Open Scope string_scope.
Local Open Scope nat_scope.

(** Result of a Go call: a value, or a run-time panic. *)
Inductive res (A : Type) : Type :=
| Ok (a : A)
| Panic.
Arguments Ok {A} a.
Arguments Panic {A}.

Definition bind {A B} (r : res A) (f : A -> res B) : res B :=
  match r with Ok a => f a | Panic => Panic end.
Notation "'do' x <- e ; f" := (bind e (fun x => f))
  (at level 200, x pattern, e at level 100, f at level 200, right associativity).

(** A loop collecting one result per element; the first panic wins. *)
Fixpoint mapM {A B} (f : A -> res B) (l : list A) : res (list B) :=
  match l with
  | [] => Ok []
  | x :: r => do y <- f x; do ys <- mapM f r; Ok (y :: ys)
  end.

Definition is_ok {A} (r : res A) : bool := match r with Ok _ => true | Panic => false end.

(** strings.Contains(s, c) for a one-byte c (field_name.go:22-26, field_definition.go:47-54). *)
Fixpoint has_byte (c : ascii) (s : string) : bool :=
  match s with
  | EmptyString => false
  | String a r => (a =? c)%char || has_byte c r
  end.

(** strings.Count(s, c) for a one-byte c (field_name.go:28). *)
Fixpoint count_byte (c : ascii) (s : string) : nat :=
  match s with
  | EmptyString => 0
  | String a r => (if (a =? c)%char then 1 else 0) + count_byte c r
  end.

(** strings.HasPrefix(s, c) for a one-byte c (field_name.go:34). *)
Definition has_prefix_byte (c : ascii) (s : string) : bool :=
  match s with
  | EmptyString => false
  | String a _ => (a =? c)%char
  end.

(** strings.HasSuffix(s, c) for a one-byte c (field_name.go:32). *)
Fixpoint has_suffix_byte (c : ascii) (s : string) : bool :=
  match s with
  | EmptyString => false
  | String a EmptyString => (a =? c)%char
  | String _ r => has_suffix_byte c r
  end.

(** strings.Split(s, c) for a one-byte c (field_definition.go:50,55).
    Always returns at least one element. *)
Fixpoint split_byte (c : ascii) (s : string) : list string :=
  match s with
  | EmptyString => [EmptyString]
  | String a r =>
      if (a =? c)%char then EmptyString :: split_byte c r
      else match split_byte c r with
           | [] => [String a EmptyString]      (* unreachable *)
           | h :: t => String a h :: t
           end
  end.

(** strings.Join(l, sep). *)
Definition join (sep : string) (l : list string) : string := String.concat sep l.

(** Bytes. *)
Definition byte (n : nat) : ascii := ascii_of_nat n.
Definition code (c : ascii) : nat := nat_of_ascii c.

(** Width in bytes of the white-space rune at the head of [s], 0 if there is
    none.  This is unicode.IsSpace on the UTF-8 decoding of the head, as used by
    strings.Fields: U+0009..U+000D, U+0020, U+0085, U+00A0, U+1680,
    U+2000..U+200A, U+2028, U+2029, U+202F, U+205F, U+3000.  Matching byte
    patterns at every byte position is exact because the lead bytes C2, E1, E2,
    E3 never occur inside another valid UTF-8 sequence, and an invalid sequence
    is decoded one byte at a time to the non-space U+FFFD. *)
Definition space_width (s : string) : nat :=
  match s with
  | EmptyString => 0
  | String a r =>
      let x := code a in
      if ((9 <=? x) && (x <=? 13)) || (x =? 32) then 1
      else match r with
      | EmptyString => 0
      | String b r2 =>
          let y := code b in
          if (x =? 194) && ((y =? 133) || (y =? 160)) then 2
          else match r2 with
          | EmptyString => 0
          | String c _ =>
              let z := code c in
              if ((x =? 225) && (y =? 154) && (z =? 128))
                 || ((x =? 226) && (y =? 128) && ((128 <=? z) && (z <=? 138)))
                 || ((x =? 226) && (y =? 128) && ((z =? 168) || (z =? 169) || (z =? 175)))
                 || ((x =? 226) && (y =? 129) && (z =? 159))
                 || ((x =? 227) && (y =? 128) && (z =? 128))
              then 3 else 0
          end
      end
  end.

Definition flush (cur : string) (l : list string) : list string :=
  match cur with EmptyString => l | _ => cur :: l end.

(** strings.Fields: maximal runs of non-space bytes.  [skip] counts the
    remaining bytes of a multi-byte space, [cur] is the current field. *)
Fixpoint fields_aux (skip : nat) (cur : string) (s : string) : list string :=
  match s with
  | EmptyString => flush cur []
  | String a r =>
      match skip with
      | S k => fields_aux k cur r
      | O => match space_width s with
             | O => fields_aux 0 (cur ++ String a "") r
             | S k => flush cur (fields_aux k "" r)
             end
      end
  end.

Definition go_fields (s : string) : list string := fields_aux 0 "" s.

(** strings.ToUpper(tok) == "AS" (field_definition.go:52,54; table_ident.go:51,53).
    The runes whose upper case is 'A' are a and A, those whose upper case is 'S'
    are s, S and U+017F (bytes C5 BF). *)
Definition is_as (tok : string) : bool :=
  match tok with
  | String a r =>
      ((code a =? 97) || (code a =? 65)) &&
      match r with
      | String b EmptyString => (code b =? 115) || (code b =? 83)
      | String b (String c EmptyString) => (code b =? 197) && (code c =? 191)
      | _ => false
      end
  | _ => false
  end.

(** strconv.Itoa on non-negative ints. *)
Definition itoa (n : nat) : string := NilEmpty.string_of_uint (Nat.to_uint n).

(** strconv.Itoa on ints. *)
Definition itoaZ (z : Z) : string := NilZero.string_of_int (Z.to_int z).

Definition str_eqb : string -> string -> bool := String.eqb.
Definition is_empty (s : string) : bool := match s with EmptyString => true | _ => false end.

(** Sanity of the reading of the Go library functions (tests, not proofs). *)
Example fields_ex : go_fields "  a  as b " = ["a"; "as"; "b"]. Proof. reflexivity. Qed.
Example fields_ex_nbsp :
  go_fields (String (byte 97) (String (byte 194) (String (byte 160) "b"))) = ["a"; "b"].
Proof. reflexivity. Qed.
Example split_ex : split_byte "." "a.b.c" = ["a"; "b"; "c"]. Proof. reflexivity. Qed.
Example split_ex2 : split_byte "." "a." = ["a"; ""]. Proof. reflexivity. Qed.
Example itoa_ex : itoa 120 = "120". Proof. reflexivity. Qed.
Example itoa_ex0 : itoa 0 = "0". Proof. reflexivity. Qed.
Example itoaZ_ex : itoaZ (-5)%Z = "-5". Proof. reflexivity. Qed.
