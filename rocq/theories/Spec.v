(** Small specifications used by the property theorems, independent of the model. *)
From Coq Require Import String Ascii List Bool Arith NArith.
From Verif Require Import SqlSpec.
Import ListNotations.
Local Open Scope string_scope.
Local Open Scope nat_scope.

(** * Texts *)

Definition chars (s : string) : list ascii := list_ascii_of_string s.
Definition lacks (c : ascii) (s : string) : Prop := ~ In c (chars s).

(** Numbers of the "$digits" placeholders of a text, left to right ("$" without
    digits counts as 0).  [cur] is the number being read. *)
Fixpoint dollars_from (cur : option nat) (s : string) : list nat :=
  match s with
  | EmptyString => match cur with Some k => [k] | None => [] end
  | String c r =>
      match cur with
      | Some k =>
          if digit c then dollars_from (Some (10 * k + (nat_of_ascii c - 48))) r
          else k :: (if (c =? "$")%char then dollars_from (Some 0) r else dollars_from None r)
      | None => if (c =? "$")%char then dollars_from (Some 0) r else dollars_from None r
      end
  end.
Definition dollars (s : string) : list nat := dollars_from None s.

(** number of question marks *)
Fixpoint qcount (s : string) : nat :=
  match s with EmptyString => 0 | String c r => (if (c =? "?")%char then 1 else 0) + qcount r end.

(** "$digits" replaced by "?" *)
Fixpoint qmarks_from (inside : bool) (s : string) : string :=
  match s with
  | EmptyString => ""
  | String c r =>
      if (c =? "$")%char then String "?" (qmarks_from true r)
      else if inside && digit c then qmarks_from true r
      else String c (qmarks_from false r)
  end.
Definition qmarks (s : string) : string := qmarks_from false s.

Example dollars_ex : dollars "a=$1 AND b IN ($2,$13)" = [1; 2; 13]. Proof. reflexivity. Qed.
Example qmarks_ex : qmarks "a1=$1 AND b IN ($2,$13)" = "a1=? AND b IN (?,?)". Proof. reflexivity. Qed.

(** * Names *)

(** The documented rules for field names. *)
Definition documented_name (s : string) : Prop :=
  s <> "" /\ lacks "'" s /\ lacks """" s /\ lacks " " s /\
  count_occ ascii_dec (chars s) "."%char <= 1 /\
  (forall r, s <> "." ++ r) /\ (forall r, s <> r ++ ".").

(** The UTF-8 encodings of the white-space code points. *)
Definition bytes (l : list nat) : string := string_of_list_ascii (map ascii_of_nat l).
Definition spaces : list string :=
  map bytes ([[9]; [10]; [11]; [12]; [13]; [32]; [194; 133]; [194; 160]; [225; 154; 128]]
             ++ map (fun k => [226; 128; k]) [128; 129; 130; 131; 132; 133; 134; 135; 136; 137; 138; 168; 169; 175]
             ++ [[226; 129; 159]; [227; 128; 128]]).
(** texts made of white space only *)
Inductive blank : string -> Prop :=
| bl_nil : blank ""
| bl_cons w s : In w spaces -> blank s -> blank (w ++ s).
Definition spaceless (s : string) : Prop := forall a w b, In w spaces -> s <> a ++ w ++ b.
(** [Toks ts s]: [s] is the tokens [ts] separated by white space *)
Inductive Toks : list string -> string -> Prop :=
| tk_nil w : blank w -> Toks [] w
| tk_cons w t ts s :
    blank w -> t <> "" -> spaceless t ->
    (s = "" \/ exists w0 r, In w0 spaces /\ s = w0 ++ r) ->
    Toks ts s -> Toks (t :: ts) (w ++ t ++ s).

(** the spellings of AS (the last two with U+017F, whose upper case is S) *)
Definition as_words : list string :=
  ["as"; "As"; "aS"; "AS"; bytes [97; 197; 191]; bytes [65; 197; 191]].

(** [splits q t n]: how the library reads [q] as [table.]name: without a dot it is the
    name, otherwise the table is the text before the first dot and the name the text
    between the first dot and the next one (or the end) *)
Inductive splits : string -> string -> string -> Prop :=
| sp_plain n : lacks "." n -> splits n "" n
| sp_dot t n r : lacks "." t -> lacks "." n -> (r = "" \/ exists r', r = "." ++ r') ->
    splits (t ++ "." ++ n ++ r) t n.

(** The documented forms of a field specification, [table.]name [as alias] (table and
    alias may be absent, i.e. empty), with any layout. *)
Definition field_form (s table name alias : string) : Prop :=
  name <> "" /\ lacks "." name /\ lacks "." table /\
  let q := if String.eqb table "" then name else table ++ "." ++ name in
  (alias = "" /\ Toks [q] s) \/ exists w, In w as_words /\ Toks [q; w; alias] s.

(** The documented forms of a table specification: name, name alias, name as alias. *)
Definition table_form (s name alias : string) : Prop :=
  (alias = "" /\ Toks [name] s) \/ Toks [name; alias] s \/ exists w, In w as_words /\ Toks [name; w; alias] s.

(** * Lists *)

(** position of the first occurrence *)
Fixpoint first_idx (x : string) (l : list string) : nat :=
  match l with
  | [] => 0
  | y :: r => if String.eqb y x then 0 else S (first_idx x r)
  end.

(** * Pagination *)

(** the clauses a page asks for, in SQL order *)
Definition page (offset limit : N) : list (string * N) :=
  ((if 0 <? offset then [("OFFSET", offset)] else []) ++ (if 0 <? limit then [("LIMIT", limit)] else []))%N%list.
(** the last of the values set, or the initial one *)
Definition last_set (init : N) (l : list N) : N := last l init.

(** * Calls *)
From Verif Require Import GoStr.

(** a chain of method calls, each on the result of the one before *)
Fixpoint calls {A B : Type} (f : A -> B -> res A) (a : A) (args : list B) : res A :=
  match args with
  | [] => Ok a
  | x :: r => match f a x with Ok a' => calls f a' r | Panic => Panic end
  end.

(** * A concrete row, for examples *)

From Verif Require Import Value.

(** the columns hold numbers; only comparisons for equality and membership are used *)
Definition table_row (f : string -> nat) : row := fun op col vs =>
  match op, vs with
  | AEq, [VOther k] => if f col =? k then T else F
  | ANull, [] => F
  | _, _ => U
  end.
