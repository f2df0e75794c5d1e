(** What SQL text means: lexical structure, grammar of boolean expressions with
    the usual precedence (NOT over AND over OR), three-valued evaluation, and the
    statement forms the library produces.  This file is a specification: it does
    not mention the model of the library (only [gval], the type of parameter
    values, is shared). *)
From Coq Require Import String Ascii List Bool Arith.
From Verif Require Import Value.
Import ListNotations.
Local Open Scope string_scope.
Local Open Scope nat_scope.

(** * Characters and words *)

Definition between (lo hi : nat) (c : ascii) : bool :=
  (lo <=? nat_of_ascii c) && (nat_of_ascii c <=? hi).
Definition digit (c : ascii) : bool := between 48 57 c.
(** letters, underscore, and every non-ASCII byte *)
Definition letter (c : ascii) : bool :=
  between 65 90 c || between 97 122 c || (c =? "_")%char || between 128 255 c.
Definition ident_char (c : ascii) : bool := letter c || digit c.
Definition word_char (c : ascii) : bool := ident_char c || (c =? ".")%char || (c =? "$")%char.

Fixpoint all_chars (p : ascii -> bool) (s : string) : bool :=
  match s with EmptyString => true | String c r => p c && all_chars p r end.
Definition upper (c : ascii) : ascii :=
  if between 97 122 c then ascii_of_nat (nat_of_ascii c - 32) else c.
Fixpoint upcase (s : string) : string :=
  match s with EmptyString => "" | String c r => String (upper c) (upcase r) end.

(** decimal value of a digit string *)
Fixpoint dec_val (acc : nat) (s : string) : nat :=
  match s with
  | EmptyString => acc
  | String c r => dec_val (10 * acc + (nat_of_ascii c - 48)) r
  end.

Definition reserved_words : list string :=
  ["SELECT"; "FROM"; "WHERE"; "AND"; "OR"; "NOT"; "LIKE"; "ILIKE"; "IN"; "IS"; "NULL"; "AS"; "ON";
   "INNER"; "LEFT"; "RIGHT"; "FULL"; "JOIN"; "ORDER"; "BY"; "ASC"; "DESC"; "OFFSET"; "LIMIT";
   "INSERT"; "INTO"; "VALUES"; "UPDATE"; "SET"; "DELETE"].
Definition reserved (w : string) : bool := existsb (String.eqb (upcase w)) reserved_words.

(** An identifier: letters, digits and underscores, not starting with a digit, not reserved. *)
Definition name (s : string) : bool :=
  match s with
  | EmptyString => false
  | String c _ => letter c && all_chars ident_char s && negb (reserved s)
  end.

(** identifier or qualifier.identifier *)
Inductive qname : string -> Prop :=
| qn_plain n : name n = true -> qname n
| qn_dot q n : name q = true -> name n = true -> qname (q ++ "." ++ n).

(** * Tokens *)

Inductive tok :=
| TKw (k : string)      (* reserved word, upper case *)
| TId (w : string)      (* identifier or qualifier.identifier *)
| TNum (n : nat)
| TParam (n : nat)      (* $n *)
| TQ                    (* ? *)
| TLP | TRP | TComma | TStar
| TEq | TGt | TGe | TLt | TLe
| TBad.

(** the part of a word after its first dot, if it has one *)
Fixpoint after_dot (w : string) : option (string * string) :=
  match w with
  | EmptyString => None
  | String c r =>
      if (c =? ".")%char then Some ("", r)
      else match after_dot r with
           | Some (a, b) => Some (String c a, b)
           | None => None
           end
  end.

Definition classify (w : string) : tok :=
  match w with
  | EmptyString => TBad
  | String c r =>
      if (c =? "$")%char then
        match r with
        | EmptyString => TBad
        | _ => if all_chars digit r then TParam (dec_val 0 r) else TBad
        end
      else if all_chars digit w then TNum (dec_val 0 w)
      else if reserved w then TKw (upcase w)
      else match after_dot w with
           | None => if name w then TId w else TBad
           | Some (a, b) => if name a && name b then TId w else TBad
           end
  end.

Definition end_word (w : string) (ts : list tok) : list tok :=
  match w with EmptyString => ts | _ => classify w :: ts end.

Fixpoint lex_from (w : string) (s : string) : list tok :=
  match s with
  | EmptyString => end_word w []
  | String c r =>
      if word_char c then lex_from (w ++ String c "") r
      else end_word w
        (if (c =? " ")%char then lex_from "" r
         else if (c =? "(")%char then TLP :: lex_from "" r
         else if (c =? ")")%char then TRP :: lex_from "" r
         else if (c =? ",")%char then TComma :: lex_from "" r
         else if (c =? "*")%char then TStar :: lex_from "" r
         else if (c =? "?")%char then TQ :: lex_from "" r
         else if (c =? "=")%char then TEq :: lex_from "" r
         else if (c =? ">")%char then
           match r with
           | String d r' => if (d =? "=")%char then TGe :: lex_from "" r' else TGt :: lex_from "" r
           | EmptyString => [TGt]
           end
         else if (c =? "<")%char then
           match r with
           | String d r' => if (d =? "=")%char then TLe :: lex_from "" r' else TLt :: lex_from "" r
           | EmptyString => [TLt]
           end
         else TBad :: lex_from "" r)
  end.
Definition lex (s : string) : list tok := lex_from "" s.

(** A question mark stands for the next parameter in order. *)
Fixpoint number_from (k : nat) (ts : list tok) : list tok :=
  match ts with
  | [] => []
  | TQ :: r => TParam k :: number_from (k + 1) r
  | t :: r => t :: number_from k r
  end.

(** * Boolean expressions *)

Inductive aop := AEq | AGt | AGe | ALt | ALe | ALike | AILike | AIn | ANull.

Inductive expr :=
| EAtom (op : aop) (col : string) (params : list nat)
| ENot (e : expr)
| EAnd (a b : expr)
| EOr (a b : expr).

Inductive cmp_tok : tok -> aop -> Prop :=
| ct_eq : cmp_tok TEq AEq | ct_gt : cmp_tok TGt AGt | ct_ge : cmp_tok TGe AGe
| ct_lt : cmp_tok TLt ALt | ct_le : cmp_tok TLe ALe
| ct_like : cmp_tok (TKw "LIKE") ALike | ct_ilike : cmp_tok (TKw "ILIKE") AILike.

(** a non-empty comma-separated list of parameters *)
Fixpoint param_list (n : nat) (ns : list nat) : list tok :=
  match ns with
  | [] => [TParam n]
  | m :: r => TParam n :: TComma :: param_list m r
  end.

(** The grammar (unambiguous, see parse_complete in SqlFacts.v). *)
Inductive Prim : list tok -> expr -> Prop :=
| p_cmp c t op n : cmp_tok t op -> Prim [TId c; t; TParam n] (EAtom op c [n])
| p_nlike c n : Prim [TId c; TKw "NOT"; TKw "LIKE"; TParam n] (ENot (EAtom ALike c [n]))
| p_nilike c n : Prim [TId c; TKw "NOT"; TKw "ILIKE"; TParam n] (ENot (EAtom AILike c [n]))
| p_in c n ns : Prim ([TId c; TKw "IN"; TLP] ++ param_list n ns ++ [TRP]) (EAtom AIn c (n :: ns))
| p_nin c n ns : Prim ([TId c; TKw "NOT"; TKw "IN"; TLP] ++ param_list n ns ++ [TRP]) (ENot (EAtom AIn c (n :: ns)))
| p_null c : Prim [TId c; TKw "IS"; TKw "NULL"] (EAtom ANull c [])
| p_nnull c : Prim [TId c; TKw "IS"; TKw "NOT"; TKw "NULL"] (ENot (EAtom ANull c []))
| p_par ts e : OrE ts e -> Prim ([TLP] ++ ts ++ [TRP]) e
with NotE : list tok -> expr -> Prop :=
| n_prim ts e : Prim ts e -> NotE ts e
| n_not ts e : NotE ts e -> NotE (TKw "NOT" :: ts) (ENot e)
with AndE : list tok -> expr -> Prop :=
| a_one ts e : NotE ts e -> AndE ts e
| a_and ts e ts' e' : AndE ts e -> NotE ts' e' -> AndE (ts ++ TKw "AND" :: ts') (EAnd e e')
with OrE : list tok -> expr -> Prop :=
| o_one ts e : AndE ts e -> OrE ts e
| o_or ts e ts' e' : OrE ts e -> AndE ts' e' -> OrE (ts ++ TKw "OR" :: ts') (EOr e e').

(** * A parser for the grammar, as a stack machine *)

(** One frame per open parenthesis: the disjunction and the conjunction read so
    far and the number of pending NOTs. *)
Record frame := mkFr { fr_or : option expr; fr_and : option expr; fr_not : nat }.
Definition new_frame : frame := mkFr None None 0.

Inductive mode :=
| MOperand | MOperator
| MCol (c : string)                       (* after a column *)
| MColNot (c : string)                    (* after column NOT *)
| MVal (op : aop) (neg : bool) (c : string)       (* parameter expected *)
| MInOpen (neg : bool) (c : string)
| MIn (neg : bool) (c : string) (ns : list nat)   (* parameter of the IN list expected *)
| MInSep (neg : bool) (c : string) (ns : list nat)
| MIs (c : string) | MIsNot (c : string).

Definition state := (mode * frame * list frame)%type.

Fixpoint nots (k : nat) (e : expr) : expr := match k with O => e | S k => ENot (nots k e) end.
Definition and_opt (a : option expr) (e : expr) : expr :=
  match a with None => e | Some x => EAnd x e end.
Definition or_opt (o : option expr) (e : expr) : expr :=
  match o with None => e | Some x => EOr x e end.

(** an operand has been read *)
Definition operand (e : expr) (f : frame) (st : list frame) : state :=
  (MOperator, mkFr (fr_or f) (Some (and_opt (fr_and f) (nots (fr_not f) e))) 0, st).
Definition neg_atom (neg : bool) (e : expr) : expr := if neg then ENot e else e.

Definition cmp_op (t : tok) : option aop :=
  match t with
  | TEq => Some AEq | TGt => Some AGt | TGe => Some AGe | TLt => Some ALt | TLe => Some ALe
  | TKw k => if k =? "LIKE" then Some ALike else if k =? "ILIKE" then Some AILike else None
  | _ => None
  end%string.
Definition is_kw (k : string) (t : tok) : bool :=
  match t with TKw w => String.eqb w k | _ => false end.

Definition step (s : state) (t : tok) : option state :=
  let '(m, f, st) := s in
  match m with
  | MOperand =>
      match t with
      | TId c => Some (MCol c, f, st)
      | TLP => Some (MOperand, new_frame, f :: st)
      | _ => if is_kw "NOT" t then Some (MOperand, mkFr (fr_or f) (fr_and f) (S (fr_not f)), st) else None
      end
  | MOperator =>
      match t, fr_and f with
      | TRP, Some a => match st with
                       | f' :: st' => Some (operand (or_opt (fr_or f) a) f' st')
                       | [] => None
                       end
      | _, Some a =>
          if is_kw "AND" t then Some (MOperand, f, st)
          else if is_kw "OR" t then Some (MOperand, mkFr (Some (or_opt (fr_or f) a)) None 0, st)
          else None
      | _, None => None
      end
  | MCol c =>
      match cmp_op t with
      | Some op => Some (MVal op false c, f, st)
      | None =>
          if is_kw "IN" t then Some (MInOpen false c, f, st)
          else if is_kw "IS" t then Some (MIs c, f, st)
          else if is_kw "NOT" t then Some (MColNot c, f, st)
          else None
      end
  | MColNot c =>
      if is_kw "LIKE" t then Some (MVal ALike true c, f, st)
      else if is_kw "ILIKE" t then Some (MVal AILike true c, f, st)
      else if is_kw "IN" t then Some (MInOpen true c, f, st)
      else None
  | MVal op neg c =>
      match t with TParam n => Some (operand (neg_atom neg (EAtom op c [n])) f st) | _ => None end
  | MInOpen neg c => match t with TLP => Some (MIn neg c [], f, st) | _ => None end
  | MIn neg c ns => match t with TParam n => Some (MInSep neg c (ns ++ [n])%list, f, st) | _ => None end
  | MInSep neg c ns =>
      match t with
      | TComma => Some (MIn neg c ns, f, st)
      | TRP => Some (operand (neg_atom neg (EAtom AIn c ns)) f st)
      | _ => None
      end
  | MIs c =>
      if is_kw "NULL" t then Some (operand (EAtom ANull c []) f st)
      else if is_kw "NOT" t then Some (MIsNot c, f, st)
      else None
  | MIsNot c => if is_kw "NULL" t then Some (operand (ENot (EAtom ANull c [])) f st) else None
  end.

Fixpoint run (s : state) (ts : list tok) : option state :=
  match ts with
  | [] => Some s
  | t :: r => match step s t with Some s' => run s' r | None => None end
  end.

Definition parse (ts : list tok) : option expr :=
  match run (MOperand, new_frame, []) ts with
  | Some (MOperator, f, []) =>
      match fr_and f with Some a => Some (or_opt (fr_or f) a) | None => None end
  | _ => None
  end.

(** * Evaluation *)

Inductive tv := T | F | U.
Definition not3 (a : tv) : tv := match a with T => F | F => T | U => U end.
Definition and3 (a b : tv) : tv :=
  match a, b with F, _ | _, F => F | T, T => T | _, _ => U end.
Definition or3 (a b : tv) : tv :=
  match a, b with T, _ | _, T => T | F, F => F | _, _ => U end.

(** What the atomic predicates give on a row: any function of operator, column
    and parameter values. *)
Definition row := aop -> string -> list gval -> tv.

Fixpoint bind_params (ps : list gval) (ns : list nat) : option (list gval) :=
  match ns with
  | [] => Some []
  | n :: r =>
      match n, bind_params ps r with
      | S k, Some vs => match nth_error ps k with Some v => Some (v :: vs) | None => None end
      | _, _ => None
      end
  end.

(** None: a parameter is not bound *)
Fixpoint eval (rho : row) (ps : list gval) (e : expr) : option tv :=
  match e with
  | EAtom op c ns => match bind_params ps ns with Some vs => Some (rho op c vs) | None => None end
  | ENot a => match eval rho ps a with Some x => Some (not3 x) | None => None end
  | EAnd a b => match eval rho ps a, eval rho ps b with Some x, Some y => Some (and3 x y) | _, _ => None end
  | EOr a b => match eval rho ps a, eval rho ps b with Some x, Some y => Some (or3 x y) | _, _ => None end
  end.

(** The truth value of a condition text with its parameters on a row; None if
    the text is not a condition or a parameter is missing. *)
Definition truth (rho : row) (text : string) (ps : list gval) : option tv :=
  match parse (lex text) with Some e => eval rho ps e | None => None end.

(** The same for texts with question marks. *)
Definition truth_q (rho : row) (text : string) (ps : list gval) : option tv :=
  match parse (number_from 1 (lex text)) with Some e => eval rho ps e | None => None end.

Example truth_ex : forall rho a b c,
  truth rho "NOT x=$1 OR t.y >= $2 AND z NOT IN ($3,$2)" [a; b; c] =
  Some (or3 (not3 (rho AEq "x" [a])) (and3 (rho AGe "t.y" [b]) (not3 (rho AIn "z" [c; b])))).
Proof. reflexivity. Qed.
Example truth_bad : forall rho a, truth rho "x AS y=$1" [a] = None /\ truth rho "x IN ()" [a] = None
  /\ truth rho "" [a] = None /\ truth rho "x=$2" [a] = None.
Proof. repeat split. Qed.

(** * Statements *)

(** a column or table with an optional alias *)
Record item := mkItem { it_text : string; it_alias : option string }.
(** kind, table, and the two columns compared *)
Record sjoin := mkSJ { sj_kind : string; sj_table : item; sj_left : string; sj_right : string }.
Inductive colspec := Star | Cols (l : list item) | CountStar | CountCol (c : string).
Inductive bound := BParam (n : nat) | BLit (n : nat).
Record select := mkSel {
  s_cols : colspec; s_from : item; s_joins : list sjoin; s_where : option expr;
  s_order : list (string * string); s_offset : option bound; s_limit : option bound
}.

(** the tokens before the first one that starts with a keyword of [ks], and the rest *)
Fixpoint until (ks : list string) (ts : list tok) : list tok * list tok :=
  match ts with
  | [] => ([], [])
  | t :: r =>
      if existsb (fun k => is_kw k t) ks then ([], ts)
      else let '(a, b) := until ks r in (t :: a, b)
  end.

Fixpoint p_items (ts : list tok) : option (list item) :=
  match ts with
  | [TId c] => Some [mkItem c None]
  | [TId c; TKw k; TId a] => if (k =? "AS")%string then Some [mkItem c (Some a)] else None
  | TId c :: TComma :: r => match p_items r with Some l => Some (mkItem c None :: l) | None => None end
  | TId c :: TKw k :: TId a :: TComma :: r =>
      if (k =? "AS")%string
      then match p_items r with Some l => Some (mkItem c (Some a) :: l) | None => None end
      else None
  | _ => None
  end.

Definition p_cols (ts : list tok) : option colspec :=
  match ts with
  | [TStar] => Some Star
  | [TId f; TLP; TStar; TRP] => if (upcase f =? "COUNT")%string then Some CountStar else None
  | [TId f; TLP; TId c; TRP] => if (upcase f =? "COUNT")%string then Some (CountCol c) else None
  | _ => match p_items ts with Some l => Some (Cols l) | None => None end
  end.

Fixpoint p_joins (ts : list tok) : option (list sjoin) :=
  match ts with
  | [] => Some []
  | TKw k :: TKw j :: TId t :: TKw on :: TId l :: TEq :: TId r :: rest =>
      if existsb (String.eqb k) ["INNER"; "LEFT"; "RIGHT"; "FULL"] && (j =? "JOIN")%string && (on =? "ON")%string
      then match p_joins rest with Some js => Some (mkSJ k (mkItem t None) l r :: js) | None => None end
      else None
  | TKw k :: TKw j :: TId t :: TKw as_ :: TId a :: TKw on :: TId l :: TEq :: TId r :: rest =>
      if existsb (String.eqb k) ["INNER"; "LEFT"; "RIGHT"; "FULL"] && (j =? "JOIN")%string
         && (as_ =? "AS")%string && (on =? "ON")%string
      then match p_joins rest with Some js => Some (mkSJ k (mkItem t (Some a)) l r :: js) | None => None end
      else None
  | _ => None
  end.

Definition p_from (ts : list tok) : option (item * list sjoin) :=
  match ts with
  | TId t :: TKw k :: TId a :: r =>
      if (k =? "AS")%string
      then match p_joins r with Some js => Some (mkItem t (Some a), js) | None => None end
      else None
  | TId t :: r => match p_joins r with Some js => Some (mkItem t None, js) | None => None end
  | _ => None
  end.

(** an absent clause gives None, a malformed one fails *)
Definition p_where (ts : list tok) : option (option expr) :=
  match ts with
  | [] => Some None
  | t :: r => if is_kw "WHERE" t then match parse r with Some e => Some (Some e) | None => None end else None
  end.

Definition direction (k : string) : bool := (k =? "ASC")%string || (k =? "DESC")%string.
Fixpoint p_sorts (ts : list tok) : option (list (string * string)) :=
  match ts with
  | [TId c; TKw d] => if direction d then Some [(c, d)] else None
  | TId c :: TKw d :: TComma :: r =>
      if direction d then match p_sorts r with Some l => Some ((c, d) :: l) | None => None end else None
  | _ => None
  end.
Definition p_order (ts : list tok) : option (list (string * string)) :=
  match ts with
  | [] => Some []
  | TKw o :: TKw b :: r => if (o =? "ORDER")%string && (b =? "BY")%string then p_sorts r else None
  | _ => None
  end.
Definition p_bound (kw : string) (ts : list tok) : option (option bound) :=
  match ts with
  | [] => Some None
  | [TKw k; TParam n] => if (k =? kw)%string then Some (Some (BParam n)) else None
  | [TKw k; TNum n] => if (k =? kw)%string then Some (Some (BLit n)) else None
  | _ => None
  end.

Definition p_select (ts : list tok) : option select :=
  match ts with
  | TKw s :: r0 =>
      if (s =? "SELECT")%string then
        let '(cs, r1) := until ["FROM"] r0 in
        match r1 with
        | TKw _ :: r2 =>
            let '(fs, r3) := until ["WHERE"; "ORDER"; "OFFSET"; "LIMIT"] r2 in
            let '(ws, r4) := until ["ORDER"; "OFFSET"; "LIMIT"] r3 in
            let '(os, r5) := until ["OFFSET"; "LIMIT"] r4 in
            let '(offs, lims) := until ["LIMIT"] r5 in
            match p_cols cs, p_from fs, p_where ws, p_order os, p_bound "OFFSET" offs, p_bound "LIMIT" lims with
            | Some c, Some (f, js), Some w, Some o, Some off, Some lim => Some (mkSel c f js w o off lim)
            | _, _, _, _, _, _ => None
            end
        | _ => None
        end
      else None
  | _ => None
  end.
Definition parse_select (s : string) : option select := p_select (lex s).

(** INSERT INTO t(c1, ...) VALUES ($i1, ...) *)
Fixpoint p_ids (ts : list tok) : option (list string) :=
  match ts with
  | [TId c; TRP] => Some [c]
  | TId c :: TComma :: r => match p_ids r with Some l => Some (c :: l) | None => None end
  | _ => None
  end.
Fixpoint p_params (ts : list tok) : option (list nat) :=
  match ts with
  | [TParam n; TRP] => Some [n]
  | TParam n :: TComma :: r => match p_params r with Some l => Some (n :: l) | None => None end
  | _ => None
  end.
Record insert := mkIns { in_table : string; in_cols : list string; in_params : list nat }.
Definition p_insert (ts : list tok) : option insert :=
  match ts with
  | TKw a :: TKw b :: TId t :: TLP :: r =>
      if (a =? "INSERT")%string && (b =? "INTO")%string then
        let '(cs, r1) := until ["VALUES"] r in
        match r1 with
        | TKw _ :: TLP :: ps =>
            match p_ids cs, p_params ps with Some c, Some p => Some (mkIns t c p) | _, _ => None end
        | _ => None
        end
      else None
  | _ => None
  end.
Definition parse_insert (s : string) : option insert := p_insert (lex s).

(** UPDATE t SET c1=$i1, ... WHERE e *)
Fixpoint p_sets (ts : list tok) : option (list (string * nat)) :=
  match ts with
  | [TId c; TEq; TParam n] => Some [(c, n)]
  | TId c :: TEq :: TParam n :: TComma :: r => match p_sets r with Some l => Some ((c, n) :: l) | None => None end
  | _ => None
  end.
Record update := mkUpd { up_table : string; up_sets : list (string * nat); up_where : expr }.
Definition p_update (ts : list tok) : option update :=
  match ts with
  | TKw a :: TId t :: TKw b :: r =>
      if (a =? "UPDATE")%string && (b =? "SET")%string then
        let '(ss, ws) := until ["WHERE"] r in
        match p_sets ss, p_where ws with
        | Some l, Some (Some e) => Some (mkUpd t l e)
        | _, _ => None
        end
      else None
  | _ => None
  end.
Definition parse_update (s : string) : option update := p_update (lex s).

(** DELETE FROM t WHERE e *)
Record delete := mkDel { de_table : string; de_where : expr }.
Definition p_delete (ts : list tok) : option delete :=
  match ts with
  | TKw a :: TKw b :: TId t :: ws =>
      if (a =? "DELETE")%string && (b =? "FROM")%string then
        match p_where ws with Some (Some e) => Some (mkDel t e) | _ => None end
      else None
  | _ => None
  end.
Definition parse_delete (s : string) : option delete := p_delete (lex s).

Example select_ex :
  parse_select "SELECT t.a AS x, b FROM t AS u LEFT JOIN v ON u.i=v.j WHERE a=$1 OR NOT (b IN ($2,$3)) ORDER BY a ASC, x DESC OFFSET $4 LIMIT 1" =
  Some (mkSel (Cols [mkItem "t.a" (Some "x"); mkItem "b" None]) (mkItem "t" (Some "u"))
         [mkSJ "LEFT" (mkItem "v" None) "u.i" "v.j"]
         (Some (EOr (EAtom AEq "a" [1]) (ENot (EAtom AIn "b" [2; 3]))))
         [("a", "ASC"); ("x", "DESC")] (Some (BParam 4)) (Some (BLit 1))).
Proof. reflexivity. Qed.
Example insert_ex : parse_insert "INSERT INTO t(a, b) VALUES ($1, $2)" = Some (mkIns "t" ["a"; "b"] [1; 2]).
Proof. reflexivity. Qed.
Example update_ex : parse_update "UPDATE t SET a=$1, b=$2 WHERE c=$3" =
  Some (mkUpd "t" [("a", 1); ("b", 2)] (EAtom AEq "c" [3])).
Proof. reflexivity. Qed.
Example delete_ex : parse_delete "DELETE FROM t WHERE c=$1" = Some (mkDel "t" (EAtom AEq "c" [1])).
Proof. reflexivity. Qed.
Example delete_bad : parse_delete "DELETE FROM t WHERE " = None. Proof. reflexivity. Qed.
