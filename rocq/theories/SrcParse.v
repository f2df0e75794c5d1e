(** A reader for the part of Go that the package's source is written in:
    from the text of a file to its syntax tree. *)
From Coq Require Import String Ascii List ZArith Bool Arith.
From Verif Require Import SrcAst.
Import ListNotations.
Local Open Scope string_scope.
Local Open Scope nat_scope.

(** * Tokens *)

Definition in_range (a b : nat) (c : ascii) : bool :=
  (a <=? nat_of_ascii c) && (nat_of_ascii c <=? b).
Definition is_digit (c : ascii) : bool := in_range 48 57 c.
Definition is_letter (c : ascii) : bool :=
  in_range 97 122 c || in_range 65 90 c || (nat_of_ascii c =? 95).
Definition is_blank (c : ascii) : bool :=
  let n := nat_of_ascii c in (n =? 32) || (n =? 9) || (n =? 13).
Definition is_newline (c : ascii) : bool := nat_of_ascii c =? 10.

Fixpoint take_while (p : ascii -> bool) (s : string) : string * string :=
  match s with
  | EmptyString => ("", "")
  | String c r =>
    if p c then let '(a, b) := take_while p r in (String c a, b) else ("", s)
  end.

Fixpoint number (acc : Z) (s : string) : Z :=
  match s with
  | EmptyString => acc
  | String c r => number (acc * 10 + Z.of_nat (nat_of_ascii c - 48)) r
  end.

(** The rest of a string between double quotes, with [\n], [\t] and
    backslashed characters standing for themselves. *)
Fixpoint quoted (s : string) : option (string * string) :=
  match s with
  | EmptyString => None
  | String c r =>
    if nat_of_ascii c =? 34 then Some ("", r)
    else if nat_of_ascii c =? 92 then
      match r with
      | EmptyString => None
      | String d r' =>
        match quoted r' with
        | Some (a, b) =>
          let d' := if nat_of_ascii d =? 110 then ascii_of_nat 10
                    else if nat_of_ascii d =? 116 then ascii_of_nat 9 else d in
          Some (String d' a, b)
        | None => None
        end
      end
    else match quoted r with
         | Some (a, b) => Some (String c a, b)
         | None => None
         end
  end.

Definition mem (x : string) (l : list string) : bool := existsb (String.eqb x) l.

(** Keywords after which a line may go on. *)
Definition open_words : list string :=
  ["func"; "if"; "else"; "for"; "range"; "switch"; "case"; "default"; "type";
   "struct"; "interface"; "map"; "const"; "var"; "package"; "import"].

Definition long_ops : list string :=
  ["..."; ":="; "=="; "!="; "<="; ">="; "&&"; "||"; "+="; "-="; "++"; "--"].

Definition starts (p s : string) : bool := String.prefix p s.

Fixpoint drop (n : nat) (s : string) : string :=
  match n, s with
  | S n, String _ r => drop n r
  | _, _ => s
  end.

(** One token after another; [semi] says that the last token may end a
    statement, so that the end of a line counts as a semicolon. *)
Fixpoint lex (fuel : nat) (semi : bool) (s : string) : option (list tok) :=
  match fuel with
  | 0 => None
  | S n =>
    match s with
    | EmptyString => Some (if semi then [TOp ";"] else [])
    | String c r =>
      if is_newline c then
        if semi then option_map (cons (TOp ";")) (lex n false r) else lex n false r
      else if is_blank c then lex n semi r
      else if starts "//" s then
        lex n semi (snd (take_while (fun c => negb (is_newline c)) s))
      else if is_letter c then
        let '(w, r') := take_while (fun c => is_letter c || is_digit c) s in
        option_map (cons (TId w)) (lex n (negb (mem w open_words)) r')
      else if is_digit c then
        let '(w, r') := take_while is_digit s in
        option_map (cons (TInt (number 0 w))) (lex n true r')
      else if nat_of_ascii c =? 34 then
        match quoted r with
        | Some (a, b) => option_map (cons (TStr a)) (lex n true b)
        | None => None
        end
      else
        match find (fun o => starts o s) long_ops with
        | Some o =>
          option_map (cons (TOp o)) (lex n (mem o ["++"; "--"]) (drop (String.length o) s))
        | None =>
          let o := String c "" in
          option_map (cons (TOp o)) (lex n (mem o [")"; "]"; "}"]) r)
        end
    end
  end.

Definition tokens (s : string) : option (list tok) := lex (S (2 * String.length s)) false s.

(** * Trees *)

Definition P (A : Type) := option (A * list tok).

Definition is_op (o : string) (ts : list tok) : bool :=
  match ts with TOp x :: _ => String.eqb x o | _ => false end.
Definition is_word (w : string) (ts : list tok) : bool :=
  match ts with TId x :: _ => String.eqb x w | _ => false end.

Definition eat (o : string) (ts : list tok) : option (list tok) :=
  match ts with
  | TOp x :: r => if String.eqb x o then Some r else None
  | _ => None
  end.

Notation "'let?' p ':=' e 'in' f" :=
  (match e with Some p => f | None => None end)
  (at level 200, p pattern, e at level 200, f at level 200, right associativity).

(** What stands between brackets, read over; used for the bodies of interface
    types and for type parameters. *)
Fixpoint skip_to_close (opn cls : string) (depth : nat) (ts : list tok) : option (list tok) :=
  match ts with
  | [] => None
  | t :: r =>
    if is_op opn ts then skip_to_close opn cls (S depth) r
    else if is_op cls ts then
      match depth with
      | 0 => Some r
      | S d => skip_to_close opn cls d r
      end
    else skip_to_close opn cls depth r
  end.

Fixpoint p_type (n : nat) (ts : list tok) : P ty :=
  match n with
  | 0 => None
  | S n =>
    match ts with
    | TOp "*" :: r => let? (t, r) := p_type n r in Some (TyPtr t, r)
    | TOp "[" :: TOp "]" :: r => let? (t, r) := p_type n r in Some (TySlice t, r)
    | TId "map" :: TOp "[" :: r =>
      let? (k, r) := p_type n r in
      let? r := eat "]" r in
      let? (v, r) := p_type n r in Some (TyMap k v, r)
    | TId "interface" :: TOp "{" :: r =>
      let? r := skip_to_close "{" "}" 0 r in Some (TyFace, r)
    | TId a :: TOp "." :: TId b :: r => Some (TyQual a b, r)
    | TId a :: r => Some (TyName a, r)
    | _ => None
    end
  end.

Definition level (o : string) : nat :=
  if mem o ["||"] then 1
  else if mem o ["&&"] then 2
  else if mem o ["=="; "!="; "<"; "<="; ">"; ">="] then 3
  else if mem o ["+"; "-"] then 4
  else if mem o ["*"; "/"; "%"] then 5
  else 0.

(** [lit] says whether a brace after a name opens a composite literal: not so
    in the head of an [if], [for] or [switch]. *)
Fixpoint p_expr (n : nat) (lit : bool) (min : nat) (ts : list tok) {struct n} : P expr :=
  match n with
  | 0 => None
  | S n => let? (a, r) := p_unary n lit ts in p_binary n lit min a r
  end
with p_binary (n : nat) (lit : bool) (min : nat) (a : expr) (ts : list tok) {struct n} : P expr :=
  match n with
  | 0 => None
  | S n =>
    match ts with
    | TOp o :: r =>
      if (1 <=? level o) && (min <=? level o) then
        let? (b, r) := p_expr n lit (S (level o)) r in
        p_binary n lit min (EBin o a b) r
      else Some (a, ts)
    | _ => Some (a, ts)
    end
  end
with p_unary (n : nat) (lit : bool) (ts : list tok) {struct n} : P expr :=
  match n with
  | 0 => None
  | S n =>
    match ts with
    | TOp o :: r =>
      if mem o ["!"; "&"; "*"; "-"] then
        let? (e, r) := p_unary n lit r in Some (EUn o e, r)
      else let? (e, r) := p_operand n lit ts in p_postfix n lit e r
    | _ => let? (e, r) := p_operand n lit ts in p_postfix n lit e r
    end
  end
with p_operand (n : nat) (lit : bool) (ts : list tok) {struct n} : P expr :=
  match n with
  | 0 => None
  | S n =>
    match ts with
    | TInt z :: r => Some (EInt z, r)
    | TStr s :: r => Some (EStr s, r)
    | TOp "(" :: r =>
      let? (e, r) := p_expr n true 1 r in
      let? r := eat ")" r in Some (e, r)
    | TOp "[" :: _ =>
      let? (t, r) := p_type n ts in
      if is_op "{" r then
        let? (l, r) := p_elems n (tl r) in Some (ELit t l, r)
      else Some (ETy t, r)
    | TId x :: r => Some (EId x, r)
    | _ => None
    end
  end
with p_postfix (n : nat) (lit : bool) (e : expr) (ts : list tok) {struct n} : P expr :=
  match n with
  | 0 => None
  | S n =>
    match ts with
    | TOp "." :: TOp "(" :: TId "type" :: TOp ")" :: r => Some (ETypeOf e, r)
    | TOp "." :: TOp "(" :: r =>
      let? (t, r) := p_type n r in
      let? r := eat ")" r in p_postfix n lit (EAssert e t) r
    | TOp "." :: TId f :: r => p_postfix n lit (ESel e f) r
    | TOp "(" :: r =>
      let? (a, r) := p_args n r in
      p_postfix n lit (ECall e (fst a) (snd a)) r
    | TOp "[" :: r =>
      let? (i, r) := p_expr n true 1 r in
      let? r := eat "]" r in p_postfix n lit (EIdx e i) r
    | TOp "{" :: r =>
      if lit then
        match e with
        | EId x => let? (l, r) := p_elems n r in p_postfix n lit (ELit (TyName x) l) r
        | _ => Some (e, ts)
        end
      else Some (e, ts)
    | _ => Some (e, ts)
    end
  end
with p_args (n : nat) (ts : list tok) {struct n} : P (list expr * bool) :=
  match n with
  | 0 => None
  | S n =>
    if is_op ")" ts then Some (([], false), tl ts)
    else
      let? (e, r) := p_expr n true 1 ts in
      let '(sp, r) := if is_op "..." r then (true, tl r) else (false, r) in
      if is_op "," r then
        let? (a, r) := p_args n (tl r) in Some ((e :: fst a, sp || snd a), r)
      else let? r := eat ")" r in Some (([e], sp), r)
  end
with p_elems (n : nat) (ts : list tok) {struct n} : P (list (option string * expr)) :=
  match n with
  | 0 => None
  | S n =>
    if is_op "}" ts then Some ([], tl ts)
    else
      let '(k, r) := match ts with
                     | TId k :: TOp ":" :: r => (Some k, r)
                     | _ => (None, ts)
                     end in
      let? (e, r) := p_expr n true 1 r in
      if is_op "," r then
        let? (l, r) := p_elems n (tl r) in Some ((k, e) :: l, r)
      else let? r := eat "}" r in Some ([(k, e)], r)
  end.

Fixpoint p_exprs (n : nat) (lit : bool) (ts : list tok) : P (list expr) :=
  match n with
  | 0 => None
  | S n =>
    let? (e, r) := p_expr n lit 1 ts in
    if is_op "," r then
      let? (l, r) := p_exprs n lit (tl r) in Some (e :: l, r)
    else Some ([e], r)
  end.

Fixpoint names_of (l : list expr) : option (list string) :=
  match l with
  | [] => Some []
  | EId x :: r => option_map (cons x) (names_of r)
  | _ => None
  end.

(** A statement without a body of its own. *)
Definition p_simple (n : nat) (lit : bool) (ts : list tok) : P stmt :=
  let? (l, r) := p_exprs n lit ts in
  match r with
  | TOp ":=" :: r =>
    let? xs := names_of l in
    let? (es, r) := p_exprs n lit r in Some (SDefine xs es, r)
  | TOp "=" :: r => let? (es, r) := p_exprs n lit r in Some (SAssign l "=" es, r)
  | TOp "+=" :: r => let? (es, r) := p_exprs n lit r in Some (SAssign l "+=" es, r)
  | TOp "++" :: r => Some (SAssign l "+=" [EInt 1], r)
  | _ =>
    match l with
    | [e] => Some (SExpr e, r)
    | _ => None
    end
  end.

Fixpoint p_names (n : nat) (ts : list tok) : P (list string) :=
  match n with
  | 0 => None
  | S n =>
    match ts with
    | TId x :: TOp "," :: r => let? (l, r) := p_names n r in Some (x :: l, r)
    | TId x :: r => Some ([x], r)
    | _ => None
    end
  end.

(** One line of a [var] declaration. *)
Definition p_var_line (n : nat) (ts : list tok) : P stmt :=
  let? (xs, r) := p_names n ts in
  if is_op "=" r then
    let? (es, r) := p_exprs n true (tl r) in Some (SVar xs None es, r)
  else
    let? (t, r) := p_type n r in
    if is_op "=" r then
      let? (es, r) := p_exprs n true (tl r) in Some (SVar xs (Some t) es, r)
    else Some (SVar xs (Some t) [], r).

Fixpoint p_var_lines (n : nat) (ts : list tok) : P (list stmt) :=
  match n with
  | 0 => None
  | S n =>
    if is_op ")" ts then Some ([], tl ts)
    else
      let? (s, r) := p_var_line n ts in
      let? r := eat ";" r in
      let? (l, r) := p_var_lines n r in Some (s :: l, r)
  end.

Definition type_head (s : stmt) : option (option string * expr) :=
  match s with
  | SDefine [x] [ETypeOf e] => Some (Some x, e)
  | SExpr (ETypeOf e) => Some (None, e)
  | _ => None
  end.

Fixpoint p_stmts (n : nat) (ts : list tok) {struct n} : P (list stmt) :=
  match n with
  | 0 => None
  | S n =>
    if is_op "}" ts || is_word "case" ts || is_word "default" ts then Some ([], ts)
    else if is_op ";" ts then p_stmts n (tl ts)
    else
      let? (s, r) := p_stmt n ts in
      let? (l, r) := p_stmts n r in Some ((s ++ l)%list, r)
  end
with p_block (n : nat) (ts : list tok) {struct n} : P (list stmt) :=
  match n with
  | 0 => None
  | S n =>
    let? r := eat "{" ts in
    let? (l, r) := p_stmts n r in
    let? r := eat "}" r in Some (l, r)
  end
with p_if (n : nat) (ts : list tok) {struct n} : P stmt :=
  match n with
  | 0 => None
  | S n =>
    let? (s, r) := p_simple n false ts in
    let? (h, r) :=
      (if is_op ";" r then
         let? (e, r) := p_expr n false 1 (tl r) in Some (([s], e), r)
       else match s with
            | SExpr e => Some (([], e), r)
            | _ => None
            end) in
    let? (th, r) := p_block n r in
    if is_word "else" r then
      if is_word "if" (tl r) then
        let? (s, r) := p_if n (tl (tl r)) in Some (SIf (fst h) (snd h) th [s], r)
      else
        let? (el, r) := p_block n (tl r) in Some (SIf (fst h) (snd h) th el, r)
    else Some (SIf (fst h) (snd h) th [], r)
  end
with p_cases (n : nat) (ts : list tok) {struct n} : P (list (list expr * list stmt) * list stmt) :=
  match n with
  | 0 => None
  | S n =>
    match ts with
    | TOp "}" :: r => Some (([], []), r)
    | TId "case" :: r =>
      let? (es, r) := p_exprs n true r in
      let? r := eat ":" r in
      let? (b, r) := p_stmts n r in
      let? (c, r) := p_cases n r in Some (((es, b) :: fst c, snd c), r)
    | TId "default" :: r =>
      let? r := eat ":" r in
      let? (b, r) := p_stmts n r in
      let? (c, r) := p_cases n r in Some ((fst c, b), r)
    | _ => None
    end
  end
with p_stmt (n : nat) (ts : list tok) {struct n} : P (list stmt) :=
  match n with
  | 0 => None
  | S n =>
    match ts with
    | TId "return" :: r =>
      if is_op ";" r || is_op "}" r then Some ([SReturn []], r)
      else let? (es, r) := p_exprs n true r in Some ([SReturn es], r)
    | TId "break" :: r => Some ([SBreak], r)
    | TId "continue" :: r => Some ([SContinue], r)
    | TId "var" :: TOp "(" :: r => p_var_lines n r
    | TId "var" :: r => let? (s, r) := p_var_line n r in Some ([s], r)
    | TOp "{" :: _ => let? (b, r) := p_block n ts in Some ([SBlock b], r)
    | TId "if" :: r => let? (s, r) := p_if n r in Some ([s], r)
    | TId "for" :: TId k :: TOp ":=" :: TId "range" :: r =>
      let? (e, r) := p_expr n false 1 r in
      let? (b, r) := p_block n r in Some ([SRange k "_" e b], r)
    | TId "for" :: TId k :: TOp "," :: TId v :: TOp ":=" :: TId "range" :: r =>
      let? (e, r) := p_expr n false 1 r in
      let? (b, r) := p_block n r in Some ([SRange k v e b], r)
    | TId "for" :: r =>
      let? (i, r) := p_simple n false r in
      let? r := eat ";" r in
      let? (c, r) := p_expr n false 1 r in
      let? r := eat ";" r in
      let? (p, r) := p_simple n false r in
      let? (b, r) := p_block n r in Some ([SFor [i] c [p] b], r)
    | TId "switch" :: TOp "{" :: r =>
      let? (c, r) := p_cases n r in Some ([SSwitch None (fst c) (snd c)], r)
    | TId "switch" :: r =>
      let? (s, r) := p_simple n false r in
      let? r := eat "{" r in
      let? (c, r) := p_cases n r in
      match type_head s, s with
      | Some (x, e), _ => Some ([STypeSwitch x e (fst c) (snd c)], r)
      | None, SExpr e => Some ([SSwitch (Some e) (fst c) (snd c)], r)
      | _, _ => None
      end
    | _ => let? (s, r) := p_simple n true ts in Some ([s], r)
    end
  end.

(** One entry of a parameter list, the name empty when there is only a type. *)
Definition p_param (n : nat) (ts : list tok) : P param :=
  let '(x, r) :=
    match ts with
    | TId x :: TOp "," :: _ => ("", ts)
    | TId x :: TOp ")" :: _ => ("", ts)
    | TId x :: TOp "." :: _ => ("", ts)
    | TId x :: r => (x, r)
    | _ => ("", ts)
    end in
  let '(v, r) := if is_op "..." r then (true, tl r) else (false, r) in
  let? (t, r) := p_type n r in Some (mkP x t v, r).

Fixpoint p_params (n : nat) (ts : list tok) : P (list param) :=
  match n with
  | 0 => None
  | S n =>
    if is_op ")" ts then Some ([], tl ts)
    else
      let? (p, r) := p_param n ts in
      if is_op "," r then
        let? (l, r) := p_params n (tl r) in Some (p :: l, r)
      else let? r := eat ")" r in Some ([p], r)
  end.

(** In [(a, b T)] the entry [a] has been read as a type: it is a name whose
    type follows. *)
Fixpoint regroup (l : list param) : list param :=
  match l with
  | [] => []
  | p :: r =>
    let r' := regroup r in
    match p_name p, p_ty p, r' with
    | EmptyString, TyName x, q :: _ => mkP x (p_ty q) (p_var q) :: r'
    | _, _, _ => p :: r'
    end
  end.

Definition named_params (l : list param) : list param :=
  if existsb (fun p => negb (String.eqb (p_name p) "")) l then regroup l else l.

Definition p_results (n : nat) (ts : list tok) : P (list param) :=
  if is_op "{" ts then Some ([], ts)
  else if is_op "(" ts then
    let? (l, r) := p_params n (tl ts) in Some (named_params l, r)
  else let? (t, r) := p_type n ts in Some ([mkP "" t false], r).

Definition type_name (t : ty) : string :=
  match t with
  | TyName n => n
  | TyPtr (TyName n) => n
  | _ => ""
  end.

Definition p_func (n : nat) (ts : list tok) : P decl :=
  let? (rc, r) :=
    (if is_op "(" ts then
       let? (l, r) := p_params n (tl ts) in
       match l with
       | [p] => Some (Some p, r)
       | _ => None
       end
     else Some (None, ts)) in
  match r with
  | TId f :: r =>
    let? r := (if is_op "[" r then skip_to_close "[" "]" 0 (tl r) else Some r) in
    let? r := eat "(" r in
    let? (ps, r) := p_params n r in
    let? (rs, r) := p_results n r in
    let? (b, r) := p_block n r in
    let key := match rc with
               | Some p => type_name (p_ty p) ++ "." ++ f
               | None => f
               end in
    Some (DFunc key (mkFn rc (named_params ps) rs b), r)
  | _ => None
  end.

Fixpoint p_fields (n : nat) (ts : list tok) : P (list fdecl) :=
  match n with
  | 0 => None
  | S n =>
    match ts with
    | TOp "}" :: r => Some ([], r)
    | TOp ";" :: r => p_fields n r
    | TId x :: TOp ";" :: r =>
      let? (l, r) := p_fields n r in Some (mkFd x (TyName x) true :: l, r)
    | TId x :: r =>
      let? (t, r) := p_type n r in
      let? (l, r) := p_fields n r in Some (mkFd x t false :: l, r)
    | _ => None
    end
  end.

(** Constants: a line without a value repeats the last one that had one, with
    [iota] counting the lines. *)
Fixpoint p_consts (n : nat) (i : Z) (last : option (option ty * expr)) (ts : list tok) : P (list decl) :=
  match n with
  | 0 => None
  | S n =>
    match ts with
    | TOp ")" :: r => Some ([], r)
    | TOp ";" :: r => p_consts n i last r
    | TId x :: TOp ";" :: r =>
      let? (t, e) := last in
      let? (l, r) := p_consts n (i + 1) last r in Some (DConst x t e i :: l, r)
    | TId x :: TOp "=" :: r =>
      let? (e, r) := p_expr n true 1 r in
      let? (l, r) := p_consts n (i + 1) (Some (None, e)) r in Some (DConst x None e i :: l, r)
    | TId x :: r =>
      let? (t, r) := p_type n r in
      let? r := eat "=" r in
      let? (e, r) := p_expr n true 1 r in
      let? (l, r) := p_consts n (i + 1) (Some (Some t, e)) r in
      Some (DConst x (Some t) e i :: l, r)
    | _ => None
    end
  end.

Definition top_var (s : stmt) : list decl :=
  match s with
  | SVar [x] t [e] => [DVarTop x t e]
  | _ => []
  end.

Fixpoint p_file (n : nat) (ts : list tok) : option (list decl) :=
  match n with
  | 0 => None
  | S n =>
    match ts with
    | [] => Some []
    | TOp ";" :: r => p_file n r
    | TId "package" :: TId _ :: r => p_file n r
    | TId "import" :: TStr _ :: r => p_file n r
    | TId "import" :: TOp "(" :: r => let? r := skip_to_close "(" ")" 0 r in p_file n r
    | TId "func" :: r =>
      let? (d, r) := p_func n r in option_map (cons d) (p_file n r)
    | TId "type" :: TId x :: TId "struct" :: TOp "{" :: r =>
      let? (fs, r) := p_fields n r in option_map (cons (DType x (TdStruct fs))) (p_file n r)
    | TId "type" :: TId x :: r =>
      let? (t, r) := p_type n r in option_map (cons (DType x (TdIs t))) (p_file n r)
    | TId "const" :: TOp "(" :: r =>
      let? (l, r) := p_consts n 0 None r in option_map (app l) (p_file n r)
    | TId "const" :: TId x :: TOp "=" :: r =>
      let? (e, r) := p_expr n true 1 r in option_map (cons (DConst x None e 0)) (p_file n r)
    | TId "const" :: TId x :: r =>
      let? (t, r) := p_type n r in
      let? r := eat "=" r in
      let? (e, r) := p_expr n true 1 r in
      option_map (cons (DConst x (Some t) e 0)) (p_file n r)
    | TId "var" :: TOp "(" :: r =>
      let? (l, r) := p_var_lines n r in option_map (app (flat_map top_var l)) (p_file n r)
    | TId "var" :: r =>
      let? (s, r) := p_var_line n r in option_map (app (top_var s)) (p_file n r)
    | _ => None
    end
  end.

Definition parse (s : string) : option (list decl) :=
  let? ts := tokens s in p_file (S (2 * List.length ts)) ts.
