(** What a database does with the statements of SqlSpec.v.  This file is a specification: it does not mention the model of
    the library.  Simplified: tables are lists of rows and keep their order, ORDER BY is a stable sort; joins are only on
    equality of two columns, as the statement forms allow. *)
From Coq Require Import String Ascii List Bool Arith NArith.
From Verif Require Import Value SqlSpec.
Import ListNotations.
Local Open Scope string_scope.
Local Open Scope nat_scope.

(** What is left open: the stored values, NULL, how the predicates compare a stored value with parameters, equality of two
    stored values, their order, and what storing a parameter gives. *)
Record engine := mkEngine {
  cell : Type;
  null : cell;
  absent : cell -> bool;
  holds : aop -> cell -> list gval -> tv;
  same : cell -> cell -> tv;
  before : cell -> cell -> bool;
  stored : gval -> cell
}.

(** None: some element failed *)
Fixpoint all_some {A} (l : list (option A)) : option (list A) :=
  match l with
  | [] => Some []
  | Some x :: r => match all_some r with Some xs => Some (x :: xs) | None => None end
  | None :: _ => None
  end.
Fixpoint assoc {A} (k : string) (l : list (string * A)) : option A :=
  match l with
  | [] => None
  | (k', v) :: r => if String.eqb k k' then Some v else assoc k r
  end.
Fixpoint distinct (l : list string) : bool :=
  match l with [] => true | x :: r => negb (existsb (String.eqb x) r) && distinct r end.

Section Database.
  Variable E : engine.

  (** a row of a table, in the order of its columns *)
  Record relation := mkRel { r_columns : list string; r_rows : list (list (cell E)) }.
  Definition database := string -> option relation.

  (** a row of the FROM clause: for each table, under the name it is known by, the columns and their values *)
  Definition tuple := list (string * cell E).
  Definition frow := list (string * tuple).

  (** the name a table is known by: its alias, or its name without the schema *)
  Definition label (i : item) : string :=
    match it_alias i with
    | Some a => a
    | None => match after_dot (it_text i) with Some (_, t) => t | None => it_text i end
    end.

  Definition has_column (c : string) (t : string * tuple) : bool := match assoc c (snd t) with Some _ => true | None => false end.
  (** table.column, or a column that exactly one table has *)
  Definition column_of (r : frow) (c : string) : option (cell E) :=
    match after_dot c with
    | Some (q, n) => match assoc q r with Some t => assoc n t | None => None end
    | None => match filter (has_column c) r with [(_, t)] => assoc c t | _ => None end
    end.

  (** ** FROM *)

  Definition tuples (t : relation) : list tuple := map (combine (r_columns t)) (r_rows t).
  Definition nulls (t : relation) : tuple := map (fun c => (c, null E)) (r_columns t).
  Definition null_row (l : list (string * relation)) : frow := map (fun x => (fst x, nulls (snd x))) l.

  (** does the join_all row satisfy the ON condition *)
  Definition on (j : sjoin) (r : frow) : option bool :=
    match column_of r (sj_left j), column_of r (sj_right j) with
    | Some a, Some b => Some (match same E a b with T => true | _ => false end)
    | _, _ => None
    end.
  (** all pairs, with the verdict of the ON condition *)
  Definition verdicts (j : sjoin) (rows : list frow) (ts : list tuple) : option (list (list bool)) :=
    all_some (map (fun r => all_some (map (fun t => on j (r ++ [(label (sj_table j), t)])%list) ts)) rows).
  Definition chosen {A} (l : list (A * bool)) : list A := map fst (filter snd l).

  Definition join_rows (known : list (string * relation)) (right : relation) (j : sjoin) (rows : list frow) : option (list frow) :=
    let name := label (sj_table j) in
    let ts := tuples right in
    match verdicts j rows ts with
    | None => None
    | Some vs =>
        let outer_left := existsb (String.eqb (sj_kind j)) ["LEFT"; "FULL"] in
        let outer_right := existsb (String.eqb (sj_kind j)) ["RIGHT"; "FULL"] in
        let matched := List.concat (map (fun rv =>
          match chosen (combine ts (snd rv)) with
          | [] => if outer_left then [(fst rv ++ [(name, nulls right)])%list] else []
          | us => map (fun u => (fst rv ++ [(name, u)])%list) us
          end) (combine rows vs)) in
        let lonely := chosen (map (fun k => (nth k ts [], negb (existsb (fun v => nth k v false) vs))) (seq 0 (length ts))) in
        Some (matched ++ (if outer_right then map (fun u => (null_row known ++ [(name, u)])%list) lonely else []))%list
    end.
  Fixpoint join_all (db : database) (known : list (string * relation)) (js : list sjoin) (rows : list frow) : option (list frow) :=
    match js with
    | [] => Some rows
    | j :: r =>
        match db (it_text (sj_table j)) with
        | None => None
        | Some t =>
            match join_rows known t j rows with
            | None => None
            | Some rows' => join_all db (known ++ [(label (sj_table j), t)])%list r rows'
            end
        end
    end.
  Definition from_rows (db : database) (f : item) (js : list sjoin) : option (list frow) :=
    match db (it_text f) with
    | None => None
    | Some t =>
        if distinct (map label (f :: map sj_table js))
        then join_all db [(label f, t)] js (map (fun u => [(label f, u)]) (tuples t))
        else None
    end.

  (** ** WHERE *)

  Fixpoint where_columns (e : expr) : list string :=
    match e with
    | EAtom _ c _ => [c]
    | ENot a => where_columns a
    | EAnd a b | EOr a b => (where_columns a ++ where_columns b)%list
    end.
  Definition row_of (r : frow) : row := fun op c vs => match column_of r c with Some v => holds E op v vs | None => U end.
  (** the rows for which the condition is true, not unknown; a column that does not exist is an error *)
  Definition accepts (ps : list gval) (e : expr) (r : frow) : option bool :=
    if forallb (fun c => match column_of r c with Some _ => true | None => false end) (where_columns e)
    then match eval (row_of r) ps e with Some T => Some true | Some _ => Some false | None => None end
    else None.
  Definition where_rows (ps : list gval) (w : option expr) (rows : list frow) : option (list frow) :=
    match w with
    | None => Some rows
    | Some e => match all_some (map (accepts ps e) rows) with Some vs => Some (chosen (combine rows vs)) | None => None end
    end.

  (** ** ORDER BY *)

  (** a name that is the alias of a selected column stands for that column *)
  Definition key_column (cols : colspec) (k : string) : string :=
    match cols with
    | Cols l => match find (fun i => match it_alias i with Some a => String.eqb a k | None => false end) l with
                | Some i => it_text i
                | None => k
                end
    | _ => k
    end.
  (** the keys of a row, each with its direction (true: descending) *)
  Definition keys (cols : colspec) (os : list (string * string)) (r : frow) : option (list (cell E * bool)) :=
    all_some (map (fun o => match column_of r (key_column cols (fst o)) with
                            | Some v => Some (v, String.eqb (snd o) "DESC")
                            | None => None
                            end) os).
  Fixpoint earlier (a b : list (cell E * bool)) : bool :=
    match a, b with
    | (x, d) :: a, (y, _) :: b =>
        let lt := if d : bool then before E y x else before E x y in
        let gt := if d : bool then before E x y else before E y x in
        if lt then true else if gt then false else earlier a b
    | _, _ => false
    end.
  Fixpoint insert_row {A} (x : list (cell E * bool) * A) (l : list (list (cell E * bool) * A)) : list (list (cell E * bool) * A) :=
    match l with
    | [] => [x]
    | y :: r => if earlier (fst y) (fst x) then y :: insert_row x r else x :: l
    end.
  Definition sort_rows {A} (l : list (list (cell E * bool) * A)) : list (list (cell E * bool) * A) := fold_right insert_row [] l.
  Definition ordered (cols : colspec) (os : list (string * string)) (rows : list frow) : option (list frow) :=
    match all_some (map (keys cols os) rows) with
    | Some ks => Some (map snd (sort_rows (combine ks rows)))
    | None => None
    end.

  (** ** Columns *)

  Definition item_name (i : item) : string :=
    match it_alias i with Some a => a | None => match after_dot (it_text i) with Some (_, n) => n | None => it_text i end end.
  Definition output (cols : colspec) (r : frow) : option tuple :=
    match cols with
    | Star => Some (List.concat (map snd r))
    | Cols l => all_some (map (fun i => match column_of r (it_text i) with Some v => Some (item_name i, v) | None => None end) l)
    | _ => None
    end.

  (** ** SELECT *)

  Definition amount (ps : list gval) (b : option bound) : option (option nat) :=
    match b with
    | None => Some None
    | Some (BLit n) => Some (Some n)
    | Some (BParam (S k)) => match nth_error ps k with Some (VUint n) => Some (Some (N.to_nat n)) | _ => None end
    | Some (BParam O) => None
    end.
  Definition page_of {A} (off lim : option nat) (l : list A) : list A :=
    let l := match off with Some n => skipn n l | None => l end in
    match lim with Some n => firstn n l | None => l end.

  Inductive reply := Rows (l : list tuple) | Number (n : nat).
  (** the rows after WHERE *)
  Definition kept_rows (db : database) (ps : list gval) (s : select) : option (list frow) :=
    match from_rows db (s_from s) (s_joins s) with
    | None => None
    | Some rows => where_rows ps (s_where s) rows
    end.
  Definition run_select (db : database) (ps : list gval) (s : select) : option reply :=
    match kept_rows db ps s, amount ps (s_offset s), amount ps (s_limit s) with
    | Some rows, Some off, Some lim =>
        match s_cols s with
        | CountStar => match s_order s, off, lim with [], None, None => Some (Number (length rows)) | _, _, _ => None end
        | CountCol c =>
            match s_order s, off, lim, all_some (map (fun r => column_of r c) rows) with
            | [], None, None, Some vs => Some (Number (length (filter (fun v => negb (absent E v)) vs)))
            | _, _, _, _ => None
            end
        | cols =>
            match ordered cols (s_order s) rows with
            | Some rows => match all_some (map (output cols) rows) with Some out => Some (Rows (page_of off lim out)) | None => None end
            | None => None
            end
        end
    | _, _, _ => None
    end.

  (** ** INSERT, UPDATE, DELETE: the table afterwards *)

  Definition with_table (db : database) (n : string) (t : relation) : database := fun m => if String.eqb m n then Some t else db m.
  Definition params (ps : list gval) (ns : list nat) : option (list (cell E)) :=
    match bind_params ps ns with Some vs => Some (map (stored E) vs) | None => None end.
  Definition known_columns (t : relation) (cs : list string) : bool :=
    distinct cs && forallb (fun c => existsb (String.eqb c) (r_columns t)) cs.

  Definition run_insert (db : database) (ps : list gval) (i : insert) : option database :=
    match db (in_table i), params ps (in_params i) with
    | Some t, Some vs =>
        if known_columns t (in_cols i) && (length (in_cols i) =? length vs)
        then Some (with_table db (in_table i) (mkRel (r_columns t)
               (r_rows t ++ [map (fun c => match assoc c (combine (in_cols i) vs) with Some v => v | None => null E end) (r_columns t)])%list))
        else None
    | _, _ => None
    end.

  (** the rows of a table for which a condition is true *)
  Definition hits (ps : list gval) (name : string) (t : relation) (e : expr) : option (list bool) :=
    all_some (map (fun u => accepts ps e [(label (mkItem name None), u)]) (tuples t)).
  Definition updated (cs : list string) (sets : list (string * cell E)) (r : list (cell E)) : list (cell E) :=
    map (fun cv => match assoc (fst cv) sets with Some v => v | None => snd cv end) (combine cs r).
  Definition run_update (db : database) (ps : list gval) (u : update) : option database :=
    match db (up_table u), params ps (map snd (up_sets u)) with
    | Some t, Some vs =>
        if known_columns t (map fst (up_sets u)) then
          match hits ps (up_table u) t (up_where u) with
          | Some hs => Some (with_table db (up_table u) (mkRel (r_columns t)
              (map (fun rh => if snd rh : bool then updated (r_columns t) (combine (map fst (up_sets u)) vs) (fst rh) else fst rh) (combine (r_rows t) hs))))
          | None => None
          end
        else None
    | _, _ => None
    end.
  Definition run_delete (db : database) (ps : list gval) (d : delete) : option database :=
    match db (de_table d) with
    | Some t =>
        match hits ps (de_table d) t (de_where d) with
        | Some hs => Some (with_table db (de_table d) (mkRel (r_columns t)
            (map fst (filter (fun rh => negb (snd rh)) (combine (r_rows t) hs)))))
        | None => None
        end
    | None => None
    end.

  (** ** Statements as text *)

  Definition query (db : database) (s : string) (ps : list gval) : option reply :=
    match parse_select s with Some q => run_select db ps q | None => None end.
  Definition change (db : database) (s : string) (ps : list gval) : option database :=
    match parse_insert s, parse_update s, parse_delete s with
    | Some i, _, _ => run_insert db ps i
    | _, Some u, _ => run_update db ps u
    | _, _, Some d => run_delete db ps d
    | _, _, _ => None
    end.
End Database.

(** ** An engine for examples: numbers and NULL *)

Definition nat_holds (op : aop) (c : option nat) (vs : list gval) : tv :=
  let tf (b : bool) := if b then T else F in
  match op, c, vs with
  | ANull, None, _ => T
  | ANull, Some _, _ => F
  | _, None, _ => U
  | AEq, Some n, [VOther m] => tf (n =? m)
  | AGt, Some n, [VOther m] => tf (m <? n)
  | AGe, Some n, [VOther m] => tf (m <=? n)
  | ALt, Some n, [VOther m] => tf (n <? m)
  | ALe, Some n, [VOther m] => tf (n <=? m)
  | AIn, Some n, vs => tf (existsb (fun v => match v with VOther m => n =? m | _ => false end) vs)
  | _, _, _ => U
  end.
Definition numbers : engine :=
  mkEngine (option nat) None (fun c => match c with None => true | Some _ => false end) nat_holds
    (fun a b => match a, b with Some n, Some m => if n =? m then T else F | _, _ => U end)
    (fun a b => match a, b with Some n, Some m => n <? m | Some _, None => true | None, _ => false end)
    (fun v => match v with VOther n => Some n | _ => None end).
Definition shop : database numbers := fun n =>
  if String.eqb n "users" then Some (mkRel numbers ["id"; "age"] [[Some 1; Some 30]; [Some 2; None]; [Some 3; Some 20]; [Some 4; Some 30]])
  else if String.eqb n "orders" then Some (mkRel numbers ["uid"; "total"] [[Some 1; Some 7]; [Some 1; Some 5]; [Some 3; Some 9]; [Some 8; Some 1]])
  else None.
Definition table_of (db : option (database numbers)) (n : string) : option (list (list (option nat))) :=
  match db with Some db => match db n with Some t => Some (r_rows numbers t) | None => None end | None => None end.
Definition rows (l : list (list (string * option nat))) : option (reply numbers) := Some (Rows numbers l).

Example query_ex :
  query numbers shop "SELECT id AS i FROM users WHERE age=$1 OR age>$2" [VOther 30; VOther 40] = rows [[("i", Some 1)]; [("i", Some 4)]] /\
  query numbers shop "SELECT id FROM users WHERE NOT age=$1" [VOther 30] = rows [[("id", Some 3)]] /\
  query numbers shop "SELECT id FROM users ORDER BY age DESC, id DESC OFFSET 1 LIMIT 2" [] = rows [[("id", Some 4)]; [("id", Some 1)]] /\
  query numbers shop "SELECT COUNT(*) FROM users AS u WHERE u.id IN ($2,$1)" [VOther 4; VOther 9] = Some (Number numbers 1) /\
  query numbers shop "SELECT COUNT(age) FROM users" [] = Some (Number numbers 3) /\
  query numbers shop "SELECT u.id, total FROM users AS u INNER JOIN orders ON u.id=orders.uid WHERE age>=$1" [VOther 20] =
    rows [[("id", Some 1); ("total", Some 7)]; [("id", Some 1); ("total", Some 5)]; [("id", Some 3); ("total", Some 9)]] /\
  query numbers shop "SELECT id, total FROM users LEFT JOIN orders AS o ON users.id=o.uid WHERE NOT id=$1" [VOther 1] =
    rows [[("id", Some 2); ("total", None)]; [("id", Some 3); ("total", Some 9)]; [("id", Some 4); ("total", None)]] /\
  query numbers shop "SELECT id, total FROM users RIGHT JOIN orders AS o ON users.id=o.uid WHERE uid>$1" [VOther 1] =
    rows [[("id", Some 3); ("total", Some 9)]; [("id", None); ("total", Some 1)]] /\
  query numbers shop "SELECT COUNT(*) FROM users FULL JOIN orders ON users.id=orders.uid" [] = Some (Number numbers 6) /\
  query numbers shop "SELECT x FROM users" [] = None /\ query numbers shop "SELECT * FROM users WHERE id=$2" [VOther 1] = None /\
  query numbers shop "SELECT * FROM users AS u WHERE users.id=$1" [VOther 1] = None.
Proof. repeat split. Qed.
Example change_ex :
  table_of (change numbers shop "INSERT INTO users(age, id) VALUES ($1, $2)" [VOther 50; VOther 5]) "users" =
    Some [[Some 1; Some 30]; [Some 2; None]; [Some 3; Some 20]; [Some 4; Some 30]; [Some 5; Some 50]] /\
  table_of (change numbers shop "UPDATE users SET age=$1 WHERE id>$2 AND NOT age=$3" [VOther 60; VOther 1; VOther 30]) "users" =
    Some [[Some 1; Some 30]; [Some 2; None]; [Some 3; Some 60]; [Some 4; Some 30]] /\
  table_of (change numbers shop "DELETE FROM users WHERE age<$1" [VOther 40]) "users" = Some [[Some 2; None]] /\
  table_of (change numbers shop "DELETE FROM users WHERE age<$1" [VOther 40]) "orders" = table_of (Some shop) "orders" /\
  table_of (change numbers shop "UPDATE users SET x=$1 WHERE id=$2" [VOther 1; VOther 1]) "users" = None.
Proof. repeat split. Qed.
