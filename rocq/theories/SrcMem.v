(** The same part of Go as SrcSem.v with slices that share arrays.

    Like SrcSem.v this describes the language, not the package.  There a slice
    is the list of its elements; here it is a header ([Heap.slice]) pointing to
    an array in a store that every statement may change: append writes in place
    if the capacity suffices and otherwise moves to a new array whose spare
    capacity is chosen by a policy, an assignment to an element is seen through
    every slice of the array, a call with [s...] hands over the slice itself,
    and range reads each element when its turn comes.  The nil slice is kept
    apart from an empty one.  Everything that has nothing to do with slices is
    SrcSem.v's.  What two variables share through a pointer is still left out
    (see SrcSem.v), and so are conditions of user-written types.  A slice value
    is [RObj], the constructor that SrcSem.v has for values from outside. *)
From Coq Require Import String Ascii List Bool Arith NArith ZArith.
From Verif Require Import GoStr Value SrcAst SrcParse SrcProg SrcSem Heap.
Import ListNotations.
Local Open Scope string_scope.
Local Open Scope nat_scope.

Notation mval := (SrcSem.val slice).
Notation menv := (SrcSem.env slice).
Notation mctl := (SrcSem.ctl slice).
Notation mem := (store mval).

(** Computations that change the store. *)
Definition mm (A : Type) : Type := mem -> rr (A * mem).
Definition done {A} (a : A) : mm A := fun st => Done (a, st).
Definition stop {A} (r : rr A) : mm A := fun st => match r with Done a => Done (a, st) | Halt => Halt | Wrong => Wrong | Spent => Spent end.
Definition then_ {A B} (m : mm A) (k : A -> mm B) : mm B :=
  fun st => match m st with Done (a, st') => k a st' | Halt => Halt | Wrong => Wrong | Spent => Spent end.
Notation "'get!' x ':=' e 'in' f" := (then_ e (fun x => f))
  (at level 200, x pattern, e at level 200, f at level 200, right associativity).

(** * Slices *)

(** A new array with these elements. *)
Definition fresh (l : list mval) (extra : nat) : mm mval := fun st => let '(s, st') := alloc RNil st l extra in Done (RObj s, st').
(** The arguments of a variadic parameter, none being the nil slice. *)
Definition packed (l : list mval) : mm mval := match l with [] => done (RSlice []) | _ => fresh l 0 end.
(** A list that a library function returned. *)
Definition taken (v : mval) : mm mval := match v with RSlice l => packed l | _ => done v end.
(** The elements of a slice as they are now. *)
Definition items (v : mval) : mm (list mval) :=
  fun st => match v with RObj s => Done (read st s, st) | _ => stop (elems v) st end.
(** An argument of a library function. *)
Definition shown (st : mem) (v : mval) : mval := match v with RObj s => RSlice (read st s) | _ => v end.
Definition size (v : mval) : rr mval :=
  match v with RObj s => Done (RInt "int" (Z.of_nat (sl_len s))) | _ => length_of v end.

Definition extended (pol : policy) (v : mval) (l : list mval) : mm mval :=
  fun st => match v, l with
  | RObj s, _ => let '(s', st') := append RNil pol st s l in Done (RObj s', st')
  | RSlice [], [] => Done (RSlice [], st)
  | RSlice [], _ => fresh l (pol (length (st_arrs st)) 0 (length l)) st
  | _, _ => Wrong
  end.
Definition element (v k : mval) : mm mval :=
  get! l := items v in
  match k with
  | RInt _ z => if (z <? 0)%Z then stop Halt else match nth_error l (Z.to_nat z) with Some w => done w | None => stop Halt end
  | _ => stop Wrong
  end.
Definition put (v k w : mval) : mm unit :=
  fun st => match v, k with
  | RObj s, RInt _ z => if (z <? 0)%Z then Halt else if Z.to_nat z <? sl_len s then Done (tt, assign st s (Z.to_nat z) w) else Halt
  | RSlice [], RInt _ _ => Halt
  | _, _ => Wrong
  end.
(** copy: from the first element on, as many as both have. *)
Definition copied (dst : mval) (l : list mval) : mm unit :=
  fun st => match dst with
  | RObj s =>
    let a := the_arr st s in
    Done (tt, mkSt (set_nth (sl_arr s) (mkA (write_at 0 (firstn (sl_len s) l) (a_cells a)) (a_used a)) (st_arrs st)) (st_stale st))
  | RSlice [] => Done (tt, st)
  | _ => Wrong
  end.

(** * Calls that are not to functions of the package *)

Definition m_builtin (pol : policy) (f : string) (vs : list mval) : option (mm mval) :=
  match f, vs with
  | "len", [v] => Some (stop (size v))
  | "append", v :: r => Some (extended pol v r)
  | "make", [RType (TySlice t); RInt _ z] => Some (if (z <? 0)%Z then stop Halt else fresh (repeat (zero 6 t) (Z.to_nat z)) 0)
  | "make", [RType (TySlice t); RInt _ z; RInt _ c] =>
    Some (if ((z <? 0) || (c <? z))%Z then stop Halt else fresh (repeat (zero 6 t) (Z.to_nat z)) (Z.to_nat c - Z.to_nat z))
  | "panic", _ => Some (stop Halt)
  | _, _ => None
  end.
Definition m_library (f : string) (vs : list mval) : mm mval :=
  fun st => match library f (vmap (shown st) vs) with Done v => taken v st | Halt => Halt | Wrong => Wrong | Spent => Spent end.

Definition m_equal (a b : mval) : rr bool :=
  match a, b with RObj _, RNil | RNil, RObj _ => Done false | _, _ => equal a b end.
Definition m_binary (op : string) (a b : mval) : rr mval :=
  match op with
  | "==" => let! x := m_equal a b in Done (RBool x)
  | "!=" => let! x := m_equal a b in Done (RBool (negb x))
  | _ => binary op a b
  end.

Section Sem.
Variable pol : policy.
(** the flag says that the last argument is the slice of the variadic ones *)
Variable call : string -> bool -> list mval -> mm mval.

Definition m_mcall (v : mval) (m : string) (sp : bool) (vs : list mval) : mm mval :=
  match v with
  | RNil => stop Halt
  | RHost g => stop (host_call g m vs)
  | RRefl what w => stop (refl_call what w m vs)
  | _ =>
    match find_method v m with
    | Some (k, r) => call k sp (r :: vs)
    | None => stop Wrong
    end
  end.

Fixpoint m_spread (l : list mval) : mm (list mval) :=
  match l with
  | [] => stop Wrong
  | [v] => items v
  | v :: r => get! r' := m_spread r in done (v :: r')
  end.

Definition m_call_name (f : string) (sp : bool) (vs : list mval) : mm mval :=
  if has_func f then call f sp vs
  else
    get! vs := if sp then m_spread vs else done vs in
    match m_builtin pol f vs with
    | Some r => r
    | None => if is_type f then match vs with [v] => stop (convert f v) | _ => stop Wrong end else stop Wrong
    end.

Definition m_literal (t : ty) (els : list (option string * mval)) : mm mval :=
  match t with
  | TySlice u => fresh (vmap (fun p => coerce u (snd p)) els) 0
  | TyName n =>
    match assoc n pkg_types with
    | Some (TdStruct _) => done (fill n (keyed els))
    | _ => stop Wrong
    end
  | _ => stop Wrong
  end.

Fixpoint m_eval (E : menv) (e : expr) {struct e} : mm mval :=
  match e with
  | EId x => stop (lookup E x)
  | EInt n => done (RInt "int" n)
  | EStr s => done (RStr "string" s)
  | ETy t => done (RType t)
  | ESel b f =>
    match b with
    | EId p => if is_package E p then stop (package_value p f)
               else stop (let! v := lookup E p in sel v f)
    | _ => get! v := m_eval E b in stop (sel v f)
    end
  | EIdx b k => get! v := m_eval E b in get! w := m_eval E k in element v w
  | EUn op b => get! v := m_eval E b in stop (unary op v)
  | EBin op a b =>
    get! v := m_eval E a in
    if String.eqb op "&&" then
      match v with RBool true => m_eval E b | RBool false => done (RBool false) | _ => stop Wrong end
    else if String.eqb op "||" then
      match v with RBool true => done (RBool true) | RBool false => m_eval E b | _ => stop Wrong end
    else get! w := m_eval E b in stop (m_binary op v w)
  | EAssert b t => get! v := m_eval E b in stop (assert_ty v t)
  | ETypeOf _ => stop Wrong
  | ELit t els =>
    get! l := (fix go (l : list (option string * expr)) : mm (list (option string * mval)) :=
                 match l with
                 | [] => done []
                 | (k, e) :: r => get! v := m_eval E e in get! r' := go r in done ((k, v) :: r')
                 end) els in
    m_literal t l
  | ECall f args sp =>
    get! head :=
      match f with
      | ESel (EId p) m => if is_package E p then done None else stop (let! v := lookup E p in Done (Some v))
      | ESel b m => get! v := m_eval E b in done (Some v)
      | _ => done None
      end in
    get! vs := (fix go (l : list expr) : mm (list mval) :=
                  match l with
                  | [] => done []
                  | e :: r => get! v := m_eval E e in get! r' := go r in done (v :: r')
                  end) args in
    match f, head with
    | EId x, _ => m_call_name x sp vs
    | ESel _ m, Some v => m_mcall v m sp vs
    | ESel (EId p) m, None => get! vs := if sp then m_spread vs else done vs in m_library (key p m) vs
    | EUn _ _, _ => done RNil                     (* ( *T)(nil) *)
    | _, _ => stop Wrong
    end
  end.

(** * Statements *)

Fixpoint m_assign (E : menv) (l : expr) (v : mval) {struct l} : mm menv :=
  match l with
  | EId x => stop (set_var x v E)
  | ESel b f => get! old := m_eval E b in get! new := stop (set_field old f v) in m_assign E b new
  | EIdx b k => get! s := m_eval E b in get! n := m_eval E k in get! _ := put s n v in done E
  | _ => stop Wrong
  end.
Fixpoint m_assign_all (E : menv) (ls : list expr) (vs : list mval) : mm menv :=
  match ls, vs with
  | [], [] => done E
  | l :: ls, v :: vs => get! E' := m_assign E l v in m_assign_all E' ls vs
  | _, _ => stop Wrong
  end.

Definition m_rights (E : menv) (n : bool) (es : list expr) : mm (list mval) :=
  match es with
  | [EAssert b t] =>
    if n then
      get! v := m_eval E b in
      done (if type_is v t then [v; RBool true] else [zero 6 t; RBool false])
    else get! v := m_eval E (EAssert b t) in done [v]
  | [e] => get! v := m_eval E e in done (values_of v)
  | _ =>
    (fix go (l : list expr) : mm (list mval) :=
       match l with
       | [] => done []
       | e :: r => get! v := m_eval E e in get! r' := go r in done (v :: r')
       end) es
  end.

Definition m_leave (E : menv) (r : mm mctl) : mm mctl := get! c := r in done (leave E c).

(** A range loop over keys and what gives the elements. *)
Fixpoint m_loop (body : menv -> mm mctl) (k v : string) (l : list (mval * mm mval)) (E : menv) : mm mctl :=
  match l with
  | [] => done (Next E)
  | (kv, g) :: r =>
    get! vv := g in
    get! c := m_leave E (body (bind_new (bind_new E None k kv) None v vv)) in
    match c with
    | Next E' | Cont E' => m_loop body k v r E'
    | Brk E' => done (Next E')
    | _ => done c
    end
  end.
Definition m_range_of (v : mval) : rr (list (mval * mm mval)) :=
  match v with
  | RObj s => Done (vmap (fun n => (RInt "int" (Z.of_nat n), element v (RInt "int" (Z.of_nat n)))) (seq 0 (sl_len s)))
  | _ => let! l := range_of v in Done (vmap (fun p => (fst p, done (snd p))) l)
  end.

Fixpoint m_while (n : nat) (c : menv -> mm mval) (post body : menv -> mm mctl) (E : menv) : mm mctl :=
  match n with
  | 0 => stop Spent
  | S n =>
    get! b := c E in
    match b with
    | RBool false => done (Next E)
    | RBool true =>
      get! r := m_leave E (body E) in
      match r with
      | Next E' | Cont E' =>
        get! p := post E' in
        match p with
        | Next E'' => m_while n c post body E''
        | _ => stop Wrong
        end
      | Brk E' => done (Next E')
      | _ => done r
      end
    | _ => stop Wrong
    end
  end.

Fixpoint m_case_holds (E : menv) (tag : option mval) (es : list expr) : mm bool :=
  match es with
  | [] => done false
  | e :: r =>
    get! v := m_eval E e in
    get! b := match tag with
              | Some t => stop (m_equal t v)
              | None => match v with RBool b => done b | _ => stop Wrong end
              end in
    if b then done true else m_case_holds E tag r
  end.

Fixpoint m_room (E : menv) : nat :=
  match E with
  | [] => 1
  | (_, (_, RObj s)) :: r => sl_len s + m_room r
  | _ :: r => m_room r
  end.
Variable rounds : nat.

Fixpoint m_exec (s : stmt) (E : menv) {struct s} : mm mctl :=
  let block := fix block (l : list stmt) (E : menv) {struct l} : mm mctl :=
    match l with
    | [] => done (Next E)
    | s :: r =>
      get! c := m_exec s E in
      match c with
      | Next E' => block r E'
      | _ => done c
      end
    end in
  match s with
  | SExpr (ECall (EId "copy") [dst; src] false) =>
    get! d := m_eval E dst in
    get! s := m_eval E src in
    get! l := items s in
    get! _ := copied d l in
    done (Next E)
  | SExpr e => get! _ := m_eval E e in done (Next E)
  | SDefine xs es =>
    get! vs := m_rights E (two xs) es in
    get! E' := stop (bind_all E None xs vs) in done (Next E')
  | SAssign ls op es =>
    get! vs := m_rights E (two ls) es in
    get! vs := if String.eqb op "+=" then
                 match ls, vs with
                 | [l], [v] => get! old := m_eval E l in get! w := stop (m_binary "+" old v) in done [w]
                 | _, _ => stop Wrong
                 end
               else done vs in
    get! E' := m_assign_all E ls vs in done (Next E')
  | SVar xs t es =>
    get! vs := match es, t with
               | [], Some u => done (vmap (fun _ => zero 6 u) xs)
               | _, _ => m_rights E (two xs) es
               end in
    get! E' := stop (bind_all E t xs vs) in done (Next E')
  | SReturn [] => done (RetNames E)
  | SReturn es => get! vs := m_rights E false es in done (Ret vs)
  | SIf ini c th el =>
    get! k := block ini E in
    match k with
    | Next E' =>
      get! b := m_eval E' c in
      match b with
      | RBool true => m_leave E (block th E')
      | RBool false => m_leave E (block el E')
      | _ => stop Wrong
      end
    | _ => stop Wrong
    end
  | SSwitch tag cases dflt =>
    get! t := match tag with Some e => get! v := m_eval E e in done (Some v) | None => done None end in
    get! c := m_leave E
      ((fix go (l : list (list expr * list stmt)) : mm mctl :=
          match l with
          | [] => block dflt E
          | (es, b) :: r => get! h := m_case_holds E t es in if h then block b E else go r
          end) cases) in
    done (unbrk c)
  | STypeSwitch x e cases dflt =>
    get! v := m_eval E e in
    let E' := match x with Some y => bind_new E None y v | None => E end in
    get! c := m_leave E
      ((fix go (l : list (list expr * list stmt)) : mm mctl :=
          match l with
          | [] => block dflt E'
          | (es, b) :: r => get! h := stop (type_case_holds v es) in if h then block b E' else go r
          end) cases) in
    done (unbrk c)
  | SRange k v e body =>
    get! w := m_eval E e in
    get! l := stop (m_range_of w) in
    m_loop (block body) k v l E
  | SFor ini c post body =>
    get! k := block ini E in
    match k with
    | Next E' => m_leave E (m_while (rounds + m_room E') (fun E => m_eval E c) (block post) (block body) E')
    | _ => stop Wrong
    end
  | SBlock l => m_leave E (block l E)
  | SBreak => done (Brk E)
  | SContinue => done (Cont E)
  end.

Fixpoint m_block (l : list stmt) (E : menv) {struct l} : mm mctl :=
  match l with
  | [] => done (Next E)
  | s :: r =>
    get! c := m_exec s E in
    match c with
    | Next E' => m_block r E'
    | _ => done c
    end
  end.

(** * Functions *)

Fixpoint m_bind_params (ps : list param) (sp : bool) (vs : list mval) (E : menv) : mm menv :=
  match ps with
  | [] => match vs with [] => done E | _ => stop Wrong end
  | p :: r =>
    if p_var p then
      get! v := if sp then match vs with [v] => done (coerce (TySlice (p_ty p)) v) | _ => stop Wrong end else packed (vmap (coerce (p_ty p)) vs) in
      done (bind_new E (Some (TySlice (p_ty p))) (p_name p) v)
    else
      match vs with
      | v :: vs => m_bind_params r sp vs (bind_new E (Some (p_ty p)) (p_name p) v)
      | [] => stop Wrong
      end
  end.

Definition m_apply (f : func) (sp : bool) (vs : list mval) : mm mval :=
  get! E := m_bind_params (all_params f) sp vs [] in
  get! c := m_block (f_body f) (bind_results (f_results f) E) in
  stop (finish (f_results f) c).

End Sem.

(** Calls, at most [n] inside each other. *)
Fixpoint m_run (pol : policy) (n : nat) (f : string) (sp : bool) (vs : list mval) : mm mval :=
  match n with
  | 0 => stop Spent
  | S n =>
    match assoc f pkg_funcs with
    | Some fn => m_apply pol (m_run pol n) n fn sp vs
    | None => stop Wrong
    end
  end.

(** A function written by a user of the package, read from its text. *)
Definition client (src : string) : option func :=
  match parse src with Some [DFunc _ f] => Some f | _ => None end.
Definition m_client (pol : policy) (n : nat) (src : string) : mm mval :=
  match client src with Some f => m_apply pol (m_run pol n) n f false [] | None => stop Wrong end.
(** What it returns, slices among the results being shown with their elements. *)
Definition outcome (pol : policy) (n : nat) (src : string) : rr (list mval) :=
  match m_client pol n src empty_store with
  | Done (v, st) => Done (vmap (shown st) (values_of v))
  | Halt => Halt | Wrong => Wrong | Spent => Spent
  end.
