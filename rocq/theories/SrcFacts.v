(** Running the source: equations for the interpreter and the tactics that go
    through a function statement by statement. *)
From Coq Require Import String Ascii List Bool Arith NArith ZArith Lia.
From Verif Require Import GoStr Value Names Cond SrcAst SrcSem SrcProg Open.
Import ListNotations.
Local Open Scope string_scope.
Local Open Scope nat_scope.

Notation S1 n := (Datatypes.S n).
Notation S2 n := (Datatypes.S (Datatypes.S n)).
Notation S3 n := (Datatypes.S (S2 n)).
Notation S4 n := (Datatypes.S (S3 n)).
Notation S5 n := (Datatypes.S (S4 n)).
Notation S6 n := (Datatypes.S (S5 n)).
Notation S7 n := (Datatypes.S (S6 n)).
Notation S8 n := (Datatypes.S (S7 n)).

(** * How the values of Names.v look in the source *)
Section Enc.
Context {S : Type}.
Notation val := (val S).
Definition of_fparam (p : fparam) : val :=
  match p with
  | FPStr s => RStr "string" s
  | FPName s => RStr "FieldName" s
  | FPDef d => of_fdef d
  end.
Definition of_tident (t : tident) : val :=
  RStruct "TableIdent" [("name", RStr "string" (t_name t)); ("alias", RStr "string" (t_alias t))].
Definition of_tparam (p : tparam) : val :=
  match p with
  | TPStr s => RStr "string" s
  | TPName s => RStr "TableName" s
  | TPIdent t => of_tident t
  end.
Definition of_fvalue (f : fvalue) : val :=
  RStruct "FieldValue" [("FieldDefinition", of_fdef (fv_def f)); ("value", of_gval (fv_val f))].
Definition of_fsort (o : fsort) : val :=
  RStruct "FieldSorting" [("FieldDefinition", of_fdef (s_def o)); ("direction", RStr "SortDirection" (s_dir o))].
Definition of_jcond (c : jcond) : val :=
  RStruct "JoinCondition" [("leftField", of_fdef (jc_left c)); ("rightField", of_fdef (jc_right c))].
Definition of_joiner (j : joiner) : val :=
  RStruct "TableJoiner"
    [("rightTable", of_tident (j_right j)); ("joinType", RInt "TableJoinType" (j_type j));
     ("joinCondition", of_jcond (j_cond j))].
Definition of_limiter (q : limiter) : val :=
  RStruct "Limiter" [("limit", RInt "uint" (Z.of_N (lim_limit q))); ("offset", RInt "uint" (Z.of_N (lim_offset q)))].
End Enc.


(** Two steps one after the other, where the second is not looked into before
    the first has ended. *)
Definition obind {A B} : rr A -> (A -> rr B) -> rr B := rbind.
Lemma obind_done : forall A B (a : A) (f : A -> rr B), obind (Done a) f = f a.
Proof. reflexivity. Qed.
Lemma obind_halt : forall A B (f : A -> rr B), obind Halt f = Halt.
Proof. reflexivity. Qed.

Section Equations.
Context {S : Type} (i : impl S) (call : string -> list (val S) -> rr (val S)) (rounds : nat).
Notation exec := (exec i call rounds).
Notation block := (block i call rounds).
Notation eval := (eval i call).
Notation env := (env S).
Notation ctl := (ctl S).
Notation rights := (rights i call).
Notation assign := (assign i call).

(** What follows a statement. *)
Definition after (r : list stmt) (c : ctl) : rr ctl :=
  match c with
  | Next E => block r E
  | _ => Done c
  end.

Lemma block_nil : forall E, block [] E = Done (Next E).
Proof. reflexivity. Qed.
Lemma block_cons : forall s r E, block (s :: r) E = obind (exec s E) (after r).
Proof. reflexivity. Qed.

Lemma after_next : forall r E, after r (Next E) = block r E.
Proof. reflexivity. Qed.
Lemma after_ret : forall r vs, after r (Ret vs) = Done (Ret vs).
Proof. reflexivity. Qed.
Lemma after_names : forall r E, after r (RetNames E) = Done (RetNames E).
Proof. reflexivity. Qed.

Lemma exec_define : forall xs es E,
  exec (SDefine xs es) E =
  rbind (rights E (two xs) es) (fun vs => rbind (bind_all E None xs vs) (fun E' => Done (Next E'))).
Proof. reflexivity. Qed.

Lemma exec_assign : forall ls es E,
  exec (SAssign ls "=" es) E =
  rbind (rights E (two ls) es) (fun vs =>
    rbind (assign_all i call E ls vs) (fun E' => Done (Next E'))).
Proof. reflexivity. Qed.

Lemma exec_plus : forall l e E,
  exec (SAssign [l] "+=" [e]) E =
  rbind (rights E false [e]) (fun vs =>
    rbind (match vs with
           | [v] => rbind (eval E l) (fun old => rbind (binary "+" old v) (fun w => Done [w]))
           | _ => Wrong
           end) (fun vs => rbind (assign_all i call E [l] vs) (fun E' => Done (Next E')))).
Proof. reflexivity. Qed.

Lemma exec_var : forall xs t es E,
  exec (SVar xs t es) E =
  rbind (match es, t with
         | [], Some u => Done (vmap (fun _ => zero 6 u) xs)
         | _, _ => rights E (two xs) es
         end) (fun vs => rbind (bind_all E t xs vs) (fun E' => Done (Next E'))).
Proof. reflexivity. Qed.

Lemma exec_return : forall e r E,
  exec (SReturn (e :: r)) E = rbind (rights E false (e :: r)) (fun vs => Done (Ret vs)).
Proof. reflexivity. Qed.
Lemma exec_return_names : forall E, exec (SReturn []) E = Done (RetNames E).
Proof. reflexivity. Qed.

(** Leaving a block. *)
Definition oleave (E : env) (r : rr ctl) : rr ctl := lleave E r.
Lemma oleave_done : forall E c, oleave E (Done c) = Done (leave E c).
Proof. reflexivity. Qed.
Lemma oleave_halt : forall E, oleave E Halt = Halt.
Proof. reflexivity. Qed.

(** Going on after the initial part of an if, and with its condition. *)
Definition if_branch (E0 E' : env) (th el : list stmt) (b : val S) : rr ctl :=
  match b with
  | RBool true => oleave E0 (block th E')
  | RBool false => oleave E0 (block el E')
  | _ => Wrong
  end.
Definition if_cond (E0 : env) (c : expr) (th el : list stmt) (k : ctl) : rr ctl :=
  match k with
  | Next E' => obind (eval E' c) (if_branch E0 E' th el)
  | _ => Wrong
  end.
Lemma exec_if : forall ini c th el E,
  exec (SIf ini c th el) E = obind (block ini E) (if_cond E c th el).
Proof. reflexivity. Qed.
Lemma if_cond_next : forall E0 c th el E',
  if_cond E0 c th el (Next E') = obind (eval E' c) (if_branch E0 E' th el).
Proof. reflexivity. Qed.
Lemma if_branch_true : forall E0 E' th el,
  if_branch E0 E' th el (RBool true) = oleave E0 (block th E').
Proof. reflexivity. Qed.
Lemma if_branch_false : forall E0 E' th el,
  if_branch E0 E' th el (RBool false) = oleave E0 (block el E').
Proof. reflexivity. Qed.
Lemma if_branch_bool : forall E0 E' th el b,
  if_branch E0 E' th el (RBool b) = oleave E0 (block (if b then th else el) E').
Proof. destruct b; reflexivity. Qed.

(** The cases of a switch, one after another. *)
Fixpoint cases (E : env) (t : option (val S)) (l : list (list expr * list stmt)) (dflt : list stmt) : rr ctl :=
  match l with
  | [] => block dflt E
  | (es, b) :: r =>
    rbind (case_holds i call E t es) (fun h => if h then block b E else cases E t r dflt)
  end.
Definition case_branch (E : env) (t : option (val S)) (b : list stmt) (r : list (list expr * list stmt))
  (dflt : list stmt) (h : bool) : rr ctl := if h then block b E else cases E t r dflt.
Lemma cases_nil : forall E t dflt, cases E t [] dflt = block dflt E.
Proof. reflexivity. Qed.
Lemma cases_cons : forall E t es b r dflt,
  cases E t ((es, b) :: r) dflt =
  obind (case_holds i call E t es) (case_branch E t b r dflt).
Proof. reflexivity. Qed.
Lemma case_branch_true : forall E t b r dflt, case_branch E t b r dflt true = block b E.
Proof. reflexivity. Qed.
Lemma case_branch_false : forall E t b r dflt, case_branch E t b r dflt false = cases E t r dflt.
Proof. reflexivity. Qed.

Definition switched (E : env) (r : rr ctl) : rr ctl :=
  rbind (lleave E r) (fun c => Done (unbrk c)).
Lemma switched_done : forall E c, switched E (Done c) = Done (unbrk (leave E c)).
Proof. reflexivity. Qed.
Lemma switched_halt : forall E, switched E Halt = Halt.
Proof. reflexivity. Qed.

Lemma exec_switch : forall l dflt E,
  exec (SSwitch None l dflt) E = switched E (cases E None l dflt).
Proof.
  intros. unfold switched. cbn [SrcSem.exec rbind]. f_equal. f_equal.
  induction l as [|[es b] r IH]; [reflexivity|]. cbn [cases]. rewrite <- IH. reflexivity.
Qed.

Lemma exec_switch_tag : forall e l dflt E,
  exec (SSwitch (Some e) l dflt) E =
  obind (eval E e) (fun v => switched E (cases E (Some v) l dflt)).
Proof.
  intros. unfold switched, obind. cbn [SrcSem.exec rbind].
  destruct (eval E e) as [v| | |]; cbn [rbind]; [|reflexivity..]. f_equal. f_equal.
  induction l as [|[es b] r IH]; [reflexivity|]. cbn [cases]. rewrite <- IH. reflexivity.
Qed.

Fixpoint type_cases (v : val S) (E : env) (l : list (list expr * list stmt)) (dflt : list stmt) : rr ctl :=
  match l with
  | [] => block dflt E
  | (es, b) :: r =>
    rbind (type_case_holds v es) (fun h => if h then block b E else type_cases v E r dflt)
  end.
Definition type_branch (v : val S) (E : env) (b : list stmt) (r : list (list expr * list stmt))
  (dflt : list stmt) (h : bool) : rr ctl := if h then block b E else type_cases v E r dflt.
Lemma type_cases_nil : forall v E dflt, type_cases v E [] dflt = block dflt E.
Proof. reflexivity. Qed.
Lemma type_cases_cons : forall v E es b r dflt,
  type_cases v E ((es, b) :: r) dflt =
  obind (type_case_holds v es) (type_branch v E b r dflt).
Proof. reflexivity. Qed.
Lemma type_branch_true : forall v E b r dflt, type_branch v E b r dflt true = block b E.
Proof. reflexivity. Qed.
Lemma type_branch_false : forall v E b r dflt, type_branch v E b r dflt false = type_cases v E r dflt.
Proof. reflexivity. Qed.

Lemma exec_type_switch : forall x e l dflt E,
  exec (STypeSwitch x e l dflt) E =
  obind (eval E e) (fun v =>
    switched E (type_cases v (match x with Some y => bind_new E None y v | None => E end) l dflt)).
Proof.
  intros. unfold switched, obind. cbn [SrcSem.exec rbind].
  destruct (eval E e) as [v| | |]; cbn [rbind]; [|reflexivity..]. f_equal. f_equal.
  induction l as [|[es b] r IH]; [reflexivity|]. cbn [type_cases]. rewrite <- IH. reflexivity.
Qed.

Lemma exec_range : forall k v e body E,
  exec (SRange k v e body) E =
  obind (rbind (eval E e) range_of) (fun l => loop (block body) k v l E).
Proof. intros. cbn [SrcSem.exec]. destruct (eval E e); reflexivity. Qed.

(** Going on after the initial part of a for. *)
Definition for_rest (E0 : env) (c : expr) (post body : list stmt) (k : ctl) : rr ctl :=
  match k with
  | Next E' => lleave E0 (while (rounds + room E') (fun E => eval E c) (block post) (block body) E')
  | _ => Wrong
  end.
Lemma exec_for : forall ini c post body E,
  exec (SFor ini c post body) E = obind (block ini E) (for_rest E c post body).
Proof. reflexivity. Qed.
Lemma for_rest_next : forall E c post body E',
  for_rest E c post body (Next E') =
  oleave E (while (rounds + room E') (fun E => eval E c) (block post) (block body) E').
Proof. reflexivity. Qed.

Lemma exec_block : forall l E, exec (SBlock l) E = oleave E (block l E).
Proof. reflexivity. Qed.
Lemma exec_break : forall E, exec SBreak E = Done (Brk E).
Proof. reflexivity. Qed.
Lemma exec_continue : forall E, exec SContinue E = Done (Cont E).
Proof. reflexivity. Qed.
Lemma exec_panic : forall es sp E,
  exec (SExpr (ECall (EId "panic") es sp)) E =
  rbind (eval E (ECall (EId "panic") es sp)) (fun _ => Done (Next E)).
Proof. reflexivity. Qed.
Lemma exec_copy : forall dst src E,
  exec (SExpr (ECall (EId "copy") [dst; src] false)) E =
  rbind (eval E dst) (fun d => rbind (eval E src) (fun s =>
  rbind (elems d) (fun dl => rbind (elems s) (fun sl =>
  rbind (assign E dst (RSlice (firstn (length dl) sl ++ skipn (length sl) dl))) (fun E' =>
  Done (Next E')))))).
Proof. reflexivity. Qed.

Lemma apply_eq : forall f vs,
  apply i call rounds f vs =
  obind (bind_params (all_params f) vs []) (fun E =>
    obind (block (f_body f) (bind_results (f_results f) E)) (finish (f_results f))).
Proof. reflexivity. Qed.

Lemma finish_ret : forall rs (vs : list (val S)),
  finish rs (Ret vs) = rbind (coerce_all rs vs) (fun l => Done (tuple l)).
Proof. reflexivity. Qed.
Lemma finish_names : forall rs (E : env),
  finish rs (RetNames E) = rbind (named_results rs E) (fun l => Done (tuple l)).
Proof. reflexivity. Qed.

Lemma loop_nil : forall body k v (E : env), loop body k v [] E = Done (Next E).
Proof. reflexivity. Qed.
End Equations.

Lemma run_eq : forall {S} (i : impl S) n f vs,
  run i (Datatypes.S n) f vs =
  match assoc f pkg_funcs with
  | Some fn => apply i (run i n) n fn vs
  | None => Wrong
  end.
Proof. reflexivity. Qed.


(** * Going through a function

    [at_ rs K x R]: with the rest of the function being [K], inside out, and its
    results [rs], going on from [x] ends in [R]. *)
Section At.
Context {S : Type} (i : impl S) (call : string -> list (val S) -> rr (val S)) (rounds : nat).
Notation exec := (exec i call rounds).
Notation block := (block i call rounds).
Notation eval := (eval i call).
Notation env := (env S).
Notation ctl := (ctl S).
Notation after := (after i call rounds).
Notation if_cond := (if_cond i call rounds).
Notation if_branch := (if_branch i call rounds).
Notation cases := (cases i call rounds).
Notation case_branch := (case_branch i call rounds).
Notation type_cases := (type_cases i call rounds).
Notation type_branch := (type_branch i call rounds).

Definition bnd (f : ctl -> rr ctl) (x : rr ctl) : rr ctl := rbind x f.
Fixpoint back (K : list (rr ctl -> rr ctl)) (x : rr ctl) : rr ctl :=
  match K with
  | [] => x
  | k :: K => back K (k x)
  end.
Definition at_ (rs : list param) (K : list (rr ctl -> rr ctl)) (x : rr ctl) (R : rr (val S)) : Prop :=
  rbind (back K x) (finish rs) = R.

Variables (rs : list param) (K : list (rr ctl -> rr ctl)) (R : rr (val S)).

Lemma at_apply : forall f vs E,
  bind_params (all_params f) vs [] = Done E ->
  at_ (f_results f) [] (block (f_body f) (bind_results (f_results f) E)) R ->
  apply i call rounds f vs = R.
Proof. intros f vs E H. unfold apply. rewrite H. intros H'. exact H'. Qed.
Lemma at_cons : forall s r E, at_ rs (bnd (after r) :: K) (exec s E) R -> at_ rs K (block (s :: r) E) R.
Proof. intros s r E H. exact H. Qed.
Lemma at_nil : forall E, at_ rs K (Done (Next E)) R -> at_ rs K (block [] E) R.
Proof. intros E H. exact H. Qed.
Lemma at_eq : forall x x', x = x' -> at_ rs K x' R -> at_ rs K x R.
Proof. intros x x' ->. trivial. Qed.
Lemma at_pop : forall k x x', k x = x' -> at_ rs K x' R -> at_ rs (k :: K) x R.
Proof. intros k x x' <-. trivial. Qed.
Lemma at_bind : forall A (v v' : rr A) f, v = v' -> at_ rs K (obind v' f) R -> at_ rs K (obind v f) R.
Proof. intros A v v' f ->. trivial. Qed.
Lemma at_halt : forall A (f : A -> rr ctl), at_ rs K Halt R -> at_ rs K (obind Halt f) R.
Proof. intros A f H. exact H. Qed.
Lemma at_done : forall A (a : A) (f : A -> rr ctl), at_ rs K (f a) R -> at_ rs K (obind (Done a) f) R.
Proof. intros A a f H. exact H. Qed.

Lemma at_if : forall ini c th el E,
  at_ rs (bnd (if_cond E c th el) :: K) (block ini E) R -> at_ rs K (exec (SIf ini c th el) E) R.
Proof. intros ini c th el E. rewrite exec_if. trivial. Qed.
Lemma at_then : forall E0 E th el,
  at_ rs (oleave E0 :: K) (block th E) R -> at_ rs K (if_branch E0 E th el (RBool true)) R.
Proof. intros E0 E th el H. exact H. Qed.
Lemma at_else : forall E0 E th el,
  at_ rs (oleave E0 :: K) (block el E) R -> at_ rs K (if_branch E0 E th el (RBool false)) R.
Proof. intros E0 E th el H. exact H. Qed.

Lemma at_switch : forall l dflt E,
  at_ rs (switched E :: K) (cases E None l dflt) R -> at_ rs K (exec (SSwitch None l dflt) E) R.
Proof. intros. rewrite exec_switch. trivial. Qed.
Lemma at_switch_tag : forall e l dflt E v,
  eval E e = Done v ->
  at_ rs (switched E :: K) (cases E (Some v) l dflt) R -> at_ rs K (exec (SSwitch (Some e) l dflt) E) R.
Proof. intros e l dflt E v H. rewrite exec_switch_tag, H. trivial. Qed.
Lemma at_cases_nil : forall E t dflt, at_ rs K (block dflt E) R -> at_ rs K (cases E t [] dflt) R.
Proof. intros E t dflt H. exact H. Qed.
Lemma at_cases_cons : forall E t es b r dflt,
  at_ rs K (obind (case_holds i call E t es) (case_branch E t b r dflt)) R ->
  at_ rs K (cases E t ((es, b) :: r) dflt) R.
Proof. intros E t es b r dflt H. exact H. Qed.
Lemma at_case : forall E t b r dflt,
  at_ rs K (block b E) R -> at_ rs K (case_branch E t b r dflt true) R.
Proof. intros E t b r dflt H. exact H. Qed.
Lemma at_next_case : forall E t b r dflt,
  at_ rs K (cases E t r dflt) R -> at_ rs K (case_branch E t b r dflt false) R.
Proof. intros E t b r dflt H. exact H. Qed.

Lemma at_type_switch : forall x e l dflt E v,
  eval E e = Done v ->
  at_ rs (switched E :: K)
    (type_cases v (match x with Some y => bind_new E None y v | None => E end) l dflt) R ->
  at_ rs K (exec (STypeSwitch x e l dflt) E) R.
Proof. intros x e l dflt E v H. rewrite exec_type_switch, H. trivial. Qed.
Lemma at_type_cases_nil : forall v E dflt, at_ rs K (block dflt E) R -> at_ rs K (type_cases v E [] dflt) R.
Proof. intros v E dflt H. exact H. Qed.
Lemma at_type_cases_cons : forall v E es b r dflt,
  at_ rs K (obind (type_case_holds v es) (type_branch v E b r dflt)) R ->
  at_ rs K (type_cases v E ((es, b) :: r) dflt) R.
Proof. intros v E es b r dflt H. exact H. Qed.
Lemma at_type_case : forall v E b r dflt,
  at_ rs K (block b E) R -> at_ rs K (type_branch v E b r dflt true) R.
Proof. intros v E b r dflt H. exact H. Qed.
Lemma at_next_type_case : forall v E b r dflt,
  at_ rs K (type_cases v E r dflt) R -> at_ rs K (type_branch v E b r dflt false) R.
Proof. intros v E b r dflt H. exact H. Qed.

Lemma at_range : forall k v e body E,
  at_ rs K (obind (rbind (eval E e) range_of) (fun l => loop (block body) k v l E)) R ->
  at_ rs K (exec (SRange k v e body) E) R.
Proof. intros k v e body E. rewrite exec_range. trivial. Qed.
Lemma at_for : forall ini c post body E,
  at_ rs (bnd (for_rest i call rounds E c post body) :: K) (block ini E) R ->
  at_ rs K (exec (SFor ini c post body) E) R.
Proof. intros ini c post body E. rewrite exec_for. trivial. Qed.
Lemma at_for_next : forall E c post body E',
  at_ rs (oleave E :: K) (while (rounds + room E') (fun E => eval E c) (block post) (block body) E') R ->
  at_ rs (bnd (for_rest i call rounds E c post body) :: K) (Done (Next E')) R.
Proof. intros E c post body E' H. exact H. Qed.
Lemma at_block : forall l E, at_ rs (oleave E :: K) (block l E) R -> at_ rs K (exec (SBlock l) E) R.
Proof. intros l E H. exact H. Qed.
End At.

Lemma at_ret : forall {S} rs (vs : list (val S)) r R,
  rbind (coerce_all rs vs) (fun l => Done (tuple l)) = r -> r = R -> at_ rs [] (Done (Ret vs)) R.
Proof. intros S rs vs r R <-. trivial. Qed.
Lemma at_ret_names : forall {S} rs (E : env S) r R,
  rbind (named_results rs E) (fun l => Done (tuple l)) = r -> r = R -> at_ rs [] (Done (RetNames E)) R.
Proof. intros S rs E r R <-. trivial. Qed.
Lemma at_stop : forall {S} rs (R : rr (val S)), Halt = R -> at_ rs [] Halt R.
Proof. intros S rs R <-. reflexivity. Qed.

(** * Lengths, compared as the source does and as the model does *)
Lemma pos_s : forall s, (0 <? Z.of_nat (String.length s))%Z = negb (is_empty s).
Proof. destruct s; [reflexivity|]. cbn [is_empty negb String.length]. apply Z.ltb_lt. lia. Qed.
Lemma zero_s : forall s, (Z.of_nat (String.length s) =? 0)%Z = is_empty s.
Proof. destruct s; [reflexivity|]. cbn [is_empty String.length]. apply Z.eqb_neq. lia. Qed.
Lemma zero_n : forall n, (Z.of_nat n =? 0)%Z = (n =? 0).
Proof. destruct n; [reflexivity|]. apply Z.eqb_neq. lia. Qed.
Lemma one_n : forall n, (Z.of_nat n =? 1)%Z = (n =? 1).
Proof. intros n. destruct (Nat.eqb_spec n 1); [subst; reflexivity|]. apply Z.eqb_neq. lia. Qed.
Lemma three_n : forall n, (Z.of_nat n =? 3)%Z = (n =? 3).
Proof. intros n. destruct (Nat.eqb_spec n 3); [subst; reflexivity|]. apply Z.eqb_neq. lia. Qed.
Lemma two_n : forall n, (Z.of_nat n =? 2)%Z = (n =? 2).
Proof. intros n. destruct (Nat.eqb_spec n 2); [subst; reflexivity|]. apply Z.eqb_neq. lia. Qed.
Lemma pos_n : forall n, (0 <? Z.of_nat n)%Z = (0 <? n).
Proof. destruct n; [reflexivity|]. apply Z.ltb_lt. lia. Qed.
Lemma many_n : forall n, (1 <? Z.of_nat n)%Z = (1 <? n).
Proof. intros n. destruct (Nat.ltb_spec 1 n); [apply Z.ltb_lt|apply Z.ltb_ge]; lia. Qed.
Lemma make_n : forall n, (Z.of_nat n <? 0)%Z = false.
Proof. intros. apply Z.ltb_ge. lia. Qed.


(** * Tactics *)

(** Evaluation, leaving what the values of the run are made of as it is. *)
Ltac sx_all :=
  lazy beta iota zeta delta
    [rbind find_env assoc set_assoc vmap same_length key mem_s ints is_string_ty is_int_ty
     coerce convert zero struct_fields field_ty embedded first_some field_at sel set_own set_at
     set_field type_of has_func method_at find_method pkg_types pkg_keys globals
     elems length_of range_of of_res one_byte library packages package_value make_slice builtin
     equal binary unary index set_index spread lookup is_package is_type call_name fill keyed literal
     assert_ty eval set_var assign assign_all bind_new bind_all two rights
     host_is host_call refl_call case_holds type_name_of type_case_holds exec
     bind_params bind_results coerce_all named_results tuple all_params
     String.eqb Ascii.eqb Bool.eqb filter find option_map fst snd
     f_recv f_params f_results f_body p_name p_ty p_var fd_name fd_ty fd_emb
     of_fdef of_base of_fparam of_tident of_tparam of_fvalue of_fsort of_jcond of_joiner of_limiter
     f_name f_table f_alias t_name t_alias fv_def fv_val s_def s_dir jc_left jc_right j_right j_type j_cond
     lim_limit lim_offset set_table f_of f_as].
(** The same, looking into slices only when they are in view. *)
Ltac sx_some :=
  lazy beta iota zeta delta
    [rbind find_env assoc set_assoc vmap same_length key mem_s ints is_string_ty is_int_ty
     coerce convert zero struct_fields field_ty embedded first_some field_at sel set_own set_at
     set_field type_of has_func method_at find_method pkg_types pkg_keys globals
     of_res one_byte library packages package_value make_slice builtin
     equal binary unary index set_index spread lookup is_package is_type call_name fill keyed literal
     assert_ty eval set_var assign assign_all bind_new bind_all two rights
     host_is host_call refl_call case_holds type_name_of type_case_holds exec
     bind_params bind_results coerce_all named_results tuple all_params
     String.eqb Ascii.eqb Bool.eqb filter find option_map fst snd
     f_recv f_params f_results f_body p_name p_ty p_var fd_name fd_ty fd_emb
     of_fdef of_base of_fparam of_tident of_tparam of_fvalue of_fsort of_jcond of_joiner of_limiter
     f_name f_table f_alias t_name t_alias fv_def fv_val s_def s_dir jc_left jc_right j_right j_type j_cond
     lim_limit lim_offset set_table f_of f_as].
Ltac sx := sx_all.
Tactic Notation "sx" "in" hyp(H) :=
  lazy beta iota zeta delta
    [of_res of_fdef of_base of_fparam of_tident of_tparam of_fvalue of_fsort of_jcond of_joiner of_limiter
     f_name f_table f_alias t_name t_alias fv_def fv_val s_def s_dir jc_left jc_right j_right j_type j_cond
     lim_limit lim_offset set_table f_of f_as] in H.

(** All records opened. *)
Ltac open :=
  intros;
  repeat match goal with
  | d : fdef |- _ => destruct d
  | d : tident |- _ => destruct d
  | d : fvalue |- _ => destruct d
  | d : fsort |- _ => destruct d
  | d : jcond |- _ => destruct d
  | d : joiner |- _ => destruct d
  | d : limiter |- _ => destruct d
  end.

(** Comparisons and conversions of numbers that are written out. *)
Ltac zx :=
  match goal with
  | |- context [(?a <? ?b)%Z] =>
    let r := eval lazy in (a <? b)%Z in
    lazymatch r with true => idtac | false => idtac end; change (a <? b)%Z with r
  | |- context [(?a =? ?b)%Z] =>
    let r := eval lazy in (a =? b)%Z in
    lazymatch r with true => idtac | false => idtac end; change (a =? b)%Z with r
  | |- context [Z.to_nat ?a] =>
    let r := eval lazy in (Z.to_nat a) in
    lazymatch r with 0 => idtac | 1 => idtac | 2 => idtac | 3 => idtac end; change (Z.to_nat a) with r
  | |- context [str_eqb ?a ?b] =>
    let r := eval lazy in (str_eqb a b) in
    lazymatch r with true => idtac | false => idtac end; change (str_eqb a b) with r
  | |- context [Nat.eqb ?a ?b] =>
    let r := eval lazy in (Nat.eqb a b) in
    lazymatch r with true => idtac | false => idtac end; change (Nat.eqb a b) with r
  | |- context [Nat.ltb ?a ?b] =>
    let r := eval lazy in (Nat.ltb a b) in
    lazymatch r with true => idtac | false => idtac end; change (Nat.ltb a b) with r
  end.

(** Type tests and method calls on values whose type is in view. *)
Ltac shown v :=
  lazymatch v with
  | RStruct _ _ => idtac
  | RStr _ _ => idtac
  | RInt _ _ => idtac
  | RNil => idtac
  | RObj _ => idtac
  | RHost _ => idtac
  | RRefl _ _ => idtac
  | RBool _ => idtac
  | RSlice _ => idtac
  | RTuple _ => idtac
  | RUser _ => idtac
  | RMap _ => idtac
  | RUpper _ => idtac
  end.
Lemma values_of_gval : forall {S} g, values_of (@of_gval S g) = [of_gval g].
Proof. destruct g; reflexivity. Qed.
Ltac mx :=
  match goal with
  | |- context [values_of ?v] => first [rewrite values_of_gval | shown v; unfold values_of at 1]
  | |- context [elems ?v] => shown v; unfold elems at 1
  | |- context [length_of ?v] => shown v; unfold length_of at 1
  | |- context [range_of ?v] => shown v; unfold range_of at 1
  | |- context [mcall ?i ?c ?v ?m ?vs] => shown v; unfold mcall at 1
  | |- context [type_is ?v ?t] => shown v; unfold type_is at 1
  end.

Ltac lens :=
  match goal with
  | |- context [(0 <? Z.of_nat (String.length ?s))%Z] => rewrite (pos_s s)
  | |- context [(Z.of_nat (String.length ?s) =? 0)%Z] => rewrite (zero_s s)
  | |- context [(0 <? Z.of_nat ?n)%Z] => rewrite (pos_n n)
  | |- context [(1 <? Z.of_nat ?n)%Z] => rewrite (many_n n)
  | |- context [(Z.of_nat ?n =? 0)%Z] => rewrite (zero_n n)
  | |- context [(Z.of_nat ?n =? 1)%Z] => rewrite (one_n n)
  | |- context [(Z.of_nat ?n =? 2)%Z] => rewrite (two_n n)
  | |- context [(Z.of_nat ?n =? 3)%Z] => rewrite (three_n n)
  | |- context [(Z.of_nat ?n <? 0)%Z] => rewrite (make_n n)
  | |- context [Z.to_nat (Z.of_nat ?n)] => rewrite (Nat2Z.id n)
  end.

(** Lists of texts. *)
Lemma strs_map : forall {S} t l, @strs S (map (RStr t) l) = Done l.
Proof. induction l as [|a r IH]; cbn [map strs]; [reflexivity|]. rewrite IH. reflexivity. Qed.
Lemma strs_map_f : forall {S} {A} t (f : A -> string) l, @strs S (map (fun a => RStr t (f a)) l) = Done (map f l).
Proof. induction l as [|a r IH]; cbn [map strs]; [reflexivity|]. rewrite IH. reflexivity. Qed.

(** Lists that are written out. *)
Ltac lx :=
  match goal with
  | |- context [@repeat ?A ?x 0] => change (@repeat A x 0) with (@nil A)
  | |- context [@app ?A [] ?l] => change (@app A [] l) with l
  | |- context [@app ?A (?a :: ?l) ?r] => change (@app A (a :: l) r) with (a :: @app A l r)
  | |- context [@strs ?S ?l] =>
    first [ rewrite strs_map | rewrite strs_map_f
          | let r := eval lazy beta iota zeta delta [strs rbind app] in (@strs S l) in
            progress change (@strs S l) with r ]
  | |- context [@map ?A ?B ?f (?a :: ?r)] =>
    let x := eval lazy beta iota zeta delta [map] in (@map A B f (a :: r)) in
    progress change (@map A B f (a :: r)) with x
  | |- context [@map ?A ?B ?f []] => change (@map A B f []) with (@nil B)
  | |- context [@List.length ?A (?a :: ?r)] =>
    let x := eval lazy beta iota zeta delta [List.length] in (@List.length A (a :: r)) in
    progress change (@List.length A (a :: r)) with x
  | |- context [@List.length ?A []] => change (@List.length A []) with 0
  | |- context [@nth_error ?A (?a :: ?r) ?n] =>
    let x := eval lazy beta iota zeta delta [nth_error] in (@nth_error A (a :: r) n) in
    progress change (@nth_error A (a :: r) n) with x
  end.

(** Conditions that are decided. *)
Ltac bx :=
  match goal with
  | |- context [negb true] => change (negb true) with false
  | |- context [negb false] => change (negb false) with true
  | |- context [(true && ?b)%bool] => change (true && b)%bool with b
  | |- context [(false && ?b)%bool] => change (false && b)%bool with false
  | |- context [(true || ?b)%bool] => change (true || b)%bool with true
  | |- context [(false || ?b)%bool] => change (false || b)%bool with b
  end.
Ltac hx :=
  match goal with
  | H : ?b = true |- context [?b] => rewrite H
  | H : ?b = false |- context [?b] => rewrite H
  end.

(** Equations to be used on the way. *)
Definition fact (P : Prop) : Prop := P.
Ltac ex :=
  match goal with
  | H : fact (_ = _) |- _ => let y := fresh in pose proof H as y; unfold fact in y; rewrite y; clear y
  end.
Ltac note H := let P := type of H in change (fact P) in H.

(** Calls whose outcome has been shown: extended further on. *)
Ltac known := fail.

(** What a value in a call is the image of. *)
Ltac fdef_of v :=
  lazymatch v with
  | RStruct "FieldDefinition" [(_, RStr _ ?a); (_, RStr _ ?b); (_, RStr _ ?c)] => constr:(mkF a b c)
  end.
Ltac tident_of v :=
  lazymatch v with
  | RStruct "TableIdent" [(_, RStr _ ?a); (_, RStr _ ?b)] => constr:(mkT a b)
  end.
Ltac jcond_of v :=
  lazymatch v with
  | RStruct "JoinCondition" [(_, ?a); (_, ?b)] =>
    let x := fdef_of a in let y := fdef_of b in constr:(mkJC x y)
  end.
Ltac joiner_of v :=
  lazymatch v with
  | RStruct "TableJoiner" [(_, ?t); (_, RInt _ ?j); (_, ?c)] =>
    let x := tident_of t in let y := jcond_of c in constr:(mkJ x j y)
  end.
Ltac fvalue_of v :=
  lazymatch v with
  | RStruct "FieldValue" [(_, ?d); (_, of_gval ?g)] => let x := fdef_of d in constr:(mkFV x g)
  end.
Ltac fsort_of v :=
  lazymatch v with
  | RStruct "FieldSorting" [(_, ?d); (_, RStr _ ?g)] => let x := fdef_of d in constr:(mkS x g)
  end.
Ltac limiter_of v :=
  lazymatch v with
  | RStruct "Limiter" [(_, RInt _ (Z.of_N ?a)); (_, RInt _ (Z.of_N ?b))] => constr:(mkL a b)
  end.
Ltac use L :=
  let y := fresh "Use" in pose proof L as y; sx in y; rewrite y; clear y.

(** Evaluation as far as it goes. *)
Ltac calc := sx; repeat (first [zx | lens | mx | known | ex | lx | bx]; sx).

(** One step further. *)
Ltac step :=
  lazymatch goal with
  | |- at_ _ _ (block _ _ _ (_ :: _) _) _ => apply at_cons
  | |- at_ _ _ (block _ _ _ [] _) _ => apply at_nil
  | |- at_ _ _ (exec _ _ _ ?s _) _ =>
    lazymatch s with
    | SIf _ _ _ _ => apply at_if
    | SSwitch None _ _ => apply at_switch
    | SSwitch _ _ _ => eapply at_switch_tag; [solve [calc; reflexivity]|]
    | STypeSwitch _ _ _ _ => eapply at_type_switch; [solve [calc; reflexivity]|]; sx
    | SRange _ _ _ _ => apply at_range
    | SFor _ _ _ _ => apply at_for
    | SBlock _ => apply at_block
    | _ => eapply at_eq; [calc; reflexivity|]
    end
  | |- at_ _ _ (if_branch _ _ _ _ _ _ _ (RBool true)) _ => apply at_then
  | |- at_ _ _ (if_branch _ _ _ _ _ _ _ (RBool false)) _ => apply at_else
  | |- at_ _ _ (cases _ _ _ _ _ [] _) _ => apply at_cases_nil
  | |- at_ _ _ (cases _ _ _ _ _ (_ :: _) _) _ => apply at_cases_cons
  | |- at_ _ _ (case_branch _ _ _ _ _ _ _ _ true) _ => apply at_case
  | |- at_ _ _ (case_branch _ _ _ _ _ _ _ _ false) _ => apply at_next_case
  | |- at_ _ _ (type_cases _ _ _ _ _ [] _) _ => apply at_type_cases_nil
  | |- at_ _ _ (type_cases _ _ _ _ _ (_ :: _) _) _ => apply at_type_cases_cons
  | |- at_ _ _ (type_branch _ _ _ _ _ _ _ _ true) _ => apply at_type_case
  | |- at_ _ _ (type_branch _ _ _ _ _ _ _ _ false) _ => apply at_next_type_case
  | |- at_ _ _ (obind (Done _) _) _ => apply at_done; cbv beta
  | |- at_ _ _ (obind Halt _) _ => apply at_halt
  | |- at_ _ _ (obind _ _) _ => progress (eapply at_bind; [calc; reflexivity|])
  | |- at_ _ (bnd (for_rest _ _ _ _ _ _ _) :: _) (Done (Next _)) _ => apply at_for_next
  | |- at_ _ (_ :: _) (Done _) _ => eapply at_pop; [pop; reflexivity|]
  | |- at_ _ (_ :: _) Halt _ => eapply at_pop; [pop; reflexivity|]
  | |- at_ _ [] (Done (Ret _)) _ => eapply at_ret; [calc; reflexivity|]
  | |- at_ _ [] (Done (RetNames _)) _ => eapply at_ret_names; [calc; reflexivity|]
  | |- at_ _ [] Halt _ => apply at_stop
  | |- at_ _ _ (match _ with _ => _ end) _ => progress (eapply at_eq; [calc; reflexivity|])
  end
with pop :=
  lazy beta iota zeta delta [bnd rbind after if_cond oleave lleave leave cut same_length switched unbrk for_rest].

(** Something that is not decided: all ways. *)
Ltac on_atom b :=
  lazymatch b with
  | negb ?c => on_atom c
  | (?c && ?d)%bool => on_atom c
  | (?c || ?d)%bool => on_atom c
  | _ => match goal with
         | H : b = true |- _ => rewrite H
         | H : b = false |- _ => rewrite H
         | _ => destruct b eqn:?
         end
  end.
Ltac split_in X :=
  match X with
  | context [if ?b then _ else _] => on_atom b
  | context [RBool ?b] => lazymatch b with true => fail | false => fail | _ => on_atom b end
  | context [match ?r with Ok _ => _ | Panic => _ end] => destruct r eqn:?
  end.
Ltac split_at :=
  match goal with
  | |- at_ _ _ (if_branch _ _ _ _ _ _ _ (RBool ?b)) _ => on_atom b
  | |- at_ _ _ (case_branch _ _ _ _ _ _ _ _ ?b) _ => on_atom b
  | |- at_ _ _ (type_branch _ _ _ _ _ _ _ _ ?b) _ => on_atom b
  | |- at_ _ _ (obind ?X _) _ => split_in X
  | |- at_ _ _ ?X _ => split_in X
  end.
Ltac walk := repeat (first [step | bx | split_at]).

(** Into the body of a function. *)
Ltac enter :=
  open;
  rewrite run_eq;
  match goal with
  | |- context [assoc ?f pkg_funcs] =>
    let r := eval vm_compute in (assoc f pkg_funcs) in
    change (assoc f pkg_funcs) with r
  end;
  cbv match; eapply at_apply; [sx; reflexivity|]; sx.
