(** The same code with Go slices: headers pointing into shared, growable arrays.
    Cond.v and Build.v read slices as lists; here append, element assignment, make and
    copy act on a heap of backing arrays, so that sharing between builders is visible. *)
From Coq Require Import String Ascii List Bool Arith NArith ZArith.
From Verif Require Import GoStr Value Names Cond Build.
Import ListNotations.
Local Open Scope string_scope.
Local Open Scope nat_scope.

(** * Slices *)

(** A slice header.  No slice expression s[i:j] occurs in the package (no code in /repo
    re-slices) and slices of the caller are always copied (group.go:144 appends to the
    group's own array, logical.go:32 and fields.go:31 make new ones), so every header
    starts at index 0 of its array and its capacity is the length of the array. *)
Record slice := mkSl { sl_arr : nat; sl_len : nat }.

(** A backing array.  [a_used] and [st_stale] are ghosts, read by no operation:
    [a_used] is the length of the longest slice that was ever made of this array, and
    [st_stale] records that an append wrote below it (over elements of another slice). *)
Record arr (A : Type) := mkA { a_cells : list A; a_used : nat }.
Arguments mkA {A}. Arguments a_cells {A}. Arguments a_used {A}.
Record store (A : Type) := mkSt { st_arrs : list (arr A); st_stale : bool }.
Arguments mkSt {A}. Arguments st_arrs {A}. Arguments st_stale {A}.

Definition empty_store {A} : store A := mkSt [] false.
Definition set_nth {A} (n : nat) (x : A) (l : list A) : list A := (firstn n l ++ x :: skipn (S n) l)%list.
Definition write_at {A} (n : nat) (xs l : list A) : list A := (firstn n l ++ xs ++ skipn (n + length xs) l)%list.
Definition the_arr {A} (st : store A) (s : slice) : arr A := nth (sl_arr s) (st_arrs st) (mkA [] 0).
Definition read {A} (st : store A) (s : slice) : list A := firstn (sl_len s) (a_cells (the_arr st s)).

(** make or a composite literal: a new array of [xs] with [extra] spare (zero) cells *)
Definition alloc {A} (d : A) (st : store A) (xs : list A) (extra : nat) : slice * store A :=
  (mkSl (length (st_arrs st)) (length xs),
   mkSt (st_arrs st ++ [mkA (xs ++ repeat d extra) (length xs)])%list (st_stale st)).

(** append(s, xs...): in place if the capacity suffices, otherwise into a new array whose
    spare capacity is chosen by the growth policy (which may depend on anything; it gets
    the number of the new array, the old capacity and the needed length). *)
Definition policy := nat -> nat -> nat -> nat.
Definition append {A} (d : A) (pol : policy) (st : store A) (s : slice) (xs : list A) : slice * store A :=
  let a := the_arr st s in
  let cap := length (a_cells a) in
  let need := sl_len s + length xs in
  if need <=? cap then
    (mkSl (sl_arr s) need,
     mkSt (set_nth (sl_arr s) (mkA (write_at (sl_len s) xs (a_cells a)) (Nat.max (a_used a) need)) (st_arrs st))
          (st_stale st || ((sl_len s <? a_used a) && (0 <? length xs))))
  else alloc d st (read st s ++ xs)%list (pol (length (st_arrs st)) cap need).

(** s[i] = x *)
Definition assign {A} (st : store A) (s : slice) (i : nat) (x : A) : store A :=
  let a := the_arr st s in
  mkSt (set_nth (sl_arr s) (mkA (set_nth i x (a_cells a)) (a_used a)) (st_arrs st)) (st_stale st).

(** The growth policy of the Go runtime (runtime/slice.go growslice) for arrays of up to
    16 conditions (16 bytes each), 12 field values or sortings (64 bytes each) and 4 joins
    (136 bytes each), where the allocator's size classes add no further element: double
    the capacity, or what is needed.
    Used only for counterexamples; the theorems quantify over policies. *)
Definition go_growth : policy := fun _ cap need => Nat.max need (2 * cap) - need.

(** * Conditions *)

(** A Condition interface value; a Group (group.go:4-8) holds a slice header *)
Inductive hcond :=
| HNil
| HLeaf (l : leaf)
| HGrp (j : string) (n : bool) (s : slice) (br : bool).
Record hgroup := mkHG { hg_join : string; hg_neg : bool; hg_sl : slice; hg_br : bool }.
Definition of_hg (g : hgroup) : hcond := HGrp (hg_join g) (hg_neg g) (hg_sl g) (hg_br g).
Definition as_hgroup (c : hcond) : option hgroup :=
  match c with HGrp j n s br => Some (mkHG j n s br) | _ => None end.

(** Computations on a store; a panic keeps the store *)
Definition M (A X : Type) := store A -> res X * store A.
Definition ret {A X} (x : X) : M A X := fun st => (Ok x, st).
Definition mbind {A X Y} (m : M A X) (k : X -> M A Y) : M A Y :=
  fun st => match m st with (Ok x, st') => k x st' | (Panic, st') => (Panic, st') end.
Definition lift {A X} (r : res X) : M A X := fun st => (r, st).
Definition m_read {A} (s : slice) : M A (list A) := fun st => (Ok (read st s), st).
Definition m_alloc {A} (d : A) (xs : list A) : M A slice := fun st => let '(s, st') := alloc d st xs 0 in (Ok s, st').
Definition m_append {A} (d : A) (pol : policy) (s : slice) (xs : list A) : M A slice :=
  fun st => let '(s', st') := append d pol st s xs in (Ok s', st').
Notation "'run' x <- e ; f" := (mbind e (fun x => f)) (at level 60, x name, e at level 200, f at level 200, right associativity).

(** base.go:24-26, group.go:17-20, group.go:23-26 as in Cond.v *)
Definition h_jtype (c : hcond) : res string :=
  match c with HNil => Panic | HLeaf l => Ok (l_join l) | HGrp j _ _ _ => Ok j end.
Definition h_cjoin (j : string) (c : hcond) : res hcond :=
  match c with
  | HNil => Panic
  | HLeaf l => Ok (HLeaf {| l_kind := l_kind l; l_join := j; l_neg := l_neg l; l_def := l_def l; l_val := l_val l |})
  | HGrp _ n s br => Ok (HGrp j n s br)
  end.
Definition h_negate (b : bool) (c : hcond) : res hcond :=
  match c with
  | HNil => Panic
  | HLeaf l => Ok (HLeaf {| l_kind := l_kind l; l_join := l_join l; l_neg := b; l_def := l_def l; l_val := l_val l |})
  | HGrp j _ s br => Ok (HGrp j b s br)
  end.
Definition hg_brackets (g : hgroup) : hgroup := mkHG (hg_join g) (hg_neg g) (hg_sl g) true.
Definition hg_set_join (g : hgroup) (j : string) : hgroup := mkHG j (hg_neg g) (hg_sl g) (hg_br g).
Definition hg_set_sl (g : hgroup) (s : slice) : hgroup := mkHG (hg_join g) (hg_neg g) s (hg_br g).

(** group.go:164-190 hasAll, hasOne *)
Fixpoint h_all_join (j : string) (cs : list hcond) : res bool :=
  match cs with [] => Ok true | c :: r => do t <- h_jtype c; if str_eqb t j then h_all_join j r else Ok false end.
Definition h_has_all (cs : list hcond) (j : string) : res bool :=
  match cs with [] => Ok true | _ :: r => h_all_join j r end.
Fixpoint h_one_join (j : string) (cs : list hcond) : res bool :=
  match cs with [] => Ok false | c :: r => do t <- h_jtype c; if str_eqb t j then Ok true else h_one_join j r end.
Definition h_has_one (cs : list hcond) (j : string) : res bool :=
  match cs with [] => Ok false | _ :: r => h_one_join j r end.

Section Ops.
  Variable pol : policy.
  Definition app_to (g : hgroup) (xs : list hcond) : M hcond hgroup :=
    run s <- m_append HNil pol (hg_sl g) xs; ret (hg_set_sl g s).
  (** append([]Condition{x}, xs...) *)
  Definition app_new (g : hgroup) (x : hcond) (xs : list hcond) : M hcond hgroup :=
    run s0 <- m_alloc HNil [x]; run s <- m_append HNil pol s0 xs; ret (hg_set_sl g s).
  (** []Condition{xs...} *)
  Definition put_new (g : hgroup) (xs : list hcond) : M hcond hgroup :=
    run s <- m_alloc HNil xs; ret (hg_set_sl g s).

  (** group.go:35-44 NewGroup, logical.go:31-38 SetToAll: make of the exact length *)
  Definition h_new_group (j : string) (cs : list hcond) : M hcond hgroup :=
    run cs' <- lift (mapM (h_cjoin j) cs);
    run s <- m_alloc HNil cs';
    ret (mkHG AND false s false).

  (** logical.go:21-28 Join *)
  Definition h_jt_join (j : string) (cs : list hcond) : M hcond hcond :=
    match cs with
    | [] => lift Panic
    | [c] => lift (h_cjoin j c)
    | _ => run g <- h_new_group j cs; ret (of_hg g)
    end.

  (** group.go:48-101 addGroup *)
  Definition h_add_group (g another : hgroup) : M hcond hgroup :=
    run cs <- m_read (hg_sl g);
    run acs <- m_read (hg_sl another);
    let haveNone := length cs =? 0 in
    let haveSingle := length cs =? 1 in
    run havingOnlyAND <- lift (h_has_all cs AND);
    run havingOnlyOR <- lift (h_has_all cs OR);
    run havingAnyAND <- lift (h_has_one cs AND);
    run havingAnyOR <- lift (h_has_one cs OR);
    run addingOnlyAnd <- lift (h_has_all acs AND);
    run addingAnyAnd <- lift (h_has_one acs AND);
    run addingOnlyOR <- lift (h_has_all acs OR);
    run addingAnyOR <- lift (h_has_one acs OR);
    let op := hg_join another in
    let opAnd := str_eqb op AND in
    let opOr := str_eqb op OR in
    if haveNone then                                                           (* 65-67 *)
      ret (hg_set_join (hg_set_sl g (hg_sl another)) op)
    else if haveSingle && opAnd && addingOnlyAnd then app_to g acs             (* 70-71 *)
    else if haveSingle && opOr && addingOnlyOR then app_to g acs               (* 72-73 *)
    else if haveSingle then                                                    (* 74-75 *)
      run c <- lift (h_cjoin op (of_hg (hg_brackets another))); app_to g [c]
    else if havingOnlyOR && opOr && addingOnlyOR then app_to g acs             (* 78-79 *)
    else if havingOnlyOR && opOr && addingAnyAnd then                          (* 80-81 *)
      app_to g [of_hg (hg_brackets another)]
    else if havingAnyOR && opAnd && addingAnyAnd then                          (* 82-83 *)
      app_new g (of_hg (hg_brackets g)) acs
    else if havingOnlyAND && opAnd && addingOnlyAnd then app_to g acs          (* 86-87 *)
    else if havingOnlyAND && opAnd && addingAnyOR then                         (* 89-90 *)
      app_to g [of_hg (hg_brackets another)]
    else if havingAnyAND && opOr && addingOnlyOR then                          (* 93-94 *)
      app_new g (of_hg (hg_brackets g)) acs
    else                                                                       (* 96-97 *)
      run c <- lift (h_cjoin op (of_hg (hg_brackets another)));
      put_new g [of_hg (hg_brackets g); c].

  (** group.go:105-131 addSingleCondition *)
  Definition h_add_single (g : hgroup) (c : hcond) : M hcond hgroup :=
    run cs <- m_read (hg_sl g);
    let haveNone := length cs =? 0 in
    let haveSingle := length cs =? 1 in
    let haveMany := 1 <? length cs in
    run havingOnlyAND <- lift (h_has_all cs AND);
    run havingOnlyOR <- lift (h_has_all cs OR);
    run op <- lift (h_jtype c);
    match as_hgroup c with
    | Some groupToAdd => h_add_group g groupToAdd                              (* 115-116 *)
    | None =>
        if haveNone then                                                       (* 117-119 *)
          run g' <- app_to g [c]; ret (hg_set_join g' op)
        else if haveSingle then                                                (* 120-121 *)
          run c' <- lift (h_cjoin op c); app_to g [c']
        else if haveMany && str_eqb op AND && havingOnlyAND then               (* 122-123 *)
          run c' <- lift (h_cjoin op c); app_to g [c']
        else if haveMany && str_eqb op OR && havingOnlyOR then                 (* 124-125 *)
          run c' <- lift (h_cjoin op c); app_to g [c']
        else                                                                   (* 126-127 *)
          run c' <- lift (h_cjoin op c); put_new g [of_hg (hg_brackets g); c']
    end.

  (** group.go:135-160 addConditions *)
  Definition h_add_conditions (op : string) (g : hgroup) (adds : list hcond) : M hcond hgroup :=
    run cs <- m_read (hg_sl g);
    run havingAnyAND <- lift (h_has_one cs AND);
    run havingAnyOR <- lift (h_has_one cs OR);
    match adds with
    | [] => ret g                                                              (* 141-142 *)
    | c0 :: rest =>
        match cs with
        | [] => run g' <- app_to g adds; ret (hg_set_join g' op)               (* 143-145 *)
        | _ =>
            match rest with
            | [] => run c <- lift (h_cjoin op c0); h_add_single g c            (* 146-147 *)
            | _ =>
                if havingAnyOR && str_eqb op AND then                          (* 148-149 *)
                  app_new g (of_hg (hg_brackets g)) adds
                else if havingAnyAND && str_eqb op OR then                     (* 150-151 *)
                  run ng <- h_new_group op adds;
                  run c <- lift (h_cjoin op (of_hg ng));
                  app_to g [c]
                else                                                           (* 152-156 *)
                  run ng <- h_new_group AND adds;
                  app_new g (of_hg (hg_brackets g)) [of_hg (hg_brackets ng)]
            end
        end
    end.
  Definition h_group_and := h_add_conditions AND.
  Definition h_group_or := h_add_conditions OR.

  (** operations.go:4-6, 10-25, 29-44 *)
  Definition h_not (c : hcond) : M hcond hcond := lift (h_negate true c).
  Definition h_start (j : string) (c : hcond) : M hcond hgroup :=
    match as_hgroup c with Some g => ret g | None => h_new_group j [c] end.
  Definition h_and (c : hcond) (adds : list hcond) : M hcond hcond :=
    match adds with
    | [] => h_jt_join AND [c]
    | _ => run g <- h_start AND c; run r <- h_group_and g adds; ret (of_hg r)
    end.
  Definition h_or (c : hcond) (adds : list hcond) : M hcond hcond :=
    match adds with
    | [] => h_jt_join OR [c]
    | _ => run g <- h_start OR c; run r <- h_group_or g adds; h_jt_join OR [of_hg r]
    end.

  (** the methods And and Or (see m_and, m_or in Cond.v) *)
  Definition h_m_and (c : hcond) (cs : list hcond) : M hcond hcond :=
    match c with
    | HNil => lift Panic
    | HLeaf l =>
        match l_kind l with
        | KLike | KILike | KNull => run g <- h_new_group AND [c]; run r <- h_group_and g cs; ret (of_hg r)
        | _ => h_and c cs
        end
    | HGrp j n s br => run r <- h_group_and (mkHG j n s br) cs; ret (of_hg r)
    end.
  Definition h_m_or (c : hcond) (cs : list hcond) : M hcond hcond :=
    match c with
    | HNil => lift Panic
    | HLeaf l =>
        match l_kind l with
        | KLike | KILike => run g <- h_new_group OR [c]; run r <- h_group_or g cs; ret (of_hg r)
        | KNull =>
            run g0 <- h_new_group AND [HNil];
            run g1 <- h_group_and g0 [c];
            run r <- h_group_or g1 cs; ret (of_hg r)
        | _ => h_or c cs
        end
    | HGrp j n s br => run r <- h_group_or (mkHG j n s br) cs; ret (of_hg r)
    end.
End Ops.

(** * Rendering *)

(** group.go:297-305 Values, 230-261 Render; recursion on fuel because a heap may be
    cyclic: [None] means that the calls are still nested deeper than [fuel]. *)
Fixpoint h_values (fuel : nat) (st : store hcond) (c : hcond) : option (res (list gval)) :=
  match fuel with
  | 0 => None
  | S f =>
      match c with
      | HNil => Some Panic
      | HLeaf l => Some (leaf_values l)
      | HGrp _ _ s _ =>
          (fix go (cs : list hcond) : option (res (list gval)) :=
             match cs with
             | [] => Some (Ok [])
             | c :: r =>
                 match h_values f st c with
                 | Some (Ok vs) =>
                     match go r with
                     | Some (Ok ws) => Some (Ok (vs ++ ws)%list)
                     | x => x
                     end
                 | x => x
                 end
             end) (read st s)
      end
  end.
Fixpoint h_render (fuel : nat) (st : store hcond) (c : hcond) (n : nat) : option (res string) :=
  match fuel with
  | 0 => None
  | S f =>
      match c with
      | HNil => Some Panic
      | HLeaf l => Some (leaf_render l n)
      | HGrp _ ng s br =>
          match read st s with
          | [] => Some (Ok "")
          | _ =>
              match (fix go (first : bool) (cs : list hcond) (n : nat) : option (res string) :=
                       match cs with
                       | [] => Some (Ok "")
                       | c :: r =>
                           match h_jtype c, h_render f st c n, h_values f st c with
                           | Panic, _, _ => Some Panic
                           | _, Some Panic, _ => Some Panic
                           | _, None, _ => None
                           | _, _, None => None
                           | _, _, Some Panic => Some Panic
                           | Ok j, Some (Ok sql), Some (Ok vs) =>
                               match go false r (n + length vs) with
                               | Some (Ok rest) => Some (Ok (join_token first j ++ sql ++ rest))
                               | x => x
                               end
                           end
                       end) true (read st s) n with
              | Some (Ok sql) => Some (Ok (wrap ng br (1 <? length (read st s)) sql))
              | x => x
              end
          end
      end
  end.

(** * ApplyFieldTable and ApplyFieldSpec *)

(** group.go:309-325: the loop assigns the elements of the shared slice; lib_*.go return
    copies.  [f] is the change of a leaf's field definition. *)
Fixpoint h_apply (fuel : nat) (f : fdef -> fdef) (c : hcond) : store hcond -> option (res hcond * store hcond) :=
  match fuel with
  | 0 => fun _ => None
  | S k => fun st =>
      match c with
      | HNil => Some (Panic, st)
      | HLeaf l => Some (Ok (HLeaf {| l_kind := l_kind l; l_join := l_join l; l_neg := l_neg l; l_def := f (l_def l); l_val := l_val l |}), st)
      | HGrp j n s br =>
          (fix loop (todo i : nat) (st : store hcond) : option (res hcond * store hcond) :=
             match todo with
             | 0 => Some (Ok c, st)
             | S t =>
                 match h_apply k f (nth i (read st s) HNil) st with
                 | Some (Ok c', st') => loop t (S i) (assign st' s i c')
                 | Some (Panic, st') => Some (Panic, st')
                 | None => None
                 end
             end) (sl_len s) 0 st
      end
  end.

(** * Builders *)

Record hbsel := mkHB { hb_op : Z; hb_table : tident; hb_joins : slice; hb_fields : slice; hb_where : hgroup }.
Record hmsel := mkHM { hm_base : hbsel; hm_offset : N; hm_limit : Z; hm_order : slice }.
Record hssel := mkHSS { hss_base : hbsel }.
Record hcsel := mkHCS { hcs_base : hbsel; hcs_field : fdef }.
Record hins := mkHI { hi_op : Z; hi_table : string; hi_values : slice }.
Record hupd := mkHU { hu_op : Z; hu_table : string; hu_where : hgroup; hu_values : slice }.
Record hdel := mkHD { hd_op : Z; hd_table : string; hd_where : hgroup }.

(** one store per element type *)
Record heap := mkH { hC : store hcond; hO : store fsort; hJ : store joiner; hV : store fvalue; hF : store fdef }.
Definition empty_heap : heap := mkH empty_store empty_store empty_store empty_store empty_store.
Definition stale (h : heap) : bool := st_stale (hC h) || st_stale (hO h) || st_stale (hJ h) || st_stale (hV h) || st_stale (hF h).

Definition HM (X : Type) := heap -> res X * heap.
Definition hret {X} (x : X) : HM X := fun h => (Ok x, h).
Definition hbind {X Y} (m : HM X) (k : X -> HM Y) : HM Y :=
  fun h => match m h with (Ok x, h') => k x h' | (Panic, h') => (Panic, h') end.
Definition hlift {X} (r : res X) : HM X := fun h => (r, h).
Definition onC {X} (m : M hcond X) : HM X := fun h => let '(r, st) := m (hC h) in (r, mkH st (hO h) (hJ h) (hV h) (hF h)).
Definition onO {X} (m : M fsort X) : HM X := fun h => let '(r, st) := m (hO h) in (r, mkH (hC h) st (hJ h) (hV h) (hF h)).
Definition onJ {X} (m : M joiner X) : HM X := fun h => let '(r, st) := m (hJ h) in (r, mkH (hC h) (hO h) st (hV h) (hF h)).
Definition onV {X} (m : M fvalue X) : HM X := fun h => let '(r, st) := m (hV h) in (r, mkH (hC h) (hO h) (hJ h) st (hF h)).
Definition onF {X} (m : M fdef X) : HM X := fun h => let '(r, st) := m (hF h) in (r, mkH (hC h) (hO h) (hJ h) (hV h) st).
Notation "'act' x <- e ; f" := (hbind e (fun x => f)) (at level 60, x name, e at level 200, f at level 200, right associativity).

(** zero values of the element types *)
Definition zf : fdef := mkF "" "" "".
Definition zs : fsort := mkS zf "".
Definition zj : joiner := {| j_right := mkT "" ""; j_type := 0%Z; j_cond := zero_jcond |}.
Definition zv : fvalue := mkFV zf VNil.

Definition hb_set_where (b : hbsel) (g : hgroup) : hbsel := mkHB (hb_op b) (hb_table b) (hb_joins b) (hb_fields b) g.
Definition hb_set_joins (b : hbsel) (s : slice) : hbsel := mkHB (hb_op b) (hb_table b) s (hb_fields b) (hb_where b).
Definition hb_set_fields (b : hbsel) (s : slice) : hbsel := mkHB (hb_op b) (hb_table b) (hb_joins b) s (hb_where b).
Definition hm_set_base (m : hmsel) (b : hbsel) : hmsel := mkHM b (hm_offset m) (hm_limit m) (hm_order m).

Section Builders.
  Variable pol : policy.

  (** select_base.go:246-267; NewWhere (where.go:79-81), NewFields() (fields.go:63-82) *)
  Definition h_select_from (p : tparam) : HM hbsel :=
    act t <- hlift (match p with TPStr s => table s | TPName s => table s | TPIdent t => Ok t end);
    act js <- onJ (m_alloc zj []);
    act g <- onC (h_new_group AND []);
    act fs <- onF (m_alloc zf []);
    hret (mkHB DoSelect t js fs g).
  (** the zero builder: nil slices, empty JoinType *)
  Definition h_zero_bsel : HM hbsel :=
    act js <- onJ (m_alloc zj []);
    act s <- onC (m_alloc HNil []);
    act fs <- onF (m_alloc zf []);
    hret (mkHB DoSelect (mkT "" "") js fs (mkHG "" false s false)).
  (** fields.go:29-37: make and copy *)
  Definition h_set_fields (b : hbsel) (fs : list fdef) : HM hbsel :=
    act s <- onF (m_alloc zf fs); hret (hb_set_fields b s).
  (** select_base.go:131-136 *)
  Definition h_add_where (b : hbsel) (cs : list hcond) : HM hbsel :=
    act g <- onC (h_group_and pol (hb_where b) cs); hret (hb_set_where b g).
  (** select_base.go:188-192, select_many.go:135-139, select_single.go:55-59 *)
  Definition h_join_open (b : hbsel) (t : tident) (jt : Z) : HM hbsel :=
    act s <- onJ (m_append zj pol (hb_joins b) [{| j_right := t; j_type := jt; j_cond := zero_jcond |}]);
    hret (hb_set_joins b s).
  (** join_unfinished.go:12-18: the last element of the shared slice is assigned *)
  Definition h_on (b : hbsel) (l r : fdef) : HM hbsel := fun h =>
    match sl_len (hb_joins b) with
    | 0 => (Panic, h)
    | S i => (Ok b, mkH (hC h) (hO h) (assign (hJ h) (hb_joins b) i (j_by (nth i (read (hJ h) (hb_joins b)) zj) l r)) (hV h) (hF h))
    end.
  Definition h_join (b : hbsel) (t : tident) (jt : Z) (l r : fdef) : HM hbsel :=
    act b' <- h_join_open b t jt; h_on b' l r.

  (** select_many.go *)
  Definition h_many_of (b : hbsel) : HM hmsel :=                               (* 186-194 *)
    act s <- onO (m_alloc zs []); hret (mkHM b 0%N (-1)%Z s).
  Definition h_add_order (m : hmsel) (os : list fsort) : HM hmsel :=           (* 106-109 *)
    act s <- onO (m_append zs pol (hm_order m) os); hret (mkHM (hm_base m) (hm_offset m) (hm_limit m) s).

  (** insert.go:75-95, 28-31 *)
  Definition h_insert_into (p : tparam) : HM hins :=
    act s <- onV (m_alloc zv []); hret (mkHI DoInsert (raw_table_name p) s).
  Definition h_i_add (i : hins) (vs : list fvalue) : HM hins :=
    act s <- onV (m_append zv pol (hi_values i) vs); hret (mkHI (hi_op i) (hi_table i) s).
  (** update.go:90-111, 29-38 *)
  Definition h_update_ (p : tparam) : HM hupd :=
    act g <- onC (h_new_group AND []); act s <- onV (m_alloc zv []);
    hret (mkHU DoUpdate (raw_table_name p) g s).
  Definition h_u_add (u : hupd) (vs : list fvalue) : HM hupd :=
    act s <- onV (m_append zv pol (hu_values u) vs); hret (mkHU (hu_op u) (hu_table u) (hu_where u) s).
  Definition h_u_where (u : hupd) (cs : list hcond) : HM hupd :=
    act g <- onC (h_group_and pol (hu_where u) cs); hret (mkHU (hu_op u) (hu_table u) g (hu_values u)).
  (** delete.go:58-78, 21-24 *)
  Definition h_delete_ (p : tparam) : HM hdel :=
    act g <- onC (h_new_group AND []); hret (mkHD DoDelete (raw_table_name p) g).
  Definition h_d_where (d : hdel) (cs : list hcond) : HM hdel :=
    act g <- onC (h_group_and pol (hd_where d) cs); hret (mkHD (hd_op d) (hd_table d) g).

  (** accessors: where.go:39-44 Conditions and fields.go:40-45 FieldDefinitions copy;
      insert.go:22-24 and update.go:23-25 SetValues return the internal slice *)
  Definition h_conditions (g : hgroup) : M hcond slice := run cs <- m_read (hg_sl g); m_alloc HNil cs.
  Definition h_field_definitions (b : hbsel) : M fdef slice := run fs <- m_read (hb_fields b); m_alloc zf fs.
  Definition h_i_set_values (i : hins) : slice := hi_values i.
  Definition h_u_set_values (u : hupd) : slice := hu_values u.

  (** select_base.go:147-155, select_many.go:120-128, select_single.go:46-48: the
      conditions are passed as a copy *)
  Definition h_to_update (p : tparam) (b : hbsel) (vs : list fvalue) : HM hupd :=
    act u <- h_update_ p;
    act s <- onC (h_conditions (hb_where b));
    act cs <- onC (m_read s);
    act u' <- h_u_where u cs;
    h_u_add u' vs.
  Definition h_to_delete (p : tparam) (b : hbsel) : HM hdel :=
    act d <- h_delete_ p;
    act s <- onC (h_conditions (hb_where b));
    act cs <- onC (m_read s);
    h_d_where d cs.
  Definition h_to_insert (b : hbsel) (vs : list fvalue) : HM hins :=
    act i <- h_insert_into (TPIdent (hb_table b)); h_i_add i vs.
End Builders.

(** * Building statements from the heap *)

(** select_base.go:102-105, count.go:30-33, update.go:74-77, delete.go:41-44: text and
    values of a condition, [None] as for h_render *)
Definition h_clause (fuel : nat) (h : heap) (g : hgroup) (n : nat) : option (res (string * list gval)) :=
  match h_render fuel (hC h) (of_hg g) n, h_values fuel (hC h) (of_hg g) with
  | None, _ => None
  | Some Panic, _ => Some Panic
  | Some (Ok _), None => None
  | Some (Ok _), Some Panic => Some Panic
  | Some (Ok w), Some (Ok vs) => Some (Ok (w, vs))
  end.
(** [k] applied to the clause *)
Definition with_clause (c : option (res (string * list gval))) (k : string -> list gval -> out) : option (res out) :=
  match c with
  | None => None
  | Some Panic => Some Panic
  | Some (Ok (w, vs)) => Some (Ok (k w vs))
  end.
(** the plain fields of the builder *)
Definition flat (h : heap) (b : hbsel) : bsel :=
  mkB (hb_op b) (hb_table b) (read (hJ h) (hb_joins b)) (read (hF h) (hb_fields b)) empty_group.
(** select_base.go:90-109 *)
Definition h_b_build (fuel : nat) (h : heap) (b : hbsel) : option (res out) :=
  let toks := b_tokens (flat h b) in
  if sl_len (hg_sl (hb_where b)) =? 0 then Some (Ok (ok (join " " toks) []))
  else with_clause (h_clause fuel h (hb_where b) 0) (fun w vs => ok (join " " (toks ++ ["WHERE"; w])%list) vs).
(** select_many.go:30-51, the part after the base query *)
Definition m_tail (order : list fsort) (offset : N) (limit : Z) (r : out) : out :=
  let sql := o_sql r ++ order_clause order in
  let params := o_params r in
  let '(sql, params) :=
    if (0 <? offset)%N
    then let params := (params ++ [VUint offset])%list in
         (sql ++ " OFFSET $" ++ itoa (length params), params)
    else (sql, params) in
  let '(sql, params) :=
    if (0 <? limit)%Z
    then let params := (params ++ [VUint (Z.to_N limit)])%list in
         (sql ++ " LIMIT $" ++ itoa (length params), params)
    else (sql, params) in
  ok sql params.
Definition omap {A B} (f : A -> B) (x : option (res A)) : option (res B) :=
  match x with Some (Ok a) => Some (Ok (f a)) | Some Panic => Some Panic | None => None end.
(** select_many.go:27-52, select_single.go:15-18, count.go:22-36 *)
Definition h_m_build (fuel : nat) (h : heap) (m : hmsel) : option (res out) :=
  omap (m_tail (read (hO h) (hm_order m)) (hm_offset m) (hm_limit m)) (h_b_build fuel h (hm_base m)).
Definition h_ss_build (fuel : nat) (h : heap) (s : hssel) : option (res out) :=
  omap (fun r => ok (o_sql r ++ " LIMIT 1") (o_params r)) (h_b_build fuel h (hss_base s)).
Definition h_cs_build (fuel : nat) (h : heap) (c : hcsel) : option (res out) :=
  let b := hcs_base c in
  let toks := [op_string DoSelect; "COUNT" ++ "(" ++ render_field (hcs_field c) ++ ")"; "FROM"; b_render_from (flat h b)] in
  if sl_len (hg_sl (hb_where b)) =? 0 then Some (Ok (ok (join " " toks) []))
  else with_clause (h_clause fuel h (hb_where b) 0) (fun w vs => ok (join " " (toks ++ ["WHERE"; w])%list) vs).
(** insert.go:36-65 *)
Definition h_i_build (h : heap) (i : hins) : res out := i_build (mkI (hi_op i) (hi_table i) (read (hV h) (hi_values i))).
(** update.go:54-80, delete.go:28-48 *)
Definition h_u_build (fuel : nat) (h : heap) (u : hupd) : option (res out) :=
  let vs := read (hV h) (hu_values u) in
  if sl_len (hg_sl (hu_where u)) =? 0 then Some (Ok (fail ENoConditions))
  else if negb (nonempty vs) then Some (Ok (fail ENoValues))
  else if is_empty (hu_table u) then Some (Ok (fail ENoTable))
  else match fields_and_values vs with
       | Panic => Some Panic
       | Ok (sets, params) =>
           with_clause (h_clause fuel h (hu_where u) (length params))
             (fun w ws => ok (join " " ["UPDATE"; hu_table u; "SET"; sets; "WHERE"; w]) (params ++ ws)%list)
       end.
Definition h_d_build (fuel : nat) (h : heap) (d : hdel) : option (res out) :=
  if sl_len (hg_sl (hd_where d)) =? 0 then Some (Ok (fail ENoConditions))
  else if is_empty (hd_table d) then Some (Ok (fail ENoTable))
  else with_clause (h_clause fuel h (hd_where d) 0) (fun w vs => ok (join " " ["DELETE"; "FROM"; hd_table d; "WHERE"; w]) vs).
