(** Property theorems about sharing of slices between builders. *)
From Coq Require Import String Ascii List Bool Arith Lia NArith ZArith.
From Verif Require Import GoStr Value Names Cond Build Heap HeapFacts HeapOps HeapBuild HeapRun HeapLinear HeapWf HeapFrame HeapApply HeapShare.
Import ListNotations.
Local Open Scope string_scope.
Local Open Scope nat_scope.

(** A history is a list of calls ([op], HeapRun.v) run from the empty memory under an
    arbitrary policy for the spare capacity that append leaves; [hsays v h fuel] is what
    building or rendering [v] in the memory [h] gives, [None] if that needs a call stack
    deeper than [fuel]. *)
Definition lf (f : string) (k : nat) : op := OLeaf (mkLeaf KEq AND false (mkF f "" "") (VOther k)).
Definition said (pol : policy) (ops : list op) (x : nat) (fuel : nat) : option (res out) :=
  let '(env, h) := hrun pol ops [] empty_heap in match look env x with Ok v => hsays v h fuel | Panic => None end.
(** what the value of call [x] says after a longer history *)
Definition text (r : option (res out)) : option string := match r with Some (Ok o) => Some (o_sql o) | _ => None end.

(** * C37 a call does not change its receiver *)

Theorem C37_receiver_kept : forall pol ops o x v, let '(env, h) := hrun pol ops [] empty_heap in
  In x (receivers o) -> look env x = Ok v -> (exists fuel out, hsays v h fuel = Some (Ok out)) ->
  forall fuel, hsays v (snd (hstep pol env o h)) fuel = hsays v h fuel.
Proof. exact receiver_kept. Qed.
Print Assumptions C37_receiver_kept.
(** even in a memory where something was overwritten before: 6 is the original, 7 and 8
    were derived from it and share their storage *)
Definition forked : list op := [lf "a" 1; lf "b" 2; lf "c" 3; lf "d" 4; lf "e" 5; OGroup AND [0; 1]; OMAnd 5 [2]; OMAnd 6 [3]; OMAnd 6 [4]].
Example C37_example : stale (snd (hrun go_growth forked [] empty_heap)) = true /\ In 6 (receivers (OMOr 6 [3; 4])) /\
  text (said go_growth forked 6 9) = Some "a=$1 AND b=$2 AND c=$3" /\
  text (said go_growth (forked ++ [OMOr 6 [3; 4]]) 6 9) = Some "a=$1 AND b=$2 AND c=$3".
Proof. split; [vm_compute; reflexivity|]. split; [left; reflexivity|]. split; vm_compute; reflexivity. Qed.

(** The receiver of any number of calls in a row. *)
Theorem C37_all_calls : forall pol ops x v calls, let '(env, h) := hrun pol ops [] empty_heap in
  Forall (fun o => In x (receivers o)) calls -> look env x = Ok v -> (exists fuel out, hsays v h fuel = Some (Ok out)) ->
  forall fuel, hsays v (snd (hrun pol calls env h)) fuel = hsays v h fuel.
Proof.
  intros pol ops x v calls. pose proof (reach_good pol ops) as G. destruct (hrun pol ops [] empty_heap) as [env h]. cbn [fst snd] in G. destruct G as [W F].
  intros C. revert env h W F. induction C as [|o calls I C IH]; intros env h W F E S fuel; [reflexivity|]. cbn [hrun].
  destruct (step_good pol h env o W F) as (W' & M' & O').
  pose proof (says_framed v h (snd (hstep pol env o h)) W (okR_look _ _ _ _ F E) (step_frames pol env o x v I E h) S) as Q.
  destruct (hstep pol env o h) as [r h'] eqn:Eh. cbn [fst snd] in *. rewrite <- Q. apply IH; auto.
  - apply Forall_app. split; [revert F; apply Forall_impl; intros [u|]; cbn; [now apply okV_mono|auto]|]. constructor; [|constructor]. destruct r; exact O'.
  - unfold look in *. rewrite app_nth1; [exact E|]. destruct (Nat.lt_ge_cases x (length env)) as [L|L]; [exact L|]. rewrite nth_overflow in E by exact L. discriminate.
  - destruct S as (f & out & S). exists f, out. now rewrite Q.
Qed.
Print Assumptions C37_all_calls.
Example C37_all_example : let calls := [OMAnd 6 [3]; OMOr 6 [4]; OMAnd 6 [3; 4]] in
  Forall (fun o => In 6 (receivers o)) calls /\ text (said go_growth (forked ++ calls) 6 9) = Some "a=$1 AND b=$2 AND c=$3".
Proof. cbv zeta. split; [repeat constructor|vm_compute; reflexivity]. Qed.

(** * C38 builders derived from one original *)

(** False: base is an AND group of three conditions with room for a fourth (index 6);
    base.And(e) turns the earlier base.And(d) (index 7) into base.And(e). *)
Theorem C38_refuted : exists ops x, let d := [OMAnd x [3]] in let e := [OMAnd x [4]] in
  text (said go_growth (ops ++ d) (length ops) 9) = Some "a=$1 AND b=$2 AND c=$3 AND d=$4" /\
  text (said go_growth (ops ++ d ++ e) (length ops) 9) = Some "a=$1 AND b=$2 AND c=$3 AND e=$4".
Proof. exists (firstn 7 forked), 6. cbv zeta. split; vm_compute; reflexivity. Qed.
Print Assumptions C38_refuted.
(** ... and so for OrderBy, Set, Values and Join *)
Definition so (f : string) : fsort := mkS (mkF f "" "") "ASC".
Definition sv (f : string) (k : nat) : fvalue := mkFV (mkF f "" "") (VOther k).
Definition qf (t f : string) : fdef := mkF f t "".
Theorem C38_builders_refuted :
  (exists ops, text (said go_growth (ops ++ [OOrder 4 [so "d"]]) 5 9) = Some "SELECT * FROM t ORDER BY a ASC, b ASC, c ASC, d ASC" /\
     text (said go_growth (ops ++ [OOrder 4 [so "d"]; OOrder 4 [so "e"]]) 5 9) = Some "SELECT * FROM t ORDER BY a ASC, b ASC, c ASC, e ASC") /\
  (exists ops, text (said go_growth (ops ++ [OValues 3 [sv "d" 4]]) 4 9) = Some "INSERT INTO t(a, b, c, d) VALUES ($1, $2, $3, $4)" /\
     text (said go_growth (ops ++ [OValues 3 [sv "d" 4]; OValues 3 [sv "e" 5]]) 4 9) = Some "INSERT INTO t(a, b, c, e) VALUES ($1, $2, $3, $4)") /\
  (exists ops, text (said go_growth (ops ++ [OSet 5 [sv "d" 4]]) 6 9) = Some "UPDATE t SET a=$1, b=$2, c=$3, d=$4 WHERE k=$5" /\
     text (said go_growth (ops ++ [OSet 5 [sv "d" 4]; OSet 5 [sv "e" 5]]) 6 9) = Some "UPDATE t SET a=$1, b=$2, c=$3, e=$4 WHERE k=$5") /\
  (exists ops, let j n := OJoin 3 (mkT n "") InnerJoin (qf n "id") (qf "t" n) in
     text (said go_growth (ops ++ [j "d"]) 4 9) = Some "SELECT * FROM t INNER JOIN a ON a.id=t.a INNER JOIN b ON b.id=t.b INNER JOIN c ON c.id=t.c INNER JOIN d ON d.id=t.d" /\
     text (said go_growth (ops ++ [j "d"; j "e"]) 4 9) = Some "SELECT * FROM t INNER JOIN a ON a.id=t.a INNER JOIN b ON b.id=t.b INNER JOIN c ON c.id=t.c INNER JOIN e ON e.id=t.e").
Proof.
  split; [|split; [|split]].
  - exists [OSelect (TPName "t"); OMany 0; OOrder 1 [so "a"]; OOrder 2 [so "b"]; OOrder 3 [so "c"]]. split; vm_compute; reflexivity.
  - exists [OInsert (TPName "t"); OValues 0 [sv "a" 1]; OValues 1 [sv "b" 2]; OValues 2 [sv "c" 3]]. split; vm_compute; reflexivity.
  - exists [lf "k" 0; OUpdate (TPName "t"); OWhere 1 [0]; OSet 2 [sv "a" 1]; OSet 3 [sv "b" 2]; OSet 4 [sv "c" 3]]. split; vm_compute; reflexivity.
  - exists [OSelect (TPName "t"); OJoin 0 (mkT "a" "") InnerJoin (qf "a" "id") (qf "t" "a"); OJoin 1 (mkT "b" "") InnerJoin (qf "b" "id") (qf "t" "b"); OJoin 2 (mkT "c" "") InnerJoin (qf "c" "id") (qf "t" "c")].
    cbv zeta. split; vm_compute; reflexivity.
Qed.
Print Assumptions C38_builders_refuted.

(** It fails for every group of two or more conditions joined by AND that has room for
    one more: both results of And are the same group, and after the second call it holds
    the second condition. *)
Theorem C38_and_collides : forall pol st g cs l l', DenL st (hg_sl g) cs -> 2 <= length cs -> h_has_all cs AND = Ok true ->
  sl_len (hg_sl g) < length (a_cells (the_arr st (hg_sl g))) ->
  exists r st1 st2, h_group_and pol g [HLeaf l] st = (Ok r, st1) /\ h_group_and pol g [HLeaf l'] st1 = (Ok r, st2) /\
    read st1 (hg_sl r) = (cs ++ [HLeaf (joined AND l)])%list /\ read st2 (hg_sl r) = (cs ++ [HLeaf (joined AND l')])%list.
Proof.
  intros pol st g cs l l' D N H R. rewrite (and_leaf_inplace pol st g cs l (DenL_read _ _ _ D) N H).
  pose proof (append_twice HNil pol st (hg_sl g) cs [HLeaf (joined AND l)] [HLeaf (joined AND l')] D) as T. cbn [length] in T.
  specialize (T ltac:(lia) eq_refl). unfold app_to, mbind, m_append.
  pose proof (append_frame HNil pol st (hg_sl g) [HLeaf (joined AND l)]) as F.
  destruct (append HNil pol st (hg_sl g) [HLeaf (joined AND l)]) as [s1 st1]. cbn [snd] in F.
  assert (D' : DenL st1 (hg_sl g) cs).
  { destruct D as (a & E & L1 & L2 & P). destruct F as [_ F]. destruct (F _ _ E) as (a' & E' & Q1 & Q2 & Q3 & _ & Q5).
    exists a'. split; [exact E'|]. split; [lia|]. split; [auto|]. now rewrite Q5. }
  pose proof (and_leaf_inplace pol st1 g cs l' (DenL_read _ _ _ D') N H) as A. unfold app_to, mbind, m_append in A.
  destruct (append HNil pol st1 (hg_sl g) [HLeaf (joined AND l')]) as [s2 st2]. destruct T as (-> & T1 & T2).
  exists (hg_set_sl g s2), st1, st2. split; [reflexivity|]. split; [exact A|]. split; [exact T1|exact T2].
Qed.
Print Assumptions C38_and_collides.
Example C38_and_example : let '(env, h) := hrun go_growth (firstn 7 forked) [] empty_heap in
  match look env 6 with
  | Ok (XC (HGrp j n s br)) => exists cs, DenL (hC h) s cs /\ 2 <= length cs /\ h_has_all cs AND = Ok true /\ sl_len s < length (a_cells (the_arr (hC h) s))
  | _ => False
  end.
Proof.
  vm_compute. eexists. split; [eexists; split; [reflexivity|]; split; [|split; [|reflexivity]]; repeat constructor|].
  split; [repeat constructor|]. split; [reflexivity|]. repeat constructor.
Qed.
(** the same for OrderBy, Values and Set with any number of arguments *)
Theorem C38_append_collides : forall pol h,
  (forall m os os' cur, DenL (hO h) (hm_order m) cur -> sl_len (hm_order m) + length os <= length (a_cells (the_arr (hO h) (hm_order m))) -> length os = length os' ->
     exists r h1 h2, h_add_order pol m os h = (Ok r, h1) /\ h_add_order pol m os' h1 = (Ok r, h2) /\
       read (hO h1) (hm_order r) = (cur ++ os)%list /\ read (hO h2) (hm_order r) = (cur ++ os')%list) /\
  (forall i vs vs' cur, DenL (hV h) (hi_values i) cur -> sl_len (hi_values i) + length vs <= length (a_cells (the_arr (hV h) (hi_values i))) -> length vs = length vs' ->
     exists r h1 h2, h_i_add pol i vs h = (Ok r, h1) /\ h_i_add pol i vs' h1 = (Ok r, h2) /\
       read (hV h1) (hi_values r) = (cur ++ vs)%list /\ read (hV h2) (hi_values r) = (cur ++ vs')%list) /\
  (forall u vs vs' cur, DenL (hV h) (hu_values u) cur -> sl_len (hu_values u) + length vs <= length (a_cells (the_arr (hV h) (hu_values u))) -> length vs = length vs' ->
     exists r h1 h2, h_u_add pol u vs h = (Ok r, h1) /\ h_u_add pol u vs' h1 = (Ok r, h2) /\
       read (hV h1) (hu_values r) = (cur ++ vs)%list /\ read (hV h2) (hu_values r) = (cur ++ vs')%list).
Proof.
  intros pol h. split; [|split].
  - intros m os os' cur D R L. pose proof (append_twice zs pol (hO h) (hm_order m) cur os os' D R L) as T. unfold h_add_order, hbind, onO, m_append, hret.
    destruct (append zs pol (hO h) (hm_order m) os) as [s1 st1]. destruct (append zs pol st1 (hm_order m) os') as [s2 st2] eqn:E2.
    destruct T as (-> & T1 & T2). eexists _, _, _. split; [reflexivity|]. cbn [hO]. rewrite E2. split; [reflexivity|]. split; assumption.
  - intros i vs vs' cur D R L. pose proof (append_twice zv pol (hV h) (hi_values i) cur vs vs' D R L) as T. unfold h_i_add, hbind, onV, m_append, hret.
    destruct (append zv pol (hV h) (hi_values i) vs) as [s1 st1]. destruct (append zv pol st1 (hi_values i) vs') as [s2 st2] eqn:E2.
    destruct T as (-> & T1 & T2). eexists _, _, _. split; [reflexivity|]. cbn [hV]. rewrite E2. split; [reflexivity|]. split; assumption.
  - intros u vs vs' cur D R L. pose proof (append_twice zv pol (hV h) (hu_values u) cur vs vs' D R L) as T. unfold h_u_add, hbind, onV, m_append, hret.
    destruct (append zv pol (hV h) (hu_values u) vs) as [s1 st1]. destruct (append zv pol st1 (hu_values u) vs') as [s2 st2] eqn:E2.
    destruct T as (-> & T1 & T2). eexists _, _, _. split; [reflexivity|]. cbn [hV]. rewrite E2. split; [reflexivity|]. split; assumption.
Qed.
Print Assumptions C38_append_collides.
Example C38_append_example : let '(env, h) := hrun go_growth [OInsert (TPName "t"); OValues 0 [sv "a" 1]; OValues 1 [sv "b" 2]; OValues 2 [sv "c" 3]] [] empty_heap in
  match look env 3 with
  | Ok (XI i) => exists cur, DenL (hV h) (hi_values i) cur /\ sl_len (hi_values i) + 1 <= length (a_cells (the_arr (hV h) (hi_values i)))
  | _ => False
  end.
Proof. vm_compute. eexists. split; [eexists; split; [reflexivity|]; split; [|split; [|reflexivity]]; repeat constructor|]. repeat constructor. Qed.

(** What holds (the full statement drops the hypothesis [hfull]): a call on a receiver
    whose slices have no spare capacity changes no other value at all. *)
Theorem C38_full_receiver_partial : forall pol ops o x v, let '(env, h) := hrun pol ops [] empty_heap in
  In x (receivers o) -> look env x = Ok v -> hfull h (slots_of v) ->
  forall y w, look env y = Ok w -> (exists fuel out, hsays w h fuel = Some (Ok out)) ->
  forall fuel, hsays w (snd (hstep pol env o h)) fuel = hsays w h fuel.
Proof.
  intros pol ops o x v. pose proof (reach_good pol ops) as G. destruct (hrun pol ops [] empty_heap) as [env h]. cbn [fst snd] in G. destruct G as [W F].
  intros I E Fu y w Ey S. apply says_framed; [exact W|eapply okR_look; eauto| |exact S].
  apply (HFr_full (slots_of v)); [exact Fu|]. exact (step_frames pol env o x v I E h).
Qed.
Print Assumptions C38_full_receiver_partial.
(** base.And(d) (four conditions, no room left) is full; extending it twice is safe *)
Example C38_full_example : let '(env, h) := hrun go_growth (firstn 8 forked) [] empty_heap in
  match look env 7 with Ok v => hfull h (slots_of v) | Panic => False end.
Proof. vm_compute. repeat split; repeat constructor. Qed.

(** In particular: any number of builders may be derived from a value that came straight
    from a constructor (NewGroup, SelectFrom, InsertInto, Update, Delete, a condition). *)
Theorem C38_constructor_partial : forall pol ops o x k, let '(env, h) := hrun pol ops [] empty_heap in
  In x (receivers o) -> nth_error ops x = Some k -> constructor k -> (exists v, look env x = Ok v) ->
  forall y w, look env y = Ok w -> (exists fuel out, hsays w h fuel = Some (Ok out)) ->
  forall fuel, hsays w (snd (hstep pol env o h)) fuel = hsays w h fuel.
Proof.
  intros pol ops o x k. pose proof (C38_full_receiver_partial pol ops o x) as T. pose proof (reach_full pol ops x k) as R.
  destruct (hrun pol ops [] empty_heap) as [env h]. cbn [fst snd] in *. intros I N K (v & E). exact (T v I E (R v N K E)).
Qed.
Print Assumptions C38_constructor_partial.
Definition two_inserts : list op := [OInsert (TPName "t"); OValues 0 [sv "a" 1]].
Example C38_constructor_example :
  In 0 (receivers (OValues 0 [sv "b" 2])) /\ nth_error two_inserts 0 = Some (OInsert (TPName "t")) /\ constructor (OInsert (TPName "t")) /\
  text (said go_growth two_inserts 1 9) = Some "INSERT INTO t(a) VALUES ($1)" /\
  text (said go_growth (two_inserts ++ [OValues 0 [sv "b" 2]]) 1 9) = Some "INSERT INTO t(a) VALUES ($1)".
Proof. repeat split; try (left; reflexivity); vm_compute; reflexivity. Qed.

(** * C39 straight-line use *)

(** If nothing was overwritten, every value says what the functional reading of the calls
    (Cond.v and Build.v, lists instead of slices) says, in particular the call panicked
    exactly if that panics. *)
Theorem C39_fresh_is_functional : forall pol ops x, let '(env, h) := hrun pol ops [] empty_heap in
  stale h = false ->
  match look env x, look (prun ops []) x with
  | Ok v, Ok p => yields (hsays v h) (psays p)
  | Panic, Panic => True
  | _, _ => False
  end.
Proof.
  intros pol ops x. pose proof (run_agree pol ops [] [] empty_heap) as A. destruct (hrun pol ops [] empty_heap) as [env h]. cbn [fst snd] in A. intros S.
  pose proof (ERep_look h env (prun ops []) x (A ltac:(constructor) S)) as L. unfold res_rel in L.
  destruct (look env x), (look (prun ops []) x); auto. now apply VRep_says.
Qed.
Print Assumptions C39_fresh_is_functional.
Definition straight : list op := [lf "a" 1; lf "b" 2; lf "c" 3; lf "d" 4; OSelect (TPName "t"); OWhere 4 [0]; OWhere 5 [1]; OWhere 6 [2]; OMAnd 0 [3]; OWhere 7 [8]; OMany 9; OOrder 10 [so "a"]].
Example C39_fresh_example : stale (snd (hrun go_growth straight [] empty_heap)) = false /\
  text (said go_growth straight 11 9) = Some "SELECT * FROM t WHERE a=$1 AND b=$2 AND c=$3 AND a=$4 AND d=$5 ORDER BY a ASC".
Proof. split; vm_compute; reflexivity. Qed.
(** [linear]: no value is the receiver of two calls *)
Theorem C39_linear_is_fresh : forall pol ops, linear ops -> stale (snd (hrun pol ops [] empty_heap)) = false.
Proof. exact linear_fresh. Qed.
Print Assumptions C39_linear_is_fresh.
Example C39_linear_example : linear straight.
Proof. unfold linear; vm_compute; repeat (constructor; [intros H; repeat (destruct H as [H|H]; [discriminate|]); exact H|]); constructor. Qed.
Theorem C39_linear_is_functional : forall pol ops x, linear ops -> let '(env, h) := hrun pol ops [] empty_heap in
  match look env x, look (prun ops []) x with
  | Ok v, Ok p => yields (hsays v h) (psays p)
  | Panic, Panic => True
  | _, _ => False
  end.
Proof.
  intros pol ops x L. pose proof (linear_fresh pol ops L) as S. pose proof (C39_fresh_is_functional pol ops x) as F.
  destruct (hrun pol ops [] empty_heap) as [env h]. now apply F.
Qed.
Print Assumptions C39_linear_is_functional.
(** every value still says what it said when it was made *)
Theorem C39_linear_keeps : forall pol before after x v, linear (before ++ after) ->
  look (fst (hrun pol before [] empty_heap)) x = Ok v ->
  look (fst (hrun pol (before ++ after) [] empty_heap)) x = Ok v /\
  exists r, yields (hsays v (snd (hrun pol before [] empty_heap))) r /\ yields (hsays v (snd (hrun pol (before ++ after) [] empty_heap))) r.
Proof.
  intros pol a b x v L E. pose proof (linear_fresh pol _ L) as S.
  pose proof (C39_fresh_is_functional pol (a ++ b) x) as F2. pose proof (C39_fresh_is_functional pol a x) as F1.
  rewrite hrun_app in *. pose proof (hrun_grows pol b (fst (hrun pol a [] empty_heap)) (snd (hrun pol a [] empty_heap))) as G.
  destruct (hrun pol a [] empty_heap) as [env h]. cbn [fst snd] in *. specialize (F1 (G S)). rewrite E in F1.
  destruct (hrun_prefix pol b env h) as [rest P]. destruct (hrun pol b env h) as [env' h']. cbn [fst snd] in *. subst env'.
  rewrite (look_prefix env rest x v E) in *. split; [reflexivity|]. specialize (F2 S). rewrite prun_app in F2.
  destruct (look (prun a []) x) as [p|] eqn:Ep; [|contradiction]. destruct (prun_prefix b (prun a [])) as [rest' P']. rewrite P' in F2.
  rewrite (look_prefix _ rest' x p Ep) in F2. exists (psays p). split; assumption.
Qed.
Print Assumptions C39_linear_keeps.
Example C39_linear_keeps_example : linear (firstn 7 straight ++ [OWhere 6 [2]]) /\
  text (said go_growth (firstn 7 straight) 6 9) = Some "SELECT * FROM t WHERE a=$1 AND b=$2" /\
  text (said go_growth (firstn 7 straight ++ [OWhere 6 [2]]) 6 9) = Some "SELECT * FROM t WHERE a=$1 AND b=$2".
Proof. split; [unfold linear; vm_compute; repeat (constructor; [intros H; repeat (destruct H as [H|H]; [discriminate|]); exact H|]); constructor|]. split; vm_compute; reflexivity. Qed.

(** * C40 ApplyFieldTable, ApplyFieldSpec *)

(** [h_apply fuel f c st]: the call on [c] with [f] the change of a field definition,
    [set_table _ tn] for ApplyFieldTable and [apply_spec _ spec] for ApplyFieldSpec. *)
Definition by_table (tn : string) (d : fdef) : fdef := set_table d tn.
Definition by_spec (spec : fdef) (d : fdef) : fdef := apply_spec d spec.

(** False: the group itself is changed. *)
Definition pair_ab : list op := [lf "a" 1; lf "b" 2; OGroup AND [0; 1]].
Theorem C40_refuted : exists ops x c, let '(env, h) := hrun go_growth ops [] empty_heap in
  look env x = Ok (XC c) /\ h_render 9 (hC h) c 0 = Some (Ok "a=$1 AND b=$2") /\
  exists r st', h_apply 9 (by_table "u") c (hC h) = Some (Ok r, st') /\ h_render 9 st' c 0 = Some (Ok "u.a=$1 AND u.b=$2").
Proof. exists pair_ab, 2. eexists. vm_compute. repeat split. eexists _, _. split; reflexivity. Qed.
Print Assumptions C40_refuted.
(** so, whenever a group denotes a finite condition without nil: the call returns the very
    same group, and the original now denotes the changed condition *)
Theorem C40_group_overwritten : forall st j n s br t tn t', let c := HGrp j n s br in
  Rep st c t -> c_apply_table tn t = Ok t' ->
  exists fuel st', h_apply fuel (by_table tn) c st = Some (Ok c, st') /\ Rep st' c t' /\
    (exists k, forall fuel m, k <= fuel -> h_render fuel st' c m = Some (c_render t' m)).
Proof.
  intros st j n s br t tn t' c R C. rewrite <- capply_table in C.
  assert (I : forall d, by_table tn (by_table tn d) = by_table tn d) by (intros; apply set_table_idem).
  destruct (apply_total (by_table tn) I (nodes t) st st c c t t' R (Upd_refl _ _) (or_introl eq_refl) C (Nat.le_refl _)) as (r & st' & E).
  destruct (apply_upd (by_table tn) I (nodes t) st st c c t r st' R (Upd_refl _ _) (or_introl eq_refl) E) as (-> & _ & t2 & C2 & R2).
  unfold by_table in C, C2. assert (t2 = t') by congruence. subst t2. exists (nodes t), st'. split; [exact E|]. split; [exact R2|].
  exists (nodes t'). intros fuel m L. now apply render_rep.
Qed.
Print Assumptions C40_group_overwritten.
Theorem C40_group_overwritten_spec : forall st j n s br t spec t', let c := HGrp j n s br in
  Rep st c t -> c_apply_spec spec t = Ok t' ->
  exists fuel st', h_apply fuel (by_spec spec) c st = Some (Ok c, st') /\ Rep st' c t' /\
    (exists k, forall fuel m, k <= fuel -> h_render fuel st' c m = Some (c_render t' m)).
Proof.
  intros st j n s br t spec t' c R C. rewrite <- capply_spec in C.
  assert (I : forall d, by_spec spec (by_spec spec d) = by_spec spec d) by (intros; apply apply_spec_idem).
  destruct (apply_total (by_spec spec) I (nodes t) st st c c t t' R (Upd_refl _ _) (or_introl eq_refl) C (Nat.le_refl _)) as (r & st' & E).
  destruct (apply_upd (by_spec spec) I (nodes t) st st c c t r st' R (Upd_refl _ _) (or_introl eq_refl) E) as (-> & _ & t2 & C2 & R2).
  unfold by_spec in C, C2. assert (t2 = t') by congruence. subst t2. exists (nodes t), st'. split; [exact E|]. split; [exact R2|].
  exists (nodes t'). intros fuel m L. now apply render_rep.
Qed.
Print Assumptions C40_group_overwritten_spec.
Example C40_group_example : let '(env, h) := hrun go_growth pair_ab [] empty_heap in
  match look env 2 with
  | Ok (XC (HGrp j n s br)) => exists t t', Rep (hC h) (HGrp j n s br) t /\ c_apply_table "u" t = Ok t' /\ t' <> t
  | _ => False
  end.
Proof.
  cbn. eexists (CGrp AND false [CLeaf _; CLeaf _] false), _. split; [|split; [reflexivity|]].
  - apply Rep_grp. eexists _, _. split; [reflexivity|]. split; [eexists; split; [reflexivity|]; split; [|split; [|reflexivity]]; cbn; lia|]. repeat constructor.
  - discriminate.
Qed.
(** What holds (the full statement is for all conditions): a leaf is copied, and a group is
    as before if the change does not concern any of its leaves. *)
Theorem C40_leaf_partial : forall l f fuel st r st', h_apply fuel f (HLeaf l) st = Some (r, st') -> st' = st.
Proof. intros l f [|fuel] st r st' E; cbn in E; congruence. Qed.
Print Assumptions C40_leaf_partial.
Example C40_leaf_example : exists r, h_apply 1 (by_table "u") (HLeaf (mkLeaf KEq AND false (mkF "a" "" "") (VOther 1))) empty_store = Some (Ok r, empty_store) /\
  h_render 1 empty_store r 0 = Some (Ok "u.a=$1").
Proof. eexists. split; vm_compute; reflexivity. Qed.
(** [foreign n c]: no leaf of [c] is about the field [n] *)
Fixpoint foreign (n : string) (c : cond) : Prop :=
  match c with
  | CNil => False
  | CLeaf l => f_name (l_def l) <> n
  | CGrp _ _ cs _ => (fix all cs := match cs with [] => True | c :: r => foreign n c /\ all r end) cs
  end.
Lemma foreign_same spec : forall c, foreign (f_name spec) c -> c_apply_spec spec c = Ok c.
Proof.
  intros c. rewrite <- capply_spec. revert c. fix IH 1. intros [|l|j n cs br] F.
  - contradiction.
  - cbn in F |- *. unfold lmap, apply_spec. destruct l as [k jn ng d v]. cbn in *. apply String.eqb_neq in F. unfold str_eqb. now rewrite F.
  - rewrite capply_grp. cbn [foreign] in F.
    assert (E : mapM (capply (fun d => apply_spec d spec)) cs = Ok cs); [|now rewrite E].
    revert cs F. fix go 1. intros [|c cs] F; [reflexivity|]. destruct F as [F1 F2]. cbn [mapM]. rewrite (IH c F1). cbn [bind]. now rewrite (go cs F2).
Qed.
Theorem C40_unmatched_partial : forall st j n s br t spec fuel r st', let c := HGrp j n s br in
  Rep st c t -> foreign (f_name spec) t -> h_apply fuel (by_spec spec) c st = Some (Ok r, st') ->
  forall fuel m, h_render fuel st' c m = h_render fuel st c m /\ h_values fuel st' c = h_values fuel st c.
Proof.
  intros st j n s br t spec fuel r st' c R F E fuel' m. apply foreign_same in F. rewrite <- capply_spec in F.
  assert (I : forall d, by_spec spec (by_spec spec d) = by_spec spec d) by (intros; apply apply_spec_idem).
  destruct (apply_upd (by_spec spec) I fuel st st c c t r st' R (Upd_refl _ _) (or_introl eq_refl) E) as (-> & _ & t2 & C2 & R2).
  unfold by_spec in C2. assert (t2 = t) by congruence. subst t2. cbn [happ] in R2.
  split; [apply (render_same _ _ fuel' t); assumption|apply (values_same _ _ fuel' t); assumption].
Qed.
Print Assumptions C40_unmatched_partial.
Example C40_unmatched_example : foreign "z" (CGrp AND false [CLeaf (mkLeaf KEq AND false (mkF "a" "" "") (VOther 1)); CLeaf (mkLeaf KEq AND false (mkF "b" "" "") (VOther 2))] false).
Proof. cbn. repeat split; discriminate. Qed.

(** * C41 rendering terminates *)

(** False: base (index 6) is an AND group with room for one more condition.
    alt := base.Or(d, e) writes there; base.And(alt) then puts alt into the same place, so
    that alt contains itself and rendering it never returns. *)
Definition knot : list op := (firstn 7 forked ++ [OMOr 6 [3; 4]; OMAnd 6 [7]])%list.
Theorem C41_refuted : exists ops x v, let '(env, h) := hrun go_growth ops [] empty_heap in
  look env x = Ok v /\ forall fuel, hsays v h fuel = None.
Proof.
  exists knot, 8. eexists. match goal with |- context [hrun ?p ?o ?e ?h] => let r := eval vm_compute in (hrun p o e h) in change (hrun p o e h) with r end.
  cbv iota. split; [vm_compute; reflexivity|]. intros fuel. cbn [hsays].
  match goal with |- context [h_render fuel (hC ?h) ?c 0] => set (st := hC h); set (x := c) end.
  subst x. assert (RD : exists a b c l, read st (mkSl 1 4) = [HLeaf a; HLeaf b; HLeaf c; HGrp l false (mkSl 1 4) true] /\
    forall q, In q [a; b; c] -> exists fn k, q = mkLeaf KEq AND false (mkF fn "" "") (VOther k)).
  { eexists _, _, _, _. split; [vm_compute; reflexivity|]. intros q [<-|[<-|[<-|[]]]]; eexists _, _; reflexivity. }
  clearbody st. destruct RD as (a & b & c & l & RD & K).
  destruct (K a) as (fa & ka & ->); [cbn; tauto|]. destruct (K b) as (fb & kb & ->); [cbn; tauto|]. destruct (K c) as (fc & kc & ->); [cbn; tauto|]. clear K.
  assert (R : forall f j n br m, h_render f st (HGrp j n (mkSl 1 4) br) m = None).
  { induction f as [|f IH]; intros j n br m; [reflexivity|]. cbn [h_render]. rewrite RD. destruct f as [|f]; [reflexivity|].
    assert (LV : forall fn k, h_values (S f) st (HLeaf (mkLeaf KEq AND false (mkF fn "" "") (VOther k))) = Some (Ok [VOther k])) by reflexivity.
    assert (LR : forall fn k i, exists w, h_render (S f) st (HLeaf (mkLeaf KEq AND false (mkF fn "" "") (VOther k))) i = Some (Ok w)) by (intros; eexists; reflexivity).
    set (hr := h_render (S f) st) in *. set (hv := h_values (S f) st) in *. cbn [h_jtype l_join].
    destruct (LR fa ka m) as [w1 ->]. rewrite LV. cbn [length].
    destruct (LR fb kb (m + 1)) as [w2 ->]. rewrite LV. cbn [length].
    destruct (LR fc kc (m + 1 + 1)) as [w3 ->]. rewrite LV. cbn [length].
    now rewrite IH. }
  rewrite R. reflexivity.
Qed.
Print Assumptions C41_refuted.
(** What holds (the full statement is for every history): rendering and building return in
    every state where nothing was overwritten, so after every history that extends each
    value at most once. *)
Theorem C41_fresh_partial : forall pol ops x v, let '(env, h) := hrun pol ops [] empty_heap in
  stale h = false -> look env x = Ok v -> exists fuel r, forall fuel', fuel <= fuel' -> hsays v h fuel' = Some r.
Proof.
  intros pol ops x v. pose proof (C39_fresh_is_functional pol ops x) as F. destruct (hrun pol ops [] empty_heap) as [env h].
  intros S E. specialize (F S). rewrite E in F. destruct (look (prun ops []) x) as [p|]; [|contradiction]. destruct F as [k F]. exists k, (psays p). exact F.
Qed.
Print Assumptions C41_fresh_partial.
Theorem C41_linear_partial : forall pol ops x v, linear ops -> let '(env, h) := hrun pol ops [] empty_heap in
  look env x = Ok v -> exists fuel r, forall fuel', fuel <= fuel' -> hsays v h fuel' = Some r.
Proof.
  intros pol ops x v L. pose proof (linear_fresh pol ops L) as S. pose proof (C41_fresh_partial pol ops x v) as F.
  destruct (hrun pol ops [] empty_heap) as [env h]. now apply F.
Qed.
Print Assumptions C41_linear_partial.
Example C41_linear_example : linear straight /\ exists v, look (fst (hrun go_growth straight [] empty_heap)) 11 = Ok v.
Proof. split; [exact C39_linear_example|]. vm_compute. eauto. Qed.

(** * C42 accessors *)

(** Conditions and FieldDefinitions return a copy: whatever is written into the returned
    slice, no value changes. *)
Theorem C42_conditions_copied_partial : forall pol ops g, let '(env, h) := hrun pol ops [] empty_heap in
  exists s st1, h_conditions g (hC h) = (Ok s, st1) /\ read st1 s = read (hC h) (hg_sl g) /\
  forall ws y w, look env y = Ok w -> (exists fuel out, hsays w h fuel = Some (Ok out)) ->
  forall fuel, hsays w (mkH (writes st1 s ws) (hO h) (hJ h) (hV h) (hF h)) fuel = hsays w h fuel.
Proof.
  intros pol ops g. pose proof (reach_good pol ops) as G. destruct (hrun pol ops [] empty_heap) as [env h]. cbn [fst snd] in G. destruct G as [W F].
  unfold h_conditions, mbind, m_read, m_alloc. pose proof (alloc_den HNil (hC h) (read (hC h) (hg_sl g)) 0) as D. pose proof (fun s' => alloc_frame HNil s' (hC h) (read (hC h) (hg_sl g)) 0) as Fr.
  cbn [alloc fst snd] in D, Fr |- *. eexists _, _. split; [reflexivity|]. split; [exact (DenL_read _ _ _ D)|].
  intros ws y w E S. apply says_framed; [exact W|eapply okR_look; eauto| |exact S].
  unfold HFr. cbn [hC hO hJ hV hF]. split; [|auto 10 using OFrame_refl]. apply OFrame_any. apply writes_new; [cbn; lia|cbn; rewrite app_length; cbn; lia|exact Fr].
Qed.
Print Assumptions C42_conditions_copied_partial.
Theorem C42_field_definitions_copied_partial : forall pol ops b, let '(env, h) := hrun pol ops [] empty_heap in
  exists s st1, h_field_definitions b (hF h) = (Ok s, st1) /\ read st1 s = read (hF h) (hb_fields b) /\
  forall ws y w, look env y = Ok w -> (exists fuel out, hsays w h fuel = Some (Ok out)) ->
  forall fuel, hsays w (mkH (hC h) (hO h) (hJ h) (hV h) (writes st1 s ws)) fuel = hsays w h fuel.
Proof.
  intros pol ops b. pose proof (reach_good pol ops) as G. destruct (hrun pol ops [] empty_heap) as [env h]. cbn [fst snd] in G. destruct G as [W F].
  unfold h_field_definitions, mbind, m_read, m_alloc. pose proof (alloc_den zf (hF h) (read (hF h) (hb_fields b)) 0) as D. pose proof (fun s' => alloc_frame zf s' (hF h) (read (hF h) (hb_fields b)) 0) as Fr.
  cbn [alloc fst snd] in D, Fr |- *. eexists _, _. split; [reflexivity|]. split; [exact (DenL_read _ _ _ D)|].
  intros ws y w E S. apply says_framed; [exact W|eapply okR_look; eauto| |exact S].
  unfold HFr. cbn [hC hO hJ hV hF]. repeat (split; [auto using OFrame_refl|]). apply OFrame_any. apply writes_new; [cbn; lia|cbn; rewrite app_length; cbn; lia|exact Fr].
Qed.
Print Assumptions C42_field_definitions_copied_partial.
(** writing x=9 into Conditions()[0] of the builder 5 *)
Example C42_copied_example : let '(env, h) := hrun go_growth straight [] empty_heap in
  match look env 5 with
  | Ok (XB b) =>
      match h_conditions (hb_where b) (hC h) with
      | (Ok s, st1) => let h' := mkH (writes st1 s [(0, HLeaf (mkLeaf KEq AND false (mkF "x" "" "") (VOther 9)))]) (hO h) (hJ h) (hV h) (hF h) in
          text (hsays (XB b) h 9) = Some "SELECT * FROM t WHERE a=$1" /\ text (hsays (XB b) h' 9) = Some "SELECT * FROM t WHERE a=$1"
      | _ => False
      end
  | _ => False
  end.
Proof. vm_compute. split; reflexivity. Qed.

(** False for SetValues: it returns the internal slice. *)
Theorem C42_set_values_refuted :
  (exists ops x i w, let '(env, h) := hrun go_growth ops [] empty_heap in look env x = Ok (XI i) /\
     text (hsays (XI i) h 1) = Some "INSERT INTO t(a) VALUES ($1)" /\
     text (hsays (XI i) (mkH (hC h) (hO h) (hJ h) (writes (hV h) (h_i_set_values i) [w]) (hF h)) 1) = Some "INSERT INTO t(z) VALUES ($1)") /\
  (exists ops x u w, let '(env, h) := hrun go_growth ops [] empty_heap in look env x = Ok (XU u) /\
     text (hsays (XU u) h 9) = Some "UPDATE t SET a=$1 WHERE k=$2" /\
     text (hsays (XU u) (mkH (hC h) (hO h) (hJ h) (writes (hV h) (h_u_set_values u) [w]) (hF h)) 9) = Some "UPDATE t SET z=$1 WHERE k=$2").
Proof.
  split.
  - exists two_inserts, 1. eexists. exists (0, sv "z" 9). vm_compute. repeat split.
  - exists [lf "k" 0; OUpdate (TPName "t"); OWhere 1 [0]; OSet 2 [sv "a" 1]], 3. eexists. exists (0, sv "z" 9). vm_compute. repeat split.
Qed.
Print Assumptions C42_set_values_refuted.
(** for every insert or update builder: an assignment to element k of SetValues() is an
    assignment to the builder's k-th value *)
Theorem C42_set_values_shared : forall h xs k x,
  (forall i, DenL (hV h) (hi_values i) xs -> k < length xs ->
     let h' := mkH (hC h) (hO h) (hJ h) (writes (hV h) (h_i_set_values i) [(k, x)]) (hF h) in
     h_i_build h i = i_build (mkI (hi_op i) (hi_table i) xs) /\
     h_i_build h' i = i_build (mkI (hi_op i) (hi_table i) (firstn k xs ++ x :: skipn (S k) xs))) /\
  (forall u, DenL (hV h) (hu_values u) xs -> k < length xs ->
     let h' := mkH (hC h) (hO h) (hJ h) (writes (hV h) (h_u_set_values u) [(k, x)]) (hF h) in
     read (hV h') (hu_values u) = (firstn k xs ++ x :: skipn (S k) xs)%list).
Proof.
  intros h xs k x. split.
  - intros i D L. cbv zeta. unfold h_i_build. cbn [hV]. rewrite (DenL_read _ _ _ D). split; [reflexivity|].
    unfold writes, h_i_set_values. cbn [fold_left fst snd]. rewrite (assign_read_any _ _ xs k x D); [reflexivity|]. now rewrite <- (DenL_len _ _ _ D).
  - intros u D L. cbv zeta. cbn [hV]. unfold writes, h_u_set_values. cbn [fold_left fst snd]. rewrite (assign_read_any _ _ xs k x D); [reflexivity|]. now rewrite <- (DenL_len _ _ _ D).
Qed.
Print Assumptions C42_set_values_shared.
Example C42_shared_example : let '(env, h) := hrun go_growth two_inserts [] empty_heap in
  match look env 1 with Ok (XI i) => exists xs, DenL (hV h) (hi_values i) xs /\ 0 < length xs | _ => False end.
Proof. vm_compute. eexists. split; [eexists; split; [reflexivity|]; split; [|split; [|reflexivity]]; repeat constructor|]. repeat constructor. Qed.

(** * C43 finishing an incomplete join twice *)

Theorem C43_refuted : exists h b t l r l' r', let open := h_join_open go_growth b t InnerJoin h in
  match open with
  | (Ok j, h0) => match h_on j l r h0 with
      | (Ok b1, h1) => match h_on j l' r' h1 with
          | (Ok _, h2) => text (hsays (XB b1) h1 9) = Some "SELECT * FROM t INNER JOIN u ON u.a=t.b" /\ text (hsays (XB b1) h2 9) = Some "SELECT * FROM t INNER JOIN u ON u.c=t.d"
          | _ => False
          end
      | _ => False
      end
  | _ => False
  end.
Proof.
  exists (snd (h_select_from (TPName "t") empty_heap)), (mkHB DoSelect (mkT "t" "") (mkSl 0 0) (mkSl 0 0) (mkHG AND false (mkSl 0 0) false)), (mkT "u" "").
  exists (qf "u" "a"), (qf "t" "b"), (qf "u" "c"), (qf "t" "d"). vm_compute. split; reflexivity.
Qed.
Print Assumptions C43_refuted.
(** so always: both calls of On return the same builder, whose last join is the second one *)
Theorem C43_second_wins : forall pol h b cur t jt l r l' r', DenL (hJ h) (hb_joins b) cur ->
  exists j h0 h1 h2, h_join_open pol b t jt h = (Ok j, h0) /\ h_on j l r h0 = (Ok j, h1) /\ h_on j l' r' h1 = (Ok j, h2) /\
    let joined lf rf := {| j_right := t; j_type := jt; j_cond := {| jc_left := lf; jc_right := rf |} |} in
    read (hJ h1) (hb_joins j) = (cur ++ [joined l r])%list /\ read (hJ h2) (hb_joins j) = (cur ++ [joined l' r'])%list.
Proof.
  intros pol h b cur t jt l r l' r' D. unfold h_join_open, hbind, onJ, m_append, hret.
  pose proof (append_den zj pol (hJ h) (hb_joins b) cur [{| j_right := t; j_type := jt; j_cond := zero_jcond |}] D) as D0.
  destruct (append zj pol (hJ h) (hb_joins b) [{| j_right := t; j_type := jt; j_cond := zero_jcond |}]) as [s st0]. cbn [fst snd] in D0.
  pose proof (DenL_len _ _ _ D0) as L0. rewrite app_length in L0. cbn [length] in L0.
  assert (SL : sl_len s = S (length cur)) by lia.
  eexists _, _, _, _. split; [reflexivity|]. unfold h_on. cbn [hb_joins hb_set_joins]. rewrite SL. cbn [hJ hC hO hV hF].
  split; [reflexivity|]. split; [reflexivity|]. cbn [hJ].
  assert (N : forall x : joiner, nth (length cur) (cur ++ [x])%list zj = x) by (intros x; rewrite app_nth2, Nat.sub_diag by lia; reflexivity).
  assert (P : forall x y : joiner, set_nth (length cur) y (cur ++ [x])%list = (cur ++ [y])%list).
  { intros x y. unfold set_nth. rewrite firstn_app, Nat.sub_diag, firstn_all, firstn_O, app_nil_r. rewrite skipn_all2 by (rewrite app_length; cbn; lia). reflexivity. }
  rewrite (DenL_read _ _ _ D0), N. unfold j_by. cbn [j_right j_type].
  assert (D1 : forall x, DenL (assign st0 s (length cur) x) s (cur ++ [x])%list).
  { intros x. pose proof (assign_read_any st0 s _ (length cur) x D0 ltac:(lia)) as A. rewrite P in A.
    destruct D0 as (a & E & U1 & U2 & Q). eexists. unfold assign. cbn [st_arrs]. rewrite set_nth_same by (apply nth_error_Some; congruence). split; [reflexivity|].
    cbn [a_used a_cells]. rewrite (the_arr_nth _ _ _ E). split; [exact U1|]. split; [rewrite set_nth_length by lia; exact U2|].
    unfold read, assign, the_arr at 1 in A. cbn [st_arrs] in A. rewrite (nth_error_nth _ _ _ (set_nth_same (sl_arr s) _ (st_arrs st0) ltac:(apply nth_error_Some; congruence))) in A.
    cbn [a_cells] in A. now rewrite (the_arr_nth _ _ _ E) in A. }
  rewrite (DenL_read _ _ _ (D1 _)). rewrite !N. split; [reflexivity|]. cbn [j_right j_type].
  rewrite (assign_read_any _ s _ (length cur) _ (D1 _)) by lia. now rewrite P.
Qed.
Print Assumptions C43_second_wins.
Example C43_second_example : let '(env, h) := hrun go_growth [OSelect (TPName "t")] [] empty_heap in
  match look env 0 with Ok (XB b) => DenL (hJ h) (hb_joins b) [] | _ => False end.
Proof. vm_compute. eexists. split; [reflexivity|]. repeat split; repeat constructor. Qed.
(** What holds (the full statement is for one incomplete join): two separate calls
    Join(...).On(...) on a receiver without spare capacity for joins, in particular one
    without joins, are independent; this is C38_full_receiver_partial for the call OJoin. *)
Theorem C43_separate_partial : forall pol ops x b t jt l r, let '(env, h) := hrun pol ops [] empty_heap in
  look env x = Ok (XB b) -> full (hJ h) (hb_joins b) ->
  forall y w, look env y = Ok w -> (exists fuel out, hsays w h fuel = Some (Ok out)) ->
  forall fuel, hsays w (snd (hstep pol env (OJoin x t jt l r) h)) fuel = hsays w h fuel.
Proof.
  intros pol ops x b t jt l r. pose proof (reach_good pol ops) as G. destruct (hrun pol ops [] empty_heap) as [env h]. cbn [fst snd] in G. destruct G as [W F].
  intros E Fu y w Ey S. apply says_framed; [exact W|eapply okR_look; eauto| |exact S].
  pose proof (step_frames pol env (OJoin x t jt l r) x (XB b) (or_introl eq_refl) E h) as H. cbn [hstep] in H |- *.
  unfold hbind at 1, hlift in H. unfold hbind at 1, hlift. rewrite E in *. cbn [hbind] in *.
  pose proof (join_others pol b t jt l r h) as J. cbn zeta in J. destruct H as (_ & _ & H & _). cbn [slots_of slots_b pJ OFrame] in H.
  unfold hbind, hret in *. destruct (h_join pol b t jt l r h) as [[b'|] h']; cbn [snd] in *; destruct J as (J1 & J2 & J3 & J4);
    unfold HFr; rewrite J1, J2, J3, J4; (split; [apply OFrame_refl|]; split; [apply OFrame_refl|]; split; [|split; apply OFrame_refl]);
    apply OFrame_any; apply (Frame_full (hb_joins b)); assumption.
Qed.
Print Assumptions C43_separate_partial.
Example C43_separate_example : let '(env, h) := hrun go_growth [OSelect (TPName "t")] [] empty_heap in
  match look env 0 with Ok (XB b) => full (hJ h) (hb_joins b) | _ => False end.
Proof. vm_compute. repeat constructor. Qed.
