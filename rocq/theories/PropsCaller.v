(** Property theorems about slices that belong to the caller. *)
From Coq Require Import String Ascii List Bool Arith Lia NArith ZArith.
From Verif Require Import GoStr Value Names Cond CondFacts CondText Build Heap HeapFacts HeapOps HeapBuild HeapRun HeapCaller.
Import ListNotations.
Local Open Scope string_scope.
Local Open Scope nat_scope.

(** A history is a list of events ([event], HeapCaller.v) run from the empty memory: calls of
    the API, variadic calls f(s...) on slices of the caller, copies handed out by Conditions and
    FieldDefinitions, and what the caller does with its own slices (making them with any spare
    capacity, writing elements, appending, cutting).  SetValues is not among them: it hands out
    the builder's own slice (C42_set_values_refuted). *)
Lemma caller_run pol : forall cs w, Inv w -> Forall by_caller cs -> forall v fuel, In (Ok v) (w_env w) ->
  hsays v (w_heap (wrun pol cs w)) fuel = hsays v (w_heap w) fuel.
Proof.
  induction cs as [|e cs IH]; intros w I C v fuel V; [reflexivity|]. unfold wrun. cbn [fold_left]. change (fold_left (wstep pol) cs ?w) with (wrun pol cs w).
  rewrite <- (step_caller pol w e I (Forall_inv C) v fuel V). apply IH; [now apply step_inv|exact (Forall_inv_tail C)|].
  destruct e; cbn [by_caller] in C; try (exfalso; exact (Forall_inv C)); destruct w as [env sl h]; cbn [wstep w_env w_sls w_heap] in *.
  - destruct (cmap _ c); [|exact V]. destruct (cstep _ _ _ _ _). exact V.
  - destruct (cstep _ _ _ _ _). exact V.
  - destruct (cstep _ _ _ _ _). exact V.
  - destruct (cstep _ _ _ _ _). exact V.
Qed.
Lemma untouched_trans a b c : untouched a b -> untouched b c -> untouched a c.
Proof.
  intros (A1 & A2 & A3 & A4) (B1 & B2 & B3 & B4).
  split; [|split; [|split]]; intros s I;
    [destruct (A1 s I) as [I' E]; destruct (B1 s I') as [I2 E2]|destruct (A2 s I) as [I' E]; destruct (B2 s I') as [I2 E2]
    |destruct (A3 s I) as [I' E]; destruct (B3 s I') as [I2 E2]|destruct (A4 s I) as [I' E]; destruct (B4 s I') as [I2 E2]];
    (split; [exact I2|now rewrite E2]).
Qed.
Lemma library_run pol : forall es w, Inv w -> Forall (fun e => ~ by_caller e) es -> untouched w (wrun pol es w).
Proof.
  induction es as [|e es IH]; intros w I C; [apply untouched_refl|]. unfold wrun. cbn [fold_left]. change (fold_left (wstep pol) es ?w) with (wrun pol es w).
  eapply untouched_trans; [exact (step_library pol w e I (Forall_inv C))|]. apply IH; [now apply step_inv|exact (Forall_inv_tail C)].
Qed.

(** Whatever the caller does with its slices after any history, every condition and builder
    renders as before. *)
Theorem C88_caller_writes : forall pol es mine, Forall by_caller mine ->
  let w := wrun pol es world0 in
  forall x v, look (w_env w) x = Ok v -> forall fuel, hsays v (w_heap (wrun pol mine w)) fuel = hsays v (w_heap w) fuel.
Proof.
  intros pol es mine C w x v L fuel. apply caller_run; [apply run_inv|exact C|]. unfold look in L. destruct (nth_in_or_default x (w_env w) Panic) as [H|H]; [now rewrite L in H|].
  rewrite L in H. discriminate.
Qed.
Print Assumptions C88_caller_writes.

(** No call, also none that was given slices of the caller as f(s...), changes an element of
    a slice of the caller. *)
Theorem C88_calls_write : forall pol es calls, Forall (fun e => ~ by_caller e) calls ->
  let w := wrun pol es world0 in let w' := wrun pol calls w in
  (forall s, In s (sC (w_sls w)) -> read (hC (w_heap w')) s = read (hC (w_heap w)) s) /\
  (forall s, In s (sO (w_sls w)) -> read (hO (w_heap w')) s = read (hO (w_heap w)) s) /\
  (forall s, In s (sV (w_sls w)) -> read (hV (w_heap w')) s = read (hV (w_heap w)) s) /\
  (forall s, In s (sF (w_sls w)) -> read (hF (w_heap w')) s = read (hF (w_heap w)) s).
Proof.
  intros pol es calls C w w'. destruct (library_run pol calls w (run_inv pol es) C) as (A1 & A2 & A3 & A4).
  split; [|split; [|split]]; intros s I; [apply A1|apply A2|apply A3|apply A4]; exact I.
Qed.
Print Assumptions C88_calls_write.

(** the caller fills a slice of two conditions with room for four more, gives it to NewGroup,
    And, Or and Where as s..., extends the results, and only then writes into the slice,
    appends to it in place and cuts it *)
Definition leaf_of (f : string) (k : nat) : op := OLeaf (mkLeaf KEq AND false (mkF f "" "") (VOther k)).
Definition shared : list event :=
  [Call (leaf_of "a" 1); Call (leaf_of "b" 2); Call (leaf_of "c" 3); EC (Make [0; 1] 4);
   Spread (OGroup "OR" []) 0; Spread (OMAnd 3 []) 0; Call (OMOr 4 [2]); Call (OSelect (TPStr "t")); Spread (OWhere 6 []) 0; Call (OWhere 7 [2]);
   EF (Make [mkF "x" "" ""; mkF "y" "" ""] 3); Spread (OFields 8 []) 0].
Definition mine : list event := [EC (Put 0 0 2); EC (Push 0 [2; 2]); EC (Put 1 1 2); EC (Cut 1 1); EF (Put 0 1 (mkF "z" "" "")); EF (Push 0 [mkF "q" "" ""])].
Definition texts (w : world) : list (option string) :=
  map (fun r => match r with Ok v => match hsays v (w_heap w) 9 with Some (Ok o) => Some (o_sql o) | _ => None end | Panic => None end) (w_env w).
Example C88_example : Forall by_caller mine /\ Forall (fun e => ~ by_caller e) [Spread (OMAnd 4 []) 1; Spread (OGroup "AND" []) 0; GetConditions 3; GetFields 9] /\
  texts (wrun go_growth shared world0) =
    [Some "a=$1"; Some "b=$1"; Some "c=$1"; Some "a=$1 OR b=$2"; Some "(a=$1 OR b=$2) AND a=$3 AND b=$4"; Some "((a=$1 OR b=$2) AND a=$3 AND b=$4) OR c=$5";
     Some "SELECT * FROM t"; Some "SELECT * FROM t WHERE a=$1 AND b=$2"; Some "SELECT * FROM t WHERE a=$1 AND b=$2 AND c=$3";
     Some "SELECT x, y FROM t WHERE a=$1 AND b=$2 AND c=$3"] /\
  texts (wrun go_growth mine (wrun go_growth shared world0)) = texts (wrun go_growth shared world0) /\
  (let w := wrun go_growth mine (wrun go_growth shared world0) in map (read (hC (w_heap w))) (sC (w_sls w))) <>
  (let w := wrun go_growth shared world0 in map (read (hC (w_heap w))) (sC (w_sls w))).
Proof.
  split; [repeat constructor|]. split; [repeat (constructor; [intros []|]); constructor|]. split; [vm_compute; reflexivity|]. split; [vm_compute; reflexivity|].
  vm_compute. discriminate.
Qed.

(** A call on s... is the call on the elements of s, given one by one. *)
Definition with_args (o : op) (ys : list nat) : op :=
  match o with
  | OGroup j _ => OGroup j ys
  | OJoinAll j _ => OJoinAll j ys
  | OAnd x _ => OAnd x ys
  | OOr x _ => OOr x ys
  | OMAnd x _ => OMAnd x ys
  | OMOr x _ => OMOr x ys
  | OWhere x _ => OWhere x ys
  | _ => o
  end.
Definition variadic (o : op) : Prop :=
  match o with OGroup _ _ | OJoinAll _ _ | OAnd _ _ | OOr _ _ | OMAnd _ _ | OMOr _ _ | OWhere _ _ => True | _ => False end.
Lemma mapM_args env cs : mapM (hcond_at (env ++ map (fun c => Ok (XC c)) cs)%list) (seq (length env) (length cs)) = Ok cs.
Proof.
  revert env. induction cs as [|c cs IH]; intros env; [reflexivity|]. cbn [length seq map].
  specialize (IH (env ++ [Ok (XC c)])%list). rewrite <- app_assoc, app_length in IH. cbn [length app] in IH. rewrite Nat.add_1_r in IH.
  simpl mapM. unfold hcond_at at 1, look. rewrite app_nth2, Nat.sub_diag by lia. cbn [nth bind]. now rewrite IH.
Qed.
Definition subject (o : op) : option nat := match o with OAnd x _ | OOr x _ | OMAnd x _ | OMOr x _ | OWhere x _ => Some x | _ => None end.
Theorem C88_spread : forall pol es o k s ys, variadic o ->
  let w := wrun pol es world0 in
  nth_error (sC (w_sls w)) k = Some s -> mapM (hcond_at (w_env w)) ys = Ok (read (hC (w_heap w)) s) ->
  (forall x, subject o = Some x -> x < length (w_env w)) ->
  wstep pol w (Spread o k) = wstep pol w (Call (with_args o ys)).
Proof.
  intros pol es o k s ys V w K M B. generalize dependent w. intros w K M B. destruct w as [env sl h]. cbn [w_env w_sls w_heap] in *.
  cbn [wstep w_env w_sls w_heap]. unfold spread. cbn [w_env w_sls w_heap].
  assert (L : (k <? length (sC sl)) = true) by (apply Nat.ltb_lt; apply nth_error_Some; congruence). rewrite L, (nth_error_nth _ _ (mkSl 0 0) K).
  pose proof (mapM_args env (read (hC h) s)) as A.
  assert (Q : forall x, x < length env -> look (env ++ map (fun c => Ok (XC c)) (read (hC h) s))%list x = look env x) by (intros x X; apply app_nth1; exact X).
  assert (Qc : forall x, x < length env -> hcond_at (env ++ map (fun c => Ok (XC c)) (read (hC h) s))%list x = hcond_at env x) by (intros x X; unfold hcond_at; now rewrite Q).
  destruct o; cbn [variadic] in V; try contradiction; cbn [with_args subject] in *; cbn [hstep];
    try rewrite (Qc _ (B _ eq_refl)); try rewrite (Q _ (B _ eq_refl)); rewrite A, M; reflexivity.
Qed.
Print Assumptions C88_spread.
(** the slice of [shared] was filled with the values of the calls 0 and 1 *)
Example C88_spread_example : let w := wrun go_growth shared world0 in
  nth_error (sC (w_sls w)) 0 = Some (mkSl 0 2) /\ mapM (hcond_at (w_env w)) [0; 1] = Ok (read (hC (w_heap w)) (mkSl 0 2)) /\
  variadic (OWhere 8 []) /\ subject (OWhere 8 []) = Some 8 /\ 8 < length (w_env w) /\
  wstep go_growth w (Spread (OWhere 8 []) 0) = wstep go_growth w (Call (OWhere 8 [0; 1])).
Proof. vm_compute. repeat split; lia. Qed.

(** * Slices given as values *)

(** In(a, s) keeps the slice s itself (value.go:100-105 stores the interface value); Values
    (value.go:59-66) reads it whenever the statement is built.  So a statement with such a
    value depends on what the caller's array holds at that moment: the model of the statement
    is taken at the array's contents. *)
Definition select_in (st : store string) (s : slice) : res out :=
  do b <- select_from (TPStr "t");
  do b' <- b_add_where b [CLeaf (mkLeaf KIn AND false (mkF "a" "" "") (VStrs (read st s)))];
  b_build b'.
(** False: writing to the slice after In changes the parameters of the finished statement. *)
Theorem C88_in_refuted : exists st s x, 0 < sl_len s /\
  select_in st s = Ok (ok "SELECT * FROM t WHERE a IN ($1,$2)" [VStr "p"; VStr "q"]) /\
  select_in (assign st s 0 x) s = Ok (ok "SELECT * FROM t WHERE a IN ($1,$2)" [VStr "r"; VStr "q"]).
Proof.
  exists (mkSt [mkA ["p"; "q"] 2] false), (mkSl 0 2), "r". split; [cbn; lia|]. split; vm_compute; reflexivity.
Qed.
Print Assumptions C88_in_refuted.

(** What remains true: the text of the statement and the number of its parameters do not
    change.  [f] gives for every predicate its value after the caller's writes: a slice of
    the same length if it was a slice, and otherwise what it was. *)
Definition rewrites (f : leaf -> gval) : Prop := forall l,
  f l = l_val l \/ (forall cu, l_kind l <> KCustom cu) /\
  ((exists a b, l_val l = VStrs a /\ f l = VStrs b /\ length b = length a) \/ (exists a b, l_val l = VSlice a /\ f l = VSlice b)).
Fixpoint rewritten (f : leaf -> gval) (c : cond) : cond :=
  match c with
  | CNil => CNil
  | CLeaf l => CLeaf (mkLeaf (l_kind l) (l_join l) (l_neg l) (l_def l) (f l))
  | CGrp j n cs br => CGrp j n (map (rewritten f) cs) br
  end.
Definition count_of (r : res (list gval)) : res nat := do vs <- r; Ok (length vs).
Lemma rewritten_leaf f l : rewrites f ->
  count_of (leaf_values (mkLeaf (l_kind l) (l_join l) (l_neg l) (l_def l) (f l))) = count_of (leaf_values l) /\
  (forall n, leaf_render (mkLeaf (l_kind l) (l_join l) (l_neg l) (l_def l) (f l)) n = leaf_render l n) /\
  leaf_render_sql (mkLeaf (l_kind l) (l_join l) (l_neg l) (l_def l) (f l)) = leaf_render_sql l.
Proof.
  intros R. destruct l as [k j ng d v]. cbn [l_kind l_join l_neg l_def]. destruct (R (mkLeaf k j ng d v)) as [E | [C E]].
  - cbn [l_val] in E. rewrite E. auto.
  - assert (Cn : count_of (leaf_values (mkLeaf k j ng d (f (mkLeaf k j ng d v)))) = count_of (leaf_values (mkLeaf k j ng d v))).
    { cbn [l_kind l_val] in *. destruct E as [(a & b & -> & -> & L)|(a & b & -> & ->)]; destruct k; cbn; try reflexivity; try (now rewrite !map_length, L); now destruct (C cu). }
    split; [exact Cn|]. split; [intros n|]; destruct k; try reflexivity; try (now destruct (C cu)); unfold leaf_render, leaf_render_sql; cbn [l_kind];
      destruct (leaf_values (mkLeaf KIn j ng d v)) as [vs|], (leaf_values (mkLeaf KIn j ng d (f (mkLeaf KIn j ng d v)))) as [ws|]; try discriminate; cbn [bind]; try reflexivity;
      injection Cn as Cn.
    + rewrite Cn. reflexivity.
    + assert (E' : map (fun _ : gval => "?") ws = map (fun _ : gval => "?") vs).
      { clear -Cn. revert vs Cn. induction ws as [|w ws IH]; intros [|y vs] L; cbn in *; try discriminate; [reflexivity|]. f_equal. apply IH. congruence. }
      rewrite E'. reflexivity.
Qed.
Theorem C88_in_partial : forall f c, rewrites f ->
  (forall n, c_render (rewritten f c) n = c_render c n) /\ c_render_sql (rewritten f c) = c_render_sql c /\
  count_of (c_values (rewritten f c)) = count_of (c_values c).
Proof.
  intros f c R. induction c as [|l|j ng cs br IH] using cond_ind'; [auto| |].
  - destruct (rewritten_leaf f l R) as (A & B & C). auto.
  - cbn [rewritten]. assert (J : forall c, jtype (rewritten f c) = jtype c) by (intros []; reflexivity).
    assert (N : nonempty (map (rewritten f) cs) = nonempty cs) by now destruct cs.
    split; [|split].
    + intros n. rewrite !c_render_grp, map_length.
      assert (HR : forall b m, render_list b (map (rewritten f) cs) m = render_list b cs m).
      { induction IH as [|c cs (A & _ & C) _ IHc]; intros b m; [reflexivity|]. cbn [map render_list]. rewrite J, A. destruct (jtype c); [|reflexivity].
        cbn [bind]. destruct (c_render c m); [|reflexivity]. cbn [bind]. 
        destruct (c_values c) as [vs|], (c_values (rewritten f c)) as [ws|]; try discriminate; [|reflexivity]. cbn [bind]. injection C as C. rewrite C, IHc; [reflexivity|now destruct cs]. }
      rewrite HR. now destruct cs.
    + rewrite !c_render_sql_grp, map_length.
      assert (HR : forall b, render_sql_list b (map (rewritten f) cs) = render_sql_list b cs).
      { induction IH as [|c cs (_ & A & _) _ IHc]; intros b; [reflexivity|]. cbn [map render_sql_list]. rewrite J, A, IHc; [reflexivity|now destruct cs]. }
      rewrite HR. now destruct cs.
    + clear N. cbn [c_values]. induction IH as [|c cs (_ & _ & C) _ IHc]; [reflexivity|]. cbn [map].
      destruct (c_values c) as [vs|], (c_values (rewritten f c)) as [ws|]; try discriminate; [|reflexivity]. cbn [bind]. injection C as C.
      match goal with |- count_of (bind ?x _) = count_of (bind ?y _) => destruct x as [p|], y as [q|] end; try discriminate; [|reflexivity]. injection IHc as IHc.
      cbn. now rewrite !app_length, C, IHc.
Qed.
Print Assumptions C88_in_partial.
Example C88_in_example :
  let f l := match l_kind l, l_val l with KIn, VStrs [a; b] => VStrs ["r"; b] | _, v => v end in
  let c := CGrp AND false [CLeaf (mkLeaf KIn AND false (mkF "a" "" "") (VStrs ["p"; "q"])); CLeaf (mkLeaf KEq OR false (mkF "b" "" "") (VOther 1))] false in
  rewrites f /\ c_render (rewritten f c) 0 = Ok "a IN ($1,$2) OR b=$3" /\ c_values (rewritten f c) = Ok [VStr "r"; VStr "q"; VOther 1].
Proof.
  cbv zeta. split; [|split; vm_compute; reflexivity]. intros [k j ng d v]. cbn [l_val l_kind].
  destruct k; try (left; reflexivity). destruct v as [| | | | |[|a [|b [|x l]]]| | | | |]; try (left; reflexivity).
  right. split; [discriminate|]. left. exists [a; b], ["r"; b]. auto.
Qed.
