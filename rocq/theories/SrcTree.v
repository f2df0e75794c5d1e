(** Values, ApplyFieldSpec and ApplyFieldTable of every condition, however deeply its
    groups are nested, run from their source (group.go:297-325). *)
From Coq Require Import String Ascii List Bool Arith NArith ZArith Lia.
From Verif Require Import GoStr StrFacts Value Names Cond SrcAst SrcSem SrcProg Surface Open SrcFacts SrcNames SrcNamesB SrcNamesC SrcLoops SrcValues SrcConds SrcGroups.
Import ListNotations.
Local Open Scope string_scope.
Local Open Scope nat_scope.

(** How deeply the groups of a condition are nested. *)
Fixpoint deep {S} (c : xcond S) : nat :=
  match c with
  | XGrp _ _ cs _ => Datatypes.S ((fix go (cs : list (xcond S)) := match cs with [] => 0 | c :: r => Nat.max (deep c) (go r) end) cs)
  | _ => 0
  end.
Definition deeps {S} (cs : list (xcond S)) : nat :=
  (fix go (cs : list (xcond S)) := match cs with [] => 0 | c :: r => Nat.max (deep c) (go r) end) cs.
Lemma deeps_in : forall {S} (l done : list (xcond S)) a rest d, l = (done ++ a :: rest)%list -> deeps l <= d -> deep a <= d.
Proof.
  intros S l done a rest d -> H. induction done as [|b done IH]; cbn [app deeps] in H.
  - lia.
  - apply IH. change (Nat.max (deep b) (deeps (done ++ a :: rest)) <= d) in H. lia.
Qed.

Definition xs_values {S} (i : impl S) :=
  fix go (cs : list (xcond S)) : res (list gval) :=
    match cs with
    | [] => Ok []
    | c :: r => do v <- x_values i c; do vs <- go r; Ok (v ++ vs)%list
    end.
Definition xs_spec {S} (i : impl S) (spec : fdef) :=
  fix go (cs : list (xcond S)) : res (list (xcond S)) :=
    match cs with
    | [] => Ok []
    | c :: r => do c' <- x_apply_spec i spec c; do r' <- go r; Ok (c' :: r')
    end.
Definition xs_table {S} (i : impl S) (t : string) :=
  fix go (cs : list (xcond S)) : res (list (xcond S)) :=
    match cs with
    | [] => Ok []
    | c :: r => do c' <- x_apply_table i t c; do r' <- go r; Ok (c' :: r')
    end.
Lemma xs_spec_map : forall {S} (i : impl S) s cs, xs_spec i s cs = mapM (x_apply_spec i s) cs.
Proof. induction cs as [|c cs IH]; [reflexivity|]. cbn [xs_spec mapM]. fold (xs_spec i s). rewrite IH. reflexivity. Qed.
Lemma xs_table_map : forall {S} (i : impl S) s cs, xs_table i s cs = mapM (x_apply_table i s) cs.
Proof. induction cs as [|c cs IH]; [reflexivity|]. cbn [xs_table mapM]. fold (xs_table i s). rewrite IH. reflexivity. Qed.
Lemma xs_values_app : forall {S} (i : impl S) done v a rest, xs_values i done = Ok v ->
  xs_values i (done ++ a :: rest) = bind (x_values i a) (fun w => bind (xs_values i rest) (fun r => Ok (v ++ w ++ r)%list)).
Proof.
  intros S i. induction done as [|b done IH]; intros v a rest H.
  - inversion H. reflexivity.
  - cbn [app xs_values] in *. fold (xs_values i) in *. destruct (x_values i b) as [vb|]; [|discriminate]. cbn [bind] in *.
    destruct (xs_values i done) as [vd|] eqn:D; [|discriminate]. cbn [bind] in H. inversion H; subst v.
    rewrite (IH vd a rest eq_refl). destruct (x_values i a) as [va|]; [|reflexivity]. cbn [bind].
    destruct (xs_values i rest) as [vr|]; [|reflexivity]. cbn [bind]. rewrite <- app_assoc. reflexivity.
Qed.

Ltac known ::= first [known_numbers | known_dispatch | known_sums | known_lists | known_base | known_names].

Section Tree.
Context {S : Type} (i : impl S).
Notation mcall n := (mcall i (run i n)).
Lemma x_Values : forall d c n, deep c <= d ->
  mcall (S3 (d + n)) (of_x c) "Values" [] = of_res (fun l => RSlice (gvals l)) (x_values i c).
Proof.
  induction d as [|d IH]; intros [|l|j b cs br|o] n Hd; try reflexivity; try apply leaf_Values; try (cbn in Hd; lia).
  assert (Hd' : deeps cs <= d) by (apply le_S_n; exact Hd). clear Hd.
  change (Datatypes.S d + n) with (Datatypes.S (d + n)).
  change (run i (S4 (d + n)) "Group.Values" [of_group (mkXG j b cs br)] = of_res (fun l => RSlice (gvals l)) (xs_values i cs)).
  unfold of_group; cbn [xg_join xg_neg xg_cs xg_br]. enter. walk.
  range_res (@of_x S) cs "values" (xs_values i) (fun (ds : list gval) (rest : list (xcond S)) => RSlice (S := S) (gvals ds)).
  - pose proof (IH a n (deeps_in _ _ _ _ _ Hl Hd')) as HJ.
    pose proof (xs_values_app i done b0 a rest HF) as F. pose proof (xs_values_app i done b0 a [] HF) as F0.
    destruct (x_values i a) as [a'|] eqn:Ha; cbn [of_res] in HJ; note HJ; walk.
    + apply H. exists (b0 ++ a')%list. split; [rewrite F0; cbn [bind xs_values]; rewrite app_nil_r; reflexivity|]. grown.
    + rewrite Hl, F. reflexivity.
  - walk. rewrite HF. reflexivity.
Qed.
Lemma x_ApplyFieldSpec : forall s d c n, deep c <= d ->
  mcall (S4 (d + n)) (of_x c) "ApplyFieldSpec" [of_fdef s] = of_res of_x (x_apply_spec i s c).
Proof.
  intros s. induction d as [|d IH]; intros [|l|j b cs br|o] n Hd; try (destruct s; reflexivity); try apply leaf_ApplyFieldSpec; try (cbn in Hd; lia).
  assert (Hd' : deeps cs <= d) by (apply le_S_n; exact Hd). clear Hd.
  change (Datatypes.S d + n) with (Datatypes.S (d + n)).
  change (run i (S5 (d + n)) "Group.ApplyFieldSpec" [of_group (mkXG j b cs br); of_fdef s] =
    of_res of_x (do l <- xs_spec i s cs; Ok (XGrp j b l br))). rewrite xs_spec_map.
  unfold of_group; cbn [xg_join xg_neg xg_cs xg_br]. enter. walk.
  range_res (@of_x S) cs "conditionsGroup" (mapM (x_apply_spec i (mkF f_name f_table f_alias))) (fun (ds rest : list (xcond S)) =>
    RStruct (S := S) "Group"
      [("BaseCondition", RStruct "BaseCondition" [("joinType", RStr "JoinType" j); ("negate", RBool b)]);
       ("conditions", RSlice (xvals ds ++ map of_x rest)); ("withBrackets", RBool br)]).
  - pose proof (mapM_length _ _ _ HF) as L. pose proof (mapM_app_s _ done b0 rest a HF) as F.
    pose proof (mapM_app_s _ done b0 [] a HF) as F0.
    pose proof (IH a n (deeps_in _ _ _ _ _ Hl Hd')) as HJ.
    assert (Hn : nth_error (xvals b0 ++ of_x a :: map of_x rest) (length done) = Some (of_x a))
      by (apply nth_at; rewrite xvals_length; congruence).
    note Hn. sx in HJ.
    destruct (x_apply_spec i (mkF f_name f_table f_alias) a) as [a'|] eqn:Ha; cbn [of_res] in HJ; note HJ; walk.
    + apply H. exists (b0 ++ [a'])%list. split; [exact F0|]. unfold xvals. grown.
    + rewrite Hl, F. reflexivity.
  - walk. rewrite HF. reflexivity.
Qed.
Lemma x_ApplyFieldTable : forall t d c n y, deep c <= d ->
  mcall (S4 (d + n)) (of_x c) "ApplyFieldTable" [RStr y t] = of_res of_x (x_apply_table i t c).
Proof.
  intros t. induction d as [|d IH]; intros [|l|j b cs br|o] n y Hd; try reflexivity; try apply leaf_ApplyFieldTable; try (cbn in Hd; lia).
  assert (Hd' : deeps cs <= d) by (apply le_S_n; exact Hd). clear Hd.
  change (Datatypes.S d + n) with (Datatypes.S (d + n)).
  change (run i (S5 (d + n)) "Group.ApplyFieldTable" [of_group (mkXG j b cs br); RStr y t] =
    of_res of_x (do l <- xs_table i t cs; Ok (XGrp j b l br))). rewrite xs_table_map.
  unfold of_group; cbn [xg_join xg_neg xg_cs xg_br]. enter. walk.
  range_res (@of_x S) cs "conditionsGroup" (mapM (x_apply_table i t)) (fun (ds rest : list (xcond S)) =>
    RStruct (S := S) "Group"
      [("BaseCondition", RStruct "BaseCondition" [("joinType", RStr "JoinType" j); ("negate", RBool b)]);
       ("conditions", RSlice (xvals ds ++ map of_x rest)); ("withBrackets", RBool br)]).
  - pose proof (mapM_length _ _ _ HF) as L. pose proof (mapM_app_s _ done b0 rest a HF) as F.
    pose proof (mapM_app_s _ done b0 [] a HF) as F0.
    pose proof (IH a n "TableName" (deeps_in _ _ _ _ _ Hl Hd')) as HJ.
    assert (Hn : nth_error (xvals b0 ++ of_x a :: map of_x rest) (length done) = Some (of_x a))
      by (apply nth_at; rewrite xvals_length; congruence).
    note Hn. sx in HJ.
    destruct (x_apply_table i t a) as [a'|] eqn:Ha; cbn [of_res] in HJ; note HJ; walk.
    + apply H. exists (b0 ++ [a'])%list. split; [exact F0|]. unfold xvals. grown.
    + rewrite Hl, F. reflexivity.
  - walk. rewrite HF. reflexivity.
Qed.
End Tree.
