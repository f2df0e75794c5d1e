(** RenderSQL of every condition, however deeply its groups are nested, run from its source
    (group.go:265-294). *)
From Coq Require Import String Ascii List Bool Arith NArith ZArith Lia.
From Verif Require Import GoStr StrFacts Value Names Cond SrcAst SrcSem SrcProg Surface Open SrcFacts SrcNames SrcNamesB SrcNamesC SrcLoops SrcValues SrcConds SrcLeafSQL SrcGroups SrcTree.
Import ListNotations.
Local Open Scope string_scope.
Local Open Scope nat_scope.

Definition xs_sql {S} (i : impl S) :=
  fix go (first : bool) (cs : list (xcond S)) : res string :=
    match cs with
    | [] => Ok ""
    | c :: r =>
        do t <- x_render_join i first c;
        do s <- x_render_sql i c;
        do rest <- go false r;
        Ok (x_token t ++ s ++ rest)
    end.
Lemma xs_sql_app : forall {S} (i : impl S) done first s a rest, xs_sql i first done = Ok s ->
  xs_sql i first (done ++ a :: rest) =
  bind (x_render_join i (match done with [] => first | _ => false end) a) (fun t =>
  bind (x_render_sql i a) (fun s' =>
  bind (xs_sql i false rest) (fun r => Ok (s ++ x_token t ++ s' ++ r)))).
Proof.
  intros S i. induction done as [|b done IH]; intros first s a rest H.
  - inversion H; subst. reflexivity.
  - cbn [app xs_sql] in *. fold (xs_sql i) in *.
    destruct (x_render_join i first b) as [tb|]; [|discriminate]. cbn [bind] in *.
    destruct (x_render_sql i b) as [sb|]; [|discriminate]. cbn [bind] in *.
    destruct (xs_sql i false done) as [s1|] eqn:D; [|discriminate]. cbn [bind] in *.
    inversion H; subst. rewrite (IH _ _ a rest D). replace (match done with [] => false | _ => false end) with false by (destruct done; reflexivity).
    destruct (x_render_join i false a); [|reflexivity]. cbn [bind].
    destruct (x_render_sql i a); [|reflexivity]. cbn [bind].
    destruct (xs_sql i false rest); [|reflexivity]. cbn [bind]. rewrite !app_assoc_s. reflexivity.
Qed.

Ltac known ::= first [known_numbers | known_dispatch | known_sums | known_lists | known_base | known_names].

Section Tree.
Context {S : Type} (i : impl S).
Notation mcall n := (mcall i (run i n)).
Lemma x_RenderSQL : forall d c n, deep c <= d ->
  mcall (S4 (d + n)) (of_x c) "RenderSQL" [] = of_res (RStr "string") (x_render_sql i c).
Proof.
  induction d as [|d IH]; intros [|l|j b cs br|o] n Hd; try apply leaf_RenderSQL; try (cbn in Hd; lia).
  1-2, 3, 5: reflexivity.
  assert (Hd' : deeps cs <= d) by (apply le_S_n; exact Hd). clear Hd.
  change (Datatypes.S d + n) with (Datatypes.S (d + n)).
  destruct cs as [|c0 cs0].
  { change (run i (S5 (d + n)) "Group.RenderSQL" [of_group (mkXG j b [] br)] = Done (RStr "string" "")).
    unfold of_group; cbn [xg_join xg_neg xg_cs xg_br]. change (xvals (@nil (xcond S))) with (@nil (val S)). enter. walk; reflexivity. }
  change (run i (S5 (d + n)) "Group.RenderSQL" [of_group (mkXG j b (c0 :: cs0) br)] =
    of_res (RStr "string") (do sql <- xs_sql i true (c0 :: cs0); Ok (wrap b br (1 <? length (c0 :: cs0)) sql))).
  assert (Hne : fact ((length (c0 :: cs0) =? 0) = false)) by reflexivity.
  set (cs := c0 :: cs0) in *. clearbody cs.
  unfold of_group; cbn [xg_join xg_neg xg_cs xg_br]. enter. walk.
  range_res (@of_x S) cs "sql" (xs_sql i true) (fun (s : string) (rest : list (xcond S)) => RStr (S := S) "string" s).
  - pose proof (xs_sql_app i done true b0 a rest HF) as F. pose proof (xs_sql_app i done true b0 a [] HF) as F0.
    pose proof (IH a n (deeps_in _ _ _ _ _ Hl Hd')) as HR.
    replace (match done with [] => true | _ => false end) with (length done =? 0) in * by (destruct done; reflexivity).
    sx in HR.
    ask (x_render_join i (length done =? 0) a); [ask (x_render_sql i a)|]; note HR; walk.
    all: try (rewrite Hl, F; reflexivity).
    all: apply H; eexists; split; [exact F0|]; unfold x_token; repeat hx; rewrite ?app_assoc_s, ?app_nil_r_s; reflexivity.
  - rewrite HF. cbn [bind of_res]. unfold wrap. destruct b, br; walk; repeat (hx || bx); reflexivity.
Qed.
End Tree.
