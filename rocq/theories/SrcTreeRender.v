(** Render of every condition, however deeply its groups are nested, run from its source
    (group.go:231-261). *)
From Coq Require Import String Ascii List Bool Arith NArith ZArith Lia.
From Verif Require Import GoStr StrFacts Value Names Cond SrcAst SrcSem SrcProg Surface Open SrcFacts SrcNames SrcNamesB SrcNamesC SrcLoops SrcValues SrcConds SrcLeafRender SrcGroups SrcTree.
Import ListNotations.
Local Open Scope string_scope.
Local Open Scope nat_scope.

Definition xs_render {S} (i : impl S) :=
  fix go (first : bool) (cs : list (xcond S)) (n : nat) : res string :=
    match cs with
    | [] => Ok ""
    | c :: r =>
        do t <- x_render_join i first c;
        do s <- x_render i c n;
        do vs <- x_values i c;
        do rest <- go false r (n + length vs);
        Ok (x_token t ++ s ++ rest)
    end.
(** What has been written after some conditions, and the number of values used. *)
Fixpoint xs_part {S} (i : impl S) (first : bool) (cs : list (xcond S)) (n : nat) : res (string * nat) :=
  match cs with
  | [] => Ok ("", n)
  | c :: r =>
      do t <- x_render_join i first c;
      do s <- x_render i c n;
      do vs <- x_values i c;
      do p <- xs_part i false r (n + length vs);
      Ok (x_token t ++ s ++ fst p, snd p)
  end.
Lemma xs_render_part : forall {S} (i : impl S) cs first n,
  xs_render i first cs n = bind (xs_part i first cs n) (fun p => Ok (fst p)).
Proof.
  intros S i. induction cs as [|c cs IH]; intros first n; [reflexivity|].
  cbn [xs_render xs_part]. fold (xs_render i).
  destruct (x_render_join i first c); [|reflexivity]. cbn [bind].
  destruct (x_render i c n); [|reflexivity]. cbn [bind].
  destruct (x_values i c); [|reflexivity]. cbn [bind].
  rewrite IH. destruct (xs_part i false cs _); reflexivity.
Qed.
Lemma xs_part_app : forall {S} (i : impl S) done first n s m a rest, xs_part i first done n = Ok (s, m) ->
  xs_part i first (done ++ a :: rest) n =
  bind (x_render_join i (match done with [] => first | _ => false end) a) (fun t =>
  bind (x_render i a m) (fun s' =>
  bind (x_values i a) (fun vs =>
  bind (xs_part i false rest (m + length vs)) (fun p => Ok (s ++ x_token t ++ s' ++ fst p, snd p))))).
Proof.
  intros S i. induction done as [|b done IH]; intros first n s m a rest H.
  - inversion H; subst. reflexivity.
  - cbn [app xs_part] in *.
    destruct (x_render_join i first b) as [tb|]; [|discriminate]. cbn [bind] in *.
    destruct (x_render i b n) as [sb|]; [|discriminate]. cbn [bind] in *.
    destruct (x_values i b) as [vb|]; [|discriminate]. cbn [bind] in *.
    destruct (xs_part i false done (n + length vb)) as [[s1 m1]|] eqn:D; [|discriminate]. cbn [bind] in *.
    inversion H; subst. rewrite (IH _ _ _ _ a rest D). replace (match done with [] => false | _ => false end) with false by (destruct done; reflexivity).
    destruct (x_render_join i false a); [|reflexivity]. cbn [bind].
    destruct (x_render i a m); [|reflexivity]. cbn [bind].
    destruct (x_values i a) as [va|]; [|reflexivity]. cbn [bind].
    destruct (xs_part i false rest _); [|reflexivity]. cbn [bind fst snd]. rewrite !app_assoc_s. reflexivity.
Qed.

Ltac known ::= first [known_numbers | known_dispatch | known_sums | known_lists | known_base | known_names].

Section Tree.
Context {S : Type} (i : impl S).
Notation mcall n := (mcall i (run i n)).
Lemma object_Render : forall n (o : S) k,
  mcall n (of_x (XObj o)) "Render" [RInt "int" (Z.of_nat k)] = of_res (RStr "string") (wr_render i o k).
Proof.
  intros n o k. cbn [of_x]. unfold SrcSem.mcall, obj_call. cbn -[Z.leb]. 
  rewrite (proj2 (Z.leb_le 0 _)) by lia. rewrite Nat2Z.id. reflexivity.
Qed.
Lemma x_Render : forall d c n k, deep c <= d ->
  mcall (S4 (d + n)) (of_x c) "Render" [RInt "int" (Z.of_nat k)] = of_res (RStr "string") (x_render i c k).
Proof.
  induction d as [|d IH]; intros [|l|j b cs br|o] n k Hd; try apply leaf_Render; try (cbn in Hd; lia).
  1, 3: reflexivity.
  1, 3: apply object_Render.
  assert (Hd' : deeps cs <= d) by (apply le_S_n; exact Hd). clear Hd.
  change (Datatypes.S d + n) with (Datatypes.S (d + n)).
  destruct cs as [|c0 cs0].
  { change (run i (S5 (d + n)) "Group.Render" [of_group (mkXG j b [] br); RInt "int" (Z.of_nat k)] = Done (RStr "string" "")).
    unfold of_group; cbn [xg_join xg_neg xg_cs xg_br]. change (xvals (@nil (xcond S))) with (@nil (val S)). enter. walk; reflexivity. }
  change (run i (S5 (d + n)) "Group.Render" [of_group (mkXG j b (c0 :: cs0) br); RInt "int" (Z.of_nat k)] =
    of_res (RStr "string") (do sql <- xs_render i true (c0 :: cs0) k; Ok (wrap b br (1 <? length (c0 :: cs0)) sql))).
  rewrite xs_render_part. 
  assert (Hne : fact ((length (c0 :: cs0) =? 0) = false)) by reflexivity.
  set (cs := c0 :: cs0) in *. clearbody cs.
  unfold of_group; cbn [xg_join xg_neg xg_cs xg_br]. enter. walk.
  lazymatch goal with |- at_ _ _ (loop _ _ _ _ ?E0) _ =>
    eapply at_loop with (e := @of_x S) (l := cs)
      (Inv := fun done rest E => exists s m, xs_part i true done k = Ok (s, m) /\
         E = over "sql" (RStr "string" s) (over "parametersCount" (RInt "int" (Z.of_nat m)) E0))
  end.
  - exists "", k. split; reflexivity.
  - intros done a rest E Hl (s & m & HF & HE) H. over_in HE. subst E. over_in H. open. sx. cbn [map].
    pose proof (xs_part_app i done true k s m a rest HF) as F. pose proof (xs_part_app i done true k s m a [] HF) as F0.
    pose proof (IH a n m (deeps_in _ _ _ _ _ Hl Hd')) as HR.
    pose proof (x_Values i d a (Datatypes.S n) (deeps_in _ _ _ _ _ Hl Hd')) as HV. rewrite <- plus_n_Sm in HV.
    replace (match done with [] => true | _ => false end) with (length done =? 0) in * by (destruct done; reflexivity).
    sx in HR. sx in HV.
    ask (x_render_join i (length done =? 0) a); [ask (x_render i a m); [ask (x_values i a)|]|]; note HR; note HV; walk.
    all: try (rewrite Hl, F; reflexivity).
    all: apply H; do 2 eexists; split; [exact F0|]; cbn [fst snd]; unfold x_token; repeat hx; rewrite ?app_assoc_s, ?app_nil_r_s; reflexivity.
  - intros E (s & m & HF & HE). over_in HE. subst E. rewrite HF. cbn [bind of_res]. unfold wrap. destruct b, br; walk; repeat (hx || bx); reflexivity.
Qed.
End Tree.
