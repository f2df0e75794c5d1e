(** Group, JoinType.Join and the functions of operations.go, run from their source. *)
From Coq Require Import String Ascii List Bool Arith NArith ZArith Lia.
From Verif Require Import GoStr StrFacts Value Names Cond SrcAst SrcSem SrcProg Surface Open SrcFacts SrcNames SrcNamesB SrcNamesC SrcLoops SrcValues SrcConds.
Import ListNotations.
Local Open Scope string_scope.
Local Open Scope nat_scope.

(** Conditions and groups as the source has them. *)
Definition xvals {S} (cs : list (xcond S)) : list (val S) := map of_x cs.
Definition of_group {S} (g : xgroup S) : val S :=
  RStruct "Group"
    [("BaseCondition", of_base (xg_join g) (xg_neg g)); ("conditions", RSlice (xvals (xg_cs g)));
     ("withBrackets", RBool (xg_br g))].
Lemma xvals_length : forall {S} (cs : list (xcond S)), length (xvals cs) = length cs.
Proof. intros. apply map_length. Qed.
Lemma of_x_group : forall {S} (g : xgroup S), of_x (of_xg g) = of_group g.
Proof. destruct g. reflexivity. Qed.
Lemma group_of_leaf : forall {S} l, type_is (@of_leaf S l) (TyName "Group") = false.
Proof. intros S [[] j b d v]; reflexivity. Qed.

Lemma values_of_x : forall {S} (c : xcond S), values_of (of_x c) = [of_x c].
Proof. intros S [|[[] j b d v]|j b cs br|o]; reflexivity. Qed.

Ltac known ::= first [known_numbers | known_sums | known_lists | known_base | known_names].

Ltac split_in X ::=
  match X with
  | context [match ?r with Ok _ => _ | Panic => _ end] => destruct r eqn:?
  | context [if ?b then _ else _] => on_atom b
  end.

Section Dispatch.
Context {S : Type} (i : impl S).
Notation mcall n := (mcall i (run i n)).
Lemma x_JoinType : forall n c,
  mcall (S1 n) (of_x c) "JoinType" [] = of_res (RStr "JoinType") (x_jtype i c).
Proof. intros n [|l|j b cs br|o]; [reflexivity|apply leaf_JoinType| |reflexivity]. cbn [of_x x_jtype]. calc. reflexivity. Qed.
Lemma x_RenderJoin : forall n c f,
  mcall (S1 n) (of_x c) "RenderJoin" [RBool f] = of_res (RStr "string") (x_render_join i f c).
Proof. intros n [|l|j b cs br|o] f; [reflexivity|apply leaf_RenderJoin| |reflexivity]. cbn [of_x x_render_join]. calc. reflexivity. Qed.
Lemma src_Group_Join : forall n j b cs br y k,
  run i (S2 n) "Group.Join" [of_group (mkXG j b cs br); RStr y k] = Done (of_group (mkXG k b cs br)).
Proof. unfold of_group. enter. walk. reflexivity. Qed.
Lemma src_Group_Negate : forall n j b cs br k,
  run i (S2 n) "Group.Negate" [of_group (mkXG j b cs br); RBool k] = Done (of_group (mkXG j k cs br)).
Proof. unfold of_group. enter. walk. reflexivity. Qed.
Lemma src_Group_WithBrackets : forall n g,
  run i (S1 n) "Group.WithBrackets" [of_group g] = Done (of_group (x_brackets g)).
Proof. unfold of_group. enter. walk. reflexivity. Qed.
Lemma src_Group_FieldName : forall n g,
  run i (S1 n) "Group.FieldName" [of_group g] = Done (RStr "FieldName" "").
Proof. unfold of_group. enter. walk. reflexivity. Qed.
Lemma x_Join : forall n c y j,
  mcall (S2 n) (of_x c) "Join" [RStr y j] = of_res of_x (x_join i j c).
Proof.
  intros n [|l|j' b cs br|o] y j; [reflexivity|apply leaf_Join| |reflexivity].
  exact (src_Group_Join n j' b cs br y j).
Qed.
Lemma x_Negate : forall n c b,
  mcall (S2 n) (of_x c) "Negate" [RBool b] = of_res of_x (x_negate i b c).
Proof.
  intros n [|l|j' b' cs br|o] b; [reflexivity|apply leaf_Negate| |reflexivity].
  exact (src_Group_Negate n j' b' cs br b).
Qed.
End Dispatch.

Ltac known_dispatch :=
  match goal with
  | |- context [mcall ?i _ (of_x ?c) ?m _] =>
    lazymatch m with
    | "JoinType" => rewrite (x_JoinType i)
    | "RenderJoin" => rewrite (x_RenderJoin i)
    | "Join" => rewrite (x_Join i)
    | "Negate" => rewrite (x_Negate i)
    end
  | |- context [values_of (of_x ?c)] => rewrite (values_of_x c)
  | |- context [update (xvals ?p ++ ?x :: ?r)%list (length ?d) ?w] =>
    rewrite (update_at (xvals p) x r w (length d)) by (rewrite ?xvals_length; congruence)
  | |- context [length (xvals ?l)] => rewrite (xvals_length l)
  end.
Ltac known ::= first [known_numbers | known_dispatch | known_sums | known_lists | known_base | known_names].

Section Joins.
Context {S : Type} (i : impl S).
Lemma src_Not : forall n c,
  run i (S3 n) "Not" [of_x c] = of_res of_x (x_not i c).
Proof. unfold x_not. enter. walk; reflexivity. Qed.
Lemma src_JoinType_Join_one : forall n y j c,
  run i (S3 n) "JoinType.Join" [RStr y j; of_x c] = of_res of_x (x_join i j c).
Proof. enter. walk; reflexivity. Qed.
Lemma src_JoinType_SetToAll : forall n y j cs,
  run i (S4 n) "JoinType.SetToAll" (RStr y j :: xvals cs) = of_res (fun l => RSlice (xvals l)) (mapM (x_join i j) cs).
Proof.
  enter. walk. rewrite repeat_map.
  range_res (@of_x S) cs "result" (mapM (x_join i j)) (fun (ds rest : list (xcond S)) =>
      RSlice (S := S) (xvals ds ++ map (fun _ => RNil) rest)).
  - pose proof (mapM_length _ _ _ HF) as L. pose proof (mapM_app_s _ done b rest a HF) as F.
    pose proof (mapM_app_s _ done b [] a HF) as F0.
    pose proof (src_JoinType_Join_one n "JoinType" j a) as HJ.
    destruct (x_join i j a) as [a'|] eqn:Ha; cbn [of_res] in HJ; note HJ; walk.
    + apply H. exists (b ++ [a'])%list. split; [exact F0|]. unfold xvals. grown.
    + rewrite Hl, F. reflexivity.
  - walk. rewrite HF. reflexivity.
Qed.
End Joins.

(** What a value stands for. *)
Ltac xlist_of l :=
  lazymatch l with
  | xvals ?cs => constr:(cs)
  | map of_x ?cs => constr:(cs)
  | (?a ++ ?b)%list => let x := xlist_of a in let y := xlist_of b in constr:((x ++ y)%list)
  | ?v :: ?r => let x := xcond_of v in let y := xlist_of r in constr:(x :: y)
  | @nil (val ?S) => constr:(@nil (xcond S))
  end
with xcond_of v :=
  lazymatch v with
  | of_x ?c => constr:(c)
  | RStruct "Group" [(_, RStruct _ [(_, RStr _ ?j); (_, RBool ?b)]); (_, RSlice ?l); (_, RBool ?br)] =>
    let cs := xlist_of l in constr:(XGrp j b cs br)
  end.
Ltac xgroup_of v :=
  lazymatch v with
  | RStruct "Group" [(_, RStruct _ [(_, RStr _ ?j); (_, RBool ?b)]); (_, RSlice ?l); (_, RBool ?br)] =>
    let cs := xlist_of l in constr:(mkXG j b cs br)
  end.
Ltac same_vals := unfold of_group, of_xg; cbn [of_x map app x_set_cs x_set_join x_brackets xg_join xg_neg xg_cs xg_br]; unfold xvals; cbn [map app]; rewrite ?map_app; reflexivity.
(** [L] says how [v] ends up, for the group or the conditions [x] that [v] stands for. *)
Ltac use_as L x v :=
  let y := fresh "Use" in pose proof L as y;
  replace x with v in y by same_vals; cbn [x_join x_negate] in y; sx in y;
  unfold of_group in y; cbn [xg_join xg_neg xg_cs xg_br] in y; rewrite y; clear y; try ex.

Ltac known_joins :=
  match goal with
  | |- context [run ?i _ ?f ?vs] =>
    lazymatch f with
    | "JoinType.Join" =>
      lazymatch vs with
      | [RStr ?y ?j; ?v] => let c := xcond_of v in use_as (fun n => src_JoinType_Join_one i n y j c) (of_x c) v
      end
    | "JoinType.SetToAll" =>
      lazymatch vs with
      | RStr ?y ?j :: ?l => let cs := xlist_of l in use_as (fun n => src_JoinType_SetToAll i n y j cs) (xvals cs) l
      end
    | "Group.WithBrackets" =>
      lazymatch vs with
      | [?v] => let g := xgroup_of v in use_as (fun n => src_Group_WithBrackets i n g) (of_group g) v
      end
    end
  end.
Ltac known ::= first [known_numbers | known_dispatch | known_joins | known_sums | known_lists | known_base | known_names].

Section NewGroup.
Context {S : Type} (i : impl S).
Lemma src_NewGroup : forall n y j cs,
  run i (S5 n) "NewGroup" (RStr y j :: xvals cs) = of_res of_group (x_new_group i j cs).
Proof.
  intros n y j cs. unfold x_new_group. destruct cs as [|c cs].
  - change (xvals (@nil (xcond S))) with (@nil (val S)). enter. walk; reflexivity.
  - change (xvals (c :: cs)) with (of_x c :: xvals cs). enter. walk; reflexivity.
Qed.
Lemma src_JoinType_Join : forall n y j cs,
  run i (S6 n) "JoinType.Join" (RStr y j :: xvals cs) = of_res of_x (x_jt_join i j cs).
Proof.
  intros n y j [|c [|c' cs]].
  - change (xvals (@nil (xcond S))) with (@nil (val S)). enter. walk. reflexivity.
  - apply (src_JoinType_Join_one i).
  - pose proof (src_NewGroup n "JoinType" j (c :: c' :: cs)) as H. unfold x_jt_join.
    change (xvals (c :: c' :: cs)) with (of_x c :: of_x c' :: xvals cs) in *.
    destruct (x_new_group i j (c :: c' :: cs)) as [[jj bb ll br]|]; cbn [of_res bind] in H |- *; note H; enter; walk; reflexivity.
Qed.

(** ** hasAll and hasOne *)
Lemma all_join_app : forall j r a rest, x_all_join i j r = Ok true ->
  x_all_join i j (r ++ a :: rest) = bind (x_jtype i a) (fun t => if str_eqb t j then x_all_join i j rest else Ok false).
Proof.
  intros j. induction r as [|b r IH]; intros a rest H; [reflexivity|].
  cbn [x_all_join app] in *. destruct (x_jtype i b); [|discriminate]. cbn [bind] in *.
  destruct (str_eqb a0 j); [|discriminate]. apply IH. exact H.
Qed.
Lemma one_join_app : forall j r a rest, x_one_join i j r = Ok false ->
  x_one_join i j (r ++ a :: rest) = bind (x_jtype i a) (fun t => if str_eqb t j then Ok true else x_one_join i j rest).
Proof.
  intros j. induction r as [|b r IH]; intros a rest H; [reflexivity|].
  cbn [x_one_join app] in *. destruct (x_jtype i b); [|discriminate]. cbn [bind] in *.
  destruct (str_eqb a0 j); [discriminate|]. apply IH. exact H.
Qed.
Lemma src_Group_hasAll : forall n g y j,
  run i (S2 n) "Group.hasAll" [of_group g; RStr y j] = of_res RBool (x_has_all i g j).
Proof.
  intros n [jj bb cs br] y j. unfold of_group, x_has_all. cbn [xg_join xg_neg xg_cs xg_br]. enter. walk.
  lazymatch goal with |- at_ _ _ (loop _ _ _ _ ?E0) _ =>
    eapply at_loop with (e := @of_x S) (l := cs)
      (Inv := fun done rest E => E = E0 /\ match done with [] => True | _ :: r => x_all_join i j r = Ok true end)
  end.
  - split; [reflexivity|exact I].
  - intros done a rest E Hl [-> HI] H. sx. destruct done as [|d done].
    + cbn [length]. walk. apply H. split; reflexivity.
    + assert (F : x_all_join i j (done ++ a :: rest) = bind (x_jtype i a) (fun t => if str_eqb t j then x_all_join i j rest else Ok false))
        by exact (all_join_app j done a rest HI).
      assert (F0 : x_all_join i j (done ++ [a]) = bind (x_jtype i a) (fun t => if str_eqb t j then Ok true else Ok false))
        by exact (all_join_app j done a [] HI).
      cbn [app] in H.
      change (length (d :: done)) with (Datatypes.S (length done)) in *.
      walk.
      all: first [ apply H; split; [reflexivity|rewrite F0; cbn [bind]; repeat hx; reflexivity]
                 | rewrite Hl; cbn [app]; rewrite F; cbn [bind]; repeat (hx || bx); reflexivity ].
  - intros E [-> HI]. walk. destruct cs as [|c cs]; [reflexivity|]. rewrite HI. reflexivity.
Qed.
Lemma src_Group_hasOne : forall n g y j,
  run i (S2 n) "Group.hasOne" [of_group g; RStr y j] = of_res RBool (x_has_one i g j).
Proof.
  intros n [jj bb cs br] y j. unfold of_group, x_has_one. cbn [xg_join xg_neg xg_cs xg_br]. enter. walk.
  lazymatch goal with |- at_ _ _ (loop _ _ _ _ ?E0) _ =>
    eapply at_loop with (e := @of_x S) (l := cs)
      (Inv := fun done rest E => E = E0 /\ match done with [] => True | _ :: r => x_one_join i j r = Ok false end)
  end.
  - split; [reflexivity|exact I].
  - intros done a rest E Hl [-> HI] H. sx. destruct done as [|d done].
    + cbn [length]. walk. apply H. split; reflexivity.
    + assert (F : x_one_join i j (done ++ a :: rest) = bind (x_jtype i a) (fun t => if str_eqb t j then Ok true else x_one_join i j rest))
        by exact (one_join_app j done a rest HI).
      assert (F0 : x_one_join i j (done ++ [a]) = bind (x_jtype i a) (fun t => if str_eqb t j then Ok true else Ok false))
        by exact (one_join_app j done a [] HI).
      cbn [app] in H.
      change (length (d :: done)) with (Datatypes.S (length done)) in *.
      walk.
      all: first [ apply H; split; [reflexivity|rewrite F0; cbn [bind]; repeat hx; reflexivity]
                 | rewrite Hl; cbn [app]; rewrite F; cbn [bind]; repeat (hx || bx); reflexivity ].
  - intros E [-> HI]. walk. destruct cs as [|c cs]; [reflexivity|]. rewrite HI. reflexivity.
Qed.
End NewGroup.

Ltac known_groups :=
  match goal with
  | |- context [run ?i _ ?f ?vs] =>
    lazymatch f with
    | "NewGroup" =>
      lazymatch vs with
      | RStr ?y ?j :: ?l => let cs := xlist_of l in use_as (fun n => src_NewGroup i n y j cs) (xvals cs) l
      end
    | "Group.hasAll" =>
      lazymatch vs with
      | [?v; RStr ?y ?j] => let g := xgroup_of v in use_as (fun n => src_Group_hasAll i n g y j) (of_group g) v
      end
    | "Group.hasOne" =>
      lazymatch vs with
      | [?v; RStr ?y ?j] => let g := xgroup_of v in use_as (fun n => src_Group_hasOne i n g y j) (of_group g) v
      end
    end
  end.
Ltac known ::= first [known_numbers | known_dispatch | known_joins | known_groups | known_sums | known_lists | known_base | known_names].

(** A question that a group may not survive. *)
Ltac ask q := let b := fresh "b" in let H := fresh "Ask" in destruct q as [b|] eqn:H; note H.
Ltac asked :=
  repeat (match goal with H : fact (?x = ?y) |- _ => unfold fact in H; rewrite H; clear H end; cbn [bind of_res x_jt_join]).

(** The end of a walk: the answers and the conditions that were met. *)
Ltac settle_most :=
  cbn [x_jt_join];
  repeat (progress (asked;
    repeat match goal with
    | H : _ = true |- _ => rewrite H; clear H
    | H : _ = false |- _ => rewrite H; clear H
    end;
    cbn [andb negb orb of_res bind x_jt_join])).
Ltac settle := settle_most; same_vals.
Ltac settle_groups :=
  settle_most; cbn [x_jt_join of_xg x_join x_brackets x_set_cs x_set_join xg_join xg_neg xg_cs xg_br of_res bind]; same_vals.
