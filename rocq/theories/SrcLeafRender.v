(** Render of the nine condition types of lib_*.go, run from their source. *)
From Coq Require Import String Ascii List Bool Arith NArith ZArith Lia.
From Verif Require Import GoStr StrFacts Value Names Cond SrcAst SrcSem SrcProg Surface Open SrcFacts SrcNames SrcNamesB SrcNamesC SrcLoops SrcValues SrcConds.
Import ListNotations.
Local Open Scope string_scope.
Local Open Scope nat_scope.

Ltac known ::= first [known_numbers | known_sums | known_lists | known_base | known_names].

Ltac sx ::= sx_some.
Section Renders.
Context {S : Type} (i : impl S).
Notation val := (val S).
Notation mcall n := (mcall i (run i n)).
Ltac leaf_case := cbn [of_leaf l_kind l_join l_neg l_def l_val kind_type]; unfold SrcSem.mcall; sx.
Lemma leaf_Render : forall n l k,
  mcall (S4 n) (of_leaf l) "Render" [RInt "int" (Z.of_nat k)] = of_res (RStr "string") (leaf_render l k).
Proof.
  intros n [k j b d v] m; destruct k; leaf_case.
  1-7: destruct b; unfold leaf_render, cmp_render, word_render; enter; walk; rewrite ?app_assoc_s; reflexivity.
  - destruct (fv_values v) as [vs|] eqn:F; note F; destruct b;
      unfold leaf_render, leaf_values, word_render; cbn [l_kind l_val]; enter; walk; unfold fact in F; rewrite F; cbn [bind of_res]; try reflexivity.
    all: rewrite repeat_map;
      range (@of_gval S) vs "placeholders" (fun done rest : list gval =>
        RSlice (S := S) (map (fun k => RStr "string" (dollar (m + k + 1))) (seq 0 (length done)) ++ map (fun _ => RStr "string" "") rest));
      walk; [|reflexivity].
    all: apply H; rewrite app_length, seq_app, map_app, <- app_assoc; reflexivity.
  - pose proof (null_RenderSQL i n j b d v) as H. cbn [of_leaf l_kind l_join l_neg l_def l_val] in H.
    open. sx in H. note H. enter. walk. reflexivity.
  - cbn [of_leaf]. unfold user_call. rewrite (proj2 (Z.leb_le 0 _)) by lia. rewrite Nat2Z.id. reflexivity.
Qed.
End Renders.
Ltac sx ::= sx_all.
