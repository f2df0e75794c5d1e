(** RenderSQL of the nine condition types of lib_*.go, run from their source. *)
From Coq Require Import String Ascii List Bool Arith NArith ZArith Lia.
From Verif Require Import GoStr StrFacts Value Names Cond SrcAst SrcSem SrcProg Surface Open SrcFacts SrcNames SrcNamesB SrcNamesC SrcLoops SrcValues SrcConds.
Import ListNotations.
Local Open Scope string_scope.
Local Open Scope nat_scope.

Ltac known ::= first [known_numbers | known_sums | known_lists | known_base | known_names].

Ltac sx ::= sx_some.
Section Renders.
Context {S : Type} (i : impl S).
Notation val := (val S).
Notation mcall n := (mcall i (run i n)).
Ltac leaf_case := cbn [of_leaf l_kind l_join l_neg l_def l_val kind_type]; unfold SrcSem.mcall; sx.
Lemma leaf_RenderSQL : forall n l,
  mcall (S4 n) (of_leaf l) "RenderSQL" [] = of_res (RStr "string") (leaf_render_sql l).
Proof.
  intros n [k j b d v]; destruct k; leaf_case.
  1-7: destruct b; unfold leaf_render_sql, cmp_render, word_render; enter; walk; rewrite ?app_assoc_s; reflexivity.
  - destruct (fv_values v) as [vs|] eqn:F; note F; destruct b;
      unfold leaf_render_sql, leaf_values, word_render; cbn [l_kind l_val]; enter; walk; unfold fact in F; rewrite F; cbn [bind of_res]; try reflexivity.
    all: rewrite repeat_map;
      range (@of_gval S) vs "placeholders" (fun done rest : list gval =>
        RSlice (S := S) (map (fun k => RStr "string" "?") done ++ map (fun _ => RStr "string" "") rest));
      walk; [|reflexivity].
    all: apply H; grown.
  - exact (null_RenderSQL i (Datatypes.S n) j b d v).
  - reflexivity.
Qed.
End Renders.
Ltac sx ::= sx_all.
