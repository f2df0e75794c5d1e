(** select_many.go, run from its source: the statement, joins and ordering. *)
From Coq Require Import String Ascii List Bool Arith NArith ZArith Lia.
From Verif Require Import GoStr StrFacts Value Names Cond Build SrcAst SrcSem SrcProg Surface Open SrcFacts SrcNames SrcNamesB SrcNamesC SrcLoops SrcValues SrcConds SrcGroups SrcAddGroup SrcAdding SrcAddingB SrcAddingC SrcLeafRender SrcLeafSQL SrcTree SrcTreeRender SrcTreeSQL SrcWhere SrcBuilders SrcWrite SrcSelect SrcSelectB SrcBuild SrcMany.
Import ListNotations.
Local Open Scope string_scope.
Local Open Scope nat_scope.


Lemma join_snoc : forall l a, join ", " (l ++ [a]) = match l with [] => a | _ => join ", " l ++ ", " ++ a end.
Proof.
  intros l a. destruct l as [|b l]; [reflexivity|]. revert b. induction l as [|c l IH]; intros b; [reflexivity|].
  specialize (IH c). cbn [app] in IH |- *. change (join ", " (b :: c :: l ++ [a])) with (b ++ ", " ++ join ", " (c :: l ++ [a])). rewrite IH.
  change (join ", " (b :: c :: l)) with (b ++ ", " ++ join ", " (c :: l)). rewrite ?app_assoc_s. reflexivity.
Qed.
Lemma gvals_uint : forall {S} l o, (@gvals S l ++ [RInt "uint" (Z.of_N o)])%list = gvals (l ++ [VUint o])%list.
Proof. intros. unfold gvals. rewrite map_app. reflexivity. Qed.
Lemma limit_uint : forall l, (0 <? l)%Z = true -> (if (l <? 0)%Z then (l + 2 ^ 64)%Z else l) = Z.of_N (Z.to_N l).
Proof. intros l H. apply Z.ltb_lt in H. rewrite Z2N.id by lia. destruct (Z.ltb_spec l 0); lia. Qed.
Lemma no_order : forall os, (0 <? length os) = false -> order_clause os = "".
Proof. intros [|o os]; [reflexivity|discriminate]. Qed.
Lemma some_order : forall os, (0 <? length os) = true -> order_clause os = " ORDER BY " ++ join ", " (map s_render os).
Proof. intros [|o os]; [discriminate|reflexivity]. Qed.
Ltac known_page :=
  match goal with
  | |- context [(@gvals ?S ?l ++ [RInt "uint" (Z.of_N ?o)])%list] => rewrite (@gvals_uint S l o)
  | H : (0 <? ?l)%Z = true |- context [if (?l <? 0)%Z then (?l + 2 ^ 64)%Z else ?l] => rewrite (limit_uint l H)
  end.
Ltac known ::= first [known_page | known_joined | known_numbers | known_dispatch | known_joins | known_groups | known_sums | known_lists | known_base | known_names | known_build].
Ltac paged := repeat known_page; cbn [ok o_sql o_params o_err]; rewrite ?gvals_length; rewrite ?(no_order _ ltac:(eassumption)), ?(some_order _ ltac:(eassumption)); rewrite ?app_nil_r_s, ?app_assoc_s; reflexivity.

Section Many.
Context {S : Type} (i : impl S).
Lemma src_SelectManyBuilder_BuildQueryAndParams : forall n d m w, deep (of_xg w) <= d ->
  run i (S7 (d + n)) "SelectManyBuilder.BuildQueryAndParams" [of_msel m w] = of_res (of_out no_error) (x_m_build i m w).
Proof.
  intros n d [b o l os] w Hd. unfold x_m_build. cbn [m_base m_offset m_limit m_order].
  pose proof (src_BaseSelectBuilder_BuildQueryAndParams i n d b w Hd) as H1.
  assert (HN : forall r, x_b_build i b w = Ok r -> o_err r = None).
  { intros r. unfold x_b_build. destruct (nonempty (xg_cs w)); [|intros [= <-]; reflexivity].
    destruct (x_render i (of_xg w) 0); [|discriminate]. destruct (x_values i (of_xg w)); [|discriminate]. intros [= <-]; reflexivity. }
  destruct (x_b_build i b w) as [[sql ps e]|]; cbn [bind of_res of_out o_sql o_params o_err] in *.
  - specialize (HN _ eq_refl). cbn [o_err] in HN. subst e. unfold of_out in H1 |- *. cbn [o_sql o_params o_err] in H1. bopen. bopen_in H1. enter. walk.
    + lazymatch goal with |- at_ _ _ _ ?r => set (R := r) end.
      range (@of_fsort S) os "sql" (fun done rest : list fsort => RStr (S := S) "string" (sql ++ " ORDER BY " ++ join ", " (map s_render done))).
      * walk; (apply H; rewrite map_app; cbn [map]; rewrite join_snoc; destruct done; try discriminate; cbn [map]; rewrite ?app_assoc_s; reflexivity).
      * subst R. walk. all: paged.
    + paged.
    + paged.
    + paged.
    + paged.
  - bopen. bopen_in H1. enter. walk. reflexivity.
Qed.
End Many.
