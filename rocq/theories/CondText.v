(** Placeholders in rendered conditions. *)
From Coq Require Import String Ascii List Bool Arith Lia.
From Verif Require Import GoStr Value Names Cond SqlSpec Spec StrFacts CondFacts.
Import ListNotations.
Local Open Scope string_scope.
Local Open Scope nat_scope.

(** * dollars and qmarks are compositional *)

Definition nd (s : string) : bool := match s with EmptyString => true | String c _ => negb (digit c) end.

Lemma dollars_from_app cur a b : nd b = true ->
  dollars_from cur (a ++ b) = (dollars_from cur a ++ dollars b)%list.
Proof.
  revert cur; induction a as [|c a IH]; intros cur Hb; simpl.
  - unfold dollars. destruct cur as [k|]; [|reflexivity]. destruct b as [|c b]; simpl in *; [reflexivity|].
    now rewrite (proj1 (negb_true_iff _) Hb).
  - destruct cur as [k|].
    + destruct (digit c); [now apply IH|]. simpl. f_equal. destruct (c =? "$")%char; now apply IH.
    + destruct (c =? "$")%char; now apply IH.
Qed.
Lemma dollars_app a b : nd b = true -> dollars (a ++ b) = (dollars a ++ dollars b)%list.
Proof. apply dollars_from_app. Qed.

Lemma lacks_cons c a s : lacks c (String a s) -> (a =? c)%char = false /\ lacks c s.
Proof.
  unfold lacks; simpl; intros H. split; [|intuition].
  apply not_true_iff_false; intros E%Ascii.eqb_eq. auto.
Qed.
Lemma dollars_lacks a b : lacks "$" a -> dollars (a ++ b) = dollars b.
Proof.
  unfold dollars; induction a as [|c a IH]; simpl; intros H; [reflexivity|].
  apply lacks_cons in H as [-> H]. auto.
Qed.

Lemma qmarks_from_app i a b : nd b = true -> qmarks_from i (a ++ b) = qmarks_from i a ++ qmarks b.
Proof.
  revert i; induction a as [|c a IH]; intros i Hb; simpl.
  - unfold qmarks. destruct b as [|c b]; simpl in *; [reflexivity|].
    rewrite (proj1 (negb_true_iff _) Hb). now rewrite andb_false_r.
  - destruct (c =? "$")%char; simpl; [now rewrite IH|].
    destruct (i && digit c); simpl; now rewrite IH.
Qed.
Lemma qmarks_app a b : nd b = true -> qmarks (a ++ b) = qmarks a ++ qmarks b.
Proof. apply qmarks_from_app. Qed.
Lemma qmarks_lacks a b : lacks "$" a -> qmarks (a ++ b) = a ++ qmarks b.
Proof.
  unfold qmarks; induction a as [|c a IH]; simpl; intros H; [reflexivity|].
  apply lacks_cons in H as [-> H]. simpl. now rewrite IH.
Qed.

Lemma lacks_app c a b : lacks c (a ++ b) <-> lacks c a /\ lacks c b.
Proof.
  unfold lacks, chars. replace (list_ascii_of_string (a ++ b)) with (list_ascii_of_string a ++ list_ascii_of_string b)%list.
  - rewrite in_app_iff. tauto.
  - induction a; simpl; congruence.
Qed.
Lemma lacks_nil c : lacks c "".
Proof. intros []. Qed.

Lemma dollars_digits s k : all_chars digit s = true ->
  dollars_from (Some k) s = [dec_val k s].
Proof.
  revert k; induction s as [|c s IH]; intros k; simpl; [auto|]. intros H%andb_true_iff; destruct H as [-> H]. auto.
Qed.
Lemma dollars_dollar n : dollars (dollar n) = [n].
Proof. unfold dollars, dollar; simpl. rewrite dollars_digits by apply itoa_digits. now rewrite itoa_val. Qed.
Lemma qmarks_digits s : all_chars digit s = true -> qmarks_from true s = "".
Proof.
  induction s as [|c s IH]; simpl; [auto|]. intros H%andb_true_iff; destruct H as [H1 H2].
  destruct (c =? "$")%char eqn:E; [apply Ascii.eqb_eq in E; subst; discriminate|]. simpl. rewrite H1. auto.
Qed.
Lemma qmarks_dollar n : qmarks (dollar n) = "?".
Proof. unfold qmarks, dollar; simpl. now rewrite qmarks_digits by apply itoa_digits. Qed.

(** * Leaves *)

Definition def_lacks (d : fdef) : Prop :=
  lacks "$" (f_name d) /\ lacks "$" (f_table d) /\ lacks "$" (f_alias d).

Lemma spec_lacks d : def_lacks d -> lacks "$" (render_spec d).
Proof.
  intros (Hn & Ht & Ha). unfold render_spec, GoStr.join.
  repeat match goal with |- context [if ?b then _ else _] => destruct b end; simpl;
    rewrite ?lacks_app; repeat split; auto using lacks_nil;
    unfold lacks; simpl; intuition congruence.
Qed.

(** The contract of the documentation (interfaces.go:46-60) for one leaf: Render
    numbers one placeholder per value, RenderSQL is the same text. *)
Definition leaf_contract (l : leaf) : Prop :=
  exists vs, leaf_values l = Ok vs /\
  match l_kind l with
  | KEq | KGt | KGe | KLt | KLe => def_lacks (l_def l) /\ length vs = 1
  | KLike | KILike | KIn | KNull => def_lacks (l_def l)
  | KCustom cu => forall n,
      dollars (cu_render cu (l_neg l) (l_def l) (l_val l) n) = seq (n + 1) (length vs) /\
      qmarks (cu_render cu (l_neg l) (l_def l) (l_val l) n) = cu_sql cu (l_neg l) (l_def l) (l_val l)
  end.

Lemma commas_dollars l : dollars (String.concat "," (map dollar l) ++ ")") = l.
Proof.
  induction l as [|a [|b l] IH]; [reflexivity| |].
  - cbn [map String.concat]. rewrite dollars_app by reflexivity. now rewrite dollars_dollar.
  - change (String.concat "," (map dollar (a :: b :: l)))
      with (dollar a ++ "," ++ String.concat "," (map dollar (b :: l))).
    rewrite !app_assoc_s, dollars_app by reflexivity.
    rewrite dollars_dollar, dollars_lacks, IH by (unfold lacks; simpl; intuition congruence).
    reflexivity.
Qed.
Lemma commas_qmarks l :
  qmarks (String.concat "," (map dollar l) ++ ")") = String.concat "," (map (fun _ => "?") l) ++ ")".
Proof.
  induction l as [|a [|b l] IH]; [reflexivity| |].
  - cbn [map String.concat]. rewrite qmarks_app by reflexivity. now rewrite qmarks_dollar.
  - change (String.concat "," (map dollar (a :: b :: l)))
      with (dollar a ++ "," ++ String.concat "," (map dollar (b :: l))).
    rewrite !app_assoc_s, qmarks_app by reflexivity.
    rewrite qmarks_dollar, qmarks_lacks, IH by (unfold lacks; simpl; intuition congruence).
    cbn [map String.concat]. now rewrite ?app_assoc_s.
Qed.

Lemma seq_shift_map n k : map (fun i => n + i + 1) (seq 0 k) = seq (n + 1) k.
Proof.
  assert (H : forall m, map (fun i => n + i + 1) (seq m k) = seq (n + m + 1) k).
  { induction k as [|k IH]; intros m; simpl; [reflexivity|]. f_equal. rewrite IH. f_equal; lia. }
  rewrite H. f_equal; lia.
Qed.

Lemma in_dollars n k :
  map (fun i => dollar (n + i + 1)) (seq 0 k) = map dollar (seq (n + 1) k).
Proof. rewrite <- seq_shift_map, map_map. reflexivity. Qed.

Ltac lacks_const := unfold lacks; simpl; intuition congruence.

Lemma leaf_dollars l n : leaf_contract l ->
  exists s s' vs, leaf_values l = Ok vs /\ leaf_render l n = Ok s /\ leaf_render_sql l = Ok s' /\
    dollars s = seq (n + 1) (length vs) /\ qmarks s = s'.
Proof.
  intros (vs & Ev & H). destruct l as [k j ng d v].
  assert (Hcmp : forall op, In op ["="; ">"; ">="; "<"; "<="] -> def_lacks d -> length vs = 1 ->
    dollars (cmp_render op (dollar (n + 1)) (mkLeaf k j ng d v)) = seq (n + 1) (length vs) /\
    qmarks (cmp_render op (dollar (n + 1)) (mkLeaf k j ng d v)) = cmp_render op "?" (mkLeaf k j ng d v)).
  { intros op Hop Hd Hl. rewrite Hl. apply spec_lacks in Hd. rewrite !cmp_text. cbn [l_neg l_def].
    assert (Ho : lacks "$" op) by (simpl in Hop; repeat (destruct Hop as [<-|Hop]; [lacks_const|]); destruct Hop).
    assert (Hn : lacks "$" (if ng then "NOT " else "")) by (destruct ng; lacks_const).
    rewrite !dollars_lacks, !qmarks_lacks by assumption. rewrite dollars_dollar, qmarks_dollar. auto. }
  assert (Hword : forall op ph ph', In op ["LIKE"; "ILIKE"; "IN"] -> def_lacks d ->
    dollars (word_render op ph (mkLeaf k j ng d v)) = dollars ph /\
    (qmarks ph = ph' -> qmarks (word_render op ph (mkLeaf k j ng d v)) = word_render op ph' (mkLeaf k j ng d v))).
  { intros op ph ph' Hop Hd. apply spec_lacks in Hd. rewrite !word_text. cbn [l_neg l_def].
    assert (Ho : lacks "$" op) by (simpl in Hop; repeat (destruct Hop as [<-|Hop]; [lacks_const|]); destruct Hop).
    assert (Hn : lacks "$" (if ng then " NOT " else " ")) by (destruct ng; lacks_const).
    assert (Hs : lacks "$" " ") by lacks_const.
    rewrite !dollars_lacks, !qmarks_lacks by assumption. split; [reflexivity|now intros <-]. }
  destruct k; unfold leaf_values, leaf_render, leaf_render_sql in *; cbn [l_kind l_neg l_def l_val] in *.
  1-5: destruct H as [Hd Hl]; eexists _, _, vs; (split; [exact Ev|split; [reflexivity|split; [reflexivity|]]]);
       apply Hcmp; simpl; auto 8.
  - destruct (Hword "LIKE" (dollar (n + 1)) "?") as [W1 W2]; [simpl; auto|exact H|].
    destruct v; try discriminate. injection Ev as <-.
    eexists _, _, _; (split; [reflexivity|split; [reflexivity|split; [reflexivity|split]]]);
    [rewrite W1; apply dollars_dollar|apply W2, qmarks_dollar].
  - destruct (Hword "ILIKE" (dollar (n + 1)) "?") as [W1 W2]; [simpl; auto|exact H|].
    destruct v; try discriminate. injection Ev as <-.
    eexists _, _, _; (split; [reflexivity|split; [reflexivity|split; [reflexivity|split]]]);
    [rewrite W1; apply dollars_dollar|apply W2, qmarks_dollar].
  - change (leaf_values (mkLeaf KIn j ng d v)) with (fv_values v). rewrite Ev; cbn [bind]. eexists _, _, vs; (split; [reflexivity|split; [reflexivity|split; [reflexivity|]]]).
    rewrite in_dollars. unfold GoStr.join.
    destruct (Hword "IN" ("(" ++ String.concat "," (map dollar (seq (n + 1) (length vs))) ++ ")")
                ("(" ++ String.concat "," (map (fun _ => "?") vs) ++ ")")) as [W1 W2]; [simpl; auto|exact H|].
    split; [rewrite W1|apply W2].
    + rewrite (dollars_lacks "(") by lacks_const. apply commas_dollars.
    + rewrite (qmarks_lacks "(") by lacks_const. rewrite commas_qmarks. do 3 f_equal.
      clear; generalize (n + 1); induction vs as [|x vs IH]; intros m; simpl; [reflexivity|]. f_equal; auto.
  - injection Ev as <-. exists (null_render (mkLeaf KNull j ng d v)), (null_render (mkLeaf KNull j ng d v)), [].
    apply spec_lacks in H. repeat split; rewrite null_text; cbn [l_neg l_def];
    rewrite ?dollars_lacks, ?qmarks_lacks by assumption; destruct ng; reflexivity.
  - destruct (H n) as [H1 H2]. eexists _, _, vs. repeat split; eauto.
Qed.

(** * Trees *)

(** Connectives are non-empty and free of '$' (AND, OR are). *)
Inductive joins_ok : cond -> Prop :=
| jo_leaf l : l_join l <> "" -> lacks "$" (l_join l) -> joins_ok (CLeaf l)
| jo_grp j n cs br : j <> "" -> lacks "$" j -> Forall joins_ok cs -> joins_ok (CGrp j n cs br).

Lemma joins_ok_jtype c : joins_ok c -> exists j, jtype c = Ok j /\ j <> "" /\ lacks "$" j.
Proof. inversion 1; subst; simpl; eauto. Qed.

Lemma joins_ok_no_nil c : joins_ok c -> no_nil c.
Proof.
  induction c as [|l|j n cs br IH] using cond_ind'; intros H; [inversion H|constructor|].
  inversion H; subst. constructor. rewrite Forall_forall in *. auto.
Qed.

Definition head_space (s : string) : Prop := s = "" \/ exists r, s = String " " r.
Lemma head_space_nd s : head_space s -> nd s = true.
Proof. intros [->|(r & ->)]; reflexivity. Qed.

Lemma wrap_dollars ng br many s : dollars (wrap ng br many s) = dollars s.
Proof.
  rewrite wrap_text. rewrite dollars_lacks by (destruct ng; lacks_const).
  destruct (br || ng && many); [|reflexivity].
  rewrite (dollars_lacks "(") by lacks_const. rewrite dollars_app by reflexivity. apply app_nil_r.
Qed.

Lemma wrap_qmarks ng br many s : qmarks (wrap ng br many s) = wrap ng br many (qmarks s).
Proof.
  rewrite !wrap_text. rewrite qmarks_lacks by (destruct ng; lacks_const).
  destruct (br || ng && many); [|reflexivity].
  rewrite (qmarks_lacks "(") by lacks_const. now rewrite qmarks_app by reflexivity.
Qed.

Lemma join_token_props first j : j <> "" -> lacks "$" j ->
  lacks "$" (join_token first j) /\ (first = false -> exists r, join_token first j = String " " r).
Proof.
  intros H Hl. unfold join_token, render_join. destruct first; simpl.
  - split; [apply lacks_nil|discriminate].
  - destruct j; [congruence|]. simpl is_empty; cbv iota. split; [|eauto].
    change (lacks "$" (" " ++ String a j ++ " ")). rewrite !lacks_app. repeat split; [lacks_const|exact Hl|lacks_const].
Qed.

Definition text_ok (c : cond) : Prop := forall n,
  exists s s' vs, c_values c = Ok vs /\ c_render c n = Ok s /\ c_render_sql c = Ok s' /\
    dollars s = seq (n + 1) (length vs) /\ qmarks s = s'.

Lemma render_list_text cs : Forall text_ok cs -> Forall joins_ok cs -> forall first n,
  exists s s' vss, mapM c_values cs = Ok vss /\ render_list first cs n = Ok s /\ render_sql_list first cs = Ok s' /\
    dollars s = seq (n + 1) (length (List.concat vss)) /\ qmarks s = s' /\ (first = false -> head_space s).
Proof.
  induction 1 as [|c cs Hc Hcs IH]; intros Hj first n.
  - exists "", "", []. repeat split; auto. now left.
  - inversion Hj as [|? ? Hj1 Hj2]; subst. specialize (IH Hj2).
    destruct (joins_ok_jtype _ Hj1) as (j & Ej & Hjn & Hjl).
    destruct (Hc n) as (s & s' & vs & Ev & Es & Es' & Ds & Qs).
    destruct (IH false (n + length vs)) as (r & r' & vss & Evs & Er & Er' & Dr & Qr & Hr).
    exists (join_token first j ++ s ++ r), (join_token first j ++ s' ++ r'), (vs :: vss).
    cbn [mapM render_list render_sql_list]. rewrite Ev, Ej, Es, Es', Evs. cbn [bind]. rewrite Er, Er'. cbn [bind].
    destruct (join_token_props first j Hjn Hjl) as [L1 L2].
    assert (Hnd : nd r = true) by (apply head_space_nd; auto).
    repeat split.
    + rewrite dollars_lacks, dollars_app, Ds, Dr by assumption. cbn [List.concat].
      rewrite app_length, seq_app. do 2 f_equal. lia.
    + rewrite qmarks_lacks, qmarks_app, Qs, Qr by assumption. reflexivity.
    + intros ->. destruct (L2 eq_refl) as (x & ->). right. simpl. eauto.
Qed.

Lemma tree_text c : joins_ok c -> (forall l, In l (leaves c) -> leaf_contract l) -> text_ok c.
Proof.
  induction c as [|l|j ng cs br IH] using cond_ind'; intros Hj Hl n.
  - inversion Hj.
  - apply leaf_dollars. apply Hl. simpl; auto.
  - inversion Hj as [|? ? ? ? Hj1 Hj2 Hj3]; subst.
    rewrite c_values_grp, c_render_grp, c_render_sql_grp.
    assert (HT : Forall text_ok cs).
    { rewrite Forall_forall in *. intros c Hc. apply IH; auto. intros l Hll. apply Hl. simpl.
      apply in_flat_map. eauto. }
    destruct cs as [|c cs].
    { exists "", "", []. repeat split; reflexivity. }
    destruct (render_list_text _ HT Hj3 true n) as (s & s' & vss & Evs & Er & Er' & Dr & Qr & _).
    rewrite Evs, Er, Er'; cbn [bind]. eexists _, _, _. repeat split.
    + rewrite wrap_dollars. exact Dr.
    + rewrite wrap_qmarks, Qr. reflexivity.
Qed.

(** * The text does not depend on the values *)

(** Two leaves that differ at most in the value, both values expanding to the same
    number of parameters (user-written conditions excluded: they render what they want). *)
Definition same_leaf (l l' : leaf) : Prop :=
  l_kind l' = l_kind l /\ l_join l' = l_join l /\ l_neg l' = l_neg l /\ l_def l' = l_def l /\
  (forall cu, l_kind l <> KCustom cu) /\
  exists vs vs', leaf_values l = Ok vs /\ leaf_values l' = Ok vs' /\ length vs' = length vs.

Inductive same_shape : cond -> cond -> Prop :=
| ss_leaf l l' : same_leaf l l' -> same_shape (CLeaf l) (CLeaf l')
| ss_grp j n cs cs' br : Forall2 same_shape cs cs' -> same_shape (CGrp j n cs br) (CGrp j n cs' br).

Definition same_text (c c' : cond) : Prop :=
  jtype c' = jtype c /\ (forall n, c_render c' n = c_render c n) /\ c_render_sql c' = c_render_sql c /\
  exists vs vs', c_values c = Ok vs /\ c_values c' = Ok vs' /\ length vs' = length vs.

Lemma same_leaf_text l l' : same_leaf l l' -> same_text (CLeaf l) (CLeaf l').
Proof.
  destruct l as [k j ng d v], l' as [k' j' ng' d' v'].
  intros (Hk & Hj & Hn & Hd & Hc & vs & vs' & E & E' & L). cbn [l_kind l_join l_neg l_def] in *. subst.
  split; [reflexivity|split; [|split; [|simpl; eauto]]].
  - intros n. simpl. unfold leaf_render; cbn [l_kind].
    destruct k; try reflexivity; [|now destruct (Hc cu)]. rewrite E, E'; simpl. rewrite L.
    now rewrite !word_text.
  - simpl. unfold leaf_render_sql; cbn [l_kind].
    destruct k; try reflexivity; [|now destruct (Hc cu)]. rewrite E, E'; simpl. rewrite !word_text.
    cbn [l_neg l_def]. do 8 f_equal. clear -L. revert vs L.
    induction vs' as [|x vs' IH]; intros [|y vs] L; simpl in *; try discriminate; [reflexivity|].
    f_equal. apply IH. congruence.
Qed.

Section SameInd.
  Variable P : cond -> cond -> Prop.
  Hypothesis Hleaf : forall l l', same_leaf l l' -> P (CLeaf l) (CLeaf l').
  Hypothesis Hgrp : forall j n cs cs' br, Forall2 P cs cs' -> P (CGrp j n cs br) (CGrp j n cs' br).
  Lemma same_shape_ind' c : forall c', same_shape c c' -> P c c'.
  Proof.
    induction c as [|l|j n cs br IH] using cond_ind'; intros c' H; inversion H as [|? ? ? ? ? HF]; subst; auto.
    apply Hgrp. clear H. revert IH. induction HF as [|x y cs cs' Hxy _ IHF]; intros IH; [constructor|].
    inversion IH; subst. constructor; auto.
  Qed.
End SameInd.

Lemma same_shape_text : forall c c', same_shape c c' -> same_text c c'.
Proof.
  apply (same_shape_ind' same_text); [exact same_leaf_text|].
  intros j ng cs cs' br H.
  assert (HR : forall first n, render_list first cs' n = render_list first cs n).
  { induction H as [|c c' cs cs' (Hj & Hr & _ & vs & vs' & E & E' & L) _ IH]; intros first n; [reflexivity|].
    simpl. rewrite Hj, Hr, E, E'. destruct (jtype c); [|reflexivity]. destruct (c_render c n); [|reflexivity].
    simpl. rewrite L, IH. reflexivity. }
  assert (HS : forall first, render_sql_list first cs' = render_sql_list first cs).
  { clear HR. induction H as [|c c' cs cs' (Hj & _ & Hr & vs & vs' & E & E' & L) _ IH]; intros first; [reflexivity|].
    simpl. rewrite Hj, Hr, IH; reflexivity. }
  assert (HL : length cs' = length cs) by (clear -H; induction H; simpl; congruence).
  split; [reflexivity|split; [|split]].
  - intros n. rewrite !c_render_grp, HR, HL. destruct H; reflexivity.
  - rewrite !c_render_sql_grp, HS, HL. destruct H; reflexivity.
  - clear HR HS HL. rewrite !c_values_grp.
    assert (K : exists l l', mapM c_values cs = Ok l /\ mapM c_values cs' = Ok l' /\
                             length (List.concat l') = length (List.concat l)).
    { induction H as [|c c' cs cs' (_ & _ & _ & vs & vs' & E & E' & L) _ (l & l' & El & El' & IH)].
      - now exists [], [].
      - exists (vs :: l), (vs' :: l'). simpl. rewrite E, E', El, El'. simpl. rewrite !app_length. auto. }
    destruct K as (l & l' & -> & -> & L). simpl. eauto.
Qed.
