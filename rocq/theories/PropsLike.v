(** What Contains and IContains search for. *)
From Coq Require Import String Ascii List Bool Arith Lia NArith ZArith.
From Verif Require Import GoStr Value Names Cond Build Surface SqlSpec Spec LikeSpec StrFacts.
Import ListNotations.
Local Open Scope string_scope.
Local Open Scope nat_scope.

Lemma like_char_inv c p t : special c = false -> Like (String c p) t -> exists r, t = String c r /\ Like p r.
Proof. intros H L. inversion L; subst; try discriminate. eauto. Qed.
Lemma like_tail t : Like "%" t.
Proof. rewrite <- (app_nil_r_s t). constructor. constructor. Qed.
Lemma like_literal s : literal s = true -> forall t, Like (s ++ "%") t <-> exists b, t = s ++ b.
Proof.
  induction s as [|c s IH]; intros H t.
  - split; [intros _; now exists t|intros _; apply like_tail].
  - cbn [literal] in H. apply andb_true_iff in H as [Hc H]. apply negb_true_iff in Hc. cbn [append]. split.
    + intros L. apply (like_char_inv c) in L as (r & -> & L); [|exact Hc]. apply (IH H) in L as (b & ->). now exists b.
    + intros (b & ->). apply lk_char; [exact Hc|]. apply (IH H). now exists b.
Qed.
Lemma like_contains s : literal s = true -> forall t, Like ("%" ++ s ++ "%") t <-> substring_of s t.
Proof.
  intros H t. split.
  - intros L. inversion L as [|a p u Lu| | |c p u Hc]; subst; [|discriminate]. apply (like_literal s H) in Lu as (b & ->). now exists a, b.
  - intros (a & b & ->). apply (lk_any a). apply (like_literal s H). now exists b.
Qed.

(** the shortest kind of text a pattern matches *)
Fixpoint canon (s : string) : string :=
  match s with
  | EmptyString => ""
  | String c r =>
      if (c =? "%")%char then canon r
      else if (c =? "_")%char then String "x" (canon r)
      else if (c =? "\")%char then match r with EmptyString => "%" | String d r' => String d (canon r') end
      else String c (canon r)
  end.
Lemma canon_like n : forall s, String.length s <= n -> Like (s ++ "%") (canon s).
Proof.
  induction n as [|n IH]; intros s Hn; [destruct s; [apply like_tail|simpl in Hn; lia]|].
  destruct s as [|c r]; [apply like_tail|]. cbn [String.length] in Hn. cbn [canon append].
  destruct (Ascii.eqb_spec c "%"); [subst; apply (lk_any ""); apply IH; lia|].
  destruct (Ascii.eqb_spec c "_"); [subst; apply lk_one; apply IH; lia|].
  destruct (Ascii.eqb_spec c "\").
  - subst. destruct r as [|d r']; cbn [append]; [apply (lk_esc "%" "" ""); constructor|]. apply lk_esc. apply IH. cbn [String.length] in Hn. lia.
  - apply lk_char; [|apply IH; lia]. unfold special. apply Ascii.eqb_neq in n0, n1, n2. now rewrite n0, n1, n2.
Qed.
Lemma canon_length n : forall s, String.length s <= n -> String.length (canon s) <= String.length s.
Proof.
  induction n as [|n IH]; intros s Hn; [destruct s; [reflexivity|simpl in Hn; lia]|].
  destruct s as [|c r]; [reflexivity|]. cbn [String.length] in *. cbn [canon]. pose proof (IH r).
  destruct (Ascii.eqb c "%"); [lia|]. destruct (Ascii.eqb c "_"); [cbn [String.length]; lia|].
  destruct (Ascii.eqb c "\"); [|cbn [String.length]; lia]. destruct r as [|d r']; [reflexivity|].
  cbn [String.length] in *. pose proof (IH r'). lia.
Qed.
Lemma canon_fixed n : forall s, String.length s <= n -> canon s = s -> literal s = true.
Proof.
  induction n as [|n IH]; intros s Hn E; [destruct s; [reflexivity|simpl in Hn; lia]|].
  destruct s as [|c r]; [reflexivity|]. cbn [String.length] in Hn. cbn [canon literal] in *. unfold special.
  pose proof (canon_length n r ltac:(lia)) as L.
  destruct (Ascii.eqb_spec c "%"); [rewrite E in L; cbn [String.length] in L; lia|].
  destruct (Ascii.eqb_spec c "_"); [injection E as E _; subst; discriminate|].
  destruct (Ascii.eqb_spec c "\").
  - destruct r as [|d r']; [subst; discriminate|]. injection E as _ E. cbn [String.length] in *.
    pose proof (canon_length n r' ltac:(lia)) as L'. rewrite E in L'. cbn [String.length] in L'. lia.
  - injection E as E. cbn [orb negb andb]. apply IH; [lia|exact E].
Qed.
Lemma substring_length s t : substring_of s t -> String.length t <= String.length s -> t = s.
Proof.
  intros (a & b & ->) H. assert (L : forall x y, String.length (x ++ y) = String.length x + String.length y).
  { induction x; intros y; cbn [append String.length]; [reflexivity|]. now rewrite IHx. }
  rewrite !L in H. destruct a; [|simpl in H; lia]. destruct b; [|simpl in H; lia]. cbn [append]. apply app_nil_r_s.
Qed.
Lemma contains_literal s : (forall t, Like ("%" ++ s ++ "%") t <-> substring_of s t) -> literal s = true.
Proof.
  intros H. apply (canon_fixed (String.length s)); [reflexivity|]. apply substring_length.
  - apply H. apply (lk_any ""). now apply (canon_like (String.length s)).
  - now apply (canon_length (String.length s)).
Qed.
Lemma lower_app a b : lower (a ++ b) = lower a ++ lower b.
Proof. induction a; cbn [append lower]; [reflexivity|]. now rewrite IHa. Qed.
Lemma low_special c : special (low c) = special c.
Proof.
  assert (H : forallb (fun n => Bool.eqb (special (low (ascii_of_nat n))) (special (ascii_of_nat n))) (seq 0 256) = true) by (vm_compute; reflexivity).
  rewrite forallb_forall in H. specialize (H (nat_of_ascii c)). rewrite ascii_nat_embedding in H. apply eqb_prop, H. apply in_seq.
  pose proof (nat_ascii_bounded c). lia.
Qed.
Lemma lower_literal s : literal (lower s) = literal s.
Proof. induction s as [|c s IH]; [reflexivity|]. cbn [lower literal]. now rewrite low_special, IH. Qed.
Lemma low_low c : low (low c) = low c.
Proof.
  assert (H : forallb (fun n => Ascii.eqb (low (low (ascii_of_nat n))) (low (ascii_of_nat n))) (seq 0 256) = true) by (vm_compute; reflexivity).
  rewrite forallb_forall in H. specialize (H (nat_of_ascii c)). rewrite ascii_nat_embedding in H. apply Ascii.eqb_eq, H. apply in_seq.
  pose proof (nat_ascii_bounded c). lia.
Qed.
Lemma lower_lower s : lower (lower s) = lower s.
Proof. induction s as [|c s IH]; [reflexivity|]. cbn [lower]. now rewrite low_low, IH. Qed.
Lemma lower_canon n : forall s, String.length s <= n -> lower s = s -> lower (canon s) = canon s.
Proof.
  induction n as [|n IH]; intros s Hn E; [destruct s; [reflexivity|simpl in Hn; lia]|].
  destruct s as [|c r]; [reflexivity|]. cbn [String.length] in Hn. cbn [lower] in E. injection E as Ec Er. cbn [canon].
  destruct (Ascii.eqb c "%"); [apply IH; [lia|exact Er]|]. destruct (Ascii.eqb c "_"); [cbn [lower]; now rewrite (IH r ltac:(lia) Er)|].
  destruct (Ascii.eqb c "\"); [|cbn [lower]; now rewrite Ec, (IH r ltac:(lia) Er)]. destruct r as [|d r']; [reflexivity|].
  cbn [lower String.length] in *. injection Er as Ed Er. rewrite Ed. now rewrite (IH r' ltac:(lia) Er).
Qed.
Lemma icontains_literal s : (forall t, ILike ("%" ++ s ++ "%") t <-> substring_of (lower s) (lower t)) -> literal s = true.
Proof.
  intros H. rewrite <- lower_literal. apply (canon_fixed (String.length (lower s))); [reflexivity|].
  assert (L : lower (canon (lower s)) = canon (lower s)) by (apply (lower_canon (String.length (lower s))); [reflexivity|apply lower_lower]).
  apply substring_length.
  - rewrite <- L at 1. apply H. unfold ILike. rewrite !lower_app, L. apply (lk_any ""). now apply (canon_like (String.length (lower s))).
  - now apply (canon_length (String.length (lower s))).
Qed.

(** * C58 Contains is a substring test *)

(** Full statement (false): the value bound by Contains(f, s) is a LIKE pattern that
    matches exactly the texts containing s.  Wildcards in s are not escaped. *)
Theorem C58_refuted : exists s c p t, contains_ "f" s = Ok c /\ c_values c = Ok [VStr p] /\ Like p t /\ ~ substring_of s t.
Proof.
  eexists "_", _, _, "a". split; [vm_compute; reflexivity|]. split; [vm_compute; reflexivity|]. split.
  - apply (lk_any ""). apply lk_one. apply like_tail.
  - intros H. apply substring_length in H; [discriminate|reflexivity].
Qed.
Print Assumptions C58_refuted.

(** Proved part, exact: it is the substring test if and only if s has no percent sign,
    underscore and backslash; negating the condition does not change the value.  IContains
    is the same in lower case. *)
Theorem C58_contains_partial : forall fn s b c0 c, contains_ fn s = Ok c0 -> c_negate b c0 = Ok c ->
  exists p, c_values c = Ok [VStr p] /\ ((forall t, Like p t <-> substring_of s t) <-> literal s = true).
Proof.
  intros fn s b c0 c E En. unfold contains_, mk_cond, new_field_value in E. destruct (field fn); [|discriminate]. injection E as <-.
  injection En as <-. eexists. split; [reflexivity|]. cbn [fv_val]. split; [apply contains_literal|]. intros H t. now apply like_contains.
Qed.
Print Assumptions C58_contains_partial.
Theorem C58_icontains_partial : forall fn s b c0 c, icontains_ fn s = Ok c0 -> c_negate b c0 = Ok c ->
  exists p, c_values c = Ok [VStr p] /\ ((forall t, ILike p t <-> substring_of (lower s) (lower t)) <-> literal s = true).
Proof.
  intros fn s b c0 c E En. unfold icontains_, mk_cond, new_field_value in E. destruct (field fn); [|discriminate]. injection E as <-.
  injection En as <-. eexists. split; [reflexivity|]. cbn [fv_val]. split; [apply icontains_literal|]. intros H t. unfold ILike. rewrite !lower_app.
  change (lower "%") with "%". apply like_contains. now rewrite lower_literal.
Qed.
Print Assumptions C58_icontains_partial.
Example C58_example : exists c, contains_ "name" "o'Ne" = Ok c /\ c_negate true c <> Panic /\ literal "o'Ne" = true /\
  c_values c = Ok [VStr "%o'Ne%"] /\ Like "%o'Ne%" "Ed o'Neil".
Proof.
  eexists. split; [vm_compute; reflexivity|]. split; [discriminate|]. split; [reflexivity|]. split; [reflexivity|].
  apply (like_contains "o'Ne"); [reflexivity|]. exists "Ed ", "il". reflexivity.
Qed.
Example C58_icontains_example : exists c, icontains_ "name" "O'nE" = Ok c /\ c_negate false c <> Panic /\ literal "O'nE" = true /\
  c_values c = Ok [VStr "%O'nE%"] /\ ILike "%O'nE%" "Ed o'NEIL".
Proof.
  eexists. split; [vm_compute; reflexivity|]. split; [discriminate|]. split; [reflexivity|]. split; [reflexivity|].
  apply (like_contains "o'ne"); [reflexivity|]. exists "ed ", "il". reflexivity.
Qed.
