(** Lemmas on strings. *)
From Coq Require Import String Ascii List Bool Arith Lia Decimal DecimalString DecimalNat.
From Verif Require Import GoStr SqlSpec Spec.
Import ListNotations.
Local Open Scope string_scope.
Local Open Scope nat_scope.

Lemma app_nil_r_s s : s ++ "" = s.
Proof. induction s as [|c s IH]; simpl; [reflexivity|now rewrite IH]. Qed.
Lemma app_assoc_s a b c : (a ++ b) ++ c = a ++ (b ++ c).
Proof. induction a as [|x a IH]; simpl; [reflexivity|now rewrite IH]. Qed.
Lemma app_inj_l a b c : a ++ b = a ++ c -> b = c.
Proof. induction a as [|x a IH]; simpl; intros H; [exact H|injection H as H; auto]. Qed.
Lemma length_app_s a b : String.length (a ++ b) = String.length a + String.length b.
Proof. induction a as [|x a IH]; simpl; [reflexivity|now rewrite IH]. Qed.
Lemma app_eq_nil_s a b : a ++ b = "" -> a = "" /\ b = "".
Proof. destruct a; simpl; [auto|discriminate]. Qed.
Lemma app_inj_r a b c : a ++ c = b ++ c -> a = b.
Proof.
  revert b; induction a as [|x a IH]; intros [|y b] H; simpl in *.
  - reflexivity.
  - apply (f_equal String.length) in H; simpl in H; rewrite length_app_s in H; lia.
  - apply (f_equal String.length) in H; simpl in H; rewrite length_app_s in H; lia.
  - injection H as Hx H; subst; f_equal; auto.
Qed.

Lemma all_chars_app p a b : all_chars p (a ++ b) = all_chars p a && all_chars p b.
Proof. induction a as [|c a IH]; simpl; [reflexivity|]. now rewrite IH, andb_assoc. Qed.
Lemma all_chars_impl (p q : ascii -> bool) s :
  (forall c, p c = true -> q c = true) -> all_chars p s = true -> all_chars q s = true.
Proof.
  intros H; induction s as [|c s IH]; simpl; [auto|]; intros E.
  apply andb_true_iff in E as [E1 E2]; rewrite (H _ E1), IH; auto.
Qed.
Lemma all_chars_false (p q : ascii -> bool) s :
  (forall c, p c = true -> q c = false) -> s <> "" -> all_chars p s = true -> all_chars q s = false.
Proof.
  intros H Hs; destruct s as [|c s]; [congruence|]; simpl; intros E.
  apply andb_true_iff in E as [E1 _]; now rewrite (H _ E1).
Qed.

(** * Decimal numbers *)

Lemma digits_uint d : all_chars digit (NilEmpty.string_of_uint d) = true.
Proof. induction d; simpl; auto. Qed.

Lemma dec_val_uint d acc : dec_val acc (NilEmpty.string_of_uint d) = Nat.of_uint_acc d acc.
Proof.
  revert acc; induction d as [|d IH|d IH|d IH|d IH|d IH|d IH|d IH|d IH|d IH|d IH]; intros acc;
    [reflexivity|..];
    cbn [NilEmpty.string_of_uint dec_val Nat.of_uint_acc]; rewrite IH; f_equal;
    rewrite Nat.tail_mul_spec; cbn; lia.
Qed.

Lemma itoa_digits n : all_chars digit (itoa n) = true.
Proof. apply digits_uint. Qed.
Lemma itoa_val n : dec_val 0 (itoa n) = n.
Proof. unfold itoa; rewrite dec_val_uint. apply Unsigned.of_to. Qed.
Lemma itoa_nonempty n : itoa n <> "".
Proof.
  intros H. pose proof (itoa_val n) as V. rewrite H in V; simpl in V; subst n. discriminate.
Qed.
Lemma itoa_inj a b : itoa a = itoa b -> a = b.
Proof. intros H; rewrite <- (itoa_val a), <- (itoa_val b), H; reflexivity. Qed.

(** * Character classes *)

Ltac all_ascii c :=
  let b0 := fresh in let b1 := fresh in let b2 := fresh in let b3 := fresh in
  let b4 := fresh in let b5 := fresh in let b6 := fresh in let b7 := fresh in
  destruct c as [b0 b1 b2 b3 b4 b5 b6 b7];
  destruct b0, b1, b2, b3, b4, b5, b6, b7.

Lemma digit_word c : digit c = true -> word_char c = true.
Proof. unfold word_char, ident_char; intros ->. now rewrite orb_true_r. Qed.
Lemma ident_word c : ident_char c = true -> word_char c = true.
Proof. unfold word_char; intros ->; reflexivity. Qed.
Lemma letter_not_digit c : letter c = true -> digit c = false.
Proof. all_ascii c; vm_compute; congruence. Qed.
Lemma ident_not_dot c : ident_char c = true -> (c =? ".")%char = false.
Proof. all_ascii c; vm_compute; congruence. Qed.
Lemma ident_not_dollar c : ident_char c = true -> (c =? "$")%char = false.
Proof. all_ascii c; vm_compute; congruence. Qed.
Lemma upper_dot c : upper c = "."%char -> c = "."%char.
Proof. all_ascii c; vm_compute; congruence. Qed.

(** * Joining *)

Lemma concat_app sep a b :
  a <> [] -> b <> [] -> String.concat sep (a ++ b)%list = String.concat sep a ++ sep ++ String.concat sep b.
Proof.
  intros Ha Hb; induction a as [|x a IH]; [congruence|].
  destruct a as [|y a]; simpl.
  - destruct b; [congruence|reflexivity].
  - simpl in IH; rewrite IH by discriminate. now rewrite !app_assoc_s.
Qed.
