(** Facts about names: validation, tokens, field and table specifications. *)
From Coq Require Import String Ascii List Bool Arith Lia Permutation Sorted.
From Verif Require Import GoStr Value Names Spec StrFacts.
Import ListNotations.
Local Open Scope string_scope.
Local Open Scope nat_scope.

(** * Bytes in strings *)

Lemma has_byte_iff c s : has_byte c s = true <-> In c (chars s).
Proof.
  induction s as [|a s IH]; simpl; [split; [discriminate|tauto]|].
  rewrite orb_true_iff, IH, Ascii.eqb_eq. tauto.
Qed.
Lemma has_byte_lacks c s : has_byte c s = false <-> lacks c s.
Proof. unfold lacks. rewrite <- has_byte_iff. destruct (has_byte c s); split; congruence || (intros H; now destruct H) || auto. Qed.
Lemma count_byte_occ c s : count_byte c s = count_occ ascii_dec (chars s) c.
Proof.
  induction s as [|a s IH]; simpl; [reflexivity|]. rewrite IH.
  destruct (ascii_dec a c) as [->|n]; [now rewrite Ascii.eqb_refl|].
  apply Ascii.eqb_neq in n. now rewrite n.
Qed.
Lemma suffix_iff c s : has_suffix_byte c s = true <-> exists r, s = r ++ String c "".
Proof.
  induction s as [|a s IH]; simpl.
  - split; [discriminate|]. intros [[|] H]; discriminate.
  - destruct s as [|b s].
    + rewrite Ascii.eqb_eq. split.
      * intros ->. now exists "".
      * intros [[|x [|]] H]; simpl in H; congruence.
    + rewrite IH. split.
      * intros [r H]. exists (String a r). simpl. now rewrite H.
      * intros [[|x r] H]; simpl in H; [discriminate|]. injection H as -> H. now exists r.
Qed.
Lemma prefix_iff c s : has_prefix_byte c s = true <-> exists r, s = String c r.
Proof.
  destruct s as [|a s]; simpl; [split; [discriminate|intros [r H]; discriminate]|].
  rewrite Ascii.eqb_eq. split; [intros ->; now exists s|intros [r [= -> _]]; reflexivity].
Qed.

Lemma validate_iff s : validate s = None <-> documented_name s.
Proof.
  unfold validate, documented_name. rewrite <- count_byte_occ.
  rewrite <- !has_byte_lacks.
  destruct (has_byte "'" s); [split; [discriminate|intros (_ & ? & _); discriminate]|].
  destruct (has_byte """" s); [split; [discriminate|intros (_ & _ & ? & _); discriminate]|].
  destruct (has_byte " " s); [split; [discriminate|intros (_ & _ & _ & ? & _); discriminate]|].
  destruct (Nat.ltb_spec 1 (count_byte "." s)); [split; [discriminate|intros (_ & _ & _ & _ & ? & _); lia]|].
  destruct s as [|a s]; [split; [discriminate|intros (? & _); congruence]|].
  cbn [is_empty].
  destruct (has_suffix_byte "." (String a s)) eqn:Es.
  { split; [discriminate|]. intros (_ & _ & _ & _ & _ & _ & H1). apply suffix_iff in Es as [r Hr]. now destruct (H1 r). }
  destruct (has_prefix_byte "." (String a s)) eqn:Ep.
  { split; [discriminate|]. intros (_ & _ & _ & _ & _ & H1 & _). apply prefix_iff in Ep as [r Hr]. now destruct (H1 r). }
  split; [|reflexivity]. intros _. repeat split; auto; try discriminate.
  - intros r Hr. assert (X : has_prefix_byte "." (String a s) = true) by (apply prefix_iff; now exists r). congruence.
  - intros r Hr. assert (X : has_suffix_byte "." (String a s) = true) by (apply suffix_iff; now exists r). congruence.
Qed.

(** * White space *)

Lemma code_byte a n : code a = n -> a = ascii_of_nat n.
Proof. intros <-. symmetry. apply ascii_nat_embedding. Qed.

Lemma space_cases w (P : string -> Prop) : In w spaces -> Forall P spaces -> P w.
Proof. intros Hi Hf. rewrite Forall_forall in Hf. auto. Qed.

Lemma spaces_width w s : In w spaces -> space_width (w ++ s) = String.length w.
Proof.
  intros H. revert s. apply (space_cases w (fun w => forall s, space_width (w ++ s) = String.length w) H).
  unfold spaces. cbn [map app]. repeat (apply Forall_cons; [intros s; reflexivity|]). apply Forall_nil.
Qed.
Lemma spaces_nonempty w : In w spaces -> w <> "".
Proof.
  intros H. apply (space_cases w (fun w => w <> "") H).
  unfold spaces. cbn [map app]. repeat (apply Forall_cons; [discriminate|]). apply Forall_nil.
Qed.
Definition is_sp (w : string) : bool := existsb (String.eqb w) spaces.
Lemma is_sp_in w : is_sp w = true -> In w spaces.
Proof. intros H. apply existsb_exists in H as (x & Hx & E). apply String.eqb_eq in E. now subst. Qed.
Lemma sp_range (f : nat -> string) lo n k : forallb (fun k => is_sp (f k)) (seq lo n) = true -> lo <= k < lo + n -> In (f k) spaces.
Proof. intros H K. apply is_sp_in. rewrite forallb_forall in H. apply (H k). now apply in_seq. Qed.
Definition b3 (x y z : nat) : string := String (ascii_of_nat x) (String (ascii_of_nat y) (String (ascii_of_nat z) "")).
Lemma three_bytes a b c x y z : (code a =? x) && (code b =? y) = true -> code c = z -> String a (String b (String c "")) = b3 x y z.
Proof.
  intros H C. apply andb_true_iff in H as [A B]. apply Nat.eqb_eq in A, B.
  now rewrite (code_byte _ _ A), (code_byte _ _ B), (code_byte _ _ C).
Qed.
Lemma width_spaces s k : space_width s = S k -> exists w r, In w spaces /\ s = w ++ r /\ String.length w = S k.
Proof.
  destruct s as [|a s]; [discriminate|]. cbn [space_width].
  destruct (((9 <=? code a) && (code a <=? 13)) || (code a =? 32)) eqn:E1.
  { intros [= <-]. exists (String a ""), s. split; [|split; reflexivity].
    apply orb_true_iff in E1 as [E1|E1].
    - apply andb_true_iff in E1 as [A B]. apply Nat.leb_le in A, B. rewrite (code_byte a _ eq_refl).
      apply (sp_range (fun k => String (ascii_of_nat k) "") 9 5); [vm_compute; reflexivity|lia].
    - apply Nat.eqb_eq in E1. rewrite (code_byte _ _ E1). apply is_sp_in. vm_compute; reflexivity. }
  destruct s as [|b s]; [discriminate|].
  destruct ((code a =? 194) && ((code b =? 133) || (code b =? 160))) eqn:E2.
  { intros [= <-]. exists (String a (String b "")), s. split; [|split; reflexivity].
    apply andb_true_iff in E2 as [A B]. apply Nat.eqb_eq in A. rewrite (code_byte _ _ A).
    apply orb_true_iff in B as [B|B]; apply Nat.eqb_eq in B; rewrite (code_byte _ _ B); apply is_sp_in; vm_compute; reflexivity. }
  destruct s as [|c s]; [discriminate|].
  match goal with |- (if ?x then _ else _) = _ -> _ => destruct x eqn:E3 end; [|discriminate].
  intros [= <-]. exists (String a (String b (String c ""))), s. split; [|split; reflexivity].
  apply orb_true_iff in E3 as [E3|E3]; [apply orb_true_iff in E3 as [E3|E3]; [apply orb_true_iff in E3 as [E3|E3];
    [apply orb_true_iff in E3 as [E3|E3]|]|]|]; apply andb_true_iff in E3 as [AB C].
  - apply Nat.eqb_eq in C. rewrite (three_bytes _ _ _ _ _ _ AB C). apply is_sp_in. vm_compute; reflexivity.
  - apply andb_true_iff in C as [C1 C2]. apply Nat.leb_le in C1, C2. rewrite (three_bytes _ _ _ _ _ _ AB eq_refl).
    apply (sp_range (b3 226 128) 128 11); [vm_compute; reflexivity|lia].
  - rewrite (three_bytes _ _ _ _ _ _ AB eq_refl).
    apply orb_true_iff in C as [C|C]; [apply orb_true_iff in C as [C|C]|]; apply Nat.eqb_eq in C; rewrite C; apply is_sp_in; vm_compute; reflexivity.
  - apply Nat.eqb_eq in C. rewrite (three_bytes _ _ _ _ _ _ AB C). apply is_sp_in. vm_compute; reflexivity.
  - apply Nat.eqb_eq in C. rewrite (three_bytes _ _ _ _ _ _ AB C). apply is_sp_in. vm_compute; reflexivity.
Qed.

Lemma fields_skip w cur s : fields_aux (String.length w) cur (w ++ s) = fields_aux 0 cur s.
Proof. induction w as [|a w IH]; simpl; auto. Qed.

Lemma fields_space w cur s : In w spaces -> fields_aux 0 cur (w ++ s) = flush cur (fields_aux 0 "" s).
Proof.
  intros H. pose proof (spaces_width w s H) as Hw. pose proof (spaces_nonempty w H) as Hn.
  destruct w as [|a w]; [congruence|]. simpl append in *. unfold fields_aux at 1. fold fields_aux.
  rewrite Hw. cbn [String.length]. now rewrite fields_skip.
Qed.
Lemma fields_blank w s : blank w -> fields_aux 0 "" (w ++ s) = fields_aux 0 "" s.
Proof.
  induction 1 as [|w s' Hw Hb IH]; [reflexivity|]. rewrite app_assoc_s, fields_space by exact Hw.
  simpl flush. exact IH.
Qed.

(** a white-space sequence that starts inside a text and ends after it does not
    start another white-space sequence *)
Definition starts_space (s : string) : Prop := s = "" \/ exists w r, In w spaces /\ s = w ++ r.
Definition head_code (s : string) : nat := match s with String a _ => code a | _ => 0 end.
Lemma starts_head s : starts_space s -> head_code s < 128 \/ 194 <= head_code s.
Proof.
  intros [->|(w & r & Hw & ->)]; [simpl; lia|]. revert r.
  apply (space_cases w (fun w => forall r, head_code (w ++ r) < 128 \/ 194 <= head_code (w ++ r)) Hw).
  assert (X : forall w, (head_code w <? 128) || (194 <=? head_code w) = true -> w <> "" -> forall r, head_code (w ++ r) < 128 \/ 194 <= head_code (w ++ r)).
  { intros [|a w'] H Hn r; [congruence|]. cbn [head_code append] in *. apply orb_true_iff in H as [H|H];
      [apply Nat.ltb_lt in H|apply Nat.leb_le in H]; lia. }
  unfold spaces. cbn [map app]. repeat (apply Forall_cons; [apply X; [vm_compute; reflexivity|discriminate]|]). apply Forall_nil.
Qed.
(** the bytes of a white-space sequence after the first are continuation bytes *)
Lemma space_tail w a b : In w spaces -> w = a ++ b -> a <> "" -> b <> "" -> 128 <= head_code b < 194.
Proof.
  intros H. revert a b. apply (space_cases w (fun w => forall a b, w = a ++ b -> a <> "" -> b <> "" -> 128 <= head_code b < 194) H).
  assert (X : forall w, forallb (fun c => (128 <=? code c) && (code c <? 194)) (tl (chars w)) = true ->
    forall a b, w = a ++ b -> a <> "" -> b <> "" -> 128 <= head_code b < 194).
  { intros w0 Hw0 [|x a] b -> Ha Hb; [congruence|]. cbn [chars list_ascii_of_string append tl] in Hw0. clear Ha.
    induction a as [|y a IH].
    - destruct b as [|z b]; [congruence|]. cbn [chars list_ascii_of_string append forallb head_code] in *. apply andb_true_iff in Hw0 as [A _].
      apply andb_true_iff in A as [A B]. apply Nat.leb_le in A. apply Nat.ltb_lt in B. lia.
    - cbn [chars list_ascii_of_string append forallb] in Hw0. apply andb_true_iff in Hw0 as [_ Hw0]. auto. }
  unfold spaces. cbn [map app]. repeat (apply Forall_cons; [apply X; vm_compute; reflexivity|]). apply Forall_nil.
Qed.

(** splitting an equation between concatenations *)
Lemma app_split a b c d : a ++ b = c ++ d :> string ->
  (exists x, a = c ++ x /\ d = x ++ b) \/ (exists x, c = a ++ x /\ b = x ++ d).
Proof.
  revert c. induction a as [|h a IH]; intros c H.
  - right. exists c. auto.
  - destruct c as [|h' c].
    + left. exists (String h a). auto.
    + simpl in H. injection H as <- H. destruct (IH c H) as [(x & -> & ->)|(x & -> & ->)]; [left|right]; exists x; auto.
Qed.

Lemma spaceless_cons a s : spaceless (String a s) -> spaceless s.
Proof. intros H x w b Hw E. apply (H (String a x) w b Hw). simpl. now rewrite E. Qed.
Lemma spaceless_app_l a b : spaceless (a ++ b) -> spaceless a.
Proof. intros H x w y Hw E. apply (H x w (y ++ b) Hw). rewrite E. now rewrite !app_assoc_s. Qed.
Lemma spaceless_app_r a b : spaceless (a ++ b) -> spaceless b.
Proof. intros H x w y Hw E. apply (H (a ++ x) w y Hw). rewrite E. now rewrite !app_assoc_s. Qed.

Lemma width_zero t s : t <> "" -> spaceless t -> starts_space s -> space_width (t ++ s) = 0.
Proof.
  intros Hn Hs Hst. destruct (space_width (t ++ s)) as [|k] eqn:E; [reflexivity|exfalso].
  apply width_spaces in E as (w & r & Hw & E & _).
  apply app_split in E as [(x & E1 & _)|(x & E1 & E2)].
  - apply (Hs "" w x Hw). exact E1.
  - destruct x as [|h x].
    { rewrite app_nil_r_s in E1. apply (Hs "" w "" Hw). simpl. now rewrite app_nil_r_s. }
    pose proof (space_tail w t (String h x) Hw E1 Hn ltac:(discriminate)) as Hh.
    apply starts_head in Hst. rewrite E2 in Hst. simpl in *. lia.
Qed.

Lemma fields_token t cur s : spaceless t -> starts_space s -> fields_aux 0 cur (t ++ s) = fields_aux 0 (cur ++ t) s.
Proof.
  revert cur. induction t as [|a t IH]; intros cur Hs Hst.
  - now rewrite app_nil_r_s.
  - pose proof (width_zero (String a t) s ltac:(discriminate) Hs Hst) as Hw.
    simpl append. simpl append in Hw. unfold fields_aux at 1. fold fields_aux. rewrite Hw.
    rewrite IH; [|now apply spaceless_cons in Hs|exact Hst]. now rewrite app_assoc_s.
Qed.

Lemma flush_app t l : t <> "" -> flush t l = t :: l.
Proof. destruct t; [congruence|reflexivity]. Qed.

Lemma blank_starts s : blank s -> starts_space s.
Proof. intros [|w s' Hw Hb]; [now left|]. right. eauto. Qed.

Lemma fields_starts cur s : starts_space s -> fields_aux 0 cur s = flush cur (fields_aux 0 "" s).
Proof.
  intros [->|(w & r & Hw & ->)]; [now destruct cur|]. rewrite !fields_space by exact Hw. reflexivity.
Qed.

Lemma toks_fields ts s : Toks ts s -> go_fields s = ts.
Proof.
  unfold go_fields. induction 1 as [w Hw|w t ts s Hw Ht Hs Hst HT IH].
  - rewrite <- (app_nil_r_s w), fields_blank by exact Hw. reflexivity.
  - rewrite fields_blank by exact Hw. rewrite fields_token by assumption. simpl append.
    rewrite fields_starts by exact Hst. rewrite IH. now apply flush_app.
Qed.

Lemma toks_blank w ts s : In w spaces -> Toks ts s -> Toks ts (w ++ s).
Proof.
  intros Hw H. inversion H; subst.
  - constructor. now constructor.
  - rewrite <- app_assoc_s. constructor; auto. now constructor.
Qed.

Lemma fields_toks_aux n : forall s cur, String.length s <= n ->
  (forall a w b, In w spaces -> cur ++ s = a ++ w ++ b -> String.length cur <= String.length a) ->
  Toks (fields_aux 0 cur s) (cur ++ s).
Proof.
  assert (Hsl : forall cur s, (forall a w b, In w spaces -> cur ++ s = a ++ w ++ b -> String.length cur <= String.length a) -> spaceless cur).
  { intros cur s H a w b Hw E. specialize (H a w (b ++ s) Hw).
    rewrite E in H. rewrite !app_assoc_s in H. specialize (H eq_refl).
    rewrite !length_app_s in H. pose proof (spaces_nonempty w Hw). destruct w; [congruence|]. simpl in H. lia. }
  assert (Hend : forall cur s ts, (forall a w b, In w spaces -> cur ++ s = a ++ w ++ b -> String.length cur <= String.length a) ->
    starts_space s -> Toks ts s -> Toks (flush cur ts) (cur ++ s)).
  { intros cur s ts H Hst HT. destruct cur as [|c cur]; [exact HT|].
    apply (tk_cons "" (String c cur) ts s); [constructor|discriminate|eapply Hsl; eauto|exact Hst|exact HT]. }
  induction n as [|n IH]; intros s cur Hl Hi.
  - destruct s; [|simpl in Hl; lia]. simpl fields_aux. apply Hend; auto; [now left|constructor; constructor].
  - destruct s as [|a s].
    { simpl fields_aux. apply Hend; auto; [now left|constructor; constructor]. }
    unfold fields_aux. fold fields_aux. destruct (space_width (String a s)) as [|k] eqn:E.
    + replace (cur ++ String a s) with ((cur ++ String a "") ++ s) by (now rewrite app_assoc_s).
      apply IH; [simpl in Hl; lia|]. intros x w b Hw Ex.
      assert (L : String.length cur <= String.length x).
      { apply (Hi x w b Hw). rewrite <- Ex. now rewrite app_assoc_s. }
      rewrite length_app_s. simpl. destruct (Nat.eq_dec (String.length cur) (String.length x)) as [Eq|]; [|lia].
      exfalso. assert (Ex' : cur ++ String a s = x ++ (w ++ b)) by (rewrite <- Ex; now rewrite app_assoc_s).
      apply app_split in Ex' as [(y & E1 & E2)|(y & E1 & E2)].
      * assert (y = "") as -> by (destruct y; [reflexivity|]; rewrite E1, length_app_s in Eq; simpl in Eq; lia).
        simpl in E2. rewrite <- E2 in E. rewrite (spaces_width w b Hw) in E. pose proof (spaces_nonempty w Hw). now destruct w.
      * assert (y = "") as -> by (destruct y; [reflexivity|]; rewrite E1, length_app_s in Eq; simpl in Eq; lia).
        simpl in E2. rewrite E2 in E. rewrite (spaces_width w b Hw) in E. pose proof (spaces_nonempty w Hw). now destruct w.
    + destruct (width_spaces _ _ E) as (w & r & Hw & Es & Hlw).
      assert (Hr : fields_aux k "" s = fields_aux 0 "" r).
      { destruct w as [|b w]; [discriminate|]. simpl in Es. injection Es as -> ->. simpl in Hlw. injection Hlw as <-. apply fields_skip. }
      rewrite Hr. apply Hend; auto; [right; eauto|]. rewrite Es. apply toks_blank; [exact Hw|].
      apply (IH r "").
      * rewrite Es in Hl. rewrite length_app_s in Hl. rewrite Hlw in Hl. simpl in Hl. lia.
      * intros. simpl. lia.
Qed.
Lemma fields_toks s : Toks (go_fields s) s.
Proof. apply (fields_toks_aux (String.length s) s ""); auto. intros. simpl. lia. Qed.
Lemma toks_iff ts s : Toks ts s <-> go_fields s = ts.
Proof. split; [apply toks_fields|intros <-; apply fields_toks]. Qed.

(** tokens are non-empty and contain no white space *)
Lemma toks_tokens ts s : Toks ts s -> Forall (fun t => t <> "" /\ spaceless t) ts.
Proof. induction 1; constructor; auto. Qed.

(** * Field specifications *)

Lemma is_as_iff w : is_as w = true <-> In w as_words.
Proof.
  split.
  - destruct w as [|a r]; [discriminate|]. unfold is_as. intros H. apply andb_true_iff in H as [Ha Hr].
    assert (A : a = ascii_of_nat 97 \/ a = ascii_of_nat 65).
    { apply orb_true_iff in Ha as [Ha|Ha]; apply Nat.eqb_eq in Ha; apply code_byte in Ha; auto. }
    destruct r as [|b [|c [|]]]; try discriminate.
    + assert (B : b = ascii_of_nat 115 \/ b = ascii_of_nat 83).
      { apply orb_true_iff in Hr as [Hb|Hb]; apply Nat.eqb_eq in Hb; apply code_byte in Hb; auto. }
      destruct A as [-> | ->], B as [-> | ->]; vm_compute; tauto.
    + apply andb_true_iff in Hr as [Hb Hc]. apply Nat.eqb_eq in Hb, Hc. apply code_byte in Hb, Hc. subst b c.
      destruct A as [-> | ->]; vm_compute; tauto.
  - intros H. repeat (destruct H as [<-|H]; [reflexivity|]). destruct H.
Qed.

Lemma chars_app a b : chars (a ++ b) = (chars a ++ chars b)%list.
Proof. unfold chars. induction a; simpl; congruence. Qed.
Lemma lacks_app' c a b : lacks c (a ++ b) <-> lacks c a /\ lacks c b.
Proof. unfold lacks. rewrite chars_app, in_app_iff. tauto. Qed.

Lemma split_lacks c s : lacks c s -> split_byte c s = [s].
Proof.
  induction s as [|a s IH]; intros H; [reflexivity|]. simpl.
  destruct (Ascii.eqb_spec a c) as [->|n]; [destruct H; now left|].
  rewrite IH; [reflexivity|]. intros X. apply H. now right.
Qed.
Lemma split_dot c t s : lacks c t -> split_byte c (t ++ String c s) = t :: split_byte c s.
Proof.
  induction t as [|a t IH]; intros H; simpl.
  - now rewrite Ascii.eqb_refl.
  - destruct (Ascii.eqb_spec a c) as [->|n]; [destruct H; now left|].
    rewrite IH; [reflexivity|]. intros X. apply H. now right.
Qed.
Lemma split_first c s : (lacks c s) \/ exists t r, lacks c t /\ s = t ++ String c r.
Proof.
  induction s as [|a s IH]; [left; intros []|].
  destruct (Ascii.ascii_dec a c) as [->|n].
  - right. exists "", s. split; [intros []|reflexivity].
  - destruct IH as [H|(t & r & H & ->)].
    + left. intros [X|X]; auto.
    + right. exists (String a t), r. split; [|reflexivity]. intros [X|X]; auto.
Qed.

(** the pair read from the first token *)
Definition table_and_name (q : string) : string * string :=
  if has_byte "." q then (nth 0 (split_byte "." q) "", nth 1 (split_byte "." q) "") else ("", q).
Lemma splits_iff q t n : splits q t n <-> table_and_name q = (t, n).
Proof.
  unfold table_and_name. split.
  - intros [m Hm|t' m r Ht Hm Hr].
    + apply has_byte_lacks in Hm as E. now rewrite E.
    + assert (E : has_byte "." (t' ++ "." ++ m ++ r) = true).
      { apply has_byte_iff. rewrite chars_app. apply in_app_iff. right. now left. }
      rewrite E. change ("." ++ m ++ r) with (String "." (m ++ r)). rewrite split_dot by exact Ht.
      destruct Hr as [->|(r' & ->)].
      * rewrite app_nil_r_s, split_lacks by exact Hm. reflexivity.
      * change ("." ++ r') with (String "." r'). rewrite split_dot by exact Hm. reflexivity.
  - destruct (split_first "." q) as [H|(t' & r & H & ->)].
    + apply has_byte_lacks in H as E. rewrite E. intros [= <- <-]. now constructor.
    + assert (E : has_byte "." (t' ++ String "." r) = true).
      { apply has_byte_iff. rewrite chars_app. apply in_app_iff. right. now left. }
      rewrite E, split_dot by exact H. destruct (split_first "." r) as [H2|(n' & r2 & H2 & ->)].
      * rewrite split_lacks by exact H2. simpl. intros [= <- <-].
        pose proof (sp_dot t' r "" H H2 (or_introl eq_refl)) as X. now rewrite app_nil_r_s in X.
      * rewrite split_dot by exact H2. simpl. intros [= <- <-].
        apply (sp_dot t' n' (String "." r2) H H2). right. now exists r2.
Qed.

Lemma parse_field_eq s : parse_field s =
  match go_fields s with
  | [q] => Some (mkF (snd (table_and_name q)) (fst (table_and_name q)) "")
  | [q; w; al] => if is_as w then Some (mkF (snd (table_and_name q)) (fst (table_and_name q)) al) else None
  | _ => None
  end.
Proof.
  unfold parse_field, table_and_name. destruct (go_fields s) as [|q [|w [|al [|]]]]; try reflexivity.
  - now destruct (has_byte "." q).
  - destruct (is_as w); [|reflexivity]. now destruct (has_byte "." q).
Qed.

(** exactly which strings are accepted, and how they are read *)
Lemma parse_field_iff s d : parse_field s = Some d <->
  exists q, splits q (f_table d) (f_name d) /\
    ((f_alias d = "" /\ Toks [q] s) \/ exists w, In w as_words /\ Toks [q; w; f_alias d] s).
Proof.
  rewrite parse_field_eq. split.
  - destruct (go_fields s) as [|q [|w [|al [|]]]] eqn:E; try discriminate; apply toks_iff in E.
    + intros [= <-]. exists q. simpl. split; [apply splits_iff; now destruct (table_and_name q)|]. now left.
    + destruct (is_as w) eqn:Ew; [|discriminate]. intros [= <-]. exists q. simpl.
      split; [apply splits_iff; now destruct (table_and_name q)|]. right. exists w. split; [now apply is_as_iff|exact E].
  - destruct d as [n t al]; simpl. intros (q & Hq & [[-> HT]|(w & Hw & HT)]); apply toks_iff in HT; rewrite HT; apply splits_iff in Hq.
    + now rewrite Hq.
    + apply is_as_iff in Hw. now rewrite Hw, Hq.
Qed.

Lemma splits_form table name : lacks "." name -> lacks "." table ->
  splits (if String.eqb table "" then name else table ++ "." ++ name) table name.
Proof.
  intros Hn Ht. destruct (String.eqb_spec table "") as [->|n]; [now constructor|].
  pose proof (sp_dot table name "" Ht Hn (or_introl eq_refl)) as X. now rewrite app_nil_r_s in X.
Qed.
Lemma form_accepted s t n al : field_form s t n al -> parse_field s = Some (mkF n t al).
Proof.
  intros (Hn & Ln & Lt & H). apply parse_field_iff. simpl.
  eexists. split; [now apply splits_form|exact H].
Qed.

(** the dots of the first token are as documented *)
Definition dots_ok (q : string) : Prop :=
  count_occ ascii_dec (chars q) "."%char <= 1 /\ (forall r, q <> "." ++ r) /\ (forall r, q <> r ++ ".").

Lemma count_dot_app a b : count_occ ascii_dec (chars (a ++ b)) "."%char = count_occ ascii_dec (chars a) "."%char + count_occ ascii_dec (chars b) "."%char.
Proof. now rewrite chars_app, count_occ_app. Qed.

Lemma splits_form_inv q t n : splits q t n -> dots_ok q -> q <> "" ->
  n <> "" /\ lacks "." n /\ lacks "." t /\ q = (if String.eqb t "" then n else t ++ "." ++ n).
Proof.
  intros [m Hm|t' m r Ht Hm Hr] (D1 & D2 & D3) Hq.
  - simpl. repeat split; auto. intros [].
  - assert (r = "") as ->.
    { destruct Hr as [->|(r' & ->)]; [reflexivity|]. exfalso.
      rewrite !count_dot_app in D1. simpl in D1. lia. }
    rewrite app_nil_r_s in *. split; [|split; [exact Hm|split; [exact Ht|]]].
    + intros ->. destruct (D3 t'). now rewrite app_nil_r_s.
    + destruct (String.eqb_spec t' "") as [->|]; [|reflexivity]. destruct (D2 m). reflexivity.
Qed.

Lemma form_iff s t n al : (forall q ts, Toks (q :: ts) s -> dots_ok q) ->
  (parse_field s = Some (mkF n t al) <-> field_form s t n al).
Proof.
  intros HD. split; [|apply form_accepted]. intros H. apply parse_field_iff in H as (q & Hq & HT). simpl in *.
  assert (X : dots_ok q /\ q <> "").
  { destruct HT as [[_ HT]|(w & _ & HT)]; (split; [eapply HD; eauto|]);
      apply toks_tokens in HT; inversion HT; tauto. }
  destruct X as [X1 X2]. destruct (splits_form_inv q t n Hq X1 X2) as (A & B & C & ->).
  repeat split; auto.
Qed.

(** ** Rendering and reading back *)

Definition clean (s : string) : Prop := spaceless s /\ lacks "." s.

Lemma spec_text d : render_spec d =
  (if is_empty (f_table d) then "" else f_table d ++ ".") ++ f_name d ++
  (if negb (is_empty (f_alias d)) && (negb (str_eqb (f_alias d) (f_name d)) || negb (is_empty (f_table d))) then " AS " ++ f_alias d else "").
Proof.
  unfold render_spec, join. destruct (is_empty (f_table d)) eqn:E1, (is_empty (f_alias d)) eqn:E2, (str_eqb (f_alias d) (f_name d)) eqn:E3;
    simpl; rewrite ?app_nil_r_s; try reflexivity; now rewrite ?app_assoc_s.
Qed.

Lemma spaceless_nil : spaceless "".
Proof.
  intros a w b Hw E. destruct a; [|discriminate]. simpl in E. pose proof (spaces_nonempty w Hw). destruct w; [congruence|discriminate].
Qed.
Lemma spaceless_one_ascii a : code a < 128 -> space_width (String a "") = 0 -> forall s t, spaceless s -> spaceless t -> spaceless (s ++ String a t).
Proof.
  intros Ha H0 s t Hs Ht x w y Hw E.
  assert (Hc : forall p r, w = p ++ String a r -> p = "").
  { intros p r E1. destruct p as [|c p]; [reflexivity|].
    pose proof (space_tail w (String c p) (String a r) Hw E1 ltac:(discriminate) ltac:(discriminate)) as X. simpl in X. lia. }
  assert (Hh : forall r, w <> String a r).
  { intros r E1. subst w. pose proof (spaces_width (String a r) "" Hw) as X. rewrite app_nil_r_s in X.
    revert Ha H0 X. clear. unfold space_width. cbn [String.length].
    destruct (((9 <=? code a) && (code a <=? 13)) || (code a =? 32)); [discriminate|].
    intros Ha _. destruct r as [|b r]; [discriminate|].
    assert (N : forall k, 128 <= k -> (code a =? k) = false) by (intros k Hk; apply Nat.eqb_neq; lia).
    rewrite !N by (repeat constructor). simpl andb. simpl orb. cbv iota. destruct r; discriminate. }
  apply app_split in E as [(p & E1 & E2)|(p & E1 & E2)].
  - apply app_split in E2 as [(r & E3 & E4)|(r & E3 & _)].
    + destruct r as [|c r].
      * rewrite app_nil_r_s in E3. subst p s. apply (Hs x w "" Hw). now rewrite app_nil_r_s.
      * simpl in E4. injection E4 as <- E4. specialize (Hc p r E3). subst p. now destruct (Hh r).
    + subst p s. now destruct (Hs x w r Hw).
  - destruct p as [|c p].
    + rewrite app_nil_r_s in E1. subst x. simpl in E2. destruct w as [|c w]; [now apply spaces_nonempty in Hw|].
      simpl in E2. injection E2 as <- E2. now destruct (Hh w).
    + simpl in E2. injection E2 as <- E2. now destruct (Ht p w y Hw).
Qed.
Lemma dot_spaceless s t : spaceless s -> spaceless t -> spaceless (s ++ "." ++ t).
Proof. intros Hs Ht. apply (spaceless_one_ascii "."); auto. apply Nat.ltb_lt. reflexivity. Qed.

Lemma space_in : In " " spaces.
Proof. unfold spaces. apply in_map_iff. exists [32]. split; [reflexivity|simpl; tauto]. Qed.
Lemma as_spaceless : spaceless "AS".
Proof.
  intros a w b Hw E. pose proof (spaces_width w b Hw) as W. pose proof (spaces_nonempty w Hw) as N.
  destruct a as [|c [|c' [|]]]; simpl in E.
  - rewrite <- E in W. vm_compute in W. now destruct w.
  - injection E as <- E. rewrite <- E in W. vm_compute in W. now destruct w.
  - injection E as <- <- E. destruct w; [congruence|discriminate].
  - discriminate.
Qed.

Lemma toks_one q : q <> "" -> spaceless q -> Toks [q] q.
Proof.
  intros Hq Hs. pose proof (tk_cons "" q [] "" bl_nil Hq Hs (or_introl eq_refl) (tk_nil "" bl_nil)) as X.
  simpl in X. now rewrite app_nil_r_s in X.
Qed.
Lemma toks_cons_space q ts s : q <> "" -> spaceless q -> Toks ts s -> Toks (q :: ts) (q ++ " " ++ s).
Proof.
  intros Hq Hs H. apply (tk_cons "" q ts (" " ++ s) bl_nil Hq Hs).
  - right. exists " ", s. split; [apply space_in|reflexivity].
  - now apply toks_blank; [apply space_in|].
Qed.
Lemma toks_as q al : q <> "" -> spaceless q -> al <> "" -> spaceless al -> Toks [q; "AS"; al] (q ++ " AS " ++ al).
Proof.
  intros Hq Hs Ha Hsa. apply (toks_cons_space q ["AS"; al] ("AS " ++ al) Hq Hs).
  apply (toks_cons_space "AS" [al] al); [discriminate|apply as_spaceless|]. now apply toks_one.
Qed.

Lemma empty_eqb s : String.eqb s "" = is_empty s.
Proof. now destruct s. Qed.

Lemma render_form d : f_name d <> "" -> clean (f_name d) -> clean (f_table d) -> spaceless (f_alias d) ->
  field_form (render_spec d) (f_table d) (f_name d)
    (if is_empty (f_table d) && str_eqb (f_alias d) (f_name d) then "" else f_alias d).
Proof.
  intros Hn [Sn Ln] [St Lt] Sa. destruct d as [n t al]; cbn [f_name f_table f_alias] in *.
  rewrite spec_text; cbn [f_name f_table f_alias].
  repeat split; auto. cbv zeta. rewrite empty_eqb.
  assert (HQ : exists q, q = (if is_empty t then n else t ++ "." ++ n) /\ q <> "" /\ spaceless q /\
     forall x, (if is_empty t then "" else t ++ ".") ++ n ++ x = q ++ x).
  { eexists. split; [reflexivity|]. destruct t as [|c t]; cbn [is_empty].
    - repeat split; auto.
    - split; [discriminate|]. split; [now apply dot_spaceless|]. intros x. now rewrite !app_assoc_s. }
  destruct HQ as (q & <- & Q1 & Q2 & Q3). rewrite Q3.
  destruct al as [|c al]; cbn [is_empty negb andb].
  - left. rewrite app_nil_r_s. split; [now destruct (is_empty t && str_eqb "" n)|now apply toks_one].
  - destruct (str_eqb (String c al) n), (is_empty t); cbn [negb orb andb].
    + left. split; [reflexivity|]. rewrite app_nil_r_s. now apply toks_one.
    + right. exists "AS". split; [simpl; tauto|]. apply toks_as; auto; discriminate.
    + right. exists "AS". split; [simpl; tauto|]. apply toks_as; auto; discriminate.
    + right. exists "AS". split; [simpl; tauto|]. apply toks_as; auto; discriminate.
Qed.

(** * Validated names *)

Lemma documented_dots s : documented_name s -> dots_ok s /\ s <> "".
Proof. intros (A & _ & _ & _ & B & C & D). repeat split; auto. Qed.

Lemma field_eq fn : field fn = match parse_field fn with Some d => Ok d | None => Panic end.
Proof. reflexivity. Qed.

Lemma valid_field fn : validate fn = None -> spaceless fn ->
  exists d, field fn = Ok d /\ render_spec d = fn /\ render_field d = fn /\ f_alias d = "".
Proof.
  intros Hv Hs. apply validate_iff in Hv. destruct (documented_dots fn Hv) as [Hd Hn].
  destruct (table_and_name fn) as [t n] eqn:E. apply splits_iff in E.
  destruct (splits_form_inv fn t n E Hd Hn) as (A & B & C & D).
  exists (mkF n t ""). rewrite field_eq.
  assert (P : parse_field fn = Some (mkF n t "")).
  { apply parse_field_iff. simpl. exists fn. split; [exact E|]. left. split; [reflexivity|now apply toks_one]. }
  rewrite P. split; [reflexivity|]. rewrite spec_text. unfold render_field. cbn [f_name f_table f_alias is_empty negb andb].
  rewrite D. rewrite empty_eqb. destruct t as [|c t]; cbn [is_empty negb]; rewrite ?app_nil_r_s; repeat split.
  now rewrite app_assoc_s.
Qed.

Lemma splits_spaceless q t n : splits q t n -> spaceless q -> spaceless t /\ spaceless n /\ spaceless (t ++ "." ++ n).
Proof.
  intros [m Hm|t' m r Ht Hm Hr] Hs.
  - repeat split; auto; [apply spaceless_nil|]. apply dot_spaceless; [apply spaceless_nil|exact Hs].
  - assert (spaceless (t' ++ "." ++ m)).
    { rewrite <- !app_assoc_s in Hs. apply spaceless_app_l in Hs. now rewrite app_assoc_s in Hs. }
    split; [now apply spaceless_app_l in H|]. split; [|exact H]. apply spaceless_app_r in H. now apply spaceless_app_r in H.
Qed.

Lemma valid_field_converse fn d : validate fn = None -> field fn = Ok d -> render_spec d = fn -> spaceless fn.
Proof.
  intros Hv Hf Hr. apply validate_iff in Hv as (_ & _ & _ & Hsp & _). rewrite field_eq in Hf.
  destruct (parse_field fn) as [d'|] eqn:E; [|discriminate]. injection Hf as ->.
  apply parse_field_iff in E as (q & Hq & HT).
  assert (Sq : spaceless q).
  { destruct HT as [[_ HT]|(w & _ & HT)]; apply toks_tokens in HT; inversion HT; tauto. }
  destruct (splits_spaceless _ _ _ Hq Sq) as (St & Sn & Stn).
  rewrite spec_text in Hr.
  destruct (negb (is_empty (f_alias d)) && (negb (str_eqb (f_alias d) (f_name d)) || negb (is_empty (f_table d)))).
  - exfalso. apply Hsp. rewrite <- Hr, !chars_app, !in_app_iff. right. right. left. now left.
  - rewrite app_nil_r_s in Hr. rewrite <- Hr. destruct (is_empty (f_table d)); [exact Sn|]. now rewrite app_assoc_s.
Qed.

Lemma sort_valid dir fn : validate fn = None -> spaceless fn -> exists o, sort_by dir fn = Ok o /\ s_render o = fn ++ " " ++ dir.
Proof.
  intros Hv Hs. unfold sort_by. rewrite Hv. destruct (valid_field fn Hv Hs) as (d & E & _ & R & _).
  rewrite E. simpl bind. eexists. split; [reflexivity|]. unfold s_render; simpl. now rewrite R.
Qed.

Lemma map_valid m : Forall (fun kv => validate (fst kv) = None /\ spaceless (fst kv)) m ->
  exists l, map_field_values m = Ok (Some l) /\
    Forall2 (fun kv fv => render_spec (fv_def fv) = fst kv /\ fv_val fv = snd kv) m l.
Proof.
  induction 1 as [|[k v] m [Hv Hs] Hm (l & El & Hl)]; [exists []; split; constructor|].
  simpl in Hv, Hs. destruct (valid_field k Hv Hs) as (d & Ed & R & _).
  exists (mkFV d v :: l). split; [|constructor; auto]. simpl. rewrite Hv. unfold new_field_value. rewrite Ed. simpl. now rewrite El.
Qed.
Lemma map_invalid m : Forall (fun kv => spaceless (fst kv)) m -> Exists (fun kv => validate (fst kv) <> None) m ->
  map_field_values m = Ok None.
Proof.
  induction m as [|[k v] m IH]; intros Hs He; [inversion He|]. inversion Hs; subst. simpl in *.
  destruct (validate k) eqn:Ev; [reflexivity|].
  destruct (valid_field k Ev H1) as (d & Ed & _). unfold new_field_value. rewrite Ed. simpl.
  rewrite IH; auto. inversion He; subst; auto. simpl in *. congruence.
Qed.

(** * Tables *)

Lemma parse_table_iff s t : ~ (exists n, Toks [n; n] s) ->
  (parse_table s = Some t <->
   exists n al, table_form s n al /\ t = mkT n (if String.eqb al n then "" else al)).
Proof.
  intros Hnn. unfold parse_table. split.
  - destruct (go_fields s) as [|n [|a [|al [|]]]] eqn:E; try discriminate; apply toks_iff in E;
      pose proof (toks_tokens _ _ E) as HT.
    + intros [= <-]. exists n, "". split; [now left|]. now destruct n.
    + intros H. exists n, a. inversion HT as [|? ? _ H2]; subst. inversion H2 as [|? ? [Ha _] _]; subst.
      destruct a as [|c a]; [congruence|]. cbn [is_empty negb andb] in H.
      change str_eqb with String.eqb in H. destruct (String.eqb (String c a) n) eqn:E2; [discriminate|].
      cbn [negb] in H. injection H as <-. split; [right; left; exact E|reflexivity].
    + intros H. exists n, al. inversion HT as [|? ? _ H2]; subst. inversion H2 as [|? ? _ H3]; subst. inversion H3 as [|? ? [Ha _] _]; subst.
      destruct al as [|c al]; [congruence|]. cbn [is_empty negb andb] in H. change str_eqb with String.eqb in H.
      destruct (is_as a) eqn:Ea; [|discriminate]. apply is_as_iff in Ea. cbn [andb] in H.
      destruct (String.eqb (String c al) n); cbn [negb] in H; injection H as <-; (split; [right; right; exists a; auto|reflexivity]).
  - intros (n & al & HF & ->). destruct HF as [[-> HT]|[HT|(w & Hw & HT)]].
    + apply toks_iff in HT as E. rewrite E. destruct (String.eqb "" n); reflexivity.
    + pose proof (toks_tokens _ _ HT) as HK. inversion HK as [|? ? _ H2]; subst. inversion H2 as [|? ? [Ha _] _]; subst.
      apply toks_iff in HT as E. rewrite E. change str_eqb with String.eqb.
      destruct (String.eqb_spec al n) as [->|N]; [destruct Hnn; eauto|]. destruct al; [congruence|reflexivity].
    + pose proof (toks_tokens _ _ HT) as HK. inversion HK as [|? ? _ H2]; subst. inversion H2 as [|? ? _ H3]; subst. inversion H3 as [|? ? [Ha _] _]; subst.
      apply toks_iff in HT as E. rewrite E. change str_eqb with String.eqb. apply is_as_iff in Hw. rewrite Hw.
      destruct (String.eqb al n); destruct al; try congruence; reflexivity.
Qed.

Lemma t_render_parse n al : n <> "" -> spaceless n -> spaceless al -> al <> n ->
  parse_table (t_render (mkT n al)) = Some (mkT n al).
Proof.
  intros Hn Sn Sa Hne. unfold t_render, parse_table; cbn [t_name t_alias]. change str_eqb with String.eqb.
  destruct al as [|c al]; cbn [is_empty negb andb].
  - rewrite (toks_fields [n] n) by (now apply toks_one). reflexivity.
  - apply String.eqb_neq in Hne. rewrite Hne. cbn [negb]. rewrite (toks_fields [n; "AS"; String c al]) by (apply toks_as; auto; discriminate).
    simpl is_as. cbn [is_empty negb andb]. now rewrite Hne.
Qed.
Lemma parse_table_shape s t : parse_table s = Some t ->
  t_name t <> "" /\ spaceless (t_name t) /\ spaceless (t_alias t) /\ t_alias t <> t_name t.
Proof.
  unfold parse_table. change str_eqb with String.eqb.
  destruct (go_fields s) as [|n [|a [|al [|]]]] eqn:E; try discriminate; apply toks_iff in E; apply toks_tokens in E.
  - intros [= <-]. inversion E as [|? ? [A B] _]; subst. simpl. repeat split; auto. apply spaceless_nil.
  - inversion E as [|? ? [A B] H2]; subst. inversion H2 as [|? ? [C D] _]; subst.
    destruct a as [|c a]; [congruence|]. cbn [is_empty negb andb].
    destruct (String.eqb_spec (String c a) n) as [|N]; [discriminate|]. intros [= <-]. simpl. auto.
  - inversion E as [|? ? [A B] H2]; subst. inversion H2 as [|? ? _ H3]; subst. inversion H3 as [|? ? [C D] _]; subst.
    destruct (is_as a); [|discriminate]. destruct al as [|c al]; [congruence|]. cbn [is_empty negb andb].
    destruct (String.eqb_spec (String c al) n) as [|N]; cbn [negb]; intros [= <-]; simpl; repeat split; auto. apply spaceless_nil.
Qed.
Lemma table_round_trip s t : parse_table s = Some t -> parse_table (t_render t) = Some t.
Proof. intros H. apply parse_table_shape in H as (A & B & C & D). destruct t. now apply t_render_parse. Qed.

(** * UniqFieldNames *)

Lemma found_iff l s : found l s = true <-> In s l.
Proof.
  induction l as [|x l IH]; simpl; [split; [discriminate|tauto]|]. unfold str_eqb.
  destruct (String.eqb_spec x s) as [->|n]; [tauto|]. rewrite IH. split; [auto|intros [|]; congruence].
Qed.
Lemma first_idx_in x l r : In x l -> first_idx x (l ++ r) < length l.
Proof.
  induction l as [|y l IH]; intros H; [destruct H|]. simpl. destruct (String.eqb_spec y x) as [->|n]; [lia|].
  destruct H as [H|H]; [congruence|]. apply IH in H. lia.
Qed.
Lemma first_idx_new x l r : ~ In x l -> first_idx x (l ++ x :: r) = length l.
Proof.
  induction l as [|y l IH]; intros H; simpl; [now rewrite String.eqb_refl|].
  destruct (String.eqb_spec y x) as [->|n]; [destruct H; now left|]. f_equal. apply IH. intros X. apply H. now right.
Qed.
Lemma sorted_snoc {A} (R : A -> A -> Prop) l x : StronglySorted R l -> Forall (fun y => R y x) l -> StronglySorted R (l ++ [x]).
Proof.
  induction 1 as [|y l Hs IH Hf]; intros H; simpl; [repeat constructor|].
  inversion H; subst. constructor; [auto|]. rewrite Forall_app. auto.
Qed.
Lemma uniq_aux_spec l : forall pre acc, let a := (pre ++ l)%list in
  NoDup acc -> (forall x, In x acc <-> In x pre) -> StronglySorted (fun x y => first_idx x a < first_idx y a) acc ->
  let r := uniq_aux acc l in
  NoDup r /\ (forall x, In x r <-> In x a) /\ StronglySorted (fun x y => first_idx x a < first_idx y a) r.
Proof.
  induction l as [|s l IH]; intros pre acc a Hd Hi Hs r.
  - subst a r. simpl. rewrite app_nil_r in *. auto.
  - subst r. cbn [uniq_aux]. assert (Ea : a = ((pre ++ [s]) ++ l)%list) by (unfold a; now rewrite <- app_assoc).
    clearbody a. subst a. destruct (found acc s) eqn:Ef.
    + apply found_iff in Ef. apply IH; auto. intros x. rewrite Hi, in_app_iff. simpl.
      split; [auto|]. intros [|[<-|[]]]; auto. now apply Hi.
    + assert (Hn : ~ In s acc) by (rewrite <- found_iff, Ef; discriminate).
      apply IH.
      * apply (Permutation_NoDup (Permutation_cons_append acc s)). now constructor.
      * intros x. rewrite !in_app_iff, Hi. tauto.
      * apply sorted_snoc; [exact Hs|]. apply Forall_forall. intros x Hx. rewrite <- app_assoc. simpl.
        rewrite (first_idx_new s pre l) by (now rewrite <- Hi). apply first_idx_in. now apply Hi.
Qed.
Lemma uniq_spec a : NoDup (uniq_field_names a) /\ (forall x, In x (uniq_field_names a) <-> In x a) /\
  StronglySorted (fun x y => first_idx x a < first_idx y a) (uniq_field_names a).
Proof. apply (uniq_aux_spec a [] []); [constructor|reflexivity|constructor]. Qed.
