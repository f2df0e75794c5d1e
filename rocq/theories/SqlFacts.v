(** The lexer on the pieces the library prints; the parser against the grammar. *)
From Coq Require Import String Ascii List Bool Arith Lia.
From Verif Require Import GoStr Value SqlSpec Spec StrFacts.
Import ListNotations.
Local Open Scope string_scope.
Local Open Scope nat_scope.

(** * Lexing *)

(** empty, or starting with a character that cannot continue a word *)
Definition delim (s : string) : bool :=
  match s with EmptyString => true | String c _ => negb (word_char c) end.

Lemma lex_from_word w s r :
  all_chars word_char s = true -> lex_from w (s ++ r) = lex_from (w ++ s) r.
Proof.
  revert w; induction s as [|c s IH]; intros w H; simpl in *; [now rewrite app_nil_r_s|].
  apply andb_true_iff in H as [Hc Hs]; rewrite Hc, IH by exact Hs.
  now rewrite app_assoc_s.
Qed.

Lemma lex_delim w r : w <> "" -> delim r = true -> lex_from w r = classify w :: lex r.
Proof.
  intros Hw Hr; destruct r as [|c r]; simpl in *.
  - unfold end_word; destruct w; [congruence|reflexivity].
  - unfold lex; simpl. destruct (word_char c); [discriminate|].
    unfold end_word; destruct w; [congruence|reflexivity].
Qed.

Lemma lex_word w r :
  w <> "" -> all_chars word_char w = true -> delim r = true -> lex (w ++ r) = classify w :: lex r.
Proof. intros; unfold lex at 1; rewrite lex_from_word by assumption; simpl. now apply lex_delim. Qed.

Lemma lex_space r : lex (String " " r) = lex r.
Proof. reflexivity. Qed.

Lemma name_nonempty s : name s = true -> s <> "".
Proof. destruct s; simpl; congruence. Qed.
Lemma name_ident s : name s = true -> all_chars ident_char s = true.
Proof.
  destruct s as [|c s]; [discriminate|]; unfold name; intros H.
  now apply andb_true_iff in H as [H%andb_true_iff _].
Qed.
Lemma name_reserved s : name s = true -> reserved s = false.
Proof.
  destruct s as [|c s]; [discriminate|]; unfold name; intros H.
  apply andb_true_iff in H as [_ H]; now apply negb_true_iff in H.
Qed.
Lemma name_letter c s : name (String c s) = true -> letter c = true.
Proof. unfold name; intros H. now apply andb_true_iff in H as [[H _]%andb_true_iff _]. Qed.

Lemma after_dot_none s : all_chars ident_char s = true -> after_dot s = None.
Proof.
  induction s as [|c s IH]; simpl; [auto|]; intros H; apply andb_true_iff in H as [Hc Hs].
  now rewrite (ident_not_dot _ Hc), IH.
Qed.
Lemma after_dot_some a b : all_chars ident_char a = true -> after_dot (a ++ "." ++ b) = Some (a, b).
Proof.
  induction a as [|c a IH]; simpl; [auto|]; intros H; apply andb_true_iff in H as [Hc Hs].
  rewrite (ident_not_dot _ Hc). simpl in IH. now rewrite IH.
Qed.

Lemma upcase_dot s : In "."%char (list_ascii_of_string s) -> In "."%char (list_ascii_of_string (upcase s)).
Proof.
  induction s as [|c s IH]; simpl; [auto|]; intros [H|H]; [left; now subst|right; auto].
Qed.
Lemma reserved_dot s : In "."%char (list_ascii_of_string s) -> reserved s = false.
Proof.
  intros H%upcase_dot. unfold reserved. apply not_true_iff_false; intros E.
  apply existsb_exists in E as (w & Hw & E%String.eqb_eq). rewrite E in H.
  revert H. unfold reserved_words in Hw. simpl in Hw.
  repeat (destruct Hw as [<-|Hw]; [simpl; intuition congruence|]); destruct Hw.
Qed.

Lemma classify_name w : name w = true -> classify w = TId w.
Proof.
  intros H; pose proof (name_ident _ H) as Hi; pose proof (name_reserved _ H) as Hr.
  destruct w as [|c w]; [discriminate|]. pose proof (name_letter _ _ H) as Hl.
  unfold classify. simpl in Hi; apply andb_true_iff in Hi as [Hc Hi].
  rewrite (ident_not_dollar _ Hc). cbn [all_chars]. rewrite (letter_not_digit _ Hl). cbn [andb].
  rewrite Hr, after_dot_none by (simpl; now rewrite Hc). now rewrite H.
Qed.

Lemma classify_qname w : qname w -> classify w = TId w.
Proof.
  intros [n Hn|q n Hq Hn]; [now apply classify_name|].
  pose proof (name_ident _ Hq) as Hi.
  assert (Hr : reserved (q ++ "." ++ n) = false).
  { apply reserved_dot. clear; induction q as [|c q IH]; simpl; auto. }
  assert (Ha : after_dot (q ++ "." ++ n) = Some (q, n)) by (now apply after_dot_some).
  destruct q as [|c q]; [discriminate|]. pose proof (name_letter _ _ Hq) as Hl.
  simpl in Hi; apply andb_true_iff in Hi as [Hc Hi].
  unfold classify. cbn [append] in *. rewrite (ident_not_dollar _ Hc). cbn [all_chars].
  rewrite (letter_not_digit _ Hl). cbn [andb]. rewrite Hr. rewrite Ha, Hq, Hn. reflexivity.
Qed.

Lemma qname_word w : qname w -> all_chars word_char w = true.
Proof.
  intros [n Hn|q n Hq Hn]; [apply (all_chars_impl ident_char); [exact ident_word|now apply name_ident]|].
  rewrite all_chars_app; simpl. apply andb_true_iff; split;
    (apply (all_chars_impl ident_char); [exact ident_word|now apply name_ident]).
Qed.
Lemma qname_nonempty w : qname w -> w <> "".
Proof. intros [n Hn|q n Hq Hn]; [now apply name_nonempty|]. destruct q; discriminate. Qed.

Lemma lex_qname w r : qname w -> delim r = true -> lex (w ++ r) = TId w :: lex r.
Proof.
  intros Hw Hr. rewrite lex_word; auto using qname_nonempty, qname_word. now rewrite classify_qname.
Qed.

Lemma lex_param n r : delim r = true -> lex (("$" ++ itoa n) ++ r) = TParam n :: lex r.
Proof.
  intros Hr. rewrite lex_word; [|discriminate| |exact Hr].
  - f_equal. unfold classify. cbn [append].
    destruct (itoa n) as [|c s] eqn:E; [now apply itoa_nonempty in E|].
    change (("$" =? "$")%char) with true. cbv iota. rewrite <- E, itoa_digits, itoa_val. reflexivity.
  - simpl. apply (all_chars_impl digit); [exact digit_word|apply itoa_digits].
Qed.

(** * The parser accepts exactly the grammar *)

Scheme Prim_mind := Minimality for Prim Sort Prop
with NotE_mind := Minimality for NotE Sort Prop
with AndE_mind := Minimality for AndE Sort Prop
with OrE_mind := Minimality for OrE Sort Prop.
Combined Scheme grammar_ind from Prim_mind, NotE_mind, AndE_mind, OrE_mind.

Lemma run_app s a b : run s (a ++ b)%list = match run s a with Some s' => run s' b | None => None end.
Proof.
  revert s; induction a as [|t a IH]; intros s; simpl; [reflexivity|].
  destruct (step s t); auto.
Qed.

Definition after (e : expr) (o a : option expr) (k : nat) (st : list frame) : state :=
  operand e (mkFr o a k) st.

Lemma run_param_list neg c acc n ns f st rest :
  run (MIn neg c acc, f, st) (param_list n ns ++ TRP :: rest)%list =
  run (operand (neg_atom neg (EAtom AIn c (acc ++ n :: ns)%list)) f st) rest.
Proof.
  revert acc n; induction ns as [|m ns IH]; intros acc n; simpl; [reflexivity|].
  rewrite IH. now rewrite <- app_assoc.
Qed.

Lemma grammar_run :
  (forall ts e, Prim ts e -> forall f st rest,
     run (MOperand, f, st) (ts ++ rest)%list = run (operand e f st) rest) /\
  (forall ts e, NotE ts e -> forall f st rest,
     run (MOperand, f, st) (ts ++ rest)%list = run (operand e f st) rest) /\
  (forall ts e, AndE ts e -> forall o st rest,
     run (MOperand, mkFr o None 0, st) (ts ++ rest)%list = run (MOperator, mkFr o (Some e) 0, st) rest) /\
  (forall ts e, OrE ts e -> exists o a, or_opt o a = e /\ forall st rest,
     run (MOperand, new_frame, st) (ts ++ rest)%list = run (MOperator, mkFr o (Some a) 0, st) rest).
Proof.
  apply grammar_ind.
  - intros c t op n Ht f st rest. inversion Ht; subst; reflexivity.
  - reflexivity.
  - reflexivity.
  - intros c n ns f st rest. cbn [app run step cmp_op is_kw]. cbn. rewrite <- app_assoc. cbn [app].
    now rewrite run_param_list.
  - intros c n ns f st rest. cbn [app run step cmp_op is_kw]. cbn. rewrite <- app_assoc. cbn [app].
    now rewrite run_param_list.
  - reflexivity.
  - reflexivity.
  - intros ts e _ (o & a & He & IH) f st rest. cbn [app run step]. rewrite <- app_assoc, IH.
    cbn [app run step fr_and fr_or]. now rewrite He.
  - intros ts e _ IH f st rest; apply IH.
  - intros ts e _ IH f st rest. cbn [app run step is_kw]. cbn. rewrite IH.
    unfold operand; cbn [fr_or fr_and fr_not nots]. do 2 f_equal. clear.
    assert (H : forall k e, nots k (ENot e) = ENot (nots k e)) by (intros k; induction k; simpl; congruence).
    now rewrite H.
  - intros ts e _ IH o st rest; rewrite IH; reflexivity.
  - intros ts e ts' e' _ IH1 _ IH2 o st rest. rewrite <- app_assoc, IH1. cbn [app run step].
    cbn. rewrite IH2. reflexivity.
  - intros ts e _ IH. exists None, e; split; [reflexivity|]. intros st rest; apply IH.
  - intros ts e ts' e' _ (o & a & He & IH1) _ IH2. exists (Some e), e'; split; [reflexivity|].
    intros st rest. rewrite <- app_assoc, IH1. cbn [app run step]. cbn. rewrite He, IH2. reflexivity.
Qed.

Theorem parse_complete ts e : OrE ts e -> parse ts = Some e.
Proof.
  intros H. destruct grammar_run as (_ & _ & _ & G). destruct (G _ _ H) as (o & a & He & R).
  unfold parse. rewrite <- (app_nil_r ts), R. simpl. now rewrite He.
Qed.

Corollary grammar_unambiguous ts e e' : OrE ts e -> OrE ts e' -> e = e'.
Proof. intros H H'. apply parse_complete in H, H'. congruence. Qed.

(** Soundness: what the machine has consumed in each state. *)

Definition FrPre (f : frame) (ts : list tok) : Prop :=
  exists to ta,
    ts = (to ++ ta ++ repeat (TKw "NOT") (fr_not f))%list /\
    match fr_or f with None => to = [] | Some o => exists t, to = (t ++ [TKw "OR"])%list /\ OrE t o end /\
    match fr_and f with None => ta = [] | Some a => exists t, ta = (t ++ [TKw "AND"])%list /\ AndE t a end.

Definition FrPost (f : frame) (ts : list tok) : Prop :=
  exists to ta a,
    ts = (to ++ ta)%list /\ fr_not f = 0 /\
    match fr_or f with None => to = [] | Some o => exists t, to = (t ++ [TKw "OR"])%list /\ OrE t o end /\
    fr_and f = Some a /\ AndE ta a.

Inductive Stack : list frame -> list tok -> Prop :=
| st_nil : Stack [] []
| st_cons f st ts0 ts : Stack st ts0 -> FrPre f ts -> Stack (f :: st) (ts0 ++ ts ++ [TLP])%list.

Fixpoint in_prefix (ns : list nat) : list tok :=
  match ns with [] => [] | n :: r => TParam n :: TComma :: in_prefix r end.

Definition InvMode (m : mode) (f : frame) (ts : list tok) : Prop :=
  match m with
  | MOperand => FrPre f ts
  | MOperator => FrPost f ts
  | MCol c => exists t, ts = (t ++ [TId c])%list /\ FrPre f t
  | MColNot c => exists t, ts = (t ++ [TId c; TKw "NOT"])%list /\ FrPre f t
  | MVal op neg c => exists t p, ts = (t ++ p)%list /\ FrPre f t /\
      forall n, Prim (p ++ [TParam n])%list (neg_atom neg (EAtom op c [n]))
  | MInOpen neg c => exists t,
      ts = (t ++ [TId c] ++ (if neg then [TKw "NOT"] else []) ++ [TKw "IN"])%list /\ FrPre f t
  | MIn neg c ns => exists t,
      ts = (t ++ [TId c] ++ (if neg then [TKw "NOT"] else []) ++ [TKw "IN"; TLP] ++ in_prefix ns)%list /\ FrPre f t
  | MInSep neg c ns => exists t n ns', ns = (n :: ns') /\
      ts = (t ++ [TId c] ++ (if neg then [TKw "NOT"] else []) ++ [TKw "IN"; TLP] ++ param_list n ns')%list /\ FrPre f t
  | MIs c => exists t, ts = (t ++ [TId c; TKw "IS"])%list /\ FrPre f t
  | MIsNot c => exists t, ts = (t ++ [TId c; TKw "IS"; TKw "NOT"])%list /\ FrPre f t
  end.

Definition Inv (s : state) (ts : list tok) : Prop :=
  let '(m, f, st) := s in
  exists ts0 ts1, ts = (ts0 ++ ts1)%list /\ Stack st ts0 /\ InvMode m f ts1.

Lemma nots_ok k ts e : Prim ts e -> NotE (repeat (TKw "NOT") k ++ ts)%list (nots k e).
Proof. intros H; induction k as [|k IH]; simpl; [now constructor|now constructor]. Qed.

Lemma operand_post f t p e : FrPre f t -> Prim p e ->
  FrPost (mkFr (fr_or f) (Some (and_opt (fr_and f) (nots (fr_not f) e))) 0) (t ++ p)%list.
Proof.
  intros (to & ta & Ht & Ho & Ha) Hp. pose proof (nots_ok (fr_not f) _ _ Hp) as Hn.
  destruct (fr_and f) as [a|] eqn:E.
  - destruct Ha as (t' & -> & Ha). exists to, (t' ++ TKw "AND" :: repeat (TKw "NOT") (fr_not f) ++ p)%list, (EAnd a (nots (fr_not f) e)).
    repeat split; try (exact Ho || reflexivity).
    + rewrite Ht. now rewrite <- !app_assoc.
    + now constructor.
  - subst ta. exists to, (repeat (TKw "NOT") (fr_not f) ++ p)%list, (nots (fr_not f) e).
    repeat split; try (exact Ho || reflexivity).
    + rewrite Ht. now rewrite <- !app_assoc.
    + now constructor.
Qed.

Lemma post_or f ts : FrPost f ts -> exists a, fr_and f = Some a /\ OrE ts (or_opt (fr_or f) a).
Proof.
  intros (to & ta & a & -> & Hn & Ho & Ha & HA). exists a; split; [exact Ha|].
  destruct (fr_or f) as [o|]; simpl.
  - destruct Ho as (t & -> & Ho). rewrite <- app_assoc; simpl. now constructor.
  - subst to; simpl. now constructor.
Qed.

Lemma is_kw_eq k t : is_kw k t = true -> t = TKw k.
Proof. destruct t; simpl; try discriminate. intros H%String.eqb_eq; congruence. Qed.

Lemma cmp_op_tok t op : cmp_op t = Some op -> cmp_tok t op.
Proof.
  destruct t; simpl; intros H; try discriminate; try (injection H as <-; constructor).
  destruct (String.eqb k "LIKE") eqn:E; [apply String.eqb_eq in E; subst; injection H as <-; constructor|].
  destruct (String.eqb k "ILIKE") eqn:E'; [apply String.eqb_eq in E'; subst; injection H as <-; constructor|].
  discriminate.
Qed.

Lemma in_prefix_snoc ns n : exists m ms, (ns ++ [n])%list = m :: ms /\ (in_prefix ns ++ [TParam n])%list = param_list m ms.
Proof.
  induction ns as [|k ns IH]; simpl; [now exists n, []|].
  destruct IH as (m & ms & E1 & E2). exists k, (m :: ms). rewrite E1, E2. split; reflexivity.
Qed.
Lemma param_list_comma n ns : (param_list n ns ++ [TComma])%list = in_prefix (n :: ns).
Proof. revert n; induction ns as [|m ns IH]; intros n; simpl in *; [reflexivity|]. now rewrite IH. Qed.

Lemma inv_operand st ts0 f t p e : Stack st ts0 -> FrPre f t -> Prim p e ->
  Inv (operand e f st) (ts0 ++ t ++ p)%list.
Proof.
  intros Hs Hf Hp. unfold operand, Inv. exists ts0, (t ++ p)%list. repeat split; [exact Hs|].
  now apply operand_post.
Qed.

Lemma step_inv s t s' ts : Inv s ts -> step s t = Some s' -> Inv s' (ts ++ [t])%list.
Proof.
  destruct s as [[m f] st]. intros (ts0 & ts1 & -> & Hs & Hm) E. unfold step in E. rewrite <- app_assoc.
  destruct m; simpl in Hm.
  - (* MOperand *)
    destruct t; try discriminate; try (injection E as <-).
    + destruct (is_kw "NOT" (TKw k)) eqn:K; [|discriminate]. apply is_kw_eq in K as [= ->].
      injection E as <-. exists ts0, (ts1 ++ [TKw "NOT"])%list. repeat split; [exact Hs|].
      destruct Hm as (to & ta & -> & Ho & Ha). exists to, ta. repeat split; [|exact Ho|exact Ha].
      cbn [fr_not]. rewrite <- !app_assoc. do 2 f_equal. clear.
      induction (fr_not f) as [|k IH]; simpl; [reflexivity|]. f_equal. exact IH.
    + exists ts0, (ts1 ++ [TId w])%list. repeat split; [exact Hs|]. simpl. eauto.
    + exists (ts0 ++ ts1 ++ [TLP])%list, []. rewrite app_nil_r. repeat split; [now constructor|].
      exists [], []; simpl; auto.
  - (* MOperator *)
    destruct (post_or _ _ Hm) as (a & Ha & HO). rewrite Ha in E.
    assert (K : t = TRP \/ (if is_kw "AND" t then Some (MOperand, f, st)
          else if is_kw "OR" t then Some (MOperand, mkFr (Some (or_opt (fr_or f) a)) None 0, st)
          else None) = Some s').
    { destruct t; auto. }
    destruct K as [->|K].
    + destruct st as [|f' st']; [discriminate|]. injection E as <-.
      inversion Hs as [|f1 st1 ts0' tsf Hs' Hf]; subst.
      rewrite <- !app_assoc. cbn [app].
      replace (tsf ++ TLP :: ts1 ++ [TRP])%list with (tsf ++ ([TLP] ++ ts1 ++ [TRP]))%list by reflexivity.
      apply inv_operand; [exact Hs'|exact Hf|now constructor].
    + clear E. destruct (is_kw "AND" t) eqn:KA; [apply is_kw_eq in KA as ->|destruct (is_kw "OR" t) eqn:KO;
        [apply is_kw_eq in KO as ->|discriminate]]; injection K as <-.
      * exists ts0, (ts1 ++ [TKw "AND"])%list. repeat split; [exact Hs|].
        destruct Hm as (to & ta & a' & -> & Hn & Ho & Ha' & HA). rewrite Ha in Ha'; injection Ha' as <-.
        exists to, (ta ++ [TKw "AND"])%list. rewrite Hn, Ha; simpl. rewrite <- !app_assoc, app_nil_r.
        repeat split; [exact Ho|]. now exists ta.
      * exists ts0, (ts1 ++ [TKw "OR"])%list. repeat split; [exact Hs|].
        exists (ts1 ++ [TKw "OR"])%list, []; simpl. rewrite app_nil_r. repeat split. now exists ts1.
  - (* MCol *)
    destruct Hm as (t0 & -> & Hf). rewrite <- app_assoc. cbn [app].
    destruct (cmp_op t) as [op|] eqn:C.
    + injection E as <-. exists ts0, (t0 ++ [TId c; t])%list. repeat split; [exact Hs|].
      exists t0, [TId c; t]. repeat split; [exact Hf|]. intros n; simpl. constructor. now apply cmp_op_tok.
    + destruct (is_kw "IN" t) eqn:K1; [apply is_kw_eq in K1 as ->; injection E as <-|
        destruct (is_kw "IS" t) eqn:K2; [apply is_kw_eq in K2 as ->; injection E as <-|
        destruct (is_kw "NOT" t) eqn:K3; [apply is_kw_eq in K3 as ->; injection E as <-|discriminate]]];
      eexists ts0, _; (split; [reflexivity|split; [exact Hs|]]); exists t0; split; try reflexivity; exact Hf.
  - (* MColNot *)
    destruct Hm as (t0 & -> & Hf). rewrite <- app_assoc. cbn [app].
    destruct (is_kw "LIKE" t) eqn:K1; [apply is_kw_eq in K1 as ->; injection E as <-|
      destruct (is_kw "ILIKE" t) eqn:K2; [apply is_kw_eq in K2 as ->; injection E as <-|
      destruct (is_kw "IN" t) eqn:K3; [apply is_kw_eq in K3 as ->; injection E as <-|discriminate]]];
      eexists ts0, _; (split; [reflexivity|split; [exact Hs|]]).
    + exists t0, [TId c; TKw "NOT"; TKw "LIKE"]. repeat split; [exact Hf|]. intros n; simpl; constructor.
    + exists t0, [TId c; TKw "NOT"; TKw "ILIKE"]. repeat split; [exact Hf|]. intros n; simpl; constructor.
    + exists t0; split; [reflexivity|exact Hf].
  - (* MVal *)
    destruct Hm as (t0 & p & -> & Hf & Hp). destruct t; try discriminate. injection E as <-.
    rewrite <- !app_assoc. apply inv_operand; auto.
  - (* MInOpen *)
    destruct Hm as (t0 & -> & Hf). destruct t; try discriminate. injection E as <-.
    eexists ts0, _; (split; [reflexivity|split; [exact Hs|]]). exists t0; split; [|exact Hf].
    rewrite <- app_assoc. f_equal. destruct neg; reflexivity.
  - (* MIn *)
    destruct Hm as (t0 & -> & Hf). destruct t; try discriminate. injection E as <-.
    eexists ts0, _; (split; [reflexivity|split; [exact Hs|]]).
    destruct (in_prefix_snoc ns n) as (m & ms & E1 & E2). exists t0, m, ms. repeat split; [exact E1| |exact Hf].
    rewrite <- E2, <- app_assoc. f_equal. destruct neg; reflexivity.
  - (* MInSep *)
    destruct Hm as (t0 & n & ns' & -> & -> & Hf). destruct t; try discriminate; injection E as <-.
    + match goal with |- Inv ?s ?x =>
        replace x with (ts0 ++ t0 ++ ([TId c] ++ (if neg then [TKw "NOT"] else []) ++ [TKw "IN"; TLP] ++ param_list n ns' ++ [TRP]))%list
          by (f_equal; rewrite <- app_assoc; f_equal; destruct neg; reflexivity)
      end.
      apply inv_operand; [exact Hs|exact Hf|]. destruct neg; constructor.
    + eexists ts0, _; (split; [reflexivity|split; [exact Hs|]]). exists t0; split; [|exact Hf].
      rewrite <- param_list_comma, <- app_assoc. f_equal. destruct neg; reflexivity.
  - (* MIs *)
    destruct Hm as (t0 & -> & Hf).
    destruct (is_kw "NULL" t) eqn:K1; [apply is_kw_eq in K1 as ->; injection E as <-|
      destruct (is_kw "NOT" t) eqn:K2; [apply is_kw_eq in K2 as ->; injection E as <-|discriminate]].
    + rewrite <- !app_assoc. cbn [app]. apply inv_operand; [exact Hs|exact Hf|constructor].
    + eexists ts0, _; (split; [reflexivity|split; [exact Hs|]]). exists t0; split; [|exact Hf].
      now rewrite <- app_assoc.
  - (* MIsNot *)
    destruct Hm as (t0 & -> & Hf).
    destruct (is_kw "NULL" t) eqn:K1; [apply is_kw_eq in K1 as ->; injection E as <-|discriminate].
    rewrite <- !app_assoc. cbn [app]. apply inv_operand; [exact Hs|exact Hf|constructor].
Qed.

Lemma run_inv ts' : forall s ts s', Inv s ts -> run s ts' = Some s' -> Inv s' (ts ++ ts')%list.
Proof.
  induction ts' as [|t ts' IH]; intros s ts s' Hi E; simpl in E; [injection E as <-; now rewrite app_nil_r|].
  destruct (step s t) as [s1|] eqn:E1; [|discriminate].
  apply (step_inv _ _ _ _ Hi) in E1. apply (IH _ _ _ E1) in E. now rewrite <- app_assoc in E.
Qed.

Theorem parse_sound ts e : parse ts = Some e -> OrE ts e.
Proof.
  unfold parse. destruct (run (MOperand, new_frame, []) ts) as [[[m f] st]|] eqn:E; [|discriminate].
  apply (run_inv ts _ []) in E.
  - simpl in E. destruct E as (ts0 & ts1 & -> & Hs & Hm). destruct m; try discriminate.
    destruct st; [|discriminate]. inversion Hs; subst. simpl in *.
    destruct (post_or _ _ Hm) as (a & -> & HO). congruence.
  - exists [], []; repeat split; [constructor|]. exists [], []; simpl; auto.
Qed.

Theorem parse_iff ts e : parse ts = Some e <-> OrE ts e.
Proof. split; [apply parse_sound|apply parse_complete]. Qed.
