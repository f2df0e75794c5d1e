(** Exactly when And, Or and Where do what they are documented to do (C84-C87). *)
From Coq Require Import String Ascii List Bool Arith Lia NArith ZArith.
From Verif Require Import GoStr Value Names Cond Build SqlSpec Spec StrFacts SqlFacts CondFacts CondText CondSem TreeFacts
  CondLogic CondMeaning Built CondThms PropsCond NameFacts StmtFacts Calls BuildFacts BuildThms PropsSelect AtomFacts PropsAtoms CondExact CondIff CondRight.
Import ListNotations.
Local Open Scope string_scope.
Local Open Scope nat_scope.

(** The rules below speak of these facts about a condition c (definitions in
    CondIff.v and CondRight.v):
    - [inside op c]: its members if it is a group, itself if it is a leaf;
    - [negated c]: it is a group under NOT;
    - [wrapped c]: it is a leaf, or a group written in brackets when negated;
    - [tails op cs]: the members from the second on are all joined by [op];
    - [flat_map conns cs]: the connectives of the operands standing outside inner brackets,
      in text order (C87 ties them to the text); [lead] is the first, [outer] the others;
    - [anyor]: there is an OR among them. *)

Lemma Forall_built_wf ds : (forall d, In d ds -> built d) -> Forall no_empty ds -> Forall wf ds.
Proof. intros H1 H2. rewrite Forall_forall in *. intros d Hd. apply built_wf; auto. Qed.

(** * C84 Exactly when And is the conjunction *)

(** One argument.  With [flat] standing for [and_flat (inside AND c) (inside AND d)], the rule [and_right c d] is
    - for an unnegated receiver: its members are not all joined by AND, or there is no OR outside
      brackets in it; and if [flat], d is not negated, starts with AND and has no OR outside
      brackets, otherwise d is not negated, or its NOT covers all of it;
    - for a negated receiver: the accident of De Morgan, NOT (c.. OR d..) for NOT (c..) AND NOT (d..).
    The rule suffices on all rows for all conditions; where it fails, and the conditions
    name different columns, some row shows it. *)
Theorem C84_and_suffices : forall rho c d r vc vd,
  built c -> built d -> no_empty c -> no_empty d -> sound rho c -> sound rho d ->
  m_and c [d] = Ok r \/ and_ c [d] = Ok r -> and_right c d = true ->
  means rho c vc -> means rho d vd -> means rho r (and3 vc vd).
Proof. intros rho c d r vc vd Hb Hbd He Hed Hs Hsd E R. apply (and_one_iff c d r); auto using built_wf. Qed.
Print Assumptions C84_and_suffices.
Theorem C84_and_exact : forall c d r,
  built c -> built d -> no_empty c -> no_empty d -> good c -> good d -> NoDup (cols c ++ cols d) ->
  m_and c [d] = Ok r \/ and_ c [d] = Ok r ->
  (and_right c d = true <-> forall rho vc vd, means rho c vc -> means rho d vd -> means rho r (and3 vc vd)).
Proof.
  intros c d r Hb Hbd He Hed Hg Hgd Hn E. destruct (and_one_iff c d r) as [H1 H2]; auto using built_wf. split.
  - intros R rho vc vd. apply H1; auto; intros l Hl; apply good_leaf_sound; auto.
  - intros H. destruct (and_right c d); [reflexivity|]. destruct (H2 eq_refl Hg Hgd Hn) as (rho & vc & vd & v & M1 & M2 & M3 & Hv).
    destruct Hv. eapply means_fun; [exact M3|]. now apply H.
Qed.
Print Assumptions C84_and_exact.

(** Two or more arguments: the receiver is not negated, and either its members are all joined
    by AND and no argument has an OR outside brackets, or all arguments and their operands
    outside brackets are joined by AND. *)
Theorem C84_many_suffices : forall rho c ds r vc vds,
  built c -> (forall d, In d ds -> built d) -> no_empty c -> Forall no_empty ds -> sound rho c -> Forall (sound rho) ds ->
  1 < length ds -> m_and c ds = Ok r \/ and_ c ds = Ok r -> and_right_many c ds = true ->
  means rho c vc -> Forall2 (means rho) ds vds -> means rho r (fold_right and3 T (vc :: vds)).
Proof.
  intros rho c ds r vc vds Hb Hbd He Hed Hs Hsd Hl E R. apply (and_many_iff c ds r); auto using built_wf, Forall_built_wf.
Qed.
Print Assumptions C84_many_suffices.
Theorem C84_many_exact : forall c ds r,
  built c -> (forall d, In d ds -> built d) -> no_empty c -> Forall no_empty ds -> good c -> Forall good ds ->
  NoDup (cols c ++ flat_map cols ds) -> 1 < length ds -> m_and c ds = Ok r \/ and_ c ds = Ok r ->
  (and_right_many c ds = true <->
   forall rho vc vds, means rho c vc -> Forall2 (means rho) ds vds -> means rho r (fold_right and3 T (vc :: vds))).
Proof.
  intros c ds r Hb Hbd He Hed Hg Hgd Hn Hl E. destruct (and_many_iff c ds r) as [H1 H2]; auto using built_wf, Forall_built_wf. split.
  - intros R rho vc vds. apply H1; auto; [intros l Hl'; apply good_leaf_sound; auto|].
    rewrite Forall_forall in *. intros d Hd l Hl'. apply good_leaf_sound. now apply (Hgd d).
  - intros H. destruct (and_right_many c ds); [reflexivity|]. destruct (H2 eq_refl Hg Hgd Hn) as (rho & vc & vds & v & M1 & M2 & M3 & Hv).
    destruct Hv. eapply means_fun; [exact M3|]. now apply H.
Qed.
Print Assumptions C84_many_exact.

Definition okand c ds := match m_and c ds with Ok r => match c_render r 0 with Ok s => s | _ => "" end | _ => "" end.
Definition okor c ds := match m_or c ds with Ok r => match c_render r 0 with Ok s => s | _ => "" end | _ => "" end.
Definition ab_or : cond := Eval vm_compute in get (m_or (eqc "a" 1) [eqc "b" 1]).
Definition ab_and : cond := Eval vm_compute in get (m_and (eqc "a" 1) [eqc "b" 1]).
Definition not_ab : cond := Eval vm_compute in get (not_ ab_and).
Definition not_x : cond := Eval vm_compute in get (do g <- new_group OR [eqc "x" 1]; not_ (of_g g)).
Definition cd_or : cond := Eval vm_compute in get (m_or (eqc "c" 1) [eqc "d" 1]).
(** a.Or(b).And(c): right.  NewGroup(AND, a.Or(b)).And(c): wrong.  c.And(a.Or(b)): right.
    NOT (a AND b), And c: wrong; And NOT x, from a group made with OR: right by De Morgan. *)
Example C84_one_example :
  (and_right ab_or (eqc "c" 1) = true /\ okand ab_or [eqc "c" 1] = "(a=$1 OR b=$2) AND c=$3") /\
  (and_right (grp AND [ab_or]) (eqc "c" 1) = false /\ okand (grp AND [ab_or]) [eqc "c" 1] = "a=$1 OR b=$2 AND c=$3") /\
  (and_right (eqc "c" 1) ab_or = true /\ okand (eqc "c" 1) [ab_or] = "c=$1 AND (a=$2 OR b=$3)") /\
  (and_right not_ab (eqc "c" 1) = false /\ okand not_ab [eqc "c" 1] = "NOT (a=$1 AND b=$2 AND c=$3)") /\
  (and_right not_ab not_x = true /\ okand not_ab [not_x] = "NOT (a=$1 AND b=$2 OR x=$3)") /\
  cols ab_or = ["a"; "b"] /\ NoDup (cols not_ab ++ cols not_x).
Proof.
  repeat (split; [vm_compute; auto|]). vm_compute. repeat constructor; simpl; intuition discriminate.
Qed.
Example C84_many_example :
  (and_right_many (eqc "x" 1) [eqc "c" 1; ab_and] = true /\ okand (eqc "x" 1) [eqc "c" 1; ab_and] = "(x=$1) AND (c=$2 AND a=$3 AND b=$4)") /\
  (and_right_many (eqc "x" 1) [eqc "c" 1; ab_or] = false /\ okand (eqc "x" 1) [eqc "c" 1; ab_or] = "(x=$1) AND (c=$2 AND a=$3 OR b=$4)") /\
  (and_right_many cd_or [eqc "x" 1; ab_and] = true /\ okand cd_or [eqc "x" 1; ab_and] = "(c=$1 OR d=$2) AND x=$3 AND a=$4 AND b=$5") /\
  (and_right_many not_ab [eqc "x" 1; eqc "y" 1] = false /\ okand not_ab [eqc "x" 1; eqc "y" 1] = "NOT (NOT (a=$1 AND b=$2) AND (x=$3 AND y=$4))").
Proof. vm_compute. auto 10. Qed.

(** * C85 Exactly when Or is what is documented *)

(** One argument; [or_right c d] with [flat] standing for [tails OR (inside OR d)]:
    - for an unnegated receiver: if [flat], d is not negated and starts with OR; otherwise d is
      not negated, or its NOT covers all of it;
    - for a negated receiver: again only by De Morgan. *)
Theorem C85_or_suffices : forall rho c d r vc vd,
  built c -> built d -> no_empty c -> no_empty d -> sound rho c -> sound rho d ->
  m_or c [d] = Ok r \/ or_ c [d] = Ok r -> or_right c d = true ->
  means rho c vc -> means rho d vd -> means rho r (or3 vc vd).
Proof. intros rho c d r vc vd Hb Hbd He Hed Hs Hsd E R. apply (or_one_iff c d r); auto using built_wf. Qed.
Print Assumptions C85_or_suffices.
Theorem C85_or_exact : forall c d r,
  built c -> built d -> no_empty c -> no_empty d -> good c -> good d -> NoDup (cols c ++ cols d) ->
  m_or c [d] = Ok r \/ or_ c [d] = Ok r ->
  (or_right c d = true <-> forall rho vc vd, means rho c vc -> means rho d vd -> means rho r (or3 vc vd)).
Proof.
  intros c d r Hb Hbd He Hed Hg Hgd Hn E. destruct (or_one_iff c d r) as [H1 H2]; auto using built_wf. split.
  - intros R rho vc vd. apply H1; auto; intros l Hl; apply good_leaf_sound; auto.
  - intros H. destruct (or_right c d); [reflexivity|]. destruct (H2 eq_refl Hg Hgd Hn) as (rho & vc & vd & v & M1 & M2 & M3 & Hv).
    destruct Hv. eapply means_fun; [exact M3|]. now apply H.
Qed.
Print Assumptions C85_or_exact.
(** Two or more arguments: never, whatever the conditions. *)
Theorem C85_many_never : forall c ds r,
  built c -> (forall d, In d ds -> built d) -> no_empty c -> Forall no_empty ds -> good c -> Forall good ds ->
  NoDup (cols c ++ flat_map cols ds) -> 1 < length ds -> m_or c ds = Ok r \/ or_ c ds = Ok r ->
  exists rho vc vds v, means rho c vc /\ Forall2 (means rho) ds vds /\ means rho r v /\ v <> or3 vc (fold_right and3 T vds).
Proof. intros c ds r Hb Hbd He Hed Hg Hgd Hn Hl E. apply (or_many_never c ds r); auto using built_wf, Forall_built_wf. Qed.
Print Assumptions C85_many_never.
(** a.And(b).Or(c) and c.Or(a.And(b)): right; c.Or(NewGroup(AND, a)): wrong, it is c AND a; two arguments: wrong. *)
Example C85_example :
  (or_right ab_and (eqc "c" 1) = true /\ okor ab_and [eqc "c" 1] = "(a=$1 AND b=$2) OR c=$3") /\
  (or_right (eqc "c" 1) ab_and = true /\ okor (eqc "c" 1) [ab_and] = "c=$1 OR (a=$2 AND b=$3)") /\
  (or_right (eqc "c" 1) (grp AND [eqc "a" 1]) = false /\ okor (eqc "c" 1) [grp AND [eqc "a" 1]] = "c=$1 AND a=$2") /\
  (or_right not_ab (eqc "c" 1) = false /\ okor not_ab [eqc "c" 1] = "NOT (NOT (a=$1 AND b=$2) OR c=$3)") /\
  okor (eqc "x" 1) [eqc "y" 1; eqc "z" 1] = "(x=$1) AND (y=$2 AND z=$3)" /\
  NoDup (cols (eqc "x" 1) ++ flat_map cols [eqc "y" 1; eqc "z" 1]).
Proof.
  repeat (split; [vm_compute; auto|]). vm_compute. repeat constructor; simpl; intuition discriminate.
Qed.

(** * C86 Exactly when Where narrows *)

(** The first call that brings conditions keeps them as they are: right if it brings one, or
    if no OR stands outside brackets in what they write one after the other. *)
Theorem C86_first_exact : forall ds cq,
  (forall d, In d ds -> built d) -> Forall no_empty ds -> Forall good ds -> NoDup (flat_map cols ds) -> wanted [ds] (Some cq) ->
  (first_right ds = true <-> forall rho vds, Forall2 (means rho) ds vds -> means rho cq (fold_right and3 T vds)).
Proof.
  intros ds cq Hb He Hg Hn W. destruct (wanted_group [ds] cq W) as (g & E & ->). destruct W as [Hne _]. simpl in Hne. rewrite app_nil_r in Hne.
  cbn [calls] in E. destruct (group_and empty_group ds) as [g0|] eqn:E0; [|discriminate]. cbn [bind] in E. injection E as <-.
  rewrite (first_group ds g0 Hne E0). destruct (first_iff ds (Forall_built_wf ds Hb He) Hne) as [H1 H2]. split.
  - intros R rho vds. apply H1; auto. rewrite Forall_forall in *. intros d Hd l Hl. apply good_leaf_sound. now apply (Hg d).
  - intros H. destruct (first_right ds); [reflexivity|]. destruct (H2 eq_refl Hg Hn) as (rho & vds & v & M1 & M2 & Hv).
    destruct Hv. eapply means_fun; [exact M2|]. now apply H.
Qed.
Print Assumptions C86_first_exact.

(** A later call with the arguments [ds] on a builder whose Where calls asked for [cq]: the rule of
    And for the receiver [cq]. *)
Definition narrows (cq : cond) (ds : list cond) : bool :=
  match ds with [d] => and_right cq d | _ => and_right_many cq ds end.

Lemma calls_snoc {A B} (f : A -> B -> res A) l : forall a x r, calls f a (l ++ [x])%list = Ok r -> exists b, calls f a l = Ok b /\ f b x = Ok r.
Proof.
  induction l as [|y l IH]; intros a x r E; simpl in *.
  - destruct (f a x) as [b|] eqn:E1; [|discriminate]. simpl in E. exists a. injection E as <-. auto.
  - destruct (f a y) as [b|]; [|discriminate]. simpl in *. now apply IH.
Qed.
Lemma wanted_step css ds cq cq' : wanted css (Some cq) -> wanted (css ++ [ds]) (Some cq') -> m_and cq ds = Ok cq'.
Proof. intros [_ E] [_ E']. apply calls_snoc in E' as (b & E1 & E2). congruence. Qed.
Lemma wanted_cols css cq : Forall regular (List.concat css) -> wanted css (Some cq) -> cols cq = flat_map cols (List.concat css).
Proof.
  intros Hr W. destruct (wanted_leaves css cq Hr W) as (_ & E & _).
  assert (K : forall ls ls', map core ls = map core ls' -> map colof ls = map colof ls').
  { induction ls as [|l ls IH]; intros [|l' ls'] E'; try discriminate; [reflexivity|]. cbn [map] in E' |- *. f_equal; [|apply IH; congruence].
    unfold colof. f_equal. unfold core in E'. congruence. }
  unfold cols at 1. rewrite (K _ _ E). unfold cols. clear. induction (List.concat css) as [|c cs IH]; [reflexivity|]. cbn [flat_map]. now rewrite map_app, IH.
Qed.

Theorem C86_later_suffices : forall rho css ds cq cq' vq vds, ds <> [] ->
  Forall regular (List.concat css) -> Forall regular ds -> wanted css (Some cq) -> wanted (css ++ [ds]) (Some cq') ->
  narrows cq ds = true -> means rho cq vq -> Forall2 (means rho) ds vds -> means rho cq' (fold_right and3 T (vq :: vds)).
Proof.
  intros rho css ds cq cq' vq vds Hne Hr Hd W W' R Hm Hmd. pose proof (wanted_step _ _ _ _ W W') as E.
  destruct (wanted_leaves css cq Hr W) as (Hw & _ & Hg).
  assert (Hwd : Forall wf ds) by (eapply Forall_impl; [|exact Hd]; intros c (H1 & H2 & _); now apply built_wf).
  assert (Hs : sound rho cq) by (intros l Hl; apply good_leaf_sound, Hg, Hl).
  assert (Hsd : Forall (sound rho) ds) by (eapply Forall_impl; [|exact Hd]; intros c (_ & _ & H) l Hl; apply good_leaf_sound, H, Hl).
  destruct ds as [|d [|d' ds]]; [congruence| |].
  - inversion Hmd as [|? vd ? ? H1 H2]; subst. inversion H2; subst. cbn [fold_right]. rewrite and3_T.
    apply (and_one_iff cq d cq'); auto; [exact (Forall_inv Hwd)|exact (Forall_inv Hsd)].
  - apply (and_many_iff cq (d :: d' :: ds) cq'); auto. simpl. lia.
Qed.
Print Assumptions C86_later_suffices.
Theorem C86_later_exact : forall css ds cq cq', ds <> [] ->
  Forall regular (List.concat css) -> Forall regular ds -> NoDup (flat_map cols (List.concat css) ++ flat_map cols ds) ->
  wanted css (Some cq) -> wanted (css ++ [ds]) (Some cq') ->
  (narrows cq ds = true <->
   forall rho vq vds, means rho cq vq -> Forall2 (means rho) ds vds -> means rho cq' (fold_right and3 T (vq :: vds))).
Proof.
  intros css ds cq cq' Hne Hr Hd Hn W W'. split.
  - intros R rho vq vds. now apply (C86_later_suffices rho css ds).
  - intros H. pose proof (wanted_step _ _ _ _ W W') as E. rewrite <- (wanted_cols css cq Hr W) in Hn.
    destruct (wanted_leaves css cq Hr W) as (Hw & _ & Hg).
    assert (Hwd : Forall wf ds) by (eapply Forall_impl; [|exact Hd]; intros c (H1 & H2 & _); now apply built_wf).
    assert (Hgd : Forall good ds) by (eapply Forall_impl; [|exact Hd]; intros c (_ & _ & K); exact K).
    destruct (narrows cq ds) eqn:R; [reflexivity|]. destruct ds as [|d [|d' ds]]; [congruence| |].
    + destruct (and_one_iff cq d cq') as [_ H2]; auto; [exact (Forall_inv Hwd)|].
      destruct (H2 R Hg (Forall_inv Hgd)) as (rho & vc & vd & v & M1 & M2 & M3 & Hv); [simpl in Hn; now rewrite app_nil_r in Hn|].
      destruct Hv. eapply means_fun; [exact M3|]. specialize (H rho vc [vd] M1 ltac:(constructor; [exact M2|constructor])).
      cbn [fold_right] in H. now rewrite and3_T in H.
    + destruct (and_many_iff cq (d :: d' :: ds) cq') as [_ H2]; auto; [simpl; lia|].
      destruct (H2 R Hg Hgd Hn) as (rho & vc & vds & v & M1 & M2 & M3 & Hv). destruct Hv. eapply means_fun; [exact M3|]. now apply H.
Qed.
Print Assumptions C86_later_exact.
(** Where(a.Or(b)) alone: right; then Where(c): wrong; Where(x).Where(a.Or(b)).Where(c, d): right;
    Where(x, a.Or(b)): wrong. *)
Definition after (css : list (list cond)) : cond := get (calls m_and (CGrp AND false [] false) css).
Example C86_example :
  first_right [ab_or] = true /\ narrows (after [[ab_or]]) [eqc "c" 1] = false /\
  wanted [[ab_or]; [eqc "c" 1]] (Some (after [[ab_or]; [eqc "c" 1]])) /\
  c_render (after [[ab_or]; [eqc "c" 1]]) 0 = Ok "a=$1 OR b=$2 AND c=$3" /\
  narrows (after [[eqc "x" 1]]) [ab_or] = true /\ narrows (after [[eqc "x" 1]; [ab_or]]) [eqc "c" 1; eqc "d" 1] = true /\
  c_render (after [[eqc "x" 1]; [ab_or]; [eqc "c" 1; eqc "d" 1]]) 0 = Ok "(x=$1 AND (a=$2 OR b=$3)) AND (c=$4 AND d=$5)" /\
  first_right [eqc "x" 1; ab_or] = false /\ c_render (after [[eqc "x" 1; ab_or]]) 0 = Ok "x=$1 OR a=$2 OR b=$3" /\
  Forall regular [eqc "x" 1; eqc "c" 1; eqc "d" 1].
Proof.
  split; [reflexivity|]. split; [reflexivity|]. split; [split; [discriminate|reflexivity]|]. repeat (split; [vm_compute; reflexivity|]).
  repeat apply Forall_cons; try apply Forall_nil; (split; [by_eqc|split; [exact I|intros l [<-|[]]; split; [|eexists; reflexivity]; split; [reflexivity|split; left; reflexivity]]]).
Qed.

(** * C87 The connectives outside brackets are those of the text *)

(** Reading the rendered text word by word and counting brackets, the words AND and OR met outside
    brackets are the connectives before the second and later operands of the condition.  [top] is
    CondRight.v's reader: it knows only brackets and the two words. *)
Theorem C87_connectives : forall rho c n, built c -> no_empty c -> sound rho c ->
  exists s, c_render c n = Ok s /\ top 0 (lex s) = tl (conns c).
Proof. intros rho c n Hb He Hs. apply (top_text rho); auto using built_wf. Qed.
Print Assumptions C87_connectives.
(** So a condition has no OR outside brackets exactly when its text has none. *)
Theorem C87_no_or : forall rho c n s, built c -> no_empty c -> sound rho c -> c_render c n = Ok s ->
  (anyor (tl (conns c)) = true <-> In OR (top 0 (lex s))).
Proof.
  intros rho c n s Hb He Hs E. destruct (C87_connectives rho c n Hb He Hs) as (s' & E' & H). rewrite E in E'. injection E' as <-. rewrite H.
  unfold anyor. rewrite existsb_exists. split.
  - intros (x & Hx & Ex). apply String.eqb_eq in Ex. now subst.
  - intros Hx. exists OR. split; [exact Hx|reflexivity].
Qed.
Print Assumptions C87_no_or.
Example C87_example : c_render sample 0 = Ok "t.a IN ($1,$2) AND (b=$3 OR c NOT LIKE $4)" /\
  top 0 (lex "t.a IN ($1,$2) AND (b=$3 OR c NOT LIKE $4)") = ["AND"] /\ tl (conns sample) = ["AND"] /\
  tl (conns (after [[eqc "x" 1; ab_or]])) = ["OR"; "OR"].
Proof. repeat split; vm_compute; reflexivity. Qed.
