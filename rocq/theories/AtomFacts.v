(** The predicates of a rendered condition, read off its tokens. *)
From Coq Require Import String Ascii List Bool Arith Lia.
From Verif Require Import GoStr Value Names Cond SqlSpec Spec StrFacts SqlFacts CondFacts CondSem.
Import ListNotations.
Local Open Scope string_scope.
Local Open Scope nat_scope.

(** * The predicates of an expression *)

(** operator, column and parameter numbers of the atoms, left to right *)
Definition atom := (aop * string * list nat)%type.
Fixpoint atoms (e : expr) : list atom :=
  match e with
  | EAtom op c ns => [(op, c, ns)]
  | ENot e => atoms e
  | EAnd a b => (atoms a ++ atoms b)%list
  | EOr a b => (atoms a ++ atoms b)%list
  end.

(** * The same, from the tokens *)

Inductive sym := SCol (c : string) | SOp (o : aop) | SPar (n : nat).
Definition syms (t : tok) : list sym :=
  match t with
  | TId c => [SCol c]
  | TParam n => [SPar n]
  | TEq => [SOp AEq] | TGt => [SOp AGt] | TGe => [SOp AGe] | TLt => [SOp ALt] | TLe => [SOp ALe]
  | TKw k =>
      if String.eqb k "LIKE" then [SOp ALike] else if String.eqb k "ILIKE" then [SOp AILike]
      else if String.eqb k "IN" then [SOp AIn] else if String.eqb k "NULL" then [SOp ANull] else []
  | _ => []
  end.
Definition atom_syms (a : atom) : list sym := let '(op, c, ns) := a in SCol c :: SOp op :: map SPar ns.

Lemma param_list_syms n ns : flat_map syms (param_list n ns) = map SPar (n :: ns).
Proof. revert n; induction ns as [|m ns IH]; intros n; [reflexivity|]. cbn [param_list flat_map syms app]. now rewrite IH. Qed.

Scheme Prim_m := Minimality for Prim Sort Prop
  with NotE_m := Minimality for NotE Sort Prop
  with AndE_m := Minimality for AndE Sort Prop
  with OrE_m := Minimality for OrE Sort Prop.

Lemma or_syms ts e : OrE ts e -> flat_map syms ts = flat_map atom_syms (atoms e).
Proof.
  set (P := fun ts e => flat_map syms ts = flat_map atom_syms (atoms e)).
  apply (OrE_m P P P P); unfold P.
  - intros c t op n H. now destruct H.
  - reflexivity.
  - reflexivity.
  - intros c n ns. rewrite !flat_map_app, param_list_syms. reflexivity.
  - intros c n ns. rewrite !flat_map_app, param_list_syms. reflexivity.
  - reflexivity.
  - reflexivity.
  - intros u d _ IH. rewrite !flat_map_app, IH. cbn [flat_map syms app]. now rewrite !app_nil_r.
  - auto.
  - intros u d _ IH. exact IH.
  - auto.
  - intros u d u' d' _ IH _ IH'. cbn [atoms]. rewrite !flat_map_app, IH. cbn [flat_map]. now rewrite IH'.
  - auto.
  - intros u d u' d' _ IH _ IH'. cbn [atoms]. rewrite !flat_map_app, IH. cbn [flat_map]. now rewrite IH'.
Qed.
Lemma not_syms ts e : NotE ts e -> flat_map syms ts = flat_map atom_syms (atoms e).
Proof. intros H. apply or_syms. now apply o_one, a_one. Qed.

(** atoms are determined by their symbols *)
Lemma pars_inj ns ms l r : (map SPar ns ++ l = map SPar ms ++ r)%list ->
  (l = [] \/ exists c x, l = SCol c :: x) -> (r = [] \/ exists c x, r = SCol c :: x) -> ns = ms /\ l = r.
Proof.
  revert ms; induction ns as [|n ns IH]; intros [|m ms] E Hl Hr; cbn in E; auto.
  - destruct Hl as [->|(c & x & ->)]; discriminate.
  - destruct Hr as [->|(c & x & ->)]; discriminate.
  - injection E as -> E. destruct (IH ms E Hl Hr) as [-> ->]. auto.
Qed.
Lemma atom_syms_inj l : forall r, flat_map atom_syms l = flat_map atom_syms r -> l = r.
Proof.
  assert (H : forall l, flat_map atom_syms l = [] \/ exists c x, flat_map atom_syms l = SCol c :: x).
  { intros [|[[o c] ns] x]; [now left|right]. simpl. eauto. }
  induction l as [|[[o c] ns] l IH]; intros [|[[o' c'] ms] r] E; try discriminate; [reflexivity|].
  cbn [flat_map atom_syms app] in E. injection E as -> -> E. apply pars_inj in E as [-> E]; auto. f_equal. now apply IH.
Qed.

(** * The predicates of a condition *)

Definition leaf_op (l : leaf) : aop := match aop_of (l_kind l) with Some o => o | None => AEq end.
Definition leaf_vals (l : leaf) : list gval := match leaf_values l with Ok vs => vs | Panic => [] end.
Fixpoint numbered (n : nat) (ls : list leaf) : list atom :=
  match ls with
  | [] => []
  | l :: r => (leaf_op l, column (l_def l), seq (n + 1) (length (leaf_vals l))) :: numbered (n + length (leaf_vals l)) r
  end.
Lemma numbered_app n a b : numbered n (a ++ b) = (numbered n a ++ numbered (n + length (flat_map leaf_vals a)) b)%list.
Proof.
  revert n; induction a as [|l a IH]; intros n; cbn [numbered flat_map app length]; [now rewrite Nat.add_0_r|].
  rewrite IH, app_length. do 3 f_equal. lia.
Qed.

(** the text of [c] has the predicates of its leaves *)
Definition Toks (c : cond) : Prop := c_values c = Ok (flat_map leaf_vals (leaves c)) /\ forall n, exists s ts,
  c_render c n = Ok s /\ lexes s ts /\ flat_map syms ts = flat_map atom_syms (numbered n (leaves c)).

Lemma tail_toks cs : Forall wf cs -> Forall Toks cs ->
  mapM c_values cs = Ok (map (fun c => flat_map leaf_vals (leaves c)) cs) /\ forall n, exists s ts,
    render_list false cs n = Ok s /\ lexes s ts /\ delim s = true /\
    flat_map syms ts = flat_map atom_syms (numbered n (flat_map leaves cs)).
Proof.
  induction cs as [|c cs IH]; intros Hw HS.
  - split; [reflexivity|]. intros n. exists "", []. repeat split; auto using lexes_nil.
  - inversion Hw as [|? ? Hw1 Hw2]; inversion HS as [|? ? [Ev HS1] HS2]; subst.
    destruct (IH Hw2 HS2) as [Evs Hrest]. clear IH. destruct (wf_jtype _ Hw1) as (j & Ej & Hj).
    split; [cbn [mapM map]; now rewrite Ev, Evs|]. intros n.
    destruct (HS1 n) as (s & ts & Es & Ls & Hi).
    destruct (Hrest (n + length (flat_map leaf_vals (leaves c)))) as (s2 & ts2 & Es2 & Ls2 & Hd & Hi2).
    cbn [render_list]. rewrite Ej, Es, Ev. cbn [bind]. rewrite Es2. cbn [bind].
    rewrite join_token_text by (now apply and_or_nonempty).
    exists ((" " ++ j ++ " ") ++ s ++ s2), ([TKw j] ++ ts ++ ts2)%list.
    split; [reflexivity|]. split; [apply eats_lexes; [now apply eats_join|now apply lexes_app]|]. split; [reflexivity|].
    cbn [flat_map]. rewrite !flat_map_app, Hi, Hi2, numbered_app, flat_map_app.
    destruct Hj as [-> | ->]; reflexivity.
Qed.
Lemma tree_toks c : wf c -> (forall l, In l (leaves c) -> good_leaf l) -> Toks c.
Proof.
  induction c as [|l|j ng cs br IH] using cond_ind'; intros Hw Hl.
  - inversion Hw.
  - destruct (good_leaf_text l (Hl l ltac:(simpl; auto))) as (op & vs & Eo & Ev & H). unfold Toks.
    cbn [leaves flat_map c_values]. unfold leaf_vals at 1. rewrite Ev, app_nil_r. split; [reflexivity|]. intros n.
    destruct (H n) as (s & _ & ts & _ & Es & _ & Ls & _ & _ & He). exists s, ts. split; [exact Es|]. split; [exact Ls|].
    rewrite (not_syms _ _ He). cbn [numbered]. unfold leaf_op, leaf_vals. rewrite Eo, Ev.
    destruct (l_neg l); reflexivity.
  - inversion Hw as [|? ? ? ? Hj Hne Hcs]; subst.
    assert (HS : Forall Toks cs).
    { rewrite Forall_forall in *. intros c Hc. apply IH; auto. intros l Hll. apply Hl. simpl. apply in_flat_map; eauto. }
    destruct cs as [|c cs]; [congruence|]. clear Hne IH Hl Hw.
    inversion Hcs as [|? ? Hw1 Hw2]; inversion HS as [|? ? [Ev HS1] HS2]; subst.
    destruct (tail_toks _ Hw2 HS2) as [Evs Hrest]. destruct (wf_jtype _ Hw1) as (jc & Ej & Hjc).
    split.
    { rewrite c_values_grp. cbn [mapM]. rewrite Ev, Evs. cbn [bind concatM leaves flat_map]. rewrite flat_map_app. cbn [concatM bind List.concat].
      do 2 f_equal. clear. induction cs as [|x cs IH]; [reflexivity|]. cbn [map List.concat flat_map]. now rewrite IH, flat_map_app. }
    intros n. rewrite c_render_grp.
    destruct (HS1 n) as (s & ts & Es & Ls & Hi).
    destruct (Hrest (n + length (flat_map leaf_vals (leaves c)))) as (s2 & ts2 & Es2 & Ls2 & Hd & Hi2).
    cbn [render_list]. rewrite Ej, Es, Ev. cbn [bind]. rewrite Es2. cbn [bind].
    rewrite !join_token_text by (now apply and_or_nonempty). cbn [append]. rewrite wrap_text.
    assert (LL : lexes (s ++ s2) (ts ++ ts2)) by (now apply lexes_app).
    assert (HY : flat_map syms (ts ++ ts2) = flat_map atom_syms (numbered n (leaves (CGrp j ng (c :: cs) br)))).
    { cbn [leaves flat_map]. now rewrite numbered_app, !flat_map_app, Hi, Hi2. }
    destruct (br || ng && (1 <? length (c :: cs))).
    + exists ((if ng then "NOT " else "") ++ "(" ++ (s ++ s2) ++ ")"),
             ((if ng then [TKw "NOT"] else []) ++ [TLP] ++ (ts ++ ts2) ++ [TRP])%list.
      split; [reflexivity|]. split; [destruct ng; [apply eats_lexes; [intros x; reflexivity|]|]; now apply lexes_par|].
      rewrite <- HY, !flat_map_app. destruct ng; cbn [flat_map syms app]; rewrite ?app_nil_r; reflexivity.
    + exists ((if ng then "NOT " else "") ++ (s ++ s2)), ((if ng then [TKw "NOT"] else []) ++ (ts ++ ts2))%list.
      split; [reflexivity|]. split; [destruct ng; [apply eats_lexes; [intros x; reflexivity|]|]; assumption|].
      rewrite <- HY. destruct ng; reflexivity.
Qed.
