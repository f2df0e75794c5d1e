(** The SQL meaning of rendered conditions. *)
From Coq Require Import String Ascii List Bool Arith Lia.
From Verif Require Import GoStr Value Names Cond SqlSpec Spec StrFacts SqlFacts CondFacts.
Import ListNotations.
Local Open Scope string_scope.
Local Open Scope nat_scope.

(** * Lexing pieces *)

Definition lexes (s : string) (ts : list tok) : Prop :=
  forall rest, delim rest = true -> lex (s ++ rest) = (ts ++ lex rest)%list.

(** a text that is empty or starts with a delimiter stays a delimiter when extended by one *)
Lemma delim_app a b : delim a = true -> delim b = true -> delim (a ++ b) = true.
Proof. destruct a; simpl; auto. Qed.

Lemma lexes_app a ta b tb : lexes a ta -> lexes b tb -> delim b = true -> lexes (a ++ b) (ta ++ tb)%list.
Proof.
  intros Ha Hb Hd rest Hr. rewrite app_assoc_s, Ha by (now apply delim_app). rewrite Hb by exact Hr.
  now rewrite app_assoc.
Qed.
Lemma lexes_nil : lexes "" [].
Proof. intros rest _; reflexivity. Qed.
Lemma lexes_lex s ts : lexes s ts -> lex s = ts.
Proof. intros H. rewrite <- (app_nil_r_s s), (H "" eq_refl). apply app_nil_r. Qed.

(** constant prefixes *)
Definition eats (p : string) (tp : list tok) : Prop := forall x, lex (p ++ x) = (tp ++ lex x)%list.
Lemma eats_lexes p tp s ts : eats p tp -> lexes s ts -> lexes (p ++ s) (tp ++ ts)%list.
Proof. intros Hp Hs rest Hr. rewrite app_assoc_s, Hp, Hs by exact Hr. now rewrite app_assoc. Qed.
Lemma lexes_par s ts : lexes s ts -> lexes ("(" ++ s ++ ")") ([TLP] ++ ts ++ [TRP])%list.
Proof.
  intros H rest Hr. change (("(" ++ s ++ ")") ++ rest) with ("(" ++ ((s ++ ")") ++ rest)).
  rewrite (app_assoc_s s ")" rest).
  change (lex ("(" ++ s ++ (")" ++ rest))) with (TLP :: lex (s ++ (")" ++ rest))).
  rewrite H by reflexivity. simpl. now rewrite <- app_assoc.
Qed.

(** * Precedence *)

Section Prec.
  Context {X : Type} (andX orX : X -> X -> X).
  Definition orO (o : option X) (a : X) : X := match o with Some x => orX x a | None => a end.
  Fixpoint prec_go (o : option X) (a : X) (l : list (string * X)) : X :=
    match l with
    | [] => orO o a
    | (j, x) :: r => if String.eqb j OR then prec_go (Some (orO o a)) x r else prec_go o (andX a x) r
    end.
  Definition prec (d : X) (l : list (string * X)) : X :=
    match l with [] => d | (_, x) :: r => prec_go None x r end.
End Prec.

Definition and_or (j : string) : Prop := j = AND \/ j = OR.

(** connective + operand, repeated *)
Inductive ItemsT : list tok -> list (string * expr) -> Prop :=
| itT_nil : ItemsT [] []
| itT_cons t e j ts l : NotE t e -> and_or j -> ItemsT ts l -> ItemsT (TKw j :: t ++ ts)%list ((j, e) :: l).
Definition Items (ts : list tok) (l : list (string * expr)) : Prop :=
  exists t e j ts' l', ts = (t ++ ts')%list /\ l = (j, e) :: l' /\ NotE t e /\ ItemsT ts' l'.

Lemma itemsT_app a l b m : ItemsT a l -> ItemsT b m -> ItemsT (a ++ b)%list (l ++ m)%list.
Proof.
  induction 1 as [|t e j ts l He Hj _ IH]; intros Hb; simpl; [exact Hb|].
  rewrite <- app_assoc. constructor; auto.
Qed.
Lemma items_app a l b m : Items a l -> ItemsT b m -> Items (a ++ b)%list (l ++ m)%list.
Proof.
  intros (t & e & j & ts' & l' & -> & -> & He & HT) Hb. exists t, e, j, (ts' ++ b)%list, (l' ++ m)%list.
  rewrite <- app_assoc. repeat split; auto. now apply itemsT_app.
Qed.
Lemma items_tail ts j e l : Items ts ((j, e) :: l) -> and_or j -> ItemsT (TKw j :: ts) ((j, e) :: l).
Proof.
  intros (t & e' & j' & ts' & l' & -> & [= -> -> ->] & He & HT) Hj. now constructor.
Qed.
Lemma items_head ts j j' e l : Items ts ((j, e) :: l) -> Items ts ((j', e) :: l).
Proof.
  intros (t & e' & j0 & ts' & l' & -> & [= -> -> ->] & He & HT). now exists t, e', j', ts', l'.
Qed.
Lemma items_not ts j e l : Items ts ((j, e) :: l) -> Items (TKw "NOT" :: ts) ((j, ENot e) :: l).
Proof.
  intros (t & e' & j0 & ts' & l' & -> & [= -> -> ->] & He & HT).
  exists (TKw "NOT" :: t), (ENot e'), j0, ts', l'. repeat split; auto. now constructor.
Qed.
Lemma items_one ts j e : NotE ts e -> Items ts [(j, e)].
Proof. intros H. exists ts, e, j, [], []. rewrite app_nil_r. repeat split; auto. constructor. Qed.

Definition pre_or (o : option expr) (to : list tok) : Prop :=
  match o with None => to = [] | Some x => exists t, to = (t ++ [TKw "OR"])%list /\ OrE t x end.
Lemma pre_or_done o to a ta : pre_or o to -> AndE ta a -> OrE (to ++ ta)%list (orO EOr o a).
Proof.
  destruct o as [x|]; simpl.
  - intros (t & -> & H) Ha. rewrite <- app_assoc; simpl. now constructor.
  - intros -> Ha; simpl. now constructor.
Qed.
Lemma itemsT_or ts l : ItemsT ts l -> forall o to a ta, pre_or o to -> AndE ta a ->
  OrE (to ++ ta ++ ts)%list (prec_go EAnd EOr o a l).
Proof.
  induction 1 as [|t e j ts l He Hj HT IH]; intros o to a ta Ho Ha; simpl.
  - rewrite app_nil_r. now apply pre_or_done.
  - destruct Hj as [-> | ->]; simpl.
    + replace (to ++ ta ++ TKw AND :: t ++ ts)%list with (to ++ (ta ++ TKw "AND" :: t) ++ ts)%list
        by (rewrite <- !app_assoc; reflexivity).
      apply IH; [exact Ho|]. now constructor.
    + replace (to ++ ta ++ TKw OR :: t ++ ts)%list with (((to ++ ta) ++ [TKw "OR"]) ++ t ++ ts)%list
        by (rewrite <- !app_assoc; reflexivity).
      apply IH; [|now constructor]. exists (to ++ ta)%list; split; [reflexivity|]. now apply pre_or_done.
Qed.
Lemma items_or ts l d : Items ts l -> OrE ts (prec EAnd EOr d l).
Proof.
  intros (t & e & j & ts' & l' & -> & -> & He & HT). simpl.
  apply (itemsT_or _ _ HT None [] e t); [reflexivity|now constructor].
Qed.

(** evaluation commutes with the precedence rules *)
Lemma eval_prec_go rho ps l vl : Forall2 (fun a b => fst a = fst b /\ eval rho ps (snd a) = Some (snd b)) l vl ->
  forall o ov a av, match o, ov with None, None => True | Some x, Some y => eval rho ps x = Some y | _, _ => False end ->
  eval rho ps a = Some av ->
  eval rho ps (prec_go EAnd EOr o a l) = Some (prec_go and3 or3 ov av vl).
Proof.
  assert (K : forall o ov a av, match o, ov with None, None => True | Some x, Some y => eval rho ps x = Some y | _, _ => False end ->
    eval rho ps a = Some av -> eval rho ps (orO EOr o a) = Some (orO or3 ov av)).
  { intros [x|] [y|] a av H Ha; simpl; [now rewrite H, Ha|now destruct H|now destruct H|exact Ha]. }
  induction 1 as [|[j e] [j' v] l vl [Hj He] _ IH]; intros o ov a av Ho Ha; simpl in *; [now apply K|].
  subst j'. destruct (String.eqb j OR); apply IH; auto.
  simpl. now rewrite Ha, He.
Qed.
Lemma eval_prec rho ps l vl d d' :
  Forall2 (fun a b => fst a = fst b /\ eval rho ps (snd a) = Some (snd b)) l vl -> l <> [] ->
  eval rho ps (prec EAnd EOr d l) = Some (prec and3 or3 d' vl).
Proof.
  intros H Hl. destruct H as [|[j e] [j' v] l vl [Hj He] H]; [congruence|]. simpl in *.
  now apply eval_prec_go.
Qed.

(** * Meaning of a tree, given the meaning of its leaves *)

Section Den.
  Variable lv : leaf -> tv.
  (** the operands a tree contributes to its context, each with the connective before it *)
  Fixpoint den (c : cond) : list (string * tv) :=
    match c with
    | CNil => []
    | CLeaf l => [(l_join l, lv l)]
    | CGrp j n cs br =>
        let l := flat_map den cs in
        if br || (n && (1 <? length cs))
        then [(j, if n then not3 (prec and3 or3 U l) else prec and3 or3 U l)]
        else match l with [] => [] | (_, v) :: r => (j, if n then not3 v else v) :: r end
    end.
  Definition mean (c : cond) : tv := prec and3 or3 U (den c).
End Den.

(** no nil, no empty group, AND/OR only *)
Inductive wf : cond -> Prop :=
| wf_leaf l : and_or (l_join l) -> wf (CLeaf l)
| wf_grp j n cs br : and_or j -> cs <> [] -> Forall wf cs -> wf (CGrp j n cs br).

(** what a leaf must do to be an SQL operand of value [v] *)
Definition LeafOk (rho : row) (l : leaf) (v : tv) : Prop :=
  exists vs, leaf_values l = Ok vs /\ forall n, exists s s' ts ts' e,
    leaf_render l n = Ok s /\ leaf_render_sql l = Ok s' /\ lexes s ts /\ lexes s' ts' /\
    (forall r, number_from (n + 1) (ts' ++ r)%list = (ts ++ number_from (n + 1 + length vs) r)%list) /\
    NotE ts e /\
    forall pre post, length pre = n -> eval rho (pre ++ vs ++ post)%list e = Some v.

Definition Sem (rho : row) (lv : leaf -> tv) (c : cond) : Prop :=
  exists vs, c_values c = Ok vs /\ forall n, exists s s' ts ts' l,
    c_render c n = Ok s /\ c_render_sql c = Ok s' /\ lexes s ts /\ lexes s' ts' /\
    (forall r, number_from (n + 1) (ts' ++ r)%list = (ts ++ number_from (n + 1 + length vs) r)%list) /\
    Items ts l /\
    forall pre post, length pre = n ->
      Forall2 (fun a b => fst a = fst b /\ eval rho (pre ++ vs ++ post)%list (snd a) = Some (snd b)) l (den lv c).

Lemma wf_jtype c : wf c -> exists j, jtype c = Ok j /\ and_or j.
Proof. inversion 1; subst; simpl; eauto. Qed.

Lemma and_or_nonempty j : and_or j -> j <> "".
Proof. intros [-> | ->]; discriminate. Qed.

Lemma eats_join j : and_or j -> eats (" " ++ j ++ " ") [TKw j].
Proof. intros [-> | ->] x; reflexivity. Qed.

Lemma den_head lv c j : wf c -> jtype c = Ok j -> exists v r, den lv c = (j, v) :: r.
Proof.
  revert j; induction c as [|l|j0 n cs br IH] using cond_ind'; intros j Hw Hj; inversion Hw as [|? ? ? ? Hj0 Hne Hcs]; subst;
    injection Hj as <-; simpl; [eauto|].
  destruct (br || n && (1 <? length cs)); [eauto|].
  destruct cs as [|c cs]; [congruence|]. inversion IH as [|? ? IHc _]; inversion Hcs as [|? ? Hc _]; subst.
  destruct (wf_jtype _ Hc) as (jc & Ejc & _). destruct (IHc _ Hc Ejc) as (v & r & E).
  simpl. rewrite E. simpl. eauto.
Qed.

(** the tail of a group *)
Lemma tail_sem rho lv cs : Forall wf cs -> Forall (Sem rho lv) cs ->
  exists vss, mapM c_values cs = Ok vss /\ forall n, exists s s' ts ts' l,
    render_list false cs n = Ok s /\ render_sql_list false cs = Ok s' /\ lexes s ts /\ lexes s' ts' /\
    delim s = true /\ delim s' = true /\
    (forall r, number_from (n + 1) (ts' ++ r)%list = (ts ++ number_from (n + 1 + length (List.concat vss)) r)%list) /\
    ItemsT ts l /\
    forall pre post, length pre = n ->
      Forall2 (fun a b => fst a = fst b /\ eval rho (pre ++ List.concat vss ++ post)%list (snd a) = Some (snd b))
        l (flat_map (den lv) cs).
Proof.
  induction cs as [|c cs IH]; intros Hw HS.
  - exists []. split; [reflexivity|]. intros n. exists "", "", [], [], [].
    repeat split; auto using lexes_nil; [|constructor|intros; constructor].
    intros r; simpl. now rewrite Nat.add_0_r.
  - inversion Hw as [|? ? Hw1 Hw2]; inversion HS as [|? ? (vs & Ev & HS1) HS2]; subst.
    destruct (IH Hw2 HS2) as (vss & Evs & Hrest). clear IH.
    destruct (wf_jtype _ Hw1) as (j & Ej & Hj). destruct (den_head lv _ _ Hw1 Ej) as (v & dr & Ed).
    exists (vs :: vss). split; [simpl; now rewrite Ev, Evs|]. intros n.
    destruct (HS1 n) as (s & s' & ts & ts' & l & Es & Es' & Ls & Ls' & Hn & Hi & Hf).
    destruct (Hrest (n + length vs)) as (s2 & s2' & ts2 & ts2' & l2 & Es2 & Es2' & Ls2 & Ls2' & Hd & Hd' & Hn2 & Hi2 & Hf2).
    cbn [render_list render_sql_list]. rewrite Ej, Es, Ev, Es'. cbn [bind]. rewrite Es2, Es2'. cbn [bind].
    rewrite !join_token_text by (now apply and_or_nonempty).
    exists ((" " ++ j ++ " ") ++ s ++ s2), ((" " ++ j ++ " ") ++ s' ++ s2'),
      ([TKw j] ++ ts ++ ts2)%list, ([TKw j] ++ ts' ++ ts2')%list, (l ++ l2)%list.
    split; [reflexivity|split; [reflexivity|]]. split; [|split].
    { apply eats_lexes; [now apply eats_join|now apply lexes_app]. }
    { apply eats_lexes; [now apply eats_join|now apply lexes_app]. }
    split; [reflexivity|split; [reflexivity|]]. split; [|split].
    + intros r. cbn [app number_from]. f_equal. rewrite <- app_assoc, Hn, <- app_assoc. f_equal.
      replace (n + 1 + length vs) with (n + length vs + 1) by lia. rewrite Hn2. do 2 f_equal.
      cbn [List.concat]. rewrite app_length. lia.
    + assert (El : exists e l', l = (j, e) :: l').
      { specialize (Hf (repeat VNil n) [] (repeat_length _ _)). rewrite Ed in Hf.
        inversion Hf as [|[j' e] ? ? ? [Hfst _] _]; subst. simpl in Hfst; subst. eauto. }
      destruct El as (e & l' & ->). apply (itemsT_app (TKw j :: ts)); [|exact Hi2].
      now apply items_tail.
    + intros pre post Hp. cbn [flat_map List.concat]. apply Forall2_app.
      * specialize (Hf pre (List.concat vss ++ post)%list Hp). now rewrite <- app_assoc.
      * specialize (Hf2 (pre ++ vs)%list post). rewrite app_length in Hf2. specialize (Hf2 ltac:(lia)).
        rewrite <- !app_assoc in Hf2. now rewrite <- app_assoc.
Qed.

Lemma tree_sem rho lv c : wf c -> (forall l, In l (leaves c) -> LeafOk rho l (lv l)) -> Sem rho lv c.
Proof.
  induction c as [|l|j ng cs br IH] using cond_ind'; intros Hw Hl.
  - inversion Hw.
  - destruct (Hl l ltac:(simpl; auto)) as (vs & Ev & H). exists vs. split; [exact Ev|]. intros n.
    destruct (H n) as (s & s' & ts & ts' & e & Es & Es' & Ls & Ls' & Hn & He & Hf).
    exists s, s', ts, ts', [(l_join l, e)]. repeat split; auto; [now apply items_one|].
    intros pre post Hp. constructor; [|constructor]. simpl; auto.
  - inversion Hw as [|? ? ? ? Hj Hne Hcs]; subst.
    assert (HS : Forall (Sem rho lv) cs).
    { rewrite Forall_forall in *. intros c Hc. apply IH; auto. intros l Hll. apply Hl. simpl. apply in_flat_map; eauto. }
    destruct cs as [|c cs]; [congruence|]. clear Hne IH Hl Hw.
    inversion Hcs as [|? ? Hw1 Hw2]; inversion HS as [|? ? (vs & Ev & HS1) HS2]; subst.
    destruct (tail_sem _ _ _ Hw2 HS2) as (vss & Evs & Hrest).
    destruct (wf_jtype _ Hw1) as (jc & Ej & Hjc). destruct (den_head lv _ _ Hw1 Ej) as (v & dr & Ed).
    exists (vs ++ List.concat vss)%list. split.
    { rewrite c_values_grp. simpl. now rewrite Ev, Evs. }
    intros n. rewrite c_render_grp, c_render_sql_grp.
    destruct (HS1 n) as (s & s' & ts & ts' & l & Es & Es' & Ls & Ls' & Hn & Hi & Hf).
    destruct (Hrest (n + length vs)) as (s2 & s2' & ts2 & ts2' & l2 & Es2 & Es2' & Ls2 & Ls2' & Hd & Hd' & Hn2 & Hi2 & Hf2).
    cbn [render_list render_sql_list]. rewrite Ej, Es, Ev, Es'. cbn [bind]. rewrite Es2, Es2'. cbn [bind].
    rewrite !join_token_text by (now apply and_or_nonempty). cbn [append].
    rewrite !wrap_text.
    assert (El : exists e l', l = (jc, e) :: l').
    { specialize (Hf (repeat VNil n) [] (repeat_length _ _)). rewrite Ed in Hf.
      inversion Hf as [|[j' e] ? ? ? [Hfst _] _]; subst. simpl in Hfst; subst. eauto. }
    destruct El as (e & l' & ->).
    assert (LL : lexes (s ++ s2) (ts ++ ts2)) by (now apply lexes_app).
    assert (LL' : lexes (s' ++ s2') (ts' ++ ts2')) by (now apply lexes_app).
    assert (HI : Items (ts ++ ts2) (((jc, e) :: l') ++ l2)) by (now apply items_app).
    assert (HN : forall r, number_from (n + 1) ((ts' ++ ts2') ++ r)%list =
      ((ts ++ ts2) ++ number_from (n + 1 + length (vs ++ List.concat vss)) r)%list).
    { intros r. rewrite <- !app_assoc, Hn. f_equal.
      replace (n + 1 + length vs) with (n + length vs + 1) by lia. rewrite Hn2, app_length. do 2 f_equal. lia. }
    assert (HF : forall pre post, length pre = n ->
      Forall2 (fun a b => fst a = fst b /\ eval rho (pre ++ (vs ++ List.concat vss) ++ post)%list (snd a) = Some (snd b))
        (((jc, e) :: l') ++ l2) (flat_map (den lv) (c :: cs))).
    { intros pre post Hp. cbn [flat_map]. apply Forall2_app.
      - specialize (Hf pre (List.concat vss ++ post)%list Hp). now rewrite <- app_assoc.
      - specialize (Hf2 (pre ++ vs)%list post). rewrite app_length in Hf2. specialize (Hf2 ltac:(lia)).
        rewrite <- !app_assoc in Hf2. now rewrite <- app_assoc. }
    clear Ls Ls' Ls2 Ls2' Hn Hi Hn2 Hi2 Hd Hd' Hf Hf2 HS1 Hrest.
    cbn [app] in HI, HF.
    change (1 <? length (c :: cs)) with (1 <? S (length cs)) in *.
    destruct (br || ng && (1 <? S (length cs))) eqn:B.
    + (* bracketed *)
      exists ((if ng then "NOT " else "") ++ "(" ++ (s ++ s2) ++ ")"),
             ((if ng then "NOT " else "") ++ "(" ++ (s' ++ s2') ++ ")"),
             ((if ng then [TKw "NOT"] else []) ++ [TLP] ++ (ts ++ ts2) ++ [TRP])%list,
             ((if ng then [TKw "NOT"] else []) ++ [TLP] ++ (ts' ++ ts2') ++ [TRP])%list,
             [(j, (if ng then ENot else (fun x => x)) (prec EAnd EOr e ((jc, e) :: l' ++ l2)%list))].
      split; [reflexivity|split; [reflexivity|]].
      split; [destruct ng; [apply eats_lexes; [intros x; reflexivity|]|]; now apply lexes_par|].
      split; [destruct ng; [apply eats_lexes; [intros x; reflexivity|]|]; now apply lexes_par|].
      split; [|split].
      * intros r. rewrite <- (app_assoc (if ng then [TKw "NOT"] else [])). 
        replace ((([TLP] ++ (ts' ++ ts2') ++ [TRP]) ++ r))%list with (TLP :: ((ts' ++ ts2') ++ TRP :: r))%list
          by (simpl; now rewrite <- !app_assoc).
        destruct ng; cbn [app number_from]; rewrite HN; cbn [number_from]; rewrite <- !app_assoc; reflexivity.
      * apply items_one. pose proof (items_or _ _ e HI) as HO. apply p_par in HO.
        destruct ng; [apply n_not, n_prim; exact HO|apply n_prim; exact HO].
      * intros pre post Hp. specialize (HF pre post Hp). simpl den. cbn [length]. rewrite B.
        constructor; [|constructor]. split; [reflexivity|]. cbn [snd].
        pose proof (eval_prec _ _ _ _ e U HF ltac:(discriminate)) as HE.
        cbn [flat_map] in HE. destruct ng; cbn [eval]; rewrite HE; reflexivity.
    + exists ((if ng then "NOT " else "") ++ (s ++ s2)), ((if ng then "NOT " else "") ++ (s' ++ s2')),
             ((if ng then [TKw "NOT"] else []) ++ (ts ++ ts2))%list,
             ((if ng then [TKw "NOT"] else []) ++ (ts' ++ ts2'))%list,
             ((j, (if ng then ENot else (fun x => x)) e) :: l' ++ l2)%list.
      split; [reflexivity|split; [reflexivity|]].
      split; [destruct ng; [apply eats_lexes; [intros x; reflexivity|]|]; assumption|].
      split; [destruct ng; [apply eats_lexes; [intros x; reflexivity|]|]; assumption|].
      split; [|split].
      * intros r. destruct ng; cbn [app number_from]; rewrite HN; reflexivity.
      * destruct ng; [apply items_not|]; eapply items_head; exact HI.
      * intros pre post Hp. specialize (HF pre post Hp). simpl den. cbn [length]. rewrite B.
        cbn [flat_map] in HF. rewrite Ed in *. cbn [app] in *. inversion HF as [|? ? ? ? [_ H1] H2]; subst.
        constructor; [|exact H2]. split; [reflexivity|]. cbn [snd] in *. destruct ng; cbn [eval]; rewrite H1; reflexivity.
Qed.

(** * Consequences for whole conditions *)

(** The text and values of a condition, evaluated. *)
Definition means (rho : row) (c : cond) (v : tv) : Prop :=
  exists s s' vs, c_render c 0 = Ok s /\ c_render_sql c = Ok s' /\ c_values c = Ok vs /\
    truth rho s vs = Some v /\ truth_q rho s' vs = Some v.

Lemma means_fun rho c v v' : means rho c v -> means rho c v' -> v = v'.
Proof. intros (s & s' & vs & E & E' & Ev & H & _) (s2 & s2' & vs2 & E2 & E2' & Ev2 & H2 & _). congruence. Qed.

Lemma sem_expr rho lv c : Sem rho lv c -> forall n, exists s vs ts e,
  c_render c n = Ok s /\ c_values c = Ok vs /\ lexes s ts /\ OrE ts e /\
  forall pre post, length pre = n -> eval rho (pre ++ vs ++ post)%list e = Some (mean lv c).
Proof.
  intros (vs & Ev & H) n. destruct (H n) as (s & s' & ts & ts' & l & Es & Es' & Ls & Ls' & Hn & Hi & Hf).
  exists s, vs, ts, (prec EAnd EOr (EAtom AEq "" []) l). repeat split; auto; [now apply items_or|].
  intros pre post Hp. apply eval_prec; [now apply Hf|]. destruct Hi as (t & e & j & t' & l' & _ & -> & _); discriminate.
Qed.

Lemma sem_means rho lv c : Sem rho lv c -> means rho c (mean lv c).
Proof.
  intros HS. pose proof HS as (vs & Ev & H). destruct (H 0) as (s & s' & ts & ts' & l & Es & Es' & Ls & Ls' & Hn & Hi & Hf).
  exists s, s', vs. repeat split; auto; unfold truth, truth_q.
  - rewrite (lexes_lex _ _ Ls), (parse_complete _ _ (items_or _ _ (EAtom AEq "" []) Hi)).
    specialize (Hf [] [] eq_refl). rewrite app_nil_r in Hf. cbn [app] in Hf. apply eval_prec; [exact Hf|].
    destruct Hi as (t & e & j & t' & l' & _ & -> & _); discriminate.
  - rewrite (lexes_lex _ _ Ls'). rewrite <- (app_nil_r ts'). change 1 with (0 + 1). rewrite Hn. cbn [number_from].
    rewrite app_nil_r, (parse_complete _ _ (items_or _ _ (EAtom AEq "" []) Hi)).
    specialize (Hf [] [] eq_refl). rewrite app_nil_r in Hf. cbn [app] in Hf. apply eval_prec; [exact Hf|].
    destruct Hi as (t & e & j & t' & l' & _ & -> & _); discriminate.
Qed.

(** * The library's own leaves *)

Definition good_def (d : fdef) : Prop :=
  name (f_name d) = true /\ (f_table d = "" \/ name (f_table d) = true) /\
  (f_alias d = "" \/ (f_alias d = f_name d /\ f_table d = "")).

Definition column (d : fdef) : string :=
  if is_empty (f_table d) then f_name d else f_table d ++ "." ++ f_name d.

Lemma good_def_spec d : good_def d -> render_spec d = column d /\ qname (column d).
Proof.
  intros (Hn & Ht & Ha). unfold render_spec, column, GoStr.join. split.
  - assert (A : negb (is_empty (f_alias d)) && negb (str_eqb (f_alias d) (f_name d)) = false).
    { destruct Ha as [->|[-> _]]; [reflexivity|]. unfold str_eqb. now rewrite String.eqb_refl, andb_false_r. }
    assert (B : negb (is_empty (f_alias d)) && str_eqb (f_alias d) (f_name d) && negb (is_empty (f_table d)) = false).
    { destruct Ha as [->|[_ ->]]; [reflexivity|]. now rewrite andb_false_r. }
    rewrite A, B. destruct (is_empty (f_table d)); cbn [app String.concat]; [reflexivity|].
    now rewrite app_assoc_s.
  - destruct Ht as [->|Ht]; [now constructor|].
    destruct (is_empty (f_table d)); now constructor.
Qed.

Definition aop_of (k : kind) : option aop :=
  match k with
  | KEq => Some AEq | KGt => Some AGt | KGe => Some AGe | KLt => Some ALt | KLe => Some ALe
  | KLike => Some ALike | KILike => Some AILike | KIn => Some AIn | KNull => Some ANull
  | KCustom _ => None
  end.

(** What is bound to a predicate, said without the code: a []string is its strings, Valuers and ValueProviders are
    asked once each (one that panics, is nil, or in a slice of another type fails gives nothing), any other value is
    itself; LIKE searches between percent signs and IS NULL takes nothing. *)
Fixpoint collect {A} (f : A -> option gval) (l : list A) : option (list gval) :=
  match l with
  | [] => Some []
  | x :: r => match f x, collect f r with Some v, Some vs => Some (v :: vs) | _, _ => None end
  end.
Definition answer (o : option vout) : option gval := match o with Some (ORet v _) => Some v | _ => None end.
Definition sure_answer (o : option vout) : option gval := match o with Some (ORet v false) => Some v | _ => None end.
Definition bound_values (v : gval) : option (list gval) :=
  match v with
  | VStrs l => Some (map VStr l)
  | VProvider x => Some [x]
  | VValuer o _ => collect answer [Some o]
  | VValuers l => collect answer l
  | VProviders l => collect (fun x => x) l
  | VValuerSlice l => collect sure_answer l
  | VNil | VStr _ | VUint _ | VOther _ | VSlice _ => Some [v]
  end.
Definition leaf_args (l : leaf) : option (list gval) :=
  match l_kind l with
  | KLike | KILike => match l_val l with VStr s => Some [VStr ("%" ++ s ++ "%")] | _ => None end
  | KNull => Some []
  | KCustom _ => None
  | _ => bound_values (l_val l)
  end.
Lemma collect_mapM {A} (f : A -> option gval) (g : A -> res gval) l :
  (forall x, match f x with Some v => g x = Ok v | None => g x = Panic end) ->
  match collect f l with Some vs => mapM g l = Ok vs | None => mapM g l = Panic end.
Proof.
  intros H. induction l as [|x l IH]; [reflexivity|]. cbn [collect mapM]. specialize (H x).
  destruct (f x) as [v|]; rewrite H; [|reflexivity]. cbn [bind]. destruct (collect f l) as [vs|]; rewrite IH; reflexivity.
Qed.
Lemma bound_values_ok v : match bound_values v with Some vs => fv_values v = Ok vs | None => fv_values v = Panic end.
Proof.
  destruct v as [| | | | | |o p| |l|l|l]; try reflexivity; unfold bound_values, fv_values.
  - destruct o as [x f|]; reflexivity.
  - apply collect_mapM. intros [[x f|]|]; reflexivity.
  - apply collect_mapM. intros [x|]; reflexivity.
  - apply collect_mapM. intros [[x [|]|]|]; reflexivity.
Qed.
Lemma bound_values_iff v vs : bound_values v = Some vs <-> fv_values v = Ok vs.
Proof. pose proof (bound_values_ok v) as H. destruct (bound_values v); rewrite H; split; congruence. Qed.
Lemma leaf_args_ok l vs : leaf_args l = Some vs -> leaf_values l = Ok vs.
Proof.
  unfold leaf_args, leaf_values. destruct (l_kind l); try apply bound_values_iff; try congruence;
    destruct (l_val l); congruence.
Qed.

(** leaves of the library with a plain column and the right number of values *)
Definition good_leaf (l : leaf) : Prop :=
  good_def (l_def l) /\
  match l_kind l with
  | KEq | KGt | KGe | KLt | KLe => exists v, bound_values (l_val l) = Some [v]
  | KLike | KILike => exists s, l_val l = VStr s
  | KIn => exists v vs, bound_values (l_val l) = Some (v :: vs)
  | KNull => True
  | KCustom _ => False
  end.

(** what a leaf says about a row *)
Definition leaf_tv (rho : row) (l : leaf) : tv :=
  match aop_of (l_kind l), leaf_args l with
  | Some op, Some vs => (if l_neg l then not3 else (fun x => x)) (rho op (column (l_def l)) vs)
  | _, _ => U
  end.

Lemma leaf_args_iff l vs : good_leaf l -> leaf_args l = Some vs <-> leaf_values l = Ok vs.
Proof.
  intros [_ Hk]. split; [apply leaf_args_ok|]. unfold leaf_args, leaf_values. revert Hk.
  destruct (l_kind l); try (intros _; apply bound_values_iff); try (intros (s & ->)); try congruence. intros [].
Qed.

Lemma bind_one pre v post : bind_params (pre ++ v :: post)%list [length pre + 1] = Some [v].
Proof.
  rewrite Nat.add_1_r. simpl. rewrite nth_error_app2 by lia. now rewrite Nat.sub_diag.
Qed.
Lemma bind_seq pre vs post : bind_params (pre ++ vs ++ post)%list (seq (length pre + 1) (length vs)) = Some vs.
Proof.
  revert pre; induction vs as [|v vs IH]; intros pre; [reflexivity|].
  cbn [length seq bind_params]. rewrite Nat.add_1_r.
  specialize (IH (pre ++ [v])%list). rewrite app_length, <- app_assoc in IH. simpl in IH.
  replace (length pre + 1 + 1) with (S (S (length pre))) in IH by lia. cbn [app]. rewrite IH.
  rewrite nth_error_app2 by lia. now rewrite Nat.sub_diag.
Qed.

Lemma lexes_col_op c op top s ts : qname c -> delim op = true -> eats op top -> lexes s ts ->
  (op = "" -> False) -> lexes (c ++ op ++ s) (TId c :: top ++ ts)%list.
Proof.
  intros Hc Hd He Hs Hn rest Hr. rewrite app_assoc_s, lex_qname; [|exact Hc|].
  - cbn [app]. f_equal. rewrite app_assoc_s, He, Hs by exact Hr. now rewrite <- app_assoc.
  - destruct op; [now destruct Hn|exact Hd].
Qed.
Lemma lexes_dollar n : lexes (dollar n) [TParam n].
Proof. intros rest Hr. apply lex_param; exact Hr. Qed.
Lemma lexes_q : lexes "?" [TQ].
Proof. intros rest Hr. reflexivity. Qed.

Lemma eats_cmp (op : string) (t : tok) :
  In (op, t) [("=", TEq); (">", TGt); (">=", TGe); ("<", TLt); ("<=", TLe)] ->
  forall s ts c, (exists x, s = String "$" x \/ s = String "?" x) -> qname c -> lexes s ts ->
  lexes (c ++ op ++ s) (TId c :: t :: ts).
Proof.
  intros Hop s ts c (x & Hx) Hc Hs rest Hr.
  assert (delim (op ++ s ++ rest) = true).
  { simpl in Hop. repeat (destruct Hop as [[= <- <-]|Hop]; [reflexivity|]). destruct Hop. }
  rewrite app_assoc_s, lex_qname; [|exact Hc|now rewrite app_assoc_s]. cbn [app]. f_equal.
  rewrite <- Hs by exact Hr. rewrite app_assoc_s.
  simpl in Hop. destruct Hx as [-> | ->];
  repeat (destruct Hop as [[= <- <-]|Hop]; [reflexivity|]); destruct Hop.
Qed.

Lemma concat_params_lexes l n ns rest : l = map dollar (n :: ns) -> delim rest = true ->
  lex (String.concat "," l ++ rest) = (param_list n ns ++ lex rest)%list.
Proof.
  revert l n; induction ns as [|m ns IH]; intros l n -> Hr.
  - cbn [map String.concat param_list]. now rewrite lexes_dollar.
  - change (String.concat "," (map dollar (n :: m :: ns)))
      with (dollar n ++ "," ++ String.concat "," (map dollar (m :: ns))).
    rewrite !app_assoc_s, lexes_dollar by reflexivity. cbn [param_list app]. f_equal.
    assert (E : forall x, lex ("," ++ x) = TComma :: lex x) by reflexivity.
    rewrite E. f_equal. now apply IH.
Qed.

Fixpoint qlist (k : nat) : list tok :=
  match k with 0 => [] | 1 => [TQ] | S k => TQ :: TComma :: qlist k end.
Lemma concat_q_lexes {A} (l : list A) rest : l <> [] -> delim rest = true ->
  lex (String.concat "," (map (fun _ => "?") l) ++ rest) = (qlist (length l) ++ lex rest)%list.
Proof.
  intros Hl Hr; induction l as [|a [|b l] IH]; [congruence|reflexivity|].
  change (String.concat "," (map (fun _ => "?") (a :: b :: l)))
    with ("?" ++ "," ++ String.concat "," (map (fun _ : A => "?") (b :: l))).
  rewrite !app_assoc_s.
  match goal with |- lex ("?" ++ "," ++ ?x) = _ => change (lex ("?" ++ "," ++ x)) with (TQ :: TComma :: lex x) end.
  rewrite IH by discriminate. reflexivity.
Qed.
Lemma number_qlist n k r :
  number_from n (qlist (S k) ++ r)%list = (param_list n (seq (n + 1) k) ++ number_from (n + S k) r)%list.
Proof.
  revert n; induction k as [|k IH]; intros n.
  - simpl. now rewrite Nat.add_1_r.
  - change (qlist (S (S k))) with (TQ :: TComma :: qlist (S k)). cbn [app number_from seq param_list].
    rewrite IH. replace (S (n + 1)) with (n + 1 + 1) by lia. replace (n + 1 + S k) with (n + S (S k)) by lia. reflexivity.
Qed.

(** the text of such a leaf is its predicate on the parameters after the first [n] *)
Definition LeafText (l : leaf) (op : aop) (vs : list gval) : Prop :=
  aop_of (l_kind l) = Some op /\ leaf_values l = Ok vs /\ forall n, exists s s' ts ts',
    leaf_render l n = Ok s /\ leaf_render_sql l = Ok s' /\ lexes s ts /\ lexes s' ts' /\
    (forall r, number_from (n + 1) (ts' ++ r)%list = (ts ++ number_from (n + 1 + length vs) r)%list) /\
    NotE ts (neg_atom (l_neg l) (EAtom op (column (l_def l)) (seq (n + 1) (length vs)))).

Lemma good_leaf_text l : good_leaf l -> exists op vs, LeafText l op vs.
Proof.
  destruct l as [k j ng d v]. intros [Hd Hk]. cbn [l_def l_kind l_val] in *.
  destruct (good_def_spec _ Hd) as [Hspec Hq]. set (c := column d) in *.
  (* comparisons *)
  assert (Hcmp : forall op t a, In (op, t) [("=", TEq); (">", TGt); (">=", TGe); ("<", TLt); ("<=", TLe)] ->
    cmp_tok t a -> aop_of k = Some a ->
    (forall n, leaf_render (mkLeaf k j ng d v) n = Ok (cmp_render op (dollar (n + 1)) (mkLeaf k j ng d v))) ->
    leaf_render_sql (mkLeaf k j ng d v) = Ok (cmp_render op "?" (mkLeaf k j ng d v)) ->
    (exists x, leaf_values (mkLeaf k j ng d v) = Ok [x]) ->
    exists op vs, LeafText (mkLeaf k j ng d v) op vs).
  { intros op t a Hop Ht Hak Hr Hrs (x & Ex). exists a, [x]. split; [exact Hak|]. split; [exact Ex|]. intros n.
    exists (cmp_render op (dollar (n + 1)) (mkLeaf k j ng d v)), (cmp_render op "?" (mkLeaf k j ng d v)).
    exists ((if ng then [TKw "NOT"] else []) ++ [TId c; t; TParam (n + 1)])%list,
           ((if ng then [TKw "NOT"] else []) ++ [TId c; t; TQ])%list.
    split; [apply Hr|split; [exact Hrs|]]. rewrite !cmp_text. cbn [l_neg l_def]. rewrite Hspec.
    assert (L1 : lexes (c ++ op ++ dollar (n + 1)) [TId c; t; TParam (n + 1)])
      by (apply (eats_cmp op t Hop); [unfold dollar; simpl; eauto|exact Hq|apply lexes_dollar]).
    assert (L2 : lexes (c ++ op ++ "?") [TId c; t; TQ])
      by (apply (eats_cmp op t Hop); [eauto|exact Hq|apply lexes_q]).
    split; [destruct ng; [apply eats_lexes; [intros y; reflexivity|]|]; exact L1|].
    split; [destruct ng; [apply eats_lexes; [intros y; reflexivity|]|]; exact L2|].
    split.
    - intros r. assert (t <> TQ) by (inversion Ht; discriminate). simpl length.
      destruct ng; cbn [app number_from]; (destruct t; try congruence; reflexivity).
    - assert (Prim [TId c; t; TParam (n + 1)] (EAtom a c [n + 1])) by (now constructor).
      destruct ng; [apply n_not|]; now apply n_prim. }
  assert (Hlike : forall w a, In (w, a) [("LIKE", ALike); ("ILIKE", AILike)] -> aop_of k = Some a ->
    (forall n, leaf_render (mkLeaf k j ng d v) n = Ok (word_render w (dollar (n + 1)) (mkLeaf k j ng d v))) ->
    leaf_render_sql (mkLeaf k j ng d v) = Ok (word_render w "?" (mkLeaf k j ng d v)) ->
    (exists x, leaf_values (mkLeaf k j ng d v) = Ok [x]) ->
    exists op vs, LeafText (mkLeaf k j ng d v) op vs).
  { intros w a Hw Hak Hr Hrs (x & Ex). exists a, [x]. split; [exact Hak|]. split; [exact Ex|]. intros n.
    exists (word_render w (dollar (n + 1)) (mkLeaf k j ng d v)), (word_render w "?" (mkLeaf k j ng d v)).
    exists (TId c :: (if ng then [TKw "NOT"; TKw w] else [TKw w]) ++ [TParam (n + 1)])%list,
           (TId c :: (if ng then [TKw "NOT"; TKw w] else [TKw w]) ++ [TQ])%list.
    split; [apply Hr|split; [exact Hrs|]]. rewrite !word_text. cbn [l_neg l_def]. rewrite Hspec.
    replace ((if ng then " NOT " else " ") ++ w ++ " " ++ dollar (n + 1))
      with (((if ng then " NOT " else " ") ++ w ++ " ") ++ dollar (n + 1)) by (now rewrite !app_assoc_s).
    replace ((if ng then " NOT " else " ") ++ w ++ " " ++ "?")
      with (((if ng then " NOT " else " ") ++ w ++ " ") ++ "?") by (now rewrite !app_assoc_s).
    assert (He : eats ((if ng then " NOT " else " ") ++ w ++ " ") (if ng then [TKw "NOT"; TKw w] else [TKw w])).
    { intros y. simpl in Hw. repeat (destruct Hw as [[= <- <-]|Hw]; [destruct ng; reflexivity|]). destruct Hw. }
    split; [apply lexes_col_op; [exact Hq|destruct ng; reflexivity|exact He|apply lexes_dollar|destruct ng; discriminate]|].
    split; [apply lexes_col_op; [exact Hq|destruct ng; reflexivity|exact He|apply lexes_q|destruct ng; discriminate]|].
    split.
    - intros r. simpl length. destruct ng; reflexivity.
    - simpl in Hw. repeat (destruct Hw as [[= <- <-]|Hw]; [destruct ng; repeat constructor|]). destruct Hw. }
  destruct k; try (now destruct Hk).
  - destruct Hk as (x & Hk). apply bound_values_iff in Hk.
    apply (Hcmp "=" TEq AEq); [simpl; auto 8|constructor|reflexivity|reflexivity|reflexivity|exists x; exact Hk].
  - destruct Hk as (x & Hk). apply bound_values_iff in Hk.
    apply (Hcmp ">" TGt AGt); [simpl; auto 8|constructor|reflexivity|reflexivity|reflexivity|exists x; exact Hk].
  - destruct Hk as (x & Hk). apply bound_values_iff in Hk.
    apply (Hcmp ">=" TGe AGe); [simpl; auto 8|constructor|reflexivity|reflexivity|reflexivity|exists x; exact Hk].
  - destruct Hk as (x & Hk). apply bound_values_iff in Hk.
    apply (Hcmp "<" TLt ALt); [simpl; auto 8|constructor|reflexivity|reflexivity|reflexivity|exists x; exact Hk].
  - destruct Hk as (x & Hk). apply bound_values_iff in Hk.
    apply (Hcmp "<=" TLe ALe); [simpl; auto 8|constructor|reflexivity|reflexivity|reflexivity|exists x; exact Hk].
  - destruct Hk as (s & ->). apply (Hlike "LIKE" ALike); [simpl; auto|reflexivity|reflexivity|reflexivity|eexists; reflexivity].
  - destruct Hk as (s & ->). apply (Hlike "ILIKE" AILike); [simpl; auto|reflexivity|reflexivity|reflexivity|eexists; reflexivity].
  - (* IN *)
    clear Hcmp Hlike. destruct Hk as (x & xs & Ex). apply bound_values_iff in Ex. exists AIn, (x :: xs). split; [reflexivity|]. split; [exact Ex|]. intros n.
    unfold leaf_render, leaf_render_sql. cbn [l_kind].
    change (leaf_values (mkLeaf KIn j ng d v)) with (fv_values v). rewrite Ex. cbn [bind].
    set (L := mkLeaf KIn j ng d v).
    replace (map (fun i => dollar (n + i + 1)) (seq 0 (length (x :: xs))))
      with (map dollar (n + 1 :: seq (n + 1 + 1) (length xs))).
    2:{ cbn [length seq map]. f_equal; [f_equal; lia|]. rewrite <- seq_shift, map_map.
        assert (H : forall m, map dollar (seq (n + 1 + m) (length xs)) = map (fun i => dollar (n + S i + 1)) (seq (m - 1 + 0) (length xs)) \/ m = 0).
        { intros m. destruct m as [|m]; [now right|left]. generalize (length xs). clear. intros k. revert m.
          induction k as [|k IH]; intros m; simpl; [reflexivity|]. f_equal; [f_equal; lia|].
          specialize (IH (S m)). simpl in IH.
          replace (S (n + 1 + S m)) with (n + 1 + S (S m)) by lia. rewrite IH.
          replace (S (m - 0 + 0)) with (S (m + 0)) by lia. reflexivity. }
        destruct (H 1) as [E|E]; [|discriminate]. simpl in E. exact E. }
    exists (word_render "IN" ("(" ++ GoStr.join "," (map dollar (n + 1 :: seq (n + 1 + 1) (length xs))) ++ ")") L),
           (word_render "IN" ("(" ++ GoStr.join "," (map (fun _ => "?") (x :: xs)) ++ ")") L).
    exists (TId c :: (if ng then [TKw "NOT"; TKw "IN"; TLP] else [TKw "IN"; TLP])
              ++ (param_list (n + 1) (seq (n + 1 + 1) (length xs)) ++ [TRP]))%list,
           (TId c :: (if ng then [TKw "NOT"; TKw "IN"; TLP] else [TKw "IN"; TLP])
              ++ (qlist (length (x :: xs)) ++ [TRP]))%list.
    split; [reflexivity|split; [reflexivity|]]. rewrite !word_text. subst L. cbn [l_neg l_def]. rewrite Hspec.
    unfold GoStr.join.
    assert (R : forall s, (if ng then " NOT " else " ") ++ "IN" ++ " " ++ "(" ++ s ++ ")" =
      ((if ng then " NOT IN (" else " IN (") ++ (s ++ ")"))) by (intros s; destruct ng; reflexivity).
    rewrite !R.
    assert (He : eats (if ng then " NOT IN (" else " IN (") (if ng then [TKw "NOT"; TKw "IN"; TLP] else [TKw "IN"; TLP]))
      by (intros y; destruct ng; reflexivity).
    split; [|split; [|split]].
    + apply lexes_col_op; [exact Hq|destruct ng; reflexivity|exact He| |destruct ng; discriminate].
      intros rest Hr. rewrite app_assoc_s, (concat_params_lexes _ (n + 1) (seq (n + 1 + 1) (length xs))) by reflexivity.
      change (lex (")" ++ rest)) with (TRP :: lex rest). now rewrite <- app_assoc.
    + apply lexes_col_op; [exact Hq|destruct ng; reflexivity|exact He| |destruct ng; discriminate].
      intros rest Hr. rewrite app_assoc_s, (concat_q_lexes (x :: xs)) by (discriminate || reflexivity).
      change (lex (")" ++ rest)) with (TRP :: lex rest). now rewrite <- app_assoc.
    + intros r. cbn [length].
      assert (HN : number_from (n + 1) ((qlist (S (length xs)) ++ [TRP]) ++ r)%list =
        ((param_list (n + 1) (seq (n + 1 + 1) (length xs)) ++ [TRP]) ++ number_from (n + 1 + S (length xs)) r)%list).
      { rewrite <- !app_assoc, number_qlist. reflexivity. }
      destruct ng; cbn [app number_from]; rewrite HN; reflexivity.
    + cbn [length seq]. replace (S (n + 1)) with (n + 1 + 1) by lia.
      destruct ng; apply n_prim; constructor.
  - (* IS NULL *)
    clear Hcmp Hlike. exists ANull, []. split; [reflexivity|]. split; [reflexivity|]. intros n.
    exists (null_render (mkLeaf KNull j ng d v)), (null_render (mkLeaf KNull j ng d v)).
    exists (TId c :: if ng then [TKw "IS"; TKw "NOT"; TKw "NULL"] else [TKw "IS"; TKw "NULL"])%list,
           (TId c :: if ng then [TKw "IS"; TKw "NOT"; TKw "NULL"] else [TKw "IS"; TKw "NULL"])%list.
    split; [reflexivity|split; [reflexivity|]]. rewrite null_text. cbn [l_neg l_def]. rewrite Hspec.
    assert (LN : lexes (c ++ (if ng then " IS NOT NULL" else " IS NULL"))
      (TId c :: if ng then [TKw "IS"; TKw "NOT"; TKw "NULL"] else [TKw "IS"; TKw "NULL"])).
    { intros rest Hr. rewrite app_assoc_s, lex_qname by (auto; destruct ng; reflexivity). cbn [app]. f_equal.
      assert (HW : lex ("NULL" ++ rest) = TKw "NULL" :: lex rest) by (now rewrite lex_word by (discriminate || auto)).
      destruct ng.
      - change (lex (" IS NOT NULL" ++ rest)) with (TKw "IS" :: TKw "NOT" :: lex ("NULL" ++ rest)). now rewrite HW.
      - change (lex (" IS NULL" ++ rest)) with (TKw "IS" :: lex ("NULL" ++ rest)). now rewrite HW. }
    split; [exact LN|split; [exact LN|split]].
    + intros r. simpl length. rewrite Nat.add_0_r. destruct ng; reflexivity.
    + destruct ng; apply n_prim; constructor.
Qed.
Lemma good_leaf_ok rho l : good_leaf l -> LeafOk rho l (leaf_tv rho l).
Proof.
  intros Hl. destruct (good_leaf_text l Hl) as (op & vs & Ho & Ev & H). exists vs. split; [exact Ev|]. intros n.
  destruct (H n) as (s & s' & ts & ts' & E1 & E2 & L1 & L2 & Hn & He).
  exists s, s', ts, ts', (neg_atom (l_neg l) (EAtom op (column (l_def l)) (seq (n + 1) (length vs)))).
  repeat (split; [assumption|]). intros pre post <-. unfold leaf_tv. rewrite Ho, (proj2 (leaf_args_iff l vs Hl) Ev).
  destruct (l_neg l); cbn [neg_atom eval]; rewrite bind_seq; reflexivity.
Qed.
