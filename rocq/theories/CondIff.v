(** When the merge rules of And and Or give the documented meaning: the items of conditions on
    different columns can take all values, and then the rules can be tested on few shapes. *)
From Coq Require Import String Ascii List Bool Arith Lia.
From Verif Require Import GoStr Value Names Cond Build SqlSpec Spec StrFacts SqlFacts CondFacts CondText CondSem
  TreeFacts CondLogic CondMeaning CondExact.
Import ListNotations.
Local Open Scope string_scope.
Local Open Scope nat_scope.

(** * The connectives outside brackets *)

(** the operands a condition writes, each with the connective before it *)
Fixpoint conns (c : cond) : list string :=
  match c with
  | CNil => []
  | CLeaf l => [l_join l]
  | CGrp j n cs br =>
      if br || (n && (1 <? length cs)) then [j]
      else match flat_map conns cs with [] => [] | _ :: r => j :: r end
  end.

Lemma flat_map_ext_in' {A B} (f g : A -> list B) l : Forall (fun a => f a = g a) l -> flat_map f l = flat_map g l.
Proof. induction 1 as [|a l E _ IH]; simpl; [reflexivity|]. now rewrite E, IH. Qed.
Lemma map_flat_map {A B C} (h : B -> C) (f : A -> list B) l : map h (flat_map f l) = flat_map (fun a => map h (f a)) l.
Proof. induction l as [|a l IH]; simpl; [reflexivity|]. now rewrite map_app, IH. Qed.

Lemma conns_den lv c : map fst (den lv c) = conns c.
Proof.
  induction c as [|l|j n cs br IH] using cond_ind'; [reflexivity|reflexivity|]. cbn [den conns].
  destruct (br || n && (1 <? length cs)); [reflexivity|].
  rewrite <- (flat_map_ext_in' _ _ _ IH), <- map_flat_map. destruct (flat_map (den lv) cs) as [|[j0 v] r]; reflexivity.
Qed.
Lemma conns_dens lv cs : map fst (flat_map (den lv) cs) = flat_map conns cs.
Proof. rewrite map_flat_map. apply flat_map_ext_in', Forall_forall. intros c _. apply conns_den. Qed.
Lemma den_ext lv lv' c : (forall l, In l (leaves c) -> lv l = lv' l) -> den lv c = den lv' c.
Proof.
  induction c as [|l|j n cs br IH] using cond_ind'; intros H; [reflexivity|simpl; rewrite H; [reflexivity|simpl; auto]|].
  cbn [den]. replace (flat_map (den lv) cs) with (flat_map (den lv') cs); [reflexivity|].
  symmetry. apply flat_map_ext_in'. rewrite Forall_forall in *. intros c Hc. apply IH; auto. intros l Hl. apply H. simpl. apply in_flat_map. eauto.
Qed.
Lemma dens_ext lv lv' cs : (forall l, In l (flat_map leaves cs) -> lv l = lv' l) -> flat_map (den lv) cs = flat_map (den lv') cs.
Proof.
  intros H. apply flat_map_ext_in', Forall_forall. intros c Hc. apply den_ext. intros l Hl. apply H, in_flat_map. eauto.
Qed.

(** * Conditions on different columns take all values *)

Definition colof (l : leaf) : string := column (l_def l).
Definition cols (c : cond) : list string := map colof (leaves c).
(** the value of a predicate that depends on its column only *)
Definition lvc (val : string -> tv) (l : leaf) : tv := negif (l_neg l) (val (colof l)).
Lemma lvc_join val j l : lvc val (leaf_with_join j l) = lvc val l.
Proof. destruct l; reflexivity. Qed.

Lemma negif_negif b v : negif b (negif b v) = v.
Proof. destruct b, v; reflexivity. Qed.
Lemma pair_list {A B} (l m : list (A * B)) : map fst l = map fst m -> map snd l = map snd m -> l = m.
Proof.
  revert m; induction l as [|[a b] l IH]; intros [|[a' b'] m]; simpl; try discriminate; [reflexivity|].
  intros [= -> E1] [= -> E2]. f_equal. now apply IH.
Qed.
Lemma V_const v l : l <> [] -> Forall (fun i => snd i = v) l -> V l = v.
Proof.
  destruct l as [|[j x] l]; [congruence|]. intros _ H. pose proof (Forall_inv H) as Hx; pose proof (Forall_inv_tail H) as Hl. simpl in Hx. subst x. unfold prec.
  assert (K : forall o a, (o = None \/ o = Some v) -> a = v -> prec_go and3 or3 o a l = v).
  { clear H. induction Hl as [|[j' y] l Hy _ IH]; intros o a Ho ->; simpl in *.
    - destruct Ho as [->| ->]; [reflexivity|]. simpl. destruct v; reflexivity.
    - subst y. destruct (String.eqb j' OR); apply IH; auto; [|destruct v; reflexivity].
      right. destruct Ho as [->| ->]; simpl; [reflexivity|]. destruct v; reflexivity. }
  apply K; auto.
Qed.

Definition glue (ks : list string) (v1 v2 : string -> tv) (k : string) : tv :=
  if existsb (String.eqb k) ks then v1 k else v2 k.
Lemma glue_in ks v1 v2 k : In k ks -> glue ks v1 v2 k = v1 k.
Proof.
  intros H. unfold glue. replace (existsb (String.eqb k) ks) with true; [reflexivity|].
  symmetry. apply existsb_exists. exists k. split; [exact H|apply String.eqb_refl].
Qed.
Lemma glue_out ks v1 v2 k : ~ In k ks -> glue ks v1 v2 k = v2 k.
Proof.
  intros H. unfold glue. destruct (existsb (String.eqb k) ks) eqn:E; [|reflexivity].
  apply existsb_exists in E as (k' & Hk & E). apply String.eqb_eq in E. now subst.
Qed.
Lemma nodup_app_out {A} (a b : list A) : NoDup (a ++ b) -> forall x, In x b -> ~ In x a.
Proof.
  induction a as [|y a IH]; intros H x Hx; [now intros []|]. inversion H as [|? ? H1 H2]; subst.
  intros [->|Ha]; [apply H1, in_or_app; auto|]. now apply (IH H2 x).
Qed.
Lemma nodup_app_l {A} (a b : list A) : NoDup (a ++ b) -> NoDup a.
Proof. induction a as [|y a IH]; intros H; [constructor|]. inversion H as [|? ? H1 H2]; subst. constructor; [|now apply IH]. intros Hy. apply H1, in_or_app; auto. Qed.
Lemma nodup_app_r {A} (a b : list A) : NoDup (a ++ b) -> NoDup b.
Proof. induction a as [|y a IH]; intros H; [exact H|]. inversion H; subst. auto. Qed.

Definition settable (c : cond) : Prop := forall l, map fst l = conns c -> exists val, den (lvc val) c = l.
Lemma set_list cs : Forall settable cs -> NoDup (flat_map cols cs) ->
  forall l, map fst l = flat_map conns cs -> exists val, flat_map (den (lvc val)) cs = l.
Proof.
  induction 1 as [|c cs Hc _ IH]; intros Hd l Hl; simpl in *.
  - exists (fun _ => U). destruct l; [reflexivity|discriminate].
  - apply map_eq_app in Hl as (l1 & l2 & -> & E1 & E2).
    destruct (Hc l1 E1) as (v1 & F1). destruct (IH (nodup_app_r _ _ Hd) l2 E2) as (v2 & F2).
    exists (glue (cols c) v1 v2). rewrite <- F1, <- F2. f_equal.
    + apply den_ext. intros l Hin. unfold lvc. rewrite glue_in; [reflexivity|]. unfold cols. apply in_map_iff. eauto.
    + apply dens_ext. intros l Hin. unfold lvc. rewrite glue_out; [reflexivity|].
      apply (nodup_app_out _ _ Hd). apply in_flat_map in Hin as (c' & Hc' & Hin). apply in_flat_map. exists c'. split; [exact Hc'|]. unfold cols. apply in_map_iff. eauto.
Qed.
Lemma wf_settable c : wf c -> NoDup (cols c) -> settable c.
Proof.
  induction c as [|l|j n cs br IH] using cond_ind'; intros Hw Hd; [inversion Hw| |].
  - intros m Hm. destruct m as [|[j v] [|]]; try discriminate. simpl in Hm. injection Hm as ->.
    exists (fun _ => negif (l_neg l) v). cbn [den]. unfold lvc. now rewrite negif_negif.
  - inversion Hw as [|? ? ? ? Hj Hne Hcs]; subst.
    assert (Hd' : NoDup (flat_map cols cs)) by (unfold cols in Hd |- *; cbn [leaves] in Hd; now rewrite map_flat_map in Hd).
    assert (HS : Forall settable cs).
    { clear -IH Hcs Hd'. revert Hd'. induction IH as [|c cs Hc _ IHl]; intros Hd; [constructor|]. inversion Hcs; subst. simpl in Hd.
      constructor; [apply Hc; eauto using nodup_app_l|apply IHl; eauto using nodup_app_r]. }
    assert (Hcn : flat_map conns cs <> []).
    { rewrite <- (conns_dens (fun _ => U)). pose proof (dens_nonempty (fun _ => U) cs Hcs Hne). destruct (flat_map (den (fun _ => U)) cs); [congruence|discriminate]. }
    intros m Hm. cbn [conns den] in *. destruct (br || n && (1 <? length cs)) eqn:B.
    + destruct m as [|[j' v] [|]]; try discriminate. simpl in Hm. injection Hm as ->.
      destruct (set_list cs HS Hd' (map (fun k => (k, negif n v)) (flat_map conns cs))) as (val & E).
      { rewrite map_map. cbn [fst]. apply map_id. }
      exists val. rewrite E. rewrite (V_const (negif n v)).
      * f_equal. f_equal. destruct n, v; reflexivity.
      * destruct (flat_map conns cs); [congruence|discriminate].
      * apply Forall_forall. intros i Hi. apply in_map_iff in Hi as (k & <- & _). reflexivity.
    + destruct (flat_map conns cs) as [|k ks] eqn:Ek; [congruence|]. destruct m as [|[j' v] m]; [discriminate|]. simpl in Hm. injection Hm as -> Hm.
      destruct (set_list cs HS Hd' ((k, negif n v) :: m)) as (val & E); [rewrite Ek; simpl; now rewrite Hm|].
      exists val. rewrite E. f_equal. f_equal. destruct n, v; reflexivity.
Qed.
Lemma choose cs : Forall wf cs -> NoDup (flat_map cols cs) ->
  forall l, map fst l = flat_map conns cs -> exists val, flat_map (den (lvc val)) cs = l.
Proof.
  intros Hw Hd. apply set_list; [|exact Hd]. revert Hd. induction Hw as [|c cs Hc _ IH]; intros Hd; [constructor|]. simpl in Hd.
  constructor; [apply wf_settable; eauto using nodup_app_l|apply IH; eauto using nodup_app_r].
Qed.

(** * Lists of operands with few different values *)

Definition step (s : option tv * tv) (i : string * tv) : option tv * tv :=
  if String.eqb (fst i) OR then (Some (orO or3 (fst s) (snd s)), snd i) else (fst s, and3 (snd s) (snd i)).
Lemma go_app l : forall o a l', prec_go and3 or3 o a (l ++ l')%list =
  prec_go and3 or3 (fst (fold_left step l (o, a))) (snd (fold_left step l (o, a))) l'.
Proof.
  induction l as [|[j x] l IH]; intros o a l'; [reflexivity|]. cbn [app prec_go fold_left]. unfold step at 2 4. cbn [fst snd].
  destruct (String.eqb j OR); apply IH.
Qed.

(** the operands after the first: those up to the first OR have the value [s], the others [x] *)
Fixpoint run (r : list string) (s x : tv) : list (string * tv) :=
  match r with
  | [] => []
  | j :: r' => if String.eqb j OR then map (fun j => (j, x)) r else (j, s) :: run r' s x
  end.
Definition blk (j : string) (r : list string) (h s x : tv) : list (string * tv) := (j, h) :: run r s x.
Lemma run_fst r s x : map fst (run r s x) = r.
Proof.
  induction r as [|j r IH]; [reflexivity|]. cbn [run]. destruct (String.eqb j OR).
  - rewrite map_map. cbn [fst]. apply map_id.
  - simpl. now rewrite IH.
Qed.
Lemma blk_fst j r h s x : map fst (blk j r h s x) = j :: r.
Proof. unfold blk. simpl. now rewrite run_fst. Qed.

Definition anyor (r : list string) : bool := existsb (String.eqb OR) r.
Definition nul {A} (l : list A) : bool := match l with [] => true | _ => false end.
Definition reps : list (list string) := [[]; [AND]; [AND; OR]; [AND; OR; OR]; [OR]; [OR; OR]].

Lemma fold_const t : forall q x, Forall and_or t ->
  fold_left step (map (fun j => (j, x)) t) (Some q, x) = (Some (if anyor t then or3 q x else q), x).
Proof.
  induction t as [|j t IH]; intros q x H; [reflexivity|]. inversion H as [|? ? Hj Ht]; subst. cbn [map fold_left]. unfold step at 2. cbn [fst snd orO].
  destruct Hj as [-> | ->]; simpl String.eqb.
  - replace (and3 x x) with x by (destruct x; reflexivity). rewrite IH by exact Ht. reflexivity.
  - cbn [anyor existsb]. change (String.eqb OR OR) with true. cbn [orb]. rewrite IH by exact Ht. destruct (anyor t), q, x; reflexivity.
Qed.
Lemma rep r : Forall and_or r -> exists r', In r' reps /\ nul r' = nul r /\ anyor r' = anyor r /\
  forall s x o a, fold_left step (run r s x) (o, a) = fold_left step (run r' s x) (o, a).
Proof.
  induction 1 as [|j r Hj Hr IH]; [exists []; simpl; auto|].
  destruct Hj as [-> | ->].
  - destruct IH as (r' & Hin & Hn & Ha & E). destruct r' as [|j' r'].
    + exists [AND]. split; [simpl; auto|]. split; [reflexivity|]. split; [simpl in *; now rewrite <- Ha|].
      intros s x o a. cbn [run]. change (String.eqb AND OR) with false. cbn [fold_left]. change (step (o, a) (AND, s)) with (o, and3 a s). rewrite E. reflexivity.
    + destruct (String.eqb j' OR) eqn:Ej.
      * apply String.eqb_eq in Ej. subst j'. exists (AND :: OR :: r'). split.
        { simpl in Hin. simpl. intuition (try discriminate; try congruence). all: match goal with H : _ = _ :: _ |- _ => injection H as H end; subst; auto. }
        split; [reflexivity|]. split; [simpl in *; now rewrite <- Ha|].
        intros s x o a. cbn [run]. change (String.eqb AND OR) with false. cbn [fold_left]. change (step (o, a) (AND, s)) with (o, and3 a s). rewrite E. reflexivity.
      * exists (j' :: r'). split; [exact Hin|]. split; [reflexivity|]. split; [cbn [anyor existsb] in *; change (String.eqb OR AND) with false; cbn [orb]; exact Ha|].
        intros s x o a. cbn [run]. change (String.eqb AND OR) with false. rewrite Ej. cbn [fold_left]. change (step (o, a) (AND, s)) with (o, and3 a s). rewrite E. cbn [run]. rewrite Ej. cbn [fold_left].
        assert (Es : forall z, step (o, z) (j', s) = (o, and3 z s)) by (intros z; unfold step; cbn [fst snd]; now rewrite Ej). rewrite !Es.
        replace (and3 (and3 a s) s) with (and3 a s) by (destruct a, s; reflexivity). reflexivity.
  - destruct (anyor r) eqn:A.
    + exists [OR; OR]. split; [simpl; auto 8|]. split; [reflexivity|]. split; [reflexivity|]. intros s x o a. cbn [run].
      change (String.eqb OR OR) with true. cbn [map fold_left]. change (step (o, a) (OR, x)) with (Some (orO or3 o a), x).
      rewrite fold_const by exact Hr. rewrite A. reflexivity.
    + exists [OR]. split; [simpl; auto 8|]. split; [reflexivity|]. split; [reflexivity|]. intros s x o a. cbn [run].
      change (String.eqb OR OR) with true. cbn [map fold_left]. change (step (o, a) (OR, x)) with (Some (orO or3 o a), x).
      rewrite fold_const by exact Hr. rewrite A. reflexivity.
Qed.

Definition like (r r' : list string) : Prop := forall s x o a, fold_left step (run r s x) (o, a) = fold_left step (run r' s x) (o, a).
Lemma like_app r r' j j' h s x l : like r r' -> V (blk j r h s x ++ l)%list = V (blk j' r' h s x ++ l)%list.
Proof. intros E. unfold blk. cbn [app prec]. rewrite !go_app, E. reflexivity. Qed.
Lemma like_blk r r' j j' h s x : like r r' -> V (blk j r h s x) = V (blk j' r' h s x).
Proof. intros E. pose proof (like_app r r' j j' h s x [] E) as H. now rewrite !app_nil_r in H. Qed.
Lemma like_after r r' j h s x l : like r r' -> V (l ++ blk j r h s x)%list = V (l ++ blk j r' h s x)%list.
Proof.
  intros E. destruct l as [|[j0 x0] l]; [now apply (like_blk r r' j j)|]. cbn [app prec]. rewrite !go_app.
  set (st := fold_left step l (None, x0)). unfold blk. cbn [prec_go].
  assert (K : forall o a, prec_go and3 or3 o a (run r s x) = prec_go and3 or3 o a (run r' s x)).
  { intros o a. rewrite <- (app_nil_r (run r s x)), <- (app_nil_r (run r' s x)), !go_app, E. reflexivity. }
  destruct (String.eqb j OR); apply K.
Qed.

(** * The rules *)

Definition neghead (l : list (string * tv)) : list (string * tv) := match l with [] => [] | (j, v) :: r => (j, not3 v) :: r end.
(** the meaning of a group from its operands: NOT before the first, or before all of them in brackets *)
Definition mean_of (n b : bool) (l : list (string * tv)) : tv := if n then if b then not3 (V l) else V (neghead l) else V l.
Definition merged (op : string) (nc nd ka fl : bool) (lc ld : list (string * tv)) : tv :=
  negif nc (V ((if ka then lc else [(AND, negif nc (V lc))]) ++ (if fl then ld else [(op, negif nd (V ld))]))%list).
Definition conn3 (op : string) : tv -> tv -> tv := if String.eqb op AND then and3 else or3.

Definition and_rule (nc bc nd bd ka fl : bool) (j : string) (rk rd : list string) : bool :=
  if nc then ka && fl && nd && String.eqb j OR && (bc || nul rk) && (bd || nul rd)
  else (negb ka || negb (anyor rk)) &&
       (if fl then negb nd && String.eqb j AND && negb (anyor rd) else negb nd || bd || nul rd).
Definition or_rule (nc bc nd bd ka fl : bool) (j : string) (rk rd : list string) : bool :=
  if nc then ka && fl && nd && String.eqb j AND && negb (anyor rk) && negb (anyor rd) && (bc || nul rk) && (bd || nul rd)
  else if fl then negb nd && String.eqb j OR else negb nd || bd || nul rd.
(** a NOT without brackets stands only before the single member of a group *)
Definition consistent (op : string) (bc bd ka fl : bool) : bool :=
  (bc || ka) && (bd || Bool.eqb fl (if String.eqb op AND then ka else true)).

(** ** the rules suffice *)

Lemma ands_anyor r l : map fst l = r -> Forall and_or r -> anyor r = false -> ands l.
Proof.
  intros <-. induction l as [|[j x] l IH]; simpl; intros H A; [constructor|]. inversion H as [|? ? Hj Hl]; subst. apply orb_false_iff in A as [A1 A2].
  constructor; [|now apply IH]. destruct Hj as [-> | ->]; [reflexivity|discriminate].
Qed.
Lemma mean_whole n b j r l : map fst l = j :: r -> negb n || b || nul r = true -> mean_of n b l = negif n (V l).
Proof.
  intros E H. unfold mean_of, negif. destruct n; [|reflexivity]. destruct b; [reflexivity|]. destruct r; [|discriminate].
  destruct l as [|[j' v] [|]]; try discriminate. reflexivity.
Qed.
Lemma not_and a b : not3 (and3 a b) = or3 (not3 a) (not3 b). Proof. now destruct a, b. Qed.
Lemma not_or a b : not3 (or3 a b) = and3 (not3 a) (not3 b). Proof. now destruct a, b. Qed.

Lemma and_rule_ok nc bc nd bd ka fl jk j rk rd lc ld : map fst lc = jk :: rk -> map fst ld = j :: rd ->
  Forall and_or rk -> Forall and_or rd -> and_rule nc bc nd bd ka fl j rk rd = true ->
  merged AND nc nd ka fl lc ld = and3 (mean_of nc bc lc) (mean_of nd bd ld).
Proof.
  intros Ec Ed Hrk Hrd H. unfold and_rule in H. unfold merged.
  assert (Hlc : lc <> []) by (destruct lc; discriminate).
  assert (Ard : anyor rd = false -> ands (tl ld)).
  { intros A. destruct ld as [|[? ?] ld]; [discriminate|]. simpl in Ed |- *. injection Ed as _ Ed. now apply (ands_anyor rd). }
  assert (Ark : anyor rk = false -> ands (tl lc)).
  { intros A. destruct lc as [|[? ?] lc]; [discriminate|]. simpl in Ec |- *. injection Ec as _ Ec. now apply (ands_anyor rk). }
  destruct nc.
  - apply andb_true_iff in H as [H B2]. apply andb_true_iff in H as [H B1]. apply andb_true_iff in H as [H J].
    apply andb_true_iff in H as [H N]. apply andb_true_iff in H as [K L]. subst ka fl nd. apply String.eqb_eq in J. subst j.
    rewrite (mean_whole true bc jk rk lc Ec) by exact B1. rewrite (mean_whole true bd OR rd ld Ed) by exact B2. cbn [negif].
    destruct ld as [|[j0 v] ld]; [discriminate|]. simpl in Ed. injection Ed as -> _. rewrite V_or by exact Hlc. apply not_or.
  - cbn [negif mean_of]. apply andb_true_iff in H as [H1 H2].
    assert (Left : forall x m, ands m -> V ((if ka then lc else [(AND, V lc)]) ++ (AND, x) :: m)%list = and3 (V lc) (V ((AND, x) :: m))).
    { intros x m Hm. destruct ka.
      - cbn [negb orb] in H1. apply V_and; auto. apply Ark. now destruct (anyor rk).
      - apply (V_and [(AND, V lc)]); [discriminate|constructor|exact Hm]. }
    destruct fl.
    + apply andb_true_iff in H2 as [H2 A]. apply andb_true_iff in H2 as [N J]. apply String.eqb_eq in J. subst j. destruct nd; [discriminate|].
      cbn [mean_of]. apply negb_true_iff in A. specialize (Ard A). destruct ld as [|[j0 v] ld]; [discriminate|]. simpl in Ed. injection Ed as -> _. now apply Left.
    + rewrite Left by constructor. rewrite (mean_whole nd bd j rd ld Ed H2). reflexivity.
Qed.
Lemma or_rule_ok nc bc nd bd ka fl jk j rk rd lc ld : map fst lc = jk :: rk -> map fst ld = j :: rd ->
  Forall and_or rk -> Forall and_or rd -> or_rule nc bc nd bd ka fl j rk rd = true ->
  merged OR nc nd ka fl lc ld = or3 (mean_of nc bc lc) (mean_of nd bd ld).
Proof.
  intros Ec Ed Hrk Hrd H. unfold or_rule in H. unfold merged.
  assert (Hlc : lc <> []) by (destruct lc; discriminate).
  assert (Ard : anyor rd = false -> ands (tl ld)).
  { intros A. destruct ld as [|[? ?] ld]; [discriminate|]. simpl in Ed |- *. injection Ed as _ Ed. now apply (ands_anyor rd). }
  assert (Ark : anyor rk = false -> ands (tl lc)).
  { intros A. destruct lc as [|[? ?] lc]; [discriminate|]. simpl in Ec |- *. injection Ec as _ Ec. now apply (ands_anyor rk). }
  destruct nc.
  - repeat match type of H with _ && _ = true => let B := fresh "B" in apply andb_true_iff in H as [H B] end.
    subst ka. repeat match goal with B : ?x = true |- _ => is_var x; subst x end. apply String.eqb_eq in B3. subst j.
    apply negb_true_iff in B1, B2. specialize (Ard B1). specialize (Ark B2).
    rewrite (mean_whole true bc jk rk lc Ec) by exact B0. rewrite (mean_whole true bd AND rd ld Ed) by exact B. cbn [negif].
    destruct ld as [|[j0 v] ld]; [discriminate|]. simpl in Ed. injection Ed as -> _. rewrite V_and by auto. apply not_and.
  - cbn [negif mean_of].
    assert (Left : forall x m, V ((if ka then lc else [(AND, V lc)]) ++ (OR, x) :: m)%list = or3 (V lc) (V ((OR, x) :: m))).
    { intros x m. destruct ka; [now apply V_or|]. apply (V_or [(AND, V lc)]). discriminate. }
    destruct fl.
    + apply andb_true_iff in H as [N J]. apply String.eqb_eq in J. subst j. destruct nd; [discriminate|].
      cbn [mean_of]. destruct ld as [|[j0 v] ld]; [discriminate|]. simpl in Ed. injection Ed as -> _. apply Left.
    + rewrite Left. rewrite (mean_whole nd bd j rd ld Ed H). reflexivity.
Qed.

(** ** and are needed *)

Definition eqtv (a b : tv) : bool := match a, b with T, T | F, F | U, U => true | _, _ => false end.
Lemma eqtv_refl a : eqtv a a = true. Proof. now destruct a. Qed.
Definition tf : list tv := [T; F].
Definition right (op : string) (nc bc nd bd ka fl : bool) (j : string) (rk rd : list string) : bool :=
  forallb (fun h => forallb (fun s => forallb (fun x => forallb (fun h' => forallb (fun s' => forallb (fun x' =>
    let lc := blk AND rk h s x in let ld := blk j rd h' s' x' in
    eqtv (merged op nc nd ka fl lc ld) (conn3 op (mean_of nc bc lc) (mean_of nd bd ld))) tf) tf) tf) tf) tf) tf.
Definition bools : list bool := [true; false].
Definition exact_on (op : string) (rule : bool -> bool -> bool -> bool -> bool -> bool -> string -> list string -> list string -> bool) : bool :=
  forallb (fun nc => forallb (fun bc => forallb (fun nd => forallb (fun bd => forallb (fun ka => forallb (fun fl =>
  forallb (fun j => forallb (fun rk => forallb (fun rd =>
    negb (consistent op bc bd ka fl) || implb (right op nc bc nd bd ka fl j rk rd) (rule nc bc nd bd ka fl j rk rd))
  reps) reps) [AND; OR]) bools) bools) bools) bools) bools) bools.
Lemma exact_and : exact_on AND and_rule = true. Proof. vm_compute. reflexivity. Qed.
Lemma exact_or : exact_on OR or_rule = true. Proof. vm_compute. reflexivity. Qed.

Lemma forallb_false {A} (f : A -> bool) l : forallb f l = false -> exists x, In x l /\ f x = false.
Proof.
  induction l as [|a l IH]; simpl; [discriminate|]. destruct (f a) eqn:E; [|eauto]. intros H. destruct (IH H) as (x & Hx & Ex). eauto.
Qed.
Lemma in_bools b : In b bools. Proof. destruct b; simpl; auto. Qed.
Lemma in_conns j : and_or j -> In j [AND; OR]. Proof. intros [-> | ->]; simpl; auto. Qed.
Lemma exact_find op rule nc bc nd bd ka fl j rk rd : exact_on op rule = true -> and_or j -> In rk reps -> In rd reps ->
  consistent op bc bd ka fl = true -> rule nc bc nd bd ka fl j rk rd = false ->
  exists h s x h' s' x', merged op nc nd ka fl (blk AND rk h s x) (blk j rd h' s' x') <>
    conn3 op (mean_of nc bc (blk AND rk h s x)) (mean_of nd bd (blk j rd h' s' x')).
Proof.
  intros H Hj Hrk Hrd Hc Hr. unfold exact_on in H.
  rewrite forallb_forall in H. specialize (H nc (in_bools nc)).
  rewrite forallb_forall in H. specialize (H bc (in_bools bc)).
  rewrite forallb_forall in H. specialize (H nd (in_bools nd)).
  rewrite forallb_forall in H. specialize (H bd (in_bools bd)).
  rewrite forallb_forall in H. specialize (H ka (in_bools ka)).
  rewrite forallb_forall in H. specialize (H fl (in_bools fl)).
  rewrite forallb_forall in H. specialize (H j (in_conns j Hj)).
  rewrite forallb_forall in H. specialize (H rk Hrk).
  rewrite forallb_forall in H. specialize (H rd Hrd).
  rewrite Hc, Hr in H. cbn [negb orb] in H.
  destruct (right op nc bc nd bd ka fl j rk rd) eqn:R; [discriminate|]. clear H. unfold right in R.
  apply forallb_false in R as (h & _ & R). exists h. apply forallb_false in R as (s & _ & R). exists s.
  apply forallb_false in R as (x & _ & R). exists x. apply forallb_false in R as (h' & _ & R). exists h'.
  apply forallb_false in R as (s' & _ & R). exists s'. apply forallb_false in R as (x' & _ & R). exists x'.
  cbv zeta in R. intros E. rewrite E, eqtv_refl in R. discriminate.
Qed.

Lemma neghead_blk j r h s x : neghead (blk j r h s x) = blk j r (not3 h) s x.
Proof. reflexivity. Qed.
Lemma mean_of_like n b j j' r r' h s x : like r r' -> mean_of n b (blk j r h s x) = mean_of n b (blk j' r' h s x).
Proof.
  intros E. unfold mean_of. rewrite !neghead_blk, (like_blk r r' j j' h s x E), (like_blk r r' j j' (not3 h) s x E). reflexivity.
Qed.
Lemma merged_like op nc nd ka fl jk j rk rk' rd rd' h s x h' s' x' : like rk rk' -> like rd rd' ->
  merged op nc nd ka fl (blk jk rk h s x) (blk j rd h' s' x') = merged op nc nd ka fl (blk AND rk' h s x) (blk j rd' h' s' x').
Proof.
  intros Ek Ed. unfold merged. rewrite (like_blk rk rk' jk AND h s x Ek), (like_blk rd rd' j j h' s' x' Ed). f_equal.
  destruct ka.
  - rewrite (like_app rk rk' jk AND h s x _ Ek). destruct fl; [now apply like_after|reflexivity].
  - destruct fl; [now apply like_after|reflexivity].
Qed.

(** where the rule fails, values of the operands show it *)
Lemma rule_needed op rule nc bc nd bd ka fl jk j rk rd : exact_on op rule = true ->
  (forall a a' b b', nul a = nul a' -> anyor a = anyor a' -> nul b = nul b' -> anyor b = anyor b' ->
     rule nc bc nd bd ka fl j a b = rule nc bc nd bd ka fl j a' b') ->
  and_or j -> Forall and_or rk -> Forall and_or rd ->
  consistent op bc bd ka fl = true -> rule nc bc nd bd ka fl j rk rd = false ->
  exists lc ld, map fst lc = jk :: rk /\ map fst ld = j :: rd /\
    merged op nc nd ka fl lc ld <> conn3 op (mean_of nc bc lc) (mean_of nd bd ld).
Proof.
  intros Hx Hf Hj Hrk Hrd Hc Hr. destruct (rep rk Hrk) as (rk' & K1 & K2 & K3 & K4). destruct (rep rd Hrd) as (rd' & D1 & D2 & D3 & D4).
  rewrite <- (Hf rk' rk rd' rd K2 K3 D2 D3) in Hr.
  destruct (exact_find op rule nc bc nd bd ka fl j rk' rd' Hx Hj K1 D1 Hc Hr) as (h & s & x & h' & s' & x' & E).
  exists (blk jk rk h s x), (blk j rd h' s' x'). rewrite !blk_fst. split; [reflexivity|]. split; [reflexivity|].
  rewrite (merged_like op nc nd ka fl jk j rk rk' rd rd' h s x h' s' x' K4 D4).
  rewrite (mean_of_like nc bc jk AND rk rk' h s x K4), (mean_of_like nd bd j j rd rd' h' s' x' D4). exact E.
Qed.
Lemma and_rule_feat nc bc nd bd ka fl j a a' b b' : nul a = nul a' -> anyor a = anyor a' -> nul b = nul b' -> anyor b = anyor b' ->
  and_rule nc bc nd bd ka fl j a b = and_rule nc bc nd bd ka fl j a' b'.
Proof. intros E1 E2 E3 E4. unfold and_rule. now rewrite E1, E2, E3, E4. Qed.
Lemma or_rule_feat nc bc nd bd ka fl j a a' b b' : nul a = nul a' -> anyor a = anyor a' -> nul b = nul b' -> anyor b = anyor b' ->
  or_rule nc bc nd bd ka fl j a b = or_rule nc bc nd bd ka fl j a' b'.
Proof. intros E1 E2 E3 E4. unfold or_rule. now rewrite E1, E2, E3, E4. Qed.
