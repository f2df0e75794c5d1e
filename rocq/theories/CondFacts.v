(** Structural lemmas on conditions. *)
From Coq Require Import String Ascii List Bool Arith Lia.
From Verif Require Import GoStr Value Names Cond SqlSpec Spec StrFacts.
Import ListNotations.
Local Open Scope string_scope.
Local Open Scope nat_scope.

(** * Results *)

Lemma mapM_app {A B} (f : A -> res B) a b :
  mapM f (a ++ b)%list = do x <- mapM f a; do y <- mapM f b; Ok (x ++ y)%list.
Proof.
  induction a as [|c a IH]; simpl.
  - destruct (mapM f b); reflexivity.
  - destruct (f c); simpl; [|reflexivity]. rewrite IH.
    destruct (mapM f a); simpl; [|reflexivity]. destruct (mapM f b); reflexivity.
Qed.

Lemma mapM_Ok {A B} (f : A -> res B) l r : mapM f l = Ok r <-> Forall2 (fun a b => f a = Ok b) l r.
Proof.
  split.
  - revert r; induction l as [|a l IH]; simpl; intros r H.
    + injection H as <-; constructor.
    + destruct (f a) as [b|] eqn:E; [|discriminate]; simpl in H.
      destruct (mapM f l) as [bs|] eqn:E'; [|discriminate]; simpl in H; injection H as <-. constructor; auto.
  - induction 1 as [|a b l r H _ IH]; simpl; [reflexivity|]. now rewrite H, IH.
Qed.

Lemma mapM_total {A B} (f : A -> res B) l :
  Forall (fun a => exists b, f a = Ok b) l -> exists r, mapM f l = Ok r.
Proof.
  induction 1 as [|a l (b & Hb) _ (r & Hr)]; simpl; [now exists []|].
  exists (b :: r). now rewrite Hb, Hr.
Qed.

Lemma mapM_length {A B} (f : A -> res B) l r : mapM f l = Ok r -> length r = length l.
Proof. intros H%mapM_Ok. induction H; simpl; congruence. Qed.

Lemma mapM_ext {A B} (f g : A -> res B) l : (forall x, In x l -> f x = g x) -> mapM f l = mapM g l.
Proof.
  induction l as [|a l IH]; simpl; intros H; [reflexivity|].
  rewrite (H a) by auto. destruct (g a); simpl; [|reflexivity]. rewrite IH; auto.
Qed.

Lemma bind_Ok {A B} (r : res A) (f : A -> res B) b : bind r f = Ok b -> exists a, r = Ok a /\ f a = Ok b.
Proof. destruct r; simpl; [eauto|discriminate]. Qed.

(** * Induction *)

Section CondInd.
  Variable P : cond -> Prop.
  Hypothesis Hnil : P CNil.
  Hypothesis Hleaf : forall l, P (CLeaf l).
  Hypothesis Hgrp : forall j n cs br, Forall P cs -> P (CGrp j n cs br).
  Fixpoint cond_ind' (c : cond) : P c :=
    match c with
    | CNil => Hnil
    | CLeaf l => Hleaf l
    | CGrp j n cs br =>
        Hgrp j n cs br
          ((fix go (cs : list cond) : Forall P cs :=
              match cs with
              | [] => Forall_nil P
              | c :: r => Forall_cons c (cond_ind' c) (go r)
              end) cs)
    end.
End CondInd.

(** * Unfolding the inner loops *)

Lemma c_values_grp j n cs br :
  c_values (CGrp j n cs br) = do l <- mapM c_values cs; Ok (List.concat l).
Proof.
  simpl. induction cs as [|c cs IH]; simpl; [reflexivity|].
  destruct (c_values c); simpl; [|reflexivity]. rewrite IH.
  destruct (mapM c_values cs); reflexivity.
Qed.

Fixpoint render_list (first : bool) (cs : list cond) (n : nat) : res string :=
  match cs with
  | [] => Ok ""
  | c :: r =>
      do j <- jtype c;
      do s <- c_render c n;
      do vs <- c_values c;
      do rest <- render_list false r (n + length vs);
      Ok (join_token first j ++ s ++ rest)
  end.

Lemma c_render_grp j ng cs br n :
  c_render (CGrp j ng cs br) n =
  match cs with
  | [] => Ok ""
  | _ => do sql <- render_list true cs n; Ok (wrap ng br (1 <? length cs) sql)
  end.
Proof. destruct cs; reflexivity. Qed.

Fixpoint render_sql_list (first : bool) (cs : list cond) : res string :=
  match cs with
  | [] => Ok ""
  | c :: r =>
      do j <- jtype c;
      do s <- c_render_sql c;
      do rest <- render_sql_list false r;
      Ok (join_token first j ++ s ++ rest)
  end.

Lemma c_render_sql_grp j ng cs br :
  c_render_sql (CGrp j ng cs br) =
  match cs with
  | [] => Ok ""
  | _ => do sql <- render_sql_list true cs; Ok (wrap ng br (1 <? length cs) sql)
  end.
Proof. destruct cs; reflexivity. Qed.

Lemma c_apply_spec_grp spec j n cs br :
  c_apply_spec spec (CGrp j n cs br) = do cs' <- mapM (c_apply_spec spec) cs; Ok (CGrp j n cs' br).
Proof.
  simpl. f_equal. induction cs as [|c cs IH]; simpl; [reflexivity|].
  destruct (c_apply_spec spec c); simpl; [|reflexivity]. now rewrite IH.
Qed.
Lemma c_apply_table_grp tn j n cs br :
  c_apply_table tn (CGrp j n cs br) = do cs' <- mapM (c_apply_table tn) cs; Ok (CGrp j n cs' br).
Proof.
  simpl. f_equal. induction cs as [|c cs IH]; simpl; [reflexivity|].
  destruct (c_apply_table tn c); simpl; [|reflexivity]. now rewrite IH.
Qed.

(** * Leaves of a tree *)

(** What a leaf says, without the connective in front of it. *)
Definition core (l : leaf) : kind * bool * fdef * gval := (l_kind l, l_neg l, l_def l, l_val l).

Fixpoint leaves (c : cond) : list leaf :=
  match c with
  | CNil => []
  | CLeaf l => [l]
  | CGrp _ _ cs _ => flat_map leaves cs
  end.

Inductive no_nil : cond -> Prop :=
| nn_leaf l : no_nil (CLeaf l)
| nn_grp j n cs br : Forall no_nil cs -> no_nil (CGrp j n cs br).

Definition g_no_nil (g : group) : Prop := Forall no_nil (g_cs g).

Lemma no_nil_of_g g : no_nil (of_g g) <-> g_no_nil g.
Proof. split; [inversion 1; auto|constructor; auto]. Qed.

Lemma no_nil_jtype c : no_nil c -> exists j, jtype c = Ok j.
Proof. inversion 1; simpl; eauto. Qed.
Lemma no_nil_join j c : no_nil c -> exists c', c_join j c = Ok c' /\ no_nil c'.
Proof. inversion 1; subst; simpl; eexists; (split; [reflexivity|constructor; auto]). Qed.
Lemma no_nil_negate b c : no_nil c -> exists c', c_negate b c = Ok c' /\ no_nil c'.
Proof. inversion 1; subst; simpl; eexists; (split; [reflexivity|constructor; auto]). Qed.

Lemma all_join_ok j cs : Forall no_nil cs -> exists b, all_join j cs = Ok b.
Proof.
  induction 1 as [|c cs Hc _ IH]; simpl; [eauto|].
  destruct (no_nil_jtype _ Hc) as (t & ->); simpl. destruct (str_eqb t j); eauto.
Qed.
Lemma one_join_ok j cs : Forall no_nil cs -> exists b, one_join j cs = Ok b.
Proof.
  induction 1 as [|c cs Hc _ IH]; simpl; [eauto|].
  destruct (no_nil_jtype _ Hc) as (t & ->); simpl. destruct (str_eqb t j); eauto.
Qed.
Lemma has_all_ok g j : g_no_nil g -> exists b, has_all g j = Ok b.
Proof. unfold g_no_nil, has_all. intros H; destruct H; [eauto|now apply all_join_ok]. Qed.
Lemma has_one_ok g j : g_no_nil g -> exists b, has_one g j = Ok b.
Proof. unfold g_no_nil, has_one. intros H; destruct H; [eauto|now apply one_join_ok]. Qed.

Lemma new_group_ok j cs : Forall no_nil cs ->
  exists cs', new_group j cs = Ok {| g_join := AND; g_neg := false; g_cs := cs'; g_br := false |}
    /\ Forall2 (fun c c' => c_join j c = Ok c') cs cs' /\ Forall no_nil cs'.
Proof.
  intros H. unfold new_group.
  destruct (mapM_total (c_join j) cs) as (cs' & E).
  { apply Forall_forall; intros c Hc; rewrite Forall_forall in H.
    destruct (no_nil_join j _ (H _ Hc)) as (c' & -> & _); eauto. }
  exists cs'. rewrite E; simpl. apply mapM_Ok in E. split; [reflexivity|split; [exact E|]].
  clear -E H. induction E as [|c c' cs cs' Hc _ IH]; inversion H as [|? ? H1 H2]; subst; constructor; auto.
  destruct (no_nil_join j _ H1) as (c'' & E & Hn). congruence.
Qed.

(** * What the merge functions can produce *)

(** The leaf sequence, connectives erased. *)
Definition cores (c : cond) := map core (leaves c).
Definition cores_l (cs : list cond) := flat_map cores cs.

Lemma cores_grp j n cs br : cores (CGrp j n cs br) = cores_l cs.
Proof.
  unfold cores, cores_l; simpl. induction cs as [|c cs IH]; simpl; [reflexivity|].
  now rewrite map_app, IH.
Qed.
Lemma cores_of_g g : cores (of_g g) = cores_l (g_cs g).
Proof. apply cores_grp. Qed.
Lemma cores_l_app a b : cores_l (a ++ b)%list = (cores_l a ++ cores_l b)%list.
Proof. apply flat_map_app. Qed.
Lemma cores_join j c c' : c_join j c = Ok c' -> cores c' = cores c.
Proof. destruct c; simpl; intros H; inversion H; subst; reflexivity. Qed.
Lemma cores_brackets g : cores (of_g (with_brackets g)) = cores_l (g_cs g).
Proof. apply cores_grp. Qed.
Lemma cores_l_joins j cs cs' : Forall2 (fun c c' => c_join j c = Ok c') cs cs' -> cores_l cs' = cores_l cs.
Proof.
  induction 1 as [|c c' cs cs' H _ IH]; simpl; [reflexivity|]. now rewrite IH, (cores_join _ _ _ H).
Qed.

Ltac all_ok g :=
  match goal with
  | |- context [has_all g ?j] =>
      let b := fresh "b" in let E := fresh "E" in
      destruct (has_all_ok g j ltac:(assumption)) as (b & E); rewrite !E; clear E; cbn [bind]
  | |- context [has_one g ?j] =>
      let b := fresh "b" in let E := fresh "E" in
      destruct (has_one_ok g j ltac:(assumption)) as (b & E); rewrite !E; clear E; cbn [bind]
  end.

Lemma add_group_spec g a : g_no_nil g -> g_no_nil a ->
  exists r, add_group g a = Ok r /\ g_no_nil r /\ cores_l (g_cs r) = (cores_l (g_cs g) ++ cores_l (g_cs a))%list.
Proof.
  intros Hg Ha. unfold add_group.
  repeat all_ok g. repeat all_ok a.
  destruct (no_nil_join (g_join a) (of_g (with_brackets a))) as (c & Ec & Hc).
  { constructor; exact Ha. }
  rewrite Ec; cbn [bind].
  assert (Kc : cores c = cores_l (g_cs a)).
  { rewrite (cores_join _ _ _ Ec). apply cores_brackets. }
  assert (Hb : no_nil (of_g (with_brackets g))) by (constructor; exact Hg).
  assert (Hba : no_nil (of_g (with_brackets a))) by (constructor; exact Ha).
  destruct (length (g_cs g) =? 0) eqn:L0.
  { eexists; repeat split; [exact Ha|]. apply Nat.eqb_eq, length_zero_iff_nil in L0.
    unfold g_no_nil in *. simpl. now rewrite L0. }
  repeat match goal with
  | |- exists r, (if ?b then _ else _) = Ok r /\ _ => destruct b
  end; (eexists; split; [reflexivity|split; [|]]; cbn [g_cs set_cs];
    [unfold g_no_nil in *; cbn [g_cs set_cs]; first
       [ apply Forall_app; split; [assumption|assumption]
       | apply Forall_app; split; [assumption|constructor; [assumption|constructor]]
       | constructor; [assumption|assumption]
       | constructor; [assumption|constructor; [assumption|constructor]]]
    | rewrite ?cores_l_app; cbn [cores_l flat_map]; rewrite ?cores_brackets, ?Kc, ?app_nil_r;
      unfold cores_l; reflexivity ]).
Qed.

Lemma add_single_spec g c : g_no_nil g -> no_nil c ->
  exists r, add_single g c = Ok r /\ g_no_nil r /\ cores_l (g_cs r) = (cores_l (g_cs g) ++ cores c)%list.
Proof.
  intros Hg Hc. unfold add_single. repeat all_ok g.
  destruct (no_nil_jtype _ Hc) as (op & Eo); rewrite Eo; cbn [bind].
  destruct (as_group c) as [a|] eqn:Ea.
  { destruct c as [|l|j n cs br]; try discriminate. injection Ea as <-. inversion Hc; subst.
    destruct (add_group_spec g {| g_join := j; g_neg := n; g_cs := cs; g_br := br |}) as (r & E & Hr & K); auto.
    exists r; repeat split; auto. rewrite K. now rewrite cores_grp. }
  clear Ea.
  destruct (no_nil_join op _ Hc) as (c' & Ec & Hc'). rewrite Ec; cbn [bind].
  assert (Kc : cores c' = cores c) by (eapply cores_join; eassumption).
  assert (Hb : no_nil (of_g (with_brackets g))) by (constructor; exact Hg).
  repeat match goal with
  | |- exists r, (if ?b then _ else _) = Ok r /\ _ => destruct b
  end; (eexists; split; [reflexivity|split; [|]]; cbn [g_cs set_cs set_join];
    [unfold g_no_nil in *; cbn [g_cs set_cs set_join]; first
       [ apply Forall_app; split; [assumption|constructor; [assumption|constructor]]
       | constructor; [assumption|constructor; [assumption|constructor]]]
    | rewrite ?cores_l_app; cbn [cores_l flat_map]; rewrite ?cores_brackets, ?Kc, ?app_nil_r;
      unfold cores_l; reflexivity ]).
Qed.

Lemma add_conditions_spec op g cs : g_no_nil g -> Forall no_nil cs ->
  exists r, add_conditions op g cs = Ok r /\ g_no_nil r /\
            cores_l (g_cs r) = (cores_l (g_cs g) ++ cores_l cs)%list.
Proof.
  intros Hg Hcs. unfold add_conditions. repeat all_ok g.
  destruct cs as [|c0 rest].
  { exists g; repeat split; auto. unfold cores_l at 3; simpl; now rewrite app_nil_r. }
  destruct (g_cs g) as [|x xs] eqn:Eg.
  { eexists; split; [reflexivity|split; [exact Hcs|reflexivity]]. }
  rewrite <- Eg. clear x xs Eg.
  destruct rest as [|c1 rest].
  { inversion Hcs as [|? ? H0 _]; subst. destruct (no_nil_join op _ H0) as (c & Ec & Hc).
    rewrite Ec; cbn [bind]. destruct (add_single_spec g c Hg Hc) as (r & E & Hr & K).
    exists r; repeat split; auto. rewrite K, (cores_join _ _ _ Ec). unfold cores_l at 3; simpl. now rewrite app_nil_r. }
  remember (c0 :: c1 :: rest) as cs.
  assert (Hb : no_nil (of_g (with_brackets g))) by (constructor; exact Hg).
  repeat match goal with
  | |- exists r, (if ?b then _ else _) = Ok r /\ _ => destruct b
  end.
  - eexists; split; [reflexivity|split]; [constructor; assumption|].
    cbn [g_cs set_cs cores_l flat_map]. now rewrite cores_brackets.
  - destruct (new_group_ok op cs Hcs) as (cs' & -> & HF & Hn). cbn [bind].
    destruct (no_nil_join op (CGrp AND false cs' false)) as (c & Ec & Hc); [constructor; auto|].
    unfold of_g at 1; cbn [g_join g_neg g_cs g_br]. rewrite Ec; cbn [bind].
    eexists; split; [reflexivity|split].
    + unfold g_no_nil; cbn [g_cs set_cs]. apply Forall_app; split; [exact Hg|constructor; auto].
    + cbn [g_cs set_cs]. rewrite cores_l_app. cbn [cores_l flat_map].
      rewrite (cores_join _ _ _ Ec), cores_grp, (cores_l_joins _ _ _ HF). now rewrite app_nil_r.
  - destruct (new_group_ok AND cs Hcs) as (cs' & -> & HF & Hn). cbn [bind].
    eexists; split; [reflexivity|split].
    + unfold g_no_nil; cbn [g_cs set_cs]. constructor; [exact Hb|constructor; [constructor; exact Hn|constructor]].
    + cbn [g_cs set_cs cores_l flat_map]. rewrite !cores_brackets. cbn [g_cs].
      rewrite (cores_l_joins _ _ _ HF). now rewrite app_nil_r.
Qed.

(** * Values follow from the leaves *)

Definition core_values (k : kind * bool * fdef * gval) : res (list gval) :=
  let '(ki, ng, d, v) := k in leaf_values (mkLeaf ki "" ng d v).
Lemma leaf_values_core l : leaf_values l = core_values (core l).
Proof. reflexivity. Qed.

Definition concatM (r : res (list (list gval))) : res (list gval) := do l <- r; Ok (List.concat l).

Lemma concatM_cons (f : kind * bool * fdef * gval -> res (list gval)) a b :
  concatM (mapM f (a ++ b)%list) = do x <- concatM (mapM f a); do y <- concatM (mapM f b); Ok (x ++ y)%list.
Proof.
  unfold concatM. rewrite mapM_app. destruct (mapM f a); simpl; [|reflexivity].
  destruct (mapM f b); simpl; [|reflexivity]. now rewrite List.concat_app.
Qed.

Lemma c_values_cores c : no_nil c -> c_values c = concatM (mapM core_values (cores c)).
Proof.
  induction c as [|l|j n cs br IH] using cond_ind'; intros Hn; [inversion Hn| |].
  - change (c_values (CLeaf l)) with (leaf_values l). rewrite leaf_values_core.
    change (cores (CLeaf l)) with [core l]. unfold concatM. cbn [mapM].
    destruct (core_values (core l)); cbn [bind List.concat]; [now rewrite app_nil_r|reflexivity].
  - inversion Hn as [|? ? ? ? Hcs]; subst. rewrite c_values_grp, cores_grp. clear Hn.
    induction IH as [|c cs Hc _ IHcs]; simpl; [reflexivity|].
    inversion Hcs as [|? ? Hc1 Hc2]; subst. specialize (IHcs Hc2). specialize (Hc Hc1).
    unfold cores_l; simpl. rewrite concatM_cons, <- Hc.
    destruct (c_values c); simpl; [|reflexivity].
    fold (cores_l cs). rewrite <- IHcs. destruct (mapM c_values cs); reflexivity.
Qed.

Lemma concatM_cores_l cs : Forall no_nil cs ->
  concatM (mapM core_values (cores_l cs)) = do l <- mapM c_values cs; Ok (List.concat l).
Proof.
  intros H. rewrite <- (cores_grp AND false cs false), <- c_values_cores by (constructor; exact H).
  apply c_values_grp.
Qed.

(** * Texts of leaves and groups *)

Lemma cmp_text op ph l :
  cmp_render op ph l = (if l_neg l then "NOT " else "") ++ render_spec (l_def l) ++ op ++ ph.
Proof. unfold cmp_render, GoStr.join. destruct (l_neg l); reflexivity. Qed.
Lemma word_text op ph l :
  word_render op ph l = render_spec (l_def l) ++ (if l_neg l then " NOT " else " ") ++ op ++ " " ++ ph.
Proof. unfold word_render, GoStr.join. destruct (l_neg l); reflexivity. Qed.
Lemma null_text l :
  null_render l = render_spec (l_def l) ++ (if l_neg l then " IS NOT NULL" else " IS NULL").
Proof. unfold null_render, GoStr.join. destruct (l_neg l); reflexivity. Qed.
Lemma wrap_text ng br many s :
  wrap ng br many s =
  (if ng then "NOT " else "") ++ (if br || ng && many then "(" ++ s ++ ")" else s).
Proof. unfold wrap. destruct ng, (br || _); reflexivity. Qed.
Lemma join_token_text first j : j <> "" ->
  join_token first j = if first then "" else " " ++ j ++ " ".
Proof. intros H. unfold join_token, render_join. destruct first; [reflexivity|]. destruct j; [congruence|reflexivity]. Qed.
