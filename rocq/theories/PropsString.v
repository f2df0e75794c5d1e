(** C81: String() of the select builders. *)
From Coq Require Import String Ascii List Bool Arith NArith ZArith Lia.
From Verif Require Import GoStr Value Names Cond Build Surface SqlSpec Spec StrFacts SqlFacts CondFacts CondText CondSem TreeFacts
  CondLogic CondMeaning Built CondThms StmtFacts BuildFacts PropsCond PropsSelect.
Import ListNotations.
Local Open Scope string_scope.
Local Open Scope nat_scope.

(** * Texts without a character *)

Definition free (p : ascii -> bool) (s : string) : Prop := all_chars (fun c => negb (p c)) s = true.
Lemma free_app p a b : free p (a ++ b) <-> free p a /\ free p b.
Proof. unfold free. rewrite all_chars_app. apply andb_true_iff. Qed.
Definition mark_char (c : ascii) : bool := ((c =? ",") || (c =? "(") || (c =? ")"))%char%bool.

Lemma word_free s : all_chars word_char s = true -> free mark_char s.
Proof. apply all_chars_impl. intros c. all_ascii c; vm_compute; congruence. Qed.
Lemma name_free n : name n = true -> free mark_char n.
Proof. intros H. apply word_free. eapply all_chars_impl; [exact ident_word|]. now apply name_ident. Qed.
Lemma qname_free n : qname n -> free mark_char n.
Proof. intros H. now apply word_free, qname_word. Qed.
Lemma opt_free n : n = "" \/ name n = true -> free mark_char n.
Proof. intros [-> | H]; [reflexivity|]. now apply name_free. Qed.

Lemma join_free p sep l : free p sep -> Forall (free p) l -> free p (join sep l).
Proof.
  intros Hs H. induction H as [|x l Hx Hl IH]; [reflexivity|]. unfold join in *. cbn [String.concat].
  destruct l; [exact Hx|]. rewrite !free_app. auto.
Qed.

Lemma spec_free d : wf_field d -> free mark_char (render_spec d).
Proof.
  intros (H1 & H2 & H3). apply name_free in H1. apply opt_free in H2, H3. unfold render_spec.
  apply join_free; [reflexivity|].
  assert (HT : Forall (free mark_char) ((if is_empty (f_table d) then [] else [(f_table d ++ ".")%string]) ++ [f_name d])%list).
  { apply Forall_app. split; [|constructor; [exact H1|constructor]].
    destruct (is_empty (f_table d)); constructor; [|constructor]. apply free_app. split; [exact H2|reflexivity]. }
  destruct (negb _ && negb _); [|destruct (_ && negb _)]; [| |exact HT];
    (apply Forall_app; split; [exact HT|]; constructor; [reflexivity|]; constructor; [exact H3|constructor]).
Qed.
Lemma spec_nonempty d : wf_field d -> render_spec d <> "".
Proof.
  intros (H1 & _) E. destruct d as [n t a]. cbn [f_name] in H1. unfold render_spec in E. cbn [f_table f_name f_alias] in E.
  destruct n as [|c n]; [discriminate|]. destruct t as [|c' t]; cbn [is_empty app] in E.
  - destruct (negb _ && negb _); [|destruct (_ && negb _)]; discriminate.
  - destruct (negb _ && negb _); [|destruct (_ && negb _)]; discriminate.
Qed.
Lemma table_free t : wf_table t -> free mark_char (t_render t).
Proof.
  intros (H1 & H2). apply qname_free in H1. apply opt_free in H2. unfold t_render.
  destruct (_ && _); [|exact H1]. rewrite !free_app. split; [exact H1|]. split; [reflexivity|exact H2].
Qed.
Lemma join_type_free z : (0 <= z <= 3)%Z -> free mark_char (jt_string z).
Proof. intros H. assert (E : z = 0%Z \/ z = 1%Z \/ z = 2%Z \/ z = 3%Z) by lia. destruct E as [-> |[-> |[-> | ->]]]; reflexivity. Qed.
Lemma joiner_free j : wf_join j -> free mark_char (j_render j).
Proof.
  intros (H1 & H2 & H3 & H4 & H5 & H6). unfold j_render. apply join_free; [reflexivity|].
  constructor; [now apply join_type_free|]. constructor; [now apply table_free|]. constructor; [reflexivity|]. constructor; [|constructor].
  unfold jc_render, render_table_spec. rewrite !free_app. apply name_free in H3, H4, H5, H6. repeat split; assumption || reflexivity.
Qed.
Lemma from_free b : names_ok b -> free mark_char (b_render_from b).
Proof.
  intros (_ & Ht & Hj). unfold b_render_from. apply join_free; [reflexivity|]. constructor; [now apply table_free|].
  apply Forall_map. eapply Forall_impl; [|exact Hj]. exact joiner_free.
Qed.

(** what stands before the first mark is determined *)
Lemma before_mark p c a a' r r' : p c = true -> free p a -> free p a' ->
  a ++ String c r = a' ++ String c r' -> a = a' /\ r = r'.
Proof.
  intros Hc. revert a'. induction a as [|x a IH]; intros [|y a'] Ha Ha' E; cbn in E.
  - injection E as E. auto.
  - injection E as E1 E2. subst y. unfold free in Ha'. cbn in Ha'. rewrite Hc in Ha'. discriminate.
  - injection E as E1 E2. subst x. unfold free in Ha. cbn in Ha. rewrite Hc in Ha. discriminate.
  - injection E as -> E. unfold free in Ha, Ha'. cbn in Ha, Ha'. apply andb_true_iff in Ha as [_ Ha]. apply andb_true_iff in Ha' as [_ Ha'].
    destruct (IH a' Ha Ha' E) as [-> ->]. auto.
Qed.

(** a list of such texts is determined by them joined with commas *)
Lemma joined_inj l l' : Forall (free mark_char) l -> Forall (free mark_char) l' -> ~ List.In "" l -> ~ List.In "" l' ->
  join "," l = join "," l' -> l = l'.
Proof.
  unfold join. intros H. revert l'. induction H as [|x l Hx Hl IH]; intros l' H' Hn Hn' E.
  - destruct l' as [|y [|z l']]; [reflexivity| |].
    + cbn in E. exfalso. apply Hn'. left. now symmetry.
    + cbn [String.concat] in E. symmetry in E. apply app_eq_nil_s in E as [_ E]. discriminate.
  - destruct l' as [|y l'].
    + destruct l as [|z l]; cbn [String.concat] in E; [exfalso; apply Hn; now left|].
      apply app_eq_nil_s in E as [_ E]. discriminate.
    + inversion H' as [|? ? Hy Hl']; subst.
      destruct l as [|z l], l' as [|z' l']; cbn [String.concat] in E.
      * now subst.
      * subst x. apply free_app in Hx as [_ Hx]. discriminate.
      * subst y. apply free_app in Hy as [_ Hy]. discriminate.
      * apply (before_mark mark_char) in E as [-> E]; [|reflexivity|exact Hx|exact Hy]. f_equal.
        apply IH; [exact Hl'|intros H; apply Hn; now right|intros H; apply Hn'; now right|exact E].
Qed.

Lemma where_nonempty rho g s : where_ready rho g -> c_render_sql (of_g g) = Ok s -> (s = "" <-> g_cs g = []).
Proof.
  intros Hr E. split; intros H.
  - subst s. destruct Hr as [Hr|[Hw Hs]]; [exact Hr|]. exfalso.
    destruct (where_sem rho g 0 Hw Hs) as (_ & _ & _ & v & _ & _ & _ & Hm & _).
    destruct Hm as (s & s' & vs & _ & E' & _ & _ & Hq). rewrite E in E'. injection E' as <-. discriminate.
  - destruct g as [j n cs br]. cbn in H. subst cs. destruct br, n; cbn in E; now injection E.
Qed.

(** * C81 *)

(** Full statement: two selects with the same String() are the same statement (up to the values
    they bind). False for SelectManyBuilder: String is promoted from the base and shows neither
    ordering nor page. *)
Theorem C81_many_refuted : exists m m' s o o', m_string m = Ok s /\ m_string m' = Ok s /\
  m_build m = Ok o /\ m_build m' = Ok o' /\
  (exists p p', parse_select (o_sql o) = Some p /\ parse_select (o_sql o') = Some p' /\ p <> p').
Proof.
  set (b := mkB DoSelect (mkT "users" "") [] [] empty_group).
  exists (mkM b 0 0 [mkS (mkF "id" "" "") "ASC"]), (mkM b 5 10 [mkS (mkF "id" "" "") "DESC"]).
  eexists _, _, _. split; [vm_compute; reflexivity|]. split; [vm_compute; reflexivity|]. split; [vm_compute; reflexivity|].
  split; [vm_compute; reflexivity|]. eexists _, _. split; [vm_compute; reflexivity|]. split; [vm_compute; reflexivity|]. discriminate.
Qed.
Print Assumptions C81_many_refuted.

(** Proved part: base selects with well-formed names and conditions. *)
Theorem C81_base_partial : forall rho b b' s, names_ok b -> names_ok b' ->
  where_ready rho (b_where b) -> where_ready rho (b_where b') ->
  b_string b = Ok s -> b_string b' = Ok s ->
  exists sql, b_render_sql b = Ok sql /\ b_render_sql b' = Ok sql.
Proof.
  intros rho b b' s Hn Hn' Hr Hr' E E'. unfold b_string, w_string, w_render_sql in E, E'.
  destruct (c_render_sql (of_g (b_where b))) as [w|] eqn:Ew; [|discriminate].
  destruct (c_render_sql (of_g (b_where b'))) as [w'|] eqn:Ew'; [|discriminate].
  cbn [bind] in E, E'. injection E as E. injection E' as E'. rewrite <- E' in E. clear E'.
  unfold join, fs_string in E. cbn [String.concat] in E. rewrite !app_assoc_s in E.
  cbn [append] in E. injection E as E.
  apply (before_mark mark_char) in E as [EF E]; [|reflexivity|now apply from_free..].
  injection E as E. unfold join in E.
  destruct Hn as (Hf & Ht & Hj), Hn' as (Hf' & Ht' & Hj').
  assert (FS : forall fs, Forall wf_field fs -> Forall (free mark_char) (map render_spec fs)).
  { intros fs H. apply Forall_map. eapply Forall_impl; [|exact H]. exact spec_free. }
  assert (NS : forall fs, Forall wf_field fs -> ~ List.In "" (map render_spec fs)).
  { intros fs H Hin. apply in_map_iff in Hin as (d & Ed & Hd). rewrite Forall_forall in H. now apply (spec_nonempty d (H d Hd)). }
  assert (FJ : forall fs, Forall wf_field fs -> free (fun c => (c =? ")")%char) (String.concat "," (map render_spec fs))).
  { intros fs H. apply (join_free _ ","); [reflexivity|]. eapply Forall_impl; [|exact (FS fs H)]. intros a. apply all_chars_impl.
    intros c. unfold mark_char. rewrite !negb_orb, !andb_true_iff. tauto. }
  apply (before_mark (fun c => (c =? ")")%char)) in E as [EL E]; [|reflexivity|now apply FJ..].
  apply (joined_inj _ _ (FS _ Hf) (FS _ Hf') (NS _ Hf) (NS _ Hf')) in EL.
  injection E as E. apply app_inj_r in E. subst w'.
  assert (EV : nonempty (g_cs (b_where b)) = nonempty (g_cs (b_where b'))).
  { pose proof (where_nonempty _ _ _ Hr Ew) as H. pose proof (where_nonempty _ _ _ Hr' Ew') as H'.
    destruct (g_cs (b_where b)), (g_cs (b_where b')); try reflexivity; exfalso.
    - assert (X : w = "") by now apply H. apply H' in X. discriminate.
    - assert (X : w = "") by now apply H'. apply H in X. discriminate. }
  assert (EK : forall rest, join " " (b_tokens b ++ rest) = join " " (b_tokens b' ++ rest)).
  { assert (FL : field_list (b_fields b) = field_list (b_fields b')).
    { unfold field_list. rewrite EL. destruct (b_fields b), (b_fields b'); try reflexivity; discriminate. }
    intros rest. unfold b_tokens. rewrite FL, <- !app_assoc. cbn [app].
    assert (J : forall f, join " " (f :: rest) = join " " [f; join " " rest] \/ rest = []).
    { intros f. destruct rest as [|x r]; [now right|left; reflexivity]. }
    assert (FR : forall c, join " " (t_render (b_table c) :: (map j_render (b_joins c) ++ rest)%list) =
      b_render_from c ++ match rest with [] => "" | _ => " " ++ join " " rest end).
    { intros c. unfold b_render_from, join. destruct rest as [|x r]; [now rewrite app_nil_r, app_nil_r_s|].
      change (t_render (b_table c) :: map j_render (b_joins c) ++ x :: r)%list
        with ((t_render (b_table c) :: map j_render (b_joins c)) ++ x :: r)%list.
      now rewrite concat_app by discriminate. }
    change (join " " (op_string DoSelect :: field_list (b_fields b') :: "FROM" :: t_render (b_table b) :: (map j_render (b_joins b) ++ rest)%list))
      with (op_string DoSelect ++ " " ++ field_list (b_fields b') ++ " " ++ "FROM" ++ " " ++ join " " (t_render (b_table b) :: (map j_render (b_joins b) ++ rest)%list)).
    change (join " " (op_string DoSelect :: field_list (b_fields b') :: "FROM" :: t_render (b_table b') :: (map j_render (b_joins b') ++ rest)%list))
      with (op_string DoSelect ++ " " ++ field_list (b_fields b') ++ " " ++ "FROM" ++ " " ++ join " " (t_render (b_table b') :: (map j_render (b_joins b') ++ rest)%list)).
    now rewrite !FR, EF. }
  unfold b_render_sql. rewrite Ew, Ew', <- EV. destruct (nonempty _); cbn [bind].
  - eexists. split; [reflexivity|]. now rewrite EK.
  - eexists. split; [reflexivity|]. specialize (EK []). rewrite !app_nil_r in EK. now rewrite EK.
Qed.
Print Assumptions C81_base_partial.

(** String() shows no values: selects that differ only in the values of their conditions look
    the same. *)
Theorem C81_no_values : forall b b', b_table b' = b_table b -> b_joins b' = b_joins b -> b_fields b' = b_fields b ->
  same_shape (of_g (b_where b)) (of_g (b_where b')) -> b_string b' = b_string b.
Proof.
  intros b b' Et Ej Ef Hs. destruct (same_shape_text _ _ Hs) as (_ & _ & H & _).
  unfold b_string, w_string, w_render_sql, b_render_from. now rewrite Et, Ej, Ef, H.
Qed.
Print Assumptions C81_no_values.
Example C81_example : forall rho, names_ok b_sample /\ where_ready rho (b_where b_sample) /\
  b_string b_sample = Ok ("query.BaseSelectBuilder(users AS u LEFT JOIN orders AS o ON u.id=o.uid)," ++
    "Fields(u.id,o.total AS sum),Where(t.a IN (?,?) AND (b=? OR c NOT LIKE ?))").
Proof.
  intros rho. destruct (C07_state_example rho) as (H1 & H2 & _). split; [exact H1|]. split; [exact H2|]. vm_compute. reflexivity.
Qed.
Example C81_example_values :
  let g k := mkG "" false [eqc "a" k] false in
  let b k := mkB DoSelect (mkT "t" "") [] [] (g k) in
  same_shape (of_g (g 1)) (of_g (g 7)) /\ b_where (b 1) <> b_where (b 7) /\
  b_string (b 1) = Ok "query.BaseSelectBuilder(t),Fields(),Where(a=?)".
Proof.
  split; [|split; [discriminate|vm_compute; reflexivity]].
  constructor. repeat (constructor; [constructor; repeat split; try discriminate; eexists _, _; repeat split|]). constructor.
Qed.
