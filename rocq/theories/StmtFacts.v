(** Lexing and parsing of whole statements. *)
From Coq Require Import String Ascii List Bool Arith Lia ZArith NArith.
From Verif Require Import GoStr Value Names Cond Build SqlSpec Spec StrFacts SqlFacts CondFacts CondSem NameFacts.
Import ListNotations.
Local Open Scope string_scope.
Local Open Scope nat_scope.

(** * Cutting a text at a delimiter *)

Lemma end_word_app w a b : end_word w (a ++ b)%list = (end_word w a ++ b)%list.
Proof. now destruct w. Qed.

(** a character that ends a word and does not continue an operator *)
Definition cut (c : ascii) : bool := negb (word_char c) && negb (c =? "=")%char.

Lemma lex_cut_aux n : forall s w c r, String.length s <= n -> cut c = true ->
  lex_from w (s ++ String c r) = (lex_from w s ++ lex (String c r))%list.
Proof.
  induction n as [|n IH]; intros s w c r Hl Hc.
  - destruct s; [|simpl in Hl; lia]. unfold lex. simpl append. simpl. apply andb_true_iff in Hc as [Hc _].
    apply negb_true_iff in Hc. rewrite Hc. now rewrite <- end_word_app.
  - destruct s as [|a s].
    { simpl append. unfold lex. simpl. apply andb_true_iff in Hc as [Hc _].
      apply negb_true_iff in Hc. rewrite Hc. now rewrite <- end_word_app. }
    simpl in Hl. simpl append. unfold lex_from; fold lex_from.
    destruct (word_char a); [rewrite IH by (auto; lia); reflexivity|].
    rewrite <- end_word_app. f_equal.
    repeat (match goal with |- context [if (a =? ?x)%char then _ else _] => destruct (a =? x)%char end;
      [try (rewrite IH by (auto; lia); reflexivity)|]).
    + destruct s as [|d s]; simpl append.
      * apply andb_true_iff in Hc as [_ Hc]. apply negb_true_iff in Hc. rewrite Hc. reflexivity.
      * cbv beta iota. destruct (d =? "=")%char.
        -- rewrite IH by (auto; simpl in Hl; lia). reflexivity.
        -- change (String d (s ++ String c r)) with (String d s ++ String c r). rewrite IH by (auto; lia). reflexivity.
    + destruct s as [|d s]; simpl append.
      * apply andb_true_iff in Hc as [_ Hc]. apply negb_true_iff in Hc. rewrite Hc. reflexivity.
      * cbv beta iota. destruct (d =? "=")%char.
        -- rewrite IH by (auto; simpl in Hl; lia). reflexivity.
        -- change (String d (s ++ String c r)) with (String d s ++ String c r). rewrite IH by (auto; lia). reflexivity.
    + rewrite IH by (auto; lia). reflexivity.
Qed.
Lemma lex_cut s c r : cut c = true -> lex (s ++ String c r) = (lex s ++ lex (String c r))%list.
Proof. intros H. exact (lex_cut_aux (String.length s) s "" c r (le_n _) H). Qed.

Lemma lex_sp s r : lex (s ++ " " ++ r) = (lex s ++ lex r)%list.
Proof. exact (lex_cut s " " r eq_refl). Qed.
Lemma lex_comma s r : lex (s ++ ", " ++ r) = (lex s ++ TComma :: lex r)%list.
Proof. exact (lex_cut s "," (" " ++ r) eq_refl). Qed.

Lemma join_cons sep x y l : join sep (x :: y :: l) = x ++ sep ++ join sep (y :: l).
Proof. reflexivity. Qed.

Lemma lex_join l : lex (join " " l) = flat_map lex l.
Proof.
  induction l as [|x [|y l] IH]; [reflexivity|simpl; now rewrite app_nil_r|].
  rewrite join_cons, lex_sp, IH. reflexivity.
Qed.

(** * Keyword-free tokens and clause splitting *)

Definition free (ks : list string) (ts : list tok) : Prop :=
  Forall (fun t => existsb (fun k => is_kw k t) ks = false) ts.
Definition starts (ks : list string) (ts : list tok) : Prop :=
  ts = [] \/ exists t r, ts = t :: r /\ existsb (fun k => is_kw k t) ks = true.

Lemma until_app ks a b : free ks a -> starts ks b -> until ks (a ++ b) = (a, b).
Proof.
  intros Ha Hb. induction Ha as [|t a Ht Ha IH]; simpl.
  - destruct Hb as [->|(t & r & -> & Hb)]; [reflexivity|]. simpl. now rewrite Hb.
  - rewrite Ht, IH. reflexivity.
Qed.
Lemma free_app ks a b : free ks a -> free ks b -> free ks (a ++ b).
Proof. intros; apply Forall_app; auto. Qed.
Lemma starts_app ks a b : starts ks a -> starts ks b -> starts ks (a ++ b).
Proof. intros [->|(t & r & -> & H)] Hb; [exact Hb|]. right. exists t, (r ++ b)%list. auto. Qed.
Lemma starts_more ks ks' ts : (forall k, In k ks -> In k ks') -> starts ks ts -> starts ks' ts.
Proof.
  intros Hs [->|(t & r & -> & H)]; [now left|]. right. exists t, r. split; [reflexivity|].
  apply existsb_exists in H as (k & Hk & E). apply existsb_exists. eauto.
Qed.

Definition clauses4 : list string := ["WHERE"; "ORDER"; "OFFSET"; "LIMIT"].

Lemma p_select_parts cs fs ws os offs lims :
  free ["FROM"] cs -> free clauses4 fs ->
  free ["ORDER"; "OFFSET"; "LIMIT"] ws -> starts ["WHERE"] ws ->
  free ["OFFSET"; "LIMIT"] os -> starts ["ORDER"] os ->
  free ["LIMIT"] offs -> starts ["OFFSET"] offs -> starts ["LIMIT"] lims ->
  p_select (TKw "SELECT" :: cs ++ TKw "FROM" :: fs ++ ws ++ os ++ offs ++ lims) =
  match p_cols cs, p_from fs, p_where ws, p_order os, p_bound "OFFSET" offs, p_bound "LIMIT" lims with
  | Some c, Some (f, js), Some w, Some o, Some off, Some lim => Some (mkSel c f js w o off lim)
  | _, _, _, _, _, _ => None
  end.
Proof.
  intros H1 H2 H3 S3 H4 S4 H5 S5 S6. unfold p_select. change ("SELECT" =? "SELECT")%string with true. cbv iota.
  rewrite (until_app ["FROM"] cs) by (auto; right; eexists _, _; split; reflexivity).
  cbv beta iota zeta.
  assert (A5 : starts ["OFFSET"; "LIMIT"] (offs ++ lims)).
  { apply starts_app; [|]; eapply starts_more; try eassumption; simpl; tauto. }
  assert (A4 : starts ["ORDER"; "OFFSET"; "LIMIT"] (os ++ offs ++ lims)).
  { apply starts_app; [|]; eapply starts_more; try eassumption; simpl; tauto. }
  assert (A3 : starts clauses4 (ws ++ os ++ offs ++ lims)).
  { apply starts_app; [|]; eapply starts_more; try eassumption; simpl; tauto. }
  fold clauses4. rewrite (until_app clauses4 fs) by assumption. cbv beta iota zeta.
  rewrite (until_app _ ws) by assumption. cbv beta iota zeta.
  rewrite (until_app _ os) by assumption. cbv beta iota zeta.
  rewrite (until_app _ offs) by assumption. cbv beta iota zeta.
  reflexivity.
Qed.

(** * Expressions contain no clause keywords *)

Definition expr_tok (t : tok) : Prop :=
  match t with TKw k => existsb (String.eqb k) ["NOT"; "LIKE"; "ILIKE"; "IN"; "IS"; "NULL"; "AND"; "OR"] = true | _ => True end.
Lemma param_list_toks n ns : Forall expr_tok (param_list n ns).
Proof. revert n; induction ns as [|m ns IH]; intros n; simpl; repeat constructor. apply IH. Qed.
Lemma expr_toks :
  (forall ts e, Prim ts e -> Forall expr_tok ts) /\ (forall ts e, NotE ts e -> Forall expr_tok ts) /\
  (forall ts e, AndE ts e -> Forall expr_tok ts) /\ (forall ts e, OrE ts e -> Forall expr_tok ts).
Proof.
  apply grammar_ind; intros; repeat (apply Forall_app; split); repeat constructor; auto using param_list_toks.
  destruct H; simpl; auto.
Qed.
Lemma parse_free ks ts e : (forall k, In k ks -> In k ["FROM"; "WHERE"; "ORDER"; "OFFSET"; "LIMIT"]) ->
  parse ts = Some e -> free ks ts.
Proof.
  intros Hk H. apply parse_sound in H. apply (proj2 (proj2 (proj2 expr_toks))) in H.
  unfold free. rewrite Forall_forall in *. intros t Ht. specialize (H t Ht).
  destruct (existsb (fun k => is_kw k t) ks) eqn:E; [exfalso|reflexivity].
  apply existsb_exists in E as (k & Hi & E). destruct t as [w| | | | | | | | | | | | | |]; try discriminate.
  simpl in E, H. apply String.eqb_eq in E. subst w. specialize (Hk k Hi). simpl in Hk.
  repeat (destruct Hk as [<-|Hk]; [discriminate|]). exact Hk.
Qed.

(** * Parameters after the ones used *)

Lemma bind_params_app ps qs ns vs : bind_params ps ns = Some vs -> bind_params (ps ++ qs) ns = Some vs.
Proof.
  revert vs; induction ns as [|n ns IH]; intros vs H; [exact H|]. simpl in *.
  destruct n as [|k]; [discriminate|]. destruct (bind_params ps ns) as [vs'|]; [|discriminate].
  rewrite (IH vs' eq_refl). destruct (nth_error ps k) eqn:E; [|discriminate].
  rewrite nth_error_app1 by (apply nth_error_Some; congruence). now rewrite E.
Qed.
Lemma eval_app rho ps qs e v : eval rho ps e = Some v -> eval rho (ps ++ qs) e = Some v.
Proof.
  revert v; induction e as [op c ns|e IH|a IHa b IHb|a IHa b IHb]; intros v H; simpl in *.
  - destruct (bind_params ps ns) eqn:E; [|discriminate]. now rewrite (bind_params_app _ qs _ _ E).
  - destruct (eval rho ps e); [|discriminate]. now rewrite (IH _ eq_refl).
  - destruct (eval rho ps a); [|discriminate]. destruct (eval rho ps b); [|discriminate].
    now rewrite (IHa _ eq_refl), (IHb _ eq_refl).
  - destruct (eval rho ps a); [|discriminate]. destruct (eval rho ps b); [|discriminate].
    now rewrite (IHa _ eq_refl), (IHb _ eq_refl).
Qed.

(** * Columns, tables, joins and orderings *)

(** Well-formed names, and what the corresponding SQL items are. *)
Definition wf_field (d : fdef) : Prop :=
  name (f_name d) = true /\ (f_table d = "" \/ name (f_table d) = true) /\ (f_alias d = "" \/ name (f_alias d) = true).
Definition field_item (d : fdef) : item :=
  mkItem (column d)
    (if is_empty (f_alias d) || (String.eqb (f_alias d) (f_name d) && is_empty (f_table d)) then None else Some (f_alias d)).
Definition wf_table (t : tident) : Prop := qname (t_name t) /\ (t_alias t = "" \/ name (t_alias t) = true).
Definition table_item (t : tident) : item :=
  mkItem (t_name t) (if is_empty (t_alias t) || String.eqb (t_alias t) (t_name t) then None else Some (t_alias t)).
Definition join_word (z : Z) : string := nth (Z.to_nat z) ["INNER"; "LEFT"; "RIGHT"; "FULL"] "".
Definition wf_join (j : joiner) : Prop :=
  wf_table (j_right j) /\ (0 <= j_type j <= 3)%Z /\
  name (f_name (jc_left (j_cond j))) = true /\ name (f_table (jc_left (j_cond j))) = true /\
  name (f_name (jc_right (j_cond j))) = true /\ name (f_table (jc_right (j_cond j))) = true.
Definition join_item (j : joiner) : sjoin :=
  mkSJ (join_word (j_type j)) (table_item (j_right j))
    (f_table (jc_left (j_cond j)) ++ "." ++ f_name (jc_left (j_cond j)))
    (f_table (jc_right (j_cond j)) ++ "." ++ f_name (jc_right (j_cond j))).
Definition wf_sort (o : fsort) : Prop := wf_field (s_def o) /\ (s_dir o = "ASC" \/ s_dir o = "DESC").
Definition sort_item (o : fsort) : string * string :=
  let d := s_def o in
  (if is_empty (f_alias d) || String.eqb (f_alias d) (f_name d) then column d else f_alias d, s_dir o).

Lemma lex_name n : name n = true -> lex n = [TId n].
Proof. intros H. pose proof (lex_qname n "" (qn_plain _ H) eq_refl) as E. now rewrite app_nil_r_s in E. Qed.
Lemma lex_q q : qname q -> lex q = [TId q].
Proof. intros H. pose proof (lex_qname q "" H eq_refl) as E. now rewrite app_nil_r_s in E. Qed.

Lemma wf_column d : wf_field d -> qname (column d).
Proof.
  intros (Hn & Ht & _). unfold column. destruct Ht as [->|Ht]; [now constructor|].
  destruct (is_empty (f_table d)); now constructor.
Qed.

Definition item_toks (i : item) : list tok :=
  TId (it_text i) :: match it_alias i with None => [] | Some a => [TKw "AS"; TId a] end.

Lemma lex_item c a : qname c -> name a = true -> lex (c ++ " AS " ++ a) = [TId c; TKw "AS"; TId a].
Proof.
  intros Hc Ha. change (" AS " ++ a) with (" " ++ ("AS" ++ " " ++ a)). rewrite lex_sp, lex_sp, (lex_q c Hc), (lex_name a Ha).
  reflexivity.
Qed.
Lemma lex_field d : wf_field d -> lex (render_spec d) = item_toks (field_item d).
Proof.
  intros H. pose proof (wf_column d H) as Hc. destruct H as (Hn & Ht & Ha). rewrite spec_text.
  unfold item_toks, field_item; cbn [it_text it_alias].
  assert (E : forall x, (if is_empty (f_table d) then "" else f_table d ++ ".") ++ f_name d ++ x = column d ++ x).
  { intros x. unfold column. destruct (is_empty (f_table d)); [reflexivity|]. now rewrite !app_assoc_s. }
  rewrite E. change str_eqb with String.eqb.
  destruct (is_empty (f_alias d)) eqn:E1; cbn [negb andb orb]; [rewrite app_nil_r_s; now apply lex_q|].
  destruct (String.eqb (f_alias d) (f_name d) && is_empty (f_table d)) eqn:E2.
  - apply andb_true_iff in E2 as [-> ->]. cbn [negb orb]. rewrite app_nil_r_s. now apply lex_q.
  - assert (X : negb (String.eqb (f_alias d) (f_name d)) || negb (is_empty (f_table d)) = true).
    { destruct (String.eqb (f_alias d) (f_name d)), (is_empty (f_table d)); try reflexivity; discriminate. }
    rewrite X. apply lex_item; [exact Hc|]. destruct Ha as [Ha|Ha]; [rewrite Ha in E1; discriminate|exact Ha].
Qed.

Fixpoint sep (l : list (list tok)) : list tok :=
  match l with [] => [] | [x] => x | x :: r => (x ++ TComma :: sep r)%list end.
Lemma lex_commas {A} (f : A -> string) (g : A -> list tok) l : (forall x, In x l -> lex (f x) = g x) ->
  lex (join ", " (map f l)) = sep (map g l).
Proof.
  induction l as [|x [|y l] IH]; intros H; [reflexivity|simpl; apply H; now left|].
  cbn [map]. rewrite join_cons, lex_comma, (H x) by (now left). cbn [map] in IH. rewrite IH by (intros z Hz; apply H; now right).
  reflexivity.
Qed.
Lemma sep_Forall (P : tok -> Prop) l : P TComma -> Forall (Forall P) l -> Forall P (sep l).
Proof.
  intros Hc H. induction H as [|x l Hx Hl IH]; [constructor|]. destruct l as [|y l]; [exact Hx|].
  change (sep (x :: y :: l)) with (x ++ TComma :: sep (y :: l))%list. apply Forall_app. split; [exact Hx|]. now constructor.
Qed.

Lemma p_items_ok l : l <> [] -> p_items (sep (map item_toks l)) = Some l.
Proof.
  induction l as [|x [|y l] IH]; intros H; [congruence| |].
  - destruct x as [c [a|]]; reflexivity.
  - cbn [map] in *. change (sep (item_toks x :: item_toks y :: map item_toks l))
      with (item_toks x ++ TComma :: sep (item_toks y :: map item_toks l))%list.
    specialize (IH ltac:(discriminate)). set (R := sep (item_toks y :: map item_toks l)) in *. clearbody R.
    destruct x as [c [a|]]; unfold item_toks at 1; cbn [it_text it_alias app];
      [change (match p_items R with Some l0 => Some (mkItem c (Some a) :: l0) | None => None end = Some (mkItem c (Some a) :: y :: l))
      |change (match p_items R with Some l0 => Some (mkItem c None :: l0) | None => None end = Some (mkItem c None :: y :: l))];
      rewrite IH; reflexivity.
Qed.

Definition item_tok (t : tok) : Prop := match t with TId _ | TComma => True | TKw k => k = "AS" | _ => False end.
Lemma item_toks_ok i : Forall item_tok (item_toks i).
Proof. destruct i as [c [a|]]; repeat constructor. Qed.
Lemma item_free ks ts : existsb (String.eqb "AS") ks = false -> Forall item_tok ts -> free ks ts.
Proof.
  intros Hk H. unfold free. rewrite Forall_forall in *. intros t Ht. specialize (H t Ht).
  destruct t; simpl in H; try contradiction; try (clear; induction ks as [|k0 ks IH]; [reflexivity|exact IH]).
  subst k. exact Hk.
Qed.
Lemma items_toks_ok l : Forall item_tok (sep (map item_toks l)).
Proof.
  apply sep_Forall; [exact I|]. apply Forall_forall. intros x Hx. apply in_map_iff in Hx as (i & <- & _).
  apply item_toks_ok.
Qed.

Lemma p_cols_items l : l <> [] -> p_cols (sep (map item_toks l)) = Some (Cols l).
Proof.
  intros H. pose proof (p_items_ok l H) as E. pose proof (items_toks_ok l) as F.
  unfold p_cols. destruct (sep (map item_toks l)) as [|t r] eqn:Es; [now rewrite E|].
  inversion F as [|? ? F1 F2]; subst. destruct t; try contradiction; try (now rewrite E).
  destruct r as [|t2 r]; [now rewrite E|]. inversion F2 as [|? ? F3 F4]; subst.
  destruct t2; try contradiction; now rewrite E.
Qed.

(** ** Column lists *)

Definition cols_item (fs : list fdef) : colspec := match fs with [] => Star | _ => Cols (map field_item fs) end.
Lemma cols_ok fs : Forall wf_field fs ->
  p_cols (lex (field_list fs)) = Some (cols_item fs) /\ free ["FROM"] (lex (field_list fs)).
Proof.
  intros H. destruct fs as [|f fs]; [split; [reflexivity|repeat constructor]|].
  unfold field_list, cols_item.
  assert (E : lex (join ", " (map render_spec (f :: fs))) = sep (map item_toks (map field_item (f :: fs)))).
  { rewrite map_map. apply lex_commas. intros x Hx. apply lex_field. rewrite Forall_forall in H. auto. }
  rewrite E. split; [apply p_cols_items; discriminate|].
  apply item_free; [reflexivity|apply items_toks_ok].
Qed.

(** ** Tables and joins *)

Lemma lex_table t : wf_table t -> lex (t_render t) = item_toks (table_item t).
Proof.
  intros [Hn Ha]. unfold t_render, table_item, item_toks; cbn [it_text it_alias]. change str_eqb with String.eqb.
  destruct (is_empty (t_alias t)) eqn:E1; cbn [negb andb orb]; [now apply lex_q|].
  destruct (String.eqb (t_alias t) (t_name t)); cbn [negb]; [now apply lex_q|].
  apply lex_item; [exact Hn|]. destruct Ha as [Ha|Ha]; [rewrite Ha in E1; discriminate|exact Ha].
Qed.

Definition join_toks (j : joiner) : list tok :=
  (TKw (join_word (j_type j)) :: TKw "JOIN" :: item_toks (table_item (j_right j)) ++
   [TKw "ON"; TId (sj_left (join_item j)); TEq; TId (sj_right (join_item j))])%list.

Lemma lex_joiner j : wf_join j -> lex (j_render j) = join_toks j.
Proof.
  intros (Ht & Hj & L1 & L2 & R1 & R2). unfold j_render. rewrite lex_join. unfold join_toks. cbn [flat_map].
  rewrite (lex_table _ Ht).
  assert (E : lex (jt_string (j_type j)) = [TKw (join_word (j_type j)); TKw "JOIN"]).
  { assert (C : (j_type j = 0 \/ j_type j = 1 \/ j_type j = 2 \/ j_type j = 3)%Z) by lia.
    destruct C as [-> | [-> | [-> | ->]]]; reflexivity. }
  rewrite E. clear E.
  assert (E : lex (jc_render (j_cond j)) = [TId (sj_left (join_item j)); TEq; TId (sj_right (join_item j))]).
  { unfold jc_render, render_table_spec. cbn [join_item sj_left sj_right].
    rewrite lex_qname; [|now constructor|reflexivity]. f_equal.
    match goal with |- lex ("=" ++ ?x) = _ => change (lex ("=" ++ x)) with (TEq :: lex x) end.
    f_equal. apply lex_q. now constructor. }
  rewrite E, app_nil_r. reflexivity.
Qed.

Lemma join_word_ok j : wf_join j -> existsb (String.eqb (join_word (j_type j))) ["INNER"; "LEFT"; "RIGHT"; "FULL"] = true.
Proof.
  intros (_ & Hj & _). assert (C : (j_type j = 0 \/ j_type j = 1 \/ j_type j = 2 \/ j_type j = 3)%Z) by lia.
  destruct C as [-> | [-> | [-> | ->]]]; reflexivity.
Qed.

Lemma p_joins_ok js : Forall wf_join js -> p_joins (flat_map join_toks js) = Some (map join_item js).
Proof.
  induction 1 as [|j js Hj _ IH]; [reflexivity|].
  pose proof (join_word_ok j Hj) as Hw. cbn [flat_map map].
  set (R := flat_map join_toks js) in *. clearbody R.
  unfold join_toks, join_item. unfold item_toks, table_item. cbn [it_text it_alias sj_left sj_right sj_table].
  set (k := join_word (j_type j)) in *. clearbody k.
  set (a := if is_empty (t_alias (j_right j)) || _ then None else Some (t_alias (j_right j))).
  destruct a as [a|]; cbn [app p_joins]; rewrite Hw; cbn [andb String.eqb]; cbv beta iota; simpl; rewrite IH; reflexivity.
Qed.

Lemma p_from_ok t js : Forall wf_join js ->
  p_from (item_toks (table_item t) ++ flat_map join_toks js) = Some (table_item t, map join_item js).
Proof.
  intros H. pose proof (p_joins_ok js H) as E. unfold item_toks, table_item in *; cbn [it_text it_alias].
  set (a := if is_empty (t_alias t) || _ then None else Some (t_alias t)).
  destruct a as [a|]; cbn [app].
  - unfold p_from. simpl String.eqb. cbv iota. now rewrite E.
  - destruct js as [|j js]; [reflexivity|].
    assert (K : exists k r, flat_map join_toks (j :: js) = TKw k :: TKw "JOIN" :: r) by (eexists _, _; reflexivity).
    destruct K as (k & r & K). rewrite K in *. unfold p_from. now rewrite E.
Qed.

Definition from_tok (t : tok) : Prop :=
  match t with
  | TId _ | TEq => True
  | TKw k => existsb (String.eqb k) ["AS"; "INNER"; "LEFT"; "RIGHT"; "FULL"; "JOIN"; "ON"] = true
  | _ => False
  end.
Lemma item_from i : Forall from_tok (item_toks i).
Proof. destruct i as [c [a|]]; repeat constructor. Qed.
Lemma joins_from js : Forall wf_join js -> Forall from_tok (flat_map join_toks js).
Proof.
  induction 1 as [|j js Hj _ IH]; [constructor|]. cbn [flat_map]. apply Forall_app. split; [|exact IH].
  unfold join_toks. constructor.
  { cbn [from_tok]. pose proof (join_word_ok j Hj) as Hw. apply existsb_exists in Hw as (k & Hk & E).
    apply String.eqb_eq in E. rewrite E. clear E. simpl in Hk. decompose [or] Hk; subst; try contradiction; reflexivity. }
  constructor; [reflexivity|]. apply Forall_app. split; [apply item_from|]. repeat constructor.
Qed.
Lemma from_free ts : Forall from_tok ts -> free clauses4 ts.
Proof.
  intros H. unfold free. rewrite Forall_forall in *. intros t Ht. specialize (H t Ht).
  destruct t; simpl in H |- *; try contradiction; try reflexivity.
  destruct (String.eqb k "WHERE") eqn:E1; [apply String.eqb_eq in E1; subst; discriminate|].
  destruct (String.eqb k "ORDER") eqn:E2; [apply String.eqb_eq in E2; subst; discriminate|].
  destruct (String.eqb k "OFFSET") eqn:E3; [apply String.eqb_eq in E3; subst; discriminate|].
  destruct (String.eqb k "LIMIT") eqn:E4; [apply String.eqb_eq in E4; subst; discriminate|]. reflexivity.
Qed.

(** ** ORDER BY *)

Definition sort_toks (o : fsort) : list tok := [TId (fst (sort_item o)); TKw (s_dir o)].
Lemma lex_sort o : wf_sort o -> lex (s_render o) = sort_toks o.
Proof.
  intros [Hf Hd]. unfold s_render. rewrite lex_sp. unfold sort_toks.
  assert (Ed : lex (s_dir o) = [TKw (s_dir o)]) by (destruct Hd as [-> | ->]; reflexivity).
  rewrite Ed. assert (E : lex (render_field (s_def o)) = [TId (fst (sort_item o))]).
  { unfold render_field, sort_item; cbn [fst]. change str_eqb with String.eqb.
    pose proof (wf_column _ Hf) as Hc. destruct Hf as (Hn & Ht & Ha).
    destruct (is_empty (f_alias (s_def o))) eqn:E1; cbn [negb andb orb].
    - unfold column in *. destruct (is_empty (f_table (s_def o))); cbn [negb] in *; now apply lex_q.
    - destruct (String.eqb (f_alias (s_def o)) (f_name (s_def o))); cbn [negb].
      + unfold column in *. destruct (is_empty (f_table (s_def o))); cbn [negb] in *; now apply lex_q.
      + apply lex_name. destruct Ha as [Ha|Ha]; [rewrite Ha in E1; discriminate|exact Ha]. }
  rewrite E. reflexivity.
Qed.
Lemma p_sorts_ok os : os <> [] -> Forall wf_sort os -> p_sorts (sep (map sort_toks os)) = Some (map sort_item os).
Proof.
  induction os as [|o [|o2 os] IH]; intros Hn H; [congruence| |]; inversion H as [|? ? H1 H2]; subst.
  - destruct H1 as [_ Hd]. simpl. assert (E : direction (s_dir o) = true) by (destruct Hd as [-> | ->]; reflexivity).
    now rewrite E.
  - specialize (IH ltac:(discriminate) H2). destruct H1 as [_ Hd].
    assert (E : direction (s_dir o) = true) by (destruct Hd as [-> | ->]; reflexivity).
    cbn [map] in *. change (sep (sort_toks o :: sort_toks o2 :: map sort_toks os))
      with (sort_toks o ++ TComma :: sep (sort_toks o2 :: map sort_toks os))%list.
    set (R := sep (sort_toks o2 :: map sort_toks os)) in *. clearbody R. unfold sort_toks at 1. cbn [app].
    change (p_sorts (TId (fst (sort_item o)) :: TKw (s_dir o) :: TComma :: R))
      with (if direction (s_dir o) then match p_sorts R with Some l => Some ((fst (sort_item o), s_dir o) :: l) | None => None end else None).
    rewrite E, IH. reflexivity.
Qed.

Definition order_toks (os : list fsort) : list tok :=
  match os with [] => [] | _ => TKw "ORDER" :: TKw "BY" :: sep (map sort_toks os) end.
Lemma p_order_ok os : Forall wf_sort os -> p_order (order_toks os) = Some (map sort_item os).
Proof.
  intros H. destruct os as [|o os]; [reflexivity|]. unfold order_toks. unfold p_order. simpl String.eqb. cbn [andb].
  apply p_sorts_ok; [discriminate|exact H].
Qed.
Lemma order_free os : Forall wf_sort os -> free ["OFFSET"; "LIMIT"] (order_toks os).
Proof.
  intros H. destruct os as [|o os]; [constructor|]. unfold order_toks. constructor; [reflexivity|]. constructor; [reflexivity|].
  apply sep_Forall; [reflexivity|]. apply Forall_forall. intros x Hx. apply in_map_iff in Hx as (i & <- & Hi).
  rewrite Forall_forall in H. destruct (H i Hi) as [_ Hd]. unfold sort_toks. constructor; [reflexivity|]. constructor; [|constructor].
  destruct Hd as [-> | ->]; reflexivity.
Qed.
Lemma order_starts os : starts ["ORDER"] (order_toks os).
Proof. destruct os; [now left|]. right. eexists _, _. split; reflexivity. Qed.
Lemma lex_order s os : Forall wf_sort os -> lex (s ++ order_clause os) = (lex s ++ order_toks os)%list.
Proof.
  intros H. destruct os as [|o os].
  - simpl. now rewrite app_nil_r_s, app_nil_r.
  - unfold order_clause, order_toks. change (" ORDER BY " ++ join ", " (map s_render (o :: os)))
      with (" " ++ ("ORDER" ++ " " ++ ("BY" ++ " " ++ join ", " (map s_render (o :: os))))).
    rewrite !lex_sp, (lex_commas s_render sort_toks); [reflexivity|]. intros x Hx. apply lex_sort.
    rewrite Forall_forall in H. auto.
Qed.

(** ** OFFSET and LIMIT *)

Definition bound_toks (kw : string) (b : option bound) : list tok :=
  match b with None => [] | Some (BParam n) => [TKw kw; TParam n] | Some (BLit n) => [TKw kw; TNum n] end.
Lemma p_bound_ok kw b : p_bound kw (bound_toks kw b) = Some b.
Proof. destruct b as [[n|n]|]; simpl; rewrite ?String.eqb_refl; reflexivity. Qed.
Lemma bound_starts kw b : starts [kw] (bound_toks kw b).
Proof. destruct b as [[n|n]|]; [right|right|now left]; (eexists _, _; split; [reflexivity|]; simpl; now rewrite String.eqb_refl). Qed.
Lemma bound_free b : free ["LIMIT"] (bound_toks "OFFSET" b).
Proof. destruct b as [[n|n]|]; repeat constructor. Qed.
Lemma lex_bound s kw n : lex kw = [TKw kw] -> lex (s ++ (" " ++ kw ++ " $") ++ itoa n) = (lex s ++ [TKw kw; TParam n])%list.
Proof.
  intros Hk. replace (s ++ (" " ++ kw ++ " $") ++ itoa n) with (s ++ " " ++ (kw ++ " " ++ ("$" ++ itoa n)))
    by (rewrite !app_assoc_s; reflexivity).
  rewrite !lex_sp, Hk. pose proof (lex_param n "" eq_refl) as E. rewrite app_nil_r_s in E. rewrite E. reflexivity.
Qed.

(** ** A whole SELECT *)

Definition where_toks (w : option (list tok)) : list tok := match w with None => [] | Some ts => TKw "WHERE" :: ts end.
Definition where_is (w : option (list tok)) (we : option expr) : Prop :=
  match w, we with None, None => True | Some ts, Some e => parse ts = Some e | _, _ => False end.

Lemma p_select_ok cs c t js w we os off lim :
  p_cols cs = Some c -> free ["FROM"] cs -> Forall wf_join js -> where_is w we -> Forall wf_sort os ->
  p_select (TKw "SELECT" :: cs ++ TKw "FROM" :: (item_toks (table_item t) ++ flat_map join_toks js) ++
            where_toks w ++ order_toks os ++ bound_toks "OFFSET" off ++ bound_toks "LIMIT" lim) =
  Some (mkSel c (table_item t) (map join_item js) we (map sort_item os) off lim).
Proof.
  intros Hc Hf Hj Hw Hs. rewrite p_select_parts; auto.
  - rewrite Hc, p_from_ok, p_order_ok, !p_bound_ok by assumption.
    destruct w as [ts|], we as [e|]; simpl in Hw |- *; try contradiction; [now rewrite Hw|reflexivity].
  - apply from_free. apply Forall_app. split; [apply item_from|now apply joins_from].
  - destruct w as [ts|]; [|constructor]. destruct we as [e|]; [|contradiction]. constructor; [reflexivity|].
    eapply parse_free; [|exact Hw]. simpl; tauto.
  - destruct w as [ts|]; [right; eexists _, _; split; reflexivity|now left].
  - now apply order_free.
  - apply order_starts.
  - apply bound_free.
  - apply bound_starts.
  - apply bound_starts.
Qed.
