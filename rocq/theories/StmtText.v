(** Placeholders in the texts of the statements. *)
From Coq Require Import String Ascii List Bool Arith Lia NArith ZArith.
From Verif Require Import GoStr Value Names Cond Build SqlSpec Spec StrFacts SqlFacts CondFacts CondText CondSem
  TreeFacts CondLogic CondMeaning Built CondThms NameFacts StmtFacts Calls BuildFacts.
Import ListNotations.
Local Open Scope string_scope.
Local Open Scope nat_scope.

(** * Texts without '$' *)

Lemma lacks_join sp l : lacks "$" sp -> Forall (lacks "$") l -> lacks "$" (join sp l).
Proof.
  intros Hs. induction 1 as [|x l Hx Hl IH]; [apply lacks_nil|]. destruct l as [|y l]; [exact Hx|].
  change (join sp (x :: y :: l)) with (x ++ sp ++ join sp (y :: l)). rewrite !lacks_app. auto.
Qed.
Lemma join_snoc sp l x : l <> [] -> join sp (l ++ [x]) = join sp l ++ sp ++ x.
Proof.
  induction l as [|y l IH]; intros H; [congruence|]. destruct l as [|z l]; [reflexivity|]. cbn [app] in *.
  change (join sp (y :: z :: (l ++ [x])%list)) with (y ++ sp ++ join sp (z :: (l ++ [x])%list)).
  change (join sp (y :: z :: l)) with (y ++ sp ++ join sp (z :: l)). rewrite IH by discriminate. now rewrite !app_assoc_s.
Qed.

Definition table_lacks (t : tident) : Prop := lacks "$" (t_name t) /\ lacks "$" (t_alias t).
Definition join_lacks (j : joiner) : Prop :=
  table_lacks (j_right j) /\ def_lacks (jc_left (j_cond j)) /\ def_lacks (jc_right (j_cond j)).
(** the names a base select was given contain no '$' *)
Definition base_lacks (b : bsel) : Prop := Forall def_lacks (b_fields b) /\ table_lacks (b_table b) /\ Forall join_lacks (b_joins b).
Definition sort_lacks (o : fsort) : Prop := def_lacks (s_def o) /\ lacks "$" (s_dir o).

Lemma field_list_lacks fs : Forall def_lacks fs -> lacks "$" (field_list fs).
Proof.
  intros H. unfold field_list. destruct fs; [lacks_const|]. apply lacks_join; [lacks_const|].
  apply Forall_map. eapply Forall_impl; [|exact H]. intros a. apply spec_lacks.
Qed.
Lemma t_render_lacks t : table_lacks t -> lacks "$" (t_render t).
Proof. intros [H1 H2]. unfold t_render. destruct (_ && _); rewrite ?lacks_app; auto. repeat split; auto. lacks_const. Qed.
Lemma digits_lack s : all_chars digit s = true -> lacks "$" s.
Proof.
  induction s as [|c s IH]; simpl; intros H; [apply lacks_nil|]. apply andb_true_iff in H as [H1 H2].
  unfold lacks; simpl. intros [->|H]; [discriminate|]. now apply IH.
Qed.
Lemma itoa_lacks n : lacks "$" (itoa n).
Proof. apply digits_lack, itoa_digits. Qed.
Lemma itoaZ_lacks z : lacks "$" (itoaZ z).
Proof.
  unfold itoaZ. assert (D : forall d, lacks "$" (DecimalString.NilZero.string_of_uint d)).
  { assert (D : forall d, lacks "$" (DecimalString.NilEmpty.string_of_uint d)).
    { induction d; simpl; [apply lacks_nil|..]; (intros [H|H]; [discriminate|]; now apply IHd). }
    intros d. destruct d; try apply D. lacks_const. }
  destruct (Z.to_int z) as [d|d]; [apply D|]. intros [H|H]; [discriminate|]. now apply (D d).
Qed.
Lemma jt_lacks j : lacks "$" (jt_string j).
Proof.
  unfold jt_string. repeat match goal with |- context [if ?b then _ else _] => destruct b; [lacks_const|] end.
  rewrite !lacks_app. repeat split; [lacks_const|apply itoaZ_lacks|lacks_const].
Qed.
Lemma table_spec_lacks d : def_lacks d -> lacks "$" (render_table_spec d).
Proof. intros (H1 & H2 & H3). unfold render_table_spec. rewrite !lacks_app. repeat split; auto; lacks_const. Qed.
Lemma j_render_lacks j : join_lacks j -> lacks "$" (j_render j).
Proof.
  intros (H1 & H2 & H3). unfold j_render. apply lacks_join; [lacks_const|].
  repeat apply Forall_cons; [apply jt_lacks|now apply t_render_lacks|lacks_const| |constructor].
  unfold jc_render. rewrite !lacks_app. repeat split; try now apply table_spec_lacks. lacks_const.
Qed.
Lemma b_tokens_lack b : base_lacks b -> Forall (lacks "$") (b_tokens b).
Proof.
  intros (H1 & H2 & H3). unfold b_tokens. apply Forall_app. split.
  - repeat apply Forall_cons; [lacks_const|now apply field_list_lacks|lacks_const|now apply t_render_lacks|constructor].
  - apply Forall_map. eapply Forall_impl; [|exact H3]. intros a. apply j_render_lacks.
Qed.
Lemma field_lacks d : def_lacks d -> lacks "$" (render_field d).
Proof.
  intros (Hn & Ht & Ha). unfold render_field, GoStr.join.
  repeat match goal with |- context [if ?b then _ else _] => destruct b end; simpl;
    rewrite ?lacks_app; repeat split; auto using lacks_nil; try lacks_const.
Qed.
Lemma order_lacks os : Forall sort_lacks os -> lacks "$" (order_clause os).
Proof.
  intros H. unfold order_clause. destruct os; [apply lacks_nil|]. rewrite lacks_app. split; [lacks_const|].
  apply lacks_join; [lacks_const|]. apply Forall_map. eapply Forall_impl; [|exact H]. intros a [H1 H2].
  unfold s_render. rewrite !lacks_app. repeat split; auto using field_lacks. lacks_const.
Qed.

(** * Conditions that obey the contract *)

Definition contract (c : cond) : Prop := forall l, In l (leaves c) -> leaf_contract l.
Definition written (c : cond) : Prop := built c /\ contract c.

Lemma contract_core l l' : core l = core l' -> leaf_contract l' -> leaf_contract l.
Proof.
  destruct l as [k j n d v], l' as [k' j' n' d' v']. unfold core; cbn. intros [= -> -> -> ->] (vs & E & H).
  exists vs. split; [|exact H]. exact E.
Qed.
Lemma group_and_written g cs r : written (of_g g) -> Forall written cs -> group_and g cs = Ok r -> written (of_g r).
Proof.
  intros [Hb Hc] Hw E.
  assert (Em : m_and (of_g g) cs = Ok (of_g r)) by (destruct g as [j0 n0 l0 b0]; unfold of_g at 1; cbn [m_and g_join g_neg g_cs g_br]; now rewrite E).
  assert (Hbs : forall d, In d cs -> built d) by (intros d Hd; rewrite Forall_forall in Hw; now apply Hw).
  split; [eapply bt_and; eauto|].
  destruct (combined_cores (of_g g) cs (of_g r)) as [_ Hco]; [now apply built_no_nil|now apply built_all_no_nil|now left|].
  intros l Hl. assert (In (core l) (cores (of_g r))) as Hin by (now apply in_map).
  rewrite Hco in Hin. apply in_app_iff in Hin as [Hin|Hin].
  - apply in_map_iff in Hin as (l0 & E0 & Hl0). apply (contract_core l l0); auto.
  - unfold cores_l in Hin. apply in_flat_map in Hin as (c0 & Hc0 & Hin). apply in_map_iff in Hin as (l0 & E0 & Hl0).
    apply (contract_core l l0); auto. rewrite Forall_forall in Hw. now apply (Hw c0).
Qed.
Lemma where_written css : forall g r, written (of_g g) -> Forall written (List.concat css) -> calls group_and g css = Ok r -> written (of_g r).
Proof.
  induction css as [|cs css IH]; intros g r Hg Hw E; simpl in *; [now injection E as <-|].
  apply Forall_app in Hw as [H1 H2]. destruct (group_and g cs) as [g1|] eqn:E1; [|discriminate].
  apply (IH g1 r); auto. now apply (group_and_written g cs).
Qed.
Lemma empty_written : written (of_g empty_group).
Proof. split; [|intros l []]. apply (bt_group AND []); [intros d []|now left|reflexivity]. Qed.

(** * Select *)

Definition ready (g : group) : Prop := g_cs g = [] \/ written (of_g g).
Lemma ready_calls css g : Forall written (List.concat css) -> calls group_and empty_group css = Ok g -> ready g.
Proof. intros H E. right. eapply where_written; eauto. exact empty_written. Qed.

Lemma b_tokens_ne b : b_tokens b <> []. Proof. discriminate. Qed.
Lemma where_join toks w : toks <> [] -> join " " (toks ++ ["WHERE"; w]) = (join " " toks ++ " WHERE ") ++ w.
Proof.
  intros H. change ["WHERE"; w] with (["WHERE"] ++ [w])%list. rewrite app_assoc, !join_snoc.
  - now rewrite !app_assoc_s.
  - exact H.
  - destruct toks; discriminate.
Qed.

Lemma base_text b n : base_lacks b -> ready (b_where b) ->
  exists s s' vs, b_render b n = Ok s /\ b_render_sql b = Ok s' /\ b_values b = Ok vs /\
    (n = 0 -> b_build b = Ok (ok s vs)) /\ dollars s = seq (n + 1) (length vs) /\ qmarks s = s'.
Proof.
  intros Hl Hr. pose proof (lacks_join " " _ ltac:(lacks_const) (b_tokens_lack b Hl)) as HL.
  unfold b_render, b_render_sql, b_values, b_build. destruct (g_cs (b_where b)) as [|c cs] eqn:Eg; cbn [nonempty].
  - exists (join " " (b_tokens b)), (join " " (b_tokens b)), []. repeat (split; [reflexivity|]).
    rewrite <- (app_nil_r_s (join " " (b_tokens b))). rewrite dollars_lacks, qmarks_lacks by exact HL.
    split; reflexivity.
  - destruct Hr as [Hr|[Hb Hc]]; [congruence|].
    destruct (built_text _ Hb Hc n) as (w & w' & vs & E1 & E2 & E3 & D & Q). rewrite E1, E2, E3. cbn [bind].
    eexists _, _, vs. repeat (split; [reflexivity|]). split; [intros ->; rewrite E1; reflexivity|].
    rewrite !where_join by apply b_tokens_ne.
    assert (HL' : lacks "$" (join " " (b_tokens b) ++ " WHERE ")) by (rewrite lacks_app; split; [exact HL|lacks_const]).
    rewrite dollars_lacks, qmarks_lacks by exact HL'. now rewrite Q.
Qed.

Lemma seq_snoc a n : (seq a n ++ [a + n] = seq a (n + 1))%list.
Proof. rewrite seq_app. reflexivity. Qed.
Lemma bound_dollars s (w : string) n k : dollars s = seq 1 k -> n = S k -> lacks "$" w -> nd w = true ->
  dollars (s ++ w ++ "$" ++ itoa n) = seq 1 (k + 1).
Proof.
  intros H -> Hw Hn. rewrite dollars_app.
  - rewrite H, dollars_lacks by exact Hw. change ("$" ++ itoa (S k)) with (dollar (S k)). rewrite dollars_dollar. apply seq_snoc.
  - destruct w; [reflexivity|exact Hn].
Qed.

Lemma many_text m : base_lacks (m_base m) -> ready (b_where (m_base m)) -> Forall sort_lacks (m_order m) ->
  exists s ps, m_build m = Ok (ok s ps) /\ dollars s = seq 1 (length ps).
Proof.
  intros Hl Hr Ho. destruct (base_text (m_base m) 0 Hl Hr) as (s & s' & vs & _ & _ & _ & Eb & D & _).
  unfold m_build. rewrite (Eb eq_refl). cbn [bind ok o_sql o_params]. cbn [Nat.add] in D.
  assert (D1 : dollars (s ++ order_clause (m_order m)) = seq 1 (length vs)).
  { pose proof (order_lacks _ Ho) as L. rewrite dollars_app.
    - rewrite <- (app_nil_r_s (order_clause _)), dollars_lacks by exact L. rewrite D. simpl. now rewrite app_nil_r.
    - unfold order_clause. now destruct (m_order m). }
  generalize dependent (s ++ order_clause (m_order m)). intros s1 D1.
  destruct (0 <? m_offset m)%N, (0 <? m_limit m)%Z; (eexists _, _; split; [reflexivity|]); rewrite ?app_length; cbn [length].
  - change (" LIMIT $" ++ ?x) with (" LIMIT " ++ "$" ++ x). apply bound_dollars; [|lia|lacks_const|reflexivity].
    change (" OFFSET $" ++ ?x) with (" OFFSET " ++ "$" ++ x). apply bound_dollars; [exact D1|lia|lacks_const|reflexivity].
  - change (" OFFSET $" ++ ?x) with (" OFFSET " ++ "$" ++ x). apply bound_dollars; [exact D1|lia|lacks_const|reflexivity].
  - change (" LIMIT $" ++ ?x) with (" LIMIT " ++ "$" ++ x). apply bound_dollars; [exact D1|lia|lacks_const|reflexivity].
  - exact D1.
Qed.

Lemma single_text q : base_lacks (ss_base q) -> ready (b_where (ss_base q)) ->
  exists s ps, ss_build q = Ok (ok s ps) /\ dollars s = seq 1 (length ps).
Proof.
  intros Hl Hr. destruct (base_text (ss_base q) 0 Hl Hr) as (s & s' & vs & _ & _ & _ & Eb & D & _).
  unfold ss_build. rewrite (Eb eq_refl). cbn [bind ok o_sql o_params]. eexists _, vs. split; [reflexivity|].
  rewrite dollars_app by reflexivity. rewrite D. change (dollars " LIMIT 1") with (@nil nat). now rewrite app_nil_r.
Qed.

Lemma count_text q : base_lacks (cs_base q) -> ready (b_where (cs_base q)) -> def_lacks (cs_field q) ->
  exists s ps, cs_build q = Ok (ok s ps) /\ dollars s = seq 1 (length ps).
Proof.
  intros Hl Hr Hf. unfold cs_build.
  set (toks := [op_string DoSelect; "COUNT" ++ "(" ++ render_field (cs_field q) ++ ")"; "FROM"; b_render_from (cs_base q)]).
  assert (HL : lacks "$" (join " " toks)).
  { apply lacks_join; [lacks_const|]. repeat apply Forall_cons; [lacks_const| |lacks_const| |constructor].
    - rewrite !lacks_app. repeat split; try lacks_const. now apply field_lacks.
    - destruct Hl as (_ & H2 & H3). unfold b_render_from. apply lacks_join; [lacks_const|]. constructor; [now apply t_render_lacks|].
      apply Forall_map. eapply Forall_impl; [|exact H3]. intros a. apply j_render_lacks. }
  assert (Hne : toks <> []) by discriminate. clearbody toks.
  destruct (g_cs (b_where (cs_base q))) as [|c cs] eqn:Eg; cbn [nonempty].
  - eexists _, []. split; [reflexivity|]. rewrite <- (app_nil_r_s (join " " toks)), dollars_lacks by exact HL. reflexivity.
  - destruct Hr as [Hr|[Hb Hc]]; [congruence|]. destruct (built_text _ Hb Hc 0) as (w & w' & vs & E1 & E2 & E3 & D & Q).
    rewrite E1, E3. cbn [bind]. eexists _, vs. split; [reflexivity|]. rewrite where_join by exact Hne.
    rewrite dollars_lacks; [exact D|]. rewrite lacks_app. split; [exact HL|lacks_const].
Qed.

(** * Insert, update, delete *)

Lemma commas_sp_dollars l : dollars (String.concat ", " (map dollar l) ++ ")") = l.
Proof.
  induction l as [|a [|b l] IH]; [reflexivity| |].
  - cbn [map String.concat]. rewrite dollars_app by reflexivity. now rewrite dollars_dollar.
  - change (String.concat ", " (map dollar (a :: b :: l)))
      with (dollar a ++ ", " ++ String.concat ", " (map dollar (b :: l))).
    rewrite !app_assoc_s, dollars_app by reflexivity.
    rewrite dollars_dollar, dollars_lacks, IH by lacks_const. reflexivity.
Qed.

(** the numbers of an insert statement, for any values *)
Fixpoint ends_at (k : nat) (lens : list nat) : list nat :=
  match lens with [] => [] | n :: r => (k + n) :: ends_at (k + n) r end.
Lemma ins_loop_any fvs : forall vss ps, Forall2 (fun fv vs => fv_values (fv_val fv) = Ok vs) fvs vss ->
  ins_loop ps fvs = Ok (col_names fvs, map dollar (ends_at (length ps) (map (@length _) vss)), (ps ++ List.concat vss)%list).
Proof.
  induction fvs as [|fv fvs IH]; intros vss ps H; inversion H as [|? vs ? vss' H1 H2]; subst; simpl; [now rewrite app_nil_r|].
  rewrite H1. cbn [bind]. rewrite (IH _ _ H2). cbn [bind]. rewrite app_length, <- app_assoc. reflexivity.
Qed.
Lemma insert_text i vss : i_values i <> [] -> i_table i <> "" -> Forall2 (fun fv vs => fv_values (fv_val fv) = Ok vs) (i_values i) vss ->
  lacks "$" (i_table i) -> Forall (lacks "$") (col_names (i_values i)) ->
  exists s, i_build i = Ok (ok s (List.concat vss)) /\ dollars s = ends_at 0 (map (@length _) vss).
Proof.
  intros Hv Ht H Hl Hc. unfold i_build. destruct (i_values i) as [|fv fvs] eqn:Ev; [congruence|]. cbn [nonempty negb].
  rewrite <- Ev in *. replace (is_empty (i_table i)) with false by (destruct (i_table i); [congruence|reflexivity]).
  rewrite (ins_loop_any _ _ [] H). cbn [bind length app]. eexists. split; [reflexivity|].
  change (join " " ["INSERT"; "INTO"; i_table i ++ "(" ++ join ", " (col_names (i_values i)) ++ ")"; "VALUES";
      "(" ++ join ", " (map dollar (ends_at 0 (map (@length _) vss))) ++ ")"])
    with ("INSERT INTO " ++ (i_table i ++ "(" ++ join ", " (col_names (i_values i)) ++ ")") ++ " VALUES (" ++
          join ", " (map dollar (ends_at 0 (map (@length _) vss))) ++ ")").
  rewrite dollars_lacks by lacks_const. rewrite dollars_lacks.
  - rewrite dollars_lacks by lacks_const. apply commas_sp_dollars.
  - rewrite !lacks_app. repeat split; auto; try lacks_const. apply lacks_join; [lacks_const|exact Hc].
Qed.

Lemma sets_dollars cols ns w : Forall (lacks "$") cols -> length ns = length cols -> nd w = true ->
  dollars (join ", " (map (fun p => fst p ++ "=" ++ dollar (snd p)) (combine cols ns)) ++ w) = (ns ++ dollars w)%list.
Proof.
  intros Hc Hl Hw. revert ns Hl. induction Hc as [|c cols Hc _ IH]; intros [|n ns] Hl; try discriminate; [reflexivity|].
  assert (D : forall x, nd x = true -> dollars ((c ++ "=" ++ dollar n) ++ x) = n :: dollars x).
  { intros x Hx. rewrite !app_assoc_s, dollars_lacks by exact Hc. rewrite (dollars_lacks "=") by lacks_const.
    rewrite dollars_app by exact Hx. now rewrite dollars_dollar. }
  destruct cols as [|c2 cols], ns as [|n2 ns]; try discriminate.
  - cbn [combine map join String.concat fst snd]. now rewrite D.
  - specialize (IH (n2 :: ns) ltac:(simpl in *; lia)).
    set (f := fun p : string * nat => fst p ++ "=" ++ dollar (snd p)) in *.
    change (join ", " (map f (combine (c :: c2 :: cols) (n :: n2 :: ns))))
      with ((c ++ "=" ++ dollar n) ++ ", " ++ join ", " (map f (combine (c2 :: cols) (n2 :: ns)))).
    rewrite (app_assoc_s (c ++ "=" ++ dollar n)), D by reflexivity.
    rewrite app_assoc_s, (dollars_lacks ", ") by lacks_const. rewrite IH. reflexivity.
Qed.

Lemma update_text u vs : u_values u <> [] -> u_table u <> "" -> g_cs (u_where u) <> [] -> mapM first_value (u_values u) = Ok vs ->
  lacks "$" (u_table u) -> Forall (lacks "$") (col_names (u_values u)) -> written (of_g (u_where u)) ->
  exists s ws, u_build u = Ok (ok s (vs ++ ws)%list) /\ dollars s = seq 1 (length vs + length ws).
Proof.
  intros Hv Ht Hg H Hl Hc [Hb Hcn]. unfold u_build.
  replace (nonempty (g_cs (u_where u))) with true by (destruct (g_cs (u_where u)); [congruence|reflexivity]).
  replace (nonempty (u_values u)) with true by (destruct (u_values u); [congruence|reflexivity]).
  replace (is_empty (u_table u)) with false by (destruct (u_table u); [congruence|reflexivity]). cbn [negb].
  unfold fields_and_values. rewrite H. cbn [bind].
  destruct (built_text _ Hb Hcn (length vs)) as (w & w' & ws & E1 & E2 & E3 & D & Q). rewrite E1, E3. cbn [bind].
  eexists _, ws. split; [reflexivity|]. rewrite (combine_sets (fun fv => f_name (fv_def fv))). cbn [Nat.add].
  assert (L : length (u_values u) = length vs).
  { clear -H. revert vs H. induction (u_values u) as [|x l IH]; intros vs H; simpl in H; [now injection H as <-|].
    destruct (first_value x); [|discriminate]. simpl in H. destruct (mapM first_value l) as [l'|]; [|discriminate]. injection H as <-.
    simpl. now rewrite (IH l'). }
  set (sets := join ", " _).
  change (join " " ["UPDATE"; u_table u; "SET"; sets; "WHERE"; w]) with ("UPDATE " ++ u_table u ++ " SET " ++ sets ++ " WHERE " ++ w).
  rewrite dollars_lacks by lacks_const. rewrite dollars_lacks by exact Hl. rewrite dollars_lacks by lacks_const.
  unfold sets. rewrite sets_dollars; [|exact Hc|unfold col_names; now rewrite seq_length, map_length|reflexivity].
  rewrite dollars_lacks by lacks_const. rewrite D, L, seq_app. f_equal. f_equal. lia.
Qed.

Lemma delete_text d : d_table d <> "" -> g_cs (d_where d) <> [] -> lacks "$" (d_table d) -> written (of_g (d_where d)) ->
  exists s ws, d_build d = Ok (ok s ws) /\ dollars s = seq 1 (length ws).
Proof.
  intros Ht Hg Hl [Hb Hcn]. unfold d_build.
  replace (nonempty (g_cs (d_where d))) with true by (destruct (g_cs (d_where d)); [congruence|reflexivity]).
  replace (is_empty (d_table d)) with false by (destruct (d_table d); [congruence|reflexivity]). cbn [negb].
  destruct (built_text _ Hb Hcn 0) as (w & w' & ws & E1 & E2 & E3 & D & Q). rewrite E1, E3. cbn [bind].
  eexists _, ws. split; [reflexivity|].
  change (join " " ["DELETE"; "FROM"; d_table d; "WHERE"; w]) with ("DELETE FROM " ++ d_table d ++ " WHERE " ++ w).
  rewrite dollars_lacks by lacks_const. rewrite dollars_lacks by exact Hl. rewrite dollars_lacks by lacks_const. exact D.
Qed.
