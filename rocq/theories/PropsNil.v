(** C94: conditions that are nil. *)
From Coq Require Import String Ascii List Bool Arith NArith ZArith Lia.
From Verif Require Import GoStr Value Names Cond Build Surface Spec Calls StrFacts SqlSpec SqlFacts CondFacts CondText CondSem TreeFacts CondLogic CondMeaning Built CondThms PropsCond BuildFacts.
Import ListNotations.
Local Open Scope string_scope.
Local Open Scope nat_scope.

(** * C94 A nil condition is never lost *)

(** nil occurs in the condition, at any depth *)
Inductive holds_nil : cond -> Prop :=
| hn_nil : holds_nil CNil
| hn_in c j n cs br : In c cs -> holds_nil c -> holds_nil (CGrp j n cs br).

Lemma hn_grp j n cs br : holds_nil (CGrp j n cs br) <-> Exists holds_nil cs.
Proof.
  rewrite Exists_exists. split.
  - intros H. inversion H; subst. eauto.
  - intros (c & Hi & Hc). econstructor; eauto.
Qed.
Lemma hn_leaf l : ~ holds_nil (CLeaf l).
Proof. intros H. inversion H. Qed.
Lemma hn_of_g g : holds_nil (of_g g) <-> Exists holds_nil (g_cs g).
Proof. apply hn_grp. Qed.
Lemma as_group_of c g : as_group c = Some g -> c = of_g g.
Proof. destruct c; try discriminate. now intros [= <-]. Qed.

Lemma join_nil j c r : c_join j c = Ok r -> (holds_nil r <-> holds_nil c).
Proof.
  destruct c; simpl; [discriminate| |]; intros [= <-].
  - split; intros H; inversion H.
  - now rewrite !hn_grp.
Qed.
Lemma mapM_nil (f : cond -> res cond) cs rs : (forall c r, In c cs -> f c = Ok r -> (holds_nil r <-> holds_nil c)) -> mapM f cs = Ok rs ->
  (Exists holds_nil rs <-> Exists holds_nil cs).
Proof.
  intros Hf H. apply mapM_Ok in H. induction H as [|c r cs rs Hc H IH]; [tauto|].
  rewrite !Exists_cons, IH by (intros; apply Hf; [now right|assumption]). rewrite (Hf c r); [tauto|now left|exact Hc].
Qed.
Lemma new_group_nil j cs g : new_group j cs = Ok g -> (Exists holds_nil (g_cs g) <-> Exists holds_nil cs).
Proof.
  unfold new_group. intros E. apply bind_inv in E as (rs & E & [= <-]). cbn [g_cs]. eapply mapM_nil; [|exact E].
  intros. eapply join_nil; eauto.
Qed.

Ltac nils := repeat (rewrite ?Exists_app, ?Exists_cons, ?Exists_nil, ?hn_of_g; cbn [g_cs set_cs set_join with_brackets app]);
  repeat match goal with
  | H : c_join _ _ = Ok ?x |- context [holds_nil ?x] => rewrite (join_nil _ _ _ H); clear H; rewrite ?hn_of_g; cbn [g_cs with_brackets]
  | H : new_group _ _ = Ok ?x |- context [Exists holds_nil (g_cs ?x)] => rewrite (new_group_nil _ _ _ H); clear H
  end.
Lemma add_group_nil g a r : add_group g a = Ok r -> (Exists holds_nil (g_cs r) <-> Exists holds_nil (g_cs g) \/ Exists holds_nil (g_cs a)).
Proof.
  intros E. unfold add_group in E. cbv zeta in E. destruct (length (g_cs g) =? 0) eqn:E0.
  - apply Nat.eqb_eq, length_zero_iff_nil in E0. unbind; nils; rewrite E0, Exists_nil; tauto.
  - unbind; nils; tauto.
Qed.
Lemma add_single_nil g c r : add_single g c = Ok r -> (Exists holds_nil (g_cs r) <-> Exists holds_nil (g_cs g) \/ holds_nil c).
Proof.
  intros E. unfold add_single in E. destruct (as_group c) as [a|] eqn:Ea.
  - unbind. rewrite (add_group_nil _ _ _ E). apply as_group_of in Ea as ->. now rewrite hn_of_g.
  - cbv zeta in E. unbind; nils; tauto.
Qed.
Lemma add_conditions_nil op g cs r : add_conditions op g cs = Ok r -> (Exists holds_nil (g_cs r) <-> Exists holds_nil (g_cs g) \/ Exists holds_nil cs).
Proof.
  intros E. unfold add_conditions in E. unbind. destruct cs as [|c cs]; [injection E as <-; rewrite Exists_nil; tauto|].
  assert (D : g_cs g = [] \/ g_cs g <> []) by (destruct (g_cs g); [now left|right; discriminate]). destruct D as [D|D].
  - rewrite D in E. injection E as <-. cbn [g_cs set_join set_cs]. rewrite D, Exists_nil. tauto.
  - destruct (g_cs g) as [|y ys] eqn:Eg in E; [congruence|]. rewrite <- ?Eg in E. destruct cs as [|c2 cs].
    + apply bind_inv in E as (c' & Ec & E). rewrite (add_single_nil _ _ _ E), (join_nil _ _ _ Ec), Exists_cons, Exists_nil. tauto.
    + unbind; nils; rewrite ?Exists_cons; tauto.
Qed.

(** rendering panics exactly because of nil or of a value *)
Lemma render_nil c : holds_nil c -> (forall n, c_render c n = Panic) /\ c_values c = Panic /\ c_render_sql c = Panic.
Proof.
  induction c as [|l|j ng cs br IH] using cond_ind'; intros H.
  - now repeat split.
  - now apply hn_leaf in H.
  - apply hn_grp in H. assert (Hne : cs <> []) by (intros ->; inversion H).
    assert (A : (forall f n, render_list f cs n = Panic) /\ mapM c_values cs = Panic /\ forall f, render_sql_list f cs = Panic).
    { clear Hne. induction cs as [|c cs IHcs]; [inversion H|]. inversion IH as [|? ? Hc Hcs]; subst. cbn [render_list mapM render_sql_list].
      apply Exists_cons in H as [H|H].
      - destruct (Hc H) as (R & V & S). rewrite V, S. repeat split; intros.
        + destruct (jtype c); [|reflexivity]. cbn [bind]. now rewrite R.
        + now destruct (jtype c).
      - destruct (IHcs Hcs H) as (R & V & S). rewrite V. repeat split; intros.
        + destruct (jtype c); [|reflexivity]. cbn [bind]. destruct (c_render c n); [|reflexivity]. cbn [bind].
          destruct (c_values c); [|reflexivity]. cbn [bind]. now rewrite R.
        + now destruct (c_values c).
        + destruct (jtype c); [|reflexivity]. cbn [bind]. destruct (c_render_sql c); [|reflexivity]. cbn [bind]. now rewrite S. }
    destruct A as (R & V & S). repeat split.
    + intros n. rewrite c_render_grp. destruct cs; [congruence|]. now rewrite R.
    + now rewrite c_values_grp, V.
    + rewrite c_render_sql_grp. destruct cs; [congruence|]. now rewrite S.
Qed.

(** Combining keeps it: the result of And, Or (functions and methods), GroupAND, GroupOR, NewGroup, Not, Join, Negate and
    ApplyField* holds nil exactly if one of the operands does. *)
Theorem C94_kept :
  (forall c cs r, and_ c cs = Ok r \/ or_ c cs = Ok r \/ m_and c cs = Ok r \/ m_or c cs = Ok r ->
     (holds_nil r <-> holds_nil c \/ Exists holds_nil cs)) /\
  (forall j cs g, new_group j cs = Ok g -> (holds_nil (of_g g) <-> Exists holds_nil cs)) /\
  (forall g cs r, group_and g cs = Ok r \/ group_or g cs = Ok r -> (holds_nil (of_g r) <-> holds_nil (of_g g) \/ Exists holds_nil cs)) /\
  (forall c r, not_ c = Ok r \/ (exists b, c_negate b c = Ok r) \/ (exists j, c_join j c = Ok r) \/
     (exists s, c_apply_spec s c = Ok r) \/ (exists t, c_apply_table t c = Ok r) -> (holds_nil r <-> holds_nil c)).
Proof.
  assert (G : forall j c cs g r, new_group j [c] = Ok g -> add_conditions AND g cs = Ok r \/ add_conditions OR g cs = Ok r ->
    (holds_nil (of_g r) <-> holds_nil c \/ Exists holds_nil cs)).
  { intros j c cs g r E H. rewrite hn_of_g. destruct H as [H|H]; rewrite (add_conditions_nil _ _ _ _ H), (new_group_nil _ _ _ E), Exists_cons, Exists_nil; tauto. }
  assert (S : forall c g, as_group c = Some g -> (holds_nil c <-> Exists holds_nil (g_cs g))).
  { intros c g E. apply as_group_of in E as ->. apply hn_of_g. }
  assert (A : forall c cs r, and_ c cs = Ok r -> (holds_nil r <-> holds_nil c \/ Exists holds_nil cs)).
  { intros c cs r E. destruct cs as [|d cs]; [cbn in E; rewrite (join_nil _ _ _ E), Exists_nil; tauto|]. unfold and_ in E.
    destruct (as_group c) as [g|] eqn:Eg; unbind.
    - rewrite hn_of_g, (S c g Eg). eapply add_conditions_nil; eassumption.
    - eapply G; eauto. }
  assert (O : forall c cs r, or_ c cs = Ok r -> (holds_nil r <-> holds_nil c \/ Exists holds_nil cs)).
  { intros c cs r E. destruct cs as [|d cs]; [cbn in E; rewrite (join_nil _ _ _ E), Exists_nil; tauto|]. unfold or_, jt_join in E.
    destruct (as_group c) as [g|] eqn:Eg; unbind; rewrite (join_nil _ _ _ E).
    - rewrite hn_of_g, (S c g Eg). eapply add_conditions_nil; eassumption.
    - eapply G; eauto. }
  split; [|split; [|split]].
  - intros c cs r [E|[E|[E|E]]]; [now apply A|now apply O| |].
    + destruct c as [|l|j n k br]; [discriminate| |].
      * cbn [m_and] in E. destruct (l_kind l); try (now apply A); unbind; eapply G; eauto.
      * cbn [m_and] in E. unbind. rewrite hn_of_g, hn_grp. now apply (add_conditions_nil AND) in H.
    + destruct c as [|l|j n k br]; [discriminate| |].
      * cbn [m_or] in E. destruct (l_kind l); try (now apply O); unbind; (discriminate || (eapply G; eauto)).
      * cbn [m_or] in E. unbind. rewrite hn_of_g, hn_grp. now apply (add_conditions_nil OR) in H.
  - intros j cs g E. rewrite hn_of_g. eapply new_group_nil; eauto.
  - intros g cs r [E|E]; rewrite !hn_of_g; eapply add_conditions_nil; eauto.
  - assert (N : forall b c r, c_negate b c = Ok r -> (holds_nil r <-> holds_nil c)).
    { intros b c r. destruct c; simpl; [discriminate| |]; intros [= <-]; [split; intros H; inversion H|now rewrite !hn_grp]. }
    intros c r [E|[[b E]|[[j E]|[[s E]|[t E]]]]].
    + eapply N; eauto.
    + eapply N; eauto.
    + eapply join_nil; eauto.
    + revert r E. induction c as [|l|j n cs br IH] using cond_ind'; intros r E; [discriminate| |].
      * injection E as <-. split; intros H; inversion H.
      * rewrite c_apply_spec_grp in E. unbind. rewrite !hn_grp. eapply mapM_nil; [|eassumption]. rewrite Forall_forall in IH. eauto.
    + revert r E. induction c as [|l|j n cs br IH] using cond_ind'; intros r E; [discriminate| |].
      * injection E as <-. split; intros H; inversion H.
      * rewrite c_apply_table_grp in E. unbind. rewrite !hn_grp. eapply mapM_nil; [|eassumption]. rewrite Forall_forall in IH. eauto.
Qed.
Print Assumptions C94_kept.
Example C94_kept_example : exists g r, new_group OR [eqc "a" 1; eqc "b" 2] = Ok g /\ group_and g [eqc "c" 3; CNil] = Ok r /\ holds_nil (of_g r).
Proof. do 2 eexists. split; [reflexivity|]. split; [reflexivity|]. econstructor; [|constructor]. simpl. auto. Qed.

(** So no statement comes of it: after any history in which nil was given to Where, alone or inside another condition, the
    build does not return a statement. *)
Lemma where_nil css : forall g r, calls group_and g css = Ok r ->
  (Exists holds_nil (g_cs r) <-> Exists holds_nil (g_cs g) \/ Exists holds_nil (List.concat css)).
Proof.
  induction css as [|cs css IH]; intros g r E; simpl in *; [injection E as <-; rewrite Exists_nil; tauto|].
  destruct (group_and g cs) as [g1|] eqn:E1; [|discriminate]. rewrite (IH g1 r E), (add_conditions_nil _ _ _ _ E1), Exists_app. tauto.
Qed.
Lemma where_panics g : Exists holds_nil (g_cs g) -> nonempty (g_cs g) = true /\ (forall n, c_render (of_g g) n = Panic) /\
  c_render_sql (of_g g) = Panic /\ c_values (of_g g) = Panic.
Proof.
  intros H. split; [now destruct H|]. apply hn_of_g in H. apply render_nil in H as (A & B & C). auto.
Qed.

(** nil was given to Where *)
Definition given_nil (css : list (list cond)) : Prop := exists c, In c (List.concat css) /\ holds_nil c.

Theorem C94_statement :
  (forall p b h b', select_from p = Ok b -> calls b_call b h = Ok b' -> given_nil (flat_map bc_where h) ->
     b_build b' = Panic /\ b_render_sql b' = Panic /\ (forall n, b_render b' n = Panic) /\ b_values b' = Panic /\ b_string b' = Panic /\
     forall f, cs_build (mkCS b' f) = Panic) /\
  (forall p m h m', select_many_from p = Ok m -> calls m_call m h = Ok m' -> given_nil (flat_map mc_where h) -> m_build m' = Panic) /\
  (forall p q h q', select_single_from p = Ok q -> Forall no_fields h -> calls s_call q h = Ok q' -> given_nil (flat_map sc_where h) ->
     ss_build q' = Panic) /\
  (forall p h u, calls u_call (update_ p) h = Ok u -> given_nil (flat_map uc_where h) ->
     forall s ps, u_build u <> Ok (mkOut s ps None)) /\
  (forall p h d, calls d_add_where (delete_ p) h = Ok d -> given_nil h -> forall s ps, d_build d <> Ok (mkOut s ps None)).
Proof.
  assert (W : forall css g, calls group_and empty_group css = Ok g -> given_nil css -> nonempty (g_cs g) = true /\ (forall n, c_render (of_g g) n = Panic) /\
    c_render_sql (of_g g) = Panic /\ c_values (of_g g) = Panic).
  { intros css g E (c & Hi & Hc). apply where_panics. apply (where_nil _ _ _ E). right. apply Exists_exists. eauto. }
  assert (B : forall b t fs js css, b_is b t fs js css -> given_nil css -> b_build b = Panic).
  { intros b t fs js css (_ & _ & _ & _ & E) H. destruct (W _ _ E H) as (E1 & E2 & _). unfold b_build. now rewrite E1, E2. }
  split; [|split; [|split; [|split]]].
  - intros p b h b' E Eh H. apply select_from_is in E as (t & _ & Hb). pose proof (b_calls_is _ _ _ _ _ _ _ Hb Eh) as Hb'. simpl in Hb'.
    split; [eapply B; eauto|]. destruct Hb' as (_ & _ & _ & _ & E). destruct (W _ _ E H) as (E1 & E2 & E3 & E4).
    unfold b_render_sql, b_render, b_values, cs_build, b_string, w_string, w_render_sql. cbn [cs_base]. rewrite E1, E3, E4.
    repeat split; intros; now rewrite ?E2.
  - intros p m h m' E Eh H. unfold select_many_from in E. apply bind_inv in E as (b & E & [= <-]). apply select_from_is in E as (t & _ & Hb).
    assert (Hm : m_is (many_of b) t [] [] [] [] 0%N (-1)%Z) by (repeat split; auto; apply Hb).
    pose proof (m_calls_is _ _ _ _ _ _ _ _ _ _ Hm Eh) as [Hb' _]. unfold m_build. now rewrite (B _ _ _ _ _ Hb' H).
  - intros p q h q' E Hn Eh H. unfold select_single_from in E. apply bind_inv in E as (b & E & [= <-]). apply select_from_is in E as (t & _ & Hb).
    pose proof (s_calls_is _ (single_of b) _ _ _ _ _ Hn Hb Eh) as Hb'. unfold ss_build. now rewrite (B _ _ _ _ _ Hb' H).
  - intros p h u Eh H s ps Eb. destruct (u_calls_is _ (update_ p) _ [] eq_refl Eh) as (_ & _ & _ & E). simpl in E.
    destruct (W _ _ E H) as (E1 & E2 & _). unfold u_build in Eb. rewrite E1 in Eb. cbn [negb] in Eb.
    destruct (nonempty (u_values u)); [|discriminate]. cbn [negb] in Eb. destruct (is_empty (u_table u)); [discriminate|].
    apply bind_inv in Eb as ([x y] & _ & Eb). rewrite E2 in Eb. discriminate.
  - intros p h d Eh H s ps Eb. destruct (d_calls_is _ (delete_ p) _ [] eq_refl Eh) as (_ & _ & E). simpl in E.
    destruct (W _ _ E H) as (E1 & E2 & _). unfold d_build in Eb. rewrite E1 in Eb. cbn [negb] in Eb.
    destruct (is_empty (d_table d)); [discriminate|]. rewrite E2 in Eb. discriminate.
Qed.
Print Assumptions C94_statement.
Example C94_statement_example :
  (exists d, calls d_add_where (delete_ (TPName "t")) [[CNil; eqc "a" 1]; [eqc "b" 2]] = Ok d /\ d_build d = Panic) /\
  (exists b0 b, select_from (TPName "t") = Ok b0 /\ calls b_call b0 [BWhere [CGrp AND true [eqc "a" 1; CNil] false]] = Ok b /\ b_build b = Panic).
Proof. split; [eexists|do 2 eexists]; repeat (split; [reflexivity|]); reflexivity. Qed.

(** When the call itself panics: for a group without nil, nil among the conditions given is refused at once, except if the group
    is empty or if several conditions are added by And to a group joined by OR somewhere: these take nil and panic when
    rendered. *)
Lemma one_join_iff j cs : Forall (fun c => c <> CNil) cs ->
  exists b, one_join j cs = Ok b /\ (b = true <-> exists c, In c cs /\ jtype c = Ok j).
Proof.
  induction 1 as [|c cs Hc Hcs (b & E & IH)]; cbn [one_join].
  - exists false. split; [reflexivity|]. split; [discriminate|intros (c & [] & _)].
  - assert (exists t, jtype c = Ok t) as (t & Et) by (destruct c; [congruence|simpl; eauto|simpl; eauto]). rewrite Et. cbn [bind].
    unfold str_eqb. destruct (String.eqb_spec t j) as [->|N].
    + exists true. split; [reflexivity|]. split; [|reflexivity]. intros _. exists c. split; [now left|exact Et].
    + exists b. split; [exact E|]. rewrite IH. split; intros (d & Hi & Hd); [exists d; split; [now right|exact Hd]|].
      destruct Hi as [<-|Hi]; [congruence|eauto].
Qed.
Lemma mapM_join_nil j cs : mapM (c_join j) cs = Panic <-> In CNil cs.
Proof.
  induction cs as [|c cs IH]; cbn [mapM]; [split; [discriminate|intros []]|]. destruct c; cbn [c_join bind].
  - split; [now left|reflexivity].
  - destruct (mapM (c_join j) cs); cbn [bind]; (split; [discriminate|intros [H|H]; [discriminate|now apply IH in H]]) ||
      (split; [right; now apply IH|reflexivity]).
  - destruct (mapM (c_join j) cs); cbn [bind]; (split; [discriminate|intros [H|H]; [discriminate|now apply IH in H]]) ||
      (split; [right; now apply IH|reflexivity]).
Qed.
Lemma new_group_panics j cs : new_group j cs = Panic <-> In CNil cs.
Proof. unfold new_group. rewrite <- (mapM_join_nil j). destruct (mapM (c_join j) cs); cbn [bind]; split; (discriminate || reflexivity). Qed.

Theorem C94_when_exactly : forall op g cs, op = AND \/ op = OR -> built (of_g g) -> Forall (fun c => c = CNil \/ built c) cs ->
  (add_conditions op g cs = Panic <->
   In CNil cs /\ g_cs g <> [] /\ ~ (2 <= length cs /\ op = AND /\ exists c, In c (tl (g_cs g)) /\ jtype c = Ok OR)).
Proof.
  intros op g cs Hop' Hg Hcs. assert (Hop : and_or op) by (destruct Hop' as [-> | ->]; [now left|now right]). clear Hop'.
  apply built_tree in Hg. assert (Gt : gtree and_or true g) by (apply (group_of_tree (of_g g)); [exact Hg|now destruct g]).
  assert (Nn : Forall (fun c => c <> CNil) (g_cs g)).
  { destruct Gt as [_ Gt]. eapply Forall_impl; [|exact Gt]. intros c Hc ->. inversion Hc. }
  assert (Nt : Forall (fun c => c <> CNil) (tl (g_cs g))) by (destruct Nn; [constructor|assumption]).
  assert (H1 : forall j, exists b, has_one g j = Ok b /\ (b = true <-> exists c, In c (tl (g_cs g)) /\ jtype c = Ok j)).
  { intros j. unfold has_one. destruct (one_join_iff j _ Nt) as (b & E & I). destruct (g_cs g); simpl in *; [|eauto].
    exists false. split; [reflexivity|]. split; [discriminate|]. intros (c & [] & _). }
  assert (D : {In CNil cs} + {~ In CNil cs}).
  { clear. induction cs as [|c cs [IH|IH]]; [right; intros []|left; now right|]. destruct c; [left; now left|right; intros [H|H]; [discriminate|tauto]..]. }
  destruct D as [D|D].
  - destruct (H1 AND) as (bA & EA & IA), (H1 OR) as (bO & EO & IO). unfold add_conditions. rewrite EA, EO. cbn [bind].
    destruct cs as [|c cs]; [destruct D|]. destruct (g_cs g) as [|y ys] eqn:Eg.
    + split; [discriminate|intros (_ & H & _); congruence].
    + assert (G : y :: ys <> []) by discriminate. destruct cs as [|c2 cs].
      * destruct D as [->|[]]. cbn [c_join bind]. split; [|reflexivity]. intros _. split; [now left|]. split; [exact G|]. simpl. lia.
      * destruct bO; cbn [andb].
        -- destruct Hop as [->| ->]; cbn [str_eqb String.eqb Ascii.eqb Bool.eqb AND OR andb].
           ++ split; [discriminate|]. intros (_ & _ & H). exfalso. apply H. split; [simpl; lia|]. split; [reflexivity|now apply IO].
           ++ rewrite Bool.andb_true_r. destruct bA.
              ** rewrite (proj2 (new_group_panics OR _) D). split; [|reflexivity]. intros _. split; [exact D|]. split; [exact G|]. intros (_ & H & _). discriminate.
              ** rewrite (proj2 (new_group_panics AND _) D). split; [|reflexivity]. intros _. split; [exact D|]. split; [exact G|]. intros (_ & H & _). discriminate.
        -- assert (X : ~ (2 <= length (c :: c2 :: cs) /\ op = AND /\ exists d, In d (tl (y :: ys)) /\ jtype d = Ok OR)).
           { intros (_ & _ & H). apply IO in H. discriminate. }
           rewrite (proj2 (new_group_panics op _) D), (proj2 (new_group_panics AND _) D).
           destruct (bA && str_eqb op OR); (split; [intros _; now split|reflexivity]).
  - destruct (add_tree_ok op g cs Hop Gt) as (r & E & _).
    + rewrite Forall_forall in *. intros c Hi. destruct (Hcs c Hi) as [->|Hb]; [now exfalso|]. now apply built_tree.
    + rewrite E. split; [discriminate|tauto].
Qed.
Print Assumptions C94_when_exactly.
Example C94_when_example :
  group_and empty_group [CNil] = Ok (mkG AND false [CNil] false) /\
  (exists g, new_group AND [eqc "a" 1] = Ok g /\ group_and g [CNil] = Panic /\ group_or g [eqc "b" 1; CNil] = Panic) /\
  (exists g r, new_group OR [eqc "a" 1; eqc "b" 2] = Ok g /\ group_and g [eqc "c" 3; CNil] = Ok r /\ group_and g [CNil] = Panic).
Proof. split; [reflexivity|]. split; [eexists|do 2 eexists]; repeat (split; [reflexivity|]); reflexivity. Qed.

(** * C22: exactly when building panics *)

(** With operands made by the package (or by the user) and possibly nil: Not panics exactly for nil; NewGroup exactly if an element is
    nil; the method Or of an IsNull condition always; And and Or panic if the receiver is nil, and for arguments as in C94. *)
Theorem C22_exactly : forall c ds, (c = CNil \/ built c) -> Forall (fun d => d = CNil \/ built d) ds ->
  (not_ c = Panic <-> c = CNil) /\
  (forall j, new_group j (c :: ds) = Panic <-> In CNil (c :: ds)) /\
  (~ In CNil (c :: ds) -> m_and c ds <> Panic /\ and_ c ds <> Panic /\ or_ c ds <> Panic /\
     (m_or c ds = Panic <-> exists l, c = CLeaf l /\ l_kind l = KNull)) /\
  (c = CNil -> m_and c ds = Panic /\ and_ c ds = Panic /\ or_ c ds = Panic /\ m_or c ds = Panic).
Proof.
  intros c ds Hc Hd. split; [|split; [|split]].
  - destruct c; simpl; split; (discriminate || reflexivity).
  - intros j. apply new_group_panics.
  - intros N. assert (Bc : built c) by (destruct Hc as [->|Hc]; [exfalso; apply N; now left|exact Hc]).
    assert (Bd : forall d, In d ds -> built d).
    { intros d Hi. rewrite Forall_forall in Hd. destruct (Hd d Hi) as [->|H]; [exfalso; apply N; now right|exact H]. }
    destruct (C22_no_panic_partial c ds Bc Bd) as ((r1 & ->) & (r2 & ->) & (r3 & ->) & _ & _ & H).
    repeat split; try discriminate.
    + intros E. destruct c as [|l|]; cbn [null_leaf] in H.
      * exfalso. apply N. now left.
      * exists l. split; [reflexivity|]. destruct (l_kind l); try (destruct (H eq_refl) as (r & X); congruence). reflexivity.
      * destruct (H eq_refl) as (r & X). congruence.
    + intros (l & -> & K). now apply null_or_panics.
  - intros ->. destruct ds; repeat split.
Qed.
Print Assumptions C22_exactly.
Example C22_exactly_example : exists c, is_null "a" = Ok c /\ m_or c [] = Panic /\ not_ CNil = Panic /\ and_ (eqc "a" 1) [CNil] = Panic.
Proof. eexists. repeat (split; [reflexivity|]). reflexivity. Qed.
