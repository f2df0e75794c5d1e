(** Property theorems about conditions whose Values() may answer differently each time (Asked.v). *)
From Coq Require Import String Ascii List Bool Arith Lia NArith ZArith Permutation.
From Verif Require Import GoStr Value Names Cond Build Asked SqlSpec Spec StrFacts CondFacts CondText TreeFacts Built CondThms PropsCond.
Import ListNotations.
Local Open Scope string_scope.
Local Open Scope nat_scope.

(** * The loops of o_values and o_render *)

Fixpoint o_values_list (o : oracle) (cs : list cond) (i : list leaf) : res (list gval * list leaf) :=
  match cs with
  | [] => Ok ([], i)
  | c :: r => do v <- o_values o c i; do vs <- o_values_list o r (snd v); Ok ((fst v ++ fst vs)%list, snd vs)
  end.
Lemma o_values_grp o j n cs br i : o_values o (CGrp j n cs br) i = o_values_list o cs i.
Proof.
  cbn [o_values]. revert i. induction cs as [|c cs IH]; intros i; simpl; [reflexivity|].
  destruct (o_values o c i) as [[v i']|]; simpl; [|reflexivity]. now rewrite IH.
Qed.
Fixpoint o_render_list (o : oracle) (first : bool) (cs : list cond) (n : nat) (i : list leaf) : res (string * list leaf) :=
  match cs with
  | [] => Ok ("", i)
  | c :: r =>
      do j <- jtype c;
      do s <- o_render o c n i;
      do vs <- o_values o c (snd s);
      do rest <- o_render_list o false r (n + length (fst vs)) (snd vs);
      Ok (join_token first j ++ fst s ++ fst rest, snd rest)
  end.
Lemma o_render_grp o j ng cs br n i : o_render o (CGrp j ng cs br) n i =
  match cs with
  | [] => Ok ("", i)
  | _ => do p <- o_render_list o true cs n i; Ok (wrap ng br (1 <? length cs) (fst p), snd p)
  end.
Proof.
  destruct cs as [|c cs]; [reflexivity|]. set (l := c :: cs).
  change (o_render o (CGrp j ng l br) n i) with
    (do p <- (fix go (first : bool) (cs : list cond) (n : nat) (i : list leaf) : res (string * list leaf) :=
               match cs with
               | [] => Ok ("", i)
               | c :: r =>
                   do j <- jtype c;
                   do s <- o_render o c n i;
                   do vs <- o_values o c (snd s);
                   do rest <- go false r (n + length (fst vs)) (snd vs);
                   Ok (join_token first j ++ fst s ++ fst rest, snd rest)
               end) true l n i; Ok (wrap ng br (1 <? length l) (fst p), snd p)).
  match goal with |- bind (?f true l n i) _ = _ => assert (H : forall cs first n i, f first cs n i = o_render_list o first cs n i) end.
  { clear. induction cs as [|c cs IH]; intros first n i; [reflexivity|]. cbn [o_render_list].
    destruct (jtype c); simpl; [|reflexivity]. destruct (o_render o c n i) as [[s i']|]; simpl; [|reflexivity].
    destruct (o_values o c i') as [[v i'']|]; simpl; [|reflexivity]. now rewrite IH. }
  now rewrite H.
Qed.

(** * C61 How often a value is asked, and what follows *)

(** the leaves with the number of groups around each *)
Fixpoint depths (c : cond) : list (leaf * nat) :=
  match c with
  | CNil => []
  | CLeaf l => [(l, 0)]
  | CGrp _ _ cs _ => map (fun x => (fst x, S (snd x))) (flat_map depths cs)
  end.
(** a leaf inside d groups is asked d times by Render, twice more when it is an IN *)
Definition asked (x : leaf * nat) : list leaf :=
  repeat (fst x) (snd x + match l_kind (fst x) with KIn => 2 | _ => 0 end).

(** the answers vary, their number does not *)
Definition steady (o : oracle) (l : leaf) : Prop :=
  exists vs, leaf_values l = Ok vs /\ forall i, exists ws, o i l = Ok ws /\ length ws = length vs.

(** The answers given to the calls [ls], the first of them being call number [i] *)
Fixpoint answers (o : oracle) (i : nat) (ls : list leaf) : res (list gval) :=
  match ls with
  | [] => Ok []
  | l :: r => do a <- o i l; do b <- answers o (S i) r; Ok (a ++ b)%list
  end.

Lemma answers_app o a b i : answers o i (a ++ b)%list =
  do x <- answers o i a; do y <- answers o (i + length a) b; Ok (x ++ y)%list.
Proof.
  revert i. induction a as [|l a IH]; intros i; simpl.
  - rewrite Nat.add_0_r. destruct (answers o i b); reflexivity.
  - destruct (o i l); simpl; [|reflexivity]. rewrite IH. replace (i + S (length a)) with (S i + length a) by lia.
    destruct (answers o (S i) a); simpl; [|reflexivity].
    destruct (answers o (S (i + length a)) b); simpl; [|reflexivity]. now rewrite app_assoc.
Qed.

(** Values() asks every leaf once, in order, whatever the answers *)
Lemma values_answers o c : no_nil c -> forall i,
  o_values o c i = do vs <- answers o (length i) (leaves c); Ok (vs, (i ++ leaves c)%list).
Proof.
  induction c as [|l|j n cs br IH] using cond_ind'; intros Hn i; [inversion Hn| |].
  - simpl. destruct (o (length i) l); simpl; [|reflexivity]. now rewrite app_nil_r.
  - inversion Hn as [|? ? ? ? Hcs]; subst. rewrite o_values_grp. cbn [leaves]. clear Hn. revert i.
    induction cs as [|c cs IHl]; intros i; simpl; [now rewrite app_nil_r|].
    inversion IH; inversion Hcs; subst. rewrite H1 by assumption. rewrite answers_app.
    destruct (answers o (length i) (leaves c)); simpl; [|reflexivity].
    rewrite IHl by assumption. rewrite app_length.
    destruct (answers o (length i + length (leaves c)) (flat_map leaves cs)); simpl; [|reflexivity]. now rewrite app_assoc.
Qed.

Lemma steady_answers o ls : Forall (steady o) ls -> exists vs, mapM leaf_values ls = Ok vs /\
  forall i, exists ws, answers o i ls = Ok ws /\ length ws = length (List.concat vs).
Proof.
  induction 1 as [|l ls (vs & E & H) _ (vss & Es & Hs)]; simpl.
  - exists []. split; [reflexivity|]. intros i. now exists [].
  - exists (vs :: vss). rewrite E, Es. split; [reflexivity|]. intros i.
    destruct (H i) as (ws & -> & L1). destruct (Hs (S i)) as (ws' & -> & L2).
    exists (ws ++ ws')%list. split; [reflexivity|]. simpl. now rewrite !app_length, L1, L2.
Qed.
Lemma values_leaves c : no_nil c -> c_values c = do l <- mapM leaf_values (leaves c); Ok (List.concat l).
Proof.
  induction c as [|l|j n cs br IH] using cond_ind'; intros Hn; [inversion Hn| |].
  - simpl. destruct (leaf_values l); simpl; [|reflexivity]. now rewrite app_nil_r.
  - inversion Hn as [|? ? ? ? Hcs]; subst. rewrite c_values_grp. cbn [leaves]. clear Hn.
    induction cs as [|c cs IHl]; simpl; [reflexivity|]. inversion IH; inversion Hcs; subst.
    rewrite H1 by assumption. specialize (IHl H2 H6).
    assert (A : forall (a b : list leaf), mapM leaf_values (a ++ b)%list =
      do x <- mapM leaf_values a; do y <- mapM leaf_values b; Ok (x ++ y)%list).
    { induction a as [|x a IHa]; intros b; simpl; [destruct (mapM leaf_values b); reflexivity|].
      destruct (leaf_values x); simpl; [|reflexivity]. rewrite IHa.
      destruct (mapM leaf_values a); simpl; [|reflexivity]. destruct (mapM leaf_values b); reflexivity. }
    rewrite A. destruct (mapM leaf_values (leaves c)) as [x|]; simpl; [|reflexivity].
    destruct (mapM c_values cs) as [y|], (mapM leaf_values (flat_map leaves cs)) as [z|]; simpl in *; try congruence.
    inversion IHl. now rewrite List.concat_app, <- H0.
Qed.

Lemma steady_leaf_render o l n i : steady o l ->
  o_leaf_render o l n i = do s <- leaf_render l n; Ok (s, (i ++ asked (l, 0))%list).
Proof.
  intros (vs & E & H). unfold o_leaf_render, leaf_render, asked. cbn [fst snd].
  destruct (l_kind l) eqn:K; simpl; rewrite ?app_nil_r; try reflexivity.
  destruct (H (length i)) as (a & -> & La). simpl. destruct (H (S (length i))) as (b & -> & Lb). simpl.
  rewrite E. simpl. replace (length b <=? length a) with true by (symmetry; apply Nat.leb_le; lia).
  rewrite La. replace (map (fun k => if k <? length b then dollar (n + k + 1) else "") (seq 0 (length vs)))
    with (map (fun k => dollar (n + k + 1)) (seq 0 (length vs))); [reflexivity|].
  apply map_ext_in. intros k Hk. apply in_seq in Hk.
  rewrite Lb. now replace (k <? length vs) with true by (symmetry; apply Nat.ltb_lt; lia).
Qed.

Lemma asked_deeper ds : Permutation (flat_map asked (map (fun x => (fst x, S (snd x))) ds))
  (flat_map asked ds ++ map fst ds)%list.
Proof.
  induction ds as [|[l d] ds IH]; simpl; [constructor|]. unfold asked at 1 3. cbn [fst snd repeat].
  simpl. apply Permutation_cons_app. rewrite IH. now rewrite app_assoc.
Qed.
Lemma depths_leaves c : map fst (depths c) = leaves c.
Proof.
  induction c as [|l|j n cs br IH] using cond_ind'; simpl; [reflexivity|reflexivity|].
  rewrite map_map. cbn [fst]. induction IH as [|c cs Hc _ IH]; [reflexivity|]. cbn [flat_map]. now rewrite map_app, IH, <- Hc.
Qed.

Definition renders_as (o : oracle) (c : cond) : Prop := forall n i s, c_render c n = Ok s ->
  exists log, o_render o c n i = Ok (s, (i ++ log)%list) /\ Permutation log (flat_map asked (depths c)).

Lemma steady_render o c : no_nil c -> (forall l, In l (leaves c) -> steady o l) -> renders_as o c.
Proof.
  induction c as [|l|j ng cs br IH] using cond_ind'; intros Hn Hs n i s E; [inversion Hn| |].
  - simpl in E |- *. rewrite (steady_leaf_render o l n i) by (apply Hs; now left). rewrite E. simpl.
    eexists. split; [reflexivity|]. now rewrite app_nil_r.
  - inversion Hn as [|? ? ? ? Hcs]; subst. rewrite o_render_grp. rewrite c_render_grp in E. cbn [leaves depths] in *.
    assert (L : forall first n i s, render_list first cs n = Ok s -> exists log,
      o_render_list o first cs n i = Ok (s, (i ++ log)%list) /\
      Permutation log (flat_map asked (map (fun x => (fst x, S (snd x))) (flat_map depths cs)))).
    { clear E n i s Hn. induction cs as [|c cs IHl]; intros first n i s E.
      - simpl in *. inversion E. exists []. rewrite app_nil_r. split; [reflexivity|constructor].
      - inversion IH as [|? ? Hc HC]; inversion Hcs as [|? ? Nc Ncs]; subst. simpl in E |- *.
        destruct (jtype c) as [jc|]; simpl in *; [|discriminate].
        destruct (c_render c n) as [sc|] eqn:Ec; simpl in *; [|discriminate].
        destruct (Hc Nc (fun l Hl => Hs l (in_or_app _ _ _ (or_introl Hl))) n i sc Ec) as (log1 & -> & P1). simpl.
        rewrite values_answers by assumption. rewrite (values_leaves c Nc) in E.
        destruct (steady_answers o (leaves c)) as (vs & Ev & Hv).
        { apply Forall_forall. intros l Hl. apply Hs, in_or_app. now left. }
        rewrite Ev in E. simpl in E. destruct (Hv (length (i ++ log1)%list)) as (ws & -> & Lw). simpl. rewrite Lw.
        destruct (render_list false cs (n + length (List.concat vs))) as [rest|] eqn:Er; simpl in *; [|discriminate].
        destruct (IHl HC (fun l Hl => Hs l (in_or_app _ _ _ (or_intror Hl))) Ncs false _ ((i ++ log1) ++ leaves c)%list rest Er) as (log2 & -> & P2).
        simpl. inversion E; subst. exists (log1 ++ leaves c ++ log2)%list. split; [now rewrite !app_assoc|].
        rewrite map_app, flat_map_app, asked_deeper, P1, P2, depths_leaves. now rewrite app_assoc. }
    destruct cs as [|c cs]; [inversion E; subst; exists []; rewrite app_nil_r; split; [reflexivity|constructor]|].
    destruct (render_list true (c :: cs) n) as [sql|] eqn:Er; [|discriminate]. inversion E; subst.
    destruct (L true n i sql Er) as (log & E' & P). rewrite E'. exists log. split; [reflexivity|exact P].
Qed.

(** Values() of any condition: every leaf is asked once, in order, whatever the answers. *)
Theorem C61_values : forall o c log, built c ->
  o_values o c log = do vs <- answers o (length log) (leaves c); Ok (vs, (log ++ leaves c)%list).
Proof. intros o c log H. apply values_answers. now apply built_no_nil. Qed.
Print Assumptions C61_values.

(** Full statement (false): for every built condition and all answers of its value providers, the
    build does not panic and the placeholders in the text are numbered like the parameters. *)
Definition in_a : leaf := mkLeaf KIn AND false (mkF "a" "" "") (VOther 0).
Definition eq_b : leaf := mkLeaf KEq AND false (mkF "b" "" "") (VOther 7).
Definition asks_select : bsel := mkB DoSelect (mkT "t" "") [] [] {| g_join := AND; g_neg := false; g_cs := [CLeaf in_a; CLeaf eq_b]; g_br := false |}.
(** a provider with two ids for its first [k] calls and three afterwards *)
Definition grows (k : nat) : oracle := fun i l => match l_kind l with
  | KIn => Ok (if i <? k then [VOther 1; VOther 2] else [VOther 1; VOther 2; VOther 3])
  | _ => leaf_values l
  end.
Theorem C61_refuted :
  (exists o b sql ps log, (forall c, In c (g_cs (b_where b)) -> built c) /\ o_build o b = Ok (ok sql ps, log) /\
     dollars sql <> seq 1 (length ps) /\ sql = "SELECT * FROM t WHERE a IN ($1,$2) AND b=$3" /\ ps = [VOther 1; VOther 2; VOther 3; VOther 7]) /\
  (exists o b sql ps log, (forall c, In c (g_cs (b_where b)) -> built c) /\ o_build o b = Ok (ok sql ps, log) /\
     sql = "SELECT * FROM t WHERE a IN ($1,$2) AND b=$4") /\
  (exists o b, (forall c, In c (g_cs (b_where b)) -> built c) /\ o_build o b = Panic).
Proof.
  assert (B : forall c, In c (g_cs (b_where asks_select)) -> built c).
  { intros c [<-|[<-|[]]]; [apply (bt_lib KIn "a" (VOther 0))|apply (bt_lib KEq "b" (VOther 7))]; reflexivity. }
  split; [|split].
  - exists (grows 3), asks_select. do 3 eexists. split; [exact B|]. split; [vm_compute; reflexivity|]. split; [vm_compute; discriminate|split; reflexivity].
  - exists (grows 2), asks_select. do 3 eexists. split; [exact B|]. split; [vm_compute; reflexivity|reflexivity].
  - exists (grows 1), asks_select. split; [exact B|reflexivity].
Qed.
Print Assumptions C61_refuted.

(** Proved part: when only the values vary, not their number, every builder gives the text it gives for
    fixed values, the parameters are the answers to the last round of calls, one round in the order of the
    leaves, and each leaf has been asked once for every group around it (the clause itself is one), once for
    that last round, and twice more by IN. *)
Definition asked_where (w : group) : list leaf := flat_map asked (map (fun x => (fst x, S (snd x))) (depths (of_g w))).
Definition answered (o : oracle) (w : group) (log : list leaf) (ws : list gval) : Prop :=
  Permutation log (asked_where w) /\
  exists first, log = (first ++ leaves (of_g w))%list /\ answers o (length first) (leaves (of_g w)) = Ok ws.
Definition steady_where (o : oracle) (w : group) : Prop :=
  (forall c, In c (g_cs w) -> built c) /\ forall l, In l (leaves (of_g w)) -> steady o l.

Lemma steady_build o w n : steady_where o w -> forall s vs, c_render (of_g w) n = Ok s -> c_values (of_g w) = Ok vs ->
  exists log1 log2 ws, o_render o (of_g w) n [] = Ok (s, log1) /\ o_values o (of_g w) log1 = Ok (ws, log2) /\
  answered o w log2 ws /\ length ws = length vs.
Proof.
  intros (Hb & Hs) s vs Er Ev.
  assert (Hn : no_nil (of_g w)) by (constructor; apply Forall_forall; intros c Hc; now apply built_no_nil, Hb).
  destruct (steady_render o _ Hn Hs n [] s Er) as (log & E & P). simpl in E.
  destruct (steady_answers o (leaves (of_g w))) as (vs' & Ev' & Hv); [now apply Forall_forall|].
  rewrite values_leaves, Ev' in Ev by assumption. inversion Ev; subst.
  destruct (Hv (length log)) as (ws & Ea & L).
  exists log, (log ++ leaves (of_g w))%list, ws. split; [exact E|]. split; [rewrite values_answers, Ea by assumption; reflexivity|].
  split; [|exact L]. split; [|exists log; auto]. unfold asked_where. rewrite asked_deeper, P, depths_leaves. reflexivity.
Qed.
Lemma empty_answered o w : nonempty (g_cs w) = false -> answered o w [] [].
Proof. destruct w as [j ng [|c cs] br]; [intros _|discriminate]. split; [constructor|]. now exists []. Qed.

Theorem C61_select_partial : forall o b r, steady_where o (b_where b) -> b_build b = Ok r ->
  exists ws log, o_build o b = Ok (ok (o_sql r) ws, log) /\ answered o (b_where b) log ws /\ length ws = length (o_params r).
Proof.
  intros o b r H E. unfold b_build, o_build in *. destruct (nonempty _) eqn:N.
  - destruct (c_render _ 0) as [s|] eqn:Er; [|discriminate]. destruct (c_values _) as [vs|] eqn:Ev; [|discriminate]. simpl in E. inversion E; subst.
    destruct (steady_build o _ 0 H s vs Er Ev) as (l1 & l2 & ws & -> & Eo & A & L). cbn [bind fst snd]. rewrite Eo. exists ws, l2. split; [reflexivity|auto].
  - inversion E; subst. exists [], []. split; [reflexivity|]. split; [now apply empty_answered|reflexivity].
Qed.
Print Assumptions C61_select_partial.
Theorem C61_many_partial : forall o m r, steady_where o (b_where (m_base m)) -> m_build m = Ok r ->
  exists ws log page, o_many o m = Ok (ok (o_sql r) (ws ++ page), log)%list /\ answered o (b_where (m_base m)) log ws /\
  exists vs, b_values (m_base m) = Ok vs /\ o_params r = (vs ++ page)%list /\ length vs = length ws.
Proof.
  intros o m r H E. unfold m_build, o_many in *. destruct (b_build (m_base m)) as [r0|] eqn:E0; [|discriminate].
  destruct (C61_select_partial o (m_base m) r0 H E0) as (ws & log & -> & A & L).
  assert (V : b_values (m_base m) = Ok (o_params r0)).
  { unfold b_build, b_values in *. destruct (nonempty _) eqn:N.
    - destruct (c_render _ 0); [|discriminate]. destruct (c_values _); [|discriminate]. now inversion E0.
    - inversion E0. now destruct (b_where (m_base m)) as [? ? [|] ?]. }
  simpl in *. destruct (0 <? m_offset m)%N, (0 <? m_limit m)%Z; simpl in *; inversion E; subst; simpl;
  rewrite ?app_length, ?L; simpl.
  - exists ws, log, [VUint (m_offset m); VUint (Z.to_N (m_limit m))]. rewrite <- !app_assoc. eauto 8.
  - exists ws, log, [VUint (m_offset m)]. eauto 8.
  - exists ws, log, [VUint (Z.to_N (m_limit m))]. eauto 8.
  - exists ws, log, []. rewrite app_nil_r. split; [reflexivity|]. split; [exact A|]. exists (o_params r0). now rewrite app_nil_r.
Qed.
Print Assumptions C61_many_partial.
Theorem C61_single_partial : forall o s r, steady_where o (b_where (ss_base s)) -> ss_build s = Ok r ->
  exists ws log, o_single o s = Ok (ok (o_sql r) ws, log) /\ answered o (b_where (ss_base s)) log ws /\ length ws = length (o_params r).
Proof.
  intros o s r H E. unfold ss_build, o_single in *. destruct (b_build (ss_base s)) as [r0|] eqn:E0; [|discriminate]. inversion E; subst.
  destruct (C61_select_partial o (ss_base s) r0 H E0) as (ws & log & -> & A & L). exists ws, log. auto.
Qed.
Print Assumptions C61_single_partial.
Theorem C61_count_partial : forall o c r, steady_where o (b_where (cs_base c)) -> cs_build c = Ok r ->
  exists ws log, o_count o c = Ok (ok (o_sql r) ws, log) /\ answered o (b_where (cs_base c)) log ws /\ length ws = length (o_params r).
Proof.
  intros o b r H E. unfold cs_build, o_count in *. destruct (nonempty _) eqn:N.
  - destruct (c_render _ 0) as [s|] eqn:Er; [|discriminate]. destruct (c_values _) as [vs|] eqn:Ev; [|discriminate]. simpl in E. inversion E; subst.
    destruct (steady_build o _ 0 H s vs Er Ev) as (l1 & l2 & ws & -> & Eo & A & L). cbn [bind fst snd]. rewrite Eo. exists ws, l2. split; [reflexivity|auto].
  - inversion E; subst. exists [], []. split; [reflexivity|]. split; [now apply empty_answered|reflexivity].
Qed.
Print Assumptions C61_count_partial.
Theorem C61_update_partial : forall o u r, steady_where o (u_where u) -> u_build u = Ok r -> o_err r = None ->
  exists sets ws log, o_update o u = Ok (ok (o_sql r) (sets ++ ws), log)%list /\ answered o (u_where u) log ws /\
  exists vs, o_params r = (sets ++ vs)%list /\ length vs = length ws.
Proof.
  intros o u r H E Hr. unfold u_build, o_update in *.
  destruct (nonempty (g_cs (u_where u))) eqn:N; cbn [negb bind] in *; [|inversion E; subst; discriminate].
  destruct (nonempty (u_values u)); cbn [negb bind] in *; [|inversion E; subst; discriminate].
  destruct (is_empty (u_table u)); [inversion E; subst; discriminate|].
  destruct (fields_and_values (u_values u)) as [[sets ps]|]; cbn [bind] in *; [|discriminate].
  destruct (c_render _ (length ps)) as [s|] eqn:Er; [|discriminate]. destruct (c_values _) as [vs|] eqn:Ev; [|discriminate]. cbn [bind] in E. inversion E; subst.
  destruct (steady_build o _ _ H s vs Er Ev) as (l1 & l2 & ws & -> & Eo & A & L). cbn [bind fst snd]. rewrite Eo. exists ps, ws, l2. split; [reflexivity|]. split; [exact A|]. exists vs. auto.
Qed.
Print Assumptions C61_update_partial.
Theorem C61_delete_partial : forall o d r, steady_where o (d_where d) -> d_build d = Ok r -> o_err r = None ->
  exists ws log, o_delete o d = Ok (ok (o_sql r) ws, log) /\ answered o (d_where d) log ws /\ length ws = length (o_params r).
Proof.
  intros o d r H E Hr. unfold d_build, o_delete in *.
  destruct (nonempty (g_cs (d_where d))) eqn:N; cbn [negb bind] in *; [|inversion E; subst; discriminate].
  destruct (is_empty (d_table d)); [inversion E; subst; discriminate|].
  destruct (c_render _ 0) as [s|] eqn:Er; [|discriminate]. destruct (c_values _) as [vs|] eqn:Ev; [|discriminate]. cbn [bind] in E. inversion E; subst.
  destruct (steady_build o _ 0 H s vs Er Ev) as (l1 & l2 & ws & -> & Eo & A & L). cbn [bind fst snd]. rewrite Eo. exists ws, l2. split; [reflexivity|auto].
Qed.
Print Assumptions C61_delete_partial.

(** a provider counting its calls, in one group inside the clause *)
Definition counts : oracle := fun i l => match l_kind l with KIn => Ok [VOther i] | _ => leaf_values l end.
Definition or_b : leaf := mkLeaf KEq OR false (mkF "b" "" "") (VOther 7).
Definition counted : bsel := mkB DoSelect (mkT "t" "") [] []
  {| g_join := AND; g_neg := false; g_cs := [CGrp AND false [CLeaf in_a; CLeaf or_b] true]; g_br := false |}.
Example C61_example : (forall l, In l (leaves (of_g (b_where counted))) -> steady counts l) /\
  o_build counts counted = Ok (ok "SELECT * FROM t WHERE (a IN ($1) OR b=$2)" [VOther 6; VOther 7], [in_a; in_a; in_a; or_b; in_a; or_b; in_a; or_b]).
Proof.
  split; [|reflexivity]. intros l [<-|[<-|[]]].
  - exists [VOther 0]. split; [reflexivity|]. intros i. now exists [VOther i].
  - exists [VOther 7]. split; [reflexivity|]. intros i. now exists [VOther 7].
Qed.
