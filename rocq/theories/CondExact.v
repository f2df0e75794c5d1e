(** What And and Or make of every condition, and which conditions can take any truth value. *)
From Coq Require Import String Ascii List Bool Arith Lia.
From Verif Require Import GoStr Value Names Cond Build SqlSpec Spec StrFacts SqlFacts CondFacts CondText CondSem
  TreeFacts CondLogic CondMeaning.
Import ListNotations.
Local Open Scope string_scope.
Local Open Scope nat_scope.

Definition negif (b : bool) (v : tv) : tv := if b then not3 v else v.

Lemma single_or_many (cs : list cond) : cs <> [] ->
  (length cs =? 0) = false /\ (((length cs =? 1) = true /\ (1 <? length cs) = false) \/ ((length cs =? 1) = false /\ (1 <? length cs) = true)).
Proof.
  destruct cs as [|a [|b l]]; intros H; [congruence|simpl; auto|]. split; [reflexivity|right]. split; reflexivity.
Qed.

Section Exact.
  Variable lv : leaf -> tv.
  Hypothesis lv_join : forall j l, lv (leaf_with_join j l) = lv l.
  Notation dens cs := (flat_map (den lv) cs).

  Definition boxed (g : group) : tv := negif (g_neg g) (V (dens (g_cs g))).
  Lemma den_boxed g : den lv (of_g (with_brackets g)) = [(g_join g, boxed g)].
  Proof. reflexivity. Qed.

  (** one argument of And, or of Or: what it adds to the conditions of the receiver *)
  Definition added (op : string) (flat : list cond -> bool) (d : cond) : list (string * tv) :=
    match d with
    | CNil => []
    | CLeaf l => [(op, lv l)]
    | CGrp _ n ds _ => if flat ds then dens ds else [(op, negif n (V (dens ds)))]
    end.
  Definition kept (op : string) (g : group) : list (string * tv) :=
    if tails op (g_cs g) then dens (g_cs g) else [(AND, boxed g)].
  Definition and_flat (cs ds : list cond) : bool := if tails AND cs then tails AND ds else someTail AND ds.

  Lemma and_one_exact g d d' r : g_ok g -> g_cs g <> [] -> wf d -> c_join AND d = Ok d' -> add_single g d' = Ok r ->
    g_neg r = g_neg g /\ many (g_cs r) /\
    V (dens (g_cs r)) = V (kept AND g ++ added AND (and_flat (g_cs g)) d)%list.
  Proof.
    intros Hg Hne Hd Ej Er. pose proof Hg as [Hgj Hw].
    assert (Hjd : jtype d' = Ok AND) by (destruct d; inversion Ej; subst; reflexivity).
    unfold add_single in Er. rewrite !has_all_eq in Er by exact Hw. rewrite Hjd in Er. cbn [bind] in Er.
    destruct (single_or_many (g_cs g) Hne) as [L0 L1]. rewrite L0 in Er.
    assert (M1 : forall c, many (g_cs g ++ [c])%list).
    { intros c. unfold many. rewrite app_length. cbn [length]. destruct (g_cs g); [congruence|cbn [length]; lia]. }
    assert (M2 : forall ds, ds <> [] -> many (g_cs g ++ ds)%list).
    { intros ds Hds. unfold many. rewrite app_length. destruct (g_cs g); [congruence|]. destruct ds; [congruence|cbn [length]; lia]. }
    assert (M3 : forall c (ds : list cond), ds <> [] -> many (c :: ds)).
    { intros c ds Hds. unfold many. destruct ds; [congruence|cbn [length]; lia]. }
    destruct d as [|l|j n ds br]; inversion Ej; subst; clear Ej.
    - cbn [as_group c_join bind] in Er. cbn [l_kind l_neg l_def l_val] in Er.
      change (mkLeaf (l_kind l) AND (l_neg l) (l_def l) (l_val l)) with (leaf_with_join AND l) in *.
      assert (El : den lv (CLeaf (leaf_with_join AND l)) = [(AND, lv l)]) by (simpl; now rewrite lv_join).
      change (str_eqb AND AND) with true in Er. change (str_eqb AND OR) with false in Er.
      rewrite ?andb_true_r, ?andb_false_r in Er. cbn [andb] in Er. unfold kept, added.
      destruct L1 as [[L1 L2]|[L1 L2]]; rewrite L1, ?L2 in Er.
      + injection Er as <-. destruct (single_tails g AND L1) as [-> _]. cbn [g_cs g_neg set_cs].
        split; [reflexivity|split; [apply M1|]]. rewrite flat_map_app. cbn [flat_map]. now rewrite El, app_nil_r.
      + cbn [andb] in Er. destruct (tails AND (g_cs g)); injection Er as <-; cbn [g_cs g_neg set_cs].
        * split; [reflexivity|split; [apply M1|]]. rewrite flat_map_app. cbn [flat_map]. now rewrite El, app_nil_r.
        * split; [reflexivity|split; [now apply M3|]]. cbn [flat_map]. rewrite El, den_boxed. reflexivity.
    - cbn [as_group] in Er. set (a := {| g_join := AND; g_neg := n; g_cs := ds; g_br := br |}) in *.
      inversion Hd as [|? ? ? ? Hj Hdne Hdw]; subst.
      unfold add_group in Er. rewrite !has_all_eq, !has_one_eq in Er by (exact Hw || exact Hdw).
      cbn [bind] in Er. rewrite L0 in Er.
      change (g_join a) with AND in Er. change (str_eqb AND AND) with true in Er. change (str_eqb AND OR) with false in Er.
      change (g_cs a) with ds in Er.
      rewrite ?andb_true_r, ?andb_false_r in Er. cbn [andb] in Er.
      assert (Hjn : c_join AND (of_g (with_brackets a)) = Ok (CGrp AND n ds true)) by reflexivity.
      rewrite Hjn in Er. cbn [bind] in Er. change (of_g (with_brackets a)) with (CGrp AND n ds true) in Er.
      destruct (tails_some ds Hdw) as [TS1 TS2]. destruct (tails_some (g_cs g) Hw) as [TG1 TG2].
      assert (Eb : den lv (CGrp AND n ds true) = [(AND, negif n (V (dens ds)))]) by reflexivity.
      assert (K1 : V (dens (g_cs g ++ ds)%list) = V (dens (g_cs g) ++ dens ds)%list) by (now rewrite flat_map_app).
      assert (K2 : V (dens (g_cs g ++ [CGrp AND n ds true])%list) = V (dens (g_cs g) ++ [(AND, negif n (V (dens ds)))])%list).
      { rewrite flat_map_app. cbn [flat_map]. now rewrite Eb, app_nil_r. }
      assert (K3 : V (dens (of_g (with_brackets g) :: ds)) = V ([(AND, boxed g)] ++ dens ds)%list).
      { cbn [flat_map]. rewrite den_boxed. reflexivity. }
      assert (K4 : V (dens [of_g (with_brackets g); CGrp AND n ds true]) = V ([(AND, boxed g)] ++ [(AND, negif n (V (dens ds)))])%list).
      { cbn [flat_map]. rewrite den_boxed, Eb. reflexivity. }
      unfold kept, added, and_flat.
      destruct L1 as [[L1 L2]|[L1 L2]]; rewrite L1 in Er; cbn [andb] in Er.
      + destruct (single_tails g AND L1) as [T1 _]. rewrite T1. destruct (tails AND ds); injection Er as <-; cbn [g_cs g_neg set_cs]; auto.
      + rewrite TG1. rewrite TG1 in Er. destruct (someTail OR (g_cs g)); cbn [negb andb] in *.
        * destruct (someTail AND ds); injection Er as <-; cbn [g_cs g_neg set_cs]; (split; [reflexivity|split; [apply M3; auto; discriminate|assumption]]).
        * destruct (tails AND ds); [injection Er as <-; cbn [g_cs g_neg set_cs]; auto|].
          assert (TO : someTail OR ds = true) by (destruct (someTail OR ds); auto; discriminate).
          rewrite TO in Er. injection Er as <-; cbn [g_cs g_neg set_cs]; auto.
  Qed.

  Lemma or_one_exact g d d' r : g_ok g -> g_cs g <> [] -> wf d -> c_join OR d = Ok d' -> add_single g d' = Ok r ->
    g_neg r = g_neg g /\ many (g_cs r) /\
    V (dens (g_cs r)) = V (kept OR g ++ added OR (tails OR) d)%list.
  Proof.
    intros Hg Hne Hd Ej Er. pose proof Hg as [Hgj Hw].
    assert (Hjd : jtype d' = Ok OR) by (destruct d; inversion Ej; subst; reflexivity).
    unfold add_single in Er. rewrite !has_all_eq in Er by exact Hw. rewrite Hjd in Er. cbn [bind] in Er.
    destruct (single_or_many (g_cs g) Hne) as [L0 L1]. rewrite L0 in Er.
    assert (M2 : forall ds, ds <> [] -> many (g_cs g ++ ds)%list).
    { intros ds Hds. unfold many. rewrite app_length. destruct (g_cs g); [congruence|]. destruct ds; [congruence|cbn [length]; lia]. }
    assert (M1 : forall c, many (g_cs g ++ [c])%list) by (intros c; apply M2; discriminate).
    assert (M3 : forall c (ds : list cond), ds <> [] -> many (c :: ds)).
    { intros c ds Hds. unfold many. destruct ds; [congruence|cbn [length]; lia]. }
    destruct d as [|l|j n ds br]; inversion Ej; subst; clear Ej.
    - cbn [as_group c_join bind] in Er. cbn [l_kind l_neg l_def l_val] in Er.
      change (mkLeaf (l_kind l) OR (l_neg l) (l_def l) (l_val l)) with (leaf_with_join OR l) in *.
      assert (El : den lv (CLeaf (leaf_with_join OR l)) = [(OR, lv l)]) by (simpl; now rewrite lv_join).
      change (str_eqb OR AND) with false in Er. change (str_eqb OR OR) with true in Er.
      rewrite ?andb_true_r, ?andb_false_r in Er. cbn [andb] in Er. unfold kept, added.
      destruct L1 as [[L1 L2]|[L1 L2]]; rewrite L1, ?L2 in Er.
      + injection Er as <-. destruct (single_tails g OR L1) as [-> _]. cbn [g_cs g_neg set_cs].
        split; [reflexivity|split; [apply M1|]]. rewrite flat_map_app. cbn [flat_map]. now rewrite El, app_nil_r.
      + cbn [andb] in Er. destruct (tails OR (g_cs g)); injection Er as <-; cbn [g_cs g_neg set_cs].
        * split; [reflexivity|split; [apply M1|]]. rewrite flat_map_app. cbn [flat_map]. now rewrite El, app_nil_r.
        * split; [reflexivity|split; [now apply M3|]]. cbn [flat_map]. rewrite El, den_boxed. reflexivity.
    - cbn [as_group] in Er. set (a := {| g_join := OR; g_neg := n; g_cs := ds; g_br := br |}) in *.
      inversion Hd as [|? ? ? ? Hj Hdne Hdw]; subst.
      unfold add_group in Er. rewrite !has_all_eq, !has_one_eq in Er by (exact Hw || exact Hdw).
      cbn [bind] in Er. rewrite L0 in Er.
      change (g_join a) with OR in Er. change (str_eqb OR AND) with false in Er. change (str_eqb OR OR) with true in Er.
      change (g_cs a) with ds in Er.
      rewrite ?andb_true_r, ?andb_false_r in Er. cbn [andb] in Er.
      assert (Hjn : c_join OR (of_g (with_brackets a)) = Ok (CGrp OR n ds true)) by reflexivity.
      rewrite Hjn in Er. cbn [bind] in Er. change (of_g (with_brackets a)) with (CGrp OR n ds true) in Er.
      destruct (tails_some ds Hdw) as [TS1 TS2]. destruct (tails_some (g_cs g) Hw) as [TG1 TG2].
      assert (Eb : den lv (CGrp OR n ds true) = [(OR, negif n (V (dens ds)))]) by reflexivity.
      assert (K1 : V (dens (g_cs g ++ ds)%list) = V (dens (g_cs g) ++ dens ds)%list) by (now rewrite flat_map_app).
      assert (K2 : V (dens (g_cs g ++ [CGrp OR n ds true])%list) = V (dens (g_cs g) ++ [(OR, negif n (V (dens ds)))])%list).
      { rewrite flat_map_app. cbn [flat_map]. now rewrite Eb, app_nil_r. }
      assert (K3 : V (dens (of_g (with_brackets g) :: ds)) = V ([(AND, boxed g)] ++ dens ds)%list).
      { cbn [flat_map]. rewrite den_boxed. reflexivity. }
      assert (K4 : V (dens [of_g (with_brackets g); CGrp OR n ds true]) = V ([(AND, boxed g)] ++ [(OR, negif n (V (dens ds)))])%list).
      { cbn [flat_map]. rewrite den_boxed, Eb. reflexivity. }
      unfold kept, added.
      destruct L1 as [[L1 L2]|[L1 L2]]; rewrite L1 in Er; cbn [andb] in Er.
      + destruct (single_tails g OR L1) as [T1 _]. rewrite T1. destruct (tails OR ds); injection Er as <-; cbn [g_cs g_neg set_cs]; auto.
      + rewrite TG2, TS2. rewrite TG2, TS2 in Er. destruct (someTail AND (g_cs g)), (someTail AND ds); cbn [negb andb] in *;
          injection Er as <-; cbn [g_cs g_neg set_cs]; (split; [reflexivity|split; [first [apply M3; auto; discriminate|auto]|assumption]]).
  Qed.

  (** the conditions of one argument list, each with the connective [op] instead of its own *)
  Definition rejoined (op : string) (c : cond) : list (string * tv) :=
    match den lv c with [] => [] | (_, v) :: r => (op, v) :: r end.
  Lemma rejoined_list op ds ds' : Forall wf ds -> Forall2 (fun c c' => c_join op c = Ok c') ds ds' ->
    dens ds' = flat_map (rejoined op) ds.
  Proof.
    intros Hw HF. induction HF as [|d d' ds ds' E _ IH]; [reflexivity|]. inversion Hw as [|? ? Hd Hds]; subst. simpl. rewrite IH by exact Hds.
    f_equal. destruct (den_join lv lv_join op d d' Hd E) as (j0 & v & r & E1 & E2). unfold rejoined. now rewrite E1, E2.
  Qed.

  Lemma and_many_exact g ds r : g_ok g -> g_cs g <> [] -> many ds -> Forall wf ds -> group_and g ds = Ok r ->
    g_neg r = g_neg g /\ many (g_cs r) /\
    V (dens (g_cs r)) = if tails AND (g_cs g) then and3 (boxed g) (V (flat_map (rejoined AND) ds))
                        else V ((AND, boxed g) :: dens ds).
  Proof.
    intros Hg Hne Hm Hw Er. pose proof Hg as [Hgj Hgw]. destruct (tails_some (g_cs g) Hgw) as [TG1 TG2]. rewrite TG1. clear TG1 TG2.
    unfold group_and, add_conditions in Er. rewrite !has_one_eq in Er by exact Hgw. cbn [bind] in Er.
    destruct ds as [|d0 [|d1 ds]]; [inversion Hm|unfold many in Hm; simpl in Hm; lia|].
    remember (d0 :: d1 :: ds) as dl. assert (Hdn : dl <> []) by (subst; discriminate).
    destruct (g_cs g) as [|x xs] eqn:Eg; [congruence|]. rewrite <- Eg in *. clear Eg x xs.
    change (str_eqb AND AND) with true in Er. change (str_eqb AND OR) with false in Er.
    rewrite andb_true_r, andb_false_r in Er.
    destruct (someTail OR (g_cs g)) eqn:HO; cbn [negb].
    - injection Er as <-. cbn [g_cs g_neg set_cs]. split; [reflexivity|]. split; [unfold many; cbn [length]; destruct dl; [congruence|cbn [length]; lia]|].
      cbn [flat_map]. rewrite den_boxed. reflexivity.
    - destruct (new_group_cs AND dl (or_introl eq_refl) Hw) as (dl' & E & HF). rewrite E in Er. cbn [bind] in Er.
      injection Er as <-. cbn [g_cs g_neg set_cs]. split; [reflexivity|]. split; [unfold many; cbn [length]; lia|].
      cbn [flat_map]. rewrite !den_boxed. cbn [app]. unfold boxed at 2. cbn [g_cs g_neg negif g_join].
      rewrite (rejoined_list AND dl dl' Hw HF). reflexivity.
  Qed.
  Lemma or_many_exact g ds r : g_ok g -> g_cs g <> [] -> many ds -> Forall wf ds -> group_or g ds = Ok r ->
    g_neg r = g_neg g /\ many (g_cs r) /\
    V (dens (g_cs r)) = if tails OR (g_cs g) then and3 (boxed g) (V (flat_map (rejoined AND) ds))
                        else V (dens (g_cs g) ++ flat_map (rejoined OR) ds)%list.
  Proof.
    intros Hg Hne Hm Hw Er. pose proof Hg as [Hgj Hgw]. destruct (tails_some (g_cs g) Hgw) as [TG1 TG2]. rewrite TG2. clear TG1 TG2.
    unfold group_or, add_conditions in Er. rewrite !has_one_eq in Er by exact Hgw. cbn [bind] in Er.
    destruct ds as [|d0 [|d1 ds]]; [inversion Hm|unfold many in Hm; simpl in Hm; lia|].
    remember (d0 :: d1 :: ds) as dl. assert (Hdn : dl <> []) by (subst; discriminate).
    destruct (g_cs g) as [|x xs] eqn:Eg; [congruence|]. rewrite <- Eg in *. clear Eg x xs.
    change (str_eqb OR AND) with false in Er. change (str_eqb OR OR) with true in Er.
    rewrite andb_true_r, andb_false_r in Er.
    destruct (someTail AND (g_cs g)) eqn:HO; cbn [negb].
    - destruct (new_group_cs OR dl (or_intror eq_refl) Hw) as (dl' & E & HF). rewrite E in Er. cbn [bind] in Er.
      unfold of_g in Er; cbn [c_join bind g_join g_neg g_cs g_br] in Er. injection Er as <-. cbn [g_cs g_neg set_cs].
      split; [reflexivity|]. split; [unfold many; rewrite app_length; cbn [length]; destruct (g_cs g); [congruence|cbn [length]; lia]|].
      rewrite flat_map_app. f_equal. f_equal. cbn [flat_map]. rewrite app_nil_r. cbn [den orb andb].
      rewrite (rejoined_list OR dl dl' Hw HF). destruct dl as [|d dl0]; [congruence|]. cbn [flat_map]. unfold rejoined at 1 3.
      inversion Hw as [|? ? Hwd _]; subst. pose proof (den_nonempty lv d Hwd) as Hn. destruct (den lv d) as [|[jj vv] rr]; [congruence|]. reflexivity.
    - destruct (new_group_cs AND dl (or_introl eq_refl) Hw) as (dl' & E & HF). rewrite E in Er. cbn [bind] in Er.
      injection Er as <-. cbn [g_cs g_neg set_cs]. split; [reflexivity|]. split; [unfold many; cbn [length]; lia|].
      cbn [flat_map]. rewrite !den_boxed. cbn [app]. unfold boxed at 2. cbn [g_cs g_neg negif g_join].
      rewrite (rejoined_list AND dl dl' Hw HF). reflexivity.
  Qed.
End Exact.
