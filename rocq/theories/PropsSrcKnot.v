(** C108, continued: groups of conditions in the source text run with shared arrays.
    ApplyFieldTable and ApplyFieldSpec write into the group they are called on, for every
    store; a group can come to contain itself, and rendering it then never ends. *)
From Coq Require Import String Ascii List Bool Arith NArith ZArith Lia.
From Verif Require Import GoStr Value SrcAst SrcParse SrcProg SrcSem Heap HeapFacts HeapShare SrcMem PropsSrcMem Names Cond.
Import ListNotations.
Local Open Scope string_scope.
Local Open Scope nat_scope.

(** * Groups *)

Definition g_group (b cs br : mval) : mval := RStruct "Group" [("BaseCondition", b); ("conditions", cs); ("withBrackets", br)].
Lemma assign_den : forall (st : mem) s xs i y, DenL st s xs -> i < length xs -> DenL (assign st s i y) s (set_nth i y xs).
Proof.
  intros q s xs i y Q Li. pose proof (DenL_len _ _ _ Q) as LL.
  pose proof (assign_read_any q s _ i y Q ltac:(lia)) as R.
  destruct Q as (a & E & U1 & U2 & Q). eexists. unfold assign. cbn [st_arrs]. rewrite set_nth_same by (apply nth_error_Some; congruence). split; [reflexivity|].
  cbn [a_used a_cells]. rewrite (the_arr_nth _ _ _ E). split; [exact U1|]. split; [rewrite set_nth_length by lia; exact U2|].
  unfold read, assign, the_arr at 1 in R. cbn [st_arrs] in R. rewrite (nth_error_nth _ _ _ (set_nth_same (sl_arr s) _ (st_arrs q) ltac:(apply nth_error_Some; congruence))) in R.
  cbn [a_cells] in R. now rewrite (the_arr_nth _ _ _ E) in R.
Qed.
Lemma element_at : forall (st : mem) s xs i c, DenL st s xs -> nth_error xs i = Some c -> element (RObj s) (RInt "int" (Z.of_nat i)) st = Done (c, st).
Proof. intros st s xs i c D N. unfold element, items, then_. rewrite (proj2 (Z.ltb_ge _ _)), Nat2Z.id by lia. rewrite (DenL_read _ _ _ D), N. reflexivity. Qed.
Lemma put_at : forall (st : mem) s xs i w, DenL st s xs -> i < length xs -> put (RObj s) (RInt "int" (Z.of_nat i)) w st = Done (tt, assign st s i w).
Proof. intros st s xs i c D N. unfold put. rewrite (proj2 (Z.ltb_ge _ _)), Nat2Z.id by lia. rewrite (proj2 (Nat.ltb_lt _ _)); [reflexivity|]. now rewrite <- (DenL_len _ _ _ D). Qed.
Lemma loop_writes : forall (B : menv -> mm mctl) k v E s (f : mval -> mval) (ok : mval -> Prop),
  (forall st xs i c, DenL st s xs -> nth_error xs i = Some c -> ok c ->
     m_leave E (B (bind_new (bind_new E None k (RInt "int" (Z.of_nat i))) None v c)) st = Done (Next E, assign st s i (f c))) ->
  forall cs done_ st, DenL st s (done_ ++ cs)%list -> Forall ok cs ->
  exists st', m_loop B k v (vmap (fun n => (RInt "int" (Z.of_nat n), element (RObj s) (RInt "int" (Z.of_nat n)))) (seq (length done_) (length cs))) E st = Done (Next E, st') /\
    DenL st' s (done_ ++ map f cs)%list.
Proof.
  intros B k v E s f ok H cs. induction cs as [|c cs IH]; intros d st D F.
  - exists st. split; [reflexivity|exact D].
  - inversion F as [|? ? F1 F2]; subst.
    assert (N : nth_error (d ++ c :: cs) (length d) = Some c) by (rewrite nth_error_app2, Nat.sub_diag by lia; reflexivity).
    assert (D' : DenL (assign st s (length d) (f c)) s ((d ++ [f c]) ++ cs)%list).
    { pose proof (assign_den st s _ (length d) (f c) D ltac:(rewrite app_length; cbn; lia)) as A.
      replace (set_nth (length d) (f c) (d ++ c :: cs)) with ((d ++ [f c]) ++ cs)%list in A; [exact A|].
      unfold set_nth. rewrite firstn_app, Nat.sub_diag, firstn_all, firstn_O, app_nil_r, <- app_assoc. f_equal. cbn [app]. f_equal.
      rewrite skipn_app, skipn_all2 by lia. replace (S (length d) - length d) with 1 by lia. reflexivity. }
    destruct (IH (d ++ [f c])%list _ D' F2) as (st' & L & DD). exists st'. rewrite <- app_assoc in DD. split; [|exact DD].
    rewrite <- L, app_length. cbn [length seq vmap m_loop values_of]. replace (length d + 1) with (S (length d)) by lia.
    unfold then_ at 1. rewrite (element_at _ _ _ _ _ D N). unfold then_ at 1. rewrite (H _ _ _ _ D N F1). reflexivity.
Qed.
Ltac runs_loop := lazy -[m_mcall m_run sl_len element put assign Z.of_nat Z.sub seq vmap m_loop values_of].
Lemma exec_range : forall pol call rounds k v e body E,
  m_exec pol call rounds (SRange k v e body) E =
  then_ (m_eval pol call E e) (fun w => then_ (stop (m_range_of w)) (fun l => m_loop (m_block pol call rounds body) k v l E)).
Proof. reflexivity. Qed.
Lemma block_cons : forall pol call rounds s r E,
  m_block pol call rounds (s :: r) E = then_ (m_exec pol call rounds s E) (fun c => match c with Next E' => m_block pol call rounds r E' | _ => done c end).
Proof. reflexivity. Qed.
Ltac to_loop := lazy -[m_exec m_mcall m_run sl_len element put assign Z.of_nat Z.sub seq vmap m_loop m_block values_of].
(** A method [f] of Group that calls [m] on every condition and stores what it returns in
    the group's own array: the group that was passed and the one returned are the same,
    and it now holds the new conditions. *)
Definition overwrites (f m : string) (args : list mval) : Prop := forall pol n st b s br cs (g : mval -> mval),
  DenL st s cs ->
  (forall c st', In c cs -> m_mcall (m_run pol n) c m false args st' = Done (g c, st') /\ values_of (g c) = [g c]) ->
  exists st', m_run pol (S n) f false (g_group b (RObj s) br :: args) st = Done (g_group b (RObj s) br, st') /\ DenL st' s (map g cs).
Theorem C108_overwrites : forall t d,
  overwrites "Group.ApplyFieldTable" "ApplyFieldTable" [RStr "TableName" t] /\ overwrites "Group.ApplyFieldSpec" "ApplyFieldSpec" [of_fdef d].
Proof.
  intros t [fn ft fa]. split; intros pol n st b s br cs g D C; rewrite m_run_S; unfold g_group, of_fdef in *; cbn [f_name f_table f_alias] in *;
  to_loop; rewrite block_cons, exec_range; to_loop;
  (match goal with |- context [m_loop ?B ?k ?v ?l ?E] => 
    set (B0 := B); set (E0 := E);
    pose proof (loop_writes B0 k v E0 s g (fun c => In c cs)) as W end;
  assert (HB : forall st xs i c, DenL st s xs -> nth_error xs i = Some c -> In c cs ->
     m_leave E0 (B0 (bind_new (bind_new E0 None "idx" (RInt "int" (Z.of_nat i))) None "_" c)) st = Done (Next E0, assign st s i (g c)));
  [ intros q xs i c Q N I; destruct (C c q I) as [C1 C2]; subst B0 E0; runs_loop;
    rewrite (element_at _ _ _ _ _ Q N); runs_loop; rewrite C1; runs_loop; rewrite C2; runs_loop;
    rewrite (put_at _ _ _ _ _ Q) by (apply nth_error_Some; congruence); reflexivity
  | destruct (W HB cs [] st D) as (st' & L & D'); [apply Forall_forall; auto|];
    cbn [length] in L; rewrite (DenL_len _ _ _ D) in L;
    match goal with |- context [m_loop ?a ?b ?c ?d ?e ?f] => replace (m_loop a b c d e f) with (@Done (mctl * mem) (Next E0, st')) by (symmetry; exact L) end;
    exists st'; split; [subst E0; reflexivity|exact D'] ]).
Qed.
Lemma leaf_applied : forall pol n l t st, (forall cu, l_kind l <> KCustom cu) ->
  m_mcall (m_run pol (S (S (S (S n))))) (of_leaf l) "ApplyFieldTable" false [RStr "TableName" t] st =
  Done (of_leaf (mkLeaf (l_kind l) (l_join l) (l_neg l) (mkF (f_name (l_def l)) t (f_alias (l_def l))) (l_val l)), st).
Proof.
  intros pol n [k j ng d v] t st C. cbn [l_kind] in C. destruct k; try (now destruct (C cu)); runs; reflexivity.
Qed.
(** so for a group of predicates of the library: ApplyFieldTable returns the group it was
    called on, whose predicates are now those of the table *)
Definition of_table (t : string) (l : leaf) : leaf := mkLeaf (l_kind l) (l_join l) (l_neg l) (mkF (f_name (l_def l)) t (f_alias (l_def l))) (l_val l).
Theorem C108_apply_table : forall pol n st b s br ls t, DenL st s (map of_leaf ls) -> Forall (fun l => forall cu, l_kind l <> KCustom cu) ls ->
  exists st', m_run pol (5 + n) "Group.ApplyFieldTable" false [g_group b (RObj s) br; RStr "TableName" t] st = Done (g_group b (RObj s) br, st') /\
    DenL st' s (map (fun l => of_leaf (of_table t l)) ls).
Proof.
  intros pol n st b s br ls t D F.
  set (g := fun c => match m_mcall (m_run pol (4 + n)) c "ApplyFieldTable" false [RStr "TableName" t] empty_store with Done (w, _) => w | _ => c end).
  assert (G : forall l, In l ls -> g (of_leaf l) = of_leaf (of_table t l)).
  { intros l I. rewrite Forall_forall in F. unfold g. cbn [Nat.add]. rewrite leaf_applied by (apply F, I). reflexivity. }
  destruct (proj1 (C108_overwrites t (mkF "" "" "")) pol (4 + n) st b s br (map of_leaf ls) g D) as (st' & R & D').
  - intros c q I. apply in_map_iff in I. destruct I as (l & <- & I). rewrite G by exact I. rewrite Forall_forall in F.
    split; [cbn [Nat.add]; apply leaf_applied, F, I|]. unfold of_table, of_leaf. cbn [l_kind]. specialize (F l I). destruct (l_kind l); reflexivity.
  - exists st'. split; [exact R|]. rewrite map_map in D'. erewrite map_ext_in in D'; [exact D'|]. intros l I. apply G, I.
Qed.
Example C108_apply_example : let ls := [mkLeaf KEq AND false (mkF "a" "" "") (VOther 1); mkLeaf KNull AND true (mkF "b" "" "") VNil] in
  DenL (mkSt [mkA (map of_leaf ls) 2] false : mem) (mkSl 0 2) (map of_leaf ls) /\ Forall (fun l => forall cu, l_kind l <> KCustom cu) ls.
Proof. split; [eexists; split; [reflexivity|]; cbn; auto|]. repeat constructor; discriminate. Qed.

(** ** A group that contains itself *)
Definition grows (st st' : mem) : Prop := forall a x, nth_error (st_arrs st) a = Some x -> nth_error (st_arrs st') a = Some x.
Lemma grows_den : forall st st' s xs, grows st st' -> DenL st s xs -> DenL st' s xs.
Proof. intros st st' s xs G (a & E & R). exists a. split; [apply G; exact E|exact R]. Qed.
Lemma grows_alloc : forall (st : mem) xs e, grows st (snd (alloc RNil st xs e)).
Proof. intros st xs e a x H. unfold alloc. cbn [snd st_arrs]. rewrite nth_error_app1; [exact H|]. apply nth_error_Some. congruence. Qed.
Lemma grows_append : forall pol (st0 st : mem) s xs, grows st0 st -> length (st_arrs st0) <= sl_arr s -> sl_arr s < length (st_arrs st) -> grows st0 (snd (append RNil pol st s xs)).
Proof.
  intros pol st0 st s xs G L1 L2 a x H. assert (A : a < length (st_arrs st0)) by (apply nth_error_Some; congruence).
  unfold append. destruct (_ <=? _).
  - cbn [snd st_arrs]. rewrite set_nth_other by lia. apply G, H.
  - apply grows_alloc, G, H.
Qed.
Lemma den_alloc : forall (st : mem) xs e, DenL (snd (alloc RNil st xs e)) (fst (alloc RNil st xs e)) xs.
Proof.
  intros st xs e. unfold alloc. cbn [fst snd]. eexists. cbn [st_arrs sl_arr sl_len]. rewrite nth_error_app2, Nat.sub_diag by lia. split; [reflexivity|].
  cbn [a_used a_cells]. split; [lia|]. split; [rewrite app_length; lia|]. rewrite firstn_app, Nat.sub_diag, firstn_O, app_nil_r. apply firstn_all.
Qed.
Lemma fresh_is : forall l e (st : mem), fresh l e st = Done (RObj (fst (alloc RNil st l e)), snd (alloc RNil st l e)).
Proof. reflexivity. Qed.
Lemma extended_is : forall pol s l (st : mem), extended pol (RObj s) l st = Done (RObj (fst (append RNil pol st s l)), snd (append RNil pol st s l)).
Proof. intros. unfold extended. destruct append. reflexivity. Qed.
Lemma library_is : forall s l (st : mem) sep w, DenL st s l -> library "strings.Join" [RSlice l; RStr "string" sep] = Done (RStr "string" w : mval) ->
  m_library "strings.Join" [RObj s; RStr "string" sep] st = Done (RStr "string" w, st).
Proof. intros s l st sep w D L. unfold m_library. cbn [vmap shown]. rewrite (DenL_read _ _ _ D), L. reflexivity. Qed.

Definition g_eq (j f : string) (v : mval) : mval :=
  RStruct "equalTo" [("BaseCondition", of_base j false); ("FieldValue", RStruct "FieldValue" [("FieldDefinition", of_fdef (mkF f "" "")); ("value", v)])].
Ltac runs_leaf := lazy -[m_mcall m_run m_library fresh extended alloc append fst snd g_eq].
Lemma block_step : forall pol call rounds s r E E' (st st' : mem), m_exec pol call rounds s E st = Done (Next E', st') ->
  m_block pol call rounds (s :: r) E st = m_block pol call rounds r E' st'.
Proof. intros pol call rounds s r E E' st st' H. rewrite block_cons. unfold then_. rewrite H. reflexivity. Qed.
Lemma block_ret : forall pol call rounds s r E vs (st st' : mem), m_exec pol call rounds s E st = Done (Ret vs, st') ->
  m_block pol call rounds (s :: r) E st = Done (Ret vs, st').
Proof. intros pol call rounds s r E vs st st' H. rewrite block_cons. unfold then_. rewrite H. reflexivity. Qed.
Ltac to_block := rewrite m_run_S; lazy -[m_block m_run g_eq].
Lemma spec_runs : forall pol n f st, In f ["a"; "b"; "c"] -> exists st',
  m_run pol (S n) "FieldDefinition.RenderSpec" false [of_fdef (mkF f "" "")] st = Done (RStr "string" f, st') /\ grows st st'.
Proof.
  intros pol n f st I.
  set (st1 := snd (alloc RNil st [] 4)). set (s1 := fst (alloc RNil st [] 4)).
  set (st2 := snd (append RNil pol st1 s1 [RStr "string" f])). set (s2 := fst (append RNil pol st1 s1 [RStr "string" f])).
  assert (D2 : DenL st2 s2 [RStr "string" f]) by (apply (append_den RNil pol st1 s1 [] [RStr "string" f]); apply den_alloc).
  assert (G2 : grows st st2).
  { apply grows_append; [apply grows_alloc| |]; unfold s1, st1, alloc; cbn [fst snd sl_arr st_arrs]; [lia|rewrite app_length; cbn; lia]. }
  exists st2. split; [|exact G2].
  assert (J : m_library "strings.Join" [RObj s2; RStr "string" ""] st2 = Done (RStr "string" f, st2)).
  { apply (library_is _ _ _ _ _ D2). destruct I as [<-|[<-|[<-|[]]]]; vm_compute; reflexivity. }
  to_block. destruct I as [<-|[<-|[<-|[]]]];
    (erewrite block_step by (runs_leaf; rewrite fresh_is; reflexivity);
     erewrite block_step by (runs_leaf; reflexivity);
     erewrite block_step by (runs_leaf; rewrite extended_is; reflexivity);
     erewrite block_step by (runs_leaf; reflexivity);
     erewrite block_ret by (runs_leaf; fold s1 st1; fold s2 st2; rewrite J; reflexivity); reflexivity).
Qed.
Lemma eq_negate : forall pol n j f v st, m_mcall (m_run pol (S n)) (g_eq j f v) "IsNegate" false [] st = Done (RBool false, st).
Proof. intros. runs. reflexivity. Qed.
Lemma eq_spec : forall pol n j f v st, m_mcall (m_run pol n) (g_eq j f v) "RenderSpec" false [] st = m_run pol n "FieldDefinition.RenderSpec" false [of_fdef (mkF f "" "")] st.
Proof. intros. lazy -[m_run]. reflexivity. Qed.
Lemma eq_sql : forall pol n j f v st, In f ["a"; "b"; "c"] ->
  m_mcall (m_run pol n) (g_eq j f v) "RenderSQL" false [] st = Spent \/
  exists w st', m_mcall (m_run pol n) (g_eq j f v) "RenderSQL" false [] st = Done (RStr "string" w, st') /\ grows st st'.
Proof.
  intros pol n j f v st I.
  replace (m_mcall (m_run pol n) (g_eq j f v) "RenderSQL" false [] st) with (m_run pol n "equalTo.RenderSQL" false [g_eq j f v] st) by (lazy -[m_run]; reflexivity).
  destruct n as [|[|n]]; [now left|left|right].
  - to_block. rewrite block_cons. unfold then_. runs_leaf. replace (m_mcall (m_run pol 0) (g_eq j f v) "IsNegate" false [] st) with (@Spent (mval * mem)) by (runs; reflexivity). reflexivity.
  - destruct (spec_runs pol n f st I) as (st1 & E1 & G1).
    set (l := [RStr "string" f; RStr "string" "=?"] : list mval).
    set (st2 := snd (alloc RNil st1 l 0)). set (s2 := fst (alloc RNil st1 l 0)).
    exists (f ++ "=?"), st2. split; [|intros a x H; apply grows_alloc, G1, H].
    assert (J : m_library "strings.Join" [RObj s2; RStr "string" ""] st2 = Done (RStr "string" (f ++ "=?"), st2)).
    { apply (library_is _ _ _ _ _ (den_alloc st1 l 0)). unfold l. destruct I as [<-|[<-|[<-|[]]]]; vm_compute; reflexivity. }
    to_block. erewrite block_step by (runs_leaf; reflexivity).
    erewrite block_step by (runs_leaf; rewrite eq_negate; runs_leaf; rewrite eq_spec, E1; runs_leaf; rewrite fresh_is; reflexivity).
    unfold s2, st2, l in *. erewrite block_ret by (runs_leaf; cbn [snd]; rewrite J; reflexivity). reflexivity.
Qed.
Lemma loop_spent : forall (B : menv -> mm mctl) k v (Ev : string -> menv) s cs,
  (forall i c w st, nth_error cs i = Some c -> DenL st s cs ->
     let r := m_leave (Ev w) (B (bind_new (bind_new (Ev w) None k (RInt "int" (Z.of_nat i))) None v c)) st in
     r = Spent \/ (S i < length cs /\ exists w' st', r = Done (Next (Ev w'), st') /\ DenL st' s cs)) ->
  forall m i w st, DenL st s cs -> i + S m = length cs ->
  m_loop B k v (vmap (fun n => (RInt "int" (Z.of_nat n), element (RObj s) (RInt "int" (Z.of_nat n)))) (seq i (S m))) (Ev w) st = Spent.
Proof.
  intros B k v Ev s cs H. induction m as [|m IH]; intros i w st D L;
    (destruct (nth_error cs i) as [c|] eqn:N; [|apply nth_error_None in N; lia]);
    cbn [seq vmap m_loop]; unfold then_ at 1; rewrite (element_at _ _ _ _ _ D N); unfold then_ at 1; destruct (H i c w st N D) as [-> | (Li & w' & st' & -> & D')]; try reflexivity; [lia|].
  apply (IH (S i) w' st' D'). lia.
Qed.
Lemma eq_join : forall pol n j f v st b, m_mcall (m_run pol (S n)) (g_eq j f v) "RenderJoin" false [RBool b] st = Done (RStr "string" (if b then "" else j), st).
Proof. intros. destruct b; runs; reflexivity. Qed.
Lemma grp_join : forall pol n j ng s br st b, m_mcall (m_run pol (S n)) (g_group (of_base j ng) s br) "RenderJoin" false [RBool b] st = Done (RStr "string" (if b then "" else j), st).
Proof. intros. destruct b; runs; reflexivity. Qed.
Lemma grp_sql : forall pol n j ng s br st, m_mcall (m_run pol n) (g_group (of_base j ng) s br) "RenderSQL" false [] st = m_run pol n "Group.RenderSQL" false [g_group (of_base j ng) s br] st.
Proof. intros. lazy -[m_run]. reflexivity. Qed.
Ltac runs_group := lazy -[m_mcall m_run g_eq g_group String.append].
(** Rendering a group whose fourth condition is a group with the very same slice. *)
Theorem C108_tied : forall pol a j1 v1 v2 v3 br ngb n st base br0, let s := mkSl a 4 in
  DenL st s [g_eq j1 "a" v1; g_eq "AND" "b" v2; g_eq "AND" "c" v3; g_group (of_base "AND" ngb) (RObj s) br] ->
  m_run pol n "Group.RenderSQL" false [g_group base (RObj s) br0] st = Spent.
Proof.
  intros pol a j1 v1 v2 v3 br ngb. induction n as [|n IH]; intros st base br0 s D; [reflexivity|].
  set (cs := [g_eq j1 "a" v1; g_eq "AND" "b" v2; g_eq "AND" "c" v3; g_group (of_base "AND" ngb) (RObj s) br]) in *.
  rewrite m_run_S. lazy -[m_block m_run g_group].
  erewrite block_step by (runs_group; reflexivity).
  unfold g_group at 1. erewrite block_step by (lazy -[m_mcall m_run]; reflexivity).
  rewrite block_cons, exec_range. to_loop.
  set (Ev := fun w : string => [("sql", (Some (TyName "string"), RStr "string" w));
    ("conditionsGroup", (Some (TyName "Group"), RStruct "Group" [("BaseCondition", base); ("conditions", RObj s); ("withBrackets", br0)]))] : menv).
  match goal with |- context [m_loop ?B ?k ?v ?l ?E st] => assert (L : m_loop B k v l E st = Spent) end.
  2: { rewrite L. reflexivity. }
  match goal with |- m_loop ?B ?k ?v _ _ _ = _ => apply (loop_spent B k v Ev s cs) with (m := 3) (i := 0) (w := "") end; [|exact D|reflexivity].
  clear D st. intros i c w st N Q. cbv zeta. unfold m_leave, then_.
  assert (C : (i < 3 /\ exists j f v, c = g_eq j f v /\ In f ["a"; "b"; "c"] /\ (i = 0 \/ j = "AND")) \/ (i = 3 /\ c = g_group (of_base "AND" ngb) (RObj s) br)).
  { destruct i as [|[|[|[|i]]]]; cbn [cs nth_error] in N; try (injection N as <-);
      [left; split; [lia|]; eexists _, _, _; split; [reflexivity|]; cbn; auto ..|right; auto|destruct i; discriminate]. }
  destruct n as [|n].
  { left. rewrite block_cons. unfold then_ at 1. 
    destruct C as [(_ & j & f & v & -> & _)|(_ & ->)]; lazy -[m_mcall m_run g_eq g_group Z.of_nat Z.eqb];
    match goal with |- context [m_mcall (m_run pol 0) ?c "RenderJoin" false ?l st] => replace (m_mcall (m_run pol 0) c "RenderJoin" false l st) with (@Spent (mval * mem)) by (lazy -[Z.of_nat Z.eqb]; reflexivity) end; reflexivity. }
  destruct C as [(Li & j & f & v & -> & I & J)|(-> & ->)].
  - destruct (eq_sql pol (S n) j f v st I) as [X | (x & st' & X & G)].
    + left. destruct i as [|[|[|i]]]; [|(destruct J as [J | ->]; [discriminate|])..|lia];
        (erewrite block_step by (lazy -[m_mcall m_run g_eq String.append]; rewrite eq_join; reflexivity);
         erewrite block_step by (lazy -[m_mcall m_run g_eq String.append]; reflexivity);
         rewrite block_cons; unfold then_ at 1; lazy -[m_mcall m_run g_eq String.append]; rewrite X; reflexivity).
    + right. split; [cbn [length cs]; lia|]. 
      destruct i as [|[|[|i]]]; [|(destruct J as [J | ->]; [discriminate|])..|lia];
        (eexists _, st'; split; [|exact (grows_den _ _ _ _ G Q)];
         erewrite block_step by (lazy -[m_mcall m_run g_eq String.append]; rewrite eq_join; reflexivity);
         erewrite block_step by (lazy -[m_mcall m_run g_eq String.append]; reflexivity);
         erewrite block_step by (lazy -[m_mcall m_run g_eq String.append]; rewrite X; reflexivity);
         reflexivity).
  - left. 
    erewrite block_step by (lazy -[m_mcall m_run g_group of_base String.append]; rewrite grp_join; reflexivity);
    erewrite block_step by (lazy -[m_mcall m_run g_group of_base String.append]; reflexivity);
    rewrite block_cons; unfold then_ at 1; lazy -[m_mcall m_run g_group of_base String.append s]; rewrite grp_sql.
    rewrite (IH st _ _ Q). reflexivity.
Qed.
Lemma block_app : forall pol call rounds a b E E' (st st' : mem), m_block pol call rounds a E st = Done (Next E', st') ->
  m_block pol call rounds (a ++ b) E st = m_block pol call rounds b E' st'.
Proof.
  intros pol call rounds a b. induction a as [|s a IH]; intros E E' st st' H; [injection H as -> ->; reflexivity|].
  cbn [app]. rewrite block_cons in *. unfold then_ in *. destruct (m_exec pol call rounds s E st) as [[c st1]| | |]; try discriminate.
  destruct c; try discriminate. now apply IH.
Qed.
(** The program [knot] does not end: whatever the number of nested calls allowed, it is spent. *)
Theorem C108_knot_refuted : forall n, outcome go_growth n knot = Spent.
Proof.
  intros n. destruct (Nat.le_gt_cases 40 n) as [H|H]; [|do 40 (destruct n; [vm_compute; reflexivity|]); lia].
  replace n with (40 + (n - 40)) by lia. generalize (n - 40). clear n H. intros n.
  unfold outcome, m_client.
  match goal with |- context [client knot] => let r := eval vm_compute in (client knot) in change (client knot) with r end.
  lazy -[m_block m_run Nat.add empty_store go_growth].
  match goal with |- context [m_block ?p ?c ?r ?b ?E] => let b1 := eval cbv in (removelast b) in let b2 := eval cbv in (skipn (length b1) b) in change b with (b1 ++ b2)%list end.
  match goal with |- context [m_block go_growth ?c ?r (?a ++ ?b) [] empty_store] =>
    let x := eval vm_compute in (m_block go_growth c r a [] empty_store) in
    match x with Done (Next ?E, ?st) => rewrite (block_app go_growth c r a b [] E empty_store st) by (vm_compute; reflexivity) end end.
  rewrite block_cons. unfold then_. lazy -[m_mcall m_run Nat.add].
  match goal with |- context [m_mcall ?c (RStruct "Group" [("BaseCondition", RStruct _ [("joinType", RStr _ ?j); ("negate", RBool ?ng)]); ("conditions", ?sl); ("withBrackets", ?br)]) "RenderSQL" false [] ?st] =>
    assert (X : m_mcall c (g_group (of_base j ng) sl br) "RenderSQL" false [] st = Spent) end.
  { rewrite grp_sql. eapply (C108_tied go_growth). eexists. split; [reflexivity|]. split; [cbn; lia|]. split; [cbn; lia|]. lazy. reflexivity. }
  lazy -[m_mcall m_run Nat.add] in X. rewrite X. reflexivity.
Qed.

Definition groups_from_source := (C108_overwrites, C108_apply_table, C108_tied, C108_knot_refuted).
Print Assumptions groups_from_source.
