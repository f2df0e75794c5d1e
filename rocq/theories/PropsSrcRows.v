(** C104: which rows a condition written in Go concerns, for the source text itself.  The condition is
    an expression of the package's functions and methods, evaluated with the Go text; the statement is
    the one that the Go text builds from its value; the rows are those of DbSpec.v. *)
From Coq Require Import String Ascii List Bool Arith NArith ZArith Lia.
From Verif Require Import SrcSem SrcFacts SrcLoops SrcValues SrcCalls SrcBuilders SrcWrite Open PropsSrcLib PropsSrcSurface PropsSrcEnd.
From Verif Require Import GoStr Value Names Cond Build SqlSpec Spec StrFacts SqlFacts CondFacts CondText CondSem TreeFacts
  CondLogic CondMeaning Built CondThms PropsCond NameFacts StmtFacts Calls Surface BuildFacts BuildThms StmtText AtomFacts PropsSelect PropsAtoms PropsWrite DbSpec PropsDb PropsRows.
From Verif Require PropsChain PropsPaged PropsSrc PropsSrcCond PropsSrcBuild.
From Verif Require Import PropsSrcExpr.
Import ListNotations.
Local Open Scope string_scope.
Local Open Scope nat_scope.

(** * Specification *)

(** the expression has this value, whatever the bound on the depth of calls, if it is large enough *)
Definition has_value (i : impl nobody) (x : expr) (v : val nobody) : Prop := exists k, forall n, k <= n -> eval_go i n x = Done v.

(** what the expression says about a row, read off as it is written *)
Definition op_of (k : compares) : aop := match k with Eq_ => AEq | Gt_ => AGt | Ge_ => AGe | Lt_ => ALt | Le_ => ALe | In_ => AIn end.
Fixpoint said (rho : row) (x : expr) : tv :=
  match x with
  | ECmp k fn v => match field fn, bound_values v with Ok d, Some vs => rho (op_of k) (column d) vs | _, _ => U end
  | EHas fold fn s => match field fn with Ok d => rho (if fold then AILike else ALike) (column d) [VStr ("%" ++ s ++ "%")] | Panic => U end
  | ENull fn => match field fn with Ok d => rho ANull (column d) [] | Panic => U end
  | ENot e => not3 (said rho e)
  | EOp or e es | EThen or e es => fold_right (if or then or3 else and3) (if or then F else T) (said rho e :: map (said rho) es)
  | _ => U
  end.

(** The expressions considered: predicates, Not, And and Or of two operands, And of an expression and
    several predicates; as the calls of C70, whose rules are [PropsChain.kind]. *)
Definition kind_cmp (k : compares) : kind := match k with Eq_ => KEq | Gt_ => KGt | Ge_ => KGe | Lt_ => KLt | Le_ => KLe | In_ => KIn end.
Definition atom (x : expr) : option leaf :=
  match x with
  | ECmp k fn v => match field fn with Ok d => Some (mkLeaf (kind_cmp k) AND false d v) | Panic => None end
  | EHas fold fn s => match field fn with Ok d => Some (mkLeaf (if fold then KILike else KLike) AND false d (VStr s)) | Panic => None end
  | ENull fn => match field fn with Ok d => Some (mkLeaf KNull AND false d VNil) | Panic => None end
  | _ => None
  end.
Fixpoint atoms_of (xs : list expr) : option (list leaf) :=
  match xs with
  | [] => Some []
  | x :: r => match atom x, atoms_of r with Some l, Some ls => Some (l :: ls) | _, _ => None end
  end.
Fixpoint as_call (x : expr) : option PropsChain.call :=
  let two or fn e d := match as_call e, as_call d with Some c, Some b => Some (PropsChain.Two (negb or) fn c b) | _, _ => None end in
  let many (or fn : bool) e ds := match as_call e, atoms_of ds with Some c, Some ls => if or then None else Some (PropsChain.AndL fn c ls) | _, _ => None end in
  match x with
  | ENot e => match as_call e with Some c => Some (PropsChain.NotC c) | None => None end
  | EOp or e [d] => two or true e d
  | EOp or e ds => many or true e ds
  | EThen or e [d] => two or false e d
  | EThen or e ds => many or false e ds
  | _ => match atom x with Some l => Some (PropsChain.Pred l) | None => None end
  end.

(** * Facts *)

Lemma atom_model x l : atom x = Some l -> eval_model x = Ok (CLeaf l) /\ built (CLeaf l) /\ l_join l = AND.
Proof.
  assert (B : forall x, (exists k fn v, eval_model x = mk_cond k fn v) \/ (exists fn, eval_model x = is_null fn) -> eval_model x = Ok (CLeaf l) -> built (CLeaf l)).
  { intros y [(k & fn & v & E)|(fn & E)] E'; rewrite E in E'; [now apply (bt_lib k fn v)|now apply (bt_null fn)]. }
  destruct x as [|k fn v|f fn s|fn|e|o e es|o e es|j e|b e|j es|j es]; intros H; try discriminate; unfold atom in H;
    destruct (field fn) as [d|] eqn:Ed; try discriminate; injection H as <-.
  - assert (E : eval_model (ECmp k fn v) = Ok (CLeaf (mkLeaf (kind_cmp k) AND false d v))).
    { destruct k; cbn [eval_model]; unfold equal_to, greater_than, greater_or_equal, less_, less_or_equal, in_, mk_cond, new_field_value; now rewrite Ed. }
    split; [exact E|]. split; [|reflexivity]. refine (B _ _ E). left. destruct k; do 3 eexists; reflexivity.
  - assert (E : eval_model (EHas f fn s) = Ok (CLeaf (mkLeaf (if f then KILike else KLike) AND false d (VStr s)))).
    { destruct f; cbn [eval_model]; unfold icontains_, contains_, mk_cond, new_field_value; now rewrite Ed. }
    split; [exact E|]. split; [|reflexivity]. refine (B _ _ E). left. destruct f; do 3 eexists; reflexivity.
  - assert (E : eval_model (ENull fn) = Ok (CLeaf (mkLeaf KNull AND false d VNil))) by (cbn [eval_model]; unfold is_null; now rewrite Ed).
    split; [exact E|]. split; [|reflexivity]. refine (B _ _ E). right. eexists; reflexivity.
Qed.
Lemma atom_said rho x l : atom x = Some l -> good_leaf l -> said rho x = leaf_tv rho l.
Proof.
  destruct x as [|k fn v|f fn s|fn|e|o e es|o e es|j e|b e|j es|j es]; intros H; try discriminate; unfold atom in H;
    destruct (field fn) as [d|] eqn:Ed; try discriminate; injection H as <-; intros [_ Hg]; cbn [said]; rewrite Ed; unfold leaf_tv, leaf_args; cbn [l_kind l_def l_neg l_val] in *.
  - destruct k; cbn [kind_cmp aop_of op_of] in *; now destruct (bound_values v).
  - now destruct f.
  - reflexivity.
Qed.
Lemma atoms_model ds ls : atoms_of ds = Some ls -> eval_models ds = Ok (map CLeaf ls) /\ Forall (fun l => built (CLeaf l) /\ l_join l = AND) ls.
Proof.
  revert ls. induction ds as [|x ds IH]; intros ls H; cbn [atoms_of] in H; [injection H as <-; split; [reflexivity|constructor]|].
  destruct (atom x) as [l|] eqn:El; [|discriminate]. destruct (atoms_of ds) as [m|]; [|discriminate]. injection H as <-.
  destruct (IH m eq_refl) as [E F]. destruct (atom_model x l El) as (A & B & C). split; [cbn [eval_models map]; rewrite A; cbn [bind]; now rewrite E|]. now constructor.
Qed.
Lemma atoms_said rho ds ls : atoms_of ds = Some ls -> Forall good_leaf ls -> map (said rho) ds = map (leaf_tv rho) ls.
Proof.
  revert ls. induction ds as [|x ds IH]; intros ls H G; cbn [atoms_of] in H; [injection H as <-; reflexivity|].
  destruct (atom x) as [l|] eqn:El; [|discriminate]. destruct (atoms_of ds) as [m|] eqn:Em; [|discriminate]. injection H as <-.
  inversion G; subst. cbn [map]. f_equal; [now apply atom_said|now apply IH].
Qed.

(** the induction with one operand apart *)
Lemma as_call_facts : forall x e, as_call x = Some e ->
  eval_model x = PropsChain.run e /\
  Forall (fun l => built (CLeaf l) /\ l_join l = AND) (PropsChain.preds e) /\
  (Forall good_leaf (PropsChain.preds e) -> forall rho, said rho x = PropsChain.meant rho e).
Proof.
  assert (A : forall x e, match atom x with Some l => Some (PropsChain.Pred l) | None => None end = Some e ->
    eval_model x = PropsChain.run e /\ Forall (fun l => built (CLeaf l) /\ l_join l = AND) (PropsChain.preds e) /\
    (Forall good_leaf (PropsChain.preds e) -> forall rho, said rho x = PropsChain.meant rho e)).
  { intros x e. destruct (atom x) as [l|] eqn:El; [|discriminate]. intros [= <-]. destruct (atom_model x l El) as (E & B & C).
    split; [exact E|]. split; [constructor; [auto|constructor]|]. intros G rho. inversion G; subst. now apply atom_said. }
  assert (M : forall (fn : bool) x ds c ls, atoms_of ds = Some ls ->
    (eval_model x = PropsChain.run c /\ Forall (fun l => built (CLeaf l) /\ l_join l = AND) (PropsChain.preds c) /\
     (Forall good_leaf (PropsChain.preds c) -> forall rho, said rho x = PropsChain.meant rho c)) ->
    (do y <- eval_model x; do ys <- eval_models ds; (if fn then and_ else m_and) y ys) = PropsChain.run (PropsChain.AndL fn c ls) /\
    Forall (fun l => built (CLeaf l) /\ l_join l = AND) (PropsChain.preds (PropsChain.AndL fn c ls)) /\
    (Forall good_leaf (PropsChain.preds (PropsChain.AndL fn c ls)) -> forall rho, fold_right and3 T (said rho x :: map (said rho) ds) = PropsChain.meant rho (PropsChain.AndL fn c ls))).
  { intros fn x ds c ls El (IE & IP & IS). destruct (atoms_model ds ls El) as [E F]. cbn [PropsChain.run PropsChain.preds PropsChain.meant]. split; [|split].
    - rewrite IE, E. destruct (PropsChain.run c); reflexivity.
    - now apply Forall_app.
    - intros G rho. apply Forall_app in G as [G G']. now rewrite IS, (atoms_said rho ds ls El G'). }
  assert (Tw : forall (or fn : bool) x y c b,
    (eval_model x = PropsChain.run c /\ Forall (fun l => built (CLeaf l) /\ l_join l = AND) (PropsChain.preds c) /\
     (Forall good_leaf (PropsChain.preds c) -> forall rho, said rho x = PropsChain.meant rho c)) ->
    (eval_model y = PropsChain.run b /\ Forall (fun l => built (CLeaf l) /\ l_join l = AND) (PropsChain.preds b) /\
     (Forall good_leaf (PropsChain.preds b) -> forall rho, said rho y = PropsChain.meant rho b)) ->
    (do u <- eval_model x; do ys <- eval_models [y]; (if or then if fn then or_ else m_or else if fn then and_ else m_and) u ys) = PropsChain.run (PropsChain.Two (negb or) fn c b) /\
    Forall (fun l => built (CLeaf l) /\ l_join l = AND) (PropsChain.preds (PropsChain.Two (negb or) fn c b)) /\
    (Forall good_leaf (PropsChain.preds (PropsChain.Two (negb or) fn c b)) -> forall rho,
       fold_right (if or then or3 else and3) (if or then F else T) (said rho x :: map (said rho) [y]) = PropsChain.meant rho (PropsChain.Two (negb or) fn c b))).
  { intros or fn x y c b (IE & IP & IS) (JE & JP & JS). cbn [PropsChain.run PropsChain.preds PropsChain.meant eval_models]. split; [|split].
    - rewrite IE, JE. destruct (PropsChain.run c); [|reflexivity]. destruct (PropsChain.run b); [|reflexivity]. cbn [bind]. now destruct or.
    - now apply Forall_app.
    - intros G rho. apply Forall_app in G as [G G']. rewrite <- (IS G), <- (JS G'). cbn [map fold_right]. destruct or; cbn [negb]; destruct (said rho x), (said rho y); reflexivity. }
  induction x as [|k fn v|f fn s|fn|x IH|o x es IH IHs|o x es IH IHs|j x IH|b x IH|j es IHs|j es IHs] using expr_ind'; intros e H;
    try (apply A; exact H); try discriminate.
  - cbn [as_call] in H. destruct (as_call x) as [c|]; [|discriminate]. injection H as <-. destruct (IH c eq_refl) as (E & P & S).
    cbn [eval_model PropsChain.run PropsChain.preds PropsChain.meant said]. split; [now rewrite E|]. split; [exact P|]. intros G rho. now rewrite S.
  - destruct es as [|y [|z es]]; cbn [as_call] in H.
    + destruct (as_call x) as [c|]; [|discriminate]. destruct o; [discriminate|]. injection H as <-. exact (M true x [] c [] eq_refl (IH c eq_refl)).
    + destruct (as_call x) as [c|]; [|discriminate]. inversion IHs as [|? ? Hy _]; subst. destruct (as_call y) as [b|]; [|discriminate]. injection H as <-.
      pose proof (Tw o true x y c b (IH c eq_refl) (Hy b eq_refl)) as K. now destruct o.
    + destruct (as_call x) as [c|]; [|discriminate]. destruct (atoms_of (y :: z :: es)) as [ls|] eqn:El; [|discriminate]. destruct o; [discriminate|]. injection H as <-.
      exact (M true x (y :: z :: es) c ls El (IH c eq_refl)).
  - destruct es as [|y [|z es]]; cbn [as_call] in H.
    + destruct (as_call x) as [c|]; [|discriminate]. destruct o; [discriminate|]. injection H as <-. exact (M false x [] c [] eq_refl (IH c eq_refl)).
    + destruct (as_call x) as [c|]; [|discriminate]. inversion IHs as [|? ? Hy _]; subst. destruct (as_call y) as [b|]; [|discriminate]. injection H as <-.
      pose proof (Tw o false x y c b (IH c eq_refl) (Hy b eq_refl)) as K. now destruct o.
    + destruct (as_call x) as [c|]; [|discriminate]. destruct (atoms_of (y :: z :: es)) as [ls|] eqn:El; [|discriminate]. destruct o; [discriminate|]. injection H as <-.
      exact (M false x (y :: z :: es) c ls El (IH c eq_refl)).
Qed.

Lemma one_where b cs : Spec.calls b_call b [BWhere cs] = Spec.calls b_add_where b [cs].
Proof. reflexivity. Qed.

(** * Theorems *)

(** Whatever formula the expression [x] is, within the rules of C70: it evaluates without a panic, and
    SelectFrom(p).Where(x), Delete(p).Where(x) and Update(p).Set(...).Where(x) build, with no error,
    statements that return, remove and change the rows for which the formula is true, and no others. *)
Theorem C104_formula : forall (i : impl nobody) x e, as_call x = Some e -> PropsChain.kind e <> None -> Forall good_leaf (PropsChain.preds e) ->
  exists v, has_value i x v /\ forall p T, table_p p = Ok (mkT T "") -> raw_table_name p = T -> qname T ->
  (exists s ps, program i "SelectFrom" [of_tparam p] (("Where", [v]) :: build) (returned s ps) /\
     forall E db t, db T = Some t -> wide E t -> Forall (col_of_table E T t) (map l_def (PropsChain.preds e)) ->
     query E db s ps = Some (Rows E (map (combine (r_columns E t)) (filter (fun r => is_true (said (the_row E T t r) x)) (r_rows E t))))) /\
  (exists s ps, program i "Delete" [of_tparam p] (("Where", [v]) :: build) (returned s ps) /\
     forall E db t, db T = Some t -> wide E t -> Forall (col_of_table E T t) (map l_def (PropsChain.preds e)) ->
     exists db', change E db s ps = Some db' /\ (forall n, n <> T -> db' n = db n) /\
       db' T = Some (mkRel E (r_columns E t) (filter (fun r => negb (is_true (said (the_row E T t r) x))) (r_rows E t)))) /\
  (forall sets vs, let cs := map (fun y => f_name (fv_def y)) sets in sets <> [] -> singles sets vs -> Forall (fun c => name c = true) cs ->
   exists s ps, program i "Update" [of_tparam p] (("Set", fvals sets) :: ("Where", [v]) :: build) (returned s ps) /\
     forall E db t, db T = Some t -> wide E t -> Forall (col_of_table E T t) (map l_def (PropsChain.preds e)) -> NoDup cs -> incl cs (r_columns E t) ->
     exists db', change E db s ps = Some db' /\ (forall n, n <> T -> db' n = db n) /\
       db' T = Some (mkRel E (r_columns E t) (map (fun r => if is_true (said (the_row E T t r) x)
         then map (fun cv => match assoc (fst cv) (combine cs (map (stored E) vs)) with Some y => y | None => snd cv end) (combine (r_columns E t) r)
         else r) (r_rows E t)))).
Proof.
  intros i x e Hx Hk Hl. destruct (as_call_facts x e Hx) as (Ex & Hb & Hs). specialize (Hs Hl).
  destruct (C76_formula e Hk) as (c & Ec & Hc).
  { intros l Hi. rewrite Forall_forall in Hb, Hl. destruct (Hb l Hi). auto. }
  exists (src_cond c). split.
  { destruct (C102_expressions_from_source i x) as [k H]. exists k. intros n Hn. rewrite (H n Hn), Ex, Ec. reflexivity. }
  intros p T Et Hp Hq. destruct (Hc p T Et Hp Hq) as (S & D & U). split; [|split].
  - destruct S as (b0 & b & s & ps & E0 & E1 & E2 & R). exists s, ps. split.
    + eapply program_is; [apply (proj1 (C102_programs_from_source i p) [BWhere [c]])|]. rewrite E0. cbn [bind]. rewrite one_where, E1. cbn [bind]. rewrite E2. reflexivity.
    + intros E db t H1 H2 H3. rewrite (R E db t H1 H2 H3). do 3 f_equal. apply filter_ext. intros r. now rewrite Hs.
  - destruct D as (d & s & ps & E1 & E2 & R). exists s, ps. split.
    + eapply program_is; [apply (proj2 (proj2 (proj2 (proj2 (proj2 (C102_programs_from_source i p))))) [[c]])|]. rewrite E1. cbn [bind]. rewrite E2. reflexivity.
    + intros E db t H1 H2 H3. destruct (R E db t H1 H2 H3) as (db' & K1 & K2 & K3). exists db'. split; [exact K1|]. split; [exact K2|]. rewrite K3. do 2 f_equal.
      apply filter_ext. intros r. now rewrite Hs.
  - intros sets vs cs H1 H2 H3. destruct (U [USet sets; UWhere [c]] vs eq_refl) as (u & s & ps & E1 & E2 & R); [cbn; now rewrite app_nil_r..|]. exists s, ps. split.
    + eapply program_is; [apply (proj1 (proj2 (proj2 (proj2 (proj2 (C102_programs_from_source i p))))) [USet sets; UWhere [c]])|]. rewrite E1. cbn [bind]. rewrite E2. reflexivity.
    + cbn [flat_map uc_set app] in R. rewrite app_nil_r in R. intros E db t K1 K2 K3 K4 K5. destruct (R E db t K1 K2 K3 K4 K5) as (db' & L1 & L2 & L3).
      exists db'. split; [exact L1|]. split; [exact L2|]. rewrite L3. do 2 f_equal. apply map_ext. intros r. now rewrite Hs.
Qed.

(** InsertInto(p), any Values calls: one row is added, with the given values in the named columns (C75);
    and SelectFrom(p).Where of equalities with inserted values then finds it (C78). *)
Theorem C104_insert : forall (i : impl nobody) p T h vs, let sets := List.concat h in let cs := map (fun x => f_name (fv_def x)) sets in
  raw_table_name p = T -> qname T -> sets <> [] -> singles sets vs -> Forall (fun c => name c = true) cs ->
  exists s, program i "InsertInto" [of_tparam p] (flat_map i_text h ++ build)%list (returned s vs) /\
  forall E db t, db T = Some t -> NoDup cs -> incl cs (r_columns E t) -> exists db', change E db s vs = Some db' /\
    (forall n, n <> T -> db' n = db n) /\ db' T = Some (mkRel E (r_columns E t) (r_rows E t ++ [new_row E (r_columns E t) cs vs])).
Proof.
  intros i p T h vs sets cs H1 H2 H3 H4 H5. destruct (C75_insert p T h vs H1 H2 H3 H4 H5) as (x & s & E1 & E2 & R). exists s. split; [|exact R].
  eapply program_is; [apply (proj1 (proj2 (proj2 (proj2 (C102_programs_from_source i p)))))|]. rewrite E1. cbn [bind]. rewrite E2. reflexivity.
Qed.
Theorem C104_read_back : forall (i : impl nobody) p T sets vs ls, table_p p = Ok (mkT T "") -> raw_table_name p = T -> qname T ->
  sets <> [] -> singles sets vs -> Forall (fun c => name c = true) (map (fun x => f_name (fv_def x)) sets) -> NoDup (map (fun x => f_name (fv_def x)) sets) ->
  ls <> [] -> Forall (fun y => exists l, atom y = Some l /\ l_kind l = KEq /\ f_table (l_def l) = "" /\ f_alias (l_def l) = "" /\ In (mkFV (l_def l) (l_val l)) sets) ls ->
  exists ws s s' ps', Forall2 (has_value i) ls ws /\
    program i "InsertInto" [of_tparam p] (("Values", fvals sets) :: build) (returned s vs) /\
    program i "SelectFrom" [of_tparam p] (("Where", ws) :: build) (returned s' ps') /\
    forall E db t, db T = Some t -> wide E t -> incl (map (fun x => f_name (fv_def x)) sets) (r_columns E t) ->
      (forall v, In v vs -> holds E AEq (stored E v) [v] = SqlSpec.T) ->
      exists db' t' l r, change E db s vs = Some db' /\ db' T = Some t' /\
        r_rows E t' = (r_rows E t ++ [r])%list /\ query E db' s' ps' = Some (Rows E (l ++ [combine (r_columns E t) r])) /\
        query E db s' ps' = Some (Rows E l).
Proof.
  intros i p T sets vs xs Et Hp Hq H1 H2 H3 H4 H5 H6.
  assert (A : exists ls, atoms_of xs = Some ls /\ (forall l, In l ls -> built (CLeaf l) /\ l_kind l = KEq /\ l_join l = AND /\ l_neg l = false /\
     f_table (l_def l) = "" /\ f_alias (l_def l) = "" /\ In (mkFV (l_def l) (l_val l)) sets) /\ Forall2 (fun x l => has_value i x (src_cond (CLeaf l))) xs ls).
  { clear H5. induction H6 as [|x xs (l & El & K1 & K2 & K3 & K4) _ (ls & Els & IH & IV)].
    - exists []. split; [reflexivity|]. split; [contradiction|constructor].
    - exists (l :: ls). cbn [atoms_of]. rewrite El, Els. destruct (atom_model x l El) as (B1 & B2 & B3). split; [reflexivity|]. split.
      + intros y [<-|Hy]; [|now apply IH]. repeat (split; [assumption|]). split; [|auto].
        destruct x; try discriminate El; unfold atom in El; destruct (field _); try discriminate; injection El as <-; reflexivity.
      + constructor; [|exact IV]. destruct (C102_expressions_from_source i x) as [k H]. exists k. intros n Hn. now rewrite (H n Hn), B1. }
  destruct A as (ls & Els & Hl & Hv).
  assert (Hn : ls <> []). { destruct xs; [congruence|]. inversion Hv; discriminate. }
  destruct (C78_read_back p T sets vs ls Et Hp Hq H1 H2 H3 H4 Hn Hl) as (x & s & b0 & b & s' & ps' & E1 & E2 & E3 & E4 & E5 & R).
  exists (map (fun l => src_cond (CLeaf l)) ls), s, s', ps'. split; [clear - Hv; induction Hv; cbn; constructor; auto|]. split; [|split; [|exact R]].
  - eapply program_is; [apply (proj1 (proj2 (proj2 (proj2 (C102_programs_from_source i p)))) [sets])|]. rewrite E1. cbn [bind]. rewrite E2. reflexivity.
  - replace (map (fun l => src_cond (CLeaf l)) ls) with (src_conds (map CLeaf ls)) by (unfold src_conds; now rewrite ?map_map).
    eapply program_is; [apply (proj1 (C102_programs_from_source i p) [BWhere (map CLeaf ls)])|]. rewrite E3. cbn [bind Spec.calls b_call]. rewrite E4. cbn [bind]. rewrite E5. reflexivity.
Qed.

(** Where narrows any select, with joins, columns, ordering and page (C77). *)
Theorem C104_narrowed : forall (i : impl nobody) x e, as_call x = Some e -> PropsChain.kind e <> None -> Forall good_leaf (PropsChain.preds e) ->
  exists c, has_value i x (src_cond c) /\ forall p t hb hm, table_p p = Ok t -> wf_table t ->
    (flat_map bc_where hb ++ flat_map mc_where hm)%list = [[c]] ->
    Forall (fun y => not_where_b y = true -> plain_b y) hb -> Forall (fun y => not_where_m y = true -> plain_m y) hm ->
  exists s ps q s' ps' q',
    program i "SelectFrom" [of_tparam p] (flat_map b_text hb ++ ("Many", []) :: flat_map m_text hm ++ build)%list (returned s ps) /\ parse_select s = Some q /\
    program i "SelectFrom" [of_tparam p] (flat_map b_text (filter not_where_b hb) ++ ("Many", []) :: flat_map m_text (filter not_where_m hm) ++ build)%list (returned s' ps') /\
    parse_select s' = Some q' /\ s_where q' = None /\
    s_cols q = s_cols q' /\ s_from q = s_from q' /\ s_joins q = s_joins q' /\ s_order q = s_order q' /\
    amount ps (s_offset q) = amount ps' (s_offset q') /\ amount ps (s_limit q) = amount ps' (s_limit q') /\
    forall E db rs, kept_rows E db ps' q' = Some rs -> (forall r d, In r rs -> In d (map l_def (PropsChain.preds e)) -> column_of E r (column d) <> None) ->
      kept_rows E db ps q = Some (filter (fun r => is_true (said (row_of E r) x)) rs).
Proof.
  intros i x e Hx Hk Hl. destruct (as_call_facts x e Hx) as (Ex & Hb & Hs). specialize (Hs Hl).
  destruct (C77_formula e Hk) as (c & Ec & Hc).
  { intros l Hi. rewrite Forall_forall in Hb, Hl. destruct (Hb l Hi). auto. }
  exists c. split.
  { destruct (C102_expressions_from_source i x) as [k H]. exists k. intros n Hn. rewrite (H n Hn), Ex, Ec. reflexivity. }
  intros p t hb hm Et Ht Eh Fb Fm. destruct (Hc p t hb hm Et Ht Eh Fb Fm) as (b0 & b & m & s & ps & q & b' & m' & s' & ps' & q' & E0 & E1 & E2 & E3 & E4 & E5 & E6 & E7 & E8 & K1 & K2 & K3 & K4 & K5 & K6 & K7 & K8).
  exists s, ps, q, s', ps', q'. split; [|split; [exact E4|split; [|split; [exact E8|]]]].
  - eapply program_is; [apply (proj1 (C102_derived_from_source i p hb))|]. rewrite E0. cbn [bind]. rewrite E1. cbn [bind]. unfold b_many. rewrite E2. cbn [bind]. rewrite E3. reflexivity.
  - eapply program_is; [apply (proj1 (C102_derived_from_source i p (filter not_where_b hb)))|]. rewrite E0. cbn [bind]. rewrite E5. cbn [bind]. unfold b_many. rewrite E6. cbn [bind]. rewrite E7. reflexivity.
  - repeat (split; [assumption|]). intros E db rs H H'. rewrite (K8 E db rs H H'). f_equal. apply filter_ext. intros r. now rewrite Hs.
Qed.

(** Programs that make a DELETE or an UPDATE from a select of many rows. *)
Lemma many_start (i : impl nobody) p hb hm ms R r : (forall m, gives i (src_many m) ms (R m)) ->
  PropsSrcLib.on (select_from p) (fun b => PropsSrcLib.on (Spec.calls b_call b hb) (fun b => PropsSrcLib.on (Spec.calls m_call (b_many b) hm) R)) = r ->
  program i "SelectFrom" [of_tparam p] (flat_map b_text hb ++ ("Many", []) :: flat_map m_text hm ++ ms)%list r.
Proof.
  intros H <-. eapply (program_on i _ _ _ src_base _ (fun b => PropsSrcLib.on (Spec.calls b_call b hb) (fun b => PropsSrcLib.on (Spec.calls m_call (b_many b) hm) R))); [|intros b; apply PropsSrcLib.base_history|reflexivity].
  - eapply calls_is; [picks (PropsSrcBuild.C101_base_select_from_source _ i)|reflexivity|].
    unfold select_from. destruct p as [x|x|x]; [destruct (table x)..|]; reflexivity.
  - intros b'. apply (PropsSrcLib.gives_done i _ _ _ (b_many b') src_many); [apply PropsSrcLib.base_many|]. now apply PropsSrcLib.many_history.
Qed.
Theorem C104_derived : forall (i : impl nobody) p hb hm,
  (forall k, program i "SelectFrom" [of_tparam p] (flat_map b_text hb ++ ("Many", []) :: flat_map m_text hm ++ ("Delete", []) :: flat_map d_text k ++ build)%list
     (of_res (of_out delete_error) (do b <- select_from p; do b <- Spec.calls b_call b hb; do m <- Spec.calls m_call (many_of b) hm; do d <- m_delete m;
       do d <- Spec.calls d_add_where d k; d_build d))) /\
  (forall vs k, program i "SelectFrom" [of_tparam p] (flat_map b_text hb ++ ("Many", []) :: flat_map m_text hm ++ ("Update", fvals vs) :: flat_map u_text k ++ build)%list
     (of_res (of_out update_error) (do b <- select_from p; do b <- Spec.calls b_call b hb; do m <- Spec.calls m_call (many_of b) hm; do u <- m_update m vs;
       do u <- Spec.calls u_call u k; u_build u))).
Proof.
  intros i p hb hm. split; intros.
  - apply (many_start i p hb hm _ (fun m => PropsSrcLib.on (m_delete m) (fun d => PropsSrcLib.on (Spec.calls d_add_where d k) (fun d => of_res (of_out delete_error) (d_build d))))).
    + intros m. apply (PropsSrcLib.gives_call i _ _ _ _ src_delete); [apply PropsSrcLib.many_delete|]. intros d _. apply PropsSrcLib.delete_history.
      intros d'. apply (PropsSrcLib.gives_last i _ _ _ _ (of_out delete_error)), PropsSrcLib.delete_build.
    + destruct (select_from p); [|reflexivity]. cbn [PropsSrcLib.on bind]. destruct (Spec.calls b_call _ _) as [b'|]; [|reflexivity]. cbn [PropsSrcLib.on bind]. unfold b_many.
      destruct (Spec.calls m_call _ _); [|reflexivity]. cbn [PropsSrcLib.on bind]. destruct (m_delete _); [|reflexivity]. cbn [PropsSrcLib.on bind]. now destruct (Spec.calls _ _ _).
  - apply (many_start i p hb hm _ (fun m => PropsSrcLib.on (m_update m vs) (fun d => PropsSrcLib.on (Spec.calls u_call d k) (fun d => of_res (of_out update_error) (u_build d))))).
    + intros m. apply (PropsSrcLib.gives_call i _ _ _ _ src_update); [apply PropsSrcLib.many_update|]. intros d _. apply PropsSrcLib.update_history.
      intros d'. apply (PropsSrcLib.gives_last i _ _ _ _ (of_out update_error)), PropsSrcLib.update_build.
    + destruct (select_from p); [|reflexivity]. cbn [PropsSrcLib.on bind]. destruct (Spec.calls b_call _ _) as [b'|]; [|reflexivity]. cbn [PropsSrcLib.on bind]. unfold b_many.
      destruct (Spec.calls m_call _ _); [|reflexivity]. cbn [PropsSrcLib.on bind]. destruct (m_update _ _); [|reflexivity]. cbn [PropsSrcLib.on bind]. now destruct (Spec.calls _ _ _).
Qed.

(** SelectFrom(p), any Where calls, Many(), any Where, OrderBy, Offset and Limit calls, Delete(): the
    statement built removes every row that the same select returns once Offset(0) and Limit(0) are
    called on it; these are the rows that the select itself returns exactly if its page shows all of them (C73).  The same for Update (C74). *)
Lemma calls_app {A B} (f : A -> B -> res A) a h k : Spec.calls f a (h ++ k)%list = bind (Spec.calls f a h) (fun b => Spec.calls f b k).
Proof. revert a. induction h as [|x h IH]; intros a; [reflexivity|]. cbn [app Spec.calls]. destruct (f a x); [apply IH|reflexivity]. Qed.
Theorem C104_paged : forall (i : impl nobody) p T h hm, table_p p = Ok (mkT T "") -> qname T -> Forall (Forall regular) h -> Forall PropsPaged.narrows hm ->
  List.concat (h ++ flat_map mc_where hm) <> [] ->
  let select hm := (flat_map b_text (map BWhere h) ++ ("Many", []) :: flat_map m_text hm)%list in
  exists s0 ps0 s ps s' ps',
    program i "SelectFrom" [of_tparam p] (select (hm ++ [MOffset 0; MLimit 0])%list ++ build)%list (returned s0 ps0) /\
    program i "SelectFrom" [of_tparam p] (select hm ++ build)%list (returned s ps) /\
    program i "SelectFrom" [of_tparam p] (select hm ++ ("Delete", []) :: build)%list (returned s' ps') /\
    deletes_selected T s0 ps0 s' ps' /\
    (forall fvs vs, fvs <> [] -> singles fvs vs -> Forall (fun c => name c = true) (map (fun x => f_name (fv_def x)) fvs) ->
       exists s1 ps1, program i "SelectFrom" [of_tparam p] (select hm ++ ("Update", fvals fvs) :: build)%list (returned s1 ps1) /\
       updates_selected T (map (fun x => f_name (fv_def x)) fvs) vs s0 ps0 s1 ps1) /\
    forall E db l0, query E db s0 ps0 = Some (Rows E l0) -> exists l, query E db s ps = Some (Rows E l) /\
      let all := PropsPaged.shows_all (last_of mc_offset 0%N hm) (last_of mc_limit (-1)%Z hm) (length l0) in
      (all -> l = l0) /\ (~ all -> length l < length l0).
Proof.
  intros i p T h hm Et Hq Hh Hm Hne select.
  destruct (PropsPaged.C73_paged_exactly p T h hm Et Hq Hh Hm Hne) as (b0 & b & m & d & s0 & ps0 & s & ps & s' & ps' & E0 & E1 & E2 & E3 & E4 & E5 & E6 & R & Q).
  rewrite wheres_calls in E1.
  exists s0, ps0, s, ps, s', ps'. unfold select. rewrite <- !app_assoc. cbn [app].
  split; [|split; [|split; [|split; [exact R|split]]]].
  - eapply program_is; [apply (proj1 (C102_derived_from_source i p (map BWhere h)))|]. rewrite E0. cbn [bind]. rewrite E1. cbn [bind]. unfold b_many.
    rewrite calls_app, E2. cbn [bind Spec.calls m_call]. rewrite E3. reflexivity.
  - eapply program_is; [apply (proj1 (C102_derived_from_source i p (map BWhere h)))|]. rewrite E0. cbn [bind]. rewrite E1. cbn [bind]. unfold b_many. rewrite E2. cbn [bind]. rewrite E4. reflexivity.
  - eapply program_is; [apply (proj1 (C104_derived i p (map BWhere h) hm) [])|]. rewrite E0. cbn [bind]. rewrite E1. cbn [bind]. rewrite E2. cbn [bind]. rewrite E5. cbn [bind Spec.calls]. rewrite E6. reflexivity.
  - intros fvs vs H1 H2 H3. destruct (PropsPaged.C74_paged_exactly p T h hm fvs vs Et Hq Hh Hm Hne H1 H2 H3) as (b0' & b' & m' & u & t0 & qs0 & t & qs & t' & qs' & F0 & F1 & F2 & F3 & F4 & F5 & F6 & R' & _).
    rewrite wheres_calls in F1. rewrite E0 in F0. injection F0 as <-. rewrite E1 in F1. injection F1 as <-. rewrite E2 in F2. injection F2 as <-. rewrite E3 in F3. injection F3 as <- <-.
    exists t', qs'. split; [|exact R']. rewrite <- app_assoc. cbn [app].
    eapply program_is; [apply (proj2 (C104_derived i p (map BWhere h) hm) fvs [])|]. rewrite E0. cbn [bind]. rewrite E1. cbn [bind]. rewrite E2. cbn [bind]. rewrite F5. cbn [bind Spec.calls]. rewrite F6. reflexivity.
  - intros E db l0 H. destruct (Q E db l0 H) as (l & K1 & _ & K2). exists l. split; [exact K1|exact K2].
Qed.

(** EqualTo("age", 30).And(Not(EqualTo("users.id", 1))).Or(IsNull("age")): what the source builds, and what it does to the users of the shop *)
Definition x_shop : expr := EThen true (EThen false (ECmp Eq_ "age" (VOther 30)) [ENot (ECmp Eq_ "users.id" (VOther 1))]) [ENull "age"].
Example C104_example : forall i : impl nobody,
  as_call x_shop = Some e_shop /\ PropsChain.kind e_shop <> None /\ Forall good_leaf (PropsChain.preds e_shop) /\
  shop "users" = Some users /\ wide numbers users /\ Forall (col_of_table numbers "users" users) (map l_def (PropsChain.preds e_shop)) /\
  map (fun r => said (the_row numbers "users" users r) x_shop) (r_rows numbers users) = [F; T; F; T] /\
  exists v, has_value i x_shop v /\
    program i "Delete" [of_tparam (TPName "users")] (("Where", [v]) :: build)
      (returned "DELETE FROM users WHERE (age=$1 AND NOT users.id=$2) OR age IS NULL" [VOther 30; VOther 1]) /\
    table_of (change numbers shop "DELETE FROM users WHERE (age=$1 AND NOT users.id=$2) OR age IS NULL" [VOther 30; VOther 1]) "users" = Some [[Some 1; Some 30]; [Some 3; Some 20]].
Proof.
  intros i. split; [vm_compute; reflexivity|]. destruct C76_example as (H1 & H2 & H3 & H4 & H5 & H6 & _). split; [exact H1|].
  split; [apply Forall_forall; intros l Hl; now apply H2|]. split; [exact H3|]. split; [exact H4|]. split; [exact H5|]. split; [vm_compute; reflexivity|].
  destruct (eval_model x_shop) as [c|] eqn:Ec; [|discriminate Ec]. exists (src_cond c). split.
  { destruct (C102_expressions_from_source i x_shop) as [k H]. exists k. intros n Hn. now rewrite (H n Hn), Ec. }
  split; [|vm_compute; reflexivity].
  eapply program_is; [apply (proj2 (proj2 (proj2 (proj2 (proj2 (C102_programs_from_source i (TPName "users")))))) [[c]])|].
  vm_compute in Ec. injection Ec as <-. vm_compute. reflexivity.
Qed.
(** Limit(1) shows one user of at least 20; the DELETE made from that select removes two. *)
Example C104_paged_example : forall i : impl nobody,
  Forall (Forall regular) [[num_cond KGe "" "age" 20]] /\ Forall PropsPaged.narrows (PropsPaged.hm_paged 1) /\ ~ PropsPaged.shows_all 0 1 2 /\
  program i "SelectFrom" [of_tparam (TPStr "users")]
    (flat_map b_text (map BWhere [[num_cond KGe "" "age" 20]]) ++ ("Many", []) :: flat_map m_text (PropsPaged.hm_paged 1) ++ ("Delete", []) :: build)%list
    (returned "DELETE FROM users WHERE age>=$1 AND id<$2" [VOther 20; VOther 4]) /\
  table_of (change numbers shop "DELETE FROM users WHERE age>=$1 AND id<$2" [VOther 20; VOther 4]) "users" = Some [[Some 2; None]; [Some 4; Some 30]].
Proof.
  intros i. destruct PropsPaged.C73_paged_example as (_ & H1 & H2 & _ & _ & H3 & _). split; [exact H1|]. split; [exact H2|]. split; [exact H3|].
  split; [eapply program_is; [apply (proj1 (C104_derived i _ _ _) [])|]; vm_compute; reflexivity|]. vm_compute. reflexivity.
Qed.

(** Print Assumptions is in PropsSrcResults.v. *)
Definition rows_from_source := (@C102_expressions_from_source,
  (@C103_select_many, @C103_select_single, @C103_insert, @C103_update, @C103_delete, @C103_refused),
  (@C104_formula, @C104_insert, @C104_read_back, @C104_narrowed, @C104_derived, @C104_paged)).
