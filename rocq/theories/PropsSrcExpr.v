(** C102, continued: expressions.  A condition written in Go as an expression, with constructors,
    Not, And and Or called as functions or as methods, and nil, nested in any way: evaluating it with
    the source of the functions gives the condition that the model's functions give. *)
From Coq Require Import String Ascii List Bool Arith NArith ZArith Lia.
From Verif Require Import GoStr Value Names Cond Build Spec Calls Surface Open SrcAst SrcSem SrcFacts SrcLoops SrcValues SrcConds SrcGroups SrcTree SrcMake SrcMethods SrcCalls SrcBuilders SrcWrite PropsSrcCond PropsSrcBuild PropsSrcLib.
Import ListNotations.
Local Open Scope string_scope.
Local Open Scope nat_scope.

(** * Specification *)

Inductive compares := Eq_ | Gt_ | Ge_ | Lt_ | Le_ | In_.
Inductive expr :=
| ENil                                           (* nil *)
| ECmp (k : compares) (fn : string) (v : gval)   (* EqualTo(fn, v), ... *)
| EHas (fold : bool) (fn s : string)             (* Contains(fn, s), IContains(fn, s) *)
| ENull (fn : string)                            (* IsNull(fn) *)
| ENot (e : expr)                                (* Not(e) *)
| EOp (or : bool) (e : expr) (es : list expr)    (* And(e, es...), Or(e, es...) *)
| EThen (or : bool) (e : expr) (es : list expr)  (* e.And(es...), e.Or(es...) *)
| EJoin (j : string) (e : expr)                  (* e.Join(j) *)
| ENeg (b : bool) (e : expr)                     (* e.Negate(b) *)
| EGrp (j : string) (es : list expr)             (* NewGroup(j, es...) *)
| EMake (j : string) (es : list expr).           (* JoinType(j).Join(es...) *)

Definition cmp_name (k : compares) : string :=
  match k with Eq_ => "EqualTo" | Gt_ => "GreaterThan" | Ge_ => "GreaterOrEqual" | Lt_ => "Less" | Le_ => "LessOrEqual" | In_ => "In" end.
Definition then_ (r : rr (val nobody)) (f : val nobody -> rr (val nobody)) : rr (val nobody) :=
  match r with Done v => f v | Halt => Halt | Wrong => Wrong | Spent => Spent end.
(** Go evaluates the operands from left to right, then makes the call. *)
Fixpoint eval_go (i : impl nobody) (n : nat) (e : expr) : rr (val nobody) :=
  let args := fix args (es : list expr) (f : list (val nobody) -> rr (val nobody)) : rr (val nobody) :=
    match es with [] => f [] | e :: r => then_ (eval_go i n e) (fun v => args r (fun vs => f (v :: vs))) end in
  match e with
  | ENil => Done RNil
  | ECmp k fn v => run i n (cmp_name k) [RStr "FieldName" fn; of_gval v]
  | EHas fold fn s => run i n (if fold then "IContains" else "Contains") [RStr "FieldName" fn; RStr "string" s]
  | ENull fn => run i n "IsNull" [RStr "FieldName" fn]
  | ENot e => then_ (eval_go i n e) (fun v => run i n "Not" [v])
  | EOp or e es => then_ (eval_go i n e) (fun v => args es (fun vs => run i n (if or then "Or" else "And") (v :: vs)))
  | EThen or e es => then_ (eval_go i n e) (fun v => args es (fun vs => mcall i (run i n) v (if or then "Or" else "And") vs))
  | EJoin j e => then_ (eval_go i n e) (fun v => mcall i (run i n) v "Join" [RStr "JoinType" j])
  | ENeg b e => then_ (eval_go i n e) (fun v => mcall i (run i n) v "Negate" [RBool b])
  | EGrp j es => args es (fun vs => run i n "NewGroup" (RStr "JoinType" j :: vs))
  | EMake j es => args es (fun vs => run i n "JoinType.Join" (RStr "JoinType" j :: vs))
  end.
(** the same with the model's functions *)
Fixpoint eval_model (e : expr) : res cond :=
  let all := fix all (es : list expr) : res (list cond) := match es with [] => Ok [] | e :: r => do y <- eval_model e; do ys <- all r; Ok (y :: ys) end in
  match e with
  | ENil => Ok CNil
  | ECmp k fn v => match k with Eq_ => equal_to | Gt_ => greater_than | Ge_ => greater_or_equal | Lt_ => less_ | Le_ => less_or_equal | In_ => in_ end fn v
  | EHas fold fn s => if fold then icontains_ fn s else contains_ fn s
  | ENull fn => is_null fn
  | ENot e => do c <- eval_model e; not_ c
  | EOp or e es => do c <- eval_model e; do cs <- all es; if or then or_ c cs else and_ c cs
  | EThen or e es => do c <- eval_model e; do cs <- all es; if or then m_or c cs else m_and c cs
  | EJoin j e => do c <- eval_model e; c_join j c
  | ENeg b e => do c <- eval_model e; c_negate b c
  | EGrp j es => do cs <- all es; do g <- new_group j cs; Ok (of_g g)
  | EMake j es => do cs <- all es; jt_join j cs
  end.

(** * Facts *)

Definition eval_models := fix all (es : list expr) : res (list cond) := match es with [] => Ok [] | e :: r => do y <- eval_model e; do ys <- all r; Ok (y :: ys) end.
Definition args_go (i : impl nobody) (n : nat) := fix args (es : list expr) (f : list (val nobody) -> rr (val nobody)) : rr (val nobody) :=
  match es with [] => f [] | e :: r => then_ (eval_go i n e) (fun v => args r (fun vs => f (v :: vs))) end.

Section EInd.
  Variable P : expr -> Prop.
  Hypothesis H0 : P ENil.
  Hypothesis H1 : forall k fn v, P (ECmp k fn v).
  Hypothesis H2 : forall f fn s, P (EHas f fn s).
  Hypothesis H3 : forall fn, P (ENull fn).
  Hypothesis H4 : forall e, P e -> P (ENot e).
  Hypothesis H5 : forall o e es, P e -> Forall P es -> P (EOp o e es).
  Hypothesis H6 : forall o e es, P e -> Forall P es -> P (EThen o e es).
  Hypothesis H7 : forall j e, P e -> P (EJoin j e).
  Hypothesis H8 : forall b e, P e -> P (ENeg b e).
  Hypothesis H9 : forall j es, Forall P es -> P (EGrp j es).
  Hypothesis H10 : forall j es, Forall P es -> P (EMake j es).
  Fixpoint expr_ind' (e : expr) : P e :=
    let all := fix all es : Forall P es := match es with [] => Forall_nil _ | e :: r => Forall_cons _ (expr_ind' e) (all r) end in
    match e with
    | ENil => H0 | ECmp k fn v => H1 k fn v | EHas f fn s => H2 f fn s | ENull fn => H3 fn
    | ENot e => H4 e (expr_ind' e)
    | EOp o e es => H5 o e es (expr_ind' e) (all es)
    | EThen o e es => H6 o e es (expr_ind' e) (all es)
    | EJoin j e => H7 j e (expr_ind' e)
    | ENeg b e => H8 b e (expr_ind' e)
    | EGrp j es => H9 j es (all es)
    | EMake j es => H10 j es (all es)
    end.
End EInd.

(** no expression is of a type of the user's *)
Lemma join_of_package j c r : of_package c -> c_join j c = Ok r -> of_package r.
Proof. destruct c; cbn; intros H E; try discriminate; injection E as <-; exact H. Qed.
Lemma negate_of_package b c r : of_package c -> c_negate b c = Ok r -> of_package r.
Proof. destruct c; cbn; intros H E; try discriminate; injection E as <-; exact H. Qed.
Lemma jt_of_package j cs r : Forall of_package cs -> jt_join j cs = Ok r -> of_package r.
Proof.
  intros H E. destruct cs as [|c [|d cs]].
  - discriminate.
  - inversion H; subst. now apply (join_of_package j c).
  - unfold jt_join in E. destruct (new_group _ _); [|discriminate]. injection E as <-. exact I.
Qed.
Lemma and_of_package c cs r : of_package c -> and_ c cs = Ok r -> of_package r.
Proof.
  intros H E. unfold and_ in E. destruct cs; [apply (jt_of_package AND [c]); auto|].
  destruct (match as_group c with Some g => Ok g | None => new_group AND [c] end); [|discriminate]. cbn [bind] in E.
  destruct (group_and _ _); [|discriminate]. injection E as <-. exact I.
Qed.
Lemma or_of_package c cs r : of_package c -> or_ c cs = Ok r -> of_package r.
Proof.
  intros H E. unfold or_ in E. destruct cs; [apply (jt_of_package OR [c]); auto|].
  destruct (match as_group c with Some g => Ok g | None => new_group OR [c] end); [|discriminate]. cbn [bind] in E.
  destruct (group_or _ _) as [g|]; [|discriminate]. cbn [bind] in E. apply (jt_of_package OR [of_g g]) in E; auto. constructor; [exact I|constructor].
Qed.
Lemma mk_of_package k fn v r : library k -> mk_cond k fn v = Ok r -> of_package r.
Proof. intros H E. unfold mk_cond in E. destruct (new_field_value fn v); [|discriminate]. injection E as <-. exact H. Qed.
Lemma then_of_package (o : bool) c cs r : of_package c -> (if o then m_or c cs else m_and c cs) = Ok r -> of_package r.
Proof.
  intros H E. destruct c as [|l|j n k br]; [destruct o; discriminate| |].
  - destruct o; unfold m_or, m_and in E; destruct (l_kind l) eqn:K;
      first [now apply (and_of_package (CLeaf l) cs) | now apply (or_of_package (CLeaf l) cs)
            | repeat (match type of E with context [bind ?x _] => destruct x; cbn [bind] in E; [|discriminate] end); injection E as <-; exact I].
  - destruct o; cbn [m_or m_and] in E; (match type of E with context [bind ?x _] => destruct x; cbn [bind] in E; [|discriminate] end); injection E as <-; exact I.
Qed.
Lemma mapM_of_package es : Forall (fun e => forall c, eval_model e = Ok c -> of_package c) es -> forall cs, eval_models es = Ok cs -> Forall of_package cs.
Proof.
  induction 1 as [|e es H _ IH]; intros cs E; cbn [eval_models] in E; [injection E as <-; constructor|].
  destruct (eval_model e) eqn:Ee; [|discriminate]. cbn [bind] in E. destruct (eval_models _); [|discriminate]. injection E as <-. constructor; auto.
Qed.
Lemma expr_of_package : forall e c, eval_model e = Ok c -> of_package c.
Proof.
  induction e as [|k fn v|f fn s|fn|e IH|o e es IH IHs|o e es IH IHs|j e IH|b e IH|j es IHs|j es IHs] using expr_ind'; intros c E; cbn [eval_model] in E; fold eval_models in E;
    repeat (match type of E with bind ?x _ = _ => let K := fresh "K" in destruct x eqn:K; cbn [bind] in E; [|discriminate] end).
  - injection E as <-. exact I.
  - destruct k; eapply mk_of_package; try exact E; exact I.
  - destruct f; eapply mk_of_package; try exact E; exact I.
  - unfold is_null in E. destruct (field fn); [|discriminate]. injection E as <-. exact I.
  - eapply negate_of_package; [|exact E]. auto.
  - destruct o; [eapply or_of_package|eapply and_of_package]; try exact E; auto.
  - eapply then_of_package; [|exact E]. auto.
  - eapply join_of_package; [|exact E]; auto.
  - eapply negate_of_package; [|exact E]. auto.
  - injection E as <-. exact I.
  - eapply jt_of_package; [|exact E]. eapply mapM_of_package; eassumption.
Qed.

Section Eval.
  Variable i : impl nobody.
  (** from some bound on *)
  Definition amounts (f : nat -> rr (val nobody)) (r : rr (val nobody)) : Prop := exists k, forall n, k <= n -> f n = r.
  Lemma then_amounts {A} f (r : res A) enc g R : amounts f (of_res enc r) -> (forall x, r = Ok x -> amounts (g (enc x)) (R x)) ->
    amounts (fun n => then_ (f n) (fun v => g v n)) (match r with Ok x => R x | Panic => Halt end).
  Proof.
    intros [k H] K. destruct r as [x|].
    - destruct (K x eq_refl) as [k' H']. exists (k + k'). intros n Hn. rewrite H by lia. cbn [of_res then_]. apply H'. lia.
    - exists k. intros n Hn. now rewrite H.
  Qed.
  Lemma args_amounts es : Forall (fun e => amounts (fun n => eval_go i n e) (of_res src_cond (eval_model e))) es ->
    forall g R, (forall cs, eval_models es = Ok cs -> amounts (g (src_conds cs)) (R cs)) ->
    amounts (fun n => args_go i n es (fun vs => g vs n)) (match eval_models es with Ok cs => R cs | Panic => Halt end).
  Proof.
    induction 1 as [|e es H _ IH]; intros g R K; [exact (K [] eq_refl)|].
    cbn [args_go eval_models].
    pose proof (then_amounts _ _ _ (fun v n => args_go i n es (fun vs => g (v :: vs) n))
      (fun c => match eval_models es with Ok cs => R (c :: cs) | Panic => Halt end) H) as T. cbv beta in T.
    destruct (eval_model e) as [c|] eqn:Ee; cbn [bind].
    - cbn in T. replace (match (do ys <- eval_models es; Ok (c :: ys)) with Ok cs => R cs | Panic => Halt end)
        with (match eval_models es with Ok cs => R (c :: cs) | Panic => Halt end) by now destruct (eval_models es).
      apply T. intros x [= <-]. apply (IH (fun vs => g (src_cond c :: vs)) (fun cs => R (c :: cs))). intros cs E.
      apply (K (c :: cs)). cbn [eval_models]. rewrite Ee. cbn [bind]. now rewrite E.
    - apply T. discriminate.
  Qed.
  Lemma amounts_is f r r' : amounts f r -> r = r' -> amounts f r'.
  Proof. now intros H <-. Qed.
  Lemma calls_amounts f a r : SrcCalls.calls i f a r -> amounts (fun n => run i n f a) r.
  Proof. exact (fun H => H). Qed.
  Lemma asks_amounts v m a r : asks i v m a r -> amounts (fun n => mcall i (run i n) v m a) r.
  Proof. exact (fun H => H). Qed.
End Eval.

(** * Expressions *)
Theorem C102_expressions_from_source : forall (i : impl nobody) e,
  exists k, forall n, k <= n -> eval_go i n e = of_res src_cond (eval_model e).
Proof.
  intros i e. change (amounts (fun n => eval_go i n e) (of_res src_cond (eval_model e))).
  induction e as [|k fn v|f fn s|fn|e IH|o e es IH IHs|o e es IH IHs|j e IH|b e IH|j es IHs|j es IHs] using expr_ind'; cbn [eval_model]; fold eval_models.
  - exists 0. reflexivity.
  - destruct k; apply calls_amounts; (eapply calls_is; [picks (C100_condition_types_from_source _ i)|reflexivity..]).
  - destruct f; apply calls_amounts; (eapply calls_is; [picks (C100_condition_types_from_source _ i)|reflexivity..]).
  - apply calls_amounts; (eapply calls_is; [picks (C100_condition_types_from_source _ i)|reflexivity..]).
  - eapply amounts_is; [eapply (then_amounts _ _ _ (fun v n => run i n "Not" [v]) (fun c => of_res src_cond (not_ c)) IH); intros c _; apply calls_amounts; picks (C102_conditions_from_source i)|].
    now destruct (eval_model e).
  - eapply amounts_is; [eapply (then_amounts _ _ _ (fun v n => args_go i n es (fun vs => run i n (if o then "Or" else "And") (v :: vs))) (fun c => match eval_models es with Ok cs => of_res src_cond (if o then or_ c cs else and_ c cs) | Panic => Halt end) IH); intros c _;
      eapply (args_amounts i es IHs (fun vs n => run i n (if o then "Or" else "And") (src_cond c :: vs)) (fun cs => of_res src_cond (if o then or_ c cs else and_ c cs))); intros cs _;
      destruct o; apply calls_amounts; picks (C102_conditions_from_source i)|].
    destruct (eval_model e); [|reflexivity]. cbn [bind]. now destruct (eval_models _).
  - eapply amounts_is; [eapply (then_amounts _ _ _ (fun v n => args_go i n es (fun vs => mcall i (run i n) v (if o then "Or" else "And") vs)) (fun c => match eval_models es with Ok cs => of_res src_cond (if o then m_or c cs else m_and c cs) | Panic => Halt end) IH); intros c Ec;
      eapply (args_amounts i es IHs (fun vs n => mcall i (run i n) (src_cond c) (if o then "Or" else "And") vs) (fun cs => of_res src_cond (if o then m_or c cs else m_and c cs))); intros cs _;
      apply expr_of_package in Ec; destruct o; apply asks_amounts; picks (C102_conditions_from_source i); exact Ec|].
    destruct (eval_model e); [|reflexivity]. cbn [bind]. now destruct (eval_models _).
  - eapply amounts_is; [eapply (then_amounts _ _ _ (fun v n => mcall i (run i n) v "Join" [RStr "JoinType" j]) (fun c => of_res src_cond (c_join j c)) IH); intros c _; apply asks_amounts; picks (C102_conditions_from_source i)|].
    now destruct (eval_model e).
  - eapply amounts_is; [eapply (then_amounts _ _ _ (fun v n => mcall i (run i n) v "Negate" [RBool b]) (fun c => of_res src_cond (c_negate b c)) IH); intros c _; apply asks_amounts; picks (C102_conditions_from_source i)|].
    now destruct (eval_model e).
  - eapply amounts_is; [eapply (args_amounts i es IHs (fun vs n => run i n "NewGroup" (RStr "JoinType" j :: vs)) (fun cs => of_res (fun g => src_cond (of_g g)) (new_group j cs))); intros cs _;
      apply calls_amounts; picks (C102_conditions_from_source i)|].
    destruct (eval_models _); [|reflexivity]. cbn [bind]. now destruct (new_group _ _).
  - eapply amounts_is; [eapply (args_amounts i es IHs (fun vs n => run i n "JoinType.Join" (RStr "JoinType" j :: vs)) (fun cs => of_res src_cond (jt_join j cs))); intros cs _;
      apply calls_amounts; picks (C102_conditions_from_source i)|].
    now destruct (eval_models _).
Qed.
(** Or(EqualTo("a", 1), IsNull("b").And(Not(Contains("c", "x")))) *)
Example C102_expression : forall (i : impl nobody), exists k, forall n, k <= n ->
  then_ (eval_go i n (EOp true (ECmp Eq_ "a" (VOther 1)) [EThen false (ENull "b") [ENot (EHas false "c" "x")]]))
    (fun v => mcall i (run i n) v "RenderSQL" []) = Done (RStr "string" "a=? OR (b IS NULL AND c NOT LIKE ?)").
Proof.
  intros i. eapply amounts_is; [eapply then_amounts; [apply C102_expressions_from_source|]|].
  - intros c _. apply (asks_amounts i _ "RenderSQL" [] (of_res (RStr "string") (c_render_sql c))). picks (C102_conditions_from_source i).
  - vm_compute. reflexivity.
Qed.
