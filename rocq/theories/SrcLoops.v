(** Loops of the source, and the functions about pages, lists of fields and
    values. *)
From Coq Require Import String Ascii List Bool Arith NArith ZArith Lia DecimalNat DecimalZ DecimalString.
From Verif Require Import GoStr StrFacts Value Names Cond SrcAst SrcSem SrcProg Surface Open SrcFacts SrcNames SrcNamesB SrcNamesC.
Import ListNotations.
Local Open Scope string_scope.
Local Open Scope nat_scope.

(** * Range loops *)
Definition next_round {S} (body : env S -> rr (ctl S)) (k v : string) (l : list (val S * val S)) (c : ctl S) : rr (ctl S) :=
  match c with
  | Next E | Cont E => loop body k v l E
  | Brk E => Done (Next E)
  | _ => Done c
  end.

Section Loops.
Context {S : Type} (i : impl S) (call : string -> list (val S) -> rr (val S)) (rounds : nat).
Context (rs : list param) (K : list (rr (ctl S) -> rr (ctl S))) (R : rr (val S)).
Notation block := (block i call rounds).

Lemma at_loop_gen : forall (body : env S -> rr (ctl S)) k v (A : Type) (e : A -> val S) (Inv : list A -> list A -> env S -> Prop) l,
  (forall done a rest E, l = (done ++ a :: rest)%list -> Inv done (a :: rest) E ->
     (forall E', Inv (done ++ [a])%list rest E' ->
        at_ rs K (next_round body k v (numbered (length done + 1) (map e rest)) (Next E')) R) ->
     at_ rs (oleave E :: bnd (next_round body k v (numbered (length done + 1) (map e rest))) :: K)
       (body (bind_new (bind_new E None k (RInt "int" (Z.of_nat (length done)))) None v (e a))) R) ->
  (forall E, Inv l [] E -> at_ rs K (Done (Next E)) R) ->
  forall rest done E, l = (done ++ rest)%list -> Inv done rest E ->
  at_ rs K (loop body k v (numbered (length done) (map e rest)) E) R.
Proof.
  intros body k v A e Inv l Hs Hf rest. induction rest as [|a rest IH]; intros done E Hl HE.
  - apply Hf. rewrite app_nil_r in Hl. subst l. exact HE.
  - specialize (Hs done a rest E Hl HE). replace (length done + 1) with (Datatypes.S (length done)) in Hs by lia.
    apply Hs. intros E' HE'. cbn [next_round].
    replace (Datatypes.S (length done)) with (length (done ++ [a])%list) by (rewrite app_length; cbn; lia).
    apply IH; [|exact HE']. rewrite Hl, <- app_assoc. reflexivity.
Qed.

Lemma at_loop : forall (body : env S -> rr (ctl S)) k v (A : Type) (e : A -> val S) (Inv : list A -> list A -> env S -> Prop) l E0,
  Inv [] l E0 ->
  (forall done a rest E, l = (done ++ a :: rest)%list -> Inv done (a :: rest) E ->
     (forall E', Inv (done ++ [a])%list rest E' ->
        at_ rs K (next_round body k v (numbered (length done + 1) (map e rest)) (Next E')) R) ->
     at_ rs (oleave E :: bnd (next_round body k v (numbered (length done + 1) (map e rest))) :: K)
       (body (bind_new (bind_new E None k (RInt "int" (Z.of_nat (length done)))) None v (e a))) R) ->
  (forall E, Inv l [] E -> at_ rs K (Done (Next E)) R) ->
  at_ rs K (loop body k v (numbered 0 (map e l)) E0) R.
Proof. intros body k v A e Inv l E0 H0 Hs Hf. apply (at_loop_gen body k v A e Inv l Hs Hf l [] E0); [reflexivity|exact H0]. Qed.

Lemma at_round_ret : forall body k v l vs, at_ rs K (Done (Ret vs)) R -> at_ rs K (next_round body k v l (Ret vs)) R.
Proof. intros body k v l vs H. exact H. Qed.
Lemma at_round_names : forall body k v l E, at_ rs K (Done (RetNames E)) R -> at_ rs K (next_round body k v l (RetNames E)) R.
Proof. intros body k v l vs H. exact H. Qed.
Lemma at_round_brk : forall body k v l E, at_ rs K (Done (Next E)) R -> at_ rs K (next_round body k v l (Brk E)) R.
Proof. intros body k v l vs H. exact H. Qed.
Lemma at_round_cont : forall body k v l E,
  at_ rs K (next_round body k v l (Next E)) R -> at_ rs K (next_round body k v l (Cont E)) R.
Proof. intros body k v l vs H. exact H. Qed.
Lemma at_round : forall body k v l E E',
  at_ rs K (next_round body k v l (Next E')) R -> E = E' -> at_ rs K (next_round body k v l (Next E)) R.
Proof. intros body k v l E E' H ->. exact H. Qed.

Lemma at_loop_pairs : forall (body : env S -> rr (ctl S)) k v (A : Type) (e : A -> val S * val S) (Inv : list A -> list A -> env S -> Prop) l,
  (forall done a rest E, l = (done ++ a :: rest)%list -> Inv done (a :: rest) E ->
     (forall E', Inv (done ++ [a])%list rest E' ->
        at_ rs K (next_round body k v (map e rest) (Next E')) R) ->
     at_ rs (oleave E :: bnd (next_round body k v (map e rest)) :: K)
       (body (bind_new (bind_new E None k (fst (e a))) None v (snd (e a)))) R) ->
  (forall E, Inv l [] E -> at_ rs K (Done (Next E)) R) ->
  forall rest done E, l = (done ++ rest)%list -> Inv done rest E ->
  at_ rs K (loop body k v (map e rest) E) R.
Proof.
  intros body k v A e Inv l Hs Hf rest. induction rest as [|a rest IH]; intros done E Hl HE.
  - apply Hf. rewrite app_nil_r in Hl. subst l. exact HE.
  - specialize (Hs done a rest E Hl HE). cbn [map loop]. destruct (e a) as [x y]. cbn [fst snd] in Hs.
    apply Hs. intros E' HE'. cbn [next_round]. apply (IH (done ++ [a])%list); [|exact HE'].
    rewrite Hl, <- app_assoc. reflexivity.
Qed.

(** Loops with a condition: [Inv k] holds after [k] of [m] rounds. *)
Definition wnext (n : nat) (c : env S -> rr (val S)) (post body : env S -> rr (ctl S)) (r : ctl S) : rr (ctl S) :=
  match r with
  | Next E | Cont E =>
    rbind (post E) (fun p => match p with Next E' => while n c post body E' | _ => Wrong end)
  | Brk E => Done (Next E)
  | _ => Done r
  end.
Lemma at_while_gen : forall (c : env S -> rr (val S)) post body m (Inv : nat -> env S -> Prop),
  (forall k E n, k < m -> Inv k E ->
     (forall E', Inv (k + 1) E' -> at_ rs K (while n c post body E') R) ->
     c E = Done (RBool true) /\ at_ rs (oleave E :: bnd (wnext n c post body) :: K) (body E) R) ->
  (forall E, Inv m E -> c E = Done (RBool false) /\ at_ rs K (Done (Next E)) R) ->
  forall N k E, m < k + N -> k <= m -> Inv k E -> at_ rs K (while N c post body E) R.
Proof.
  intros c post body m Inv Hs Hf. induction N as [|N IH]; intros k E HN Hk HE; [lia|].
  destruct (Nat.eq_dec k m) as [->|Hne].
  - destruct (Hf E HE) as [Hc H]. cbn [while]. rewrite Hc. exact H.
  - destruct (Hs k E N ltac:(lia) HE) as [Hc H].
    + intros E' HE'. apply (IH (k + 1)); [lia|lia|exact HE'].
    + cbn [while]. rewrite Hc. exact H.
Qed.
Lemma at_while : forall (c : env S -> rr (val S)) post body m (Inv : nat -> env S -> Prop) N E,
  m < N -> Inv 0 E ->
  (forall k E n, k < m -> Inv k E ->
     (forall E', Inv (k + 1) E' -> at_ rs K (while n c post body E') R) ->
     c E = Done (RBool true) /\ at_ rs (oleave E :: bnd (wnext n c post body) :: K) (body E) R) ->
  (forall E, Inv m E -> c E = Done (RBool false) /\ at_ rs K (Done (Next E)) R) ->
  at_ rs K (while N c post body E) R.
Proof. intros c post body m Inv N E HN H0 Hs Hf. apply (at_while_gen c post body m Inv Hs Hf N 0 E); [lia|lia|exact H0]. Qed.
Lemma at_wnext : forall n c post body E E',
  post E = Done (Next E') -> at_ rs K (while n c post body E') R -> at_ rs K (wnext n c post body (Next E)) R.
Proof. intros n c post body E E' H. cbn [wnext]. rewrite H. trivial. Qed.
Lemma at_wbrk : forall n c post body E, at_ rs K (Done (Next E)) R -> at_ rs K (wnext n c post body (Brk E)) R.
Proof. intros n c post body E H. exact H. Qed.
End Loops.

Ltac rstep :=
  lazymatch goal with
  | |- at_ _ _ (next_round _ _ _ _ (Ret _)) _ => apply at_round_ret
  | |- at_ _ _ (next_round _ _ _ _ (RetNames _)) _ => apply at_round_names
  | |- at_ _ _ (next_round _ _ _ _ (Brk _)) _ => apply at_round_brk
  | |- at_ _ _ (next_round _ _ _ _ (Cont _)) _ => apply at_round_cont
  | |- at_ _ _ (wnext _ _ _ _ (Brk _)) _ => apply at_wbrk
  end.
Ltac walk ::= repeat (first [step | bx | split_at | rstep]).

(** * Lists that grow from the left *)
Lemma update_at : forall {S} (a : list (val S)) x r w n, n = length a ->
  update (a ++ x :: r)%list n w = Some (a ++ w :: r)%list.
Proof.
  intros S a x r w n ->. induction a as [|b a IH]; [reflexivity|]. cbn [app length update]. rewrite IH. reflexivity.
Qed.
Lemma update_map : forall {S A} (f : A -> val S) (done : list A) x r w,
  update (map f done ++ x :: r)%list (length done) w = Some (map f done ++ w :: r)%list.
Proof. intros. apply update_at. rewrite map_length. reflexivity. Qed.
Lemma nth_at : forall {S} (a : list (val S)) x r n, n = length a -> nth_error (a ++ x :: r)%list n = Some x.
Proof. intros S a x r n ->. induction a as [|b a IH]; [reflexivity|exact IH]. Qed.
Lemma repeat_map : forall {A B} (z : B) (l : list A), repeat z (length l) = map (fun _ => z) l.
Proof. induction l as [|a l IH]; [reflexivity|]. cbn [length repeat map]. rewrite IH. reflexivity. Qed.
Lemma map_snoc : forall {A B} (f : A -> B) l a r, (map f l ++ f a :: r)%list = (map f (l ++ [a]) ++ r)%list.
Proof. intros. rewrite map_app, <- app_assoc. reflexivity. Qed.
Lemma nth_map : forall {A B} (f : A -> B) done a rest l, l = (done ++ a :: rest)%list ->
  nth_error (map f l) (length done) = Some (f a).
Proof. intros A B f done a rest l ->. induction done as [|b done IH]; [reflexivity|exact IH]. Qed.
Lemma mapM_app_s : forall {A B} (f : A -> res B) done b r a, mapM f done = Ok b ->
  mapM f (done ++ a :: r)%list = bind (f a) (fun y => bind (mapM f r) (fun ys => Ok (b ++ y :: ys)%list)).
Proof.
  intros A B f. induction done as [|x done IH]; intros b r a H.
  - inversion H; subst. reflexivity.
  - cbn [mapM app] in *. destruct (f x) as [y|]; [|discriminate]. cbn [bind] in *.
    destruct (mapM f done) as [ys|]; [|discriminate]. cbn [bind] in H. inversion H; subst.
    rewrite (IH ys r a eq_refl). destruct (f a); [|reflexivity]. cbn [bind]. destruct (mapM f r); reflexivity.
Qed.
Lemma mapM_length : forall {A B} (f : A -> res B) l b, mapM f l = Ok b -> length b = length l.
Proof.
  intros A B f. induction l as [|a l IH]; intros b H; [inversion H; reflexivity|].
  cbn [mapM] in H. destruct (f a) as [y|]; [|discriminate]. cbn [bind] in H.
  destruct (mapM f l) as [ys|]; [|discriminate]. cbn [bind] in H. inversion H; subst.
  cbn [length]. rewrite (IH ys eq_refl). reflexivity.
Qed.

(** * Numbers *)
Lemma uint_acc_nat : forall d p, Pos.to_nat (Pos.of_uint_acc d p) = Nat.of_uint_acc d (Pos.to_nat p).
Proof.
  induction d; intros p; [reflexivity|..];
    cbn [Pos.of_uint_acc Nat.of_uint_acc]; rewrite IHd; f_equal; rewrite Nat.tail_mul_spec;
    cbn -[Pos.mul Pos.add]; lia.
Qed.
Lemma uint_nat : forall d, N.to_nat (Pos.of_uint d) = Nat.of_uint d.
Proof.
  unfold Nat.of_uint. induction d; try reflexivity; cbn [Pos.of_uint Nat.of_uint_acc N.to_nat]; try exact IHd;
    rewrite uint_acc_nat; reflexivity.
Qed.
Lemma unorm_nat : forall n, Decimal.unorm (Nat.to_uint n) = Nat.to_uint n.
Proof. intros. rewrite <- DecimalNat.Unsigned.to_of, DecimalNat.Unsigned.of_to. reflexivity. Qed.
Lemma itoaZ_nat : forall n, itoaZ (Z.of_nat n) = itoa n.
Proof.
  intros n. unfold itoaZ, itoa.
  assert (H : Z.of_nat n = Z.of_int (Decimal.Pos (Nat.to_uint n))).
  { cbn [Z.of_int]. unfold Z.of_uint. rewrite <- (N2Nat.id (Pos.of_uint _)), uint_nat, DecimalNat.Unsigned.of_to.
    symmetry. apply nat_N_Z. }
  rewrite H, DecimalZ.to_of. cbn [Decimal.norm DecimalString.NilZero.string_of_int]. rewrite unorm_nat.
  pose proof (unorm_nat n) as U. destruct (Nat.to_uint n); [|reflexivity..]. discriminate U.
Qed.
Lemma plus_one : forall n, (Z.of_nat n + 1)%Z = Z.of_nat (n + 1).
Proof. intros. lia. Qed.
Lemma pos_N : forall n, (0 <? Z.of_N n)%Z = (0 <? n)%N.
Proof. intros n. destruct (N.ltb_spec 0 n); [apply Z.ltb_lt|apply Z.ltb_ge]; lia. Qed.
Lemma zero_N : forall n, (Z.of_N n =? 0)%Z = (n =? 0)%N.
Proof. intros n. destruct (N.eqb_spec n 0); [apply Z.eqb_eq|apply Z.eqb_neq]; lia. Qed.
(** Lists of definitions and of values, not to be looked into. *)
Definition fdefs {S} (l : list fdef) : list (val S) := map of_fdef l.
Definition gvals {S} (l : list gval) : list (val S) := map of_gval l.
Ltac known_numbers :=
  match goal with
  | |- context [(0 <? Z.of_N ?n)%Z] => rewrite (pos_N n)
  | |- context [(Z.of_N ?n =? 0)%Z] => rewrite (zero_N n)
  | |- context [(Z.of_nat ?n + 1)%Z] => rewrite (plus_one n)
  | |- context [itoaZ (Z.of_nat ?n)] => rewrite (itoaZ_nat n)
  | |- context [update (?p ++ ?x :: ?r)%list (length ?d) ?w] =>
    rewrite (update_at p x r w (length d)) by (unfold fdefs, gvals; rewrite ?map_length; congruence)
  end.

Lemma gvals_length : forall {S} l, length (@gvals S l) = length l.
Proof. intros. apply map_length. Qed.
Lemma fdefs_length : forall {S} l, length (@fdefs S l) = length l.
Proof. intros. apply map_length. Qed.
Definition of_fields {S} (l : list fdef) : val S := RStruct "Fields" [("fieldSpecs", RSlice (fdefs l))].
Ltac known_lists :=
  match goal with
  | |- context [length (fdefs ?l)] => rewrite (fdefs_length l)
  | |- context [length (gvals ?l)] => rewrite (gvals_length l)
  end.
Definition over {S} (x : string) (v : val S) (E : env S) : env S :=
  match find_env x E with Some (t, _) => set_assoc x (t, v) E | None => E end.
Ltac over_in H := lazy beta iota zeta delta [over find_env set_assoc String.eqb Ascii.eqb Bool.eqb] in H.
Ltac grown := unfold fdefs, gvals; rewrite ?map_app, <- ?app_assoc; reflexivity.
(** A loop over the images under [e] of [l], which changes the variable [x]: it is [f done rest]
    when [done] has been gone through and [rest] is left. *)
Ltac range ee ll x f :=
  lazymatch goal with
  | |- at_ _ _ (loop _ _ _ _ ?E0) _ =>
    eapply at_loop with (e := ee) (Inv := fun done rest E => E = over x (f done rest) E0) (l := ll);
    [ lazy beta iota zeta delta [over find_env set_assoc String.eqb Ascii.eqb Bool.eqb]; reflexivity
    | let E := fresh "E" in let a := fresh "a" in let done := fresh "done" in let rest := fresh "rest" in let Hl := fresh "Hl" in let HE := fresh "HE" in let H := fresh "H" in
      intros done a rest E Hl HE H; over_in HE; subst E; over_in H; open; sx; cbn [map]
    | let E := fresh "E" in let HE := fresh "HE" in
      intros E HE; over_in HE; subst E; cbn [map]; rewrite ?app_nil_r ]
  end.
(** The same when going through it may panic: [F done = Ok b], and the variable is [f b rest]. *)
Ltac range_res ee ll x F f :=
  lazymatch goal with
  | |- at_ _ _ (loop _ _ _ _ ?E0) _ =>
    eapply at_loop with (e := ee) (Inv := fun done rest E => exists b, F done = Ok b /\ E = over x (f b rest) E0) (l := ll);
    [ eexists; split; [reflexivity|lazy beta iota zeta delta [over find_env set_assoc String.eqb Ascii.eqb Bool.eqb]; reflexivity]
    | let E := fresh "E" in let a := fresh "a" in let done := fresh "done" in let rest := fresh "rest" in let Hl := fresh "Hl" in let HE := fresh "HE" in let H := fresh "H" in
      let b := fresh "b" in let HF := fresh "HF" in
      intros done a rest E Hl (b & HF & HE) H; over_in HE; subst E; over_in H; open; sx; cbn [map]
    | let E := fresh "E" in let HE := fresh "HE" in
      let b := fresh "b" in let HF := fresh "HF" in
      intros E (b & HF & HE); over_in HE; subst E; cbn [map]; rewrite ?app_nil_r ]
  end.

Ltac known ::= first [known_numbers | known_lists | known_names].

Section Values.
Context {S : Type} (i : impl S).
Notation val := (val S).
Lemma src_Limiter_Render : forall n q k,
  run i (S1 n) "Limiter.Render" [of_limiter q; RInt "int" (Z.of_nat k)] = Done (RStr "string" (lim_render q k)).
Proof.
  enter. unfold lim_render. walk. all: sx; repeat (hx || bx); cbn [is_empty String.append]; rewrite ?app_assoc_s; try reflexivity.
Qed.
Lemma src_Limiter_RenderSQL : forall n q,
  run i (S1 n) "Limiter.RenderSQL" [of_limiter q] = Done (RStr "string" (lim_render_sql q)).
Proof.
  enter. unfold lim_render_sql. walk. all: sx; repeat (hx || bx); cbn [is_empty String.append]; rewrite ?app_assoc_s; try reflexivity.
Qed.
Lemma src_Limiter_Values : forall n q,
  run i (S1 n) "Limiter.Values" [of_limiter q] = Done (RSlice (map of_gval (lim_values q))).
Proof.
  enter. unfold lim_values. walk. all: sx; repeat (hx || bx); cbn [is_empty String.append]; rewrite ?app_assoc_s; try reflexivity.
Qed.

(** ** Lists of fields *)
Lemma src_Fields_Len : forall n l,
  run i (S1 n) "Fields.Len" [of_fields l] = Done (RInt "int" (Z.of_nat (length l))).
Proof. unfold of_fields. enter. walk. reflexivity. Qed.
Lemma src_Fields_FieldList : forall n l,
  run i (S3 n) "Fields.FieldList" [of_fields l] = Done (RStr "string" (field_list l)).
Proof.
  unfold of_fields. enter. walk.
  - destruct l; [reflexivity|discriminate].
  - rewrite repeat_map.
    range (@of_fdef S) l "fieldSpecs" (fun done rest : list fdef =>
      RSlice (S := S) (map (fun d => RStr "string" (render_spec d)) done ++ map (fun _ => RStr "string" "") rest)).
    + walk. apply H. grown.
    + walk. destruct l; [discriminate|reflexivity].
Qed.
Lemma src_Fields_String : forall n l,
  run i (S3 n) "Fields.String" [of_fields l] = Done (RStr "string" (fs_string l)).
Proof.
  unfold of_fields. enter. walk. rewrite repeat_map.
  range (@of_fdef S) l "fieldStrings" (fun done rest : list fdef =>
      RSlice (S := S) (map (fun d => RStr "string" (render_spec d)) done ++ map (fun _ => RStr "string" "") rest)).
  - walk. apply H. grown.
  - walk. rewrite app_assoc_s. reflexivity.
Qed.
Lemma src_Fields_Fields : forall n l fs,
  run i (S1 n) "Fields.Fields" (of_fields l :: fdefs fs) = Done (of_fields fs).
Proof.
  unfold of_fields. enter. walk. rewrite repeat_map.
  range (@of_fdef S) fs "updated" (fun done rest : list fdef =>
      RStruct "Fields" [("fieldSpecs", RSlice (S := S) (fdefs done ++ map (fun _ => zero 6 (TyName "FieldDefinition")) rest))]).
  - walk. apply H. grown.
  - walk. reflexivity.
Qed.
Lemma src_Fields_FieldDefinitions : forall n l,
  run i (S1 n) "Fields.FieldDefinitions" [of_fields l] = Done (RSlice (fdefs l)).
Proof.
  unfold of_fields. enter. walk. rewrite repeat_length, firstn_all2 by (rewrite fdefs_length; lia).
  rewrite skipn_all2 by (rewrite repeat_length, ?fdefs_length; lia). rewrite app_nil_r. reflexivity.
Qed.
Definition of_arg (a : option fparam) : val := match a with Some p => of_fparam p | None => RBool true end.
Lemma src_NewFields : forall n l,
  run i (S4 n) "NewFields" (map of_arg l) = of_res of_fields (new_fields l).
Proof.
  enter. walk. rewrite map_length, repeat_map.
  range_res (fun a : option fparam => of_arg a) l "fieldSpecs" new_fields (fun (ds : list fdef) (rest : list (option fparam)) =>
      RSlice (S := S) (fdefs ds ++ map (fun _ => zero 6 (TyName "FieldDefinition")) rest)).
  - pose proof (nth_map of_arg done a rest l Hl) as Hn. note Hn. pose proof (mapM_length _ _ _ HF) as L.
    assert (F : forall r, new_fields (done ++ a :: r) = bind (match a with Some p => field_p p | None => Panic end)
                       (fun y => bind (new_fields r) (fun ys => Ok (b ++ y :: ys)%list))).
    { intros r. exact (mapM_app_s _ _ _ _ _ HF). }
    assert (P : forall d, match a with Some p => field_p p | None => Panic end = Ok d -> new_fields (done ++ [a]) = Ok (b ++ [d])%list).
    { intros d Hd. rewrite F, Hd. reflexivity. }
    assert (Q : match a with Some p => field_p p | None => Panic end = Panic -> new_fields l = Panic).
    { intros Hd. rewrite Hl, F, Hd. reflexivity. }
    destruct a as [[s|s|[x y z]]|]; cbn [of_arg of_fparam field_p field_or_error] in *.
    + walk.
      * apply H. exists (b ++ [a])%list. split; [apply P; exact Heqr|]. grown.
      * rewrite Q by exact Heqr. reflexivity.
    + walk.
      * apply H. exists (b ++ [a])%list. split; [apply P; exact Heqr|]. grown.
      * rewrite Q by exact Heqr. reflexivity.
    + walk. apply H. exists (b ++ [mkF x y z])%list. split; [apply P; reflexivity|]. grown.
    + walk. rewrite Q by reflexivity. reflexivity.
  - walk. rewrite HF. reflexivity.
Qed.

End Values.
