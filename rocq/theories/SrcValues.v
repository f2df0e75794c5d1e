(** FieldValue.Values, UniqFieldNames and ValuesMap.FieldValues. *)
From Coq Require Import String Ascii List Bool Arith NArith ZArith Lia.
From Verif Require Import GoStr StrFacts Value Names Cond SrcAst SrcSem SrcProg Surface Open SrcFacts SrcNames SrcNamesB SrcNamesC SrcLoops.
Import ListNotations.
Local Open Scope string_scope.
Local Open Scope nat_scope.

Ltac known ::= first [known_numbers | known_lists | known_names].

Section Values.
Context {S : Type} (i : impl S).
Notation val := (val S).
Lemma src_FieldValue_Values : forall n v,
  run i (S1 n) "FieldValue.Values" [of_fvalue v] = of_res (fun l => RSlice (gvals l)) (fv_values (fv_val v)).
Proof.
  intros n [d g]. cbn [fv_val].
  destruct g as [|s|u|k|l|l|o p|g|l|l|l]; try destruct o as [g f|]; cbn [fv_values].
  all: cbn [valuer_value bind].
  - enter; cbn [of_gval]; walk; reflexivity.
  - enter; cbn [of_gval]; walk; reflexivity.
  - enter; cbn [of_gval]; walk; reflexivity.
  - enter; cbn [of_gval]; walk; reflexivity.
  - enter; cbn [of_gval]; walk; reflexivity.
  - enter; cbn [of_gval]; walk. rewrite map_length, repeat_map.
    range (@RStr S "string") l "result" (fun done rest : list string =>
      RSlice (S := S) (gvals (map VStr done) ++ map (fun _ => RNil) rest)).
    + walk. apply H. grown.
    + walk. reflexivity.
  - destruct p; enter; cbn [of_gval]; walk; reflexivity.
  - destruct p; enter; cbn [of_gval]; walk; reflexivity.
  - enter; cbn [of_gval]; walk; reflexivity.
  - enter; cbn [of_gval]; walk. rewrite map_length, repeat_map.
    range_res (@opt_valuer S) l "result" (mapM valuer_value) (fun (b : list gval) (rest : list (option vout)) =>
      RSlice (S := S) (gvals b ++ map (fun _ => RNil) rest)).
    + pose proof (mapM_length _ _ _ HF) as L. pose proof (mapM_app_s valuer_value done b) as F.
      destruct a as [[g f|]|]; cbn [opt_valuer]; walk.
      * apply H. eexists. split; [rewrite (F [] _ HF); reflexivity|]. grown.
      * rewrite Hl, (F rest _ HF). reflexivity.
      * rewrite Hl, (F rest _ HF). reflexivity.
    + walk. rewrite HF. reflexivity.
  - enter; cbn [of_gval]; walk. rewrite map_length, repeat_map.
    range_res (@opt_provider S) l "result" (mapM provider_value) (fun (b : list gval) (rest : list (option gval)) =>
      RSlice (S := S) (gvals b ++ map (fun _ => RNil) rest)).
    + pose proof (mapM_length _ _ _ HF) as L. pose proof (mapM_app_s provider_value done b) as F.
      destruct a as [g|]; cbn [opt_provider]; walk.
      * apply H. eexists. split; [rewrite (F [] _ HF); reflexivity|]. grown.
      * rewrite Hl, (F rest _ HF). reflexivity.
    + walk. rewrite HF. reflexivity.
  - enter; cbn [of_gval]; walk. rewrite map_length, repeat_map. 
    match goal with |- at_ _ _ (while _ _ _ _ ?E0) _ =>
      apply at_while with (m := length l) (Inv := fun k E => exists done rest b e,
        l = (done ++ rest)%list /\ k = length done /\ mapM valuer_slice_value done = Ok b /\
        E = over "err" e (over "idx" (RInt "int" (Z.of_nat k)) (over "res" (RSlice (gvals b ++ map (fun _ : option vout => RNil) rest)) E0)))
    end.
    + cbn [room length]. rewrite map_length. lia.
    + exists [], l, [], RNil. repeat split. 
    + intros k E m Hk (done & rest & b & e & Hl & -> & HF & HE) H. destruct rest as [|a rest].
      { rewrite Hl, app_nil_r in Hk. lia. }
      over_in HE. subst E. cbn [map].
      pose proof (mapM_length _ _ _ HF) as L. pose proof (mapM_app_s valuer_slice_value done b) as F.
      split.
      * sx. rewrite app_length, gvals_length. cbn [length]. rewrite L. do 2 f_equal. apply Z.ltb_lt. lia.
      * pose proof (nth_map (@opt_valuer S) done a rest l Hl) as Hn. note Hn.
        destruct a as [[g [|]|]|]; cbn [opt_valuer] in *; walk.
        -- rewrite Hl, (F rest _ HF). reflexivity.
        -- eapply at_wnext; [lazy beta iota zeta delta [block]; calc; reflexivity|]. apply H.
           exists (done ++ [Some (ORet g false)])%list, rest, (b ++ [g])%list, RNil.
           split; [rewrite Hl, <- app_assoc; reflexivity|].
           split; [rewrite app_length; reflexivity|]. split; [rewrite (F [] _ HF); reflexivity|]. grown.
        -- rewrite Hl, (F rest _ HF). reflexivity.
        -- rewrite Hl, (F rest _ HF). reflexivity.
    + intros E (done & rest & b & e & Hl & Hk & HF & HE). over_in HE. subst E.
      assert (rest = []) as ->.
      { rewrite Hl, app_length in Hk. destruct rest; [reflexivity|]. cbn [length] in Hk. lia. }
      cbn [map]. rewrite app_nil_r in *. subst done.
      pose proof (mapM_length _ _ _ HF) as L. split.
      * sx. rewrite gvals_length, L. do 2 f_equal. apply Z.ltb_ge. lia.
      * walk. rewrite HF. reflexivity.
Qed.

Lemma uniq_snoc : forall r ans a,
  uniq_aux ans (r ++ [a]) = if found (uniq_aux ans r) a then uniq_aux ans r else (uniq_aux ans r ++ [a])%list.
Proof. induction r as [|b r IH]; intros ans a; [reflexivity|]. cbn [app uniq_aux]. apply IH. Qed.
Lemma found_app : forall d r a, found (d ++ r) a = if found d a then true else found r a.
Proof. induction d as [|b d IH]; intros r a; [reflexivity|]. cbn [app found]. destruct (str_eqb b a); [reflexivity|apply IH]. Qed.

Lemma src_UniqFieldNames : forall n l,
  run i (S1 n) "UniqFieldNames" [RSlice (map (RStr "FieldName") l)] =
  Done (RSlice (map (RStr "FieldName") (uniq_field_names l))).
Proof.
  enter. walk.
  range (@RStr S "FieldName") l "answer" (fun done rest : list string =>
      RSlice (S := S) (map (RStr "FieldName") (uniq_field_names done))).
  - assert (U : uniq_field_names (done ++ [a]) = if found (uniq_field_names done) a then uniq_field_names done
                                                 else (uniq_field_names done ++ [a])%list) by apply uniq_snoc.
    rewrite U in H. clear U. walk.
    remember (uniq_field_names done) as u eqn:Hu. clear Hu.
    match goal with |- at_ _ _ (while _ _ _ _ ?E0) _ =>
      apply at_while with (m := length u) (Inv := fun k E => exists d r,
        u = (d ++ r)%list /\ k = length d /\ found d a = false /\
        E = over "j" (RInt "int" (Z.of_nat k)) E0)
    end.
    + cbn [room length]. rewrite !map_length. lia.
    + exists [], u. repeat split.
    + intros k E m Hk (d & r & Hd & -> & HF & HE) H'. destruct r as [|x r].
      { rewrite Hd, app_nil_r in Hk. lia. }
      over_in HE. subst E.
      pose proof (nth_map (@RStr S "FieldName") d x r u Hd) as Hn. note Hn.
      split.
      * sx. rewrite map_length. do 2 f_equal. apply Z.ltb_lt. lia.
      * walk.
        -- assert (G : found u a = true) by (rewrite Hd, found_app, HF; cbn [found]; rewrite Heqb; reflexivity).
           rewrite G in H. apply H. reflexivity.
        -- eapply at_wnext; [lazy beta iota zeta delta [block]; calc; reflexivity|]. apply H'.
           exists (d ++ [x])%list, r.
           split; [rewrite Hd, <- app_assoc; reflexivity|].
           split; [rewrite app_length; reflexivity|].
           split; [rewrite found_app, HF; cbn [found]; rewrite Heqb; reflexivity|]. reflexivity.
    + intros E (d & r & Hd & Hk & HF & HE). over_in HE. subst E.
      assert (r = []) as ->.
      { rewrite Hd, app_length in Hk. destruct r; [reflexivity|]. cbn [length] in Hk. lia. }
      rewrite app_nil_r in Hd. subst d. rewrite HF in H. split.
      * sx. rewrite map_length. do 2 f_equal. apply Z.ltb_ge. lia.
      * walk. apply H. grown.
  - walk. reflexivity.
Qed.

(** A map is the list of its entries in the order in which range visits them. *)
Definition of_map (m : list (string * gval)) : val :=
  RMap (map (fun p => (fst p, of_gval (snd p))) m).
Definition fvals (l : list fvalue) : list val := map of_fvalue l.

(** The error for the first key that is no field name. *)
Fixpoint map_err (m : list (string * gval)) : val :=
  match m with
  | [] => RNil
  | (k, _) :: r =>
    match validate k with
    | Some e =>
      RRefl "error" (RSlice [RRefl "error" (RSlice [RStr "string" "%w: invalid field name `%v`";
                                                    RRefl "error" (RStr "string" "query"); RStr "string" k]);
                             of_err (Some e)])
    | None => map_err r
    end
  end.
Lemma map_err_app : forall done b r, map_field_values done = Ok (Some b) -> map_err (done ++ r) = map_err r.
Proof.
  induction done as [|[k v] done IH]; intros b r H; [reflexivity|]. cbn [map_field_values] in H. cbn [app map_err].
  destruct (validate k); [discriminate|]. destruct (new_field_value k v); [|discriminate]. cbn [bind] in H.
  destruct (map_field_values done) as [[l|]|]; try discriminate. apply (IH l). reflexivity.
Qed.
Lemma map_values_app : forall done b r, map_field_values done = Ok (Some b) ->
  map_field_values (done ++ r) = bind (map_field_values r) (fun o => Ok (option_map (fun l => (b ++ l)%list) o)).
Proof.
  induction done as [|[k v] done IH]; intros b r H.
  - inversion H; subst. cbn [app]. destruct (map_field_values r) as [[l|]|]; reflexivity.
  - cbn [map_field_values] in H. cbn [app map_field_values].
    destruct (validate k); [discriminate|]. destruct (new_field_value k v); [|discriminate]. cbn [bind] in *.
    destruct (map_field_values done) as [[l|]|]; try discriminate. cbn [bind] in H. inversion H; subst.
    rewrite (IH l r eq_refl). destruct (map_field_values r) as [[l'|]|]; reflexivity.
Qed.
Lemma map_values_length : forall m b, map_field_values m = Ok (Some b) -> length b = length m.
Proof.
  induction m as [|[k v] m IH]; intros b H; [inversion H; reflexivity|]. cbn [map_field_values] in H.
  destruct (validate k); [discriminate|]. destruct (new_field_value k v); [|discriminate]. cbn [bind] in *.
  destruct (map_field_values m) as [[l|]|]; try discriminate. inversion H; subst. cbn [length].
  rewrite (IH l eq_refl). reflexivity.
Qed.
Lemma src_ValuesMap_FieldValues : forall n m,
  run i (S5 n) "ValuesMap.FieldValues" [of_map m] =
  of_res (fun o => match o with
                   | Some l => RTuple [RSlice (fvals l); RNil]
                   | None => RTuple [RSlice []; map_err m]
                   end) (map_field_values m).
Proof.
  unfold of_map. enter. walk. rewrite map_length, repeat_map, map_map.
  match goal with |- at_ _ _ (loop _ _ _ _ ?E0) _ =>
    eapply at_loop_pairs with (e := fun p => (RStr "string" (fst p), of_gval (snd p))) (done := []) (l := m)
      (Inv := fun done rest E => exists b, map_field_values done = Ok (Some b) /\
         E = over "idx" (RInt "int" (Z.of_nat (length done))) (over "res" (RSlice (fvals b ++ map (fun _ => zero 6 (TyName "FieldValue")) rest)) E0))
  end.
  - intros done [k v] rest E Hl (b & HF & HE) H. over_in HE. subst E. over_in H. cbn [map fst snd] in *.
    pose proof (map_values_length _ _ HF) as L. assert (L' : length (fvals b) = length done) by (unfold fvals; rewrite map_length; exact L).
    pose proof (map_values_app done b ((k, v) :: rest) HF) as M. rewrite <- Hl in M.
    pose proof (map_err_app done b ((k, v) :: rest) HF) as ME. rewrite <- Hl in ME.
    pose proof (src_FieldName_Validate i (S3 n) k) as V. note V.
    cbn [map_field_values map_err] in M, ME.
    destruct (validate k) as [e|] eqn:Ev; cbn [of_err] in V; sx; walk.
    + rewrite M, ME. reflexivity.
    + apply H. exists (b ++ [a])%list. split.
      * rewrite (map_values_app done b _ HF). cbn [map_field_values]. rewrite Ev, Heqr. reflexivity.
      * unfold fvals. rewrite app_length. grown.
    + rewrite M. reflexivity.
  - intros E (b & HF & HE). over_in HE. subst E. cbn [map]. rewrite app_nil_r. walk. rewrite HF. reflexivity.
  - reflexivity.
  - exists []. split; reflexivity.
Qed.
End Values.
