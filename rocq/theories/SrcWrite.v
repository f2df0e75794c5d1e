(** insert.go, update.go and delete.go, run from their source. *)
From Coq Require Import String Ascii List Bool Arith NArith ZArith Lia.
From Verif Require Import GoStr StrFacts Value Names Cond Build SrcAst SrcSem SrcProg Surface Open SrcFacts SrcNames SrcNamesB SrcNamesC SrcLoops SrcValues SrcConds SrcGroups SrcAddGroup SrcAdding SrcAddingB SrcAddingC SrcLeafRender SrcLeafSQL SrcTree SrcTreeRender SrcTreeSQL SrcWhere SrcBuilders.
Import ListNotations.
Local Open Scope string_scope.
Local Open Scope nat_scope.

(** insert.go:41-44, update.go:58-63, delete.go:30-33 *)
Definition insert_error (e : berr) : string :=
  match e with ENoValues => "%w: no fields to insert" | ENoTable => "%w: table name empty" | ENoConditions => "" end.
Definition update_error (e : berr) : string :=
  match e with
  | ENoConditions => "%w: empty conditions, will not update every record"
  | ENoValues => "%w: no fields to update set"
  | ENoTable => "%w: no table name set"
  end.
Definition delete_error (e : berr) : string :=
  match e with
  | ENoConditions => "%w: empty conditions, will not delete every record"
  | ENoTable => "%w: no table name set"
  | ENoValues => ""
  end.

Lemma ins_loop_app : forall done r ps c p q, ins_loop ps done = Ok (c, p, q) ->
  ins_loop ps (done ++ r) = do t <- ins_loop q r; let '(c', p', q') := t in Ok ((c ++ c')%list, (p ++ p')%list, q').
Proof.
  induction done as [|v done IH]; intros r ps c p q H; cbn [ins_loop app] in *.
  - inversion H. destruct (ins_loop q r) as [[[? ?] ?]|]; reflexivity.
  - destruct (fv_values (fv_val v)) as [vs|]; [|discriminate]. cbn [bind] in *.
    destruct (ins_loop (ps ++ vs) done) as [[[c1 p1] q1]|] eqn:E; [|discriminate]. cbn [bind] in *. inversion H; subst.
    rewrite (IH r _ _ _ _ E). destruct (ins_loop q r) as [[[? ?] ?]|]; reflexivity.
Qed.
(** update.go:46 *)
Definition set_pairs (l : list fvalue) : list string :=
  map (fun p => f_name (fv_def (snd p)) ++ "=" ++ dollar (fst p + 1)) (combine (seq 0 (length l)) l).
Lemma set_pairs_snoc : forall l a, set_pairs (l ++ [a]) = (set_pairs l ++ [(f_name (fv_def a) ++ "=" ++ dollar (length l + 1))%string])%list.
Proof.
  intros l a. unfold set_pairs. rewrite app_length, seq_app. cbn [length Nat.add seq].
  assert (H : forall k, combine (seq k (length l) ++ [k + length l]) (l ++ [a]) = (combine (seq k (length l)) l ++ [(k + length l, a)])%list).
  { clear. induction l as [|v l IH]; intros k; cbn [length seq app combine]; [reflexivity|].
    rewrite <- (Nat.add_succ_comm k (length l)). cbn [app combine]. rewrite (IH (Datatypes.S k)). reflexivity. }
  specialize (H 0). cbn [Nat.add] in H. rewrite H, map_app. reflexivity.
Qed.
Lemma set_pairs_length : forall l, length (set_pairs l) = length l.
Proof. intros. unfold set_pairs. rewrite map_length, combine_length, seq_length. lia. Qed.

Lemma none_some : forall {A} (l : list A), (length l =? 0) = negb (nonempty l).
Proof. destruct l; reflexivity. Qed.
Lemma gvals_app : forall {S} l m, (@gvals S l ++ gvals m)%list = gvals (l ++ m)%list.
Proof. intros. unfold gvals. rewrite map_app. reflexivity. Qed.
Lemma texts_length : forall {S} l, length (@texts S l) = length l.
Proof. intros. apply map_length. Qed.

Ltac known_write :=
  match goal with
  | |- context [(gvals ?a ++ gvals ?b)%list] => rewrite (gvals_app a b)
  | |- context [(Z.of_nat (length ?l) =? 0)%Z] => rewrite (zero_n (length l))
  | |- context [length ?l =? 0] => rewrite (none_some l)
  | |- context [run ?i _ "FieldValue.Values" [?v]] => let d := fvalue_of v in use (fun n => src_FieldValue_Values i n d)
  end.
Ltac known ::= first [known_numbers | known_dispatch | known_joins | known_groups | known_sums | known_lists | known_base | known_names | known_build | known_write].

Section Write.
Context {S : Type} (i : impl S).
(** * insert.go *)
Lemma src_InsertInto : forall n p, run i (S2 n) "InsertInto" [of_tparam p] = Done (of_ins (insert_into p)).
Proof. intros n [s|s|t]; enter; walk; reflexivity. Qed.
Lemma src_InsertBuilder_Values : forall n x vs,
  run i (S1 n) "InsertBuilder.Values" (of_ins x :: fvals vs) = Done (of_ins (i_add x vs)).
Proof. intros n [o t v] vs. unfold of_ins, of_op. cbn [i_op i_table i_values i_add]. enter. walk. unfold fvals. rewrite map_app. reflexivity. Qed.
Lemma src_InsertBuilder_SetValues : forall n x,
  run i (S1 n) "InsertBuilder.SetValues" [of_ins x] = Done (RSlice (fvals (i_set_values x))).
Proof. intros n [o t v]. unfold of_ins, of_op. enter. walk. reflexivity. Qed.
Lemma src_InsertBuilder_TableName : forall n x,
  run i (S1 n) "InsertBuilder.TableName" [of_ins x] = Done (RStr "TableName" (i_table_name x)).
Proof. intros n [o t v]. unfold of_ins, of_op. enter. walk. reflexivity. Qed.
Lemma src_InsertBuilder_RenderFrom : forall n x,
  run i (S2 n) "InsertBuilder.RenderFrom" [of_ins x] = Done (RStr "string" (i_render_from x)).
Proof. intros n [o t v]. unfold of_ins, of_op. enter. walk. reflexivity. Qed.
Lemma src_InsertBuilder_BuildQueryAndParams : forall n x,
  run i (S2 n) "InsertBuilder.BuildQueryAndParams" [of_ins x] = of_res (of_out insert_error) (i_build x).
Proof.
  intros n [o t v]. unfold of_ins, of_op, i_build. cbn [i_op i_table i_values].
  enter. walk. 1, 3: reflexivity.
  match goal with |- at_ _ _ (loop _ _ _ _ ?E0) _ =>
    eapply at_loop with (e := @of_fvalue S) (l := v)
      (Inv := fun done rest E => exists c p q, ins_loop [] done = Ok (c, p, q) /\
         E = over "params" (RSlice (gvals q)) (over "columns" (RSlice (texts c)) (over "valuePlaceholders" (RSlice (texts p)) E0)))
  end.
  - exists [], [], []. split; reflexivity.
  - intros done a rest E Hl (c & p & q & HF & HE) H. over_in HE. subst E. over_in H.
    pose proof (ins_loop_app done [a] _ _ _ _ HF) as F. pose proof (ins_loop_app done (a :: rest) _ _ _ _ HF) as G.
    destruct a as [[x y z] g]. cbn [ins_loop fv_def fv_val f_name] in F, G. walk.
    + apply H. cbn [bind] in F. do 3 eexists. split; [exact F|]. unfold dollar. reflexivity.
    + rewrite Hl, G. reflexivity.
  - intros E (c & p & q & HF & HE). over_in HE. subst E. walk. rewrite HF. cbn [bind]. rewrite ?app_assoc_s. reflexivity.
Qed.

(** * update.go *)
Lemma src_Update : forall n p, run i (S6 n) "Update" [of_tparam p] = Done (of_upd (update_ p) x_empty).
Proof.
  assert (E : x_new_group i "AND" [] = Ok (mkXG "AND" false [] false)) by reflexivity. note E.
  intros n [s|s|t]; enter; walk; reflexivity.
Qed.
Lemma src_UpdateBuilder_Set : forall n x w vs,
  run i (S1 n) "UpdateBuilder.Set" (of_upd x w :: fvals vs) = Done (of_upd (u_add x vs) w).
Proof. intros n [o t w0 v] w vs. unfold of_upd, of_op, of_group. cbn [u_op u_table u_values u_add]. enter. walk. unfold fvals. rewrite map_app. reflexivity. Qed.
Lemma src_UpdateBuilder_SetValues : forall n x w,
  run i (S1 n) "UpdateBuilder.SetValues" [of_upd x w] = Done (RSlice (fvals (u_set_values x))).
Proof. intros n [o t w0 v] w. unfold of_upd, of_op, of_group. enter. walk. reflexivity. Qed.
Lemma src_UpdateBuilder_TableName : forall n x w,
  run i (S1 n) "UpdateBuilder.TableName" [of_upd x w] = Done (RStr "TableName" (u_table_name x)).
Proof. intros n [o t w0 v] w. unfold of_upd, of_op, of_group. enter. walk. reflexivity. Qed.
Lemma src_UpdateBuilder_RenderFrom : forall n x w,
  run i (S2 n) "UpdateBuilder.RenderFrom" [of_upd x w] = Done (RStr "string" (u_render_from x)).
Proof. intros n [o t w0 v] w. unfold of_upd, of_op, of_group. enter. walk. reflexivity. Qed.
Lemma src_UpdateBuilder_Where : forall n x w cs,
  run i (S10 n) "UpdateBuilder.Where" (of_upd x w :: xvals cs) = of_res (of_upd x) (x_group_and i w cs).
Proof.
  intros n [o t w0 v] w cs. pose proof (src_Group_GroupAND i n w cs) as H. unfold of_upd, of_op. cbn [u_op u_table u_values]. destruct w as [j0 b0 c0 d0].
  destruct (x_group_and i _ cs) as [[a b c d]|]; opened H; enter; walk; reflexivity.
Qed.
Lemma src_UpdateBuilder_fieldsAndValues : forall n x w,
  run i (S2 n) "UpdateBuilder.fieldsAndValues" [of_upd x w] =
  of_res (fun p => RTuple [RStr "string" (fst p); RSlice (gvals (snd p))]) (fields_and_values (u_values x)).
Proof.
  intros n [o t w0 v] w. unfold of_upd, of_op, of_group, fields_and_values. cbn [u_op u_table u_values]. fold (set_pairs v).
  enter. walk. rewrite !repeat_map.
  match goal with |- at_ _ _ (loop _ _ _ _ ?E0) _ =>
    eapply at_loop with (e := @of_fvalue S) (l := v)
      (Inv := fun done rest E => exists b, mapM first_value done = Ok b /\
         E = over "params" (RSlice (gvals b ++ map (fun _ => RNil) rest))
            (over "kwPairs" (RSlice (texts (set_pairs done) ++ map (fun _ => RStr "string" "") rest)) E0))
  end.
  - exists []. split; reflexivity.
  - intros done a rest E Hl (b & HF & HE) H. over_in HE. subst E. over_in H. cbn [map].
    pose proof (mapM_length _ _ _ HF) as L. pose proof (mapM_app_s first_value done b) as F.
    pose proof (set_pairs_snoc done a) as P. 
    assert (L2 : length (@texts S (set_pairs done)) = length done) by (rewrite texts_length; apply set_pairs_length).
    assert (Fa : first_value a = do vs <- fv_values (fv_val a); match vs with [] => Panic | g :: _ => Ok g end) by reflexivity.
    destruct a as [[x y z] g]. cbn [fv_def fv_val f_name] in P, Fa. walk.
    + destruct a as [|v0 vs]; cbn [bind] in Fa.
      * change (@gvals S []) with (@nil (val S)). walk. rewrite Hl, (F _ _ HF), Fa. reflexivity.
      * change (@gvals S (v0 :: vs)) with (@of_gval S v0 :: gvals vs). walk. apply H. exists (b ++ [v0])%list.
        split; [rewrite (F [] _ HF), Fa; reflexivity|]. rewrite P. unfold dollar, texts, gvals. rewrite !map_app, <- !app_assoc.
        cbn [map app]. rewrite ?app_assoc_s. reflexivity.
    + cbn [bind] in Fa. rewrite Hl, (F _ _ HF), Fa. reflexivity.
  - intros E (b & HF & HE). over_in HE. subst E. cbn [map]. rewrite ?app_nil_r. walk. rewrite HF. reflexivity.
Qed.
Lemma src_UpdateBuilder_BuildQueryAndParams : forall n d x w, deep (of_xg w) <= d ->
  run i (S5 (d + n)) "UpdateBuilder.BuildQueryAndParams" [of_upd x w] = of_res (of_out update_error) (x_u_build i x w).
Proof.
  intros n d x w Hd. unfold x_u_build.
  pose proof (src_UpdateBuilder_fieldsAndValues (S2 (d + n)) x w) as H1.
  pose proof (fun k => src_Group_Render i n d w k Hd) as H2.
  pose proof (src_Group_Values i (Datatypes.S n) d w Hd) as H3. rewrite <- plus_n_Sm in H3.
  destruct x as [o t w0 v], w as [j0 b0 c0 d0]. unfold of_upd, of_op in *. cbn [u_op u_table u_values] in *. opened H1; opened H2; opened H3.
  destruct (fields_and_values v) as [[sets ps]|]; [pose proof (H2 (length ps)) as H4; note H4|]; clear H2.
  all: enter; walk; try reflexivity.
  all: cbn [bind]; repeat match goal with H : x_render _ _ _ = _ |- _ => rewrite H; cbn [bind] end; reflexivity.
Qed.

(** * delete.go *)
Lemma src_Delete : forall n p, run i (S6 n) "Delete" [of_tparam p] = Done (of_del (delete_ p) x_empty).
Proof.
  assert (E : x_new_group i "AND" [] = Ok (mkXG "AND" false [] false)) by reflexivity. note E.
  intros n [s|s|t]; enter; walk; reflexivity.
Qed.
Lemma src_DeleteBuilder_TableName : forall n x w,
  run i (S1 n) "DeleteBuilder.TableName" [of_del x w] = Done (RStr "TableName" (d_table_name x)).
Proof. intros n [o t w0] w. unfold of_del, of_op, of_group. enter. walk. reflexivity. Qed.
Lemma src_DeleteBuilder_RenderFrom : forall n x w,
  run i (S2 n) "DeleteBuilder.RenderFrom" [of_del x w] = Done (RStr "string" (d_render_from x)).
Proof. intros n [o t w0] w. unfold of_del, of_op, of_group. enter. walk. reflexivity. Qed.
Lemma src_DeleteBuilder_Where : forall n x w cs,
  run i (S10 n) "DeleteBuilder.Where" (of_del x w :: xvals cs) = of_res (of_del x) (x_group_and i w cs).
Proof.
  intros n [o t w0] w cs. pose proof (src_Group_GroupAND i n w cs) as H. unfold of_del, of_op. cbn [d_op d_table]. destruct w as [j0 b0 c0 d0].
  destruct (x_group_and i _ cs) as [[a b c d]|]; opened H; enter; walk; reflexivity.
Qed.
Lemma src_DeleteBuilder_BuildQueryAndParams : forall n d x w, deep (of_xg w) <= d ->
  run i (S5 (d + n)) "DeleteBuilder.BuildQueryAndParams" [of_del x w] = of_res (of_out delete_error) (x_d_build i x w).
Proof.
  intros n d x w Hd. unfold x_d_build.
  pose proof (src_Group_Render i n d w 0 Hd) as H2.
  pose proof (src_Group_Values i (Datatypes.S n) d w Hd) as H3. rewrite <- plus_n_Sm in H3.
  destruct x as [o t w0], w as [j0 b0 c0 d0]. unfold of_del, of_op in *. cbn [d_op d_table] in *. opened H2; opened H3.
  enter; walk; try reflexivity.
Qed.
End Write.
