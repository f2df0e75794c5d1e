(** How query builders look in the source. *)
From Coq Require Import String Ascii List Bool Arith NArith ZArith Lia.
From Verif Require Import GoStr StrFacts Value Names Cond Build SrcAst SrcSem SrcProg Surface Open SrcFacts SrcNames SrcNamesB SrcNamesC SrcLoops SrcValues SrcConds SrcGroups SrcAddGroup SrcAdding SrcAddingB SrcAddingC SrcLeafRender SrcLeafSQL SrcTree SrcTreeRender SrcTreeSQL SrcWhere.
Import ListNotations.
Local Open Scope string_scope.
Local Open Scope nat_scope.

(** * How builders look in the source *)
Section Enc.
Context {S : Type}.
Notation val := (val S).
Definition joiners (l : list joiner) : list val := map of_joiner l.
Definition fsorts (l : list fsort) : list val := map of_fsort l.
Definition of_op (o : Z) : val := RStruct "BaseBuilder" [("op", RInt "Operation" o)].
(** A builder and its conditions, which may be of any type. *)
Definition of_bsel (b : bsel) (w : xgroup S) : val :=
  RStruct "BaseSelectBuilder"
    [("BaseBuilder", of_op (b_op b)); ("baseTable", of_tident (b_table b)); ("joins", RSlice (joiners (b_joins b)));
     ("fields", of_fields (b_fields b)); ("where", of_where w)].
(** insert.go:10-14, update.go:10-15, delete.go:9-13, select_many.go:12-18, select_single.go:4-6, count.go:9-12 *)
Definition of_ins (x : ins) : val :=
  RStruct "InsertBuilder"
    [("BaseBuilder", of_op (i_op x)); ("tableName", RStr "TableName" (i_table x)); ("setValues", RSlice (fvals (i_values x)))].
Definition of_upd (u : upd) (w : xgroup S) : val :=
  RStruct "UpdateBuilder"
    [("BaseBuilder", of_op (u_op u)); ("tableName", RStr "TableName" (u_table u)); ("where", of_group w);
     ("setValues", RSlice (fvals (u_values u)))].
Definition of_del (d : del) (w : xgroup S) : val :=
  RStruct "DeleteBuilder"
    [("BaseBuilder", of_op (d_op d)); ("tableName", RStr "TableName" (d_table d)); ("where", of_group w)].
(** tableSpec is never set *)
Definition of_msel (m : msel) (w : xgroup S) : val :=
  RStruct "SelectManyBuilder"
    [("BaseSelectBuilder", of_bsel (m_base m) w); ("offset", RInt "uint" (Z.of_N (m_offset m)));
     ("limit", RInt "int" (m_limit m)); ("order", RSlice (fsorts (m_order m))); ("tableSpec", RBool false)].
Definition of_ssel (s : ssel) (w : xgroup S) : val :=
  RStruct "SelectSingleBuilder" [("BaseSelectBuilder", of_bsel (ss_base s) w)].
Definition of_csel (c : csel) (w : xgroup S) : val :=
  RStruct "CountBuilder" [("baseBuilder", of_bsel (cs_base c) w); ("countField", of_fdef (cs_field c))].
(** What BuildQueryAndParams returns; [e] has the texts of its errors. *)
Definition of_out (e : berr -> string) (o : out) : val :=
  RTuple [RStr "string" (o_sql o); RSlice (gvals (o_params o));
          match o_err o with
          | None => RNil
          | Some k => RRefl "error" (RSlice [RStr "string" (e k); RRefl "error" (RStr "string" "query")])
          end].
End Enc.
(** The select builders return no error. *)
Definition no_error (_ : berr) : string := "".

Lemma joiners_length : forall {S} l, length (@joiners S l) = length l.
Proof. intros. apply map_length. Qed.
Lemma fsorts_length : forall {S} l, length (@fsorts S l) = length l.
Proof. intros. apply map_length. Qed.
Lemma strs_app : forall {S} (a b : list (val S)) x, strs a = Done x -> strs (a ++ b) = rbind (strs b) (fun y => Done (x ++ y)%list).
Proof.
  induction a as [|v a IH]; intros b x H; cbn [strs app] in *.
  - inversion H. destruct (strs b); reflexivity.
  - destruct v; try discriminate. destruct (strs a) as [y| | |]; try discriminate. cbn [rbind] in H. inversion H; subst.
    rewrite (IH b y eq_refl). destruct (strs b); reflexivity.
Qed.
(** The texts of some joins, other texts before them. *)
Definition texts {S} (l : list string) : list (val S) := map (RStr "string") l.
Lemma strs_texts : forall {S} l, @strs S (texts l) = Done l.
Proof. intros. apply strs_map. Qed.

Lemma texts_app : forall {S} l m, (@texts S l ++ texts m)%list = texts (l ++ m)%list.
Proof. intros. unfold texts. rewrite map_app. reflexivity. Qed.
Lemma one_more : forall n, (1 + Z.of_nat n)%Z = Z.of_nat (Datatypes.S n).
Proof. lia. Qed.
Lemma update_after : forall {S} (z : val S) (a : list (val S)) x r w n, n = length a ->
  update (z :: a ++ x :: r) (Datatypes.S n) w = Some (z :: a ++ w :: r)%list.
Proof. intros. cbn [update]. rewrite update_at by assumption. reflexivity. Qed.

Lemma fvals_length : forall {S} l, length (@fvals S l) = length l.
Proof. intros. apply map_length. Qed.

Ltac known_build :=
  match goal with
  | |- context [(1 + Z.of_nat ?n)%Z] => rewrite (one_more n)
  | |- context [@repeat ?A ?x (Datatypes.S ?n)] => change (@repeat A x (Datatypes.S n)) with (x :: @repeat A x n)
  | |- context [update (?a :: ?r) 0 ?w] => change (update (a :: r) 0 w) with (Some (w :: r))
  | |- context [update (?z :: ?p ++ ?x :: ?r)%list (Datatypes.S (length ?d)) ?w] =>
    rewrite (update_after z p x r w (length d)) by (unfold joiners, fsorts; rewrite ?map_length; congruence)
  | |- context [run ?i _ ?f ?vs] =>
    lazymatch f with
    | "TableJoiner.RenderFrom" => lazymatch vs with [?v] => let d := joiner_of v in use (fun n => src_TableJoiner_RenderFrom i n d) end
    | "TableJoiner.By" => lazymatch vs with [?v; ?l; ?r] => let d := joiner_of v in let x := fdef_of l in let y := fdef_of r in use (fun n => src_TableJoiner_By i n d x y) end
    | "FieldSorting.Render" => lazymatch vs with [?v] => let d := fsort_of v in use (fun n => src_FieldSorting_Render i n d) end
    | "Operation.String" => rewrite (src_Operation_String i)
    | "Fields.FieldList" => lazymatch vs with [RStruct "Fields" [(_, RSlice (fdefs ?l))]] => let y := fresh in pose proof (fun n => src_Fields_FieldList i n l) as y; unfold of_fields in y; rewrite y; clear y end
    | "Fields.String" => lazymatch vs with [RStruct "Fields" [(_, RSlice (fdefs ?l))]] => let y := fresh in pose proof (fun n => src_Fields_String i n l) as y; unfold of_fields in y; rewrite y; clear y end
    | "Fields.Fields" => lazymatch vs with RStruct "Fields" [(_, RSlice (fdefs ?l))] :: fdefs ?k => let y := fresh in pose proof (fun n => src_Fields_Fields i n l k) as y; unfold of_fields in y; rewrite y; clear y end
    | "Fields.FieldDefinitions" => lazymatch vs with [RStruct "Fields" [(_, RSlice (fdefs ?l))]] => let y := fresh in pose proof (fun n => src_Fields_FieldDefinitions i n l) as y; unfold of_fields in y; rewrite y; clear y end
    end
  | |- context [length (joiners ?l)] => rewrite (joiners_length l)
  | |- context [length (fsorts ?l)] => rewrite (fsorts_length l)
  | |- context [length (fvals ?l)] => rewrite (fvals_length l)
  | |- context [length (xvals ?l)] => rewrite (xvals_length l)
  | |- context [strs (texts ?l)] => rewrite (strs_texts l)
  | |- context [(@texts ?S ?l ++ [RStr "string" ?a])%list] => rewrite (@texts_app S l [a] : (texts l ++ [RStr "string" a])%list = _)
  | |- context [(@texts ?S ?l ++ [RStr "string" ?a; RStr "string" ?b])%list] => rewrite (@texts_app S l [a; b] : (texts l ++ [RStr "string" a; RStr "string" b])%list = _)
  end.
Lemma pos_some : forall {A} (l : list A), (0 <? length l) = nonempty l.
Proof. destruct l; reflexivity. Qed.
Ltac built := rewrite ?pos_some in *; repeat (hx || bx); cbn [bind]; rewrite <- ?app_assoc; reflexivity.
Ltac bsel_open w := unfold of_bsel, of_op, of_where, of_fields in *; cbn [b_op b_table b_joins b_fields b_where]; destruct w as [j0 b0 c0 d0].
