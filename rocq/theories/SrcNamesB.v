(** The functions of the source about names, tables, sorting, joins and values,
    continued. *)
From Coq Require Import String Ascii List Bool Arith NArith ZArith Lia.
From Verif Require Import GoStr StrFacts Value Names Cond SrcAst SrcSem SrcProg Open SrcFacts SrcNames.
Import ListNotations.
Local Open Scope string_scope.
Local Open Scope nat_scope.

Section Names.
Context {S : Type} (i : impl S).
Notation val := (val S).

Lemma src_mustField : forall n p,
  run i (S2 n) "mustField" [of_fparam p] = of_res of_fdef (field_p p).
Proof.
  intros n p. unfold field_p.
  destruct p as [s|s|d]; unfold of_fparam; cbn [field_or_error].
  - destruct (src_FieldOrError i n (FPName s)) as [e He]; cbn [of_fparam field_or_error] in He.
    destruct (parse_field s); note He; enter; walk; reflexivity.
  - destruct (src_FieldOrError i n (FPName s)) as [e He]; cbn [of_fparam field_or_error] in He.
    destruct (parse_field s); note He; enter; walk; reflexivity.
  - enter; walk; reflexivity.
Qed.

Lemma src_Field : forall n p,
  run i (S3 n) "Field" [of_fparam p] = of_res of_fdef (field_p p).
Proof.
  intros n p. pose proof (src_mustField n p) as H.
  destruct p as [s|s|d]; unfold of_fparam in *.
  - note H. enter. walk; reflexivity.
  - note H. enter. walk; reflexivity.
  - enter; walk; reflexivity.
Qed.

Lemma src_Field_name : forall n s,
  run i (S3 n) "Field" [RStr "FieldName" s] = of_res of_fdef (field s).
Proof. intros. apply (src_Field n (FPName s)). Qed.
Lemma src_Field_string : forall n s,
  run i (S3 n) "Field" [RStr "string" s] = of_res of_fdef (field s).
Proof. intros. apply (src_Field n (FPStr s)). Qed.


Ltac known ::=
  match goal with
  | |- context [run ?i _ ?f ?vs] =>
    lazymatch f with
    | "SQLKeyWord.String" => rewrite src_SQLKeyWord_String
    | "FieldDefinition.FieldName" =>
      lazymatch vs with [?v] => let d := fdef_of v in use (fun n => src_FieldDefinition_FieldName i n d) end
    | "FieldDefinition.TableName" =>
      lazymatch vs with [?v] => let d := fdef_of v in use (fun n => src_FieldDefinition_TableName i n d) end
    | "FieldDefinition.RenderField" =>
      lazymatch vs with [?v] => let d := fdef_of v in use (fun n => src_FieldDefinition_RenderField i n d) end
    | "FieldDefinition.RenderSpec" =>
      lazymatch vs with [?v] => let d := fdef_of v in use (fun n => src_FieldDefinition_RenderSpec i n d) end
    | "FieldDefinition.RenderTableSpec" =>
      lazymatch vs with [?v] => let d := fdef_of v in use (fun n => src_FieldDefinition_RenderTableSpec i n d) end
    | "FieldDefinition.Of" =>
      lazymatch vs with [?v; RStr ?t ?s] => let d := fdef_of v in use (fun n => src_FieldDefinition_Of i n d t s) end
    | "Field" => first [rewrite src_Field_name | rewrite src_Field_string]
    end
  end.

Lemma src_FieldDefinition_TableFieldName : forall n d,
  run i (S2 n) "FieldDefinition.TableFieldName" [of_fdef d] = Done (RStr "FieldName" (render_table_spec d)).
Proof. enter. walk. reflexivity. Qed.
Lemma src_FieldName_Field : forall n s,
  run i (S4 n) "FieldName.Field" [RStr "FieldName" s] = of_res of_fdef (field s).
Proof. enter. walk. all: reflexivity. Qed.

Definition name_error (e : name_err) : string :=
  match e with
  | EQuote => "%w: field name contains quote character"
  | EDQuote => "%w: field name contains double quote character"
  | ESpace => "%w: field name contains space character"
  | EDots => "%w: too many dots inside field name"
  | EEmpty => "%w: empty field name"
  | EEndDot => "%w: field name could not end with dot"
  | EStartDot => "%w: field name could not start with dot"
  end.
Definition of_err (o : option name_err) : val :=
  match o with
  | None => RNil
  | Some e => RRefl "error" (RSlice [RStr "string" (name_error e); RRefl "error" (RStr "string" "query")])
  end.
Lemma src_FieldName_Validate : forall n s,
  run i (S1 n) "FieldName.Validate" [RStr "FieldName" s] = Done (of_err (validate s)).
Proof. enter. walk. all: unfold validate; repeat (hx || bx). all: reflexivity. Qed.

(** ** Values of fields *)
Lemma src_NewFieldValue : forall n t s g,
  run i (S4 n) "NewFieldValue" [RStr t s; of_gval g] =
  of_res of_fvalue (new_field_value s g).
Proof. intros n t s g. unfold new_field_value. enter. walk. all: reflexivity. Qed.
Lemma src_FieldValue_ApplyFieldTable : forall n v t s,
  run i (S1 n) "FieldValue.ApplyFieldTable" [of_fvalue v; RStr t s] =
  Done (of_fvalue (mkFV (set_table (fv_def v) s) (fv_val v))).
Proof. enter. walk. reflexivity. Qed.
Lemma src_FieldValue_ApplyFieldSpec : forall n v d,
  run i (S1 n) "FieldValue.ApplyFieldSpec" [of_fvalue v; of_fdef d] =
  Done (of_fvalue (mkFV (apply_spec (fv_def v) d) (fv_val v))).
Proof. enter. walk. all: unfold apply_spec; sx; hx; reflexivity. Qed.

Lemma src_FieldDefinition_Value : forall n d g,
  run i (S5 n) "FieldDefinition.Value" [of_fdef d; of_gval g] = of_res of_fvalue (f_value d g).
Proof.
  intros n d g. unfold f_value.
  pose proof (src_NewFieldValue n "FieldName" (f_name d) g) as H.
  destruct (new_field_value (f_name d) g) as [v|] eqn:E; cbn [bind]; sx in H; note H.
  - pose proof (src_FieldValue_ApplyFieldTable (S3 n) v "TableName" (f_table d)) as H'; sx in H'; note H'.
    enter; walk; reflexivity.
  - enter; walk; reflexivity.
Qed.
Lemma src_FieldName_Value : forall n s g,
  run i (S5 n) "FieldName.Value" [RStr "FieldName" s; of_gval g] = of_res of_fvalue (fn_value s g).
Proof.
  intros n s g. unfold fn_value.
  pose proof (src_NewFieldValue n "FieldName" s (eager_provider g)) as H. sx in H. note H.
  destruct g as [| | | | | |o [p|]| | | |]; cbn [eager_provider] in *; cbn [of_gval] in *.
  all: enter; walk; reflexivity.
Qed.

(** ** Tables *)
Lemma src_TableOrError : forall n p, exists e,
  run i (S1 n) "TableOrError" [of_tparam p] =
  Done (RTuple match table_or_error p with
               | Some d => [of_tident d; RNil]
               | None => [RNil; RRefl "error" e]
               end).
Proof.
  intros n p. destruct p as [s|s|d]; unfold of_tparam, table_or_error.
  1: exists (RSlice [RStr "string" "%w: unexpected table ident: `%v`";
                       RRefl "error" (RStr "string" "query"); RStr "string" s]).
  2: exists (RSlice [RStr "string" "%w: unexpected table ident: `%v`";
                       RRefl "error" (RStr "string" "query"); RStr "TableName" s]).
  1,2: enter; unfold parse_table; destruct (go_fields s) as [|t0 [|t1 [|t2 [|t3 r]]]] eqn:G; note G.
  all: try (exists RNil; enter); walk; sx; repeat (hx || bx); try reflexivity.
Qed.
Lemma src_Table : forall n p,
  run i (S2 n) "Table" [of_tparam p] = of_res of_tident (table_p p).
Proof.
  intros n p. unfold table_p. destruct (src_TableOrError n p) as [e He].
  destruct (table_or_error p) eqn:E; sx in He; note He; destruct p; enter; walk; reflexivity.
Qed.
Lemma src_Table_name : forall n s,
  run i (S2 n) "Table" [RStr "TableName" s] = of_res of_tident (table s).
Proof. intros. apply (src_Table n (TPName s)). Qed.
Lemma src_Table_string : forall n s,
  run i (S2 n) "Table" [RStr "string" s] = of_res of_tident (table s).
Proof. intros. apply (src_Table n (TPStr s)). Qed.
Lemma src_TableName_Ident : forall n s,
  run i (S3 n) "TableName.Ident" [RStr "TableName" s] = of_res of_tident (table s).
Proof. intros n s. pose proof (src_Table_name n s) as H. sx in H; note H. enter; walk; reflexivity. Qed.
Lemma src_TableIdent_TableName : forall n t,
  run i (S1 n) "TableIdent.TableName" [of_tident t] = Done (RStr "TableName" (t_name t)).
Proof. enter. walk. reflexivity. Qed.
Lemma src_TableIdent_Alias : forall n t,
  run i (S1 n) "TableIdent.Alias" [of_tident t] = Done (RStr "TableName" (t_alias t)).
Proof. enter. walk. reflexivity. Qed.
Lemma src_TableIdent_RenderFrom : forall n t,
  run i (S1 n) "TableIdent.RenderFrom" [of_tident t] = Done (RStr "string" (t_render t)).
Proof. enter. walk. all: unfold t_render; sx; repeat (hx || bx); rewrite ?app_assoc_s; reflexivity. Qed.
Lemma src_TableIdent_As : forall n t y s,
  run i (S1 n) "TableIdent.As" [of_tident t; RStr y s] = Done (of_tident (t_as t s)).
Proof. enter. walk. all: unfold t_as; sx; repeat (hx || bx); reflexivity. Qed.
Lemma src_TableIdent_aliasOrName : forall n t,
  run i (S1 n) "TableIdent.aliasOrName" [of_tident t] = Done (RStr "string" (alias_or_name t)).
Proof. enter. walk. all: unfold alias_or_name; sx; repeat (hx || bx); reflexivity. Qed.
Lemma src_TableIdent_Field : forall n t s,
  run i (S4 n) "TableIdent.Field" [of_tident t; RStr "FieldName" s] = of_res of_fdef (t_field t s).
Proof.
  intros n t s. unfold t_field. pose proof (src_TableIdent_aliasOrName (S2 n) t) as H.
  open. sx in H; note H.
  enter; walk; reflexivity.
Qed.
Lemma src_TableName_Field : forall n t s,
  run i (S4 n) "TableName.Field" [RStr "TableName" t; RStr "FieldName" s] = of_res of_fdef (tn_field t s).
Proof.
  intros n t s. unfold tn_field. 
  enter; walk; reflexivity.
Qed.

End Names.

(** The calls above, with what they end in. *)
Ltac known_names :=
  match goal with
  | |- context [run ?i _ ?f ?vs] =>
    lazymatch f with
    | "FieldDefinition.FieldName" => lazymatch vs with [?v] => let d := fdef_of v in use (fun n => src_FieldDefinition_FieldName i n d) end
    | "FieldDefinition.Alias" => lazymatch vs with [?v] => let d := fdef_of v in use (fun n => src_FieldDefinition_Alias i n d) end
    | "FieldDefinition.TableName" => lazymatch vs with [?v] => let d := fdef_of v in use (fun n => src_FieldDefinition_TableName i n d) end
    | "FieldDefinition.RenderSpec" => lazymatch vs with [?v] => let d := fdef_of v in use (fun n => src_FieldDefinition_RenderSpec i n d) end
    | "FieldDefinition.RenderField" => lazymatch vs with [?v] => let d := fdef_of v in use (fun n => src_FieldDefinition_RenderField i n d) end
    | "FieldDefinition.RenderTableSpec" => lazymatch vs with [?v] => let d := fdef_of v in use (fun n => src_FieldDefinition_RenderTableSpec i n d) end
    | "FieldDefinition.TableFieldName" => lazymatch vs with [?v] => let d := fdef_of v in use (fun n => src_FieldDefinition_TableFieldName i n d) end
    | "FieldDefinition.As" => lazymatch vs with [?v; RStr ?t ?s] => let d := fdef_of v in use (fun n => src_FieldDefinition_As i n d t s) end
    | "FieldDefinition.Of" => lazymatch vs with [?v; RStr ?t ?s] => let d := fdef_of v in use (fun n => src_FieldDefinition_Of i n d t s) end
    | "TableIdent.TableName" => lazymatch vs with [?v] => let d := tident_of v in use (fun n => src_TableIdent_TableName i n d) end
    | "TableIdent.Alias" => lazymatch vs with [?v] => let d := tident_of v in use (fun n => src_TableIdent_Alias i n d) end
    | "TableIdent.RenderFrom" => lazymatch vs with [?v] => let d := tident_of v in use (fun n => src_TableIdent_RenderFrom i n d) end
    | "TableIdent.aliasOrName" => lazymatch vs with [?v] => let d := tident_of v in use (fun n => src_TableIdent_aliasOrName i n d) end
    | "TableIdent.As" => lazymatch vs with [?v; RStr ?t ?s] => let d := tident_of v in use (fun n => src_TableIdent_As i n d t s) end
    | "TableIdent.Field" => lazymatch vs with [?v; RStr _ ?s] => let d := tident_of v in use (fun n => src_TableIdent_Field i n d s) end
    | "FieldValue.ApplyFieldTable" => lazymatch vs with [?v; RStr ?t ?s] => let d := fvalue_of v in use (fun n => src_FieldValue_ApplyFieldTable i n d t s) end
    | "FieldValue.ApplyFieldSpec" => lazymatch vs with [?v; ?w] => let d := fvalue_of v in let e := fdef_of w in use (fun n => src_FieldValue_ApplyFieldSpec i n d e) end
    | "SQLKeyWord.String" => rewrite src_SQLKeyWord_String
    | "FieldName.String" => rewrite src_FieldName_String
    | "TableName.String" => rewrite src_TableName_String
    | "TableName.RenderFrom" => rewrite src_TableName_RenderFrom
    | "SortDirection.String" => rewrite src_SortDirection_String
    | "JoinType.String" => rewrite src_JoinType_String
    | "FieldName.Field" => rewrite src_FieldName_Field
    | "TableName.Ident" => rewrite src_TableName_Ident
    | "TableName.Field" => rewrite src_TableName_Field
    | "NewFieldValue" => rewrite src_NewFieldValue
    | "Field" => first [rewrite src_Field_name | rewrite src_Field_string]
    | "Table" => first [rewrite src_Table_name | rewrite src_Table_string]
    end
  end.
