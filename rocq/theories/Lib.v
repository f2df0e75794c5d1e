(** The nine condition types of lib_*.go, transcribed type by type and method by method
    as they stand in /repo (Cond.v reads them as one type of leaves with a tag; PropsLib.v
    proves that reading right), with base.go and the FieldValue part of value.go. *)
From Coq Require Import String Ascii List Bool Arith.
From Verif Require Import GoStr Value Names Cond.
Import ListNotations.
Local Open Scope string_scope.
Local Open Scope nat_scope.

(** * base.go *)

(** base.go:18-21 BaseCondition *)
Record base := mkBase { joinType : string; negate : bool }.
(** base.go:24-26 *)
Definition base_JoinType (b : base) : string := joinType b.
(** base.go:29-32 *)
Definition base_Join (b : base) (newJoinType : string) : base := mkBase newJoinType (negate b).
(** base.go:35-38 *)
Definition base_Negate (b : base) (newNegate : bool) : base := mkBase (joinType b) newNegate.
(** base.go:49-51 *)
Definition base_IsNegate (b : base) : bool := negate b.
(** base.go:55-61 *)
Definition base_RenderNegate (b : base) : string := if negate b then "NOT" else "".
(** base.go:68-74 *)
Definition base_RenderJoin (b : base) (isFirst : bool) : string :=
  if negb isFirst then joinType b else "".
(** base.go:78-80 newBaseCondition *)
Definition newBaseCondition (j : string) (n : bool) : base := mkBase j n.

(** * value.go *)

(** value.go:17-20 *)
Definition value_ApplyFieldTable (fv : fvalue) (table : string) : fvalue :=
  mkFV (mkF (f_name (fv_def fv)) table (f_alias (fv_def fv))) (fv_val fv).
(** value.go:24-30 *)
Definition value_ApplyFieldSpec (fv : fvalue) (spec : fdef) : fvalue :=
  if str_eqb (f_name (fv_def fv)) (f_name spec) then mkFV spec (fv_val fv) else fv.
(** value.go:33-96 *)
Definition value_Values (fv : fvalue) : res (list gval) := fv_values (fv_val fv).

(** the methods promoted from the embedded structs: field_definition.go:137-153 RenderSpec *)
Definition value_RenderSpec (fv : fvalue) : string := render_spec (fv_def fv).

(** * lib_equal.go equalTo *)

(** lib_equal.go:9-12 *)
Record equalTo := mk_equalTo { equalTo_base : base; equalTo_value : fvalue }.
(** as a Condition interface value in the model of Cond.v *)
Definition equalTo_cond (x : equalTo) : cond :=
  CLeaf (mkLeaf KEq (joinType (equalTo_base x)) (negate (equalTo_base x)) (fv_def (equalTo_value x)) (fv_val (equalTo_value x))).
(** lib_equal.go:16-19 *)
Definition equalTo_ApplyFieldTable (x : equalTo) (table : string) : equalTo :=
  mk_equalTo (equalTo_base x) (mkFV (mkF (f_name (fv_def (equalTo_value x))) table (f_alias (fv_def (equalTo_value x)))) (fv_val (equalTo_value x))).
(** lib_equal.go:24-27 *)
Definition equalTo_ApplyFieldSpec (x : equalTo) (spec : fdef) : equalTo :=
  mk_equalTo (equalTo_base x) (value_ApplyFieldSpec (equalTo_value x) spec).
(** lib_equal.go:30-33 *)
Definition equalTo_Join (x : equalTo) (j : string) : equalTo := mk_equalTo (base_Join (equalTo_base x) j) (equalTo_value x).
(** lib_equal.go:36-39 *)
Definition equalTo_Negate (x : equalTo) (b : bool) : equalTo := mk_equalTo (base_Negate (equalTo_base x) b) (equalTo_value x).
(** promoted: value.go:33-96 *)
Definition equalTo_Values (x : equalTo) : res (list gval) := value_Values (equalTo_value x).
(** lib_equal.go:42-50 *)
Definition equalTo_Render (x : equalTo) (n : nat) : res string :=
  Ok (join "" (if base_IsNegate (equalTo_base x)
               then [base_RenderNegate (equalTo_base x) ++ " "; value_RenderSpec (equalTo_value x); "=$" ++ itoa (n + 1)]
               else [value_RenderSpec (equalTo_value x); "=$" ++ itoa (n + 1)])).
(** lib_equal.go:54-62 *)
Definition equalTo_RenderSQL (x : equalTo) : res string :=
  Ok (join "" (if base_IsNegate (equalTo_base x)
               then [base_RenderNegate (equalTo_base x) ++ " "; value_RenderSpec (equalTo_value x); "=?"]
               else [value_RenderSpec (equalTo_value x); "=?"])).
(** lib_equal.go:66-68 *)
Definition equalTo_And (x : equalTo) (cs : list cond) : res cond := and_ (equalTo_cond x) cs.
(** lib_equal.go:72-74 *)
Definition equalTo_Or (x : equalTo) (cs : list cond) : res cond := or_ (equalTo_cond x) cs.
(** lib_equal.go:77-82 EqualTo *)
Definition EqualTo (fn : string) (value : gval) : res equalTo :=
  do fv <- new_field_value fn value; Ok (mk_equalTo (newBaseCondition AND false) fv).

(** * lib_gt.go greater *)

(** lib_gt.go:9-12 *)
Record greater := mk_greater { greater_base : base; greater_value : fvalue }.
(** as a Condition interface value in the model of Cond.v *)
Definition greater_cond (x : greater) : cond :=
  CLeaf (mkLeaf KGt (joinType (greater_base x)) (negate (greater_base x)) (fv_def (greater_value x)) (fv_val (greater_value x))).
(** lib_gt.go:16-19 *)
Definition greater_ApplyFieldTable (x : greater) (table : string) : greater :=
  mk_greater (greater_base x) (mkFV (mkF (f_name (fv_def (greater_value x))) table (f_alias (fv_def (greater_value x)))) (fv_val (greater_value x))).
(** lib_gt.go:24-27 *)
Definition greater_ApplyFieldSpec (x : greater) (spec : fdef) : greater :=
  mk_greater (greater_base x) (value_ApplyFieldSpec (greater_value x) spec).
(** lib_gt.go:30-33 *)
Definition greater_Join (x : greater) (j : string) : greater := mk_greater (base_Join (greater_base x) j) (greater_value x).
(** lib_gt.go:36-39 *)
Definition greater_Negate (x : greater) (b : bool) : greater := mk_greater (base_Negate (greater_base x) b) (greater_value x).
(** promoted: value.go:33-96 *)
Definition greater_Values (x : greater) : res (list gval) := value_Values (greater_value x).
(** lib_gt.go:42-50 *)
Definition greater_Render (x : greater) (n : nat) : res string :=
  Ok (join "" (if base_IsNegate (greater_base x)
               then [base_RenderNegate (greater_base x) ++ " "; value_RenderSpec (greater_value x); ">$" ++ itoa (n + 1)]
               else [value_RenderSpec (greater_value x); ">$" ++ itoa (n + 1)])).
(** lib_gt.go:54-62 *)
Definition greater_RenderSQL (x : greater) : res string :=
  Ok (join "" (if base_IsNegate (greater_base x)
               then [base_RenderNegate (greater_base x) ++ " "; value_RenderSpec (greater_value x); ">?"]
               else [value_RenderSpec (greater_value x); ">?"])).
(** lib_gt.go:66-68 *)
Definition greater_And (x : greater) (cs : list cond) : res cond := and_ (greater_cond x) cs.
(** lib_gt.go:72-74 *)
Definition greater_Or (x : greater) (cs : list cond) : res cond := or_ (greater_cond x) cs.
(** lib_gt.go:77-82 GreaterThan *)
Definition GreaterThan (fn : string) (value : gval) : res greater :=
  do fv <- new_field_value fn value; Ok (mk_greater (newBaseCondition AND false) fv).

(** * lib_gte.go greaterOrEqual *)

(** lib_gte.go:10-13 *)
Record greaterOrEqual := mk_greaterOrEqual { greaterOrEqual_base : base; greaterOrEqual_value : fvalue }.
(** as a Condition interface value in the model of Cond.v *)
Definition greaterOrEqual_cond (x : greaterOrEqual) : cond :=
  CLeaf (mkLeaf KGe (joinType (greaterOrEqual_base x)) (negate (greaterOrEqual_base x)) (fv_def (greaterOrEqual_value x)) (fv_val (greaterOrEqual_value x))).
(** lib_gte.go:17-20 *)
Definition greaterOrEqual_ApplyFieldTable (x : greaterOrEqual) (table : string) : greaterOrEqual :=
  mk_greaterOrEqual (greaterOrEqual_base x) (mkFV (mkF (f_name (fv_def (greaterOrEqual_value x))) table (f_alias (fv_def (greaterOrEqual_value x)))) (fv_val (greaterOrEqual_value x))).
(** lib_gte.go:25-28 *)
Definition greaterOrEqual_ApplyFieldSpec (x : greaterOrEqual) (spec : fdef) : greaterOrEqual :=
  mk_greaterOrEqual (greaterOrEqual_base x) (value_ApplyFieldSpec (greaterOrEqual_value x) spec).
(** lib_gte.go:31-34 *)
Definition greaterOrEqual_Join (x : greaterOrEqual) (j : string) : greaterOrEqual := mk_greaterOrEqual (base_Join (greaterOrEqual_base x) j) (greaterOrEqual_value x).
(** lib_gte.go:37-40 *)
Definition greaterOrEqual_Negate (x : greaterOrEqual) (b : bool) : greaterOrEqual := mk_greaterOrEqual (base_Negate (greaterOrEqual_base x) b) (greaterOrEqual_value x).
(** promoted: value.go:33-96 *)
Definition greaterOrEqual_Values (x : greaterOrEqual) : res (list gval) := value_Values (greaterOrEqual_value x).
(** lib_gte.go:43-51 *)
Definition greaterOrEqual_Render (x : greaterOrEqual) (n : nat) : res string :=
  Ok (join "" (if base_IsNegate (greaterOrEqual_base x)
               then [base_RenderNegate (greaterOrEqual_base x) ++ " "; value_RenderSpec (greaterOrEqual_value x); ">=$" ++ itoa (n + 1)]
               else [value_RenderSpec (greaterOrEqual_value x); ">=$" ++ itoa (n + 1)])).
(** lib_gte.go:55-63 *)
Definition greaterOrEqual_RenderSQL (x : greaterOrEqual) : res string :=
  Ok (join "" (if base_IsNegate (greaterOrEqual_base x)
               then [base_RenderNegate (greaterOrEqual_base x) ++ " "; value_RenderSpec (greaterOrEqual_value x); ">=?"]
               else [value_RenderSpec (greaterOrEqual_value x); ">=?"])).
(** lib_gte.go:67-69 *)
Definition greaterOrEqual_And (x : greaterOrEqual) (cs : list cond) : res cond := and_ (greaterOrEqual_cond x) cs.
(** lib_gte.go:73-75 *)
Definition greaterOrEqual_Or (x : greaterOrEqual) (cs : list cond) : res cond := or_ (greaterOrEqual_cond x) cs.
(** lib_gte.go:79-84 GreaterOrEqual *)
Definition GreaterOrEqual (fn : string) (value : gval) : res greaterOrEqual :=
  do fv <- new_field_value fn value; Ok (mk_greaterOrEqual (newBaseCondition AND false) fv).

(** * lib_lt.go less *)

(** lib_lt.go:13-16 *)
Record less := mk_less { less_base : base; less_value : fvalue }.
(** as a Condition interface value in the model of Cond.v *)
Definition less_cond (x : less) : cond :=
  CLeaf (mkLeaf KLt (joinType (less_base x)) (negate (less_base x)) (fv_def (less_value x)) (fv_val (less_value x))).
(** lib_lt.go:20-23 *)
Definition less_ApplyFieldTable (x : less) (table : string) : less :=
  mk_less (less_base x) (mkFV (mkF (f_name (fv_def (less_value x))) table (f_alias (fv_def (less_value x)))) (fv_val (less_value x))).
(** lib_lt.go:28-31 *)
Definition less_ApplyFieldSpec (x : less) (spec : fdef) : less :=
  mk_less (less_base x) (value_ApplyFieldSpec (less_value x) spec).
(** lib_lt.go:34-37 *)
Definition less_Join (x : less) (j : string) : less := mk_less (base_Join (less_base x) j) (less_value x).
(** lib_lt.go:40-43 *)
Definition less_Negate (x : less) (b : bool) : less := mk_less (base_Negate (less_base x) b) (less_value x).
(** promoted: value.go:33-96 *)
Definition less_Values (x : less) : res (list gval) := value_Values (less_value x).
(** lib_lt.go:46-54 *)
Definition less_Render (x : less) (n : nat) : res string :=
  Ok (join "" (if base_IsNegate (less_base x)
               then [base_RenderNegate (less_base x) ++ " "; value_RenderSpec (less_value x); "<"; "$" ++ itoa (n + 1)]
               else [value_RenderSpec (less_value x); "<"; "$" ++ itoa (n + 1)])).
(** lib_lt.go:58-66 *)
Definition less_RenderSQL (x : less) : res string :=
  Ok (join "" (if base_IsNegate (less_base x)
               then [base_RenderNegate (less_base x) ++ " "; value_RenderSpec (less_value x); "<"; "?"]
               else [value_RenderSpec (less_value x); "<"; "?"])).
(** lib_lt.go:70-72 *)
Definition less_And (x : less) (cs : list cond) : res cond := and_ (less_cond x) cs.
(** lib_lt.go:76-78 *)
Definition less_Or (x : less) (cs : list cond) : res cond := or_ (less_cond x) cs.
(** lib_lt.go:81-86 Less *)
Definition Less (fn : string) (value : gval) : res less :=
  do fv <- new_field_value fn value; Ok (mk_less (newBaseCondition AND false) fv).

(** * lib_lte.go lessOrEqual *)

(** lib_lte.go:14-17 *)
Record lessOrEqual := mk_lessOrEqual { lessOrEqual_base : base; lessOrEqual_value : fvalue }.
(** as a Condition interface value in the model of Cond.v *)
Definition lessOrEqual_cond (x : lessOrEqual) : cond :=
  CLeaf (mkLeaf KLe (joinType (lessOrEqual_base x)) (negate (lessOrEqual_base x)) (fv_def (lessOrEqual_value x)) (fv_val (lessOrEqual_value x))).
(** lib_lte.go:21-24 *)
Definition lessOrEqual_ApplyFieldTable (x : lessOrEqual) (table : string) : lessOrEqual :=
  mk_lessOrEqual (lessOrEqual_base x) (mkFV (mkF (f_name (fv_def (lessOrEqual_value x))) table (f_alias (fv_def (lessOrEqual_value x)))) (fv_val (lessOrEqual_value x))).
(** lib_lte.go:29-32 *)
Definition lessOrEqual_ApplyFieldSpec (x : lessOrEqual) (spec : fdef) : lessOrEqual :=
  mk_lessOrEqual (lessOrEqual_base x) (value_ApplyFieldSpec (lessOrEqual_value x) spec).
(** lib_lte.go:35-38 *)
Definition lessOrEqual_Join (x : lessOrEqual) (j : string) : lessOrEqual := mk_lessOrEqual (base_Join (lessOrEqual_base x) j) (lessOrEqual_value x).
(** lib_lte.go:41-44 *)
Definition lessOrEqual_Negate (x : lessOrEqual) (b : bool) : lessOrEqual := mk_lessOrEqual (base_Negate (lessOrEqual_base x) b) (lessOrEqual_value x).
(** promoted: value.go:33-96 *)
Definition lessOrEqual_Values (x : lessOrEqual) : res (list gval) := value_Values (lessOrEqual_value x).
(** lib_lte.go:47-55 *)
Definition lessOrEqual_Render (x : lessOrEqual) (n : nat) : res string :=
  Ok (join "" (if base_IsNegate (lessOrEqual_base x)
               then [base_RenderNegate (lessOrEqual_base x) ++ " "; value_RenderSpec (lessOrEqual_value x); "<="; "$" ++ itoa (n + 1)]
               else [value_RenderSpec (lessOrEqual_value x); "<="; "$" ++ itoa (n + 1)])).
(** lib_lte.go:59-67 *)
Definition lessOrEqual_RenderSQL (x : lessOrEqual) : res string :=
  Ok (join "" (if base_IsNegate (lessOrEqual_base x)
               then [base_RenderNegate (lessOrEqual_base x) ++ " "; value_RenderSpec (lessOrEqual_value x); "<="; "?"]
               else [value_RenderSpec (lessOrEqual_value x); "<="; "?"])).
(** lib_lte.go:71-73 *)
Definition lessOrEqual_And (x : lessOrEqual) (cs : list cond) : res cond := and_ (lessOrEqual_cond x) cs.
(** lib_lte.go:77-79 *)
Definition lessOrEqual_Or (x : lessOrEqual) (cs : list cond) : res cond := or_ (lessOrEqual_cond x) cs.
(** lib_lte.go:82-87 LessOrEqual *)
Definition LessOrEqual (fn : string) (value : gval) : res lessOrEqual :=
  do fv <- new_field_value fn value; Ok (mk_lessOrEqual (newBaseCondition AND false) fv).

(** * lib_like.go contains *)

(** lib_like.go:10-13 *)
Record contains := mk_contains { contains_base : base; contains_value : fvalue }.
(** as a Condition interface value in the model of Cond.v *)
Definition contains_cond (x : contains) : cond :=
  CLeaf (mkLeaf KLike (joinType (contains_base x)) (negate (contains_base x)) (fv_def (contains_value x)) (fv_val (contains_value x))).
(** lib_like.go:17-20 *)
Definition contains_ApplyFieldTable (x : contains) (table : string) : contains :=
  mk_contains (contains_base x) (value_ApplyFieldTable (contains_value x) table).
(** lib_like.go:37-40 *)
Definition contains_ApplyFieldSpec (x : contains) (spec : fdef) : contains :=
  mk_contains (contains_base x) (value_ApplyFieldSpec (contains_value x) spec).
(** lib_like.go:23-26 *)
Definition contains_Join (x : contains) (j : string) : contains := mk_contains (base_Join (contains_base x) j) (contains_value x).
(** lib_like.go:29-32 *)
Definition contains_Negate (x : contains) (b : bool) : contains := mk_contains (base_Negate (contains_base x) b) (contains_value x).
(** lib_like.go:81-83 *)
Definition contains_Values (x : contains) : res (list gval) :=
  match fv_val (contains_value x) with VStr s => Ok [VStr ("%" ++ s ++ "%")] | _ => Panic end.
(** lib_like.go:56-65 *)
Definition contains_Render (x : contains) (n : nat) : res string :=
  Ok (join " " (if base_IsNegate (contains_base x)
                then [value_RenderSpec (contains_value x); base_RenderNegate (contains_base x); "LIKE"; "$" ++ itoa (n + 1)]
                else [value_RenderSpec (contains_value x); "LIKE"; "$" ++ itoa (n + 1)])).
(** lib_like.go:69-78 *)
Definition contains_RenderSQL (x : contains) : res string :=
  Ok (join " " (if base_IsNegate (contains_base x)
                then [value_RenderSpec (contains_value x); base_RenderNegate (contains_base x); "LIKE"; "?"]
                else [value_RenderSpec (contains_value x); "LIKE"; "?"])).
(** lib_like.go:44-46 *)
Definition contains_And (x : contains) (cs : list cond) : res cond :=
  do g <- new_group AND [contains_cond x]; do r <- group_and g cs; Ok (of_g r).
(** lib_like.go:50-52 *)
Definition contains_Or (x : contains) (cs : list cond) : res cond :=
  do g <- new_group OR [contains_cond x]; do r <- group_or g cs; Ok (of_g r).
(** lib_like.go:87-92 Contains *)
Definition Contains (fn : string) (value : string) : res contains :=
  do fv <- new_field_value fn (VStr value); Ok (mk_contains (newBaseCondition AND false) fv).

(** * lib_ilike.go iContains *)

(** lib_ilike.go:12-15 *)
Record iContains := mk_iContains { iContains_base : base; iContains_value : fvalue }.
(** as a Condition interface value in the model of Cond.v *)
Definition iContains_cond (x : iContains) : cond :=
  CLeaf (mkLeaf KILike (joinType (iContains_base x)) (negate (iContains_base x)) (fv_def (iContains_value x)) (fv_val (iContains_value x))).
(** lib_ilike.go:19-22 *)
Definition iContains_ApplyFieldTable (x : iContains) (table : string) : iContains :=
  mk_iContains (iContains_base x) (value_ApplyFieldTable (iContains_value x) table).
(** lib_ilike.go:39-42 *)
Definition iContains_ApplyFieldSpec (x : iContains) (spec : fdef) : iContains :=
  mk_iContains (iContains_base x) (value_ApplyFieldSpec (iContains_value x) spec).
(** lib_ilike.go:25-28 *)
Definition iContains_Join (x : iContains) (j : string) : iContains := mk_iContains (base_Join (iContains_base x) j) (iContains_value x).
(** lib_ilike.go:31-34 *)
Definition iContains_Negate (x : iContains) (b : bool) : iContains := mk_iContains (base_Negate (iContains_base x) b) (iContains_value x).
(** lib_ilike.go:83-85 *)
Definition iContains_Values (x : iContains) : res (list gval) :=
  match fv_val (iContains_value x) with VStr s => Ok [VStr ("%" ++ s ++ "%")] | _ => Panic end.
(** lib_ilike.go:58-67 *)
Definition iContains_Render (x : iContains) (n : nat) : res string :=
  Ok (join " " (if base_IsNegate (iContains_base x)
                then [value_RenderSpec (iContains_value x); base_RenderNegate (iContains_base x); "ILIKE"; "$" ++ itoa (n + 1)]
                else [value_RenderSpec (iContains_value x); "ILIKE"; "$" ++ itoa (n + 1)])).
(** lib_ilike.go:71-80 *)
Definition iContains_RenderSQL (x : iContains) : res string :=
  Ok (join " " (if base_IsNegate (iContains_base x)
                then [value_RenderSpec (iContains_value x); base_RenderNegate (iContains_base x); "ILIKE"; "?"]
                else [value_RenderSpec (iContains_value x); "ILIKE"; "?"])).
(** lib_ilike.go:46-48 *)
Definition iContains_And (x : iContains) (cs : list cond) : res cond :=
  do g <- new_group AND [iContains_cond x]; do r <- group_and g cs; Ok (of_g r).
(** lib_ilike.go:52-54 *)
Definition iContains_Or (x : iContains) (cs : list cond) : res cond :=
  do g <- new_group OR [iContains_cond x]; do r <- group_or g cs; Ok (of_g r).
(** lib_ilike.go:90-95 IContains *)
Definition IContains (fn : string) (value : string) : res iContains :=
  do fv <- new_field_value fn (VStr value); Ok (mk_iContains (newBaseCondition AND false) fv).

(** * lib_in.go in *)

(** lib_in.go:13-16 (here inList; the Go name is a Coq keyword) *)
Record inList := mk_inList { inList_base : base; inList_value : fvalue }.
(** as a Condition interface value in the model of Cond.v *)
Definition inList_cond (x : inList) : cond :=
  CLeaf (mkLeaf KIn (joinType (inList_base x)) (negate (inList_base x)) (fv_def (inList_value x)) (fv_val (inList_value x))).
(** lib_in.go:20-23 *)
Definition inList_ApplyFieldTable (x : inList) (table : string) : inList :=
  mk_inList (inList_base x) (mkFV (mkF (f_name (fv_def (inList_value x))) table (f_alias (fv_def (inList_value x)))) (fv_val (inList_value x))).
(** lib_in.go:28-31 *)
Definition inList_ApplyFieldSpec (x : inList) (spec : fdef) : inList :=
  mk_inList (inList_base x) (value_ApplyFieldSpec (inList_value x) spec).
(** lib_in.go:34-37 *)
Definition inList_Join (x : inList) (j : string) : inList := mk_inList (base_Join (inList_base x) j) (inList_value x).
(** lib_in.go:40-43 *)
Definition inList_Negate (x : inList) (b : bool) : inList := mk_inList (base_Negate (inList_base x) b) (inList_value x).
(** promoted: value.go:33-96 *)
Definition inList_Values (x : inList) : res (list gval) := value_Values (inList_value x).
(** lib_in.go:46-64 *)
Definition inList_Render (x : inList) (n : nat) : res string :=
  do vs <- inList_Values x;
  let placeholders := map (fun idx => "$" ++ itoa (n + idx + 1)) (seq 0 (length vs)) in
  let placeholdersString := "(" ++ join "," placeholders ++ ")" in
  Ok (join " " (if base_IsNegate (inList_base x)
                then [value_RenderSpec (inList_value x); base_RenderNegate (inList_base x); "IN"; placeholdersString]
                else [value_RenderSpec (inList_value x); "IN"; placeholdersString])).
(** lib_in.go:68-86 *)
Definition inList_RenderSQL (x : inList) : res string :=
  do vs <- inList_Values x;
  let placeholders := map (fun _ => "?") (seq 0 (length vs)) in
  let placeholdersString := "(" ++ join "," placeholders ++ ")" in
  Ok (join " " (if base_IsNegate (inList_base x)
                then [value_RenderSpec (inList_value x); base_RenderNegate (inList_base x); "IN"; placeholdersString]
                else [value_RenderSpec (inList_value x); "IN"; placeholdersString])).
(** lib_in.go:90-92 *)
Definition inList_And (x : inList) (cs : list cond) : res cond := and_ (inList_cond x) cs.
(** lib_in.go:96-98 *)
Definition inList_Or (x : inList) (cs : list cond) : res cond := or_ (inList_cond x) cs.
(** lib_in.go:101-106 In *)
Definition In (fn : string) (value : gval) : res inList :=
  do fv <- new_field_value fn value; Ok (mk_inList (newBaseCondition AND false) fv).

(** * lib_isnull.go nullValue *)

(** lib_isnull.go:7-10 *)
Record nullValue := mk_nullValue { nullValue_base : base; nullValue_def : fdef }.
(** as a Condition interface value in the model of Cond.v *)
Definition nullValue_cond (x : nullValue) : cond :=
  CLeaf (mkLeaf KNull (joinType (nullValue_base x)) (negate (nullValue_base x)) (nullValue_def x) VNil).
(** lib_isnull.go:15-21 *)
Definition nullValue_ApplyFieldSpec (x : nullValue) (spec : fdef) : nullValue :=
  if str_eqb (f_name (nullValue_def x)) (f_name spec) then mk_nullValue (nullValue_base x) spec else x.
(** lib_isnull.go:25-28 *)
Definition nullValue_ApplyFieldTable (x : nullValue) (table : string) : nullValue :=
  mk_nullValue (nullValue_base x) (mkF (f_name (nullValue_def x)) table (f_alias (nullValue_def x))).
(** lib_isnull.go:31-34 *)
Definition nullValue_Join (x : nullValue) (j : string) : nullValue :=
  mk_nullValue (base_Join (nullValue_base x) j) (nullValue_def x).
(** lib_isnull.go:37-40 *)
Definition nullValue_Negate (x : nullValue) (b : bool) : nullValue :=
  mk_nullValue (base_Negate (nullValue_base x) b) (nullValue_def x).
(** lib_isnull.go:47-55 *)
Definition nullValue_RenderSQL (x : nullValue) : res string :=
  Ok (join " " (if base_IsNegate (nullValue_base x)
                then [render_spec (nullValue_def x); "IS"; "NOT"; "NULL"]
                else [render_spec (nullValue_def x); "IS"; "NULL"])).
(** lib_isnull.go:43-45 *)
Definition nullValue_Render (x : nullValue) (_ : nat) : res string := nullValue_RenderSQL x.
(** lib_isnull.go:58-60 *)
Definition nullValue_Values (x : nullValue) : res (list gval) := Ok [].
(** lib_isnull.go:64-66 *)
Definition nullValue_And (x : nullValue) (cs : list cond) : res cond :=
  do g <- new_group AND [nullValue_cond x]; do r <- group_and g cs; Ok (of_g r).
(** lib_isnull.go:70-72; Group.And returns a Condition, whose Or method is called *)
Definition nullValue_Or (x : nullValue) (cs : list cond) : res cond :=
  do g <- new_group AND [CNil]; do r <- group_and g [nullValue_cond x]; do r <- m_or (of_g r) cs; Ok r.
(** lib_isnull.go:75-80 *)
Definition IsNull (fn : string) : res nullValue :=
  do d <- field fn; Ok (mk_nullValue (newBaseCondition AND false) d).
