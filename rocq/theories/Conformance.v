(** The model against the expectations of /repo's own tests (tests, not proofs). *)
From Coq Require Import String Ascii List NArith ZArith Bool Arith.
From Verif Require Import GoStr Value Names Cond Build.
Import ListNotations.
Local Open Scope string_scope.
Local Open Scope nat_scope.

(** Lifted constructors: arguments may themselves panic. *)
Definition seqM {A} (l : list (res A)) : res (list A) := mapM (fun x => x) l.
Definition xNot (c : res cond) : res cond := do c <- c; not_ c.
Definition xAnd (c : res cond) (cs : list (res cond)) := do c <- c; do cs <- seqM cs; m_and c cs.
Definition xOr (c : res cond) (cs : list (res cond)) := do c <- c; do cs <- seqM cs; m_or c cs.
Definition xAndF (c : res cond) (cs : list (res cond)) := do c <- c; do cs <- seqM cs; and_ c cs.
Definition xOrF (c : res cond) (cs : list (res cond)) := do c <- c; do cs <- seqM cs; or_ c cs.
Definition xGroup (j : string) (cs : list (res cond)) : res cond :=
  do cs <- seqM cs; do g <- new_group j cs; Ok (of_g g).
Definition xBr (c : res cond) : res cond :=
  do c <- c; match as_group c with Some g => Ok (of_g (with_brackets g)) | None => Panic end.
Definition xTable (t : string) (c : res cond) := do c <- c; c_apply_table t c.
Definition xRender (n : nat) (c : res cond) := do c <- c; c_render c n.
Definition xRenderSQL (c : res cond) := do c <- c; c_render_sql c.
Definition xValues (c : res cond) := do c <- c; c_values c.

(** operations_test.go, group_test.go *)
Example conf_001 : xRender 0 (xNot (equal_to "f1" (VOther 0))) = Ok "NOT f1=$1".
Proof. vm_compute. reflexivity. Qed.
Example conf_002 : xRender 0 (xNot (contains_ "f1" "0")) = Ok "f1 NOT LIKE $1".
Proof. vm_compute. reflexivity. Qed.
Example conf_003 : xRender 0 (xNot (icontains_ "f1" "0")) = Ok "f1 NOT ILIKE $1".
Proof. vm_compute. reflexivity. Qed.
Example conf_004 : xRender 0 (xNot (is_null "f1")) = Ok "f1 IS NOT NULL".
Proof. vm_compute. reflexivity. Qed.
Example conf_005 : xRender 0 (xNot (xGroup OR [(equal_to "f1" (VOther 0)); (equal_to "f2" (VOther 0))])) = Ok "NOT (f1=$1 OR f2=$2)".
Proof. vm_compute. reflexivity. Qed.
Example conf_006 : xRender 0 (xNot (xGroup AND [(equal_to "f1" (VOther 0)); (equal_to "f2" (VOther 0))])) = Ok "NOT (f1=$1 AND f2=$2)".
Proof. vm_compute. reflexivity. Qed.
Example conf_007 : xRender 0 (xNot (xGroup OR [(equal_to "f1" (VOther 0)); (xNot (equal_to "f2" (VOther 0)))])) = Ok "NOT (f1=$1 OR NOT f2=$2)".
Proof. vm_compute. reflexivity. Qed.
Example conf_008 : xRender 0 (xNot (xGroup AND [(equal_to "f1" (VOther 0)); (xNot (equal_to "f2" (VOther 0)))])) = Ok "NOT (f1=$1 AND NOT f2=$2)".
Proof. vm_compute. reflexivity. Qed.
Example conf_009 : xRender 0 (xNot (xGroup OR [(xNot (equal_to "f1" (VOther 0))); (equal_to "f2" (VOther 0))])) = Ok "NOT (NOT f1=$1 OR f2=$2)".
Proof. vm_compute. reflexivity. Qed.
Example conf_010 : xRender 0 (xNot (xGroup AND [(xNot (equal_to "f1" (VOther 0))); (equal_to "f2" (VOther 0))])) = Ok "NOT (NOT f1=$1 AND f2=$2)".
Proof. vm_compute. reflexivity. Qed.
Example conf_011 : xRender 0 (xAnd (equal_to "f1" (VOther 0)) [(equal_to "f2" (VOther 0))]) = Ok "f1=$1 AND f2=$2".
Proof. vm_compute. reflexivity. Qed.
Example conf_012 : xRender 0 (xAnd (equal_to "f1" (VOther 0)) [(contains_ "f2" "0")]) = Ok "f1=$1 AND f2 LIKE $2".
Proof. vm_compute. reflexivity. Qed.
Example conf_013 : xRender 0 (xAnd (equal_to "f1" (VOther 0)) [(is_null "f2")]) = Ok "f1=$1 AND f2 IS NULL".
Proof. vm_compute. reflexivity. Qed.
Example conf_014 : xRender 0 (xAnd (equal_to "f1" (VOther 0)) [(xNot (equal_to "f2" (VOther 0)))]) = Ok "f1=$1 AND NOT f2=$2".
Proof. vm_compute. reflexivity. Qed.
Example conf_015 : xRender 0 (xAnd (equal_to "f1" (VOther 0)) [(xNot (contains_ "f2" "0"))]) = Ok "f1=$1 AND f2 NOT LIKE $2".
Proof. vm_compute. reflexivity. Qed.
Example conf_016 : xRender 0 (xAnd (equal_to "f1" (VOther 0)) [(xNot (is_null "f2"))]) = Ok "f1=$1 AND f2 IS NOT NULL".
Proof. vm_compute. reflexivity. Qed.
Example conf_017 : xRender 0 (xAnd (xNot (equal_to "f1" (VOther 0))) [(equal_to "f2" (VOther 0))]) = Ok "NOT f1=$1 AND f2=$2".
Proof. vm_compute. reflexivity. Qed.
Example conf_018 : xRender 0 (xAnd (xNot (equal_to "f1" (VOther 0))) [(contains_ "f2" "0")]) = Ok "NOT f1=$1 AND f2 LIKE $2".
Proof. vm_compute. reflexivity. Qed.
Example conf_019 : xRender 0 (xAnd (xNot (equal_to "f1" (VOther 0))) [(is_null "f2")]) = Ok "NOT f1=$1 AND f2 IS NULL".
Proof. vm_compute. reflexivity. Qed.
Example conf_020 : xRender 0 (xAnd (equal_to "f1" (VOther 0)) [(xAnd (equal_to "f2" (VOther 0)) [(equal_to "f3" (VOther 0))])]) = Ok "f1=$1 AND f2=$2 AND f3=$3".
Proof. vm_compute. reflexivity. Qed.
Example conf_021 : xRender 0 (xAnd (equal_to "f1" (VOther 0)) [(xAnd (contains_ "f2" "0") [(contains_ "f3" "0")])]) = Ok "f1=$1 AND f2 LIKE $2 AND f3 LIKE $3".
Proof. vm_compute. reflexivity. Qed.
Example conf_022 : xRender 0 (xAnd (equal_to "f1" (VOther 0)) [(xAnd (is_null "f2") [(is_null "f3")])]) = Ok "f1=$1 AND f2 IS NULL AND f3 IS NULL".
Proof. vm_compute. reflexivity. Qed.
Example conf_023 : xRender 0 (xAnd (xAnd (equal_to "f1" (VOther 0)) [(equal_to "f2" (VOther 0))]) [(equal_to "f3" (VOther 0))]) = Ok "f1=$1 AND f2=$2 AND f3=$3".
Proof. vm_compute. reflexivity. Qed.
Example conf_024 : xRender 0 (xAnd (xAnd (equal_to "f1" (VOther 0)) [(equal_to "f2" (VOther 0))]) [(contains_ "f3" "0")]) = Ok "f1=$1 AND f2=$2 AND f3 LIKE $3".
Proof. vm_compute. reflexivity. Qed.
Example conf_025 : xRender 0 (xAnd (xAnd (equal_to "f1" (VOther 0)) [(equal_to "f2" (VOther 0))]) [(is_null "f3")]) = Ok "f1=$1 AND f2=$2 AND f3 IS NULL".
Proof. vm_compute. reflexivity. Qed.
Example conf_026 : xRender 0 (xAnd (xGroup AND [(equal_to "f1" (VOther 0)); (equal_to "f2" (VOther 0))]) [(xGroup OR [(equal_to "f3" (VOther 0)); (equal_to "f4" (VOther 0))])]) = Ok "f1=$1 AND f2=$2 AND (f3=$3 OR f4=$4)".
Proof. vm_compute. reflexivity. Qed.
Example conf_027 : xRender 0 (xAnd (xGroup OR [(equal_to "f1" (VOther 0)); (equal_to "f2" (VOther 0))]) [(equal_to "f3" (VOther 0))]) = Ok "(f1=$1 OR f2=$2) AND f3=$3".
Proof. vm_compute. reflexivity. Qed.
Example conf_028 : xRender 0 (xAnd (xGroup OR [(equal_to "f1" (VOther 0)); (equal_to "f2" (VOther 0))]) [(contains_ "f3" "0")]) = Ok "(f1=$1 OR f2=$2) AND f3 LIKE $3".
Proof. vm_compute. reflexivity. Qed.
Example conf_029 : xRender 0 (xAnd (xGroup OR [(equal_to "f1" (VOther 0)); (equal_to "f2" (VOther 0))]) [(icontains_ "f3" "0")]) = Ok "(f1=$1 OR f2=$2) AND f3 ILIKE $3".
Proof. vm_compute. reflexivity. Qed.
Example conf_030 : xRender 0 (xAnd (xGroup OR [(equal_to "f1" (VOther 0)); (equal_to "f2" (VOther 0))]) [(is_null "f3")]) = Ok "(f1=$1 OR f2=$2) AND f3 IS NULL".
Proof. vm_compute. reflexivity. Qed.
Example conf_031 : xRender 0 (xAnd (xOr (equal_to "f1" (VOther 0)) [(equal_to "f2" (VOther 0))]) [(xAnd (equal_to "f3" (VOther 0)) [(equal_to "f4" (VOther 0))])]) = Ok "(f1=$1 OR f2=$2) AND f3=$3 AND f4=$4".
Proof. vm_compute. reflexivity. Qed.
Example conf_032 : xRender 0 (xAnd (xGroup OR [(equal_to "f1" (VOther 0)); (equal_to "f2" (VOther 0))]) [(xGroup OR [(equal_to "f3" (VOther 0)); (equal_to "f4" (VOther 0))])]) = Ok "(f1=$1 OR f2=$2) AND (f3=$3 OR f4=$4)".
Proof. vm_compute. reflexivity. Qed.
Example conf_033 : xRender 0 (xOr (equal_to "f1" (VOther 0)) [(equal_to "f2" (VOther 0))]) = Ok "f1=$1 OR f2=$2".
Proof. vm_compute. reflexivity. Qed.
Example conf_034 : xRender 0 (xOr (equal_to "f1" (VOther 0)) [(contains_ "f2" "0")]) = Ok "f1=$1 OR f2 LIKE $2".
Proof. vm_compute. reflexivity. Qed.
Example conf_035 : xRender 0 (xOr (equal_to "f1" (VOther 0)) [(is_null "f2")]) = Ok "f1=$1 OR f2 IS NULL".
Proof. vm_compute. reflexivity. Qed.
Example conf_036 : xRender 0 (xOr (equal_to "f1" (VOther 0)) [(xNot (equal_to "f2" (VOther 0)))]) = Ok "f1=$1 OR NOT f2=$2".
Proof. vm_compute. reflexivity. Qed.
Example conf_037 : xRender 0 (xOr (equal_to "f1" (VOther 0)) [(xNot (contains_ "f2" "0"))]) = Ok "f1=$1 OR f2 NOT LIKE $2".
Proof. vm_compute. reflexivity. Qed.
Example conf_038 : xRender 0 (xOr (equal_to "f1" (VOther 0)) [(xNot (is_null "f2"))]) = Ok "f1=$1 OR f2 IS NOT NULL".
Proof. vm_compute. reflexivity. Qed.
Example conf_039 : xRender 0 (xOr (xNot (equal_to "f1" (VOther 0))) [(equal_to "f2" (VOther 0))]) = Ok "NOT f1=$1 OR f2=$2".
Proof. vm_compute. reflexivity. Qed.
Example conf_040 : xRender 0 (xOr (xNot (equal_to "f1" (VOther 0))) [(contains_ "f2" "0")]) = Ok "NOT f1=$1 OR f2 LIKE $2".
Proof. vm_compute. reflexivity. Qed.
Example conf_041 : xRender 0 (xOr (xNot (equal_to "f1" (VOther 0))) [(is_null "f2")]) = Ok "NOT f1=$1 OR f2 IS NULL".
Proof. vm_compute. reflexivity. Qed.
Example conf_042 : xRender 0 (xOr (equal_to "f1" (VOther 0)) [(xAnd (equal_to "f2" (VOther 0)) [(equal_to "f3" (VOther 0))])]) = Ok "f1=$1 OR (f2=$2 AND f3=$3)".
Proof. vm_compute. reflexivity. Qed.
Example conf_043 : xRender 0 (xOr (xAnd (equal_to "f1" (VOther 0)) [(equal_to "f2" (VOther 0))]) [(equal_to "f3" (VOther 0))]) = Ok "(f1=$1 AND f2=$2) OR f3=$3".
Proof. vm_compute. reflexivity. Qed.
Example conf_044 : xRender 0 (xOr (xAnd (equal_to "f1" (VOther 0)) [(equal_to "f2" (VOther 0))]) [(contains_ "f3" "0")]) = Ok "(f1=$1 AND f2=$2) OR f3 LIKE $3".
Proof. vm_compute. reflexivity. Qed.
Example conf_045 : xRender 0 (xOr (xAnd (equal_to "f1" (VOther 0)) [(equal_to "f2" (VOther 0))]) [(is_null "f3")]) = Ok "(f1=$1 AND f2=$2) OR f3 IS NULL".
Proof. vm_compute. reflexivity. Qed.
Example conf_046 : xRender 0 (xOr (xGroup AND [(equal_to "f1" (VOther 0)); (equal_to "f2" (VOther 0))]) [(xGroup OR [(equal_to "f3" (VOther 0)); (equal_to "f4" (VOther 0))])]) = Ok "(f1=$1 AND f2=$2) OR f3=$3 OR f4=$4".
Proof. vm_compute. reflexivity. Qed.
Example conf_047 : xRender 0 (xOr (xGroup OR [(equal_to "f1" (VOther 0)); (equal_to "f2" (VOther 0))]) [(equal_to "f3" (VOther 0))]) = Ok "f1=$1 OR f2=$2 OR f3=$3".
Proof. vm_compute. reflexivity. Qed.
Example conf_048 : xRender 0 (xOr (xGroup OR [(equal_to "f1" (VOther 0)); (equal_to "f2" (VOther 0))]) [(contains_ "f3" "0")]) = Ok "f1=$1 OR f2=$2 OR f3 LIKE $3".
Proof. vm_compute. reflexivity. Qed.
Example conf_049 : xRender 0 (xOr (xGroup OR [(equal_to "f1" (VOther 0)); (equal_to "f2" (VOther 0))]) [(icontains_ "f3" "0")]) = Ok "f1=$1 OR f2=$2 OR f3 ILIKE $3".
Proof. vm_compute. reflexivity. Qed.
Example conf_050 : xRender 0 (xOr (xGroup OR [(equal_to "f1" (VOther 0)); (equal_to "f2" (VOther 0))]) [(is_null "f3")]) = Ok "f1=$1 OR f2=$2 OR f3 IS NULL".
Proof. vm_compute. reflexivity. Qed.
Example conf_051 : xRender 0 (xOr (xGroup OR [(equal_to "f1" (VOther 0)); (equal_to "f2" (VOther 0))]) [(xAnd (equal_to "f3" (VOther 0)) [(equal_to "f4" (VOther 0))])]) = Ok "f1=$1 OR f2=$2 OR (f3=$3 AND f4=$4)".
Proof. vm_compute. reflexivity. Qed.
Example conf_052 : xRender 0 (xOr (xGroup OR [(equal_to "f1" (VOther 0)); (equal_to "f2" (VOther 0))]) [(xGroup OR [(equal_to "f3" (VOther 0)); (equal_to "f4" (VOther 0))])]) = Ok "f1=$1 OR f2=$2 OR f3=$3 OR f4=$4".
Proof. vm_compute. reflexivity. Qed.
Example conf_053 : (xRender 0 (xAnd (xGroup AND []) [(equal_to "t1" (VOther 1))]), xValues (xAnd (xGroup AND []) [(equal_to "t1" (VOther 1))])) = (Ok "t1=$1", Ok [(VOther 1)]).
Proof. vm_compute. reflexivity. Qed.
Example conf_054 : (xRender 0 (xAnd (xGroup AND []) [(equal_to "t1" (VOther 1))]), xValues (xAnd (xGroup AND []) [(equal_to "t1" (VOther 1))])) = (Ok "t1=$1", Ok [(VOther 1)]).
Proof. vm_compute. reflexivity. Qed.
Example conf_055 : (xRender 1 (xAnd (xGroup AND [(equal_to "f1" (VOther 1))]) [(equal_to "f2" (VOther 2))]), xValues (xAnd (xGroup AND [(equal_to "f1" (VOther 1))]) [(equal_to "f2" (VOther 2))])) = (Ok "f1=$2 AND f2=$3", Ok [(VOther 1); (VOther 2)]).
Proof. vm_compute. reflexivity. Qed.
Example conf_056 : (xRender 1 (xOr (xGroup AND [(equal_to "f1" (VOther 1))]) [(equal_to "f2" (VOther 2))]), xValues (xOr (xGroup AND [(equal_to "f1" (VOther 1))]) [(equal_to "f2" (VOther 2))])) = (Ok "f1=$2 OR f2=$3", Ok [(VOther 1); (VOther 2)]).
Proof. vm_compute. reflexivity. Qed.
Example conf_057 : (xRender 3 (xAnd (xGroup AND [(equal_to "f1" (VOther 1)); (equal_to "f2" (VOther 2))]) []), xValues (xAnd (xGroup AND [(equal_to "f1" (VOther 1)); (equal_to "f2" (VOther 2))]) [])) = (Ok "f1=$4 AND f2=$5", Ok [(VOther 1); (VOther 2)]).
Proof. vm_compute. reflexivity. Qed.
Example conf_058 : (xRender 3 (xAnd (xGroup AND [(equal_to "f1" (VOther 1)); (equal_to "f2" (VOther 2))]) [(contains_ "a1" "aaa")]), xValues (xAnd (xGroup AND [(equal_to "f1" (VOther 1)); (equal_to "f2" (VOther 2))]) [(contains_ "a1" "aaa")])) = (Ok "f1=$4 AND f2=$5 AND a1 LIKE $6", Ok [(VOther 1); (VOther 2); (VStr "%aaa%")]).
Proof. vm_compute. reflexivity. Qed.
Example conf_059 : (xRender 4 (xOr (xGroup OR [(equal_to "f1" (VOther 1)); (equal_to "f2" (VOther 2))]) [(contains_ "a1" "aaa")]), xValues (xOr (xGroup OR [(equal_to "f1" (VOther 1)); (equal_to "f2" (VOther 2))]) [(contains_ "a1" "aaa")])) = (Ok "f1=$5 OR f2=$6 OR a1 LIKE $7", Ok [(VOther 1); (VOther 2); (VStr "%aaa%")]).
Proof. vm_compute. reflexivity. Qed.
Example conf_060 : (xRender 3 (xAnd (xGroup OR [(equal_to "f1" (VOther 1)); (equal_to "f2" (VOther 2))]) [(contains_ "a1" "aaa")]), xValues (xAnd (xGroup OR [(equal_to "f1" (VOther 1)); (equal_to "f2" (VOther 2))]) [(contains_ "a1" "aaa")])) = (Ok "(f1=$4 OR f2=$5) AND a1 LIKE $6", Ok [(VOther 1); (VOther 2); (VStr "%aaa%")]).
Proof. vm_compute. reflexivity. Qed.
Example conf_061 : (xRender 3 (xOr (xGroup AND [(equal_to "f1" (VOther 1)); (equal_to "f2" (VOther 2))]) [(contains_ "a1" "aaa")]), xValues (xOr (xGroup AND [(equal_to "f1" (VOther 1)); (equal_to "f2" (VOther 2))]) [(contains_ "a1" "aaa")])) = (Ok "(f1=$4 AND f2=$5) OR a1 LIKE $6", Ok [(VOther 1); (VOther 2); (VStr "%aaa%")]).
Proof. vm_compute. reflexivity. Qed.
Example conf_062 : (xRender 4 (xAnd (xGroup OR [(equal_to "f1" (VOther 1)); (equal_to "f2" (VOther 2))]) [(xGroup OR [(equal_to "a1" (VOther 3)); (equal_to "a2" (VOther 4))])]), xValues (xAnd (xGroup OR [(equal_to "f1" (VOther 1)); (equal_to "f2" (VOther 2))]) [(xGroup OR [(equal_to "a1" (VOther 3)); (equal_to "a2" (VOther 4))])])) = (Ok "(f1=$5 OR f2=$6) AND (a1=$7 OR a2=$8)", Ok [(VOther 1); (VOther 2); (VOther 3); (VOther 4)]).
Proof. vm_compute. reflexivity. Qed.
Example conf_063 : (xRender 5 (xOr (xGroup AND [(equal_to "f1" (VOther 1)); (equal_to "f2" (VOther 2))]) [(xGroup AND [(equal_to "a1" (VOther 3)); (equal_to "a2" (VOther 4))])]), xValues (xOr (xGroup AND [(equal_to "f1" (VOther 1)); (equal_to "f2" (VOther 2))]) [(xGroup AND [(equal_to "a1" (VOther 3)); (equal_to "a2" (VOther 4))])])) = (Ok "(f1=$6 AND f2=$7) OR (a1=$8 AND a2=$9)", Ok [(VOther 1); (VOther 2); (VOther 3); (VOther 4)]).
Proof. vm_compute. reflexivity. Qed.
Example conf_064 : (xRender 10 (xAnd (xGroup OR [(equal_to "f1" (VOther 1)); (equal_to "f2" (VOther 2))]) [(xGroup AND [(equal_to "a1" (VOther 3)); (equal_to "a2" (VOther 4))])]), xValues (xAnd (xGroup OR [(equal_to "f1" (VOther 1)); (equal_to "f2" (VOther 2))]) [(xGroup AND [(equal_to "a1" (VOther 3)); (equal_to "a2" (VOther 4))])])) = (Ok "(f1=$11 OR f2=$12) AND a1=$13 AND a2=$14", Ok [(VOther 1); (VOther 2); (VOther 3); (VOther 4)]).
Proof. vm_compute. reflexivity. Qed.
Example conf_065 : (xRender 10 (xAnd (xGroup AND [(equal_to "f1" (VOther 1)); (equal_to "f2" (VOther 2))]) [(xGroup AND [(equal_to "a1" (VOther 3)); (equal_to "a2" (VOther 4))])]), xValues (xAnd (xGroup AND [(equal_to "f1" (VOther 1)); (equal_to "f2" (VOther 2))]) [(xGroup AND [(equal_to "a1" (VOther 3)); (equal_to "a2" (VOther 4))])])) = (Ok "f1=$11 AND f2=$12 AND a1=$13 AND a2=$14", Ok [(VOther 1); (VOther 2); (VOther 3); (VOther 4)]).
Proof. vm_compute. reflexivity. Qed.
Example conf_066 : (xRender 10 (xAnd (xGroup AND [(equal_to "f1" (VOther 1)); (equal_to "f2" (VOther 2))]) [(xGroup OR [(equal_to "a1" (VOther 3)); (equal_to "a2" (VOther 4))])]), xValues (xAnd (xGroup AND [(equal_to "f1" (VOther 1)); (equal_to "f2" (VOther 2))]) [(xGroup OR [(equal_to "a1" (VOther 3)); (equal_to "a2" (VOther 4))])])) = (Ok "f1=$11 AND f2=$12 AND (a1=$13 OR a2=$14)", Ok [(VOther 1); (VOther 2); (VOther 3); (VOther 4)]).
Proof. vm_compute. reflexivity. Qed.
Example conf_067 : (xRender 0 (xOr (equal_to "f1" (VOther 0)) [(xAnd (equal_to "f2" (VOther 0)) [(equal_to "f3" (VOther 0))])]), xValues (xOr (equal_to "f1" (VOther 0)) [(xAnd (equal_to "f2" (VOther 0)) [(equal_to "f3" (VOther 0))])])) = (Ok "f1=$1 OR (f2=$2 AND f3=$3)", Ok [(VOther 0); (VOther 0); (VOther 0)]).
Proof. vm_compute. reflexivity. Qed.
Example conf_068 : xRender 0 (xOr (xNot (equal_to "f1" (VOther 11))) [(equal_to "f2" (VOther 13))]) = Ok "NOT f1=$1 OR f2=$2".
Proof. vm_compute. reflexivity. Qed.
Example conf_069 : xRender 0 (xTable "test" (xOr (xNot (equal_to "f1" (VOther 11))) [(equal_to "f2" (VOther 13))])) = Ok "NOT test.f1=$1 OR test.f2=$2".
Proof. vm_compute. reflexivity. Qed.
Example conf_070 : xRender 0 (xAnd (xNot (equal_to "f1" (VOther 11))) [(equal_to "f2" (VOther 13))]) = Ok "NOT f1=$1 AND f2=$2".
Proof. vm_compute. reflexivity. Qed.
Example conf_071 : xRender 0 (xOr (equal_to "f1" (VOther 11)) [(xNot (equal_to "f2" (VOther 13)))]) = Ok "f1=$1 OR NOT f2=$2".
Proof. vm_compute. reflexivity. Qed.
Example conf_072 : xRender 0 (xAnd (equal_to "f1" (VOther 11)) [(xNot (equal_to "f2" (VOther 13)))]) = Ok "f1=$1 AND NOT f2=$2".
Proof. vm_compute. reflexivity. Qed.
Example conf_073 : xRender 0 (xBr (xAnd (equal_to "f1" (VOther 11)) [(equal_to "f2" (VOther 13))])) = Ok "(f1=$1 AND f2=$2)".
Proof. vm_compute. reflexivity. Qed.
Example conf_074 : xRender 0 (xBr (xOr (equal_to "f1" (VOther 11)) [(equal_to "f2" (VOther 13))])) = Ok "(f1=$1 OR f2=$2)".
Proof. vm_compute. reflexivity. Qed.
Example conf_075 : xRender 0 (xNot (xBr (xOr (equal_to "f1" (VOther 11)) [(equal_to "f2" (VOther 13))]))) = Ok "NOT (f1=$1 OR f2=$2)".
Proof. vm_compute. reflexivity. Qed.
Example conf_076 : xRender 0 (xTable "test" (xNot (xBr (xOr (equal_to "f1" (VOther 11)) [(equal_to "f2" (VOther 13))])))) = Ok "NOT (test.f1=$1 OR test.f2=$2)".
Proof. vm_compute. reflexivity. Qed.
Example conf_077 : xRenderSQL (xOr (xNot (equal_to "f1" (VOther 11))) [(equal_to "f2" (VOther 13))]) = Ok "NOT f1=? OR f2=?".
Proof. vm_compute. reflexivity. Qed.
Example conf_078 : xRenderSQL (xTable "test" (xOr (xNot (equal_to "f1" (VOther 11))) [(equal_to "f2" (VOther 13))])) = Ok "NOT test.f1=? OR test.f2=?".
Proof. vm_compute. reflexivity. Qed.
Example conf_079 : xRenderSQL (xAnd (xNot (equal_to "f1" (VOther 11))) [(equal_to "f2" (VOther 13))]) = Ok "NOT f1=? AND f2=?".
Proof. vm_compute. reflexivity. Qed.
Example conf_080 : xRenderSQL (xOr (equal_to "f1" (VOther 11)) [(xNot (equal_to "f2" (VOther 13)))]) = Ok "f1=? OR NOT f2=?".
Proof. vm_compute. reflexivity. Qed.
Example conf_081 : xRenderSQL (xAnd (equal_to "f1" (VOther 11)) [(xNot (equal_to "f2" (VOther 13)))]) = Ok "f1=? AND NOT f2=?".
Proof. vm_compute. reflexivity. Qed.
Example conf_082 : xRenderSQL (xBr (xAnd (equal_to "f1" (VOther 11)) [(equal_to "f2" (VOther 13))])) = Ok "(f1=? AND f2=?)".
Proof. vm_compute. reflexivity. Qed.
Example conf_083 : xRenderSQL (xBr (xOr (equal_to "f1" (VOther 11)) [(equal_to "f2" (VOther 13))])) = Ok "(f1=? OR f2=?)".
Proof. vm_compute. reflexivity. Qed.
Example conf_084 : xRenderSQL (xNot (xBr (xOr (equal_to "f1" (VOther 11)) [(equal_to "f2" (VOther 13))]))) = Ok "NOT (f1=? OR f2=?)".
Proof. vm_compute. reflexivity. Qed.
Example conf_085 : xRenderSQL (xTable "test" (xNot (xBr (xOr (equal_to "f1" (VOther 11)) [(equal_to "f2" (VOther 13))])))) = Ok "NOT (test.f1=? OR test.f2=?)".
Proof. vm_compute. reflexivity. Qed.

(** interfaces_test.go, lib_*_test.go *)
Example conf_like : xRender 0 (xNot (contains_ "f1" "x")) = Ok "f1 NOT LIKE $1". Proof. reflexivity. Qed.
Example conf_null : xRender 0 (xNot (is_null "f1")) = Ok "f1 IS NOT NULL". Proof. reflexivity. Qed.
Example conf_in : xRender 2 (xNot (in_ "f1" (VStrs ["a"; "b"]))) = Ok "f1 NOT IN ($3,$4)". Proof. reflexivity. Qed.
Example conf_in_sql : xRenderSQL (in_ "f1" (VStrs ["a"; "b"])) = Ok "f1 IN (?,?)". Proof. reflexivity. Qed.
Example conf_table :
  xRender 0 (xTable "test" (xGroup AND [xNot (equal_to "f1" (VOther 1)); equal_to "f2" (VOther 2)]))
  = Ok "NOT test.f1=$1 AND test.f2=$2". Proof. reflexivity. Qed.

(** select_many_test.go *)
Definition mw (m : res msel) (cs : list (res cond)) := do m <- m; do cs <- seqM cs; m_add_where m cs.
Definition mo (m : res msel) (os : list (res fsort)) := do m <- m; do os <- seqM os; Ok (m_add_order m os).
Definition mb (m : res msel) : res (string * list gval) :=
  do m <- m; do r <- m_build m; Ok (o_sql r, o_params r).
Definition mj (m : res msel) (t : string) (j : Z) (l r : string) :=
  do m <- m; do l <- field l; do r <- field r; m_join m t j l r.
Definition mF (m : res msel) (fs : list (res fdef)) := do m <- m; do fs <- seqM fs; Ok (m_set_fields m fs).
Definition m0 := select_many_from (TPName "test").
Example many_1 : mb m0 = Ok ("SELECT * FROM test", []). Proof. reflexivity. Qed.
Example many_2 : mb (mj m0 "t2" InnerJoin "test.f1" "t2.f1") =
  Ok ("SELECT * FROM test INNER JOIN t2 ON test.f1=t2.f1", []). Proof. reflexivity. Qed.
Example many_3 : mb (mj m0 "t2" FullJoin "test.f1" "t2.f1") =
  Ok ("SELECT * FROM test FULL JOIN t2 ON test.f1=t2.f1", []). Proof. reflexivity. Qed.
Example many_4 : mb (mF m0 [field "f1"; do d <- field "field2"; Ok (f_as d "f2")]) =
  Ok ("SELECT f1, field2 AS f2 FROM test", []). Proof. reflexivity. Qed.
Example many_5 : mb (mo m0 [asc "test.field1"; desc "test.field2"]) =
  Ok ("SELECT * FROM test ORDER BY test.field1 ASC, test.field2 DESC", []). Proof. reflexivity. Qed.
Example many_6 : mb (do m <- m0; Ok (m_set_offset (m_set_limit m 1) 2)) =
  Ok ("SELECT * FROM test OFFSET $1 LIMIT $2", [VUint 2; VUint 1]). Proof. reflexivity. Qed.
Example many_7 :
  mb (mo (do m <- mo (mw (mw m0 [contains_ "f1" "a1"]) [contains_ "f2" "b2"]) [asc "f3"];
          Ok (m_set_offset (m_set_limit m 6) 5)) [desc "f4"]) =
  Ok ("SELECT * FROM test WHERE f1 LIKE $1 AND f2 LIKE $2 ORDER BY f3 ASC, f4 DESC OFFSET $3 LIMIT $4",
      [VStr "%a1%"; VStr "%b2%"; VUint 5; VUint 6]). Proof. reflexivity. Qed.
Example many_8 :
  mb (mw m0 [xNot (equal_to "f1" (VOther 11)); xOrF (equal_to "f2" (VOther 13)) []]) =
  Ok ("SELECT * FROM test WHERE NOT f1=$1 OR f2=$2", [VOther 11; VOther 13]). Proof. reflexivity. Qed.

(** select_base_test.go *)
Definition bb (b : res bsel) : res (string * list gval) :=
  do b <- b; do r <- b_build b; Ok (o_sql r, o_params r).
Example base_1 : bb (select_from (TPStr "table1 as t1")) = Ok ("SELECT * FROM table1 AS t1", []).
Proof. reflexivity. Qed.
Example base_2 : bb (do t <- table "table1"; select_from (TPIdent (t_as t "t1"))) = Ok ("SELECT * FROM table1 AS t1", []).
Proof. reflexivity. Qed.
Example base_3 :
  (do b <- select_from (TPStr "table3 as t3"); do t <- table "table4 as t4";
   do l <- field "table3.f1"; do r <- field "table4.f2"; do b <- b_join b t LeftJoin l r;
   do f1 <- field "t3.f1"; do f2 <- field "t3.f2 as field2"; do f3 <- field "t4.f3 as field3";
   let b := b_set_fields b [f1; f2; f3] in
   do c <- equal_to "t3.f1" (VOther 13); do b <- b_add_where b [c];
   do s <- b_render_sql b; do v <- b_values b; Ok (s, v)) =
  Ok ("SELECT t3.f1, t3.f2 AS field2, t4.f3 AS field3 FROM table3 AS t3 LEFT JOIN table4 AS t4 ON table3.f1=table4.f2 WHERE t3.f1=?",
      [VOther 13]).
Proof. reflexivity. Qed.
Example base_4 :
  bb (do b <- select_from (TPStr "t1"); do t <- table "t2";
      do l <- field "t1.f1 as field1"; do r <- field "t2.f2"; b_join b t InnerJoin l r) =
  Ok ("SELECT * FROM t1 INNER JOIN t2 ON t1.f1=t2.f2", []).
Proof. reflexivity. Qed.

(** select_single_test.go *)
Example single_1 : (do s <- select_single_from (TPStr "t1"); do r <- ss_build s; Ok (o_sql r)) =
  Ok "SELECT * FROM t1 LIMIT 1". Proof. reflexivity. Qed.

(** insert_test.go, update_test.go, delete_test.go *)
Example ins_1 : i_build (insert_into (TPName "t1")) = Ok (fail ENoValues). Proof. reflexivity. Qed.
Example ins_2 :
  (do a <- fn_value "intField" (VOther 123); do b <- fn_value "strField" (VStr "a1");
   i_build (i_add (insert_into (TPName "t1")) [a; b])) =
  Ok (ok "INSERT INTO t1(intField, strField) VALUES ($1, $2)" [VOther 123; VStr "a1"]).
Proof. reflexivity. Qed.
Example upd_1 :
  (do m <- mw m0 [contains_ "f1" "a1"]; do a <- fn_value "intField" (VOther 1); do b <- fn_value "strField" (VStr "aaa");
   do u <- m_update m [a]; u_build (u_add u [b])) =
  Ok (ok "UPDATE test SET intField=$1, strField=$2 WHERE f1 LIKE $3" [VOther 1; VStr "aaa"; VStr "%a1%"]).
Proof. reflexivity. Qed.
Example upd_2 :
  (do a <- fn_value "intField" (VOther 1); u_build (u_add (update_ (TPStr "t1")) [a])) = Ok (fail ENoConditions).
Proof. reflexivity. Qed.
Example del_1 :
  (do c <- contains_ "f1" "a1"; do d <- d_add_where (delete_ (TPStr "test")) [c]; d_build d) =
  Ok (ok "DELETE FROM test WHERE f1 LIKE $1" [VStr "%a1%"]).
Proof. reflexivity. Qed.

(** field_definition_test.go, field_name_test.go, table_ident_test.go, utils_test.go, limiter_test.go *)
Example f_1 : field "t.f AS x" = Ok (mkF "f" "t" "x"). Proof. reflexivity. Qed.
Example f_2 : (do d <- field "f"; Ok (render_spec (f_of d "t"))) = Ok "t.f". Proof. reflexivity. Qed.
Example t_1 : table_or_error (TPStr "table t") = Some (mkT "table" "t"). Proof. reflexivity. Qed.
Example v_1 : map validate ["a.b"; "a"; ".a"; "a."; "a.b.c"; "a b"; ""] =
  [None; None; Some EStartDot; Some EEndDot; Some EDots; Some ESpace; Some EEmpty]. Proof. reflexivity. Qed.
Example u_1 : uniq_field_names ["a"; "b"; "a"; "c"; "b"] = ["a"; "b"; "c"]. Proof. reflexivity. Qed.
Example l_1 : lim_render (mkL 10 5) 3 = "OFFSET $4 LIMIT $5". Proof. reflexivity. Qed.
Example o_1 : map op_string [0; 1; 2; 3; 77]%Z = ["SELECT"; "INSERT"; "UPDATE"; "DELETE"; "unknown(77)"].
Proof. reflexivity. Qed.
