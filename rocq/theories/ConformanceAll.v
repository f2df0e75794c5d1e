(** The rest of the expectations of /repo's tests, so that with Conformance.v every case
    of every *_test.go is reproduced on the model (tests of the model, not proofs).
    Integers, floats and booleans are [VOther]; the number stands for the value. *)
From Coq Require Import String Ascii List NArith ZArith Bool Arith.
From Verif Require Import GoStr Value Names Cond Build Surface Conformance.
Import ListNotations.
Local Open Scope string_scope.
Local Open Scope nat_scope.

(** lib_equal_test.go *)
Example lib_001 :
  (xRender 0 (equal_to "f1" (VStr "aaa")),
   xValues (equal_to "f1" (VStr "aaa"))) =
  (Ok "f1=$1", Ok [(VStr "aaa")]). Proof. reflexivity. Qed.
Example lib_002 :
  (xRender 1 (equal_to "f1" (VOther 1)),
   xValues (equal_to "f1" (VOther 1))) =
  (Ok "f1=$2", Ok [(VOther 1)]). Proof. reflexivity. Qed.
Example lib_003 :
  (xRender 2 (xNot (equal_to "f1" (VOther 2))),
   xValues (xNot (equal_to "f1" (VOther 2)))) =
  (Ok "NOT f1=$3", Ok [(VOther 2)]). Proof. reflexivity. Qed.
Example lib_004 :
  (xRender 0 (xAnd (equal_to "f1" (VStr "aaa")) [(equal_to "f2" (VStr "aaa"))]),
   xValues (xAnd (equal_to "f1" (VStr "aaa")) [(equal_to "f2" (VStr "aaa"))])) =
  (Ok "f1=$1 AND f2=$2", Ok [(VStr "aaa"); (VStr "aaa")]). Proof. reflexivity. Qed.
Example lib_005 :
  (xRender 0 (xAnd (equal_to "f1" (VOther 1)) [(xAnd (equal_to "f2" (VOther 5)) [(equal_to "f3" (VOther 7))])]),
   xValues (xAnd (equal_to "f1" (VOther 1)) [(xAnd (equal_to "f2" (VOther 5)) [(equal_to "f3" (VOther 7))])])) =
  (Ok "f1=$1 AND f2=$2 AND f3=$3", Ok [(VOther 1); (VOther 5); (VOther 7)]). Proof. reflexivity. Qed.
Example lib_006 :
  (xRender 0 (xAnd (equal_to "f1" (VOther 1)) [(xOr (equal_to "f2" (VStr "2")) [(equal_to "f3" (VStr "3"))])]),
   xValues (xAnd (equal_to "f1" (VOther 1)) [(xOr (equal_to "f2" (VStr "2")) [(equal_to "f3" (VStr "3"))])])) =
  (Ok "f1=$1 AND (f2=$2 OR f3=$3)", Ok [(VOther 1); (VStr "2"); (VStr "3")]). Proof. reflexivity. Qed.
Example lib_007 :
  (xRender 0 (xAnd (xNot (equal_to "f1" (VStr "aaa"))) [(equal_to "f2" (VStr "aaa"))]),
   xValues (xAnd (xNot (equal_to "f1" (VStr "aaa"))) [(equal_to "f2" (VStr "aaa"))])) =
  (Ok "NOT f1=$1 AND f2=$2", Ok [(VStr "aaa"); (VStr "aaa")]). Proof. reflexivity. Qed.
Example lib_008 :
  (xRender 0 (xAnd (xNot (equal_to "f1" (VOther 2))) [(xAnd (equal_to "f2" (VOther 3)) [(equal_to "f3" (VOther 5))])]),
   xValues (xAnd (xNot (equal_to "f1" (VOther 2))) [(xAnd (equal_to "f2" (VOther 3)) [(equal_to "f3" (VOther 5))])])) =
  (Ok "NOT f1=$1 AND f2=$2 AND f3=$3", Ok [(VOther 2); (VOther 3); (VOther 5)]). Proof. reflexivity. Qed.
Example lib_009 :
  (xRender 7 (xAnd (xNot (equal_to "f1" (VOther 1))) [(xOr (equal_to "f2" (VOther 3)) [(equal_to "f3" (VOther 11))])]),
   xValues (xAnd (xNot (equal_to "f1" (VOther 1))) [(xOr (equal_to "f2" (VOther 3)) [(equal_to "f3" (VOther 11))])])) =
  (Ok "NOT f1=$8 AND (f2=$9 OR f3=$10)", Ok [(VOther 1); (VOther 3); (VOther 11)]). Proof. reflexivity. Qed.
Example lib_010 :
  (xRenderSQL (equal_to "f1" (VStr "aaa")),
   xValues (equal_to "f1" (VStr "aaa"))) =
  (Ok "f1=?", Ok [(VStr "aaa")]). Proof. reflexivity. Qed.
Example lib_011 :
  (xRenderSQL (equal_to "f1" (VOther 1)),
   xValues (equal_to "f1" (VOther 1))) =
  (Ok "f1=?", Ok [(VOther 1)]). Proof. reflexivity. Qed.
Example lib_012 :
  (xRenderSQL (xNot (equal_to "f1" (VOther 2))),
   xValues (xNot (equal_to "f1" (VOther 2)))) =
  (Ok "NOT f1=?", Ok [(VOther 2)]). Proof. reflexivity. Qed.
(** lib_gt_test.go *)
Example lib_013 :
  (xRender 0 (greater_than "f1" (VStr "aaa")),
   xValues (greater_than "f1" (VStr "aaa"))) =
  (Ok "f1>$1", Ok [(VStr "aaa")]). Proof. reflexivity. Qed.
Example lib_014 :
  (xRender 1 (greater_than "f1" (VOther 1)),
   xValues (greater_than "f1" (VOther 1))) =
  (Ok "f1>$2", Ok [(VOther 1)]). Proof. reflexivity. Qed.
Example lib_015 :
  (xRender 2 (xNot (greater_than "f1" (VOther 2))),
   xValues (xNot (greater_than "f1" (VOther 2)))) =
  (Ok "NOT f1>$3", Ok [(VOther 2)]). Proof. reflexivity. Qed.
Example lib_016 :
  (xRender 0 (xAnd (greater_than "f1" (VStr "aaa")) [(greater_than "f2" (VStr "aaa"))]),
   xValues (xAnd (greater_than "f1" (VStr "aaa")) [(greater_than "f2" (VStr "aaa"))])) =
  (Ok "f1>$1 AND f2>$2", Ok [(VStr "aaa"); (VStr "aaa")]). Proof. reflexivity. Qed.
Example lib_017 :
  (xRender 0 (xAnd (greater_than "f1" (VOther 1)) [(xAnd (greater_than "f2" (VOther 5)) [(greater_than "f3" (VOther 7))])]),
   xValues (xAnd (greater_than "f1" (VOther 1)) [(xAnd (greater_than "f2" (VOther 5)) [(greater_than "f3" (VOther 7))])])) =
  (Ok "f1>$1 AND f2>$2 AND f3>$3", Ok [(VOther 1); (VOther 5); (VOther 7)]). Proof. reflexivity. Qed.
Example lib_018 :
  (xRender 0 (xAnd (greater_than "f1" (VOther 1)) [(xOr (greater_than "f2" (VStr "2")) [(greater_than "f3" (VStr "3"))])]),
   xValues (xAnd (greater_than "f1" (VOther 1)) [(xOr (greater_than "f2" (VStr "2")) [(greater_than "f3" (VStr "3"))])])) =
  (Ok "f1>$1 AND (f2>$2 OR f3>$3)", Ok [(VOther 1); (VStr "2"); (VStr "3")]). Proof. reflexivity. Qed.
Example lib_019 :
  (xRender 0 (xAnd (xNot (greater_than "f1" (VStr "aaa"))) [(greater_than "f2" (VStr "aaa"))]),
   xValues (xAnd (xNot (greater_than "f1" (VStr "aaa"))) [(greater_than "f2" (VStr "aaa"))])) =
  (Ok "NOT f1>$1 AND f2>$2", Ok [(VStr "aaa"); (VStr "aaa")]). Proof. reflexivity. Qed.
Example lib_020 :
  (xRender 0 (xAnd (xNot (greater_than "f1" (VOther 2))) [(xAnd (greater_than "f2" (VOther 3)) [(greater_than "f3" (VOther 5))])]),
   xValues (xAnd (xNot (greater_than "f1" (VOther 2))) [(xAnd (greater_than "f2" (VOther 3)) [(greater_than "f3" (VOther 5))])])) =
  (Ok "NOT f1>$1 AND f2>$2 AND f3>$3", Ok [(VOther 2); (VOther 3); (VOther 5)]). Proof. reflexivity. Qed.
Example lib_021 :
  (xRender 7 (xAnd (xNot (greater_than "f1" (VOther 1))) [(xOr (greater_than "f2" (VOther 3)) [(greater_than "f3" (VOther 11))])]),
   xValues (xAnd (xNot (greater_than "f1" (VOther 1))) [(xOr (greater_than "f2" (VOther 3)) [(greater_than "f3" (VOther 11))])])) =
  (Ok "NOT f1>$8 AND (f2>$9 OR f3>$10)", Ok [(VOther 1); (VOther 3); (VOther 11)]). Proof. reflexivity. Qed.
Example lib_022 :
  (xRenderSQL (greater_than "f1" (VStr "aaa")),
   xValues (greater_than "f1" (VStr "aaa"))) =
  (Ok "f1>?", Ok [(VStr "aaa")]). Proof. reflexivity. Qed.
Example lib_023 :
  (xRenderSQL (greater_than "f1" (VOther 1)),
   xValues (greater_than "f1" (VOther 1))) =
  (Ok "f1>?", Ok [(VOther 1)]). Proof. reflexivity. Qed.
Example lib_024 :
  (xRenderSQL (xNot (greater_than "f1" (VOther 2))),
   xValues (xNot (greater_than "f1" (VOther 2)))) =
  (Ok "NOT f1>?", Ok [(VOther 2)]). Proof. reflexivity. Qed.
(** lib_gte_test.go *)
Example lib_025 :
  (xRender 0 (greater_or_equal "f1" (VStr "aaa")),
   xValues (greater_or_equal "f1" (VStr "aaa"))) =
  (Ok "f1>=$1", Ok [(VStr "aaa")]). Proof. reflexivity. Qed.
Example lib_026 :
  (xRender 1 (greater_or_equal "f1" (VOther 1)),
   xValues (greater_or_equal "f1" (VOther 1))) =
  (Ok "f1>=$2", Ok [(VOther 1)]). Proof. reflexivity. Qed.
Example lib_027 :
  (xRender 2 (xNot (greater_or_equal "f1" (VOther 2))),
   xValues (xNot (greater_or_equal "f1" (VOther 2)))) =
  (Ok "NOT f1>=$3", Ok [(VOther 2)]). Proof. reflexivity. Qed.
Example lib_028 :
  (xRender 0 (xAnd (greater_or_equal "f1" (VStr "aaa")) [(greater_or_equal "f2" (VStr "aaa"))]),
   xValues (xAnd (greater_or_equal "f1" (VStr "aaa")) [(greater_or_equal "f2" (VStr "aaa"))])) =
  (Ok "f1>=$1 AND f2>=$2", Ok [(VStr "aaa"); (VStr "aaa")]). Proof. reflexivity. Qed.
Example lib_029 :
  (xRender 0 (xAnd (greater_or_equal "f1" (VOther 1)) [(xAnd (greater_or_equal "f2" (VOther 5)) [(greater_or_equal "f3" (VOther 7))])]),
   xValues (xAnd (greater_or_equal "f1" (VOther 1)) [(xAnd (greater_or_equal "f2" (VOther 5)) [(greater_or_equal "f3" (VOther 7))])])) =
  (Ok "f1>=$1 AND f2>=$2 AND f3>=$3", Ok [(VOther 1); (VOther 5); (VOther 7)]). Proof. reflexivity. Qed.
Example lib_030 :
  (xRender 0 (xAnd (greater_or_equal "f1" (VOther 1)) [(xOr (greater_or_equal "f2" (VStr "2")) [(greater_or_equal "f3" (VStr "3"))])]),
   xValues (xAnd (greater_or_equal "f1" (VOther 1)) [(xOr (greater_or_equal "f2" (VStr "2")) [(greater_or_equal "f3" (VStr "3"))])])) =
  (Ok "f1>=$1 AND (f2>=$2 OR f3>=$3)", Ok [(VOther 1); (VStr "2"); (VStr "3")]). Proof. reflexivity. Qed.
Example lib_031 :
  (xRender 0 (xAnd (xNot (greater_or_equal "f1" (VStr "aaa"))) [(greater_or_equal "f2" (VStr "aaa"))]),
   xValues (xAnd (xNot (greater_or_equal "f1" (VStr "aaa"))) [(greater_or_equal "f2" (VStr "aaa"))])) =
  (Ok "NOT f1>=$1 AND f2>=$2", Ok [(VStr "aaa"); (VStr "aaa")]). Proof. reflexivity. Qed.
Example lib_032 :
  (xRender 0 (xAnd (xNot (greater_or_equal "f1" (VOther 2))) [(xAnd (greater_or_equal "f2" (VOther 3)) [(greater_or_equal "f3" (VOther 5))])]),
   xValues (xAnd (xNot (greater_or_equal "f1" (VOther 2))) [(xAnd (greater_or_equal "f2" (VOther 3)) [(greater_or_equal "f3" (VOther 5))])])) =
  (Ok "NOT f1>=$1 AND f2>=$2 AND f3>=$3", Ok [(VOther 2); (VOther 3); (VOther 5)]). Proof. reflexivity. Qed.
Example lib_033 :
  (xRender 7 (xAnd (xNot (greater_or_equal "f1" (VOther 1))) [(xOr (greater_or_equal "f2" (VOther 3)) [(greater_or_equal "f3" (VOther 11))])]),
   xValues (xAnd (xNot (greater_or_equal "f1" (VOther 1))) [(xOr (greater_or_equal "f2" (VOther 3)) [(greater_or_equal "f3" (VOther 11))])])) =
  (Ok "NOT f1>=$8 AND (f2>=$9 OR f3>=$10)", Ok [(VOther 1); (VOther 3); (VOther 11)]). Proof. reflexivity. Qed.
Example lib_034 :
  (xRenderSQL (greater_or_equal "f1" (VStr "aaa")),
   xValues (greater_or_equal "f1" (VStr "aaa"))) =
  (Ok "f1>=?", Ok [(VStr "aaa")]). Proof. reflexivity. Qed.
Example lib_035 :
  (xRenderSQL (greater_or_equal "f1" (VOther 1)),
   xValues (greater_or_equal "f1" (VOther 1))) =
  (Ok "f1>=?", Ok [(VOther 1)]). Proof. reflexivity. Qed.
Example lib_036 :
  (xRenderSQL (xNot (greater_or_equal "f1" (VOther 2))),
   xValues (xNot (greater_or_equal "f1" (VOther 2)))) =
  (Ok "NOT f1>=?", Ok [(VOther 2)]). Proof. reflexivity. Qed.
(** lib_ilike_test.go *)
Example lib_037 :
  (xRender 0 (icontains_ "f1" "aaa"),
   xValues (icontains_ "f1" "aaa")) =
  (Ok "f1 ILIKE $1", Ok [(VStr "%aaa%")]). Proof. reflexivity. Qed.
Example lib_038 :
  (xRender 0 (xTable "test" (icontains_ "f1" "aaa")),
   xValues (xTable "test" (icontains_ "f1" "aaa"))) =
  (Ok "test.f1 ILIKE $1", Ok [(VStr "%aaa%")]). Proof. reflexivity. Qed.
Example lib_039 :
  (xRender 0 (xNot (icontains_ "f1" "aaa")),
   xValues (xNot (icontains_ "f1" "aaa"))) =
  (Ok "f1 NOT ILIKE $1", Ok [(VStr "%aaa%")]). Proof. reflexivity. Qed.
Example lib_040 :
  (xRender 0 (xTable "test" (xNot (icontains_ "f1" "aaa"))),
   xValues (xTable "test" (xNot (icontains_ "f1" "aaa")))) =
  (Ok "test.f1 NOT ILIKE $1", Ok [(VStr "%aaa%")]). Proof. reflexivity. Qed.
Example lib_041 :
  (xRenderSQL (icontains_ "f1" "aaa"),
   xValues (icontains_ "f1" "aaa")) =
  (Ok "f1 ILIKE ?", Ok [(VStr "%aaa%")]). Proof. reflexivity. Qed.
Example lib_042 :
  (xRenderSQL (xTable "test" (icontains_ "f1" "aaa")),
   xValues (xTable "test" (icontains_ "f1" "aaa"))) =
  (Ok "test.f1 ILIKE ?", Ok [(VStr "%aaa%")]). Proof. reflexivity. Qed.
Example lib_043 :
  (xRenderSQL (xNot (icontains_ "f1" "aaa")),
   xValues (xNot (icontains_ "f1" "aaa"))) =
  (Ok "f1 NOT ILIKE ?", Ok [(VStr "%aaa%")]). Proof. reflexivity. Qed.
Example lib_044 :
  (xRenderSQL (xTable "test" (xNot (icontains_ "f1" "aaa"))),
   xValues (xTable "test" (xNot (icontains_ "f1" "aaa")))) =
  (Ok "test.f1 NOT ILIKE ?", Ok [(VStr "%aaa%")]). Proof. reflexivity. Qed.
(** lib_in_test.go *)
Example lib_045 :
  (xRender 0 (in_ "f1" (VStr "aaa")),
   xValues (in_ "f1" (VStr "aaa"))) =
  (Ok "f1 IN ($1)", Ok [(VStr "aaa")]). Proof. reflexivity. Qed.
Example lib_046 :
  (xRender 0 (in_ "f1" (VStrs ["aaa"; "132"])),
   xValues (in_ "f1" (VStrs ["aaa"; "132"]))) =
  (Ok "f1 IN ($1,$2)", Ok [(VStr "aaa"); (VStr "132")]). Proof. reflexivity. Qed.
Example lib_047 :
  (xRender 1 (in_ "f1" (VStrs ["aaa"; "132"])),
   xValues (in_ "f1" (VStrs ["aaa"; "132"]))) =
  (Ok "f1 IN ($2,$3)", Ok [(VStr "aaa"); (VStr "132")]). Proof. reflexivity. Qed.
Example lib_048 :
  (xRender 1 (in_ "f1" (VOther 1)),
   xValues (in_ "f1" (VOther 1))) =
  (Ok "f1 IN ($2)", Ok [(VOther 1)]). Proof. reflexivity. Qed.
Example lib_049 :
  (xRender 2 (xNot (in_ "f1" (VOther 2))),
   xValues (xNot (in_ "f1" (VOther 2)))) =
  (Ok "f1 NOT IN ($3)", Ok [(VOther 2)]). Proof. reflexivity. Qed.
Example lib_050 :
  (xRender 2 (xNot (in_ "f1" (VStrs ["123"; "321"]))),
   xValues (xNot (in_ "f1" (VStrs ["123"; "321"])))) =
  (Ok "f1 NOT IN ($3,$4)", Ok [(VStr "123"); (VStr "321")]). Proof. reflexivity. Qed.
Example lib_051 :
  (xRender 0 (xAnd (in_ "f1" (VStr "aaa")) [(in_ "f2" (VStr "aaa"))]),
   xValues (xAnd (in_ "f1" (VStr "aaa")) [(in_ "f2" (VStr "aaa"))])) =
  (Ok "f1 IN ($1) AND f2 IN ($2)", Ok [(VStr "aaa"); (VStr "aaa")]). Proof. reflexivity. Qed.
Example lib_052 :
  (xRender 0 (xAnd (in_ "f1" (VOther 1)) [(xAnd (in_ "f2" (VOther 5)) [(in_ "f3" (VOther 7))])]),
   xValues (xAnd (in_ "f1" (VOther 1)) [(xAnd (in_ "f2" (VOther 5)) [(in_ "f3" (VOther 7))])])) =
  (Ok "f1 IN ($1) AND f2 IN ($2) AND f3 IN ($3)", Ok [(VOther 1); (VOther 5); (VOther 7)]). Proof. reflexivity. Qed.
Example lib_053 :
  (xRender 0 (xAnd (in_ "f1" (VOther 1)) [(xOr (in_ "f2" (VStr "2")) [(in_ "f3" (VStr "3"))])]),
   xValues (xAnd (in_ "f1" (VOther 1)) [(xOr (in_ "f2" (VStr "2")) [(in_ "f3" (VStr "3"))])])) =
  (Ok "f1 IN ($1) AND (f2 IN ($2) OR f3 IN ($3))", Ok [(VOther 1); (VStr "2"); (VStr "3")]). Proof. reflexivity. Qed.
Example lib_054 :
  (xRender 0 (xAnd (xNot (in_ "f1" (VStr "aaa"))) [(in_ "f2" (VStr "aaa"))]),
   xValues (xAnd (xNot (in_ "f1" (VStr "aaa"))) [(in_ "f2" (VStr "aaa"))])) =
  (Ok "f1 NOT IN ($1) AND f2 IN ($2)", Ok [(VStr "aaa"); (VStr "aaa")]). Proof. reflexivity. Qed.
Example lib_055 :
  (xRender 0 (xAnd (xNot (in_ "f1" (VOther 2))) [(xAnd (in_ "f2" (VOther 3)) [(in_ "f3" (VOther 5))])]),
   xValues (xAnd (xNot (in_ "f1" (VOther 2))) [(xAnd (in_ "f2" (VOther 3)) [(in_ "f3" (VOther 5))])])) =
  (Ok "f1 NOT IN ($1) AND f2 IN ($2) AND f3 IN ($3)", Ok [(VOther 2); (VOther 3); (VOther 5)]). Proof. reflexivity. Qed.
Example lib_056 :
  (xRender 7 (xAnd (xNot (in_ "f1" (VOther 1))) [(xOr (in_ "f2" (VOther 3)) [(in_ "f3" (VOther 11))])]),
   xValues (xAnd (xNot (in_ "f1" (VOther 1))) [(xOr (in_ "f2" (VOther 3)) [(in_ "f3" (VOther 11))])])) =
  (Ok "f1 NOT IN ($8) AND (f2 IN ($9) OR f3 IN ($10))", Ok [(VOther 1); (VOther 3); (VOther 11)]). Proof. reflexivity. Qed.
Example lib_057 :
  (xRender 7 (xAnd (xNot (in_ "f1" (VStrs ["1"; "2"]))) [(xOr (in_ "f2" (VOther 3)) [(in_ "f3" (VStrs ["4"; "5"]))])]),
   xValues (xAnd (xNot (in_ "f1" (VStrs ["1"; "2"]))) [(xOr (in_ "f2" (VOther 3)) [(in_ "f3" (VStrs ["4"; "5"]))])])) =
  (Ok "f1 NOT IN ($8,$9) AND (f2 IN ($10) OR f3 IN ($11,$12))", Ok [(VStr "1"); (VStr "2"); (VOther 3); (VStr "4"); (VStr "5")]). Proof. reflexivity. Qed.
Example lib_058 :
  (xRenderSQL (in_ "f1" (VStr "aaa")),
   xValues (in_ "f1" (VStr "aaa"))) =
  (Ok "f1 IN (?)", Ok [(VStr "aaa")]). Proof. reflexivity. Qed.
Example lib_059 :
  (xRenderSQL (in_ "f1" (VOther 1)),
   xValues (in_ "f1" (VOther 1))) =
  (Ok "f1 IN (?)", Ok [(VOther 1)]). Proof. reflexivity. Qed.
Example lib_060 :
  (xRenderSQL (xNot (in_ "f1" (VOther 2))),
   xValues (xNot (in_ "f1" (VOther 2)))) =
  (Ok "f1 NOT IN (?)", Ok [(VOther 2)]). Proof. reflexivity. Qed.
(** lib_isnull_test.go *)
Example lib_061 :
  (xRender 0 (is_null "f1"),
   xRenderSQL (is_null "f1"),
   xValues (is_null "f1")) =
  (Ok "f1 IS NULL", Ok "f1 IS NULL", Ok []). Proof. reflexivity. Qed.
Example lib_062 :
  (xRender 0 (xNot (is_null "f1")),
   xRenderSQL (xNot (is_null "f1")),
   xValues (xNot (is_null "f1"))) =
  (Ok "f1 IS NOT NULL", Ok "f1 IS NOT NULL", Ok []). Proof. reflexivity. Qed.
(** lib_like_test.go *)
Example lib_063 :
  (xRender 0 (contains_ "f1" "aaa"),
   xValues (contains_ "f1" "aaa")) =
  (Ok "f1 LIKE $1", Ok [(VStr "%aaa%")]). Proof. reflexivity. Qed.
Example lib_064 :
  (xRender 0 (xTable "test" (contains_ "f1" "aaa")),
   xValues (xTable "test" (contains_ "f1" "aaa"))) =
  (Ok "test.f1 LIKE $1", Ok [(VStr "%aaa%")]). Proof. reflexivity. Qed.
Example lib_065 :
  (xRender 0 (xNot (contains_ "f1" "aaa")),
   xValues (xNot (contains_ "f1" "aaa"))) =
  (Ok "f1 NOT LIKE $1", Ok [(VStr "%aaa%")]). Proof. reflexivity. Qed.
Example lib_066 :
  (xRender 0 (xTable "test" (xNot (contains_ "f1" "aaa"))),
   xValues (xTable "test" (xNot (contains_ "f1" "aaa")))) =
  (Ok "test.f1 NOT LIKE $1", Ok [(VStr "%aaa%")]). Proof. reflexivity. Qed.
Example lib_067 :
  (xRenderSQL (contains_ "f1" "aaa"),
   xValues (contains_ "f1" "aaa")) =
  (Ok "f1 LIKE ?", Ok [(VStr "%aaa%")]). Proof. reflexivity. Qed.
Example lib_068 :
  (xRenderSQL (xTable "test" (contains_ "f1" "aaa")),
   xValues (xTable "test" (contains_ "f1" "aaa"))) =
  (Ok "test.f1 LIKE ?", Ok [(VStr "%aaa%")]). Proof. reflexivity. Qed.
Example lib_069 :
  (xRenderSQL (xNot (contains_ "f1" "aaa")),
   xValues (xNot (contains_ "f1" "aaa"))) =
  (Ok "f1 NOT LIKE ?", Ok [(VStr "%aaa%")]). Proof. reflexivity. Qed.
Example lib_070 :
  (xRenderSQL (xTable "test" (xNot (contains_ "f1" "aaa"))),
   xValues (xTable "test" (xNot (contains_ "f1" "aaa")))) =
  (Ok "test.f1 NOT LIKE ?", Ok [(VStr "%aaa%")]). Proof. reflexivity. Qed.
(** lib_lt_test.go *)
Example lib_071 :
  (xRender 0 (less_ "f1" (VStr "aaa")),
   xValues (less_ "f1" (VStr "aaa"))) =
  (Ok "f1<$1", Ok [(VStr "aaa")]). Proof. reflexivity. Qed.
Example lib_072 :
  (xRender 1 (less_ "f1" (VOther 1)),
   xValues (less_ "f1" (VOther 1))) =
  (Ok "f1<$2", Ok [(VOther 1)]). Proof. reflexivity. Qed.
Example lib_073 :
  (xRender 2 (xNot (less_ "f1" (VOther 2))),
   xValues (xNot (less_ "f1" (VOther 2)))) =
  (Ok "NOT f1<$3", Ok [(VOther 2)]). Proof. reflexivity. Qed.
Example lib_074 :
  (xRender 0 (xAnd (less_ "f1" (VStr "aaa")) [(less_ "f2" (VStr "aaa"))]),
   xValues (xAnd (less_ "f1" (VStr "aaa")) [(less_ "f2" (VStr "aaa"))])) =
  (Ok "f1<$1 AND f2<$2", Ok [(VStr "aaa"); (VStr "aaa")]). Proof. reflexivity. Qed.
Example lib_075 :
  (xRender 0 (xAnd (less_ "f1" (VOther 1)) [(xAnd (less_ "f2" (VOther 5)) [(less_ "f3" (VOther 7))])]),
   xValues (xAnd (less_ "f1" (VOther 1)) [(xAnd (less_ "f2" (VOther 5)) [(less_ "f3" (VOther 7))])])) =
  (Ok "f1<$1 AND f2<$2 AND f3<$3", Ok [(VOther 1); (VOther 5); (VOther 7)]). Proof. reflexivity. Qed.
Example lib_076 :
  (xRender 0 (xAnd (less_ "f1" (VOther 1)) [(xOr (less_ "f2" (VStr "2")) [(less_ "f3" (VStr "3"))])]),
   xValues (xAnd (less_ "f1" (VOther 1)) [(xOr (less_ "f2" (VStr "2")) [(less_ "f3" (VStr "3"))])])) =
  (Ok "f1<$1 AND (f2<$2 OR f3<$3)", Ok [(VOther 1); (VStr "2"); (VStr "3")]). Proof. reflexivity. Qed.
Example lib_077 :
  (xRender 0 (xAnd (xNot (less_ "f1" (VStr "aaa"))) [(less_ "f2" (VStr "aaa"))]),
   xValues (xAnd (xNot (less_ "f1" (VStr "aaa"))) [(less_ "f2" (VStr "aaa"))])) =
  (Ok "NOT f1<$1 AND f2<$2", Ok [(VStr "aaa"); (VStr "aaa")]). Proof. reflexivity. Qed.
Example lib_078 :
  (xRender 0 (xAnd (xNot (less_ "f1" (VOther 2))) [(xAnd (less_ "f2" (VOther 3)) [(less_ "f3" (VOther 5))])]),
   xValues (xAnd (xNot (less_ "f1" (VOther 2))) [(xAnd (less_ "f2" (VOther 3)) [(less_ "f3" (VOther 5))])])) =
  (Ok "NOT f1<$1 AND f2<$2 AND f3<$3", Ok [(VOther 2); (VOther 3); (VOther 5)]). Proof. reflexivity. Qed.
Example lib_079 :
  (xRender 7 (xAnd (xNot (less_ "f1" (VOther 1))) [(xOr (less_ "f2" (VOther 3)) [(less_ "f3" (VOther 11))])]),
   xValues (xAnd (xNot (less_ "f1" (VOther 1))) [(xOr (less_ "f2" (VOther 3)) [(less_ "f3" (VOther 11))])])) =
  (Ok "NOT f1<$8 AND (f2<$9 OR f3<$10)", Ok [(VOther 1); (VOther 3); (VOther 11)]). Proof. reflexivity. Qed.
Example lib_080 :
  (xRenderSQL (less_ "f1" (VStr "aaa")),
   xValues (less_ "f1" (VStr "aaa"))) =
  (Ok "f1<?", Ok [(VStr "aaa")]). Proof. reflexivity. Qed.
Example lib_081 :
  (xRenderSQL (less_ "f1" (VOther 1)),
   xValues (less_ "f1" (VOther 1))) =
  (Ok "f1<?", Ok [(VOther 1)]). Proof. reflexivity. Qed.
Example lib_082 :
  (xRenderSQL (xNot (less_ "f1" (VOther 2))),
   xValues (xNot (less_ "f1" (VOther 2)))) =
  (Ok "NOT f1<?", Ok [(VOther 2)]). Proof. reflexivity. Qed.
(** lib_lte_test.go *)
Example lib_083 :
  (xRender 0 (less_or_equal "f1" (VStr "aaa")),
   xValues (less_or_equal "f1" (VStr "aaa"))) =
  (Ok "f1<=$1", Ok [(VStr "aaa")]). Proof. reflexivity. Qed.
Example lib_084 :
  (xRender 1 (less_or_equal "f1" (VOther 1)),
   xValues (less_or_equal "f1" (VOther 1))) =
  (Ok "f1<=$2", Ok [(VOther 1)]). Proof. reflexivity. Qed.
Example lib_085 :
  (xRender 2 (xNot (less_or_equal "f1" (VOther 2))),
   xValues (xNot (less_or_equal "f1" (VOther 2)))) =
  (Ok "NOT f1<=$3", Ok [(VOther 2)]). Proof. reflexivity. Qed.
Example lib_086 :
  (xRender 0 (xAnd (less_or_equal "f1" (VStr "aaa")) [(less_or_equal "f2" (VStr "aaa"))]),
   xValues (xAnd (less_or_equal "f1" (VStr "aaa")) [(less_or_equal "f2" (VStr "aaa"))])) =
  (Ok "f1<=$1 AND f2<=$2", Ok [(VStr "aaa"); (VStr "aaa")]). Proof. reflexivity. Qed.
Example lib_087 :
  (xRender 0 (xAnd (less_or_equal "f1" (VOther 1)) [(xAnd (less_or_equal "f2" (VOther 5)) [(less_or_equal "f3" (VOther 7))])]),
   xValues (xAnd (less_or_equal "f1" (VOther 1)) [(xAnd (less_or_equal "f2" (VOther 5)) [(less_or_equal "f3" (VOther 7))])])) =
  (Ok "f1<=$1 AND f2<=$2 AND f3<=$3", Ok [(VOther 1); (VOther 5); (VOther 7)]). Proof. reflexivity. Qed.
Example lib_088 :
  (xRender 0 (xAnd (less_or_equal "f1" (VOther 1)) [(xOr (less_or_equal "f2" (VStr "2")) [(less_or_equal "f3" (VStr "3"))])]),
   xValues (xAnd (less_or_equal "f1" (VOther 1)) [(xOr (less_or_equal "f2" (VStr "2")) [(less_or_equal "f3" (VStr "3"))])])) =
  (Ok "f1<=$1 AND (f2<=$2 OR f3<=$3)", Ok [(VOther 1); (VStr "2"); (VStr "3")]). Proof. reflexivity. Qed.
Example lib_089 :
  (xRender 0 (xAnd (xNot (less_or_equal "f1" (VStr "aaa"))) [(less_or_equal "f2" (VStr "aaa"))]),
   xValues (xAnd (xNot (less_or_equal "f1" (VStr "aaa"))) [(less_or_equal "f2" (VStr "aaa"))])) =
  (Ok "NOT f1<=$1 AND f2<=$2", Ok [(VStr "aaa"); (VStr "aaa")]). Proof. reflexivity. Qed.
Example lib_090 :
  (xRender 0 (xAnd (xNot (less_or_equal "f1" (VOther 2))) [(xAnd (less_or_equal "f2" (VOther 3)) [(less_or_equal "f3" (VOther 5))])]),
   xValues (xAnd (xNot (less_or_equal "f1" (VOther 2))) [(xAnd (less_or_equal "f2" (VOther 3)) [(less_or_equal "f3" (VOther 5))])])) =
  (Ok "NOT f1<=$1 AND f2<=$2 AND f3<=$3", Ok [(VOther 2); (VOther 3); (VOther 5)]). Proof. reflexivity. Qed.
Example lib_091 :
  (xRender 7 (xAnd (xNot (less_or_equal "f1" (VOther 1))) [(xOr (less_or_equal "f2" (VOther 3)) [(less_or_equal "f3" (VOther 11))])]),
   xValues (xAnd (xNot (less_or_equal "f1" (VOther 1))) [(xOr (less_or_equal "f2" (VOther 3)) [(less_or_equal "f3" (VOther 11))])])) =
  (Ok "NOT f1<=$8 AND (f2<=$9 OR f3<=$10)", Ok [(VOther 1); (VOther 3); (VOther 11)]). Proof. reflexivity. Qed.
Example lib_092 :
  (xRenderSQL (less_or_equal "f1" (VStr "aaa")),
   xValues (less_or_equal "f1" (VStr "aaa"))) =
  (Ok "f1<=?", Ok [(VStr "aaa")]). Proof. reflexivity. Qed.
Example lib_093 :
  (xRenderSQL (less_or_equal "f1" (VOther 1)),
   xValues (less_or_equal "f1" (VOther 1))) =
  (Ok "f1<=?", Ok [(VOther 1)]). Proof. reflexivity. Qed.
Example lib_094 :
  (xRenderSQL (xNot (less_or_equal "f1" (VOther 2))),
   xValues (xNot (less_or_equal "f1" (VOther 2)))) =
  (Ok "NOT f1<=?", Ok [(VOther 2)]). Proof. reflexivity. Qed.

(** interfaces_test.go *)
Example interfaces_cases :
  (xRender 0 (xTable "test" (contains_ "f1" "v1")),
   xRender 0 (xTable "test" (equal_to "f1" (VStr "v1"))),
   xRender 0 (xTable "test" (is_null "f1"))) =
  (Ok "test.f1 LIKE $1", Ok "test.f1=$1", Ok "test.f1 IS NULL"). Proof. reflexivity. Qed.
(** group_test.go:11-14 *)
Example group_field_name : (do g <- xGroup AND []; c_field_name g) = Ok "". Proof. reflexivity. Qed.

(** fields_test.go *)
Definition nf (args : list (res (option fparam))) : res string :=
  do args <- seqM args; do fs <- new_fields args; Ok (field_list fs).
Definition as_str (s : string) : res (option fparam) := Ok (Some (FPStr s)).
Definition as_name (s : string) : res (option fparam) := Ok (Some (FPName s)).
Definition as_def (d : res fdef) : res (option fparam) := do d <- d; Ok (Some (FPDef d)).
Definition As (d : res fdef) (a : string) : res fdef := do d <- d; Ok (f_as d a).
Definition Of (d : res fdef) (t : string) : res fdef := do d <- d; Ok (f_of d t).

Example fields_01 : nf [] = Ok "*". Proof. reflexivity. Qed.
Example fields_02 : nf [as_str "test"] = Ok "test". Proof. reflexivity. Qed.
Example fields_03 : nf [as_str "test as t1"] = Ok "test AS t1". Proof. reflexivity. Qed.
Example fields_04 : nf [as_str "table.test as t1"] = Ok "table.test AS t1". Proof. reflexivity. Qed.
Example fields_05 : nf [as_name "test"] = Ok "test". Proof. reflexivity. Qed.
Example fields_06 : nf [as_name "test as t1"] = Ok "test AS t1". Proof. reflexivity. Qed.
Example fields_07 : nf [as_name "table.test as t1"] = Ok "table.test AS t1". Proof. reflexivity. Qed.
Example fields_08 : nf [as_name "t1.f1 as s1"; as_name "t2.f2 as s2"] = Ok "t1.f1 AS s1, t2.f2 AS s2". Proof. reflexivity. Qed.
Example fields_09 : nf [as_def (field "test")] = Ok "test". Proof. reflexivity. Qed.
Example fields_10 : nf [as_def (As (field "test") "t1")] = Ok "test AS t1". Proof. reflexivity. Qed.
Example fields_11 : nf [as_def (Of (As (field "test") "t1") "table")] = Ok "table.test AS t1". Proof. reflexivity. Qed.
Example fields_12 : nf [as_str "test"; as_name "test1"] = Ok "test, test1". Proof. reflexivity. Qed.
Example fields_13 : nf [as_str "test"; as_def (field "test1")] = Ok "test, test1". Proof. reflexivity. Qed.
Example fields_14 : nf [as_name "test"; as_def (field "test1")] = Ok "test, test1". Proof. reflexivity. Qed.
Example fields_15 : nf [as_str "f1"; as_name "table1.field2"; as_def (As (Of (field "field3") "table2") "f3")] = Ok "f1, table1.field2, table2.field3 AS f3". Proof. reflexivity. Qed.

(** join_condition_test.go *)
Definition jf (l r : string) : res string := do l <- field l; do r <- field r; Ok (jc_render (mkJC l r)).
Example join_condition_1 : jf "t1.f1" "t2.f2" = Ok "t1.f1=t2.f2". Proof. reflexivity. Qed.
Example join_condition_2 : jf "t1.f1 as s1" "t2.f2 as s2" = Ok "t1.f1=t2.f2". Proof. reflexivity. Qed.
Example join_condition_3 : jf "t1.f1 as s1" "t2.f2" = Ok "t1.f1=t2.f2". Proof. reflexivity. Qed.
Example join_condition_4 : jf "t1.f1" "t2.f2 as s2" = Ok "t1.f1=t2.f2". Proof. reflexivity. Qed.

(** join_tables_test.go *)
Definition tj (jt : Z) : res string :=
  do t <- table "table2"; do l <- field "table1.field1"; do r <- field "table2.field2";
  Ok (j_render (mkJ (t_as t "t2") jt (mkJC l r))).
Example join_tables_cases : map tj [InnerJoin; LeftJoin; RightJoin; FullJoin] =
  [Ok "INNER JOIN table2 AS t2 ON table1.field1=table2.field2"; Ok "LEFT JOIN table2 AS t2 ON table1.field1=table2.field2";
   Ok "RIGHT JOIN table2 AS t2 ON table1.field1=table2.field2"; Ok "FULL JOIN table2 AS t2 ON table1.field1=table2.field2"].
Proof. reflexivity. Qed.
(** join_type_test.go *)
Example join_type_string : map jt_string [InnerJoin; LeftJoin; RightJoin; FullJoin] =
  ["INNER JOIN"; "LEFT JOIN"; "RIGHT JOIN"; "FULL JOIN"]. Proof. reflexivity. Qed.
Definition jby (jt : Z) : res string :=
  do t1 <- table "t1"; do t2 <- table "t2"; do l <- t_field t1 "f1"; do r <- t_field t2 "f2";
  do j <- jt_by jt l r; Ok (j_render j).
Example join_type_by : map jby [InnerJoin; LeftJoin; RightJoin; FullJoin] =
  [Ok "INNER JOIN t2 ON t1.f1=t2.f2"; Ok "LEFT JOIN t2 ON t1.f1=t2.f2";
   Ok "RIGHT JOIN t2 ON t1.f1=t2.f2"; Ok "FULL JOIN t2 ON t1.f1=t2.f2"]. Proof. reflexivity. Qed.

(** ordering_test.go *)
Definition ob (fn : string) (dirs : list string) : res string := do o <- order_by fn dirs; Ok (s_render o).
Example order_ok :
  [ob "field" ["ASC"]; ob "field" ["DESC"]; ob "table.field" ["ASC"]; ob "table.field" ["DESC"]; ob "field" []] =
  [Ok "field ASC"; Ok "field DESC"; Ok "table.field ASC"; Ok "table.field DESC"; Ok "field ASC"]. Proof. reflexivity. Qed.
Example order_panics :
  [ob "field" ["here-and-there"]; ob ".field" ["DESC"]; ob "field." ["DESC"]; ob "field'" ["DESC"];
   ob "field""" ["DESC"]; ob "database.table.field" ["DESC"]; ob "" ["DESC"]] =
  [Panic; Panic; Panic; Panic; Panic; Panic; Panic]. Proof. reflexivity. Qed.
Definition obs (d : res fdef) : res string :=
  do o <- order_by "f1" []; do d <- d; Ok (s_render (s_apply_spec o d)).
Example order_apply_spec :
  [obs (field "f1"); obs (Of (field "f1") "table"); obs (As (field "f1") "field1");
   obs (As (Of (field "f1") "table") "field1"); obs (As (field "f21") "field1")] =
  [Ok "f1 ASC"; Ok "table.f1 ASC"; Ok "field1 ASC"; Ok "field1 ASC"; Ok "f1 ASC"]. Proof. reflexivity. Qed.

(** table_name_test.go; TestTable_Select of table_ident_test.go *)
Definition sel (p : res tparam) : res (string * string) :=
  do p <- p; do b <- tp_select p []; do r <- b_build b; Ok (b_table_name b, o_sql r).
Definition ident (s : string) : res tparam := do t <- table s; Ok (TPIdent t).
Definition ident_as (s a : string) : res tparam := do t <- table s; Ok (TPIdent (t_as t a)).
Example table_select :
  [sel (Ok (TPName "table1")); sel (Ok (TPName "table1 as t1"));
   sel (ident "table1"); sel (ident_as "table1" "t1"); sel (ident "table1 as t1"); sel (ident "table1 AS t1")] =
  [Ok ("table1", "SELECT * FROM table1"); Ok ("table1", "SELECT * FROM table1 AS t1");
   Ok ("table1", "SELECT * FROM table1"); Ok ("table1", "SELECT * FROM table1 AS t1");
   Ok ("table1", "SELECT * FROM table1 AS t1"); Ok ("table1", "SELECT * FROM table1 AS t1")]. Proof. reflexivity. Qed.

(** value_test.go *)
Definition vals (v : gval) : res (list gval) :=
  do d <- field "field"; do fv <- f_value (f_of d "table") v; fv_values (fv_val fv).
Definition uuid (s : string) : vout := ORet (VStr s) false.
Example value_scalars : map vals [VOther 42; VOther 314; VOther 271; VOther 0; VOther 1; VStr "i_am"] =
  [Ok [VOther 42]; Ok [VOther 314]; Ok [VOther 271]; Ok [VOther 0]; Ok [VOther 1]; Ok [VStr "i_am"]].
Proof. reflexivity. Qed.
Example value_lists :
  map vals [VStrs ["one"; "two"]; VValuer (uuid "d1") None; VValuerSlice [Some (uuid "d1"); Some (uuid "d2")]] =
  [Ok [VStr "one"; VStr "two"]; Ok [VStr "d1"]; Ok [VStr "d1"; VStr "d2"]]. Proof. reflexivity. Qed.

(** values_map_test.go: the number of values, None for an error *)
Definition mlen (m : list (string * gval)) : res (option nat) :=
  do r <- map_field_values m; Ok (option_map (@List.length _) r).
Example values_map_cases :
  [mlen []; mlen [("field name", VOther 0)]; mlen [("some_field", VOther 0)];
   mlen [("some_field", VOther 0); ("some_another_field", VOther 1)];
   mlen [("some_field", VOther 0); ("some_another_field", VOther 1); ("once_more", VStr "str")]] =
  [Ok (Some 0); Ok None; Ok (Some 1); Ok (Some 2); Ok (Some 3)]. Proof. reflexivity. Qed.

(** utils_test.go *)
Example uniq_cases :
  map uniq_field_names [[]; ["foo"]; [""]; ["a"; "a"]; ["a"; "a"; "a"; "b"; "b"; "b"; "c"; "c"; "c"];
    ["a"; "a"; "b"; "c"; "a"; "b"; "c"; "c"]] =
  [[]; ["foo"]; [""]; ["a"]; ["a"; "b"; "c"]; ["a"; "b"; "c"]]. Proof. reflexivity. Qed.

(** limiter_test.go *)
Definition lim0 : limiter := mkL 0 0.
Definition lim (n : N) := lim_set_limit lim0 n.
Definition off (n : N) := lim_set_offset lim0 n.
Definition offlim (o l : N) := lim_set_limit (lim_set_offset lim0 o) l.
Example limiter_render :
  [lim_render lim0 0; lim_render lim0 1; lim_render (lim 1) 0; lim_render (lim 1) 1; lim_render (off 1) 0;
   lim_render (off 1) 1; lim_render (offlim 1 1) 0; lim_render (offlim 1 1) 1] =
  [""; ""; "LIMIT $1"; "LIMIT $2"; "OFFSET $1"; "OFFSET $2"; "OFFSET $1 LIMIT $2"; "OFFSET $2 LIMIT $3"].
Proof. reflexivity. Qed.
Example limiter_render_sql : map lim_render_sql [lim0; lim 1; off 1; offlim 1 1] =
  [""; "LIMIT ?"; "OFFSET ?"; "OFFSET ? LIMIT ?"]. Proof. reflexivity. Qed.
Example limiter_values : map lim_values [lim0; lim 1; off 2; offlim 3 4] =
  [[]; [VUint 1]; [VUint 2]; [VUint 3; VUint 4]]. Proof. reflexivity. Qed.

(** field_name_test.go: true where Validate returns an error *)
Example validate_cases :
  map (fun s => if validate s then true else false)
    ["field"; "table.field"; ""; ".field"; "field."; "field'"; "field"""; "f ie ld "; "database.table.field"] =
  [false; false; true; true; true; true; true; true; true]. Proof. reflexivity. Qed.

(** op_type_test.go; build_base_test.go keeps the operation in a one-field struct *)
Example op_cases : map op_string [DoSelect; DoInsert; DoUpdate; DoDelete] = ["SELECT"; "INSERT"; "UPDATE"; "DELETE"].
Proof. reflexivity. Qed.

(** field_definition_test.go *)
Definition fspec (d : res fdef) : res string := do d <- d; Ok (render_spec d).
Definition ffield (d : res fdef) : res string := do d <- d; Ok (render_field d).
Example field_new : field "test" = Ok (mkF "test" "" ""). Proof. reflexivity. Qed.
Example field_as : As (field "test") "prod" = Ok (mkF "test" "" "prod"). Proof. reflexivity. Qed.
Example field_of : Of (field "test") "someTable" = Ok (mkF "test" "someTable" ""). Proof. reflexivity. Qed.
Example field_render_spec :
  [fspec (field "test"); fspec (Of (field "test") "table"); fspec (As (field "test") "Name");
   fspec (As (Of (field "test") "table") "Name"); fspec (As (Of (field "test") "") "Name"); fspec (As (field "test") "")] =
  [Ok "test"; Ok "table.test"; Ok "test AS Name"; Ok "table.test AS Name"; Ok "test AS Name"; Ok "test"].
Proof. reflexivity. Qed.
Example field_render_field :
  [ffield (field "test"); ffield (Of (field "test") "table"); ffield (As (field "test") "prod");
   ffield (As (Of (field "test") "table") "prod"); ffield (Of (As (field "test") "prod") "table")] =
  [Ok "test"; Ok "table.test"; Ok "prod"; Ok "prod"; Ok "prod"]. Proof. reflexivity. Qed.
Example field_or_error_cases :
  map (fun s => field_or_error (FPName s))
    ["f1"; "table.f1"; "f1 as field1"; "table.f1 as field1"; "table f1"; "life is life"; "table f1 f2 f3"] =
  [Some (mkF "f1" "" ""); Some (mkF "f1" "table" ""); Some (mkF "f1" "" "field1"); Some (mkF "f1" "table" "field1");
   None; None; None]. Proof. reflexivity. Qed.

(** table_ident_test.go *)
Example table_or_error_names :
  map (fun s => table_or_error (TPName s)) ["baseTable"; "baseTable as t1"; "baseTable t1"; "baseTable t1 t2"] =
  [Some (mkT "baseTable" ""); Some (mkT "baseTable" "t1"); Some (mkT "baseTable" "t1"); None]. Proof. reflexivity. Qed.
Example table_panics : map table ["baseTable"; "baseTable as t1"; "baseTable t1"; "baseTable t1 t2"] =
  [Ok (mkT "baseTable" ""); Ok (mkT "baseTable" "t1"); Ok (mkT "baseTable" "t1"); Panic]. Proof. reflexivity. Qed.
Example table_as :
  (do t <- table "test"; Ok (map t_alias [t_as t "one"; t_as (t_as t "one") "two"; t_as (t_as t "one") ""; t_as t "test"])) =
  Ok ["one"; "two"; ""; ""]. Proof. reflexivity. Qed.
Example table_render_from :
  (do t <- table "table"; Ok (map t_render [t; t_as t "t1"; t_as t "table"])) = Ok ["table"; "table AS t1"; "table"].
Proof. reflexivity. Qed.
Definition toe (p : res tparam) : res (option tident) := do p <- p; Ok (table_or_error p).
Example table_or_error_cases :
  [toe (Ok (TPStr "table")); toe (Ok (TPStr "table as t1")); toe (Ok (TPStr "table not t1"));
   toe (Ok (TPName "table")); toe (Ok (TPName "table as t1")); toe (Ok (TPName "table not t1"));
   toe (ident "table"); toe (ident "table as t1"); toe (ident_as "table" "t1")] =
  [Ok (Some (mkT "table" "")); Ok (Some (mkT "table" "t1")); Ok None;
   Ok (Some (mkT "table" "")); Ok (Some (mkT "table" "t1")); Ok None;
   Ok (Some (mkT "table" "")); Ok (Some (mkT "table" "t1")); Ok (Some (mkT "table" "t1"))]. Proof. reflexivity. Qed.

(** TestSelectFrom, TestSelectOneFrom, TestSelectManyFrom *)
Definition from_cases : list (res tparam) :=
  [Ok (TPStr "table1"); Ok (TPStr "table1 as t1"); Ok (TPName "table1"); Ok (TPName "table1 as t1");
   Ok (TPName "table1"); ident "table1 as t1"; ident_as "table1" "t1"].
Definition from_base (p : res tparam) : res (string * string) :=
  do p <- p; do b <- select_from p; do r <- b_build b; Ok (b_table_name b, o_sql r).
Definition from_single (p : res tparam) : res (string * string) :=
  do p <- p; do s <- select_single_from p; do r <- ss_build s; Ok (b_table_name (ss_base s), o_sql r).
Definition from_many (p : res tparam) : res (string * string) :=
  do p <- p; do m <- select_many_from p; do r <- m_build m; Ok (b_table_name (m_base m), o_sql r).
Definition from_wants (tail : string) : list (res (string * string)) :=
  map (fun a : string => Ok ("table1", "SELECT * FROM table1" ++ a ++ tail)) [""; " AS t1"; ""; " AS t1"; ""; " AS t1"; " AS t1"].
Example select_from_cases : map from_base from_cases = from_wants "". Proof. reflexivity. Qed.
Example select_single_cases : map from_single from_cases = from_wants " LIMIT 1". Proof. reflexivity. Qed.
Example select_many_cases : map from_many from_cases = from_wants "". Proof. reflexivity. Qed.

(** select_base_test.go *)
Definition bF (b : res bsel) (fs : list string) : res bsel :=
  do b <- b; do fs <- seqM (map field fs); Ok (b_set_fields b fs).
Definition b0 (t : string) : res bsel := select_from (TPStr t).
Example base_fields :
  [bb (b0 "table13"); bb (bF (b0 "table13") ["field1"]); bb (bF (bF (b0 "table13") ["field1"]) ["field2"; "field3 as f3"])] =
  [Ok ("SELECT * FROM table13", []); Ok ("SELECT field1 FROM table13", []);
   Ok ("SELECT field2, field3 AS f3 FROM table13", [])]. Proof. reflexivity. Qed.
Definition bJ (b : res bsel) (t : string) (jt : Z) (l r : string) : res bsel :=
  do b <- b; do t <- table t; do l <- field l; do r <- field r; b_join b t jt l r.
Example base_joins :
  [bb (bJ (b0 "t1") "t2" InnerJoin "t1.f1" "t2.f2"); bb (bJ (b0 "t1") "t2" InnerJoin "t1.f1 as field1" "t2.f2");
   bb (bJ (bF (b0 "t1") ["t1.f1 as field1"; "t2.f13 as field13"]) "t2" InnerJoin "t1.f1" "t2.f2")] =
  [Ok ("SELECT * FROM t1 INNER JOIN t2 ON t1.f1=t2.f2", []); Ok ("SELECT * FROM t1 INNER JOIN t2 ON t1.f1=t2.f2", []);
   Ok ("SELECT t1.f1 AS field1, t2.f13 AS field13 FROM t1 INNER JOIN t2 ON t1.f1=t2.f2", [])]. Proof. reflexivity. Qed.
Definition brs (b : res bsel) : res (string * list gval) :=
  do b <- b; do s <- b_render_sql b; do v <- b_values b; Ok (s, v).
Example base_render_sql :
  [brs (b0 "table1"); brs (bF (b0 "table2") ["f1"; "f2 as field2"; "f3"]);
   brs (bF (bJ (b0 "table3 as t3") "table4 as t4" LeftJoin "table3.f1" "table4.f2") ["t3.f1"; "t3.f2 as field2"; "t4.f3 as field3"])] =
  [Ok ("SELECT * FROM table1", []); Ok ("SELECT f1, f2 AS field2, f3 FROM table2", []);
   Ok ("SELECT t3.f1, t3.f2 AS field2, t4.f3 AS field3 FROM table3 AS t3 LEFT JOIN table4 AS t4 ON table3.f1=table4.f2", [])].
Proof. reflexivity. Qed.

(** select_many_test.go *)
Definition mL (m : res msel) (l : Z) := do m <- m; Ok (m_set_limit m l).
Definition mO (m : res msel) (n : N) := do m <- m; Ok (m_set_offset m n).
Example many_joins :
  [mb (mj m0 "t2" LeftJoin "test.f1" "t2.f1"); mb (mj m0 "t2" RightJoin "test.f1" "t2.f1")] =
  [Ok ("SELECT * FROM test LEFT JOIN t2 ON test.f1=t2.f1", []); Ok ("SELECT * FROM test RIGHT JOIN t2 ON test.f1=t2.f1", [])].
Proof. reflexivity. Qed.
Example many_join_fields :
  mb (mF (mj (select_many_from (TPStr "t1")) "t2" InnerJoin "t1.f1" "t2.field2")
         [As (field "t1.f1") "f1"; As (field "t2.field2") "f2"]) =
  Ok ("SELECT t1.f1 AS f1, t2.field2 AS f2 FROM t1 INNER JOIN t2 ON t1.f1=t2.field2", []). Proof. reflexivity. Qed.
Example many_orders :
  [mb (mo m0 [asc "field1"]); mb (mF (mo m0 [asc "field1"]) [As (field "field1") "f1"]); mb (mo m0 [asc "field1"; desc "field2"])] =
  [Ok ("SELECT * FROM test ORDER BY field1 ASC", []); Ok ("SELECT field1 AS f1 FROM test ORDER BY field1 ASC", []);
   Ok ("SELECT * FROM test ORDER BY field1 ASC, field2 DESC", [])]. Proof. reflexivity. Qed.
Example many_limits :
  [mb (mL m0 1); mb (mO m0 1); mb (mO (mL m0 1) 2); mb (mo (mO (mL (mo m0 [asc "field1"]) 4) 3) [desc "field2"])] =
  [Ok ("SELECT * FROM test LIMIT $1", [VUint 1]); Ok ("SELECT * FROM test OFFSET $1", [VUint 1]);
   Ok ("SELECT * FROM test OFFSET $1 LIMIT $2", [VUint 2; VUint 1]);
   Ok ("SELECT * FROM test ORDER BY field1 ASC, field2 DESC OFFSET $1 LIMIT $2", [VUint 3; VUint 4])]. Proof. reflexivity. Qed.
Example many_wheres :
  [mb (mO (mL (mo (mw m0 [equal_to "f1" (VOther 13)]) [asc "f2"]) 6) 5); mb (mw m0 [xNot (equal_to "f1" (VOther 13))])] =
  [Ok ("SELECT * FROM test WHERE f1=$1 ORDER BY f2 ASC OFFSET $2 LIMIT $3", [VOther 13; VUint 5; VUint 6]);
   Ok ("SELECT * FROM test WHERE NOT f1=$1", [VOther 13])]. Proof. reflexivity. Qed.
Example many_fields :
  (do m <- select_many_from (TPStr "table13"); do d <- As (field "f1") "a1"; let u := m_set_fields m [d] in
   do a <- m_build m; do b <- m_build u;
   Ok (length (m_field_definitions m), o_sql a, length (m_field_definitions u), o_sql b)) =
  Ok (0, "SELECT * FROM table13", 1, "SELECT f1 AS a1 FROM table13"). Proof. reflexivity. Qed.
Example many_operation : (do m <- m0; Ok (b_op (m_base m))) = Ok DoSelect. Proof. reflexivity. Qed.

(** insert_test.go *)
Definition insO (p : res tparam) : res Z := do p <- p; Ok (i_op (insert_into p)).
Definition updO (p : res tparam) : res Z := do p <- p; Ok (u_op (update_ p)).
Definition delO (p : res tparam) : res Z := do p <- p; Ok (d_op (delete_ p)).
Definition op_params : list (res tparam) := [Ok (TPStr "test"); Ok (TPName "t1"); ident "t1"].
Example write_operations :
  (map insO op_params, map updO op_params, map delO op_params) =
  ([Ok DoInsert; Ok DoInsert; Ok DoInsert], [Ok DoUpdate; Ok DoUpdate; Ok DoUpdate], [Ok DoDelete; Ok DoDelete; Ok DoDelete]).
Proof. reflexivity. Qed.
Definition ib (t : string) (vs : list (res fvalue)) : res (option (string * list gval)) :=
  do vs <- seqM vs; do r <- i_build (i_add (insert_into (TPName t)) vs);
  Ok (match o_err r with Some _ => None | None => Some (o_sql r, o_params r) end).
Example insert_cases :
  [ib "t1" []; ib "" [fn_value "strField" (VStr "a1")]; ib "t1" [fn_value "strField" (VStr "a1")];
   ib "t1" [fn_value "intField" (VOther 123); fn_value "strField" (VStr "a1")]] =
  [Ok None; Ok None; Ok (Some ("INSERT INTO t1(strField) VALUES ($1)", [VStr "a1"]));
   Ok (Some ("INSERT INTO t1(intField, strField) VALUES ($1, $2)", [VOther 123; VStr "a1"]))]. Proof. reflexivity. Qed.

(** update_test.go *)
Definition uw (u : res upd) (cs : list (res cond)) := do u <- u; do cs <- seqM cs; u_add_where u cs.
Definition us (u : res upd) (fn : string) (v : gval) := do u <- u; do fv <- fn_value fn v; Ok (u_add u [fv]).
Definition ub (u : res upd) : res (option (string * list gval)) :=
  do u <- u; do r <- u_build u; Ok (match o_err r with Some _ => None | None => Some (o_sql r, o_params r) end).
Definition mu (m : res msel) (fn : string) (v : gval) := do m <- m; do fv <- fn_value fn v; m_update m [fv].
Definition u0 (t : string) : res upd := Ok (update_ (TPStr t)).
Example update_cases :
  [ub (us (u0 "t1") "intField" (VOther 1));
   ub (us (uw (u0 "test") [contains_ "f1" "a1"]) "intField" (VOther 1));
   ub (us (mu (mw m0 [contains_ "f1" "a1"]) "intField" (VOther 1)) "strField" (VStr "aaa"));
   ub (us (us (mu (mw m0 [fn_equal_to "UUID" (VStr "00-000-00")]) "intField" (VOther 1)) "boolField" (VOther 0)) "strField" (VStr "aaa"));
   ub (us (us (uw (uw (u0 "test") [fn_equal_to "UUID" (VStr "00-000-00")]) [fn_equal_to "name" (VStr "testName")])
         "boolField" (VOther 0)) "strField" (VStr "ccc"))] =
  [Ok None;
   Ok (Some ("UPDATE test SET intField=$1 WHERE f1 LIKE $2", [VOther 1; VStr "%a1%"]));
   Ok (Some ("UPDATE test SET intField=$1, strField=$2 WHERE f1 LIKE $3", [VOther 1; VStr "aaa"; VStr "%a1%"]));
   Ok (Some ("UPDATE test SET intField=$1, boolField=$2, strField=$3 WHERE UUID=$4",
             [VOther 1; VOther 0; VStr "aaa"; VStr "00-000-00"]));
   Ok (Some ("UPDATE test SET boolField=$1, strField=$2 WHERE UUID=$3 AND name=$4",
             [VOther 0; VStr "ccc"; VStr "00-000-00"; VStr "testName"]))]. Proof. reflexivity. Qed.
Example update_set :
  (do fv <- new_field_value "test" VNil; let u := update_ (TPStr "test") in
   Ok (length (u_set_values u), length (u_set_values (u_add u [fv])), length (u_set_values u))) = Ok (0, 1, 0).
Proof. reflexivity. Qed.

(** delete_test.go *)
Example delete_none : d_build (delete_ (TPStr "t1")) = Ok (fail ENoConditions). Proof. reflexivity. Qed.
