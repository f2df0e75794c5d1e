(** C108: what builders share, for the source text itself.

    PropsHeap.v proves for a model of the package written by hand (HeapOps.v,
    HeapBuild.v) which builders share an array and what follows from it.  Here
    the Go source is run with shared arrays (SrcMem.v): first small functions as
    a user of the package would write them, read from their Go text, and then,
    for every store and every builder, the methods that extend one. *)
From Coq Require Import String Ascii List Bool Arith NArith ZArith Lia.
From Verif Require Import GoStr Value SrcAst SrcParse SrcProg SrcSem Heap HeapFacts HeapShare SrcMem.
Import ListNotations.
Local Open Scope string_scope.
Local Open Scope nat_scope.

(** * Programs *)

(** The results of a program, calls being nested at most [n] deep: growth is Go's. *)
Definition prints (n : nat) (src : string) (out : list string) : Prop :=
  outcome go_growth n src = Done (map (fun s => RStr "string" s) out).

(** Two groups derived from one: the second call changes what the first returned. *)
Definition two_groups : string := "
func F() (string, string, string) {
	base := And(EqualTo(""a"", 1), EqualTo(""b"", 2)).And(EqualTo(""c"", 3))
	x := base.And(EqualTo(""d"", 4))
	before := x.Render(0)
	y := base.And(EqualTo(""e"", 5))
	return before, x.Render(0), y.Render(0)
}".
Theorem C108_and_refuted : forall n, prints (40 + n) two_groups
  ["a=$1 AND b=$2 AND c=$3 AND d=$4"; "a=$1 AND b=$2 AND c=$3 AND e=$4"; "a=$1 AND b=$2 AND c=$3 AND e=$4"].
Proof. intros n. vm_compute. reflexivity. Qed.
(** With two conditions in base there is no room for the third: both calls move. *)
Definition two_groups_apart : string := "
func F() (string, string, string) {
	base := And(EqualTo(""a"", 1), EqualTo(""b"", 2))
	x := base.And(EqualTo(""d"", 4))
	before := x.Render(0)
	y := base.And(EqualTo(""e"", 5))
	return before, x.Render(0), y.Render(0)
}".
Example C108_and_apart : forall n, prints (40 + n) two_groups_apart
  ["a=$1 AND b=$2 AND d=$3"; "a=$1 AND b=$2 AND d=$3"; "a=$1 AND b=$2 AND e=$3"].
Proof. intros n. vm_compute. reflexivity. Qed.

(** The same for OrderBy, Values, Set and the joins. *)
Definition two_orders : string := "
func F() (string, string) {
	base := SelectFrom(""t"").OrderBy(ASC(""a"")).OrderBy(ASC(""b"")).OrderBy(DESC(""c""))
	x := base.OrderBy(ASC(""d""))
	before, _, _ := x.BuildQueryAndParams()
	base.OrderBy(ASC(""e""))
	after, _, _ := x.BuildQueryAndParams()
	return before, after
}".
Definition two_inserts : string := "
func F() (string, string) {
	base := InsertInto(""t"").Values(Field(""a"").Value(1)).Values(Field(""b"").Value(2)).Values(Field(""c"").Value(3))
	x := base.Values(Field(""d"").Value(4))
	before, _, _ := x.BuildQueryAndParams()
	base.Values(Field(""e"").Value(5))
	after, _, _ := x.BuildQueryAndParams()
	return before, after
}".
Definition two_updates : string := "
func F() (string, string) {
	base := Update(""t"").Where(EqualTo(""k"", 0)).Set(Field(""a"").Value(1)).Set(Field(""b"").Value(2)).Set(Field(""c"").Value(3))
	x := base.Set(Field(""d"").Value(4))
	before, _, _ := x.BuildQueryAndParams()
	base.Set(Field(""e"").Value(5))
	after, _, _ := x.BuildQueryAndParams()
	return before, after
}".
Definition two_joins : string := "
func F() (string, string) {
	id := Field(""id"")
	base := SelectManyFrom(""t"").InnerJoin(""a"").On(id.Of(""a""), Field(""t.a"")).InnerJoin(""b"").On(id.Of(""b""), Field(""t.b"")).InnerJoin(""c"").On(id.Of(""c""), Field(""t.c""))
	x := base.InnerJoin(""d"").On(id.Of(""d""), Field(""t.d""))
	before, _, _ := x.BuildQueryAndParams()
	base.LeftJoin(""e"").On(id.Of(""e""), Field(""t.e""))
	after, _, _ := x.BuildQueryAndParams()
	return before, after
}".
Theorem C108_builders_refuted : forall n,
  prints (40 + n) two_orders ["SELECT * FROM t ORDER BY a ASC, b ASC, c DESC, d ASC"; "SELECT * FROM t ORDER BY a ASC, b ASC, c DESC, e ASC"] /\
  prints (40 + n) two_inserts ["INSERT INTO t(a, b, c, d) VALUES ($1, $2, $3, $4)"; "INSERT INTO t(a, b, c, e) VALUES ($1, $2, $3, $4)"] /\
  prints (40 + n) two_updates ["UPDATE t SET a=$1, b=$2, c=$3, d=$4 WHERE k=$5"; "UPDATE t SET a=$1, b=$2, c=$3, e=$4 WHERE k=$5"] /\
  prints (40 + n) two_joins
    ["SELECT * FROM t INNER JOIN a ON a.id=t.a INNER JOIN b ON b.id=t.b INNER JOIN c ON c.id=t.c INNER JOIN d ON d.id=t.d";
     "SELECT * FROM t INNER JOIN a ON a.id=t.a INNER JOIN b ON b.id=t.b INNER JOIN c ON c.id=t.c LEFT JOIN e ON e.id=t.e"].
Proof. intros n. repeat split; vm_compute; reflexivity. Qed.

(** An incomplete join finished twice. *)
Definition on_twice : string := "
func F() (string, string) {
	open := SelectManyFrom(""t"").InnerJoin(""u"")
	x := open.On(Field(""u.a""), Field(""t.b""))
	before, _, _ := x.BuildQueryAndParams()
	open.On(Field(""u.c""), Field(""t.d""))
	after, _, _ := x.BuildQueryAndParams()
	return before, after
}".
(** ApplyFieldTable, ApplyFieldSpec say that they make a copy. *)
Definition applied : string := "
func F() (string, string, string) {
	c := And(EqualTo(""a"", 1), EqualTo(""b"", 2))
	before := c.RenderSQL()
	c.ApplyFieldTable(""u"")
	after := c.RenderSQL()
	c.ApplyFieldSpec(Field(""v.a""))
	return before, after, c.RenderSQL()
}".
(** SetValues says that it returns a copy. *)
Definition values_kept : string := "
func F() (string, string) {
	x := InsertInto(""t"").Values(Field(""a"").Value(1))
	before, _, _ := x.BuildQueryAndParams()
	values := x.SetValues()
	values[0] = Field(""z"").Value(9)
	after, _, _ := x.BuildQueryAndParams()
	return before, after
}".
Theorem C108_copies_refuted : forall n,
  prints (40 + n) on_twice ["SELECT * FROM t INNER JOIN u ON u.a=t.b"; "SELECT * FROM t INNER JOIN u ON u.c=t.d"] /\
  prints (40 + n) applied ["a=? AND b=?"; "u.a=? AND u.b=?"; "v.a=? AND u.b=?"] /\
  prints (40 + n) values_kept ["INSERT INTO t(a) VALUES ($1)"; "INSERT INTO t(z) VALUES ($1)"].
Proof. intros n. repeat split; vm_compute; reflexivity. Qed.
(** Values keeps no slice of the caller: InsertInto has made one of its own. *)
Definition values_given : string := "
func F() (string, string) {
	values := []FieldValue{Field(""a"").Value(1), Field(""b"").Value(2)}
	x := InsertInto(""t"").Values(values...)
	before, _, _ := x.BuildQueryAndParams()
	values[0] = Field(""z"").Value(9)
	after, _, _ := x.BuildQueryAndParams()
	return before, after
}".
Example C108_values_given : forall n, prints (40 + n) values_given ["INSERT INTO t(a, b) VALUES ($1, $2)"; "INSERT INTO t(a, b) VALUES ($1, $2)"].
Proof. intros n. vm_compute. reflexivity. Qed.

(** A group that contains itself: its rendering calls itself, here until the calls
    allowed are spent, whatever their number: C108_knot_refuted in PropsSrcKnot.v. *)
Definition knot : string := "
func F() string {
	base := And(EqualTo(""a"", 1), EqualTo(""b"", 2)).And(EqualTo(""c"", 3))
	alt := base.Or(EqualTo(""d"", 4), EqualTo(""e"", 5))
	base.And(alt)
	return alt.RenderSQL()
}".
Definition untied : string := "
func F() string {
	base := And(EqualTo(""a"", 1), EqualTo(""b"", 2)).And(EqualTo(""c"", 3))
	alt := base.Or(EqualTo(""d"", 4), EqualTo(""e"", 5))
	return alt.RenderSQL()
}".
Example C108_untied : forall n, prints (40 + n) untied ["a=? AND b=? AND c=? OR d=? OR e=?"].
Proof. intros n. vm_compute. reflexivity. Qed.

(** * The methods, for every store *)

(** Builders as the source has them: structs whose slices are headers. *)
Definition g_many (base off lim order spec : mval) : mval :=
  RStruct "SelectManyBuilder" [("BaseSelectBuilder", base); ("offset", off); ("limit", lim); ("order", order); ("tableSpec", spec)].
Definition g_insert (base t vs : mval) : mval := RStruct "InsertBuilder" [("BaseBuilder", base); ("tableName", t); ("setValues", vs)].
Definition g_update (base t w vs : mval) : mval := RStruct "UpdateBuilder" [("BaseBuilder", base); ("tableName", t); ("where", w); ("setValues", vs)].
Definition g_base (b t js fs w : mval) : mval :=
  RStruct "BaseSelectBuilder" [("BaseBuilder", b); ("baseTable", t); ("joins", js); ("fields", fs); ("where", w)].
Definition g_joiner (t jt c : mval) : mval := RStruct "TableJoiner" [("rightTable", t); ("joinType", jt); ("joinCondition", c)].
Definition g_on (l r : mval) : mval := RStruct "JoinCondition" [("leftField", l); ("rightField", r)].
Definition g_single (q : mval) : mval := RStruct "SelectSingleBuilder" [("BaseSelectBuilder", q)].
Definition no_on : mval := zero 6 (TyName "JoinCondition").

Ltac runs := lazy -[append read assign alloc nth_error Z.of_nat Z.sub Z.to_nat Z.ltb Nat.ltb].

(** A method that extends: run with the slice [xs] of new elements on a builder whose
    slice is [s], it does one append and returns the builder with the new header. *)
Definition extends (f : string) (builder : mval -> mval) : Prop := forall pol n st s xs,
  m_run pol (S n) f true [builder (RObj s); RObj xs] st =
  let '(s', st') := append RNil pol st s (read st xs) in Done (builder (RObj s'), st').
Theorem C108_extends : forall a b c d,
  extends "SelectManyBuilder.OrderBy" (fun o => g_many a b c o d) /\
  extends "InsertBuilder.Values" (fun vs => g_insert a b vs) /\
  extends "UpdateBuilder.Set" (fun vs => g_update a b c vs).
Proof.
  intros a b c d. split; [|split]; intros pol n st s xs; runs; destruct append; reflexivity.
Qed.
(** so, whenever there is room: both calls return the same builder, and after the second
    it holds the second's elements *)
Theorem C108_extends_collide : forall f builder, extends f builder ->
  forall pol n st s cur xs ys, DenL st s cur -> sl_len s + length (read st xs) <= length (a_cells (the_arr st s)) ->
  exists r st1, m_run pol (S n) f true [builder (RObj s); RObj xs] st = Done (builder (RObj r), st1) /\
    read st1 r = (cur ++ read st xs)%list /\
    (length (read st1 ys) = length (read st xs) ->
     exists st2, m_run pol (S n) f true [builder (RObj s); RObj ys] st1 = Done (builder (RObj r), st2) /\
       read st2 r = (cur ++ read st1 ys)%list).
Proof.
  intros f builder X pol n st s cur xs ys D R. rewrite X.
  pose proof (append_den RNil pol st s cur (read st xs) D) as D1.
  destruct (append RNil pol st s (read st xs)) as [r st1] eqn:E. cbn [fst snd] in D1.
  exists r, st1. split; [reflexivity|]. split; [exact (DenL_read _ _ _ D1)|]. intros L. rewrite X.
  pose proof (append_twice RNil pol st s cur (read st xs) (read st1 ys) D R ltac:(lia)) as T. rewrite E in T.
  destruct (append RNil pol st1 s (read st1 ys)) as [r2 st2]. destruct T as (<- & _ & T). exists st2. split; [reflexivity|exact T].
Qed.
(** without room (the array is full) nothing is shared: the new header has an array of its own *)
Theorem C108_extends_apart : forall f builder, extends f builder ->
  forall pol n st s cur xs, DenL st s cur -> length (a_cells (the_arr st s)) < sl_len s + length (read st xs) ->
  exists r st1, m_run pol (S n) f true [builder (RObj s); RObj xs] st = Done (builder (RObj r), st1) /\
    read st1 r = (cur ++ read st xs)%list /\ sl_arr r = length (st_arrs st) /\ firstn (length (st_arrs st)) (st_arrs st1) = st_arrs st.
Proof.
  intros f builder X pol n st s cur xs D R. rewrite X.
  pose proof (append_den RNil pol st s cur (read st xs) D) as D1.
  destruct (append RNil pol st s (read st xs)) as [r st1] eqn:E. cbn [fst snd] in D1.
  exists r, st1. split; [reflexivity|]. split; [exact (DenL_read _ _ _ D1)|].
  unfold append in E. destruct (Nat.leb_spec (sl_len s + length (read st xs)) (length (a_cells (the_arr st s)))); [lia|].
  unfold alloc in E. injection E as <- <-. split; [reflexivity|]. cbn [st_arrs]. rewrite firstn_app, Nat.sub_diag, firstn_O, app_nil_r. apply firstn_all.
Qed.

(** SetValues returns the header itself. *)
Theorem C108_set_values : forall pol n st a b c s,
  m_run pol (S n) "InsertBuilder.SetValues" false [g_insert a b (RObj s)] st = Done (RObj s, st) /\
  m_run pol (S n) "UpdateBuilder.SetValues" false [g_update a b c (RObj s)] st = Done (RObj s, st).
Proof. intros. split; reflexivity. Qed.

(** The incomplete joins of the three select builders, and On of each: it writes to the
    last element of the builder it was made from. *)
Definition opens (f : string) (incomplete : mval -> mval) (builder : mval -> mval) : Prop := forall pol n st s t z,
  m_run pol (S n) f false [builder (RObj s); t; RInt "TableJoinType" z] st =
  let '(s', st') := append RNil pol st s [g_joiner t (RInt "TableJoinType" z) no_on] in Done (incomplete (builder (RObj s')), st').
Definition closes (f : string) (incomplete : mval -> mval) (builder : mval -> mval) : Prop := forall pol n st s cur t jt c l r,
  DenL st s (cur ++ [g_joiner t jt c])%list ->
  m_run pol (S (S (S n))) f false [incomplete (builder (RObj s)); l; r] st =
  Done (builder (RObj s), assign st s (length cur) (g_joiner t jt (g_on l r))).
Definition ibase (q : mval) : mval := RStruct "incompleteBaseJoiner" [("BaseSelectBuilder", q)].
Definition imany (q : mval) : mval := RStruct "incompleteManyJoiner" [("SelectManyBuilder", q)].
Definition isingle (q : mval) : mval := RStruct "incompleteSingleJoiner" [("SelectSingleBuilder", q)].
Theorem C108_opens : forall b t fs w off lim order spec,
  let base js := g_base b t js fs w in
  opens "BaseSelectBuilder.joinIdent" ibase base /\
  opens "SelectManyBuilder.joinIdent" imany (fun js => g_many (base js) off lim order spec) /\
  opens "SelectSingleBuilder.joinIdent" isingle (fun js => g_single (base js)).
Proof.
  intros. split; [|split]; intros pol n st s rt z; runs; destruct append; reflexivity.
Qed.
Lemma m_run_S : forall pol n f sp vs,
  m_run pol (S n) f sp vs = match assoc f pkg_funcs with Some fn => m_apply pol (m_run pol n) n fn sp vs | None => stop Wrong end.
Proof. reflexivity. Qed.
Lemma by_runs : forall pol n st t jt c l r, m_mcall (m_run pol (S (S n))) (g_joiner t jt c) "By" false [l; r] st = Done (g_joiner t jt (g_on l r), st).
Proof. intros. runs. reflexivity. Qed.
Ltac runs_on := lazy -[Z.of_nat Z.sub sl_len element put assign m_mcall m_run g_joiner g_on].
Theorem C108_closes : forall b t fs w off lim order spec,
  let base js := g_base b t js fs w in
  closes "incompleteBaseJoiner.On" ibase base /\
  closes "incompleteManyJoiner.On" imany (fun js => g_many (base js) off lim order spec) /\
  closes "incompleteSingleJoiner.On" isingle (fun js => g_single (base js)).
Proof.
  intros b t fs w off lim order spec. cbv zeta.
  split; [|split]; intros pol n st js cur rt jt c l r D;
    (assert (L : sl_len js = S (length cur)) by (rewrite <- (DenL_len _ _ _ D), app_length; cbn; lia);
     assert (Z1 : (Z.of_nat (sl_len js) - 1)%Z = Z.of_nat (length cur)) by lia;
     assert (E : element (RObj js) (RInt "int" (Z.of_nat (sl_len js) - 1)) st = Done (g_joiner rt jt c, st))
       by (rewrite Z1; unfold element, items, then_; rewrite (proj2 (Z.ltb_ge _ _)), Nat2Z.id by lia;
           rewrite (DenL_read _ _ _ D), nth_error_app2, Nat.sub_diag by lia; reflexivity);
     assert (P : forall x, put (RObj js) (RInt "int" (Z.of_nat (sl_len js) - 1)) x st = Done (tt, assign st js (length cur) x))
       by (intros x; rewrite Z1; unfold put; rewrite (proj2 (Z.ltb_ge _ _)), Nat2Z.id by lia; rewrite (proj2 (Nat.ltb_lt _ _)) by lia; reflexivity);
     rewrite m_run_S; runs_on; rewrite E; runs_on; rewrite by_runs; unfold g_joiner; runs_on; rewrite P; reflexivity).
Qed.
(** so always: both calls of On return the same builder, whose last join is the second one *)
Theorem C108_second_on_wins : forall fo fc incomplete builder, opens fo incomplete builder -> closes fc incomplete builder ->
  forall pol n st s cur t z l r l' r', DenL st s cur ->
  exists s' st0 st1 st2, m_run pol (S n) fo false [builder (RObj s); t; RInt "TableJoinType" z] st = Done (incomplete (builder (RObj s')), st0) /\
    m_run pol (S (S (S n))) fc false [incomplete (builder (RObj s')); l; r] st0 = Done (builder (RObj s'), st1) /\
    m_run pol (S (S (S n))) fc false [incomplete (builder (RObj s')); l'; r'] st1 = Done (builder (RObj s'), st2) /\
    read st1 s' = (cur ++ [g_joiner t (RInt "TableJoinType" z) (g_on l r)])%list /\
    read st2 s' = (cur ++ [g_joiner t (RInt "TableJoinType" z) (g_on l' r')])%list.
Proof.
  intros fo fc incomplete builder O C pol n st s cur t z l r l' r' D. rewrite O.
  pose proof (append_den RNil pol st s cur [g_joiner t (RInt "TableJoinType" z) no_on] D) as D0.
  destruct (append RNil pol st s [g_joiner t (RInt "TableJoinType" z) no_on]) as [s' st0]. cbn [fst snd] in D0.
  assert (L : sl_len s' = S (length cur)) by (rewrite <- (DenL_len _ _ _ D0), app_length; cbn; lia).
  assert (P : forall x y : mval, set_nth (length cur) y (cur ++ [x])%list = (cur ++ [y])%list).
  { intros x y. unfold set_nth. rewrite firstn_app, Nat.sub_diag, firstn_all, firstn_O, app_nil_r. rewrite skipn_all2 by (rewrite app_length; cbn; lia). reflexivity. }
  assert (A : forall st x y, DenL st s' (cur ++ [x])%list -> DenL (assign st s' (length cur) y) s' (cur ++ [y])%list).
  { intros q x y Q. pose proof (assign_read_any q s' _ (length cur) y Q ltac:(lia)) as R. rewrite P in R.
    destruct Q as (a & E & U1 & U2 & Q). eexists. unfold assign. cbn [st_arrs]. rewrite set_nth_same by (apply nth_error_Some; congruence). split; [reflexivity|].
    cbn [a_used a_cells]. rewrite (the_arr_nth _ _ _ E). split; [exact U1|]. split; [rewrite set_nth_length by lia; exact U2|].
    unfold read, assign, the_arr at 1 in R. cbn [st_arrs] in R. rewrite (nth_error_nth _ _ _ (set_nth_same (sl_arr s') _ (st_arrs q) ltac:(apply nth_error_Some; congruence))) in R.
    cbn [a_cells] in R. now rewrite (the_arr_nth _ _ _ E) in R. }
  pose proof (A _ _ (g_joiner t (RInt "TableJoinType" z) (g_on l r)) D0) as D1.
  pose proof (A _ _ (g_joiner t (RInt "TableJoinType" z) (g_on l' r')) D1) as D2.
  eexists s', st0, _, _. split; [reflexivity|]. rewrite (C _ _ _ _ _ _ _ _ l r D0). split; [reflexivity|]. rewrite (C _ _ _ _ _ _ _ _ l' r' D1). split; [reflexivity|].
  split; [exact (DenL_read _ _ _ D1)|exact (DenL_read _ _ _ D2)].
Qed.

(** A store as the hypotheses above ask for, with room for one more. *)
Example C108_example : let st : mem := mkSt [mkA [RNil; RNil; RNil] 2; mkA [RBool true] 1] false in
  DenL st (mkSl 0 2) [RNil; RNil] /\ sl_len (mkSl 0 2) + length (read st (mkSl 1 1)) <= length (a_cells (the_arr st (mkSl 0 2))) /\
  length (a_cells (the_arr st (mkSl 1 1))) < sl_len (mkSl 1 1) + length (read st (mkSl 1 1)).
Proof. split; [|cbn; lia]. eexists. split; [reflexivity|]. cbn. repeat split; lia. Qed.

Definition sharing_from_source := (C108_and_refuted, C108_builders_refuted, C108_copies_refuted,
  C108_extends, C108_extends_collide, C108_extends_apart, C108_set_values, C108_opens, C108_closes, C108_second_on_wins).
Print Assumptions sharing_from_source.
