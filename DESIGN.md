# Formal model of amarin/query

The source in /repo is read as text and re-stated in Rocq/Coq 8.16.1 as small total functions, function by
function.  Every definition that models code carries a comment with the Go file and lines.  Theorems are about
that model, for all inputs, by induction; the correspondence model <-> Go is by reading (see "Trusted base").

## Layers (rocq/theories)

Model (cites /repo line by line):

| file | contents |
| --- | --- |
| GoStr.v | Go strings as byte strings: Contains, Count, HasPrefix/HasSuffix, Split, Join, Fields (with Unicode spaces), ToUpper=="AS", strconv.Itoa; results `Ok`/`Panic` |
| Value.v | interface{} values as far as the code distinguishes them, FieldValue.Values, FieldName.Value |
| Names.v | FieldName.Validate, FieldDefinition, FieldOrError/Field, TableIdent/TableOrError, Fields, ordering, joins, Limiter, UniqFieldNames, ValuesMap |
| Cond.v | conditions: leaves (=, >, >=, <, <=, LIKE, ILIKE, IN, IS NULL, user-defined), Group and all of its merge logic, And/Or/Not, Render/RenderSQL/Values, ApplyField* |
| Build.v | Select (base, many, single), Count, Insert, Update, Delete builders, conversions and BuildQueryAndParams |
| Surface.v | the rest of the exported surface: shorthands, promoted methods, join entry points, accessors, WhereClause |
| Heap.v | the same operations on slices with shared backing arrays (length, capacity, append in place or reallocation), for every growth policy |
| Lib.v | the nine condition types of lib_*.go method by method; PropsLib.v shows that Cond.v's single leaf type is each of them |
| Ptr.v | conditions that hold `*Group` pointers, on a store of variables |
| Errors.v | errors with errors.New, %w and errors.Join; the error each function returns and what each panic carries |
| Asked.v | Render, Values and the builds when Values() of a leaf may answer differently at each call; logs the calls |
| Open.v | conditions of any user-written type: the interface as a record of arbitrary methods, Group and the builders' WHERE transcribed over it |
| Conformance.v, ConformanceAll.v | every case of every *_test.go of /repo, its expectation checked on the model by computation (tests of the model, not theorems) |

Specification (does not mention the model): SqlSpec.v (SQL lexer, operator-precedence parser and grammar, three-valued
evaluation, statement parser), Spec.v (placeholders of a text, call histories `calls`), LikeSpec.v (LIKE matching),
DbSpec.v (what a database does with a parsed statement: FROM and joins, WHERE, ORDER BY, columns, pages, COUNT, INSERT,
UPDATE, DELETE).
Calls.v states what a history of calls asks for.

Proofs: StrFacts, SqlFacts, CondFacts, CondText, CondSem, TreeFacts, CondLogic, CondMeaning, Built, CondThms, CondExact, CondIff, CondRight (conditions);
NameFacts (names); StmtFacts, BuildFacts, BuildThms, StmtText (statements); AtomFacts (predicates of a clause); HeapFacts, HeapOps, HeapBuild, HeapRun,
HeapLinear, HeapWf, HeapFrame, HeapApply, HeapShare, HeapCaller (slices; HeapCaller also defines histories in which the
caller works on slices of its own).

Property theorems, each with `Print Assumptions` and a concrete Example: PropsCond (C01-C05, C16-C19, C22, C28, C34, C44),
PropsNames (C23-C27, C29, C30, C35, C36), PropsSelect and PropsWrite (statements and builders), PropsHeap (C37-C43),
PropsSurface (C47-C51), PropsMore (C52-C57, C59, C60), PropsLike (C58), PropsAsked (C61), PropsEntry (C62),
PropsAtoms (C63, C64), PropsExact (C17 for every condition), PropsOrder (C65-C69),
PropsChain (C70), PropsDb (C71-C75), PropsRows (C76-C78), PropsLib (C79), PropsPtr (C80),
PropsString (C81), PropsSorted (C82, C83), PropsIff (C84-C87), PropsCaller (C88), PropsJoin (C89, C90), PropsValid (C91; exact forms of C32 and C48),
PropsExactly (exact forms of C02, C34, C35, C36, C49, C52, C59, C65), PropsErrors (C92, C93), PropsNil (C94; exact form of C22),
PropsExactly2 (exact forms of C27, C54, C55, C64, C81), PropsPaged (of C73, C74), PropsSorted2 (of C82, C83), PropsAfter (C95),
PropsAsked2 (exact forms of C28, C61), PropsShort (C96, C98; parts of C47, C51, C67, C71, C81), PropsClause (C97),
PropsOpen (C99).

Source level (C100-C108): SrcText.v holds the Go files letter by letter (written by tools/srctext.py, whose --check option compares it
with /repo); SrcAst.v and SrcParse.v are a lexer and parser for the part of Go the package is written in, run inside Coq on that
text (SrcProg.v, `decls_read`); SrcSem.v is an interpreter for it. SrcFacts, SrcNames*, SrcLoops, SrcValues, SrcConds,
SrcLeaf*, SrcGroups, SrcAdd*, SrcTree*, SrcMake, SrcMethods, SrcWhere prove function by function that running the source gives what
the model's function gives; PropsSrc and PropsSrcCond state it. SrcBuilders, SrcBuild, SrcWrite, SrcSelect*, SrcMany*, SrcSingle, SrcTables
and SrcPromoted do the same for the builders, PropsSrcBuild states it. PropsSrcLib (chains of calls) and PropsSrcExpr (nested expressions) compose the calls into whole programs
(C102), PropsSrcEnd carries C06, C07 and C09-C12 over to the text (C103), PropsSrcRows C73-C78 (C104); PropsSrcSurface states the shorthands, inherited methods and completed joins of Surface.v for the text (C105); PropsSrcBugs runs the programs that go wrong (C106); PropsSrcResults carries C71, C72, C82, C89 and C90 over (C107). SrcMem.v is a second interpreter for the same syntax trees in which slices are headers into shared arrays (Heap.v's store); PropsSrcMem runs Go programs of a user on it and proves, for every store, what the extending methods do to it (C108); PropsSrcKnot does so for groups and shows that a group can contain itself. All 314 functions and methods of the package have such a lemma. For these functions the model is no longer trusted as a reading of the
source: what is trusted is the parser and interpreter as a reading of Go. Anything the interpreter does not cover comes out as `Wrong`,
never as a result, so a theorem about a call shows that everything it meets is covered.

Go panics are the value `Panic`; Go errors are `inr`/`None` values; nil interfaces are an explicit constructor
`CNil`.  External code (driver.Valuer, ValueProvider, user-written conditions) is an arbitrary outcome carried by
the value (deterministic: the same value gives the same outcome every time it is asked; Asked.v drops this
assumption for conditions).

## Properties: how each is modelled and proved

C01 placeholders: `placeholders` scans the text for `$digits`; induction on the tree. C02 refuted by a []string
argument; the single-valued part is C01. C03 text equality after replacing `$digits` by `?`; induction. C04 two
trees of the same shape render the same text; induction. C05 case analysis over the merge functions.
C06-C11 the statement text is lexed and parsed by SqlSpec and compared with the builder's contents; the lexer is a
transducer, the parser a stack machine, both compositional over concatenation, so the proofs are inductions over
the lists/trees. C12-C14 invariants over builder states and call histories. C13, C15 refuted in general, proved on
the fragment. C16 induction on trees: run of the parser's machine on the tokens of a tree. C17-C19, C21 refuted in
general with concrete witnesses; proved on the largest fragments found. C20 invariant over call sequences.
C22 refuted (IsNull.Or); proved for everything else. C23-C27 strings by induction. C28 refuted; proved for
unaliased fields. C29 list induction. C30 arithmetic case analysis. C31, C32 (many/single) refuted; base proved.
C33 invariants. C34 proved for supported slices, refuted for others. C35 refuted; reflect path proved.
C36 permutation. C37-C43 on the heap model: representation relation between heap slices and pure values, preserved
by every operation; refutations are concrete executions. C44 induction. C45 histories. C46 list induction.
C47 the text of each constructor is lexed, parsed and evaluated. C48-C50 case analysis on parsed names, refuted in
general. C51 statement parser. C52-C55 normal forms of call histories (state after a history = one call of each kind).
C56 arithmetic and text. C57 exact: lexer on the name, both directions. C58 the LIKE relation, both directions.
C59 invariant over histories. C60 from C44. C61 induction on the tree with the log of calls as state. C62 from the
histories of C07-C11. C63 the tokens that make up predicates are the same in the text and in the expression it parses to;
induction over the grammar and over the tree. C64 from C63; derived statements on aliased tables refuted. C65-C68 from the
statement parser, for any builder state; C65 refuted for aliases that are not selected or that clash. C69 list induction.
C70 by induction over the calls, with an invariant on the shape of the result (which word joins its members); rewriting
into the rules by pushing negations inwards and reassociating. C71-C78 the parsed statements are executed by DbSpec.v on an
arbitrary database over an arbitrary engine (values, NULL, meaning of the predicates, order); from C06-C11, C16, C63 and C70. C79 case analysis over the nine types. C80 simulation between conditions with and
without pointers, by induction; refuted in general. C81 the parts of the text are separated by characters that names do not
contain. C82 insertion sort under a strict weak order, on top of C65 and C72. C83 from C65 and the execution of COUNT.
C84-C86 the value of the merged condition is computed exactly (CondExact.v); the rules suffice by three-valued algebra; they are
needed because rows can give the operands any values when the columns differ (CondIff.v `choose`), and lists of operands reduce
to six representative shapes that are compared by computation (`exact_and`, `exact_or`). C87 induction over the grammar.
C88 the arrays of the heap are split into the caller's and the package's; every step keeps the split, writes only on its own
side, and rendering reads only the package's side; induction over the history. Slices given as values refuted.
C89, C90 the parsed statement is executed by DbSpec.v and compared with a separate definition of the rows; C90 by induction over the
joins, with the rows made of the tables so far as invariant. C91 the parser of SqlSpec.v is followed as a state machine over the
text: by induction over the condition, reading it ends where an operator is expected if the condition is valid, and otherwise in
an error or where an operand is still expected. C92 each reason is compared with a statement about the name, map or history it
blames; C93 refuted; the exact conditions by induction over the arguments.
C94 induction over the operands and over the history. C95 the flags of the rows hit are the same before and after, because no column of
the condition changes. C96 refuted; the parameters are computed for lists of values by induction, exactly the values converted no
further keep the promise. C97 refuted; one step is compared with its promise by the exact forms of C84-C86, histories by
induction. C98 refuted; exact form from C53. C99 Open.v transcribes the condition code over an arbitrary implementation
of the interface; a type that keeps the contract is mapped to Cond.v by a homomorphism, the layout of the text is by induction
without any contract, the numbering by an invariant kept by every function. C100 symbolic execution of the source text; loops by
invariants, trees by induction on their depth, user-written conditions by the arbitrary methods of Open.v. C101 the same for the
builders; which method an embedding type has is computed from the method sets of the source. C102 by induction over the
history and over the expression, from C100 and C101 at the empty type of users' conditions; C103 and C104 from C102. C105 from C100-C102 and the method sets. C106 by running witnesses through C102; C107 like C103. C108 by running the text on a symbolic store and the append lemmas of HeapFacts/HeapShare.

## Trusted base

* Coq's kernel (8.16.1); no axioms are added, and no theorem uses any (`Print Assumptions` beside each
  theorem, for C100-C107 once for all of them in PropsSrcResults.v, for C108 in PropsSrcMem.v and PropsSrcKnot.v: "Closed under the global context").
* The reading of the Go source into Gallina (cited line by line), including Go's semantics of value receivers,
  slices and append.
* For C108: SrcMem.v as a reading of Go's slices (with SrcSem.v's for the rest; no slices of slices, no slicing expressions s[a:b],
  which the package does not use; pointers are read as values, so what is shared through a pointer is not seen; the growth of Go is Heap.v's go_growth where a program is run).
* For C100-C107: SrcParse.v and SrcSem.v as a reading of Go. Simplified there: a slice is the list of its elements (sharing is the
  subject of Heap.v) and a nil slice is an empty one; a pointer is read as what it points to; integers are unbounded except for
  the conversion to uint; a map is a list in the order in which range visits it; the methods of values from outside are those of
  Value.v and Open.v. The heap, logging and call-history models (Heap.v, HeapCaller.v, Ptr.v,
  Asked.v) are modelled by reading only, as said above.
* SqlSpec.v as a reading of SQL's lexical structure, operator precedence and three-valued logic.
* DbSpec.v as a reading of SQL's execution (C71-C78, C82, C83, C89, C90, C95 only). Simplified: tables are lists and keep their order, ORDER BY is a
  stable sort (a real database may order ties differently each time), a missing column is an error only if there is a row
  to evaluate, no constraints, no types.

Not modelled: String() debug methods other than the ones in Surface.v, the texts of foreign errors and Go's own panics, interfaces that only name
other people's implementations (Fetcher, Getter, ...), integer overflow of
parameter counts, concurrency (all methods are sequential; no goroutines in the package). The heap model's language of
call histories (HeapRun.v) has the builder methods, And/Or/Not/Negate/Join and the conversions; ApplyField*, a Join kept
apart from its On, and writes through SetValues are treated by separate theorems (C40, C42, C43) in every state such a
history reaches. `vcheck` lists axioms of the ssreflect part of the standard library that get loaded with it; no theorem
depends on them.

## What the refutations say about the code

* Where/And/Or on groups that mix AND and OR, or that hold one unbracketed group, change meaning (C17-C19, C21).
* Slices are shared between values derived from one builder: later calls overwrite earlier results, and two calls can
  build a group that contains itself (C38, C40-C43).
* SelectSingle.Fields forgets table, joins and WHERE (C07, C31, C54, C55); RenderSQL of many/single omits pagination (C32).
* Many()/Single() promoted to SelectMany drop ordering and pagination (C52).
* Multi-valued arguments in =, <, ..., INSERT and SET break the numbering (C02, C15); []int in IN is one parameter (C34);
  errors of a Valuer are swallowed or panic (C35).
* Values() is called several times per build; a provider whose number of values varies breaks the numbering or
  panics (C61).
* Validate lets brackets, operators and white space other than blanks through: panics (C26, C36) and injection (C57).
* An aliased field in WHERE renders `t.f AS x=$1`, which is not SQL (C28); FieldDefinition.Value drops the alias (C48).
* Contains does not escape LIKE wildcards (C58). In with no values renders `IN ()` (C13).
* IsNull.Or always panics (C22). Limit(0) means no limit (C30). By joins an alias as if it were a table (C50).
* UPDATE/DELETE made from a select on an aliased table drop the alias but keep it in the columns (C64).
* Delete() and Update() on a select drop its limit and joins: more rows are hit than the select returns (C73, C74).
* Fields() without arguments resets the columns to * (C59).
* ORDER BY and COUNT of an aliased field name the alias even where the statement does not define it; OrderBy("b") beside
  Fields("a as b") sorts by a (C65). Alias() is empty, not the field name, until As is called (C66).
* And(&g, x) and Or(&g, x) lose the grouping of g (the type switch knows Group, not *Group); a group kept by pointer in a
  statement changes with its variable; g = g.GroupAND(&g) never renders (C80).
* String() of a SelectMany shows neither ordering nor page (C81).
* In(f, s) keeps the caller's slice: writing to s later changes the parameters of the finished statement (C88).
* ASC, DESC and OrderBy panic with a text for an invalid name and with an error otherwise; NewFields panics with a text; the
  error of a failed conversion is printed, not wrapped (C93).
* Where(nil) on an empty WHERE, and And with several conditions on a group joined by OR, accept nil; the panic comes only at the
  build (C94).
