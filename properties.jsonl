{"id": "C01", "title": "Numbered placeholders match the value list", "statement": "For every condition whose comparison leaves (EqualTo, GreaterThan, GreaterOrEqual, Less, LessOrEqual) carry a single-valued argument, Render(n) contains exactly len(Values()) \"$k\" placeholders, numbered n+1, n+2, ... in the order they appear in the text. In may carry any number of values; user-written conditions are allowed if they obey the same documented contract. The names involved contain no dollar sign.", "quantifier": "every condition tree (any depth, any width, any mix of AND/OR/NOT), every starting count n", "why_tests_cant": "trees and starting counts are unbounded; a test fixes one tree and one n", "anchors": ["interfaces.go:CountingClauseRenderer", "interfaces.go:ValuesProvider", "group.go:Group.Render", "group.go:Group.Values", "lib_*.go:Render", "lib_in.go:in.Render"]}
{"id": "C02", "title": "Placeholder contract holds for every condition the API can build", "statement": "The documented contract of Condition (Values has the same number of elements as Render has substitutions) holds for every value that can be passed to every exported constructor, not only for single-valued arguments.", "quantifier": "every condition constructor and every Go value passed to it", "why_tests_cant": "needs all dynamic types accepted by interface{} arguments, including slices of any length", "anchors": ["interfaces.go:99-105", "value.go:FieldValue.Values", "lib_equal.go:EqualTo", "lib_gt.go", "lib_gte.go", "lib_lt.go", "lib_lte.go"]}
{"id": "C03", "title": "'$N' and '?' renderings are the same clause", "statement": "Replacing every $<digits> of Render(n) by ? gives exactly RenderSQL(), for every condition and every n (field, table and alias names contain no '$').", "quantifier": "every condition tree and every n", "why_tests_cant": "two renderers are implemented separately for nine condition types and groups; agreement must hold for every tree", "anchors": ["group.go:Group.Render", "group.go:Group.RenderSQL", "lib_*.go:Render", "lib_*.go:RenderSQL"]}
{"id": "C04", "title": "Values never reach the SQL text", "statement": "The SQL text of a condition or of a SELECT/INSERT/UPDATE/DELETE builder depends on the values only through how many parameters each one expands to: replacing every value by another one of the same expansion length leaves the SQL text (both placeholder styles) unchanged, so no value content can be injected.", "quantifier": "every condition tree / builder and every assignment of values", "why_tests_cant": "an injection-freedom claim is about all value contents", "anchors": ["group.go:Group.Render", "select_base.go:BuildQueryAndParams", "insert.go:BuildQueryAndParams", "update.go:BuildQueryAndParams", "delete.go:BuildQueryAndParams"]}
{"id": "C05", "title": "Combining conditions never loses, duplicates or reorders values", "statement": "Values() of the result of And/Or/Where on any group is Values() of the receiver followed by Values() of the arguments in order; likewise the sequence of leaf conditions is the receiver's leaves followed by the arguments' leaves.", "quantifier": "every receiver group and every list of added conditions (any shape, any join types)", "why_tests_cant": "the merge logic has about twenty branches selected by the shapes of both operands", "anchors": ["group.go:addConditions", "group.go:addGroup", "group.go:addSingleCondition", "operations.go:And", "operations.go:Or"]}
{"id": "C06", "title": "SELECT (many) means what was asked", "statement": "For every SelectManyBuilder built by the API with well-formed names, BuildQueryAndParams returns a statement that, read back with the SQL grammar and bound to the returned parameters, has exactly the requested columns (or *), table and alias, joins in call order, WHERE expression, ORDER BY items in call order, and OFFSET/LIMIT values (absent when not positive), with no error.", "quantifier": "every builder state: any number of fields, joins, conditions, orderings, any offset and limit", "why_tests_cant": "the space of builder configurations is unbounded", "anchors": ["select_many.go:SelectManyBuilder.BuildQueryAndParams", "select_base.go:BaseSelectBuilder.BuildQueryAndParams", "fields.go:FieldList", "ordering.go:Render", "join_tables.go:RenderFrom"]}
{"id": "C07", "title": "SELECT (single) means what was asked, limited to one row", "statement": "For every SelectSingleBuilder with well-formed names BuildQueryAndParams returns the same columns, tables, joins and WHERE as its base builder, plus exactly LIMIT 1, with no OFFSET or ORDER BY and no extra parameter.", "quantifier": "every builder state", "why_tests_cant": "unbounded configurations", "anchors": ["select_single.go:SelectSingleBuilder.BuildQueryAndParams"]}
{"id": "C08", "title": "COUNT counts the rows the SELECT would return", "statement": "Count over a select builder renders SELECT COUNT(*) (or COUNT(field)) with exactly the FROM, joins, WHERE and parameters of the select it was made from; ORDER BY, OFFSET and LIMIT are ignored.", "quantifier": "every builder state", "why_tests_cant": "the two statements are rendered by separate code and must agree for every state", "anchors": ["count.go:Count", "count.go:CountBuilder.BuildQueryAndParams", "select_many.go:SelectManyBuilder.Count"]}
{"id": "C09", "title": "INSERT binds each column to its own value", "statement": "For every insert builder with a table name and at least one single-valued field value, BuildQueryAndParams returns INSERT INTO table(c1, ..., ck) VALUES ($1, ..., $k) and parameters v1..vk, column i paired with value i, in the order added over all Values calls.", "quantifier": "every list of field values, any number of Values calls", "why_tests_cant": "unbounded lists and call histories", "anchors": ["insert.go:InsertBuilder.BuildQueryAndParams", "insert.go:InsertBuilder.Values"]}
{"id": "C10", "title": "UPDATE binds SET values before WHERE values", "statement": "For every update builder with single-valued SET values, at least one condition and a table name, BuildQueryAndParams returns UPDATE table SET c1=$1, ..., ck=$k WHERE <expr> where WHERE placeholders continue at k+1, and the parameters are the SET values followed by the WHERE values; bound back, each column gets its own value and the WHERE expression its own values.", "quantifier": "every list of set values and every condition tree", "why_tests_cant": "numbering is split between two renderers", "anchors": ["update.go:UpdateBuilder.BuildQueryAndParams", "update.go:fieldsAndValues"]}
{"id": "C11", "title": "DELETE means what was asked", "statement": "For every delete builder with a table name and a non-empty, well-formed condition, BuildQueryAndParams returns DELETE FROM table WHERE <expr> whose bound expression is the builder's condition.", "quantifier": "every condition tree", "why_tests_cant": "unbounded trees", "anchors": ["delete.go:DeleteBuilder.BuildQueryAndParams"]}
{"id": "C12", "title": "UPDATE and DELETE without conditions are refused", "statement": "If no condition was ever added, UPDATE and DELETE builders return an error and an empty SQL string whatever else was configured; whenever SQL is returned without an error at least one condition, a non-empty table name (and for UPDATE at least one SET value) are present.", "quantifier": "every builder state and every call history (including Where() calls with no arguments and conversions from selects without conditions)", "why_tests_cant": "a safety guard has to hold for every history", "anchors": ["update.go:BuildQueryAndParams", "delete.go:BuildQueryAndParams", "group.go:addConditions"]}
{"id": "C13", "title": "UPDATE and DELETE never carry an empty WHERE", "statement": "Whenever an UPDATE or DELETE builder returns SQL without an error, the text after WHERE is a non-empty boolean expression.", "quantifier": "every builder state, including conditions that are themselves groups", "why_tests_cant": "depends on every nesting of possibly empty groups", "anchors": ["update.go:BuildQueryAndParams", "delete.go:BuildQueryAndParams", "group.go:Group.Render"]}
{"id": "C14", "title": "INSERT and UPDATE refuse incomplete input", "statement": "InsertBuilder.BuildQueryAndParams returns an error and empty SQL exactly when no value was added or the table name is empty; UpdateBuilder.BuildQueryAndParams exactly when conditions, values or table name are missing; otherwise err is nil.", "quantifier": "every builder state (values whose conversion panics excepted)", "why_tests_cant": "exactly-when claim over all states", "anchors": ["insert.go:BuildQueryAndParams", "update.go:BuildQueryAndParams"]}
{"id": "C15", "title": "INSERT/UPDATE keep columns and parameters aligned for every value", "statement": "INSERT and UPDATE produce as many placeholders as parameters and pair each column with its value for every Go value accepted by FieldName.Value, including slices.", "quantifier": "every Go value used as a field value", "why_tests_cant": "depends on the dynamic type and length of the value", "anchors": ["insert.go:BuildQueryAndParams", "update.go:fieldsAndValues", "value.go:FieldValue.Values"]}
{"id": "C16", "title": "Rendered conditions are valid SQL with a determined meaning", "statement": "For every condition tree without empty groups whose joins are AND/OR and whose names are plain identifiers, Render(n) is a well-formed SQL boolean expression, and evaluating it with SQL precedence (NOT over AND over OR) and three-valued logic on any row gives exactly the value computed from the tree by those precedence rules.", "quantifier": "every condition tree, every row (any assignment of true/false/unknown to the atomic predicates)", "why_tests_cant": "quantifies over all trees and all rows", "anchors": ["group.go:Group.Render", "base.go:RenderJoin", "lib_*.go"]}
{"id": "C17", "title": "Not negates", "statement": "Not(c) renders an expression that on every row is the logical negation of what c renders.", "quantifier": "every condition c and every row", "why_tests_cant": "all trees and all rows", "anchors": ["operations.go:Not", "group.go:Group.Render", "lib_*.go:Negate"]}
{"id": "C18", "title": "And means conjunction", "statement": "c.And(d1, ..., dk) renders an expression that on every row equals the conjunction of what c, d1, ..., dk render on their own.", "quantifier": "every condition c, every list d1..dk, every row", "why_tests_cant": "all shapes of both operands and all rows", "anchors": ["operations.go:And", "group.go:Group.And", "group.go:addConditions", "interfaces.go:146"]}
{"id": "C19", "title": "Or means: receiver or all of the arguments", "statement": "c.Or(d1, ..., dk) renders an expression that on every row equals c OR (d1 AND ... AND dk), as documented.", "quantifier": "every condition c, every list d1..dk, every row", "why_tests_cant": "all shapes of both operands and all rows", "anchors": ["operations.go:Or", "group.go:Group.Or", "group.go:addConditions", "interfaces.go:149"]}
{"id": "C20", "title": "A chain of Where calls with plain conditions is their conjunction", "statement": "For any sequence of Where calls on a fresh select/update/delete builder whose arguments are leaf conditions (possibly negated, default join), with any split of the conditions over the calls, the WHERE expression equals on every row the conjunction of all of them.", "quantifier": "every number of calls, every number of conditions per call, every row", "why_tests_cant": "unbounded call sequences", "anchors": ["where.go:GroupAND", "group.go:addConditions", "select_base.go:Where", "update.go:Where", "delete.go:Where"]}
{"id": "C21", "title": "Where always narrows", "statement": "q.Where(c) selects exactly the rows that q selects and c accepts, for every condition c including AND/OR groups.", "quantifier": "every builder q reachable through Where, every condition c, every row", "why_tests_cant": "all shapes and all rows", "anchors": ["select_base.go:Where", "group.go:addConditions", "group.go:addGroup"]}
{"id": "C22", "title": "Building conditions never panics", "statement": "And, Or, Not, Where and the constructors applied to non-nil conditions never panic.", "quantifier": "every receiver kind and every list of non-nil conditions", "why_tests_cant": "every receiver kind and shape", "anchors": ["lib_isnull.go:Or", "logical.go:Join", "group.go"]}
{"id": "C23", "title": "FieldName.Validate accepts exactly the documented names", "statement": "Validate returns nil iff the name is non-empty, has no single quote, double quote or space, has at most one dot, and neither starts nor ends with a dot.", "quantifier": "every string", "why_tests_cant": "all strings", "anchors": ["field_name.go:Validate"]}
{"id": "C24", "title": "Field specifications round-trip", "statement": "For every field, table and alias name without whitespace or dots (field name non-empty), parsing the rendered specification gives back the same field, table and alias (an alias equal to the field name is dropped when there is no table), whatever whitespace separates the tokens and whatever the case of 'as'.", "quantifier": "every triple of names, every amount and kind of whitespace", "why_tests_cant": "all strings", "anchors": ["field_definition.go:FieldOrError", "field_definition.go:RenderSpec"]}
{"id": "C25", "title": "Field specifications outside the documented forms are rejected", "statement": "FieldOrError returns an error for every string that is not of the form [table.]name [as alias] with non-empty table, name and alias.", "quantifier": "every string", "why_tests_cant": "all strings", "anchors": ["field_definition.go:FieldOrError"]}
{"id": "C26", "title": "A validated name never makes the builders panic", "statement": "If Validate accepts a field name then Field, ASC, DESC, OrderBy and ValuesMap.FieldValues do not panic on it and the resulting field renders back to the same text.", "quantifier": "every string accepted by Validate", "why_tests_cant": "all strings", "anchors": ["field_name.go:Validate", "ordering.go:ASC", "ordering.go:DESC", "values_map.go:FieldValues"]}
{"id": "C27", "title": "Table specifications: accepted forms and round-trip", "statement": "TableOrError accepts exactly name, name alias and name as alias; an alias equal to the name is dropped; RenderFrom of the result parses back to it.", "quantifier": "every string, every whitespace layout", "why_tests_cant": "all strings", "anchors": ["table_ident.go:TableOrError", "table_ident.go:As", "table_ident.go:RenderFrom"]}
{"id": "C28", "title": "A condition on an aliased field stays valid SQL", "statement": "A condition built on a field that has an alias renders a reference to the column or the alias, never a column definition with AS.", "quantifier": "every condition kind, every field definition", "why_tests_cant": "all names and kinds", "anchors": ["lib_*.go:Render", "field_definition.go:RenderSpec", "field_definition.go:RenderField"]}
{"id": "C29", "title": "UniqFieldNames removes duplicates and nothing else", "statement": "The result has no duplicates, the same elements as the input, in order of first occurrence.", "quantifier": "every list of names", "why_tests_cant": "all lists", "anchors": ["utils.go:UniqFieldNames"]}
{"id": "C30", "title": "Pagination rules", "statement": "OFFSET appears iff offset > 0, LIMIT iff limit > 0, OFFSET before LIMIT, each bound to its own value after all WHERE values; the last Offset/Limit call wins. The Limiter renders the same clauses in both placeholder styles, with exactly the matching values.", "quantifier": "every offset, limit, parameter count and call history", "why_tests_cant": "all numbers and histories", "anchors": ["select_many.go:Offset", "select_many.go:Limit", "select_many.go:BuildQueryAndParams", "limiter.go"]}
{"id": "C31", "title": "SelectSingleBuilder.Fields keeps table, joins and conditions", "statement": "Fields on a single-row select only replaces the column list; table, joins and WHERE stay as they were, as for the other select builders.", "quantifier": "every builder state and field list", "why_tests_cant": "all states", "anchors": ["select_single.go:Fields", "select_many.go:Fields", "select_base.go:Fields"]}
{"id": "C32", "title": "RenderSQL renders the same statement as BuildQueryAndParams", "statement": "For every select builder the '?' statement from RenderSQL is the statement from BuildQueryAndParams with $N replaced by ?, and Values() are its parameters.", "quantifier": "every select builder state of all three kinds", "why_tests_cant": "all states", "anchors": ["select_base.go:RenderSQL", "select_many.go", "select_single.go", "README.md:15"]}
{"id": "C33", "title": "UPDATE/DELETE derived from a SELECT keep its WHERE", "statement": "Update(...) and Delete() on a select builder target its base table with the same WHERE expression (placeholders shifted by the number of SET values) and the same WHERE values; a select without conditions gives a refused UPDATE/DELETE.", "quantifier": "every select builder state", "why_tests_cant": "all condition trees", "anchors": ["select_base.go:Update", "select_base.go:Delete", "select_many.go:Update", "select_many.go:Delete", "select_single.go:Update"]}
{"id": "C34", "title": "In lists one placeholder per element", "statement": "In(f, list) renders one placeholder per element of the list and passes the elements as separate parameters, for every Go slice type.", "quantifier": "every slice type and length", "why_tests_cant": "all slice types and lengths", "anchors": ["lib_in.go", "value.go:FieldValue.Values"]}
{"id": "C35", "title": "Value conversion errors are reported", "statement": "If a value's driver.Valuer conversion fails, building the query reports it (error or panic) instead of silently sending another value.", "quantifier": "every value and every builder", "why_tests_cant": "all values", "anchors": ["value.go:FieldValue.Values"]}
{"id": "C36", "title": "ValuesMap.FieldValues covers exactly the map", "statement": "FieldValues returns one field value per key, with the key's value, in some order; if any key is invalid it returns an error and no values.", "quantifier": "every map and every iteration order", "why_tests_cant": "Go map iteration order is random", "anchors": ["values_map.go:FieldValues"]}
{"id": "C37", "title": "Deriving a builder leaves the original intact", "statement": "No And/Or/GroupAND/GroupOR/Where/Join.../On/OrderBy/Set/Values/Fields/Limit/Offset/As/Of call changes what its receiver renders, in any memory state reached by any history of calls (slice backing arrays shared or not, any growth policy).", "quantifier": "every heap, every history, every slice growth policy", "why_tests_cant": "depends on hidden slice capacities and sharing produced by arbitrary histories", "anchors": ["README.md:18", "group.go", "select_base.go", "select_many.go", "insert.go:Values", "update.go:Set"]}
{"id": "C38", "title": "Builders derived from the same original are independent", "statement": "Deriving a second builder from an original does not change what an earlier derived builder renders ('all query builders are immutable which allows to keep original complex query definitions and easily derive new ones').", "quantifier": "every original, every pair of derivations, every history", "why_tests_cant": "only shows when a hidden slice has spare capacity", "anchors": ["README.md:18", "group.go:addConditions", "group.go:addSingleCondition", "group.go:addGroup", "select_many.go:OrderBy", "insert.go:Values", "update.go:Set", "select_base.go:joinIdent"]}
{"id": "C39", "title": "Straight-line (non-forking) use is safe", "statement": "If no append ever starts below the already used part of a backing array (for example when each builder value is extended at most once), then after any sequence of operations every value obtained so far still denotes what it denoted when it was created, and equals the value the purely functional reading of the API gives.", "quantifier": "every sequence of operations of any length, every growth policy", "why_tests_cant": "unbounded histories and hidden capacities", "anchors": ["group.go", "select_base.go", "select_many.go", "insert.go", "update.go"]}
{"id": "C40", "title": "ApplyFieldTable/ApplyFieldSpec return a modified copy", "statement": "The original condition renders the same before and after ApplyFieldTable/ApplyFieldSpec.", "quantifier": "every condition (leaf or group) in every memory state", "why_tests_cant": "aliasing of group storage is invisible in the result value", "anchors": ["group.go:ApplyFieldSpec", "group.go:ApplyFieldTable", "where.go:ApplyFieldSpec", "interfaces.go:155-160"]}
{"id": "C41", "title": "Rendering terminates", "statement": "Every condition that can be built with the API has a finite rendering.", "quantifier": "every history of API calls", "why_tests_cant": "needs the heap shapes of all histories", "anchors": ["group.go:addGroup", "group.go:addConditions", "group.go:Group.Render"]}
{"id": "C42", "title": "Accessors return copies", "statement": "Slices returned by Conditions, FieldDefinitions and SetValues are copies: writing to them does not change the builder.", "quantifier": "every builder, every write through the returned slice", "why_tests_cant": "aliasing", "anchors": ["where.go:Conditions", "fields.go:FieldDefinitions", "insert.go:SetValues", "update.go:SetValues"]}
{"id": "C43", "title": "Finishing an incomplete join twice gives two independent builders", "statement": "For one incomplete join j, j.On(a,b) followed by j.On(c,d) leaves the first result unchanged.", "quantifier": "every builder and every pair of On calls", "why_tests_cant": "aliasing of the joins slice", "anchors": ["join_unfinished.go:On"]}
{"id": "C44", "title": "ApplyFieldTable/ApplyFieldSpec reach exactly the matching leaves", "statement": "In the result every leaf's table is the given one (ApplyFieldTable), respectively every leaf whose field name equals the spec's gets exactly that spec and every other leaf is unchanged (ApplyFieldSpec); structure, joins, negations and values are unchanged.", "quantifier": "every condition tree", "why_tests_cant": "all trees", "anchors": ["group.go:ApplyFieldSpec", "group.go:ApplyFieldTable", "value.go:ApplyFieldSpec", "lib_*.go"]}
{"id": "C45", "title": "Operation tags", "statement": "Operation() reports SELECT for all select builders, and INSERT/UPDATE/DELETE for the others, after any sequence of derivation calls.", "quantifier": "every call history", "why_tests_cant": "all histories", "anchors": ["build_base.go:Operation", "op_type.go", "insert.go:InsertInto", "update.go:Update", "delete.go:Delete"]}
{"id": "C46", "title": "Joins render in call order with their own type, table and fields", "statement": "After any sequence of Join(...).On(l,r) calls the FROM clause is the base table followed by one '<TYPE> JOIN <table> ON l=r' per call, in call order; other clauses are unaffected.", "quantifier": "every sequence of joins", "why_tests_cant": "all sequences", "anchors": ["select_base.go:joinIdent", "join_unfinished.go:On", "join_tables.go:RenderFrom", "join_type.go:String"]}
{"id": "C47", "title": "Constructors build the plain comparison they are named after", "statement": "Equal, GreaterThan, GreaterOrEqual, Less, LessOrEqual, Contains, IContains, In, IsNull and the FieldName shorthands applied to a valid field (qualified or not) give a condition that is not negated, joins by AND, carries exactly the given values and whose text means the named comparison of the named column with those values.", "quantifier": "every constructor, every valid field name, every value, every parameter offset", "why_tests_cant": "all names, values and offsets", "anchors": ["lib_equal.go", "lib_gt.go", "lib_gte.go", "lib_lt.go", "lib_lte.go", "lib_like.go", "lib_ilike.go", "lib_in.go", "lib_isnull.go", "field_name.go:Contains"]}
{"id": "C48", "title": "FieldDefinition.Value keeps the field", "statement": "FieldDefinition.Value(v) pairs the definition it is called on (name, table, alias) with v.", "quantifier": "every field definition that Field can return, every value", "why_tests_cant": "all definitions", "anchors": ["field_definition.go:Value", "field_name.go:Value"]}
{"id": "C49", "title": "TableFieldName is a valid name and round-trips", "statement": "TableFieldName() of any field definition is accepted by Validate, and parsing it gives back the name and table of the definition.", "quantifier": "every field definition that Field can return", "why_tests_cant": "all definitions", "anchors": ["field_definition.go:TableFieldName", "field_name.go:Validate", "field_definition.go:FieldOrError"]}
{"id": "C50", "title": "By and Using join the table of the right field", "statement": "JoinType.By(l, r) / JoinFields(l, r).Using(type) join the table the right field belongs to, ON l = r.", "quantifier": "every table, alias and field", "why_tests_cant": "all tables", "anchors": ["join_type.go:By", "join_condition.go:Using"]}
{"id": "C51", "title": "Every join method joins its own way", "statement": "InnerJoin, LeftJoin, RightJoin and FullJoin, on table names, table identifiers, base, many and single selects, each add exactly one join of their own type with the given table and fields to the statement.", "quantifier": "every join method of every type, every table and fields", "why_tests_cant": "all tables and fields", "anchors": ["table_name.go:InnerJoin", "table_ident.go:InnerJoin", "select_base.go:InnerJoin", "select_many.go:InnerJoin", "select_single.go:InnerJoin", "join_type.go:Tables"]}
{"id": "C52", "title": "Converting between select builders loses nothing", "statement": "Many() and Single() on any select builder keep the columns, the table, the joins, the WHERE clause and its parameters, and on a SelectMany builder also the ordering and the pagination.", "quantifier": "every builder", "why_tests_cant": "all builder states", "anchors": ["select_base.go:Many", "select_base.go:Single", "select_many.go:SelectManyBuilder", "select_single.go:SelectSingleBuilder"]}
{"id": "C53", "title": "Negate and Join only set a flag", "statement": "After any sequence of Negate and Join calls the condition is negated iff the last Negate said so, JoinType is the last Join, and text and values are those of one Negate with that flag; a sequence that ends at the original flag changes nothing.", "quantifier": "every condition and every sequence of calls", "why_tests_cant": "all sequences", "anchors": ["base.go:Negate", "base.go:Join", "group.go:Negate", "lib_equal.go:Negate"]}
{"id": "C54", "title": "Accessors report what was asked for", "statement": "After any calls TableName() is the table the builder was made for, FieldDefinitions() the last list given to Fields, and SetValues() everything set, in order.", "quantifier": "every builder and every history of calls", "why_tests_cant": "all histories", "anchors": ["select_base.go:TableName", "select_base.go:FieldDefinitions", "insert.go:SetValues", "update.go:SetValues", "delete.go:TableName"]}
{"id": "C55", "title": "The order of calls of different kinds does not matter", "statement": "Two histories that make the same calls of each kind in the same order (for Fields, Offset and Limit: with the same last value) give the same builder.", "quantifier": "every builder, every pair of histories", "why_tests_cant": "all interleavings", "anchors": ["select_base.go:Where", "select_many.go:OrderBy", "select_single.go:Fields", "update.go:Set"]}
{"id": "C56", "title": "A SelectMany builder paginates as a Limiter", "statement": "The statement of a SelectMany builder is the statement without pagination followed by what a Limiter with the same offset and limit renders at that point, and the parameters are followed by the Limiter's values.", "quantifier": "every builder, offset and limit", "why_tests_cant": "all offsets, limits and parameter counts", "anchors": ["select_many.go:BuildQueryAndParams", "limiter.go:Render"]}
{"id": "C57", "title": "A validated field name cannot change the statement", "statement": "If Validate accepts a name then a condition or an ORDER BY item on it is about the column of that name and nothing else.", "quantifier": "every name accepted by Validate", "why_tests_cant": "all strings", "anchors": ["field_name.go:Validate", "lib_equal.go:Render", "ordering.go:Render"]}
{"id": "C58", "title": "Contains is a substring test", "statement": "The value bound by Contains(f, s) is a LIKE pattern that matches exactly the texts that contain s; IContains the same in lower case.", "quantifier": "every text s and every text matched against", "why_tests_cant": "all texts", "anchors": ["lib_like.go:Values", "lib_ilike.go:Values"]}
{"id": "C59", "title": "A call without arguments changes nothing", "statement": "Fields(), Where(), OrderBy(), Values() and Set() without arguments leave the builder as it was, wherever they occur in a history.", "quantifier": "every builder and history", "why_tests_cant": "all histories", "anchors": ["select_base.go:Where", "group.go:addConditions", "select_base.go:Fields", "select_many.go:OrderBy"]}
{"id": "C60", "title": "WhereClause.ApplyFieldSpec respecifies the matching conditions only", "statement": "ApplyFieldSpec on a clause does not panic, keeps its structure, its flags, the order of the conditions and their values, and replaces the definition of exactly the conditions whose field has the name of the given one.", "quantifier": "every clause made with the API, every field definition", "why_tests_cant": "all trees", "anchors": ["where.go:ApplyFieldSpec", "group.go:ApplyFieldSpec"]}
{"id": "C61", "title": "Values that vary between calls do not break the numbering", "statement": "BuildQueryAndParams does not panic and numbers the placeholders like the parameters even if a Valuer, a ValueProvider or a user-written condition answers differently each time it is asked.", "quantifier": "every condition tree, all sequences of answers", "why_tests_cant": "all trees and answers", "anchors": ["group.go:Render", "group.go:Values", "lib_in.go:Render", "value.go:Values"]}
{"id": "C62", "title": "The shorthands on tables are what they abbreviate", "statement": "Select, SelectMany, SelectOne, Count, InsertInto, Update and Delete called on a table name or identifier give the statement on that table with the condition And makes of the arguments (the columns or assignments of the values): Select and SelectMany read all columns, SelectOne adds LIMIT 1, Count counts the same rows, all with the same parameters.", "quantifier": "every table, all arguments", "why_tests_cant": "unbounded arguments", "anchors": ["table_name.go:Select", "table_name.go:SelectMany", "table_name.go:SelectOne", "table_name.go:InsertInto", "table_name.go:Update", "table_name.go:Delete", "table_ident.go:Select", "table_ident.go:Count"]}
{"id": "C63", "title": "A WHERE clause holds exactly the predicates that were added, in order", "statement": "Reading back the WHERE clause of a statement gives one predicate for every comparison in the arguments of the Where calls, in call order: with the operator, the column and, through its own placeholders, the values of that comparison; nothing is lost, duplicated, reordered or bound to another comparison's values, whatever the nesting.", "quantifier": "every condition tree, every history of calls", "why_tests_cant": "unbounded trees and histories", "anchors": ["group.go:Render", "group.go:addConditions", "lib_equal.go:Render", "lib_in.go:Render", "lib_like.go:Render", "lib_isnull.go:Render", "select_many.go:BuildQueryAndParams", "update.go:BuildQueryAndParams", "delete.go:BuildQueryAndParams"]}
{"id": "C64", "title": "Qualified columns refer to tables of the statement", "statement": "If every field used in the calls is unqualified or qualified by the alias (or else the name) of a table of the statement, as Field on these tables makes it, every qualified column in the statement - columns, ON, WHERE, ORDER BY, SET - names a table that the statement has under that name; an UPDATE or DELETE derived from such a select refers to its own table only.", "quantifier": "every history of calls", "why_tests_cant": "unbounded histories", "anchors": ["table_ident.go:Field", "table_ident.go:RenderFrom", "select_base.go:Update", "select_base.go:Delete", "select_many.go:Delete", "join_tables.go:RenderFrom"]}
{"id": "C65", "title": "ORDER BY and COUNT use the fields they were given", "statement": "The n-th key of ORDER BY stands for the column of the n-th field given to OrderBy, with its direction, where a name that is the alias of a selected column stands for that column as in SQL; Count(base, field) counts the column of the field.", "quantifier": "every builder state, all fields and orderings", "why_tests_cant": "unbounded column lists and orderings, alias clashes", "anchors": ["select_many.go:BuildQueryAndParams", "ordering.go:Render", "field_definition.go:RenderField", "count.go:BuildQueryAndParams"]}
{"id": "C66", "title": "As and Of set the alias and the table of a column", "statement": "At any place in the columns of a select, As gives a field its alias and Of its table, the last call of each counts, nothing else changes; a table under an alias appears with it in FROM and qualifies the fields made from it. As documented, Alias is the field name until As is called and \"x as x\" gives an empty alias.", "quantifier": "every field, table, alias and column list", "why_tests_cant": "all names and positions", "anchors": ["field_definition.go:As", "field_definition.go:Of", "field_definition.go:Alias", "field_definition.go:RenderSpec", "table_ident.go:As", "table_ident.go:Field"]}
{"id": "C67", "title": "Respecified orderings keep direction and place", "statement": "ApplyFieldSpec on the orderings of a select gives the same statement except that keys of fields with the name of the specification become its key; directions, number and order of the keys and the parameters stay.", "quantifier": "every builder state and specification", "why_tests_cant": "unbounded orderings", "anchors": ["ordering.go:ApplyFieldSpec", "select_many.go:applySpecToOrdering", "select_many.go:BuildQueryAndParams"]}
{"id": "C68", "title": "RenderFrom is the FROM clause", "statement": "The text of RenderFrom, put after SELECT * FROM, reads as the tables and joins of the statement that the select, single select, many select or count builds; for INSERT, UPDATE and DELETE it is the table the statement writes to.", "quantifier": "every builder state", "why_tests_cant": "unbounded joins", "anchors": ["select_base.go:RenderFrom", "select_many.go:RenderFrom", "select_single.go:RenderFrom", "count.go:RenderFrom", "insert.go:RenderFrom", "update.go:RenderFrom", "delete.go:RenderFrom"]}
{"id": "C69", "title": "NewFields makes one field per argument", "statement": "NewFields returns one field for each argument, in order: the definition given or the one the text names; it panics exactly if an argument has another type or names no field.", "quantifier": "all argument lists", "why_tests_cant": "unbounded lists of texts", "anchors": ["fields.go:NewFields", "field_definition.go:Field"]}
{"id": "C70", "title": "A formula written with And, Or and Not means what it says", "statement": "A condition written as nested calls of And, Or and Not on predicates means the formula the calls spell out, and so does the WHERE clause built from it. As stated this is false; it is proved for expressions keeping a short list of checkable rules, each rule is shown to be needed, and every formula can be written within the rules.", "quantifier": "all nested And/Or/Not call expressions over any predicates, all rows (three-valued logic), all formulas for expressibility", "why_tests_cant": "unbounded nesting of calls; misreadings appear only for particular shapes and rows", "anchors": ["group.go:addConditions", "group.go:addSingleCondition", "group.go:addGroup", "operations.go:And", "operations.go:Or", "operations.go:Not"]}
{"id": "C71", "title": "COUNT returns the number of rows", "statement": "When a database executes the statements, the COUNT made from a select returns the number of rows the select returns without offset and limit.", "quantifier": "all selects reachable by calls with valid names and conditions (joins, columns, ordering), all databases and all meanings of the predicates", "why_tests_cant": "the tests compare text; equality of results needs an execution for every database", "anchors": ["select_many.go:Count", "count.go:BuildQueryAndParams", "select_many.go:BuildQueryAndParams"]}
{"id": "C72", "title": "Offset and limit cut pages out of the result", "statement": "When a database executes the statements, a select with Offset(o) and Limit(n) returns the rows of the unpaged select without its first o, and of these the first n if n > 0; consecutive pages put together are the whole result; a single select returns the first row of its base.", "quantifier": "all selects reachable by calls with valid names and conditions, all offsets and limits, all databases", "why_tests_cant": "unbounded offsets, limits and tables", "anchors": ["select_many.go:Offset", "select_many.go:Limit", "limiter.go:Limiter", "select_single.go:BuildQueryAndParams"]}
{"id": "C73", "title": "DELETE removes exactly the rows the select returns", "statement": "When a database executes the statements, DELETE with some conditions removes exactly the rows a select with the same conditions returns and nothing else; the same for Delete() called on a select. The second half is false in general (limit, alias and joins are dropped) and proved for selects without them.", "quantifier": "all tables, all lists of valid conditions, all databases", "why_tests_cant": "equality of row sets over all databases", "anchors": ["delete.go:BuildQueryAndParams", "select_base.go:Delete", "select_many.go:Delete"]}
{"id": "C74", "title": "UPDATE sets the columns of exactly the rows the select returns", "statement": "When a database executes the statements, UPDATE sets the given columns to the given values in exactly the rows a select with the same conditions returns; all other rows, columns and tables stay as they are; the same for Update(...) called on a select. The second half is false in general (limit is dropped) and proved for selects that only filter and order one table.", "quantifier": "all tables, all value lists, all lists of valid conditions, all databases", "why_tests_cant": "equality of table contents over all databases", "anchors": ["update.go:BuildQueryAndParams", "select_base.go:Update", "select_many.go:Update"]}
{"id": "C75", "title": "INSERT adds one row", "statement": "When a database executes it, an INSERT adds exactly one row at the table named, with each value in its column and NULL elsewhere; other rows and tables stay as they are.", "quantifier": "all tables, all lists of columns and values, all databases", "why_tests_cant": "unbounded column lists and databases", "anchors": ["insert.go:BuildQueryAndParams", "insert.go:Values"]}
{"id": "C76", "title": "The rows concerned are those for which the formula is true", "statement": "When a database executes the statements, SELECT, DELETE and UPDATE with predicates (any number of Where calls), or with a formula written within the rules of C70, return, remove and change exactly the rows for which all predicates, or the formula, are true (not unknown); every formula can be written so.", "quantifier": "all tables, all lists of predicates, all formulas, all databases and all meanings of the predicates", "why_tests_cant": "needs every formula on every table content, with three-valued logic", "anchors": ["where.go:WhereClause", "group.go:addConditions", "select_base.go:Where", "delete.go:Where", "update.go:Where"]}
{"id": "C77", "title": "Where narrows a select and changes nothing else", "statement": "The select with its Where calls goes over exactly those rows of the same select without them (joins included) for which the predicates, or the formula, are true; columns, tables, joins, ordering and page are the same.", "quantifier": "all histories of calls on base and many selects with valid names, all databases", "why_tests_cant": "unbounded call histories and joined tables", "anchors": ["select_base.go:Where", "select_many.go:Where", "select_many.go:BuildQueryAndParams"]}
{"id": "C78", "title": "An inserted row is found again", "statement": "After an INSERT, a select by equality with some of the inserted values returns the new row in addition to what it returned before, provided the database finds a stored value equal to the value it was stored from.", "quantifier": "all column and value lists, all choices of columns to search by, all databases", "why_tests_cant": "round trip through two statements over all databases", "anchors": ["insert.go:BuildQueryAndParams", "lib_equal.go:EqualTo", "select_base.go:BuildQueryAndParams"]}
{"id": "C79", "title": "The nine predicate types behave as one", "statement": "The nine predicates EqualTo, GreaterThan, GreaterOrEqual, Less, LessOrEqual, Contains, IContains, In and IsNull are nine types with their own copies of the same methods. Join, Negate, ApplyFieldTable and ApplyFieldSpec change exactly the attribute they name; Render and RenderSQL word the test as the operator says, with numbered placeholders or question marks; the constructors give the default join, no negation, the parsed field and the value; each type behaves as the one leaf type the other theorems speak about.", "quantifier": "all nine types, all receivers, all arguments, all parameter positions", "why_tests_cant": "nine copies of the same code, each over all receivers", "anchors": ["lib_equal.go:EqualTo", "lib_gt.go:GreaterThan", "lib_gte.go:GreaterOrEqual", "lib_lt.go:Less", "lib_lte.go:LessOrEqual", "lib_like.go:Contains", "lib_ilike.go:IContains", "lib_in.go:In", "lib_isnull.go:IsNull"]}
{"id": "C80", "title": "A group passed by pointer means the same as the group itself", "statement": "And, Or, Not, Where and the methods of Group give, for arguments that hold *Group pointers, what they give for the groups pointed to: same panics, same text, same values, same meaning.", "quantifier": "all conditions built of values and pointers, all variables, all histories of Where calls", "why_tests_cant": "type switches on Group miss *Group; aliasing shows only after later assignments", "anchors": ["group.go:addConditions", "group.go:addGroup", "operations.go:And", "operations.go:Or", "operations.go:Not"]}
{"id": "C81", "title": "String() tells selects apart and shows no values", "statement": "Two selects with the same String() have the same RenderSQL(); selects that differ only in the values of their conditions have the same String().", "quantifier": "all builder states with well-formed names and conditions", "why_tests_cant": "a text that must be decodable for all names, joins, columns and conditions", "anchors": ["select_base.go:String", "where.go:String", "fields.go:String"]}
{"id": "C82", "title": "Results come in the order asked for", "statement": "The rows a database returns for a select with OrderBy are the rows of the same select without it, rearranged so that each row may precede the later ones: in the first sort column in which they differ it has the smaller value, or the greater one for DESC. The sort columns are those of the fields given to OrderBy, over all OrderBy calls in order.", "quantifier": "all histories of calls, all databases, all strict weak orders on values", "why_tests_cant": "quantifies over call histories, database contents and orders", "anchors": ["select_many.go:OrderBy", "ordering.go:Render", "select_many.go:BuildQueryAndParams"]}
{"id": "C83", "title": "COUNT of a column counts its values", "statement": "Count(select, field) returns the number of rows in which the same select with that field as its only column has a value other than NULL, and fails when that select fails.", "quantifier": "all histories of calls on base selects, all fields, all databases", "why_tests_cant": "relates two statements over all databases and histories", "anchors": ["count.go:BuildQueryAndParams", "count.go:Count", "field_definition.go:RenderField"]}
{"id": "C84", "title": "Exactly when And is the conjunction", "statement": "c.And(d1,...,dk) means the conjunction of c, d1, ..., dk on every row if, and for conditions on different columns only if, a rule about the shapes holds. One argument: (receiver not negated) its members are not all joined by AND or no OR stands outside brackets in it, and d, when merged into the receiver, is not negated, starts with AND and has no OR outside brackets, otherwise any NOT of d covers all of it; (receiver negated) only by De Morgan. Several arguments: the receiver is not negated, and no OR stands outside brackets in the arguments, nor before one if the receiver's members are not all joined by AND.", "quantifier": "every built condition c, all lists of built conditions, every row", "why_tests_cant": "an equivalence over all shapes and rows", "anchors": ["operations.go:And", "group.go:Group.And", "group.go:addConditions", "group.go:addGroup"]}
{"id": "C85", "title": "Exactly when Or is what is documented", "statement": "c.Or(d) means c OR d on every row if, and for conditions on different columns only if, a rule about the shapes holds. With two or more arguments on different columns there is always a row on which c.Or(d1,...,dk) differs from the documented c OR (d1 AND ... AND dk).", "quantifier": "every built condition c, all lists of built conditions, every row", "why_tests_cant": "an equivalence over all shapes and rows", "anchors": ["operations.go:Or", "group.go:Group.Or", "group.go:addConditions", "interfaces.go:149"]}
{"id": "C86", "title": "Exactly when Where narrows", "statement": "The first Where call that brings conditions asks for their conjunction if, and for conditions on different columns only if, it brings one condition or no OR stands outside brackets in them. A later Where call narrows by exactly its conditions if, and for conditions on different columns only if, the rule of C84 holds with the conditions so far as receiver.", "quantifier": "all histories of Where calls, all conditions, every row", "why_tests_cant": "an equivalence over all histories, shapes and rows", "anchors": ["select_base.go:Where", "select_many.go:Where", "update.go:Where", "delete.go:Where", "group.go:addConditions"]}
{"id": "C87", "title": "Connectives outside brackets can be read off the text", "statement": "Reading the rendered text of a condition word by word and counting brackets, the words AND and OR met outside brackets are, in order, the connectives before the condition's second and later operands.", "quantifier": "every built condition without empty groups, every number of parameters before it", "why_tests_cant": "all shapes and texts", "anchors": ["group.go:Render", "group.go:RenderSQL", "lib_equal.go:Render"]}
{"id": "C88", "title": "Slices of the caller and of the package stay apart", "statement": "Whatever a caller does with its own slices after passing them to a call as f(s...) or receiving them from Conditions or FieldDefinitions (writing elements, appending, cutting), every condition and builder renders and builds the same; and no call changes an element of a slice of the caller. A call on s... is the call on the elements of s. A slice given as a value (In) is likewise not changed for the statement by later writes of the caller.", "quantifier": "every history of calls and of the caller's own slice operations, every growth policy of append", "why_tests_cant": "needs every interleaving of calls and writes and every capacity of the slices involved", "anchors": ["group.go:NewGroup", "group.go:addConditions", "logical.go:SetToAll", "fields.go:Fields", "fields.go:FieldDefinitions", "where.go:Conditions", "insert.go:Values", "update.go:Set", "select_many.go:OrderBy", "value.go:Values"]}
{"id": "C89", "title": "Joins relate the rows with equal columns", "statement": "Executed on any database, a select of two tables joined by InnerJoin, LeftJoin, RightJoin or FullJoin with On(a, b) returns exactly: the pairs of a left and a right row whose columns a and b are equal; for LeftJoin and FullJoin also each left row without partner beside NULLs; for RightJoin and FullJoin also each right row without partner beside NULLs. Each pair appears once, in the order of the tables, and the order in which On names the two columns does not matter.", "quantifier": "every pair of tables known under different names, every join type, every database and engine (for the swapped On: engines with symmetric equality)", "why_tests_cant": "needs every content of the two tables, including NULLs and duplicates", "anchors": ["select_base.go:Join", "select_base.go:InnerJoin", "select_base.go:LeftJoin", "select_base.go:RightJoin", "select_base.go:FullJoin", "join_unfinished.go:On", "join_tables.go:Render", "join_condition.go:Render", "join_type.go:String"]}
{"id": "C90", "title": "A chain of inner joins selects from all combinations", "statement": "Executed on any database, a select with any number of InnerJoin(t).On(a, b) calls returns the combinations of one row of each table for which every On pair is equal, in the order of the tables, provided the tables are known under different names and each On names columns of tables joined so far.", "quantifier": "every number of tables and joins, every database and engine", "why_tests_cant": "needs any number of joins and every content of the tables", "anchors": ["select_base.go:InnerJoin", "select_base.go:joinIdent", "join_unfinished.go:On", "select_base.go:RenderFrom"]}
{"id": "C91", "title": "A condition is valid SQL exactly without empty groups, empty lists and aliases", "statement": "The text that Render and RenderSQL give for a condition built from the package's predicates on named columns is a boolean SQL expression if and only if no group in it is empty, no column carries an alias that gets written, and every In has at least one value; the same holds for the text behind WHERE in SELECT, UPDATE and DELETE.", "quantifier": "every condition of any depth and shape, every number of already used parameters, every history of Where calls", "why_tests_cant": "an equivalence over all condition trees: tests can neither try all valid trees nor all invalid ones", "anchors": ["group.go:Render", "group.go:RenderSQL", "lib_in.go:Render", "field_definition.go:RenderSpec"]}
{"id": "C92", "title": "Returned errors are query errors and tell the truth", "statement": "Every error that Validate, FieldOrError, TableOrError, ValuesMap.FieldValues and the builds of INSERT, UPDATE and DELETE return is recognised by errors.Is(err, query.Error), its text starts with \"query: \", and the reason it gives is true of the given name, map or builder; an error is returned exactly if a reason exists.", "quantifier": "every string and definition, every map of names to values in any order, every history of builder calls", "why_tests_cant": "the tests compare the presence of an error on a few names; that the reported reason is true needs all names and all builder states", "anchors": ["base.go:Error", "field_name.go:Validate", "field_definition.go:FieldOrError", "table_ident.go:TableOrError", "values_map.go:FieldValues", "insert.go:BuildQueryAndParams", "update.go:BuildQueryAndParams", "delete.go:BuildQueryAndParams"]}
{"id": "C93", "title": "Panics carry a query error", "statement": "Whatever the package panics with is an error recognised by errors.Is(err, query.Error).", "quantifier": "every argument of Field, Table, the predicates, ASC, DESC, OrderBy, NewFields, and every value given to a predicate or SET", "why_tests_cant": "tests only assert that a call panics, not with what, and for a handful of arguments", "anchors": ["field_definition.go:mustField", "table_ident.go:Table", "ordering.go:ASC", "ordering.go:DESC", "ordering.go:OrderBy", "fields.go:NewFields", "value.go:Values"]}
{"id": "C94", "title": "A nil condition is never lost", "statement": "Combining, negating, joining, grouping and applying fields or tables yields a condition holding nil exactly if an operand holds nil; a statement whose WHERE was given nil at any depth is never produced: its build panics (UPDATE and DELETE: panics or returns an error).", "quantifier": "every condition tree with nil at any depth, every list of operands, every history of builder calls", "why_tests_cant": "no test passes nil; silently dropping a nil filter would widen the rows a statement hits, and that it cannot happen needs all trees and all histories", "anchors": ["group.go:addConditions", "group.go:addGroup", "group.go:Render", "operations.go:And", "operations.go:Or", "select_base.go:Where", "update.go:BuildQueryAndParams", "delete.go:BuildQueryAndParams"]}
{"id": "C95", "title": "The rows an UPDATE changed are found again by its conditions", "statement": "If the conditions of an UPDATE do not use the columns it sets, then after running it the SELECT with the same conditions returns the same rows as before, in the same order, with the new values in these columns, and running the UPDATE again changes nothing.", "quantifier": "every table, every history of Set and Where calls with usable conditions and single values, every database and engine", "why_tests_cant": "the tests run no statements; it needs all conditions, all column values and all databases, and relates the texts of two different builders", "anchors": ["update.go:BuildQueryAndParams", "update.go:Where", "select_base.go:BuildQueryAndParams", "select_base.go:Where"]}
{"id": "C96", "title": "FieldName.Value binds what the value provides", "statement": "The parameter that INSERT and SET bind for FieldName.Value(v) is v.DatabaseValue() if v is a ValueProvider, even if v is also a driver.Valuer, and v itself otherwise.", "quantifier": "every field specification, every value, every table, every list of such values in INSERT and SET", "why_tests_cant": "the tests use plain values only; values implementing both interfaces and providers of providers take different paths", "anchors": ["field_name.go:Value", "value.go:NewFieldValue", "value.go:Values", "insert.go:BuildQueryAndParams", "update.go:BuildQueryAndParams"]}
{"id": "C97", "title": "GroupAND and GroupOR of a WhereClause", "statement": "A WhereClause used directly means, after any sequence of GroupAND and GroupOR calls, what the comments promise: the conditions of each call are joined by AND and what was there before is joined to them by AND or OR; in both placeholder styles, with the values in place.", "quantifier": "every sequence of calls on NewWhere() or the zero value, all conditions the library builds, all rows", "why_tests_cant": "the tests check one call; how brackets and connectives of earlier calls interact needs all sequences", "anchors": ["where.go:GroupAND", "where.go:GroupOR", "where.go:Render", "where.go:RenderSQL", "where.go:Values", "group.go:addConditions"]}
{"id": "C98", "title": "RenderJoin is what stands before a condition", "statement": "RenderJoin(first) returns the connective and, if the condition is negated, NOT, with a space at either end; nothing for a first condition that is not negated.", "quantifier": "every condition after every sequence of Join and Negate calls", "why_tests_cant": "the tests never negate a condition before RenderJoin", "anchors": ["base.go:RenderJoin", "base.go:Join", "base.go:Negate"]}
{"id": "C99", "title": "Conditions of user-written types", "statement": "A condition type written by a user that keeps the documented contract of Condition is treated like the library's own: And, Or, Not, Join, NewGroup, ApplyField* and Where build the same trees, texts, parameters and statements with it. Whatever its methods do, each condition is rendered once, in order, told how many parameters stand before it, with only connectives, NOT and brackets in between; if its Render numbers its Values, every composed condition and statement does.", "quantifier": "every type implementing Condition, with arbitrary methods (panics and results of other types included), every tree and every sequence of Where calls", "why_tests_cant": "the tests use only the types of the library", "anchors": ["interfaces.go:Condition", "group.go:addGroup", "group.go:addSingleCondition", "group.go:addConditions", "group.go:Render", "group.go:RenderSQL", "group.go:Values", "logical.go:Join", "operations.go:And", "operations.go:Or", "operations.go:Not"]}
{"id": "C100", "title": "The model of names, values, conditions and groups is what the source text does", "statement": "Read the text of the package's Go files with a parser for the part of Go it is written in, and run it: every call of a function or method of field_name.go, field_definition.go, value.go, table_name.go, table_ident.go, keywords.go, the sorting, join, page and list types, the condition types, constructors and methods, And, Or, Not, Join, Negate, NewGroup, the methods of groups and WhereClause and NewWhere ends, and gives exactly the value, the panic or the error the model's function gives.", "quantifier": "every argument (names, values, lists, condition trees of any depth, conditions of arbitrary user-written types) and every call depth that suffices", "why_tests_cant": "tests compare some outputs of the code; that a model and the code agree on all inputs needs a proof over the code's text", "anchors": ["field_definition.go:RenderSpec", "field_definition.go:FieldOrError", "table_name.go:RenderFrom", "group.go:addGroup", "group.go:addSingleCondition", "group.go:addConditions", "group.go:Render", "group.go:RenderSQL", "group.go:Values", "operations.go:And", "operations.go:Or", "operations.go:Not", "base.go:RenderJoin", "where.go:NewWhere"]}
{"id": "C101", "title": "The model of the query builders is what the source text does", "statement": "Read the text of the package's Go files with a parser for the part of Go it is written in, and run it: every call of a function or method of select_base.go, select_many.go, select_single.go, count.go, insert.go, update.go, delete.go, build_base.go, join_tables.go, join_unfinished.go, and the shortcuts of TableName, TableIdent and TableJoinType ends, and gives exactly the builder, the text, the parameters, the error or the panic the model's function gives; methods that a builder gets by embedding another are the ones the model uses.", "quantifier": "every argument: any builder value (any names, fields, joins, orders, values, conditions, conditions of arbitrary user-written types) and every call depth that suffices", "why_tests_cant": "tests compare some statements; that a model and the builders' code agree on all builder states needs a proof over the code's text", "anchors": ["select_base.go:BuildQueryAndParams", "select_many.go:BuildQueryAndParams", "select_single.go:BuildQueryAndParams", "count.go:BuildQueryAndParams", "insert.go:BuildQueryAndParams", "update.go:BuildQueryAndParams", "delete.go:BuildQueryAndParams", "select_base.go:Where", "join_unfinished.go:On"]}
{"id": "C102", "title": "Whole programs: chains of calls and condition expressions run as the model says", "statement": "Read and run the package's Go text: a program that makes a builder (SelectFrom, SelectManyFrom, SelectSingleFrom, InsertInto, Update, Delete), calls its methods in any number and order, possibly turns it into another builder (Many, Single, Count, InsertInto, Update, Delete), and asks for the statement ends with exactly the text, parameters, error or panic that the model's functions give for the same calls; and a condition written as an expression of constructors, nil, Not, And, Or, Join, Negate, NewGroup, called as functions or methods and nested in any way, evaluates to the model's condition or panics where the model does.", "quantifier": "all histories of calls of any length, all nested expressions, all arguments", "why_tests_cant": "the number of call sequences and nestings is unbounded; tests fix some", "anchors": ["select_base.go:Where", "select_many.go:BuildQueryAndParams", "select_single.go:BuildQueryAndParams", "join_unfinished.go:On", "operations.go:And", "operations.go:Or", "group.go:NewGroup", "update.go:BuildQueryAndParams", "delete.go:BuildQueryAndParams", "insert.go:BuildQueryAndParams"]}
{"id": "C103", "title": "What the source returns means what was asked", "statement": "Running the package's Go text for SelectFrom(p) with any Fields, Where and Join...On calls, then Many() or Single() with further calls, for InsertInto, Update and Delete with any of their calls, and asking for the statement: with well-formed names and usable conditions it does not panic and returns no error, and the text parses as SQL to exactly the columns, tables, joins, condition, orderings, page, assignments asked for, with the parameters in the places of their placeholders; Update and Delete without any condition return an error and no text, and if they return a text without error then a condition, a table and (Update) an assignment were given.", "quantifier": "all histories of calls of any length, all table, field and value arguments within the stated well-formedness", "why_tests_cant": "it joins the code's text to the meaning of the SQL it makes, for unboundedly many programs", "anchors": ["select_base.go:BuildQueryAndParams", "select_many.go:BuildQueryAndParams", "select_single.go:BuildQueryAndParams", "insert.go:BuildQueryAndParams", "update.go:BuildQueryAndParams", "delete.go:BuildQueryAndParams"]}
{"id": "C104", "title": "A condition written in Go concerns exactly the rows for which it is true", "statement": "Take a condition written as an expression of the package's constructors, Not, And and Or (as functions or methods) within the rules of C70. Evaluating it with the package's Go text does not panic, and the statements that the Go text builds for SelectFrom(p).Where(x), Delete(p).Where(x) and Update(p).Set(...).Where(x) return, remove and change, in any database, exactly the rows of the table for which the expression as written is true, and no other table. In any select, with joins, columns, ordering and page, Where(x) keeps exactly the rows for which it is true. InsertInto adds one row with the given values in the named columns, and selecting by equality with inserted values finds it. The DELETE or UPDATE that Many().Delete() or Many().Update() makes concerns every row that the select returns without its page, which are the rows the select returns exactly if the page shows all of them.", "quantifier": "all expressions within the rules, all tables, databases and engines, all histories of calls", "why_tests_cant": "it goes from the text of the code to rows of arbitrary databases, for unboundedly many expressions", "anchors": ["operations.go", "logical.go", "group.go:And", "group.go:Or", "select_base.go:BuildQueryAndParams", "delete.go:BuildQueryAndParams", "update.go:BuildQueryAndParams", "insert.go:BuildQueryAndParams", "select_many.go:Delete", "select_many.go:Update"]}
{"id": "C105", "title": "Shorthands, inherited methods and joins of the surface do what the underlying functions do", "statement": "Run from their Go text: the accessors of names, field lists, conditions and WHERE clauses; the methods SelectManyBuilder and SelectSingleBuilder have only by embedding BaseSelectBuilder (String, Render, RenderSQL, Values, Single, Many, InsertInto, and for SelectSingleBuilder also Offset, Limit, OrderBy, Count, Delete), which see the embedded base only; and every way of joining a table (InnerJoin, LeftJoin, RightJoin, FullJoin of every builder, of TableName and TableIdent, TableJoinType.Tables, JoinCondition.*Join) completed by On, return what the model's function of the same method returns, and panic exactly when it panics.", "quantifier": "all receivers, arguments, conditions, tables and fields", "why_tests_cant": "which method an embedding type has, and with which receiver it runs, is a fact about the text for unboundedly many builder states", "anchors": ["field_name.go:Field", "table_name.go:Ident", "fields.go:Len", "base.go:IsNegate", "where.go:ApplyFieldSpec", "select_base.go:InnerJoin", "select_many.go:InnerJoin", "select_single.go:InnerJoin", "join_unfinished.go:On", "join_type.go:Tables", "join_condition.go:InnerJoin"]}
{"id": "C106", "title": "The programs that go wrong go wrong in the text itself", "statement": "Run from the package's Go text: eight kinds of expressions (mixed And/Or written without groups, Not of a group and their like) build a DELETE that removes rows for which the expression is false or keeps rows for which it is true; equality with a string slice takes more parameters than placeholders; In with an empty slice, a name with an alias and an empty group build texts that are no SQL; IsNull(a).Or(...) panics; a name that Validate accepts panics in EqualTo; a name that Validate accepts turns x=1 AND (...) into a condition true where x=1 is false; SelectSingleBuilder.Fields loses table and condition; InsertInto with a slice value misplaces placeholders; Delete made from a select with an alias speaks of a table the statement does not have; Many() of SelectManyBuilder drops ordering and page.", "quantifier": "one witness per claim, for every environment of the interpreter and every sufficient amount of steps", "why_tests_cant": "a test shows it for a compiled program; here the same text whose other properties are proved is shown to break these claims, so no difference between model and code can be the cause", "anchors": ["group.go:And", "group.go:Or", "logical.go", "operations.go", "base.go", "field_name.go:Validate", "select_single.go:Fields", "insert.go:Values", "select_base.go:Delete", "select_many.go"]}
{"id": "C107", "title": "Pages, counts, order and joins of the source text", "statement": "Run from the package's Go text, with any Fields, Where and Join...On calls before: Offset(o).Limit(n) returns the slice of that size at that place of what the select returns without page; Single() returns its first row or none; Count() returns the number of rows it returns without page; the rows come in the order of the OrderBy calls; InnerJoin, LeftJoin, RightJoin and FullJoin with On return exactly the pairs of rows with equal columns and the unmatched rows of the named side; any number of inner joins returns the combinations for which every On holds.", "quantifier": "all histories of calls, tables, fields, databases and engines within the stated well-formedness", "why_tests_cant": "it goes from the text of the code to the rows of arbitrary databases for unboundedly many programs", "anchors": ["select_many.go:Offset", "select_many.go:Limit", "select_many.go:OrderBy", "select_many.go:Count", "select_base.go:Single", "select_base.go:InnerJoin", "select_base.go:Join", "join_unfinished.go:On", "limiter.go"]}
{"id": "C108", "title": "What builders share, in the source text", "statement": "Run from the package's Go text with shared arrays: And, OrderBy, Values, Set and Join...On on one original that has room for one more element make the earlier of two derived builders say what the later one was given, for every store, original and arguments; without room the result has an array of its own; a second On on one incomplete join rewrites the builder that the first one returned; SetValues returns the builder's own slice; ApplyFieldTable and ApplyFieldSpec change the group they are called on; a group can come to contain itself, so that rendering it does not end.", "quantifier": "all stores, builders, arguments, growth policies and call depths for the methods; the stated Go programs, for all call depths, for the witnesses", "why_tests_cant": "whether two builders share an array depends on the whole history of appends and on the growth policy of the runtime", "anchors": ["select_many.go:106-109", "insert.go:22-31", "update.go:23-32", "join_unfinished.go:12-48", "select_base.go:188-192", "select_many.go:135-139", "group.go:309-325", "group.go:125-151"]}
