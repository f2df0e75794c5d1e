{
 "claims": [
  {
   "property": "C01",
   "status": "proved",
   "theorems": [
    "C01_placeholders",
    "C01_select",
    "C01_where_states",
    "C01_write"
   ],
   "note": "Conditions from any starting number (C01_placeholders), select statements (C01_select, C01_where_states), write statements with single-valued fields (C01_write)."
  },
  {
   "property": "C02",
   "status": "partial",
   "theorems": [
    "C02_refuted",
    "C02_leaf_partial",
    "C02_exactly"
   ],
   "note": "False in general: a comparison leaf given a multi-valued argument (C02_refuted). Proved for leaves whose argument carries one value, and for IN/IS NULL leaves. C02_exactly: for whole conditions it holds exactly if every comparison has one value."
  },
  {
   "property": "C03",
   "status": "proved",
   "theorems": [
    "C03_same_clause",
    "C03_question_marks"
   ],
   "note": ""
  },
  {
   "property": "C04",
   "status": "proved",
   "theorems": [
    "C04_conditions",
    "C04_select",
    "C04_write"
   ],
   "note": "Conditions (C04_conditions), select-many/base/single/count builders (C04_select), insert/update/delete (C04_write)."
  },
  {
   "property": "C05",
   "status": "proved",
   "theorems": [
    "C05_values_in_order"
   ],
   "note": ""
  },
  {
   "property": "C06",
   "status": "proved",
   "theorems": [
    "C06_select_many"
   ],
   "note": "Every history of calls from SelectFrom with well-formed names and usable conditions."
  },
  {
   "property": "C07",
   "status": "proved",
   "theorems": [
    "C07_select_single",
    "C07_any_state"
   ],
   "note": "C07_any_state for every state with well-formed names, C07_select_single for histories. Fields on the single builder loses the table (C31), so no state after it is well formed."
  },
  {
   "property": "C08",
   "status": "proved",
   "theorems": [
    "C08_count"
   ],
   "note": "A field with an alias is counted by its alias; see C65."
  },
  {
   "property": "C09",
   "status": "proved",
   "theorems": [
    "C09_insert"
   ],
   "note": ""
  },
  {
   "property": "C10",
   "status": "proved",
   "theorems": [
    "C10_update"
   ],
   "note": ""
  },
  {
   "property": "C11",
   "status": "proved",
   "theorems": [
    "C11_delete"
   ],
   "note": ""
  },
  {
   "property": "C12",
   "status": "proved",
   "theorems": [
    "C12_update",
    "C12_delete",
    "C12_refusal_returns",
    "C12_converted"
   ],
   "note": "Direct builders and builders converted from base and many selects; any further calls without conditions."
  },
  {
   "property": "C13",
   "status": "partial",
   "theorems": [
    "C13_refuted",
    "C13_in_refuted",
    "C13_update_partial",
    "C13_delete_partial"
   ],
   "note": "False: an empty group, or In with an empty list, gives an empty or invalid expression (C13_refuted, C13_in_refuted). Proved for usable conditions, any table and values. C91 states exactly when the WHERE is valid."
  },
  {
   "property": "C14",
   "status": "proved",
   "theorems": [
    "C14_insert",
    "C14_update",
    "C14_delete",
    "C14_returns"
   ],
   "note": "Also for delete; C14_returns shows the builders do return."
  },
  {
   "property": "C15",
   "status": "partial",
   "theorems": [
    "C15_insert_refuted",
    "C15_update_refuted",
    "C15_insert_partial",
    "C15_update_partial"
   ],
   "note": "False for multi-valued fields (C15_insert_refuted, C15_update_refuted). The partial theorems show exactly when they are right: every value expands to one parameter."
  },
  {
   "property": "C16",
   "status": "proved",
   "theorems": [
    "C16_valid_sql"
   ],
   "note": ""
  },
  {
   "property": "C17",
   "status": "partial",
   "theorems": [
    "C17_refuted",
    "C17_group_refuted",
    "C17_not_partial",
    "C17_every_condition"
   ],
   "note": "False in general (C17_refuted, C17_group_refuted). Proved for unnegated leaves of the library and unnegated groups except those holding one unbracketed group. C17_every_condition says what Not does for every condition: a negated one is returned as is, one written as a single operand is negated, otherwise NOT covers the first operand only."
  },
  {
   "property": "C18",
   "status": "partial",
   "theorems": [
    "C18_refuted",
    "C18_negation_refuted",
    "C18_and_partial"
   ],
   "note": "False in general (C18_refuted, C18_negation_refuted). Proved for receivers/arguments described by and_receiver and and_arguments; C84 gives the exact condition."
  },
  {
   "property": "C19",
   "status": "partial",
   "theorems": [
    "C19_refuted",
    "C19_single_refuted",
    "C19_or_partial",
    "C19_many_arguments"
   ],
   "note": "False in general (C19_refuted, C19_single_refuted). Proved for one argument; with several arguments C19_many_arguments gives the actual meaning. C85 gives the exact condition for one argument and shows that it never holds with several."
  },
  {
   "property": "C20",
   "status": "proved",
   "theorems": [
    "C20_select",
    "C20_update",
    "C20_delete"
   ],
   "note": ""
  },
  {
   "property": "C21",
   "status": "partial",
   "theorems": [
    "C21_refuted",
    "C21_narrow_partial"
   ],
   "note": "False for conditions whose own join is OR (C21_refuted). Proved for conditions carrying the default AND join and select states; C86 gives the exact condition."
  },
  {
   "property": "C22",
   "status": "partial",
   "theorems": [
    "C22_refuted",
    "C22_no_panic_partial",
    "C22_isnull_or_panics",
    "C22_exactly"
   ],
   "note": "False only for the Or method of IsNull conditions, which always panics; exact conditions, also with nil operands, in C22_exactly."
  },
  {
   "property": "C23",
   "status": "proved",
   "theorems": [
    "C23_validate"
   ],
   "note": ""
  },
  {
   "property": "C24",
   "status": "proved",
   "theorems": [
    "C24_read",
    "C24_round_trip"
   ],
   "note": ""
  },
  {
   "property": "C25",
   "status": "partial",
   "theorems": [
    "C25_refuted",
    "C25_empty_name_refuted",
    "C25_exact_partial",
    "C25_accepted"
   ],
   "note": "False for first tokens with several dots or a dot at an end (C25_refuted, C25_empty_name_refuted). Exact for all other strings; C25_accepted describes everything that is accepted."
  },
  {
   "property": "C26",
   "status": "partial",
   "theorems": [
    "C26_refuted",
    "C26_no_panic_partial",
    "C26_exactly"
   ],
   "note": "False for names containing white space other than a blank (C26_refuted). Proved for names without white space, and C26_exactly shows that hypothesis is the weakest."
  },
  {
   "property": "C27",
   "status": "partial",
   "theorems": [
    "C27_exactly",
    "C27_refuted",
    "C27_exact_partial",
    "C27_round_trip",
    "C27_same_alias_dropped"
   ],
   "note": "False for 'name name' (C27_refuted); exact for every other string; round trip and alias dropping proved for all. C27_exactly: accepted exactly if it is not a name twice and has some table form."
  },
  {
   "property": "C28",
   "status": "partial",
   "theorems": [
    "C28_exactly",
    "C28_refuted",
    "C28_aliased_never_valid",
    "C28_unaliased_partial"
   ],
   "note": "False: no condition on an aliased field is valid SQL. Proved for fields without alias. C28_exactly: a predicate is valid exactly if no alias is written (and a list is not empty)."
  },
  {
   "property": "C29",
   "status": "proved",
   "theorems": [
    "C29_uniq"
   ],
   "note": ""
  },
  {
   "property": "C30",
   "status": "proved",
   "theorems": [
    "C30_limiter",
    "C30_many"
   ],
   "note": "Limiter for all inputs; the builder with call histories, last call wins."
  },
  {
   "property": "C31",
   "status": "partial",
   "theorems": [
    "C31_refuted",
    "C31_always_lost",
    "C31_others_partial"
   ],
   "note": "False: Fields on a single-row select always loses table, joins and WHERE (C31_refuted, C31_always_lost). Proved for the other select builders."
  },
  {
   "property": "C32",
   "status": "partial",
   "theorems": [
    "C32_many_refuted",
    "C32_single_always_missing_limit",
    "C32_base_partial",
    "C32_many_exactly"
   ],
   "note": "False for select-many with offset or limit and always for select-single (C32_many_refuted, C32_single_always_missing_limit). Proved for the base builder. C32_many_exactly: select-many agrees exactly without sorting, offset and limit."
  },
  {
   "property": "C33",
   "status": "proved",
   "theorems": [
    "C33_conditions",
    "C33_meaning"
   ],
   "note": "C33_conditions for every history; C33_meaning for the statements on every row. Refusal without conditions is C12_converted."
  },
  {
   "property": "C34",
   "status": "partial",
   "theorems": [
    "C34_refuted",
    "C34_in_partial",
    "C34_exactly"
   ],
   "note": "False for plain slices such as []int. Proved for every supported slice type. C34_exactly: the elements are bound exactly if the list is not a plain slice."
  },
  {
   "property": "C35",
   "status": "partial",
   "theorems": [
    "C35_exactly",
    "C35_refuted",
    "C35_list_refuted",
    "C35_reported_partial",
    "C35_builders_partial"
   ],
   "note": "False for single Valuers and []driver.Valuer (C35_refuted, C35_list_refuted); proved for slices of types implementing driver.Valuer, up to every builder (C35_builders_partial). C35_exactly: exactly which failing values are reported."
  },
  {
   "property": "C36",
   "status": "partial",
   "theorems": [
    "C36_exactly",
    "C36_refuted",
    "C36_values_partial",
    "C36_error_partial"
   ],
   "note": "False for keys with white space other than a blank, which panic (C36_refuted). Proved for every map without white space in the keys and every iteration order. C36_exactly: one field per key, written like it, exactly if every key obeys the rules and has no white space."
  },
  {
   "property": "C37",
   "status": "proved",
   "theorems": [
    "C37_receiver_kept",
    "C37_all_calls"
   ],
   "note": "Every call keeps what its receiver says, in every state reached by any history under any growth policy, also after values were overwritten; a receiver that cannot be rendered (panics, or cyclic) is excluded because it says nothing."
  },
  {
   "property": "C38",
   "status": "partial",
   "theorems": [
    "C38_refuted",
    "C38_builders_refuted",
    "C38_and_collides",
    "C38_append_collides",
    "C38_full_receiver_partial",
    "C38_constructor_partial"
   ],
   "note": "False as stated: refuted by concrete histories for And, OrderBy, Values, Set and Join, and shown to fail for every AND group or values/order slice with spare capacity. Proved: a receiver without spare capacity (in particular one straight from a constructor) can be extended any number of times without changing any other value. Missing: receivers with spare capacity, where it is false."
  },
  {
   "property": "C39",
   "status": "proved",
   "theorems": [
    "C39_fresh_is_functional",
    "C39_linear_is_fresh",
    "C39_linear_is_functional",
    "C39_linear_keeps"
   ],
   "note": "Every history in which no append starts below the used part of an array agrees with the functional reading; every history that extends each value at most once is such a history, and each value keeps what it said when created."
  },
  {
   "property": "C40",
   "status": "partial",
   "theorems": [
    "C40_refuted",
    "C40_group_overwritten",
    "C40_group_overwritten_spec",
    "C40_leaf_partial",
    "C40_unmatched_partial"
   ],
   "note": "False for groups: the call writes into the shared slice, so the original group is the changed one (refuted and shown for every group that denotes a finite condition). Proved: leaves are copied, groups without a leaf of the given field are unchanged. Missing: groups with a matching leaf, where it is false."
  },
  {
   "property": "C41",
   "status": "partial",
   "theorems": [
    "C41_refuted",
    "C41_fresh_partial",
    "C41_linear_partial"
   ],
   "note": "False: a short history (two calls after building the base) makes a group that contains itself, whose rendering never returns. Proved: rendering returns in every state where nothing was overwritten, so for all histories that extend each value at most once. Missing: histories with overwriting, where it is false."
  },
  {
   "property": "C42",
   "status": "partial",
   "theorems": [
    "C42_conditions_copied_partial",
    "C42_field_definitions_copied_partial",
    "C42_set_values_refuted",
    "C42_set_values_shared"
   ],
   "note": "Conditions and FieldDefinitions proved to be copies for arbitrary writes in every reachable state. False for SetValues of insert and update builders (refuted, and the effect characterised for every builder)."
  },
  {
   "property": "C43",
   "status": "partial",
   "theorems": [
    "C43_refuted",
    "C43_second_wins",
    "C43_separate_partial"
   ],
   "note": "False: both On calls return the same builder and the second join wins (refuted and shown for every incomplete join). Proved: separate Join...On calls on a receiver without spare capacity are independent. Missing: one incomplete join finished twice, where it is false."
  },
  {
   "property": "C44",
   "status": "proved",
   "theorems": [
    "C44_apply_table",
    "C44_apply_spec",
    "C44_values_unchanged"
   ],
   "note": ""
  },
  {
   "property": "C45",
   "status": "proved",
   "theorems": [
    "C45_select",
    "C45_write"
   ],
   "note": ""
  },
  {
   "property": "C46",
   "status": "proved",
   "theorems": [
    "C46_joins",
    "C46_statement"
   ],
   "note": ""
  },
  {
   "property": "C47",
   "status": "proved",
   "theorems": [
    "C47_field_name",
    "C47_comparison",
    "C47_search",
    "C47_in",
    "C47_is_null"
   ],
   "note": "All constructors and the FieldName shorthands."
  },
  {
   "property": "C48",
   "status": "partial",
   "theorems": [
    "C48_alias_refuted",
    "C48_panic_refuted",
    "C48_value_partial",
    "C48_exactly"
   ],
   "note": "False: an alias is dropped, and a definition with an empty name (accepted by Field, e.g. \"t.\") panics (both refuted). Proved: name and table are kept for every definition with a non-empty name. Missing: the alias, where it is false. C48_exactly states both directions."
  },
  {
   "property": "C49",
   "status": "partial",
   "theorems": [
    "C49_exactly",
    "C49_refuted",
    "C49_round_trip_partial"
   ],
   "note": "False for a definition with an empty name (refuted). Proved for all others. C49_exactly: valid exactly with a table, a name and no quotes."
  },
  {
   "property": "C50",
   "status": "partial",
   "theorems": [
    "C50_alias_refuted",
    "C50_panic_refuted",
    "C50_by_partial",
    "C50_name_partial",
    "C50_exactly"
   ],
   "note": "False when the right field comes from an aliased table (the alias is joined as if it were a table) and panics for an unqualified right field (both refuted). Proved for unaliased tables and table names, with an exact characterisation of what is joined for every field."
  },
  {
   "property": "C51",
   "status": "proved",
   "theorems": [
    "C51_field_joins",
    "C51_ident_joins",
    "C51_name_joins"
   ],
   "note": "All entry points."
  },
  {
   "property": "C52",
   "status": "partial",
   "theorems": [
    "C52_exactly",
    "C52_refuted",
    "C52_from_many_partial",
    "C52_from_single_partial"
   ],
   "note": "False: the promoted Many/Single of SelectMany drop ordering and pagination (refuted). Proved: everything else is kept, from SelectMany and from SelectSingle. C52_exactly: Many() keeps the statement exactly if there is no ordering and no pagination."
  },
  {
   "property": "C53",
   "status": "proved",
   "theorems": [
    "C53_modifiers"
   ],
   "note": "All conditions and sequences; values for the library's own conditions (a user-written one may look at the flag)."
  },
  {
   "property": "C54",
   "status": "partial",
   "theorems": [
    "C54_single_exactly",
    "C54_refuted",
    "C54_select_partial",
    "C54_write_partial"
   ],
   "note": "False for SelectSingle.Fields, which forgets the table (refuted). Proved for all other builders and for SelectSingle histories without Fields. C54_single_exactly gives the accessors of SelectSingle after any calls."
  },
  {
   "property": "C55",
   "status": "partial",
   "theorems": [
    "C55_single_exactly",
    "C55_exchange_exactly",
    "C55_single_refuted",
    "C55_partial"
   ],
   "note": "False for SelectSingle with Fields (refuted). Proved for all other builders, from any state, panics included. C55_single_exactly: a Fields call makes everything before it irrelevant; C55_exchange_exactly says exactly which calls can be exchanged with it."
  },
  {
   "property": "C56",
   "status": "proved",
   "theorems": [
    "C56_limiter"
   ],
   "note": "All builders, offsets and limits."
  },
  {
   "property": "C57",
   "status": "partial",
   "theorems": [
    "C57_refuted",
    "C57_condition_partial",
    "C57_order_partial"
   ],
   "note": "False: brackets and operators are accepted by Validate (refuted with an injection). Proved exactly: true iff the name is a (qualified) unreserved identifier."
  },
  {
   "property": "C58",
   "status": "partial",
   "theorems": [
    "C58_refuted",
    "C58_contains_partial",
    "C58_icontains_partial"
   ],
   "note": "False: wildcards are not escaped (refuted). Proved exactly, for Contains and IContains: true iff the text has no percent sign, underscore or backslash."
  },
  {
   "property": "C59",
   "status": "partial",
   "theorems": [
    "C59_fields_exactly",
    "C59_fields_refuted",
    "C59_noop_partial"
   ],
   "note": "False for Fields(), which resets the columns (refuted). Proved for all other calls of all builders, conditions not nil, panics included. C59_fields_exactly: Fields() changes nothing exactly if no field is set."
  },
  {
   "property": "C60",
   "status": "proved",
   "theorems": [
    "C60_clause_spec"
   ],
   "note": "Values unchanged for the library's own conditions (a user-written one may look at its field)."
  },
  {
   "property": "C61",
   "status": "partial",
   "theorems": [
    "C61_values",
    "C61_refuted",
    "C61_select_partial",
    "C61_many_partial",
    "C61_single_partial",
    "C61_count_partial",
    "C61_update_partial",
    "C61_delete_partial",
    "C61_panic_exactly",
    "C61_build_exactly"
   ],
   "note": "False when the number of values varies: placeholders and parameters disagree, or IN panics (refuted). Proved for all builders when only the values vary, with the exact number of times every leaf is asked. C61_panic_exactly and C61_build_exactly: some answers make rendering, a SELECT, COUNT or DELETE panic exactly if it contains IN."
  },
  {
   "property": "C62",
   "status": "proved",
   "theorems": [
    "C62_select",
    "C62_insert",
    "C62_update",
    "C62_delete"
   ],
   "note": "Well-formed names and usable conditions; insert and update with single-valued values."
  },
  {
   "property": "C63",
   "status": "proved",
   "theorems": [
    "C63_condition",
    "C63_select_many",
    "C63_select_single",
    "C63_update",
    "C63_delete"
   ],
   "note": "Comparisons, LIKE, IN and IS NULL with well-formed columns and values; user-written conditions have no fixed reading. The COUNT statement has the WHERE of the select (C08). Polarity and nesting are the subject of C16 and C20."
  },
  {
   "property": "C64",
   "status": "partial",
   "theorems": [
    "C64_select_many",
    "C64_select_single",
    "C64_table_fields",
    "C64_update",
    "C64_delete",
    "C64_derived_refuted",
    "C64_derived_partial",
    "C64_derived_exactly"
   ],
   "note": "False for UPDATE/DELETE derived from a select on an aliased table: the alias is dropped, the columns keep it (refuted). Proved for selects, direct UPDATE/DELETE, and derived ones whose conditions only use the table name. C64_derived_exactly: in scope exactly if every WHERE column is unqualified or qualified by the name of the table."
  },
  {
   "property": "C65",
   "status": "partial",
   "theorems": [
    "C65_order_exactly",
    "C65_count_exactly",
    "C65_alias_refuted",
    "C65_shadow_refuted",
    "C65_order_partial",
    "C65_count_refuted",
    "C65_count_partial"
   ],
   "note": "False for a field with an alias that is not selected (C65_alias_refuted), for a field named like the alias of another selected column (C65_shadow_refuted) and for COUNT of a field with an alias (C65_count_refuted). Proved for all others. C65_order_exactly and C65_count_exactly give the exact conditions."
  },
  {
   "property": "C66",
   "status": "partial",
   "theorems": [
    "C66_alias_refuted",
    "C66_same_alias_refuted",
    "C66_fields",
    "C66_tables"
   ],
   "note": "The effect of As and Of on statements is proved (C66_fields, C66_tables). The two documented facts about Alias and \"x as x\" are false (C66_alias_refuted, C66_same_alias_refuted)."
  },
  {
   "property": "C67",
   "status": "proved",
   "theorems": [
    "C67_spec",
    "C67_unexported",
    "C67_table"
   ],
   "note": ""
  },
  {
   "property": "C68",
   "status": "proved",
   "theorems": [
    "C68_select",
    "C68_write"
   ],
   "note": ""
  },
  {
   "property": "C69",
   "status": "proved",
   "theorems": [
    "C69_new_fields"
   ],
   "note": ""
  },
  {
   "property": "C70",
   "status": "partial",
   "theorems": [
    "C70_refuted",
    "C70_panics_refuted",
    "C70_chain_partial",
    "C70_expressible",
    "C70_statement_partial"
   ],
   "note": "The unrestricted statement is false: C70_refuted gives one misread expression per rule. Proved for all expressions that keep the rules (kind e <> None), alone and in SELECT/UPDATE/DELETE; C70_expressible: every formula can be written within the rules."
  },
  {
   "property": "C71",
   "status": "proved",
   "theorems": [
    "C71_count_rows",
    "C71_single"
   ],
   "note": "In the execution semantics of DbSpec.v."
  },
  {
   "property": "C72",
   "status": "proved",
   "theorems": [
    "C72_page",
    "C72_pages",
    "C72_single"
   ],
   "note": "In DbSpec.v, where ORDER BY is a stable sort; a database free to order ties differently per statement needs an ordering without ties."
  },
  {
   "property": "C73",
   "status": "partial",
   "theorems": [
    "C73_delete",
    "C73_derived_refuted",
    "C73_derived_partial",
    "C73_paged_exactly"
   ],
   "note": "The direct form is proved (C73_delete). Delete() on a select drops limit, alias and joins (C73_derived_refuted); proved for selects of all columns of one unaliased table with Where and OrderBy only (C73_derived_partial). C73_paged_exactly: with Offset and Limit it acts on the rows without the page, which are the rows shown exactly if the page shows all."
  },
  {
   "property": "C74",
   "status": "partial",
   "theorems": [
    "C74_update",
    "C74_derived_refuted",
    "C74_derived_partial",
    "C74_paged_exactly"
   ],
   "note": "The direct form is proved (C74_update). Update() on a select drops the limit (C74_derived_refuted); proved for selects with Where and OrderBy only (C74_derived_partial). C74_paged_exactly: as C73_paged_exactly."
  },
  {
   "property": "C75",
   "status": "proved",
   "theorems": [
    "C75_insert"
   ],
   "note": ""
  },
  {
   "property": "C76",
   "status": "proved",
   "theorems": [
    "C76_predicates",
    "C76_formula",
    "C76_every_formula"
   ],
   "note": "In DbSpec.v, for the columns of one table without alias (C77 has joins and aliases)."
  },
  {
   "property": "C77",
   "status": "proved",
   "theorems": [
    "C77_predicates",
    "C77_formula"
   ],
   "note": ""
  },
  {
   "property": "C78",
   "status": "proved",
   "theorems": [
    "C78_read_back"
   ],
   "note": ""
  },
  {
   "property": "C79",
   "status": "proved",
   "theorems": [
    "C79_copies",
    "C79_text",
    "C79_model",
    "C79_constructors",
    "C79_constructors_model"
   ],
   "note": "Lib.v transcribes the nine types method by method; C79_model shows that the one leaf type of Cond.v, used by all other theorems, is a faithful copy of each of them."
  },
  {
   "property": "C80",
   "status": "partial",
   "theorems": [
    "C80_and_refuted",
    "C80_by_pointer_partial",
    "C80_and_exactly",
    "C80_text",
    "C80_where",
    "C80_later_refuted",
    "C80_cycle_refuted",
    "C80_copied"
   ],
   "note": "False for the first argument of And/Or (C80_and_refuted: the group loses its grouping), for assignments to the variable after Where (C80_later_refuted) and for a group that points to itself (C80_cycle_refuted: rendering never ends). Proved for all the rest (C80_by_pointer_partial, C80_text, C80_where, C80_copied), and C80_and_exactly says what And does to a pointer."
  },
  {
   "property": "C81",
   "status": "partial",
   "theorems": [
    "C81_base_exactly",
    "C81_shown",
    "C81_many_refuted",
    "C81_base_partial",
    "C81_no_values"
   ],
   "note": "False for SelectMany (C81_many_refuted: the promoted String shows neither ordering nor page). Proved for base selects with well-formed names and conditions (C81_base_partial); that no values are shown is proved in general (C81_no_values). C81_base_exactly: the String of two base selects is equal exactly if their SQL is."
  },
  {
   "property": "C82",
   "status": "partial",
   "theorems": [
    "C82_sorted_partial",
    "C82_shadow_refuted",
    "C82_sorted_exactly"
   ],
   "note": "False when the field given to OrderBy has the name of another selected column alias (C82_shadow_refuted). Proved for all orderings whose column is determined (C82_sorted_partial), including sorting by the alias of a selected column. C82_sorted_exactly: for every select, the one column each ordering sorts by."
  },
  {
   "property": "C83",
   "status": "partial",
   "theorems": [
    "C83_alias_refuted",
    "C83_count_partial",
    "C83_count_exactly"
   ],
   "note": "False for fields with an alias (C83_alias_refuted: the statement names a column that does not exist). Proved for all others (C83_count_partial). C83_count_exactly: for every field, the one column whose values are counted."
  },
  {
   "property": "C84",
   "status": "proved",
   "theorems": [
    "C84_and_suffices",
    "C84_and_exact",
    "C84_many_suffices",
    "C84_many_exact"
   ],
   "note": "C84_and_suffices/C84_many_suffices need no distinct columns; C84_and_exact/C84_many_exact are the equivalences."
  },
  {
   "property": "C85",
   "status": "proved",
   "theorems": [
    "C85_or_suffices",
    "C85_or_exact",
    "C85_many_never"
   ],
   "note": "C85_or_suffices needs no distinct columns; C85_or_exact is the equivalence; C85_many_never for two or more arguments."
  },
  {
   "property": "C86",
   "status": "proved",
   "theorems": [
    "C86_first_exact",
    "C86_later_suffices",
    "C86_later_exact"
   ],
   "note": "C86_first_exact for the first call, C86_later_exact for later ones."
  },
  {
   "property": "C87",
   "status": "proved",
   "theorems": [
    "C87_connectives",
    "C87_no_or"
   ],
   "note": ""
  },
  {
   "property": "C88",
   "status": "partial",
   "theorems": [
    "C88_caller_writes",
    "C88_calls_write",
    "C88_spread",
    "C88_in_refuted",
    "C88_in_partial"
   ],
   "note": "Proved for the elements of []Condition, []FieldSorting, []FieldValue and []FieldDefinition slices in every history, both ways, and for s... calls. False for slices given as values: In(f, s) reads s each time the statement is built, so later writes change its parameters (refuted); text and number of parameters stay (proved). SetValues hands out the internal slice, see C42."
  },
  {
   "property": "C89",
   "status": "proved",
   "theorems": [
    "C89_joined",
    "C89_methods"
   ],
   "note": "Row order and multiplicity by C89_joined (list equality with a separate definition), row by row for the four methods by C89_methods. The On columns must exist and the tables be known under different names."
  },
  {
   "property": "C90",
   "status": "proved",
   "theorems": [
    "C90_inner_joins"
   ],
   "note": "Equality of lists with the filtered product of the tables."
  },
  {
   "property": "C91",
   "status": "proved",
   "theorems": [
    "C91_valid_exactly",
    "C91_delete",
    "C91_update",
    "C91_select"
   ],
   "note": "Both directions, for Render and RenderSQL, and for the WHERE of SELECT, UPDATE and DELETE in the state reached by any history."
  },
  {
   "property": "C92",
   "status": "proved",
   "theorems": [
    "C92_validate",
    "C92_specifications",
    "C92_insert",
    "C92_update",
    "C92_delete",
    "C92_map"
   ],
   "note": "Truth of each reason stated on the name, map or history itself (says, true_of); builds after any history of calls. The error of a failed Valuer conversion is in C93."
  },
  {
   "property": "C93",
   "status": "partial",
   "theorems": [
    "C93_refuted",
    "C93_names",
    "C93_ordering_exactly",
    "C93_fields_exactly",
    "C93_values_exactly"
   ],
   "note": "Full statement false (C93_refuted): ASC, DESC and OrderBy with an invalid name and NewFields with another type panic with a text, nil elements panic in Go's runtime, a Valuer's own panic passes through. Proved without restriction for Field, Table and the predicates (C93_names); exact conditions for orderings, NewFields and Values."
  },
  {
   "property": "C94",
   "status": "proved",
   "theorems": [
    "C94_kept",
    "C94_statement",
    "C94_when_exactly"
   ],
   "note": "SelectSingle: histories without Fields, which forgets the WHERE (C31). C94_when_exactly says when the call itself panics rather than the build."
  },
  {
   "property": "C95",
   "status": "proved",
   "theorems": [
    "C95_update_found"
   ],
   "note": "For conditions on other columns than the ones set; C95_own_column shows that this is needed. Also: repeating the UPDATE changes nothing."
  },
  {
   "property": "C96",
   "status": "partial",
   "theorems": [
    "C96_refuted",
    "C96_list_refuted",
    "C96_insert_partial",
    "C96_update_partial",
    "C96_exactly",
    "C96_same_exactly"
   ],
   "note": "Full statement false (C96_refuted, C96_list_refuted): what DatabaseValue() returned is converted once more. Proved for lists of values that are not converted further; C96_exactly: the promise is kept exactly for these; C96_same_exactly: when it agrees with NewFieldValue."
  },
  {
   "property": "C97",
   "status": "partial",
   "theorems": [
    "C97_suffices",
    "C97_exactly",
    "C97_refuted",
    "C97_plain_partial",
    "C97_total"
   ],
   "note": "Full statement false (C97_refuted): GroupOR with several conditions after a first call ANDs them. C97_exactly: the calls for which a step keeps the promise; C97_plain_partial: whole histories of plain steps; C97_total: no panic."
  },
  {
   "property": "C98",
   "status": "partial",
   "theorems": [
    "C98_refuted",
    "C98_exactly"
   ],
   "note": "Full statement false (C98_refuted): neither NOT nor spaces are rendered. C98_exactly: what is returned after any calls, and that the promise holds only for a first condition that is not negated."
  },
  {
   "property": "C99",
   "status": "proved",
   "theorems": [
    "C99_as_library",
    "C99_texts",
    "C99_statements",
    "C99_layout",
    "C99_numbering",
    "C99_statement_numbering",
    "C99_any_type_refuted"
   ],
   "note": "follows states the contract per method; C99_as_library, C99_texts, C99_statements: equality with the library's types, panics included. C99_layout: no assumption on the type at all. C99_numbering, C99_statement_numbering: under the numbering part of the contract only. C99_any_type_refuted: each part of the contract is needed."
  },
  {
   "property": "C100",
   "status": "proved",
   "theorems": [
    "C100_fields_from_source",
    "C100_tables_from_source",
    "C100_sorting_joins_pages_from_source",
    "C100_lists_from_source",
    "C100_condition_types_from_source",
    "C100_groups_from_source",
    "C100_where_from_source"
   ],
   "note": "SrcText.v is the source, letter by letter (tools/srctext.py --check compares it with /repo); SrcParse.v reads it inside Coq (decls_read); SrcSem.v runs it. calls i f args r: the call ends with r for every sufficient call depth. The builders are C101."
  },
  {
   "property": "C101",
   "status": "proved",
   "theorems": [
    "C101_base_select_from_source",
    "C101_count_from_source",
    "C101_select_many_from_source",
    "C101_select_single_from_source",
    "C101_write_from_source",
    "C101_table_builders_from_source",
    "C101_methods_from_source"
   ],
   "note": "Same reading and running of the source as C100. The conditions of a builder are of any types (Open.v); the model's function is the one of Build.v with the WHERE group replaced by such a group (x_*_build). C101_methods_from_source: which method a builder really has, its own or the one of the builder embedded in it."
  },
  {
   "property": "C102",
   "status": "proved",
   "theorems": [
    "C102_expressions_from_source",
    "C102_conditions_from_source",
    "C102_programs_from_source",
    "C102_derived_from_source",
    "C102_builders_from_source"
   ],
   "note": "Conditions of the package only (S := Empty_set; conditions of the users' types: C100, C101 with Open.v). program i f a ms r: f(a) and then the methods ms, each on the value the one before returned. The functions named are those of Cond.v, Build.v and Surface.v, about which the other properties are."
  },
  {
   "property": "C103",
   "status": "proved",
   "theorems": [
    "C103_select_many",
    "C103_select_single",
    "C103_insert",
    "C103_update",
    "C103_delete",
    "C103_refused"
   ],
   "note": "C06, C07, C09-C12 carried over to the source text by C102."
  },
  {
   "property": "C104",
   "status": "proved",
   "theorems": [
    "C104_formula",
    "C104_insert",
    "C104_read_back",
    "C104_narrowed",
    "C104_derived",
    "C104_paged"
   ],
   "note": "C73-C78 carried over to the source text by C102; the truth of an expression is read off the expression itself."
  },
  {
   "property": "C105",
   "status": "proved",
   "theorems": [
    "C105_accessors_from_source",
    "C105_promoted_from_source",
    "C105_joins_from_source"
   ],
   "note": "Three theorems: accessors, inherited methods, joins completed by On. Methods of conditions are stated for the types of the package."
  },
  {
   "property": "C106",
   "status": "proved",
   "theorems": [
    "C106_rows_refuted",
    "C106_conditions_refuted",
    "C106_builders_refuted"
   ],
   "note": "Witnesses: each conjunct refutes a claim one would expect to hold of the code; the programs are run by the interpreter of the Go text."
  },
  {
   "property": "C107",
   "status": "partial",
   "theorems": [
    "C107_page",
    "C107_single",
    "C107_count",
    "C107_sorted_partial",
    "C107_joins",
    "C107_inner_joins"
   ],
   "note": "Pages, single row, counts and joins are proved in full; the order of rows only if no ordering field has the name of another selected column alias (false otherwise, C82_shadow_refuted). From C71, C72, C82, C89, C90 by C102."
  },
  {
   "property": "C108",
   "status": "partial",
   "theorems": [
    "C108_overwrites",
    "C108_apply_table",
    "C108_tied",
    "C108_knot_refuted",
    "C108_and_refuted",
    "C108_builders_refuted",
    "C108_copies_refuted",
    "C108_extends",
    "C108_extends_collide",
    "C108_extends_apart",
    "C108_set_values",
    "C108_opens",
    "C108_closes",
    "C108_second_on_wins"
   ],
   "note": "The independence of derived builders is false in the source text itself: C108_and_refuted, C108_builders_refuted, C108_copies_refuted run Go programs, for every call depth from 40 on; C108_knot_refuted: a program whose rendering never ends, for every call depth. For every store, builder and argument: C108_extends (OrderBy, Values, Set are one append), C108_extends_collide, C108_extends_apart, C108_set_values, C108_opens and C108_closes (joins of the three selects), C108_second_on_wins, C108_overwrites and C108_apply_table (groups), C108_tied (rendering a group that contains itself). Not done for every store: And, Or and Where."
  }
 ]
}
