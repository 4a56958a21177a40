{
 "claims": [
  {
   "property": "C01",
   "status": "proved",
   "theorems": [
    "C01_canonical_text",
    "C01_user_statement",
    "C01_full_statement",
    "C01_interleaving"
   ],
   "note": ""
  },
  {
   "property": "C02",
   "status": "proved",
   "theorems": [
    "C02_args_in_order",
    "C02_args_all_calls"
   ],
   "note": ""
  },
  {
   "property": "C03",
   "status": "proved",
   "theorems": [
    "C03_values_do_not_matter"
   ],
   "note": ""
  },
  {
   "property": "C04",
   "status": "proved",
   "theorems": [
    "C04_pg_numbering",
    "C04_alignment"
   ],
   "note": ""
  },
  {
   "property": "C05",
   "status": "partial",
   "theorems": [
    "C05_literal_qmark_refuted",
    "C05_exact",
    "C05_runs",
    "C05_apart",
    "C05_literal_qmark_partial"
   ],
   "note": "False of the code: addChunk merges adjacent expressions of one clause into one chunk and writePg then rewrites every '?' of the chunk as soon as one of them has arguments (witness in C05_literal_qmark_refuted). Proved: the exact postgres text of every statement (C05_exact: run by run, a run is numbered iff it carries an argument; C05_runs: the runs make up the clause), so expressions written apart from other expressions of their clause (C05_apart) and clauses without arguments (C05_literal_qmark_partial) are copied verbatim."
  },
  {
   "property": "C06",
   "status": "proved",
   "theorems": [
    "C06_last_limit_wins",
    "C06_one_clause"
   ],
   "note": ""
  },
  {
   "property": "C07",
   "status": "proved",
   "theorems": [
    "C07_paginate",
    "C07_offset_exact"
   ],
   "note": ""
  },
  {
   "property": "C08",
   "status": "partial",
   "theorems": [
    "C08_paginate_again_refuted",
    "C08_paginate_again_partial",
    "C08_exact_partial"
   ],
   "note": "False of the code: Paginate(3,10) then Paginate(1,10) keeps OFFSET 20 (refuted). Proved part: every pair except p1 > 1 followed by p2 <= 1. The exact result for every pair is C08_exact_partial."
  },
  {
   "property": "C09",
   "status": "proved",
   "theorems": [
    "C09_bulk_insert",
    "C09_rectangular"
   ],
   "note": ""
  },
  {
   "property": "C10",
   "status": "proved",
   "theorems": [
    "C10_string_stable",
    "C10_cache_transparent"
   ],
   "note": ""
  },
  {
   "property": "C11",
   "status": "partial",
   "theorems": [
    "C11_cache_collision_refuted",
    "C11_cache_collision_pg_refuted",
    "C11_other_keys_partial",
    "C11_exact_partial"
   ],
   "note": "False of the code: the cache key is the raw buffer, which does not record clause boundaries nor which '?' are bound (two witnesses). The conditional version is C10. Exactly (C11_exact_partial): the text shown is that of the first statement rendered with the same cache key."
  },
  {
   "property": "C12",
   "status": "partial",
   "theorems": [
    "C12_extend_named_refuted",
    "C12_extend_unnamed_partial",
    "C12_named_exact_partial"
   ],
   "note": "False of the code for named statements (refuted). Proved part: unnamed statements extended by explicit clause calls. C12_named_exact_partial: a named statement keeps its first text whatever is added."
  },
  {
   "property": "C13",
   "status": "proved",
   "theorems": [
    "C13_cached_name_no_create",
    "C13_memoised"
   ],
   "note": ""
  },
  {
   "property": "C14",
   "status": "proved",
   "theorems": [
    "C14_clone_alike"
   ],
   "note": ""
  },
  {
   "property": "C15",
   "status": "partial",
   "theorems": [
    "C15_clone_position_refuted",
    "C15_clone_newlines_refuted",
    "C15_positioned_partial",
    "C15_exact_partial"
   ],
   "note": "False of the code: Clone copies neither position nor new-line option nor name (two witnesses). Proved part: when the next call names its clause, the clone behaves exactly as the original after SetName(\"\") and UseNewLines(the dialect's setting)."
  },
  {
   "property": "C16",
   "status": "proved",
   "theorems": [
    "C16_pool_clean",
    "C16_pool_object_irrelevant",
    "C16_pool_invisible"
   ],
   "note": ""
  },
  {
   "property": "C17",
   "status": "proved",
   "theorems": [
    "C17_subquery_in_where",
    "C17_subquery_elsewhere",
    "C17_union",
    "C17_inner_neutral"
   ],
   "note": ""
  },
  {
   "property": "C18",
   "status": "partial",
   "theorems": [
    "C18_empty_prefix_refuted",
    "C18_no_args_partial",
    "C18_lost_exact_partial"
   ],
   "note": "False of the code: with an empty prefix the inner arguments overwrite those of the clause (witness). Exactly (C18_lost_exact_partial): the text is the wanted one but no argument is ever added."
  },
  {
   "property": "C19",
   "status": "proved",
   "theorems": [
    "C19_set_on_insert",
    "C19_set_elsewhere",
    "C19_set_on_update",
    "C19_set_is_set_expr"
   ],
   "note": ""
  },
  {
   "property": "C20",
   "status": "proved",
   "theorems": [
    "C20_bind",
    "C20_from_bind"
   ],
   "note": ""
  },
  {
   "property": "C21",
   "status": "partial",
   "theorems": [
    "C21_clause_collision_refuted",
    "C21_clause_last_partial",
    "C21_layout_partial",
    "C21_layout_meaning_partial"
   ],
   "note": "False of the code: Clause ranks grow by 10 and run into the next standard clause (witness with ten calls). Proved part: with at most nine Clause calls, text and arguments of every SELECT/UPDATE/DELETE statement follow the slot layout of XsqlClauseSpec (each expression after everything present at its call, SQL clauses in SQL order); a final Clause call comes last in every statement."
  },
  {
   "property": "C22",
   "status": "proved",
   "theorems": [
    "C22_query"
   ],
   "note": ""
  },
  {
   "property": "C23",
   "status": "proved",
   "theorems": [
    "C23_increasing"
   ],
   "note": ""
  },
  {
   "property": "C24",
   "status": "proved",
   "theorems": [
    "C24_concurrent_unique",
    "C24_alone_is_next_id"
   ],
   "note": ""
  },
  {
   "property": "C25",
   "status": "proved",
   "theorems": [
    "C25_machines_disjoint"
   ],
   "note": ""
  },
  {
   "property": "C26",
   "status": "proved",
   "theorems": [
    "C26_decompose",
    "C26_recombine"
   ],
   "note": ""
  },
  {
   "property": "C27",
   "status": "proved",
   "theorems": [
    "C27_not_ahead",
    "C27_new"
   ],
   "note": ""
  },
  {
   "property": "C28",
   "status": "proved",
   "theorems": [
    "C28_restart_later"
   ],
   "note": ""
  },
  {
   "property": "C29",
   "status": "partial",
   "theorems": [
    "C29_any_restart_refuted",
    "C29_repeat_means_clock_partial"
   ],
   "note": "False of the code: the generator keeps no state across restarts; two generators with the same settings created in the same millisecond (or after the clock was set back) repeat IDs (witness)."
  },
  {
   "property": "C30",
   "status": "proved",
   "theorems": [
    "C30_panics_forever",
    "C30_over_limit"
   ],
   "note": ""
  },
  {
   "property": "C31",
   "status": "partial",
   "theorems": [
    "C31_foreign_refuted",
    "C31_own_partial"
   ],
   "note": "False of the code for IDGenerator implementations of other packages (db.go itself imports effective-security/x/flake): IDTime then uses start 0 (witness). Proved part: for this package's Flake the ID's time is the clock reading of the call that took it."
  },
  {
   "property": "C32",
   "status": "proved",
   "theorems": [
    "C32_parse_uint",
    "C32_inverse",
    "C32_canonical_text",
    "C32_quoted"
   ],
   "note": ""
  },
  {
   "property": "C33",
   "status": "proved",
   "theorems": [
    "C33_parse_id",
    "C33_try_must_agree",
    "C33_validity",
    "C33_invalid_on_error"
   ],
   "note": ""
  },
  {
   "property": "C34",
   "status": "partial",
   "theorems": [
    "C34_json_value",
    "C34_json_accepts",
    "C34_json_string_partial",
    "C34_json_string_refuted"
   ],
   "note": "False of the code for String(): an ID decoded from the JSON number 007 keeps the text 007 and re-decodes as 7 (refuted). Proved: the uint64 survives for every reachable ID, what is accepted, destination untouched on error; String survives for IDs not decoded from JSON."
  },
  {
   "property": "C35",
   "status": "partial",
   "theorems": [
    "C35_canonical_refuted",
    "C35_canonical_partial",
    "C35_exact_partial"
   ],
   "note": "False of the code: UnmarshalJSON stores the raw text (witness 007). Proved for canonical input."
  },
  {
   "property": "C36",
   "status": "proved",
   "theorems": [
    "C36_value_scan"
   ],
   "note": ""
  },
  {
   "property": "C37",
   "status": "partial",
   "theorems": [
    "C37_time_null_partial",
    "C37_null_refuted",
    "C37_null_partial",
    "C37_kept_partial"
   ],
   "note": "False of the code for ID, ID32, Int64, Int32, Bool, Float (refuted). Proved for NULLString, UUID, IDArray and Time; Metadata, KVSet and Strings: see the JSON model."
  },
  {
   "property": "C38",
   "status": "partial",
   "theorems": [
    "C38_copies_refuted",
    "C38_copies_partial",
    "C38_no_copies_partial",
    "C38_exact_partial"
   ],
   "note": "False of the code: Set and Reset write through the shared pointer (refuted). Proved: all other operations, in every reachable state; and Set/Reset in programs that never copy. Exactly (C38_exact_partial): Set and Reset change the variables that share the cell, and no others."
  },
  {
   "property": "C39",
   "status": "proved",
   "theorems": [
    "C39_add",
    "C39_concat",
    "C39_new",
    "C39_contains_overlaps"
   ],
   "note": ""
  },
  {
   "property": "C40",
   "status": "partial",
   "theorems": [
    "C40_independent_refuted",
    "C40_add_partial",
    "C40_concat_partial",
    "C40_exact_partial",
    "C40_receiver_partial"
   ],
   "note": "False of the code: append reuses spare capacity (refuted with Go's growth for three elements). Proved for every growth policy: result contents, receiver and operands unchanged, slices not longer or on another array unchanged, and the exact condition under which a second Add to the receiver shows in the first result."
  },
  {
   "property": "C41",
   "status": "proved",
   "theorems": [
    "C41_value_scan"
   ],
   "note": ""
  },
  {
   "property": "C42",
   "status": "proved",
   "theorems": [
    "C42_sort"
   ],
   "note": "sort.Slice is modelled by insertion sort; the sorted permutation of the uint64 values is unique, so any correct sort gives the same list."
  },
  {
   "property": "C43",
   "status": "partial",
   "theorems": [
    "C43_is_json",
    "C43_int64_json",
    "C43_int32_json",
    "C43_id32_json",
    "C43_bool_json",
    "C43_int64_accepts",
    "C43_int32_accepts",
    "C43_id32_accepts",
    "C43_bool_rejects_refuted",
    "C43_bool_exact_partial",
    "C43_int64_quoted"
   ],
   "note": "Proved for Int64, Int32, ID32 (round trip, exact acceptance, destination untouched) and Bool's round trip; Bool rejects nothing (refuted)."
  },
  {
   "property": "C44",
   "status": "proved",
   "theorems": [
    "C44_int64_value_scan",
    "C44_int32_value_scan",
    "C44_id32_value_scan",
    "C44_bool_value_scan",
    "C44_modular"
   ],
   "note": ""
  },
  {
   "property": "C45",
   "status": "partial",
   "theorems": [
    "C45_out_of_range_refuted",
    "C45_in_range_partial",
    "C45_exact_partial"
   ],
   "note": "False of the code: Scan wraps modulo the width (refuted); in-range integers are exact and other kinds are rejected."
  },
  {
   "property": "C46",
   "status": "proved",
   "theorems": [
    "C46_uuid_bytes",
    "C46_uuid_injective",
    "C46_uuid_text"
   ],
   "note": ""
  },
  {
   "property": "C47",
   "status": "partial",
   "theorems": [
    "C47_uuid_length_refuted",
    "C47_uuid_length_partial"
   ],
   "note": "False of the code: errors.WithMessagef(nil, ...) is nil, so a wrong length is accepted silently (refuted); the partial theorem says what happens instead."
  },
  {
   "property": "C48",
   "status": "proved",
   "theorems": [
    "C48_merge",
    "C48_merge_ok",
    "C48_merge_idempotent",
    "C48_merge_associative",
    "C48_argument_unchanged"
   ],
   "note": ""
  },
  {
   "property": "C49",
   "status": "proved",
   "theorems": [
    "C49_ordered",
    "C49_lossless"
   ],
   "note": ""
  },
  {
   "property": "C50",
   "status": "proved",
   "theorems": [
    "C50_unix_milli",
    "C50_truncate",
    "C50_never_forward"
   ],
   "note": ""
  },
  {
   "property": "C51",
   "status": "proved",
   "theorems": [
    "C51_string_parse",
    "C51_zero",
    "C51_far_years"
   ],
   "note": ""
  },
  {
   "property": "C52",
   "status": "partial",
   "theorems": [
    "C52_scan_refuted",
    "C52_scan_partial",
    "C52_exact_partial"
   ],
   "note": "False of the code: ParseTime drops the parse error (witness: the text hello is stored as the zero time without error). Proved part: texts printed by String are stored, unsupported types are rejected."
  },
  {
   "property": "C53",
   "status": "proved",
   "theorems": [
    "C53_classification",
    "C53_nil",
    "C53_original_reachable",
    "C53_survives_wrapping",
    "C53_is_by_table_and_id",
    "C53_is_not_found_iff"
   ],
   "note": ""
  },
  {
   "property": "C54",
   "status": "proved",
   "theorems": [
    "C54_merge_field",
    "C54_merge_idempotent"
   ],
   "note": ""
  },
  {
   "property": "C55",
   "status": "proved",
   "theorems": [
    "C55_name"
   ],
   "note": "Proved for query names, positions, enums in call order, flags and paging kind (cursor, offset above 0, neither)."
  },
  {
   "property": "C56",
   "status": "partial",
   "theorems": [
    "C56_null_columns_refuted",
    "C56_null_columns_partial",
    "C56_exact_partial"
   ],
   "note": "Refuted: {a,bc} and {ab,c} concatenate to the same hashed text. Partial: order is irrelevant, distinct sums give distinct names, non-empty differs from empty."
  },
  {
   "property": "C57",
   "status": "partial",
   "theorems": [
    "C57_current_refuted",
    "C57_current_partial",
    "C57_frozen_partial"
   ],
   "note": "Refuted: the first Name() is cached, later Set calls do not show. Partial: stable, and the first one reflects all calls (C55)."
  },
  {
   "property": "C58",
   "status": "proved",
   "theorems": [
    "C58_first_builder",
    "C58_no_builder",
    "C58_builder",
    "C58_page",
    "C58_panics"
   ],
   "note": ""
  },
  {
   "property": "C59",
   "status": "partial",
   "theorems": [
    "C59_reset_refuted",
    "C59_reset_partial",
    "C59_exact_partial"
   ],
   "note": "Refuted: Reset keeps the null columns. Partial: without null columns the builder behaves as new for every later program."
  },
  {
   "property": "C60",
   "status": "proved",
   "theorems": [
    "C60_paging",
    "C60_paging_args"
   ],
   "note": ""
  },
  {
   "property": "C61",
   "status": "partial",
   "theorems": [
    "C61_no_limit_refuted",
    "C61_no_limit_partial"
   ],
   "note": "Refuted: without a limit the limit is 0 and hasNextPage is always true. Partial: with a limit, next page iff the page is full; ExecuteQuery never reports one."
  },
  {
   "property": "C62",
   "status": "partial",
   "theorems": [
    "C62_midway_refuted",
    "C62_midway_partial",
    "C62_query_row_partial",
    "C62_exact_partial"
   ],
   "note": "Refuted: rows.Err() is not consulted, a truncated list comes with a nil error. Partial: query and scan errors are returned; QueryRow does report it."
  },
  {
   "property": "C63",
   "status": "proved",
   "theorems": [
    "C63_list_query",
    "C63_query_error"
   ],
   "note": ""
  },
  {
   "property": "C64",
   "status": "proved",
   "theorems": [
    "C64_cursor_roundtrip",
    "C64_accepts",
    "C64_injective",
    "C64_line_ends",
    "C64_alphabet"
   ],
   "note": "The base64 part; the JSON part is C123."
  },
  {
   "property": "C65",
   "status": "partial",
   "theorems": [
    "C65_deps_terminate",
    "C65_deps_exact_partial",
    "C65_two_keys_refuted"
   ],
   "note": "termination proved for every catalog; exactness proved when no column carries two foreign keys; refuted otherwise (the second key overwrites the first)"
  },
  {
   "property": "C66",
   "status": "partial",
   "theorems": [
    "C66_tables",
    "C66_views",
    "C66_fks",
    "C66_wanted",
    "C66_fks_order_refuted"
   ],
   "note": "tables and views proved; foreign keys are filtered but not sorted (refuted)"
  },
  {
   "property": "C67",
   "status": "partial",
   "theorems": [
    "C67_tables_independent",
    "C67_deps_refuted"
   ],
   "note": "proved without dependencies; refuted with dependencies: everything the provider has ever seen is listed"
  },
  {
   "property": "C68",
   "status": "partial",
   "theorems": [
    "C68_all_columns",
    "C68_aliased_columns",
    "C68_changed_columns_refuted"
   ],
   "note": "proved; refuted only for Columns changed after the first AllColumns call (cached text)"
  },
  {
   "property": "C69",
   "status": "partial",
   "theorems": [
    "C69_known_types",
    "C69_unknown_types",
    "C69_arrays",
    "C69_overrides",
    "C69_null_safe",
    "C69_range_partial",
    "C69_tinyint_refuted"
   ],
   "note": "Proved: exact type for every known type name, refusal of every other name without a space, NULL-safety of every nullable column without override, arrays, overrides. Range partial: SQL Server tinyint (0..255) NOT NULL maps to int8 (refuted)."
  },
  {
   "property": "C70",
   "status": "proved",
   "theorems": [
    "C70_generated",
    "C70_select_order"
   ],
   "note": "For every run that succeeds; text of files abstracted to what they declare; strcase/pluralize/go-format are parameters."
  },
  {
   "property": "C71",
   "status": "proved",
   "theorems": [
    "C71_nested",
    "C71_no_transaction",
    "C71_fate",
    "C71_ended",
    "C71_active",
    "C71_connection",
    "C71_routing",
    "C71_errors",
    "C71_tx_errors"
   ],
   "note": "Model of prov.go with database/sql reduced to its transaction rules."
  },
  {
   "property": "C72",
   "status": "partial",
   "theorems": [
    "C72_panic_refuted",
    "C72_ends_refuted",
    "C72_safe_partial"
   ],
   "note": "The goroutine never ends and can panic when a tick precedes Close (both refuted); safe when no ping is in progress at the time of Close."
  },
  {
   "property": "C73",
   "status": "partial",
   "theorems": [
    "C73_postgres_partial",
    "C73_sqlserver_partial",
    "C73_no_query_refuted",
    "C73_existing_refuted",
    "C73_injection_refuted",
    "C73_host_refuted"
   ],
   "note": "Proved for data sources with a query that names no database and a name without characters that mean something in a query; refuted without a query string, with an existing dbname, with a host parameter, and for a name with an '&' (another parameter is added). The drivers' own rules are not modelled beyond taking the first value of a parameter."
  },
  {
   "property": "C74",
   "status": "proved",
   "theorems": [
    "C74_single",
    "C74_payload",
    "C74_arrives",
    "C74_drains"
   ],
   "note": ""
  },
  {
   "property": "C75",
   "status": "partial",
   "theorems": [
    "C75_once_partial",
    "C75_order_partial",
    "C75_routing_refuted"
   ],
   "note": "Each notification goes to exactly one callback in order, but not necessarily to its own (refuted)."
  },
  {
   "property": "C76",
   "status": "partial",
   "theorems": [
    "C76_no_source",
    "C76_failures_before",
    "C76_decisions",
    "C76_result",
    "C76_failures_propagate_refuted"
   ],
   "note": "Decisions and results are proved for all outcomes; an unrelated failure whose text contains 'no change' is swallowed (refuted)."
  },
  {
   "property": "C77",
   "status": "partial",
   "theorems": [
    "C77_double_close_refuted",
    "C77_double_close_partial"
   ],
   "note": "False of the code: Close after the pooled object was handed out again puts an object in use back into the pool, two later statements share it (witness). Proved part: a second Close before the object is handed out again panics."
  },
  {
   "property": "C78",
   "status": "proved",
   "theorems": [
    "C78_first_last"
   ],
   "note": ""
  },
  {
   "property": "C79",
   "status": "proved",
   "theorems": [
    "C79_refuses",
    "C79_accepts",
    "C79_panics_iff",
    "C79_default_start"
   ],
   "note": ""
  },
  {
   "property": "C80",
   "status": "partial",
   "theorems": [
    "C80_default_machine_refuted",
    "C80_default_machine_partial",
    "C80_default_machine_range_partial",
    "C80_first_usable_partial",
    "C80_no_address_refuted",
    "C80_value_partial",
    "C80_program_partial",
    "C80_not_a_test_partial"
   ],
   "note": "False of the code: only the low 16 bits of the first non-loopback address are used (witness 10.1.7.9 / 10.2.7.9). Proved part: the ID is always a 16-bit value and differs whenever the last two address bytes differ."
  },
  {
   "property": "C81",
   "status": "partial",
   "theorems": [
    "C81_parse_order_refuted",
    "C81_parse_order_partial"
   ],
   "note": "False of the code: `return id, id.Set(val)` may read id before the call (refuted); with gc's order it holds."
  },
  {
   "property": "C82",
   "status": "partial",
   "theorems": [
    "C82_equal_text_refuted",
    "C82_equal_text_partial",
    "C82_text_partial"
   ],
   "note": "False of the code: QuotedString is empty for the zero ID but two quotes for a reset ID (refuted); also see C35. Proved: String/UnderscoreString for IDs not decoded from JSON, QuotedString for the valid ones."
  },
  {
   "property": "C83",
   "status": "proved",
   "theorems": [
    "C83_strings_back",
    "C83_string",
    "C83_int64"
   ],
   "note": ""
  },
  {
   "property": "C84",
   "status": "proved",
   "theorems": [
    "C84_yaml",
    "C84_rejects"
   ],
   "note": ""
  },
  {
   "property": "C85",
   "status": "partial",
   "theorems": [
    "C85_time_partial",
    "C85_json_null_refuted",
    "C85_bool_partial"
   ],
   "note": "False of the code: every number type rejects null (proved for all destinations); Bool reads it as false."
  },
  {
   "property": "C86",
   "status": "proved",
   "theorems": [
    "C86_strings",
    "C86_float",
    "C86_float_zero",
    "C86_float_null_iff"
   ],
   "note": ""
  },
  {
   "property": "C87",
   "status": "partial",
   "theorems": [
    "C87_float_json_refuted",
    "C87_near_partial",
    "C87_survives_iff_partial",
    "C87_second_trip_partial",
    "C87_multiples_partial",
    "C87_integers_partial",
    "C87_large_partial"
   ],
   "note": "False of the code: %f keeps six decimals (refuted: 2^-24 becomes 0). Proved on the full binary64 model: a finite value survives iff it is the float64 nearest to a six-digit decimal (so one trip reaches a fixed point), always within a millionth, exact for integers, multiples of a millionth and everything from 2^33 on. strconv's correct rounding is part of the trusted model of the standard library."
  },
  {
   "property": "C88",
   "status": "partial",
   "theorems": [
    "C88_is_distinguishes_refuted",
    "C88_is_distinguishes_partial",
    "C88_exact_partial",
    "C88_no_colon_partial"
   ],
   "note": "With cockroachdb/errors (the package the repository uses) marks compare type and message, and the message does not separate table from ID (refuted). Proved for the standard library's errors.Is."
  },
  {
   "property": "C89",
   "status": "proved",
   "theorems": [
    "C89_json",
    "C89_json_error",
    "C89_empty",
    "C89_unquoted",
    "C89_blanks"
   ],
   "note": ""
  },
  {
   "property": "C90",
   "status": "proved",
   "theorems": [
    "C90_value_scan",
    "C90_null_iff_zero"
   ],
   "note": ""
  },
  {
   "property": "C91",
   "status": "proved",
   "theorems": [
    "C91_date",
    "C91_datetime",
    "C91_rfc3339"
   ],
   "note": ""
  },
  {
   "property": "C92",
   "status": "proved",
   "theorems": [
    "C92_string",
    "C92_every_day",
    "C92_string_injective"
   ],
   "note": ""
  },
  {
   "property": "C93",
   "status": "partial",
   "theorems": [
    "C93_paged_name_refuted",
    "C93_paged_name_partial",
    "C93_exact_partial"
   ],
   "note": "Refuted: SetPage(10, 0) leaves Name() as without a page although two arguments are added. Partial: offsets above 0 always give another name."
  },
  {
   "property": "C94",
   "status": "partial",
   "theorems": [
    "C94_name_pure_refuted",
    "C94_name_pure_partial",
    "C94_exact_partial"
   ],
   "note": "Refuted: the null-column slice is sorted in place, so GetNullColumns order changes. Partial: it is a permutation, everything else is unchanged. Exactly (C94_exact_partial): Name() leaves the null columns a sorted permutation of themselves, unchanged when they were sorted, and a second call changes nothing."
  },
  {
   "property": "C95",
   "status": "proved",
   "theorems": [
    "C95_cursor_paging",
    "C95_cursor_paging_args"
   ],
   "note": ""
  },
  {
   "property": "C96",
   "status": "partial",
   "theorems": [
    "C96_cursor_canonical_refuted",
    "C96_cursor_canonical_partial",
    "C96_exact_partial"
   ],
   "note": "Refuted: non-strict base64 ignores trailing bits (QR and QQ decode alike). Partial: re-encoding keeps the meaning."
  },
  {
   "property": "C97",
   "status": "proved",
   "theorems": [
    "C97_arguments",
    "C97_once",
    "C97_panics_before"
   ],
   "note": ""
  },
  {
   "property": "C98",
   "status": "proved",
   "theorems": [
    "C98_tables",
    "C98_deps",
    "C98_views",
    "C98_fks"
   ],
   "note": ""
  },
  {
   "property": "C99",
   "status": "proved",
   "theorems": [
    "C99_table_contents"
   ],
   "note": ""
  },
  {
   "property": "C100",
   "status": "partial",
   "theorems": [
    "C100_exact_partial",
    "C100_no_panic_partial",
    "C100_comma_refuted"
   ],
   "note": "partial: holds when index columns are listed columns; refuted: an indexed column whose name contains a comma is a nil dereference (the column list is joined and split with commas) Exactly (C100_exact_partial): ListTables panics iff a requested table has an index row whose text, split at commas, names something that is not one of its columns; otherwise it succeeds."
  },
  {
   "property": "C101",
   "status": "partial",
   "theorems": [
    "C101_dependency_columns_partial",
    "C101_dependency_refuted"
   ],
   "note": "columns proved; refuted for type, indexes and primary key, which are left empty on dependencies"
  },
  {
   "property": "C102",
   "status": "partial",
   "theorems": [
    "C102_max_length_partial",
    "C102_no_length_partial",
    "C102_unlimited_refuted",
    "C102_exact_partial"
   ],
   "note": "proved for 0 <= n < 2^32; refuted for -1 (SQL Server nvarchar(max)), which becomes 4294967295"
  },
  {
   "property": "C103",
   "status": "partial",
   "theorems": [
    "C103_postgres_partial",
    "C103_sqlserver_partial",
    "C103_quote_refuted",
    "C103_exact_partial"
   ],
   "note": "proved for names without quotes; refuted with quotes: names are pasted into the statement"
  },
  {
   "property": "C104",
   "status": "proved",
   "theorems": [
    "C104_select",
    "C104_select_named",
    "C104_select_aliased"
   ],
   "note": ""
  },
  {
   "property": "C105",
   "status": "partial",
   "theorems": [
    "C105_kept_pk_partial",
    "C105_dropped_pk_refuted",
    "C105_exact_partial"
   ],
   "note": "Holds when the key is not dropped; refuted for a dropped primary key column."
  },
  {
   "property": "C106",
   "status": "partial",
   "theorems": [
    "C106_same_name_refuted",
    "C106_several_schemas_refuted",
    "C106_same_directory_refuted",
    "C106_infos_partial"
   ],
   "note": "Refuted for every run over two or more schemas (each schema file repeats the tables of the earlier ones) and for model and schema files in one directory; TableInfo variables of a single schema are distinct when their names are."
  },
  {
   "property": "C107",
   "status": "partial",
   "theorems": [
    "C107_other_files",
    "C107_bad_definition",
    "C107_truncated_refuted"
   ],
   "note": "Frame and load failure proved; refuted: an unknown column type truncates the existing model file."
  },
  {
   "property": "C108",
   "status": "partial",
   "theorems": [
    "C108_definition_order",
    "C108_definitions_used",
    "C108_accumulated",
    "C108_leftover_refuted",
    "C108_none_partial"
   ],
   "note": "Order independence proved; refuted: the package variables keep definitions of earlier runs."
  },
  {
   "property": "C109",
   "status": "partial",
   "theorems": [
    "C109_model_files",
    "C109_schema_files_refuted"
   ],
   "note": "Proved for model files; refuted for schema files when there are several schemas."
  },
  {
   "property": "C110",
   "status": "partial",
   "theorems": [
    "C110_next_page",
    "C110_offset",
    "C110_last_page_partial",
    "C110_stale_cursor_refuted",
    "C110_exact_partial"
   ],
   "note": "Refuted for a result that is used again: the cursor of the earlier page stays. Exactly (C110_exact_partial): the cursor of the last row when there is a next page, else the one the result already had."
  },
  {
   "property": "C111",
   "status": "proved",
   "theorems": [
    "C111_end_to_end",
    "C111_table_info"
   ],
   "note": ""
  },
  {
   "property": "C112",
   "status": "partial",
   "theorems": [
    "C112_closed_queries",
    "C112_closed_begin_refuted",
    "C112_transactions_go_on"
   ],
   "note": "BeginTx after Close dereferences the nil connection and panics, in every history (refuted)."
  },
  {
   "property": "C113",
   "status": "partial",
   "theorems": [
    "C113_shared_partial",
    "C113_connection_string_refuted"
   ],
   "note": "ConnectionString is always empty (refuted); name and generator are shared."
  },
  {
   "property": "C114",
   "status": "partial",
   "theorems": [
    "C114_steps",
    "C114_leak_refuted"
   ],
   "note": "The order and the result are proved; the connection is never closed after a failed ping or migration (refuted)."
  },
  {
   "property": "C115",
   "status": "partial",
   "theorems": [
    "C115_stops_when_cancelled",
    "C115_can_stop",
    "C115_close_refuted"
   ],
   "note": "Close does not end them; they spin on the closed channel (refuted)."
  },
  {
   "property": "C116",
   "status": "partial",
   "theorems": [
    "C116_first_partial",
    "C116_schema_open_partial",
    "C116_kept_refuted",
    "C116_open",
    "C116_named",
    "C116_name_refuted",
    "C116_schema_refuted"
   ],
   "note": "The name is ignored once a connection is cached, and the schema provider is kept after Close (refuted); DB always returns an open connection. More on a history of calls with WithSchemaProvider: AppProps."
  },
  {
   "property": "C117",
   "status": "partial",
   "theorems": [
    "C117_database",
    "C117_round_trip",
    "C117_path_refuted"
   ],
   "note": "Which parameter is reported is proved for every data source, the round trip through Open under the conditions of C73; a database in the path is not reported (refuted)."
  },
  {
   "property": "C118",
   "status": "partial",
   "theorems": [
    "C118_roundtrip_partial",
    "C118_bytes_or_string",
    "C118_empty_is_null",
    "C118_any_text_refuted",
    "C118_exact_partial"
   ],
   "note": "proved for keys and values that are UTF-8; refuted for every value that is not: it comes back changed without an error"
  },
  {
   "property": "C119",
   "status": "partial",
   "theorems": [
    "C119_resets",
    "C119_merges_partial",
    "C119_replaces_refuted"
   ],
   "note": "holds for NULL and the empty string; refuted otherwise: every key of the destination that the column lacks stays. The exact result (a merge) is proved"
  },
  {
   "property": "C120",
   "status": "partial",
   "theorems": [
    "C120_roundtrip_partial",
    "C120_empty_is_null",
    "C120_replaces_refuted",
    "C120_exact_partial"
   ],
   "note": "round trip proved for UTF-8 text into a nil destination; replacing is refuted as in C119"
  },
  {
   "property": "C121",
   "status": "partial",
   "theorems": [
    "C121_null_iff",
    "C121_roundtrip_partial",
    "C121_bytes_refuted",
    "C121_null_keeps_old_refuted",
    "C121_exact_partial"
   ],
   "note": "proved for string columns with UTF-8 text; refuted for []byte columns: every non-empty one is an error (fmt.Sprint prints the bytes as numbers), and a JSON null keeps the old string"
  },
  {
   "property": "C122",
   "status": "partial",
   "theorems": [
    "C122_map_refuted",
    "C122_map_partial",
    "C122_strings_refuted",
    "C122_strings_partial"
   ],
   "note": "proved for variables that are nil before the scan; refuted otherwise: the map, or the array when the list fits, is written in place"
  },
  {
   "property": "C123",
   "status": "partial",
   "theorems": [
    "C123_values_partial",
    "C123_range_partial",
    "C123_accepts_partial",
    "C123_roundtrip_partial",
    "C123_other_texts",
    "C123_integer_partial",
    "C123_integer_refuted",
    "C123_exact_partial"
   ],
   "note": "proved up to the change of integers to float64 (exact to 2^53); refuted for odd integers beyond 2^53, which come back as another number. MapAny.JSON is taken to be json.Marshal C123_values_partial and C123_range_partial are about all values including fractional float64: decoding gives each number's exact float64, and fails exactly when a number is out of range."
  },
  {
   "property": "C124",
   "status": "partial",
   "theorems": [
    "C124_unchanged_partial",
    "C124_unchanged_refuted",
    "C124_strings_refuted",
    "C124_exact_partial"
   ],
   "note": "proved for text that is not a JSON object and for unsupported Go types; refuted for objects and lists with a member of the wrong type. The exact contents after every Scan of an object: C124_exact_partial"
  },
  {
   "property": "C125",
   "status": "proved",
   "theorems": [
    "C125_same_text",
    "C125_same_text_kvset",
    "C125_different_text"
   ],
   "note": ""
  },
  {
   "property": "C126",
   "status": "partial",
   "theorems": [
    "C126_short_sleep_partial",
    "C126_clock_back_refuted"
   ],
   "note": "proved when the clock does not go back; refuted when it is set back by k ms: a call on a full millisecond sleeps k ms with the mutex held"
  },
  {
   "property": "C127",
   "status": "proved",
   "theorems": [
    "C127_as_if_alone",
    "C127_finishes",
    "C127_alone_string",
    "C127_alone_get"
   ],
   "note": ""
  },
  {
   "property": "C128",
   "status": "partial",
   "theorems": [
    "C128_one_text_refuted",
    "C128_some_text_partial",
    "C128_after_first_partial"
   ],
   "note": "Refuted: Load then Store is not LoadOrStore; two first callers both call back and get their own texts. Proved: every call returns the text of some call of that name, and once cached every later call returns the cached text."
  },
  {
   "property": "C129",
   "status": "partial",
   "theorems": [
    "C129_readable_refuted",
    "C129_no_other_text_partial",
    "C129_after_first_partial"
   ],
   "note": "Refuted for every TableInfo with columns: the list is cached lazily without synchronisation and a string is two words, so a racing call may return a string with a length and a nil pointer, which crashes when read. Proved: no call ever returns other text, and after one completed call all are safe."
  },
  {
   "property": "C130",
   "status": "partial",
   "theorems": [
    "C130_readable_refuted",
    "C130_no_other_text_partial",
    "C130_after_first_partial"
   ],
   "note": "Refuted for every valid ID made by NewID: copies share the cell in which String caches its text without synchronisation. Proved: no other text, and safe after one completed call."
  },
  {
   "property": "C131",
   "status": "partial",
   "theorems": [
    "C131_success_partial",
    "C131_end_error_partial",
    "C131_scan_error_refuted",
    "C131_view_scan_error_refuted",
    "C131_nested_error_refuted",
    "C131_bound_partial"
   ],
   "note": "Refuted: provider.go never calls rows.Close, so a row that cannot be scanned, or columns or indexes that cannot be read, leave one or two result sets open (until the context ends). Proved: nothing is left open on success or when the iteration itself ends with an error; never more than two."
  },
  {
   "property": "C132",
   "status": "partial",
   "theorems": [
    "C132_tables_refuted",
    "C132_two_partial",
    "C132_one_partial"
   ],
   "note": "Refuted for every catalog with a wanted table: ListTables reads columns and indexes while its own result set is open, so it needs exactly two. Proved: two are always enough; views, foreign keys and dependency discovery need one."
  },
  {
   "property": "C133",
   "status": "proved",
   "theorems": [
    "C133_tables",
    "C133_views",
    "C133_catalog"
   ],
   "note": "Proved for every listing; C133_catalog composes it with the discovery over a whole catalog in which no column is in two foreign keys (see C65)."
  },
  {
   "property": "C134",
   "status": "partial",
   "theorems": [
    "C134_ambiguous_refuted",
    "C134_lines_partial"
   ],
   "note": "Refuted: names with dots or new lines print the same text. Proved when schema and table names have neither."
  },
  {
   "property": "C135",
   "status": "partial",
   "theorems": [
    "C135_tables",
    "C135_views",
    "C135_fks",
    "C135_yaml_tables",
    "C135_yaml_views",
    "C135_yaml_fks",
    "C135_columns_refuted",
    "C135_columns_partial",
    "C135_exact_partial"
   ],
   "note": "Refuted: 'columns --views' prints two documents when there are views. Proved: every other command, and columns without views to print, write one document whose parse is the listing (for UTF-8 names)."
  },
  {
   "property": "C136",
   "status": "partial",
   "theorems": [
    "C136_lost_refuted",
    "C136_prefix_partial"
   ],
   "note": "Refuted: every write error is dropped, so a full disk is a success. Proved: what was written is a prefix of the whole output, and the returned error does not depend on the writer."
  },
  {
   "property": "C137",
   "status": "partial",
   "theorems": [
    "C137_reported",
    "C137_connect",
    "C137_half_printed_refuted",
    "C137_encoder_refuted",
    "C137_nothing_printed_partial"
   ],
   "note": "Refuted: columns --views prints the tables before it lists the views, and drops the error of the encoder. Proved: every listing or connection error is returned, and the other commands print nothing."
  },
  {
   "property": "C138",
   "status": "proved",
   "theorems": [
    "C138_tables",
    "C138_row_determines"
   ],
   "note": ""
  },
  {
   "property": "C139",
   "status": "partial",
   "theorems": [
    "C139_unknown_format_refuted"
   ],
   "note": "Refuted for every unknown name: it is treated as the text format."
  },
  {
   "property": "C140",
   "status": "proved",
   "theorems": [
    "C140_source"
   ],
   "note": ""
  },
  {
   "property": "C141",
   "status": "proved",
   "theorems": [
    "C141_exec",
    "C141_query_row",
    "C141_exec_and_close",
    "C141_query_row_and_close",
    "C141_query_and_close"
   ],
   "note": ""
  },
  {
   "property": "C142",
   "status": "partial",
   "theorems": [
    "C142_panic_refuted",
    "C142_no_panic_partial"
   ],
   "note": "Refuted: no defer, a panicking handler leaves rows and statement open. Proved: every other end closes once and releases once."
  },
  {
   "property": "C143",
   "status": "partial",
   "theorems": [
    "C143_options_refuted",
    "C143_default_partial",
    "C143_exact_partial",
    "C143_started_partial"
   ],
   "note": "Refuted for every non-default option: prov.go passes nil to the database. Proved for nil and default options."
  },
  {
   "property": "C144",
   "status": "partial",
   "theorems": [
    "C144_value_refuted",
    "C144_value_partial",
    "C144_int_partial",
    "C144_panics_partial"
   ],
   "note": "Refuted for negative and >= 2^32 ints, which wrap. Proved: the value when it fits, its remainder modulo 2^32 otherwise, panic exactly for other types."
  },
  {
   "property": "C145",
   "status": "partial",
   "theorems": [
    "C145_values_refuted",
    "C145_values_partial",
    "C145_injective",
    "C145_exact_partial"
   ],
   "note": "Refuted for uint32 enums >= 2^31, which become negative. Proved: exact for int32 values, injective and in range for all."
  },
  {
   "property": "C146",
   "status": "partial",
   "theorems": [
    "C146_kept_row_refuted",
    "C146_two_rows_refuted",
    "C146_kept_row_partial",
    "C146_exact_partial"
   ],
   "note": "Refuted: Set has a value receiver, so on any row but the first the separator is lost when the result of Set is not kept; two NewRow calls before a Set make one row. Proved for one row and for rows of one value. Exactly (C146_exact_partial): which rows are kept."
  },
  {
   "property": "C147",
   "status": "partial",
   "theorems": [
    "C147_last_set",
    "C147_started",
    "C147_custom_refuted"
   ],
   "note": "Refuted: a dialect of any other type than *Dialect makes atomic.Value panic. Proved: after any history the last standard dialect that was set is used."
  },
  {
   "property": "C148",
   "status": "partial",
   "theorems": [
    "C148_string",
    "C148_quoted_injective",
    "C148_json_refuted",
    "C148_json_partial",
    "C148_json_exact_partial"
   ],
   "note": "Refuted: quotes, backslashes and control characters are not escaped. Proved: texts, injectivity, JSON for plain texts."
  },
  {
   "property": "C149",
   "status": "proved",
   "theorems": [
    "C149_keys",
    "C149_ordered_keys",
    "C149_range",
    "C149_range_ordered"
   ],
   "note": ""
  },
  {
   "property": "C150",
   "status": "partial",
   "theorems": [
    "C150_zone_free",
    "C150_in_utc",
    "C150_instants",
    "C150_made_in_utc_partial",
    "C150_json_refuted",
    "C150_json_exact_partial"
   ],
   "note": "Refuted: UnmarshalJSON keeps the zone of the text, so the Time is not == to the same instant. Proved: all outputs are in UTC and depend only on the instant; all other constructors give UTC."
  },
  {
   "property": "C151",
   "status": "partial",
   "theorems": [
    "C151_args",
    "C151_independent",
    "C151_callers_slices",
    "C151_callers_slices_forever",
    "C151_args_slice",
    "C151_calls",
    "C151_own_tail_refuted",
    "C151_insert"
   ],
   "note": "Proved for all programs that do not use closed statements or lost slices; refuted for a part of a statement's own Args() that starts behind the place of insertion (overwritten while copied when the array has room). Dest works through the same insertAt."
  },
  {
   "property": "C152",
   "status": "partial",
   "theorems": [
    "C152_tables_partial",
    "C152_partitioned_refuted",
    "C152_expression_refuted",
    "C152_same_index_name_refuted",
    "C152_same_index_name_key_refuted"
   ],
   "note": "Proved when index names are unique in the database and names are plain; refuted for partitioned tables (no indexes, no key), expression indexes (not listed) and indexes of the same name in two schemas (panic, or the primary key is lost)."
  },
  {
   "property": "C153",
   "status": "partial",
   "theorems": [
    "C153_fks_partial",
    "C153_composite_refuted",
    "C153_same_name_refuted",
    "C153_products_partial",
    "C153_exact_partial"
   ],
   "note": "Proved for one-column keys with names unique in the database; refuted for every composite key (crossed pairs) and for keys of the same name (each refers to both tables). Exactly (C153_exact_partial, C153_products_partial): the answer holds, for every key name, the product of the columns and referenced columns of all keys of that name."
  },
  {
   "property": "C154",
   "status": "partial",
   "theorems": [
    "C154_views_partial",
    "C154_no_columns_refuted"
   ],
   "note": "Proved when each view has a column; a single view without columns makes every ListViews fail."
  },
  {
   "property": "C155",
   "status": "partial",
   "theorems": [
    "C155_tables_partial",
    "C155_description_refuted",
    "C155_index_descriptions_refuted",
    "C155_listed_partial",
    "C155_markup_refuted",
    "C155_markup_partial",
    "C155_key_order_refuted"
   ],
   "note": "Proved for databases without extended properties and without markup in column names, index columns as a set; refuted: described tables vanish, described indexes duplicate the table, markup panics, columns are not in key order. Exactly (C155_listed_partial): how often each table is listed."
  },
  {
   "property": "C156",
   "status": "partial",
   "theorems": [
    "C156_views_partial",
    "C156_table_refuted",
    "C156_columns_refuted",
    "C156_exact_partial"
   ],
   "note": "Proved when no table or other view has a view's name; refuted otherwise. Exactly (C156_exact_partial): the view rows are those of every table or view with a view's name."
  },
  {
   "property": "C157",
   "status": "proved",
   "theorems": [
    "C157_fks"
   ],
   "note": ""
  },
  {
   "property": "C158",
   "status": "proved",
   "theorems": [
    "C158_names",
    "C158_unique"
   ],
   "note": ""
  },
  {
   "property": "C159",
   "status": "proved",
   "theorems": [
    "C159_package",
    "C159_clause"
   ],
   "note": ""
  },
  {
   "property": "C160",
   "status": "partial",
   "theorems": [
    "C160_literal_partial",
    "C160_quote_refuted",
    "C160_exact_partial"
   ],
   "note": "Names and types without quotes, backslashes and newlines; a quote in a name breaks the literal (C160_quote_refuted)."
  },
  {
   "property": "C161",
   "status": "partial",
   "theorems": [
    "C161_round_trip_partial",
    "C161_no_credentials_partial",
    "C161_no_query_partial",
    "C161_every_text_partial",
    "C161_many_refuted"
   ],
   "note": "net/url of Go 1.26 is modelled in full except bracketed (IPv6) hosts, which are a parameter. With more than 10000 parameters none is reported and there is no error (C161_many_refuted)."
  },
  {
   "property": "C162",
   "status": "partial",
   "theorems": [
    "C162_raw_partial",
    "C162_escapes_partial",
    "C162_slash_refuted",
    "C162_percent_refuted"
   ],
   "note": "Proved, with the exact set of accepted characters, when / ? # % do not occur; refuted by a slash after digits (another host, no credentials) and by a percent sign before two hexadecimal digits (another password)."
  },
  {
   "property": "C163",
   "status": "partial",
   "theorems": [
    "C163_parameters_partial",
    "C163_total_partial",
    "C163_dropped_refuted"
   ],
   "note": "The exact parameters reported are given for every query of at most 10000 parts; a part with a ';' or a wrong escape is dropped without an error (C163_dropped_refuted)."
  },
  {
   "property": "C164",
   "status": "partial",
   "theorems": [
    "C164_open_partial",
    "C164_database_partial",
    "C164_drivers",
    "C164_quotes_refuted",
    "C164_reference_refuted"
   ],
   "note": "Proved when the resolved and trimmed text is not quoted again and is not a reference itself; refuted for quotes within quotes and for a reference to a reference. configloader.ResolveValue is a parameter."
  },
  {
   "property": "C165",
   "status": "partial",
   "theorems": [
    "C165_tag_partial",
    "C165_comma_refuted"
   ],
   "note": "For names without quotes, backslashes and commas; with a comma two different columns have the same tag (C165_comma_refuted)."
  },
  {
   "property": "C166",
   "status": "proved",
   "theorems": [
    "C166_scan",
    "C166_json",
    "C166_range"
   ],
   "note": ""
  },
  {
   "property": "C167",
   "status": "proved",
   "theorems": [
    "C167_error_keeps",
    "C167_accepts_only"
   ],
   "note": ""
  },
  {
   "property": "C168",
   "status": "partial",
   "theorems": [
    "C168_integer_refuted",
    "C168_integer_partial",
    "C168_exact_partial"
   ],
   "note": "False above 2^53 (refuted: 2^53 + 1). Proved: always the nearest float64, ties to even, and exact up to 2^53."
  },
  {
   "property": "C169",
   "status": "proved",
   "theorems": [
    "C169_float32",
    "C169_float64"
   ],
   "note": ""
  },
  {
   "property": "C170",
   "status": "partial",
   "theorems": [
    "C170_json_refuted",
    "C170_json_partial",
    "C170_string",
    "C170_exact_partial",
    "C170_special_partial"
   ],
   "note": "False for NaN and the infinities, whose texts NaN, +Inf, -Inf are not JSON (refuted). Proved for every finite value. Their texts are exactly those three, and UnmarshalJSON reads them back (C170_special_partial)."
  },
  {
   "property": "C171",
   "status": "proved",
   "theorems": [
    "C171_order"
   ],
   "note": ""
  },
  {
   "property": "C172",
   "status": "proved",
   "theorems": [
    "C172_scan_text",
    "C172_scan_other"
   ],
   "note": "lib/pq's parseArray/scanLinearArray and strconv.ParseInt are modelled from their documented source, outside /repo."
  },
  {
   "property": "C173",
   "status": "proved",
   "theorems": [
    "C173_one",
    "C173_closed",
    "C173_db",
    "C173_error"
   ],
   "note": ""
  },
  {
   "property": "C174",
   "status": "partial",
   "theorems": [
    "C174_status",
    "C174_once",
    "C174_closed_partial",
    "C174_failed_refuted",
    "C174_closed_iff_partial"
   ],
   "note": "Status proved. Closing refuted for every command that fails after connecting: os.Exit does not run the deferred Close. Proved for every other end. kong's parser is an argument of the model. A usage error exits with 80 (main_test.go), any other failure with 1."
  },
  {
   "property": "C175",
   "status": "proved",
   "theorems": [
    "C175_sent",
    "C175_object",
    "C175_other",
    "C175_raw"
   ],
   "note": "Proved with the modelled json.Unmarshal and ParseFloat (exponents below 100000 in absolute value, where strconv stops counting). The text of a float64 is any JSON number that ParseFloat reads back, which encoding/json's shortest form is."
  },
  {
   "property": "C176",
   "status": "partial",
   "theorems": [
    "C176_overflow_refuted",
    "C176_exact_partial"
   ],
   "note": "False of the code: the error of json.Unmarshal is only logged, and for an object with a number beyond float64 (1e400) the map is already filled, with nil for that number (refuted). Numbers out of range are proved to be the only such case."
  },
  {
   "property": "C177",
   "status": "proved",
   "theorems": [
    "C177_integers",
    "C177_unsigned",
    "C177_other"
   ],
   "note": ""
  },
  {
   "property": "C178",
   "status": "partial",
   "theorems": [
    "C178_pg_json_partial",
    "C178_pg_text_partial",
    "C178_pg_views_partial",
    "C178_pg_fks_partial",
    "C178_ms_json_partial",
    "C178_dependencies_partial"
   ],
   "note": "Partial for the reasons of C152, C153, C155 and C65 (partitioned tables and expression indexes, foreign keys of several columns, descriptions in SQL Server, a column in two foreign keys); names must be UTF-8 for the JSON output."
  },
  {
   "property": "C179",
   "status": "partial",
   "theorems": [
    "C179_row_partial",
    "C179_value_partial",
    "C179_fails",
    "C179_refuted",
    "C179_used_refuted"
   ],
   "note": "Refuted in full: a Float keeps millionths only, empty slices come back nil (omitempty), bytes that are not UTF-8 are replaced, NaN and infinities fail, and decoding into a used struct keeps what it held in fields that were zero in the row. Proved: everything else comes back, the exact set of failures."
  },
  {
   "property": "C180",
   "status": "proved",
   "theorems": [
    "C180_members",
    "C180_others",
    "C180_not_object",
    "C180_unknown"
   ],
   "note": ""
  },
  {
   "property": "C181",
   "status": "proved",
   "theorems": [
    "C181_grammar",
    "C181_unique",
    "C181_metadata",
    "C181_kvset",
    "C181_strings",
    "C181_refused",
    "C181_metadata_value",
    "C181_kvset_value",
    "C181_strings_value"
   ],
   "note": ""
  },
  {
   "property": "C182",
   "status": "proved",
   "theorems": [
    "C182_parse",
    "C182_other",
    "C182_unique",
    "C182_scan",
    "C182_json",
    "C182_json_refused"
   ],
   "note": ""
  },
  {
   "property": "C183",
   "status": "proved",
   "theorems": [
    "C183_grammar",
    "C183_refused",
    "C183_literal",
    "C183_infinity",
    "C183_nan",
    "C183_json",
    "C183_json_every"
   ],
   "note": ""
  },
  {
   "property": "C184",
   "status": "proved",
   "theorems": [
    "C184_hosts",
    "C184_lists",
    "C184_quotes"
   ],
   "note": ""
  },
  {
   "property": "C185",
   "status": "proved",
   "theorems": [
    "C185_round_trip",
    "C185_null",
    "C185_validate"
   ],
   "note": ""
  },
  {
   "property": "C186",
   "status": "proved",
   "theorems": [
    "C186_float",
    "C186_integers",
    "C186_texts",
    "C186_refused"
   ],
   "note": "[]byte for Float is C183, the texts of IDArray are C172, those of Metadata, KVSet and Strings C123."
  },
  {
   "property": "C187",
   "status": "partial",
   "theorems": [
    "C187_process_ends_refuted",
    "C187_separate_partial",
    "C187_own_provider_partial",
    "C187_all_return_partial",
    "C187_lost_index_refuted",
    "C187_nothing_found_partial"
   ],
   "note": "Refuted for two calls on one provider that both list tables or views (or both foreign keys) and find something: some schedule ends the process with a concurrent map write (C187_process_ends_refuted), and without that an index and the primary key may be attached to the other call's column (C187_lost_index_refuted). Proved, for any number of goroutines and any schedule: when a provider is shared at most by one lister of tables or views and one of foreign keys, in particular when each goroutine has its own, nothing ends the process, all calls can return and return what they return alone. Each goroutine's program, run alone, is proved to be the sequential model. The same when, besides, any number of listings of tables or keys that find nothing share the provider (C187_nothing_found_partial)."
  },
  {
   "property": "C188",
   "status": "partial",
   "theorems": [
    "C188_cursor",
    "C188_cursor_args",
    "C188_cursor_ends",
    "C188_offset_missed_refuted",
    "C188_offset_twice_refuted",
    "C188_offset_appended_partial",
    "C188_offset_exact_partial"
   ],
   "note": "Proved for cursor paging on a database that answers with the rows above the cursor in key order (keys identify rows), and that it ends when the keys are bounded (rows added at the end for ever can keep it going). Refuted for offset paging, for every page size: one deletion between two pages hides a row that was there all the time, one insertion shows a row twice. Proved for offset paging when rows are only added behind the last one. Exactly (C188_offset_exact_partial): page i is the i-th page of the table as it was at the time of request i, and the reading ends at the first page that is not full."
  },
  {
   "property": "C189",
   "status": "partial",
   "theorems": [
    "C189_first_partial",
    "C189_exact_partial",
    "C189_own_partial",
    "C189_first_page_refuted",
    "C189_null_columns_refuted",
    "C189_any_schedule_partial",
    "C189_own_any_schedule_partial",
    "C189_schedules_exact_partial"
   ],
   "note": "False as stated: the first page (offset 0) has the name of the query without a page and different sets of null columns may have one name, so the first request decides the text the others receive (two refutations). Proved: every request receives the text of the first request that had its name; all receive their own exactly if requests of one name have one text; and this holds when no null columns are used and the text follows from the query, the positions, the enums, the flags and the kind of paging. Proved also under every schedule of goroutines that share the dialect: a goroutine that returns has the text of some request with its name, and all have their own under every schedule exactly if requests of one name have one text. Missing: the sentence for first pages and null columns, where it is false."
  }
 ]
}