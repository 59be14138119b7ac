{
 "claims": [
  {
   "property": "C01",
   "status": "proved",
   "theorems": [
    "C01_parse_terminates",
    "C01_nesting_bounded_by_input"
   ],
   "note": "Fuel 2*length+2 always suffices (the model never diverges), and the call depth is bounded by the input length."
  },
  {
   "property": "C02",
   "status": "partial",
   "theorems": [
    "C02_never_panics_partial",
    "C02_no_unreachable",
    "C02_never_panics_refuted",
    "C02_panics_exactly",
    "C02_panics_need_overshoot",
    "C02_panics_where"
   ],
   "note": "False of the code: C02_never_panics_refuted (a BinaryArray of rank >= 2 whose null run overshoots drains out of range). Proved: unreachable!() is never reached, no input without both byte 7 and byte 13/14 panics (C02_never_panics_partial), and exactly which inputs panic (C02_panics_exactly): those in which the parser meets a BinaryArray whose values do not fill up its rows; such an array has at least two dimensions and a null run (C02_panics_need_overshoot). C02_panics_where says the same without any mention of the parser: the places where a record is expected are given by the rules of Stops.v."
  },
  {
   "property": "C03",
   "status": "proved",
   "theorems": [
    "C03_header_required",
    "C03_header_errors",
    "C03_first_byte",
    "C03_header_accepted",
    "C03_header_id_irrelevant"
   ],
   "note": "Exact: header accepted iff the four fields are as required; each wrong field gives its own error whatever follows."
  },
  {
   "property": "C04",
   "status": "proved",
   "theorems": [
    "C04_message_end_is_last",
    "C04_trailing_data",
    "C04_trailing_data_method",
    "C04_missing_message_end"
   ],
   "note": "MessageEnd is the last byte; trailing data gives the dedicated error for value and method messages."
  },
  {
   "property": "C05",
   "status": "partial",
   "theorems": [
    "C05_prefix_free_delimited_partial",
    "C05_prefix_free_partial",
    "C05_prefix_free_refuted",
    "C05_prefix_free_accepted_partial",
    "C05_no_cut_library",
    "C05_prefix_free_refuted_without_libraries"
   ],
   "note": "False of the code: C05_prefix_free_refuted (optional library look-ahead), and C05_prefix_free_refuted_without_libraries (leftovers of a record abandoned for lack of bytes). Proved for messages of the grammar, libraries included, in which no cut-off library record stands where the code looks for one (C05_prefix_free_delimited_partial), in particular if no suffix of the body is the beginning of a cut-off library record (C05_prefix_free_partial), and for everything accepted if in addition the byte 9 does not occur after the header (C05_prefix_free_accepted_partial). C05_no_cut_library: bodies without byte 12, or in which every byte 12 begins a complete library record, satisfy the condition."
  },
  {
   "property": "C06",
   "status": "proved",
   "theorems": [
    "C06_strings_borrowed"
   ],
   "note": "For every string anywhere in the message."
  },
  {
   "property": "C07",
   "status": "proved",
   "theorems": [
    "C07_strings_utf8",
    "C07_bad_utf8_rejected"
   ],
   "note": "For every string anywhere in the message, and rejection of malformed payloads."
  },
  {
   "property": "C08",
   "status": "proved",
   "theorems": [
    "C08_string_with_any_prefix",
    "C08_canonical_prefix",
    "C08_prefix_below_2_31",
    "C08_zero_padded",
    "C08_fifth_byte_above_7"
   ],
   "note": "Canonical and zero-padded prefixes, fifth byte, upper bound 2^31."
  },
  {
   "property": "C09",
   "status": "proved",
   "theorems": [
    "C09_strings_roundtrip",
    "C09_short_string_rejected",
    "C09_rest_untouched"
   ],
   "note": "Round trip, rest untouched, short payload rejected."
  },
  {
   "property": "C10",
   "status": "proved",
   "theorems": [
    "C10_primitives_roundtrip"
   ],
   "note": "All primitive types and all lists of values."
  },
  {
   "property": "C11",
   "status": "proved",
   "theorems": [
    "C11_values_in_range"
   ],
   "note": "For every value anywhere in the message."
  },
  {
   "property": "C12",
   "status": "proved",
   "theorems": [
    "C12_bad_boolean",
    "C12_good_booleans",
    "C12_bad_member",
    "C12_bad_typed_primitive",
    "C12_bad_element",
    "C12_bad_argument",
    "C12_bad_return_argument",
    "C12_bad_return_value",
    "C12_only_two"
   ],
   "note": "Both good bytes; all 254 bad ones (and malformed primitives of all other binary types) at every kind of position: elements of primitive arrays, typed members of classes and multi-dimensional arrays at any depth, typed primitives among untyped members, inline arguments and return values."
  },
  {
   "property": "C13",
   "status": "partial",
   "theorems": [
    "C13_chars_one_byte_partial",
    "C13_ascii_partial",
    "C13_non_ascii_refuted"
   ],
   "note": "False of the code for non-ASCII characters (C13_non_ascii_refuted): one byte, Latin-1. Proved: ASCII is read correctly, a Char always takes exactly one byte."
  },
  {
   "property": "C14",
   "status": "proved",
   "theorems": [
    "C14_object_id_of_record",
    "C14_object_id_of_class",
    "C14_library_id",
    "C14_library_id_of_class",
    "C14_array_length",
    "C14_member_count",
    "C14_rank",
    "C14_dimension",
    "C14_member_reference"
   ],
   "note": "Ids, counts, ranks, dimensions at every position that is reached, with error kind and error position."
  },
  {
   "property": "C15",
   "status": "partial",
   "theorems": [
    "C15_primitive_members_partial",
    "C15_no_library_partial",
    "C15_primitive_members_refuted",
    "C15_silently_changed"
   ],
   "note": "False of the code for values that start with byte 12 (C15_primitive_members_refuted, C15_silently_changed). Proved for all others (C15_primitive_members_partial), and more generally whenever no member together with what follows reads as a library record (C15_no_library_partial)."
  },
  {
   "property": "C16",
   "status": "proved",
   "theorems": [
    "C16_object_is_as_declared",
    "C16_library_class",
    "C16_repeated_names"
   ],
   "note": "System and library classes with single-value members; repeated names too."
  },
  {
   "property": "C17",
   "status": "proved",
   "theorems": [
    "C17_duplicate_library",
    "C17_duplicate_library_member",
    "C17_duplicate_library_class",
    "C17_library_is_fixed"
   ],
   "note": "In front of records, classes and members; and the library name of an object is the declared one."
  },
  {
   "property": "C18",
   "status": "partial",
   "theorems": [
    "C18_library_before_non_class",
    "C18_library_before_array_refuted"
   ],
   "note": "False of the code: C18_library_before_array_refuted; C18_library_before_non_class shows every such message is rejected."
  },
  {
   "property": "C19",
   "status": "partial",
   "theorems": [
    "C19_class_with_id_rejected",
    "C19_class_with_id_rejected_member",
    "C19_class_reuse_refuted"
   ],
   "note": "False of the code: C19_class_reuse_refuted; every reached ClassWithId record is rejected."
  },
  {
   "property": "C20",
   "status": "partial",
   "theorems": [
    "C20_later_definition_wins",
    "C20_duplicate_ids_refuted"
   ],
   "note": "False of the code: C20_duplicate_ids_refuted; C20_later_definition_wins states what happens instead."
  },
  {
   "property": "C21",
   "status": "proved",
   "theorems": [
    "C21_earlier_record",
    "C21_next_record",
    "C21_missing_record",
    "C21_other_record"
   ],
   "note": "Earlier record, next record, other record in between, missing record."
  },
  {
   "property": "C22",
   "status": "partial",
   "theorems": [
    "C22_second_reference_rejected",
    "C22_shared_objects_refuted"
   ],
   "note": "False of the code: C22_shared_objects_refuted; C22_second_reference_rejected states what happens instead."
  },
  {
   "property": "C23",
   "status": "proved",
   "theorems": [
    "C23_cycle_rejected",
    "C23_self_reference_rejected"
   ],
   "note": "Cycles of any length through reference chains, and self references of classes with any other members, under the hypotheses in the property text."
  },
  {
   "property": "C24",
   "status": "proved",
   "theorems": [
    "C24_root_zero",
    "C24_root_record",
    "C24_root_string",
    "C24_root_kept",
    "C24_referenced_root"
   ],
   "note": "Root zero, root kept, root taken by a reference, root of any kind of record."
  },
  {
   "property": "C25",
   "status": "partial",
   "theorems": [
    "C25_primitive_array",
    "C25_array_of_items",
    "C25_array_of_trees",
    "C25_too_few",
    "C25_primitive_too_few",
    "C25_declared_length_refuted"
   ],
   "note": "False of the code when a null run overshoots (C25_declared_length_refuted). Proved: primitive arrays exact, object/string arrays exact when null runs fit, too few elements rejected."
  },
  {
   "property": "C26",
   "status": "partial",
   "theorems": [
    "C26_shape_unique",
    "C26_shape",
    "C26_empty",
    "C26_overflow",
    "C26_zero_length_refuted"
   ],
   "note": "Shape proved for all positive lengths (C26_shape, C26_shape_unique, C26_overflow); false of the code for a zero length after the first dimension (C26_zero_length_refuted)."
  },
  {
   "property": "C27",
   "status": "proved",
   "theorems": [
    "C27_lower_bounds_irrelevant",
    "C27_negative_lower_bound"
   ],
   "note": "Any non-negative lower bounds; negative ones rejected."
  },
  {
   "property": "C28",
   "status": "partial",
   "theorems": [
    "C28_linear_accepted_partial",
    "C28_linear_partial",
    "C28_bound_accepted_partial",
    "C28_bound_quadratic_partial",
    "C28_bound_always_partial",
    "C28_solid_values_partial",
    "C28_bound_linear_partial",
    "C28_ranks_always",
    "C28_ranks_absent",
    "C28_bound_partial",
    "C28_runs_always",
    "C28_runs_absent",
    "C28_null_run",
    "C28_proportional_refuted",
    "C28_quadratic"
   ],
   "note": "False of the code: C28_null_run, C28_proportional_refuted. Proved for every accepted message: at most 2 B (R+1) n values for n bytes, with B nulls per byte of a null run and R dimensions of an array besides the first (C28_linear_accepted_partial, half of it for messages of the grammar: C28_bound_linear_partial); so at most 2 n without null runs and BinaryArray records (C28_linear_partial), and at most quadratic without null runs alone (C28_bound_quadratic_partial; C28_quadratic: this is needed); C28_bound_always_partial: without conditions. Values that are neither null nor an array: at most 2 n always (C28_solid_values_partial)."
  },
  {
   "property": "C29",
   "status": "proved",
   "theorems": [
    "C29_null_count_256",
    "C29_null_count",
    "C29_positive_count"
   ],
   "note": "Both record kinds, all counts."
  },
  {
   "property": "C30",
   "status": "partial",
   "theorems": [
    "C30_members_in_order",
    "C30_without_runs",
    "C30_own_values_refuted"
   ],
   "note": "False of the code when a null run is among the members (C30_own_values_refuted); proved when there is none, and what happens in general (C30_members_in_order)."
  },
  {
   "property": "C31",
   "status": "proved",
   "theorems": [
    "C31_wrong_system_class",
    "C31_wrong_class",
    "C31_no_class",
    "C31_unknown_library"
   ],
   "note": "Class name, library, and null instead of the object."
  },
  {
   "property": "C32",
   "status": "partial",
   "theorems": [
    "C32_rejected",
    "C32_accepted",
    "C32_accepted_iff",
    "C32_all_rules_refuted"
   ],
   "note": "False of the code for ReturnValueInline (C32_all_rules_refuted); C32_accepted_iff gives the exact rule the code enforces."
  },
  {
   "property": "C33",
   "status": "proved",
   "theorems": [
    "C33_inline",
    "C33_args_is_array",
    "C33_args_in_array",
    "C33_unused_array",
    "C33_missing_array",
    "C33_not_an_array",
    "C33_origin"
   ],
   "note": "All three argument flags, context, names; missing or non-array call array rejected."
  },
  {
   "property": "C34",
   "status": "proved",
   "theorems": [
    "C34_inline",
    "C34_args_is_array",
    "C34_args_in_array",
    "C34_unused_array",
    "C34_missing_array",
    "C34_not_an_array",
    "C34_origin"
   ],
   "note": "Return value, args and context."
  },
  {
   "property": "C35",
   "status": "proved",
   "theorems": [
    "C35_wrong_id"
   ],
   "note": "Any call array with a different id is rejected."
  },
  {
   "property": "C36",
   "status": "proved",
   "theorems": [
    "C36_error_position"
   ],
   "note": "For every error of every input."
  },
  {
   "property": "C37",
   "status": "proved",
   "theorems": [
    "C37_date_time",
    "C37_date_time_unique",
    "C37_time_span"
   ],
   "note": "All 2^64 raw values."
  },
  {
   "property": "C38",
   "status": "partial",
   "theorems": [
    "C38_inline_string_partial",
    "C38_no_string",
    "C38_null_string_refuted",
    "C38_string_reference_refuted"
   ],
   "note": "False of the code: C38_null_string_refuted, C38_string_reference_refuted; proved for inline strings, everything else is rejected (C38_no_string)."
  },
  {
   "property": "C39",
   "status": "partial",
   "theorems": [
    "C39_grammar_accepted",
    "C39_unique",
    "C39_exact_without_references",
    "C39_accepted_partial",
    "C39_grammar_only_refuted",
    "C39_accepts_exactly",
    "C39_accepts_unique"
   ],
   "note": "Everything derivable is accepted (C39_grammar_accepted), uniquely (C39_unique), and exact for messages without member references (C39_exact_without_references). The converse is false in general (C39_grammar_only_refuted: leftovers of abandoned records, see C48); C39_accepted_partial describes all accepted messages with the leftovers made explicit, and C39_accepts_exactly gives the accepted byte strings and their results by rules (Stops.v) that do not mention the parser: where a record stops being well-formed and what it leaves behind."
  },
  {
   "property": "C40",
   "status": "proved",
   "theorems": [
    "C40_depth",
    "C40_depth_bound",
    "C40_depth_bound_grammar",
    "C40_four_bytes_per_level"
   ],
   "note": "Explicit family of messages (C40_depth); depth at most half the length (C40_depth_bound) for everything accepted, a quarter for messages of the grammar (C40_depth_bound_grammar), and a quarter is reached (C40_four_bytes_per_level)."
  },
  {
   "property": "C41",
   "status": "proved",
   "theorems": [
    "C41_wrapper_is_value",
    "C41_wrapper_is_value_slice",
    "C41_other_members_rejected",
    "C41_other_members_rejected_slice",
    "C41_library_classes_rejected",
    "C41_library_classes_rejected_slice"
   ],
   "note": "All wrapper classes, values and non-struct targets, also nested in Option; any other member layout rejected, and so are objects of a class with such a name that comes from a library (C41_library_classes_rejected)."
  },
  {
   "property": "C42",
   "status": "proved",
   "theorems": [
    "C42_integer_value",
    "C42_integer_targets"
   ],
   "note": "All integer values, wrapped or not, and all ten integer targets."
  },
  {
   "property": "C43",
   "status": "proved",
   "theorems": [
    "C43_vec",
    "C43_tuple",
    "C43_array",
    "C43_vec_slice",
    "C43_array_slice"
   ],
   "note": "Vec, tuples and arrays, at any depth and at top level."
  },
  {
   "property": "C44",
   "status": "partial",
   "theorems": [
    "C44_list_partial",
    "C44_wrong_size",
    "C44_one_missing",
    "C44_array",
    "C44_other_members_rejected",
    "C44_size_refuted"
   ],
   "note": "False of the code for _size = items + 1 (C44_size_refuted, C44_one_missing); proved for all other sizes and for tuples; other member layouts rejected."
  },
  {
   "property": "C45",
   "status": "partial",
   "theorems": [
    "C45_option",
    "C45_top_level",
    "C45_top_level_refuted"
   ],
   "note": "Proved inside values (C45_option); false of the code at the top level (C45_top_level_refuted), C45_top_level gives the exact behaviour."
  },
  {
   "property": "C46",
   "status": "proved",
   "theorems": [
    "C46_method_messages_rejected"
   ],
   "note": "All targets."
  },
  {
   "property": "C47",
   "status": "partial",
   "theorems": [
    "C47_struct_value",
    "C47_struct",
    "C47_missing_field",
    "C47_unknown_members",
    "C47_unknown_members_refuted"
   ],
   "note": "Exact characterisation proved (C47_struct, C47_unknown_members, C47_missing_field); that unknown members are always ignored is false of the code (C47_unknown_members_refuted)."
  },
  {
   "property": "C48",
   "status": "partial",
   "theorems": [
    "C48_unreadable_rejected_partial",
    "C48_no_trace_refuted",
    "C48_unreadable_exactly"
   ],
   "note": "False of the code: C48_no_trace_refuted. Proved when the byte 9 does not occur from the unreadable record on, whatever precedes it. C48_unreadable_exactly says exactly when a message with an unreadable record is accepted: if this record and the rest can be read after all with the tables that the failed attempt left behind."
  },
  {
   "property": "C49",
   "status": "proved",
   "theorems": [
    "C49_member_order"
   ],
   "note": "All targets and all iteration orders at every depth."
  },
  {
   "property": "C50",
   "status": "partial",
   "theorems": [
    "C50_newtype",
    "C50_enum_never",
    "C50_transparent_refuted"
   ],
   "note": "False of the code: C50_transparent_refuted, C50_enum_never; C50_newtype gives the exact behaviour."
  },
  {
   "property": "C51",
   "status": "proved",
   "theorems": [
    "C51_map"
   ],
   "note": "Exact for all ordinary objects."
  },
  {
   "property": "C52",
   "status": "proved",
   "theorems": [
    "C52_borrowed"
   ],
   "note": "At every depth of the result."
  },
  {
   "property": "C53",
   "status": "proved",
   "theorems": [
    "C53_string_as_char",
    "C53_chars"
   ],
   "note": "All strings and char arrays."
  },
  {
   "property": "C54",
   "status": "proved",
   "theorems": [
    "C54_texts_distinct",
    "C54_slice_texts",
    "C54_reported_kinds"
   ],
   "note": "Both directions: every listed kind has a message, no other kind is ever reported."
  },
  {
   "property": "C55",
   "status": "proved",
   "theorems": [
    "C55_results",
    "C55_only"
   ],
   "note": "Both directions; the restriction on results holds without the size limits (C55_only)."
  },
  {
   "property": "C56",
   "status": "proved",
   "theorems": [
    "C56_exact"
   ],
   "note": "Both directions, for every parsed message and every type; assumes only that Display of a decimal is UTF-8 (it is a Rust String)."
  },
  {
   "property": "C57",
   "status": "proved",
   "theorems": [
    "C57_results_typed"
   ],
   "note": "At every depth of the result."
  },
  {
   "property": "C58",
   "status": "proved",
   "theorems": [
    "C58_parse_failures"
   ],
   "note": "All types."
  },
  {
   "property": "C59",
   "status": "proved",
   "theorems": [
    "C59_equal",
    "C59_symmetric",
    "C59_transitive",
    "C59_reflexive",
    "C59_order"
   ],
   "note": "== of rust_decimal::Decimal is taken to be numerical, as it documents."
  },
  {
   "property": "C60",
   "status": "proved",
   "theorems": [
    "C60_outcomes",
    "C60_refused_exactly",
    "C60_never_both"
   ],
   "note": "C60_outcomes: accepted, panicking and refused inputs, by the rules of Stops.v, Ragged.v and Panics.v; C60_refused_exactly; C60_never_both."
  },
  {
   "property": "C61",
   "status": "proved",
   "theorems": [
    "C61_self_describing",
    "C61_whenever_skippable",
    "C61_vec",
    "C61_map"
   ],
   "note": "C61_self_describing (against the relation describes), C61_whenever_skippable, C61_vec, C61_map."
  },
  {
   "property": "C62",
   "status": "proved",
   "theorems": [
    "C62_error_exactly",
    "C62_one_error",
    "C62_refused_by_rule",
    "C62_within",
    "C62_from_slice"
   ],
   "note": "C62_error_exactly: kind and position of every error, against the rules of Blame.v; C62_one_error, C62_refused_by_rule, C62_from_slice."
  },
  {
   "property": "C63",
   "status": "proved",
   "theorems": [
    "C63_counts_the_parser",
    "C63_work_linear",
    "C63_every_byte_counted",
    "C63_bytes_quadratic"
   ],
   "note": "C63_work_linear: the bound for every input; C63_counts_the_parser: the counted parser (Work.v) computes the parser's results; C63_every_byte_counted: the account covers every byte of an accepted message; C63_bytes_quadratic: a quadratic bound if calls that give up are charged for the whole input."
  },
  {
   "property": "C64",
   "status": "proved",
   "theorems": [
    "C64_steps",
    "C64_rules",
    "C64_unique",
    "C64_parse_error",
    "C64_calls",
    "C64_returns",
    "C64_targets"
   ],
   "note": "C64_rules: both directions, for every world of implementations (Visitors.v) and every enumeration order; C64_unique, C64_steps; C64_targets: the types of Serde.v, written as visitors (TargetWorld.v), give the results of Serde.v."
  },
  {
   "property": "C65",
   "status": "proved",
   "theorems": [
    "C65_terminates",
    "C65_no_panic",
    "C65_answers"
   ],
   "note": "C65_terminates, C65_no_panic, C65_answers; both hypotheses are necessary (C65_endless_ex, C65_disorderly_ex); target_ends and target_orderly: the standard and derived types meet them."
  },
  {
   "property": "C66",
   "status": "proved",
   "theorems": [
    "C66_whole_array",
    "C66_whole_object",
    "C66_whole_list"
   ],
   "note": "C66_whole_array, C66_whole_object, C66_whole_list."
  },
  {
   "property": "C67",
   "status": "proved",
   "theorems": [
    "C67_array",
    "C67_object"
   ],
   "note": "C67_array, C67_object: for every implementation; the texts are part of the rules (VisitorSpec.v)."
  },
  {
   "property": "C68",
   "status": "partial",
   "theorems": [
    "C68_list_partial",
    "C68_list_refuted"
   ],
   "note": "C68_list_partial: if there are enough items (the size plus the items that could not be read). Otherwise false of the code: the answer 'no more' is counted as an element (C68_list_refuted: four items, size 6, the text says 5)."
  },
  {
   "property": "C69",
   "status": "partial",
   "theorems": [
    "C69_renaming_partial",
    "C69_renaming_12_partial",
    "C69_every_message",
    "C69_renaming_refuted"
   ],
   "note": "C69_renaming_partial (no member value together with what follows looks like a library record), C69_renaming_12_partial (no member value starts with byte 12), for every message of the grammar (C69_every_message). Otherwise false of the code: C69_renaming_refuted, two messages that differ only in one object id, of which one is rejected (a consequence of the finding of C15)."
  },
  {
   "property": "C70",
   "status": "proved",
   "theorems": [
    "C70_tables",
    "C70_stranger"
   ],
   "note": "C70_tables for the general statement; C70_stranger for the record that may be inserted or left out."
  },
  {
   "property": "C71",
   "status": "partial",
   "theorems": [
    "C71_order_partial",
    "C71_order_12_partial",
    "C71_order_refuted"
   ],
   "note": "C71_order_partial (no member value together with what follows looks like a library record), C71_order_12_partial (no member value starts with byte 12). Otherwise false of the code: C71_order_refuted, the same three independent records in two orders, of which one is rejected (a consequence of the finding of C15)."
  },
  {
   "property": "C72",
   "status": "partial",
   "theorems": [
    "C72_relabelling_partial",
    "C72_relabelling_12_partial",
    "C72_relabelling_refuted"
   ],
   "note": "C72_relabelling_partial (no new member value together with what follows looks like a library record), C72_relabelling_12_partial (no new member value starts with byte 12). Otherwise false of the code: C72_relabelling_refuted, an object that is rejected once its Int32 member 13 is replaced by 12 (a consequence of the finding of C15)."
  },
  {
   "property": "C73",
   "status": "proved",
   "theorems": [
    "C73_receivable",
    "C73_only"
   ],
   "note": "C73_receivable: both directions (the exceptions are in the statement; None-only Options at the top level are the finding of C45); C73_only: the restriction without the size limits. Assumes, as C56, that Display of a decimal is UTF-8."
  },
  {
   "property": "C74",
   "status": "partial",
   "theorems": [
    "C74_reported",
    "C74_right_exactly",
    "C74_full_seconds",
    "C74_dates_refuted",
    "C74_raw_partial"
   ],
   "note": "C74_raw_partial: read as i64 by from_slice, a date is the value .NET wrote. The accessors are false of the code: they take the two low bits for the kind and the upper 62 for the ticks (C74_reported: what they report; C74_right_exactly: only two instants are right; C74_full_seconds: no date on a full second reports a zone; C74_dates_refuted: 2021-01-01T00:00:00Z). The layout is that of .NET's DateTime.ToBinary and MS-NRBF 2.1.1.5, from memory: neither is in the sandbox."
  },
  {
   "property": "C75",
   "status": "partial",
   "theorems": [
    "C75_call_record_partial",
    "C75_return_record_partial",
    "C75_array_kept_partial",
    "C75_array_lost",
    "C75_array_rest_lost",
    "C75_return_value_refuted"
   ],
   "note": "C75_call_record_partial and C75_return_record_partial: what the record holds inline; C75_array_kept_partial: the call array, if ArgsIsArray is set. Otherwise false of the code: C75_array_lost and C75_array_rest_lost (no matter what the call array holds, apart from the arguments, the result is the same), C75_return_value_refuted (two returns with ReturnValueInArray and different values)."
  },
  {
   "property": "C76",
   "status": "partial",
   "theorems": [
    "C76_null_runs_partial",
    "C76_null_runs_12_partial",
    "C76_binary_array_refuted"
   ],
   "note": "C76_null_runs_partial (no member value together with what follows looks like a library record) and C76_null_runs_12_partial (no member value starts with byte 12), for ArraySingleObject and ArraySingleString. In BinaryArray records it is false of the code, which takes a run for one element there: C76_binary_array_refuted, two nulls one by one and in one run; the latter is rejected."
  },
  {
   "property": "C77",
   "status": "partial",
   "theorems": [
    "C77_reference_partial",
    "C77_null_partial",
    "C77_reference_rejected",
    "C77_null_rejected",
    "C77_reference_refuted",
    "C77_null_refuted"
   ],
   "note": "C77_reference_partial and C77_null_partial: references as members declared as objects or arrays, nulls as members declared as objects, with a class, or as object or string arrays. For the other types it is false of the code: C77_reference_rejected and C77_null_rejected (at any depth, all such members are rejected), C77_reference_refuted (a member declared with a class, by reference, as .NET writes nested objects), C77_null_refuted (a null for an array of primitive values)."
  },
  {
   "property": "C78",
   "status": "partial",
   "theorems": [
    "C78_libraries_partial",
    "C78_libraries_12_partial",
    "C78_libraries_refuted"
   ],
   "note": "C78_libraries_partial (no member value together with what follows looks like a library record, the condition of C69); C78_libraries_12_partial: in particular for all messages without such values. Without the condition it is false of the code (C78_libraries_refuted: the Int32 12 followed by a library record is read as a library record)."
  },
  {
   "property": "C79",
   "status": "proved",
   "theorems": [
    "C79_inside",
    "C79_struct",
    "C79_otherwise"
   ],
   "note": "C79_struct: from_slice at a derived struct type, in an arbitrary world of types (Visitors.v), returns u exactly if struct_value (Derive.v) says so; C79_inside: the same for objects inside of a message; C79_otherwise: if the types involved come to an end and follow serde's protocol, everything else is an error. What serde_derive generates is part of the model (Derive.v: derives); flatten and tagged or untagged enums are not covered."
  },
  {
   "property": "C80",
   "status": "partial",
   "theorems": [
    "C80_equal_partial",
    "C80_decimal_refuted"
   ],
   "note": "C80_equal_partial: for all messages in which decimals that are equal numbers have the same text, all standard and derived types (SerdeSpec.v's targets). Otherwise false of the code, which reads a Decimal as its text: C80_decimal_refuted, [1.0] == [1.00] but not as Vec<String> (for every decimal library that keeps trailing zeros, as rust_decimal does, from memory). Assumes of Rust's casts that they keep equality and of Display of a decimal that it is UTF-8. Equality of results is Rust's == (EqualData.v)."
  },
  {
   "property": "C81",
   "status": "proved",
   "theorems": [
    "C81_received",
    "C81_rules",
    "C81_typed",
    "C81_from_slice",
    "C81_methods",
    "C81_order",
    "C81_own_types",
    "C81_own_types_unique",
    "C81_own_types_answers"
   ],
   "note": "C81_rules (the standard and derived types), C81_own_types and C81_own_types_unique (every implementation, every order of the members), C81_typed, C81_order, C81_methods, C81_own_types_answers (types that come to an end and follow serde's protocol get an answer from every message); C81_received and C81_from_slice: received messages are among them. What a program can build: Made.v. Assumes, as C56, that Display of a decimal is UTF-8."
  },
  {
   "property": "C82",
   "status": "proved",
   "theorems": [
    "C82_wider_types",
    "C82_made"
   ],
   "note": "C82_wider_types for received messages, C82_made for those that a program made (C81). Which types are wider and what the same value is: Widening.v. Assumes, as C56, that Display of a decimal is UTF-8."
  },
  {
   "property": "C83",
   "status": "partial",
   "theorems": [
    "C83_fields_partial",
    "C83_received_partial",
    "C83_fields_refuted"
   ],
   "note": "C83_fields_partial (every object that a program can make or receive), C83_received_partial (from_slice): if the types of the fields left out hold no structs. Otherwise false of the code, which reads any object as a struct, but unwraps objects of the wrapper classes and of List<T> to skip them: C83_fields_refuted, { a: A, b: u8 } is read, { b: u8 } is an error."
  },
  {
   "property": "C84",
   "status": "proved",
   "theorems": [
    "C84_objects",
    "C84_untyped",
    "C84_same",
    "C84_writable",
    "C84_types_only_checked",
    "C84_types_exchanged"
   ],
   "note": "C84_objects (types replaced by Object, no condition), C84_untyped (no types, no two libraries in a row), C84_same (typed, Object and untyped forms give the same result where types do no harm), C84_types_only_checked and C84_types_exchanged (two messages of the format that differ only in their type information mean the same), C84_writable (every message can be written so), C84_ex (a message rejected with types and accepted without)."
  },
  {
   "property": "C85",
   "status": "partial",
   "theorems": [
    "C85_forms_partial",
    "C85_forms_12_partial",
    "C85_symmetric",
    "C85_runs_refuted",
    "C85_12_refuted"
   ],
   "note": "C85_forms_partial: if every run of nulls is a single null, never two libraries stand in a row, and no member value of the rewritten message together with what follows looks like a library record; C85_forms_12_partial: in particular if no member value starts with the byte 12; C85_symmetric. Otherwise false of the code: C85_runs_refuted (a BinaryArray takes a run of nulls for one element), C85_12_refuted (the Int32 array [12, 1] is read as ArraySinglePrimitive but not as BinaryArray, a consequence of the finding of C15)."
  },
  {
   "property": "C86",
   "status": "partial",
   "theorems": [
    "C86_rewriting_partial",
    "C86_readable"
   ],
   "note": "C86_rewriting_partial: if no member value of the last message together with what follows looks like a library record (nothing is asked of the messages in between, which may be unreadable); C86_readable: this can always be had by declaring all members as Object. Without the condition it is false of the code already for a single change (C69_renaming_refuted, C71_order_refuted, C85_12_refuted), and for the changes that Rewriting.v excludes (runs of nulls in BinaryArray records: C76_binary_array_refuted, C85_runs_refuted)."
  },
  {
   "property": "C87",
   "status": "proved",
   "theorems": [
    "C87_nothing_twice",
    "C87_no_more",
    "C87_own_types"
   ],
   "note": "C87_nothing_twice (Parts.v says what the parts of a message and the facts of a result are); C87_no_more: in particular there are no more of them than in the message. C87_own_types: the same for every implementation of Deserialize that is frugal (Frugal.v: no step of its visitors says more than it was told). C87_ex: a struct read as a map; C87_own_types_ex: a type that lists everything."
  },
  {
   "property": "C88",
   "status": "proved",
   "theorems": [
    "C88_twice",
    "C88_grammar",
    "C88_without_references",
    "C88_factor_needed",
    "C88_library_names_repeated",
    "C88_targets",
    "C88_targets_without_references",
    "C88_targets_size",
    "C88_own_types"
   ],
   "note": "C88_twice (Content.v says what the content of a message is), C88_grammar and C88_without_references (shorter than the input, by the header at least, for messages of the format's grammar and for inputs without byte 9), C88_targets and C88_targets_without_references (the same for the results of from_slice), C88_targets_size (in bytes: all text and scalars of the result are at most D times as large, if no decimal is written with D or more characters, D at least 4: Char values are one byte in the input and up to four in the result), C88_own_types (for every frugal implementation of Deserialize). The factor 2 is needed: C88_factor_needed (an object that a failed attempt left behind is used once more), and library names have to be left out: C88_library_names_repeated. C88_ex, C88_targets_ex, C88_own_types_ex."
  }
 ]
}