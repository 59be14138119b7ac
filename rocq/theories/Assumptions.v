(** * Assumptions: what the property theorems rest on.

    The build prints "Closed under the global context": none of them uses an axiom, not even one of
    the standard library. *)
From Verif Require Import PropsA PropsB PropsC PropsD Size PropsE PropsF PropsG PropsH PropsI PropsJ PropsK PropsL PropsM PropsN PropsV PropsO PropsP PropsQ PropsR PropsS PropsT PropsU PropsW PropsX PropsY PropsZ PropsZA PropsZB PropsZC PropsZD PropsZE PropsZF PropsZG PropsZH PropsZI PropsZJ PropsZK PropsZL PropsZM PropsZN PropsZO.

(** All property theorems together. *)
Definition all_properties :=
  (@C01_nesting_bounded_by_input,
   @C01_parse_terminates,
   @C02_never_panics_partial,
   @C02_never_panics_refuted,
   @C02_no_unreachable,
   @C02_panics_exactly,
   @C02_panics_need_overshoot,
   @C02_panics_where,
   @C03_first_byte,
   @C03_header_accepted,
   @C03_header_errors,
   @C03_header_id_irrelevant,
   @C03_header_required,
   @C04_message_end_is_last,
   @C04_missing_message_end,
   @C04_trailing_data,
   @C04_trailing_data_method,
   @C05_no_cut_library,
   @C05_prefix_free_accepted_partial,
   @C05_prefix_free_delimited_partial,
   @C05_prefix_free_partial,
   @C05_prefix_free_refuted,
   @C05_prefix_free_refuted_without_libraries,
   @C06_strings_borrowed,
   @C07_bad_utf8_rejected,
   @C07_strings_utf8,
   @C08_canonical_prefix,
   @C08_fifth_byte_above_7,
   @C08_prefix_below_2_31,
   @C08_string_with_any_prefix,
   @C08_zero_padded,
   @C09_rest_untouched,
   @C09_short_string_rejected,
   @C09_strings_roundtrip,
   @C10_primitives_roundtrip,
   @C11_values_in_range,
   @C12_bad_argument,
   @C12_bad_boolean,
   @C12_bad_element,
   @C12_bad_member,
   @C12_bad_return_argument,
   @C12_bad_return_value,
   @C12_bad_typed_primitive,
   @C12_good_booleans,
   @C12_only_two,
   @C13_ascii_partial,
   @C13_chars_one_byte_partial,
   @C13_non_ascii_refuted,
   @C14_array_length,
   @C14_dimension,
   @C14_library_id,
   @C14_library_id_of_class,
   @C14_member_count,
   @C14_member_reference,
   @C14_object_id_of_class,
   @C14_object_id_of_record,
   @C14_rank,
   @C15_no_library_partial,
   @C15_primitive_members_partial,
   @C15_primitive_members_refuted,
   @C15_silently_changed,
   @C16_library_class,
   @C16_object_is_as_declared,
   @C16_repeated_names,
   @C17_duplicate_library,
   @C17_duplicate_library_class,
   @C17_duplicate_library_member,
   @C17_library_is_fixed,
   @C18_library_before_array_refuted,
   @C18_library_before_non_class,
   @C19_class_reuse_refuted,
   @C19_class_with_id_rejected,
   @C19_class_with_id_rejected_member,
   @C20_duplicate_ids_refuted,
   @C20_later_definition_wins,
   @C21_earlier_record,
   @C21_missing_record,
   @C21_next_record,
   @C21_other_record,
   @C22_second_reference_rejected,
   @C22_shared_objects_refuted,
   @C23_cycle_rejected,
   @C23_self_reference_rejected,
   @C24_referenced_root,
   @C24_root_kept,
   @C24_root_record,
   @C24_root_string,
   @C24_root_zero,
   @C25_array_of_items,
   @C25_array_of_trees,
   @C25_declared_length_refuted,
   @C25_primitive_array,
   @C25_primitive_too_few,
   @C25_too_few,
   @C26_empty,
   @C26_overflow,
   @C26_shape,
   @C26_shape_unique,
   @C26_zero_length_refuted,
   @C27_lower_bounds_irrelevant,
   @C27_negative_lower_bound,
   @C28_bound_accepted_partial,
   @C28_bound_always_partial,
   @C28_bound_linear_partial,
   @C28_bound_partial,
   @C28_bound_quadratic_partial,
   @C28_linear_accepted_partial,
   @C28_linear_partial,
   @C28_null_run,
   @C28_proportional_refuted,
   @C28_quadratic,
   @C28_ranks_absent,
   @C28_ranks_always,
   @C28_runs_absent,
   @C28_runs_always,
   @C28_solid_values_partial,
   @C29_null_count,
   @C29_null_count_256,
   @C29_positive_count,
   @C30_members_in_order,
   @C30_own_values_refuted,
   @C30_without_runs,
   @C31_no_class,
   @C31_unknown_library,
   @C31_wrong_class,
   @C31_wrong_system_class,
   @C32_accepted,
   @C32_accepted_iff,
   @C32_all_rules_refuted,
   @C32_rejected,
   @C33_args_in_array,
   @C33_args_is_array,
   @C33_inline,
   @C33_missing_array,
   @C33_not_an_array,
   @C33_origin,
   @C33_unused_array,
   @C34_args_in_array,
   @C34_args_is_array,
   @C34_inline,
   @C34_missing_array,
   @C34_not_an_array,
   @C34_origin,
   @C34_unused_array,
   @C35_wrong_id,
   @C36_error_position,
   @C37_date_time,
   @C37_date_time_unique,
   @C37_time_span,
   @C38_inline_string_partial,
   @C38_no_string,
   @C38_null_string_refuted,
   @C38_string_reference_refuted,
   @C39_accepted_partial,
   @C39_accepts_exactly,
   @C39_accepts_unique,
   @C39_exact_without_references,
   @C39_grammar_accepted,
   @C39_grammar_only_refuted,
   @C39_unique,
   @C40_depth,
   @C40_depth_bound,
   @C40_depth_bound_grammar,
   @C40_four_bytes_per_level,
   @C41_library_classes_rejected,
   @C41_library_classes_rejected_slice,
   @C41_other_members_rejected,
   @C41_other_members_rejected_slice,
   @C41_wrapper_is_value,
   @C41_wrapper_is_value_slice,
   @C42_integer_targets,
   @C42_integer_value,
   @C43_array,
   @C43_array_slice,
   @C43_tuple,
   @C43_vec,
   @C43_vec_slice,
   @C44_array,
   @C44_list_partial,
   @C44_one_missing,
   @C44_other_members_rejected,
   @C44_size_refuted,
   @C44_wrong_size,
   @C45_option,
   @C45_top_level,
   @C45_top_level_refuted,
   @C46_method_messages_rejected,
   @C47_missing_field,
   @C47_struct,
   @C47_struct_value,
   @C47_unknown_members,
   @C47_unknown_members_refuted,
   @C48_no_trace_refuted,
   @C48_unreadable_exactly,
   @C48_unreadable_rejected_partial,
   @C49_member_order,
   @C50_enum_never,
   @C50_newtype,
   @C50_transparent_refuted,
   @C51_map,
   @C52_borrowed,
   @C53_chars,
   @C53_string_as_char,
   @C54_reported_kinds,
   @C54_slice_texts,
   @C54_texts_distinct,
   @C55_only,
   @C55_results,
   @C56_exact,
   @C57_results_typed,
   @C58_parse_failures,
   @C59_equal,
   @C59_order,
   @C59_reflexive,
   @C59_symmetric,
   @C59_transitive,
   @C60_never_both,
   @C60_outcomes,
   @C60_refused_exactly,
   @C61_map,
   @C61_self_describing,
   @C61_vec,
   @C61_whenever_skippable,
   @C62_error_exactly,
   @C62_from_slice,
   @C62_one_error,
   @C62_refused_by_rule,
   @C62_within,
   @C63_bytes_quadratic,
   @C63_counts_the_parser,
   @C63_every_byte_counted,
   @C63_work_linear,
   @C64_calls,
   @C64_parse_error,
   @C64_returns,
   @C64_rules,
   @C64_steps,
   @C64_targets,
   @C64_unique,
   @C65_answers,
   @C65_no_panic,
   @C65_terminates,
   @C66_whole_array,
   @C66_whole_list,
   @C66_whole_object,
   @C67_array,
   @C67_object,
   @C68_list_partial,
   @C68_list_refuted,
   @C69_every_message,
   @C69_renaming_12_partial,
   @C69_renaming_partial,
   @C69_renaming_refuted,
   @C70_stranger,
   @C70_tables,
   @C71_order_12_partial,
   @C71_order_partial,
   @C71_order_refuted,
   @C72_relabelling_12_partial,
   @C72_relabelling_partial,
   @C72_relabelling_refuted,
   @C73_only,
   @C73_receivable,
   @C74_dates_refuted,
   @C74_full_seconds,
   @C74_raw_partial,
   @C74_reported,
   @C74_right_exactly,
   @C75_array_kept_partial,
   @C75_array_lost,
   @C75_array_rest_lost,
   @C75_call_record_partial,
   @C75_return_record_partial,
   @C75_return_value_refuted,
   @C76_binary_array_refuted,
   @C76_null_runs_12_partial,
   @C76_null_runs_partial,
   @C77_null_partial,
   @C77_null_refuted,
   @C77_null_rejected,
   @C77_reference_partial,
   @C77_reference_refuted,
   @C77_reference_rejected,
   @C78_libraries_12_partial,
   @C78_libraries_partial,
   @C78_libraries_refuted,
   @C79_inside,
   @C79_otherwise,
   @C79_struct,
   @C80_decimal_refuted,
   @C80_equal_partial,
   @C81_from_slice,
   @C81_methods,
   @C81_order,
   @C81_own_types,
   @C81_own_types_answers,
   @C81_own_types_unique,
   @C81_received,
   @C81_rules,
   @C81_typed,
   @C82_made,
   @C82_wider_types,
   @C83_fields_partial,
   @C83_fields_refuted,
   @C83_received_partial,
   @C84_objects,
   @C84_same,
   @C84_types_exchanged,
   @C84_types_only_checked,
   @C84_untyped,
   @C84_writable,
   @C85_12_refuted,
   @C85_forms_12_partial,
   @C85_forms_partial,
   @C85_runs_refuted,
   @C85_symmetric,
   @C86_readable,
   @C86_rewriting_partial,
   @C87_no_more,
   @C87_nothing_twice,
   @C87_own_types,
   @C88_factor_needed,
   @C88_grammar,
   @C88_library_names_repeated,
   @C88_own_types,
   @C88_targets,
   @C88_targets_size,
   @C88_targets_without_references,
   @C88_twice,
   @C88_without_references).
Print Assumptions all_properties.
