{
"value_ind'": "Harr Hobj Hother",
"member_untyped_body_ssafe": "HPC",
"parse_member_untyped_ssafe": "HPC",
"class_or_null_ssafe": "HPC",
"mono_untyped_body": "HPC",
"mono_untyped": "HPC",
"mono_class_or_null": "HPC",
"parse_member_typed_ssafe": "HPC",
"parse_members_typed_ssafe": "HPC",
"verify_referenceable_ssafe": "HPR",
"mono_typed": "HPC",
"mono_members_typed": "HPC",
"mono_resolve": "HPR",
"mono_class_body": "HPC HPR",
"mono_classes_body": "HPC HPR",
"mono_array_single_object": "HPC HPR",
"resolve_members_ssafe": "HPC HPR",
"mono_array_single_string": "HPC HPR",
"mono_binary_array": "HPC HPR",
"mono_arrays": "HPC HPR",
"mono_referenceable_body": "HPC HPR",
"parse_class_body_ssafe": "HPC HPR",
"array_tail_ssafe": "HPC HPR",
"parse_array_single_object_ssafe": "HPC HPR",
"parse_array_single_string_ssafe": "HPC HPR",
"parse_binary_array_ssafe": "HPC HPR",
"parse_arrays_ssafe": "HPC HPR",
"parse_referenceable_body_ssafe": "HPC HPC' HPR",
"sle_untyped": "HPC",
"sle_class_or_null": "HPC",
"sle_typed": "HPC",
"sle_members_typed": "HPC",
"sle_verify": "HPR",
"sle_resolve": "HPR",
"sle_class_body": "HPC HPR",
"sle_classes_body": "HPC HPR",
"sle_array_single_object": "HPC HPR",
"sle_array_single_string": "HPC HPR",
"sle_binary_array": "HPC HPR",
"sle_arrays": "HPC HPR",
"sle_referenceable_body": "HPC HPR",
"untyped_body_sound": "SPC",
"class_or_null_sound": "NPC SPC",
"member_sound": "NPC SPC",
"mono_member": "HPC",
"member_classes": "HPC",
"items_sound": "HPC NPC SPC",
"array_loop_sound": "HPC NPC SPC",
"resolve_sound": "HPR SPR",
"class_body_sound": "HPC HPR NPC SPC SPR",
"classes_body_sound": "HPC HPR NPC SPC SPR",
"array_tail_sound": "HPC HPR NPC SPC SPR",
"array_single_object_sound": "HPC HPR NPC SPC SPR",
"arrays_sound": "HPC HPR NPC SPC SPR",
"referenceable_body_sound": "HPC HPR LPC NPC SPC SPR",
"quiet_untyped": "HPC",
"quiet_class_or_null": "HPC",
"quiet_typed_member": "HPC",
"quiet_members_typed": "HPC",
"quiet_class_body": "HPC",
"quiet_classes_body": "HPC",
"quiet_array_single_object": "HPC",
"quiet_array_single_string": "HPC",
"quiet_binary_array": "HPC",
"quiet_arrays": "HPC",
"wrapper_class_type": "DL FL",
"class_cases": "DL FL",
"good_suffix": "HB",
"good_app": "HB",
"bill_app": "HB",
"bill_pos": "HB",
"bill_count": "HB",
"lib_pot": "HB",
"simple_weight": "HB",
"binary_rank": "HB K",
"method_no_array": "Hm",
"method_array": "Hm",
"method_missing_array": "Hm",
"method_not_array": "Hm",
"method_wrong_array": "Hm",
"g_pot": "HB",
"objects_pot": "HB",
"coded_sizes": "HB",
"inline_sizes": "HB",
"call_array_pot": "HB",
"args_size": "HB K",
"method_pot": "HB",
"message_pot": "HB",
"tied_untyped": "HPC",
"tied_class_or_null": "HPC HPN",
"tied_class_body": "HPC HPN",
"untyped_quit": "HPC NPC NPC'",
"class_or_null_quit": "HPC NPC NPC' SPC",
"member_quit": "HPC NPC NPC' SPC",
"items_quit": "HPC MPC NPC NPC' SPC",
"scount_quit": "HPC HPR MPC MPR NPC NPC' SPC SPR",
"array_loop_quit": "HPC HPR MPC MPR NPC NPC' SPC SPR",
"verify_quit": "HPR SPR",
"resolve_quit": "HPR MPR SPR",
"class_body_quit": "HPC HPR MPC MPR NPC NPC' SPC SPR",
"classes_body_quit": "HPC HPR MPC MPR NPC NPC' SPC SPR",
"array_tail_quit": "HPC HPR MPC MPR NPC NPC' SPC SPR",
"array_single_object_quit": "HPC HPR MPC MPR NPC NPC' SPC SPR",
"array_single_string_quit": "HPC HPR MPC MPR NPC NPC' SPC SPR",
"binary_array_quit": "HPC HPR MPC MPR NPC NPC' SPC SPR",
"del_3": "He",
"value_member": "He",
"values_members": "He",
"value_record": "He",
"call_array": "He",
"sk_untyped_body": "HPC",
"sk_untyped": "HPC",
"args_after": "He",
"sk_typed": "HPC",
"sk_members": "HPC",
"sk_resolve": "HPR",
"sk_class_body": "HPC HPR",
"sk_classes_body": "HPC HPR",
"sk_array_object": "HPC HPR",
"sk_array_string": "HPC HPR",
"sk_binary_array": "HPC HPR",
"sk_arrays": "HPC HPR",
"sk_referenceable_body": "HPC HPR",
"plain_class_iff": "DL FL",
"items_vec": "IH",
"items_ignored": "IH",
"items_tuple": "IH",
"items_struct": "IH",
"not_ordinary_wrapper": "DL FL",
"reads_plain": "Hn IH",
"reads_vec": "Hv IH",
"reads_seq_any": "Hv IH",
"reads_seq_ignored": "Hv IH",
"reads_tuple": "Hv IH",
"doom_untyped": "HPC",
"doom_verify": "HPR",
"doom_resolve": "HPR",
"doom_class_body": "HPC HPR",
"doom_binary_array": "HPC HPR MPC MPR NPC SPC SPR",
"doom_arrays": "HPC HPR MPC MPR NPC SPC SPR",
"doom_referenceable_body": "HPC HPR MPC MPR NPC SPC SPR",
"untyped_panic": "HPC",
"member_panic": "HPC",
"items_panic": "HPC MPC NPC SPC",
"scount_panic": "HPC HPR MPC MPR NPC SPC SPR",
"array_loop_panic": "HPC HPR MPC MPR NPC SPC SPR",
"resolve_panic": "HPR MPR SPR",
"bill_suffix": "HB",
"good_suffix'": "HB",
"thrift_bind": "bill_suffix good_suffix' record_paid",
"thrift_pure": "bill_suffix good_suffix' record_paid",
"thrift_fail": "bill_suffix good_suffix' record_paid",
"thrift_ok": "bill_suffix good_suffix' record_paid",
"thrift_suffix": "bill_suffix good_suffix' record_paid",
"thrift_lib": "bill_suffix good_suffix' objs_size_delete_le record_paid",
"thrift_untyped": "HPC bill_suffix good_suffix' objs_size_delete_le record_paid",
"class_body_panic": "HPC HPR MPC MPR NPC SPC SPR",
"classes_body_panic": "HPC HPR MPC MPR NPC SPC SPR",
"thrift_class_or_null": "HPC HPN HPR bill_suffix good_suffix' objs_size_delete_le record_paid",
"array_tail_panic": "HPC HPR MPC MPR NPC SPC SPR",
"array_single_object_panic": "HPC HPR MPC MPR NPC SPC SPR",
"array_single_string_panic": "HPC HPR MPC MPR NPC SPC SPR",
"thrift_delete": "HPC HPN HPR bill_suffix good_suffix' objs_size_delete_le record_paid",
"thrift_verify": "HPC HPN HPR bill_suffix good_suffix' objs_size_delete_le record_paid",
"thrift_resolve": "HPC HPN HPR bill_suffix good_suffix' objs_size_delete_le record_paid",
"binary_array_panic": "HPC HPR MPC MPR NPC SPC SPR",
"not_ok_held": "bill_suffix good_suffix' objs_size_delete_le record_paid",
"thrift_all": "bill_suffix good_suffix' objs_size_delete_le record_paid",
"abandoned_held": "bill_suffix good_suffix' objs_size_delete_le record_paid",
"step_held": "HB",
"method_held": "HB",
"accepted_size": "HB",
"tied_typed_member": "HPC HPN",
"tied_members_typed": "HPC HPN",
"tied_classes_body": "HPC HPN",
"tied_array_single_object": "HPC",
"tied_array_single_string": "HPC HPN",
"tied_binary_array": "HPC HPN",
"untyped_body_quit": "HPC NPC NPC'",
"sk_class_or_null": "HPC",
"reads_struct_object": "Hn IH",
"doom_class_or_null": "HPC",
"doom_typed_member": "HPC",
"doom_members_typed": "HPC",
"doom_classes_body": "HPC HPR",
"doom_array_single_object": "HPC HPR",
"doom_array_single_string": "HPC HPR",
"untyped_body_panic": "HPC",
"class_or_null_panic": "HPC",
"thrift_typed_member": "HPC HPN HPR bill_suffix good_suffix' objs_size_delete_le record_paid",
"thrift_members_typed": "HPC HPN HPR bill_suffix good_suffix' objs_size_delete_le record_paid",
"thrift_scount_loop": "bill_suffix good_suffix' record_paid",
"thrift_array_loop": "bill_suffix good_suffix' record_paid",
"thrift_class_body": "HPC HPN HPR bill_suffix good_suffix' objs_size_delete_le record_paid",
"thrift_classes_body": "HPC HPN HPR bill_suffix good_suffix' objs_size_delete_le record_paid",
"thrift_array_single_object": "HPC HPN HPR bill_suffix good_suffix' objs_size_delete_le record_paid",
"thrift_array_single_string": "HPC HPN HPR bill_suffix good_suffix' objs_size_delete_le record_paid",
"thrift_array_single_primitive": "bill_suffix good_suffix' record_paid",
"thrift_binary_array": "HPC HPN HPR bill_suffix good_suffix' objs_size_delete_le record_paid",
"handed_count": "order",
"same_untyped": "HPC",
"same_class_or_null": "HPC",
"same_typed_member": "HPC",
"same_members_typed": "HPC",
"same_verify": "HPR",
"same_resolve": "HPR",
"same_class_body": "HPC HPR",
"same_classes_body": "HPC HPR",
"same_array_single_object": "HPC HPR",
"same_array_single_string": "HPC HPR",
"same_binary_array": "HPC HPR",
"same_arrays": "HPC HPR",
"same_referenceable_body": "HPC HPR",
"rename_add_lib": "Inj1",
"rename_add_obj": "Inj0",
"rename_del_obj": "Inj0",
"rename_libs": "Inj1",
"rename_objs": "Inj0",
"class_library_rename": "Inj1",
"kind_ok_rename": "Inj1",
"class_kind_rename": "Inj1",
"lib_rename": "Inj1",
"mut_rename": "Inj0 Inj1",
"objects_rename": "Inj0 Inj1",
"call_array_rename": "Inj0 Inj1",
"message_rename": "Inj0 Inj1",
"unch_resolved": "Il Io",
"total_take": "Hlen Htot",
"fills_size": "Hh Hlen Htot",
"fills_intro": "Hlen Htot"
}