(** * Records: common/*.rs and record/*.rs. *)
From Verif Require Import Base Utf8 Value DataTypes.

Section with_decimal.
Context `{DecimalLib}.

(** ** common *)

(** common/additional_type_info.rs 9-14. *)
Inductive additional_type_info :=
| AI_Primitive (p : primitive_type)
| AI_SystemClass (class_name : str)
| AI_Class (c : class_type_info).

(** common/additional_type_info.rs 17-46. *)
Definition additional_type_info_parse (input : bytes) (b : binary_type)
  : res (option additional_type_info) :=
  match b with
  | BT_Primitive => rmap (fun p => Some (AI_Primitive p)) (primitive_type_parse input)
  | BT_String => Ok input None
  | BT_Object => Ok input None
  | BT_SystemClass => rmap (fun s => Some (AI_SystemClass s)) (lps_parse input)
  | BT_Class => rmap (fun c => Some (AI_Class c)) (class_type_info_parse input)
  | BT_ObjectArray => Ok input None
  | BT_StringArray => Ok input None
  | BT_PrimitiveArray => rmap (fun p => Some (AI_Primitive p)) (primitive_type_parse input)
  end.

(** common/array_info.rs 10-33. *)
Record array_info := mkArrayInfo { ai_object_id : N; ai_length : N }.

Definition array_info_parse (input : bytes) : res array_info :=
  let? (input, oid) := object_id input in
  let? (input, len) := length_parse input in
  Ok input (mkArrayInfo oid len).

(** common/class_info.rs 11-27. *)
Record class_info := mkClassInfo {
  ci_object_id : N;
  ci_name : str;
  ci_member_names : list str;
}.

Definition class_info_parse (input : bytes) : res class_info :=
  let? (input, oid) := object_id input in
  let? (input, name) := lps_parse input in
  let? (input, names) := length_count length_parse lps_parse input in
  Ok input (mkClassInfo oid name names).

(** common/member_type_info.rs 9-14. *)
Record member_type_info := mkMemberTypeInfo {
  mti_binary_type_enums : list binary_type;
  mti_additional_infos : list (option additional_type_info);
}.

(** common/member_type_info.rs 20-25: the loop over the binary types. *)
Fixpoint additional_infos_parse (input : bytes) (bts : list binary_type)
  : res (list (option additional_type_info)) :=
  match bts with
  | [] => Ok input []
  | b :: bts =>
      let? (input, ai) := additional_type_info_parse input b in
      let? (input, ais) := additional_infos_parse input bts in
      Ok input (ai :: ais)
  end.

(** common/member_type_info.rs 17-28. *)
Definition member_type_info_parse (input : bytes) (ci : class_info) : res member_type_info :=
  let? (input, bts) := count (N.of_nat (length (ci_member_names ci))) binary_type_parse input in
  let? (input, ais) := additional_infos_parse input bts in
  Ok input (mkMemberTypeInfo bts ais).

(** ** record: primitives *)

(** record/member_primitive_untyped.rs 38-58 ([parse]) fused with 61-79 ([into_value]);
    the intermediate enum has one variant per value variant. *)
Definition member_primitive_untyped (input : bytes) (p : primitive_type) : res value :=
  match p with
  | PT_Boolean => rmap VBoolean (boolean_parse input)
  | PT_Byte => rmap VByte (byte_parse input)
  | PT_Char => rmap VChar (char_parse input)
  | PT_Decimal => rmap VDecimal (decimal_parse input)
  | PT_Double => rmap VDouble (double_parse input)
  | PT_Int16 => rmap VInt16 (int16_parse input)
  | PT_Int32 => rmap VInt32 (int32_parse input)
  | PT_Int64 => rmap VInt64 (int64_parse input)
  | PT_SByte => rmap VSByte (int8_parse input)
  | PT_Single => rmap VSingle (single_parse input)
  | PT_TimeSpan => rmap VTimeSpan (timespan_parse input)
  | PT_DateTime => rmap VDateTime (datetime_parse input)
  | PT_UInt16 => rmap VUInt16 (uint16_parse input)
  | PT_UInt32 => rmap VUInt32 (uint32_parse input)
  | PT_UInt64 => rmap VUInt64 (uint64_parse input)
  | PT_Null => Fail (from_error_kind input K_Fail)
  | PT_String => Fail (from_error_kind input K_Fail)
  end.

(** record/member_primitive_typed.rs 35-60 fused with [into_value] (62-81). *)
Definition member_primitive_typed (input : bytes) : res value :=
  let? (input, _rt) := record_type_parse RT_MemberPrimitiveTyped input in
  let? (input, p) := primitive_type_parse input in
  member_primitive_untyped input p.

(** record/value_with_code.rs 37-59 fused with [into_value] (62-82). *)
Definition value_with_code (input : bytes) : res value :=
  let? (input, p) := primitive_type_parse input in
  match p with
  | PT_Boolean => rmap VBoolean (boolean_parse input)
  | PT_Byte => rmap VByte (byte_parse input)
  | PT_Char => rmap VChar (char_parse input)
  | PT_Decimal => rmap VDecimal (decimal_parse input)
  | PT_Double => rmap VDouble (double_parse input)
  | PT_Int16 => rmap VInt16 (int16_parse input)
  | PT_Int32 => rmap VInt32 (int32_parse input)
  | PT_Int64 => rmap VInt64 (int64_parse input)
  | PT_SByte => rmap VSByte (int8_parse input)
  | PT_Single => rmap VSingle (single_parse input)
  | PT_TimeSpan => rmap VTimeSpan (timespan_parse input)
  | PT_DateTime => rmap VDateTime (datetime_parse input)
  | PT_UInt16 => rmap VUInt16 (uint16_parse input)
  | PT_UInt32 => rmap VUInt32 (uint32_parse input)
  | PT_UInt64 => rmap VUInt64 (uint64_parse input)
  | PT_Null => Ok input VNull
  | PT_String => rmap VString (lps_parse input)
  end.

(** record/string_value_with_code.rs 15-21. *)
Definition string_value_with_code (input : bytes) : res str :=
  let? (input, _p) := map_err (at_err (E_ExpectedPrimitive PT_String))
                        (into_failure (pt_tag PT_String input)) in
  lps_parse input.

(** record/array_of_value_with_code.rs 10-12 fused with [into_values] (14-17). *)
Definition array_of_value_with_code (input : bytes) : res (list value) :=
  length_count length_parse value_with_code input.

(** ** record: references, nulls, strings, libraries *)

(** record/member_reference.rs 14-20. *)
Definition member_reference (input : bytes) : res N :=
  let? (input, _rt) := record_type_parse RT_MemberReference input in
  object_id input.

(** record/object_null.rs 10-19, as a null count. *)
Definition object_null (input : bytes) : res N :=
  let? (input, _rt) := record_type_parse RT_ObjectNull input in
  Ok input 1%N.

(** record/object_null_multiple.rs 16-29, as a null count. *)
Definition object_null_multiple (input : bytes) : res N :=
  let? (input, _rt) := record_type_parse RT_ObjectNullMultiple input in
  match int32_parse input with
  | Ok rest z => if Z.ltb 0 z then Ok rest (Z.to_N z) else Fail (mkError input E_InvalidNullCount)
  | Err e => Err e
  | Fail e => Fail e
  | Panic p => Panic p
  | Diverge => Diverge
  end.

(** record/object_null_multiple_256.rs 16-29, as a null count. *)
Definition object_null_multiple_256 (input : bytes) : res N :=
  let? (input, _rt) := record_type_parse RT_ObjectNullMultiple256 input in
  match byte_parse input with
  | Ok rest n => if N.ltb 0 n then Ok rest n else Fail (mkError input E_InvalidNullCount)
  | Err e => Err e
  | Fail e => Fail e
  | Panic p => Panic p
  | Diverge => Diverge
  end.

(** record/binary_object_string.rs 15-22. *)
Definition binary_object_string (input : bytes) : res (N * str) :=
  let? (input, _rt) := record_type_parse RT_BinaryObjectString input in
  let? (input, oid) := object_id input in
  let? (input, s) := lps_parse input in
  Ok input (oid, s).

(** record/binary_library.rs 17-24. *)
Definition binary_library (input : bytes) : res (N * str) :=
  let? (input, _rt) := record_type_parse RT_BinaryLibrary input in
  let? (input, lid) := library_id input in
  let? (input, s) := lps_parse input in
  Ok input (lid, s).

(** record/message_end.rs 10-14. *)
Definition message_end (input : bytes) : res unit :=
  let? (input, _rt) := record_type_parse RT_MessageEnd input in
  Ok input tt.

(** ** record: classes *)

(** binary_parser/mod.rs 39-46: [Class]; the four class records
    (record/class_with_members.rs, class_with_members_and_types.rs,
    system_class_with_members.rs, system_class_with_members_and_types.rs). *)
Inductive class_rec :=
| CR_ClassWithMembers (ci : class_info) (library_id : N)
| CR_ClassWithMembersAndTypes (ci : class_info) (mti : member_type_info) (library_id : N)
| CR_SystemClassWithMembers (ci : class_info)
| CR_SystemClassWithMembersAndTypes (ci : class_info) (mti : member_type_info).

(** The accessor [class_info()] of the four records. *)
Definition cr_class_info (c : class_rec) : class_info :=
  match c with
  | CR_ClassWithMembers ci _ => ci
  | CR_ClassWithMembersAndTypes ci _ _ => ci
  | CR_SystemClassWithMembers ci => ci
  | CR_SystemClassWithMembersAndTypes ci _ => ci
  end.

(** [.map_err(|err| err.map(|err| error_position!(err.input, ExpectedClassInfo)))]. *)
Definition class_info_parse' (input : bytes) : res class_info :=
  map_err (at_err' E_ExpectedClassInfo) (class_info_parse input).

(** record/class_with_members.rs 20-28. *)
Definition class_with_members (input : bytes) : res class_rec :=
  let? (input, _rt) := record_type_parse RT_ClassWithMembers input in
  let? (input, ci) := class_info_parse' input in
  let? (input, lid) := library_id input in
  Ok input (CR_ClassWithMembers ci lid).

(** record/class_with_members_and_types.rs 21-30. *)
Definition class_with_members_and_types (input : bytes) : res class_rec :=
  let? (input, _rt) := record_type_parse RT_ClassWithMembersAndTypes input in
  let? (input, ci) := class_info_parse' input in
  let? (input, mti) := member_type_info_parse input ci in
  let? (input, lid) := library_id input in
  Ok input (CR_ClassWithMembersAndTypes ci mti lid).

(** record/system_class_with_members.rs 18-25. *)
Definition system_class_with_members (input : bytes) : res class_rec :=
  let? (input, _rt) := record_type_parse RT_SystemClassWithMembers input in
  let? (input, ci) := class_info_parse' input in
  Ok input (CR_SystemClassWithMembers ci).

(** record/system_class_with_members_and_types.rs 19-27. *)
Definition system_class_with_members_and_types (input : bytes) : res class_rec :=
  let? (input, _rt) := record_type_parse RT_SystemClassWithMembersAndTypes input in
  let? (input, ci) := class_info_parse' input in
  let? (input, mti) := member_type_info_parse input ci in
  Ok input (CR_SystemClassWithMembersAndTypes ci mti).

(** record/class_with_id.rs 19-31: (object id, metadata id). *)
Definition class_with_id (input : bytes) : res (N * N) :=
  let? (input, _rt) := record_type_parse RT_ClassWithId input in
  let? (input, oid) := object_id input in
  let err_input := input in
  let? (input, mid) := object_id input in
  if N.eqb mid oid then Fail (mkError err_input E_InvalidMetadataId)
  else Ok input (oid, mid).

(** ** record: arrays *)

(** record/array_single_object.rs 14-20. *)
Definition array_single_object (input : bytes) : res array_info :=
  let? (input, _rt) := record_type_parse RT_ArraySingleObject input in
  array_info_parse input.

(** record/array_single_string.rs 14-20. *)
Definition array_single_string (input : bytes) : res array_info :=
  let? (input, _rt) := record_type_parse RT_ArraySingleString input in
  array_info_parse input.

(** record/array_single_primitive.rs 15-22. *)
Definition array_single_primitive (input : bytes) : res (array_info * primitive_type) :=
  let? (input, _rt) := record_type_parse RT_ArraySinglePrimitive input in
  let? (input, ai) := array_info_parse input in
  let? (input, p) := primitive_type_parse input in
  Ok input (ai, p).

(** record/binary_array.rs 15-22. *)
Record binary_array := mkBinaryArray {
  ba_object_id : N;
  ba_array_type : binary_array_type;
  ba_lengths : list N;
  ba_lower_bounds : option (list N);
  ba_type_enum : binary_type;
  ba_additional_type_info : option additional_type_info;
}.

(** record/binary_array.rs 34-37: the [matches!]. *)
Definition has_offset (b : binary_array_type) : bool :=
  match b with
  | BAT_SingleOffset | BAT_JaggedOffset | BAT_RectangularOffset => true
  | _ => false
  end.

(** record/binary_array.rs 25-45. *)
Definition binary_array_parse (input : bytes) : res binary_array :=
  let? (input, _rt) := record_type_parse RT_BinaryArray input in
  let? (input, oid) := object_id input in
  let? (input, bat) := binary_array_type_parse input in
  let? (input, rank) := length_parse input in
  let? (input, lengths) := count rank length_parse input in
  let? (input, lower_bounds) := cond (has_offset bat) (count rank length_parse) input in
  let? (input, bt) := binary_type_parse input in
  let? (input, ai) := additional_type_info_parse input bt in
  Ok input (mkBinaryArray oid bat lengths lower_bounds bt ai).

(** ** record: header *)

(** record/serialization_header.rs 12-18; only the root id is used later. *)
Record serialization_header := mkHeader {
  sh_root_id : option N;
  sh_header_id : Z;
  sh_major_version : Z;
  sh_minor_version : Z;
}.

(** record/serialization_header.rs 21-63. *)
Definition serialization_header_parse (input : bytes) : res serialization_header :=
  let? (input, _rt) := record_type_parse RT_SerializedStreamHeader input in
  let err_input := input in
  let? (input, z) := int32_parse input in
  if Z.ltb z 0 then Fail (mkError err_input E_InvalidRootId) else
  let root_id := if Z.eqb z 0 then None else Some (Z.to_N z) in
  let? (input, header_id) := int32_parse input in
  let err_input := input in
  let? (input, major) := int32_parse input in
  if negb (Z.eqb major 1) then Fail (mkError err_input E_InvalidMajorVersion) else
  let err_input := input in
  let? (input, minor) := int32_parse input in
  if negb (Z.eqb minor 0) then Fail (mkError err_input E_InvalidMinorVersion) else
  Ok input (mkHeader root_id header_id major minor).

(** ** record: message flags and method records *)

(** record/message_flags.rs 15-65: the flag constants. *)
Definition MF_NO_ARGS : Z := 0x1.
Definition MF_ARGS_INLINE : Z := 0x2.
Definition MF_ARGS_IS_ARRAY : Z := 0x4.
Definition MF_ARGS_IN_ARRAY : Z := 0x8.
Definition MF_NO_CONTEXT : Z := 0x10.
Definition MF_CONTEXT_INLINE : Z := 0x20.
Definition MF_CONTEXT_IN_ARRAY : Z := 0x40.
Definition MF_METHOD_SIGNATURE_IN_ARRAY : Z := 0x80.
Definition MF_PROPERTIES_IN_ARRAY : Z := 0x100.
Definition MF_NO_RETURN_VALUE : Z := 0x200.
Definition MF_RETURN_VALUE_VOID : Z := 0x400.
Definition MF_RETURN_VALUE_INLINE : Z := 0x800.
Definition MF_RETURN_VALUE_IN_ARRAY : Z := 0x1000.
Definition MF_EXCEPTION_IN_ARRAY : Z := 0x2000.
Definition MF_GENERIC_METHOD : Z := 0x8000.

(** bitflags: [intersects]. *)
Definition intersects (flags m : Z) : bool := negb (Z.eqb (Z.land flags m) 0).

(** [i32::count_ones] on a non-negative word. *)
Fixpoint pos_ones (p : positive) : N :=
  match p with
  | xH => 1
  | xO p => pos_ones p
  | xI p => 1 + pos_ones p
  end%N.
Definition count_ones (z : Z) : N :=
  match z with
  | Z0 => 0
  | Zpos p => pos_ones p
  | Zneg _ => 0 (* not reached: the argument is an intersection with a non-negative mask *)
  end%N.

(** record/message_flags.rs 70-124: [MessageFlags::parse]. The return category mask has
    RETURN_VALUE_IN_ARRAY twice and no RETURN_VALUE_INLINE, as in lines 81-86. *)
Definition message_flags_parse (input : bytes) : res Z :=
  let err_input := input in
  let? (input, flags) := map_err (at_err' E_ExpectedMessageFlags) (int32_parse input) in
  let args_flags := Z.land flags
    (Z.lor (Z.lor (Z.lor MF_NO_ARGS MF_ARGS_INLINE) MF_ARGS_IS_ARRAY) MF_ARGS_IN_ARRAY) in
  let context_flags := Z.land flags
    (Z.lor (Z.lor MF_NO_CONTEXT MF_CONTEXT_INLINE) MF_CONTEXT_IN_ARRAY) in
  let return_flags := Z.land flags
    (Z.lor (Z.lor (Z.lor MF_NO_RETURN_VALUE MF_RETURN_VALUE_VOID) MF_RETURN_VALUE_IN_ARRAY)
       MF_RETURN_VALUE_IN_ARRAY) in
  let signature_flags := Z.land flags MF_METHOD_SIGNATURE_IN_ARRAY in
  let exception_flags := Z.land flags MF_EXCEPTION_IN_ARRAY in
  let invalid := Fail (mkError err_input E_InvalidMessageFlags) in
  let non_empty z := negb (Z.eqb z 0) in
  if N.ltb 1 (count_ones args_flags) || N.ltb 1 (count_ones context_flags)
     || N.ltb 1 (count_ones return_flags) then invalid
  else if non_empty args_flags && non_empty exception_flags then invalid
  else if non_empty return_flags && non_empty exception_flags then invalid
  else if non_empty return_flags && non_empty signature_flags then invalid
  else if non_empty exception_flags && non_empty signature_flags then invalid
  else Ok input flags.

(** record/binary_method_call.rs 10-16. *)
Record binary_method_call := mkBinaryMethodCall {
  bmc_message_enum : Z;
  bmc_method_name : str;
  bmc_type_name : str;
  bmc_call_context : option str;
  bmc_args : option (list value);
}.

(** record/binary_method_call.rs 19-31. *)
Definition binary_method_call_parse (input : bytes) : res binary_method_call :=
  let? (input, _rt) := record_type_parse RT_MethodCall input in
  let? (input, flags) := message_flags_parse input in
  let? (input, method_name) := string_value_with_code input in
  let? (input, type_name) := string_value_with_code input in
  let? (input, call_context) :=
    cond (intersects flags MF_CONTEXT_INLINE) string_value_with_code input in
  let? (input, args) := cond (intersects flags MF_ARGS_INLINE) array_of_value_with_code input in
  Ok input (mkBinaryMethodCall flags method_name type_name call_context args).

(** record/binary_method_return.rs 10-15. *)
Record binary_method_return := mkBinaryMethodReturn {
  bmr_message_enum : Z;
  bmr_return_value : option value;
  bmr_call_context : option str;
  bmr_args : option (list value);
}.

(** record/binary_method_return.rs 18-30. *)
Definition binary_method_return_parse (input : bytes) : res binary_method_return :=
  let? (input, _rt) := record_type_parse RT_MethodReturn input in
  let? (input, flags) := message_flags_parse input in
  let? (input, return_value) :=
    cond (intersects flags MF_RETURN_VALUE_INLINE) value_with_code input in
  let? (input, call_context) :=
    cond (intersects flags MF_CONTEXT_INLINE) string_value_with_code input in
  let? (input, args) := cond (intersects flags MF_ARGS_INLINE) array_of_value_with_code input in
  Ok input (mkBinaryMethodReturn flags return_value call_context args).

End with_decimal.
