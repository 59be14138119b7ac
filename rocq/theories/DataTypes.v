(** * DataTypes: data_type/*.rs, combinator.rs, enumeration.rs (parsers). *)
From Verif Require Import Base Utf8 Value.

(** ** enumeration.rs *)

(** enumeration.rs 44-54: [BinaryType as Parser]: [value(self, tag([self as u8]))]. *)
Definition bt_tag (b : binary_type) (input : bytes) : nres binary_type :=
  rmap (fun _ => b) (tag1 (bt_code b) input).

(** enumeration.rs 26-41: [BinaryType::parse]. *)
Definition binary_type_parse (input : bytes) : res binary_type :=
  map_err (at_err E_ExpectedBinaryType) (into_failure (
    alt (bt_tag BT_Primitive input) (
    alt (bt_tag BT_String input) (
    alt (bt_tag BT_Object input) (
    alt (bt_tag BT_SystemClass input) (
    alt (bt_tag BT_Class input) (
    alt (bt_tag BT_ObjectArray input) (
    alt (bt_tag BT_StringArray input) (
        bt_tag BT_PrimitiveArray input))))))))).

(** enumeration.rs 129-139: [PrimitiveType as Parser]. *)
Definition pt_tag (p : primitive_type) (input : bytes) : nres primitive_type :=
  rmap (fun _ => p) (tag1 (pt_code p) input).

(** enumeration.rs 82-106: [PrimitiveType::parse]. *)
Definition primitive_type_parse (input : bytes) : res primitive_type :=
  map_err (at_err E_ExpectedPrimitiveType) (into_failure (
    alt (pt_tag PT_Boolean input) (
    alt (pt_tag PT_Byte input) (
    alt (pt_tag PT_Char input) (
    alt (pt_tag PT_Decimal input) (
    alt (pt_tag PT_Double input) (
    alt (pt_tag PT_Int16 input) (
    alt (pt_tag PT_Int32 input) (
    alt (pt_tag PT_Int64 input) (
    alt (pt_tag PT_SByte input) (
    alt (pt_tag PT_Single input) (
    alt (pt_tag PT_TimeSpan input) (
    alt (pt_tag PT_DateTime input) (
    alt (pt_tag PT_UInt16 input) (
    alt (pt_tag PT_UInt32 input) (
    alt (pt_tag PT_UInt64 input) (
    alt (pt_tag PT_Null input) (
        pt_tag PT_String input)))))))))))))))))).

(** enumeration.rs 168-178: [BinaryArrayType as Parser]. *)
Definition bat_tag (b : binary_array_type) (input : bytes) : nres binary_array_type :=
  rmap (fun _ => b) (tag1 (bat_code b) input).

(** enumeration.rs 151-165: [BinaryArrayType::parse]. *)
Definition binary_array_type_parse (input : bytes) : res binary_array_type :=
  map_err (at_err E_ExpectedBinaryArrayType) (into_failure (
    alt (bat_tag BAT_Single input) (
    alt (bat_tag BAT_Jagged input) (
    alt (bat_tag BAT_Rectangular input) (
    alt (bat_tag BAT_SingleOffset input) (
    alt (bat_tag BAT_JaggedOffset input) (
        bat_tag BAT_RectangularOffset input))))))).

(** record/mod.rs 85-89: [RecordType::parse]; the error stays recoverable. *)
Definition record_type_parse (r : record_type) (input : bytes) : res record_type :=
  map_err (at_err (E_ExpectedRecordType r)) (rmap (fun _ => r) (tag1 (rt_code r) input)).

(** ** data_type: fixed-size numbers

    All are [map(reader, Self)] with the nom error turned into
    [Failure(ExpectedPrimitive(kind))] at the position of the number. *)
Definition prim_number {A} (k : primitive_type) (r : nres A) : res A :=
  map_err (at_err (E_ExpectedPrimitive k)) (into_failure r).

(** data_type/byte.rs 15-20. *)
Definition byte_parse (input : bytes) : res N := prim_number PT_Byte (le_uint 1 input).
(** data_type/int8.rs 15-20 (the error names SByte). *)
Definition int8_parse (input : bytes) : res Z := prim_number PT_SByte (le_int 1 input).
(** data_type/int16.rs 15-20. *)
Definition int16_parse (input : bytes) : res Z := prim_number PT_Int16 (le_int 2 input).
(** data_type/int32.rs 17-22. *)
Definition int32_parse (input : bytes) : res Z := prim_number PT_Int32 (le_int 4 input).
(** data_type/int64.rs 15-20. *)
Definition int64_parse (input : bytes) : res Z := prim_number PT_Int64 (le_int 8 input).
(** data_type/uint16.rs 15-20. *)
Definition uint16_parse (input : bytes) : res N := prim_number PT_UInt16 (le_uint 2 input).
(** data_type/uint32.rs 15-20. *)
Definition uint32_parse (input : bytes) : res N := prim_number PT_UInt32 (le_uint 4 input).
(** data_type/uint64.rs 15-20. *)
Definition uint64_parse (input : bytes) : res N := prim_number PT_UInt64 (le_uint 8 input).
(** data_type/single.rs 15-20: [f32::from_bits] of the little-endian word. *)
Definition single_parse (input : bytes) : res N := prim_number PT_Single (le_uint 4 input).
(** data_type/double.rs 15-20: [f64::from_bits] of the little-endian word. *)
Definition double_parse (input : bytes) : res N := prim_number PT_Double (le_uint 8 input).
(** data_type/timespan.rs 14-19. *)
Definition timespan_parse (input : bytes) : res Z := prim_number PT_TimeSpan (le_int 8 input).
(** data_type/datetime.rs 15-19: [Int64::parse] with the error renamed. *)
Definition datetime_parse (input : bytes) : res Z :=
  map_err (at_err' (E_ExpectedPrimitive PT_DateTime)) (into_failure (int64_parse input)).

(** data_type/boolean.rs 15-28. *)
Definition boolean_parse (input : bytes) : res bool :=
  prim_number PT_Boolean
    (map_res (le_uint 1)
       (fun n => if N.eqb n 0 then Some false else if N.eqb n 1 then Some true else None) input).

(** data_type/char.rs 20-35: four alternatives, of which the first always succeeds on
    non-empty input. *)
Definition char_parse (input : bytes) : res N :=
  prim_number PT_Char (
    alt (map_opt (le_uint 1) char_from_u32 input) (
    alt (map_opt (le_uint 2) char_from_u32 input) (
    alt (map_opt (le_uint 3) char_from_u32 input) (
        map_opt (le_uint 4) char_from_u32 input)))).

(** ** data_type/length_prefixed_string.rs *)

(** length_prefixed_string.rs 27, 31, 35, 39: [pair(bool, take(7usize))]. *)
Definition len_group (i : bytes * N) : ires (bytes * N) (nom_error (bytes * N)) (bool * N) :=
  pair_ bits_bool (bits_take 7) i.

(** length_prefixed_string.rs 21-51: the closure [parse_len]. *)
Definition parse_len_bits (i : bytes * N) : ires (bytes * N) (nom_error (bytes * N)) N :=
  let? (i, g) := len_group i in
  let len := N.lor 0 g.2 in
  if negb g.1 then Ok i len else
  let? (i, g) := len_group i in
  let len := N.lor len (N.shiftl g.2 7) in
  if negb g.1 then Ok i len else
  let? (i, g) := len_group i in
  let len := N.lor len (N.shiftl g.2 14) in
  if negb g.1 then Ok i len else
  let? (i, g) := len_group i in
  let len := N.lor len (N.shiftl g.2 21) in
  if negb g.1 then Ok i len else
  let? (i, part) := preceded (bits_tag 0 5) (bits_take 3) i in
  let len := N.lor len (N.shiftl part 28) in
  Ok i len.

(** length_prefixed_string.rs 53-57: start at bit 0 and insist on ending at bit 0. *)
Definition parse_len (input : bytes) : nres N :=
  match parse_len_bits (input, 0%N) with
  | Ok (rest, off) len =>
      if N.eqb off 0 then Ok rest len else Fail (mkNomError input K_Verify)
  | Err e => Err (mkNomError (ne_input e).1 (ne_code e))
  | Fail e => Fail (mkNomError (ne_input e).1 (ne_code e))
  | Panic p => Panic p
  | Diverge => Diverge
  end.

(** length_prefixed_string.rs 60-64: [LengthPrefixedString::parse]; errors stay recoverable. *)
Definition lps_parse (input : bytes) : res str :=
  map_err (at_err (E_ExpectedPrimitive PT_String)) (
    let? (input, len) := parse_len input in
    map_res (take_bytes len) from_utf8 input).

(** data_type/decimal.rs 16-26. *)
Definition decimal_parse `{DecimalLib} (input : bytes) : res decimal :=
  let err_input := input in
  let? (input, s) := lps_parse input in
  match dec_from_str s with
  | Some d => Ok input d
  | None => Fail (mkError err_input (E_ExpectedPrimitive PT_Decimal))
  end.

(** ** combinator.rs *)

(** combinator.rs 17-30 and 32-45: an [Int32] that must be positive;
    [u32::try_from(i32).ok().and_then(NonZeroU32::new)]. *)
Definition positive_id (k : error_inner) (input : bytes) : res N :=
  match int32_parse input with
  | Ok rest z =>
      if Z.ltb 0 z then Ok rest (Z.to_N z) else Fail (mkError input k)
  | Err e => Err e
  | Fail e => Fail e
  | Panic p => Panic p
  | Diverge => Diverge
  end.

(** combinator.rs 17-30. *)
Definition library_id (input : bytes) : res N := positive_id E_InvalidLibraryId input.
(** combinator.rs 32-45. *)
Definition object_id (input : bytes) : res N := positive_id E_InvalidObjectId input.

(** combinator.rs 47-60: an [Int32] that must not be negative. *)
Definition length_parse (input : bytes) : res N :=
  match int32_parse input with
  | Ok rest z =>
      if Z.leb 0 z then Ok rest (Z.to_N z) else Fail (mkError input E_InvalidLength)
  | Err e => Err e
  | Fail e => Fail e
  | Panic p => Panic p
  | Diverge => Diverge
  end.

(** data_type/mod.rs 41-54: [ClassTypeInfo]. *)
Record class_type_info := mkClassTypeInfo { cti_type_name : str; cti_library_id : N }.

Definition class_type_info_parse (input : bytes) : res class_type_info :=
  let? (input, type_name) := lps_parse input in
  let? (input, lid) := library_id input in
  Ok input (mkClassTypeInfo type_name lid).
