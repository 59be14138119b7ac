(** * Display: the texts of errors. *)
From Verif Require Import Base Value DataTypes Records Parser Wire Serde.
Import String.StringSyntax.

(** record/mod.rs 91-114: [RecordType::description]. *)
Definition rt_description (r : record_type) : str :=
  match r with
  | RT_SerializedStreamHeader => lit "a SerializedStreamHeader"
  | RT_ClassWithId => lit "a ClassWithId"
  | RT_SystemClassWithMembers => lit "a SystemClassWithMembers"
  | RT_ClassWithMembers => lit "a ClassWithMembers"
  | RT_SystemClassWithMembersAndTypes => lit "a SystemClassWithMembersAndTypes"
  | RT_ClassWithMembersAndTypes => lit "a ClassWithMembersAndTypes"
  | RT_BinaryObjectString => lit "a BinaryObjectString"
  | RT_BinaryArray => lit "a BinaryArray"
  | RT_MemberPrimitiveTyped => lit "a MemberPrimitiveTyped"
  | RT_MemberReference => lit "a MemberReference"
  | RT_ObjectNull => lit "an ObjectNull"
  | RT_MessageEnd => lit "a MessageEnd"
  | RT_BinaryLibrary => lit "a BinaryLibrary"
  | RT_ObjectNullMultiple256 => lit "an ObjectNullMultiple256"
  | RT_ObjectNullMultiple => lit "an ObjectNullMultiple"
  | RT_ArraySinglePrimitive => lit "an ArraySinglePrimitive"
  | RT_ArraySingleObject => lit "an ArraySingleObject"
  | RT_ArraySingleString => lit "an ArraySingleString"
  | RT_MethodCall => lit "a MethodCall"
  | RT_MethodReturn => lit "a MethodReturn"
  end.

(** enumeration.rs 105-125: [PrimitiveType::description]. *)
Definition pt_description (p : primitive_type) : str :=
  match p with
  | PT_Boolean => lit "a BOOLEAN"
  | PT_Byte => lit "a BYTE"
  | PT_Char => lit "a CHAR"
  | PT_Decimal => lit "a Decimal"
  | PT_Double => lit "a DOUBLE"
  | PT_Int16 => lit "an INT16"
  | PT_Int32 => lit "an INT32"
  | PT_Int64 => lit "an INT64"
  | PT_SByte => lit "an INT8"
  | PT_Single => lit "a SINGLE"
  | PT_TimeSpan => lit "a TimeSpan"
  | PT_DateTime => lit "a DateTime"
  | PT_UInt16 => lit "a UINT16"
  | PT_UInt32 => lit "a UINT32"
  | PT_UInt64 => lit "a UINT64"
  | PT_Null => lit "a NULL"
  | PT_String => lit "a LengthPrefixedString"
  end.

(** error.rs 72-103: [Display for ErrorInner]. *)
Definition inner_text (k : error_inner) : str :=
  match k with
  | E_Eof => lit "unexpected end of input"
  | E_TrailingData => lit "unexpected trailing data"
  | E_UnresolvableMemberReference => lit "unresolvable member reference"
  | E_InvalidCallArrayId => lit "invalid call array ID"
  | E_MissingRootObject => lit "missing root object"
  | E_InvalidNullCount => lit "invalid NULL count"
  | E_InvalidObjectId => lit "invalid object ID"
  | E_DuplicateObjectId => lit "duplicate object ID"
  | E_InvalidLength => lit "invalid length"
  | E_InvalidMajorVersion => lit "invalid major version"
  | E_InvalidMinorVersion => lit "invalid minor version"
  | E_InvalidRootId => lit "invalid root ID"
  | E_MissingMetadataId => lit "missing metadata ID"
  | E_InvalidMetadataId => lit "invalid metadata ID"
  | E_InvalidArgs => lit "invalid method arguments"
  | E_UnexpectedClass => lit "unexpected class"
  | E_ExpectedBinaryType => lit "expected BinaryType"
  | E_ExpectedBinaryArrayType => lit "expected BinaryArrayType"
  | E_MissingLibraryId => lit "missing library ID"
  | E_InvalidLibraryId => lit "invalid library ID"
  | E_DuplicateLibraryId => lit "duplicate library ID"
  | E_ExpectedRecordType r => lit "expected " ++ rt_description r
  | E_ExpectedClassInfo => lit "expected ClassInfo"
  | E_ExpectedMessageFlags => lit "expected MessageFlags"
  | E_InvalidMessageFlags => lit "invalid MessageFlags"
  | E_ExpectedPrimitiveType => lit "expected PrimitiveType"
  | E_Other => lit "other error"
  | E_ExpectedPrimitive p => lit "expected " ++ pt_description p
  end.

(** error.rs 12-16: [Display for Error]. *)
Definition error_text (e : error) : str := inner_text (e_inner e).

(** lib.rs 53: the text of the error [from_slice] makes of a parsing error. *)
Definition slice_error_text (e : error) : str := lit "parsing error: " ++ error_text e.
