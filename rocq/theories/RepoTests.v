(** * RepoTests: the test suite of /repo/tests run on the model.

    These are tests of the model, not theorems about all inputs: each [Example] is one assertion of
    a test of the repository, computed.  Every [assert_eq!] of every file in /repo/tests is here; the
    texts of deserialisation errors are not modelled, so those assertions only say "an error". *)
From Verif Require Import Base Utf8 Value DataTypes Records Parser Wire Spec Serde PropsG.
From Coq Require Strings.String.
Import String.StringSyntax.

Section with_libs.
Context {DL : DecimalLib} {FL : FloatLib}.

(** Header of all tests but method_return.rs. *)
Definition test_header : bytes := bs_of [0; 1;0;0;0; 255;255;255;255; 1;0;0;0; 0;0;0;0]%N.

(** tests/boolean.rs *)
Definition test_boolean : bytes := test_header ++ bs_of [4; 1;0;0;0]%N ++ ex_lps (lit "System.Boolean") ++ bs_of [1;0;0;0]%N
  ++ ex_lps (lit "m_value") ++ bs_of [0; 1]%N ++ bs_of [1]%N ++ bs_of [11]%N.
Example test_boolean_parse :
  deserialize test_boolean = POk (MValue (VObject (mkObj (lit "System.Boolean") None [(lit "m_value", VBoolean true)]))).
Proof. vm_compute. reflexivity. Qed.
Example test_boolean_deserialize : from_slice (T_bool) test_boolean = FOk (D_bool true).
Proof. vm_compute. reflexivity. Qed.

(** tests/byte.rs *)
Definition test_byte : bytes := test_header ++ bs_of [4; 1;0;0;0]%N ++ ex_lps (lit "System.Byte") ++ bs_of [1;0;0;0]%N
  ++ ex_lps (lit "m_value") ++ bs_of [0; 2]%N ++ bs_of [129]%N ++ bs_of [11]%N.
Example test_byte_parse :
  deserialize test_byte = POk (MValue (VObject (mkObj (lit "System.Byte") None [(lit "m_value", VByte 129)]))).
Proof. vm_compute. reflexivity. Qed.
Example test_byte_deserialize : from_slice (T_int U8) test_byte = FOk (D_int 129).
Proof. vm_compute. reflexivity. Qed.
Example test_byte_deserialize_struct :
  from_slice (T_struct [(lit "m_value", T_int U8)]) test_byte = FOk (D_struct [(lit "m_value", D_int 129)]).
Proof. vm_compute. reflexivity. Qed.

(** tests/double.rs *)
Definition test_double : bytes := test_header ++ bs_of [4; 1;0;0;0]%N ++ ex_lps (lit "System.Double") ++ bs_of [1;0;0;0]%N
  ++ ex_lps (lit "m_value") ++ bs_of [0; 6]%N ++ bs_of [255; 178; 123; 242; 176; 80; 187; 191]%N ++ bs_of [11]%N.
Example test_double_parse :
  deserialize test_double = POk (MValue (VObject (mkObj (lit "System.Double") None [(lit "m_value", VDouble 13815725002801787647)]))).
Proof. vm_compute. reflexivity. Qed.
Example test_double_deserialize : from_slice (T_f64) test_double = FOk (D_f64 13815725002801787647).
Proof. vm_compute. reflexivity. Qed.
Example test_double_deserialize_struct :
  from_slice (T_struct [(lit "m_value", T_f64)]) test_double = FOk (D_struct [(lit "m_value", D_f64 13815725002801787647)]).
Proof. vm_compute. reflexivity. Qed.

(** tests/int16.rs *)
Definition test_int16 : bytes := test_header ++ bs_of [4; 1;0;0;0]%N ++ ex_lps (lit "System.Int16") ++ bs_of [1;0;0;0]%N
  ++ ex_lps (lit "m_value") ++ bs_of [0; 7]%N ++ bs_of [112; 255]%N ++ bs_of [11]%N.
Example test_int16_parse :
  deserialize test_int16 = POk (MValue (VObject (mkObj (lit "System.Int16") None [(lit "m_value", VInt16 (-144))]))).
Proof. vm_compute. reflexivity. Qed.
Example test_int16_deserialize : from_slice (T_int I16) test_int16 = FOk (D_int (-144)).
Proof. vm_compute. reflexivity. Qed.

(** tests/int32.rs *)
Definition test_int32 : bytes := test_header ++ bs_of [4; 1;0;0;0]%N ++ ex_lps (lit "System.Int32") ++ bs_of [1;0;0;0]%N
  ++ ex_lps (lit "m_value") ++ bs_of [0; 8]%N ++ bs_of [255; 255; 255; 255]%N ++ bs_of [11]%N.
Example test_int32_parse :
  deserialize test_int32 = POk (MValue (VObject (mkObj (lit "System.Int32") None [(lit "m_value", VInt32 (-1))]))).
Proof. vm_compute. reflexivity. Qed.
Example test_int32_deserialize : from_slice (T_int I32) test_int32 = FOk (D_int (-1)).
Proof. vm_compute. reflexivity. Qed.
Example test_int32_deserialize_struct :
  from_slice (T_struct [(lit "m_value", T_int I32)]) test_int32 = FOk (D_struct [(lit "m_value", D_int (-1))]).
Proof. vm_compute. reflexivity. Qed.

(** tests/int32_2.rs *)
Definition test_int32_2 : bytes := test_header ++ bs_of [4; 1;0;0;0]%N ++ ex_lps (lit "System.Int32") ++ bs_of [1;0;0;0]%N
  ++ ex_lps (lit "m_value") ++ bs_of [0; 8]%N ++ bs_of [12; 0; 0; 0]%N ++ bs_of [11]%N.
Example test_int32_2_parse :
  deserialize test_int32_2 = POk (MValue (VObject (mkObj (lit "System.Int32") None [(lit "m_value", VInt32 12)]))).
Proof. vm_compute. reflexivity. Qed.
Example test_int32_2_deserialize : from_slice (T_int I32) test_int32_2 = FOk (D_int 12).
Proof. vm_compute. reflexivity. Qed.

(** tests/int64.rs *)
Definition test_int64 : bytes := test_header ++ bs_of [4; 1;0;0;0]%N ++ ex_lps (lit "System.Int64") ++ bs_of [1;0;0;0]%N
  ++ ex_lps (lit "m_value") ++ bs_of [0; 9]%N ++ bs_of [255; 255; 255; 255; 255; 255; 255; 255]%N ++ bs_of [11]%N.
Example test_int64_parse :
  deserialize test_int64 = POk (MValue (VObject (mkObj (lit "System.Int64") None [(lit "m_value", VInt64 (-1))]))).
Proof. vm_compute. reflexivity. Qed.
Example test_int64_deserialize : from_slice (T_int I64) test_int64 = FOk (D_int (-1)).
Proof. vm_compute. reflexivity. Qed.
Example test_int64_deserialize_struct :
  from_slice (T_struct [(lit "m_value", T_int I64)]) test_int64 = FOk (D_struct [(lit "m_value", D_int (-1))]).
Proof. vm_compute. reflexivity. Qed.

(** tests/sbyte.rs *)
Definition test_sbyte : bytes := test_header ++ bs_of [4; 1;0;0;0]%N ++ ex_lps (lit "System.SByte") ++ bs_of [1;0;0;0]%N
  ++ ex_lps (lit "m_value") ++ bs_of [0; 10]%N ++ bs_of [129]%N ++ bs_of [11]%N.
Example test_sbyte_parse :
  deserialize test_sbyte = POk (MValue (VObject (mkObj (lit "System.SByte") None [(lit "m_value", VSByte (-127))]))).
Proof. vm_compute. reflexivity. Qed.
Example test_sbyte_deserialize : from_slice (T_int I8) test_sbyte = FOk (D_int (-127)).
Proof. vm_compute. reflexivity. Qed.
Example test_sbyte_deserialize_struct :
  from_slice (T_struct [(lit "m_value", T_int I8)]) test_sbyte = FOk (D_struct [(lit "m_value", D_int (-127))]).
Proof. vm_compute. reflexivity. Qed.

(** tests/single.rs *)
Definition test_single : bytes := test_header ++ bs_of [4; 1;0;0;0]%N ++ ex_lps (lit "System.Single") ++ bs_of [1;0;0;0]%N
  ++ ex_lps (lit "m_value") ++ bs_of [0; 11]%N ++ bs_of [195; 245; 72; 64]%N ++ bs_of [11]%N.
Example test_single_parse :
  deserialize test_single = POk (MValue (VObject (mkObj (lit "System.Single") None [(lit "m_value", VSingle 1078523331)]))).
Proof. vm_compute. reflexivity. Qed.
Example test_single_deserialize : from_slice (T_f32) test_single = FOk (D_f32 1078523331).
Proof. vm_compute. reflexivity. Qed.

(** tests/uint16.rs *)
Definition test_uint16 : bytes := test_header ++ bs_of [4; 1;0;0;0]%N ++ ex_lps (lit "System.UInt16") ++ bs_of [1;0;0;0]%N
  ++ ex_lps (lit "m_value") ++ bs_of [0; 14]%N ++ bs_of [112; 255]%N ++ bs_of [11]%N.
Example test_uint16_parse :
  deserialize test_uint16 = POk (MValue (VObject (mkObj (lit "System.UInt16") None [(lit "m_value", VUInt16 65392)]))).
Proof. vm_compute. reflexivity. Qed.
Example test_uint16_deserialize : from_slice (T_int U16) test_uint16 = FOk (D_int 65392).
Proof. vm_compute. reflexivity. Qed.
Example test_uint16_deserialize_struct :
  from_slice (T_struct [(lit "m_value", T_int U16)]) test_uint16 = FOk (D_struct [(lit "m_value", D_int 65392)]).
Proof. vm_compute. reflexivity. Qed.

(** tests/uint32.rs *)
Definition test_uint32 : bytes := test_header ++ bs_of [4; 1;0;0;0]%N ++ ex_lps (lit "System.UInt32") ++ bs_of [1;0;0;0]%N
  ++ ex_lps (lit "m_value") ++ bs_of [0; 15]%N ++ bs_of [112; 255; 0; 0]%N ++ bs_of [11]%N.
Example test_uint32_parse :
  deserialize test_uint32 = POk (MValue (VObject (mkObj (lit "System.UInt32") None [(lit "m_value", VUInt32 65392)]))).
Proof. vm_compute. reflexivity. Qed.
Example test_uint32_deserialize : from_slice (T_int U32) test_uint32 = FOk (D_int 65392).
Proof. vm_compute. reflexivity. Qed.
Example test_uint32_deserialize_struct :
  from_slice (T_struct [(lit "m_value", T_int U32)]) test_uint32 = FOk (D_struct [(lit "m_value", D_int 65392)]).
Proof. vm_compute. reflexivity. Qed.

(** tests/uint64.rs *)
Definition test_uint64 : bytes := test_header ++ bs_of [4; 1;0;0;0]%N ++ ex_lps (lit "System.UInt64") ++ bs_of [1;0;0;0]%N
  ++ ex_lps (lit "m_value") ++ bs_of [0; 16]%N ++ bs_of [112; 255; 0; 0; 0; 0; 0; 0]%N ++ bs_of [11]%N.
Example test_uint64_parse :
  deserialize test_uint64 = POk (MValue (VObject (mkObj (lit "System.UInt64") None [(lit "m_value", VUInt64 65392)]))).
Proof. vm_compute. reflexivity. Qed.
Example test_uint64_deserialize : from_slice (T_int U64) test_uint64 = FOk (D_int 65392).
Proof. vm_compute. reflexivity. Qed.
Example test_uint64_deserialize_struct :
  from_slice (T_struct [(lit "m_value", T_int U64)]) test_uint64 = FOk (D_struct [(lit "m_value", D_int 65392)]).
Proof. vm_compute. reflexivity. Qed.

(** tests/binary_array_jagged.rs *)
Definition test_binary_array_jagged : bytes := bs_of [0;1;0;0;0;255;255;255;255;1;0;0;0;0;0;0;0;7;1;0;0;0;1;1;0;0;0;3;0;0;0;7;8;9;2;0;0;0;9;3;0;0;0;9;4;0;0;0;15;2;0;0;0;2;0;0;0;8;1;0;0;0;2;0;0;0;15;3;0;0;0;3;0;0;0;8;3;0;0;0;4;0;0;0;5;0;0;0;15;4;0;0;0;4;0;0;0;8;6;0;0;0;7;0;0;0;8;0;0;0;9;0;0;0;11]%N.
Example test_binary_array_jagged_parse : deserialize test_binary_array_jagged = POk (MValue (VArray [VArray [VInt32 1; VInt32 2]; VArray [VInt32 3; VInt32 4; VInt32 5]; VArray [VInt32 6; VInt32 7; VInt32 8; VInt32 9]])).
Proof. vm_compute. reflexivity. Qed.

(** tests/binary_array_jagged_offset.rs *)
Definition test_binary_array_jagged_offset : bytes := bs_of [0;1;0;0;0;255;255;255;255;1;0;0;0;0;0;0;0;7;1;0;0;0;4;1;0;0;0;3;0;0;0;208;7;0;0;7;8;9;2;0;0;0;9;3;0;0;0;9;4;0;0;0;15;2;0;0;0;1;0;0;0;8;1;0;0;0;15;3;0;0;0;2;0;0;0;8;2;0;0;0;3;0;0;0;15;4;0;0;0;3;0;0;0;8;4;0;0;0;5;0;0;0;6;0;0;0;11]%N.
Example test_binary_array_jagged_offset_parse : deserialize test_binary_array_jagged_offset = POk (MValue (VArray [VArray [VInt32 1]; VArray [VInt32 2; VInt32 3]; VArray [VInt32 4; VInt32 5; VInt32 6]])).
Proof. vm_compute. reflexivity. Qed.

(** tests/binary_array_rectangular.rs *)
Definition test_binary_array_rectangular : bytes := bs_of [0;1;0;0;0;255;255;255;255;1;0;0;0;0;0;0;0;7;1;0;0;0;2;2;0;0;0;1;0;0;0;2;0;0;0;0;9;67;0;0;0;0;0;0;0;42;0;0;0;0;0;0;0;11]%N.
Example test_binary_array_rectangular_parse : deserialize test_binary_array_rectangular = POk (MValue (VArray [VArray [VInt64 67; VInt64 42]])).
Proof. vm_compute. reflexivity. Qed.

(** tests/binary_array_rectangular_offset.rs *)
Definition test_binary_array_rectangular_offset : bytes := bs_of [0;1;0;0;0;255;255;255;255;1;0;0;0;0;0;0;0;7;1;0;0;0;5;2;0;0;0;10;0;0;0;4;0;0;0;208;7;0;0;1;0;0;0;0;8;0;0;0;0;0;0;0;0;0;0;0;0;0;0;0;0;0;0;0;0;0;0;0;0;0;0;0;0;0;0;0;0;0;0;0;0;0;0;0;0;0;0;0;0;0;0;0;0;0;0;0;0;0;0;0;0;0;0;0;0;0;0;0;0;0;0;0;0;0;0;0;0;0;0;0;0;0;0;0;0;0;0;0;0;0;0;0;0;0;0;0;0;0;0;0;0;0;0;0;0;0;0;0;0;0;0;0;0;0;0;0;0;0;0;0;0;0;0;0;0;0;0;0;0;0;0;0;0;0;0;0;0;0;0;0;0;0;0;0;0;0;0;0;0;0;0;0;0;0;0;0;0;0;0;0;0;0;0;0;0;11]%N.
Example test_binary_array_rectangular_offset_parse : deserialize test_binary_array_rectangular_offset = POk (MValue (VArray (replicate 10 (VArray (replicate 4 (VInt32 0)))))).
Proof. vm_compute. reflexivity. Qed.

(** tests/binary_array_single_offset.rs *)
Definition test_binary_array_single_offset : bytes := bs_of [0;1;0;0;0;255;255;255;255;1;0;0;0;0;0;0;0;7;1;0;0;0;3;1;0;0;0;10;0;0;0;208;7;0;0;0;8;0;0;0;0;0;0;0;0;0;0;0;0;0;0;0;0;0;0;0;0;0;0;0;0;0;0;0;0;0;0;0;0;0;0;0;0;0;0;0;0;11]%N.
Example test_binary_array_single_offset_parse : deserialize test_binary_array_single_offset = POk (MValue (VArray (replicate 10 (VInt32 0)))).
Proof. vm_compute. reflexivity. Qed.

(** tests/method_call.rs *)
Definition test_method_call : bytes := bs_of [0;1;0;0;0;255;255;255;255;1;0;0;0;0;0;0;0;21;20;0;0;0;18;11;83;101;110;100;65;100;100;114;101;115;115;18;111;68;79;74;82;101;109;111;116;105;110;103;77;101;116;97;100;97;116;97;46;77;121;83;101;114;118;101;114;44;32;68;79;74;82;101;109;111;116;105;110;103;77;101;116;97;100;97;116;97;44;32;86;101;114;115;105;111;110;61;49;46;48;46;50;54;50;50;46;51;49;51;50;54;44;32;67;117;108;116;117;114;101;61;110;101;117;116;114;97;108;44;32;80;117;98;108;105;99;75;101;121;84;111;107;101;110;61;110;117;108;108;16;1;0;0;0;1;0;0;0;9;2;0;0;0;12;3;0;0;0;81;68;79;74;82;101;109;111;116;105;110;103;77;101;116;97;100;97;116;97;44;32;86;101;114;115;105;111;110;61;49;46;48;46;50;54;50;50;46;51;49;51;50;54;44;32;67;117;108;116;117;114;101;61;110;101;117;116;114;97;108;44;32;80;117;98;108;105;99;75;101;121;84;111;107;101;110;61;110;117;108;108;5;2;0;0;0;27;68;79;74;82;101;109;111;116;105;110;103;77;101;116;97;100;97;116;97;46;65;100;100;114;101;115;115;4;0;0;0;6;83;116;114;101;101;116;4;67;105;116;121;5;83;116;97;116;101;3;90;105;112;1;1;1;1;3;0;0;0;6;4;0;0;0;17;79;110;101;32;77;105;99;114;111;115;111;102;116;32;87;97;121;6;5;0;0;0;7;82;101;100;109;111;110;100;6;6;0;0;0;2;87;65;6;7;0;0;0;5;57;56;48;53;52;11]%N.
Example test_method_call_parse : deserialize test_method_call = POk (MMethodCall (mkMethodCall (lit "SendAddress")
    (lit "DOJRemotingMetadata.MyServer, DOJRemotingMetadata, Version=1.0.2622.31326, Culture=neutral, PublicKeyToken=null")
    None
    (Some [VObject (mkObj (lit "DOJRemotingMetadata.Address")
      (Some (lit "DOJRemotingMetadata, Version=1.0.2622.31326, Culture=neutral, PublicKeyToken=null"))
      [(lit "Street", VString (lit "One Microsoft Way")); (lit "City", VString (lit "Redmond"));
       (lit "State", VString (lit "WA")); (lit "Zip", VString (lit "98054"))])]))).
Proof. vm_compute. reflexivity. Qed.

(** tests/method_return.rs *)
Definition test_method_return : bytes := bs_of [0;0;0;0;0;0;0;0;0;1;0;0;0;0;0;0;0;22;17;8;0;0;18;16;65;100;100;114;101;115;115;32;114;101;99;101;105;118;101;100;11]%N.
Example test_method_return_parse : deserialize test_method_return = POk (MMethodReturn (mkMethodReturn (Some (VString (lit "Address received"))) None None)).
Proof. vm_compute. reflexivity. Qed.

(** tests/array_single_primitive.rs *)
Definition test_array_single_primitive : bytes :=
  test_header ++ bs_of [15; 1;0;0;0; 2;0;0;0; 9; 67;0;0;0;0;0;0;0; 42;0;0;0;0;0;0;0; 11]%N.
Example test_array_single_primitive_parse :
  deserialize test_array_single_primitive = POk (MValue (VArray [VInt64 67; VInt64 42])).
Proof. vm_compute. reflexivity. Qed.
Example test_array_single_primitive_deserialize :
  from_slice (T_vec (T_int I64)) test_array_single_primitive = FOk (D_seq [D_int 67; D_int 42])
  /\ from_slice (T_vec (T_int I32)) test_array_single_primitive = FOk (D_seq [D_int 67; D_int 42])
  /\ from_slice (T_array (T_int I64) 1) test_array_single_primitive = FErr
  /\ from_slice (T_array (T_int I64) 2) test_array_single_primitive = FOk (D_seq [D_int 67; D_int 42])
  /\ from_slice (T_array (T_int I64) 3) test_array_single_primitive = FErr.
Proof. split_and!; vm_compute; reflexivity. Qed.

(** tests/array_single_string.rs *)
Definition test_array_single_string : bytes :=
  test_header ++ bs_of [17; 1;0;0;0; 2;0;0;0; 6; 2;0;0;0; 3]%N ++ lit "Bob" ++ bs_of [6; 3;0;0;0; 3]%N ++ lit "Rob"
  ++ bs_of [11]%N.
Example test_array_single_string_parse :
  deserialize test_array_single_string = POk (MValue (VArray [VString (lit "Bob"); VString (lit "Rob")])).
Proof. vm_compute. reflexivity. Qed.
Example test_array_single_string_deserialize :
  from_slice (T_array T_str 2) test_array_single_string = FOk (D_seq [D_str (lit "Bob"); D_str (lit "Rob")])
  /\ from_slice (T_vec T_string) test_array_single_string = FOk (D_seq [D_str (lit "Bob"); D_str (lit "Rob")]).
Proof. split_and!; vm_compute; reflexivity. Qed.

(** tests/string.rs *)
Definition test_string_empty : bytes := test_header ++ bs_of [6; 1;0;0;0; 0; 11]%N.
Example test_string_empty_parse : deserialize test_string_empty = POk (MValue (VString [])).
Proof. vm_compute. reflexivity. Qed.
Definition test_string : bytes :=
  test_header ++ bs_of [6; 1;0;0;0; 17]%N ++ lit "This is a string." ++ bs_of [11]%N.
Example test_string_parse : deserialize test_string = POk (MValue (VString (lit "This is a string."))).
Proof. vm_compute. reflexivity. Qed.
Example test_string_deserialize :
  from_slice T_str test_string = FOk (D_str (lit "This is a string."))
  /\ from_slice T_string test_string = FOk (D_str (lit "This is a string.")).
Proof. split_and!; vm_compute; reflexivity. Qed.

(** tests/list_of_customers.rs *)
Definition test_list_class : str :=
  lit "System.Collections.Generic.List`1[[System.String, mscorlib, Version=4.0.0.0, Culture=neutral, PublicKeyToken=b77a5c561934e089]]".
Definition test_list_of_customers : bytes :=
  test_header ++ bs_of [4; 1;0;0;0; 127]%N ++ test_list_class ++ bs_of [3;0;0;0]%N
  ++ ex_lps (lit "_items") ++ ex_lps (lit "_size") ++ ex_lps (lit "_version")
  ++ bs_of [6; 0; 0; 8; 8; 9; 2;0;0;0; 2;0;0;0; 2;0;0;0; 17; 2;0;0;0; 4;0;0;0; 6; 3;0;0;0; 3]%N ++ lit "Bob"
  ++ bs_of [6; 4;0;0;0; 3]%N ++ lit "Rob" ++ bs_of [13; 2; 11]%N.
Example test_list_of_customers_parse :
  deserialize test_list_of_customers = POk (MValue (VObject (mkObj test_list_class None
    [(lit "_items", VArray [VString (lit "Bob"); VString (lit "Rob"); VNull; VNull]);
     (lit "_size", VInt32 2); (lit "_version", VInt32 2)]))).
Proof. vm_compute. reflexivity. Qed.
Example test_list_of_customers_deserialize :
  from_slice (T_array T_str 2) test_list_of_customers = FOk (D_seq [D_str (lit "Bob"); D_str (lit "Rob")])
  /\ from_slice (T_vec T_str) test_list_of_customers = FOk (D_seq [D_str (lit "Bob"); D_str (lit "Rob")])
  /\ from_slice (T_struct [(lit "_items", T_vec (T_option T_string)); (lit "_size", T_int I32); (lit "_version", T_int I32)])
       test_list_of_customers
     = FOk (D_struct [(lit "_items", D_seq [D_some (D_str (lit "Bob")); D_some (D_str (lit "Rob")); D_none; D_none]);
                      (lit "_size", D_int 2); (lit "_version", D_int 2)]).
Proof. split_and!; vm_compute; reflexivity. Qed.
End with_libs.
