(** * Wire: specification of the byte-level encodings.

    This file does not mention the parser.  It says which byte strings denote which integers,
    strings, primitive values and records, following [MS-NRBF] and the comments in /repo.  The
    theorems relate the model of the code to these definitions. *)
From Verif Require Import Base Value.

(** The byte with a given code (taken modulo 256). *)
Definition n2b (n : N) : byte :=
  match Byte.of_N (n mod 256) with Some b => b | None => x00 end.

(** A byte string given by its codes, for examples. *)
Definition bs_of (l : list N) : bytes := map n2b l.

(** ** Integers *)

(** [k] bytes, least significant first. *)
Fixpoint enc_uint (k : nat) (n : N) : bytes :=
  match k with
  | O => []
  | S k => n2b n :: enc_uint k (n / 256)
  end.

(** Two's complement, [k] bytes. *)
Definition enc_int (k : nat) (z : Z) : bytes :=
  enc_uint k (Z.to_N (z mod 2 ^ (8 * Z.of_nat k))).

(** The integers representable in [k] bytes. *)
Definition fits_uint (k : nat) (n : N) : Prop := (n < 2 ^ (8 * N.of_nat k))%N.
Definition fits_int (k : nat) (z : Z) : Prop :=
  (- 2 ^ (8 * Z.of_nat k - 1) <= z < 2 ^ (8 * Z.of_nat k - 1))%Z.

(** Object, library and metadata ids: positive 32-bit integers. *)
Definition valid_id (n : N) : Prop := (0 < n < 2 ^ 31)%N.
(** Array lengths, member counts: non-negative 32-bit integers. *)
Definition valid_len (n : N) : Prop := (n < 2 ^ 31)%N.

(** ** Strings *)

(** Unicode scalar values. *)
Definition scalar (c : N) : Prop := (c < 0xD800 \/ 0xE000 <= c <= 0x10FFFF)%N.

(** UTF-8 encoding of a scalar value. *)
Definition enc_char (c : N) : bytes :=
  (if c <? 0x80 then [n2b c]
   else if c <? 0x800 then [n2b (0xC0 + c / 64); n2b (0x80 + c mod 64)]
   else if c <? 0x10000 then
     [n2b (0xE0 + c / 4096); n2b (0x80 + (c / 64) mod 64); n2b (0x80 + c mod 64)]
   else [n2b (0xF0 + c / 262144); n2b (0x80 + (c / 4096) mod 64);
         n2b (0x80 + (c / 64) mod 64); n2b (0x80 + c mod 64)])%N.

Definition enc_utf8 (cs : list N) : bytes := concat (map enc_char cs).

(** Well-formed UTF-8. *)
Definition utf8 (s : str) : Prop := exists cs, Forall scalar cs /\ s = enc_utf8 cs.

(** Length prefixes: base 128, least significant group first, the high bit of a byte marks
    that another byte follows; at most five bytes, the fifth at most 7. *)
Fixpoint len_value (bs : bytes) : N :=
  match bs with
  | [] => 0
  | b :: bs => (b2n b mod 128) + 128 * len_value bs
  end%N.

Definition len_prefix (n : N) (bs : bytes) : Prop :=
  exists init last,
    bs = init ++ [last]
    /\ Forall (fun b => 128 <= b2n b)%N init
    /\ (b2n last < 128)%N
    /\ length bs <= 5
    /\ (length bs = 5 -> (b2n last < 8)%N)
    /\ len_value bs = n.

(** A length-prefixed string. *)
Definition e_str (s : str) (bs : bytes) : Prop :=
  exists p, len_prefix (N.of_nat (length s)) p /\ bs = p ++ s /\ utf8 s.

(** ** Primitive values *)

(** The primitive type a value belongs to ([None] for objects, arrays, strings and null). *)
Definition prim_type_of (v : value) : option primitive_type :=
  match v with
  | VBoolean _ => Some PT_Boolean | VByte _ => Some PT_Byte | VChar _ => Some PT_Char
  | VDecimal _ => Some PT_Decimal | VDouble _ => Some PT_Double | VInt16 _ => Some PT_Int16
  | VInt32 _ => Some PT_Int32 | VInt64 _ => Some PT_Int64 | VSByte _ => Some PT_SByte
  | VSingle _ => Some PT_Single | VTimeSpan _ => Some PT_TimeSpan
  | VDateTime _ => Some PT_DateTime | VUInt16 _ => Some PT_UInt16 | VUInt32 _ => Some PT_UInt32
  | VUInt64 _ => Some PT_UInt64
  | VObject _ | VArray _ | VString _ | VNull => None
  end.

Section with_decimal.
Context `{DecimalLib}.

(** [e_prim v bs]: the bytes [bs] denote the primitive value [v] (of type [prim_type_of v]).
    A char is one byte: its code point (not UTF-8; see property C13). *)
Definition e_prim (v : value) (bs : bytes) : Prop :=
  match v with
  | VBoolean b => bs = [if b then x01 else x00]
  | VByte n => fits_uint 1 n /\ bs = enc_uint 1 n
  | VChar c => fits_uint 1 c /\ bs = enc_uint 1 c
  | VDecimal d => exists s, e_str s bs /\ dec_from_str s = Some d
  | VDouble n => fits_uint 8 n /\ bs = enc_uint 8 n
  | VInt16 z => fits_int 2 z /\ bs = enc_int 2 z
  | VInt32 z => fits_int 4 z /\ bs = enc_int 4 z
  | VInt64 z => fits_int 8 z /\ bs = enc_int 8 z
  | VSByte z => fits_int 1 z /\ bs = enc_int 1 z
  | VSingle n => fits_uint 4 n /\ bs = enc_uint 4 n
  | VTimeSpan z => fits_int 8 z /\ bs = enc_int 8 z
  | VDateTime z => fits_int 8 z /\ bs = enc_int 8 z
  | VUInt16 n => fits_uint 2 n /\ bs = enc_uint 2 n
  | VUInt32 n => fits_uint 4 n /\ bs = enc_uint 4 n
  | VUInt64 n => fits_uint 8 n /\ bs = enc_uint 8 n
  | VObject _ | VArray _ | VString _ | VNull => False
  end.

(** A value preceded by its primitive type code ([ValueWithCode]). *)
Definition e_value_with_code (v : value) (bs : bytes) : Prop :=
  match v with
  | VNull => bs = [x11]
  | VString s => exists b, e_str s b /\ bs = x12 :: b
  | _ => exists p b, prim_type_of v = Some p /\ e_prim v b /\ bs = n2b (pt_code p) :: b
  end.

(** Concatenation of encodings. *)
Inductive e_list {A} (E : A -> bytes -> Prop) : list A -> bytes -> Prop :=
| e_nil : e_list E [] []
| e_cons a l b bs : E a b -> e_list E l bs -> e_list E (a :: l) (b ++ bs).

(** A 32-bit id and a 32-bit length. *)
Definition e_id (n : N) (bs : bytes) : Prop := valid_id n /\ bs = enc_uint 4 n.
Definition e_len (n : N) (bs : bytes) : Prop := valid_len n /\ bs = enc_uint 4 n.

(** A list preceded by its 32-bit length. *)
Definition e_counted {A} (E : A -> bytes -> Prop) (l : list A) (bs : bytes) : Prop :=
  exists b, valid_len (N.of_nat (length l)) /\ e_list E l b
            /\ bs = enc_uint 4 (N.of_nat (length l)) ++ b.

(** ** Record bodies *)

(** How a member is declared: [K_Any] for classes and arrays without member types, the others
    for a binary type with its additional information. *)
Inductive kind :=
| K_Any
| K_Primitive (p : primitive_type)
| K_String
| K_Object
| K_SystemClass (class_name : str)
| K_Class (class_name : str) (library_id : N)
| K_ObjectArray
| K_StringArray
| K_PrimitiveArray (p : primitive_type).

(** The code of the binary type. *)
Definition kind_code (k : kind) : option byte :=
  match k with
  | K_Any => None
  | K_Primitive _ => Some x00 | K_String => Some x01 | K_Object => Some x02
  | K_SystemClass _ => Some x03 | K_Class _ _ => Some x04 | K_ObjectArray => Some x05
  | K_StringArray => Some x06 | K_PrimitiveArray _ => Some x07
  end.

Definition e_kind_code (k : kind) (bs : bytes) : Prop :=
  match kind_code k with Some c => bs = [c] | None => False end.

(** The additional information. *)
Definition e_kind_info (k : kind) (bs : bytes) : Prop :=
  match k with
  | K_Primitive p | K_PrimitiveArray p => bs = [n2b (pt_code p)]
  | K_SystemClass name => e_str name bs
  | K_Class name lid => exists b1 b2, e_str name b1 /\ e_id lid b2 /\ bs = b1 ++ b2
  | _ => bs = []
  end.

(** The header of a class record: object id, class name, member names, member types if the
    record carries them, library id if the record carries one. *)
Record class_header := mkClassHeader {
  ch_object_id : N;
  ch_name : str;
  ch_member_names : list str;
  ch_types : option (list kind);
  ch_library : option N;
}.

(** Record type codes of the four class records. *)
Definition class_code (types : option (list kind)) (library : option N) : byte :=
  match types, library with
  | None, None => x02 | None, Some _ => x03 | Some _, None => x04 | Some _, Some _ => x05
  end.

Definition e_types (types : option (list kind)) (n : nat) (bs : bytes) : Prop :=
  match types with
  | None => bs = []
  | Some ks => exists b1 b2, length ks = n /\ e_list e_kind_code ks b1
                             /\ e_list e_kind_info ks b2 /\ bs = b1 ++ b2
  end.

Definition e_class_header (c : class_header) (bs : bytes) : Prop :=
  exists b1 b2 b3 b4 b5,
    e_id (ch_object_id c) b1
    /\ e_str (ch_name c) b2
    /\ e_counted e_str (ch_member_names c) b3
    /\ e_types (ch_types c) (length (ch_member_names c)) b4
    /\ match ch_library c with None => b5 = [] | Some lid => e_id lid b5 end
    /\ bs = class_code (ch_types c) (ch_library c) :: b1 ++ b2 ++ b3 ++ b4 ++ b5.

(** A null record standing for [n] nulls. *)
Definition e_null (n : N) (bs : bytes) : Prop :=
  (n = 1%N /\ bs = [x0a])
  \/ ((0 < n < 2 ^ 31)%N /\ bs = x0e :: enc_uint 4 n)
  \/ ((0 < n < 2 ^ 8)%N /\ bs = x0d :: enc_uint 1 n).

(** [MemberReference], [BinaryObjectString], [BinaryLibrary], [MemberPrimitiveTyped]. *)
Definition e_member_reference (id : N) (bs : bytes) : Prop :=
  exists b, e_id id b /\ bs = x09 :: b.
Definition e_string_record (id : N) (s : str) (bs : bytes) : Prop :=
  exists b1 b2, e_id id b1 /\ e_str s b2 /\ bs = x06 :: b1 ++ b2.
Definition e_library_record (id : N) (s : str) (bs : bytes) : Prop :=
  exists b1 b2, e_id id b1 /\ e_str s b2 /\ bs = x0c :: b1 ++ b2.
Definition e_prim_typed (v : value) (bs : bytes) : Prop :=
  exists p b, prim_type_of v = Some p /\ e_prim v b /\ bs = x08 :: n2b (pt_code p) :: b.

(** Array record headers: [ArraySingleObject] (16), [ArraySingleString] (17). *)
Definition e_array_header (code : byte) (id len : N) (bs : bytes) : Prop :=
  exists b1 b2, e_id id b1 /\ e_len len b2 /\ bs = code :: b1 ++ b2.

(** [ArraySinglePrimitive]: header, type and elements. *)
Definition e_prim_array (id : N) (p : primitive_type) (vs : list value) (bs : bytes) : Prop :=
  exists b1 b2,
    e_array_header x0f id (N.of_nat (length vs)) b1
    /\ Forall (fun v => prim_type_of v = Some p) vs
    /\ e_list e_prim vs b2
    /\ bs = b1 ++ n2b (pt_code p) :: b2.

(** [BinaryArray] header.  Array types 3, 4, 5 carry lower bounds. *)
Definition e_binary_array_header (id : N) (bat : binary_array_type) (lengths : list N)
  (bounds : option (list N)) (k : kind) (bs : bytes) : Prop :=
  exists b1 b2 b3 b4 b5,
    e_id id b1
    /\ e_counted e_len lengths b2
    /\ match bounds with
       | None => (bat_code bat < 3)%N /\ b3 = []
       | Some lb => (3 <= bat_code bat)%N /\ length lb = length lengths /\ e_list e_len lb b3
       end
    /\ e_kind_code k b4
    /\ e_kind_info k b5
    /\ bs = x07 :: b1 ++ n2b (bat_code bat) :: b2 ++ b3 ++ b4 ++ b5.

(** [SerializationHeader]: root id (0 for none), header id, version 1.0. *)
Definition e_header (root : option N) (bs : bytes) : Prop :=
  exists hid,
    match root with Some r => valid_id r | None => True end
    /\ fits_int 4 hid
    /\ bs = x00 :: enc_uint 4 (default 0%N root) ++ enc_int 4 hid ++ enc_int 4 1 ++ enc_int 4 0.

End with_decimal.

(** A string preceded by the code 18 ([StringValueWithCode]). *)
Definition e_string_with_code (s : str) (bs : bytes) : Prop :=
  exists b, e_str s b /\ bs = x12 :: b.

(** ** Method records *)

(** Bit positions of the message flags ([MS-NRBF] 2.2.1.1). *)
Definition bit_NoArgs : Z := 0.
Definition bit_ArgsInline : Z := 1.
Definition bit_ArgsIsArray : Z := 2.
Definition bit_ArgsInArray : Z := 3.
Definition bit_NoContext : Z := 4.
Definition bit_ContextInline : Z := 5.
Definition bit_ContextInArray : Z := 6.
Definition bit_MethodSignatureInArray : Z := 7.
Definition bit_PropertiesInArray : Z := 8.
Definition bit_NoReturnValue : Z := 9.
Definition bit_ReturnValueVoid : Z := 10.
Definition bit_ReturnValueInline : Z := 11.
Definition bit_ReturnValueInArray : Z := 12.
Definition bit_ExceptionInArray : Z := 13.
Definition bit_GenericMethod : Z := 15.

(** Some / at most one of the given flags is set. *)
Definition some_flag (flags : Z) (l : list Z) : Prop := Exists (fun k => Z.testbit flags k = true) l.
Definition at_most_one (flags : Z) (l : list Z) : Prop :=
  forall i j a b, l !! i = Some a -> l !! j = Some b ->
    Z.testbit flags a = true -> Z.testbit flags b = true -> i = j.

Definition args_bits : list Z := [bit_NoArgs; bit_ArgsInline; bit_ArgsIsArray; bit_ArgsInArray].
Definition context_bits : list Z := [bit_NoContext; bit_ContextInline; bit_ContextInArray].
(** The return bits the code looks at: ReturnValueInline is missing (property C32). *)
Definition checked_return_bits : list Z :=
  [bit_NoReturnValue; bit_ReturnValueVoid; bit_ReturnValueInArray].

(** The flag words the code accepts, for a given set of return bits.  With
    [bit_ReturnValueInline] added to [ret] this is the rule of [MS-NRBF]. *)
Definition flags_ok (ret : list Z) (flags : Z) : Prop :=
  at_most_one flags args_bits
  /\ at_most_one flags context_bits
  /\ at_most_one flags ret
  /\ ~ (some_flag flags args_bits /\ Z.testbit flags bit_ExceptionInArray = true)
  /\ ~ (some_flag flags ret /\ Z.testbit flags bit_ExceptionInArray = true)
  /\ ~ (some_flag flags ret /\ Z.testbit flags bit_MethodSignatureInArray = true)
  /\ ~ (Z.testbit flags bit_ExceptionInArray = true
        /\ Z.testbit flags bit_MethodSignatureInArray = true).

Definition e_flags (flags : Z) (bs : bytes) : Prop :=
  fits_int 4 flags /\ flags_ok checked_return_bits flags /\ bs = enc_int 4 flags.

(** An optional field, present if the flag [k] is set. *)
Definition e_flagged {A} (flags k : Z) (E : A -> bytes -> Prop) (o : option A) (bs : bytes)
  : Prop :=
  match o with
  | Some a => Z.testbit flags k = true /\ E a bs
  | None => Z.testbit flags k = false /\ bs = []
  end.

Section with_decimal.
Context `{DecimalLib}.

(** [BinaryMethodCall]: flags, method name, type name, call context, inline arguments. *)
Definition e_method_call (flags : Z) (method type : str) (ctx : option str)
  (args : option (list value)) (bs : bytes) : Prop :=
  exists b1 b2 b3 b4 b5,
    e_flags flags b1
    /\ e_string_with_code method b2
    /\ e_string_with_code type b3
    /\ e_flagged flags bit_ContextInline e_string_with_code ctx b4
    /\ e_flagged flags bit_ArgsInline (e_counted e_value_with_code) args b5
    /\ bs = x15 :: b1 ++ b2 ++ b3 ++ b4 ++ b5.

(** [BinaryMethodReturn]: flags, return value, call context, inline arguments. *)
Definition e_method_return (flags : Z) (ret : option value) (ctx : option str)
  (args : option (list value)) (bs : bytes) : Prop :=
  exists b1 b2 b3 b4,
    e_flags flags b1
    /\ e_flagged flags bit_ReturnValueInline e_value_with_code ret b2
    /\ e_flagged flags bit_ContextInline e_string_with_code ctx b3
    /\ e_flagged flags bit_ArgsInline (e_counted e_value_with_code) args b4
    /\ bs = x16 :: b1 ++ b2 ++ b3 ++ b4.

End with_decimal.
