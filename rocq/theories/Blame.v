(** * Blame: which error a message is refused with.

    Specification only: nothing here mentions the parser.

    An error consists of a kind and of the position (the bytes from there on) it points to.
    [flaw_X i er]: the fixed-format field or record X at [i] is not well-formed, in a way that is
    reported as [er].  [blame_X e i er]: the same for the nested parts, with the tables [e].
    (A part that is cut off or malformed at a string is not reported but given up: see [Stops.v].) *)
From Verif Require Import Base Value Wire Grammar Spec Positions Stops.

(** The error of the kind [k] that points to [i]. *)
Definition report (k : error_inner) (i : bytes) (er : error) : Prop := er = mkError i k.
(** [G] holds behind an encoding at [i]. *)
Definition past {A} (E : A -> bytes -> Prop) (G : A -> bytes -> Prop) (i : bytes) : Prop :=
  exists a b r, E a b /\ i = b ++ r /\ G a r.
(** [G] holds behind fewer than [n] encodings at [i]. *)
Definition among {A} (E : A -> bytes -> Prop) (n : N) (G : bytes -> Prop) (i : bytes) : Prop :=
  exists l b r, e_list E l b /\ (N.of_nat (length l) < n)%N /\ i = b ++ r /\ G r.
(** The record type [c] stands at [i], and [G] holds behind it. *)
Definition behind (c : byte) (G : bytes -> Prop) (i : bytes) : Prop := exists r, i = c :: r /\ G r.

(** ** Numbers and codes *)

(** A number of [n] bytes that is cut off. *)
Definition too_short (n : nat) (p : primitive_type) (i : bytes) (er : error) : Prop :=
  length i < n /\ report (E_ExpectedPrimitive p) i er.
(** A 32-bit number that is cut off or not positive. *)
Definition flaw_positive (k : error_inner) (i : bytes) (er : error) : Prop :=
  too_short 4 PT_Int32 i er
  \/ exists z r, fits_int 4 z /\ (z <= 0)%Z /\ i = enc_int 4 z ++ r /\ report k i er.
Definition flaw_object_id := flaw_positive E_InvalidObjectId.
Definition flaw_library_id := flaw_positive E_InvalidLibraryId.
(** A length that is cut off or negative. *)
Definition flaw_length (i : bytes) (er : error) : Prop :=
  too_short 4 PT_Int32 i er
  \/ exists z r, fits_int 4 z /\ (z < 0)%Z /\ i = enc_int 4 z ++ r /\ report E_InvalidLength i er.

Definition e_prim_code (p : primitive_type) (bs : bytes) : Prop := bs = [n2b (pt_code p)].
Definition e_array_code (b : binary_array_type) (bs : bytes) : Prop := bs = [n2b (bat_code b)].
Definition flaw_prim_code (i : bytes) (er : error) : Prop :=
  ~ starts e_prim_code i /\ report E_ExpectedPrimitiveType i er.
Definition flaw_kind_code (i : bytes) (er : error) : Prop :=
  ~ starts e_kind_code i /\ report E_ExpectedBinaryType i er.
Definition flaw_array_code (i : bytes) (er : error) : Prop :=
  ~ starts e_array_code i /\ report E_ExpectedBinaryArrayType i er.

(** The number of bytes of a primitive. *)
Definition prim_size (p : primitive_type) : nat :=
  match p with
  | PT_Byte | PT_SByte | PT_Char => 1
  | PT_Int16 | PT_UInt16 => 2
  | PT_Int32 | PT_UInt32 | PT_Single => 4
  | _ => 8
  end.

(** ** Headers *)

(** Object id and number of members of a class record. *)
Definition flaw_class_info (i : bytes) (er : error) : Prop :=
  (~ starts e_id i /\ report E_ExpectedClassInfo i er)
  \/ past e_id (fun _ => past e_str (fun _ i => ~ starts e_len i /\ report E_ExpectedClassInfo i er)) i.

Definition flaw_kind_info (k : kind) (i : bytes) (er : error) : Prop :=
  match k with
  | K_Primitive _ | K_PrimitiveArray _ => flaw_prim_code i er
  | K_Class _ _ => past e_str (fun _ i => flaw_library_id i er) i
  | _ => False
  end.
(** The member types of a class with [n] members. *)
Definition flaw_types (n : nat) (i : bytes) (er : error) : Prop :=
  among e_kind_code (N.of_nat n) (fun i => flaw_kind_code i er) i
  \/ exists ks1 k ks2 b1 b2 r,
       length (ks1 ++ k :: ks2) = n /\ e_list e_kind_code (ks1 ++ k :: ks2) b1
       /\ e_list e_kind_info ks1 b2 /\ i = b1 ++ b2 ++ r /\ flaw_kind_info k r er.

Definition flaw_class_header (i : bytes) (er : error) : Prop :=
  exists c r, c ∈ [x02; x03; x04; x05] /\ i = c :: r /\
    (flaw_class_info r er
     \/ past e_id (fun _ => past e_str (fun _ => past (e_counted e_str) (fun names i =>
          (c = x03 /\ flaw_library_id i er)
          \/ ((c = x04 \/ c = x05) /\ flaw_types (length names) i er)
          \/ (c = x05 /\ past (fun ks => e_types (Some ks) (length names))
                              (fun _ i => flaw_library_id i er) i)))) r).

Definition flaw_array_header (code : byte) : bytes -> error -> Prop := fun i er =>
  behind code (fun i => flaw_object_id i er \/ past e_id (fun _ i => flaw_length i er) i) i.

Definition flaw_binary_array_header (i : bytes) (er : error) : Prop :=
  behind x07 (fun i =>
    flaw_object_id i er
    \/ past e_id (fun _ i =>
         flaw_array_code i er
         \/ past e_array_code (fun bat i =>
              flaw_length i er
              \/ past e_len (fun rank => among e_len rank (fun i => flaw_length i er)) i
              \/ past (e_counted e_len) (fun lengths i =>
                   ((3 <= bat_code bat)%N
                    /\ among e_len (N.of_nat (length lengths)) (fun i => flaw_length i er) i)
                   \/ past (fun lb b => if (3 <=? bat_code bat)%N
                                        then length lb = length lengths /\ e_list e_len lb b
                                        else lb = [] /\ b = [])
                        (fun _ i => flaw_kind_code i er
                                    \/ past e_kind_code (fun k i => flaw_kind_info k i er) i) i) i) i) i) i.

(** The header of the message. *)
Definition e_int32 (z : Z) (bs : bytes) : Prop := fits_int 4 z /\ bs = enc_int 4 z.
Definition flaw_header (i : bytes) (er : error) : Prop :=
  (~ begins [x00] i /\ report (E_ExpectedRecordType RT_SerializedStreamHeader) i er)
  \/ behind x00 (fun i =>
       too_short 4 PT_Int32 i er
       \/ past e_int32 (fun root j =>
            ((root < 0)%Z /\ report E_InvalidRootId i er)
            \/ ((0 <= root)%Z /\ (too_short 4 PT_Int32 j er
                \/ past e_int32 (fun _ i =>
                     too_short 4 PT_Int32 i er
                     \/ past e_int32 (fun major j =>
                          (major <> 1%Z /\ report E_InvalidMajorVersion i er)
                          \/ (major = 1%Z /\ (too_short 4 PT_Int32 j er
                              \/ past e_int32 (fun minor _ =>
                                   minor <> 0%Z /\ report E_InvalidMinorVersion j er) j))) i) j))) i) i.

Section with_decimal.
Context {DL : DecimalLib}.

(** ** Primitives and simple members *)
Definition flaw_prim (p : primitive_type) (i : bytes) (er : error) : Prop :=
  match p with
  | PT_Boolean => ~ begins [x00; x01] i /\ report (E_ExpectedPrimitive PT_Boolean) i er
  | PT_Decimal => past e_str (fun s _ => dec_from_str s = None) i
                  /\ report (E_ExpectedPrimitive PT_Decimal) i er
  | PT_Null | PT_String => report E_Other i er
  | _ => too_short (prim_size p) p i er
  end.
Definition flaw_prim_array (i : bytes) (er : error) : Prop :=
  flaw_array_header x0f i er
  \/ past (fun il => e_array_header x0f il.1 il.2) (fun il i =>
       flaw_prim_code i er
       \/ past e_prim_code (fun p =>
            among (fun v b => prim_type_of v = Some p /\ e_prim v b) il.2 (fun i => flaw_prim p i er)) i) i.

Definition flaw_typed (i : bytes) (er : error) : Prop :=
  behind x08 (fun i => flaw_prim_code i er \/ past e_prim_code (fun p i => flaw_prim p i er) i) i.
Definition flaw_ref (i : bytes) (er : error) : Prop := behind x09 (fun i => flaw_object_id i er) i.
Definition flaw_string_record (i : bytes) (er : error) : Prop := behind x06 (fun i => flaw_object_id i er) i.
Definition flaw_null (i : bytes) (er : error) : Prop :=
  behind x0e (fun i => flaw_positive E_InvalidNullCount i er) i
  \/ behind x0d (fun i => too_short 1 PT_Byte i er \/ (begins [x00] i /\ report E_InvalidNullCount i er)) i.

Definition flaw_item (k : kind) (i : bytes) (er : error) : Prop :=
  match k with
  | K_Any => flaw_typed i er \/ flaw_ref i er \/ flaw_string_record i er \/ flaw_null i er
  | K_Primitive p => flaw_prim p i er
  | K_String => flaw_string_record i er
  | K_SystemClass _ | K_Class _ _ => flaw_null i er
  | K_StringArray => flaw_string_record i er \/ flaw_ref i er \/ flaw_null i er
  | K_PrimitiveArray _ => flaw_ref i er
  | K_Object | K_ObjectArray => False
  end.

(** ** Records *)

Inductive blame_lib (e : env) (er : error) : bytes -> Prop :=
| BL_id r : flaw_library_id r er -> blame_lib e er (x0c :: r)
| BL_known id name bs i :
    e_library_record id name bs -> is_Some (e_libs e !! id) -> report E_DuplicateLibraryId i er ->
    blame_lib e er (bs ++ i).

(** A [ClassWithId] record: there is never a class to refer to (see property C19). *)
Definition blame_with_id (i : bytes) (er : error) : Prop :=
  behind x01 (fun j =>
    flaw_object_id j er
    \/ past e_id (fun id j =>
         flaw_object_id j er
         \/ past e_id (fun class_id _ =>
              report (if N.eqb class_id id then E_InvalidMetadataId else E_MissingMetadataId)
                     (if N.eqb class_id id then j else i) er) j) j) i.

Inductive blame_class (er : error) : env -> bytes -> Prop :=
| BC_lib e i : blame_lib e er i -> blame_class er e i
| BC_with_id e i e1 i1 : g_lib e i e1 i1 -> blame_with_id i1 er -> blame_class er e i
| BC_header e i e1 i1 : g_lib e i e1 i1 -> flaw_class_header i1 er -> blame_class er e i
| BC_library e i e1 bs i1 h :
    g_lib e i e1 (bs ++ i1) -> e_class_header h bs -> ~ (exists lib, class_library e1 h lib) ->
    report E_MissingLibraryId (bs ++ i1) er -> blame_class er e i
| BC_member e i e1 bs i1 h lib ks1 k ks2 its e2 i2 :
    g_lib e i e1 (bs ++ i1) -> e_class_header h bs -> class_library e1 h lib ->
    member_kinds h = ks1 ++ k :: ks2 -> g_items ks1 e1 i1 its e2 i2 ->
    blame_member er k e2 i2 -> blame_class er e i
| BC_resolve e i e1 bs i1 h lib its1 id its2 e2 i2 vs e3 i3 :
    g_lib e i e1 (bs ++ i1) -> e_class_header h bs -> class_library e1 h lib ->
    g_items (member_kinds h) e1 i1 (its1 ++ It_Ref id :: its2) e2 i2 ->
    g_resolve its1 e2 i2 vs e3 i3 -> e_objs e3 !! id = None ->
    blame_record er e3 i3 -> blame_class er e i
with blame_member (er : error) : kind -> env -> bytes -> Prop :=
| BM_lib k e i : blame_lib e er i -> blame_member er k e i
| BM_library k e i e1 i1 :
    g_lib e i e1 i1 -> ~ kind_ok e1 k -> report E_MissingLibraryId i1 er -> blame_member er k e i
| BM_item k e i e1 i1 :
    g_lib e i e1 i1 -> kind_ok e1 k -> flaw_item k i1 er -> blame_member er k e i
| BM_inline e i e1 i1 :
    g_lib e i e1 i1 -> class_start i1 -> blame_class er e1 i1 -> blame_member er K_Any e i
| BM_nested k e i e1 i1 :
    k = K_Object \/ k = K_ObjectArray ->
    g_lib e i e1 i1 -> blame_member er K_Any e1 i1 -> blame_member er k e i
(* behind an object of another class than the declared one; nothing else inside such an object is reported *)
| BM_other_class k e i e1 i1 id o e2 i2 :
    declared_class k -> g_lib e i e1 i1 -> kind_ok e1 k -> g_class e1 i1 id o e2 i2 ->
    ~ class_kind e1 k o -> report E_UnexpectedClass i2 er -> blame_member er k e i
with blame_record (er : error) : env -> bytes -> Prop :=
| BR_class e i : blame_class er e i -> blame_record er e i
(* a library in front of something that is not a class *)
| BR_library_again e bs i id name e' :
    e_library_record id name bs -> stops_class false e (bs ++ i) e' ->
    report E_DuplicateLibraryId i er -> blame_record er e (bs ++ i)
| BR_string e i : flaw_string_record i er -> blame_record er e i
| BR_prims e i : flaw_prim_array i er -> blame_record er e i
| BR_array_header code e i :
    code = x10 \/ code = x11 -> flaw_array_header code i er -> blame_record er e i
| BR_array code k e id len bs i its e1 i1 :
    (code = x10 /\ k = K_Any) \/ (code = x11 /\ k = K_StringArray) ->
    e_array_header code id len bs ->
    g_items (replicate (length its) k) e i its e1 i1 -> (items_size its < len)%N ->
    blame_member er k e1 i1 -> blame_record er e (bs ++ i)
| BR_array_resolve code k e id len bs i its1 rid its2 e1 i1 vs e2 i2 :
    (code = x10 /\ k = K_Any) \/ (code = x11 /\ k = K_StringArray) ->
    e_array_header code id len bs ->
    g_items (replicate (length (its1 ++ It_Ref rid :: its2)) k) e i (its1 ++ It_Ref rid :: its2) e1 i1 ->
    fills len (its1 ++ It_Ref rid :: its2) ->
    g_resolve its1 e1 i1 vs e2 i2 -> e_objs e2 !! rid = None ->
    blame_record er e2 i2 -> blame_record er e (bs ++ i)
| BR_binary_header e i : flaw_binary_array_header i er -> blame_record er e i
| BR_binary_overflow e id bat lengths bounds k bs i :
    e_binary_array_header id bat lengths bounds k bs -> ~ no_overflow lengths ->
    report E_InvalidLength (bs ++ i) er -> blame_record er e (bs ++ i)
| BR_binary e id bat lengths bounds k bs i its e1 i1 :
    e_binary_array_header id bat lengths bounds k bs -> no_overflow lengths ->
    g_items (replicate (length its) k) e i its e1 i1 ->
    (N.of_nat (length its) < product lengths)%N ->
    blame_member er k e1 i1 -> blame_record er e (bs ++ i)
| BR_binary_resolve e id bat lengths bounds k bs i its1 rid its2 e1 i1 vs e2 i2 :
    e_binary_array_header id bat lengths bounds k bs -> no_overflow lengths ->
    g_items (replicate (N.to_nat (product lengths)) k) e i (its1 ++ It_Ref rid :: its2) e1 i1 ->
    g_resolve its1 e1 i1 vs e2 i2 -> e_objs e2 !! rid = None ->
    blame_record er e2 i2 -> blame_record er e (bs ++ i).

(** ** Method records *)
Definition flaw_flags (i : bytes) (er : error) : Prop :=
  (length i < 4 /\ report E_ExpectedMessageFlags i er)
  \/ past e_int32 (fun z _ => ~ flags_ok checked_return_bits z) i /\ report E_InvalidMessageFlags i er.
(** Behind the code of a string is the string, which is not reported if it is malformed. *)
Definition flaw_string_code (i : bytes) (er : error) : Prop :=
  ~ begins [x12] i /\ report (E_ExpectedPrimitive PT_String) i er.
Definition flaw_value_with_code (i : bytes) (er : error) : Prop :=
  flaw_prim_code i er
  \/ past e_prim_code (fun p i => p <> PT_Null /\ p <> PT_String /\ flaw_prim p i er) i.
Definition flaw_inline_args (flags : Z) (i : bytes) (er : error) : Prop :=
  Z.testbit flags bit_ArgsInline = true /\
  (flaw_length i er
   \/ past e_len (fun n => among e_value_with_code n (fun i => flaw_value_with_code i er)) i).
(** Call context and inline arguments. *)
Definition flaw_context_args (flags : Z) (i : bytes) (er : error) : Prop :=
  (Z.testbit flags bit_ContextInline = true /\ flaw_string_code i er)
  \/ past (e_flagged flags bit_ContextInline e_string_with_code) (fun _ i => flaw_inline_args flags i er) i.

Definition flaw_method (i : bytes) (er : error) : Prop :=
  behind x15 (fun i => flaw_flags i er \/ past e_flags (fun flags i =>
    flaw_string_code i er \/ past e_string_with_code (fun _ i =>
    flaw_string_code i er \/ past e_string_with_code (fun _ i => flaw_context_args flags i er) i) i) i) i
  \/ behind x16 (fun i => flaw_flags i er \/ past e_flags (fun flags i =>
    (Z.testbit flags bit_ReturnValueInline = true /\ flaw_value_with_code i er)
    \/ past (e_flagged flags bit_ReturnValueInline e_value_with_code) (fun _ i => flaw_context_args flags i er) i) i) i.

(** ** Messages *)

(** A method record; what matters afterwards are its flags and inline arguments. *)
Definition method_record (flags : Z) (inline : option (list value)) (bs : bytes) : Prop :=
  (exists name type ctx, e_method_call flags name type ctx inline bs)
  \/ (exists ret ctx, e_method_return flags ret ctx inline bs).

(** What is read behind a method record as the call array; besides [call_array_at] there is the
    case of a library that is followed by something else: it is read again as a record. *)
Inductive call_array_tried (root : option N) (e : env) (i : bytes)
  : option (list value) -> env -> bytes -> Prop :=
| CT_read ca e' i' : call_array_at root e i ca e' i' -> call_array_tried root e i ca e' i'
| CT_no_library : begins [x0c] i -> no_library i -> call_array_tried root e i None e i
| CT_library id name bs i1 e' :
    i = bs ++ i1 -> e_library_record id name bs -> e_libs e !! id = None ->
    (~ begins [x10] i1 /\ e' = add_lib id name e)
    \/ (begins [x10] i1 /\ stops_record false (add_lib id name e) i1 e') ->
    call_array_tried root e i None e' i.

(** The records up to the end of the message; [root] is the object that must be there. *)
Inductive blame_rest (root : option N) (er : error) (e : env) (i : bytes) : Prop :=
| BX_record e1 i1 : g_objects e i e1 i1 -> blame_record er e1 i1 -> blame_rest root er e i
| BX_end e1 i1 e1' :
    g_objects e i e1 i1 -> stops_record false e1 i1 e1' -> ~ begins [x0b] i1 ->
    report (E_ExpectedRecordType RT_MessageEnd) i1 er -> blame_rest root er e i
| BX_trailing e1 t :
    g_objects e i e1 (x0b :: t) -> t <> [] -> report E_TrailingData t er -> blame_rest root er e i
| BX_missing e1 r :
    g_objects e i e1 [x0b] -> root = Some r -> e_objs e1 !! r = None ->
    report E_MissingRootObject [] er -> blame_rest root er e i.

(** [refuses W er]: the message [W] is refused with the error [er]. *)
Inductive refuses (W : bytes) (er : error) : Prop :=
| Ref_header : flaw_header W er -> refuses W er
| Ref_record root hb i e1 i1 :
    W = hb ++ i -> e_header root hb -> g_objects empty_env i e1 i1 -> blame_record er e1 i1 ->
    refuses W er
(* no method record: the records are tried a second time *)
| Ref_value root hb i e1 i1 e1' :
    W = hb ++ i -> e_header root hb -> g_objects empty_env i e1 i1 -> stops_record false e1 i1 e1' ->
    ~ starts (fun a => method_record a.1 a.2) i1 -> ~ (exists er, flaw_method i1 er) ->
    blame_rest root er e1' i1 -> refuses W er
| Ref_method root hb i e1 i1 :
    W = hb ++ i -> e_header root hb -> g_objects empty_env i e1 i1 -> flaw_method i1 er -> refuses W er
| Ref_call_library root hb i e1 flags inline bs i1 :
    W = hb ++ i -> e_header root hb -> g_objects empty_env i e1 (bs ++ i1) ->
    method_record flags inline bs -> blame_lib e1 er i1 -> refuses W er
| Ref_call_array root hb i e1 flags inline bs i1 e2 i2 :
    W = hb ++ i -> e_header root hb -> g_objects empty_env i e1 (bs ++ i1) ->
    method_record flags inline bs -> g_lib e1 i1 e2 i2 -> begins [x10] i2 -> blame_record er e2 i2 ->
    refuses W er
| Ref_call_array_id root hb i e1 flags inline bs i1 id ca e2 i2 :
    W = hb ++ i -> e_header root hb -> g_objects empty_env i e1 (bs ++ i1) ->
    method_record flags inline bs -> g_call_array (Some id) e1 i1 (Some ca) e2 i2 -> root <> Some id ->
    report E_InvalidCallArrayId i2 er -> refuses W er
| Ref_args root hb i e1 flags inline bs i1 ca e2 i2 :
    W = hb ++ i -> e_header root hb -> g_objects empty_env i e1 (bs ++ i1) ->
    method_record flags inline bs -> call_array_tried root e1 i1 ca e2 i2 ->
    ~ (exists args, args_rule flags ca inline args) -> report E_InvalidArgs i2 er -> refuses W er
| Ref_after_method root hb i e1 flags inline bs i1 ca args e2 i2 :
    W = hb ++ i -> e_header root hb -> g_objects empty_env i e1 (bs ++ i1) ->
    method_record flags inline bs -> call_array_tried root e1 i1 ca e2 i2 -> args_rule flags ca inline args ->
    blame_rest None er e2 i2 -> refuses W er.

End with_decimal.

Scheme blame_class_mind := Minimality for blame_class Sort Prop
with blame_member_mind := Minimality for blame_member Sort Prop
with blame_record_mind := Minimality for blame_record Sort Prop.
Combined Scheme blame_mut_ind from blame_class_mind, blame_member_mind, blame_record_mind.
