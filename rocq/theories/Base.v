(** * Base: results, errors and the nom 8 combinators used by the crate.

    The crate is written on top of nom 8 ([Cargo.toml] line 17).  nom's source is not in
    /repo; the combinators below follow its documented behaviour in the [complete] mode
    that the crate uses everywhere.  [nom::Err::Incomplete] is therefore not modelled. *)
From stdpp Require Export prelude gmap.
From Coq Require Export NArith ZArith Init.Byte Strings.Byte.
From Coq Require Import Lia.

(** A Rust [u8] and a Rust [&[u8]].  Sub-slices are modelled by their contents. *)
Notation bytes := (list byte) (only parsing).
(** A Rust [&str] is modelled by its UTF-8 bytes. *)
Notation str := (list byte) (only parsing).

Definition b2n (b : byte) : N := Byte.to_N b.

Global Instance byte_eq_decision : EqDecision byte := Byte.byte_eq_dec.

(** ** Enumerations *)

(** record/mod.rs 58-82: [RecordType], [repr(u8)]. *)
Inductive record_type :=
| RT_SerializedStreamHeader | RT_ClassWithId | RT_SystemClassWithMembers | RT_ClassWithMembers
| RT_SystemClassWithMembersAndTypes | RT_ClassWithMembersAndTypes | RT_BinaryObjectString
| RT_BinaryArray | RT_MemberPrimitiveTyped | RT_MemberReference | RT_ObjectNull | RT_MessageEnd
| RT_BinaryLibrary | RT_ObjectNullMultiple256 | RT_ObjectNullMultiple | RT_ArraySinglePrimitive
| RT_ArraySingleObject | RT_ArraySingleString | RT_MethodCall | RT_MethodReturn.

(** record/mod.rs 62-81: the discriminants ([self as u8]). *)
Definition rt_code (r : record_type) : N :=
  match r with
  | RT_SerializedStreamHeader => 0 | RT_ClassWithId => 1 | RT_SystemClassWithMembers => 2
  | RT_ClassWithMembers => 3 | RT_SystemClassWithMembersAndTypes => 4
  | RT_ClassWithMembersAndTypes => 5 | RT_BinaryObjectString => 6 | RT_BinaryArray => 7
  | RT_MemberPrimitiveTyped => 8 | RT_MemberReference => 9 | RT_ObjectNull => 10
  | RT_MessageEnd => 11 | RT_BinaryLibrary => 12 | RT_ObjectNullMultiple256 => 13
  | RT_ObjectNullMultiple => 14 | RT_ArraySinglePrimitive => 15 | RT_ArraySingleObject => 16
  | RT_ArraySingleString => 17 | RT_MethodCall => 21 | RT_MethodReturn => 22
  end%N.

(** enumeration.rs 57-79: [PrimitiveType], [repr(u8)]. *)
Inductive primitive_type :=
| PT_Boolean | PT_Byte | PT_Char | PT_Decimal | PT_Double | PT_Int16 | PT_Int32 | PT_Int64
| PT_SByte | PT_Single | PT_TimeSpan | PT_DateTime | PT_UInt16 | PT_UInt32 | PT_UInt64
| PT_Null | PT_String.

(** enumeration.rs 62-78: the discriminants. *)
Definition pt_code (p : primitive_type) : N :=
  match p with
  | PT_Boolean => 1 | PT_Byte => 2 | PT_Char => 3 | PT_Decimal => 5 | PT_Double => 6
  | PT_Int16 => 7 | PT_Int32 => 8 | PT_Int64 => 9 | PT_SByte => 10 | PT_Single => 11
  | PT_TimeSpan => 12 | PT_DateTime => 13 | PT_UInt16 => 14 | PT_UInt32 => 15
  | PT_UInt64 => 16 | PT_Null => 17 | PT_String => 18
  end%N.

(** enumeration.rs 10-23: [BinaryType], [repr(u8)]. *)
Inductive binary_type :=
| BT_Primitive | BT_String | BT_Object | BT_SystemClass | BT_Class | BT_ObjectArray
| BT_StringArray | BT_PrimitiveArray.

(** enumeration.rs 15-22: the discriminants. *)
Definition bt_code (b : binary_type) : N :=
  match b with
  | BT_Primitive => 0 | BT_String => 1 | BT_Object => 2 | BT_SystemClass => 3 | BT_Class => 4
  | BT_ObjectArray => 5 | BT_StringArray => 6 | BT_PrimitiveArray => 7
  end%N.

(** enumeration.rs 137-148: [BinaryArrayType], [repr(u8)]. *)
Inductive binary_array_type :=
| BAT_Single | BAT_Jagged | BAT_Rectangular | BAT_SingleOffset | BAT_JaggedOffset
| BAT_RectangularOffset.

(** enumeration.rs 142-147: the discriminants. *)
Definition bat_code (b : binary_array_type) : N :=
  match b with
  | BAT_Single => 0 | BAT_Jagged => 1 | BAT_Rectangular => 2 | BAT_SingleOffset => 3
  | BAT_JaggedOffset => 4 | BAT_RectangularOffset => 5
  end%N.

Global Instance record_type_eq_dec : EqDecision record_type.
Proof. solve_decision. Defined.
Global Instance primitive_type_eq_dec : EqDecision primitive_type.
Proof. solve_decision. Defined.
Global Instance binary_type_eq_dec : EqDecision binary_type.
Proof. solve_decision. Defined.
Global Instance binary_array_type_eq_dec : EqDecision binary_array_type.
Proof. solve_decision. Defined.

(** ** Errors *)

(** error.rs 40-70: [ErrorInner]. *)
Inductive error_inner :=
| E_Eof | E_TrailingData | E_UnresolvableMemberReference | E_InvalidCallArrayId
| E_MissingRootObject | E_InvalidNullCount | E_InvalidObjectId | E_DuplicateObjectId
| E_InvalidLength | E_InvalidMajorVersion | E_InvalidMinorVersion | E_InvalidRootId
| E_MissingMetadataId | E_InvalidMetadataId | E_InvalidArgs | E_UnexpectedClass
| E_ExpectedBinaryType | E_ExpectedBinaryArrayType | E_MissingLibraryId | E_InvalidLibraryId
| E_DuplicateLibraryId | E_ExpectedRecordType (r : record_type) | E_ExpectedClassInfo
| E_ExpectedMessageFlags | E_InvalidMessageFlags | E_ExpectedPrimitiveType | E_Other
| E_ExpectedPrimitive (p : primitive_type).

(** error.rs 5-10: [Error { input, inner }]. *)
Record error := mkError { e_input : bytes; e_inner : error_inner }.

(** nom::error::ErrorKind, the kinds that occur. *)
Inductive nom_kind := K_Tag | K_Eof | K_Alt | K_Verify | K_MapRes | K_MapOpt | K_Fail | K_TagBits.

(** nom::error::Error<I>: [{ input, code }]. *)
Record nom_error (I : Type) := mkNomError { ne_input : I; ne_code : nom_kind }.
Arguments mkNomError {I} _ _.
Arguments ne_input {I} _.
Arguments ne_code {I} _.

(** error.rs 18-28: [ParseError::from_error_kind] for the crate's [Error]. *)
Definition from_error_kind (input : bytes) (k : nom_kind) : error :=
  mkError input (match k with K_Eof => E_Eof | _ => E_Other end).

(** ** Results *)

(** Panic sites of the code on the parse path: [unreachable!()] in binary_parser/mod.rs 155
    and the out-of-range [drain] in binary_parser/mod.rs 412. *)
Inductive panic_site := P_Unreachable | P_DrainOutOfRange.

(** nom's [IResult<I, O, E>]: [Ok], [Err(Err::Error)], [Err(Err::Failure)], extended by an
    explicit panic and by [Diverge] for loops that exceed the model's fuel. *)
Inductive ires (I E A : Type) :=
| Ok (rest : I) (a : A)
| Err (e : E)
| Fail (e : E)
| Panic (p : panic_site)
| Diverge.
Arguments Ok {I E A} _ _.
Arguments Err {I E A} _.
Arguments Fail {I E A} _.
Arguments Panic {I E A} _.
Arguments Diverge {I E A}.

(** [IResult<&[u8], A, Error>]: the result type of all parsers of the crate. *)
Notation res := (ires (list byte) error).
(** [IResult<&[u8], A>] with nom's own error type. *)
Notation nres := (ires (list byte) (nom_error (list byte))).

(** Rust's [?] on a result. *)
Definition bind {I E A B} (r : ires I E A) (f : I -> A -> ires I E B) : ires I E B :=
  match r with
  | Ok i a => f i a
  | Err e => Err e
  | Fail e => Fail e
  | Panic p => Panic p
  | Diverge => Diverge
  end.

Notation "'let?' ( i , x ) := r 'in' k" := (bind r (fun i x => k))
  (at level 200, i name, x name, r at level 100, k at level 200,
   format "'let?'  ( i ,  x )  :=  r  'in' '//' k").

(** nom's [map]. *)
Definition rmap {I E A B} (f : A -> B) (r : ires I E A) : ires I E B :=
  bind r (fun i a => Ok i (f a)).

(** [Result::map_err(|err| err.map(f))]: keeps Error/Failure, changes the payload. *)
Definition map_err {I E F A} (f : E -> F) (r : ires I E A) : ires I F A :=
  match r with
  | Ok i a => Ok i a
  | Err e => Err (f e)
  | Fail e => Fail (f e)
  | Panic p => Panic p
  | Diverge => Diverge
  end.

(** combinator.rs 10-15: [into_failure], applied through [map_err]. *)
Definition into_failure {I E A} (r : ires I E A) : ires I E A :=
  match r with
  | Err e => Fail e
  | r => r
  end.

(** error.rs 107-110: [error_position!(err.input, kind)] applied to a nom error. *)
Definition at_err (k : error_inner) (e : nom_error bytes) : error := mkError (ne_input e) k.
(** The same applied to an error of the crate. *)
Definition at_err' (k : error_inner) (e : error) : error := mkError (e_input e) k.

(** ** nom primitives *)

(** nom::bytes::complete::tag for a one-byte tag: consumes the byte or [Error(Tag)]. *)
Definition tag1 (n : N) (input : bytes) : nres byte :=
  match input with
  | b :: rest => if N.eqb (b2n b) n then Ok rest b else Err (mkNomError input K_Tag)
  | [] => Err (mkNomError input K_Tag)
  end.

(** nom::bytes::complete::take: [n] bytes or [Error(Eof)]. *)
Definition take_bytes (n : N) (input : bytes) : nres bytes :=
  if N.ltb (N.of_nat (length input)) n then Err (mkNomError input K_Eof)
  else Ok (drop (N.to_nat n) input) (take (N.to_nat n) input).

(** Value of a little-endian byte string. *)
Fixpoint le_value (bs : bytes) : N :=
  match bs with
  | [] => 0
  | b :: bs' => b2n b + 256 * le_value bs'
  end%N.

(** nom::number::complete::{u8, le_u16, le_u24, le_u32, le_u64}: [k] bytes, little endian,
    or [Error(Eof)]. *)
Definition le_uint (k : nat) (input : bytes) : nres N :=
  if Nat.ltb (length input) k then Err (mkNomError input K_Eof)
  else Ok (drop k input) (le_value (take k input)).

(** Two's complement reading of a [bits]-bit word ([as iN]). *)
Definition to_signed (bits : N) (n : N) : Z :=
  if N.ltb n (2 ^ (bits - 1)) then Z.of_N n else (Z.of_N n - 2 ^ Z.of_N bits)%Z.

(** nom::number::complete::{i8, le_i16, le_i32, le_i64}: the unsigned reader with a cast. *)
Definition le_int (k : nat) (input : bytes) : nres Z :=
  rmap (to_signed (8 * N.of_nat k)) (le_uint k input).

(** nom::combinator::map_opt. *)
Definition map_opt {A B} (p : bytes -> nres A) (f : A -> option B) (input : bytes) : nres B :=
  let? (rest, a) := p input in
  match f a with
  | Some b => Ok rest b
  | None => Err (mkNomError input K_MapOpt)
  end.

(** nom::combinator::map_res (the external error is dropped by nom::error::Error). *)
Definition map_res {A B} (p : bytes -> nres A) (f : A -> option B) (input : bytes) : nres B :=
  let? (rest, a) := p input in
  match f a with
  | Some b => Ok rest b
  | None => Err (mkNomError input K_MapRes)
  end.

(** nom::branch::alt, one step: the second alternative is tried on the same input only if the
    first one returned [Err::Error].  When all alternatives fail, [ParseError::or] and [append]
    (error.rs 30-32, and nom's own error type) keep the error of the last alternative. *)
Definition alt {I E A} (r : ires I E A) (r' : ires I E A) : ires I E A :=
  match r with
  | Err _ => r'
  | r => r
  end.

(** nom::combinator::opt. *)
Definition opt {I E A} (input : I) (r : ires I E A) : ires I E (option A) :=
  match r with
  | Ok i a => Ok i (Some a)
  | Err _ => Ok input None
  | Fail e => Fail e
  | Panic p => Panic p
  | Diverge => Diverge
  end.

(** nom::combinator::cond. *)
Definition cond {A} (b : bool) (p : bytes -> res A) (input : bytes) : res (option A) :=
  if b then rmap Some (p input) else Ok input None.

(** nom::multi::count.  The loop count [n] can be as large as 2^62, so the loop runs on fuel;
    [S (length input)] iterations suffice since every element parser that is counted consumes
    at least one byte (proved).  [append] keeps the element's error. *)
Fixpoint count_loop {A} (fuel : nat) (n : N) (p : bytes -> res A) (input : bytes)
  : res (list A) :=
  if N.eqb n 0 then Ok input [] else
  match fuel with
  | O => Diverge
  | S fuel =>
      let? (input, a) := p input in
      let? (input, l) := count_loop fuel (N.pred n) p input in
      Ok input (a :: l)
  end.

Definition count {A} (n : N) (p : bytes -> res A) (input : bytes) : res (list A) :=
  count_loop (S (length input)) n p input.

(** nom::multi::length_count. *)
Definition length_count {A} (len : bytes -> res N) (p : bytes -> res A) (input : bytes)
  : res (list A) :=
  let? (input, n) := len input in
  count n p input.

(** ** nom::bits::complete *)

(** nom::bits::complete::take, inner loop over the bytes. Returns (value, end offset). *)
Fixpoint bits_take_loop (bs : bytes) (offset remaining acc : N) : N * N :=
  match bs with
  | [] => (acc, 0)
  | b :: bs =>
      if N.eqb remaining 0 then (acc, 0)
      else
        let val := if N.eqb offset 0 then b2n b
                   else N.shiftr (N.modulo (N.shiftl (b2n b) offset) 256) offset in
        if N.ltb remaining (8 - offset)
        then (acc + N.shiftr val (8 - offset - remaining), remaining + offset)
        else bits_take_loop bs 0 (remaining - (8 - offset))
               (acc + N.shiftl val (remaining - (8 - offset)))
  end%N.

(** nom::bits::complete::take on (input, bit offset). *)
Definition bits_take (cnt : N) (i : bytes * N)
  : ires (bytes * N) (nom_error (bytes * N)) N :=
  let '(input, bit_offset) := i in
  if N.eqb cnt 0 then Ok (input, bit_offset) 0%N
  else if N.ltb (N.of_nat (length input) * 8) (cnt + bit_offset)
  then Err (mkNomError (input, bit_offset) K_Eof)
  else
    let skip := N.to_nat ((cnt + bit_offset) / 8) in
    let '(acc, end_offset) := bits_take_loop (take (S skip) input) bit_offset cnt 0 in
    Ok (drop skip input, end_offset) acc.

(** nom::bits::complete::bool. *)
Definition bits_bool (i : bytes * N) : ires (bytes * N) (nom_error (bytes * N)) bool :=
  let? (i, bit) := bits_take 1 i in Ok i (negb (N.eqb bit 0)).

(** nom::bits::complete::tag. *)
Definition bits_tag (pattern cnt : N) (i : bytes * N)
  : ires (bytes * N) (nom_error (bytes * N)) N :=
  let? (i', o) := bits_take cnt i in
  if N.eqb o pattern then Ok i' o else Err (mkNomError i K_TagBits).

(** nom::sequence::pair. *)
Definition pair_ {I E A B} (p : I -> ires I E A) (q : I -> ires I E B) (i : I)
  : ires I E (A * B) :=
  let? (i, a) := p i in
  let? (i, b) := q i in
  Ok i (a, b).

(** nom::sequence::preceded. *)
Definition preceded {I E A B} (p : I -> ires I E A) (q : I -> ires I E B) (i : I)
  : ires I E B :=
  let? (i, _a) := p i in
  q i.
