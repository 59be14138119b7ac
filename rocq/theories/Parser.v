(** * Parser: binary_parser/mod.rs.

    The parser object is threaded explicitly.  Every function returns the parser state
    together with the result, also when the result is an error, because the Rust code mutates
    [self] and does not undo the mutations of abandoned alternatives. *)
From Verif Require Import Base Utf8 Value DataTypes Records.

Section with_decimal.
Context `{DecimalLib}.

(** binary_parser/mod.rs 54-59: [BinaryParser].  [BTreeMap<NonZeroU32, _>] is a finite map. *)
Record state := mkState {
  st_libs : gmap N str;
  st_classes : gmap N class_rec;
  st_objects : gmap N value;
}.

(** [BinaryParser::default()]. *)
Definition init_state : state := mkState ∅ ∅ ∅.

Definition set_libs (s : state) (m : gmap N str) : state :=
  mkState m (st_classes s) (st_objects s).
Definition set_objects (s : state) (m : gmap N value) : state :=
  mkState (st_libs s) (st_classes s) m.

(** binary_parser/mod.rs 29-34: [ValueOrRef]. *)
Inductive value_or_ref :=
| VR_Value (v : value)
| VR_Null (n : N)
| VR_Ref (id : N).

(** [&mut self] together with an [IResult]. *)
Notation sres A := (state * res A)%type.

(** Rust's [?] for methods on [&mut self]. *)
Definition sbind {A B} (r : sres A) (f : state -> bytes -> A -> sres B) : sres B :=
  match r with
  | (s, Ok i a) => f s i a
  | (s, Err e) => (s, Err e)
  | (s, Fail e) => (s, Fail e)
  | (s, Panic p) => (s, Panic p)
  | (s, Diverge) => (s, Diverge)
  end.

Notation "'let!' ( s , i , x ) := r 'in' k" := (sbind r (fun s i x => k))
  (at level 200, s name, i name, x name, r at level 100, k at level 200,
   format "'let!'  ( s ,  i ,  x )  :=  r  'in' '//' k").

(** nom's [map] around a method. *)
Definition smap {A B} (f : A -> B) (r : sres A) : sres B := (r.1, rmap f r.2).

(** binary_parser/mod.rs 61-75: one step of [alt_mut!]: the next alternative runs on the state
    the failed one left behind. *)
Definition alt_mut {A} (r : sres A) (next : state -> sres A) : sres A :=
  match r with
  | (s, Err _) => next s
  | r => r
  end.

(** binary_parser/mod.rs 72: all alternatives returned [Err::Error]. *)
Definition alt_mut_end {A} (input : bytes) (s : state) : sres A :=
  (s, Err (from_error_kind input K_Alt)).

(** nom::multi::count around a method; see [Base.count] for the fuel. *)
Fixpoint scount_loop {A} (fuel : nat) (n : N) (p : state -> bytes -> sres A) (s : state)
  (input : bytes) : sres (list A) :=
  if N.eqb n 0 then (s, Ok input []) else
  match fuel with
  | O => (s, Diverge)
  | S fuel =>
      let! (s, input, a) := p s input in
      let! (s, input, l) := scount_loop fuel (N.pred n) p s input in
      (s, Ok input (a :: l))
  end.

Definition scount {A} (n : N) (p : state -> bytes -> sres A) (s : state) (input : bytes)
  : sres (list A) :=
  scount_loop (S (length input)) n p s input.

(** binary_parser/mod.rs 78-90. *)
Definition parse_binary_library (s : state) (input : bytes) : sres unit :=
  match opt input (binary_library input) with
  | Ok input (Some (lid, name)) =>
      let dup := bool_decide (is_Some (st_libs s !! lid)) in
      let s := set_libs s (<[lid := name]> (st_libs s)) in
      if dup then (s, Fail (mkError input E_DuplicateLibraryId)) else (s, Ok input tt)
  | Ok input None => (s, Ok input tt)
  | Err e => (s, Err e)
  | Fail e => (s, Fail e)
  | Panic p => (s, Panic p)
  | Diverge => (s, Diverge)
  end.

(** binary_parser/mod.rs 455-462: [parse_null_object]. *)
Definition parse_null_object (input : bytes) : res value_or_ref :=
  alt (rmap VR_Null (object_null input)) (
  alt (rmap VR_Null (object_null_multiple input))
      (rmap VR_Null (object_null_multiple_256 input))).

(** binary_parser/mod.rs 108, 143, 161: [map(BinaryObjectString::parse, ...)]. *)
Definition parse_string_member (input : bytes) : res value_or_ref :=
  rmap (fun p => VR_Value (VString p.2)) (binary_object_string input).

(** binary_parser/mod.rs 144-147, 152-153, 160: [map(MemberReference::parse, ...)]. *)
Definition parse_ref_member (input : bytes) : res value_or_ref :=
  rmap VR_Ref (member_reference input).

(** The recursive calls the methods below make: [self.parse_classes] and
    [self.parse_referenceable]. *)
Section methods.
Context (PC : state -> bytes -> sres (N * obj value)).
Context (PR : state -> bytes -> sres N).

(** binary_parser/mod.rs 157-166: the arm [None] of [parse_member_reference]. *)
Definition member_untyped_body (s : state) (input : bytes) : sres value_or_ref :=
  match alt (rmap VR_Value (member_primitive_typed input)) (
        alt (parse_ref_member input) (
        alt (parse_string_member input)
            (parse_null_object input))) with
  | Err _ => smap (fun p => VR_Value (VObject p.2)) (PC s input)
  | r => (s, r)
  end.

(** binary_parser/mod.rs 93-169 with [None]. *)
Definition parse_member_untyped (s : state) (input : bytes) : sres value_or_ref :=
  let! (s, input, _u) := parse_binary_library s input in
  member_untyped_body s input.

(** binary_parser/mod.rs 112-120 and 131-139: [if let Ok(...) = self.parse_classes(input)], any
    [Err] falls through to [parse_null_object]. *)
Definition class_or_null (ok : obj value -> bool) (s : state) (input : bytes)
  : sres value_or_ref :=
  match PC s input with
  | (s, Ok input (_, o)) =>
      if ok o then (s, Ok input (VR_Value (VObject o)))
      else (s, Fail (mkError input E_UnexpectedClass))
  | (s, Err _) | (s, Fail _) => (s, parse_null_object input)
  | (s, Panic p) => (s, Panic p)
  | (s, Diverge) => (s, Diverge)
  end.

(** binary_parser/mod.rs 93-169 with [Some((type_enum, additional_type_info))]. *)
Definition parse_member_typed (bt : binary_type) (ai : option additional_type_info)
  (s : state) (input : bytes) : sres value_or_ref :=
  let! (s, input, _u) := parse_binary_library s input in
  match bt, ai with
  | BT_Primitive, Some (AI_Primitive p) =>
      (s, rmap VR_Value (member_primitive_untyped input p))
  | BT_String, None => (s, parse_string_member input)
  | BT_Object, None => parse_member_untyped s input
  | BT_SystemClass, Some (AI_SystemClass class_name) =>
      class_or_null (fun o => str_eqb (obj_class o) class_name
                              && bool_decide (obj_library o = None)) s input
  | BT_Class, Some (AI_Class cti) =>
      match st_libs s !! cti_library_id cti with
      | Some library =>
          class_or_null (fun o => str_eqb (obj_class o) (cti_type_name cti)
                                  && bool_decide (obj_library o = Some library)) s input
      | None => (s, Fail (mkError input E_MissingLibraryId))
      end
  | BT_ObjectArray, None => parse_member_untyped s input
  | BT_StringArray, None =>
      (s, alt (parse_string_member input) (
          alt (parse_ref_member input)
              (parse_null_object input)))
  | BT_PrimitiveArray, Some (AI_Primitive _) => (s, parse_ref_member input)
  | _, _ => (s, Panic P_Unreachable)
  end.

(** binary_parser/mod.rs 171-187. *)
Fixpoint parse_members_typed (l : list (binary_type * option additional_type_info))
  (s : state) (input : bytes) : sres (list value_or_ref) :=
  match l with
  | [] => (s, Ok input [])
  | (bt, ai) :: l =>
      let! (s, input, m) := parse_member_typed bt ai s input in
      let! (s, input, ms) := parse_members_typed l s input in
      (s, Ok input (m :: ms))
  end.

Definition parse_members_with_type_info (mti : member_type_info) (s : state) (input : bytes)
  : sres (list value_or_ref) :=
  parse_members_typed (zip (mti_binary_type_enums mti) (mti_additional_infos mti)) s input.

(** nom's [verify(|input| self.parse_referenceable(input), |id2| id2.0 == id.0)]
    (binary_parser/mod.rs 212). *)
Definition verify_referenceable (id : N) (s : state) (input : bytes) : sres N :=
  match PR s input with
  | (s, Ok rest id2) =>
      if N.eqb id2 id then (s, Ok rest id2) else (s, Err (from_error_kind input K_Verify))
  | r => r
  end.

(** binary_parser/mod.rs 190-225. *)
Fixpoint resolve_members (members : list value_or_ref) (s : state) (input : bytes)
  : sres (list value) :=
  match members with
  | [] => (s, Ok input [])
  | VR_Value v :: members =>
      let! (s, input, vs) := resolve_members members s input in
      (s, Ok input (v :: vs))
  | VR_Null n :: members =>
      let! (s, input, vs) := resolve_members members s input in
      (s, Ok input (replicate (N.to_nat n) VNull ++ vs))
  | VR_Ref id :: members =>
      match st_objects s !! id with
      | Some v =>
          let s := set_objects s (delete id (st_objects s)) in
          let! (s, input, vs) := resolve_members members s input in
          (s, Ok input (v :: vs))
      | None =>
          let! (s, input, id2) := verify_referenceable id s input in
          match st_objects s !! id2 with
          | Some v =>
              let s := set_objects s (delete id2 (st_objects s)) in
              let! (s, input, vs) := resolve_members members s input in
              (s, Ok input (v :: vs))
          | None => (s, Fail (mkError input E_UnresolvableMemberReference))
          end
      end
  end.

(** binary_parser/mod.rs 241-252: the four class records, with their own object id. *)
Definition class_records (input : bytes) : res class_rec :=
  alt (class_with_members input) (
  alt (class_with_members_and_types input) (
  alt (system_class_with_members input)
      (system_class_with_members_and_types input))).

(** binary_parser/mod.rs 254-309: the part of [parse_classes] after the record.  [err_input]
    is the position of the record. *)
Definition parse_class_body (err_input : bytes) (oid : N) (c : class_rec) (s : state)
  (input : bytes) : sres (N * obj value) :=
  if bool_decide (is_Some (st_classes s !! oid))
  then (s, Fail (mkError input E_DuplicateObjectId)) else
  let untyped := scount (N.of_nat (length (ci_member_names (cr_class_info c))))
                   parse_member_untyped in
  let with_library lid (k : str -> sres (option str * list value_or_ref)) :=
    match st_libs s !! lid with
    | Some library => k library
    | None => (s, Fail (mkError err_input E_MissingLibraryId))
    end in
  let! (s, input, lm) :=
    match c with
    | CR_ClassWithMembers _ lid =>
        with_library lid (fun library => smap (pair (Some library)) (untyped s input))
    | CR_ClassWithMembersAndTypes _ mti lid =>
        with_library lid (fun library =>
          smap (pair (Some library)) (parse_members_with_type_info mti s input))
    | CR_SystemClassWithMembers _ => smap (pair None) (untyped s input)
    | CR_SystemClassWithMembersAndTypes _ mti =>
        smap (pair None) (parse_members_with_type_info mti s input)
    end in
  let! (s, input, vs) := resolve_members lm.2 s input in
  let ci := cr_class_info c in
  (s, Ok input (oid, mkObj (ci_name ci) lm.1 (hm_from_iter (zip (ci_member_names ci) vs)))).

(** binary_parser/mod.rs 228-309. *)
Definition parse_classes_body (s : state) (input : bytes) : sres (N * obj value) :=
  let! (s, input, _u) := parse_binary_library s input in
  match class_with_id input with
  | Ok rest (oid, mid) =>
      match st_classes s !! mid with
      | Some c => parse_class_body input oid c s rest
      | None => (s, Fail (mkError input E_MissingMetadataId))
      end
  | Err _ =>
      match class_records input with
      | Ok rest c => parse_class_body input (ci_object_id (cr_class_info c)) c s rest
      | Err e => (s, Err e)
      | Fail e => (s, Fail e)
      | Panic p => (s, Panic p)
      | Diverge => (s, Diverge)
      end
  | Fail e => (s, Fail e)
  | Panic p => (s, Panic p)
  | Diverge => (s, Diverge)
  end.

(** binary_parser/mod.rs 322-331, 368-377: the [match] that expands a null run. *)
Definition expand_null (m : value_or_ref) : list value_or_ref :=
  match m with
  | VR_Null n => replicate (N.to_nat n) (VR_Value VNull)
  | m => [m]
  end.

(** [members.len()] after pushing [m]. *)
Definition member_size (m : value_or_ref) : N :=
  match m with
  | VR_Null n => n
  | _ => 1%N
  end.

(** binary_parser/mod.rs 318-332, 364-378: [while members.len() < len].  [cur] is
    [members.len()]; the returned list is what the loop pushes. *)
Fixpoint array_loop (p : state -> bytes -> sres value_or_ref) (fuel : nat) (len cur : N)
  (s : state) (input : bytes) : sres (list value_or_ref) :=
  if N.leb len cur then (s, Ok input []) else
  match fuel with
  | O => (s, Diverge)
  | S fuel =>
      let! (s, input, m) := p s input in
      let! (s, input, ms) := array_loop p fuel len (cur + member_size m)%N s input in
      (s, Ok input (expand_null m ++ ms))
  end.

(** binary_parser/mod.rs 312-338. *)
Definition parse_array_single_object (s : state) (input : bytes) : sres (N * list value) :=
  match array_single_object input with
  | Ok input ai =>
      let! (s, input, ms) :=
        array_loop parse_member_untyped (S (length input)) (ai_length ai) 0 s input in
      let! (s, input, vs) := resolve_members ms s input in
      (s, Ok input (ai_object_id ai, vs))
  | Err e => (s, Err e)
  | Fail e => (s, Fail e)
  | Panic p => (s, Panic p)
  | Diverge => (s, Diverge)
  end.

(** binary_parser/mod.rs 341-355. *)
Definition parse_array_single_primitive (s : state) (input : bytes) : sres (N * list value) :=
  (s, let? (input, a) := array_single_primitive input in
      let? (input, vs) :=
        count (ai_length a.1) (fun i => member_primitive_untyped i a.2) input in
      Ok input (ai_object_id a.1, vs)).

(** binary_parser/mod.rs 358-384. *)
Definition parse_array_single_string (s : state) (input : bytes) : sres (N * list value) :=
  match array_single_string input with
  | Ok input ai =>
      let! (s, input, ms) :=
        array_loop (parse_member_typed BT_StringArray None) (S (length input)) (ai_length ai) 0
          s input in
      let! (s, input, vs) := resolve_members ms s input in
      (s, Ok input (ai_object_id ai, vs))
  | Err e => (s, Err e)
  | Fail e => (s, Fail e)
  | Panic p => (s, Panic p)
  | Diverge => (s, Diverge)
  end.

(** binary_parser/mod.rs 392-395: [try_fold(1usize, checked_mul)]; usize has 64 bits. *)
Fixpoint checked_product (acc : N) (l : list N) : option N :=
  match l with
  | [] => Some acc
  | n :: l => if N.ltb (acc * n) (2 ^ 64) then checked_product (acc * n) l else None
  end%N.

(** binary_parser/mod.rs 411-413: [while !members.is_empty()] with [drain(0..l)]. *)
Fixpoint chunk_loop (fuel : nat) (l : nat) (vs : list value) (input : bytes)
  : res (list value) :=
  match vs with
  | [] => Ok input []
  | _ =>
      match fuel with
      | O => Diverge
      | S fuel =>
          if Nat.ltb (length vs) l then Panic P_DrainOutOfRange
          else
            let? (input, r) := chunk_loop fuel l (drop l vs) input in
            Ok input (VArray (take l vs) :: r)
      end
  end.

(** binary_parser/mod.rs 408-416: the loop over [lengths.into_iter().skip(1).rev()]. *)
Fixpoint chunk_dims (dims : list N) (vs : list value) (input : bytes) : res (list value) :=
  match dims with
  | [] => Ok input vs
  | l :: dims =>
      let? (input, vs) := chunk_loop (length vs) (N.to_nat l) vs input in
      chunk_dims dims vs input
  end.

(** binary_parser/mod.rs 387-419. *)
Definition parse_binary_array (s : state) (input : bytes) : sres (N * list value) :=
  let err_input := input in
  match binary_array_parse input with
  | Ok input ba =>
      match checked_product 1 (ba_lengths ba) with
      | Some member_count =>
          let! (s, input, ms) :=
            scount member_count
              (parse_member_typed (ba_type_enum ba) (ba_additional_type_info ba)) s input in
          let! (s, input, vs) := resolve_members ms s input in
          (s, let? (input, vs) := chunk_dims (rev (drop 1 (ba_lengths ba))) vs input in
              Ok input (ba_object_id ba, vs))
      | None => (s, Fail (mkError err_input E_InvalidLength))
      end
  | Err e => (s, Err e)
  | Fail e => (s, Fail e)
  | Panic p => (s, Panic p)
  | Diverge => (s, Diverge)
  end.

(** binary_parser/mod.rs 422-431. *)
Definition parse_arrays (s : state) (input : bytes) : sres (N * list value) :=
  let! (s, input, _u) := parse_binary_library s input in
  alt_mut (parse_array_single_object s input) (fun s =>
  alt_mut (parse_array_single_primitive s input) (fun s =>
  alt_mut (parse_array_single_string s input) (fun s =>
  alt_mut (parse_binary_array s input) (fun s =>
  alt_mut_end input s)))).

(** binary_parser/mod.rs 434-453. *)
Definition parse_referenceable_body (s : state) (input : bytes) : sres N :=
  let! (s, input, io) :=
    alt_mut (smap (fun p => (p.1, VObject p.2)) (PC s input)) (fun s =>
    alt_mut (smap (fun p => (p.1, VArray p.2)) (parse_arrays s input)) (fun s =>
    alt_mut (s, rmap (fun p => (p.1, VString p.2)) (binary_object_string input)) (fun s =>
    alt_mut_end input s))) in
  (set_objects s (<[io.1 := io.2]> (st_objects s)), Ok input io.1).

End methods.

(** The recursion between [parse_classes] and [parse_referenceable], bounded by fuel.  The
    bound [2 * length input + 2] used by [deserialize] is never reached (proved). *)
Fixpoint parse_classes (fuel : nat) (s : state) (input : bytes) {struct fuel}
  : sres (N * obj value) :=
  match fuel with
  | O => (s, Diverge)
  | S fuel => parse_classes_body (parse_classes fuel) (parse_referenceable fuel) s input
  end
with parse_referenceable (fuel : nat) (s : state) (input : bytes) {struct fuel} : sres N :=
  match fuel with
  | O => (s, Diverge)
  | S fuel => parse_referenceable_body (parse_classes fuel) (parse_referenceable fuel) s input
  end.

(** binary_parser/mod.rs 464-478. *)
Definition parse_call_array (fuel : nat) (root_id : option N) (s : state) (input : bytes)
  : sres (list value) :=
  let! (s, input, _u) := parse_binary_library s input in
  let! (s, input, a) :=
    parse_array_single_object (parse_classes fuel) (parse_referenceable fuel) s input in
  if bool_decide (Some a.1 = root_id) then (s, Ok input a.2)
  else (s, Fail (mkError input E_InvalidCallArrayId)).

(** nom's [opt] around a method: the state of the failed attempt stays. *)
Definition sopt {A} (input : bytes) (r : sres A) : sres (option A) := (r.1, opt input r.2).

(** binary_parser/mod.rs 492-510 and 536-554: the closure [parse_args]. *)
Definition parse_args (flags : Z) (call_array : option (list value))
  (inline_args : option (list value)) (input : bytes) : res (option (list value)) :=
  let invalid := Fail (mkError input E_InvalidArgs) in
  if intersects flags MF_ARGS_IS_ARRAY then
    match call_array with
    | Some a => Ok input (Some a)
    | None => invalid
    end
  else if intersects flags MF_ARGS_IN_ARRAY then
    match call_array with
    | Some (VArray args :: _) => Ok input (Some args)
    | _ => invalid
    end
  else Ok input inline_args.

(** binary_parser/mod.rs 481-522. *)
Definition parse_method_call (fuel : nat) (root_id : option N) (s : state) (input : bytes)
  : sres method_call :=
  let! (s, input, _u) := parse_binary_library s input in
  match binary_method_call_parse input with
  | Ok input c =>
      let! (s, input, call_array) := sopt input (parse_call_array fuel root_id s input) in
      (s, let? (input, args) := parse_args (bmc_message_enum c) call_array (bmc_args c) input in
          Ok input (mkMethodCall (bmc_method_name c) (bmc_type_name c) (bmc_call_context c) args))
  | Err e => (s, Err e)
  | Fail e => (s, Fail e)
  | Panic p => (s, Panic p)
  | Diverge => (s, Diverge)
  end.

(** binary_parser/mod.rs 525-565. *)
Definition parse_method_return (fuel : nat) (root_id : option N) (s : state) (input : bytes)
  : sres method_return :=
  let! (s, input, _u) := parse_binary_library s input in
  match binary_method_return_parse input with
  | Ok input c =>
      let! (s, input, call_array) := sopt input (parse_call_array fuel root_id s input) in
      (s, let? (input, args) := parse_args (bmr_message_enum c) call_array (bmr_args c) input in
          Ok input (mkMethodReturn (bmr_return_value c) (bmr_call_context c) args))
  | Err e => (s, Err e)
  | Fail e => (s, Fail e)
  | Panic p => (s, Panic p)
  | Diverge => (s, Diverge)
  end.

(** binary_parser/mod.rs 568-577; the two variants of [MethodCallOrReturn] are directly the
    corresponding [message] constructors (binary_parser/mod.rs 614-615). *)
Definition parse_method_call_or_return (fuel : nat) (root_id : option N) (s : state)
  (input : bytes) : sres message :=
  alt_mut (smap MMethodCall (parse_method_call fuel root_id s input)) (fun s =>
  alt_mut (smap MMethodReturn (parse_method_return fuel root_id s input)) (fun s =>
  alt_mut_end input s)).

(** binary_parser/mod.rs 579-594. [loop_fuel] bounds the number of iterations. *)
Fixpoint parse_referenceables (loop_fuel fuel : nat) (s : state) (input : bytes) : sres unit :=
  match loop_fuel with
  | O => (s, Diverge)
  | S loop_fuel =>
      match parse_referenceable fuel s input with
      | (s, Ok input _) => parse_referenceables loop_fuel fuel s input
      | (s, Err _) => (s, Ok input tt)
      | (s, Fail e) => (s, Fail e)
      | (s, Panic p) => (s, Panic p)
      | (s, Diverge) => (s, Diverge)
      end
  end.

(** binary_parser/mod.rs 597-630. *)
Definition parse_remoting_message (fuel : nat) (s : state) (input : bytes) : sres message :=
  match serialization_header_parse input with
  | Ok input h =>
      let! (s, input, _u) := parse_referenceables (S (length input)) fuel s input in
      let! (s, input, m) :=
        sopt input (parse_method_call_or_return fuel (sh_root_id h) s input) in
      let! (s, input, _u) := parse_referenceables (S (length input)) fuel s input in
      match message_end input with
      | Ok input _ =>
          match input with
          | _ :: _ => (s, Err (mkError input E_TrailingData))
          | [] =>
              match m with
              | Some m => (s, Ok input m)
              | None =>
                  match sh_root_id h with
                  | Some root_id =>
                      match st_objects s !! root_id with
                      | Some v =>
                          (set_objects s (delete root_id (st_objects s)), Ok input (MValue v))
                      | None => (s, Err (mkError input E_MissingRootObject))
                      end
                  | None => (s, Ok input (MValue VNull))
                  end
              end
          end
      | Err e => (s, Err e)
      | Fail e => (s, Fail e)
      | Panic p => (s, Panic p)
      | Diverge => (s, Diverge)
      end
  | Err e => (s, Err e)
  | Fail e => (s, Fail e)
  | Panic p => (s, Panic p)
  | Diverge => (s, Diverge)
  end.

(** What a caller of [RemotingMessage::parse] can observe: a message, an error, a panic, or
    no return at all. *)
Inductive outcome :=
| POk (m : message)
| PErr (e : error)
| PPanic (p : panic_site)
| PDiverge.

(** binary_parser/mod.rs 633-638 ([BinaryParser::deserialize]) with remoting_message.rs 75-78
    ([RemotingMessage::parse]). *)
Definition deserialize (input : bytes) : outcome :=
  match (parse_remoting_message (2 * length input + 2) init_state input).2 with
  | Ok _ m => POk m
  | Err e => PErr e
  | Fail e => PErr e
  | Panic p => PPanic p
  | Diverge => PDiverge
  end.

End with_decimal.

Notation sres A := (state * res A)%type.
Notation "'let!' ( s , i , x ) := r 'in' k" := (sbind r (fun s i x => k))
  (at level 200, s name, i name, x name, r at level 100, k at level 200,
   format "'let!'  ( s ,  i ,  x )  :=  r  'in' '//' k").
