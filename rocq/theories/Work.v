(** * Work: the parser of Parser.v with an account of the work it does.

    Every definition repeats the definition of Parser.v named in its comment, for the same lines
    of binary_parser/mod.rs, and adds up what the calls of the record parsers cost.  The counted
    parser computes the same results ([Worked.v], [w_message_result]); the account is read
    off the code by inspection:

    - a successful call of a record parser costs 1, and 1 more for every byte it consumed;
    - a call that gives up costs what the price list says.  With price 1 the account counts the
      calls; with one more than the length of the whole input as the price it is an upper bound
      for the bytes that are looked at, because a record parser makes one pass over its input and
      cannot have looked at more than all of it before it gave up.

    Not counted: moving values that have been parsed into the result (its size is the subject
    of C28), and the lookups in the parser's maps. *)
From Verif Require Import Base Utf8 Value DataTypes Records Parser.

(** What a call of a record parser that gives up costs. *)
Class Price := price : nat.
Definition counting_calls : Price := 1.
Arguments price {_} /.
Arguments counting_calls /.

Section with_decimal.
Context `{DecimalLib} {P : Price}.

(** [&mut self], an [IResult], and the work done. *)
Notation wres A := (nat * sres A)%type.

(** The cost of one call of a record parser. *)
Definition charge {A} (input : bytes) (r : res A) : nat :=
  match r with
  | Ok rest _ => S (length input - length rest)
  | _ => price
  end.

Definition call {A} (input : bytes) (r : res A) : nat * res A := (charge input r, r).

(** nom's [alt] of two parsers: the second one only runs if the first one gives up. *)
Definition walt {A} (a b : nat * res A) : nat * res A :=
  match a.2 with
  | Err _ => (a.1 + b.1, alt a.2 b.2)
  | r => (a.1, r)
  end.

Definition wmap {A B} (f : A -> B) (r : wres A) : wres B := (r.1, smap f r.2).

Definition wmore {A} (n : nat) (r : wres A) : wres A := (n + r.1, r.2).

(** Rust's [?]. *)
Definition wbind {A B} (r : wres A) (f : state -> bytes -> A -> wres B) : wres B :=
  match r.2 with
  | (s, Ok i a) => wmore r.1 (f s i a)
  | (s, Err e) => (r.1, (s, Err e))
  | (s, Fail e) => (r.1, (s, Fail e))
  | (s, Panic p) => (r.1, (s, Panic p))
  | (s, Diverge) => (r.1, (s, Diverge))
  end.

Notation "'let%' ( s , i , x ) := r 'in' k" := (wbind r (fun s i x => k))
  (at level 200, s name, i name, x name, r at level 100, k at level 200).

(** [alt_mut]. *)
Definition walt_mut {A} (r : wres A) (next : state -> wres A) : wres A :=
  match r.2 with
  | (s, Err _) => wmore r.1 (next s)
  | _ => r
  end.

(** [scount_loop]. *)
Fixpoint w_scount_loop {A} (fuel : nat) (n : N) (p : state -> bytes -> wres A) (s : state)
  (input : bytes) : wres (list A) :=
  if N.eqb n 0 then (0, (s, Ok input [])) else
  match fuel with
  | O => (0, (s, Diverge))
  | S fuel =>
      let% (s, input, a) := p s input in
      let% (s, input, l) := w_scount_loop fuel (N.pred n) p s input in
      (0, (s, Ok input (a :: l)))
  end.

Definition w_scount {A} (n : N) (p : state -> bytes -> wres A) (s : state) (input : bytes)
  : wres (list A) :=
  w_scount_loop (S (length input)) n p s input.

(** [parse_binary_library] (binary_parser/mod.rs 78-90). *)
Definition w_library (s : state) (input : bytes) : wres unit :=
  ((call input (binary_library input)).1, parse_binary_library s input).

(** [parse_null_object] (binary_parser/mod.rs 455-462). *)
Definition w_null_object (input : bytes) : nat * res value_or_ref :=
  walt (call input (rmap VR_Null (object_null input))) (
  walt (call input (rmap VR_Null (object_null_multiple input)))
       (call input (rmap VR_Null (object_null_multiple_256 input)))).

(** [parse_string_member] (binary_parser/mod.rs 108, 143, 161). *)
Definition w_string_member (input : bytes) : nat * res value_or_ref :=
  call input (parse_string_member input).

(** [parse_ref_member] (binary_parser/mod.rs 144-147, 152-153, 160). *)
Definition w_ref_member (input : bytes) : nat * res value_or_ref :=
  call input (parse_ref_member input).

(** [MemberPrimitiveUnTyped::parse] (binary_parser/mod.rs 104, 344). *)
Definition w_primitive (input : bytes) (p : primitive_type) : nat * res value :=
  call input (member_primitive_untyped input p).

Section methods.
Context (PC : state -> bytes -> wres (N * obj value)).
Context (PR : state -> bytes -> wres N).

(** [member_untyped_body] (binary_parser/mod.rs 157-166). *)
Definition w_member_untyped_body (s : state) (input : bytes) : wres value_or_ref :=
  let a :=
    walt (call input (rmap VR_Value (member_primitive_typed input))) (
    walt (w_ref_member input) (
    walt (w_string_member input)
         (w_null_object input))) in
  match a.2 with
  | Err _ => wmore a.1 (wmap (fun p => VR_Value (VObject p.2)) (PC s input))
  | r => (a.1, (s, r))
  end.

(** [parse_member_untyped] (binary_parser/mod.rs 93-169 with [None]). *)
Definition w_member_untyped (s : state) (input : bytes) : wres value_or_ref :=
  let% (s, input, _u) := w_library s input in
  w_member_untyped_body s input.

(** [class_or_null] (binary_parser/mod.rs 112-120 and 131-139). *)
Definition w_class_or_null (ok : obj value -> bool) (s : state) (input : bytes)
  : wres value_or_ref :=
  let c := PC s input in
  match c.2 with
  | (s, Ok input (_, o)) =>
      (c.1, if ok o then (s, Ok input (VR_Value (VObject o)))
            else (s, Fail (mkError input E_UnexpectedClass)))
  | (s, Err _) | (s, Fail _) =>
      (c.1 + (w_null_object input).1, (s, (w_null_object input).2))
  | (s, Panic p) => (c.1, (s, Panic p))
  | (s, Diverge) => (c.1, (s, Diverge))
  end.

(** [parse_member_typed] (binary_parser/mod.rs 93-169 with [Some]). *)
Definition w_member_typed (bt : binary_type) (ai : option additional_type_info)
  (s : state) (input : bytes) : wres value_or_ref :=
  let% (s, input, _u) := w_library s input in
  match bt, ai with
  | BT_Primitive, Some (AI_Primitive p) =>
      ((w_primitive input p).1, (s, rmap VR_Value (w_primitive input p).2))
  | BT_String, None => ((w_string_member input).1, (s, (w_string_member input).2))
  | BT_Object, None => w_member_untyped s input
  | BT_SystemClass, Some (AI_SystemClass class_name) =>
      w_class_or_null (fun o => str_eqb (obj_class o) class_name
                                && bool_decide (obj_library o = None)) s input
  | BT_Class, Some (AI_Class cti) =>
      match st_libs s !! cti_library_id cti with
      | Some library =>
          w_class_or_null (fun o => str_eqb (obj_class o) (cti_type_name cti)
                                    && bool_decide (obj_library o = Some library)) s input
      | None => (0, (s, Fail (mkError input E_MissingLibraryId)))
      end
  | BT_ObjectArray, None => w_member_untyped s input
  | BT_StringArray, None =>
      let a := walt (w_string_member input) (
               walt (w_ref_member input)
                    (w_null_object input)) in
      (a.1, (s, a.2))
  | BT_PrimitiveArray, Some (AI_Primitive _) =>
      ((w_ref_member input).1, (s, (w_ref_member input).2))
  | _, _ => (0, (s, Panic P_Unreachable))
  end.

(** [parse_members_typed] (binary_parser/mod.rs 171-187). *)
Fixpoint w_members_typed (l : list (binary_type * option additional_type_info))
  (s : state) (input : bytes) : wres (list value_or_ref) :=
  match l with
  | [] => (0, (s, Ok input []))
  | (bt, ai) :: l =>
      let% (s, input, m) := w_member_typed bt ai s input in
      let% (s, input, ms) := w_members_typed l s input in
      (0, (s, Ok input (m :: ms)))
  end.

(** [verify_referenceable] (binary_parser/mod.rs 212). *)
Definition w_verify (id : N) (s : state) (input : bytes) : wres N :=
  let c := PR s input in
  match c.2 with
  | (s, Ok rest id2) =>
      (c.1, if N.eqb id2 id then (s, Ok rest id2) else (s, Err (from_error_kind input K_Verify)))
  | _ => c
  end.

(** [resolve_members] (binary_parser/mod.rs 190-225). *)
Fixpoint w_resolve_members (members : list value_or_ref) (s : state) (input : bytes)
  : wres (list value) :=
  match members with
  | [] => (0, (s, Ok input []))
  | VR_Value v :: members =>
      let% (s, input, vs) := w_resolve_members members s input in
      (0, (s, Ok input (v :: vs)))
  | VR_Null n :: members =>
      let% (s, input, vs) := w_resolve_members members s input in
      (0, (s, Ok input (replicate (N.to_nat n) VNull ++ vs)))
  | VR_Ref id :: members =>
      match st_objects s !! id with
      | Some v =>
          let s := set_objects s (delete id (st_objects s)) in
          let% (s, input, vs) := w_resolve_members members s input in
          (0, (s, Ok input (v :: vs)))
      | None =>
          let% (s, input, id2) := w_verify id s input in
          match st_objects s !! id2 with
          | Some v =>
              let s := set_objects s (delete id2 (st_objects s)) in
              let% (s, input, vs) := w_resolve_members members s input in
              (0, (s, Ok input (v :: vs)))
          | None => (0, (s, Fail (mkError input E_UnresolvableMemberReference)))
          end
      end
  end.

(** [class_records] (binary_parser/mod.rs 241-252). *)
Definition w_class_records (input : bytes) : nat * res class_rec :=
  walt (call input (class_with_members input)) (
  walt (call input (class_with_members_and_types input)) (
  walt (call input (system_class_with_members input))
       (call input
          (system_class_with_members_and_types input)))).

(** [parse_class_body] (binary_parser/mod.rs 254-309). *)
Definition w_class_body (err_input : bytes) (oid : N) (c : class_rec) (s : state)
  (input : bytes) : wres (N * obj value) :=
  if bool_decide (is_Some (st_classes s !! oid))
  then (0, (s, Fail (mkError input E_DuplicateObjectId))) else
  let untyped := w_scount (N.of_nat (length (ci_member_names (cr_class_info c))))
                   w_member_untyped in
  let typed mti :=
    w_members_typed (zip (mti_binary_type_enums mti) (mti_additional_infos mti)) in
  let with_library lid (k : str -> wres (option str * list value_or_ref)) :=
    match st_libs s !! lid with
    | Some library => k library
    | None => (0, (s, Fail (mkError err_input E_MissingLibraryId)))
    end in
  let% (s, input, lm) :=
    match c with
    | CR_ClassWithMembers _ lid =>
        with_library lid (fun library => wmap (pair (Some library)) (untyped s input))
    | CR_ClassWithMembersAndTypes _ mti lid =>
        with_library lid (fun library => wmap (pair (Some library)) (typed mti s input))
    | CR_SystemClassWithMembers _ => wmap (pair None) (untyped s input)
    | CR_SystemClassWithMembersAndTypes _ mti => wmap (pair None) (typed mti s input)
    end in
  let% (s, input, vs) := w_resolve_members lm.2 s input in
  let ci := cr_class_info c in
  (0, (s, Ok input (oid, mkObj (ci_name ci) lm.1 (hm_from_iter (zip (ci_member_names ci) vs))))).

(** [parse_classes_body] (binary_parser/mod.rs 228-309). *)
Definition w_classes_body (s : state) (input : bytes) : wres (N * obj value) :=
  let% (s, input, _u) := w_library s input in
  let w := call input (class_with_id input) in
  match w.2 with
  | Ok rest (oid, mid) =>
      match st_classes s !! mid with
      | Some c => wmore w.1 (w_class_body input oid c s rest)
      | None => (w.1, (s, Fail (mkError input E_MissingMetadataId)))
      end
  | Err _ =>
      let r := w_class_records input in
      match r.2 with
      | Ok rest c =>
          wmore (w.1 + r.1) (w_class_body input (ci_object_id (cr_class_info c)) c s rest)
      | Err e => (w.1 + r.1, (s, Err e))
      | Fail e => (w.1 + r.1, (s, Fail e))
      | Panic p => (w.1 + r.1, (s, Panic p))
      | Diverge => (w.1 + r.1, (s, Diverge))
      end
  | Fail e => (w.1, (s, Fail e))
  | Panic p => (w.1, (s, Panic p))
  | Diverge => (w.1, (s, Diverge))
  end.

(** [array_loop] (binary_parser/mod.rs 318-332, 364-378). *)
Fixpoint w_array_loop (p : state -> bytes -> wres value_or_ref) (fuel : nat) (len cur : N)
  (s : state) (input : bytes) : wres (list value_or_ref) :=
  if N.leb len cur then (0, (s, Ok input [])) else
  match fuel with
  | O => (0, (s, Diverge))
  | S fuel =>
      let% (s, input, m) := p s input in
      let% (s, input, ms) := w_array_loop p fuel len (cur + member_size m)%N s input in
      (0, (s, Ok input (expand_null m ++ ms)))
  end.

(** [parse_array_single_object] (binary_parser/mod.rs 312-338). *)
Definition w_array_single_object (s : state) (input : bytes) : wres (N * list value) :=
  let w := call input (array_single_object input) in
  let% (s, input, ai) := (w.1, (s, w.2)) in
  let% (s, input, ms) :=
    w_array_loop w_member_untyped (S (length input)) (ai_length ai) 0 s input in
  let% (s, input, vs) := w_resolve_members ms s input in
  (0, (s, Ok input (ai_object_id ai, vs))).

(** [count] (Base.v) around the primitive members of an array. *)
Fixpoint w_primitives (fuel : nat) (n : N) (p : primitive_type) (s : state) (input : bytes)
  : wres (list value) :=
  if N.eqb n 0 then (0, (s, Ok input [])) else
  match fuel with
  | O => (0, (s, Diverge))
  | S fuel =>
      let% (s, input, a) := ((w_primitive input p).1, (s, (w_primitive input p).2)) in
      let% (s, input, l) := w_primitives fuel (N.pred n) p s input in
      (0, (s, Ok input (a :: l)))
  end.

(** [parse_array_single_primitive] (binary_parser/mod.rs 341-355). *)
Definition w_array_single_primitive (s : state) (input : bytes) : wres (N * list value) :=
  let w := call input (array_single_primitive input) in
  let% (s, input, a) := (w.1, (s, w.2)) in
  let% (s, input, vs) := w_primitives (S (length input)) (ai_length a.1) a.2 s input in
  (0, (s, Ok input (ai_object_id a.1, vs))).

(** [parse_array_single_string] (binary_parser/mod.rs 358-384). *)
Definition w_array_single_string (s : state) (input : bytes) : wres (N * list value) :=
  let w := call input (array_single_string input) in
  let% (s, input, ai) := (w.1, (s, w.2)) in
  let% (s, input, ms) :=
    w_array_loop (w_member_typed BT_StringArray None) (S (length input)) (ai_length ai) 0
      s input in
  let% (s, input, vs) := w_resolve_members ms s input in
  (0, (s, Ok input (ai_object_id ai, vs))).

(** [parse_binary_array] (binary_parser/mod.rs 387-419). *)
Definition w_binary_array (s : state) (input : bytes) : wres (N * list value) :=
  let err_input := input in
  let w := call input (binary_array_parse input) in
  let% (s, input, ba) := (w.1, (s, w.2)) in
  match checked_product 1 (ba_lengths ba) with
  | Some member_count =>
      let% (s, input, ms) :=
        w_scount member_count
          (w_member_typed (ba_type_enum ba) (ba_additional_type_info ba)) s input in
      let% (s, input, vs) := w_resolve_members ms s input in
      (0, (s, let? (input, vs) := chunk_dims (rev (drop 1 (ba_lengths ba))) vs input in
              Ok input (ba_object_id ba, vs)))
  | None => (0, (s, Fail (mkError err_input E_InvalidLength)))
  end.

(** [parse_arrays] (binary_parser/mod.rs 422-431). *)
Definition w_arrays (s : state) (input : bytes) : wres (N * list value) :=
  let% (s, input, _u) := w_library s input in
  walt_mut (w_array_single_object s input) (fun s =>
  walt_mut (w_array_single_primitive s input) (fun s =>
  walt_mut (w_array_single_string s input) (fun s =>
  walt_mut (w_binary_array s input) (fun s =>
  (0, alt_mut_end input s))))).

(** [parse_referenceable_body] (binary_parser/mod.rs 434-453). *)
Definition w_referenceable_body (s : state) (input : bytes) : wres N :=
  let% (s, input, io) :=
    walt_mut (wmap (fun p => (p.1, VObject p.2)) (PC s input)) (fun s =>
    walt_mut (wmap (fun p => (p.1, VArray p.2)) (w_arrays s input)) (fun s =>
    let w := call input
               (rmap (fun p => (p.1, VString p.2)) (binary_object_string input)) in
    walt_mut (w.1, (s, w.2)) (fun s =>
    (0, alt_mut_end input s)))) in
  (0, (set_objects s (<[io.1 := io.2]> (st_objects s)), Ok input io.1)).

End methods.

(** [parse_classes] and [parse_referenceable]. *)
Fixpoint w_classes (fuel : nat) (s : state) (input : bytes) {struct fuel}
  : wres (N * obj value) :=
  match fuel with
  | O => (0, (s, Diverge))
  | S fuel => w_classes_body (w_classes fuel) (w_referenceable fuel) s input
  end
with w_referenceable (fuel : nat) (s : state) (input : bytes) {struct fuel} : wres N :=
  match fuel with
  | O => (0, (s, Diverge))
  | S fuel => w_referenceable_body (w_classes fuel) (w_referenceable fuel) s input
  end.

(** [parse_call_array] (binary_parser/mod.rs 464-478). *)
Definition w_call_array (fuel : nat) (root_id : option N) (s : state) (input : bytes)
  : wres (list value) :=
  let% (s, input, _u) := w_library s input in
  let% (s, input, a) :=
    w_array_single_object (w_classes fuel) (w_referenceable fuel) s input in
  (0, if bool_decide (Some a.1 = root_id) then (s, Ok input a.2)
      else (s, Fail (mkError input E_InvalidCallArrayId))).

(** [sopt]. *)
Definition wopt {A} (input : bytes) (r : wres A) : wres (option A) := (r.1, sopt input r.2).

(** [parse_method_call] (binary_parser/mod.rs 481-522). *)
Definition w_method_call (fuel : nat) (root_id : option N) (s : state) (input : bytes)
  : wres method_call :=
  let% (s, input, _u) := w_library s input in
  let w := call input (binary_method_call_parse input) in
  let% (s, input, c) := (w.1, (s, w.2)) in
  let% (s, input, call_array) := wopt input (w_call_array fuel root_id s input) in
  (0, (s, let? (input, args) :=
            parse_args (bmc_message_enum c) call_array (bmc_args c) input in
          Ok input (mkMethodCall (bmc_method_name c) (bmc_type_name c) (bmc_call_context c) args))).

(** [parse_method_return] (binary_parser/mod.rs 525-565). *)
Definition w_method_return (fuel : nat) (root_id : option N) (s : state) (input : bytes)
  : wres method_return :=
  let% (s, input, _u) := w_library s input in
  let w := call input (binary_method_return_parse input) in
  let% (s, input, c) := (w.1, (s, w.2)) in
  let% (s, input, call_array) := wopt input (w_call_array fuel root_id s input) in
  (0, (s, let? (input, args) :=
            parse_args (bmr_message_enum c) call_array (bmr_args c) input in
          Ok input (mkMethodReturn (bmr_return_value c) (bmr_call_context c) args))).

(** [parse_method_call_or_return] (binary_parser/mod.rs 568-577). *)
Definition w_method (fuel : nat) (root_id : option N) (s : state) (input : bytes)
  : wres message :=
  walt_mut (wmap MMethodCall (w_method_call fuel root_id s input)) (fun s =>
  walt_mut (wmap MMethodReturn (w_method_return fuel root_id s input)) (fun s =>
  (0, alt_mut_end input s))).

(** [parse_referenceables] (binary_parser/mod.rs 579-594). *)
Fixpoint w_referenceables (loop_fuel fuel : nat) (s : state) (input : bytes) : wres unit :=
  match loop_fuel with
  | O => (0, (s, Diverge))
  | S loop_fuel =>
      let c := w_referenceable fuel s input in
      match c.2 with
      | (s, Ok input _) => wmore c.1 (w_referenceables loop_fuel fuel s input)
      | (s, Err _) => (c.1, (s, Ok input tt))
      | (s, Fail e) => (c.1, (s, Fail e))
      | (s, Panic p) => (c.1, (s, Panic p))
      | (s, Diverge) => (c.1, (s, Diverge))
      end
  end.

(** [parse_remoting_message] (binary_parser/mod.rs 597-630). *)
Definition w_message (fuel : nat) (s : state) (input : bytes) : wres message :=
  let h := serialization_header_parse input in
  let% (s, input, h) := (charge input h, (s, h)) in
  let% (s, input, _u) := w_referenceables (S (length input)) fuel s input in
  let% (s, input, m) := wopt input (w_method fuel (sh_root_id h) s input) in
  let% (s, input, _u) := w_referenceables (S (length input)) fuel s input in
  let w := call input (message_end input) in
  let% (s, input, _u) := (w.1, (s, w.2)) in
  (0, match input with
      | _ :: _ => (s, Err (mkError input E_TrailingData))
      | [] =>
          match m with
          | Some m => (s, Ok input m)
          | None =>
              match sh_root_id h with
              | Some root_id =>
                  match st_objects s !! root_id with
                  | Some v =>
                      (set_objects s (delete root_id (st_objects s)), Ok input (MValue v))
                  | None => (s, Err (mkError input E_MissingRootObject))
                  end
              | None => (s, Ok input (MValue VNull))
              end
          end
      end).

(** The work of [RemotingMessage::parse] on an input. *)
Definition work (input : bytes) : nat :=
  (w_message (2 * length input + 2) init_state input).1.

End with_decimal.

Notation wres A := (nat * sres A)%type.
Notation "'let%' ( s , i , x ) := r 'in' k" := (wbind r (fun s i x => k))
  (at level 200, s name, i name, x name, r at level 100, k at level 200).
