(** * Serde: the [serde] side of the crate (feature "serde").

    Models value/mod.rs 66-245, value/object.rs 29-271, data_type/mod.rs 62-122,
    remoting_message.rs 80-120 and lib.rs 49-55: how a parsed message is turned into a Rust
    type [T: Deserialize].

    serde itself is an external crate whose source is not in /repo.  The [Deserialize]
    implementations of the standard types and the ones generated by [#[derive(Deserialize)]]
    without attributes follow their documented behaviour (serde 1.0): a target type is modelled
    by the constructors of [target] below, and its [Visitor] by the functions [visit_*].
    Every [visit_*] method a visitor does not define is an error (serde's default).
    Error messages are not modelled: a deserialisation error is just [SErr]. *)
From Verif Require Import Base Utf8 Value DataTypes Records Parser Wire.
From Coq Require Strings.String.
Import String.StringSyntax.

(** A literal such as ["m_value"] as its bytes. *)
Definition lit (s : String.string) : str := String.list_byte_of_string s.
Arguments lit s%string_scope.

(** Rust's [as] casts to and between floats, on bit patterns.  Every theorem is quantified over
    them. *)
Class FloatLib := {
  f64_as_f32 : N -> N;
  f32_as_f64 : N -> N;
  int_as_f32 : Z -> N;
  int_as_f64 : Z -> N;
}.

(** ** Target types *)

Inductive int_type := I8 | I16 | I32 | I64 | I128 | U8 | U16 | U32 | U64 | U128.

(** [MIN] and [MAX] of an integer type. *)
Definition int_bits (k : int_type) : Z :=
  match k with
  | I8 | U8 => 8 | I16 | U16 => 16 | I32 | U32 => 32 | I64 | U64 => 64 | I128 | U128 => 128
  end.
Definition int_signed (k : int_type) : bool :=
  match k with I8 | I16 | I32 | I64 | I128 => true | _ => false end.
Definition int_min (k : int_type) : Z := if int_signed k then - 2 ^ (int_bits k - 1) else 0.
Definition int_max (k : int_type) : Z :=
  if int_signed k then 2 ^ (int_bits k - 1) - 1 else 2 ^ int_bits k - 1.
Definition int_fits (k : int_type) (z : Z) : bool := Z.leb (int_min k) z && Z.leb z (int_max k).

(** The types [T] of [from_slice::<T>]. *)
Inductive target :=
| T_bool | T_int (k : int_type) | T_f32 | T_f64 | T_char
| T_string                              (* String *)
| T_str                                 (* &'de str *)
| T_bytes                               (* &'de [u8] *)
| T_unit                                (* (), unit structs *)
| T_option (t : target)                 (* Option<T> *)
| T_vec (t : target)                    (* Vec<T>, VecDeque<T>, ... *)
| T_tuple (ts : list target)            (* (A, B, ...); [T; N] is N times T *)
| T_map (t : target)                    (* BTreeMap<String, T> *)
| T_struct (fields : list (str * target)) (* derived, without attributes *)
| T_newtype (t : target)                (* derived: struct N(T) *)
| T_enum                                (* derived *)
| T_ignored                             (* IgnoredAny *)
| T_any.                                (* a type that takes whatever comes, such as a JSON value *)

(** [[T; N]] *)
Definition T_array (t : target) (n : nat) : target := T_tuple (replicate n t).

(** Their values. *)
Inductive data :=
| D_bool (b : bool) | D_int (z : Z) | D_f32 (bits : N) | D_f64 (bits : N) | D_char (c : N)
| D_str (s : str) | D_bytes (s : bytes) | D_unit | D_none | D_some (d : data)
| D_seq (ds : list data)                (* Vec, tuple and array *)
| D_map (m : list (str * data))         (* sorted by key, as a BTreeMap *)
| D_struct (fields : list (str * data)) (* in the order of declaration *)
| D_newtype (d : data) | D_ignored.

(** [Result<T, serde::de::value::Error>] *)
Inductive sres (A : Type) := SOk (a : A) | SErr.
Arguments SOk {A} _.
Arguments SErr {A}.

(** The operator [?]. *)
Definition sres_bind {A B} (r : sres A) (f : A -> sres B) : sres B :=
  match r with SOk a => f a | SErr => SErr end.
Definition sres_map {A B} (f : A -> B) (r : sres A) : sres B := sres_bind r (fun a => SOk (f a)).
Notation "'let#' a ':=' r 'in' k" := (sres_bind r (fun a => k))
  (at level 200, a pattern, r at level 100, k at level 200).

Section with_libs.
Context {DL : DecimalLib} {FL : FloatLib}.

(** ** serde: scalar visitors *)

(** serde: [impl Deserialize for bool]. *)
Definition visit_bool (t : target) (b : bool) : sres data :=
  match t with
  | T_bool | T_any => SOk (D_bool b)
  | T_ignored => SOk D_ignored
  | _ => SErr
  end.

(** serde: [impl_deserialize_num!]: [visit_i8] .. [visit_u64] of the integer types check the
    range, the float types cast. *)
Definition visit_int (t : target) (z : Z) : sres data :=
  match t with
  | T_int k => if int_fits k z then SOk (D_int z) else SErr
  | T_any => SOk (D_int z)
  | T_f32 => SOk (D_f32 (int_as_f32 z))
  | T_f64 => SOk (D_f64 (int_as_f64 z))
  | T_ignored => SOk D_ignored
  | _ => SErr
  end.
Definition visit_f32 (t : target) (bits : N) : sres data :=
  match t with
  | T_f32 | T_any => SOk (D_f32 bits)
  | T_f64 => SOk (D_f64 (f32_as_f64 bits))
  | T_ignored => SOk D_ignored
  | _ => SErr
  end.
Definition visit_f64 (t : target) (bits : N) : sres data :=
  match t with
  | T_f32 => SOk (D_f32 (f64_as_f32 bits))
  | T_f64 | T_any => SOk (D_f64 bits)
  | T_ignored => SOk D_ignored
  | _ => SErr
  end.

(** core: [let mut iter = v.chars(); (iter.next(), iter.next())] is [(Some(c), None)]; on valid
    UTF-8. *)
Definition single_char (s : str) : option N :=
  match s with
  | [a] => if N.ltb (b2n a) 128 then Some (b2n a) else None
  | [a; b] => if N.leb 192 (b2n a) then Some ((b2n a - 192) * 64 + (b2n b - 128))%N else None
  | [a; b; c] =>
      if N.leb 224 (b2n a) then Some ((b2n a - 224) * 4096 + (b2n b - 128) * 64 + (b2n c - 128))%N
      else None
  | [a; b; c; d] =>
      if N.leb 240 (b2n a)
      then Some ((b2n a - 240) * 262144 + (b2n b - 128) * 4096 + (b2n c - 128) * 64 + (b2n d - 128))%N
      else None
  | _ => None
  end.

(** A string that lives shorter than the input. *)
Definition visit_str (t : target) (s : str) : sres data :=
  match t with
  | T_string | T_any => SOk (D_str s)
  | T_char => match single_char s with Some c => SOk (D_char c) | None => SErr end
  | T_ignored => SOk D_ignored
  | _ => SErr
  end.
(** An owned string: [String] takes it, the others use [visit_str] (serde's default). *)
Definition visit_string (t : target) (s : str) : sres data := visit_str t s.
(** A string borrowed from the input. *)
Definition visit_borrowed_str (t : target) (s : str) : sres data :=
  match t with
  | T_str => SOk (D_str s)
  | T_bytes => SOk (D_bytes s)
  | _ => visit_str t s
  end.
(** serde's default for [visit_char] is [visit_str] of its encoding. *)
Definition visit_char (t : target) (c : N) : sres data :=
  match t with
  | T_char | T_any => SOk (D_char c)
  | _ => visit_str t (enc_char c)
  end.
Definition visit_unit (t : target) : sres data :=
  match t with
  | T_unit | T_any => SOk D_unit
  | T_option _ => SOk D_none
  | T_ignored => SOk D_ignored
  | _ => SErr
  end.
Definition visit_none (t : target) : sres data :=
  match t with
  | T_option _ | T_any => SOk D_none
  | T_ignored => SOk D_ignored
  | _ => SErr
  end.

(** ** Sequences *)

(** A deserializer of one value, handed to a seed: what it returns for each target type. *)
Definition de := target -> sres data.
(** serde: [visit_some(d)]: [T::deserialize(d)]. *)
Definition visit_some (t : target) (d : de) : sres data :=
  match t with
  | T_option t => sres_map D_some (d t)
  | T_any => sres_map D_some (d T_any)
  | T_ignored => sres_map (fun _ => D_ignored) (d T_ignored)
  | _ => SErr
  end.

(** [ArrayDeserializer] (value/mod.rs 82-97) and [ListDeserializer] (object.rs 191-208); the
    iterator is the list of the remaining items, each with its [ValueDeserializer]. *)
Inductive seq_access :=
| SA_array (iter : list de) (count : N)
| SA_list (array : list de) (array_count count size : N).

(** value/mod.rs 144-163: [next_element_seed] of [ArrayDeserializer]. *)
Definition array_next (t : target) (iter : list de) (count : N) : sres (option data * (list de * N)) :=
  match iter with
  | object :: iter => let# d := object t in SOk (Some d, (iter, count + 1)%N)
  | [] => SOk (None, ([], count))
  end.

(** value/mod.rs 144-163, object.rs 254-270: [next_element_seed]. *)
Definition next_element (t : target) (sa : seq_access) : sres (option data * seq_access) :=
  match sa with
  | SA_array iter count =>
      let# (r, (iter, count)) := array_next t iter count in SOk (r, SA_array iter count)
  | SA_list array array_count count size =>
      if N.ltb count size then
        let# (r, (array, array_count)) := array_next t array array_count in
        SOk (r, SA_list array array_count (count + 1)%N size)
      else SOk (None, sa)
  end.

(** value/mod.rs 107-117, object.rs 218-227: [end]. *)
Definition seq_end (sa : seq_access) : sres unit :=
  match sa with
  | SA_array iter _ => if N.eqb (N.of_nat (length iter)) 0 then SOk tt else SErr
  | SA_list _ _ count size => if N.eqb count size then SOk tt else SErr
  end.

(** The number of calls of [next_element] after which it answers [None]: bound of the loop. *)
Definition seq_fuel (sa : seq_access) : nat :=
  match sa with SA_array iter _ | SA_list iter _ _ _ => S (length iter) end.

(** serde: [while let Some(value) = seq.next_element()? { values.push(value) }]. *)
Fixpoint seq_loop (fuel : nat) (t : target) (sa : seq_access) : sres (list data * seq_access) :=
  match fuel with
  | O => SErr
  | S fuel =>
      let# (r, sa) := next_element t sa in
      match r with
      | Some d => let# (ds, sa) := seq_loop fuel t sa in SOk (d :: ds, sa)
      | None => SOk ([], sa)
      end
  end.
(** serde: one [next_element] per component, a missing one is an error. *)
Fixpoint seq_each (ts : list target) (sa : seq_access) : sres (list data * seq_access) :=
  match ts with
  | [] => SOk ([], sa)
  | t :: ts =>
      let# (r, sa) := next_element t sa in
      match r with
      | Some d => let# (ds, sa) := seq_each ts sa in SOk (d :: ds, sa)
      | None => SErr
      end
  end.

(** [visit_seq] of the visitors; derived structs take their fields in order. *)
Definition visit_seq (t : target) (sa : seq_access) : sres (data * seq_access) :=
  match t with
  | T_vec t => let# (ds, sa) := seq_loop (seq_fuel sa) t sa in SOk (D_seq ds, sa)
  | T_tuple ts => let# (ds, sa) := seq_each ts sa in SOk (D_seq ds, sa)
  | T_struct fs =>
      let# (ds, sa) := seq_each (map snd fs) sa in SOk (D_struct (zip (map fst fs) ds), sa)
  | T_newtype t =>
      let# (r, sa) := next_element t sa in
      match r with Some d => SOk (D_newtype d, sa) | None => SErr end
  | T_any => let# (ds, sa) := seq_loop (seq_fuel sa) T_any sa in SOk (D_seq ds, sa)
  | T_ignored => let# (_, sa) := seq_loop (seq_fuel sa) T_ignored sa in SOk (D_ignored, sa)
  | _ => SErr
  end.

(** value/mod.rs 127-134, object.rs 237-244: [deserialize_any] of both: [visit_seq], [end]. *)
Definition seq_deserialize_any (sa : seq_access) : de := fun t =>
  let# (v, sa) := visit_seq t sa in
  let# _u := seq_end sa in
  SOk v.

(** ** Maps *)

(** serde: [MapDeserializer], the remaining entries.  The entries of a [HashMap] come in the
    order of the list; C49 shows that the order does not matter. *)
Definition map_access := list (str * de).

(** BTreeMap::insert with the order of byte strings. *)
Fixpoint str_leb (a b : str) : bool :=
  match a, b with
  | [], _ => true
  | _ :: _, [] => false
  | x :: a, y :: b => if N.eqb (b2n x) (b2n y) then str_leb a b else N.ltb (b2n x) (b2n y)
  end.
Fixpoint bt_insert {V} (k : str) (v : V) (m : list (str * V)) : list (str * V) :=
  match m with
  | [] => [(k, v)]
  | (k', v') :: m' =>
      if str_eqb k k' then (k', v) :: m'
      else if str_leb k k' then (k, v) :: m else (k', v') :: bt_insert k v m'
  end.

(** serde: [while let Some((key, value)) = map.next_entry()? { values.insert(key, value) }]. *)
Fixpoint map_loop (t : target) (ma : map_access) (m : list (str * data)) : sres (list (str * data)) :=
  match ma with
  | [] => SOk m
  | (k, d) :: ma => let# v := d t in map_loop t ma (bt_insert k v m)
  end.

(** serde derive: [while let Some(key) = map.next_key()? { match key { .. } }]: a known field is
    stored unless it is already there, the value of an unknown one is read as [IgnoredAny]. *)
Fixpoint struct_loop (fs : list (str * target)) (ma : map_access) (m : list (str * data))
    : sres (list (str * data)) :=
  match ma with
  | [] => SOk m
  | (k, d) :: ma =>
      match hm_get k fs with
      | Some t =>
          match hm_get k m with
          | Some _ => SErr
          | None => let# v := d t in struct_loop fs ma ((k, v) :: m)
          end
      | None => let# _v := d T_ignored in struct_loop fs ma m
      end
  end.

(** serde: [missing_field]: [None] for an [Option], an error for anything else. *)
Definition missing_field (t : target) : sres data :=
  match t with T_option _ => SOk D_none | _ => SErr end.

(** serde derive: the fields are put together in the order of their declaration. *)
Fixpoint struct_build (fs : list (str * target)) (m : list (str * data)) : sres (list (str * data)) :=
  match fs with
  | [] => SOk []
  | (k, t) :: fs =>
      let# v := match hm_get k m with Some v => SOk v | None => missing_field t end in
      let# l := struct_build fs m in
      SOk ((k, v) :: l)
  end.

(** [IgnoredAny]: reads all entries. *)
Fixpoint ignore_loop (ma : map_access) : sres unit :=
  match ma with
  | [] => SOk tt
  | (_, d) :: ma => let# _v := d T_ignored in ignore_loop ma
  end.

(** [visit_map] of the visitors.  All of them read all entries, so that [MapDeserializer::end]
    succeeds. *)
Definition visit_map (t : target) (ma : map_access) : sres data :=
  match t with
  | T_map t => let# m := map_loop t ma [] in SOk (D_map m)
  | T_any => let# m := map_loop T_any ma [] in SOk (D_map m)
  | T_struct fs =>
      let# m := struct_loop fs ma [] in
      let# l := struct_build fs m in
      SOk (D_struct l)
  | T_ignored => let# _u := ignore_loop ma in SOk D_ignored
  | _ => SErr
  end.

(** serde: [MapDeserializer::deserialize_any]. *)
Definition map_deserialize_any (ma : map_access) : de := fun t => visit_map t ma.

(** ** Objects *)

(** data_type/mod.rs 86-118: the visitor of the wrapper types [Boolean], [Byte], ... over a map:
    exactly one entry, named "m_value", read as the primitive type. *)
Definition wrapper (prim : target) (ma : map_access) : sres data :=
  if N.eqb (N.of_nat (length ma)) 1 then
    match ma with
    | (k, d) :: rest =>
        let# n := d prim in
        if str_eqb k (lit "m_value") then
          match rest with
          | [] => SOk n
          | (_, d') :: _ => let# _n := d' prim in SErr
          end
        else SErr
    | [] => SErr
    end
  else SErr.

(** object.rs 85-87: [class.split_once('`')], the part before the first backquote. *)
Fixpoint class_name (class : str) : str :=
  match class with
  | [] => []
  | b :: class => if N.eqb (b2n b) 96 then [] else b :: class_name class
  end.

(** Reads the primitive a visitor event hands over. *)
Definition visit_primitive (t : target) (d : data) : sres data :=
  match d with
  | D_bool b => visit_bool t b
  | D_int z => visit_int t z
  | D_f32 n => visit_f32 t n
  | D_f64 n => visit_f64 t n
  | D_char c => visit_char t c
  | _ => SErr
  end.

(** object.rs 90-137: the system classes that stand for a primitive, with the type of it. *)
Definition wrapper_classes : list (str * target) :=
  [ (lit "System.Boolean", T_bool); (lit "System.Byte", T_int U8); (lit "System.SByte", T_int I8);
    (lit "System.Char", T_char); (lit "System.Double", T_f64); (lit "System.Single", T_f32);
    (lit "System.Int32", T_int I32); (lit "System.UInt32", T_int U32); (lit "System.Int64", T_int I64);
    (lit "System.UInt64", T_int U64); (lit "System.Int16", T_int I16); (lit "System.UInt16", T_int U16) ].

(** object.rs 142-143: [members.get("_items")] if it is an array, with the deserializers [f] of
    its items. *)
Definition items_of {A} (f : value -> A) := fix items_of (ms : list (str * value)) : option (list A) :=
  match ms with
  | [] => None
  | (k, v) :: ms =>
      if str_eqb (lit "_items") k then match v with VArray items => Some (map f items) | _ => None end
      else items_of ms
  end.
(** object.rs 142-143: [members.get(k)] if it is an Int32. *)
Definition int32_of (k : str) (ms : list (str * value)) : option Z :=
  match hm_get k ms with Some (VInt32 z) => Some z | _ => None end.

(** [i32 as usize] on a 64-bit machine. *)
Definition i32_as_usize (z : Z) : N := Z.to_N (z mod 2 ^ 64).

(** The entries of an object with their [ValueDeserializer]s. *)
Definition entries (f : value -> de) (ms : list (str * value)) : map_access :=
  map (fun kv => (kv.1, f kv.2)) ms.

(** object.rs 65-153: [ObjectDeserializer::deserialize_any]; [f] makes the deserializer of a
    member value. *)
Definition object_deserialize_any (f : value -> de) (o : obj value) : de := fun t =>
  let 'mkObj class library members := o in
  match library with
  | Some _ => map_deserialize_any (entries f members) t
  | None =>
      match hm_get (class_name class) wrapper_classes with
      | Some prim => let# v := wrapper prim (entries f members) in visit_primitive t v
      | None =>
          if str_eqb (class_name class) (lit "System.Collections.Generic.List") then
            if N.eqb (N.of_nat (length members)) 3 then
              match items_of f members, int32_of (lit "_size") members, int32_of (lit "_version") members with
              | Some items, Some size, Some _ => seq_deserialize_any (SA_list items 0 0 (i32_as_usize size)) t
              | _, _, _ => SErr
              end
            else SErr
          else map_deserialize_any (entries f members) t
      end
  end.

(** ** Values *)

(** value/mod.rs 189-214: [ValueDeserializer::deserialize_any]; [f] makes the deserializer of an
    inner value. *)
Definition value_deserialize_any (f : value -> de) (v : value) : de := fun t =>
  match v with
  | VObject o => object_deserialize_any f o t
  | VArray members => seq_deserialize_any (SA_array (map f members) 0) t
  | VBoolean b => visit_bool t b
  | VSByte z | VInt16 z | VInt32 z | VInt64 z => visit_int t z
  | VByte n | VUInt16 n | VUInt32 n | VUInt64 n => visit_int t (Z.of_N n)
  | VSingle n => visit_f32 t n
  | VDouble n => visit_f64 t n
  | VChar c => visit_char t c
  | VDecimal d => visit_string t (dec_to_string d)
  | VTimeSpan z | VDateTime z => visit_int t z
  | VString s => visit_borrowed_str t s
  | VNull => visit_unit t
  end.

(** object.rs 155-171: [ObjectDeserializer::deserialize_struct]: always a map. *)
Definition object_deserialize_struct (f : value -> de) (members : list (str * value)) : de := fun t =>
  map_deserialize_any (entries f members) t.

(** value/mod.rs 223-237: [ValueDeserializer::deserialize_struct]. *)
Definition value_deserialize_struct (f : value -> de) (v : value) : de := fun t =>
  match v with
  | VObject o => object_deserialize_struct f (obj_members o) t
  | _ => value_deserialize_any f v t
  end.

(** value/mod.rs 216-221: [deserialize_option]; [self] is the deserializer itself. *)
Definition value_deserialize_option (self : de) (v : value) : de := fun t =>
  match v with
  | VNull => visit_none t
  | _ => visit_some t self
  end.

(** serde: [T::deserialize(ValueDeserializer::new(v))].  [Option] calls [deserialize_option], a
    derived struct [deserialize_struct]; every other method is forwarded to [deserialize_any]
    (value/mod.rs 239-244). *)
Fixpoint value_deserialize (v : value) : de :=
  fix self (t : target) : sres data :=
    match t with
    | T_option t' =>
        match v with
        | VNull => visit_none t
        | _ => sres_map D_some (self t')
        end
    | T_struct _ => value_deserialize_struct value_deserialize v t
    | _ => value_deserialize_any value_deserialize v t
    end.

(** The case of [Option] above is [value_deserialize_option], written out for Coq's check that the
    recursion ends. *)
Lemma value_deserialize_eq v t :
  value_deserialize v t =
  match t with
  | T_option _ => value_deserialize_option (value_deserialize v) v t
  | T_struct _ => value_deserialize_struct value_deserialize v t
  | _ => value_deserialize_any value_deserialize v t
  end.
Proof. destruct t, v; reflexivity. Qed.

(** ** Messages *)

(** remoting_message.rs 80-120: a method call or return is an error; [deserialize_option] is
    forwarded to [deserialize_any]. *)
Definition message_deserialize (m : message) : de := fun t =>
  match m with
  | MMethodCall _ | MMethodReturn _ => SErr
  | MValue v =>
      match t with
      | T_struct _ => value_deserialize_struct value_deserialize v t
      | _ => value_deserialize_any value_deserialize v t
      end
  end.

(** lib.rs 49-55: [from_slice]. *)
Inductive slice_outcome :=
| FOk (d : data)
| FErr_parse (e : error)   (* "parsing error: .." *)
| FErr                     (* any other deserialisation error *)
| FPanic (p : panic_site)
| FDiverge.
Definition from_slice (t : target) (bytes : bytes) : slice_outcome :=
  match deserialize bytes with
  | POk m => match message_deserialize m t with SOk d => FOk d | SErr => FErr end
  | PErr e => FErr_parse e
  | PPanic p => FPanic p
  | PDiverge => FDiverge
  end.

End with_libs.
