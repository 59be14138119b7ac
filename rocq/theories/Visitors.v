(** * Visitors: [from_slice::<T>] for an arbitrary implementation of [Deserialize].

    Models value/mod.rs 66-245, value/object.rs 29-271, remoting_message.rs 80-120 and lib.rs 49-55
    once more.  Serde.v fixes a universe of target types; here the target type is arbitrary: an
    implementation of [Deserialize] is a value of [impl], that is, whatever can be programmed
    against serde's traits.  The deserializers of the crate are those of Serde.v, with their
    internal counters, because a hand-written visitor may go on after an error.

    Of serde itself, as in Serde.v: [MapDeserializer], [BorrowedStrDeserializer] and
    [StrDeserializer], and here also the texts of its errors (serde 1.0, from its documentation).
    What a visitor does besides calling the deserializers is not looked into: it is a function to
    the next thing it does.  *)
From Verif Require Import Base Utf8 Value DataTypes Records Parser Serde Display.
From Coq Require Strings.String Numbers.DecimalString.
Import String.StringSyntax.

(** ** Results with error texts *)

(** [Result<T, serde::de::value::Error>]: such an error is its text. *)
Inductive tres (A : Type) := TOk (a : A) | TErr (text : str).
Arguments TOk {A} _.
Arguments TErr {A} _.
Definition tres_bind {A B} (r : tres A) (f : A -> tres B) : tres B :=
  match r with TOk a => f a | TErr e => TErr e end.
Definition tres_map {A B} (f : A -> B) (r : tres A) : tres B := tres_bind r (fun a => TOk (f a)).
Notation "'let$' a ':=' r 'in' k" := (tres_bind r (fun a => k))
  (at level 200, a pattern, r at level 100, k at level 200).

(** core: [Display] of [usize]. *)
Definition usize_text (n : N) : str :=
  String.list_byte_of_string (DecimalString.NilEmpty.string_of_uint (N.to_uint n)).
(** serde: [Error::invalid_length] and [Error::invalid_type]. *)
Definition invalid_length (len : N) (expected : str) : str :=
  lit "invalid length " ++ usize_text len ++ lit ", expected " ++ expected.
Definition invalid_type (unexpected expected : str) : str :=
  lit "invalid type: " ++ unexpected ++ lit ", expected " ++ expected.
(** value/mod.rs 67-80: [ExpectedInArray]. *)
Definition expected_in_array (n : N) : str :=
  if N.eqb n 1 then lit "1 element in array" else usize_text n ++ lit " elements in array".
(** object.rs 173-186: [ExpectedInList]. *)
Definition expected_in_list (n : N) : str :=
  if N.eqb n 1 then lit "1 element in list" else usize_text n ++ lit " elements in list".
(** serde: [ExpectedInMap]. *)
Definition expected_in_map (n : N) : str :=
  if N.eqb n 1 then lit "1 element in map" else usize_text n ++ lit " elements in map".

(** The text of the error of reading a value as a primitive type (with serde's own implementation)
    if this fails.  Every theorem is quantified over it. *)
Class TextLib := { primitive_text : target -> value -> str }.

(** The methods of [Deserializer] an implementation may call, as far as the crate's deserializers
    tell them apart; all others are forwarded to [deserialize_any]
    ([forward_to_deserialize_any!]). *)
Inductive method := M_any | M_option | M_struct | M_enum.

(** What a computation that may not end, or panic, results in. *)
Inductive out (A : Type) := Done (a : A) | Panicked | Running.
Arguments Done {A} _.
Arguments Panicked {A}.
Arguments Running {A}.
Definition out_bind {A B} (r : out A) (f : A -> out B) : out B :=
  match r with Done a => f a | Panicked => Panicked | Running => Running end.
Notation "'let@' a ':=' r 'in' k" := (out_bind r (fun a => k))
  (at level 200, a pattern, r at level 100, k at level 200).

(** ** Implementations of [Deserialize] *)

Section impl.
(** [U]: the values of all Rust types that take part.  [Ty]: names for implementations of
    [Deserialize] (or [DeserializeSeed]); they may refer to each other, and to themselves.  [St]:
    the states of visitors that are reading a sequence or a map. *)
Context {U Ty St : Type}.

(** What a visitor does next in [visit_seq]: return, or ask for an element and go on with the
    answer, which may be an error. *)
Inductive seq_action :=
| Q_return (r : tres U)
| Q_next (t : Ty) (k : tres (option U) -> St).

(** The same in [visit_map]: [next_key], [next_value], [next_entry]. *)
Inductive map_action :=
| P_return (r : tres U)
| P_key (t : Ty) (k : tres (option U) -> St)
| P_value (t : Ty) (k : tres U -> St)
| P_entry (tk tv : Ty) (k : tres (option (U * U)) -> St).

(** [visit_some(d)]: return, or deserialize [d] (once) and go on. *)
Inductive some_action :=
| O_return (r : tres U)
| O_read (t : Ty) (k : tres U -> tres U).

(** A [Visitor]: its methods.  [on_map] gets the [size_hint].  [on_some] is also used for
    [visit_enum] ([on_enum]) of a string: reading the variant; the contents of a variant that is
    given by a string are fixed ([unit_variant] succeeds, everything else is an error). *)
Record visitor := mkVisitor {
  expecting : str;
  on_bool : bool -> tres U;
  on_int : int_type -> Z -> tres U;        (* visit_i8 .. visit_u64 *)
  on_f32 : N -> tres U;
  on_f64 : N -> tres U;
  on_char : N -> tres U;
  on_str : str -> tres U;
  on_string : str -> tres U;
  on_borrowed_str : str -> tres U;
  on_unit : tres U;
  on_none : tres U;
  on_some : some_action;
  on_enum : some_action;
  on_seq : St;
  on_map : N -> St;
}.

(** [T::deserialize(d)]: either it does not look at [d], or it calls one method of [d] with a
    visitor and does something with the result. *)
Inductive impl :=
| I_skip (r : tres U)
| I_call (m : method) (vis : visitor) (post : tres U -> tres U).

(** All types, and all visitors while they are reading. *)
Record world := mkWorld {
  w_impl : Ty -> impl;
  w_seq : St -> seq_action;
  w_map : St -> map_action;
}.
End impl.
Arguments seq_action : clear implicits.
Arguments map_action : clear implicits.
Arguments some_action : clear implicits.
Arguments visitor : clear implicits.
Arguments impl : clear implicits.
Arguments world : clear implicits.

Section with_libs.
Context {DL : DecimalLib} {FL : FloatLib} {TL : TextLib}.
Context {U Ty St : Type} (W : world U Ty St).

(** ** Keys *)

(** serde: [T::deserialize] of a [BorrowedStrDeserializer] ([borrowed]) or [StrDeserializer]:
    [visit_borrowed_str] or [visit_str], whatever the method, except for [deserialize_enum]. *)
Fixpoint key_run (fuel : nat) (borrowed : bool) (s : str) (t : Ty) : out (tres U) :=
  match w_impl W t with
  | I_skip r => Done r
  | I_call M_enum vis post =>
      match on_enum vis with
      | O_return r => Done (post r)
      | O_read t' k =>
          match fuel with
          | O => Running
          | S fuel => let@ r := key_run fuel borrowed s t' in Done (post (k r))
          end
      end
  | I_call _ vis post => Done (post (if borrowed then on_borrowed_str vis s else on_str vis s))
  end.

Section deserializers.
(** [T::deserialize(ValueDeserializer::new(v))] for inner values. *)
Context (rec : value -> Ty -> out (tres U)).

(** ** Sequences *)

(** [visit_seq(&mut ArrayDeserializer)] (value/mod.rs 82-97, 144-163).  The iterator has moved on
    even if the element could not be read.  The result comes with the deserializer. *)
Fixpoint array_run (fuel : nat) (st : St) (iter : list value) (count : N)
  : out (tres U * (list value * N)) :=
  match fuel with
  | O => Running
  | S fuel =>
      match w_seq W st with
      | Q_return r => Done (r, (iter, count))
      | Q_next t k =>
          match iter with
          | object :: iter =>
              let@ r := rec object t in array_run fuel (k (tres_map Some r)) iter (count + 1)%N
          | [] => array_run fuel (k (TOk None)) [] count
          end
      end
  end.

(** value/mod.rs 107-117 and 127-134: [deserialize_any] of [ArrayDeserializer]: [visit_seq], [end]. *)
Definition array_any (fuel : nat) (vis : visitor U Ty St) (vs : list value) : out (tres U) :=
  let@ (r, (iter, count)) := array_run fuel (on_seq vis) vs 0 in
  let remaining := N.of_nat (length iter) in
  Done (let$ u := r in
        if N.eqb remaining 0 then TOk u
        else TErr (invalid_length (count + remaining) (expected_in_array count))).

(** [visit_seq(&mut ListDeserializer)] (object.rs 191-208, 254-270).  The count only moves on if
    the element could be read, or if there is none. *)
Fixpoint list_run (fuel : nat) (st : St) (iter : list value) (count size : N)
  : out (tres U * N) :=
  match fuel with
  | O => Running
  | S fuel =>
      match w_seq W st with
      | Q_return r => Done (r, count)
      | Q_next t k =>
          if N.ltb count size then
            match iter with
            | object :: iter =>
                let@ r := rec object t in
                match r with
                | TOk u => list_run fuel (k (TOk (Some u))) iter (count + 1)%N size
                | TErr e => list_run fuel (k (TErr e)) iter count size
                end
            | [] => list_run fuel (k (TOk None)) [] (count + 1)%N size
            end
          else list_run fuel (k (TOk None)) iter count size
      end
  end.

(** object.rs 218-227 and 237-244: [deserialize_any] of [ListDeserializer]. *)
Definition list_any (fuel : nat) (vis : visitor U Ty St) (vs : list value) (size : N) : out (tres U) :=
  let@ (r, count) := list_run fuel (on_seq vis) vs 0 size in
  Done (let$ u := r in
        if N.eqb count size then TOk u else TErr (invalid_length size (expected_in_list count))).

(** ** Maps *)

(** serde: [visit_map(&mut MapDeserializer)]: the remaining entries, and the value that belongs to
    the last key. *)
Fixpoint map_run (fuel : nat) (borrowed : bool) (st : St) (iter : list (str * value))
  (pending : option value) : out (tres U * list (str * value)) :=
  match fuel with
  | O => Running
  | S fuel =>
      match w_map W st with
      | P_return r => Done (r, iter)
      | P_key t k =>
          match iter with
          | (key, v) :: iter =>
              let@ r := key_run fuel borrowed key t in
              map_run fuel borrowed (k (tres_map Some r)) iter (Some v)
          | [] => map_run fuel borrowed (k (TOk None)) [] pending
          end
      | P_value t k =>
          match pending with
          | Some v => let@ r := rec v t in map_run fuel borrowed (k r) iter None
          | None => Panicked (* "MapAccess::next_value called before next_key" *)
          end
      | P_entry tk tv k =>
          match iter with
          | (key, v) :: iter =>
              let@ rk := key_run fuel borrowed key tk in
              match rk with
              | TErr e => map_run fuel borrowed (k (TErr e)) iter pending
              | TOk uk =>
                  let@ rv := rec v tv in
                  map_run fuel borrowed (k (tres_map (fun uv => Some (uk, uv)) rv)) iter pending
              end
          | [] => map_run fuel borrowed (k (TOk None)) [] pending
          end
      end
  end.

(** serde: [MapDeserializer::deserialize_map]: [visit_map], [end].  Its [count] is the number of
    entries that were taken. *)
Definition map_any (fuel : nat) (borrowed : bool) (vis : visitor U Ty St)
  (members : list (str * value)) : out (tres U) :=
  let len := N.of_nat (length members) in
  let@ (r, iter) := map_run fuel borrowed (on_map vis len) members None in
  let remaining := N.of_nat (length iter) in
  let count := (len - remaining)%N in
  Done (let$ u := r in
        if N.eqb remaining 0 then TOk u
        else TErr (invalid_length (count + remaining) (expected_in_map count))).

(** ** Objects *)

(** object.rs 90-137: the visitor gets the primitive in the type of the wrapper. *)
Definition primitive_run (vis : visitor U Ty St) (prim : target) (d : data) : tres U :=
  match prim, d with
  | T_bool, D_bool b => on_bool vis b
  | T_int k, D_int z => on_int vis k z
  | T_char, D_char c => on_char vis c
  | T_f32, D_f32 n => on_f32 vis n
  | T_f64, D_f64 n => on_f64 vis n
  | _, _ => TErr []
  end.

(** data_type/mod.rs 91, 23 ff.: [stringify!($ty)] for the primitive type of a wrapper. *)
Definition wrapper_type_name (prim : target) : str :=
  match prim with
  | T_bool => lit "Boolean" | T_char => lit "Char" | T_f64 => lit "Double" | T_f32 => lit "Single"
  | T_int U8 => lit "Byte" | T_int I8 => lit "Int8" | T_int I16 => lit "Int16" | T_int U16 => lit "UInt16"
  | T_int I32 => lit "Int32" | T_int U32 => lit "UInt32" | T_int I64 => lit "Int64" | T_int U64 => lit "UInt64"
  | _ => []
  end.

(** data_type/mod.rs 101-117: the text of the error of [wrapper] (Serde.v): that of the first entry's
    value if there is exactly one entry, otherwise, or if only its name is wrong, the one of the
    wrapper type. *)
Definition wrapper_error (prim : target) (members : list (str * value)) : str :=
  let not_this := invalid_type (lit "map") (wrapper_type_name prim) in
  match members with
  | [(_, v)] => match value_deserialize v prim with SOk _ => not_this | SErr => primitive_text prim v end
  | _ => not_this
  end.

(** object.rs 65-153: [ObjectDeserializer::deserialize_any]. *)
Definition object_any (fuel : nat) (vis : visitor U Ty St) (o : obj value) : out (tres U) :=
  let 'mkObj class library members := o in
  match library with
  | Some _ => map_any fuel true vis members
  | None =>
      match hm_get (class_name class) wrapper_classes with
      | Some prim =>
          Done (match wrapper prim (entries value_deserialize members) with
                | SOk d => primitive_run vis prim d
                | SErr => TErr (wrapper_error prim members)
                end)
      | None =>
          if str_eqb (class_name class) (lit "System.Collections.Generic.List") then
            if N.eqb (N.of_nat (length members)) 3 then
              match hm_get (lit "_items") members, hm_get (lit "_size") members,
                    hm_get (lit "_version") members with
              | Some (VArray items), Some (VInt32 size), Some (VInt32 _) =>
                  list_any fuel vis items (i32_as_usize size)
              | _, _, _ => Done (TErr (lit "invalid system class: " ++ class_name class))
              end
            else Done (TErr (lit "invalid system class: " ++ class_name class))
          else map_any fuel true vis members
      end
  end.

(** ** Values *)

(** value/mod.rs 189-214: [ValueDeserializer::deserialize_any]. *)
Definition value_any (fuel : nat) (vis : visitor U Ty St) (v : value) : out (tres U) :=
  match v with
  | VObject o => object_any fuel vis o
  | VArray members => array_any fuel vis members
  | VBoolean b => Done (on_bool vis b)
  | VSByte z => Done (on_int vis I8 z)
  | VInt16 z => Done (on_int vis I16 z)
  | VInt32 z => Done (on_int vis I32 z)
  | VInt64 z => Done (on_int vis I64 z)
  | VByte n => Done (on_int vis U8 (Z.of_N n))
  | VUInt16 n => Done (on_int vis U16 (Z.of_N n))
  | VUInt32 n => Done (on_int vis U32 (Z.of_N n))
  | VUInt64 n => Done (on_int vis U64 (Z.of_N n))
  | VSingle n => Done (on_f32 vis n)
  | VDouble n => Done (on_f64 vis n)
  | VChar c => Done (on_char vis c)
  | VDecimal d => Done (on_string vis (dec_to_string d))
  | VTimeSpan z | VDateTime z => Done (on_int vis I64 z)
  | VString s => Done (on_borrowed_str vis s)
  | VNull => Done (on_unit vis)
  end.

(** value/mod.rs 223-237 and object.rs 155-171: [deserialize_struct]; the keys of the map are not
    borrowed. *)
Definition value_struct (fuel : nat) (vis : visitor U Ty St) (v : value) : out (tres U) :=
  match v with
  | VObject o => map_any fuel false vis (obj_members o)
  | _ => value_any fuel vis v
  end.

(** value/mod.rs 216-221: [deserialize_option]. *)
Definition value_option (vis : visitor U Ty St) (v : value) : out (tres U) :=
  match v with
  | VNull => Done (on_none vis)
  | _ =>
      match on_some vis with
      | O_return r => Done r
      | O_read t k => let@ r := rec v t in Done (k r)
      end
  end.
End deserializers.

(** [T::deserialize(ValueDeserializer::new(v))]. *)
Fixpoint value_run (fuel : nat) (v : value) (t : Ty) : out (tres U) :=
  match fuel with
  | O => Running
  | S fuel =>
      match w_impl W t with
      | I_skip r => Done r
      | I_call m vis post =>
          let@ r := match m with
                    | M_option => value_option (value_run fuel) vis v
                    | M_struct => value_struct (value_run fuel) fuel vis v
                    | M_any | M_enum => value_any (value_run fuel) fuel vis v
                    end in
          Done (post r)
      end
  end.

(** ** Messages *)

(** remoting_message.rs 80-120: [T::deserialize(message)]. *)
Definition message_run (fuel : nat) (m : message) (t : Ty) : out (tres U) :=
  match w_impl W t with
  | I_skip r => Done r
  | I_call meth vis post =>
      match m with
      | MMethodCall _ => Done (post (TErr (invalid_type (lit "method call") (expecting vis))))
      | MMethodReturn _ => Done (post (TErr (invalid_type (lit "method return") (expecting vis))))
      | MValue v =>
          let@ r := match meth with
                    | M_struct => value_struct (value_run fuel) fuel vis v
                    | _ => value_any (value_run fuel) fuel vis v
                    end in
          Done (post r)
      end
  end.

(** The members of an object are a [HashMap]: a visitor gets them in the order in which it happens
    to enumerate them. [order] is what the message looks like in that order. *)
Definition enumerated (order : value -> value) (m : message) : message :=
  match m with MValue v => MValue (order v) | _ => m end.

(** lib.rs 49-55: [from_slice]. *)
Inductive run_outcome :=
| R_returned (u : U)
| R_error (text : str)
| R_parse_panic (p : panic_site)
| R_panic                  (* in [next_value] *)
| R_running.
Definition from_slice_run (order : value -> value) (fuel : nat) (t : Ty) (bytes : bytes) : run_outcome :=
  match deserialize bytes with
  | POk m =>
      match message_run fuel (enumerated order m) t with
      | Done (TOk u) => R_returned u
      | Done (TErr e) => R_error e
      | Panicked => R_panic
      | Running => R_running
      end
  | PErr e => R_error (slice_error_text e)
  | PPanic p => R_parse_panic p
  | PDiverge => R_running
  end.
End with_libs.
Arguments run_outcome : clear implicits.
