(** * Spec: definitions used to state the properties.

    Specification only: nothing here mentions the parser. *)
From Verif Require Import Base Value Wire.

(** ** What a message contains *)

(** [v] is [w] or lies somewhere inside [w]. *)
Inductive sub_value (v : value) : value -> Prop :=
| sub_here : sub_value v v
| sub_member o k w : (k, w) ∈ obj_members o -> sub_value v w -> sub_value v (VObject o)
| sub_element vs w : w ∈ vs -> sub_value v w -> sub_value v (VArray vs).

(** The strings a value carries itself: its text, its class, library and member names. *)
Definition own_strings (v : value) : list str :=
  match v with
  | VString s => [s]
  | VObject o =>
      obj_class o :: match obj_library o with Some l => [l] | None => [] end
                  ++ map fst (obj_members o)
  | _ => []
  end.

Definition opt_list {A} (o : option A) : list A := match o with Some a => [a] | None => [] end.

(** The values and the strings a message consists of. *)
Definition message_values (m : message) : list value :=
  match m with
  | MValue v => [v]
  | MMethodCall c => default [] (mc_args c)
  | MMethodReturn r => opt_list (mr_return_value r) ++ default [] (mr_args r)
  end.
Definition message_strings (m : message) : list str :=
  match m with
  | MValue _ => []
  | MMethodCall c => mc_method_name c :: mc_type_name c :: opt_list (mc_call_context c)
  | MMethodReturn r => opt_list (mr_call_context r)
  end.

Definition value_in (v : value) (m : message) : Prop :=
  exists w, w ∈ message_values m /\ sub_value v w.
Definition string_in (s : str) (m : message) : Prop :=
  s ∈ message_strings m \/ exists v, value_in v m /\ s ∈ own_strings v.

(** [s] is a contiguous part of [W]. *)
Definition slice_of (s W : bytes) : Prop := exists p q, W = p ++ s ++ q.

(** [i] is the beginning of a library record whose remaining bytes are missing. *)
Definition cut_library (i : bytes) : Prop :=
  i <> [] /\ exists id name t, t <> [] /\ e_library_record id name (i ++ t).
(** Nowhere in [body] a library record begins that the end of [body] cuts off. *)
Definition no_cut_library (body : bytes) : Prop := forall p i, body = p ++ i -> ~ cut_library i.

(** Values within the range of their type; objects with pairwise different member names. *)
Definition in_type_range (v : value) : Prop :=
  match v with
  | VObject o => NoDup (map fst (obj_members o))
  | VByte n => (n < 2 ^ 8)%N
  | VChar c => scalar c /\ (c < 256)%N
  | VDouble n | VUInt64 n => (n < 2 ^ 64)%N
  | VSingle n | VUInt32 n => (n < 2 ^ 32)%N
  | VUInt16 n => (n < 2 ^ 16)%N
  | VSByte z => (- 2 ^ 7 <= z < 2 ^ 7)%Z
  | VInt16 z => (- 2 ^ 15 <= z < 2 ^ 15)%Z
  | VInt32 z => (- 2 ^ 31 <= z < 2 ^ 31)%Z
  | VInt64 z | VTimeSpan z | VDateTime z => (- 2 ^ 63 <= z < 2 ^ 63)%Z
  | VArray _ | VBoolean _ | VDecimal _ | VString _ | VNull => True
  end.

(** ** Messages *)

(** The first record of every message. *)
Definition header_bytes (root : N) (header_id : Z) : bytes :=
  x00 :: enc_uint 4 root ++ enc_int 4 header_id ++ enc_int 4 1 ++ enc_int 4 0.

(** The canonical (shortest) form of a length prefix. *)
Fixpoint leb128_aux (fuel : nat) (n : N) : bytes :=
  match fuel with
  | O => []
  | S fuel => if N.ltb n 128 then [n2b n] else n2b (128 + n mod 128) :: leb128_aux fuel (n / 128)
  end.
Definition leb128 (n : N) : bytes := leb128_aux 5 n.

