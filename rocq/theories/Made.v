(** * Made: the values that a Rust program can make itself.

    Specification only. *)
From Verif Require Import Base Utf8 Value Wire Spec.

(** The fields of a Rust [Value] are in the range of their types, the keys of a [HashMap] are
    pairwise different, a [char] is any Unicode scalar value, a [str] is UTF-8. *)
Definition rust_range (v : value) : Prop :=
  match v with
  | VObject o => NoDup (map fst (obj_members o))
  | VByte n => (n < 2 ^ 8)%N
  | VChar c => scalar c
  | VDouble n | VUInt64 n => (n < 2 ^ 64)%N
  | VSingle n | VUInt32 n => (n < 2 ^ 32)%N
  | VUInt16 n => (n < 2 ^ 16)%N
  | VSByte z => (- 2 ^ 7 <= z < 2 ^ 7)%Z
  | VInt16 z => (- 2 ^ 15 <= z < 2 ^ 15)%Z
  | VInt32 z => (- 2 ^ 31 <= z < 2 ^ 31)%Z
  | VInt64 z | VTimeSpan z | VDateTime z => (- 2 ^ 63 <= z < 2 ^ 63)%Z
  | VArray _ | VBoolean _ | VDecimal _ | VString _ | VNull => True
  end.
Definition rust_value (v : value) : Prop :=
  forall w, sub_value w v -> rust_range w /\ forall s, s ∈ own_strings w -> utf8 s.
