(** * Received: which Rust values can come out of a message (specification for property C73). *)
From Verif Require Import Base Utf8 Value Wire Serde.

(** [inside x d]: [x] is [d], or inside of it. *)
Inductive inside (x : data) : data -> Prop :=
| inside_here : inside x x
| inside_some d : inside x d -> inside x (D_some d)
| inside_newtype d : inside x d -> inside x (D_newtype d)
| inside_seq d ds : d ∈ ds -> inside x d -> inside x (D_seq ds)
| inside_map k d m : (k, d) ∈ m -> inside x d -> inside x (D_map m)
| inside_struct k d l : (k, d) ∈ l -> inside x d -> inside x (D_struct l).

(** What the format has no values for: integers beyond 64 bits, bytes that are no text, and
    [Some] of something that is itself read from null. *)
Definition has_source (d : data) : Prop :=
  (forall z, inside (D_int z) d -> (- 2 ^ 63 <= z < 2 ^ 64)%Z)
  /\ (forall s, inside (D_bytes s) d -> utf8 s)
  /\ ~ inside (D_some D_none) d /\ ~ inside (D_some D_unit) d.

(** Floats are 32 and 64 bits; lengths are below 2^31. *)
Definition short {A} (l : list A) : Prop := (N.of_nat (length l) < 2 ^ 31)%N.
Definition fits (x : data) : Prop :=
  match x with
  | D_f32 n => (n < 2 ^ 32)%N
  | D_f64 n => (n < 2 ^ 64)%N
  | D_str s | D_bytes s => short s
  | D_seq ds => short ds
  | D_map m => short m /\ forall k d, (k, d) ∈ m -> short k
  | D_struct l => short l
  | _ => True
  end.
Definition data_small (d : data) : Prop := forall x, inside x d -> fits x.
