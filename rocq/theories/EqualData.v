(** * EqualData: when two results of [from_slice] are equal.

    Specification only: Rust's [==] on the results, as in EqualitySpec.v on values. *)
From Verif Require Import Base Value Spec Serde EqualitySpec.

Inductive equal_data : data -> data -> Prop :=
| ED_same d : match d with
              | D_bool _ | D_int _ | D_char _ | D_str _ | D_bytes _ | D_unit | D_none | D_ignored => True
              | _ => False
              end -> equal_data d d
| ED_f32 a b : same_number single_number a b -> equal_data (D_f32 a) (D_f32 b)
| ED_f64 a b : same_number double_number a b -> equal_data (D_f64 a) (D_f64 b)
| ED_some d e : equal_data d e -> equal_data (D_some d) (D_some e)
| ED_newtype d e : equal_data d e -> equal_data (D_newtype d) (D_newtype e)
| ED_seq ds es : Forall2 equal_data ds es -> equal_data (D_seq ds) (D_seq es)
| ED_map m n : Forall2 (fun a b => a.1 = b.1 /\ equal_data a.2 b.2) m n -> equal_data (D_map m) (D_map n)
| ED_struct m n : Forall2 (fun a b => a.1 = b.1 /\ equal_data a.2 b.2) m n -> equal_data (D_struct m) (D_struct n).

(** Rust's [as] casts take equal floats to equal floats, and integers to floats, not to NaN. *)
Definition casts_keep_equality {FL : FloatLib} : Prop :=
  (forall a b, same_number double_number a b -> same_number single_number (f64_as_f32 a) (f64_as_f32 b))
  /\ (forall a b, same_number single_number a b -> same_number double_number (f32_as_f64 a) (f32_as_f64 b))
  /\ (forall z, exists x, single_number (int_as_f32 z) = Some x)
  /\ (forall z, exists x, double_number (int_as_f64 z) = Some x).

(** Decimals that are equal numbers are written alike (not: 1.0 and 1.00). *)
Definition decimals_alike {DL : DecimalLib} (m m' : message) : Prop :=
  forall a b, value_in (VDecimal a) m -> value_in (VDecimal b) m' -> same_decimal a b ->
    dec_to_string a = dec_to_string b.
