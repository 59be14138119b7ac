(** * Widening: types that hold at least what others hold.

    Specification only: [widens t t'] is about the types of a Rust program, [widened d d'] about
    their values. *)
From Verif Require Import Base Utf8 Value Wire Serde SerdeSpec.

Section with_libs.
Context {FL : FloatLib}.

(** Types that null is never read as. *)
Definition never_null (t : target) : Prop :=
  match t with T_unit | T_option _ | T_ignored | T_any => False | _ => True end.

(** Types without structs inside. *)
Inductive structless : target -> Prop :=
| SL_option t : structless t -> structless (T_option t)
| SL_vec t : structless t -> structless (T_vec t)
| SL_map t : structless t -> structless (T_map t)
| SL_newtype t : structless t -> structless (T_newtype t)
| SL_tuple ts : Forall structless ts -> structless (T_tuple ts)
| SL_other t : match t with T_option _ | T_vec _ | T_map _ | T_newtype _ | T_tuple _ | T_struct _ => False | _ => True end ->
    structless t.

(** A program that reads a [t] may read a [t'] instead. *)
Inductive widens : target -> target -> Prop :=
| W_same t : widens t t
| W_int k k' : (forall z, in_int k z -> in_int k' z) -> widens (T_int k) (T_int k')
| W_int_f32 k : widens (T_int k) T_f32
| W_int_f64 k : widens (T_int k) T_f64
| W_float : widens T_f32 T_f64
| W_owned : widens T_str T_string
| W_char : widens T_char T_string
| W_bytes_str : widens T_bytes T_str
| W_bytes_string : widens T_bytes T_string
| W_some t t' : never_null t -> widens t t' -> widens t (T_option t')
| W_option t t' : widens t t' -> widens (T_option t) (T_option t')
| W_vec t t' : widens t t' -> widens (T_vec t) (T_vec t')
| W_map t t' : widens t t' -> widens (T_map t) (T_map t')
| W_newtype t t' : widens t t' -> widens (T_newtype t) (T_newtype t')
| W_tuple ts ts' : Forall2 widens ts ts' -> widens (T_tuple ts) (T_tuple ts')
| W_tuple_vec ts t' : Forall (fun t => widens t t') ts -> widens (T_tuple ts) (T_vec t')
(* fields of the same names, in the same order; optional fields stay optional *)
| W_struct fs fs' :
    Forall2 (fun f f' => f.1 = f'.1 /\ widens f.2 f'.2
                         /\ ((exists u, f.2 = T_option u) -> exists u, f'.2 = T_option u)) fs fs' ->
    widens (T_struct fs) (T_struct fs')
| W_ignored t : structless t -> widens t T_ignored.

(** It gets the same value, written in the other type. *)
Inductive widened : data -> data -> Prop :=
| WD_same d : widened d d
| WD_int_f32 z : widened (D_int z) (D_f32 (int_as_f32 z))
| WD_int_f64 z : widened (D_int z) (D_f64 (int_as_f64 z))
(* both from an integer, from a Single, from a Double *)
| WD_float_int z : widened (D_f32 (int_as_f32 z)) (D_f64 (int_as_f64 z))
| WD_float_single n : widened (D_f32 n) (D_f64 (f32_as_f64 n))
| WD_float_double n : widened (D_f32 (f64_as_f32 n)) (D_f64 n)
| WD_char c : widened (D_char c) (D_str (enc_char c))
| WD_bytes s : widened (D_bytes s) (D_str s)
| WD_some d d' : widened d d' -> widened d (D_some d')
| WD_option d d' : widened d d' -> widened (D_some d) (D_some d')
| WD_newtype d d' : widened d d' -> widened (D_newtype d) (D_newtype d')
| WD_seq ds ds' : Forall2 widened ds ds' -> widened (D_seq ds) (D_seq ds')
| WD_map m m' : Forall2 (fun a b => a.1 = b.1 /\ widened a.2 b.2) m m' -> widened (D_map m) (D_map m')
| WD_struct m m' : Forall2 (fun a b => a.1 = b.1 /\ widened a.2 b.2) m m' -> widened (D_struct m) (D_struct m')
| WD_ignored d : widened d D_ignored.

(** A field of the new struct: one of the old one, possibly of a wider type, or a new optional one
    that the object has no member for. *)
Definition field_of (ms : list (str * value)) (fs : list (str * target)) (f' : str * target) : Prop :=
  (exists t, (f'.1, t) ∈ fs /\ widens t f'.2 /\ ((exists u, t = T_option u) -> exists u, f'.2 = T_option u))
  \/ (f'.1 ∉ map fst fs /\ f'.1 ∉ map fst ms /\ exists u, f'.2 = T_option u).
(** What it gets. *)
Definition field_kept (l : list (str * data)) (x' : str * data) : Prop :=
  (exists d, (x'.1, d) ∈ l /\ widened d x'.2) \/ (x'.1 ∉ map fst l /\ x'.2 = D_none).

End with_libs.
