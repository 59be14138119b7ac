(** * EqualitySpec: when two messages are equal.

    Specification only: nothing here mentions the comparison functions. *)
From Verif Require Import Base Value Spec.

(** ** Floats: IEEE 754 *)

(** The number a bit pattern with [e] exponent and [m] mantissa bits stands for: a finite one as a
    multiple of the smallest positive float, an infinity, or none (NaN). *)
Inductive number := Finite (z : Z) | Infinite (negative : bool).
Definition float_number (e m bits : N) : option number :=
  let negative := N.eqb (bits / 2 ^ (e + m) mod 2) 1 in
  let exponent := (bits / 2 ^ m mod 2 ^ e)%N in
  let mantissa := (bits mod 2 ^ m)%N in
  if N.eqb exponent (2 ^ e - 1) then if N.eqb mantissa 0 then Some (Infinite negative) else None
  else
    let magnitude := if N.eqb exponent 0 then mantissa else ((2 ^ m + mantissa) * 2 ^ (exponent - 1))%N in
    Some (Finite (if negative then - Z.of_N magnitude else Z.of_N magnitude)).
Definition single_number : N -> option number := float_number 8 23.
Definition double_number : N -> option number := float_number 11 52.
(** The same number. *)
Definition same_number (f : N -> option number) (a b : N) : Prop := exists x, f a = Some x /\ f b = Some x.

(** ** Decimals: the same rational number *)
Definition signed (d : decimal) : Z := if dec_neg d then - Z.of_N (dec_coeff d) else Z.of_N (dec_coeff d).
Definition same_decimal (a b : decimal) : Prop :=
  (signed a * 10 ^ Z.of_N (dec_scale b) = signed b * 10 ^ Z.of_N (dec_scale a))%Z.

(** ** Values *)

Inductive equal : value -> value -> Prop :=
| EQ_same v : match v with VObject _ | VArray _ | VDecimal _ | VDouble _ | VSingle _ => False | _ => True end -> equal v v
| EQ_double a b : same_number double_number a b -> equal (VDouble a) (VDouble b)
| EQ_single a b : same_number single_number a b -> equal (VSingle a) (VSingle b)
| EQ_decimal a b : same_decimal a b -> equal (VDecimal a) (VDecimal b)
| EQ_array vs ws : Forall2 equal vs ws -> equal (VArray vs) (VArray ws)
| EQ_object class library ms ns :
    (* the same member names, in any order, with equal values *)
    map fst ms ≡ₚ map fst ns ->
    (forall k v w, (k, v) ∈ ms -> (k, w) ∈ ns -> equal v w) ->
    equal (VObject (mkObj class library ms)) (VObject (mkObj class library ns)).

Inductive equal_option {A} (P : A -> A -> Prop) : option A -> option A -> Prop :=
| EO_none : equal_option P None None
| EO_some a b : P a b -> equal_option P (Some a) (Some b).
Inductive equal_message : message -> message -> Prop :=
| EM_value v w : equal v w -> equal_message (MValue v) (MValue w)
| EM_call name type context args args' : equal_option (Forall2 equal) args args' ->
    equal_message (MMethodCall (mkMethodCall name type context args)) (MMethodCall (mkMethodCall name type context args'))
| EM_return v v' context args args' : equal_option equal v v' -> equal_option (Forall2 equal) args args' ->
    equal_message (MMethodReturn (mkMethodReturn v context args)) (MMethodReturn (mkMethodReturn v' context args')).

(** A NaN somewhere inside. *)
Definition is_nan (v : value) : Prop :=
  match v with VDouble n => double_number n = None | VSingle n => single_number n = None | _ => False end.
Definition has_nan (m : message) : Prop := exists v, value_in v m /\ is_nan v.
