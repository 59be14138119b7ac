(** * Equality: the derived [PartialEq] implementations of the public types.

    value/mod.rs 25, value/object.rs 19, value/date_time.rs 12, value/time_span.rs 4,
    value/decimal.rs 4, remoting_message.rs 12, 25 and 63: [#[derive(PartialEq)]], which compares
    variants and fields with their own [==]. *)
From Verif Require Import Base Value.

(** Rust's [==] on floats (IEEE 754), on bit patterns with [e] exponent and [m] mantissa bits: a
    NaN is not equal to anything, the two zeros are equal. *)
Definition float_nan (e m bits : N) : bool :=
  N.eqb (bits / 2 ^ m mod 2 ^ e) (2 ^ e - 1) && negb (N.eqb (bits mod 2 ^ m) 0).
Definition float_zero (e m bits : N) : bool := N.eqb (bits mod 2 ^ (e + m)) 0.
Definition float_eqb (e m a b : N) : bool :=
  negb (float_nan e m a) && negb (float_nan e m b)
  && (N.eqb a b || float_zero e m a && float_zero e m b).
Definition f32_eqb : N -> N -> bool := float_eqb 8 23.
Definition f64_eqb : N -> N -> bool := float_eqb 11 52.

(** rust_decimal (external): [==] of [Decimal] is numerical, [1.0 == 1.00] and [0 == -0]. *)
Definition dec_eqb (a b : decimal) : bool :=
  N.eqb (dec_coeff a * 10 ^ dec_scale b) (dec_coeff b * 10 ^ dec_scale a)
  && (Bool.eqb (dec_neg a) (dec_neg b) || N.eqb (dec_coeff a) 0).

(** [Option<T> == Option<T>] and [Vec<T> == Vec<T>]. *)
Definition opt_eqb {A} (f : A -> A -> bool) (a b : option A) : bool :=
  match a, b with Some a, Some b => f a b | None, None => true | _, _ => false end.
Definition vec_eqb {A} (f : A -> A -> bool) := fix vec_eqb (a b : list A) : bool :=
  match a, b with
  | [], [] => true
  | x :: a, y :: b => f x y && vec_eqb a b
  | _, _ => false
  end.
(** std: [HashMap == HashMap]: as many entries, and for every entry [other.get(key)] is an equal
    value. *)
Definition map_all {A} (f : A -> A -> bool) (b : list (str * A)) :=
  fix all (a : list (str * A)) : bool :=
    match a with
    | [] => true
    | (k, x) :: a => match hm_get k b with Some y => f x y | None => false end && all a
    end.
Definition map_eqb {A} (f : A -> A -> bool) (a b : list (str * A)) : bool :=
  Nat.eqb (length a) (length b) && map_all f b a.

(** [Value == Value], with [Object == Object] inlined. *)
Fixpoint value_eqb (v w : value) : bool :=
  match v, w with
  | VObject (mkObj c l ms), VObject (mkObj c' l' ms') =>
      str_eqb c c' && opt_eqb str_eqb l l' && map_eqb value_eqb ms ms'
  | VArray vs, VArray ws => vec_eqb value_eqb vs ws
  | VBoolean a, VBoolean b => Bool.eqb a b
  | VByte a, VByte b | VChar a, VChar b | VUInt16 a, VUInt16 b | VUInt32 a, VUInt32 b
  | VUInt64 a, VUInt64 b => N.eqb a b
  | VInt16 a, VInt16 b | VInt32 a, VInt32 b | VInt64 a, VInt64 b | VSByte a, VSByte b
  | VTimeSpan a, VTimeSpan b | VDateTime a, VDateTime b => Z.eqb a b
  | VDecimal a, VDecimal b => dec_eqb a b
  | VDouble a, VDouble b => f64_eqb a b
  | VSingle a, VSingle b => f32_eqb a b
  | VString a, VString b => str_eqb a b
  | VNull, VNull => true
  | _, _ => false
  end.

(** [RemotingMessage == RemotingMessage]. *)
Definition message_eqb (a b : message) : bool :=
  match a, b with
  | MMethodCall a, MMethodCall b =>
      str_eqb (mc_method_name a) (mc_method_name b) && str_eqb (mc_type_name a) (mc_type_name b)
      && opt_eqb str_eqb (mc_call_context a) (mc_call_context b)
      && opt_eqb (vec_eqb value_eqb) (mc_args a) (mc_args b)
  | MMethodReturn a, MMethodReturn b =>
      opt_eqb value_eqb (mr_return_value a) (mr_return_value b)
      && opt_eqb str_eqb (mr_call_context a) (mr_call_context b)
      && opt_eqb (vec_eqb value_eqb) (mr_args a) (mr_args b)
  | MValue a, MValue b => value_eqb a b
  | _, _ => false
  end.
