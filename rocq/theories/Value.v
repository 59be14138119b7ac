(** * Value: the public result types. *)
From Verif Require Import Base.

(** rust_decimal::Decimal: sign, 96-bit coefficient, scale. *)
Record decimal := mkDecimal { dec_neg : bool; dec_coeff : N; dec_scale : N }.

(** rust_decimal is an external crate whose source is not available: [FromStr] (used in
    data_type/decimal.rs 21) and [Display] (used in value/mod.rs 210) are arbitrary functions.
    Every theorem is quantified over them. *)
Class DecimalLib := {
  dec_from_str : str -> option decimal;
  dec_to_string : decimal -> str;
}.

(** value/object.rs 18-27: [Object { class, library, members }].  [HashMap] is an association
    list with pairwise distinct keys (see [hm_from_iter]); parametrised by the value type. *)
Record obj (V : Type) := mkObj {
  obj_class : str;
  obj_library : option str;
  obj_members : list (str * V);
}.
Arguments mkObj {V} _ _ _.
Arguments obj_class {V} _.
Arguments obj_library {V} _.
Arguments obj_members {V} _.

(** value/mod.rs 24-65: [Value].  Floats are IEEE bit patterns; chars are code points;
    [TimeSpan]/[DateTime] are their raw 64-bit values (value/time_span.rs, value/date_time.rs). *)
Inductive value :=
| VObject (o : obj value)
| VArray (vs : list value)
| VBoolean (b : bool)
| VByte (n : N)
| VChar (c : N)
| VDecimal (d : decimal)
| VDouble (bits : N)
| VInt16 (z : Z)
| VInt32 (z : Z)
| VInt64 (z : Z)
| VSByte (z : Z)
| VSingle (bits : N)
| VTimeSpan (z : Z)
| VDateTime (z : Z)
| VUInt16 (n : N)
| VUInt32 (n : N)
| VUInt64 (n : N)
| VString (s : str)
| VNull.

(** remoting_message.rs 11-22: [MethodCall]. *)
Record method_call := mkMethodCall {
  mc_method_name : str;
  mc_type_name : str;
  mc_call_context : option str;
  mc_args : option (list value);
}.

(** remoting_message.rs 24-33: [MethodReturn]. *)
Record method_return := mkMethodReturn {
  mr_return_value : option value;
  mr_call_context : option str;
  mr_args : option (list value);
}.

(** remoting_message.rs 63-71: [RemotingMessage]. *)
Inductive message :=
| MMethodCall (c : method_call)
| MMethodReturn (r : method_return)
| MValue (v : value).

(** Equality test on byte strings ([str == str]). *)
Definition str_eqb (a b : str) : bool := bool_decide (a = b).

(** std::collections::HashMap::insert. *)
Fixpoint hm_insert {V} (k : str) (v : V) (m : list (str * V)) : list (str * V) :=
  match m with
  | [] => [(k, v)]
  | (k', v') :: m => if str_eqb k k' then (k', v) :: m else (k', v') :: hm_insert k v m
  end.

(** HashMap::from_iter: inserts in order, so the last value of a key wins. *)
Definition hm_from_iter {V} (l : list (str * V)) : list (str * V) :=
  fold_left (fun m kv => hm_insert kv.1 kv.2 m) l [].

(** HashMap::get. *)
Fixpoint hm_get {V} (k : str) (m : list (str * V)) : option V :=
  match m with
  | [] => None
  | (k', v) :: m => if str_eqb k k' then Some v else hm_get k m
  end.

(** value/date_time.rs 4-9. *)
Inductive date_time_kind := DTK_Utc | DTK_Local.

(** value/date_time.rs 19-21: [i64 >> 2], an arithmetic shift. *)
Definition dt_ticks (raw : Z) : Z := Z.shiftr raw 2.

(** value/date_time.rs 24-30: [i64 & 0b11]. *)
Definition dt_kind (raw : Z) : option date_time_kind :=
  let k := Z.land raw 3 in
  if Z.eqb k 1 then Some DTK_Utc
  else if Z.eqb k 2 then Some DTK_Local
  else None.

(** value/time_span.rs 10-12. *)
Definition ts_value (raw : Z) : Z := raw.
