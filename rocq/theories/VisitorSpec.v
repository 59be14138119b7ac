(** * VisitorSpec: what an implementation of [Deserialize] gets from a value.

    Specification: rules without counters and without a bound on the number of steps.  Of
    Visitors.v only the types of programs ([impl], [visitor], the actions) are used; of Serde.v only
    [value_deserialize] at primitive types, for the content of the wrapper classes.

    [gets v t r]: the implementation [t], handed the value [v], returns [r]. *)
From Verif Require Import Base Utf8 Value Wire Serde SerdeSpec Reading Visitors.
From Coq Require Strings.String Numbers.DecimalString.
Import String.StringSyntax.

Section with_libs.
Context {DL : DecimalLib} {FL : FloatLib} {TL : TextLib}.
Context {U Ty St : Type} (W : world U Ty St).
Notation visitor := (visitor U Ty St).

(** A scalar is handed over by one call, which gets exactly this value. *)
Inductive told (vis : visitor) : value -> tres U -> Prop :=
| told_bool b : told vis (VBoolean b) (on_bool vis b)
| told_i8 z : told vis (VSByte z) (on_int vis I8 z)
| told_i16 z : told vis (VInt16 z) (on_int vis I16 z)
| told_i32 z : told vis (VInt32 z) (on_int vis I32 z)
| told_i64 z : told vis (VInt64 z) (on_int vis I64 z)
| told_u8 n : told vis (VByte n) (on_int vis U8 (Z.of_N n))
| told_u16 n : told vis (VUInt16 n) (on_int vis U16 (Z.of_N n))
| told_u32 n : told vis (VUInt32 n) (on_int vis U32 (Z.of_N n))
| told_u64 n : told vis (VUInt64 n) (on_int vis U64 (Z.of_N n))
| told_f32 n : told vis (VSingle n) (on_f32 vis n)
| told_f64 n : told vis (VDouble n) (on_f64 vis n)
| told_char c : told vis (VChar c) (on_char vis c)
| told_decimal d : told vis (VDecimal d) (on_string vis (dec_to_string d))
| told_time_span z : told vis (VTimeSpan z) (on_int vis I64 z)
| told_date_time z : told vis (VDateTime z) (on_int vis I64 z)
| told_string s : told vis (VString s) (on_borrowed_str vis s)
| told_null : told vis VNull (on_unit vis).

(** The content of a wrapper object is handed over in the type of the wrapper. *)
Inductive told_wrapped (vis : visitor) : target -> data -> tres U -> Prop :=
| wrapped_bool b : told_wrapped vis T_bool (D_bool b) (on_bool vis b)
| wrapped_int k z : told_wrapped vis (T_int k) (D_int z) (on_int vis k z)
| wrapped_f32 n : told_wrapped vis T_f32 (D_f32 n) (on_f32 vis n)
| wrapped_f64 n : told_wrapped vis T_f64 (D_f64 n) (on_f64 vis n)
| wrapped_char c : told_wrapped vis T_char (D_char c) (on_char vis c).

(** ** Texts *)

(** A number in decimal digits. *)
Definition digits (n : N) : str := lit (DecimalString.NilEmpty.string_of_uint (N.to_uint n)).
(** There were [n], only [k] were asked for. *)
Definition length_error (what : str) (n k : N) : str :=
  lit "invalid length " ++ digits n ++ lit ", expected "
  ++ digits k ++ (if N.eqb k 1 then lit " element in " else lit " elements in ") ++ what.

(** The result of a visitor counts only if it has left nothing of [all] behind. *)
Definition nothing_left {A} (what : str) (all left : list A) (r : tres U) : tres U :=
  match left, r with
  | _ :: _, TOk _ =>
      TErr (length_error what (N.of_nat (length all)) (N.of_nat (length all) - N.of_nat (length left)))
  | _, _ => r
  end.
Definition all_answers (size left : N) (r : tres U) : tres U :=
  match r with
  | TOk _ => if N.eqb left 0 then r else TErr (length_error (lit "list") size (size - left))
  | TErr _ => r
  end.

(** The names of the wrapper types in error texts. *)
Inductive type_name : target -> str -> Prop :=
| TN_Boolean : type_name T_bool (lit "Boolean")
| TN_Byte : type_name (T_int U8) (lit "Byte")
| TN_Int8 : type_name (T_int I8) (lit "Int8")
| TN_Char : type_name T_char (lit "Char")
| TN_Double : type_name T_f64 (lit "Double")
| TN_Single : type_name T_f32 (lit "Single")
| TN_Int16 : type_name (T_int I16) (lit "Int16")
| TN_UInt16 : type_name (T_int U16) (lit "UInt16")
| TN_Int32 : type_name (T_int I32) (lit "Int32")
| TN_UInt32 : type_name (T_int U32) (lit "UInt32")
| TN_Int64 : type_name (T_int I64) (lit "Int64")
| TN_UInt64 : type_name (T_int U64) (lit "UInt64").
(** What is wrong with a wrapper object. *)
Inductive wrapper_fault (prim : target) : list (str * value) -> str -> Prop :=
| WF_content k v : value_deserialize v prim = SErr -> wrapper_fault prim [(k, v)] (primitive_text prim v)
| WF_name k v p name : value_deserialize v prim = SOk p -> k <> lit "m_value" -> type_name prim name ->
    wrapper_fault prim [(k, v)] (lit "invalid type: map, expected " ++ name)
| WF_count ms name : length ms <> 1 -> type_name prim name ->
    wrapper_fault prim ms (lit "invalid type: map, expected " ++ name).

(** A member name, borrowed from the input or not. *)
Inductive gets_name (borrowed : bool) (s : str) : Ty -> tres U -> Prop :=
| N_skip t r : w_impl W t = I_skip r -> gets_name borrowed s t r
| N_name t m vis post : w_impl W t = I_call m vis post -> m <> M_enum ->
    gets_name borrowed s t (post (if borrowed then on_borrowed_str vis s else on_str vis s))
| N_enum_return t vis post r : w_impl W t = I_call M_enum vis post -> on_enum vis = O_return r ->
    gets_name borrowed s t (post r)
| N_enum t vis post t' k r : w_impl W t = I_call M_enum vis post -> on_enum vis = O_read t' k ->
    gets_name borrowed s t' r -> gets_name borrowed s t (post (k r)).

Inductive gets : value -> Ty -> tres U -> Prop :=
| G_skip v t r : w_impl W t = I_skip r -> gets v t r
| G_call v t m vis post r : w_impl W t = I_call m vis post -> serves m vis v r -> gets v t (post r)

(** [serves m vis v r]: asked with the method [m] the value [v] makes the visitor return [r]. *)
with serves : method -> visitor -> value -> tres U -> Prop :=
| S_none vis : serves M_option vis VNull (on_none vis)
| S_some_return vis v r : v <> VNull -> on_some vis = O_return r -> serves M_option vis v r
| S_some vis v t k r : v <> VNull -> on_some vis = O_read t k -> gets v t r -> serves M_option vis v (k r)
| S_struct vis o r left :
    entry_by_entry false (on_map vis (N.of_nat (length (obj_members o)))) (obj_members o) None r left ->
    serves M_struct vis (VObject o) (nothing_left (lit "map") (obj_members o) left r)
| S_struct_other vis v r : (forall o, v <> VObject o) -> visits vis v r -> serves M_struct vis v r
| S_any vis v r : visits vis v r -> serves M_any vis v r
| S_enum vis v r : visits vis v r -> serves M_enum vis v r

(** [visits vis v r]: the value itself decides how the visitor is called. *)
with visits : visitor -> value -> tres U -> Prop :=
| V_scalar vis v r : told vis v r -> visits vis v r
| V_array vis vs r left : one_by_one (on_seq vis) vs r left -> visits vis (VArray vs) (nothing_left (lit "array") vs left r)
| V_wrapper vis name prim class v p r :
    wrapper_of name prim -> is_class name class -> value_deserialize v prim = SOk p ->
    told_wrapped vis prim p r -> visits vis (VObject (mkObj class None [(lit "m_value", v)])) r
| V_wrapper_bad vis name prim class ms e :
    wrapper_of name prim -> is_class name class -> wrapper_fault prim ms e ->
    visits vis (VObject (mkObj class None ms)) (TErr e)
| V_list vis class ms items size version r left :
    is_list_class class -> list_members items size version ms ->
    up_to (on_seq vis) items (Z.to_N (as_usize size)) r left ->
    visits vis (VObject (mkObj class None ms)) (all_answers (Z.to_N (as_usize size)) left r)
| V_list_bad vis class ms :
    is_list_class class -> (forall items size version, ~ list_members items size version ms) ->
    visits vis (VObject (mkObj class None ms))
      (TErr (lit "invalid system class: System.Collections.Generic.List"))
| V_map vis class library ms r left :
    plain_class class library ->
    entry_by_entry true (on_map vis (N.of_nat (length ms))) ms None r left ->
    visits vis (VObject (mkObj class library ms)) (nothing_left (lit "map") ms left r)

(** [one_by_one st vs r left]: a visitor that reads a sequence gets the values one by one, and
    then the answer that there are no more, until it returns [r]; it has not asked for [left]. *)
with one_by_one : St -> list value -> tres U -> list value -> Prop :=
| Q_done st vs r : w_seq W st = Q_return r -> one_by_one st vs r vs
| Q_element st t k v vs x r left : w_seq W st = Q_next t k -> gets v t x ->
    one_by_one (k (tres_map Some x)) vs r left -> one_by_one st (v :: vs) r left
| Q_no_more st t k r left : w_seq W st = Q_next t k ->
    one_by_one (k (TOk None)) [] r left -> one_by_one st [] r left

(** [up_to st vs n r left]: the same for a [List<T>]: at most [n] answers, not counting elements
    that could not be read, but counting the answer that there are no more. *)
with up_to : St -> list value -> N -> tres U -> N -> Prop :=
| U_done st vs n r : w_seq W st = Q_return r -> up_to st vs n r n
| U_element st t k v vs n u r left : w_seq W st = Q_next t k -> gets v t (TOk u) ->
    up_to (k (TOk (Some u))) vs n r left -> up_to st (v :: vs) (N.succ n) r left
| U_element_error st t k v vs n e r left : w_seq W st = Q_next t k -> gets v t (TErr e) ->
    up_to (k (TErr e)) vs (N.succ n) r left -> up_to st (v :: vs) (N.succ n) r left
| U_missing st t k n r left : w_seq W st = Q_next t k ->
    up_to (k (TOk None)) [] n r left -> up_to st [] (N.succ n) r left
| U_no_more st t k vs r left : w_seq W st = Q_next t k ->
    up_to (k (TOk None)) vs 0 r left -> up_to st vs 0 r left

(** [entry_by_entry borrowed st ms pending r left]: a visitor that reads a map gets the entries one
    by one; [pending] is the value of the last name that was handed over. *)
with entry_by_entry : bool -> St -> list (str * value) -> option value -> tres U ->
    list (str * value) -> Prop :=
| P_done b st ms p r : w_map W st = P_return r -> entry_by_entry b st ms p r ms
| P_name b st t k s v ms p x r left : w_map W st = P_key t k -> gets_name b s t x ->
    entry_by_entry b (k (tres_map Some x)) ms (Some v) r left ->
    entry_by_entry b st ((s, v) :: ms) p r left
| P_no_name b st t k p r left : w_map W st = P_key t k ->
    entry_by_entry b (k (TOk None)) [] p r left -> entry_by_entry b st [] p r left
| P_its_value b st t k v ms x r left : w_map W st = P_value t k -> gets v t x ->
    entry_by_entry b (k x) ms None r left -> entry_by_entry b st ms (Some v) r left
| P_both b st tk tv k s v ms p u x r left : w_map W st = P_entry tk tv k ->
    gets_name b s tk (TOk u) -> gets v tv x ->
    entry_by_entry b (k (tres_map (fun w => Some (u, w)) x)) ms p r left ->
    entry_by_entry b st ((s, v) :: ms) p r left
| P_bad_name b st tk tv k s v ms p e r left : w_map W st = P_entry tk tv k ->
    gets_name b s tk (TErr e) -> entry_by_entry b (k (TErr e)) ms p r left ->
    entry_by_entry b st ((s, v) :: ms) p r left
| P_no_entry b st tk tv k p r left : w_map W st = P_entry tk tv k ->
    entry_by_entry b (k (TOk None)) [] p r left -> entry_by_entry b st [] p r left.

(** A message: method calls and returns are an error before any visitor is called; an [Option] is
    not treated specially at the top level (C45). *)
Inductive message_gets : message -> Ty -> tres U -> Prop :=
| MG_skip m t r : w_impl W t = I_skip r -> message_gets m t r
| MG_call c t meth vis post : w_impl W t = I_call meth vis post ->
    message_gets (MMethodCall c) t (post (TErr (lit "invalid type: method call, expected " ++ expecting vis)))
| MG_return c t meth vis post : w_impl W t = I_call meth vis post ->
    message_gets (MMethodReturn c) t (post (TErr (lit "invalid type: method return, expected " ++ expecting vis)))
| MG_option v t vis post r : w_impl W t = I_call M_option vis post -> visits vis v r ->
    message_gets (MValue v) t (post r)
| MG_value v t meth vis post r : w_impl W t = I_call meth vis post -> meth <> M_option ->
    serves meth vis v r -> message_gets (MValue v) t (post r).

(** ** Types that come to an end *)

(** A type whose implementation stops asking: [Option]s (and enums) are not nested without end, and
    a visitor that is told that there are no more elements gets nearer to returning. *)
Definition ends : Prop :=
  exists (depth : Ty -> nat) (patience : St -> nat),
    (forall t vis post t' k, w_impl W t = I_call M_option vis post -> on_some vis = O_read t' k ->
       depth t' < depth t) /\
    (forall t vis post t' k, w_impl W t = I_call M_enum vis post -> on_enum vis = O_read t' k ->
       depth t' < depth t) /\
    (forall st t k, w_seq W st = Q_next t k -> patience (k (TOk None)) < patience st) /\
    (forall st t k, w_map W st = P_key t k -> patience (k (TOk None)) < patience st) /\
    (forall st tk tv k, w_map W st = P_entry tk tv k -> patience (k (TOk None)) < patience st).

(** A visitor that asks for a value only right after it has asked for a name and got one (or an
    error). *)
Definition orderly : Prop :=
  exists named : St -> Prop,
    (forall t m vis post n, w_impl W t = I_call m vis post -> ~ named (on_map vis n)) /\
    (forall st t k, w_map W st = P_value t k -> named st) /\
    (forall st t k, w_map W st = P_key t k -> ~ named (k (TOk None))) /\
    (forall st t k x, w_map W st = P_value t k -> ~ named (k x)) /\
    (forall st tk tv k x, w_map W st = P_entry tk tv k -> ~ named (k x)).

End with_libs.

Scheme gets_min := Minimality for gets Sort Prop
with serves_min := Minimality for serves Sort Prop
with visits_min := Minimality for visits Sort Prop
with one_by_one_min := Minimality for one_by_one Sort Prop
with up_to_min := Minimality for up_to Sort Prop
with entry_by_entry_min := Minimality for entry_by_entry Sort Prop.
Combined Scheme gets_mutind from gets_min, serves_min, visits_min, one_by_one_min, up_to_min,
  entry_by_entry_min.
