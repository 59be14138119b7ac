(** * Reading: which Rust value a message is read as.

    Specification only: nothing here mentions the deserializers or visitors of Serde.v, only the
    types of targets and results.  [reads v t d] is a set of rules saying that the value [v] is
    read as [d] at the type [t]; PropsL shows that [from_slice] follows exactly these rules. *)
From stdpp Require Import sorting.
From Verif Require Import Base Utf8 Value Wire Serde SerdeSpec.
From Coq Require Strings.String.
Import String.StringSyntax.

Section with_libs.
Context {DL : DecimalLib} {FL : FloatLib}.

(** ** Scalars *)

(** What a scalar holds.  Only strings of the message can be borrowed from it. *)
Inductive content :=
| Bool (b : bool) | Int (z : Z) | Single (bits : N) | Double (bits : N) | Char (c : N)
| Text (s : str) | Borrowed (s : str).

Inductive holds : value -> content -> Prop :=
| H_bool b : holds (VBoolean b) (Bool b)
| H_sbyte z : holds (VSByte z) (Int z)
| H_int16 z : holds (VInt16 z) (Int z)
| H_int32 z : holds (VInt32 z) (Int z)
| H_int64 z : holds (VInt64 z) (Int z)
| H_byte n : holds (VByte n) (Int (Z.of_N n))
| H_uint16 n : holds (VUInt16 n) (Int (Z.of_N n))
| H_uint32 n : holds (VUInt32 n) (Int (Z.of_N n))
| H_uint64 n : holds (VUInt64 n) (Int (Z.of_N n))
| H_timespan z : holds (VTimeSpan z) (Int z)
| H_datetime z : holds (VDateTime z) (Int z)
| H_single n : holds (VSingle n) (Single n)
| H_double n : holds (VDouble n) (Double n)
| H_char c : holds (VChar c) (Char c)
| H_decimal x : holds (VDecimal x) (Text (dec_to_string x))
| H_string s : holds (VString s) (Borrowed s).

(** How it is converted: integers only if in range, to floats by a cast, text to a character only
    if it is one. *)
Inductive converts : content -> target -> data -> Prop :=
| C_bool b : converts (Bool b) T_bool (D_bool b)
| C_int z k : in_int k z -> converts (Int z) (T_int k) (D_int z)
| C_int_f32 z : converts (Int z) T_f32 (D_f32 (int_as_f32 z))
| C_int_f64 z : converts (Int z) T_f64 (D_f64 (int_as_f64 z))
| C_f32 n : converts (Single n) T_f32 (D_f32 n)
| C_f32_f64 n : converts (Single n) T_f64 (D_f64 (f32_as_f64 n))
| C_f64 n : converts (Double n) T_f64 (D_f64 n)
| C_f64_f32 n : converts (Double n) T_f32 (D_f32 (f64_as_f32 n))
| C_char c : converts (Char c) T_char (D_char c)
| C_char_string c : converts (Char c) T_string (D_str (enc_char c))
| C_text s : converts (Text s) T_string (D_str s)
| C_text_char c : scalar c -> converts (Text (enc_char c)) T_char (D_char c)
| C_borrowed s : converts (Borrowed s) T_string (D_str s)
| C_borrowed_str s : converts (Borrowed s) T_str (D_str s)
| C_borrowed_bytes s : converts (Borrowed s) T_bytes (D_bytes s)
| C_borrowed_char c : scalar c -> converts (Borrowed (enc_char c)) T_char (D_char c)
| C_ignored e : converts e T_ignored D_ignored
(* a type that takes whatever comes gets the scalar unchanged *)
| C_any_bool b : converts (Bool b) T_any (D_bool b)
| C_any_int z : converts (Int z) T_any (D_int z)
| C_any_f32 n : converts (Single n) T_any (D_f32 n)
| C_any_f64 n : converts (Double n) T_any (D_f64 n)
| C_any_char c : converts (Char c) T_any (D_char c)
| C_any_text s : converts (Text s) T_any (D_str s)
| C_any_borrowed s : converts (Borrowed s) T_any (D_str s).

(** The system classes that wrap a primitive, with the type it is read as. *)
Inductive wrapper_of : str -> target -> Prop :=
| WO_Boolean : wrapper_of (lit "System.Boolean") T_bool
| WO_Char : wrapper_of (lit "System.Char") T_char
| WO_Single : wrapper_of (lit "System.Single") T_f32
| WO_Double : wrapper_of (lit "System.Double") T_f64
| WO_int name k : int_wrapper name k -> wrapper_of name (T_int k).
Inductive primitive : data -> content -> Prop :=
| P_bool b : primitive (D_bool b) (Bool b)
| P_int z : primitive (D_int z) (Int z)
| P_f32 n : primitive (D_f32 n) (Single n)
| P_f64 n : primitive (D_f64 n) (Double n)
| P_char c : primitive (D_char c) (Char c).

(** ** Sequences *)

(** [i32 as usize]: for a negative size more than any array has. *)
Definition as_usize (size : Z) : Z := (size mod 2 ^ 64)%Z.
(** The elements of an array, or of a [List<T>]: the first [_size] of its items. *)
Inductive elements : value -> list value -> Prop :=
| E_array vs : elements (VArray vs) vs
| E_list class ms items size version : is_list_class class -> list_members items size version ms ->
    (as_usize size <= Z.of_nat (length items))%Z ->
    elements (VObject (mkObj class None ms)) (take (Z.to_nat (as_usize size)) items).
(** Where any number of elements will do, a [_size] of one more than there are items is accepted
    as well, and gives all items (C44_one_missing). *)
Inductive any_elements : value -> list value -> Prop :=
| A_elements v vs : elements v vs -> any_elements v vs
| A_one_missing class ms items size version : is_list_class class -> list_members items size version ms ->
    as_usize size = (Z.of_nat (length items) + 1)%Z -> any_elements (VObject (mkObj class None ms)) items.

(** ** The rules *)

(** A class that is neither a wrapper nor a list. *)
Definition plain_class (class : str) (library : option str) : Prop :=
  library <> None
  \/ (forall name t, wrapper_of name t -> ~ is_class name class) /\ ~ is_list_class class.

Inductive reads : value -> target -> data -> Prop :=
| R_scalar v e t d : holds v e -> converts e t d -> reads v t d
| R_wrapper name prim class v p e t d :
    wrapper_of name prim -> is_class name class -> reads v prim p -> primitive p e -> converts e t d ->
    reads (VObject (mkObj class None [(lit "m_value", v)])) t d
| R_null_unit : reads VNull T_unit D_unit
| R_null_ignored : reads VNull T_ignored D_ignored
| R_none t : reads VNull (T_option t) D_none
| R_some v t d : v <> VNull -> reads v t d -> reads v (T_option t) (D_some d)
| R_vec v vs t ds : any_elements v vs -> Forall2 (fun u d => reads u t d) vs ds -> reads v (T_vec t) (D_seq ds)
| R_seq_ignored v vs : any_elements v vs -> Forall (fun u => reads u T_ignored D_ignored) vs ->
    reads v T_ignored D_ignored
| R_tuple v vs ts ds : elements v vs -> length vs = length ts ->
    Forall2 (fun ut d => reads ut.1 ut.2 d) (zip vs ts) ds -> reads v (T_tuple ts) (D_seq ds)
| R_newtype v u t d : elements v [u] -> reads u t d -> reads v (T_newtype t) (D_newtype d)
| R_struct_array vs fs ds : length vs = length fs ->
    Forall2 (fun uf d => reads uf.1 uf.2.2 d) (zip vs fs) ds ->
    reads (VArray vs) (T_struct fs) (D_struct (zip (map fst fs) ds))
| R_struct class library ms fs ds :
    (* each field from the member of its name; a missing one is None *)
    Forall2 (fun f d => (exists u, (f.1, u) ∈ ms /\ reads u f.2 d)
                        \/ (f.1 ∉ map fst ms /\ (exists t, f.2 = T_option t) /\ d = D_none)) fs ds ->
    (* the other members can be ignored *)
    Forall (fun m => m.1 ∈ map fst fs \/ reads m.2 T_ignored D_ignored) ms ->
    reads (VObject (mkObj class library ms)) (T_struct fs) (D_struct (zip (map fst fs) ds))
| R_map class library ms t m ds : plain_class class library ->
    Forall2 (fun kv d => reads kv.2 t d) ms ds -> sorted_keys m -> m ≡ₚ zip (map fst ms) ds ->
    reads (VObject (mkObj class library ms)) (T_map t) (D_map m)
| R_map_ignored class library ms : plain_class class library ->
    Forall (fun kv => reads kv.2 T_ignored D_ignored) ms ->
    reads (VObject (mkObj class library ms)) T_ignored D_ignored
(* a type that takes whatever comes *)
| R_null_any : reads VNull T_any D_unit
| R_seq_any v vs ds : any_elements v vs -> Forall2 (fun u d => reads u T_any d) vs ds -> reads v T_any (D_seq ds)
| R_map_any class library ms m ds : plain_class class library ->
    Forall2 (fun kv d => reads kv.2 T_any d) ms ds -> sorted_keys m -> m ≡ₚ zip (map fst ms) ds ->
    reads (VObject (mkObj class library ms)) T_any (D_map m).

(** At the top level an [Option] is [None] for null, and an error for anything else
    (C45_top_level). *)
Inductive reads_top : value -> target -> data -> Prop :=
| RT_none t : reads_top VNull (T_option t) D_none
| RT_value v t d : (forall u, t <> T_option u) -> reads v t d -> reads_top v t d.

(** The field names of a Rust struct are different. *)
Inductive rust_type : target -> Prop :=
| TT_option t : rust_type t -> rust_type (T_option t)
| TT_vec t : rust_type t -> rust_type (T_vec t)
| TT_map t : rust_type t -> rust_type (T_map t)
| TT_newtype t : rust_type t -> rust_type (T_newtype t)
| TT_tuple ts : Forall rust_type ts -> rust_type (T_tuple ts)
| TT_struct fs : NoDup (map fst fs) -> Forall (fun f => rust_type f.2) fs -> rust_type (T_struct fs)
| TT_other t : match t with T_option _ | T_vec _ | T_map _ | T_newtype _ | T_tuple _ | T_struct _ => False | _ => True end ->
    rust_type t.

(** ** Types of results *)

(** [d] is a value of the Rust type [t]. *)
Inductive has_type : target -> data -> Prop :=
| HT_bool b : has_type T_bool (D_bool b)
| HT_int k z : in_int k z -> has_type (T_int k) (D_int z)
| HT_f32 n : has_type T_f32 (D_f32 n)
| HT_f64 n : has_type T_f64 (D_f64 n)
| HT_char c : scalar c -> has_type T_char (D_char c)
| HT_string s : utf8 s -> has_type T_string (D_str s)
| HT_str s : utf8 s -> has_type T_str (D_str s)
| HT_bytes s : has_type T_bytes (D_bytes s)
| HT_unit : has_type T_unit D_unit
| HT_none t : has_type (T_option t) D_none
| HT_some t d : has_type t d -> has_type (T_option t) (D_some d)
| HT_vec t ds : Forall (fun d => has_type t d) ds -> has_type (T_vec t) (D_seq ds)
| HT_tuple ts ds : Forall2 (fun t d => has_type t d) ts ds -> has_type (T_tuple ts) (D_seq ds)
| HT_map t m : sorted_keys m -> Forall (fun kd => utf8 kd.1 /\ has_type t kd.2) m -> has_type (T_map t) (D_map m)
| HT_struct fs l : Forall2 (fun f kd => f.1 = kd.1 /\ has_type f.2 kd.2) fs l -> has_type (T_struct fs) (D_struct l)
| HT_newtype t d : has_type t d -> has_type (T_newtype t) (D_newtype d)
| HT_ignored : has_type T_ignored D_ignored
| HT_any_bool b : has_type T_any (D_bool b)
| HT_any_int z : in_int I64 z \/ in_int U64 z -> has_type T_any (D_int z)
| HT_any_f32 n : has_type T_any (D_f32 n)
| HT_any_f64 n : has_type T_any (D_f64 n)
| HT_any_char c : scalar c -> has_type T_any (D_char c)
| HT_any_str s : utf8 s -> has_type T_any (D_str s)
| HT_any_unit : has_type T_any D_unit
| HT_any_seq ds : Forall (fun d => has_type T_any d) ds -> has_type T_any (D_seq ds)
| HT_any_map m : sorted_keys m -> Forall (fun kd => utf8 kd.1 /\ has_type T_any kd.2) m -> has_type T_any (D_map m).

End with_libs.
