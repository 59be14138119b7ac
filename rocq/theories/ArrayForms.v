(** * ArrayForms: the same message with its arrays in other records.

    Specification only: nothing here mentions the parser. *)
From Verif Require Import Base Value Wire Grammar Tokens.

(** An array of objects is an ArraySingleObject or a BinaryArray of objects with one dimension. *)
Definition object_array (id len : N) (t : token) : Prop :=
  t = Tk_objects id len
  \/ exists bat bounds k, t = Tk_array id bat [len] bounds k /\ (k = K_Object \/ k = K_ObjectArray).
(** An array of strings is an ArraySingleString or a BinaryArray of string arrays (whose elements
    are read like those of an ArraySingleString). *)
Definition string_array (id len : N) (t : token) : Prop :=
  t = Tk_strings id len \/ exists bat bounds, t = Tk_array id bat [len] bounds K_StringArray.
(** An array of primitives is an ArraySinglePrimitive or a BinaryArray of this primitive type. *)
Definition primitive_array (id : N) (p : primitive_type) (vs : list value) (ts : list token) : Prop :=
  ts = [Tk_prims id p vs]
  \/ exists bat bounds,
       ts = Tk_array id bat [N.of_nat (length vs)] bounds (K_Primitive p) :: map Tk_value vs.
(** Arrays with more dimensions: the array type (Single, Jagged, Rectangular, with offsets or not)
    and the lower bounds. *)
Definition binary_array (id : N) (lengths : list N) (k : kind) (t : token) : Prop :=
  exists bat bounds, t = Tk_array id bat lengths bounds k.

Inductive same_array : list token -> list token -> Prop :=
| SA_objects id len t t' :
    (len < 2 ^ 31)%N -> object_array id len t -> object_array id len t' -> same_array [t] [t']
| SA_strings id len t t' :
    (len < 2 ^ 31)%N -> string_array id len t -> string_array id len t' -> same_array [t] [t']
| SA_primitives id p vs ts ts' :
    (N.of_nat (length vs) < 2 ^ 31)%N -> Forall (fun v => prim_type_of v = Some p) vs ->
    primitive_array id p vs ts -> primitive_array id p vs ts' -> same_array ts ts'
| SA_binary id lengths k t t' :
    binary_array id lengths k t -> binary_array id lengths k t' -> same_array [t] [t'].

(** The same tokens apart from the form of arrays.  An array right after a method record (apart
    from a library) is its call array, which has to be an ArraySingleObject: [free] is false there. *)
Definition free_after (free : bool) (t : token) : bool :=
  match t with Tk_call _ _ _ _ _ | Tk_return _ _ _ _ => false | Tk_library _ _ => free | _ => true end.
Inductive array_forms : bool -> list token -> list token -> Prop :=
| AF_nil free : array_forms free [] []
| AF_token free t ts ts' : array_forms (free_after free t) ts ts' -> array_forms free (t :: ts) (t :: ts')
| AF_array a a' ts ts' : same_array a a' -> array_forms true ts ts' -> array_forms true (a ++ ts) (a' ++ ts').

(** Every run of nulls is a single null. *)
Definition single_nulls (ts : list token) : Prop := forall n, Tk_nulls n ∈ ts -> n = 1%N.
