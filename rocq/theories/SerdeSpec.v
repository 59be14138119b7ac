(** * SerdeSpec: definitions used to state the properties of deserialisation.

    Specification only: nothing here mentions the deserializers. *)
From Verif Require Import Base Value Wire Serde.
From stdpp Require Import sorting.
From Coq Require Relation_Operators Wellfounded.Transitive_Closure.
From Coq Require Strings.String.
Import String.StringSyntax.

(** The class [name], possibly generic: followed by a backquote and type arguments. *)
Definition is_class (name class : str) : Prop :=
  class = name \/ exists arguments, class = name ++ x60 :: arguments.

(** The range of an integer type. *)
Definition in_int (k : int_type) (z : Z) : Prop :=
  match k with
  | I8 => - 2 ^ 7 <= z < 2 ^ 7 | I16 => - 2 ^ 15 <= z < 2 ^ 15 | I32 => - 2 ^ 31 <= z < 2 ^ 31
  | I64 => - 2 ^ 63 <= z < 2 ^ 63 | I128 => - 2 ^ 127 <= z < 2 ^ 127
  | U8 => 0 <= z < 2 ^ 8 | U16 => 0 <= z < 2 ^ 16 | U32 => 0 <= z < 2 ^ 32
  | U64 => 0 <= z < 2 ^ 64 | U128 => 0 <= z < 2 ^ 128
  end%Z.

(** [wraps name v]: [v] is what the system class [name] wraps. *)
Inductive wraps : str -> value -> Prop :=
| W_Boolean b : wraps (lit "System.Boolean") (VBoolean b)
| W_Byte n : in_int U8 (Z.of_N n) -> wraps (lit "System.Byte") (VByte n)
| W_SByte z : in_int I8 z -> wraps (lit "System.SByte") (VSByte z)
| W_Char c : wraps (lit "System.Char") (VChar c)
| W_Double n : wraps (lit "System.Double") (VDouble n)
| W_Single n : wraps (lit "System.Single") (VSingle n)
| W_Int32 z : in_int I32 z -> wraps (lit "System.Int32") (VInt32 z)
| W_UInt32 n : in_int U32 (Z.of_N n) -> wraps (lit "System.UInt32") (VUInt32 n)
| W_Int64 z : in_int I64 z -> wraps (lit "System.Int64") (VInt64 z)
| W_UInt64 n : in_int U64 (Z.of_N n) -> wraps (lit "System.UInt64") (VUInt64 n)
| W_Int16 z : in_int I16 z -> wraps (lit "System.Int16") (VInt16 z)
| W_UInt16 n : in_int U16 (Z.of_N n) -> wraps (lit "System.UInt16") (VUInt16 n).

(** The system classes that wrap something. *)
Definition is_wrapper_class (class : str) : Prop := exists name v, wraps name v /\ is_class name class.
(** Those that wrap an integer. *)
Inductive int_wrapper : str -> int_type -> Prop :=
| IW_Byte : int_wrapper (lit "System.Byte") U8
| IW_SByte : int_wrapper (lit "System.SByte") I8
| IW_Int16 : int_wrapper (lit "System.Int16") I16
| IW_UInt16 : int_wrapper (lit "System.UInt16") U16
| IW_Int32 : int_wrapper (lit "System.Int32") I32
| IW_UInt32 : int_wrapper (lit "System.UInt32") U32
| IW_Int64 : int_wrapper (lit "System.Int64") I64
| IW_UInt64 : int_wrapper (lit "System.UInt64") U64.

(** The integer a value holds: directly, or inside a wrapper whose range it is in.  Time spans
    and date-times hold their raw value. *)
Inductive stored_int : value -> Z -> Prop :=
| SI_SByte z : stored_int (VSByte z) z
| SI_Int16 z : stored_int (VInt16 z) z
| SI_Int32 z : stored_int (VInt32 z) z
| SI_Int64 z : stored_int (VInt64 z) z
| SI_Byte n : stored_int (VByte n) (Z.of_N n)
| SI_UInt16 n : stored_int (VUInt16 n) (Z.of_N n)
| SI_UInt32 n : stored_int (VUInt32 n) (Z.of_N n)
| SI_UInt64 n : stored_int (VUInt64 n) (Z.of_N n)
| SI_TimeSpan z : stored_int (VTimeSpan z) z
| SI_DateTime z : stored_int (VDateTime z) z
| SI_wrapper name k class v z :
    int_wrapper name k -> is_class name class -> stored_int v z -> in_int k z ->
    stored_int (VObject (mkObj class None [(lit "m_value", v)])) z.

(** Not a struct, nor an option of one. *)
Fixpoint plain (t : target) : Prop :=
  match t with T_struct _ => False | T_option t => plain t | _ => True end.

(** The generic list class, and the members of its objects (in any order). *)
Definition is_list_class (class : str) : Prop := is_class (lit "System.Collections.Generic.List") class.
Definition list_members (items : list value) (size version : Z) (ms : list (str * value)) : Prop :=
  ms ≡ₚ [(lit "_items", VArray items); (lit "_size", VInt32 size); (lit "_version", VInt32 version)].

(** Two values that differ at most in the order of the members of objects: a [HashMap] enumerates
    its entries in an arbitrary order. *)
Inductive same_value : value -> value -> Prop :=
| same_refl v : same_value v v
| same_array vs ws : Forall2 same_value vs ws -> same_value (VArray vs) (VArray ws)
| same_object c l ms ms' ns :
    Forall2 (fun a b => a.1 = b.1 /\ same_value a.2 b.2) ms ms' -> ms' ≡ₚ ns ->
    same_value (VObject (mkObj c l ms)) (VObject (mkObj c l ns)).

(** Every object inside the value has pairwise different member names. *)
Inductive distinct_names : value -> Prop :=
| DN_object o : NoDup (map fst (obj_members o)) -> Forall (fun kv => distinct_names kv.2) (obj_members o) ->
    distinct_names (VObject o)
| DN_array vs : Forall distinct_names vs -> distinct_names (VArray vs)
| DN_other v : match v with VObject _ | VArray _ => False | _ => True end -> distinct_names v.

(** Strictly increasing keys, in the order of byte strings. *)
Definition str_lt (a b : str) : Prop :=
  (exists y t, b = a ++ y :: t)
  \/ exists p x y s t, a = p ++ x :: s /\ b = p ++ y :: t /\ (b2n x < b2n y)%N.
Definition sorted_keys {V} (m : list (str * V)) : Prop := StronglySorted (fun a b => str_lt a.1 b.1) m.

(** Induction over values. *)
Section value_ind'.
Context (P : value -> Prop).
Context (Hobj : forall o, Forall (fun kv => P kv.2) (obj_members o) -> P (VObject o)).
Context (Harr : forall vs, Forall P vs -> P (VArray vs)).
Context (Hother : forall v, match v with VObject _ | VArray _ => False | _ => True end -> P v).
Fixpoint value_ind' (v : value) : P v.
Proof.
  destruct v as [o|vs| | | | | | | | | | | | | | | | |];
    [| |apply Hother; exact I..].
  - apply Hobj. destruct o as [c l ms]. cbn. induction ms as [|[k v] ms IH]; constructor; [apply value_ind'|exact IH].
  - apply Harr. induction vs as [|v vs IH]; constructor; [apply value_ind'|exact IH].
Qed.
End value_ind'.

(** Induction with the hypothesis for everything inside the value. *)
Inductive child : value -> value -> Prop :=
| child_member k w o : (k, w) ∈ obj_members o -> child w (VObject o)
| child_element w vs : w ∈ vs -> child w (VArray vs).
Lemma child_wf : well_founded child.
Proof.
  intros v. induction v as [o IH|vs IH|v Hv] using value_ind'; constructor; intros w Hw.
  - inversion Hw as [k ? ? Hin|]; subst. rewrite Forall_forall in IH. by apply (IH (k, w)).
  - inversion Hw as [|? ? Hin]; subst. rewrite Forall_forall in IH. by apply IH.
  - by inversion Hw; subst.
Qed.
Definition below : value -> value -> Prop := Relation_Operators.clos_trans value child.
Lemma value_below_ind (P : value -> Prop) :
  (forall v, (forall w, below w v -> P w) -> P v) -> forall v, P v.
Proof. intros H. apply (well_founded_ind (Transitive_Closure.wf_clos_trans _ _ child_wf)). exact H. Qed.
Lemma below_member k w o : (k, w) ∈ obj_members o -> below w (VObject o).
Proof. intros H. constructor. by econstructor. Qed.
Lemma below_element w vs : w ∈ vs -> below w (VArray vs).
Proof. intros H. constructor. by constructor. Qed.
Lemma below_item w k vs o : w ∈ vs -> (k, VArray vs) ∈ obj_members o -> below w (VObject o).
Proof. intros H1 H2. eapply Relation_Operators.t_trans; [by apply below_element|by eapply below_member]. Qed.
