(** * Declared: which values a member of a declared type may have.

    Specification only: nothing here mentions the parser. *)
From Verif Require Import Base Value Wire.

(** Types of members that are written as records (all but the primitive types). *)
Definition by_record (k : kind) : Prop := match k with K_Primitive _ => False | _ => True end.
(** The value [v], which is not null, is of the declared type; [L] are the declared libraries. *)
Definition of_type (L : gmap N str) (k : kind) (v : value) : Prop :=
  match k with
  | K_String => exists s, v = VString s
  | K_SystemClass n => exists ms, v = VObject (mkObj n None ms)
  | K_Class n lid => exists l ms, L !! lid = Some l /\ v = VObject (mkObj n (Some l) ms)
  | K_StringArray => exists vs, v = VArray vs /\ Forall (fun x => x = VNull \/ exists s, x = VString s) vs
  | K_PrimitiveArray p => exists vs, v = VArray vs /\ Forall (fun x => prim_type_of x = Some p) vs
  | K_ObjectArray => exists vs, v = VArray vs
  | K_Object | K_Any => True
  | K_Primitive p => prim_type_of v = Some p
  end.
