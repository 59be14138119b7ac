(** * Parts: what a message contains, and what a Rust value contains.

    Specification only: nothing here mentions the deserializers. *)
From Verif Require Import Base Utf8 Value Wire Serde SerdeSpec Reading.

(** Every single scalar and member name inside a value; what occurs twice is listed twice. *)
Fixpoint parts (v : value) : list value :=
  match v with
  | VObject o => concat (map (fun kv => VString kv.1 :: parts kv.2) (obj_members o))
  | VArray vs => concat (map parts vs)
  | VNull => []
  | _ => [v]
  end.

(** Every single scalar and map key inside a Rust value. *)
Fixpoint facts (d : data) : list data :=
  match d with
  | D_some d | D_newtype d => facts d
  | D_seq ds => concat (map facts ds)
  | D_map m => concat (map (fun kd => D_str kd.1 :: facts kd.2) m)
  | D_struct fs => concat (map (fun kd => facts kd.2) fs)
  | D_unit | D_none | D_ignored => []
  | _ => [d]
  end.

Section with_libs.
Context {DL : DecimalLib} {FL : FloatLib}.

(** [states v d]: the scalar [v] says [d]: it is its content, in the type that was asked for; the
    content of a wrapper object is read in the type of the wrapper first. *)
Inductive states : value -> data -> Prop :=
| S_content v e t d : holds v e -> converts e t d -> states v d
| S_wrapped v d e t d' : states v d -> primitive d e -> converts e t d' -> states v d'.

(** [taken_from v d]: every fact of [d] is stated by a part of [v] of its own. *)
Definition taken_from (v : value) (d : data) : Prop :=
  exists used, used ⊆+ parts v /\ Forall2 states used (facts d).
End with_libs.
