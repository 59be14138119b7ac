(** * Blocks: messages as sequences of independent records.

    Specification only: nothing here mentions the parser.  A block is the sequence of tokens
    (Tokens.v) of one record together with everything that belongs to it: its members, and the
    records that its references to unknown objects have to be followed by. *)
From Verif Require Import Base Value Wire Grammar Tokens.

Definition kind_libraries (k : kind) : list N :=
  match k with K_Class _ lid => [lid] | _ => [] end.

(** The ids of objects that a token names. *)
Definition token_objects (t : token) : list N :=
  match t with
  | Tk_class h => [ch_object_id h]
  | Tk_reference id | Tk_string id _ | Tk_objects id _ | Tk_strings id _ | Tk_prims id _ _
  | Tk_array id _ _ _ _ => [id]
  | Tk_library _ _ | Tk_value _ | Tk_typed _ | Tk_nulls _ | Tk_call _ _ _ _ _ | Tk_return _ _ _ _ => []
  end.
(** The ids of libraries that a token names, and those that it declares. *)
Definition token_libraries (t : token) : list N :=
  match t with
  | Tk_library id _ => [id]
  | Tk_class h =>
      match ch_library h with Some lid => [lid] | None => [] end
      ++ match ch_types h with Some ks => flat_map kind_libraries ks | None => [] end
  | Tk_array _ _ _ _ k => kind_libraries k
  | _ => []
  end.
Definition token_declares (t : token) : list N :=
  match t with Tk_library id _ => [id] | _ => [] end.

Definition objects_of (X : list token) : list N := flat_map token_objects X.
Definition libraries_of (X : list token) : list N := flat_map token_libraries X.
Definition declared_by (X : list token) : list N := flat_map token_declares X.

(** Two blocks that have nothing to do with each other: no object is named in both, and neither
    declares a library that the other one names.  They may use the same libraries. *)
Definition independent (X Y : list token) : Prop :=
  (forall n, n ∈ objects_of X -> n ∉ objects_of Y)
  /\ (forall n, n ∈ declared_by X -> n ∉ libraries_of Y)
  /\ (forall n, n ∈ declared_by Y -> n ∉ libraries_of X).

(** Every two blocks of the list. *)
Inductive pairwise {A} (R : A -> A -> Prop) : list A -> Prop :=
| pw_nil : pairwise R []
| pw_cons x l : Forall (R x) l -> pairwise R l -> pairwise R (x :: l).

(** A sequence of records, block by block. *)
Inductive t_blocks : env -> list (list token) -> env -> Prop :=
| T_blocks_nil e : t_blocks e [] e
| T_blocks_cons e X id v e1 Xs e2 :
    t_record e X id v e1 [] -> t_blocks (add_obj id v e1) Xs e2 -> t_blocks e (X :: Xs) e2.

(** [mentions i n]: the four bytes of the id [n] occur somewhere in [i]. *)
Definition mentions (i : bytes) (n : N) : Prop := exists p q, i = p ++ enc_uint 4 n ++ q.

Section with_decimal.
Context {DL : DecimalLib}.
(** No member value looks like a library record, together with what follows it: the other tokens,
    then the bytes [R]. *)
Definition undisturbed_before (R : bytes) (ts : list token) : Prop :=
  forall before v after b,
    ts = before ++ Tk_value v :: after -> e_list e_token (Tk_value v :: after) b ->
    no_library (b ++ R).
End with_decimal.
