(** * Rewriting: what may be changed in a message without changing its content.

    Specification only: nothing here mentions the parser. *)
From Verif Require Import Base Value Wire Grammar Tokens Blocks Nulls Placement Untyped ArrayForms.
From Coq Require Import Relations.

Section with_decimal.
Context {DL : DecimalLib}.

(** A message: the root id of its header and its tokens. *)
Inductive rewrites : option N * list token -> option N * list token -> Prop :=
(** Objects and libraries get other ids. *)
| RW_names f g root ts :
    Inj eq eq f -> Inj eq eq g -> rewrites (root, ts) (option_map f root, map (rename f g) ts)
(** Records that have nothing to do with each other come in another order. *)
| RW_order root Ws Xs Ys e e' rest :
    t_blocks empty_env Ws e -> t_blocks e Xs e' -> pairwise independent Xs -> Permutation Xs Ys ->
    rewrites (root, concat Ws ++ concat Xs ++ rest) (root, concat Ws ++ concat Ys ++ rest)
(** Runs of nulls in an array are written in another way. *)
| RW_nulls root ts ts' : respell single_array ts ts' -> rewrites (root, ts) (root, ts')
(** Libraries are declared at other places (where this is allowed). *)
| RW_places root ts ts' m' :
    same_but_places ts ts' -> t_message root ts' m' -> rewrites (root, ts) (root, ts')
(** Members and elements of any type are declared as Object, or not at all. *)
| RW_objects root ts : rewrites (root, ts) (root, as_objects ts)
| RW_untyped root ts : spaced ts -> types_complete ts -> rewrites (root, ts) (root, untyped ts)
(** Arrays are written in other records. *)
| RW_arrays root ts ts' :
    array_forms true ts ts' -> single_nulls ts -> spaced ts -> rewrites (root, ts) (root, ts').
End with_decimal.
