(** * Placement: the places of the libraries in a message.

    Specification only: nothing here mentions the parser. *)
From Verif Require Import Base Value Wire Grammar Tokens.

(** The libraries that the tokens declare, and the tokens without these declarations. *)
Fixpoint libraries (ts : list token) : list (N * str) :=
  match ts with
  | [] => []
  | Tk_library id name :: ts => (id, name) :: libraries ts
  | _ :: ts => libraries ts
  end.
Fixpoint strip (ts : list token) : list token :=
  match ts with
  | [] => []
  | Tk_library _ _ :: ts => strip ts
  | t :: ts => t :: strip ts
  end.
(** [ts] and [ts'] declare the same libraries, at other places and in another order, and agree
    otherwise. *)
Definition same_but_places (ts ts' : list token) : Prop :=
  strip ts = strip ts' /\ Permutation (libraries ts) (libraries ts').
