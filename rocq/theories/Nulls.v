(** * Nulls: runs of nulls in arrays, and how they may be written.

    Specification only: nothing here mentions the parser. *)
From Verif Require Import Base Value Wire Grammar Tokens.

(** The headers of arrays, with the number of elements.  [nullable_array]: also those of
    BinaryArray records with elements that may be null. *)
Definition single_array (t : token) (len : N) : Prop :=
  match t with Tk_objects _ l | Tk_strings _ l => l = len | _ => False end.
Definition nullable_array (t : token) (len : N) : Prop :=
  match t with
  | Tk_array _ _ lengths _ (K_Object | K_SystemClass _ | K_Class _ _ | K_StringArray | K_ObjectArray) =>
      product lengths = len
  | _ => single_array t len
  end.

(** Elements that are a single record, and the number of places they take. *)
Definition element (t : token) : Prop :=
  match t with
  | Tk_typed _ | Tk_reference _ | Tk_string _ _ => True
  | Tk_nulls n => (0 < n)%N
  | _ => False
  end.
Definition places (t : token) : N := match t with Tk_nulls n => n | _ => 1%N end.
Definition total (ns : list N) : N := foldr N.add 0%N ns.

(** [respell A ts ts']: in one array of the message [ts] with a header in [A], after the elements
    [es], the runs of nulls [ns] are replaced by others [ns'] that stand for as many nulls. *)
Inductive respell (A : token -> N -> Prop) : list token -> list token -> Prop :=
| Respell before h len es ns ns' rest :
    A h len -> Forall element es ->
    Forall (fun n => (0 < n)%N) ns -> Forall (fun n => (0 < n)%N) ns' -> total ns = total ns' ->
    (total (map places es) + total ns <= len)%N ->
    respell A (before ++ h :: es ++ map Tk_nulls ns ++ rest) (before ++ h :: es ++ map Tk_nulls ns' ++ rest).
