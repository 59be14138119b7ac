(** * Content: how much a message says.

    Specification only: nothing here mentions the parser. *)
From Verif Require Import Base Value Spec.

(** The number of bytes of a string. *)
Definition text_size (s : str) : N := N.of_nat (length s).

(** The width of a number; a decimal is written as text of any length and counts one. *)
Definition width (v : value) : N :=
  match v with
  | VBoolean _ | VByte _ | VSByte _ | VChar _ | VDecimal _ => 1
  | VInt16 _ | VUInt16 _ => 2
  | VInt32 _ | VUInt32 _ | VSingle _ => 4
  | VInt64 _ | VUInt64 _ | VDouble _ | VTimeSpan _ | VDateTime _ => 8
  | VObject _ | VArray _ | VString _ | VNull => 0
  end%N.

(** The content of a value in bytes: its numbers with their width; its strings, class names and
    member names with their text and one byte each.  What occurs twice counts twice.  Nulls, arrays
    and library names count nothing. *)
Fixpoint content (v : value) : N :=
  match v with
  | VObject o =>
      1 + text_size (obj_class o)
      + fold_right (fun kv n => (1 + text_size kv.1) + content kv.2 + n) 0 (obj_members o)
  | VArray vs => fold_right (fun w n => content w + n) 0 vs
  | VString s => 1 + text_size s
  | _ => width v
  end%N.

(** The number of values in a value, itself included, that are neither null nor an array. *)
Fixpoint solid (v : value) : N :=
  match v with
  | VObject o => 1 + fold_right (fun kv n => solid kv.2 + n) 0 (obj_members o)
  | VArray vs => fold_right (fun w n => solid w + n) 0 vs
  | VNull => 0
  | _ => 1
  end%N.
Definition message_solid (m : message) : N := fold_right (fun v n => solid v + n)%N 0%N (message_values m).

(** The content of a message: of its values, and the names and the context of a call. *)
Definition message_content (m : message) : N :=
  (fold_right (fun v n => content v + n) 0 (message_values m)
   + fold_right (fun s n => 1 + text_size s + n) 0 (message_strings m))%N.
