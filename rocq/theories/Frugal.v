(** * Frugal: implementations of [Deserialize] that make nothing up.

    Specification only: of Visitors.v only the types of programs are used. *)
From Verif Require Import Base Utf8 Value Wire Serde SerdeSpec Reading Visitors Parts.

Section world.
Context {U Ty St : Type} (W : world U Ty St).
(** What a Rust value says, and what a visitor has been told so far. *)
Context (says : U -> list data) (knows : St -> list data).

Definition told (r : tres U) : list data := match r with TOk u => says u | TErr _ => [] end.
(** A returned value says nothing else than [known], and nothing more often. *)
Definition only (r : tres U) (known : list data) : Prop := told r ⊆+ known.

(** What is made of a scalar says this scalar at most, and at most once. *)
Record frugal_visitor (vis : visitor U Ty St) : Prop := {
  fr_bool b : only (on_bool vis b) [D_bool b];
  fr_int k z : only (on_int vis k z) [D_int z];
  fr_f32 n : only (on_f32 vis n) [D_f32 n];
  fr_f64 n : only (on_f64 vis n) [D_f64 n];
  fr_char c : only (on_char vis c) [D_char c];
  fr_str s : only (on_str vis s) [D_str s];
  fr_string s : only (on_string vis s) [D_str s];
  fr_borrowed s : only (on_borrowed_str vis s) [D_str s];
  fr_unit : only (on_unit vis) [];
  fr_none : only (on_none vis) [];
  fr_some : match on_some vis with O_return r => only r [] | O_read _ k => forall x, only (k x) (told x) end;
  fr_enum : match on_enum vis with O_return r => only r [] | O_read _ k => forall x, only (k x) (told x) end;
  fr_seq : knows (on_seq vis) = [];
  fr_map n : knows (on_map vis n) = [];
}.

(** In every state a visitor knows what it was told, each thing as often as it was told, or less. *)
Definition frugal : Prop :=
  (forall t, match w_impl W t with
             | I_skip r => only r []
             | I_call _ vis post => frugal_visitor vis /\ forall x, only (post x) (told x)
             end)
  /\ (forall st, match w_seq W st with
                 | Q_return r => only r (knows st)
                 | Q_next _ k =>
                     (forall u, knows (k (TOk (Some u))) ⊆+ knows st ++ says u)
                     /\ knows (k (TOk None)) ⊆+ knows st /\ forall e, knows (k (TErr e)) ⊆+ knows st
                 end)
  /\ (forall st, match w_map W st with
                 | P_return r => only r (knows st)
                 | P_key _ k =>
                     (forall u, knows (k (TOk (Some u))) ⊆+ knows st ++ says u)
                     /\ knows (k (TOk None)) ⊆+ knows st /\ forall e, knows (k (TErr e)) ⊆+ knows st
                 | P_value _ k =>
                     (forall u, knows (k (TOk u)) ⊆+ knows st ++ says u) /\ forall e, knows (k (TErr e)) ⊆+ knows st
                 | P_entry _ _ k =>
                     (forall u w, knows (k (TOk (Some (u, w)))) ⊆+ knows st ++ says u ++ says w)
                     /\ knows (k (TOk None)) ⊆+ knows st /\ forall e, knows (k (TErr e)) ⊆+ knows st
                 end).
End world.

(** The parts of a message; method calls and returns have none for an implementation. *)
Definition message_parts (m : message) : list value := match m with MValue v => parts v | _ => [] end.

Section with_libs.
Context {DL : DecimalLib} {FL : FloatLib}.
(** Every one of [ds] is stated by one of [ps] of its own. *)
Definition stated_by (ps : list value) (ds : list data) : Prop :=
  exists used, used ⊆+ ps /\ Forall2 states used ds.
End with_libs.
