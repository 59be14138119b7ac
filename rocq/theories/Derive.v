(** * Derive: structs with serde's attributes.

    What [#[derive(Deserialize)]] generates for a struct with named fields, as a program against
    serde's traits (serde_derive 1.0, from its documentation), and what its attributes promise.  The
    crate's side of it, [deserialize_struct] (value/mod.rs 223-237, object.rs 155-171), is in
    Visitors.v. *)
From Verif Require Import Base Utf8 Value Wire Serde SerdeSpec Reading Visitors VisitorSpec.

Section derive.
Context {DL : DecimalLib} {FL : FloatLib} {TL : TextLib}.
Context {U Ty St : Type}.

(** A field.  [rename], [rename_all], [alias]: the names it has in the data ([skip]: none).  [with],
    [deserialize_with]: a type of one's own.  [default] (of the field or of the struct), [skip]: the
    value if it is absent; the same for an [Option], which is then [None].  Otherwise there is none. *)
Record field := mkField { f_names : list str; f_type : Ty; f_absent : option U }.

(** The struct: its fields, whether it has [deny_unknown_fields], the value with these fields, the
    type of field names and [IgnoredAny]. *)
Record struct_type := mkStructType {
  s_fields : list field;
  s_deny : bool;
  s_make : list U -> U;
  s_name : Ty;
  s_ignored : Ty;
}.

(** ** The generated program *)

(** The enum of field names, and the visitor while it reads: which fields it has got so far. *)
Record generated := mkGenerated {
  g_known : nat -> U;
  g_other : U;
  g_which : U -> option nat;
  g_next : list (nat * U) -> St;
  g_field : list (nat * U) -> nat -> St;
  g_skip : list (nat * U) -> St;
  g_return : tres U -> St;
  g_unknown : str -> str;
  g_duplicate : nat -> str;
  g_missing : nat -> str;
}.

(** The first field with this name. *)
Fixpoint field_named (s : str) (fs : list field) : option nat :=
  match fs with
  | [] => None
  | f :: fs => if decide (s ∈ f_names f) then Some 0 else option_map S (field_named s fs)
  end.
Fixpoint got_field (i : nat) (got : list (nat * U)) : option U :=
  match got with
  | [] => None
  | (j, u) :: got => if Nat.eqb i j then Some u else got_field i got
  end.
(** After the last member: every field, from the [i]-th on. *)
Fixpoint all_fields (G : generated) (got : list (nat * U)) (i : nat) (fs : list field) : tres (list U) :=
  match fs with
  | [] => TOk []
  | f :: fs =>
      let$ u := match got_field i got with
                | Some u => TOk u
                | None => match f_absent f with Some u => TOk u | None => TErr (g_missing G i) end
                end in
      let$ us := all_fields G got (S i) fs in
      TOk (u :: us)
  end.

Definition name_result (D : struct_type) (G : generated) (s : str) : tres U :=
  match field_named s (s_fields D) with
  | Some i => TOk (g_known G i)
  | None => if s_deny D then TErr (g_unknown G s) else TOk (g_other G)
  end.
Definition after_name (D : struct_type) (G : generated) (got : list (nat * U)) (r : tres (option U)) : St :=
  match r with
  | TErr e => g_return G (TErr e)
  | TOk None => g_return G (tres_map (s_make D) (all_fields G got 0 (s_fields D)))
  | TOk (Some n) =>
      match g_which G n with
      | Some i => match got_field i got with
                  | Some _ => g_return G (TErr (g_duplicate G i))
                  | None => g_field G got i
                  end
      | None => g_skip G got
      end
  end.
Definition after_field (G : generated) (got : list (nat * U)) (i : nat) (r : tres U) : St :=
  match r with TOk u => g_next G ((i, u) :: got) | TErr e => g_return G (TErr e) end.
Definition after_other (G : generated) (got : list (nat * U)) (r : tres U) : St :=
  match r with TOk _ => g_next G got | TErr e => g_return G (TErr e) end.

(** [derives W t D]: in [W], the implementation of [t] is what [derive] generates for [D]. *)
Definition derives (W : world U Ty St) (t : Ty) (D : struct_type) : Prop :=
  exists G : generated,
    (exists vis, w_impl W t = I_call M_struct vis id /\ forall n, on_map vis n = g_next G [])
    /\ (exists vis, w_impl W (s_name D) = I_call M_any vis id /\ forall s, on_str vis s = name_result D G s)
    /\ (forall i, g_which G (g_known G i) = Some i) /\ g_which G (g_other G) = None
    /\ (forall got, w_map W (g_next G got) = P_key (s_name D) (after_name D G got))
    /\ (forall got i f, s_fields D !! i = Some f -> w_map W (g_field G got i) = P_value (f_type f) (after_field G got i))
    /\ (forall got, w_map W (g_skip G got) = P_value (s_ignored D) (after_other G got))
    /\ (forall r, w_map W (g_return G r) = P_return r).

(** ** What the attributes promise *)

(** [has_field W f ms u]: of the members [ms], exactly one has one of the names of the field, and
    it reads as [u]; or none has, and [u] is the value for an absent field. *)
Inductive has_field (W : world U Ty St) (f : field) (ms : list (str * value)) (u : U) : Prop :=
| HF_present s v : (s, v) ∈ ms -> s ∈ f_names f -> (forall s' v', (s', v') ∈ ms -> s' ∈ f_names f -> s' = s) ->
    gets W v (f_type f) (TOk u) -> has_field W f ms u
| HF_absent : (forall s v, (s, v) ∈ ms -> s ∉ f_names f) -> f_absent f = Some u -> has_field W f ms u.

(** [struct_value W D ms u]: the object with the members [ms] reads as [u]. *)
Definition struct_value (W : world U Ty St) (D : struct_type) (ms : list (str * value)) (u : U) : Prop :=
  (exists us, u = s_make D us /\ Forall2 (fun f u => has_field W f ms u) (s_fields D) us)
  /\ forall s v, (s, v) ∈ ms -> (forall f, f ∈ s_fields D -> s ∉ f_names f) ->
       s_deny D = false /\ exists x, gets W v (s_ignored D) (TOk x).
(** No name stands for two fields. *)
Definition distinct_fields (D : struct_type) : Prop := NoDup (concat (map f_names (s_fields D))).
End derive.
Arguments field : clear implicits.
Arguments struct_type : clear implicits.
Arguments generated : clear implicits.
