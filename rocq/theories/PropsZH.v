(** * PropsZH: C81, messages made by a program are read like received ones. *)
From Verif Require Import Base Utf8 Value DataTypes Records Parser Wire Spec PropsA Serde SerdeLemmas SerdeSpec Display
  Reading Made PropsG PropsH PropsI PropsL.
From Verif Require Import Visitors VisitorSpec VisitorLemmas VisitorComplete VisitorEnds PropsU.
From Coq Require Import Lia.
From Coq Require Strings.String.
Import String.StringSyntax.

Section with_libs.
Context {DL : DecimalLib} {FL : FloatLib}.

Lemma rust_distinct v : rust_value v -> distinct_names v.
Proof.
  induction v as [[c l ms] IH|vs IH|v Hv] using value_ind'; intros H.
  - constructor; [exact (proj1 (H _ (sub_here _)))|]. rewrite Forall_forall in IH. apply Forall_forall.
    intros [k u] Hu. apply (IH (k, u) Hu). by eapply rust_member.
  - constructor. rewrite Forall_forall in IH. apply Forall_forall. intros u Hu. apply (IH u Hu). by eapply rust_element.
  - by constructor.
Qed.
Lemma rust_sound v : rust_value v -> sound_value v.
Proof.
  intros H. split; [by apply rust_distinct|]. intros s Hs. apply (H _ Hs). by left.
Qed.

(** What is received is a value that a program could have made. *)
Theorem C81_received : forall W v, deserialize W = POk (MValue v) -> rust_value v.
Proof.
  intros W v HW. apply typed_rust. intros w Hw. assert (value_in w (MValue v)) as Hin by (exists v; split; [by left|done]). split.
  - by apply (C11_values_in_range W (MValue v)).
  - intros s Hs. apply (C07_strings_utf8 W (MValue v)); [done|]. right. by exists w.
Qed.

Lemma top_option v u d : message_deserialize (MValue v) (T_option u) = SOk d <-> v = VNull /\ d = D_none.
Proof.
  cbn [message_deserialize].
  assert (v = VNull \/ v <> VNull) as [->|Hv] by (destruct v; (by left) || by right).
  - cbn. split; [by intros [= <-]|by intros [_ ->]].
  - assert (value_deserialize_any value_deserialize v (T_option u) = SErr) as ->; [|split; [done|by intros [? _]]].
    destruct v as [o| | | | | | | | | | | | | | | | | |]; try done.
    destruct o as [c l ms]. cbn [value_deserialize_any]. unfold object_deserialize_any.
    destruct l; [done|]. destruct (hm_get (class_name c) wrapper_classes) as [prim|].
    + destruct (wrapper prim _) as [x|]; [|done]. by destruct x.
    + by repeat case_match.
Qed.
(** The reading rules of Reading.v hold for every value, received or made. *)
Theorem C81_rules : decimal_text -> forall v t d, rust_value v -> rust_type t ->
  message_deserialize (MValue v) t = SOk d <-> reads_top v t d.
Proof.
  intros Hdec v t d Hv Ht.
  assert ((exists u, t = T_option u) \/ no_option t) as [[u ->]|Hno].
  { destruct t as [| | | | | | | | |u| | | | | | | |]; try (right; intros u' [=]; fail). left. by exists u. }
  - assert (message_deserialize (MValue v) (T_option u) = SOk d <-> v = VNull /\ d = D_none) as ->.
    { apply (top_option v u d). }
    split.
    + intros [-> ->]. constructor.
    + intros Hr. inversion Hr as [|? ? ? Hno]; subst; [done|]. by destruct (Hno u).
  - assert (message_deserialize (MValue v) t = SOk d <-> value_deserialize v t = SOk d) as ->.
    { cbn [message_deserialize]. rewrite value_deserialize_eq.
      destruct t as [| | | | | | | | |u| | | | | | | |]; try done. by destruct (Hno u). }
    rewrite (reads_iff Hdec v (rust_sound _ Hv) t d Ht). split; [by constructor|].
    intros Hr. inversion Hr; subst; [by destruct (Hno t0)|done].
Qed.
(** The rules are about the value alone, so the results are well typed. *)
Theorem C81_typed : decimal_text -> forall v t d, rust_value v -> rust_type t ->
  message_deserialize (MValue v) t = SOk d -> has_type t d.
Proof.
  intros Hdec v t d Hv Ht H. apply C81_rules in H; [|done..].
  destruct H as [|v t d Hno Hr]; [constructor|]. by eapply reads_typed.
Qed.
(** Reading bytes is parsing them and reading the message. *)
Theorem C81_from_slice : forall W m t d, deserialize W = POk m ->
  from_slice t W = FOk d <-> message_deserialize m t = SOk d.
Proof. intros W m t d H. unfold from_slice. rewrite H. destruct (message_deserialize m t); split; congruence. Qed.
(** Method calls and returns are nothing that can be read, whatever they hold. *)
Theorem C81_methods : forall c r t, message_deserialize (MMethodCall c) t = SErr /\ message_deserialize (MMethodReturn r) t = SErr.
Proof. done. Qed.
(** The order of the members does not matter. *)
Theorem C81_order : forall v w t, rust_value v -> same_value v w ->
  message_deserialize (MValue w) t = message_deserialize (MValue v) t.
Proof.
  intros v w t Hv Hs. destruct (same_methods_all v w Hs (rust_distinct _ Hv)) as [H1 H2].
  cbn [message_deserialize]. destruct t; done.
Qed.

(** ** Types with implementations of their own *)

Context {TL : TextLib}.
Section world.
Context {U Ty St : Type} (T : world U Ty St).

(** [gives m t r]: reading the message [m], whose members are enumerated in this order, gives [r]. *)
Definition gives (m : message) (t : Ty) (r : tres U) : Prop := exists n, message_run T n m t = Done r.

Theorem C81_own_types : forall v w t r, rust_value v -> same_value v w ->
  gives (MValue w) t r <-> message_gets T (MValue w) t r.
Proof.
  intros v w t r Hv Hs. assert (forall u, MValue w = MValue u -> distinct_names u) as Hd.
  { intros u [= <-]. eapply same_distinct; [exact Hs|by apply rust_distinct]. }
  split; [intros [n Hn]; by eapply message_sound|]. intros Hg. by apply message_complete in Hg.
Qed.
Theorem C81_own_types_unique : forall v w t r r', rust_value v -> same_value v w ->
  message_gets T (MValue w) t r -> message_gets T (MValue w) t r' -> r = r'.
Proof.
  intros v w t r r' Hv Hs H1 H2. apply (C81_own_types v w _ _ Hv Hs) in H1 as [n1 H1].
  apply (C81_own_types v w _ _ Hv Hs) in H2 as [n2 H2].
  pose proof (message_mono T n1 (n1 `max` n2) (MValue w) t ltac:(lia)) as M1.
  pose proof (message_mono T n2 (n1 `max` n2) (MValue w) t ltac:(lia)) as M2.
  rewrite (less_stopped _ _ M1) in M2 by congruence.
  rewrite H1, H2 in M2. apply less_stopped in M2; [|done]. congruence.
Qed.
(** Implementations that come to an end and keep to the protocol get an answer from every message,
    whatever it holds. *)
Theorem C81_own_types_answers : ends T -> orderly T -> forall m t, exists r, gives m t r.
Proof.
  intros He Ho m t. destruct (message_stops T m t He) as [n Hn].
  pose proof (message_no_panic T n m t Ho) as Hp.
  destruct (message_run T n m t) as [r| |] eqn:E; [|done|done]. by exists r, n.
Qed.
End world.

(** ** Example: a character of a received message is below 0x100 (C13), one of a program can be any. *)
Definition ex_euro : value :=
  VObject (mkObj (lit "Price") None [(lit "unit", VChar 0x20AC); (lit "value", VInt32 5)]).
Definition ex_euro_type : target := T_struct [(lit "value", T_int U8); (lit "unit", T_char)].
Example C81_ex : rust_value ex_euro /\ rust_type ex_euro_type
  /\ message_deserialize (MValue ex_euro) ex_euro_type
     = SOk (D_struct [(lit "value", D_int 5); (lit "unit", D_char 0x20AC)]).
Proof.
  split_and!.
  - intros w Hw. inversion Hw as [|o k u Hin Hs|]; subst.
    + split; [apply (bool_decide_unpack _); vm_compute; exact I|]. intros s Hs.
      apply elem_of_list_In in Hs. cbn in Hs.
      destruct Hs as [<-|[<-|[<-|[]]]];
        [exists [80; 114; 105; 99; 101]%N|exists [117; 110; 105; 116]%N|exists [118; 97; 108; 117; 101]%N];
        (split; [repeat constructor; by left|vm_compute; reflexivity]).
    + apply elem_of_list_In in Hin. cbn in Hin. destruct Hin as [[= <- <-]|[[= <- <-]|[]]]; inversion Hs; subst.
      * split; [left; lia|]. intros s Hs'. by apply elem_of_nil in Hs'.
      * split; [cbn; lia|]. intros s Hs'. by apply elem_of_nil in Hs'.
  - apply TT_struct.
    + apply (bool_decide_unpack _). vm_compute. exact I.
    + apply Forall_cons_2; [by constructor|]. apply Forall_cons_2; [by constructor|constructor].
  - vm_compute. reflexivity.
Qed.
End with_libs.
