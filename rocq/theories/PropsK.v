(** * PropsK: C55. *)
From Verif Require Import Base Utf8 Utf8Lemmas Value DataTypes Records Parser Wire Grammar BaseLemmas DataTypesLemmas
  RecordsLemmas MethodLemmas SafetyLemmas Safety Heads Complete Sound Fuel Message Run Spec LemmasA LemmasB
  Trees TreeLemmas SerdeSpec Transmit.
From Coq Require Import Lia.

Section with_decimal.
Context {DL : DecimalLib}.

(** ** C55 Every message content can be transmitted *)

(** Within the limits of the format (lengths below 2^31), a value, method call or method return is
    the result of some message exactly if its strings are UTF-8, its numbers are in range (chars
    below 256), its decimals are readings of strings, its objects have distinct member names, a
    top-level value is no bare primitive and a return value no object or array. *)
Theorem C55_results : forall m, message_small m ->
  ((exists W, deserialize W = POk m) <-> transmittable m).
Proof.
  intros m Hm. split.
  - intros [W H]. by eapply accepted_transmittable.
  - intros H. destruct (transmit m Hm H) as [W HW]. exists W. by apply message_complete.
Qed.
(** The necessary part holds without limits. *)
Theorem C55_only : forall W m, deserialize W = POk m -> transmittable m.
Proof. exact accepted_transmittable. Qed.

(** A call with an object of a library class, a nested array and a null; a bare primitive at the
    top level and a char outside of Latin-1. *)
Definition ex_object : value :=
  VObject (mkObj [x61] (Some [x6c]) [([x78], VArray [VInt32 (-1); VArray []; VNull]); ([x79], VChar 255)]).
Definition ex_sent : message :=
  MMethodCall (mkMethodCall [x6d] [x74] None (Some [ex_object; VString [x73]])).
Lemma sub_inv (P : value -> Prop) w : P w ->
  match w with
  | VObject o => Forall (fun kv => forall x, sub_value x kv.2 -> P x) (obj_members o)
  | VArray vs => Forall (fun v => forall x, sub_value x v -> P x) vs
  | _ => True
  end -> forall x, sub_value x w -> P x.
Proof.
  intros Hw H x Hx. destruct Hx as [|o k w Hin Hs|vs w Hin Hs]; [done| |]; rewrite Forall_forall in H.
  - by apply (H (k, w)).
  - by apply (H w).
Qed.
Lemma ex_each (P : value -> Prop) :
  P ex_object -> P (VArray [VInt32 (-1); VArray []; VNull]) -> P (VInt32 (-1)) -> P (VArray []) -> P VNull ->
  P (VChar 255) -> P (VString [x73]) -> forall x, value_in x ex_sent -> P x.
Proof.
  intros H1 H2 H3 H4 H5 H6 H7 x (w & Hw & Hx). revert x Hx. cbn in Hw.
  apply elem_of_cons in Hw as [->|Hw]; [|apply elem_of_list_singleton in Hw as ->; by apply sub_inv].
  apply sub_inv; [done|]. repeat constructor; apply sub_inv; try done. repeat constructor; by apply sub_inv.
Qed.
Lemma ascii_text b : (b2n b < 128)%N -> text [b].
Proof.
  intros H. split; [|done]. exists [b2n b]. pose proof (enc_char_1 b H) as [E Hs]. split; [by apply Forall_singleton|].
  unfold enc_utf8. cbn. by rewrite E.
Qed.
Example C55_ex : exists W, deserialize W = POk ex_sent.
Proof.
  apply C55_results.
  - split; [apply (ex_each node_small); done|]. split; [done|]. exists [[x6c]]. split; [done|].
    assert (forall x, value_in x ex_sent -> forall o l, x = VObject o -> obj_library o = Some l -> l ∈ [[x6c]]) as H.
    { apply (ex_each (fun x => forall o l, x = VObject o -> obj_library o = Some l -> l ∈ [[x6c]])); try done. intros o l [= <-] [= <-]. by left. }
    intros l (o & Ho & Hl). by eapply H.
  - split; [|split; [|done]].
    + apply (ex_each node_ok); (split; [|split; [|done]]); cbn; try done; try (by repeat (apply Forall_cons; split; [by apply ascii_text|])).
      { apply (bool_decide_unpack _). vm_compute. exact I. } { split; [by left|done]. }
    + cbn. repeat (apply Forall_cons; split; [by apply ascii_text|]). apply Forall_nil. done.
Qed.
Example C55_ex_not : (forall W n, deserialize W <> POk (MValue (VInt32 n)))
  /\ forall W, deserialize W <> POk (MValue (VArray [VChar 256])).
Proof.
  split.
  - intros W n H. by apply C55_only in H as (_ & _ & H).
  - intros W H. apply C55_only in H as (H & _ & _). destruct (H (VChar 256)) as ([_ Hc] & _); [|done].
    exists (VArray [VChar 256]). split; [left|]. eapply sub_element; [left|constructor].
Qed.
End with_decimal.
