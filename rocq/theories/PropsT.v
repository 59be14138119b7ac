(** * PropsT: how much work the parser does (C63). *)
From Verif Require Import Base Utf8 Value DataTypes Records Parser.
From Verif Require Import Work Worked WorkBound WorkLower WorkPrice.
From Coq Require Import Lia.

Section with_decimal.
Context {DL : DecimalLib}.

(** The counted parser is the parser: same state, same result, on every input. *)
Theorem C63_counts_the_parser (P : Price) (fuel : nat) (s : state) (input : bytes) :
  (w_message fuel s input).2 = parse_remoting_message fuel s input.
Proof. apply w_message_result. Qed.

(** Whatever the input, accepted or not: the number of calls of record parsers plus the number of
    bytes they consume is at most 160 for each byte of the input plus 250. *)
Theorem C63_work_linear (input : bytes) : @work DL counting_calls input <= 160 * length input + 250.
Proof. apply message_bound. Qed.

(** And the account is complete: for an accepted message it covers every byte. *)
Theorem C63_every_byte_counted (input : bytes) m :
  deserialize input = POk m -> length input <= @work DL counting_calls input.
Proof.
  unfold deserialize, work. rewrite <- (@w_message_result DL counting_calls).
  destruct (@w_message DL counting_calls (2 * length input + 2) init_state input) as [n [s [j m'|e|e|q|]]] eqn:E;
    try done. intros _.
  pose proof (paid_message (2 * length input + 2) init_state input m' s j) as Hp.
  rewrite E in Hp. apply (Hp eq_refl).
Qed.

(** Charging every call that gives up for the whole input, and one more - it cannot have looked at
    more than that -, the work is at most quadratic. *)
Theorem C63_bytes_quadratic (input : bytes) :
  @work DL (S (length input)) input <= S (length input) * (160 * length input + 250).
Proof.
  etransitivity; [apply work_dear; lia|]. apply Nat.mul_le_mono_l, C63_work_linear.
Qed.
End with_decimal.

(** Two messages with objects nested in each other: the first is broken at the innermost point and
    refused, the second is accepted. *)
Section example.
Context {DL : DecimalLib}.

Definition C63_refused : bytes :=
  [x00;x01;x00;x00;x00;xff;xff;xff;xff;x01;x00;x00;x00;x00;x00;x00;x00;
   x10;x01;x00;x00;x00;x01;x00;x00;x00;
   x02;x02;x00;x00;x00;x01;x41;x01;x00;x00;x00;x01;x61;
   x02;x03;x00;x00;x00;x01;x41;x01;x00;x00;x00;x01;x61;
   x02;x04;x00;x00;x00;x01;x41;x01;x00;x00;x00;x01;x61;
   x08;x01;x02].
Definition C63_accepted : bytes :=
  [x00;x01;x00;x00;x00;xff;xff;xff;xff;x01;x00;x00;x00;x00;x00;x00;x00;
   x10;x01;x00;x00;x00;x01;x00;x00;x00;
   x02;x02;x00;x00;x00;x01;x41;x01;x00;x00;x00;x01;x61;
   x02;x03;x00;x00;x00;x01;x41;x01;x00;x00;x00;x01;x61;
   x0a; x0b].
Example C63_ex_refused :
  length C63_refused = 68 /\ (exists e, deserialize C63_refused = PErr e) /\ @work DL counting_calls C63_refused = 112.
Proof. split; [reflexivity|]. split; [eexists|]; vm_compute; reflexivity. Qed.
Example C63_ex_accepted :
  length C63_accepted = 54 /\ (exists m, deserialize C63_accepted = POk m)
  /\ @work DL counting_calls C63_accepted = 121.
Proof. split; [reflexivity|]. split; [eexists|]; vm_compute; reflexivity. Qed.
End example.
