(** * PropsS: which error is reported, and where it points to (C62). *)
From Verif Require Import Base Utf8 Value DataTypes Records Parser Serde Wire BaseLemmas Grammar Heads Spec
  Positions Stops Ragged Panics PropsA PropsE PropsM PropsQ Blame BlameMessage.

Section with_libs.
Context {DL : DecimalLib} {FL : FloatLib}.

(** ** C62 *)
Theorem C62_error_exactly : forall W er, deserialize W = PErr er <-> refuses W er.
Proof. intros W er. split; [apply refused_found|apply refused]. Qed.

(** The rules determine the error. *)
Theorem C62_one_error : forall W er1 er2, refuses W er1 -> refuses W er2 -> er1 = er2.
Proof. intros W er1 er2 H1%C62_error_exactly H2%C62_error_exactly. congruence. Qed.

(** Every byte string is accepted, or makes the parser panic, or is refused by the rules, and only
    one of these. *)
Theorem C62_refused_by_rule : forall W,
  (exists er, refuses W er) <->
  ~ (exists m, accepts W m) /\ ~ (exists e i, expects W e i /\ calamity e i).
Proof.
  intros W. rewrite <- C60_refused_exactly. split; intros [er H]; exists er; by apply C62_error_exactly.
Qed.

(** Where it points to is in the input. *)
Theorem C62_within : forall W er, refuses W er -> exists p, W = p ++ e_input er.
Proof. intros W er H%C62_error_exactly. by apply C36_error_position. Qed.

(** [from_slice] reports the same, whatever the type. *)
Theorem C62_from_slice : forall t W er, from_slice t W = FErr_parse er <-> refuses W er.
Proof.
  intros t W er. rewrite <- C62_error_exactly. unfold from_slice.
  destruct (deserialize W) as [m| | |]; [destruct (message_deserialize m t)|..]; split; congruence.
Qed.

(** A class whose second boolean member is 2: the error points to that byte. *)
Definition ex_bad_bool : bytes := ex_bools (bs_of [1;97; 1;98]%N) (bs_of [0; 2]%N).
Example C62_ex_member : refuses ex_bad_bool (mkError (bs_of [2; 11]%N) (E_ExpectedPrimitive PT_Boolean)).
Proof. apply C62_error_exactly. vm_compute. reflexivity. Qed.
(** By the rules alone: an empty message with something behind it. *)
Example C62_ex_trailing : refuses (header_bytes 0 (-1) ++ bs_of [11; 7]%N) (mkError (bs_of [7]%N) E_TrailingData).
Proof.
  eapply (Ref_value _ _ None (header_bytes 0 (-1)) (bs_of [11; 7]%N) empty_env (bs_of [11; 7]%N) empty_env).
  - reflexivity.
  - exists (-1)%Z. vm_compute. repeat split; intros [=].
  - constructor.
  - apply end_stops.
  - intros ([flags inl] & b & r & Hb & E). assert (head_in [x15; x16] (b ++ r)) as Hh by (by eapply method_record_head).
    rewrite <- E in Hh. revert Hh. apply (bool_decide_unpack _). vm_compute. exact I.
  - intros [er Hf%flaw_method_head]. revert Hf. apply (bool_decide_unpack _). vm_compute. exact I.
  - eapply (BX_trailing _ _ _ _ empty_env (bs_of [7]%N)); [constructor|done|reflexivity].
Qed.
End with_libs.
