(** C40, second part: the nesting depth of a message is bounded by its length. *)
From Verif Require Import Base Utf8 Value DataTypes Records Parser Wire BaseLemmas DataTypesLemmas
  RecordsLemmas MethodLemmas SafetyLemmas Safety Grammar Heads Complete Sound Fuel Message Run Spec
  LemmasA LemmasB LemmasC Positions Reach LemmasD Trees TreeLemmas PropsB PropsC PropsD Calm Size
  Leftover PropsF Depth.
From Coq Require Import Lia ZifyNat ZifyN.

Section C40.
Context {DL : DecimalLib}.

Lemma sub_value_depth v w : sub_value v w -> depth v <= depth w.
Proof.
  induction 1 as [|o k w Hin _ IH|vs w Hin _ IH]; [done| |].
  - cbn [depth]. enough (depth w <= fold_right (fun kv n => max (depth kv.2) n) 0 (obj_members o)) by lia. clear IH.
    induction (obj_members o) as [|[k' w'] l IHl]; [by apply elem_of_nil in Hin|]. cbn [fold_right snd].
    apply elem_of_cons in Hin as [[= -> ->]|Hin]; [lia|]. specialize (IHl Hin). lia.
  - cbn [depth]. enough (depth w <= fold_right (fun w n => max (depth w) n) 0 vs) by lia. clear IH.
    induction vs as [|w' l IHl]; [by apply elem_of_nil in Hin|]. cbn [fold_right].
    apply elem_of_cons in Hin as [->|Hin]; [lia|]. specialize (IHl Hin). lia.
Qed.

(** No value in an accepted message is nested more deeply than half the length of the message. *)
Theorem C40_depth_bound : forall W m v,
  deserialize W = POk m -> value_in v m -> 2 * depth v <= length W.
Proof.
  intros W m v Hd (w & Hw & Hs). apply sub_value_depth in Hs. apply accepted_deep in Hd.
  apply deepest_elem in Hw. unfold deep, len in *. lia.
Qed.
(** For messages of the grammar a level of nesting takes at least four bytes. *)
Theorem C40_depth_bound_grammar : forall W m v,
  g_message W m -> value_in v m -> 4 * depth v <= length W.
Proof.
  intros W m v Hd (w & Hw & Hs). apply sub_value_depth in Hs. apply grammar_deep in Hd.
  apply deepest_elem in Hw. unfold deep, len in *. lia.
Qed.

(** A message outside of the grammar. *)
Example C40_bound_ex : deserialize leak_message = POk (MValue leak_result)
  /\ value_in leak_result (MValue leak_result) /\ depth leak_result = 3 /\ length leak_message = 115.
Proof.
  split; [exact leak_accepted|]. split; [exists leak_result; split; [by left|constructor]|].
  split; vm_compute; reflexivity.
Qed.

(** Four bytes per level are enough: an array with [n + 1] dimensions of length one. *)
Definition thin_header (n : nat) : bytes :=
  x07 :: enc_uint 4 1 ++ n2b (bat_code BAT_Rectangular)
  :: (enc_uint 4 (N.of_nat (length (replicate (S n) 1%N))) ++ concat (map (enc_uint 4) (replicate (S n) 1%N))) ++ []
  ++ [x00] ++ [n2b (pt_code PT_Byte)].
Definition thin_message (n : nat) : bytes := header_bytes 1 (-1) ++ thin_header n ++ [x07] ++ [x0b].
Lemma thin_depth n v leaves : has_shape (replicate n 1%N) v leaves -> exists w, leaves = [w] /\ depth v = n + depth w.
Proof.
  revert v leaves. induction n as [|n IH]; intros v leaves H; cbn [replicate] in H.
  - inv H. by exists v.
  - inversion H as [|d dims rows lvs Hd HF E1 E2 E3]. subst.
    destruct rows as [|r [|]]; cbn [length] in Hd; [done| |lia].
    inversion HF as [|r' l rows' lvs' Hr HF' E4 E5]. subst. inversion HF'. subst.
    apply IH in Hr as (w & -> & Hs). exists w. split; [done|]. cbn [depth fold_right]. rewrite Hs. lia.
Qed.
Theorem C40_four_bytes_per_level : forall n, (N.of_nat n < 2 ^ 31 - 1)%N ->
  length (thin_message n) = 4 * n + 35
  /\ exists v, deserialize (thin_message n) = POk (MValue v) /\ depth v = S n.
Proof.
  intros n Hn. split.
  { assert (forall n, length (concat (map (enc_uint 4) (replicate n 1%N))) = 4 * n) as E.
    { clear. intros n. induction n as [|n IH]; [done|]. cbn [replicate map concat]. rewrite app_length, IH, enc_uint_length. lia. }
    unfold thin_message, thin_header, header_bytes, enc_int.
    repeat (rewrite ?app_length, ?enc_uint_length, ?E; cbn [length]). lia. }
  destruct (C26_shape (thin_message n) 1 empty_env BAT_Rectangular 1%N (replicate n 1%N) None
    (K_Primitive PT_Byte) (thin_header n) [VByte 7] [x07]) as (v & Hd & Hs).
  - apply after_start; [done|by apply hid_ok].
  - change (1%N :: replicate n 1%N) with (replicate (S n) 1%N).
    exists (enc_uint 4 1), (enc_uint 4 (N.of_nat (length (replicate (S n) 1%N))) ++ concat (map (enc_uint 4) (replicate (S n) 1%N))), [], [x00], [n2b (pt_code PT_Byte)].
    split; [done|]. split; [|done]. apply ex_lens.
    + apply Forall_replicate. done.
    + unfold valid_len. rewrite replicate_length. change (2 ^ 31 - 1)%N with 2147483647%N in Hn. change (2 ^ 31)%N with 2147483648%N. lia.
  - intros k Hk. change (1%N :: replicate n 1%N) with (replicate (S n) 1%N).
    destruct (take_ones (S n) k) as [j ->]. rewrite product_ones. done.
  - change (1%N :: replicate n 1%N) with (replicate (S n) 1%N). by rewrite product_ones.
  - change (1%N :: replicate n 1%N) with (replicate (S n) 1%N). rewrite product_ones. split; [done|].
    cbn [N.to_nat Pos.to_nat Pos.iter_op replicate zip zip_with]. rewrite <- (app_nil_r [x07]). apply e_cons; [|apply e_nil].
    by apply T_prim.
  - exists v. split; [done|]. change (1%N :: replicate n 1%N) with (replicate (S n) 1%N) in Hs.
    apply thin_depth in Hs as (w & [= <-] & ->). cbn [depth]. lia.
Qed.
End C40.
