(** * PropsZO: C88, a message says no more than its bytes. *)
From Verif Require Import Base Utf8 Value DataTypes Records Parser Wire Grammar Message Run Spec PropsA
  LemmasA Calm PropsF Serde SerdeLemmas SerdeSpec Reading Equality EqualitySpec EqualData EqualReads Parts
  PropsG PropsH PropsI PropsL PropsZM Content ContentLemmas.
From Verif Require Import Visitors VisitorSpec Frugal PropsU PropsZN.
From Coq Require Import Lia.
From Coq Require Strings.String.
Import String.StringSyntax.

Section with_decimal.
Context {DL : DecimalLib}.

(** The content of every accepted message is at most twice as long as its bytes. *)
Theorem C88_twice : forall W m, deserialize W = POk m ->
  (message_content m <= 2 * N.of_nat (length W))%N.
Proof. apply accepted_content. Qed.
(** It is shorter than the bytes, by the header at least, if the message is one of the format's
    grammar (C39) ... *)
Theorem C88_grammar : forall W m, g_message W m ->
  (message_content m + 17 <= N.of_nat (length W))%N.
Proof. apply grammar_content. Qed.
(** ... in particular if byte 9 (references) does not occur after the header. *)
Theorem C88_without_references : forall W m, deserialize W = POk m -> x09 ∉ drop 17 W ->
  (message_content m + 17 <= N.of_nat (length W))%N.
Proof. intros W m H H9. apply grammar_content. by apply C39_exact_without_references. Qed.

(** The factor is needed: an object that a failed attempt left behind is referenced, read once more
    and referenced again.  The objects 1 "A" with a, b and c, 2 "B" and 7 "C" in it, 6 "D", 7 "E" as in
    [leak_body], but with a text in "E"; then the object 9 "F" with references to 1 and to 7. *)
Definition twice_body (n : N) (s : list N) : bytes := bs_of (leak_class 1 65 [97; 98; 99]%N ++ leak_ref 6
  ++ leak_class 2 66 [112%N] ++ leak_ref 7 ++ leak_object 7 67 1 ++ leak_object 6 68 2
  ++ leak_class 7 69 [120%N] ++ [6; 8;0;0;0; n mod 128 + 128; n / 128]%N ++ s
  ++ leak_class 9 70 [121; 122]%N ++ leak_ref 1 ++ leak_ref 7 ++ [11]%N).
Definition twice_message : bytes := header_bytes 9 (-1) ++ twice_body 120 (replicate 120 120%N).
Lemma twice_accepted : exists m, deserialize twice_message = POk m /\ message_content m = 284%N
  /\ length twice_message = 261.
Proof. eexists. split; [vm_compute; reflexivity|]. split; vm_compute; reflexivity. Qed.
Theorem C88_factor_needed : ~ forall W m, deserialize W = POk m ->
  (message_content m <= N.of_nat (length W))%N.
Proof.
  intros H. destruct twice_accepted as (m & Hm & Hc & Hl). specialize (H _ _ Hm). rewrite Hc, Hl in H.
  clear Hm Hc Hl. vm_compute in H. by apply H.
Qed.

(** Library names have to be left out: a name that is declared once is in the result once for every
    object of the library. *)
Fixpoint library_texts (v : value) : N :=
  match v with
  | VObject o => match obj_library o with Some l => text_size l | None => 0 end
                 + fold_right (fun kv n => library_texts kv.2 + n) 0 (obj_members o)
  | VArray vs => fold_right (fun w n => library_texts w + n) 0 vs
  | _ => 0
  end%N.
Definition library_message : bytes := header_bytes 1 (-1) ++ bs_of ([16; 1;0;0;0; 20;0;0;0]
  ++ [12; 2;0;0;0; 120] ++ replicate 120 76
  ++ flat_map (fun k => [3; k;0;0;0; 1;65; 0;0;0;0; 2;0;0;0]) [3;4;5;6;7;8;9;10;11;12;13;14;15;16;17;18;19;20;21;22]
  ++ [11])%N.
Theorem C88_library_names_repeated : exists v, deserialize library_message = POk (MValue v)
  /\ library_texts v = 2400%N /\ length library_message = 453.
Proof. eexists. split; [vm_compute; reflexivity|]. split; vm_compute; reflexivity. Qed.

(** Every scalar and every member name counts. *)
Lemma parts_content v : (N.of_nat (length (parts v)) <= content v)%N.
Proof.
  revert v. fix IH 1. intros v. destruct v as [o|vs|b|n|n|d|n|z|z|z|z|n|z|z|n|n|n|s|];
    try (cbn [parts content width length]; lia).
  - destruct o as [c lib ms]. cbn [parts content obj_members obj_class].
    enough (N.of_nat (length (concat (map (fun kv => VString kv.1 :: parts kv.2) ms)))
      <= fold_right (fun kv n => (1 + text_size kv.1) + content kv.2 + n)%N 0%N ms)%N by lia.
    induction ms as [|[k u] ms IHm]; [cbn; lia|].
    cbn [map concat fold_right fst snd]. rewrite app_length. cbn [length]. specialize (IH u). lia.
  - cbn [parts content]. induction vs as [|u vs IHv]; [cbn; lia|].
    cbn [map concat fold_right]. rewrite app_length. specialize (IH u). lia.
Qed.
(** C28: so only nulls and arrays can be many more than the bytes of the input. *)
Lemma solid_content v : (solid v <= content v)%N.
Proof.
  revert v. fix IH 1. intros v. destruct v as [o|vs|b|n|n|d|n|z|z|z|z|n|z|z|n|n|n|s|];
    try (cbn [solid content width]; lia).
  - destruct o as [c lib ms]. cbn [solid content obj_members obj_class].
    enough (fold_right (fun kv n => solid kv.2 + n)%N 0%N ms
      <= fold_right (fun kv n => (1 + text_size kv.1) + content kv.2 + n)%N 0%N ms)%N by lia.
    induction ms as [|[k u] ms IHm]; [cbn; lia|]. cbn [fold_right fst snd]. specialize (IH u). lia.
  - cbn [solid content]. induction vs as [|u vs IHv]; [cbn; lia|]. cbn [fold_right]. specialize (IH u). lia.
Qed.
Theorem C28_solid_values_partial : forall W m, deserialize W = POk m ->
  (message_solid m <= 2 * N.of_nat (length W))%N.
Proof.
  intros W m H%C88_twice. etrans; [|exact H]. unfold message_solid, message_content. clear H W.
  induction (message_values m) as [|v l IH]; cbn [fold_right]; [lia|]. pose proof (solid_content v). lia.
Qed.
Example C28_solid_ex : exists m, deserialize ex_struct = POk m /\ message_solid m = 3%N.
Proof. eexists. split; vm_compute; reflexivity. Qed.
Example C88_ex : exists m, deserialize ex_struct = POk m /\ message_content m = 12%N /\ length ex_struct = 46.
Proof. eexists. split; [vm_compute; reflexivity|]. split; vm_compute; reflexivity. Qed.
End with_decimal.

Section with_libs.
Context {DL : DecimalLib} {FL : FloatLib}.

(** So whatever type is asked for, the result has at most twice as many scalars and map keys as the
    input has bytes: no short input gives a large result that does not consist of nulls. *)
Theorem C88_targets : decimal_text -> forall W t d, rust_type t -> from_slice t W = FOk d ->
  length (facts d) <= 2 * length W.
Proof.
  intros Hdec W t d Ht H. destruct (C87_nothing_twice Hdec W t d Ht H) as (v & HW & _).
  pose proof (C87_no_more Hdec W t d v Ht H HW). apply C88_twice in HW.
  pose proof (parts_content v). rewrite message_content_value in HW. lia.
Qed.
Theorem C88_targets_without_references : decimal_text -> forall W t d, rust_type t -> from_slice t W = FOk d ->
  x09 ∉ drop 17 W -> length (facts d) + 17 <= length W.
Proof.
  intros Hdec W t d Ht H H9. destruct (C87_nothing_twice Hdec W t d Ht H) as (v & HW & _).
  pose proof (C87_no_more Hdec W t d v Ht H HW). apply C88_without_references in HW; [|done].
  pose proof (parts_content v). rewrite message_content_value in HW. lia.
Qed.
(** The size of a fact in bytes: text counts with its length, everything else one. *)
Definition fact_size (d : data) : N :=
  match d with D_str s | D_bytes s => text_size s | _ => 1 end%N.
Definition facts_size (l : list data) : N := fold_right (fun d n => fact_size d + n)%N 0%N l.

Lemma enc_char_size c : (text_size (enc_char c) <= 4)%N.
Proof. unfold text_size, enc_char. repeat case_match; cbn [length]; lia. Qed.
Lemma converts_size D e t d : (4 <= D)%N -> converts e t d ->
  (fact_size d <= match e with Text s | Borrowed s => 1 + text_size s | _ => D end)%N.
Proof.
  intros HD H; destruct H; cbn [fact_size]; try lia; try (pose proof (enc_char_size c); lia).
  match goal with |- context [match ?x with _ => _ end] => destruct x end; lia.
Qed.
Lemma states_content v d : states v d -> (1 <= content v)%N.
Proof. induction 1 as [v e t d Hv _|]; [|done]. destruct Hv; cbn [content width]; lia. Qed.
Lemma states_size D v d : (4 <= D)%N -> (forall x, text_size (dec_to_string x) < D)%N -> states v d ->
  (fact_size d <= D * content v)%N.
Proof.
  intros HD Hx. induction 1 as [v e t d Hv Hc|v d e t d' Hs IH Hp Hc].
  - apply (converts_size D) in Hc; [|done]. destruct Hv; cbn [content width] in *; try lia.
    + specialize (Hx x). lia.
    + nia.
  - apply (converts_size D) in Hc; [|done].
    pose proof (states_content _ _ Hs).
    assert (fact_size d' <= D)%N as H2 by (destruct Hp; exact Hc). nia.
Qed.
Lemma contents_parts v : (contents (parts v) <= content v)%N.
Proof.
  revert v. fix IH 1. intros v. destruct v as [o|vs|b|n|n|d|n|z|z|z|z|n|z|z|n|n|n|s|];
    try (cbn [parts contents fold_right content width]; lia).
  - destruct o as [c lib ms]. cbn [parts content obj_members obj_class].
    enough (contents (concat (map (fun kv => VString kv.1 :: parts kv.2) ms))
      <= fold_right (fun kv n => (1 + text_size kv.1) + content kv.2 + n)%N 0%N ms)%N by lia.
    induction ms as [|[k u] ms IHm]; [cbn; lia|].
    cbn [map concat fold_right fst snd]. rewrite contents_app, contents_cons. cbn [content]. specialize (IH u). lia.
  - cbn [parts content]. induction vs as [|u vs IHv]; [cbn; lia|].
    cbn [map concat fold_right]. rewrite contents_app. specialize (IH u). lia.
Qed.
Lemma contents_submseteq l k : l ⊆+ k -> (contents l <= contents k)%N.
Proof.
  induction 1; unfold contents in *; cbn [fold_right]; lia.
Qed.
Lemma stated_size D ps ds : (4 <= D)%N -> (forall x, text_size (dec_to_string x) < D)%N -> stated_by ps ds ->
  (facts_size ds <= D * contents ps)%N.
Proof.
  intros HD Hx (used & Hu & Hf). apply contents_submseteq in Hu. etrans; [|apply N.mul_le_mono_l; exact Hu]. clear Hu ps.
  induction Hf as [|v d us ds Hs _ IH]; [cbn; lia|]. apply (states_size D) in Hs; [|done..].
  rewrite contents_cons. unfold facts_size in *. cbn [fold_right]. lia.
Qed.
(** And the result is at most so large in bytes, if no decimal is written with [D] characters or more
    (rust_decimal writes at most 31). *)
Theorem C88_targets_size : decimal_text -> forall D, (4 <= D)%N ->
  (forall x, text_size (dec_to_string x) < D)%N -> forall W t d, rust_type t -> from_slice t W = FOk d ->
  (facts_size (facts d) <= D * (2 * N.of_nat (length W)))%N.
Proof.
  intros Hdec D HD Hx W t d Ht H. destruct (C87_nothing_twice Hdec W t d Ht H) as (v & HW & Hs).
  apply (stated_size D) in Hs; [|done..]. apply C88_twice in HW. rewrite message_content_value in HW.
  pose proof (contents_parts v). etrans; [exact Hs|]. apply N.mul_le_mono_l. lia.
Qed.
Example C88_targets_ex : exists d, from_slice T_any ex_struct = FOk d /\ rust_type T_any
  /\ length (facts d) = 4 /\ x09 ∉ drop 17 ex_struct.
Proof.
  eexists. split; [vm_compute; reflexivity|]. split; [by apply TT_other|]. split; [vm_compute; reflexivity|].
  apply (bool_decide_unpack _). vm_compute. exact I.
Qed.
End with_libs.

(** The hypotheses can be met: a library that writes every decimal as its scale modulo ten. *)
Definition digit_lib : DecimalLib := {|
  dec_from_str := fun s => Some (mkDecimal false 0 0);
  dec_to_string := fun x => [n2b (48 + dec_scale x mod 10)];
|}.
Example C88_targets_size_ex : @decimal_text digit_lib
  /\ (forall x, text_size (@dec_to_string digit_lib x) < 4)%N.
Proof.
  split; [|intros x; unfold text_size; cbn; lia]. intros x. cbn [dec_to_string digit_lib].
  exists [(48 + dec_scale x mod 10)%N]. pose proof (N.mod_upper_bound (dec_scale x) 10 ltac:(done)) as Hm.
  split; [repeat constructor; unfold scalar; lia|]. unfold enc_utf8. cbn [map concat]. rewrite app_nil_r. unfold enc_char.
  assert (48 + dec_scale x mod 10 <? 128 = true)%N as -> by (apply N.ltb_lt; lia). reflexivity.
Qed.

Section world.
Context {DL : DecimalLib} {FL : FloatLib} {TL : TextLib}.

(** The same for every implementation of [Deserialize] that makes nothing up (C87). *)
Theorem C88_own_types : decimal_text -> forall (U Ty St : Type) (T : world U Ty St) says knows order,
  (forall v, same_value v (order v)) -> frugal T says knows ->
  forall W t n u, from_slice_run T order n t W = R_returned u -> length (says u) <= 2 * length W.
Proof.
  intros Hdec U Ty St T says knows order Ho F W t n u H.
  destruct (deserialize W) as [m|e|q|] eqn:HW; try (unfold from_slice_run in H; by rewrite HW in H).
  destruct (C87_own_types Hdec U Ty St T says knows order Ho F W m t n u HW H) as (used & Hu & Hf).
  apply C88_twice in HW. apply submseteq_length in Hu. apply Forall2_length in Hf.
  destruct m as [c|c|v]; cbn [message_parts] in Hu; [cbn [length] in Hu; lia..|].
  pose proof (parts_content v). rewrite message_content_value in HW. lia.
Qed.
Example C88_own_types_ex :
  frugal collect_world id (fun st => match st with L_seen l => l | L_end r => told id r end)
  /\ exists u, from_slice_run collect_world id 20 tt ex_struct = R_returned u /\ length u = 4.
Proof.
  split; [exact (proj1 C87_own_types_ex)|]. eexists. split; vm_compute; reflexivity.
Qed.
End world.
