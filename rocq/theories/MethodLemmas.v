(** * MethodLemmas: message flags, method records and [ClassWithId] accept exactly the encodings
    of [Wire]. *)
From Verif Require Import Base Utf8 Value DataTypes Records Parser Wire BaseLemmas DataTypesLemmas
  RecordsLemmas.
From Coq Require Import Lia.

(** ** Bits *)

Lemma land_bit z k : (0 <= k)%Z ->
  Z.land z (2 ^ k) = if Z.testbit z k then (2 ^ k)%Z else 0%Z.
Proof.
  intros Hk. apply Z.bits_inj'. intros n Hn. rewrite Z.land_spec, Z.pow2_bits_eqb by done.
  destruct (Z.eqb_spec k n) as [->|Hne].
  - destruct (Z.testbit z n); [|by rewrite Z.bits_0].
    by rewrite Z.pow2_bits_eqb, Z.eqb_refl by done.
  - rewrite andb_false_r. destruct (Z.testbit z k); [|by rewrite Z.bits_0].
    rewrite Z.pow2_bits_eqb by done. symmetry. by apply Z.eqb_neq.
Qed.

Lemma intersects_bit z k : (0 <= k)%Z -> intersects z (2 ^ k) = Z.testbit z k.
Proof.
  intros Hk. unfold intersects. rewrite land_bit by done.
  destruct (Z.testbit z k); [|done].
  destruct (Z.eqb_spec (2 ^ k) 0) as [E|]; [|done].
  pose proof (Z.pow_pos_nonneg 2 k). lia.
Qed.

Lemma at_most_one_cons z k l :
  at_most_one z (k :: l) <->
  at_most_one z l /\ (Z.testbit z k = true -> ~ some_flag z l).
Proof.
  unfold at_most_one, some_flag. split.
  - intros H. split.
    + intros i j a b Hi Hj Ha Hb. specialize (H (S i) (S j) a b). simpl in H.
      by specialize (H Hi Hj Ha Hb) as [= ->].
    + intros Hk Hex. apply list.Exists_exists in Hex as (x & Hin & Hx).
      apply elem_of_list_lookup in Hin as (j & Hj).
      by specialize (H 0 (S j) k x eq_refl Hj Hk Hx).
  - intros [H1 H2] [|i] [|j] a b Hi Hj Ha Hb; simpl in *.
    + done.
    + inv Hi. destruct H2; [done|]. apply list.Exists_exists. exists b. split; [|done].
      by eapply elem_of_list_lookup_2.
    + inv Hj. destruct H2; [done|]. apply list.Exists_exists. exists a. split; [|done].
      by eapply elem_of_list_lookup_2.
    + f_equal. eauto.
Qed.

Lemma at_most_one_nil z : at_most_one z [].
Proof. intros [|i] j a b H; done. Qed.

Lemma some_flag_cons z k l : some_flag z (k :: l) <-> Z.testbit z k = true \/ some_flag z l.
Proof. unfold some_flag. by rewrite List.Exists_cons. Qed.
Lemma some_flag_nil z : some_flag z [] <-> False.
Proof. unfold some_flag. by rewrite List.Exists_nil. Qed.

Lemma args_land z :
  Z.land z (Z.lor (Z.lor (Z.lor MF_NO_ARGS MF_ARGS_INLINE) MF_ARGS_IS_ARRAY) MF_ARGS_IN_ARRAY)
  = Z.lor (Z.lor (Z.lor (if Z.testbit z 0 then 1 else 0) (if Z.testbit z 1 then 2 else 0))
      (if Z.testbit z 2 then 4 else 0)) (if Z.testbit z 3 then 8 else 0).
Proof.
  rewrite !Z.land_lor_distr_r. unfold MF_NO_ARGS, MF_ARGS_INLINE, MF_ARGS_IS_ARRAY, MF_ARGS_IN_ARRAY.
  change 1%Z with (2 ^ 0)%Z at 1. change 2%Z with (2 ^ 1)%Z at 2. change 4%Z with (2 ^ 2)%Z at 1.
  change 8%Z with (2 ^ 3)%Z at 1. rewrite !land_bit by lia. done.
Qed.

Lemma context_land z :
  Z.land z (Z.lor (Z.lor MF_NO_CONTEXT MF_CONTEXT_INLINE) MF_CONTEXT_IN_ARRAY)
  = Z.lor (Z.lor (if Z.testbit z 4 then 16 else 0) (if Z.testbit z 5 then 32 else 0))
      (if Z.testbit z 6 then 64 else 0).
Proof.
  rewrite !Z.land_lor_distr_r. unfold MF_NO_CONTEXT, MF_CONTEXT_INLINE, MF_CONTEXT_IN_ARRAY.
  change 16%Z with (2 ^ 4)%Z at 1. change 32%Z with (2 ^ 5)%Z at 1. change 64%Z with (2 ^ 6)%Z at 1.
  rewrite !land_bit by lia. done.
Qed.

Lemma return_land z :
  Z.land z (Z.lor (Z.lor (Z.lor MF_NO_RETURN_VALUE MF_RETURN_VALUE_VOID) MF_RETURN_VALUE_IN_ARRAY)
       MF_RETURN_VALUE_IN_ARRAY)
  = Z.lor (Z.lor (Z.lor (if Z.testbit z 9 then 512 else 0) (if Z.testbit z 10 then 1024 else 0))
      (if Z.testbit z 12 then 4096 else 0)) (if Z.testbit z 12 then 4096 else 0).
Proof.
  rewrite !Z.land_lor_distr_r.
  unfold MF_NO_RETURN_VALUE, MF_RETURN_VALUE_VOID, MF_RETURN_VALUE_IN_ARRAY.
  change 512%Z with (2 ^ 9)%Z at 1. change 1024%Z with (2 ^ 10)%Z at 1.
  change 4096%Z with (2 ^ 12)%Z at 1 2.
  rewrite !land_bit by lia. done.
Qed.

Lemma signature_land z :
  Z.land z MF_METHOD_SIGNATURE_IN_ARRAY = if Z.testbit z 7 then 128%Z else 0%Z.
Proof. apply (land_bit z 7). lia. Qed.
Lemma exception_land z :
  Z.land z MF_EXCEPTION_IN_ARRAY = if Z.testbit z 13 then 8192%Z else 0%Z.
Proof. apply (land_bit z 13). lia. Qed.

Lemma args_ones z :
  (N.ltb 1 (count_ones (Z.lor (Z.lor (Z.lor (if Z.testbit z 0 then 1 else 0)
      (if Z.testbit z 1 then 2 else 0))
      (if Z.testbit z 2 then 4 else 0)) (if Z.testbit z 3 then 8 else 0))) = false
  <-> at_most_one z args_bits).
Proof.
  unfold args_bits. rewrite !at_most_one_cons, !some_flag_cons, !some_flag_nil.
  pose proof (at_most_one_nil z).
  unfold bit_NoArgs, bit_ArgsInline, bit_ArgsIsArray, bit_ArgsInArray.
  destruct (Z.testbit z 0), (Z.testbit z 1), (Z.testbit z 2), (Z.testbit z 3);
    cbn -[at_most_one]; intuition done.
Qed.

Lemma context_ones z :
  (N.ltb 1 (count_ones (Z.lor (Z.lor (if Z.testbit z 4 then 16 else 0)
      (if Z.testbit z 5 then 32 else 0)) (if Z.testbit z 6 then 64 else 0))) = false
  <-> at_most_one z context_bits).
Proof.
  unfold context_bits. rewrite !at_most_one_cons, !some_flag_cons, !some_flag_nil.
  pose proof (at_most_one_nil z).
  unfold bit_NoContext, bit_ContextInline, bit_ContextInArray.
  destruct (Z.testbit z 4), (Z.testbit z 5), (Z.testbit z 6);
    cbn -[at_most_one]; intuition done.
Qed.

Lemma return_ones z :
  (N.ltb 1 (count_ones (Z.lor (Z.lor (Z.lor (if Z.testbit z 9 then 512 else 0)
      (if Z.testbit z 10 then 1024 else 0))
      (if Z.testbit z 12 then 4096 else 0)) (if Z.testbit z 12 then 4096 else 0))) = false
  <-> at_most_one z checked_return_bits).
Proof.
  unfold checked_return_bits. rewrite !at_most_one_cons, !some_flag_cons, !some_flag_nil.
  pose proof (at_most_one_nil z).
  unfold bit_NoReturnValue, bit_ReturnValueVoid, bit_ReturnValueInArray.
  destruct (Z.testbit z 9), (Z.testbit z 10), (Z.testbit z 12);
    cbn -[at_most_one]; intuition done.
Qed.

Lemma args_some z :
  negb (Z.eqb (Z.lor (Z.lor (Z.lor (if Z.testbit z 0 then 1 else 0)
      (if Z.testbit z 1 then 2 else 0))
      (if Z.testbit z 2 then 4 else 0)) (if Z.testbit z 3 then 8 else 0)) 0) = true
  <-> some_flag z args_bits.
Proof.
  unfold args_bits. rewrite !some_flag_cons, !some_flag_nil.
  unfold bit_NoArgs, bit_ArgsInline, bit_ArgsIsArray, bit_ArgsInArray.
  destruct (Z.testbit z 0), (Z.testbit z 1), (Z.testbit z 2), (Z.testbit z 3);
    cbn; intuition done.
Qed.

Lemma return_some z :
  negb (Z.eqb (Z.lor (Z.lor (Z.lor (if Z.testbit z 9 then 512 else 0)
      (if Z.testbit z 10 then 1024 else 0))
      (if Z.testbit z 12 then 4096 else 0)) (if Z.testbit z 12 then 4096 else 0)) 0) = true
  <-> some_flag z checked_return_bits.
Proof.
  unfold checked_return_bits. rewrite !some_flag_cons, !some_flag_nil.
  unfold bit_NoReturnValue, bit_ReturnValueVoid, bit_ReturnValueInArray.
  destruct (Z.testbit z 9), (Z.testbit z 10), (Z.testbit z 12);
    cbn; intuition done.
Qed.

(** The checks of [MessageFlags::parse], as a boolean. *)
Definition flags_okb (z : Z) : bool :=
  let a := Z.land z
    (Z.lor (Z.lor (Z.lor MF_NO_ARGS MF_ARGS_INLINE) MF_ARGS_IS_ARRAY) MF_ARGS_IN_ARRAY) in
  let c := Z.land z (Z.lor (Z.lor MF_NO_CONTEXT MF_CONTEXT_INLINE) MF_CONTEXT_IN_ARRAY) in
  let r := Z.land z
    (Z.lor (Z.lor (Z.lor MF_NO_RETURN_VALUE MF_RETURN_VALUE_VOID) MF_RETURN_VALUE_IN_ARRAY)
       MF_RETURN_VALUE_IN_ARRAY) in
  let s := Z.land z MF_METHOD_SIGNATURE_IN_ARRAY in
  let e := Z.land z MF_EXCEPTION_IN_ARRAY in
  let ne x := negb (Z.eqb x 0) in
  negb (N.ltb 1 (count_ones a) || N.ltb 1 (count_ones c) || N.ltb 1 (count_ones r))
  && negb (ne a && ne e) && negb (ne r && ne e) && negb (ne r && ne s) && negb (ne e && ne s).

Lemma ne_if (b : bool) (x : Z) : x <> 0%Z -> negb (Z.eqb (if b then x else 0%Z) 0) = b.
Proof. intros. destruct b; [|done]. by destruct (Z.eqb_spec x 0). Qed.

Lemma flags_okb_iff z : flags_okb z = true <-> flags_ok checked_return_bits z.
Proof.
  unfold flags_okb, flags_ok.
  rewrite args_land, context_land, return_land, signature_land, exception_land.
  rewrite !(ne_if _ 128), !(ne_if _ 8192) by done.
  rewrite <- args_ones, <- context_ones, <- return_ones, <- args_some, <- return_some.
  unfold bit_ExceptionInArray, bit_MethodSignatureInArray.
  match goal with |- context [Z.eqb ?a 0] => generalize (negb (Z.eqb a 0)) end.
  match goal with |- context [Z.eqb ?a 0] => generalize (negb (Z.eqb a 0)) end.
  repeat match goal with |- context [N.ltb 1 ?a] => generalize (N.ltb 1 a) end.
  intros b1 b2 b3 b4 b5.
  destruct (Z.testbit z 13), (Z.testbit z 7); destruct b1, b2, b3, b4, b5; simpl; intuition done.
Qed.

Lemma message_flags_eq input :
  message_flags_parse input =
  let? (rest, z) := map_err (at_err' E_ExpectedMessageFlags) (int32_parse input) in
  if flags_okb z then Ok rest z else Fail (mkError input E_InvalidMessageFlags).
Proof.
  unfold message_flags_parse, flags_okb. cbv zeta.
  destruct (map_err _ _) as [rest z| | | |]; try done. unfold bind.
  repeat match goal with |- context [N.ltb 1 ?a] => generalize (N.ltb 1 a) end.
  repeat match goal with |- context [Z.eqb ?a 0] => generalize (negb (Z.eqb a 0)) end.
  intros b1 b2 b3 b4 b5 b6 b7. destruct b1, b2, b3, b4, b5, b6, b7; done.
Qed.

Lemma message_flags_exact : exact message_flags_parse e_flags.
Proof.
  intros input rest z. rewrite message_flags_eq, bind_ok. unfold e_flags. split.
  - intros (i & z' & H1 & H2). apply map_err_ok, int32_exact in H1 as (bs & [Hf ->] & ->).
    destruct (flags_okb z') eqn:E; [|done]. inv H2. apply flags_okb_iff in E.
    exists (enc_int 4 z). done.
  - intros (bs & (Hf & Hok & ->) & ->). exists rest, z. split.
    + apply map_err_ok, int32_exact. exists (enc_int 4 z). done.
    + apply flags_okb_iff in Hok. by rewrite Hok.
Qed.

(** ** Method records *)

Section with_decimal.
Context {DL : DecimalLib}.

Lemma cond_exact {A} z k (p : bytes -> res A) E : (0 <= k)%Z -> exact p E ->
  exact (cond (intersects z (2 ^ k)) p) (e_flagged z k E).
Proof.
  intros Hk Hp input rest o. rewrite intersects_bit by done. unfold cond, e_flagged.
  destruct (Z.testbit z k).
  - rewrite rmap_ok. split.
    + intros (a & H1 & ->). apply Hp in H1 as (bs & ? & ->). eauto.
    + intros (bs & H1 & ->). destruct o as [a|]; [|by destruct H1].
      destruct H1 as [_ H1]. exists a. split; [|done]. apply Hp. eauto.
  - split.
    + intros [= <- <-]. by exists [].
    + intros (bs & H1 & ->). destruct o as [a|]; [by destruct H1|]. by destruct H1 as [_ ->].
Qed.

Lemma method_call_exact :
  exact binary_method_call_parse
    (fun c bs => e_method_call (bmc_message_enum c) (bmc_method_name c) (bmc_type_name c)
                   (bmc_call_context c) (bmc_args c) bs).
Proof.
  intros input rest c. unfold binary_method_call_parse, e_method_call. split.
  - intros H. apply bind_ok in H as (i0 & rt & Hrt & H).
    apply record_type_exact in Hrt as (? & [-> ->] & ->).
    apply bind_ok in H as (i1 & z & Hz & H). apply message_flags_exact in Hz as (b1 & Hz & ->).
    apply bind_ok in H as (i2 & m & Hm & H). apply string_value_with_code_exact in Hm as (b2 & Hm & ->).
    apply bind_ok in H as (i3 & t & Ht & H). apply string_value_with_code_exact in Ht as (b3 & Ht & ->).
    apply bind_ok in H as (i4 & cc & Hc & H).
    apply (cond_exact z 5 _ _ ltac:(lia) string_value_with_code_exact) in Hc as (b4 & Hc & ->).
    apply bind_ok in H as (i5 & a & Ha & H).
    apply (cond_exact z 1 _ _ ltac:(lia) array_of_value_with_code_exact) in Ha as (b5 & Ha & ->).
    inv H. cbn [bmc_message_enum bmc_method_name bmc_type_name bmc_call_context bmc_args].
    exists (x15 :: b1 ++ b2 ++ b3 ++ b4 ++ b5). split.
    + exists b1, b2, b3, b4, b5. done.
    + simpl. by rewrite <- !app_assoc.
  - intros (bs & (b1 & b2 & b3 & b4 & b5 & H1 & H2 & H3 & H4 & H5 & ->) & ->).
    destruct c as [z m t cc a].
    cbn [bmc_message_enum bmc_method_name bmc_type_name bmc_call_context bmc_args] in *.
    rewrite <- app_comm_cons, <- !app_assoc, record_type_parse_cons.
    rewrite bool_decide_eq_true_2 by done. cbn [bind].
    rewrite (exact_ok _ _ _ _ _ message_flags_exact H1). cbn [bind].
    rewrite (exact_ok _ _ _ _ _ string_value_with_code_exact H2). cbn [bind].
    rewrite (exact_ok _ _ _ _ _ string_value_with_code_exact H3). cbn [bind].
    rewrite (exact_ok _ _ _ _ _ (cond_exact z 5 _ _ ltac:(lia) string_value_with_code_exact) H4).
    cbn [bind].
    by rewrite (exact_ok _ _ _ _ _ (cond_exact z 1 _ _ ltac:(lia) array_of_value_with_code_exact) H5).
Qed.

Lemma method_return_exact :
  exact binary_method_return_parse
    (fun c bs => e_method_return (bmr_message_enum c) (bmr_return_value c)
                   (bmr_call_context c) (bmr_args c) bs).
Proof.
  intros input rest c. unfold binary_method_return_parse, e_method_return. split.
  - intros H. apply bind_ok in H as (i0 & rt & Hrt & H).
    apply record_type_exact in Hrt as (? & [-> ->] & ->).
    apply bind_ok in H as (i1 & z & Hz & H). apply message_flags_exact in Hz as (b1 & Hz & ->).
    apply bind_ok in H as (i2 & m & Hm & H).
    apply (cond_exact z 11 _ _ ltac:(lia) value_with_code_exact) in Hm as (b2 & Hm & ->).
    apply bind_ok in H as (i4 & cc & Hc & H).
    apply (cond_exact z 5 _ _ ltac:(lia) string_value_with_code_exact) in Hc as (b4 & Hc & ->).
    apply bind_ok in H as (i5 & a & Ha & H).
    apply (cond_exact z 1 _ _ ltac:(lia) array_of_value_with_code_exact) in Ha as (b5 & Ha & ->).
    inv H. cbn [bmr_message_enum bmr_return_value bmr_call_context bmr_args].
    exists (x16 :: b1 ++ b2 ++ b4 ++ b5). split.
    + exists b1, b2, b4, b5. done.
    + simpl. by rewrite <- !app_assoc.
  - intros (bs & (b1 & b2 & b4 & b5 & H1 & H2 & H4 & H5 & ->) & ->).
    destruct c as [z m cc a].
    cbn [bmr_message_enum bmr_return_value bmr_call_context bmr_args] in *.
    rewrite <- app_comm_cons, <- !app_assoc, record_type_parse_cons.
    rewrite bool_decide_eq_true_2 by done. cbn [bind].
    rewrite (exact_ok _ _ _ _ _ message_flags_exact H1). cbn [bind].
    rewrite (exact_ok _ _ _ _ _ (cond_exact z 11 _ _ ltac:(lia) value_with_code_exact) H2). cbn [bind].
    rewrite (exact_ok _ _ _ _ _ (cond_exact z 5 _ _ ltac:(lia) string_value_with_code_exact) H4).
    cbn [bind].
    by rewrite (exact_ok _ _ _ _ _ (cond_exact z 1 _ _ ltac:(lia) array_of_value_with_code_exact) H5).
Qed.

End with_decimal.
