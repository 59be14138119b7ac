(** * SafetyLemmas: the record parsers never panic, never run out of fuel, and report errors at
    a suffix of their input. *)
From Verif Require Import Base Utf8 Value DataTypes Records Parser Wire BaseLemmas DataTypesLemmas
  RecordsLemmas MethodLemmas.
From Coq Require Import Lia.

Notation "i ⊑s j" := (suffix (A:=byte) i j) (at level 70).

Lemma suffix_length_lt (i j : bytes) b : j = b ++ i -> b <> [] -> length i < length j.
Proof. intros -> H. rewrite app_length. destruct b; [done|]. simpl. lia. Qed.

(** ** Results *)

Definition gsafe {Er A} (pos : Er -> bytes) (input : bytes) (r : ires bytes Er A) : Prop :=
  match r with
  | Ok rest _ => rest ⊑s input
  | Err e | Fail e => pos e ⊑s input
  | Panic _ | Diverge => False
  end.

Notation rsafe := (gsafe e_input).
Notation nsafe := (gsafe (ne_input (I:=list byte))).

Section gsafe.
Context {Er : Type} (pos : Er -> bytes).

Lemma gsafe_weaken {A} i j (r : ires bytes Er A) : gsafe pos i r -> i ⊑s j -> gsafe pos j r.
Proof. intros H Hij. destruct r; simpl in *; try done; by etrans. Qed.

Lemma gsafe_bind {A B} i (r : ires bytes Er A) (k : bytes -> A -> ires bytes Er B) :
  gsafe pos i r -> (forall i' a, gsafe pos i' (k i' a)) -> gsafe pos i (bind r k).
Proof.
  intros H Hk. destruct r as [i' a| | | |]; simpl in *; try done.
  by eapply gsafe_weaken.
Qed.

(** The continuation may return to an earlier position. *)
Lemma gsafe_bind' {A B} i (r : ires bytes Er A) (k : bytes -> A -> ires bytes Er B) :
  gsafe pos i r -> (forall i' a, i' ⊑s i -> gsafe pos i (k i' a)) -> gsafe pos i (bind r k).
Proof. intros H Hk. destruct r as [i' a| | | |]; simpl in *; try done. by apply Hk. Qed.

Lemma gsafe_map {A B} (f : A -> B) i (r : ires bytes Er A) : gsafe pos i r -> gsafe pos i (rmap f r).
Proof. intros H. by destruct r. Qed.

Lemma gsafe_into_failure {A} i (r : ires bytes Er A) : gsafe pos i r -> gsafe pos i (into_failure r).
Proof. intros H. by destruct r. Qed.

Lemma gsafe_alt {A} i (r r' : ires bytes Er A) :
  gsafe pos i r -> gsafe pos i r' -> gsafe pos i (alt r r').
Proof. intros H H'. by destruct r. Qed.

Lemma gsafe_opt {A} i (r : ires bytes Er A) : gsafe pos i r -> gsafe pos i (opt i r).
Proof. intros H. destruct r; simpl; try done. Qed.

End gsafe.

Lemma rsafe_at_err {A} k i (r : nres A) : nsafe i r -> rsafe i (map_err (at_err k) r).
Proof. intros H. by destruct r. Qed.
Lemma rsafe_at_err' {A} k i (r : res A) : rsafe i r -> rsafe i (map_err (at_err' k) r).
Proof. intros H. by destruct r. Qed.

Lemma tag1_safe n i : nsafe i (tag1 n i).
Proof.
  destruct i as [|b i]; simpl; [done|]. destruct (N.eqb _ _); simpl; [|done]. by exists [b].
Qed.
Lemma le_uint_safe k i : nsafe i (le_uint k i).
Proof.
  unfold le_uint. destruct (Nat.ltb _ _); cbn [gsafe ne_input]; [done|].
  exists (take k i). by rewrite take_drop.
Qed.
Lemma le_int_safe k i : nsafe i (le_int k i).
Proof. apply gsafe_map, le_uint_safe. Qed.
Lemma take_bytes_safe n i : nsafe i (take_bytes n i).
Proof.
  unfold take_bytes. destruct (N.ltb _ _); cbn [gsafe ne_input]; [done|]. exists (take (N.to_nat n) i). by rewrite take_drop.
Qed.
Lemma map_opt_safe {A B} (p : bytes -> nres A) (f : A -> option B) i :
  nsafe i (p i) -> nsafe i (map_opt p f i).
Proof. intros H. apply gsafe_bind'; [done|]. intros i' a Hi. destruct (f a); cbn [gsafe e_input ne_input]; done. Qed.
Lemma map_res_safe {A B} (p : bytes -> nres A) (f : A -> option B) i :
  nsafe i (p i) -> nsafe i (map_res p f i).
Proof. intros H. apply gsafe_bind'; [done|]. intros i' a Hi. destruct (f a); cbn [gsafe e_input ne_input]; done. Qed.

Lemma prim_number_safe {A} k i (r : nres A) : nsafe i r -> rsafe i (prim_number k r).
Proof. intros H. by apply rsafe_at_err, gsafe_into_failure. Qed.

Create HintDb safe.
#[global] Hint Resolve tag1_safe le_uint_safe le_int_safe take_bytes_safe map_opt_safe map_res_safe
  prim_number_safe gsafe_map gsafe_alt gsafe_into_failure rsafe_at_err rsafe_at_err' : safe.

Lemma byte_safe i : rsafe i (byte_parse i). Proof. unfold byte_parse. eauto with safe. Qed.
Lemma int8_safe i : rsafe i (int8_parse i). Proof. unfold int8_parse. eauto with safe. Qed.
Lemma int16_safe i : rsafe i (int16_parse i). Proof. unfold int16_parse. eauto with safe. Qed.
Lemma int32_safe i : rsafe i (int32_parse i). Proof. unfold int32_parse. eauto with safe. Qed.
Lemma int64_safe i : rsafe i (int64_parse i). Proof. unfold int64_parse. eauto with safe. Qed.
Lemma uint16_safe i : rsafe i (uint16_parse i). Proof. unfold uint16_parse. eauto with safe. Qed.
Lemma uint32_safe i : rsafe i (uint32_parse i). Proof. unfold uint32_parse. eauto with safe. Qed.
Lemma uint64_safe i : rsafe i (uint64_parse i). Proof. unfold uint64_parse. eauto with safe. Qed.
Lemma single_safe i : rsafe i (single_parse i). Proof. unfold single_parse. eauto with safe. Qed.
Lemma double_safe i : rsafe i (double_parse i). Proof. unfold double_parse. eauto with safe. Qed.
Lemma timespan_safe i : rsafe i (timespan_parse i). Proof. unfold timespan_parse. eauto with safe. Qed.
#[global] Hint Resolve byte_safe int8_safe int16_safe int32_safe int64_safe uint16_safe uint32_safe
  uint64_safe single_safe double_safe timespan_safe : safe.
Lemma datetime_safe i : rsafe i (datetime_parse i). Proof. unfold datetime_parse. eauto with safe. Qed.
Lemma boolean_safe i : rsafe i (boolean_parse i). Proof. unfold boolean_parse. eauto with safe. Qed.
Lemma char_safe i : rsafe i (char_parse i). Proof. unfold char_parse. eauto 10 with safe. Qed.
Lemma record_type_safe rt i : rsafe i (record_type_parse rt i).
Proof. unfold record_type_parse. eauto with safe. Qed.
Lemma binary_type_safe i : rsafe i (binary_type_parse i).
Proof. unfold binary_type_parse, bt_tag. apply rsafe_at_err. eauto 20 with safe. Qed.
Lemma primitive_type_safe i : rsafe i (primitive_type_parse i).
Proof. unfold primitive_type_parse, pt_tag. apply rsafe_at_err. eauto 40 with safe. Qed.
Lemma binary_array_type_safe i : rsafe i (binary_array_type_parse i).
Proof. unfold binary_array_type_parse, bat_tag. apply rsafe_at_err. eauto 20 with safe. Qed.
#[global] Hint Resolve datetime_safe boolean_safe char_safe record_type_safe binary_type_safe
  primitive_type_safe binary_array_type_safe : safe.

Lemma positive_id_safe k i : rsafe i (positive_id k i).
Proof.
  unfold positive_id. pose proof (int32_safe i) as H. destruct (int32_parse i); try done.
  destruct (Z.ltb _ _); cbn [gsafe e_input ne_input]; done.
Qed.
Lemma library_id_safe i : rsafe i (library_id i). Proof. apply positive_id_safe. Qed.
Lemma object_id_safe i : rsafe i (object_id i). Proof. apply positive_id_safe. Qed.
Lemma length_safe i : rsafe i (length_parse i).
Proof.
  unfold length_parse. pose proof (int32_safe i) as H. destruct (int32_parse i); try done.
  destruct (Z.leb _ _); cbn [gsafe e_input ne_input]; done.
Qed.
#[global] Hint Resolve library_id_safe object_id_safe length_safe : safe.

(** Length prefixes: all positions are suffixes. *)
Lemma parse_len_safe i : nsafe i (parse_len i).
Proof.
  unfold parse_len, parse_len_bits.
  assert (forall (b:byte) (i:bytes), i ⊑s b :: i) as Hc by (intros b i'; by exists [b]).
  assert (forall (b c:byte) (i:bytes), i ⊑s b :: c :: i) as Hc2 by (intros b c i'; by exists [b; c]).
  assert (forall (b c d:byte) (i:bytes), i ⊑s b :: c :: d :: i) as Hc3
    by (intros b c d i'; by exists [b; c; d]).
  assert (forall (b c d e:byte) (i:bytes), i ⊑s b :: c :: d :: e :: i) as Hc4
    by (intros b c d e i'; by exists [b; c; d; e]).
  assert (forall (b c d e f:byte) (i:bytes), i ⊑s b :: c :: d :: e :: f :: i) as Hc5
    by (intros b c d e f i'; by exists [b; c; d; e; f]).
  destruct i as [|a i]; [by exists []|]. rewrite len_group_cons. cbn [bind fst snd].
  destruct (negb _); [apply Hc|].
  destruct i as [|b i]; [apply Hc|]. rewrite len_group_cons. cbn [bind fst snd].
  destruct (negb _); [apply Hc2|].
  destruct i as [|c i]; [apply Hc2|]. rewrite len_group_cons. cbn [bind fst snd].
  destruct (negb _); [apply Hc3|].
  destruct i as [|d i]; [apply Hc3|]. rewrite len_group_cons. cbn [bind fst snd].
  destruct (negb _); [apply Hc4|].
  destruct i as [|e i]; [apply Hc4|]. rewrite len_last_cons.
  destruct (N.ltb _ _); cbn [bind fst snd]; [apply Hc5|apply Hc4].
Qed.

Lemma lps_safe i : rsafe i (lps_parse i).
Proof.
  apply rsafe_at_err, gsafe_bind; [apply parse_len_safe|].
  intros i' a. apply map_res_safe, take_bytes_safe.
Qed.
#[global] Hint Resolve lps_safe : safe.

Ltac sdone := first [done | cbn [gsafe e_input ne_input]; done].

Lemma class_type_info_safe i : rsafe i (class_type_info_parse i).
Proof.
  apply gsafe_bind; [eauto with safe|]. intros i1 s. apply gsafe_bind; [eauto with safe|].
  intros i2 l. sdone.
Qed.
#[global] Hint Resolve class_type_info_safe : safe.

(** ** Counted repetition *)

Definition strict {A} (p : bytes -> res A) : Prop :=
  forall i r a, p i = Ok r a -> length r < length i.

Lemma exact_strict {A} (p : bytes -> res A) E : exact p E -> nonempty_enc E -> strict p.
Proof.
  intros Hp HE i r a H. apply Hp in H as (bs & Hbs & ->). rewrite app_length.
  destruct bs; [by apply HE in Hbs|]. simpl. lia.
Qed.

Lemma count_safe {A} n (p : bytes -> res A) i :
  (forall i, rsafe i (p i)) -> strict p -> rsafe i (count n p i).
Proof.
  intros Hp Hs. unfold count. assert (length i < S (length i)) as Hf by lia. revert Hf.
  generalize (S (length i)) as fuel. revert n i.
  enough (forall fuel n i, length i < fuel -> rsafe i (count_loop fuel n p i)) by eauto.
  induction fuel as [|fuel IH]; intros n i Hf; [lia|].
  cbn [count_loop]. destruct (N.eqb n 0); [sdone|].
  pose proof (Hp i) as H1. destruct (p i) as [i1 a| | | |] eqn:E; try done. cbn [bind].
  apply Hs in E. cbn [gsafe] in H1.
  eapply gsafe_weaken; [|exact H1]. apply gsafe_bind; [apply IH; lia|]. sdone.
Qed.

Lemma lps_strict : strict lps_parse.
Proof. eapply exact_strict; [apply lps_exact|apply e_str_nonempty]. Qed.
Lemma length_strict : strict length_parse.
Proof. eapply exact_strict; [apply length_exact|apply e_len_nonempty]. Qed.
Lemma binary_type_strict : strict binary_type_parse.
Proof. eapply exact_strict; [apply binary_type_exact|apply binary_type_nonempty]. Qed.
#[global] Hint Resolve lps_strict length_strict binary_type_strict count_safe : safe.

Section with_decimal.
Context {DL : DecimalLib}.

Lemma decimal_safe i : rsafe i (decimal_parse i).
Proof.
  apply gsafe_bind'; [eauto with safe|]. intros i1 s H1. destruct (dec_from_str s); cbn [gsafe e_input ne_input]; sdone.
Qed.
Hint Resolve decimal_safe : safe.

Lemma member_primitive_untyped_safe p i : rsafe i (member_primitive_untyped i p).
Proof. destruct p; cbn [member_primitive_untyped]; eauto with safe; sdone. Qed.
Hint Resolve member_primitive_untyped_safe : safe.

Lemma member_primitive_untyped_strict p : strict (fun i => member_primitive_untyped i p).
Proof.
  eapply exact_strict; [apply member_primitive_untyped_exact|].
  intros v [_ H]. by apply e_prim_nonempty in H.
Qed.

Lemma member_primitive_typed_safe i : rsafe i (member_primitive_typed i).
Proof.
  unfold member_primitive_typed. apply gsafe_bind; [eauto with safe|]. intros i1 rt.
  apply gsafe_bind; [eauto with safe|]. intros i2 p. eauto with safe.
Qed.

Lemma value_with_code_safe i : rsafe i (value_with_code i).
Proof.
  unfold value_with_code. apply gsafe_bind; [eauto with safe|]. intros i1 p.
  destruct p; eauto with safe. sdone.
Qed.
Lemma value_with_code_strict : strict value_with_code.
Proof. eapply exact_strict; [apply value_with_code_exact|apply e_value_with_code_nonempty]. Qed.

Lemma string_value_with_code_safe i : rsafe i (string_value_with_code i).
Proof.
  unfold string_value_with_code. apply gsafe_bind; [unfold pt_tag; eauto 10 with safe|].
  intros i1 p. eauto with safe.
Qed.

Lemma length_count_safe {A} (p : bytes -> res A) i :
  (forall i, rsafe i (p i)) -> strict p -> rsafe i (length_count length_parse p i).
Proof.
  intros. apply gsafe_bind; [eauto with safe|]. intros. by apply count_safe.
Qed.

Lemma array_of_value_with_code_safe i : rsafe i (array_of_value_with_code i).
Proof. apply length_count_safe; [apply value_with_code_safe|apply value_with_code_strict]. Qed.

Lemma member_reference_safe i : rsafe i (member_reference i).
Proof. unfold member_reference. apply gsafe_bind; eauto with safe. Qed.
Lemma object_null_safe i : rsafe i (object_null i).
Proof. unfold object_null. apply gsafe_bind; [eauto with safe|]. sdone. Qed.
Lemma object_null_multiple_safe i : rsafe i (object_null_multiple i).
Proof.
  unfold object_null_multiple. apply gsafe_bind; [eauto with safe|]. intros i1 _.
  apply (positive_id_safe E_InvalidNullCount).
Qed.
Lemma object_null_multiple_256_safe i : rsafe i (object_null_multiple_256 i).
Proof.
  unfold object_null_multiple_256. apply gsafe_bind; [eauto with safe|]. intros i1 _.
  pose proof (byte_safe i1) as H. destruct (byte_parse i1); try done. destruct (N.ltb _ _); cbn [gsafe e_input ne_input]; sdone.
Qed.
Hint Resolve member_reference_safe object_null_safe object_null_multiple_safe
  object_null_multiple_256_safe : safe.
Lemma binary_object_string_safe i : rsafe i (binary_object_string i).
Proof.
  unfold binary_object_string. apply gsafe_bind; [eauto with safe|]. intros i1 _.
  apply gsafe_bind; [eauto with safe|]. intros i2 x.
  apply gsafe_bind; [eauto with safe|]. sdone.
Qed.
Lemma binary_library_safe i : rsafe i (binary_library i).
Proof.
  unfold binary_library. apply gsafe_bind; [eauto with safe|]. intros i1 _.
  apply gsafe_bind; [eauto with safe|]. intros i2 x.
  apply gsafe_bind; [eauto with safe|]. sdone.
Qed.
Hint Resolve binary_object_string_safe binary_library_safe : safe.
Lemma parse_null_object_safe i : rsafe i (parse_null_object i).
Proof. unfold parse_null_object. eauto 10 with safe. Qed.
Lemma parse_string_member_safe i : rsafe i (parse_string_member i).
Proof. unfold parse_string_member. eauto with safe. Qed.
Lemma parse_ref_member_safe i : rsafe i (parse_ref_member i).
Proof. unfold parse_ref_member. eauto with safe. Qed.
Lemma message_end_safe i : rsafe i (message_end i).
Proof. unfold message_end. apply gsafe_bind; [eauto with safe|]. sdone. Qed.

Lemma additional_type_info_safe b i : rsafe i (additional_type_info_parse i b).
Proof. destruct b; simpl; eauto with safe. Qed.
Lemma additional_infos_safe bs i : rsafe i (additional_infos_parse i bs).
Proof.
  revert i. induction bs as [|b bs IH]; intros i; simpl; [sdone|].
  apply gsafe_bind; [apply additional_type_info_safe|]. intros i1 x.
  apply gsafe_bind; [apply IH|]. sdone.
Qed.
Lemma class_info_safe i : rsafe i (class_info_parse' i).
Proof.
  apply rsafe_at_err'. unfold class_info_parse.
  apply gsafe_bind; [eauto with safe|]. intros i1 x1.
  apply gsafe_bind; [eauto with safe|]. intros i2 x2.
  apply gsafe_bind; [apply length_count_safe; eauto with safe|]. sdone.
Qed.
Lemma member_type_info_safe ci i : rsafe i (member_type_info_parse i ci).
Proof.
  unfold member_type_info_parse. apply gsafe_bind; [eauto with safe|]. intros i1 x1.
  apply gsafe_bind; [apply additional_infos_safe|]. sdone.
Qed.
Hint Resolve class_info_safe member_type_info_safe : safe.

Lemma class_records_safe i : rsafe i (class_records i).
Proof.
  unfold class_records. repeat apply gsafe_alt.
  - unfold class_with_members.
    do 3 (apply gsafe_bind; [eauto with safe|]; intros ? ?). sdone.
  - unfold class_with_members_and_types.
    do 4 (apply gsafe_bind; [eauto with safe|]; intros ? ?). sdone.
  - unfold system_class_with_members.
    do 2 (apply gsafe_bind; [eauto with safe|]; intros ? ?). sdone.
  - unfold system_class_with_members_and_types.
    do 3 (apply gsafe_bind; [eauto with safe|]; intros ? ?). sdone.
Qed.
Lemma class_with_id_safe i : rsafe i (class_with_id i).
Proof.
  unfold class_with_id. do 2 (apply gsafe_bind; [eauto with safe|]; intros ? ?).
  apply gsafe_bind'; [eauto with safe|]. intros i1 x Hi. destruct (N.eqb _ _); cbn [gsafe e_input ne_input]; sdone.
Qed.
Lemma array_info_safe i : rsafe i (array_info_parse i).
Proof. unfold array_info_parse. do 2 (apply gsafe_bind; [eauto with safe|]; intros ? ?). sdone. Qed.
Hint Resolve array_info_safe : safe.
Lemma array_single_object_safe i : rsafe i (array_single_object i).
Proof. unfold array_single_object. apply gsafe_bind; eauto with safe. Qed.
Lemma array_single_string_safe i : rsafe i (array_single_string i).
Proof. unfold array_single_string. apply gsafe_bind; eauto with safe. Qed.
Lemma array_single_primitive_safe i : rsafe i (array_single_primitive i).
Proof.
  unfold array_single_primitive. do 3 (apply gsafe_bind; [eauto with safe|]; intros ? ?). sdone.
Qed.
Lemma cond_safe {A} b (p : bytes -> res A) i : rsafe i (p i) -> rsafe i (cond b p i).
Proof. intros. unfold cond. destruct b; [eauto with safe|sdone]. Qed.
Lemma binary_array_safe i : rsafe i (binary_array_parse i).
Proof.
  unfold binary_array_parse. do 5 (apply gsafe_bind; [eauto with safe|]; intros ? ?).
  apply gsafe_bind; [apply cond_safe; eauto with safe|]. intros ? ?.
  apply gsafe_bind; [eauto with safe|]. intros ? ?.
  apply gsafe_bind; [apply additional_type_info_safe|]. sdone.
Qed.
Lemma header_safe i : rsafe i (serialization_header_parse i).
Proof.
  unfold serialization_header_parse. apply gsafe_bind; [eauto with safe|]. intros i1 _.
  apply gsafe_bind'; [eauto with safe|]. intros i2 z H2. destruct (Z.ltb _ _); [sdone|].
  eapply gsafe_weaken; [|exact H2].
  apply gsafe_bind; [eauto with safe|]. intros i3 h.
  apply gsafe_bind'; [eauto with safe|]. intros i4 m H4. destruct (negb _); [sdone|].
  eapply gsafe_weaken; [|exact H4].
  apply gsafe_bind'; [eauto with safe|]. intros i5 m' H5. destruct (negb _); cbn [gsafe e_input ne_input]; sdone.
Qed.
Lemma message_flags_safe i : rsafe i (message_flags_parse i).
Proof.
  rewrite message_flags_eq. apply gsafe_bind'; [eauto with safe|]. intros i1 z H1.
  destruct (flags_okb z); cbn [gsafe e_input ne_input]; sdone.
Qed.
Hint Resolve message_flags_safe string_value_with_code_safe value_with_code_safe
  array_of_value_with_code_safe cond_safe : safe.
Lemma method_call_safe i : rsafe i (binary_method_call_parse i).
Proof.
  unfold binary_method_call_parse. do 6 (apply gsafe_bind; [eauto with safe|]; intros ? ?). sdone.
Qed.
Lemma method_return_safe i : rsafe i (binary_method_return_parse i).
Proof.
  unfold binary_method_return_parse. do 5 (apply gsafe_bind; [eauto with safe|]; intros ? ?). sdone.
Qed.

End with_decimal.
