(** * PropsP: malformed primitive values at every position (C12). *)
From Verif Require Import Base Utf8 Value DataTypes Records Parser Wire BaseLemmas DataTypesLemmas
  RecordsLemmas MethodLemmas SafetyLemmas Safety Grammar Heads Complete Sound Fuel Message Run Spec
  LemmasA LemmasB LemmasC Positions Reach LemmasD Trees TreeLemmas PropsA PropsB PropsC PropsD PropsE.
From Coq Require Import Lia.

Section with_decimal.
Context {DL : DecimalLib}.

(** No value of the primitive type [p] starts at [i]. *)
Definition no_primitive (p : primitive_type) (i : bytes) : Prop :=
  ~ exists v b r, prim_type_of v = Some p /\ e_prim v b /\ i = b ++ r.
(** The primitive types except the one that is written as text (and null and string, which are not
    the types of primitive values). *)
Definition binary_primitive (p : primitive_type) : Prop :=
  match p with PT_Decimal | PT_Null | PT_String => False | _ => True end.

Lemma uint_cases k i : le_uint k i = Err (mkNomError i K_Eof) \/ exists r n, le_uint k i = Ok r n.
Proof. unfold le_uint. destruct (Nat.ltb _ _); eauto. Qed.
Lemma int_cases k i : le_int k i = Err (mkNomError i K_Eof) \/ exists r n, le_int k i = Ok r n.
Proof. unfold le_int. destruct (uint_cases k i) as [-> | (r & n & ->)]; cbn [rmap bind]; eauto. Qed.
Lemma primitive_fail p i : binary_primitive p -> no_primitive p i ->
  member_primitive_untyped i p = Fail (mkError i (E_ExpectedPrimitive p)).
Proof.
  intros Hb Hn.
  assert (forall r v, member_primitive_untyped i p = Ok r v -> False) as Hno.
  { intros r v H. apply (exact_inv _ _ _ _ _ (member_primitive_untyped_exact p)) in H as (bs & [Ht He] & ->).
    apply Hn. by exists v, bs, r. }
  clear Hn.
  destruct p; cbn in Hb; try done; cbn [member_primitive_untyped] in *.
  all: try (unfold byte_parse, int8_parse, int16_parse, int32_parse, int64_parse, uint16_parse, uint32_parse, uint64_parse,
    single_parse, double_parse, timespan_parse, datetime_parse, int64_parse, prim_number in *;
    match goal with
    | |- context [le_uint ?k ?j] => destruct (uint_cases k j) as [E | (r & n & E)]; rewrite E in *
    | |- context [le_int ?k ?j] => destruct (int_cases k j) as [E | (r & n & E)]; rewrite E in *
    end; [reflexivity|exfalso; eapply Hno; reflexivity]).
  - unfold boolean_parse, prim_number, map_res in *. destruct i as [|b i]; [done|].
    destruct (uint_cases 1 (b :: i)) as [E | (r & n & E)]; rewrite E in *; [done|].
    cbn [bind] in *. destruct (N.eqb n 0); [exfalso; eapply Hno; reflexivity|].
    destruct (N.eqb n 1); [exfalso; eapply Hno; reflexivity|done].
  - unfold char_parse, prim_number, map_opt in *. destruct i as [|b i]; [done|].
    exfalso. destruct (uint_cases 1 (b :: i)) as [E | (r & n & E)]; [done|]. rewrite E in Hno.
    assert (char_from_u32 n = Some n) as Ec.
    { apply char_from_u32_small. injection E as _ <-. cbn. pose proof (b2n_lt b). lia. }
    cbn [bind] in Hno. rewrite Ec in Hno. eapply Hno. reflexivity.
Qed.

(** A member declared with a primitive type. *)
Theorem C12_bad_member : forall W e p i,
  inside false W (Site_member (K_Primitive p) e i) -> binary_primitive p -> no_library i -> no_primitive p i ->
  deserialize W = PErr (mkError i (E_ExpectedPrimitive p)).
Proof.
  intros W e p i Hi Hp Hl Hn. eapply inside_fail; [exact Hi|]. apply ev_const. intros f.
  rewrite parse_member_typed_eq by done. unfold parse_member_typed.
  rewrite parse_binary_library_none by done. cbn [sbind kind_bt kind_ai]. by rewrite primitive_fail.
Qed.
(** A primitive value with its type in front, where any value is allowed. *)
Theorem C12_bad_typed_primitive : forall W k e p i,
  inside false W (Site_member k e (x08 :: n2b (pt_code p) :: i)) ->
  match k with K_Any | K_Object | K_ObjectArray => True | _ => False end ->
  binary_primitive p -> no_primitive p i ->
  deserialize W = PErr (mkError i (E_ExpectedPrimitive p)).
Proof.
  intros W k e p i Hi Hk Hp Hn. eapply inside_fail; [exact Hi|]. apply ev_const. intros f.
  rewrite member_any; [|destruct k; tauto|hd]. unfold member_untyped_body, member_primitive_typed.
  change x08 with (n2b (rt_code RT_MemberPrimitiveTyped)). rewrite rt_ok.
  rewrite (exact_ok primitive_type_parse _ p [n2b (pt_code p)] i primitive_type_exact eq_refl : primitive_type_parse (_ :: i) = _).
  cbn [bind]. by rewrite primitive_fail.
Qed.
(** An array of primitive values. *)
Theorem C12_bad_element : forall W root e id len p vs mb i,
  after W root e (x0f :: enc_uint 4 id ++ enc_uint 4 len ++ n2b (pt_code p) :: mb ++ i) ->
  valid_id id -> valid_len len -> Forall (fun v => prim_type_of v = Some p) vs -> e_list e_prim vs mb ->
  (N.of_nat (length vs) < len)%N -> binary_primitive p -> no_primitive p i ->
  deserialize W = PErr (mkError i (E_ExpectedPrimitive p)).
Proof.
  intros W root e id len p vs mb i Ha Hid Hlen Hty Hmb Hn Hp Hno.
  eapply (after_fail _ _ _ _ 2); [exact Ha|]. rewrite ref_prim_array by hd.
  rewrite (prim_array_fail _ _ _ _ vs _ i (mkError i (E_ExpectedPrimitive p))); try done. by apply primitive_fail.
Qed.

(** Inline arguments of a method call and a method return. *)
Lemma value_with_code_fail p i : binary_primitive p -> no_primitive p i ->
  value_with_code (n2b (pt_code p) :: i) = Fail (mkError i (E_ExpectedPrimitive p)).
Proof.
  intros Hp Hn. unfold value_with_code.
  rewrite (exact_ok primitive_type_parse _ p [n2b (pt_code p)] i primitive_type_exact eq_refl : primitive_type_parse (_ :: i) = _).
  cbn [bind]. rewrite <- primitive_fail by done. by destruct p.
Qed.
Lemma args_fail n vs ab p i : valid_len n -> e_list e_value_with_code vs ab -> (N.of_nat (length vs) < n)%N ->
  binary_primitive p -> no_primitive p i ->
  array_of_value_with_code (enc_uint 4 n ++ ab ++ n2b (pt_code p) :: i) = Fail (mkError i (E_ExpectedPrimitive p)).
Proof.
  intros Hn Hl Hlt Hp Hno. unfold array_of_value_with_code, length_count. rewrite len_ok by done. cbn [bind]. unfold count.
  rewrite (count_loop_fail value_with_code e_value_with_code vs ab _ (mkError i (E_ExpectedPrimitive p))); try done.
  - exact value_with_code_exact.
  - by apply value_with_code_fail.
  - pose proof (e_list_length _ _ _ e_value_with_code_nonempty Hl). rewrite app_length. cbn [length]. lia.
Qed.
Theorem C12_bad_argument : forall W root e flags b1 name b2 type b3 ctx b4 n vs ab p i,
  after W root e (x15 :: b1 ++ b2 ++ b3 ++ b4 ++ enc_uint 4 n ++ ab ++ n2b (pt_code p) :: i) ->
  e_flags flags b1 -> e_string_with_code name b2 -> e_string_with_code type b3 ->
  e_flagged flags bit_ContextInline e_string_with_code ctx b4 -> Z.testbit flags bit_ArgsInline = true ->
  valid_len n -> e_list e_value_with_code vs ab -> (N.of_nat (length vs) < n)%N ->
  binary_primitive p -> no_primitive p i ->
  deserialize W = PErr (mkError i (E_ExpectedPrimitive p)).
Proof.
  intros W root e flags b1 name b2 type b3 ctx b4 n vs ab p i Ha H1 H2 H3 H4 Hargs Hn Hl Hlt Hp Hno.
  eapply (after_method_fail _ _ _ _ (st e) _ 0); [exact Ha|hd|].
  unfold parse_method_call_or_return, parse_method_call. rewrite parse_binary_library_none by (apply no_library_head; hd). cbn [sbind].
  unfold binary_method_call_parse at 1. change x15 with (n2b (rt_code RT_MethodCall)). rewrite rt_ok. cbn [bind].
  rewrite (exact_ok _ _ _ _ _ message_flags_exact H1). cbn [bind].
  rewrite (exact_ok _ _ _ _ _ string_value_with_code_exact H2). cbn [bind].
  rewrite (exact_ok _ _ _ _ _ string_value_with_code_exact H3). cbn [bind].
  rewrite (exact_ok _ _ _ _ _ (cond_exact flags 5 _ _ ltac:(lia) string_value_with_code_exact) H4). cbn [bind].
  change MF_ARGS_INLINE with (2 ^ 1)%Z. rewrite intersects_bit by lia. change 1%Z with bit_ArgsInline. rewrite Hargs.
  cbn [cond]. by rewrite (args_fail n vs).
Qed.
Theorem C12_bad_return_argument : forall W root e flags b1 ret b2 ctx b4 n vs ab p i,
  after W root e (x16 :: b1 ++ b2 ++ b4 ++ enc_uint 4 n ++ ab ++ n2b (pt_code p) :: i) ->
  e_flags flags b1 -> e_flagged flags bit_ReturnValueInline e_value_with_code ret b2 ->
  e_flagged flags bit_ContextInline e_string_with_code ctx b4 -> Z.testbit flags bit_ArgsInline = true ->
  valid_len n -> e_list e_value_with_code vs ab -> (N.of_nat (length vs) < n)%N ->
  binary_primitive p -> no_primitive p i ->
  deserialize W = PErr (mkError i (E_ExpectedPrimitive p)).
Proof.
  intros W root e flags b1 ret b2 ctx b4 n vs ab p i Ha H1 H2 H4 Hargs Hn Hl Hlt Hp Hno.
  eapply (after_method_fail _ _ _ _ (st e) _ 0); [exact Ha|hd|].
  unfold parse_method_call_or_return, parse_method_call. rewrite parse_binary_library_none by (apply no_library_head; hd). cbn [sbind].
  match goal with |- context [binary_method_call_parse ?j] => destruct (method_call_err j) as [er ->]; [hd|] end.
  unfold smap at 1; cbn [fst snd rmap bind alt_mut].
  unfold parse_method_return. rewrite parse_binary_library_none by (apply no_library_head; hd). cbn [sbind].
  unfold binary_method_return_parse at 1. change x16 with (n2b (rt_code RT_MethodReturn)). rewrite rt_ok. cbn [bind].
  rewrite (exact_ok _ _ _ _ _ message_flags_exact H1). cbn [bind].
  rewrite (exact_ok _ _ _ _ _ (cond_exact flags 11 _ _ ltac:(lia) value_with_code_exact) H2). cbn [bind].
  rewrite (exact_ok _ _ _ _ _ (cond_exact flags 5 _ _ ltac:(lia) string_value_with_code_exact) H4). cbn [bind].
  change MF_ARGS_INLINE with (2 ^ 1)%Z. rewrite intersects_bit by lia. change 1%Z with bit_ArgsInline. rewrite Hargs.
  cbn [cond]. by rewrite (args_fail n vs).
Qed.
(** The inline return value. *)
Theorem C12_bad_return_value : forall W root e flags b1 p i,
  after W root e (x16 :: b1 ++ n2b (pt_code p) :: i) ->
  e_flags flags b1 -> Z.testbit flags bit_ReturnValueInline = true -> binary_primitive p -> no_primitive p i ->
  deserialize W = PErr (mkError i (E_ExpectedPrimitive p)).
Proof.
  intros W root e flags b1 p i Ha H1 Hret Hp Hno.
  eapply (after_method_fail _ _ _ _ (st e) _ 0); [exact Ha|hd|].
  unfold parse_method_call_or_return, parse_method_call. rewrite parse_binary_library_none by (apply no_library_head; hd). cbn [sbind].
  match goal with |- context [binary_method_call_parse ?j] => destruct (method_call_err j) as [er ->]; [hd|] end.
  unfold smap at 1; cbn [fst snd rmap bind alt_mut].
  unfold parse_method_return. rewrite parse_binary_library_none by (apply no_library_head; hd). cbn [sbind].
  unfold binary_method_return_parse at 1. change x16 with (n2b (rt_code RT_MethodReturn)). rewrite rt_ok. cbn [bind].
  rewrite (exact_ok _ _ _ _ _ message_flags_exact H1). cbn [bind].
  change MF_RETURN_VALUE_INLINE with (2 ^ 11)%Z. rewrite intersects_bit by lia. change 11%Z with bit_ReturnValueInline. rewrite Hret.
  cbn [cond]. by rewrite value_with_code_fail.
Qed.

(** Booleans: each of the other 254 bytes is no Boolean. *)
Theorem C12_only_two : forall b i, no_primitive PT_Boolean (b :: i) <-> b <> x00 /\ b <> x01.
Proof.
  intros b i. split.
  - intros H. split; intros ->; apply H; [exists (VBoolean false), [x00], i|exists (VBoolean true), [x01], i]; done.
  - intros [H0 H1] (v & bs & r & Ht & He & E). destruct v; inv Ht. cbn in He. subst bs. destruct b0; naive_solver.
Qed.

(** Examples: a Boolean in an array of objects, a truncated member of a class, an argument. *)
Example C12_ex_typed :
  deserialize (header_bytes 1 (-1) ++ ex_record ++ bs_of [16; 1;0;0;0; 1;0;0;0; 8;1;2; 11]%N)
  = PErr (mkError (bs_of [2; 11]%N) (E_ExpectedPrimitive PT_Boolean)).
Proof.
  eapply (C12_bad_typed_primitive _ K_Any ex_env PT_Boolean (bs_of [2; 11]%N)); [|done..|by apply C12_only_two].
  exists 1%N, ex_env, (bs_of [16; 1;0;0;0; 1;0;0;0; 8;1;2; 11]%N). split; [by apply ex_after|].
  eapply (RR_array x10 K_Any false ex_env 1 1 (bs_of [16; 1;0;0;0; 1;0;0;0]%N) _ []);
    [by left|exists (enc_uint 4 1), (enc_uint 4 1); done|constructor|done|apply RM_here].
Qed.
Example C12_ex_member : deserialize (header_bytes 1 (-1) ++ ex_record ++ ex_class_bytes ++ bs_of [7; 0; 11]%N)
  = PErr (mkError (bs_of [7; 0; 11]%N) (E_ExpectedPrimitive PT_Int32)).
Proof.
  eapply (C12_bad_member _ ex_env PT_Int32 (bs_of [7; 0; 11]%N)); [|done|done|].
  - exists 1%N, ex_env, (ex_class_bytes ++ bs_of [7; 0; 11]%N). split; [by apply ex_after|].
    apply RR_class; [apply (bool_decide_unpack _); vm_compute; exact I|].
    eapply (RC_member false ex_env _ ex_env ex_class_bytes (bs_of [7; 0; 11]%N) ex_class None
      [] (K_Primitive PT_Int32) [K_Primitive PT_Int32]); [constructor; done|exact ex_class_header|done|done|constructor|apply RM_here].
  - intros (v & b & r & Ht & He & E). destruct v; inv Ht. destruct He as [_ ->].
    apply (f_equal length) in E. rewrite app_length in E. cbn in E. lia.
Qed.
Example C12_ex_argument : deserialize (header_bytes 1 (-1) ++ bs_of [21; 2;0;0;0; 18;1;109; 18;1;116; 1;0;0;0; 1;2; 11]%N)
  = PErr (mkError (bs_of [2; 11]%N) (E_ExpectedPrimitive PT_Boolean)).
Proof. vm_compute. reflexivity. Qed.
End with_decimal.
