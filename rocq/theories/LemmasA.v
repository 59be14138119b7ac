(** * LemmasA: headers, strings, primitive values (properties C01 - C14, C36, C37). *)
From Verif Require Import Base Utf8 Value DataTypes Records Parser Wire BaseLemmas Utf8Lemmas
  DataTypesLemmas RecordsLemmas MethodLemmas SafetyLemmas Safety Grammar Heads Complete Sound Fuel
  Message Run Spec.
From Coq Require Import Lia ZifyBool ZifyNat ZifyN.

Section with_decimal.
Context {DL : DecimalLib}.

(** ** Contents of results *)

Lemma value_from_sub W v w : value_from W w -> sub_value v w -> value_from W v.
Proof.
  intros Hw Hs. revert Hw. induction Hs as [|o k w Hin Hs IH|vs w Hin Hs IH]; intros Hw; [done| |].
  - inversion Hw as [o' H1 H2 H3 H4| |v' bs He| |]; subst; [|done]. apply IH. by apply H4 in Hin as [_ ?].
  - inversion Hw as [|vs' H1|v' bs He| |]; subst; [|done]. by apply IH, H1.
Qed.

Lemma value_from_strings W v s : value_from W v -> s ∈ own_strings v -> str_from W s.
Proof.
  intros Hv Hs. inversion Hv as [o H1 H2 H3 H4|vs H1|v' bs He Ho|s' H1|]; subst; simpl in Hs.
  - apply elem_of_cons in Hs as [->|Hs]; [done|].
    apply elem_of_app in Hs as [Hs|Hs].
    + destruct (obj_library o) as [l|] eqn:E; [|by apply elem_of_nil in Hs].
      apply elem_of_list_singleton in Hs as ->. by apply H2.
    + apply elem_of_list_fmap in Hs as ([k v] & -> & Hin). by apply H4 in Hin as [? _].
  - by apply elem_of_nil in Hs.
  - destruct v; try done; by apply elem_of_nil in Hs.
  - by apply elem_of_list_singleton in Hs as ->.
  - by apply elem_of_nil in Hs.
Qed.

Lemma message_from_values W m v : message_from W m -> v ∈ message_values m -> value_from W v.
Proof.
  destruct m as [c|r|w]; simpl.
  - intros (_ & _ & _ & Ha) Hin. destruct (mc_args c) as [l|] eqn:E; simpl in Hin.
    + specialize (Ha l eq_refl). rewrite Forall_forall in Ha. by apply Ha.
    + by apply elem_of_nil in Hin.
  - intros (Hr & _ & Ha) Hin. apply elem_of_app in Hin as [Hin|Hin].
    + destruct (mr_return_value r) as [w|] eqn:E; simpl in Hin; [|by apply elem_of_nil in Hin].
      apply elem_of_list_singleton in Hin as ->. by apply Hr.
    + destruct (mr_args r) as [l|] eqn:E; simpl in Hin; [|by apply elem_of_nil in Hin].
      specialize (Ha l eq_refl). rewrite Forall_forall in Ha. by apply Ha.
  - intros [Hw _] Hin. by apply elem_of_list_singleton in Hin as ->.
Qed.

Lemma message_from_strings W m s : message_from W m -> s ∈ message_strings m -> str_from W s.
Proof.
  destruct m as [c|r|w]; simpl.
  - intros (H1 & H2 & H3 & _) Hin. apply elem_of_cons in Hin as [->|Hin]; [done|].
    apply elem_of_cons in Hin as [->|Hin]; [done|].
    destruct (mc_call_context c) as [x|]; simpl in Hin; [|by apply elem_of_nil in Hin].
    apply elem_of_list_singleton in Hin as ->. by apply H3.
  - intros (_ & H3 & _) Hin.
    destruct (mr_call_context r) as [x|]; simpl in Hin; [|by apply elem_of_nil in Hin].
    apply elem_of_list_singleton in Hin as ->. by apply H3.
  - intros _ Hin. by apply elem_of_nil in Hin.
Qed.

Lemma result_value W m v : deserialize W = POk m -> value_in v m -> value_from W v.
Proof.
  intros H (w & Hw & Hs). pose proof (deserialize_safe W) as Hd. rewrite H in Hd.
  eapply value_from_sub; [|done]. by eapply message_from_values.
Qed.

Lemma result_string_from W m s : deserialize W = POk m -> string_in s m -> str_from W s.
Proof.
  intros H Hs.
  destruct Hs as [Hs|(v & Hv & Hs)].
  - pose proof (deserialize_safe W) as Hd. rewrite H in Hd. by eapply message_from_strings.
  - eapply value_from_strings; [|done]. by eapply result_value.
Qed.
Lemma result_string W m s : deserialize W = POk m -> string_in s m -> slice_of s W /\ utf8 s.
Proof. intros H Hs. by destruct (result_string_from W m s H Hs) as (? & ? & _). Qed.

Lemma result_range W m v : deserialize W = POk m -> value_in v m -> in_type_range v.
Proof.
  intros H Hv. pose proof (result_value _ _ _ H Hv) as Hf. 
  inversion Hf as [o H1 H2 H3 H4|vs H1|v' bs He Ho|s' H1|]; subst; try done.
  destruct v; cbn [in_type_range e_prim] in *; try done;
    destruct He as [He _]; unfold fits_uint, fits_int in He; try exact He; try exact I.
  - change (2 ^ (8 * N.of_nat 1))%N with 256%N in He. unfold scalar. lia.
Qed.

Lemma no_divergence W : deserialize W <> PDiverge.
Proof. intros H. pose proof (deserialize_safe W) as Hs. by rewrite H in Hs. Qed.

Lemma fuel_irrelevant W f :
  2 * length W + 2 <= f ->
  parse_remoting_message f init_state W = parse_remoting_message (2 * length W + 2) init_state W.
Proof.
  intros Hf. pose proof (no_divergence W) as Hn. unfold deserialize in Hn.
  destruct (sle_message (2 * length W + 2) f init_state W Hf) as [Hd|Hd]; [|done].
  by rewrite Hd in Hn.
Qed.

Lemma panic_only W p :
  deserialize W = PPanic p -> p = P_DrainOutOfRange /\ x07 ∈ W /\ (x0d ∈ W \/ x0e ∈ W).
Proof. intros H. pose proof (deserialize_safe W) as Hs. by rewrite H in Hs. Qed.

Lemma error_suffix W e : deserialize W = PErr e -> exists p, W = p ++ e_input e.
Proof. intros H. pose proof (deserialize_safe W) as Hs. by rewrite H in Hs. Qed.

(** ** Headers *)

Lemma header_bytes_header root hid :
  (root < 2 ^ 31)%N -> fits_int 4 hid ->
  e_header (if N.eqb root 0 then None else Some root) (header_bytes root hid).
Proof.
  intros Hr Hh. exists hid. destruct (N.eqb_spec root 0) as [->|Hn]; simpl.
  - done.
  - split; [unfold valid_id; lia|]. done.
Qed.
Lemma header_root root hid :
  valid_id root -> fits_int 4 hid -> e_header (Some root) (header_bytes root hid).
Proof.
  intros Hr Hh. exists hid. done.
Qed.

Lemma header_accept W m :
  deserialize W = POk m ->
  exists root hid body, (root < 2 ^ 31)%N /\ fits_int 4 hid /\ W = header_bytes root hid ++ body.
Proof.
  intros H. apply message_iff in H.
  assert (forall root hb i, e_header root hb -> exists root0 hid body,
    (root0 < 2 ^ 31)%N /\ fits_int 4 hid /\ hb ++ i = header_bytes root0 hid ++ body) as Hx.
  { intros root hb i (hid & Hr & Hh & ->). exists (default 0%N root), hid, i. split; [|done].
    destruct root as [r|]; simpl; [unfold valid_id in Hr|]; lia. }
  destruct H; by eapply Hx.
Qed.

Ltac read4 z := rewrite (exact_ok int32_parse (e_int 4) z _ _ int32_exact) by done; cbn [bind].

Lemma header_errors root hid major minor body :
  fits_int 4 root -> fits_int 4 hid -> fits_int 4 major -> fits_int 4 minor ->
  let rest3 := enc_int 4 minor ++ body in
  let rest2 := enc_int 4 major ++ rest3 in
  let rest1 := enc_int 4 root ++ enc_int 4 hid ++ rest2 in
  ((root < 0)%Z -> deserialize (x00 :: rest1) = PErr (mkError rest1 E_InvalidRootId))
  /\ ((0 <= root)%Z -> major <> 1%Z ->
      deserialize (x00 :: rest1) = PErr (mkError rest2 E_InvalidMajorVersion))
  /\ ((0 <= root)%Z -> major = 1%Z -> minor <> 0%Z ->
      deserialize (x00 :: rest1) = PErr (mkError rest3 E_InvalidMinorVersion)).
Proof.
  intros H1 H2 H3 H4 rest3 rest2 rest1.
  assert (forall W e, serialization_header_parse W = Fail e -> deserialize W = PErr e) as Hd.
  { intros W e He. unfold deserialize, parse_remoting_message. by rewrite He. }
  assert (forall r, record_type_parse RT_SerializedStreamHeader (x00 :: r)
    = Ok r RT_SerializedStreamHeader) as Ht by done.
  unfold rest1, rest2, rest3. split; [|split].
  - intros Hr. apply Hd. unfold serialization_header_parse. rewrite Ht. cbn [bind].
    read4 root. destruct (Z.ltb_spec root 0); [done|lia].
  - intros Hr Hm. apply Hd. unfold serialization_header_parse. rewrite Ht. cbn [bind].
    read4 root. destruct (Z.ltb_spec root 0); [lia|]. read4 hid. read4 major.
    destruct (Z.eqb_spec major 1); done.
  - intros Hr Hm Hn. apply Hd. unfold serialization_header_parse. rewrite Ht. cbn [bind].
    read4 root. destruct (Z.ltb_spec root 0); [lia|]. read4 hid. read4 major.
    destruct (Z.eqb_spec major 1); [|done]. cbn [negb]. read4 minor.
    destruct (Z.eqb_spec minor 0); done.
Qed.

Lemma header_tag W :
  match W with x00 :: _ => False | _ => True end ->
  deserialize W = PErr (mkError W (E_ExpectedRecordType RT_SerializedStreamHeader)).
Proof.
  intros H. unfold deserialize, parse_remoting_message, serialization_header_parse.
  destruct W as [|c W]; [done|]. rewrite record_type_parse_cons.
  rewrite bool_decide_eq_false_2; [done|]. intros ->. exact H.
Qed.

(** ** The end *)

Lemma g_lib_suffix e i e' i' : g_lib e i e' i' -> i' ⊑s i.
Proof. intros []; [by eexists|done]. Qed.

Lemma app_suffix (b i : bytes) : i ⊑s b ++ i.
Proof. by exists b. Qed.

Lemma g_suffix :
  (forall e i id o e' i', g_class e i id o e' i' -> i' ⊑s i)
  /\ (forall k e i it e' i', g_member k e i it e' i' -> i' ⊑s i)
  /\ (forall ks e i its e' i', g_items ks e i its e' i' -> i' ⊑s i)
  /\ (forall its e i vs e' i', g_resolve its e i vs e' i' -> i' ⊑s i)
  /\ (forall e i id v e' i', g_record e i id v e' i' -> i' ⊑s i).
Proof.
  apply g_mut_ind; intros;
    repeat match goal with
    | H : g_lib _ _ _ _ |- _ => apply g_lib_suffix in H
    end;
    repeat match goal with
    | H : _ ++ ?i ⊑s ?j |- _ =>
        lazymatch goal with
        | _ : i ⊑s j |- _ => fail
        | _ => assert (i ⊑s j) by (etrans; [apply app_suffix|exact H])
        end
    end; try done; eauto using app_suffix; try (by etrans; eauto using app_suffix).
  - etrans; [eassumption|]. etrans; eassumption.
  - etrans; [eassumption|]. etrans; [eassumption|apply app_suffix].
  - etrans; [eassumption|]. etrans; [eassumption|apply app_suffix].
  - etrans; [eassumption|]. etrans; [eassumption|apply app_suffix].
Qed.

Lemma g_objects_suffix e i e' i' : g_objects e i e' i' -> i' ⊑s i.
Proof.
  induction 1 as [|e i id v e1 i1 e2 i2 H1 H2 IH]; [done|]. etrans; [exact IH|].
  by eapply g_suffix.
Qed.

Lemma method_step_suffix root e i m e' i' : method_step root e i m e' i' -> i' ⊑s i.
Proof.
  assert (forall root e i ca e' i', call_array_step root e i ca e' i' -> i' ⊑s i) as Hc.
  { intros ro e0 j ca e1 j' [ca' e2 j2 Hc|]; [|done].
    destruct Hc as [|e4 id len bs i4 its e5 i5 vs e6 i6 A1 A2 A3 A4 A5 A6]; [done|].
    destruct g_suffix as (_ & _ & G3 & G4 & _). apply G3 in A4. apply G4 in A6.
    apply g_lib_suffix in A1. etrans; [exact A6|]. etrans; [exact A4|].
    etrans; [apply app_suffix|exact A1]. }
  intros [? ? ? ? ? ? ? ? ? ? ? ? A _|? ? ? ? ? ? ? ? ? ? ? A _]; apply Hc in A;
    (etrans; [exact A|apply app_suffix]).
Qed.

Lemma last_byte W m : deserialize W = POk m -> exists W', W = W' ++ [x0b].
Proof.
  intros H. apply message_iff in H.
  assert ([x0b] ⊑s W) as [W' ->]; [|eauto].
  destruct H as [root hb i e1 i1 e1' e2 v Hh Ho1 Ha Ho2 Hv|root hb i e1 i1 m e2 i2 e3 Hh Ho1 Hm Ho3].
  - apply g_objects_suffix in Ho1, Ho2. etrans; [exact Ho2|]. etrans; [exact Ho1|apply app_suffix].
  - apply g_objects_suffix in Ho1, Ho3. apply method_step_suffix in Hm.
    etrans; [exact Ho3|]. etrans; [exact Hm|]. etrans; [exact Ho1|apply app_suffix].
Qed.

End with_decimal.
