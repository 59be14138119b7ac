(** * PropsQ: which byte strings are accepted, which make the parser panic, and which are refused,
    in terms of the specification alone (C02, C39, C48, C60). *)
From Verif Require Import Base Utf8 Value DataTypes Records Parser Wire BaseLemmas DataTypesLemmas
  RecordsLemmas MethodLemmas SafetyLemmas Safety Grammar Heads Complete Sound Fuel Message Run Spec
  LemmasA LemmasB LemmasC Positions Reach LemmasD Trees TreeLemmas PropsA PropsB PropsC PropsD PropsE Calm
  PropsF Ragged Panics Stops StopsLeaf Quits PropsO.
From Coq Require Import Lia.

Section with_decimal.
Context {DL : DecimalLib}.

(** ** The attempts that are given up are the ones of the specification *)
Lemma abandoned_iff e i e' : abandoned e i e' <-> stops_record false e i e'.
Proof.
  split.
  - intros (f & err & H). apply (proj2 (quit_found f) false) in H; [|done]. by rewrite !env_of_st in H.
  - intros H. apply stops_quit in H as (er & F & H). exists F, er. by apply H.
Qed.
Lemma abandoned_array_iff e i e' : head_in [x10] i -> abandoned_array e i e' <-> stops_record false e i e'.
Proof.
  intros Hh. split.
  - intros (f & err & H).
    assert (parse_referenceable (S (S f)) (st e) i = (st e', Err (mkError i E_Other))) as Hr.
    { rewrite ref_object_array by done.
      destruct (sle_array_single_object (parse_classes f) (parse_classes (S f)) (parse_referenceable f)
        (parse_referenceable (S f)) (fun s i => sle_classes _ _ s i (Nat.le_succ_diag_r f))
        (fun s i => sle_referenceable _ _ s i (Nat.le_succ_diag_r f)) (st e) i) as [Hd|Hd]; [by rewrite H in Hd|].
      rewrite <- Hd, H. reflexivity. }
    apply abandoned_iff. by exists (S (S f)), (mkError i E_Other).
  - intros H. apply abandoned_iff in H as (f & err & H).
    assert (parse_referenceable (S (S f)) (st e) i = (st e', Err err)) as Hr.
    { eapply abandoned_lift; [|exact H]. lia. }
    rewrite ref_object_array in Hr by done. apply (finish_quit false) in Hr as [er Hr]. by exists (S f), er.
Qed.
Lemma call_array_at_iff root e i ca e' i' : call_array_step root e i ca e' i' <-> call_array_at root e i ca e' i'.
Proof.
  split; intros [ca' e2 i2 H|e2 Hh H].
  - by apply CA_read.
  - apply CA_given_up; [exact Hh|]. by apply abandoned_array_iff.
  - by apply CA_clean.
  - apply CA_abandoned; [exact Hh|]. by apply abandoned_array_iff.
Qed.
Lemma method_at_iff root e i m e' i' : method_step root e i m e' i' <-> method_at root e i m e' i'.
Proof.
  split; intros [flags name ty ctx inl bs j ca args e2 i2 Hb Hc Ha|flags ret ctx inl bs j ca args e2 i2 Hb Hc Ha];
    apply call_array_at_iff in Hc; by econstructor.
Qed.
Lemma accepts_iff W m : accepted_as W m <-> accepts W m.
Proof.
  split; intros [root hb i e1 i1 e1' e2 v Hh Ho Hs Ho2 Hv|root hb i e1 i1 m' e2 i2 e3 Hh Ho Hm Ho2].
  - apply abandoned_iff in Hs. by econstructor.
  - apply method_at_iff in Hm. by eapply Acc_method.
  - apply abandoned_iff in Hs. by econstructor.
  - apply method_at_iff in Hm. by eapply AA_method.
Qed.
Lemma expects_iff W e i : tried W e i <-> expects W e i.
Proof.
  split.
  - intros [root hb j e1 i1 ? ? ?|root hb j e1 i1 e1' e2 i2 ? ? ? Hs ? ?|root hb j e1 bs i1 e2 i2 ? ? ? ? ? ?|root hb j e1 i1 m e2 i2 e3 i3 ? ? ? Hm ?].
    + by eapply Exp_first.
    + apply abandoned_iff in Hs. by eapply Exp_again.
    + by eapply Exp_call_array.
    + apply method_at_iff in Hm. by eapply Exp_after_method.
  - intros [root hb j e1 i1 ? ? ?|root hb j e1 i1 e1' e2 i2 ? ? ? Hs ? ?|root hb j e1 bs i1 e2 i2 ? ? ? ? ? ?|root hb j e1 i1 m e2 i2 e3 i3 ? ? ? Hm ?].
    + by eapply Tried_first.
    + apply abandoned_iff in Hs. by eapply Tried_again.
    + by eapply Tried_call_array.
    + apply method_at_iff in Hm. by eapply Tried_after_method.
Qed.

(** ** C39: exactly which byte strings are accepted, and as what *)
Theorem C39_accepts_exactly : forall W m, deserialize W = POk m <-> accepts W m.
Proof. intros W m. rewrite message_iff. apply accepts_iff. Qed.
(** The specification admits one result only. *)
Theorem C39_accepts_unique : forall W m1 m2, accepts W m1 -> accepts W m2 -> m1 = m2.
Proof. intros W m1 m2 H1%C39_accepts_exactly H2%C39_accepts_exactly. congruence. Qed.
Example C39_ex_accepts : accepts leak_message (MValue leak_result).
Proof. apply C39_accepts_exactly, leak_accepted. Qed.

Lemma header_same r1 r2 hb : e_header r1 hb -> e_header r2 hb -> r1 = r2.
Proof.
  intros H1 H2. destruct (header_complete r1 hb [] H1) as (h1 & E1 & <-).
  destruct (header_complete r2 hb [] H2) as (h2 & E2 & <-). rewrite E1 in E2. by injection E2 as ->.
Qed.
(** ** C48: exactly what is accepted although a record cannot be read *)
Theorem C48_unreadable_exactly : forall W root e i, after W root e i -> unreadable e i ->
  forall m, deserialize W = POk m <-> exists e1 e2 v,
    stops_record false e i e1 /\ g_objects e1 i e2 [x0b] /\ root_value (if N.eqb root 0 then None else Some root) e2 v /\ m = MValue v.
Proof.
  intros W root e i Ha [Hno Hhd] m. apply after_header in Ha as (ro & hb & body & -> & Hh & -> & Ho).
  rewrite C39_accepts_exactly. split.
  2:{ intros (e1 & e2 & v & Hs & Ho2 & Hv & ->). by eapply Acc_value. }
  intros Hm.
  inversion Hm as [root' hb' i' e1 i1 e1' e2 v' Hh' Ho1 Hab Ho2 Hv|root' hb' i' e1 i1 m' e2 i2 e3 Hh' Ho' Hmt Ho3].
  - apply app_inj_1 in H as [-> ->]; [|by rewrite (e_header_length _ _ Hh), (e_header_length _ _ Hh')].
    assert (e1 = e /\ i1 = i) as [-> ->].
    { destruct (g_objects_chain _ _ _ _ _ _ Ho Ho1) as [Hc|Hc].
      + inversion Hc; subst; [done|]. exfalso. by eapply Hno.
      + inversion Hc; subst; [done|]. exfalso. eapply abandoned_same; [by apply abandoned_iff|eassumption]. }
    exists e1', e2, v'. split; [done|]. split; [done|]. split; [|done].
    by rewrite (header_same _ _ _ Hh Hh').
  - exfalso. apply app_inj_1 in H as [-> ->]; [|by rewrite (e_header_length _ _ Hh), (e_header_length _ _ Hh')].
    assert (exists b i0, i1 = b :: i0 /\ (b = x15 \/ b = x16)) as (b & i0 & -> & Hb).
    { destruct Hmt as [flags name ty ctx il bs j ca args e' i' Hb Hca Hargs|flags ret ctx il bs j ca args e' i' Hb Hca Hargs].
      - destruct Hb as (b1 & b2 & b3 & b4 & b5 & _ & _ & _ & _ & _ & ->). eexists _, _. split; [reflexivity|by left].
      - destruct Hb as (b1 & b2 & b3 & b4 & _ & _ & _ & _ & ->). eexists _, _. split; [reflexivity|by right]. }
    destruct (g_objects_chain _ _ _ _ _ _ Ho Ho') as [Hc|Hc].
    + inversion Hc; subst; [by destruct Hb as [-> | ->]|]. by eapply Hno.
    + inversion Hc; subst; [by destruct Hb as [-> | ->]|]. eapply (no_record_head_end _ b); [|eassumption]. tauto.
Qed.
Lemma leak_unreadable : unreadable empty_env leak_body.
Proof. split; [apply leak_no_record|]. vm_compute. exact I. Qed.
Example C48_ex_exactly : exists e1 e2, stops_record false empty_env leak_body e1 /\ g_objects e1 leak_body e2 [x0b]
  /\ root_value (Some 1%N) e2 leak_result.
Proof.
  pose proof (proj1 (C48_unreadable_exactly _ _ _ _ leak_after leak_unreadable _) leak_accepted) as (e1 & e2 & v & H1 & H2 & H3 & Hv).
  exists e1, e2. split; [exact H1|]. split; [exact H2|].
  assert (v = leak_result) as -> by congruence. exact H3.
Qed.

(** ** C02: exactly which byte strings make the parser panic *)
Theorem C02_panics_where : forall W p,
  deserialize W = PPanic p <-> p = P_DrainOutOfRange /\ exists e i, expects W e i /\ calamity e i.
Proof.
  intros W p. rewrite C02_panics_exactly. split; intros (-> & e & i & Ht & Hc);
    (split; [done|]; exists e, i; split; [by apply expects_iff|done]).
Qed.
Example C02_ex_where : exists e i, expects panic_message e i /\ calamity e i.
Proof. apply (proj1 (C02_panics_where panic_message P_DrainOutOfRange) C02_ex_top). Qed.

(** ** C60: the three outcomes *)
Theorem C60_outcomes : forall W,
  (exists m, accepts W m /\ deserialize W = POk m)
  \/ ((exists e i, expects W e i /\ calamity e i) /\ deserialize W = PPanic P_DrainOutOfRange)
  \/ ((~ (exists m, accepts W m) /\ ~ (exists e i, expects W e i /\ calamity e i))
      /\ exists er, deserialize W = PErr er /\ e_input er ⊑s W).
Proof.
  intros W. pose proof (deserialize_safe W) as Hs. destruct (deserialize W) as [m|er|p|] eqn:E; [| | |done].
  - left. exists m. split; [|done]. by apply C39_accepts_exactly.
  - right; right. split; [|by exists er]. split.
    + intros [m Hm]. apply C39_accepts_exactly in Hm. congruence.
    + intros H. pose proof (proj2 (C02_panics_where W P_DrainOutOfRange) (conj eq_refl H)). congruence.
  - right; left. pose proof (proj1 (C02_panics_where W p) E) as [-> H]. done.
Qed.
Theorem C60_refused_exactly : forall W,
  (exists er, deserialize W = PErr er) <->
  ~ (exists m, accepts W m) /\ ~ (exists e i, expects W e i /\ calamity e i).
Proof.
  intros W. destruct (C60_outcomes W) as [(m & Hm & E)|[(Hc & E)|(Hn & er & E & _)]]; rewrite E.
  - split; [by intros [? ?]|]. intros [H _]. destruct H. by exists m.
  - split; [by intros [? ?]|]. by intros [_ H].
  - split; [done|]. intros _. by exists er.
Qed.
Theorem C60_never_both : forall W m e i, accepts W m -> expects W e i -> ~ calamity e i.
Proof.
  intros W m e i Hm He Hc. apply C39_accepts_exactly in Hm.
  pose proof (proj2 (C02_panics_where W P_DrainOutOfRange) (conj eq_refl (ex_intro _ e (ex_intro _ i (conj He Hc))))).
  congruence.
Qed.
Example C60_ex_refused : ~ (exists m, accepts (header_bytes 1 (-1) ++ ex_unreadable) m)
  /\ ~ (exists e i, expects (header_bytes 1 (-1) ++ ex_unreadable) e i /\ calamity e i).
Proof. apply C60_refused_exactly. eexists. vm_compute. reflexivity. Qed.

End with_decimal.
