(** * BlameMessage: a message is refused exactly with the errors of [Blame.v]. *)
From Verif Require Import Base Utf8 Value DataTypes Records Parser Wire BaseLemmas DataTypesLemmas
  RecordsLemmas MethodLemmas SafetyLemmas Safety Grammar Heads Complete Sound Fuel Message Run Spec
  LemmasA LemmasB LemmasC LemmasD Positions Reach Trees Panics Stops StopsLeaf Quits PropsQ Blame BlameLeaf Blames.
From Coq Require Import Lia.

Section with_decimal.
Context {DL : DecimalLib}.

(** ** Records *)
Lemma record_fail_found f s i s' er :
  st_classes s = ∅ -> parse_referenceable f s i = (s', Fail er) -> blame_record er (env_of s) i.
Proof.
  intros Hs H. pose proof H as Hq. apply (proj2 (quit_found f) true) in Hq; [|done].
  destruct stops_blamed as (_ & _ & _ & Hb). apply Hb in Hq as [er' Hq]; [|done].
  pose proof Hq as Hq'. apply blames_fail in Hq' as [s2 [F H2]].
  rewrite st_env_of in H2 by done.
  pose proof (referenceable_lift f (f + F) _ _ _ ltac:(lia) H ltac:(done)) as H3.
  rewrite (H2 (f + F)) in H3 by lia. by injection H3 as _ ->.
Qed.
Lemma record_blamed e i er : blame_record er e i -> exists s', ev (fun f => parse_referenceable f (st e) i) (s', Fail er).
Proof. apply blames_fail. Qed.
Lemma array_fail_found f s i s' er :
  st_classes s = ∅ -> head_in [x10] i ->
  parse_array_single_object (parse_classes f) (parse_referenceable f) s i = (s', Fail er) -> blame_record er (env_of s) i.
Proof.
  intros Hs Hh H. apply (record_fail_found (S (S f)) s i s'); [done|].
  rewrite ref_object_array by done.
  destruct (sle_array_single_object (parse_classes f) (parse_classes (S f)) (parse_referenceable f)
    (parse_referenceable (S f)) (fun s i => sle_classes _ _ s i (Nat.le_succ_diag_r f))
    (fun s i => sle_referenceable _ _ s i (Nat.le_succ_diag_r f)) s i) as [Hd|Hd]; [by rewrite H in Hd|].
  by rewrite <- Hd, H.
Qed.
Lemma array_blamed e i er : head_in [x10] i -> blame_record er e i ->
  exists s', ev (fun f => parse_array_single_object (parse_classes f) (parse_referenceable f) (st e) i) (s', Fail er).
Proof.
  intros Hh H. apply record_blamed in H as [s' [F H]]. exists s', (S F). intros f Hf.
  destruct f as [|f]; [lia|]. specialize (H (S (S f)) ltac:(lia)). rewrite ref_object_array in H by done.
  destruct (parse_array_single_object _ _ (st e) i) as [s [i' a|e0|e0|p|]]; cbn [ref_finish] in H; try done.
  by injection H as -> ->.
Qed.

(** ** Libraries *)
Lemma lib_fail_found s i s' er : parse_binary_library s i = (s', Fail er) -> blame_lib (env_of s) er i.
Proof.
  unfold parse_binary_library. pose proof (binary_library_safe i) as Hs.
  destruct (binary_library i) as [i1 [lid name]|e|e|p|] eqn:E; cbn [opt]; try done.
  - apply binary_library_exact in E as (bs & Hb & ->). case_bool_decide as Hd; [|done].
    intros [= _ <-]. eapply BL_known; [exact Hb|exact Hd|reflexivity].
  - intros [= _ <-]. unfold binary_library in E. destruct i as [|c r].
    { by rewrite record_type_parse_nil in E. }
    rewrite record_type_parse_cons in E. case_bool_decide as Hc; [|done].
    assert (c = x0c) as -> by (subst; reflexivity). cbn [bind] in E. apply BL_id, library_id_fail.
    destruct (library_id r) as [? ?|?|?|?|]; cbn [bind] in E; try done; [|congruence].
    exfalso. revert E. destruct (lps_parse _) as [? ?|?|?|?|] eqn:El; cbn [bind]; try done.
    intros _. apply lps_fail in El. done.
Qed.

(** ** Call arrays *)
Lemma call_array_found f root s i s' i' ca :
  st_classes s = ∅ -> sopt i (parse_call_array f root s i) = (s', Ok i' ca) ->
  st_classes s' = ∅ /\ call_array_tried root (env_of s) i ca (env_of s') i'.
Proof.
  intros Hs H. split; [by apply call_array_sound in H as [? _]|].
  unfold sopt, parse_call_array in H.
  destruct (parse_binary_library s i) as [s1 r1] eqn:El.
  destruct (parse_binary_library_cases _ _ _ _ El) as [[i1 ->]|[e ->]]; cbn [sbind] in H; [|done].
  pose proof (parse_binary_library_sound _ _ _ _ _ El) as [Hl Hc]. rewrite Hs in Hc.
  destruct (parse_array_single_object _ _ s1 i1) as [s2 r2] eqn:Ea.
  destruct r2 as [i2 a|e|e|p|]; cbn [sbind fst snd opt] in H; try done.
  - case_bool_decide as Hr; cbn [fst snd opt] in H; [|done]. inv H. apply CT_read, CA_read.
    apply array_single_object_sound in Ea as (len & bs & i0 & its & e1 & i1' & vs & -> & Hb & H1 & H2 & H3 & H4);
      [|eauto using mono_classes, mono_referenceable, parse_classes_nothing|..|done].
    + rewrite H4. eapply G_ca_some; [done|done|done|done|done|done].
    + apply mono_referenceable.
    + intros. by apply (proj1 (g_sound f)).
    + intros. by eapply (proj2 (g_sound f)).
    + intros. by apply parse_classes_nothing.
  - injection H as <- <- <-.
    inversion Hl as [id name bs j Hr Hf|j Hn].
    + eapply (CT_library _ _ _ id name bs i1); [by subst|done|done|].
      destruct (decide (head_in [x10] i1)) as [Hh|Hh]; [right|left].
      * split; [exact Hh|]. apply (abandoned_array_iff _ _ _ Hh). exists f, e.
        assert (add_lib id name (env_of s) = env_of s1) as Heq by (by destruct s1; cbn in *; subst). rewrite Heq, !st_env_of; [exact Ea|..]; [|done].
        by eapply classes_array_single_object.
      * split; [exact Hh|]. destruct (array_single_object_err i1 Hh) as [er Her].
        unfold parse_array_single_object in Ea. rewrite Her in Ea. injection Ea as <- _. by destruct s1; cbn in *; subst.
    + subst j. subst i1. assert (s1 = s) as ->.
      { destruct s, s1. cbn in *. by subst. }
      destruct (decide (head_in [x10] i)) as [H10|H10].
      { apply CT_read, CA_given_up; [exact H10|]. apply (abandoned_array_iff _ _ _ H10). exists f, e.
        rewrite !st_env_of; [exact Ea|..]; [|done]. by eapply classes_array_single_object. }
      destruct (array_single_object_err i H10) as [er Her].
      unfold parse_array_single_object in Ea. rewrite Her in Ea. injection Ea as <- _.
      destruct (decide (head_in [x0c] i)) as [H0c|H0c].
      { by apply CT_no_library. }
      apply CT_read, CA_read, G_ca_none.
      destruct i as [|c i]; [done|]. destruct (decide (c = x10)) as [->|Hc1]; [by destruct H10; apply elem_of_list_singleton|].
      destruct (decide (c = x0c)) as [->|Hc2]; [by destruct H0c; apply elem_of_list_singleton|].
      by destruct c.
Qed.
Lemma call_array_tried_run root e i ca e' i' :
  call_array_tried root e i ca e' i' ->
  ev (fun f => sopt i (parse_call_array f root (st e) i)) (st e', Ok i' ca).
Proof.
  intros [ca' e2 i2 H|Hh Hl|id name bs i1 e2 -> Hb Hd H].
  - apply call_array_at_iff in H. apply call_array_step_complete in H as [f0 H].
    exists (f0 + 2 * length i + 2). intros f Hf. apply H; lia.
  - exists 0. intros f _. unfold sopt, parse_call_array. rewrite parse_binary_library_none by done. cbn [sbind].
    change begins with head_in in Hh. destruct (array_single_object_err i) as [er Her]; [hd|].
    unfold parse_array_single_object. by rewrite Her.
  - assert (parse_binary_library (st e) (bs ++ i1) = (st (add_lib id name e), Ok i1 tt)) as El
      by (by apply parse_binary_library_complete, G_lib_some).
    destruct H as [[Hh ->]|[Hh H]].
    + change begins with head_in in Hh. exists 0. intros f _. unfold sopt, parse_call_array. rewrite El. cbn [sbind].
      destruct (array_single_object_err i1 Hh) as [er Her]. unfold parse_array_single_object. by rewrite Her.
    + apply (abandoned_array_iff _ _ _ Hh) in H as (F & err & H). exists F. intros f Hf.
      unfold sopt, parse_call_array. rewrite El. cbn [sbind].
      destruct (sle_array_single_object (parse_classes F) (parse_classes f) (parse_referenceable F)
        (parse_referenceable f) (fun s i => sle_classes _ _ s i Hf)
        (fun s i => sle_referenceable _ _ s i Hf) (st (add_lib id name e)) i1) as [Hx|Hx]; [by rewrite H in Hx|].
      by rewrite <- Hx, H.
Qed.

(** The errors of a call array. *)
Definition call_array_flaw (root : option N) (e : env) (i : bytes) (er : error) : Prop :=
  blame_lib e er i
  \/ (exists e1 i1, g_lib e i e1 i1 /\ begins [x10] i1 /\ blame_record er e1 i1)
  \/ (exists id ca e1 i1, g_call_array (Some id) e i (Some ca) e1 i1 /\ root <> Some id /\ report E_InvalidCallArrayId i1 er).
Lemma sopt_fail {A} i (r : sres A) s er : sopt i r = (s, Fail er) -> r = (s, Fail er).
Proof. destruct r as [s1 [i' a|e0|e0|p|]]; cbn; intros H; by inv H. Qed.
Lemma call_array_fail_found f root s i s' er :
  st_classes s = ∅ -> parse_call_array f root s i = (s', Fail er) -> call_array_flaw root (env_of s) i er.
Proof.
  intros Hs H. unfold parse_call_array in H.
  destruct (parse_binary_library s i) as [s1 r1] eqn:El.
  destruct (parse_binary_library_cases _ _ _ _ El) as [[i1 ->]|[e ->]]; cbn [sbind] in H.
  2:{ injection H as -> ->. left. by eapply lib_fail_found. }
  pose proof (parse_binary_library_sound _ _ _ _ _ El) as [Hl Hc]. rewrite Hs in Hc.
  destruct (parse_array_single_object _ _ s1 i1) as [s2 r2] eqn:Ea.
  destruct r2 as [i2 a|e|e|p|]; cbn [sbind] in H; try done.
  - case_bool_decide as Hr; [done|]. injection H as -> <-. right; right.
    apply array_single_object_sound in Ea as (len & bs & i0 & its & e1 & i1' & vs & -> & Hb & H1 & H2 & H3 & H4);
      [|eauto using mono_classes, mono_referenceable, parse_classes_nothing|..|done].
    + exists a.1, a.2, (env_of s'), i2. split; [|split; [congruence|reflexivity]].
      rewrite H4. eapply G_ca_some; [done|done|done|done|done|done].
    + apply mono_referenceable.
    + intros. by apply (proj1 (g_sound f)).
    + intros. by eapply (proj2 (g_sound f)).
    + intros. by apply parse_classes_nothing.
  - injection H as -> ->. right; left. exists (env_of s1), i1. split; [done|].
    destruct (decide (head_in [x10] i1)) as [H10|H10]; [split; [exact H10|by eapply array_fail_found]|].
    exfalso. destruct (array_single_object_err i1 H10) as [e' He]. unfold parse_array_single_object in Ea. by rewrite He in Ea.
Qed.
Lemma call_array_flaw_run root e i er :
  call_array_flaw root e i er -> exists s', ev (fun f => sopt i (parse_call_array f root (st e) i)) (s', Fail er).
Proof.
  intros [H|[(e1 & i1 & Hl & Hh & H)|(id & ca & e1 & i1 & Hc & Hn & ->)]].
  - apply lib_blames in H as [s' H]. exists s', 0. intros f _. unfold sopt, parse_call_array. by rewrite H.
  - apply (array_blamed _ _ _ Hh) in H as [s' [F H]]. exists s', F. intros f Hf.
    unfold sopt, parse_call_array. rewrite (parse_binary_library_complete _ _ _ _ Hl). cbn [sbind]. by rewrite H.
  - exists (st e1), (2 * length i + 2). intros f Hf.
    pose proof (call_array_complete _ _ _ _ _ _ f Hc Hf) as H. unfold sopt, parse_call_array in *.
    destruct (parse_binary_library (st e) i) as [s1 [i2 u|e0|e0|p|]]; cbn [sbind fst snd opt] in *; try done.
    destruct (parse_array_single_object _ _ s1 i2) as [s2 [i3 a|e0|e0|p|]]; cbn [sbind fst snd opt] in *; try done.
    case_bool_decide as Hid; [|done]. cbn [fst snd opt] in H. injection H as -> -> _.
    rewrite bool_decide_eq_false_2; [done|]. intros He. apply Hn. congruence.
Qed.

(** ** Method records *)
Lemma parse_args_fail flags ca inl i er :
  parse_args flags ca inl i = Fail er <->
  ~ (exists args, args_rule flags ca inl args) /\ report E_InvalidArgs i er.
Proof.
  unfold parse_args, args_rule, report.
  change MF_ARGS_IS_ARRAY with (2 ^ bit_ArgsIsArray)%Z.
  change MF_ARGS_IN_ARRAY with (2 ^ bit_ArgsInArray)%Z.
  rewrite !intersects_testbit by done.
  destruct (Z.testbit flags bit_ArgsIsArray).
  { destruct ca as [a|].
    - split; [done|]. intros [H _]. destruct H. eauto.
    - split; [|by intros [_ ->]]. intros [= <-]. split; [|done]. intros (? & ? & ? & _). done. }
  destruct (Z.testbit flags bit_ArgsInArray).
  { assert (forall o : option (list value), (forall a r, o <> Some (VArray a :: r)) ->
      @Fail bytes error (option (list value)) (mkError i E_InvalidArgs) = Fail er <->
      ~ (exists args, exists a r, o = Some (VArray a :: r) /\ args = Some a) /\ er = mkError i E_InvalidArgs) as Hno.
    { intros o Ho. split; [|by intros [_ ->]]. intros [= <-]. split; [|done]. intros (? & a & r & Ha & _). by eapply Ho. }
    destruct ca as [[|v r]|]; [by apply Hno| |by apply Hno].
    destruct v; try (by apply Hno). split; [done|]. intros [H _]. destruct H. eauto. }
  split; [done|]. intros [H _]. destruct H. eauto.
Qed.
Lemma parse_args_cases flags ca inl i :
  (exists args, args_rule flags ca inl args /\ parse_args flags ca inl i = Ok i args)
  \/ (~ (exists args, args_rule flags ca inl args) /\ parse_args flags ca inl i = Fail (mkError i E_InvalidArgs)).
Proof.
  destruct (parse_args flags ca inl i) as [i' args|er|er|p|] eqn:E.
  - left. apply parse_args_sound in E as [-> H]. by exists args.
  - exfalso. revert E. unfold parse_args. destruct (intersects _ _); [by destruct ca|].
    destruct (intersects _ _); [|done]. by destruct ca as [[|[] ?]|].
  - right. apply parse_args_fail in E as [H ->]. done.
  - exfalso. revert E. unfold parse_args. destruct (intersects _ _); [by destruct ca|].
    destruct (intersects _ _); [|done]. by destruct ca as [[|[] ?]|].
  - exfalso. revert E. unfold parse_args. destruct (intersects _ _); [by destruct ca|].
    destruct (intersects _ _); [|done]. by destruct ca as [[|[] ?]|].
Qed.

Lemma method_record_head flags inl bs i : method_record flags inl bs -> head_in [x15; x16] (bs ++ i).
Proof.
  intros [(name & ty & ctx & ? & ? & ? & ? & ? & _ & _ & _ & _ & _ & ->)|(ret & ctx & ? & ? & ? & ? & _ & _ & _ & _ & ->)]; hd.
Qed.
Lemma flaw_method_head i er : flaw_method i er -> head_in [x15; x16] i.
Proof. intros [(r & -> & _)|(r & -> & _)]; hd. Qed.
(** Running a method record. *)
Lemma method_run flags inl bs : method_record flags inl bs ->
  exists mk : option (list value) -> message, forall f root s j,
    let r := sopt j (parse_call_array f root s j) in
    parse_method_call_or_return f root s (bs ++ j) =
    match r with
    | (s', Ok j' ca) =>
        match parse_args flags ca inl j' with
        | Ok j'' args => (s', Ok j'' (mk args))
        | Fail e => (s', Fail e)
        | _ => parse_method_call_or_return f root s (bs ++ j)
        end
    | (s', Fail e) => (s', Fail e)
    | (s', Panic p) => (s', Panic p)
    | (s', Diverge) => (s', Diverge)
    | _ => parse_method_call_or_return f root s (bs ++ j)
    end.
Proof.
  intros [(name & ty & ctx & Hb)|(ret & ctx & Hb)].
  - exists (fun args => MMethodCall (mkMethodCall name ty ctx args)). intros f root s j. cbv zeta.
    assert (exists b, bs = x15 :: b) as [b Eb]
      by (destruct Hb as (? & ? & ? & ? & ? & _ & _ & _ & _ & _ & ->); eauto).
    assert (parse_method_call f root s (bs ++ j) =
      let! (s, input, call_array) := sopt j (parse_call_array f root s j) in
      (s, let? (input, args) := parse_args flags call_array inl input in Ok input (mkMethodCall name ty ctx args))) as E.
    { unfold parse_method_call. rewrite parse_binary_library_none by (apply no_library_head; rewrite Eb; hd). cbn [sbind].
      by rewrite (exact_ok binary_method_call_parse _ (mkBinaryMethodCall flags name ty ctx inl) bs j method_call_exact) by done. }
    unfold parse_method_call_or_return. rewrite E.
    destruct (sopt j (parse_call_array f root s j)) as [s' [j' ca|e|e|p|]]; cbn [sbind]; try done.
    destruct (parse_args_cases flags ca inl j') as [(args & _ & ->)|[_ ->]]; done.
  - exists (fun args => MMethodReturn (mkMethodReturn ret ctx args)). intros f root s j. cbv zeta.
    assert (exists b, bs = x16 :: b) as [b Eb]
      by (destruct Hb as (? & ? & ? & ? & _ & _ & _ & _ & ->); eauto).
    assert (parse_method_return f root s (bs ++ j) =
      let! (s, input, call_array) := sopt j (parse_call_array f root s j) in
      (s, let? (input, args) := parse_args flags call_array inl input in Ok input (mkMethodReturn ret ctx args))) as E.
    { unfold parse_method_return. rewrite parse_binary_library_none by (apply no_library_head; rewrite Eb; hd). cbn [sbind].
      by rewrite (exact_ok binary_method_return_parse _ (mkBinaryMethodReturn flags ret ctx inl) bs j method_return_exact) by done. }
    unfold parse_method_call_or_return.
    assert (exists er, parse_method_call f root s (bs ++ j) = (s, Err er)) as [er ->].
    { unfold parse_method_call. rewrite parse_binary_library_none by (apply no_library_head; rewrite Eb; hd). cbn [sbind].
      destruct (method_call_err (bs ++ j)) as [er ->]; [rewrite Eb; hd|]. eauto. }
    unfold smap at 1. cbn [fst snd rmap bind alt_mut]. rewrite E.
    destruct (sopt j (parse_call_array f root s j)) as [s' [j' ca|e|e|p|]]; cbn [sbind]; try done.
    all: try (unfold smap at 2; cbn [fst snd rmap bind alt_mut]; rewrite E; done).
    destruct (parse_args_cases flags ca inl j') as [(args & _ & ->)|[_ ->]]; done.
Qed.
Lemma method_fail_run f root s i er : flaw_method i er -> parse_method_call_or_return f root s i = (s, Fail er).
Proof.
  intros H. pose proof (flaw_method_head _ _ H) as Hh. unfold parse_method_call_or_return, parse_method_call, parse_method_return.
  rewrite !parse_binary_library_none by (apply no_library_head; hd). cbn [sbind].
  destruct H as [H|H].
  - apply method_call_fail in H. by rewrite H.
  - destruct H as (r & -> & H). destruct (method_call_err (x16 :: r)) as [e1 ->]; [hd|].
    unfold smap at 1. cbn [fst snd rmap bind alt_mut].
    rewrite !parse_binary_library_none by (apply no_library_head; hd). cbn [sbind].
    assert (binary_method_return_parse (x16 :: r) = Fail er) as ->; [|done].
    apply method_return_fail. by exists r.
Qed.
Lemma method_none_run f root s i :
  no_library i -> ~ starts (fun a => method_record a.1 a.2) i -> ~ (exists er, flaw_method i er) ->
  exists er, parse_method_call_or_return f root s i = (s, Err er).
Proof.
  intros Hl Hs Hf. unfold parse_method_call_or_return, parse_method_call, parse_method_return.
  rewrite !parse_binary_library_none by done. cbn [sbind].
  pose proof (method_call_safe i) as Hs1. pose proof (method_return_safe i) as Hs2.
  destruct (binary_method_call_parse i) as [i1 c|e|e|p|] eqn:E1; try done.
  - exfalso. apply method_call_exact in E1 as (bs & Hb & ->). apply Hs. exists (bmc_message_enum c, bmc_args c), bs, i1.
    split; [|done]. left. eauto.
  - unfold smap at 1. cbn [fst snd rmap bind alt_mut].
    rewrite !parse_binary_library_none by done. cbn [sbind].
    destruct (binary_method_return_parse i) as [i1 c|e1|e1|p|] eqn:E2; try done.
    + exfalso. apply method_return_exact in E2 as (bs & Hb & ->). apply Hs. exists (bmr_message_enum c, bmr_args c), bs, i1.
      split; [|done]. right. eauto.
    + unfold smap. cbn [fst snd rmap bind alt_mut]. unfold alt_mut_end. eauto.
    + exfalso. apply Hf. exists e1. right. by apply method_return_fail.
  - exfalso. apply Hf. exists e. left. by apply method_call_fail.
Qed.
Lemma method_trichotomy i :
  (exists flags inl bs j, method_record flags inl bs /\ i = bs ++ j)
  \/ (exists er, flaw_method i er)
  \/ (~ starts (fun a => method_record a.1 a.2) i /\ ~ (exists er, flaw_method i er)).
Proof.
  pose proof (method_call_safe i) as Hs1. pose proof (method_return_safe i) as Hs2.
  destruct (binary_method_call_parse i) as [i1 c|e|e|p|] eqn:E1; try done.
  - left. apply method_call_exact in E1 as (bs & Hb & ->). exists (bmc_message_enum c), (bmc_args c), bs, i1.
    split; [|done]. left. eauto.
  - destruct (binary_method_return_parse i) as [i1 c|e1|e1|p|] eqn:E2; try done.
    + left. apply method_return_exact in E2 as (bs & Hb & ->). exists (bmr_message_enum c), (bmr_args c), bs, i1.
      split; [|done]. right. eauto.
    + right; right. split.
      * intros ([flags inl] & bs & j & [(name & ty & ctx & Hb)|(ret & ctx & Hb)] & ->).
        -- by rewrite (exact_ok binary_method_call_parse _ (mkBinaryMethodCall flags name ty ctx inl) bs j method_call_exact) in E1 by done.
        -- by rewrite (exact_ok binary_method_return_parse _ (mkBinaryMethodReturn flags ret ctx inl) bs j method_return_exact) in E2 by done.
      * intros [er [H|H]]; [apply method_call_fail in H|apply method_return_fail in H]; congruence.
    + right; left. exists e1. right. by apply method_return_fail.
  - right; left. exists e. left. by apply method_call_fail.
Qed.

(** ** The end of a message *)
Definition tail (root : option N) (m : option message) (f : nat) (s : state) (i : bytes) : sres message :=
  let! (s, input, _u) := parse_referenceables (S (length i)) f s i in
  match message_end input with
  | Ok input _ =>
      match input with
      | _ :: _ => (s, Err (mkError input E_TrailingData))
      | [] =>
          match m with
          | Some m => (s, Ok input m)
          | None =>
              match root with
              | Some root_id =>
                  match st_objects s !! root_id with
                  | Some v => (set_objects s (delete root_id (st_objects s)), Ok input (MValue v))
                  | None => (s, Err (mkError input E_MissingRootObject))
                  end
              | None => (s, Ok input (MValue VNull))
              end
          end
      end
  | Err e => (s, Err e)
  | Fail e => (s, Fail e)
  | Panic p => (s, Panic p)
  | Diverge => (s, Diverge)
  end.
Definition body (root : option N) (f : nat) (s : state) (i : bytes) : sres message :=
  let! (s, input, _u) := parse_referenceables (S (length i)) f s i in
  let! (s, input, m) := sopt input (parse_method_call_or_return f root s input) in
  tail root m f s input.
Lemma deserialize_body root hb i f :
  e_header root hb -> 2 * length (hb ++ i) + 2 <= f ->
  deserialize (hb ++ i) = to_outcome (body root f (st empty_env) i).2.
Proof.
  intros Hh Hf. rewrite (deserialize_any f) by done. unfold parse_remoting_message.
  destruct (header_complete root hb i Hh) as (h & -> & <-). reflexivity.
Qed.

Lemma objects_fail_found lf f s i s' er :
  st_classes s = ∅ -> parse_referenceables lf f s i = (s', Fail er) ->
  exists e1 i1, g_objects (env_of s) i e1 i1 /\ blame_record er e1 i1.
Proof.
  revert s i. induction lf as [|lf IH]; intros s i Hs H; [done|]. cbn [parse_referenceables] in H.
  destruct (parse_referenceable f s i) as [s1 [i1 id|e|e|p|]] eqn:E; try done.
  - pose proof (classes_referenceable _ _ _ _ _ Hs E) as Hs1.
    destruct (g_sound f) as [_ Hg]. apply Hg in E as (v & e' & Hr & He); [|done].
    apply IH in H as (e2 & i2 & Ho & Hb); [|done]. exists e2, i2. split; [|done].
    rewrite He in Ho. econstructor; done.
  - injection H as <- <-. exists (env_of s), i. split; [constructor|]. by eapply record_fail_found.
Qed.
Lemma objects_blamed e i e1 i1 er : g_objects e i e1 i1 -> blame_record er e1 i1 ->
  exists s', ev (fun f => parse_referenceables (S (length i)) f (st e) i) (s', Fail er).
Proof.
  intros Ho Hb. apply record_blamed in Hb as [s' [F H]]. exists s', (F + 2 * length i + 2). intros f Hf.
  destruct (referenceables_prefix _ _ _ _ Ho (S (length i)) f) as (lf & Hlf & ->); [lia|lia|].
  destruct lf as [|lf]; [lia|]. cbn [parse_referenceables]. by rewrite H by lia.
Qed.
Lemma objects_stop e i e1 i1 e1' : g_objects e i e1 i1 -> stops_record false e1 i1 e1' ->
  ev (fun f => parse_referenceables (S (length i)) f (st e) i) (st e1', Ok i1 tt).
Proof.
  intros Ho Hs. apply abandoned_iff in Hs as (F & err & H). exists (F + 2 * length i + 2). intros f Hf.
  apply (referenceables_complete' _ _ _ _ _ Ho); [lia|lia|]. exists err. by eapply abandoned_lift; [|exact H]; lia.
Qed.
Lemma end_stops e t : stops_record false e (x0b :: t) e.
Proof. apply abandoned_iff. destruct (err_0b_cons 0 (st e) t) as [err H]. by exists 2, err. Qed.
Lemma referenceables_found lf f s i s' i' u :
  st_classes s = ∅ -> parse_referenceables lf f s i = (s', Ok i' u) ->
  st_classes s' = ∅ /\ exists e1, g_objects (env_of s) i e1 i' /\ stops_record false e1 i' (env_of s').
Proof.
  intros Hs H. apply referenceables_sound in H as (s1 & err & Hs1 & Ho & H); [|done].
  pose proof (classes_referenceable _ _ _ _ _ Hs1 H) as Hs'. split; [done|].
  exists (env_of s1). split; [done|]. apply abandoned_iff. exists f, err. by rewrite !st_env_of.
Qed.
Lemma stops_end_same e t e' : stops_record false e (x0b :: t) e' -> e' = e.
Proof.
  intros H. apply abandoned_iff in H as (f & err & H). destruct (err_0b_cons f (st e) t) as [err' H'].
  rewrite (referenceable_lift f (S (S f)) _ _ _ ltac:(lia) H) in H' by done.
  assert (st e' = st e) as He by congruence. apply (f_equal env_of) in He. by rewrite !env_of_st in He.
Qed.

Lemma referenceables_not_err lf f s i s' e : parse_referenceables lf f s i <> (s', Err e).
Proof.
  revert s i. induction lf as [|lf IH]; intros s i; [done|]. cbn [parse_referenceables].
  destruct (parse_referenceable f s i) as [s2 [i1 id|e0|e0|p|]]; done || apply IH.
Qed.
Definition rest_root (root : option N) (m : option message) : option N := match m with Some _ => None | None => root end.
Lemma tail_found root m f s i er :
  st_classes s = ∅ -> to_outcome (tail root m f s i).2 = PErr er -> blame_rest (rest_root root m) er (env_of s) i.
Proof.
  intros Hs H. unfold tail in H.
  destruct (parse_referenceables _ f s i) as [s1 [i1 u|e|e|p|]] eqn:E; cbn [sbind] in H.
  - apply referenceables_found in E as [Hs1 (e1 & Ho & Hst)]; [|done].
    destruct (decide (head_in [x0b] i1)) as [Hh|Hh].
    + destruct i1 as [|c t]; [done|]. apply elem_of_list_singleton in Hh as ->.
      pose proof (stops_end_same _ _ _ Hst) as He. rewrite <- He in Ho.
      unfold message_end in H. rewrite record_type_parse_cons, bool_decide_eq_true_2 in H by done. cbn [bind] in H.
      destruct t as [|c t].
      * destruct m as [m|]; [done|]. destruct root as [r|]; [|done].
        destruct (st_objects s1 !! r) as [v|] eqn:Er; [done|]. cbn [snd to_outcome] in H. injection H as <-.
        eapply BX_missing; [exact Ho|reflexivity|exact Er|reflexivity].
      * cbn [snd to_outcome] in H. injection H as <-. eapply BX_trailing; [exact Ho|done|reflexivity].
    + rewrite message_end_error in H by done. cbn [snd to_outcome] in H. injection H as <-.
      eapply BX_end; [exact Ho|exact Hst|exact Hh|reflexivity].
  - exfalso. by eapply referenceables_not_err.
  - cbn [snd to_outcome] in H. injection H as <-. apply objects_fail_found in E as (e1 & i1 & Ho & Hb); [|done].
    by eapply BX_record.
  - done.
  - done.
Qed.
Lemma tail_run root m e i er : blame_rest (rest_root root m) er e i ->
  exists F, forall f, F <= f -> to_outcome (tail root m f (st e) i).2 = PErr er.
Proof.
  intros [e1 i1 Ho Hb|e1 i1 e1' Ho Hst Hh ->|e1 t Ho Ht ->|e1 r Ho Hr Hn ->].
  - destruct (objects_blamed _ _ _ _ _ Ho Hb) as [s' [F H]]. exists F. intros f Hf. unfold tail. by rewrite H.
  - destruct (objects_stop _ _ _ _ _ Ho Hst) as [F H]. exists F. intros f Hf. unfold tail. rewrite H by done. cbn [sbind].
    by rewrite message_end_error by done.
  - destruct (objects_stop _ _ _ _ _ Ho (end_stops _ _)) as [F H]. exists F. intros f Hf. unfold tail.
    rewrite H by done. cbn [sbind].
    unfold message_end. rewrite record_type_parse_cons, bool_decide_eq_true_2 by done. cbn [bind]. by destruct t.
  - destruct (objects_stop _ _ _ _ _ Ho (end_stops _ _)) as [F H]. exists F. intros f Hf. unfold tail.
    rewrite H by done. cbn [sbind].
    unfold message_end. rewrite record_type_parse_cons, bool_decide_eq_true_2 by done. cbn [bind].
    destruct m as [m|]; [done|]. cbn [rest_root] in Hr. subst root. cbn [st st_objects]. by rewrite Hn.
Qed.

(** ** Messages *)
Lemma stops_method_same e i e' : head_in [x15; x16] i -> stops_record false e i e' -> e' = e.
Proof.
  intros Hh H. apply abandoned_iff in H as (f & err & H).
  destruct (referenceable_err_head f (st e) i) as [err' H']; [apply no_library_head; hd|hd|].
  rewrite (referenceable_lift f (S (S f)) _ _ _ ltac:(lia) H) in H' by done.
  assert (st e' = st e) as He by congruence. apply (f_equal env_of) in He. by rewrite !env_of_st in He.
Qed.
Lemma method_stops e i : head_in [x15; x16] i -> stops_record false e i e.
Proof.
  intros Hh. apply abandoned_iff.
  destruct (referenceable_err_head 0 (st e) i) as [err' H']; [apply no_library_head; hd|hd|]. by exists 2, err'.
Qed.
Lemma stops_no_library e i e' : stops_record false e i e' -> no_library i.
Proof. intros H. apply abandoned_iff in H as (f & err & H). by eapply abandoned_no_library. Qed.

Lemma refused W er : refuses W er -> deserialize W = PErr er.
Proof.
  assert (forall root hb i e1 i1 e1' s2 r2,
    e_header root hb -> g_objects empty_env i e1 i1 -> stops_record false e1 i1 e1' ->
    ev (fun f => sopt i1 (parse_method_call_or_return f root (st e1') i1)) (s2, r2) ->
    (exists F, forall f, F <= f ->
       to_outcome (match r2 with Ok i2 m => tail root m f s2 i2 | Err e => (s2, Err e) | Fail e => (s2, Fail e)
                   | Panic p => (s2, Panic p) | Diverge => (s2, Diverge) end).2 = PErr er) ->
    deserialize (hb ++ i) = PErr er) as Hrun.
  { intros root hb i e1 i1 e1' s2 r2 Hh Ho Hs [F1 H1] [F2 H2].
    destruct (objects_stop _ _ _ _ _ Ho Hs) as [F3 H3].
    rewrite (deserialize_body root hb i (F1 + F2 + F3 + (2 * length (hb ++ i) + 2))) by (done || lia).
    unfold body. rewrite H3 by lia. cbn [sbind]. rewrite H1 by lia.
    specialize (H2 (F1 + F2 + F3 + (2 * length (hb ++ i) + 2)) ltac:(lia)).
    by destruct r2. }
  assert (forall root hb i e1 flags inl bs i1 s2 r2,
    e_header root hb -> g_objects empty_env i e1 (bs ++ i1) -> method_record flags inl bs ->
    ev (fun f => sopt i1 (parse_call_array f root (st e1) i1)) (s2, r2) ->
    (match r2 with
     | Ok i2 ca => (exists er', parse_args flags ca inl i2 = Fail er' /\ er' = er)
         \/ exists args, parse_args flags ca inl i2 = Ok i2 args /\
            forall m, exists F, forall f, F <= f -> to_outcome (tail root (Some m) f s2 i2).2 = PErr er
     | Fail e => e = er
     | _ => False
     end) ->
    deserialize (hb ++ i) = PErr er) as Hmethod.
  { intros root hb i e1 flags inl bs i1 s2 r2 Hh Ho Hm [F1 H1] H2.
    destruct (method_run _ _ _ Hm) as [mk Hmk].
    destruct r2 as [i2 ca|e|e|p|]; try done.
    - destruct H2 as [(er' & Ha & ->)|(args & Ha & H2)].
      + eapply (Hrun _ _ _ _ _ _ s2 (Fail er) Hh Ho (method_stops _ _ (method_record_head _ _ _ _ Hm))); [|by exists 0].
        exists F1. intros f Hf. rewrite Hmk. cbv zeta. rewrite H1 by done. by rewrite Ha.
      + eapply (Hrun _ _ _ _ _ _ s2 (Ok i2 (Some (mk args))) Hh Ho (method_stops _ _ (method_record_head _ _ _ _ Hm))); [|by apply H2].
        exists F1. intros f Hf. rewrite Hmk. cbv zeta. rewrite H1 by done. by rewrite Ha.
    - subst e. eapply (Hrun _ _ _ _ _ _ s2 (Fail er) Hh Ho (method_stops _ _ (method_record_head _ _ _ _ Hm))); [|by exists 0].
      exists F1. intros f Hf. rewrite Hmk. cbv zeta. by rewrite H1 by done. }
  assert (forall root hb i e1 flags inl bs i1,
    e_header root hb -> g_objects empty_env i e1 (bs ++ i1) -> method_record flags inl bs ->
    call_array_flaw root e1 i1 er -> deserialize (hb ++ i) = PErr er) as Hcall.
  { intros root hb i e1 flags inl bs i1 Hh Ho Hm Hc. apply call_array_flaw_run in Hc as [s' Hc].
    by eapply (Hmethod _ _ _ _ _ _ _ _ s' (Fail er)). }
  intros [H|root hb i e1 i1 -> Hh Ho Hb|root hb i e1 i1 e1' -> Hh Ho Hst Hnm Hnf Hr|root hb i e1 i1 -> Hh Ho Hf
    |root hb i e1 flags inl bs i1 -> Hh Ho Hm Hl|root hb i e1 flags inl bs i1 e2 i2 -> Hh Ho Hm Hl H10 Hb
    |root hb i e1 flags inl bs i1 id ca e2 i2 -> Hh Ho Hm Hc Hn Her
    |root hb i e1 flags inl bs i1 ca e2 i2 -> Hh Ho Hm Hc Hn Her
    |root hb i e1 flags inl bs i1 ca args e2 i2 -> Hh Ho Hm Hc Ha Hr].
  - unfold deserialize, parse_remoting_message. apply header_fail in H as [H|H]; by rewrite H.
  - apply record_blamed in Hb as [s' [F H]]. eapply run_fail; [done|done|]. by apply (H F).
  - destruct (tail_run root None _ _ _ Hr) as [F HF].
    eapply (Hrun _ _ _ _ _ _ (st e1') (Ok i1 None) Hh Ho Hst); [|by exists F].
    exists 0. intros f _. destruct (method_none_run f root (st e1') i1) as [er0 E]; [by eapply stops_no_library|done|done|].
    by rewrite E.
  - eapply (Hrun _ _ _ _ _ _ (st e1) (Fail er) Hh Ho (method_stops _ _ (flaw_method_head _ _ Hf))); [|by exists 0].
    exists 0. intros f _. by rewrite (method_fail_run f root _ _ _ Hf).
  - eapply Hcall; [done|done|done|]. by left.
  - eapply Hcall; [done|done|done|]. right; left. eauto.
  - eapply Hcall; [done|done|done|]. right; right. exists id, ca, e2, i2. done.
  - eapply (Hmethod _ _ _ _ _ _ _ _ (st e2) (Ok i2 ca)); [done|done|done|by apply call_array_tried_run|].
    left. exists er. split; [|done]. by apply parse_args_fail.
  - eapply (Hmethod _ _ _ _ _ _ _ _ (st e2) (Ok i2 ca)); [done|done|done|by apply call_array_tried_run|].
    right. exists args. split; [by apply parse_args_complete|]. intros m. by apply tail_run.
Qed.

Lemma refused_found W er : deserialize W = PErr er -> refuses W er.
Proof.
  intros H. pose proof H as H0. unfold deserialize, parse_remoting_message in H0.
  destruct (serialization_header_parse W) as [i h|e|e|p|] eqn:Eh; cbn [snd] in H0.
  2:{ injection H0 as <-. apply Ref_header, header_fail. by left. }
  2:{ injection H0 as <-. apply Ref_header, header_fail. by right. }
  2:{ done. } 2:{ done. }
  clear H0. apply header_sound in Eh as (hb & Hh & ->). set (root := sh_root_id h) in *. clearbody root.
  rewrite (deserialize_body root hb i (2 * length (hb ++ i) + 2)) in H by (done || lia).
  revert H. generalize (2 * length (hb ++ i) + 2) as f. intros f H. unfold body in H.
  destruct (parse_referenceables _ f (st empty_env) i) as [s1 [i1 u|e|e|p|]] eqn:E; cbn [sbind] in H.
  2:{ exfalso. by eapply referenceables_not_err. }
  2:{ cbn [snd to_outcome] in H. injection H as <-. apply objects_fail_found in E as (e1 & i1 & Ho & Hb); [|done].
      rewrite env_of_st in Ho. by eapply Ref_record. }
  2:{ done. } 2:{ done. }
  apply referenceables_found in E as [Hs1 (e1 & Ho & Hst)]; [|done]. rewrite env_of_st in Ho.
  destruct (method_trichotomy i1) as [(flags & inl & bs & j & Hm & ->)|[[er' Hf]|[Hnm Hnf]]].
  - destruct (method_run _ _ _ Hm) as [mk Hmk].
    assert (env_of s1 = e1) as <- by (by apply (stops_method_same _ (bs ++ j)); [eapply method_record_head|]).
    rewrite Hmk in H. cbv zeta in H.
    destruct (sopt j (parse_call_array f root s1 j)) as [s2 [j' ca|e|e|p|]] eqn:Eca.
    2:{ exfalso. revert Eca. unfold sopt. by destruct (parse_call_array f root s1 j).2. }
    + apply call_array_found in Eca as [Hs2 Hca]; [|done].
      destruct (parse_args_cases flags ca inl j') as [(args & Ha & E)|[Hn E]]; rewrite E in H; unfold sopt in H; cbn [sbind fst snd opt] in H.
      * apply tail_found in H; [|done]. by eapply Ref_after_method.
      * cbn [to_outcome] in H. injection H as <-. by eapply Ref_args.
    + unfold sopt in H. cbn [sbind fst snd opt to_outcome] in H. injection H as <-.
      apply sopt_fail in Eca. apply call_array_fail_found in Eca as [Hc|[(e2 & i2 & Hl & H10 & Hb)|(id & ca & e2 & i2 & Hc & Hn & Her)]]; [| | |done].
      * by eapply Ref_call_library.
      * by eapply Ref_call_array.
      * by eapply Ref_call_array_id.
    + done.
    + done.
  - rewrite (method_fail_run f root s1 _ _ Hf) in H. unfold sopt in H. cbn [sbind fst snd opt to_outcome] in H. injection H as <-.
    assert (env_of s1 = e1) as <- by (by apply (stops_method_same _ i1); [eapply flaw_method_head|]).
    by eapply Ref_method.
  - destruct (method_none_run f root s1 i1) as [er0 E]; [by eapply stops_no_library|done|done|].
    rewrite E in H. unfold sopt in H. cbn [sbind fst snd opt] in H. apply tail_found in H; [|done]. by eapply Ref_value.
Qed.
End with_decimal.
