(** * Leftover: how much an abandoned record can leave behind in the object table.  Whatever the
    parser does from a position on, the objects in the table afterwards are paid for by the bytes
    of that position (see [Size.bill]). *)
From Verif Require Import Base Utf8 Value DataTypes Records Parser Wire BaseLemmas DataTypesLemmas
  RecordsLemmas MethodLemmas SafetyLemmas Safety Grammar Heads Complete Sound Fuel Message Run Spec
  LemmasA LemmasB LemmasC Positions Reach LemmasD Trees TreeLemmas PropsB PropsC PropsD Calm Size.
From Coq Require Import Lia.

Section with_decimal.
Context {DL : DecimalLib}.
(** [objs_size]: what the objects in a table are worth; [bill]: what bytes can pay for. *)
Context (objs_size : gmap N value -> N) (bill : bytes -> N) (good : bytes -> Prop).
Hypothesis bill_suffix : forall i j, j ⊑s i -> (bill j <= bill i)%N.
Hypothesis good_suffix' : forall i j, good i -> j ⊑s i -> good j.
Hypothesis objs_size_delete_le : forall m id, (objs_size (delete id m) <= objs_size m)%N.
Hypothesis record_paid : forall e i id v e' i', g_record e i id v e' i' -> good i ->
  (objs_size (e_objs (add_obj id v e')) + bill i' <= objs_size (e_objs e) + bill i)%N.

Definition held (s : state) : N := objs_size (st_objects s).
Definition thrift {A} (s : state) (i : bytes) (r : sres A) : Prop :=
  st_classes s = ∅ -> good i ->
  st_classes r.1 = ∅
  /\ match r.2 with
     | Ok i' _ => i' ⊑s i /\ (held r.1 + bill i' <= held s + bill i)%N
     | _ => (held r.1 <= held s + bill i)%N
     end.

Lemma thrift_bind {A C} s i (r : sres A) (f : state -> bytes -> A -> sres C) :
  thrift s i r -> (forall s' i' a, thrift s' i' (f s' i' a)) -> thrift s i (sbind r f).
Proof.
  intros H Hf Hc Hg. destruct (H Hc Hg) as [H1 H2]. destruct r as [s1 [i1 a|e|e|p|]]; cbn [fst snd sbind] in *; try done.
  destruct H2 as [Hs Hp]. destruct (Hf s1 i1 a H1 (good_suffix' _ _ Hg Hs)) as [H3 H4]. split; [done|].
  destruct (f s1 i1 a) as [s2 [i2 b|e|e|p|]]; cbn [fst snd] in *; [|lia..].
  destruct H4 as [H4 H5]. split; [by etrans|lia].
Qed.
Lemma thrift_pure {A} s i (r : res A) : rsafe i r -> thrift s i (s, r).
Proof.
  intros Hs Hc Hg. split; [done|]. cbn [fst snd]. destruct r as [i' a|e|e|p|]; [|lia..].
  assert (i' ⊑s i) as Hs' by exact Hs. split; [done|]. apply bill_suffix in Hs'. lia.
Qed.
Lemma thrift_fail {A} s i (r : res A) : (forall i a, r <> Ok i a) -> thrift s i (s, r).
Proof.
  intros Hn Hc Hg. split; [done|]. cbn [fst snd]. destruct r as [i' a|e|e|p|]; [by destruct (Hn i' a)|lia..].
Qed.
Lemma thrift_ok {A} s i (a : A) : thrift s i (s, Ok i a).
Proof. intros Hc Hg. split; [done|]. cbn [fst snd]. split; [done|lia]. Qed.
Lemma thrift_smap {A C} (f : A -> C) s i r : thrift s i r -> thrift s i (smap f r).
Proof.
  intros H Hc Hg. destruct (H Hc Hg) as [H1 H2]. destruct r as [s1 [i1 a|e|e|p|]]; done.
Qed.
Lemma thrift_suffix {A} s i j (r : sres A) : j ⊑s i -> thrift s j r -> thrift s i r.
Proof.
  intros Hj H Hc Hg. destruct (H Hc (good_suffix' _ _ Hg Hj)) as [H1 H2]. split; [done|].
  pose proof (bill_suffix _ _ Hj). destruct r as [s1 [i1 a|e|e|p|]]; cbn [fst snd] in *; [|lia..].
  destruct H2. split; [by etrans|lia].
Qed.

Lemma thrift_lib s i : thrift s i (parse_binary_library s i).
Proof.
  unfold parse_binary_library. pose proof (binary_library_safe i) as Hs.
  destruct (binary_library i) as [i1 [lid name]|e|e|p|]; cbn [opt]; [|apply thrift_ok|by apply thrift_fail..].
  intros Hc Hg. assert (i1 ⊑s i) as Hs' by exact Hs. pose proof (bill_suffix _ _ Hs').
  case_bool_decide; cbn [fst snd set_libs st_classes]; (split; [done|]); unfold held; cbn [st_objects set_libs]; [lia|].
  split; [done|lia].
Qed.

Section methods.
Context (PC : state -> bytes -> state * res (N * obj value)).
Context (PR : state -> bytes -> state * res N).
Hypothesis HPC : forall s i, thrift s i (PC s i).
Hypothesis HPR : forall s i, thrift s i (PR s i).
Hypothesis HPN : forall s i, no_library i -> ~ head_in [x01; x02; x03; x04; x05] i ->
  (PC s i).1 = s /\ forall i' a, (PC s i).2 <> Ok i' a.

Lemma thrift_untyped s i : thrift s i (parse_member_untyped PC s i).
Proof.
  eapply thrift_bind; [apply thrift_lib|]. clear s i. intros s i _. unfold member_untyped_body.
  assert (rsafe i (alt (rmap VR_Value (member_primitive_typed i))
    (alt (parse_ref_member i) (alt (parse_string_member i) (parse_null_object i))))) as Hs.
  { apply gsafe_alt; [apply gsafe_map, member_primitive_typed_safe|]. apply gsafe_alt; [apply parse_ref_member_safe|].
    apply gsafe_alt; [apply parse_string_member_safe|apply parse_null_object_safe]. }
  destruct (alt _ _) as [i2 a|e|e|p|] eqn:E; try (by apply thrift_pure). apply thrift_smap, HPC.
Qed.
Lemma thrift_class_or_null ok s i : thrift s i (class_or_null PC ok s i).
Proof.
  unfold class_or_null. pose proof (HPC s i) as H.
  assert (forall s1 r, PC s i = (s1, r) -> (forall i' a, r <> Ok i' a) ->
    match r with Err _ | Fail _ => True | _ => False end -> thrift s i (s1, parse_null_object i)) as Hnull.
  { intros s1 r E Hn Hr. destruct (parse_null_object i) as [i' a|e|e|p|] eqn:En.
    - apply null_head in En as Hh. destruct (HPN s i) as [H1 _]; [apply no_library_head; hd|hd|].
      rewrite E in H1. cbn in H1. subst s1. rewrite <- En. apply thrift_pure, parse_null_object_safe.
    - intros Hc Hg. rewrite E in H. destruct (H Hc Hg) as [H1 H2]. by destruct r.
    - intros Hc Hg. rewrite E in H. destruct (H Hc Hg) as [H1 H2]. by destruct r.
    - intros Hc Hg. rewrite E in H. destruct (H Hc Hg) as [H1 H2]. by destruct r.
    - intros Hc Hg. rewrite E in H. destruct (H Hc Hg) as [H1 H2]. by destruct r. }
  destruct (PC s i) as [s1 [i1 [id o]|e|e|p|]] eqn:E.
  - destruct (ok o); intros Hc Hg; destruct (H Hc Hg) as [H1 H2]; cbn [fst snd] in *; [done|]. split; [done|]. destruct H2. lia.
  - by eapply Hnull.
  - by eapply Hnull.
  - intros Hc Hg. by destruct (H Hc Hg) as [H1 H2].
  - intros Hc Hg. by destruct (H Hc Hg) as [H1 H2].
Qed.
Lemma thrift_typed_member bt ai s i : thrift s i (parse_member_typed PC bt ai s i).
Proof.
  eapply thrift_bind; [apply thrift_lib|]. clear s i. intros s i _.
  assert (forall r, thrift s i (s, (Panic r : res value_or_ref))) as Hp by (intros r; by apply thrift_fail).
  destruct bt, ai as [[ty|ty|ty]|]; auto using thrift_untyped, thrift_class_or_null.
  - apply thrift_pure, gsafe_map, member_primitive_untyped_safe.
  - apply thrift_pure, parse_string_member_safe.
  - destruct (st_libs s !! _) as [l|] eqn:E; [apply thrift_class_or_null|by apply thrift_fail].
  - apply thrift_pure. apply gsafe_alt; [apply parse_string_member_safe|]. apply gsafe_alt; [apply parse_ref_member_safe|apply parse_null_object_safe].
  - apply thrift_pure, parse_ref_member_safe.
Qed.
Lemma thrift_members_typed l s i : thrift s i (parse_members_typed PC l s i).
Proof.
  revert s i. induction l as [|[bt ai] l IH]; intros s i; [apply thrift_ok|].
  cbn [parse_members_typed]. eapply thrift_bind; [apply thrift_typed_member|]. intros s1 i1 m.
  eapply thrift_bind; [apply IH|]. intros s2 i2 ms. apply thrift_ok.
Qed.
Lemma thrift_scount_loop {A} fuel n (p : state -> bytes -> sres A) s i :
  (forall s i, thrift s i (p s i)) -> thrift s i (scount_loop fuel n p s i).
Proof.
  intros Hp. revert n s i. induction fuel as [|fuel IH]; intros n s i; cbn [scount_loop]; (destruct (N.eqb n 0); [apply thrift_ok|]);
    [by apply thrift_fail|].
  eapply thrift_bind; [apply Hp|]. intros s1 i1 m. eapply thrift_bind; [apply IH|]. intros s2 i2 ms. apply thrift_ok.
Qed.
Lemma thrift_array_loop p fuel len cur s i :
  (forall s i, thrift s i (p s i)) -> thrift s i (array_loop p fuel len cur s i).
Proof.
  intros Hp. revert cur s i. induction fuel as [|fuel IH]; intros cur s i; cbn [array_loop]; (destruct (N.leb len cur); [apply thrift_ok|]);
    [by apply thrift_fail|].
  eapply thrift_bind; [apply Hp|]. intros s1 i1 m. eapply thrift_bind; [apply IH|]. intros s2 i2 ms. apply thrift_ok.
Qed.
Lemma thrift_delete {A} s i id (r : sres A) : thrift (set_objects s (delete id (st_objects s))) i r -> thrift s i r.
Proof.
  intros H Hc Hg. destruct (H Hc Hg) as [H1 H2]. split; [done|].
  assert (held (set_objects s (delete id (st_objects s))) <= held s)%N as Hd by (unfold held; cbn [set_objects st_objects]; apply objs_size_delete_le).
  destruct (r.2); [destruct H2; split; [done|lia]|lia..].
Qed.
Lemma thrift_verify id s i : thrift s i (verify_referenceable PR id s i).
Proof.
  unfold verify_referenceable. pose proof (HPR s i) as H.
  destruct (PR s i) as [s1 [i1 id2|e|e|p|]] eqn:E; try done. destruct (N.eqb _ _); [done|].
  intros Hc Hg. destruct (H Hc Hg) as [H1 H2]. split; [done|]. cbn [fst snd] in *. lia.
Qed.
Lemma thrift_resolve ms s i : thrift s i (resolve_members PR ms s i).
Proof.
  revert s i. induction ms as [|m ms IH]; intros s i; cbn [resolve_members]; [apply thrift_ok|].
  destruct m as [v|n|id].
  - eapply thrift_bind; [apply IH|]. intros. apply thrift_ok.
  - eapply thrift_bind; [apply IH|]. intros. apply thrift_ok.
  - destruct (st_objects s !! id) as [v|].
    + apply (thrift_delete _ _ id). eapply thrift_bind; [apply IH|]. intros. apply thrift_ok.
    + eapply thrift_bind; [apply thrift_verify|]. clear s i. intros s i id2. destruct (st_objects s !! id2) as [v|]; [|by apply thrift_fail].
      apply (thrift_delete _ _ id2). eapply thrift_bind; [apply IH|]. intros. apply thrift_ok.
Qed.
Lemma thrift_class_body err oid c s i : thrift s i (parse_class_body PC PR err oid c s i).
Proof.
  unfold parse_class_body. case_bool_decide; [by apply thrift_fail|].
  eapply thrift_bind.
  - assert (forall l : option str, thrift s i (smap (pair l) (scount (N.of_nat (length (ci_member_names (cr_class_info c)))) (parse_member_untyped PC) s i))) as Hu.
    { intros l. apply thrift_smap, thrift_scount_loop. intros. apply thrift_untyped. }
    assert (forall (l : option str) mti, thrift s i (smap (pair l) (parse_members_with_type_info PC mti s i))) as Ht.
    { intros l mti. apply thrift_smap, thrift_members_typed. }
    destruct c as [ci lid|ci mti lid|ci|ci mti]; auto; (destruct (st_libs s !! lid); [by auto|by apply thrift_fail]).
  - intros s1 i1 lm. eapply thrift_bind; [apply thrift_resolve|]. intros. apply thrift_ok.
Qed.
Lemma thrift_classes_body s i : thrift s i (parse_classes_body PC PR s i).
Proof.
  eapply thrift_bind; [apply thrift_lib|]. clear s i. intros s i _.
  pose proof (class_with_id_safe i) as Hs1. pose proof (class_records_safe i) as Hs2.
  destruct (class_with_id i) as [i2 [oid mid]|e|e|p|]; try (by apply thrift_fail).
  - destruct (st_classes s !! mid); [|by apply thrift_fail]. apply (thrift_suffix _ _ i2); [exact Hs1|apply thrift_class_body].
  - destruct (class_records i) as [i2 c| | | |]; try (by apply thrift_fail). apply (thrift_suffix _ _ i2); [exact Hs2|apply thrift_class_body].
Qed.
Lemma thrift_array_single_object s i : thrift s i (parse_array_single_object PC PR s i).
Proof.
  unfold parse_array_single_object. pose proof (array_single_object_safe i) as Hs.
  destruct (array_single_object i) as [i1 ai|e|e|p|]; try (by apply thrift_fail). apply (thrift_suffix _ _ i1); [exact Hs|].
  eapply thrift_bind; [apply thrift_array_loop; intros; apply thrift_untyped|]. intros s2 i2 ms.
  eapply thrift_bind; [apply thrift_resolve|]. intros. apply thrift_ok.
Qed.
Lemma thrift_array_single_string s i : thrift s i (parse_array_single_string PC PR s i).
Proof.
  unfold parse_array_single_string. pose proof (array_single_string_safe i) as Hs.
  destruct (array_single_string i) as [i1 ai|e|e|p|]; try (by apply thrift_fail). apply (thrift_suffix _ _ i1); [exact Hs|].
  eapply thrift_bind; [apply thrift_array_loop; intros; apply thrift_typed_member|]. intros s2 i2 ms.
  eapply thrift_bind; [apply thrift_resolve|]. intros. apply thrift_ok.
Qed.
Lemma thrift_array_single_primitive s i : thrift s i (parse_array_single_primitive s i).
Proof.
  unfold parse_array_single_primitive. apply thrift_pure. apply gsafe_bind; [apply array_single_primitive_safe|]. intros i1 [ai p].
  apply gsafe_bind; [apply count_safe; [intros; apply member_primitive_untyped_safe|apply member_primitive_untyped_strict]|]. intros i2 vs. cbn. done.
Qed.
Lemma thrift_binary_array s i : thrift s i (parse_binary_array PC PR s i).
Proof.
  unfold parse_binary_array. pose proof (binary_array_safe i) as Hs.
  destruct (binary_array_parse i) as [i1 ba|e|e|p|]; try (by apply thrift_fail). apply (thrift_suffix _ _ i1); [exact Hs|].
  destruct (checked_product _ _); [|by apply thrift_fail].
  eapply thrift_bind; [apply thrift_scount_loop; intros; apply thrift_typed_member|]. intros s2 i2 ms.
  eapply thrift_bind; [apply thrift_resolve|]. intros s3 i3 vs.
  pose proof (chunk_dims_input (rev (drop 1 (ba_lengths ba))) vs i3) as E1.
  destruct (chunk_dims _ vs i3) as [i4 out|e|e|p|]; try (by apply thrift_fail). subst i4. cbn [bind]. apply thrift_ok.
Qed.
End methods.

Lemma finish_held {A} i0 (g : A -> N * value) s i (x : sres A) s' r : st_classes s = ∅ -> good i ->
  thrift s i x -> ref_finish i0 g x = (s', r) -> (forall i' id, r <> Ok i' id) -> (held s' <= held s + bill i)%N.
Proof.
  intros Hc Hg Ht E Hr. destruct (Ht Hc Hg) as [_ H]. destruct x as [s1 [i1 a|e|e|p|]]; cbn [ref_finish fst snd] in *;
    injection E as <- <-; [|done..]. exfalso. by eapply Hr.
Qed.
Lemma not_ok_held f s i s' r :
  (forall s i, thrift s i (parse_classes f s i)) -> (forall s i, thrift s i (parse_referenceable f s i)) ->
  st_classes s = ∅ -> good i -> parse_referenceable (S f) s i = (s', r) -> (forall i' id, r <> Ok i' id) ->
  (held s' <= held s + bill i)%N.
Proof.
  intros IH1 IH2 Hc Hg E Hr. pose proof (fun s i Hl Hh => parse_classes_nothing f s i Hl Hh) as HPN.
  destruct f as [|f]; [injection E as <- _; lia|]. destruct (IH1 s i Hc Hg) as [_ H1].
  destruct (parse_classes (S f) s i) as [s1 [i1 a|e|e|p|]] eqn:Ec; cbn [fst snd] in H1.
  - rewrite parse_referenceable_S in E. unfold parse_referenceable_body in E. rewrite Ec in E. injection E as _ <-. exfalso. by eapply Hr.
  - destruct (binary_library i) as [rest [lid name]|e'|e'|p|] eqn:El.
    + pose proof (parse_classes_library _ _ _ _ _ _ _ _ Ec El) as Hd.
      rewrite parse_referenceable_S in E. unfold parse_referenceable_body in E. rewrite Ec in E.
      unfold smap in E. cbn [fst snd rmap bind alt_mut] in E.
      unfold parse_arrays, parse_binary_library in E. rewrite El in E. cbn [opt] in E.
      rewrite bool_decide_eq_true_2 in E by done. cbn [sbind fst snd rmap bind alt_mut] in E. injection E as <- _. exact H1.
    + assert (no_library i) as Hl by (apply no_library_iff; eauto).
      destruct (decide (head_in [x01] i)) as [Hh1|Hh1].
      { destruct (classes_with_id (S f) s i Hc Hl Hh1) as [_ H2]. rewrite Ec in H2. by destruct (H2 e). }
      destruct (decide (head_in [x01; x02; x03; x04; x05] i)) as [Hh2|Hh2].
      { rewrite (ref_class_err _ _ _ _ _ Ec) in E by done. injection E as <- _. exact H1. }
      destruct (HPN s i Hl Hh2) as [H3 _]. rewrite Ec in H3. cbn in H3. subst s1.
      destruct (decide (head_in [x10] i)) as [Hh|Hn10].
      { rewrite ref_object_array in E by done. eapply finish_held; [done|done| |exact E|done]. by apply thrift_array_single_object. }
      destruct (decide (head_in [x11] i)) as [Hh|Hn11].
      { rewrite ref_string_array in E by done. eapply finish_held; [done|done| |exact E|done]. by apply thrift_array_single_string. }
      destruct (decide (head_in [x07] i)) as [Hh|Hn07].
      { rewrite ref_binary_array in E by done. eapply finish_held; [done|done| |exact E|done]. by apply thrift_binary_array. }
      assert ((parse_arrays (parse_classes (S f)) (parse_referenceable (S f)) s i).1 = s) as Ha.
      { apply arrays_untraced; [done|]. destruct i as [|c i]; [by intros []|]. cbn [head_in] in *. set_solver. }
      rewrite parse_referenceable_S in E. unfold parse_referenceable_body in E. rewrite Ec in E.
      unfold smap in E. cbn [fst snd rmap bind alt_mut] in E. rewrite Ha in E.
      destruct (parse_arrays _ _ s i) as [s2 [? ?|?|?|?|]]; cbn [fst snd rmap bind alt_mut sbind] in *; subst.
      * injection E as _ <-. exfalso. by eapply Hr.
      * destruct (binary_object_string i) as [? ?|?|?|?|]; cbn [rmap bind alt_mut sbind alt_mut_end] in E; injection E as <- <-; try lia.
        exfalso. by eapply Hr.
      * injection E as <- _. lia.
      * injection E as <- _. lia.
      * injection E as <- _. lia.
    + exfalso. rewrite parse_classes_S in Ec. unfold parse_classes_body, parse_binary_library in Ec. by rewrite El in Ec.
    + pose proof (binary_library_safe i) as Hs. by rewrite El in Hs.
    + pose proof (binary_library_safe i) as Hs. by rewrite El in Hs.
  - rewrite (ref_class_fail _ _ _ _ _ Ec) in E. by injection E as <- _.
  - rewrite (ref_class_panic _ _ _ _ _ Ec) in E. by injection E as <- _.
  - rewrite parse_referenceable_S in E. unfold parse_referenceable_body in E. rewrite Ec in E. by injection E as <- _.
Qed.

Lemma thrift_all f : (forall s i, thrift s i (parse_classes f s i)) /\ (forall s i, thrift s i (parse_referenceable f s i)).
Proof.
  induction f as [|f [IH1 IH2]]; [split; intros; by apply thrift_fail|].
  pose proof (fun s i Hl Hh => parse_classes_nothing f s i Hl Hh) as HPN. split; intros s i.
  { rewrite parse_classes_S. by apply thrift_classes_body. }
  intros Hc Hg. destruct (parse_referenceable (S f) s i) as [s' r] eqn:E.
  destruct r as [i' id|e|e|p|].
  { destruct (proj2 (g_sound (S f)) s i s' i' id Hc E) as (v & e' & Hr & He).
    pose proof (record_paid _ _ _ _ _ _ Hr Hg) as Hp.
    pose proof (proj2 (proj2 (proj2 (proj2 g_suffix))) _ _ _ _ _ _ Hr) as Hs.
    cbn [fst snd]. split; [by eapply classes_referenceable|]. split; [done|].
    assert (held s' = objs_size (e_objs (env_of s'))) as -> by done. rewrite He.
    assert (held s = objs_size (e_objs (env_of s))) as -> by done. lia. }
  all: cbn [fst snd]; split; [by eapply classes_referenceable|].
  all: eapply not_ok_held; [exact IH1|exact IH2|exact Hc|exact Hg|exact E|done].
Qed.

Lemma abandoned_held e i e' : abandoned e i e' -> good i -> (objs_size (e_objs e') <= objs_size (e_objs e) + bill i)%N.
Proof.
  intros (f & err & H) Hg. destruct (proj2 (thrift_all f) (st e) i eq_refl Hg) as [_ Ht]. rewrite H in Ht. exact Ht.
Qed.
End with_decimal.

(** ** The number of values (C28) *)
Section sizes.
Context {DL : DecimalLib}.
Context (B R : N).
Hypothesis HB : (1 <= B)%N.
Local Notation bill := (bill B R).
Local Notation good := (good B R).
Lemma bill_suffix i j : j ⊑s i -> (bill j <= bill i)%N.
Proof using HB. intros [k ->]. rewrite bill_app by exact HB. lia. Qed.
Lemma good_suffix' i j : good i -> j ⊑s i -> good j.
Proof using HB. apply good_suffix; exact HB. Qed.
Lemma abandoned_size e i e' : abandoned e i e' -> good i -> (objs_size (e_objs e') <= objs_size (e_objs e) + bill i)%N.
Proof using HB.
  apply (abandoned_held objs_size bill good bill_suffix good_suffix' objs_size_delete_le). clear e i e'.
  intros e i id v e' i' Hr Hg. pose proof (proj2 (proj2 (proj2 (proj2 (g_pot B R HB)))) _ _ _ _ _ _ Hr Hg) as Hp.
  unfold pot in Hp. pose proof (objs_size_replace (e_objs e') id v) as Hrep. cbn [add_obj e_objs]. lia.
Qed.
Lemma step_held root e i ca e' i' : call_array_step root e i ca e' i' -> good i ->
  (sizes (default [] ca) <= objs_size (e_objs e) + bill i)%N.
Proof.
  intros [ca' e0 i0 Hca|e0 _ _] Hg; [|cbn; lia].
  pose proof (call_array_pot B R HB _ _ _ _ _ _ Hca Hg) as H. unfold pot in H. lia.
Qed.
Lemma method_held root e i m e' i' : method_step root e i m e' i' -> good i ->
  (message_size m <= objs_size (e_objs e) + bill i)%N.
Proof.
  destruct 1 as [flags name type ctx inline bs i ca args e' i' Hc Hca Ha|flags ret ctx inline bs i ca args e' i' Hc Hca Ha];
    intros Hg; apply (good_suffix' _ i) in Hg; try (by exists bs); pose proof (step_held _ _ _ _ _ _ Hca Hg) as H1; apply (args_size B R HB) in Ha.
  - destruct Hc as (b1 & b2 & b3 & b4 & b5 & _ & _ & _ & _ & H5 & ->). apply (inline_sizes B R) in H5; [|exact HB].
    change (x15 :: b1 ++ b2 ++ b3 ++ b4 ++ b5) with ([x15] ++ b1 ++ b2 ++ b3 ++ b4 ++ b5).
    rewrite !bill_app by exact HB. unfold message_size. cbn [message_values mc_args]. lia.
  - destruct Hc as (b1 & b2 & b3 & b4 & _ & H2 & _ & H4 & ->). apply (inline_sizes B R) in H4; [|exact HB].
    assert (sizes (opt_list ret) <= bill b2)%N as Hr.
    { destruct ret as [v|]; cbn [e_flagged opt_list] in *; [|cbn; lia]. destruct H2 as [_ H2].
      apply (coded_sizes B R HB [v]). rewrite <- (app_nil_r b2). apply e_cons; [done|apply e_nil]. }
    change (x16 :: b1 ++ b2 ++ b3 ++ b4) with ([x16] ++ b1 ++ b2 ++ b3 ++ b4).
    rewrite !bill_app by exact HB. unfold message_size. cbn [message_values mr_args mr_return_value].
    rewrite sizes_app. lia.
Qed.
Lemma accepted_size W m : deserialize W = POk m -> good W -> (message_size m <= 2 * bill W)%N.
Proof.
  assert (forall i, pot B R empty_env i = bill i) as Hempty by (intros i; unfold pot, objs_size; cbn [empty_env e_objs]; by rewrite map_fold_empty).
  intros H%message_iff. destruct H as [root hb i e1 i1 e1' e2 v Hh Ho Ha Ho2 Hv|root hb i e1 i1 m e2 i2 e3 Hh Ho Hm Ho2];
    intros Hg; rewrite bill_app by exact HB; apply (good_suffix' _ i) in Hg; try (by exists hb);
    pose proof (good_suffix' _ _ Hg (g_objects_suffix _ _ _ _ Ho)) as Hg1;
    apply (objects_pot B R HB) in Ho; try done; rewrite Hempty in Ho; unfold pot in Ho.
  - apply abandoned_size in Ha; [|done]. apply (objects_pot B R HB) in Ho2; [|done]. unfold pot in Ho2.
    unfold message_size. cbn [message_values]. rewrite sizes_cons. change (sizes []) with 0%N.
    destruct root as [r|]; cbn [root_value] in Hv.
    + apply objs_size_lookup in Hv. lia.
    + subst v. cbn [size]. pose proof (bill_pos B R HB hb) as Hb.
      assert (hb <> []) as Hne by (intros ->; by apply e_header_length in Hh). specialize (Hb Hne). lia.
  - apply method_held in Hm; [|done]. lia.
Qed.
End sizes.
