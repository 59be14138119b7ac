(** * Message: exactly which byte strings are accepted, and as what. *)
From Verif Require Import Base Utf8 Value DataTypes Records Parser Wire BaseLemmas DataTypesLemmas
  RecordsLemmas MethodLemmas SafetyLemmas Safety Grammar Heads Complete Sound Fuel.
From Coq Require Import Lia.

Section with_decimal.
Context {DL : DecimalLib}.

(** An attempt to read a record at [i] was given up; it left the tables [e'] behind. *)
Definition abandoned (e : env) (i : bytes) (e' : env) : Prop :=
  exists f err, parse_referenceable f (st e) i = (st e', Err err).
(** The same for an object array. *)
Definition abandoned_array (e : env) (i : bytes) (e' : env) : Prop :=
  exists f err, parse_array_single_object (parse_classes f) (parse_referenceable f) (st e) i
                = (st e', Err err).

Lemma classes_referenceable f s i s' r :
  st_classes s = ∅ -> parse_referenceable f s i = (s', r) -> st_classes s' = ∅.
Proof.
  intros Hs H. pose proof (mono_referenceable f s i) as [Hm _]. rewrite H in Hm. simpl in Hm. congruence.
Qed.

Lemma referenceables_sound lf f s i s' i' u :
  st_classes s = ∅ -> parse_referenceables lf f s i = (s', Ok i' u) ->
  exists s1 err, st_classes s1 = ∅ /\ g_objects (env_of s) i (env_of s1) i'
    /\ parse_referenceable f s1 i' = (s', Err err).
Proof.
  revert s i. induction lf as [|lf IH]; intros s i Hs H; [done|]. cbn [parse_referenceables] in H.
  destruct (parse_referenceable f s i) as [s1 [i1 id|e|e|p|]] eqn:E; try done.
  - pose proof (classes_referenceable _ _ _ _ _ Hs E) as Hs1.
    destruct (g_sound f) as [_ Hg]. apply Hg in E as (v & e' & Hr & He); [|done].
    apply IH in H as (s2 & err & Hs2 & Ho & Herr); [|done].
    exists s2, err. split; [done|]. split; [|done]. rewrite He in Ho. econstructor; done.
  - inv H. exists s, e. split; [done|]. split; [constructor|done].
Qed.

(** A given-up attempt leaves a trace only at a class or array record. *)
Definition traced_heads : list byte := [x02; x03; x04; x05; x07; x10; x11].

Lemma abandoned_library f s i s' err rest lid name :
  parse_referenceable f s i = (s', Err err) -> binary_library i <> Ok rest (lid, name).
Proof.
  destruct f as [|f]; [done|]. rewrite parse_referenceable_S. intros H El.
  unfold parse_referenceable_body in H.
  destruct (parse_classes f s i) as [s1 [i1 a|e|e|p|]] eqn:E1; unfold smap in H;
    cbn [fst snd rmap bind alt_mut sbind] in H; try done.
  pose proof (parse_classes_library _ _ _ _ _ _ _ _ E1 El) as Hd.
  unfold parse_arrays, parse_binary_library in H. rewrite El in H. cbn [opt] in H.
  rewrite bool_decide_eq_true_2 in H by done. cbn [sbind fst snd rmap bind alt_mut] in H. done.
Qed.

Lemma abandoned_no_library f s i s' err :
  parse_referenceable f s i = (s', Err err) -> no_library i.
Proof.
  intros H. apply no_library_iff. destruct (binary_library i) as [rest [lid name]|e|e|p|] eqn:El; [|eauto| | |].
  - by apply (abandoned_library _ _ _ _ _ rest lid name) in H.
  - exfalso. destruct f as [|f]; [done|]. rewrite parse_referenceable_S in H.
    destruct f as [|f]; [done|]. unfold parse_referenceable_body in H. rewrite parse_classes_S in H.
    unfold parse_classes_body, parse_binary_library in H. rewrite El in H.
    unfold smap in H. cbn [opt sbind fst snd rmap bind alt_mut] in H. done.
  - pose proof (binary_library_safe i) as Hs. by rewrite El in Hs.
  - pose proof (binary_library_safe i) as Hs. by rewrite El in Hs.
Qed.

Lemma arrays_untraced PC PR s i :
  no_library i -> ~ head_in [x07; x10; x11] i -> (parse_arrays PC PR s i).1 = s.
Proof.
  intros Hl Hh. unfold parse_arrays. rewrite parse_binary_library_none by done. cbn [sbind].
  unfold parse_array_single_object, parse_array_single_string, parse_binary_array.
  destruct (array_single_object_err i) as [e1 ->]; [nohead|].
  destruct (array_single_string_err i) as [e2 ->]; [nohead|].
  destruct (binary_array_err i) as [e3 ->]; [nohead|]. cbn [alt_mut].
  unfold parse_array_single_primitive. by destruct (bind _ _).
Qed.

Lemma class_with_id_not_err i e : head_in [x01] i -> class_with_id i <> Err e.
Proof.
  destruct i as [|c i]; [done|]. cbn [head_in]. rewrite elem_of_list_singleton. intros ->.
  unfold class_with_id. rewrite record_type_parse_cons. rewrite bool_decide_eq_true_2 by done.
  cbn [bind]. unfold object_id.
  destruct (positive_id _ i) as [i1 oid|e1|e1|p|] eqn:E1; cbn [bind]; try done.
  - destruct (positive_id _ i1) as [i2 mid|e2|e2|p|] eqn:E2; cbn [bind]; try done.
    + by destruct (N.eqb _ _).
    + by apply positive_id_not_err in E2.
  - by apply positive_id_not_err in E1.
Qed.

Lemma classes_with_id f s i :
  st_classes s = ∅ -> no_library i -> head_in [x01] i ->
  (parse_classes f s i).1 = s /\ forall e, (parse_classes f s i).2 <> Err e.
Proof.
  intros Hs Hl Hh. destruct f as [|f]; [done|]. rewrite parse_classes_S. unfold parse_classes_body.
  rewrite parse_binary_library_none by done. cbn [sbind].
  destruct (class_with_id i) as [i2 [oid mid]|e|e|p|] eqn:Ec; try done.
  - by rewrite Hs, lookup_empty.
  - by apply class_with_id_not_err in Ec.
Qed.

Lemma abandoned_untraced f s i s' err :
  st_classes s = ∅ ->
  parse_referenceable f s i = (s', Err err) -> head_in traced_heads i \/ s' = s.
Proof.
  intros Hs H. pose proof (abandoned_no_library _ _ _ _ _ H) as Hl.
  destruct (decide (head_in traced_heads i)) as [Hh|Hh]; [by left|]. right.
  destruct f as [|f]; [done|]. rewrite parse_referenceable_S in H.
  unfold parse_referenceable_body in H.
  assert ((parse_classes f s i).1 = s) as H1.
  { destruct (decide (head_in [x01] i)) as [H01|H01].
    - by apply classes_with_id.
    - apply parse_classes_nothing; [done|]. intros H1. apply Hh.
      destruct i as [|c i]; [done|]. unfold traced_heads. cbn [head_in] in *. set_solver. }
  destruct (parse_classes f s i) as [s1 r1] eqn:E1. cbn [fst] in H1. subst s1.
  pose proof (arrays_untraced (parse_classes f) (parse_referenceable f) s i Hl) as H2.
  assert (~ head_in [x07; x10; x11] i) as H3.
  { intros H3. apply Hh. destruct i as [|c i]; [done|]. unfold traced_heads. cbn [head_in] in *. set_solver. }
  specialize (H2 H3). destruct (parse_arrays _ _ s i) as [s2 r2] eqn:E2. cbn [fst] in H2. subst s2.
  unfold smap in H. cbn [fst snd] in H.
  destruct r1 as [i1 a|e|e|p|]; cbn [rmap bind alt_mut sbind] in H; try done; try (by inv H).
  rewrite E2 in H. cbn [fst snd] in H.
  destruct r2 as [i1 a|e2|e2|p|]; cbn [rmap bind alt_mut sbind] in H; try done; try (by inv H).
  destruct (rmap _ _); cbn [alt_mut sbind] in H; try done; by inv H.
Qed.

(** The attempts are deterministic. *)
Lemma abandoned_same e i e' id v e2 i2 :
  abandoned e i e' -> g_record e i id v e2 i2 -> False.
Proof.
  intros (f & err & H) Hg. set (F := f + (2 * length i + 2)).
  destruct g_complete as (_ & _ & _ & _ & Hc).
  pose proof (Hc _ _ _ _ _ _ Hg F) as Hok. specialize (Hok ltac:(lia)).
  destruct (sle_referenceable f F (st e) i) as [Hd|He]; [lia| |].
  - by rewrite H in Hd.
  - rewrite H, Hok in He. done.
Qed.

(** Where a record stands. *)
Lemma g_record_head e i id v e' i' :
  g_record e i id v e' i' ->
  head_in [x02; x03; x04; x05; x06; x07; x0f; x10; x11] i \/ ~ no_library i.
Proof.
  destruct 1 as [e i id o e' i' Hc|e i id s bs Hb|e i id p vs bs Hb|e i id len bs its e1 i1 vs e2 i2 Hb ? ? ?
    |e i id len bs its e1 i1 vs e2 i2 Hb ? ? ?|e i id bat ls bo k bs its e1 i1 vs e2 i2 out Hb ? ? ? ?].
  - destruct Hc as [e i e1 bs i1 h lib its e2 i2 vs e3 i3 Hl Hh _ _ _].
    remember (bs ++ i1) as j0 eqn:Ej. destruct Hl as [id name b j Hr _|j _].
    + right. rewrite no_library_iff. intros [er He].
      rewrite (exact_ok binary_library _ (id, name) _ _ binary_library_exact Hr) in He. done.
    + left. rewrite Ej. pose proof (class_header_head h bs i1 Hh). hd.
  - left. destruct Hb as (? & ? & _ & _ & ->). hd.
  - left. destruct Hb as (? & ? & (? & ? & _ & _ & ->) & _ & _ & ->). hd.
  - left. destruct Hb as (? & ? & _ & _ & ->). hd.
  - left. destruct Hb as (? & ? & _ & _ & ->). hd.
  - left. destruct Hb as (? & ? & ? & ? & ? & _ & _ & _ & _ & _ & ->). hd.
Qed.

Lemma g_objects_head e i e' i' :
  g_objects e i e' i' ->
  (e' = e /\ i' = i) \/ head_in [x02; x03; x04; x05; x06; x07; x0f; x10; x11] i \/ ~ no_library i.
Proof.
  destruct 1 as [|e i id v e1 i1 e2 i2 Hr _]; [by left|]. right. by eapply g_record_head.
Qed.

(** Nothing stands at the end of a message. *)
Lemma no_method_head f root s i :
  no_library i -> ~ head_in [x15; x16] i ->
  exists err, parse_method_call_or_return f root s i = (s, Err err).
Proof.
  intros Hl Hh. unfold parse_method_call_or_return, parse_method_call, parse_method_return.
  rewrite parse_binary_library_none by done. cbn [sbind].
  destruct (method_call_err i) as [e1 ->]; [nohead|].
  unfold smap at 1. cbn [fst snd rmap bind alt_mut].
  rewrite parse_binary_library_none by done. cbn [sbind].
  destruct (method_return_err i) as [e2 ->]; [nohead|].
  unfold smap at 1. cbn [fst snd rmap bind alt_mut]. unfold alt_mut_end. eauto.
Qed.

Lemma message_end_ok i u : message_end i = Ok [] u -> i = [x0b].
Proof. intros H. apply message_end_exact in H as (bs & Hb & ->). rewrite app_nil_r. naive_solver. Qed.

Lemma abandoned_end f e : exists err, parse_referenceable (S (S f)) (st e) [x0b] = (st e, Err err).
Proof. apply err_0b. Qed.
Lemma abandoned_end_inv f s s' err :
  st_classes s = ∅ -> parse_referenceable f s [x0b] = (s', Err err) -> s' = s.
Proof.
  intros Hs H. apply abandoned_untraced in H as [H|H]; [|done|done].
  exfalso. revert H. apply (bool_decide_unpack _). vm_compute. exact I.
Qed.

Lemma binary_library_head c i rest x : binary_library (c :: i) = Ok rest x -> c = x0c.
Proof.
  intros H. destruct (decide (c = x0c)) as [|Hc]; [done|].
  destruct (binary_library_err (c :: i)) as [e He]; [|congruence].
  cbn [head_in]. by rewrite elem_of_list_singleton.
Qed.

(** ** Call arrays *)

(** Like [g_call_array], with the possibility that the object array that follows is not taken
    for the call array, but for a record (which can leave a trace, see [abandoned]). *)
Inductive call_array_step (root : option N) (e : env) (i : bytes)
  : option (list value) -> env -> bytes -> Prop :=
| CA_clean ca e' i' : g_call_array root e i ca e' i' -> call_array_step root e i ca e' i'
| CA_abandoned e' : head_in [x10] i -> abandoned_array e i e' -> call_array_step root e i None e' i.

Lemma classes_array_single_object f s i s' r :
  st_classes s = ∅ ->
  parse_array_single_object (parse_classes f) (parse_referenceable f) s i = (s', r) ->
  st_classes s' = ∅.
Proof.
  intros Hs H.
  pose proof (mono_array_single_object (parse_classes f) (parse_referenceable f) (mono_classes f)
    (mono_referenceable f) s i) as [Hm _]. rewrite H in Hm. simpl in Hm. congruence.
Qed.

Lemma call_array_sound f root s i s' i' ca :
  st_classes s = ∅ -> sopt i (parse_call_array f root s i) = (s', Ok i' ca) ->
  st_classes s' = ∅ /\
  (call_array_step root (env_of s) i ca (env_of s') i'
   \/ (i' = i /\ ((no_library i /\ head_in [x0c] i) \/ exists rest lid name,
         binary_library i = Ok rest (lid, name) /\ is_Some (st_libs s' !! lid)))).
Proof.
  intros Hs H. unfold sopt, parse_call_array in H.
  pose proof (mono_array_single_object (parse_classes f) (parse_referenceable f) (mono_classes f)
    (mono_referenceable f)) as Hmono.
  destruct (parse_binary_library s i) as [s1 r1] eqn:El.
  destruct (parse_binary_library_cases _ _ _ _ El) as [[i1 ->]|[e ->]]; cbn [sbind] in H; [|done].
  pose proof (parse_binary_library_sound _ _ _ _ _ El) as [Hl Hc]. rewrite Hs in Hc.
  destruct (parse_array_single_object _ _ s1 i1) as [s2 r2] eqn:Ea.
  pose proof (classes_array_single_object _ _ _ _ _ Hc Ea) as Hs2.
  destruct r2 as [i2 a|e|e|p|]; cbn [sbind fst snd opt] in H; try done.
  - case_bool_decide as Hr; cbn [fst snd opt] in H; [|done]. inv H. split; [done|]. left. apply CA_clean.
    apply array_single_object_sound in Ea as (len & bs & i0 & its & e1 & i1' & vs & -> & Hb & H1 & H2 & H3 & H4);
      [|eauto using mono_classes, mono_referenceable, parse_classes_nothing|..|done].
    + rewrite H4. eapply G_ca_some; [done|done|done|done|done|done].
    + apply mono_referenceable.
    + intros. by apply (proj1 (g_sound f)).
    + intros. by eapply (proj2 (g_sound f)).
    + intros. by apply parse_classes_nothing.
  - injection H as <- <- <-. split; [done|].
    inversion Hl as [id name bs j Hr Hf|j Hn].
    + right. split; [done|]. right. exists j, id, name.
      rewrite (exact_ok binary_library _ (id, name) _ _ binary_library_exact Hr). split; [by subst|].
      apply elem_of_dom. specialize (Hmono s1 i1). rewrite Ea in Hmono. destruct Hmono as [_ Hd].
      apply Hd. apply elem_of_dom. exists name.
      rewrite <- H0. by rewrite lookup_insert.
    + subst j. subst i1. assert (s1 = s) as ->.
      { destruct s, s1. cbn in *. by subst. }
      destruct (decide (head_in [x0c] i)) as [H0c|H0c].
      { right. split; [done|]. by left. }
      left. destruct (decide (head_in [x10] i)) as [H10|H10].
      * apply CA_abandoned; [done|]. exists f, e. by rewrite !st_env_of.
      * apply CA_clean.
        destruct (array_single_object_err i H10) as [er Her].
        unfold parse_array_single_object in Ea. rewrite Her in Ea. injection Ea as <- _.
        apply G_ca_none.
        destruct i as [|c i]; [done|]. destruct (decide (c = x10)) as [->|Hc1]; [by destruct H10; apply elem_of_list_singleton|].
        destruct (decide (c = x0c)) as [->|Hc2]; [by destruct H0c; apply elem_of_list_singleton|].
        by destruct c.
Qed.

Lemma parse_args_sound flags ca inl args i i' :
  parse_args flags ca inl i = Ok i' args -> i' = i /\ args_rule flags ca inl args.
Proof.
  unfold parse_args, args_rule.
  change MF_ARGS_IS_ARRAY with (2 ^ bit_ArgsIsArray)%Z.
  change MF_ARGS_IN_ARRAY with (2 ^ bit_ArgsInArray)%Z.
  rewrite !intersects_testbit by done.
  destruct (Z.testbit flags bit_ArgsIsArray).
  { destruct ca as [a|]; intros H; inv H. eauto. }
  destruct (Z.testbit flags bit_ArgsInArray).
  { destruct ca as [[|[] r]|]; intros H; inv H. eauto. }
  intros H. inv H. done.
Qed.

(** A method record with its call array. *)
Inductive method_step (root : option N) (e : env) : bytes -> message -> env -> bytes -> Prop :=
| MS_call flags name type ctx inline bs i ca args e' i' :
    e_method_call flags name type ctx inline bs ->
    call_array_step root e i ca e' i' -> args_rule flags ca inline args ->
    method_step root e (bs ++ i) (MMethodCall (mkMethodCall name type ctx args)) e' i'
| MS_return flags ret ctx inline bs i ca args e' i' :
    e_method_return flags ret ctx inline bs ->
    call_array_step root e i ca e' i' -> args_rule flags ca inline args ->
    method_step root e (bs ++ i) (MMethodReturn (mkMethodReturn ret ctx args)) e' i'.

Lemma method_sound f root s i s' i' m :
  st_classes s = ∅ -> no_library i -> parse_method_call_or_return f root s i = (s', Ok i' m) ->
  st_classes s' = ∅ /\
  (method_step root (env_of s) i m (env_of s') i'
   \/ ((no_library i' /\ head_in [x0c] i') \/ exists rest lid name,
         binary_library i' = Ok rest (lid, name) /\ is_Some (st_libs s' !! lid))).
Proof.
  intros Hs Hl H. unfold parse_method_call_or_return in H.
  destruct (parse_method_call f root s i) as [s1 [i1 c|e|e|p|]] eqn:E1; unfold smap in H;
    cbn [fst snd rmap bind alt_mut] in H; try done.
  - inv H. unfold parse_method_call in E1. rewrite parse_binary_library_none in E1 by done.
    cbn [sbind] in E1.
    destruct (binary_method_call_parse i) as [i0 c0|e|e|p|] eqn:Ec; try done.
    apply method_call_exact in Ec as (bs & Hb & ->).
    destruct (sopt i0 (parse_call_array f root s i0)) as [s2 [i2 ca|e|e|p|]] eqn:Eca;
      cbn [sbind] in E1; try done.
    injection E1 as -> E1. apply bind_ok in E1 as (i3 & args & E1 & E2). inv E2.
    apply parse_args_sound in E1 as [-> Hargs].
    apply call_array_sound in Eca as [Hs2 [Hca|[-> Hca]]]; [| |done].
    + split; [done|]. left. econstructor; done.
    + split; [done|]. right. done.
  - assert (s1 = s) as ->.
    { unfold parse_method_call in E1. rewrite parse_binary_library_none in E1 by done.
      cbn [sbind] in E1.
      destruct (binary_method_call_parse i) as [i0 c0|e0|e0|p|] eqn:Ec; try done; [|by inv E1].
      exfalso. destruct (sopt i0 (parse_call_array f root s i0)) as [s2 [i2 ca|e1|e1|p|]] eqn:Eca;
        cbn [sbind] in E1; try done.
      - injection E1 as -> E1. destruct (parse_args _ _ _ _) as [? ?|ea|ea|?|] eqn:Ea; cbn [bind] in E1; try done.
        unfold parse_args in Ea. destruct (intersects _ _); [by destruct ca|].
        destruct (intersects _ _); [|done]. by destruct ca as [[|[] ?]|].
      - unfold sopt in Eca. destruct (parse_call_array f root s i0).2; done. }
    destruct (parse_method_return f root s i) as [s1 [i1 c|e1|e1|p|]] eqn:E2;
      cbn [fst snd rmap bind alt_mut] in H; try done.
    inv H. unfold parse_method_return in E2. rewrite parse_binary_library_none in E2 by done.
    cbn [sbind] in E2.
    destruct (binary_method_return_parse i) as [i0 c0|e2|e2|p|] eqn:Ec; try done.
    apply method_return_exact in Ec as (bs & Hb & ->).
    destruct (sopt i0 (parse_call_array f root s i0)) as [s2 [i2 ca|e2|e2|p|]] eqn:Eca;
      cbn [sbind] in E2; try done.
    injection E2 as -> E2. apply bind_ok in E2 as (i3 & args & E2 & E3). inv E3.
    apply parse_args_sound in E2 as [-> Hargs].
    apply call_array_sound in Eca as [Hs2 [Hca|[-> Hca]]]; [| |done].
    + split; [done|]. left. eapply MS_return; done.
    + split; [done|]. right. done.
Qed.

Lemma no_objects_after_library s i e3 :
  g_objects (env_of s) i e3 [x0b] ->
  ((no_library i /\ head_in [x0c] i) \/ exists rest lid name,
         binary_library i = Ok rest (lid, name) /\ is_Some (st_libs s !! lid)) -> False.
Proof.
  intros Hg H. inversion Hg as [|e0 i0 id v e1 i1 e2 i2 Hr Hrest]; subst.
  - destruct H as [[_ H]|(rest & lid & name & H & _)].
    + revert H. apply (bool_decide_unpack _). vm_compute. exact I.
    + destruct (binary_library_err [x0b]) as [er Her]; [hd|]. congruence.
  - destruct H as [[Hl Hh]|(rest & lid & name & Hl & Hd)].
    + apply g_record_head in Hr as [Hr|Hr]; [|done]. assert (~ head_in [x0c] i) by hd. done.
    + inversion Hr; subst;
        try (match goal with
        | Hb : e_string_record _ _ _ |- _ => destruct Hb as (? & ? & _ & _ & ->)
        | Hb : e_prim_array _ _ _ _ |- _ => destruct Hb as (? & ? & (? & ? & _ & _ & ->) & _ & _ & ->)
        | Hb : e_array_header _ _ _ _ |- _ => destruct Hb as (? & ? & _ & _ & ->)
        | Hb : e_binary_array_header _ _ _ _ _ _ |- _ =>
            destruct Hb as (? & ? & ? & ? & ? & _ & _ & _ & _ & _ & ->)
        end; cbn [app] in Hl; apply binary_library_head in Hl; discriminate Hl).
      match goal with Hc : g_class _ _ _ _ _ _ |- _ => inversion Hc as [e0' i' e1' bs j h lib its e2' i2 vs e3' i3 Hlib Hh]; subst end.
      inversion Hlib as [id' name' b j' Hr' Hf Ei|j' Hn Ei]; subst.
      * rewrite (exact_ok binary_library _ (id', name') _ _ binary_library_exact Hr') in Hl. inv Hl.
        cbn [env_of e_libs] in Hf. rewrite Hf in Hd. by destruct Hd.
      * apply no_library_iff in Hn as [er Her]. congruence.
Qed.
(** ** Messages *)

(** Exactly what is accepted: the records are read twice from the position [i1] at which the
    first attempt to read a record is given up. *)
Inductive accepted_as : bytes -> message -> Prop :=
| AA_value root hb i e1 i1 e1' e2 v :
    e_header root hb -> g_objects empty_env i e1 i1 -> abandoned e1 i1 e1' ->
    g_objects e1' i1 e2 [x0b] -> root_value root e2 v ->
    accepted_as (hb ++ i) (MValue v)
| AA_method root hb i e1 i1 m e2 i2 e3 :
    e_header root hb -> g_objects empty_env i e1 i1 -> method_step root e1 i1 m e2 i2 ->
    g_objects e2 i2 e3 [x0b] ->
    accepted_as (hb ++ i) m.

Lemma header_sound i i' h :
  serialization_header_parse i = Ok i' h -> exists hb, e_header (sh_root_id h) hb /\ i = hb ++ i'.
Proof.
  intros H. apply header_exact in H as (bs & Hb & ->). exists bs. split; [|done].
  destruct Hb as (root & hid & -> & Hr & Hh & ->). exists hid. done.
Qed.

Lemma message_sound W m : deserialize W = POk m -> accepted_as W m.
Proof.
  unfold deserialize. generalize (2 * length W + 2). intros f H.
  destruct (parse_remoting_message f init_state W) as [s r] eqn:E. cbn [snd] in H.
  destruct r as [i' m'|e|e|p|]; try done. inv H.
  unfold parse_remoting_message in E.
  destruct (serialization_header_parse W) as [i h|e|e|p|] eqn:Eh; try done.
  apply header_sound in Eh as (hb & Hh & ->).
  destruct (parse_referenceables _ f init_state i) as [s1 [i1 []|e|e|p|]] eqn:E1; cbn [sbind] in E; try done.
  apply referenceables_sound in E1 as (s1' & err1 & Hs1' & Ho1 & Ha1); [|done].
  pose proof (abandoned_no_library _ _ _ _ _ Ha1) as Hl1.
  pose proof (classes_referenceable _ _ _ _ _ Hs1' Ha1) as Hs1.
  change (env_of init_state) with empty_env in Ho1.
  destruct (sopt i1 (parse_method_call_or_return f (sh_root_id h) s1 i1)) as [s2 [i2 mo|e|e|p|]] eqn:E2;
    cbn [sbind] in E; try done.
  destruct (parse_referenceables _ f s2 i2) as [s3 [i3 []|e|e|p|]] eqn:E3; cbn [sbind] in E; try done.
  destruct (message_end i3) as [i4 u|e|e|p|] eqn:E4; try done.
  destruct i4 as [|c i4]; [|done].
  apply message_end_ok in E4 as ->.
  unfold sopt in E2.
  destruct (parse_method_call_or_return f (sh_root_id h) s1 i1) as [s2' r2] eqn:Em.
  cbn [fst snd] in E2.
  destruct r2 as [i2' m2|e|e|p|]; cbn [opt] in E2; try done.
  - (* a method record *)
    injection E2 as -> -> <-. injection E as <- <- <-.
    assert (head_in [x15; x16] i1) as Hhd.
    { destruct (decide (head_in [x15; x16] i1)) as [|Hn]; [done|].
      destruct (no_method_head f (sh_root_id h) s1 i1 Hl1 Hn) as [er Her]. congruence. }
    assert (s1 = s1') as ->.
    { apply abandoned_untraced in Ha1 as [Ha1|Ha1]; [|done|done].
      exfalso. assert (~ head_in traced_heads i1) by (unfold traced_heads; hd). done. }
    apply method_sound in Em as [Hs2 Hm]; [|done|done].
    apply referenceables_sound in E3 as (s3' & err3 & Hs3' & Ho3 & Ha3); [|done].
    destruct Hm as [Hm|Hm]; [|exfalso; by eapply no_objects_after_library].
    eapply AA_method; done.
  - (* a value *)
    injection E2 as -> <- <-.
    assert (s2 = s1) as ->.
    { destruct (decide (head_in [x15; x16] i1)) as [Hh1|Hn].
      - exfalso.
        (* a given-up method record is not a record *)
        assert (parse_referenceables (S (length i1)) f s2 i1 = (s2, Ok i1 tt)
                \/ (parse_referenceables (S (length i1)) f s2 i1).2 = Diverge) as [Hx|Hx].
        { cbn [parse_referenceables]. destruct f as [|[|f]]; [by right|by right|].
          destruct (referenceable_err_head f s2 i1 Hl1) as [er Her]; [hd|]. rewrite Her. by left. }
        + rewrite Hx in E3. injection E3 as _ E5. rewrite E5 in Hh1.
          revert Hh1. apply (bool_decide_unpack _). vm_compute. exact I.
        + by rewrite E3 in Hx.
      - destruct (no_method_head f (sh_root_id h) s1 i1 Hl1 Hn) as [er Her].
        rewrite Her in Em. by inv Em. }
    apply referenceables_sound in E3 as (s3' & err3 & Hs3' & Ho3 & Ha3); [|done].
    pose proof (abandoned_end_inv _ _ _ _ Hs3' Ha3) as ->.
    assert (abandoned (env_of s1') i1 (env_of s1)) as Hab.
    { exists f, err1. by rewrite !st_env_of. }
    destruct (sh_root_id h) as [r|] eqn:Er.
    + destruct (st_objects s3' !! r) as [v|] eqn:Ev; [|done]. injection E as _ <- <-.
      eapply AA_value; [done|done|done|done|]. done.
    + injection E as _ <- <-. eapply AA_value; done.
Qed.

Lemma referenceables_complete' e i e' i' s'' :
  g_objects e i e' i' ->
  forall lf f, length i < lf -> 2 * length i + 2 <= f ->
    (exists err, parse_referenceable f (st e') i' = (s'', Err err)) ->
    parse_referenceables lf f (st e) i = (s'', Ok i' tt).
Proof.
  induction 1 as [e i|e i id v e1 i1 e2 i2 Hr Hg IH]; intros lf f Hlf Hf Herr.
  - destruct lf as [|lf]; [lia|]. cbn [parse_referenceables]. by destruct Herr as [err ->].
  - destruct lf as [|lf]; [lia|]. cbn [parse_referenceables].
    destruct g_complete as (_ & _ & _ & _ & Hc). rewrite (Hc _ _ _ _ _ _ Hr) by lia.
    apply g_record_length in Hr. apply IH; [lia|lia|done].
Qed.

Lemma message_any_fuel f W s i m :
  2 * length W + 2 <= f -> parse_remoting_message f init_state W = (s, Ok i m) ->
  deserialize W = POk m.
Proof.
  intros Hf H. unfold deserialize. pose proof (deserialize_safe W) as Hs. unfold deserialize in Hs.
  destruct (sle_message (2 * length W + 2) f init_state W Hf) as [Hd| ->].
  - by rewrite Hd in Hs.
  - by rewrite H.
Qed.

Lemma abandoned_lift e i e' F f err :
  f <= F -> parse_referenceable f (st e) i = (st e', Err err) ->
  parse_referenceable F (st e) i = (st e', Err err).
Proof.
  intros Hf H. destruct (sle_referenceable f F (st e) i Hf) as [Hd|Hd]; [by rewrite H in Hd|congruence].
Qed.

Lemma call_array_step_complete root e i ca e' i' :
  call_array_step root e i ca e' i' ->
  exists f0, forall f, f0 <= f -> 2 * length i + 2 <= f ->
    sopt i (parse_call_array f root (st e) i) = (st e', Ok i' ca).
Proof.
  destruct 1 as [ca e' i' H|e' Hh (f0 & err & H)].
  - exists 0. intros f _ Hf. by apply call_array_complete.
  - exists f0. intros f Hf _. unfold sopt, parse_call_array.
    rewrite parse_binary_library_none by (apply no_library_head; hd). cbn [sbind].
    destruct (sle_array_single_object (parse_classes f0) (parse_classes f) (parse_referenceable f0)
      (parse_referenceable f) (fun s i => sle_classes _ _ s i Hf) (fun s i => sle_referenceable _ _ s i Hf)
      (st e) i) as [Hd|Hd]; [by rewrite H in Hd|].
    rewrite <- Hd, H. done.
Qed.

Lemma call_array_step_length root e i ca e' i' :
  call_array_step root e i ca e' i' -> length i' <= length i.
Proof.
  destruct 1 as [ca e' i' Hc|]; [|done].
  destruct Hc as [|? ? ? ? ? ? ? ? ? ? ? A1 A2 ? A3 A4 A5]; [done|].
  apply g_lib_length in A1. rewrite app_length in A1. apply g_items_length in A3 as [A3 _].
  apply g_resolve_length in A5. lia.
Qed.

Lemma method_step_complete root e i m e' i' :
  method_step root e i m e' i' ->
  exists f0, forall f, f0 <= f -> 2 * length i + 2 <= f ->
    parse_method_call_or_return f root (st e) i = (st e', Ok i' m).
Proof.
  destruct 1 as [flags name type ctx inline bs i ca args e' i' Hb Hca Ha
                |flags ret ctx inline bs i ca args e' i' Hb Hca Ha];
    destruct (call_array_step_complete _ _ _ _ _ _ Hca) as [f0 Hf0]; exists f0; intros f Hf Hlen;
    rewrite app_length in Hlen; unfold parse_method_call_or_return.
  - assert (exists b, bs = x15 :: b) as [b Eb]
      by (destruct Hb as (? & ? & ? & ? & ? & _ & _ & _ & _ & _ & ->); eauto).
    unfold parse_method_call. rewrite parse_binary_library_none
      by (apply no_library_head; rewrite Eb; hd).
    cbn [sbind].
    rewrite (exact_ok binary_method_call_parse _ (mkBinaryMethodCall flags name type ctx inline)
               bs i method_call_exact) by done.
    rewrite Hf0 by lia. cbn [sbind].
    cbn [bmc_message_enum bmc_args bmc_method_name bmc_type_name bmc_call_context].
    rewrite (parse_args_complete _ _ _ _ _ Ha). done.
  - assert (exists b, bs = x16 :: b) as [b Eb]
      by (destruct Hb as (? & ? & ? & ? & _ & _ & _ & _ & ->); eauto).
    unfold parse_method_call. rewrite parse_binary_library_none
      by (apply no_library_head; rewrite Eb; hd).
    cbn [sbind].
    destruct (method_call_err (bs ++ i)) as [er ->]; [rewrite Eb; hd|].
    unfold smap at 1. cbn [fst snd rmap bind alt_mut].
    unfold parse_method_return. rewrite parse_binary_library_none
      by (apply no_library_head; rewrite Eb; hd).
    cbn [sbind].
    rewrite (exact_ok binary_method_return_parse _ (mkBinaryMethodReturn flags ret ctx inline)
               bs i method_return_exact) by done.
    rewrite Hf0 by lia. cbn [sbind].
    cbn [bmr_message_enum bmr_args bmr_return_value bmr_call_context].
    rewrite (parse_args_complete _ _ _ _ _ Ha). done.
Qed.

Lemma method_step_head root e i m e' i' :
  method_step root e i m e' i' -> head_in [x15; x16] i /\ length i' <= length i.
Proof.
  destruct 1 as [flags name type ctx inline bs i ca args e' i' Hb Hca Ha
                |flags ret ctx inline bs i ca args e' i' Hb Hca Ha];
    apply call_array_step_length in Hca; rewrite app_length.
  - destruct Hb as (? & ? & ? & ? & ? & _ & _ & _ & _ & _ & ->). split; [hd|lia].
  - destruct Hb as (? & ? & ? & ? & _ & _ & _ & _ & ->). split; [hd|lia].
Qed.

Lemma message_complete' W m : accepted_as W m -> deserialize W = POk m.
Proof.
  destruct 1 as [root hb i e1 i1 e1' e2 v Hh Ho1 (f0 & err & Ha) Ho2 Hv
                |root hb i e1 i1 m e2 i2 e3 Hh Ho1 Hm Ho3].
  - set (F := S (S (f0 + 2 * length (hb ++ i)))).
    assert (length i <= length (hb ++ i)) as Hli by (rewrite app_length; lia).
    pose proof (g_objects_length _ _ _ _ Ho1) as Hl1.
    assert (parse_referenceable F (st e1) i1 = (st e1', Err err)) as HF.
    { apply (abandoned_lift _ _ _ F f0); [unfold F; lia|done]. }
    pose proof (abandoned_no_library _ _ _ _ _ HF) as Hnl.
    assert (~ head_in [x15; x16] i1) as Hn.
    { apply g_objects_head in Ho2 as [[_ <-]|[Hx|Hx]]; [hd|hd|done]. }
    assert (exists s, parse_remoting_message F init_state (hb ++ i) = (s, Ok [] (MValue v))) as [s Hs].
    2:{ eapply message_any_fuel; [|exact Hs]. unfold F. lia. }
    unfold parse_remoting_message.
    destruct (header_complete root hb i Hh) as (h & -> & <-).
    change init_state with (st empty_env).
    rewrite (referenceables_complete' _ _ _ _ (st e1') Ho1); [|lia|unfold F; lia|eauto].
    cbn [sbind].
    destruct (no_method_head F (sh_root_id h) (st e1') i1 Hnl Hn) as [err' ->].
    unfold sopt. cbn [fst snd opt sbind].
    rewrite (referenceables_complete' _ _ _ _ (st e2) Ho2); [|lia|unfold F; lia|apply err_0b].
    cbn [sbind]. unfold message_end. rewrite record_type_parse_cons.
    rewrite bool_decide_eq_true_2 by done. cbn [bind].
    unfold root_value in Hv. destruct (sh_root_id h) as [r|].
    + cbn [st st_objects]. rewrite Hv. eauto.
    + subst v. eauto.
  - destruct (method_step_complete _ _ _ _ _ _ Hm) as [f0 Hf0].
    destruct (method_step_head _ _ _ _ _ _ Hm) as [Hhd Hl2].
    set (F := S (S (f0 + 2 * length (hb ++ i)))).
    assert (length i <= length (hb ++ i)) as Hli by (rewrite app_length; lia).
    pose proof (g_objects_length _ _ _ _ Ho1) as Hl1.
    assert (exists s, parse_remoting_message F init_state (hb ++ i) = (s, Ok [] m)) as [s Hs].
    2:{ eapply message_any_fuel; [|exact Hs]. unfold F. lia. }
    unfold parse_remoting_message.
    destruct (header_complete root hb i Hh) as (h & -> & <-).
    change init_state with (st empty_env).
    rewrite (referenceables_complete' _ _ _ _ (st e1) Ho1); [|lia|unfold F; lia|].
    2:{ apply referenceable_err_head; [apply no_library_head; hd|hd]. }
    cbn [sbind]. rewrite Hf0 by (unfold F; lia). unfold sopt. cbn [fst snd opt sbind].
    rewrite (referenceables_complete' _ _ _ _ (st e3) Ho3); [|lia|unfold F; lia|apply err_0b].
    cbn [sbind]. unfold message_end. rewrite record_type_parse_cons.
    rewrite bool_decide_eq_true_2 by done. cbn [bind]. eauto.
Qed.

Theorem message_iff W m : deserialize W = POk m <-> accepted_as W m.
Proof. split; [apply message_sound|apply message_complete']. Qed.

(** ** What is accepted outside the grammar *)

(** Records up to [i1] read cleanly; no record can be read at [i1], where a class or array
    record starts; but read again with the tables [e1'] that the failed attempt left behind,
    the rest is a sequence of records. *)
Definition retried (W : bytes) (m : message) : Prop :=
  exists root hb i e1 i1 e1' e2,
    W = hb ++ i /\ e_header root hb
    /\ head_in traced_heads i1
    /\ (forall id v e' i', ~ g_record e1 i1 id v e' i')
    /\ e1' <> e1
    /\ g_objects e1' i1 e2 [x0b]
    /\ ((g_objects empty_env i e1 i1 /\ exists v, root_value root e2 v /\ m = MValue v)
        \/ (head_in [x10] i1 /\ exists e0 i0 bs,
             g_objects empty_env i e0 i0 /\ i0 = bs ++ i1 /\ e0 = e1
             /\ ((exists flags name type ctx args,
                   e_method_call flags name type ctx args bs
                   /\ Z.testbit flags bit_ArgsIsArray = false
                   /\ Z.testbit flags bit_ArgsInArray = false
                   /\ m = MMethodCall (mkMethodCall name type ctx args))
                 \/ (exists flags ret ctx args,
                   e_method_return flags ret ctx args bs
                   /\ Z.testbit flags bit_ArgsIsArray = false
                   /\ Z.testbit flags bit_ArgsInArray = false
                   /\ m = MMethodReturn (mkMethodReturn ret ctx args))))).

Lemma abandoned_array_record e i e' id v e2 i2 :
  head_in [x10] i -> abandoned_array e i e' -> g_record e i id v e2 i2 -> False.
Proof.
  intros Hh (f & err & H) Hg. set (F := S (S (f + (2 * length i + 2)))).
  destruct g_complete as (_ & _ & _ & _ & Hc).
  pose proof (Hc _ _ _ _ _ _ Hg F) as Hok. specialize (Hok ltac:(lia)).
  unfold F in Hok. rewrite parse_referenceable_S in Hok.
  rewrite referenceable_not_class in Hok; [|hd|apply classes_err_head; hd].
  set (F' := S (f + (2 * length i + 2))) in *.
  assert (f <= F') as Hf by lia.
  destruct (sle_array_single_object (parse_classes f) (parse_classes F') (parse_referenceable f)
      (parse_referenceable F') (fun s i => sle_classes _ _ s i Hf) (fun s i => sle_referenceable _ _ s i Hf)
      (st e) i) as [Hd|Hd]; [by rewrite H in Hd|].
  rewrite H in Hd.
  unfold parse_arrays in Hok. rewrite parse_binary_library_none in Hok by (apply no_library_head; hd).
  cbn [sbind] in Hok. rewrite <- Hd in Hok. cbn [alt_mut] in Hok.
  unfold parse_array_single_primitive, parse_array_single_string, parse_binary_array in Hok.
  destruct (array_single_primitive_err i) as [e2' He2]; [hd|]. rewrite He2 in Hok. cbn [bind alt_mut] in Hok.
  destruct (array_single_string_err i) as [e3 He3]; [hd|]. rewrite He3 in Hok. cbn [bind alt_mut] in Hok.
  destruct (binary_array_err i) as [e4 He4]; [hd|]. rewrite He4 in Hok. cbn [bind alt_mut] in Hok.
  destruct (binary_object_string_err i) as [e5 He5]; [hd|]. rewrite He5 in Hok.
  unfold smap, alt_mut_end in Hok. cbn [fst snd rmap bind alt_mut sbind] in Hok. done.
Qed.

Theorem message_clean_or_retried W m :
  deserialize W = POk m -> g_message W m \/ retried W m.
Proof.
  intros H. apply message_iff in H.
  destruct H as [root hb i e1 i1 e1' e2 v Hh Ho1 Ha Ho2 Hv
                |root hb i e1 i1 m e2 i2 e3 Hh Ho1 Hm Ho3].
  - destruct Ha as (f & err & Ha).
    destruct (abandoned_untraced f (st e1) i1 (st e1') err eq_refl Ha) as [Ht|He].
    + right. exists root, hb, i, e1, i1, e1', e2. split; [done|]. split; [done|]. split; [done|].
      assert (forall id v e' i', ~ g_record e1 i1 id v e' i') as Hno.
      { intros id v' e' i' Hr. eapply abandoned_same; [|exact Hr]. by exists f, err. }
      split; [done|]. split.
      { intros ->. inversion Ho2; subst; [|by eapply Hno].
        revert Ht. apply (bool_decide_unpack _). vm_compute. exact I. }
      split; [done|]. left. eauto.
    + left. assert (e1' = e1) as -> by (rewrite <- (env_of_st e1), <- He; by rewrite env_of_st).
      inversion Ho2 as [|e0 i0 id v' e3 i3 e4 i4 Hr Hrest]; subst.
      * econstructor; done.
      * exfalso. eapply abandoned_same; [|exact Hr]. by exists f, err.
  - destruct Hm as [flags name type ctx inline bs j ca args e' i' Hb Hca Hargs
                |flags ret ctx inline bs j ca args e' i' Hb Hca Hargs];
      destruct Hca as [ca e' i' Hca|e' Hh10 Hab].
    + left. eapply G_msg_method; [done|done| |done]. econstructor; done.
    + right. exists root, hb, i, e1, j, e', e3. split; [done|]. split; [done|].
      split; [unfold traced_heads; hd|].
      assert (forall id v e' i', ~ g_record e1 j id v e' i') as Hno.
      { intros id v' e2' i' Hr. by eapply abandoned_array_record. }
      split; [done|]. split.
      { intros ->. inversion Ho3; subst; [|by eapply Hno].
        revert Hh10. apply (bool_decide_unpack _). vm_compute. exact I. }
      split; [done|]. right. split; [done|]. exists e1, (bs ++ j), bs. split; [done|]. split; [done|].
      split; [done|]. left. unfold args_rule in Hargs. exists flags, name, type, ctx, args.
      destruct (Z.testbit flags bit_ArgsIsArray); [by destruct Hargs as (? & ? & _)|].
      destruct (Z.testbit flags bit_ArgsInArray); [by destruct Hargs as (? & ? & ? & _)|].
      by subst.
    + left. eapply G_msg_method; [done|done| |done]. eapply G_return; done.
    + right. exists root, hb, i, e1, j, e', e3. split; [done|]. split; [done|].
      split; [unfold traced_heads; hd|].
      assert (forall id v e' i', ~ g_record e1 j id v e' i') as Hno.
      { intros id v' e2' i' Hr. by eapply abandoned_array_record. }
      split; [done|]. split.
      { intros ->. inversion Ho3; subst; [|by eapply Hno].
        revert Hh10. apply (bool_decide_unpack _). vm_compute. exact I. }
      split; [done|]. right. split; [done|]. exists e1, (bs ++ j), bs. split; [done|]. split; [done|].
      split; [done|]. right. unfold args_rule in Hargs. exists flags, ret, ctx, args.
      destruct (Z.testbit flags bit_ArgsIsArray); [by destruct Hargs as (? & ? & _)|].
      destruct (Z.testbit flags bit_ArgsInArray); [by destruct Hargs as (? & ? & ? & _)|].
      by subst.
Qed.

End with_decimal.
