(** * Panics: every panic is reached through well-formed bytes. *)
From Verif Require Import Base Utf8 Value DataTypes Records Parser Wire BaseLemmas DataTypesLemmas
  RecordsLemmas MethodLemmas SafetyLemmas Safety Grammar Heads Complete Sound Fuel Message Run Spec
  LemmasA LemmasB LemmasC Positions Reach LemmasD Trees TreeLemmas PropsA PropsB PropsC PropsD Calm Ragged.
From Coq Require Import Lia.

Section with_decimal.
Context {DL : DecimalLib}.

(** A position reached by [R] at which a referenced record is expected and a ragged one stands. *)
Definition hits (R : bool -> site -> Prop) : Prop :=
  exists b id e i, R b (Site_next id e i) /\ ragged e i.
Local Notation drain := P_DrainOutOfRange.

Section methods.
Context (PC : state -> bytes -> sres (N * obj value)).
Context (PR : state -> bytes -> sres N).
Hypothesis MPC : forall s i, mono s (PC s i).1.
Hypothesis MPR : forall s i, mono s (PR s i).1.
Hypothesis SPC : forall s i s' i' id o, st_classes s = ∅ ->
  PC s i = (s', Ok i' (id, o)) -> g_class (env_of s) i id o (env_of s') i'.
Hypothesis SPR : forall s i s' i' id, st_classes s = ∅ ->
  PR s i = (s', Ok i' id) ->
  exists v e', g_record (env_of s) i id v e' i' /\ env_of s' = add_obj id v e'.
Hypothesis NPC : forall s i, no_library i -> ~ head_in [x01; x02; x03; x04; x05] i ->
  (PC s i).1 = s /\ forall i' a, (PC s i).2 <> Ok i' a.
Hypothesis HPC : forall s i s', st_classes s = ∅ -> PC s i = (s', Panic drain) ->
  class_start i /\ hits (fun b x => reach_class b (env_of s) i x).
Hypothesis HPR : forall s i s', st_classes s = ∅ -> PR s i = (s', Panic drain) ->
  ragged (env_of s) i \/ hits (fun b x => reach_record b (env_of s) i x).

Lemma hits_map (R R' : bool -> site -> Prop) :
  (forall b x, R b x -> exists b', R' b' x) -> hits R -> hits R'.
Proof. intros H (b & id & e & i & Hr & Hg). destruct (H _ _ Hr) as [b' Hr']. by exists b', id, e, i. Qed.

Lemma lib_panic s i s' : parse_binary_library s i <> (s', Panic drain).
Proof.
  unfold parse_binary_library. pose proof (binary_library_safe i) as Hs.
  destruct (binary_library i) as [i1 [lid name]|e|e|p|]; cbn [opt]; try done. by case_bool_decide.
Qed.
Lemma pure_panic {A} (s s' : state) i (r : res A) : rsafe i r -> (s, r) <> (s', Panic drain).
Proof. intros Hs H. injection H as _ ->. exact Hs. Qed.
Lemma untyped_body_panic s i s' : st_classes s = ∅ -> member_untyped_body PC s i = (s', Panic drain) ->
  class_start i /\ hits (fun b x => reach_class b (env_of s) i x).
Proof.
  intros Hc. unfold member_untyped_body.
  assert (rsafe i (alt (rmap VR_Value (member_primitive_typed i))
    (alt (parse_ref_member i) (alt (parse_string_member i) (parse_null_object i))))) as Hs.
  { apply gsafe_alt; [apply gsafe_map, member_primitive_typed_safe|]. apply gsafe_alt; [apply parse_ref_member_safe|].
    apply gsafe_alt; [apply parse_string_member_safe|apply parse_null_object_safe]. }
  destruct (alt _ _) as [i2 a|e|e|p|]; try done.
  intros H. unfold smap in H. destruct (PC s i) as [s1 [i1 a|e1|e1|p|]] eqn:E; cbn [fst snd rmap bind] in H; try done.
  injection H as -> ->. by eapply HPC.
Qed.
Lemma untyped_panic s i s' : st_classes s = ∅ -> parse_member_untyped PC s i = (s', Panic drain) ->
  hits (fun b x => reach_member b K_Any (env_of s) i x).
Proof.
  intros Hc H. unfold parse_member_untyped in H.
  destruct (parse_binary_library s i) as [s1 [i1 []|e|e|p|]] eqn:El; cbn [sbind] in H; try done.
  2:{ injection H as -> ->. by apply lib_panic in El. }
  apply parse_binary_library_sound in El as [El Ecl]. rewrite Hc in Ecl.
  apply untyped_body_panic in H as [Hst H]; [|done]. revert H. apply hits_map. intros b x Hx. exists b. by eapply RM_inline.
Qed.
Lemma class_or_null_panic ok s i s' : st_classes s = ∅ -> class_or_null PC ok s i = (s', Panic drain) ->
  class_start i /\ hits (fun b x => reach_class b (env_of s) i x).
Proof.
  intros Hc. unfold class_or_null. pose proof (parse_null_object_safe i) as Hs.
  destruct (PC s i) as [s1 [i1 [id o]|e|e|p|]] eqn:E; try done.
  - by destruct (ok o).
  - intros H. by apply (pure_panic _ _ i) in H.
  - intros H. by apply (pure_panic _ _ i) in H.
  - intros H. injection H as -> ->. by eapply HPC.
Qed.
Lemma member_panic k s i s' : st_classes s = ∅ -> parse_member PC k s i = (s', Panic drain) ->
  hits (fun b x => reach_member b k (env_of s) i x).
Proof.
  intros Hs H. destruct k as [|p| | |n|n lid| | |p]; cbn [parse_member] in H.
  1: by eapply untyped_panic.
  all: unfold parse_member_typed in H;
    destruct (parse_binary_library s i) as [s1 [i1 []|e|e|p0|]] eqn:El; cbn [sbind] in H; try done;
    try (injection H as -> ->; by apply lib_panic in El);
    apply parse_binary_library_sound in El as [El Ecl]; rewrite Hs in Ecl;
    cbn [kind_bt kind_ai] in H.
  - apply (pure_panic _ _ i1) in H as []. apply gsafe_map, member_primitive_untyped_safe.
  - apply (pure_panic _ _ i1) in H as []. apply parse_string_member_safe.
  - apply untyped_panic in H; [|done]. revert H. apply hits_map. intros b x Hx. exists b. eapply RM_nested; [by left|done|done].
  - apply class_or_null_panic in H as [Hst H]; [|done]. revert H. apply hits_map. intros b x Hx. exists true. eapply RM_declared; done.
  - cbn [cti_library_id cti_type_name] in H. destruct (st_libs s1 !! lid) as [l|] eqn:Elid; [|done].
    apply class_or_null_panic in H as [Hst H]; [|done]. revert H. apply hits_map. intros b x Hx. exists true.
    eapply RM_declared; [done|done|by exists l|done|done].
  - apply untyped_panic in H; [|done]. revert H. apply hits_map. intros b x Hx. exists b. eapply RM_nested; [by right|done|done].
  - apply (pure_panic _ _ i1) in H as []. apply gsafe_alt; [apply parse_string_member_safe|]. apply gsafe_alt; [apply parse_ref_member_safe|apply parse_null_object_safe].
  - apply (pure_panic _ _ i1) in H as []. apply parse_ref_member_safe.
Qed.
Lemma items_panic ks s i s' : st_classes s = ∅ -> parse_items PC ks s i = (s', Panic drain) ->
  exists ks1 k ks2 its e1 i1, ks = ks1 ++ k :: ks2 /\ g_items ks1 (env_of s) i its e1 i1
    /\ hits (fun b x => reach_member b k e1 i1 x).
Proof.
  revert s i. induction ks as [|k ks IH]; intros s i Hs H; cbn [parse_items] in H; [done|].
  destruct (parse_member PC k s i) as [s1 [i1 m|e|e|p|]] eqn:E1; cbn [sbind] in H; try done.
  - pose proof (member_classes PC MPC _ _ _ _ _ Hs E1) as Hs1.
    apply (member_sound PC SPC NPC) in E1 as (it & -> & Hm); [|done].
    destruct (parse_items PC ks s1 i1) as [s2 [i2 ms'|e|e|p|]] eqn:E2; cbn [sbind] in H; try done.
    injection H as -> ->. destruct (IH _ _ Hs1 E2) as (ks1 & k' & ks2 & its & e1 & i3 & -> & Hi & Hh).
    exists (k :: ks1), k', ks2, (it :: its), e1, i3. split; [done|]. split; [by econstructor|done].
  - injection H as -> ->. exists [], k, ks, [], (env_of s), i. split; [done|]. split; [constructor|]. by eapply member_panic.
Qed.
Lemma scount_panic fuel n k s i s' : st_classes s = ∅ -> scount_loop fuel n (parse_member PC k) s i = (s', Panic drain) ->
  exists its e1 i1, g_items (replicate (length its) k) (env_of s) i its e1 i1 /\ (N.of_nat (length its) < n)%N
    /\ hits (fun b x => reach_member b k e1 i1 x).
Proof.
  revert n s i. induction fuel as [|fuel IH]; intros n s i Hs; cbn [scount_loop]; (destruct (N.eqb_spec n 0) as [|Hn]; [done|]); [done|].
  intros H. destruct (parse_member PC k s i) as [s1 [i1 m|e|e|p|]] eqn:E1; cbn [sbind] in H; try done.
  - pose proof (member_classes PC MPC _ _ _ _ _ Hs E1) as Hs1.
    apply (member_sound PC SPC NPC) in E1 as (it & -> & Hm); [|done].
    destruct (scount_loop fuel _ _ s1 i1) as [s2 [i2 ms'|e|e|p|]] eqn:E2; cbn [sbind] in H; try done.
    injection H as -> ->. destruct (IH _ _ _ Hs1 E2) as (its & e1 & i3 & Hi & Hlen & Hh).
    exists (it :: its), e1, i3. split; [cbn [length replicate]; by econstructor|]. split; [cbn [length]; lia|done].
  - injection H as -> ->. exists [], (env_of s), i. split; [constructor|]. split; [cbn [length]; lia|]. by eapply member_panic.
Qed.
Lemma array_loop_panic k fuel len cur s i s' : st_classes s = ∅ ->
  array_loop (parse_member PC k) fuel len cur s i = (s', Panic drain) ->
  exists its e1 i1, g_items (replicate (length its) k) (env_of s) i its e1 i1 /\ (cur + items_size its < len)%N
    /\ hits (fun b x => reach_member b k e1 i1 x).
Proof.
  revert cur s i. induction fuel as [|fuel IH]; intros cur s i Hs; cbn [array_loop]; (destruct (N.leb_spec len cur) as [|Hn]; [done|]); [done|].
  intros H. destruct (parse_member PC k s i) as [s1 [i1 m|e|e|p|]] eqn:E1; cbn [sbind] in H; try done.
  - pose proof (member_classes PC MPC _ _ _ _ _ Hs E1) as Hs1.
    apply (member_sound PC SPC NPC) in E1 as (it & -> & Hm); [|done].
    destruct (array_loop _ fuel _ _ s1 i1) as [s2 [i2 ms'|e|e|p|]] eqn:E2; cbn [sbind] in H; try done.
    injection H as -> ->. destruct (IH _ _ _ Hs1 E2) as (its & e1 & i3 & Hi & Hlen & Hh).
    exists (it :: its), e1, i3. split; [cbn [length replicate]; by econstructor|].
    rewrite member_size_vr in Hlen. split; [cbn [items_size]; lia|done].
  - injection H as -> ->. exists [], (env_of s), i. split; [constructor|]. split; [cbn [items_size]; lia|]. by eapply member_panic.
Qed.
Lemma resolve_panic its s i s' : st_classes s = ∅ -> resolve_members PR (map vr_of its) s i = (s', Panic drain) ->
  exists its1 id its2 vs e1 i1, its = its1 ++ It_Ref id :: its2 /\ g_resolve its1 (env_of s) i vs e1 i1
    /\ e_objs e1 !! id = None /\ hits (fun b x => reach_next b id e1 i1 x).
Proof.
  revert s i. induction its as [|it its IH]; intros s i Hs H; cbn [map resolve_members] in H; [done|].
  destruct it as [v|n|id]; cbn [vr_of] in H.
  - destruct (resolve_members _ _ s i) as [s1 [i1 vs1|e|e|p|]] eqn:E; cbn [sbind] in H; try done.
    injection H as -> ->. destruct (IH _ _ Hs E) as (its1 & id & its2 & vs & e1 & i1 & -> & Hr & Hn & Hh).
    exists (It_Value v :: its1), id, its2, (v :: vs), e1, i1. split; [done|]. split; [by constructor|]. done.
  - destruct (resolve_members _ _ s i) as [s1 [i1 vs1|e|e|p|]] eqn:E; cbn [sbind] in H; try done.
    injection H as -> ->. destruct (IH _ _ Hs E) as (its1 & id & its2 & vs & e1 & i1 & -> & Hr & Hn & Hh).
    eexists (It_Nulls n :: its1), id, its2, (replicate (N.to_nat n) VNull ++ vs), e1, i1. split; [done|]. split; [by constructor|]. done.
  - destruct (st_objects s !! id) as [v|] eqn:Eid.
    + destruct (resolve_members _ _ _ i) as [s1 [i1 vs1|e|e|p|]] eqn:E; cbn [sbind] in H; try done.
      injection H as -> ->. apply IH in E as (its1 & id' & its2 & vs & e1 & i1 & -> & Hr & Hn & Hh); [|done].
      exists (It_Ref id :: its1), id', its2, (v :: vs), e1, i1. split; [done|]. split; [by apply G_res_known|]. done.
    + unfold verify_referenceable in H. pose proof (MPR s i) as Hmono.
      destruct (PR s i) as [s1 [i1 id2|e|e|p|]] eqn:E; cbn [sbind] in H; try done.
      * destruct (N.eqb_spec id2 id) as [->|]; cbn [sbind] in H; [|done].
        apply SPR in E as (v & e' & Hr & He); [|done].
        destruct Hmono as [Hmono _]. cbn [fst] in Hmono. rewrite Hs in Hmono.
        assert (st_objects s1 = e_objs (add_obj id v e')) as Ho by (by rewrite <- He).
        assert (st_libs s1 = e_libs e') as Hl.
        { change (st_libs s1) with (e_libs (env_of s1)). by rewrite He. }
        rewrite Ho in H. cbn [add_obj e_objs] in H. rewrite lookup_insert in H.
        destruct (resolve_members _ _ _ i1) as [s2 [i2 vs1|e|e|p|]] eqn:E2; cbn [sbind] in H; try done.
        injection H as -> ->. apply IH in E2 as (its1 & id' & its2 & vs & e1 & i3 & -> & Hr' & Hn & Hh); [|done].
        exists (It_Ref id :: its1), id', its2, (v :: vs), e1, i3. split; [done|]. split; [|done].
        eapply G_res_next; [done|done|].
        rewrite delete_insert_delete in Hr'.
        replace (del_obj id e') with (env_of (set_objects s1 (delete id (e_objs e')))); [done|].
        unfold del_obj, env_of, set_objects. cbn. by rewrite Hl.
      * injection H as -> ->. exists [], id, its, [], (env_of s), i. split; [done|]. split; [constructor|]. split; [done|].
        apply HPR in E as [Hg|Hg]; [| |done].
        { exists false, id, (env_of s), i. split; [constructor|done]. }
        revert Hg. apply hits_map. intros b x Hx. exists b. by apply RN_record.
Qed.
Lemma class_body_panic err h bs s i s' : e_class_header h bs -> st_classes s = ∅ ->
  parse_class_body PC PR err (ch_object_id h) (class_rec_of h) s i = (s', Panic drain) ->
  exists lib, class_library (env_of s) h lib
    /\ ((exists ks1 k ks2 its e1 i1, member_kinds h = ks1 ++ k :: ks2 /\ g_items ks1 (env_of s) i its e1 i1
          /\ hits (fun b x => reach_member b k e1 i1 x))
        \/ exists its1 id its2 e1 i1 vs e2 i2, g_items (member_kinds h) (env_of s) i (its1 ++ It_Ref id :: its2) e1 i1
          /\ g_resolve its1 e1 i1 vs e2 i2 /\ e_objs e2 !! id = None /\ hits (fun b x => reach_next b id e2 i2 x)).
Proof.
  intros Hh Hs. unfold parse_class_body. rewrite Hs, lookup_empty.
  rewrite bool_decide_eq_false_2 by (intros [? [=]]).
  rewrite cr_class_info_of. cbn [ci_of ci_member_names ci_name]. intros H.
  match type of H with sbind ?r _ = _ =>
    set (R := r) in H; assert ((forall s1 i1 lm, R = (s1, Ok i1 lm) ->
      class_library (env_of s) h lm.1 /\ parse_items PC (member_kinds h) s i = (s1, Ok i1 lm.2))
      /\ (forall s1, R = (s1, Panic drain) -> exists lib, class_library (env_of s) h lib
         /\ exists ks1 k ks2 its e1 i1, member_kinds h = ks1 ++ k :: ks2 /\ g_items ks1 (env_of s) i its e1 i1
          /\ hits (fun b x => reach_member b k e1 i1 x))) as [HR HP]
  end.
  { unfold R. unfold class_library, member_kinds, class_rec_of in *.
    assert (forall ks, ch_types h = Some ks -> forall s i,
      parse_members_with_type_info PC (mti_of ks) s i = parse_items PC ks s i) as Hty.
    { intros ks Hks s0 j. unfold parse_members_with_type_info, mti_of.
      cbn [mti_binary_type_enums mti_additional_infos].
      apply parse_members_typed_items. by eapply class_header_kinds. }
    assert (forall s1 i1 A (f : list value_or_ref -> A) (r : sres (list value_or_ref)) x,
      smap f r = (s1, Ok i1 x) -> exists l, r = (s1, Ok i1 l) /\ x = f l) as Hsm.
    { intros s1 i1 A f [s0 [j l|e|e|p|]] x Hx; unfold smap in Hx; cbn in Hx; try done. inv Hx. eauto. }
    assert (forall s1 p A (f : list value_or_ref -> A) (r : sres (list value_or_ref)),
      smap f r = (s1, Panic p) -> r = (s1, Panic p)) as Hsp.
    { intros s1 p A f [s0 [j l|e|e|q|]] Hx; unfold smap in Hx; cbn in Hx; try done. congruence. }
    assert (forall n s1, scount (N.of_nat n) (parse_member_untyped PC) s i = (s1, Panic drain) ->
      exists ks1 k ks2 its e1 i1, replicate n K_Any = ks1 ++ k :: ks2 /\ g_items ks1 (env_of s) i its e1 i1
          /\ hits (fun b x => reach_member b k e1 i1 x)) as Hun.
    { intros n s1 E. apply (scount_panic _ _ K_Any) in E as (its & e1 & i1 & Hi & Hlen & Hh'); [|done].
      exists (replicate (length its) K_Any), K_Any, (replicate (n - S (length its)) K_Any), its, e1, i1.
      split; [|done]. replace n with (length its + S (n - S (length its))) at 1 by lia. by rewrite replicate_add. }
    destruct (ch_types h) as [ks|] eqn:Ets, (ch_library h) as [lid|]; cbn [env_of e_libs].
    - destruct (st_libs s !! lid) as [l|]; [|done]. rewrite Hty by done. split.
      + intros s1 i1 lm ER. apply Hsm in ER as (ms & ER & ->). split; [eauto|done].
      + intros s1 ER. apply Hsp, items_panic in ER; [|done]. exists (Some l). split; [eauto|done].
    - rewrite Hty by done. split.
      + intros s1 i1 lm ER. apply Hsm in ER as (ms & ER & ->). done.
      + intros s1 ER. apply Hsp, items_panic in ER; [|done]. exists None. done.
    - destruct (st_libs s !! lid) as [l|]; [|done]. split.
      + intros s1 i1 lm ER. apply Hsm in ER as (ms & ER & ->). split; [eauto|]. apply (scount_ok _ _ _ K_Any) in ER.
        by rewrite Nat2N.id in ER.
      + intros s1 ER. apply Hsp, Hun in ER. exists (Some l). split; [eauto|done].
    - split.
      + intros s1 i1 lm ER. apply Hsm in ER as (ms & ER & ->). split; [done|]. apply (scount_ok _ _ _ K_Any) in ER.
        by rewrite Nat2N.id in ER.
      + intros s1 ER. apply Hsp, Hun in ER. exists None. done. }
  destruct R as [s1 [i1 lm|e|e|p|]]; cbn [sbind] in H; try done.
  - destruct (HR _ _ _ eq_refl) as [Hlib Hit]. exists lm.1. split; [done|]. right.
    apply (items_sound PC MPC SPC NPC) in Hit as (Hs1 & its & Hms & Hits); [|done]. rewrite Hms in H.
    destruct (resolve_members PR (map vr_of its) s1 i1) as [s2 [i2 vs|e|e|p|]] eqn:Er;
      cbn [sbind] in H; try done. injection H as -> ->.
    apply resolve_panic in Er as (its1 & id & its2 & vs & e1 & i2 & -> & Hr & Hn & Hh'); [|done].
    by exists its1, id, its2, (env_of s1), i1, vs, e1, i2.
  - injection H as -> ->. destruct (HP _ eq_refl) as (lib & Hlib & H). exists lib. split; [done|]. by left.
Qed.
Lemma classes_body_panic s i s' : st_classes s = ∅ -> parse_classes_body PC PR s i = (s', Panic drain) ->
  hits (fun b x => reach_class b (env_of s) i x).
Proof.
  intros Hs H. unfold parse_classes_body in H.
  destruct (parse_binary_library s i) as [s1 [i1 []|e|e|p|]] eqn:El; cbn [sbind] in H; try done.
  2:{ injection H as -> ->. by apply lib_panic in El. }
  apply parse_binary_library_sound in El as [El Ecl]. rewrite Hs in Ecl.
  pose proof (class_with_id_safe i1) as Hs1. pose proof (class_records_safe i1) as Hs2.
  destruct (class_with_id i1) as [i2 [oid mid]|e|e|p|]; try done.
  - by rewrite Ecl, lookup_empty in H.
  - destruct (class_records i1) as [i2 c|e'|e'|p|] eqn:Ec; try done.
    apply class_records_exact in Ec as (bs & (h & -> & Hh) & ->).
    rewrite cr_class_info_of in H. cbn [ci_of ci_object_id] in H.
    eapply class_body_panic in H as (lib & Hlib & [(ks1 & k & ks2 & its & e1 & i3 & Hk & Hi & H)|
      (its1 & id & its2 & e1 & i3 & vs & e2 & i4 & Hi & Hr & Hn & H)]); [| |done|done]; revert H; apply hits_map; intros b x Hx; exists b.
    + eapply RC_member; done.
    + eapply RC_resolve; done.
Qed.
Lemma array_tail_panic code k fuel len id bs s i s' :
  (code = x10 /\ k = K_Any) \/ (code = x11 /\ k = K_StringArray) ->
  e_array_header code id len bs -> st_classes s = ∅ ->
  (let! (s, input, ms) := array_loop (parse_member PC k) fuel len 0 s i in
   let! (s, input, vs) := resolve_members PR ms s input in
   (s, Ok input (id, vs))) = (s', @Panic bytes error (N * list value) drain) ->
  hits (fun b x => reach_record b (env_of s) (bs ++ i) x).
Proof.
  intros Hck Hb Hs H.
  destruct (array_loop (parse_member PC k) fuel len 0 s i) as [s1 [i1 ms|e|e|p|]] eqn:E1;
    cbn [sbind] in H; try done.
  - apply (array_loop_sound PC MPC SPC NPC) in E1 as (Hs1 & its & -> & Hits & Hf); [|done].
    rewrite resolve_expand in H.
    destruct (resolve_members PR (map vr_of its) s1 i1) as [s2 [i2 vs|e|e|p|]] eqn:E2;
      cbn [sbind] in H; try done. injection H as -> ->.
    apply resolve_panic in E2 as (its1 & rid & its2 & vs & e1 & i2 & -> & Hr & Hn & Hh'); [|done].
    revert Hh'; apply hits_map; intros b x Hx; exists b. eapply RR_array_resolve; [done|done|done| |done|done|done].
    destruct Hf as [[Hle Hx']|(init & last & Hx' & Hf)].
    + by destruct its1.
    + right. exists init, last. split; [done|]. lia.
  - injection H as -> ->. apply array_loop_panic in E1 as (its & e1 & i1 & Hi & Hlen & H); [|done].
    revert H; apply hits_map; intros b x Hx; exists b. eapply RR_array; [done|done|done|lia|done].
Qed.
Lemma array_single_object_panic s i s' : st_classes s = ∅ -> parse_array_single_object PC PR s i = (s', Panic drain) ->
  head_in [x10] i /\ hits (fun b x => reach_record b (env_of s) i x).
Proof.
  intros Hs H. unfold parse_array_single_object in H. pose proof (array_single_object_safe i) as Hsf.
  destruct (array_single_object i) as [i0 ai|e|e|p|] eqn:E; try done.
  apply array_single_object_exact in E as (bs & Hb & ->). split.
  { destruct Hb as (? & ? & _ & _ & ->). hd. }
  eapply (array_tail_panic x10 K_Any); [by left|exact Hb|done|exact H].
Qed.
Lemma array_single_string_panic s i s' : st_classes s = ∅ -> parse_array_single_string PC PR s i = (s', Panic drain) ->
  hits (fun b x => reach_record b (env_of s) i x).
Proof.
  intros Hs H. unfold parse_array_single_string in H. pose proof (array_single_string_safe i) as Hsf.
  destruct (array_single_string i) as [i0 ai|e|e|p|] eqn:E; try done.
  apply array_single_string_exact in E as (bs & Hb & ->).
  eapply (array_tail_panic x11 K_StringArray); [by right|exact Hb|done|exact H].
Qed.
Lemma binary_array_panic s i s' : st_classes s = ∅ -> parse_binary_array PC PR s i = (s', Panic drain) ->
  ragged (env_of s) i \/ hits (fun b x => reach_record b (env_of s) i x).
Proof.
  intros Hc H. unfold parse_binary_array in H. pose proof (binary_array_safe i) as Hs.
  destruct (binary_array_parse i) as [i1 ba|e|e|p|] eqn:E; try done.
  destruct (checked_product 1 (ba_lengths ba)) as [n|] eqn:Ep; [|done].
  apply binary_array_exact in E as (bs & (k & Hbt & Hai & Hb) & ->).
  apply checked_product_sound in Ep as [-> Hno]; [|done]. rewrite N.mul_1_l in H.
  rewrite Hbt, Hai in H.
  assert (k <> K_Any) as HkA.
  { destruct Hb as (? & ? & ? & ? & ? & _ & _ & _ & Hk & _). by apply e_kind_code_iff in Hk as [Hk _]. }
  assert (no_overflow (ba_lengths ba)) as Hno'.
  { intros j Hj. specialize (Hno j Hj). by rewrite N.mul_1_l in Hno. }
  rewrite <- parse_member_typed_eq in H by exact HkA.
  destruct (scount _ _ s i1) as [s2 [i3 ms|e|e|p|]] eqn:E2; cbn [sbind] in H; try done.
  2:{ injection H as -> ->. right. apply scount_panic in E2 as (its & e1 & i2 & Hi & Hlen & H); [|done].
      revert H; apply hits_map; intros b x Hx; exists b. eapply RR_binary; done. }
  unfold scount in E2; apply scount_ok, (items_sound PC MPC SPC NPC) in E2 as (Hs2 & its & -> & Hits); [|exact Hc].
  destruct (resolve_members PR _ s2 i3) as [s3 [i4 vs|e|e|p|]] eqn:E3; cbn [sbind] in H; try done.
  2:{ injection H as -> ->. right. apply resolve_panic in E3 as (its1 & rid & its2 & vs & e1 & i2 & -> & Hr & Hn & Hh'); [|done].
      revert Hh'; apply hits_map; intros b x Hx; exists b. eapply RR_binary_resolve; done. }
  apply (resolve_sound PR MPR SPR) in E3 as [Hs3 Hr]; [|exact Hs2].
  left.
  assert (vs <> [] -> Forall (fun l => l <> 0%N) (rev (tail (ba_lengths ba)))) as Hpos.
  { intros Hne. pose proof (items_resolved_nonempty _ _ _ _ _ _ Hr Hne) as Hine.
    pose proof (g_items_length _ _ _ _ _ _ Hits) as [_ Hkl]. rewrite replicate_length in Hkl.
    assert (product (ba_lengths ba) <> 0%N) as Hp.
    { intros E0. rewrite E0 in Hkl. by destruct its. }
    apply fold_mul_nonzero in Hp. apply Forall_rev. destruct (ba_lengths ba); [done|]. by inv Hp. }
  pose proof (chunk_dims_length (rev (tail (ba_lengths ba))) vs i4 Hpos) as Hlen.
  replace (drop 1 (ba_lengths ba)) with (tail (ba_lengths ba)) in * by (by destruct (ba_lengths ba)).
  destruct (chunk_dims _ vs i4) as [i5 out|e|e|p|]; cbn [bind] in H; try done.
  destruct Hlen as [_ Hlen]. rewrite product_rev in Hlen.
  exists (ba_object_id ba), (ba_array_type ba), (ba_lengths ba), (ba_lower_bounds ba), k, bs, i1, its, (env_of s2), i3, vs, (env_of s3), i4.
  split; [done|]. split; [exact Hb|]. split; [done|].
  split; [exact Hits|]. split; [exact Hr|]. intros n En. apply (Hlen (N.to_nat n)).
  apply (f_equal N.to_nat) in En. rewrite Nat2N.id, N2Nat.inj_mul in En. lia.
Qed.
End methods.

Lemma panic_found f :
  (forall s i s', st_classes s = ∅ -> parse_classes f s i = (s', Panic drain) ->
     class_start i /\ hits (fun b x => reach_class b (env_of s) i x))
  /\ (forall s i s', st_classes s = ∅ -> parse_referenceable f s i = (s', Panic drain) ->
     ragged (env_of s) i \/ hits (fun b x => reach_record b (env_of s) i x)).
Proof.
  induction f as [|f [IH1 IH2]]; [done|].
  assert (forall s i s', st_classes s = ∅ -> parse_classes (S f) s i = (s', Panic drain) ->
     class_start i /\ hits (fun b x => reach_class b (env_of s) i x)) as HC.
  { intros s i s' Hc H. split.
    - destruct (decide (head_in [x01; x02; x03; x04; x05; x0c] i)) as [Hh|Hh]; [by destruct i|].
      exfalso. rewrite parse_classes_S in H.
      destruct (parse_classes_body_err (parse_classes f) (parse_referenceable f) s i) as [err Herr]; [apply no_library_head; nohead|nohead|congruence].
    - rewrite parse_classes_S in H. eapply classes_body_panic in H; eauto using mono_classes, mono_referenceable, parse_classes_nothing;
        apply g_sound. }
  split; [exact HC|].
  intros s i s' Hc H.
  destruct f as [|f]; [done|].
  destruct (parse_classes (S f) s i) as [s1 [i1 a|e|e|p|]] eqn:Ec.
  - rewrite parse_referenceable_S in H. unfold parse_referenceable_body in H. rewrite Ec in H. done.
  - destruct (binary_library i) as [rest [lid name]|e'|e'|p|] eqn:El.
    + pose proof (parse_classes_library _ _ _ _ _ _ _ _ Ec El) as Hd.
      rewrite parse_referenceable_S in H. unfold parse_referenceable_body in H. rewrite Ec in H.
      unfold smap in H. cbn [fst snd rmap bind alt_mut] in H.
      unfold parse_arrays, parse_binary_library in H. rewrite El in H. cbn [opt] in H.
      rewrite bool_decide_eq_true_2 in H by done. done.
    + assert (no_library i) as Hl by (apply no_library_iff; eauto).
      destruct (decide (head_in [x01; x02; x03; x04; x05] i)) as [Hh2|Hh2].
      { rewrite (ref_class_err _ _ _ _ _ Ec) in H by done. done. }
      destruct (decide (head_in [x10] i)) as [Hh|Hn10].
      { rewrite ref_object_array in H by done. right.
        destruct (parse_array_single_object _ _ s i) as [s2 [? ?|?|?|p|]] eqn:Ea; cbn [ref_finish] in H; try done. injection H as -> ->.
        eapply array_single_object_panic in Ea as [_ Ea]; eauto using mono_classes, mono_referenceable, parse_classes_nothing;
        apply g_sound. }
      destruct (decide (head_in [x11] i)) as [Hh|Hn11].
      { rewrite ref_string_array in H by done. right.
        destruct (parse_array_single_string _ _ s i) as [s2 [? ?|?|?|p|]] eqn:Ea; cbn [ref_finish] in H; try done. injection H as -> ->.
        eapply array_single_string_panic in Ea; eauto using mono_classes, mono_referenceable, parse_classes_nothing;
        apply g_sound. }
      destruct (decide (head_in [x07] i)) as [Hh|Hn07].
      { rewrite ref_binary_array in H by done.
        destruct (parse_binary_array _ _ s i) as [s2 [? ?|?|?|p|]] eqn:Ea; cbn [ref_finish] in H; try done. injection H as -> ->.
        eapply binary_array_panic in Ea; eauto using mono_classes, mono_referenceable, parse_classes_nothing;
        apply g_sound. }
      exfalso. destruct (parse_classes_nothing (S f) s i Hl Hh2) as [H3 _]. rewrite Ec in H3. cbn in H3. subst s1.
      assert ((parse_arrays (parse_classes (S f)) (parse_referenceable (S f)) s i).2 <> Panic drain) as Ha.
      { unfold parse_arrays. rewrite parse_binary_library_none by done. cbn [sbind].
        unfold parse_array_single_object, parse_array_single_primitive, parse_array_single_string, parse_binary_array.
        destruct (array_single_object_err i Hn10) as [e1 ->]. cbn [alt_mut].
        destruct (array_single_string_err i Hn11) as [e3 ->].
        destruct (binary_array_err i Hn07) as [e4 ->].
        assert (rsafe i (let? (input, a) := array_single_primitive i in
          let? (input, vs) := count (ai_length a.1) (fun i => member_primitive_untyped i a.2) input in
          Ok input (ai_object_id a.1, vs))) as Hsf.
        { apply gsafe_bind; [apply array_single_primitive_safe|]. intros i1 [ai p].
          apply gsafe_bind; [apply count_safe; [intros; apply member_primitive_untyped_safe|apply member_primitive_untyped_strict]|].
          intros i2 vs. cbn. done. }
        match type of Hsf with context [bind ?a ?b] => destruct (bind a b) as [? ?|?|?|p|] end; cbn [alt_mut alt_mut_end snd]; try done. }
      rewrite parse_referenceable_S in H. unfold parse_referenceable_body in H. rewrite Ec in H.
      unfold smap in H. cbn [fst snd rmap bind alt_mut] in H.
      pose proof (binary_object_string_safe i) as Hbs.
      destruct (parse_arrays _ _ s i) as [s2 [? ?|?|?|?|]]; cbn [fst snd rmap bind alt_mut sbind] in *; try done.
      * destruct (binary_object_string i) as [? ?|?|?|?|]; cbn [rmap bind alt_mut sbind alt_mut_end] in H; done.
      * injection H as _ ->. done.
    + exfalso. rewrite parse_classes_S in Ec. unfold parse_classes_body, parse_binary_library in Ec. by rewrite El in Ec.
    + pose proof (binary_library_safe i) as Hs. by rewrite El in Hs.
    + pose proof (binary_library_safe i) as Hs. by rewrite El in Hs.
  - rewrite (ref_class_fail _ _ _ _ _ Ec) in H. done.
  - rewrite (ref_class_panic _ _ _ _ _ Ec) in H. injection H as -> ->. right.
    apply IH1 in Ec as [Hst Hh]; [|done]. revert Hh. apply hits_map. intros b x Hx. exists b. by apply RR_class.
  - rewrite parse_referenceable_S in H. unfold parse_referenceable_body in H. rewrite Ec in H. done.
Qed.

(** ** Messages *)

(** Specification.  [calamity e i]: the record at [i] is a ragged BinaryArray, or it is well-formed up
    to a reference to an object that is not in the tables and is followed by one. *)
Definition calamity (e : env) (i : bytes) : Prop :=
  ragged e i \/ hits (fun b x => reach_record b e i x).
(** [tried W e i]: while reading [W] the parser expects a record at [i], with the tables [e]. *)
Inductive tried (W : bytes) : env -> bytes -> Prop :=
| Tried_first root hb i e1 i1 :
    W = hb ++ i -> e_header root hb -> g_objects empty_env i e1 i1 -> tried W e1 i1
| Tried_again root hb i e1 i1 e1' e2 i2 :
    W = hb ++ i -> e_header root hb -> g_objects empty_env i e1 i1 ->
    abandoned e1 i1 e1' -> ~ head_in [x15; x16] i1 -> g_objects e1' i1 e2 i2 -> tried W e2 i2
| Tried_call_array root hb i e1 bs i1 e2 i2 :
    W = hb ++ i -> e_header root hb -> g_objects empty_env i e1 (bs ++ i1) ->
    (exists flags name type ctx inline, e_method_call flags name type ctx inline bs)
    \/ (exists flags ret ctx inline, e_method_return flags ret ctx inline bs) ->
    g_lib e1 i1 e2 i2 -> head_in [x10] i2 -> tried W e2 i2
| Tried_after_method root hb i e1 i1 m e2 i2 e3 i3 :
    W = hb ++ i -> e_header root hb -> g_objects empty_env i e1 i1 ->
    method_step root e1 i1 m e2 i2 -> g_objects e2 i2 e3 i3 -> tried W e3 i3.

Lemma referenceables_panic lf f s i s' : st_classes s = ∅ -> parse_referenceables lf f s i = (s', Panic drain) ->
  exists e j, g_objects (env_of s) i e j /\ calamity e j.
Proof.
  revert s i. induction lf as [|lf IH]; intros s i Hs H; [done|]. cbn [parse_referenceables] in H.
  destruct (parse_referenceable f s i) as [s1 [i1 id|e|e|p|]] eqn:E; try done.
  - pose proof (classes_referenceable _ _ _ _ _ Hs E) as Hs1.
    destruct (g_sound f) as [_ Hg]. apply Hg in E as (v & e' & Hr & He); [|done].
    apply IH in H as (e2 & j & Ho & Hc); [|done]. rewrite He in Ho. exists e2, j. split; [by econstructor|done].
  - injection H as -> ->. apply panic_found in E; [|done]. exists (env_of s), i. split; [constructor|exact E].
Qed.
Lemma call_array_panic f root s i s' : st_classes s = ∅ -> sopt i (parse_call_array f root s i) = (s', Panic drain) ->
  exists e2 i2, g_lib (env_of s) i e2 i2 /\ head_in [x10] i2 /\ calamity e2 i2.
Proof.
  intros Hs H. unfold sopt, parse_call_array in H.
  destruct (parse_binary_library s i) as [s1 r1] eqn:El.
  destruct (parse_binary_library_cases _ _ _ _ El) as [[i1 ->]|[e ->]]; cbn [sbind] in H; [|done].
  pose proof (parse_binary_library_sound _ _ _ _ _ El) as [Hl Hc]. rewrite Hs in Hc.
  destruct (parse_array_single_object _ _ s1 i1) as [s2 r2] eqn:Ea.
  destruct r2 as [i2 a|e|e|p|]; cbn [sbind fst snd opt] in H; try done.
  { case_bool_decide; done. }
  injection H as -> ->. exists (env_of s1), i1. split; [done|].
  eapply array_single_object_panic in Ea as [Hh Ha]; [|apply mono_classes|apply mono_referenceable|..|done].
  - split; [done|by right].
  - apply g_sound.
  - apply g_sound.
  - intros. by apply parse_classes_nothing.
  - apply panic_found.
  - apply panic_found.
Qed.
Lemma sopt_panic {A} i (r : sres A) s' p : sopt i r = (s', Panic p) -> r = (s', Panic p).
Proof. unfold sopt. destruct r as [s [? ?|?|?|?|]]; cbn [fst snd opt]; congruence. Qed.
Lemma method_panic f root s i s' : st_classes s = ∅ -> no_library i ->
  parse_method_call_or_return f root s i = (s', Panic drain) ->
  exists bs i1 e2 i2, i = bs ++ i1
    /\ ((exists flags name type ctx inline, e_method_call flags name type ctx inline bs)
        \/ (exists flags ret ctx inline, e_method_return flags ret ctx inline bs))
    /\ g_lib (env_of s) i1 e2 i2 /\ head_in [x10] i2 /\ calamity e2 i2.
Proof.
  intros Hs Hl H. unfold parse_method_call_or_return in H.
  destruct (parse_method_call f root s i) as [s1 [i1 c|e|e|p|]] eqn:E1; unfold smap in H;
    cbn [fst snd rmap bind alt_mut] in H; try done.
  - assert (s1 = s) as ->.
    { unfold parse_method_call in E1. rewrite parse_binary_library_none in E1 by done.
      cbn [sbind] in E1.
      destruct (binary_method_call_parse i) as [i0 c0|e0|e0|p|] eqn:Ec; try done; [|by inv E1].
      exfalso. destruct (sopt i0 (parse_call_array f root s i0)) as [s2 [i2 ca|e1|e1|p|]] eqn:Eca;
        cbn [sbind] in E1; try done.
      - injection E1 as -> E1. destruct (parse_args _ _ _ _) as [? ?|ea|ea|?|] eqn:Ea; cbn [bind] in E1; try done.
        unfold parse_args in Ea. destruct (intersects _ _); [by destruct ca|].
        destruct (intersects _ _); [|done]. by destruct ca as [[|[] ?]|].
      - unfold sopt in Eca. destruct (parse_call_array f root s i0).2; done. }
    destruct (parse_method_return f root s i) as [s1 [i1 c|e1|e1|p|]] eqn:E2;
      cbn [fst snd rmap bind alt_mut] in H; try done.
    injection H as -> ->. unfold parse_method_return in E2. rewrite parse_binary_library_none in E2 by done.
    cbn [sbind] in E2. pose proof (method_return_safe i) as Hsf.
    destruct (binary_method_return_parse i) as [i0 c0|e2|e2|p|] eqn:Ec; try done.
    apply method_return_exact in Ec as (bs & Hb & ->).
    destruct (sopt i0 (parse_call_array f root s i0)) as [s2 [i2 ca|e2|e2|p|]] eqn:Eca;
      cbn [sbind] in E2; try done.
    { injection E2 as -> E2. destruct (parse_args _ _ _ _) as [? ?|ea|ea|q|] eqn:Ea; cbn [bind] in E2; try done.
      pose proof (args_safe' (bmr_message_enum c0) ca (bmr_args c0) i2) as Has. by rewrite Ea in Has. }
    injection E2 as -> ->. apply call_array_panic in Eca as (e2 & i2 & Hg & Hh & Hc); [|done].
    exists bs, i0, e2, i2. split; [done|]. split; [right; eauto|]. done.
  - injection H as -> ->. unfold parse_method_call in E1. rewrite parse_binary_library_none in E1 by done.
    cbn [sbind] in E1. pose proof (method_call_safe i) as Hsf.
    destruct (binary_method_call_parse i) as [i0 c0|e2|e2|p|] eqn:Ec; try done.
    apply method_call_exact in Ec as (bs & Hb & ->).
    destruct (sopt i0 (parse_call_array f root s i0)) as [s2 [i2 ca|e2|e2|p|]] eqn:Eca;
      cbn [sbind] in E1; try done.
    { injection E1 as -> E1. destruct (parse_args _ _ _ _) as [? ?|ea|ea|q|] eqn:Ea; cbn [bind] in E1; try done.
      pose proof (args_safe' (bmc_message_enum c0) ca (bmc_args c0) i2) as Has. by rewrite Ea in Has. }
    injection E1 as -> ->. apply call_array_panic in Eca as (e2 & i2 & Hg & Hh & Hc); [|done].
    exists bs, i0, e2, i2. split; [done|]. split; [left; do 5 eexists; exact Hb|]. done.
Qed.
Lemma known_library_stops f s i rest lid name :
  binary_library i = Ok rest (lid, name) -> is_Some (st_libs s !! lid) ->
  parse_referenceable f s i = (s, Diverge) \/ exists s' err, parse_referenceable f s i = (s', Fail err).
Proof.
  intros Hl Hd. destruct f as [|[|f]]; [by left|by left|]. right.
  rewrite parse_referenceable_S. unfold parse_referenceable_body. rewrite parse_classes_S.
  unfold parse_classes_body, parse_binary_library. rewrite Hl. cbn [opt].
  rewrite bool_decide_eq_true_2 by done. cbn [sbind smap fst snd rmap bind alt_mut]. unfold smap. cbn [fst snd rmap bind alt_mut sbind]. eexists _, _. reflexivity.
Qed.
Lemma message_panic W : deserialize W = PPanic drain -> exists e i, tried W e i /\ calamity e i.
Proof.
  unfold deserialize. generalize (2 * length W + 2). intros f H.
  destruct (parse_remoting_message f init_state W) as [s r] eqn:E. cbn [snd] in H.
  destruct r as [i' m'|e|e|p|]; try done. injection H as ->.
  unfold parse_remoting_message in E. pose proof (header_safe W) as Hsf.
  destruct (serialization_header_parse W) as [i h|e|e|p|] eqn:Eh; try done.
  apply header_sound in Eh as (hb & Hh & ->).
  destruct (parse_referenceables _ f init_state i) as [s1 [i1 []|e|e|p|]] eqn:E1; cbn [sbind] in E; try done.
  2:{ injection E as -> ->. apply referenceables_panic in E1 as (e & j & Ho & Hc); [|done]. exists e, j. split; [|done].
      by eapply Tried_first. }
  apply referenceables_sound in E1 as (s1' & err1 & Hs1' & Ho1 & Ha1); [|done].
  pose proof (abandoned_no_library _ _ _ _ _ Ha1) as Hl1.
  pose proof (classes_referenceable _ _ _ _ _ Hs1' Ha1) as Hs1.
  change (env_of init_state) with empty_env in Ho1.
  assert (head_in [x15; x16] i1 -> s1 = s1') as Hsame.
  { intros Hhd. apply abandoned_untraced in Ha1 as [Ha1|Ha1]; [|done|done].
    exfalso. assert (~ head_in traced_heads i1) by (unfold traced_heads; hd). done. }
  assert (~ head_in [x15; x16] i1 -> exists er, parse_method_call_or_return f (sh_root_id h) s1 i1 = (s1, Err er)) as Hno
    by (intros Hn; by apply no_method_head).
  unfold sopt in E.
  destruct (parse_method_call_or_return f (sh_root_id h) s1 i1) as [s2 r2] eqn:Em.
  destruct r2 as [i2 m2|e|e|p|]; cbn [fst snd opt sbind] in E; try done.
  - assert (head_in [x15; x16] i1) as Hhd.
    { destruct (decide (head_in [x15; x16] i1)) as [|Hn]; [done|]. by destruct (Hno Hn). }
    specialize (Hsame Hhd) as ->.
    apply method_sound in Em as [Hs2 Hm]; [|done|done].
    destruct (parse_referenceables _ f s2 i2) as [s3 [i3 []|e|e|p|]] eqn:E3; cbn [sbind] in E; try done.
    + pose proof (message_end_safe i3) as Hsf2.
      destruct (message_end i3) as [[|? ?] u|e|e|p|] eqn:E4; try done.
    + injection E as -> ->.
      destruct Hm as [Hm|Hm].
      * apply referenceables_panic in E3 as (e & j & Ho & Hc); [|done]. exists e, j. split; [|done]. by eapply Tried_after_method.
      * exfalso. cbn [parse_referenceables] in E3. destruct Hm as [[Hl Hh0]|(rest & lid & name & Hl & Hd)].
        -- destruct f as [|[|f]]; [done..|]. destruct (referenceable_err_head f s2 i2 Hl) as [er Her]; [hd|]. by rewrite Her in E3.
        -- destruct (known_library_stops f _ _ _ _ _ Hl Hd) as [Hx|(s4 & er & Hx)]; rewrite Hx in E3; done.
  - destruct (decide (head_in [x15; x16] i1)) as [Hhd|Hn].
    + exfalso. destruct f as [|[|f]]; [done..|].
      destruct (referenceable_err_head f s2 i1 Hl1) as [er Her]; [hd|].
      cbn [parse_referenceables] in E. rewrite Her in E. cbn [sbind] in E.
      rewrite message_end_error in E by hd. done.
    + destruct (Hno Hn) as [er Her]. injection Her as -> ->.
      destruct (parse_referenceables _ f s1 i1) as [s3 [i3 []|e|e|p|]] eqn:E3; cbn [sbind] in E; try done.
      * pose proof (message_end_safe i3) as Hsf2.
        destruct (message_end i3) as [[|? ?] u|e|e|p|] eqn:E4; try done.
        destruct (sh_root_id h); [|done]. by destruct (st_objects s3 !! _).
      * injection E as -> ->. apply referenceables_panic in E3 as (e & j & Ho & Hc); [|done]. exists e, j. split; [|done].
        eapply Tried_again; [done|done|exact Ho1| |exact Hn|exact Ho]. exists f, err1. by rewrite !st_env_of.
  - injection E as -> ->. assert (head_in [x15; x16] i1) as Hhd.
    { destruct (decide (head_in [x15; x16] i1)) as [|Hn]; [done|]. by destruct (Hno Hn). }
    specialize (Hsame Hhd) as ->.
    apply method_panic in Em as (bs & i2 & e2 & i3 & -> & Hb & Hg & Hh10 & Hc); [|done|done].
    exists e2, i3. split; [|done]. by eapply Tried_call_array.
Qed.

(** The other direction. *)
Lemma calamity_panics e i : calamity e i -> exists s, ev (fun f => parse_referenceable f (st e) i) (s, Panic drain).
Proof.
  intros [H|(b & id & e' & j & Hr & Hg)]; [by apply ragged_panics|].
  destruct (ragged_panics _ _ Hg) as (s & F & Hev).
  destruct reach_stops as (_ & _ & _ & HR).
  destruct (HR _ _ _ _ Hr s (S_Panic drain)) as (s' & y' & Hev' & -> & _).
  - exists F. intros f Hf. unfold verify_referenceable. by rewrite Hev.
  - by exists s'.
Qed.
Lemma referenceables_panics e i e' i' s F lf f :
  g_objects e i e' i' -> (forall f, F <= f -> parse_referenceable f (st e') i' = (s, Panic drain)) ->
  length i < lf -> 2 * length i + 2 <= f -> F <= f -> parse_referenceables lf f (st e) i = (s, Panic drain).
Proof.
  intros Ho Hp Hlf Hf HF. destruct (referenceables_prefix _ _ _ _ Ho lf f Hlf Hf) as (lf' & Hlf' & ->).
  destruct lf' as [|lf']; [lia|]. cbn [parse_referenceables]. by rewrite Hp.
Qed.
Lemma referenceables_err lf f s i s' e : parse_referenceable f s i = (s', Err e) ->
  parse_referenceables (S lf) f s i = (s', Ok i tt).
Proof. intros H. cbn [parse_referenceables]. by rewrite H. Qed.
Lemma tried_panics W e i : tried W e i -> calamity e i -> deserialize W = PPanic drain.
Proof.
  intros Ht Hc. destruct (calamity_panics _ _ Hc) as (sp & F & Hp).
  destruct Ht as [root hb i0 e1 i1 -> Hh Ho|root hb i0 e1 i1 e1' e2 i2 -> Hh Ho (f0 & err & Ha) Hn Ho2
    |root hb i0 e1 bs i1 e2 i2 -> Hh Ho Hb Hl H10|root hb i0 e1 i1 m e2 i2 e3 i3 -> Hh Ho Hm Ho2].
  - eapply run_panic; [done|done|exact (Hp F (le_n F))].
  - set (G := F + f0 + (2 * length (hb ++ i0) + 2)).
    destruct (run_prefix root hb i0 e1 i1 G Hh Ho) as (lf & Hlf & ->); [lia|].
    destruct lf as [|lf]; [lia|].
    assert (length i0 <= length (hb ++ i0)) as Hli by (rewrite app_length; lia).
    pose proof (g_objects_length _ _ _ _ Ho) as Hl1.
    pose proof (abandoned_no_library _ _ _ _ _ Ha) as Hnl.
    rewrite (referenceables_err _ _ _ _ _ _ (referenceable_lift f0 G _ _ _ ltac:(lia) Ha ltac:(done))). cbn [sbind].
    destruct (no_method_head G root (st e1') i1 Hnl Hn) as [err' ->].
    unfold sopt. cbn [fst snd opt sbind].
    rewrite (referenceables_panics _ _ _ _ sp F _ _ Ho2 Hp); [|lia..]. done.
  - set (G := S (S F) + (2 * length (hb ++ i0) + 2)).
    destruct (run_prefix root hb i0 e1 (bs ++ i1) G Hh Ho) as (lf & Hlf & ->); [lia|].
    destruct lf as [|lf]; [lia|].
    assert (head_in [x15; x16] (bs ++ i1)) as Hhd.
    { destruct Hb as [(? & ? & ? & ? & ? & ? & ? & ? & ? & ? & _ & _ & _ & _ & _ & ->)|(? & ? & ? & ? & ? & ? & ? & ? & _ & _ & _ & _ & ->)]; hd. }
    assert (no_library (bs ++ i1)) as Hnl by (apply no_library_head; hd).
    destruct (referenceable_err_head (F + (2 * length (hb ++ i0) + 2)) (st e1) (bs ++ i1) Hnl) as [er Her]; [hd|].
    change (S (S (F + (2 * length (hb ++ i0) + 2)))) with G in Her. rewrite (referenceables_err _ _ _ _ _ _ Her). cbn [sbind].
    assert (parse_array_single_object (parse_classes G) (parse_referenceable G) (st e2) i2 = (sp, Panic drain)) as Hpa.
    { pose proof (Hp (S G) ltac:(lia)) as Hx. unfold G in Hx. cbn [Nat.add] in Hx. rewrite ref_object_array in Hx by done.
      change (S (S (F + (2 * length (hb ++ i0) + 2)))) with G in Hx.
      destruct (parse_array_single_object _ _ (st e2) i2) as [s2 [? ?|?|?|?|]]; cbn [ref_finish] in Hx; congruence. }
    assert (sopt i1 (parse_call_array G root (st e1) i1) = (sp, Panic drain)) as Hca.
    { unfold sopt, parse_call_array. rewrite (parse_binary_library_complete _ _ _ _ Hl). cbn [sbind].
      rewrite Hpa. done. }
    assert (exists s, parse_method_call_or_return G root (st e1) (bs ++ i1) = (s, Panic drain)) as [s3 Hm].
    { unfold parse_method_call_or_return, parse_method_call, parse_method_return.
      rewrite parse_binary_library_none by done. cbn [sbind].
      destruct Hb as [(flags & name & type & ctx & inline & Hb)|(flags & ret & ctx & inline & Hb)].
      - rewrite (exact_ok binary_method_call_parse _ (mkBinaryMethodCall flags name type ctx inline)
               bs i1 method_call_exact) by done. rewrite Hca. cbn. eauto.
      - destruct (method_call_err (bs ++ i1)) as [er1 ->].
        { destruct Hb as (? & ? & ? & ? & _ & _ & _ & _ & ->). hd. }
        unfold smap at 1. cbn [fst snd rmap bind alt_mut]. rewrite parse_binary_library_none by done. cbn [sbind].
        rewrite (exact_ok binary_method_return_parse _ (mkBinaryMethodReturn flags ret ctx inline)
               bs i1 method_return_exact) by done. rewrite Hca. cbn. eauto. }
    rewrite Hm. done.
  - destruct (method_step_complete _ _ _ _ _ _ Hm) as [f0 Hf0].
    destruct (method_step_head _ _ _ _ _ _ Hm) as [Hhd Hl2].
    set (G := S (S (F + f0 + (2 * length (hb ++ i0) + 2)))).
    assert (length i0 <= length (hb ++ i0)) as Hli by (rewrite app_length; lia).
    pose proof (g_objects_length _ _ _ _ Ho) as Hl1.
    destruct (run_prefix root hb i0 e1 i1 G Hh Ho) as (lf & Hlf & ->); [lia|].
    destruct lf as [|lf]; [lia|].
    destruct (referenceable_err_head (F + f0 + (2 * length (hb ++ i0) + 2)) (st e1) i1) as [er Her]; [apply no_library_head; hd|hd|].
    fold G in Her. rewrite (referenceables_err _ _ _ _ _ _ Her). cbn [sbind]. rewrite Hf0 by lia. unfold sopt. cbn [fst snd opt sbind].
    rewrite (referenceables_panics _ _ _ _ sp F _ _ Ho2 Hp); [|lia..]. done.
Qed.
End with_decimal.
