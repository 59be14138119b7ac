(** * Quits: the parser stops exactly where the specification says. *)
From Verif Require Import Base Utf8 Value DataTypes Records Parser Wire BaseLemmas DataTypesLemmas
  RecordsLemmas MethodLemmas SafetyLemmas Safety Grammar Heads Complete Sound Fuel Message Run Spec
  LemmasA LemmasB LemmasC Positions Reach Stops StopsLeaf.
From Coq Require Import Lia.

(** Reported errors are [Fail], given up is [Err]. *)
Definition quit (b : bool) (er : error) : stop := if b then S_Fail er else S_Err er.

Section with_decimal.
Context {DL : DecimalLib}.

(** ** Simple items *)
Definition leaf (k : kind) (i : bytes) : res value_or_ref :=
  match k with
  | K_Any => alt (rmap VR_Value (member_primitive_typed i))
               (alt (parse_ref_member i) (alt (parse_string_member i) (parse_null_object i)))
  | K_Primitive p => rmap VR_Value (member_primitive_untyped i p)
  | K_String => parse_string_member i
  | K_SystemClass _ | K_Class _ _ => parse_null_object i
  | K_StringArray => alt (parse_string_member i) (alt (parse_ref_member i) (parse_null_object i))
  | K_PrimitiveArray _ => parse_ref_member i
  | K_Object | K_ObjectArray => Err (mkError i E_Other)
  end.
Definition leaf_enc (k : kind) (m : value_or_ref) (bs : bytes) : Prop :=
  exists it, m = vr_of it /\ simple_item k it bs.

Lemma cut_string_head i : cut_string_record i -> head_in [x06] i.
Proof. intros (id & b & r & _ & _ & ->). hd. Qed.
Lemma leaf_soft k i : soft (leaf k i) <-> ~ item_head k i \/ cut_item k i.
Proof.
  destruct k as [|p| | |n|n lid| | |p]; cbn [leaf item_head cut_item]; change begins with head_in.
  - rewrite !soft_alt, soft_rmap, soft_typed, soft_ref, soft_string_member, soft_null. split.
    + intros ([H1|H1] & H2 & [H3|H3] & H4).
      * left. intros Hh. destruct i as [|c i]; [done|]. cbn [head_in] in *. set_solver.
      * right. by left.
      * right. right. exact H1.
      * right. by left.
    + intros [H|[H|(r & -> & H)]].
      * split; [left; nohead|]. split; [nohead|]. split; [left; nohead|nohead].
      * pose proof (cut_string_head _ H). split; [left; hd|]. split; [hd|]. split; [by right|hd].
      * split; [right; by exists r|]. split; [hd|]. split; [left; hd|hd].
  - rewrite soft_rmap, soft_untyped. tauto.
  - apply soft_string_member.
  - split; [by left; intros []|]. intros _. eexists. reflexivity.
  - rewrite soft_null. tauto.
  - rewrite soft_null. tauto.
  - split; [by left; intros []|]. intros _. eexists. reflexivity.
  - rewrite !soft_alt, soft_ref, soft_string_member, soft_null. split.
    + intros ([H1|H1] & H2 & H3).
      * left. intros Hh. destruct i as [|c i]; [done|]. cbn [head_in] in *. set_solver.
      * by right.
    + intros [H|H].
      * split; [left; nohead|]. split; nohead.
      * pose proof (cut_string_head _ H). split; [by right|]. split; hd.
  - rewrite soft_ref. tauto.
Qed.
Lemma leaf_safe k i : rsafe i (leaf k i).
Proof.
  destruct k; cbn [leaf];
    repeat first [apply parse_string_member_safe|apply parse_ref_member_safe|apply parse_null_object_safe
      |apply gsafe_map, member_primitive_typed_safe|apply gsafe_map, member_primitive_untyped_safe|apply gsafe_alt].
  all: cbn; reflexivity.
Qed.
Lemma leaf_exact k : exact (leaf k) (leaf_enc k).
Proof.
  intros i r m. split.
  - intros H. cut (exists it bs, i = bs ++ r /\ simple_item k it bs /\ m = vr_of it).
    { intros (it & bs & -> & Hit & ->). exists bs. split; [by exists it|done]. }
    destruct k as [|p| | |n|n lid| | |p]; cbn [leaf simple_item] in *.
    + destruct (rmap VR_Value (member_primitive_typed i)) as [i1 m1|e|e|p|] eqn:E1; cbn [alt] in H; try done.
      { injection H as -> ->. apply typed_item_sound in E1 as (it & bs & -> & H & ->). eauto 10. }
      destruct (parse_ref_member i) as [i1 m1|e1|e1|p|] eqn:E2; cbn [alt] in H; try done.
      { injection H as -> ->. apply ref_item_sound in E2 as (it & bs & -> & H & ->). eauto 10. }
      destruct (parse_string_member i) as [i1 m1|e2|e2|p|] eqn:E3; cbn [alt] in H; try done.
      { injection H as -> ->. apply str_item_sound in E3 as (it & bs & -> & H & ->). eauto 10. }
      apply null_item_sound in H as (it & bs & -> & H & ->). eauto 10.
    + apply rmap_ok in H as (v & H & ->). apply (member_primitive_untyped_exact p) in H as (bs & [Hp Hv] & ->).
      exists (It_Value v), bs. split; [done|]. split; [by exists v|done].
    + apply str_item_sound in H as (it & bs & -> & H & ->). eauto 10.
    + done.
    + apply null_item_sound in H as (it & bs & -> & H & ->). eauto 10.
    + apply null_item_sound in H as (it & bs & -> & H & ->). eauto 10.
    + done.
    + destruct (parse_string_member i) as [i1 m1|e2|e2|p|] eqn:E3; cbn [alt] in H; try done.
      { injection H as -> ->. apply str_item_sound in E3 as (it & bs & -> & H & ->). eauto 10. }
      destruct (parse_ref_member i) as [i1 m1|e1|e1|p|] eqn:E2; cbn [alt] in H; try done.
      { injection H as -> ->. apply ref_item_sound in E2 as (it & bs & -> & H & ->). eauto 10. }
      apply null_item_sound in H as (it & bs & -> & H & ->). eauto 10.
    + apply ref_item_sound in H as (it & bs & -> & H & ->). eauto 10.
  - intros (bs & (it & -> & H) & ->). destruct k as [|p| | |n|n lid| | |p]; cbn [leaf simple_item] in *.
    + pose proof (untyped_body_simple (fun s _ => (s, Diverge)) init_state bs r it H) as Hu.
      unfold member_untyped_body in Hu. destruct (alt _ _); try done; by injection Hu as -> ->.
    + destruct H as (v & -> & Hp & Hv). by rewrite (exact_ok _ _ _ _ _ (member_primitive_untyped_exact p) (conj Hp Hv)).
    + by rewrite (str_item_parse _ _ _ H).
    + done.
    + by rewrite (null_item_parse _ _ _ H).
    + by rewrite (null_item_parse _ _ _ H).
    + done.
    + destruct H as [H|[H|H]].
      * by rewrite (str_item_parse _ _ _ H).
      * destruct (ref_item_head _ _ H) as [b Eb]. rewrite alt_skip by (rewrite Eb; apply parse_string_member_err; hd).
        by rewrite (ref_item_parse _ _ _ H).
      * destruct (null_item_head _ _ H) as (c & b & Eb & Hc).
        rewrite alt_skip by (rewrite Eb; apply parse_string_member_err; hd).
        rewrite alt_skip by (rewrite Eb; apply parse_ref_member_err; hd). by rewrite (null_item_parse _ _ _ H).
    + by rewrite (ref_item_parse _ _ _ H).
Qed.
Lemma leaf_starts k i : starts (leaf_enc k) i <-> starts (simple_item k) i.
Proof.
  split.
  - intros (m & b & r & (it & -> & H) & ->). by exists it, b, r.
  - intros (it & b & r & H & ->). exists (vr_of it), b, r. split; [by exists it|done].
Qed.
Lemma leaf_fail k i : (exists er, leaf k i = Fail er) <-> item_head k i /\ ~ cut_item k i /\ ~ starts (simple_item k) i.
Proof.
  rewrite (fail_iff _ _ _ _ (leaf_exact k) (leaf_safe k i) (leaf_soft k i)), leaf_starts.
  assert (Decision (item_head k i)) as Hd by (destruct k, i; cbn; apply _).
  destruct (decide (item_head k i)); tauto.
Qed.

(** ** Libraries *)
Lemma lib_quit b s i s' er :
  parse_binary_library s i = (s', stop_res (quit b er)) -> b = true /\ stops_lib (env_of s) i (env_of s').
Proof.
  unfold parse_binary_library. pose proof (binary_library_safe i) as Hs. pose proof (no_library_iff i) as Hn.
  destruct (binary_library i) as [i1 [lid name]|e|e|p|] eqn:E; cbn [opt]; try done.
  - apply binary_library_exact in E as (bs & Hb & ->). case_bool_decide as Hd.
    + intros H. destruct b; [|done]. injection H as <- <-. split; [done|].
      exact (SL_known (env_of s) lid name bs i1 Hb Hd).
    + by destruct b.
  - by destruct b.
  - intros H. destruct b; [|done]. injection H as <- <-. split; [done|].
    unfold binary_library in E.
    destruct (decide (head_in [x0c] i)) as [Hh|Hh].
    2:{ exfalso. destruct (binary_library_err i Hh) as [e1 He1]. unfold binary_library in He1. rewrite E in He1. done. }
    apply head_inv in Hh as [r ->]. apply SL_id. intros (id & b & r' & Hid & ->).
    rewrite (rt_ok RT_BinaryLibrary) in E. rewrite (exact_ok _ _ _ _ _ library_id_exact Hid) in E. cbn [bind] in E.
    destruct (lps_parse r') as [? ?|?|?|?|] eqn:El; cbn [bind] in E; try done.
    destruct (lps_not_ok r') as [e1 He1]; [by rewrite El|]. by rewrite El in He1.
Qed.

(** ** What the parser does is specified *)
Ltac qinv b H := destruct b; cbn [quit stop_res] in H; (discriminate H || (split; [reflexivity|]; congruence)).

Lemma quit_cases {A} b er (r : res A) : r = stop_res (quit b er) ->
  (b = true /\ r = Fail er) \/ (b = false /\ r = Err er).
Proof. destruct b; auto. Qed.
Lemma not_class_start i : ~ class_start i -> no_library i /\ ~ head_in [x01; x02; x03; x04; x05] i.
Proof.
  intros H. split; [apply no_library_head|]; intros Hh; apply H.
  - destruct i; [done|]. cbn in *. set_solver.
  - destruct i; [done|]. cbn in *. set_solver.
Qed.
Lemma class_start_dec i : Decision (class_start i).
Proof. destruct i; cbn; apply _. Qed.

(** The simple alternatives of a member. *)
Lemma leaf_quit b k e i e1 i1 er :
  k <> K_Object -> k <> K_ObjectArray -> g_lib e i e1 i1 -> kind_ok e1 k -> ~ (may_be_class k /\ class_start i1) ->
  leaf k i1 = stop_res (quit b er) -> stops_member b k e i e1.
Proof.
  intros Hk1 Hk2 Hl Hok Hnc H. apply quit_cases in H as [[-> H]|[-> H]].
  - assert (exists er, leaf k i1 = Fail er) as Hf by eauto. apply leaf_fail in Hf as (H1 & H2 & H3).
    by eapply SM_item.
  - assert (soft (leaf k i1)) as [Hf|Hf]%leaf_soft by (eexists; exact H).
    + by eapply SM_none.
    + by eapply SM_cut.
Qed.
Lemma leaf_class_start k i : class_start i -> may_be_class k -> exists er, leaf k i = Err er.
Proof.
  intros Hs Hm. apply leaf_soft. left. apply class_start_head in Hs.
  assert (~ head_in [x06; x08; x09; x0a; x0d; x0e] i) as Hn by hd.
  destruct Hm as [-> |Hm]; [exact Hn|]. destruct k; try done; cbn [item_head]; change begins with head_in; nohead.
Qed.
Lemma sbind_quit {A B} b er (r : sres A) (f : state -> bytes -> A -> sres B) s' :
  sbind r f = (s', stop_res (quit b er)) ->
  r = (s', stop_res (quit b er)) \/ exists s1 i1 a, r = (s1, Ok i1 a) /\ f s1 i1 a = (s', stop_res (quit b er)).
Proof.
  destruct r as [s1 [i1 a|e|e|p|]]; cbn [sbind]; intros H; [eauto 10|left|left|by destruct b..];
    destruct b; cbn [quit stop_res] in *; try discriminate H; by injection H as -> ->.
Qed.
Lemma ok_quit {A} b er (s s' : state) (i : bytes) (a : A) : (s, @Ok bytes error A i a) <> (s', stop_res (quit b er)).
Proof. by destruct b. Qed.
Lemma smap_quit {A B} b er (f : A -> B) (r : sres A) s1 :
  smap f r = (s1, stop_res (quit b er)) -> r = (s1, stop_res (quit b er)).
Proof.
  destruct r as [s0 [j l|e|e|q|]]; unfold smap; cbn [fst snd rmap bind]; destruct b; cbn [quit stop_res]; congruence.
Qed.
Lemma class_records_fail i er : class_records i = Fail er ->
  head_in [x02; x03; x04; x05] i /\ ~ cut_class_header i /\ ~ starts e_class_header i.
Proof.
  intros H. assert (exists er, class_records i = Fail er) as Hf by eauto.
  apply (fail_iff _ _ _ _ class_records_exact (class_records_safe i) (soft_class_records i)) in Hf as [H1 H2].
  split; [|split].
  - destruct (decide (head_in [x02; x03; x04; x05] i)); tauto.
  - tauto.
  - intros (h & b & r & Hb & ->). apply H1. exists (class_rec_of h), b, r. split; [by exists h|done].
Qed.
Lemma chunk_loop_quit fuel l vs i b er : chunk_loop fuel l vs i <> stop_res (quit b er).
Proof.
  revert vs. induction fuel as [|fuel IH]; intros vs; destruct vs as [|v vs]; cbn [chunk_loop]; try (by destruct b).
  destruct (Nat.ltb _ _); [by destruct b|]. specialize (IH (drop l (v :: vs))).
  destruct (chunk_loop _ _ _ _); cbn [bind]; destruct b; cbn [quit stop_res] in *; congruence.
Qed.
Lemma chunk_dims_quit dims vs i b er : chunk_dims dims vs i <> stop_res (quit b er).
Proof.
  revert vs i. induction dims as [|l dims IH]; intros vs i; cbn [chunk_dims]; [by destruct b|].
  pose proof (chunk_loop_quit (length vs) (N.to_nat l) vs i) as Hc.
  destruct (chunk_loop _ _ _ _) as [i1 r|e|e|p|]; cbn [bind]; [apply IH| | |by destruct b..].
  - by destruct (Hc false e).
  - by destruct (Hc true e).
Qed.
Section methods.
Context (PC : state -> bytes -> sres (N * obj value)).
Context (PR : state -> bytes -> sres N).
Hypothesis MPC : forall s i, mono s (PC s i).1.
Hypothesis MPR : forall s i, mono s (PR s i).1.
Hypothesis SPC : forall s i s' i' id o, st_classes s = ∅ ->
  PC s i = (s', Ok i' (id, o)) -> g_class (env_of s) i id o (env_of s') i'.
Hypothesis SPR : forall s i s' i' id, st_classes s = ∅ ->
  PR s i = (s', Ok i' id) ->
  exists v e', g_record (env_of s) i id v e' i' /\ env_of s' = add_obj id v e'.
Hypothesis NPC : forall s i, no_library i -> ~ head_in [x01; x02; x03; x04; x05] i ->
  (PC s i).1 = s /\ forall i' a, (PC s i).2 <> Ok i' a.
Hypothesis NPC' : forall s i er, no_library i -> ~ head_in [x01; x02; x03; x04; x05] i ->
  (PC s i).2 <> Fail er.
Hypothesis HPC : forall b s i s' er, st_classes s = ∅ -> PC s i = (s', stop_res (quit b er)) ->
  stops_class b (env_of s) i (env_of s').
Hypothesis HPR : forall b s i s' er, st_classes s = ∅ -> PR s i = (s', stop_res (quit b er)) ->
  stops_record b (env_of s) i (env_of s').

Lemma untyped_body_quit b s i s' er e i0 : st_classes s = ∅ -> g_lib e i0 (env_of s) i ->
  member_untyped_body PC s i = (s', stop_res (quit b er)) -> stops_member b K_Any e i0 (env_of s').
Proof.
  intros Hc Hl H. unfold member_untyped_body in H. change (alt _ _) with (leaf K_Any i) in H.
  destruct (class_start_dec i) as [Hst|Hst].
  - destruct (leaf_class_start K_Any i Hst) as [er1 E]; [by left|]. rewrite E in H.
    eapply SM_inline; [exact Hl|done|].
    destruct (PC s i) as [s1 r1] eqn:E1. unfold smap in H. cbn [fst snd] in H. injection H as -> H.
    eapply HPC; [done|]. rewrite E1. f_equal. destruct b, r1; cbn in H; try done; injection H as ->; reflexivity.
  - assert (~ (may_be_class K_Any /\ class_start i)) as Hn by tauto.
    destruct (leaf K_Any i) as [i1 a|e1|e1|p|] eqn:E.
    + destruct b; discriminate H.
    + assert (b = false /\ s' = s) as [-> ->].
      { apply not_class_start in Hst as [Hnl Hh]. destruct (NPC s i Hnl Hh) as [H1 H2]. pose proof (fun er => NPC' s i er Hnl Hh) as H3.
        destruct (PC s i) as [s1 r1]. unfold smap in H. cbn [fst snd] in *. injection H as -> H. split; [|done].
        destruct b; [|done]. destruct r1; cbn in H; try done. by destruct (H3 e0). }
      eapply (leaf_quit false K_Any _ _ _ _ e1); try done. 
    + assert (b = true /\ s' = s) as [-> ->] by (qinv b H).
      eapply (leaf_quit true K_Any _ _ _ _ e1); try done.
    + destruct b; discriminate H.
    + destruct b; discriminate H.
Qed.
Lemma untyped_quit b s i s' er : st_classes s = ∅ -> parse_member_untyped PC s i = (s', stop_res (quit b er)) ->
  stops_member b K_Any (env_of s) i (env_of s').
Proof.
  intros Hc H. unfold parse_member_untyped in H.
  destruct (parse_binary_library s i) as [s1 r1] eqn:El.
  destruct (parse_binary_library_cases _ _ _ _ El) as [[i1 ->]|[e ->]]; cbn [sbind] in H.
  - apply parse_binary_library_sound in El as [El Ecl]. rewrite Hc in Ecl. by eapply untyped_body_quit in H.
  - assert (b = true /\ s' = s1) as [-> ->] by (qinv b H).
    apply (lib_quit true _ _ _ e) in El as [_ El]. by apply SM_lib.
Qed.
Lemma class_or_null_quit b k ok s i s' er e i0 :
  declared_class k -> st_classes s = ∅ -> g_lib e i0 (env_of s) i -> kind_ok (env_of s) k ->
  (forall o, ok o = true <-> class_kind (env_of s) k o) ->
  class_or_null PC ok s i = (s', stop_res (quit b er)) -> stops_member b k e i0 (env_of s').
Proof.
  intros Hd Hc Hl Hok Ho H. unfold class_or_null in H.
  assert (leaf k i = parse_null_object i) as Hlf by (by destruct k).
  assert (k <> K_Object /\ k <> K_ObjectArray) as [Hk1 Hk2] by (by destruct k).
  destruct (class_start_dec i) as [Hst|Hst].
  - destruct (leaf_class_start k i Hst) as [er1 E]; [by right|]. rewrite Hlf in E.
    destruct (PC s i) as [s1 [i1 [id o]|e1|e1|p|]] eqn:E1; rewrite ?E in H.
    + destruct (ok o) eqn:Eo; [by destruct b|]. assert (b = true /\ s' = s1) as [-> ->] by (qinv b H).
      eapply SM_other_class; [done|exact Hl|done|eapply SPC; [done|exact E1]|]. rewrite <- Ho. congruence.
    + assert (b = false /\ s' = s1) as [-> ->] by (qinv b H).
      apply (HPC false _ _ _ e1) in E1; [|done]. by eapply SM_declared.
    + assert (b = false /\ s' = s1) as [-> ->] by (qinv b H).
      apply (HPC true _ _ _ e1) in E1; [|done]. by eapply SM_declared.
    + by destruct b.
    + by destruct b.
  - pose proof (not_class_start _ Hst) as [Hnl Hh]. destruct (NPC s i Hnl Hh) as [H1 H2].
    pose proof (fun er => NPC' s i er Hnl Hh) as H3.
    destruct (PC s i) as [s1 [i1 [id o]|e1|e1|p|]] eqn:E1; cbn [fst snd] in *.
    + by destruct (H2 i1 (id, o)).
    + subst s1. injection H as -> H. rewrite <- Hlf in H. eapply leaf_quit; try done. tauto.
    + by destruct (H3 e1).
    + by destruct b.
    + by destruct b.
Qed.
Lemma member_quit b k s i s' er : st_classes s = ∅ -> parse_member PC k s i = (s', stop_res (quit b er)) ->
  stops_member b k (env_of s) i (env_of s').
Proof.
  intros Hs H. assert (k = K_Any \/ k <> K_Any) as [-> |HkA] by (destruct k; auto).
  { by eapply untyped_quit. }
  assert (parse_member PC k s i = parse_member_typed PC (kind_bt k) (kind_ai k) s i) as Et by (by rewrite (parse_member_typed_eq PC k HkA)).
  rewrite Et in H. unfold parse_member_typed in H.
  destruct (parse_binary_library s i) as [s1 r1] eqn:El.
  destruct (parse_binary_library_cases _ _ _ _ El) as [[i1 ->]|[e ->]]; cbn [sbind] in H.
  2:{ assert (b = true /\ s' = s1) as [-> ->] by (qinv b H).
    apply (lib_quit true _ _ _ e) in El as [_ El]. by apply SM_lib. }
  apply parse_binary_library_sound in El as [El Ecl]. rewrite Hs in Ecl.
  assert (forall r : res value_or_ref, (s1, r) = (s', stop_res (quit b er)) -> s' = s1 /\ r = stop_res (quit b er)) as Hpair
    by (intros r Hr; by injection Hr as -> ->).
  destruct k as [|p| | |n|n lid| | |p]; [done|..]; cbn [kind_bt kind_ai] in H.
  - apply Hpair in H as [-> H]. eapply (leaf_quit b (K_Primitive p)); try done. intros [[?|[]] _]; done.
  - apply Hpair in H as [-> H]. eapply (leaf_quit b K_String); try done. intros [[?|[]] _]; done.
  - apply untyped_quit in H; [|done]. eapply SM_nested; [by left|done|done].
  - eapply (class_or_null_quit b (K_SystemClass n)); try done. intros o. cbn [class_kind]. unfold str_eqb.
    rewrite andb_true_iff, !bool_decide_eq_true. done.
  - cbn [cti_library_id cti_type_name] in H. destruct (st_libs s1 !! lid) as [l|] eqn:Elid.
    + eapply (class_or_null_quit b (K_Class n lid)); try done; [by exists l|]. intros o. cbn [class_kind]. unfold str_eqb.
      rewrite andb_true_iff, !bool_decide_eq_true. cbn [env_of e_libs]. rewrite Elid. naive_solver.
    + assert (b = true /\ s' = s1) as [-> ->] by (qinv b H).
      eapply SM_library; [done|]. cbn [kind_ok env_of e_libs]. rewrite Elid. by intros [? ?].
  - apply untyped_quit in H; [|done]. eapply SM_nested; [by right|done|done].
  - apply Hpair in H as [-> H]. eapply (leaf_quit b K_StringArray); try done. intros [[?|[]] _]; done.
  - apply Hpair in H as [-> H]. eapply (leaf_quit b (K_PrimitiveArray p)); try done. intros [[?|[]] _]; done.
Qed.

Lemma items_quit b ks s i s' er : st_classes s = ∅ -> parse_items PC ks s i = (s', stop_res (quit b er)) ->
  exists ks1 k ks2 its e1 i1, ks = ks1 ++ k :: ks2 /\ g_items ks1 (env_of s) i its e1 i1
    /\ stops_member b k e1 i1 (env_of s').
Proof.
  revert s i. induction ks as [|k ks IH]; intros s i Hs H; cbn [parse_items] in H; [by apply ok_quit in H|].
  apply sbind_quit in H as [H|(s1 & i1 & m & E1 & H)].
  - exists [], k, ks, [], (env_of s), i. split; [done|]. split; [constructor|]. by eapply member_quit.
  - pose proof (member_classes PC MPC _ _ _ _ _ Hs E1) as Hs1.
    apply (member_sound PC SPC NPC) in E1 as (it & -> & Hm); [|done].
    apply sbind_quit in H as [E2|(s2 & i2 & ms & _ & H)]; [|by apply ok_quit in H].
    destruct (IH _ _ Hs1 E2) as (ks1 & k' & ks2 & its & e1 & i3 & -> & Hi & Hh).
    exists (k :: ks1), k', ks2, (it :: its), e1, i3. split; [done|]. split; [by econstructor|done].
Qed.
Lemma scount_quit b fuel n k s i s' er : st_classes s = ∅ ->
  scount_loop fuel n (parse_member PC k) s i = (s', stop_res (quit b er)) ->
  exists its e1 i1, g_items (replicate (length its) k) (env_of s) i its e1 i1 /\ (N.of_nat (length its) < n)%N
    /\ stops_member b k e1 i1 (env_of s').
Proof.
  revert n s i. induction fuel as [|fuel IH]; intros n s i Hs; cbn [scount_loop];
    (destruct (N.eqb_spec n 0) as [|Hn]; [by intros Hq; apply ok_quit in Hq|]); [by destruct b|].
  intros H. apply sbind_quit in H as [H|(s1 & i1 & m & E1 & H)].
  - exists [], (env_of s), i. split; [constructor|]. split; [cbn [length]; lia|]. by eapply member_quit.
  - pose proof (member_classes PC MPC _ _ _ _ _ Hs E1) as Hs1.
    apply (member_sound PC SPC NPC) in E1 as (it & -> & Hm); [|done].
    apply sbind_quit in H as [E2|(s2 & i2 & ms & _ & H)]; [|by apply ok_quit in H].
    destruct (IH _ _ _ Hs1 E2) as (its & e1 & i3 & Hi & Hlen & Hh).
    exists (it :: its), e1, i3. split; [cbn [length replicate]; by econstructor|]. split; [cbn [length]; lia|done].
Qed.
Lemma array_loop_quit b k fuel len cur s i s' er : st_classes s = ∅ ->
  array_loop (parse_member PC k) fuel len cur s i = (s', stop_res (quit b er)) ->
  exists its e1 i1, g_items (replicate (length its) k) (env_of s) i its e1 i1 /\ (cur + items_size its < len)%N
    /\ stops_member b k e1 i1 (env_of s').
Proof.
  revert cur s i. induction fuel as [|fuel IH]; intros cur s i Hs; cbn [array_loop];
    (destruct (N.leb_spec len cur) as [|Hn]; [by intros Hq; apply ok_quit in Hq|]); [by destruct b|].
  intros H. apply sbind_quit in H as [H|(s1 & i1 & m & E1 & H)].
  - exists [], (env_of s), i. split; [constructor|]. split; [cbn [items_size]; lia|]. by eapply member_quit.
  - pose proof (member_classes PC MPC _ _ _ _ _ Hs E1) as Hs1.
    apply (member_sound PC SPC NPC) in E1 as (it & -> & Hm); [|done].
    apply sbind_quit in H as [E2|(s2 & i2 & ms & _ & H)]; [|by apply ok_quit in H].
    destruct (IH _ _ _ Hs1 E2) as (its & e1 & i3 & Hi & Hlen & Hh).
    exists (it :: its), e1, i3. split; [cbn [length replicate]; by econstructor|].
    rewrite member_size_vr in Hlen. split; [cbn [items_size]; lia|done].
Qed.
Lemma verify_quit b id s i s' er : st_classes s = ∅ -> verify_referenceable PR id s i = (s', stop_res (quit b er)) ->
  stops_next b id (env_of s) i (env_of s').
Proof.
  intros Hs H. unfold verify_referenceable in H.
  destruct (PR s i) as [s1 [i1 id2|e|e|p|]] eqn:E.
  - destruct (N.eqb_spec id2 id) as [|Hne]; [by apply ok_quit in H|].
    assert (b = false /\ s' = s1) as [-> ->] by qinv b H.
    apply SPR in E as (v & e' & Hr & ->); [|done]. by eapply SN_other.
  - assert (b = false /\ s' = s1) as [-> ->] by qinv b H. apply SN_record. eapply (HPR false _ _ _ e); [done|exact E].
  - assert (b = true /\ s' = s1) as [-> ->] by qinv b H. apply SN_record. eapply (HPR true _ _ _ e); [done|exact E].
  - by destruct b.
  - by destruct b.
Qed.
Lemma resolve_quit b its s i s' er : st_classes s = ∅ -> resolve_members PR (map vr_of its) s i = (s', stop_res (quit b er)) ->
  exists its1 id its2 vs e1 i1, its = its1 ++ It_Ref id :: its2 /\ g_resolve its1 (env_of s) i vs e1 i1
    /\ e_objs e1 !! id = None /\ stops_next b id e1 i1 (env_of s').
Proof.
  revert s i. induction its as [|it its IH]; intros s i Hs H; cbn [map resolve_members] in H; [by apply ok_quit in H|].
  destruct it as [v|n|id]; cbn [vr_of] in H.
  - apply sbind_quit in H as [E|(s1 & i1 & ms & _ & H)]; [|by apply ok_quit in H].
    destruct (IH _ _ Hs E) as (its1 & id & its2 & vs & e1 & i1 & -> & Hr & Hn & Hh).
    exists (It_Value v :: its1), id, its2, (v :: vs), e1, i1. split; [done|]. split; [by constructor|]. done.
  - apply sbind_quit in H as [E|(s1 & i1 & ms & _ & H)]; [|by apply ok_quit in H].
    destruct (IH _ _ Hs E) as (its1 & id & its2 & vs & e1 & i1 & -> & Hr & Hn & Hh).
    eexists (It_Nulls n :: its1), id, its2, (replicate (N.to_nat n) VNull ++ vs), e1, i1. split; [done|]. split; [by constructor|]. done.
  - destruct (st_objects s !! id) as [v|] eqn:Eid.
    + apply sbind_quit in H as [E|(s1 & i1 & ms & _ & H)]; [|by apply ok_quit in H].
      apply IH in E as (its1 & id' & its2 & vs & e1 & i1 & -> & Hr & Hn & Hh); [|done].
      exists (It_Ref id :: its1), id', its2, (v :: vs), e1, i1. split; [done|]. split; [by apply G_res_known|]. done.
    + apply sbind_quit in H as [H|(s1 & i1 & id2 & E & H)].
      * exists [], id, its, [], (env_of s), i. split; [done|]. split; [constructor|]. split; [done|]. by eapply verify_quit.
      * unfold verify_referenceable in E. pose proof (MPR s i) as Hmono.
        destruct (PR s i) as [s0 [i0 id0|e|e|p|]] eqn:E0; try done.
        destruct (N.eqb_spec id0 id) as [-> |]; [|done]. injection E as -> -> ->.
        apply SPR in E0 as (v & e' & Hr & He); [|done].
        destruct Hmono as [Hmono _]. cbn [fst] in Hmono. rewrite Hs in Hmono.
        assert (st_objects s1 = e_objs (add_obj id2 v e')) as Ho by (by rewrite <- He).
        assert (st_libs s1 = e_libs e') as Hl.
        { change (st_libs s1) with (e_libs (env_of s1)). by rewrite He. }
        rewrite Ho in H. cbn [add_obj e_objs] in H. rewrite lookup_insert in H.
        apply sbind_quit in H as [E2|(s2 & i2 & ms & _ & H)]; [|by apply ok_quit in H].
        apply IH in E2 as (its1 & id' & its2 & vs & e1 & i3 & -> & Hr' & Hn & Hh); [|done].
        exists (It_Ref id2 :: its1), id', its2, (v :: vs), e1, i3. split; [done|]. split; [|done].
        eapply G_res_next; [done|done|].
        rewrite delete_insert_delete in Hr'.
        replace (del_obj id2 e') with (env_of (set_objects s1 (delete id2 (e_objs e')))); [done|].
        unfold del_obj, env_of, set_objects. cbn. by rewrite Hl.
Qed.
Lemma class_body_quit b err h bs s i s' er : e_class_header h bs -> st_classes s = ∅ ->
  parse_class_body PC PR err (ch_object_id h) (class_rec_of h) s i = (s', stop_res (quit b er)) ->
  (b = true /\ s' = s /\ ~ exists lib, class_library (env_of s) h lib)
  \/ exists lib, class_library (env_of s) h lib
    /\ ((exists ks1 k ks2 its e1 i1, member_kinds h = ks1 ++ k :: ks2 /\ g_items ks1 (env_of s) i its e1 i1
          /\ stops_member b k e1 i1 (env_of s'))
        \/ exists its1 id its2 e1 i1 vs e2 i2, g_items (member_kinds h) (env_of s) i (its1 ++ It_Ref id :: its2) e1 i1
          /\ g_resolve its1 e1 i1 vs e2 i2 /\ e_objs e2 !! id = None /\ stops_next b id e2 i2 (env_of s')).
Proof.
  intros Hh Hs. unfold parse_class_body. rewrite Hs, lookup_empty.
  rewrite bool_decide_eq_false_2 by (intros [? [=]]).
  rewrite cr_class_info_of. cbn [ci_of ci_member_names ci_name]. intros H.
  match type of H with sbind ?r _ = _ =>
    set (R := r) in H; assert ((forall s1 i1 lm, R = (s1, Ok i1 lm) ->
      class_library (env_of s) h lm.1 /\ parse_items PC (member_kinds h) s i = (s1, Ok i1 lm.2))
      /\ (R = (s', stop_res (quit b er)) -> (b = true /\ s' = s /\ ~ exists lib, class_library (env_of s) h lib)
         \/ exists lib, class_library (env_of s) h lib
         /\ exists ks1 k ks2 its e1 i1, member_kinds h = ks1 ++ k :: ks2 /\ g_items ks1 (env_of s) i its e1 i1
          /\ stops_member b k e1 i1 (env_of s'))) as [HR HP]
  end.
  { unfold R. unfold class_library, member_kinds, class_rec_of in *.
    assert (forall ks, ch_types h = Some ks -> forall s i,
      parse_members_with_type_info PC (mti_of ks) s i = parse_items PC ks s i) as Hty.
    { intros ks Hks s0 j. unfold parse_members_with_type_info, mti_of.
      cbn [mti_binary_type_enums mti_additional_infos].
      apply parse_members_typed_items. by eapply class_header_kinds. }
    assert (forall s1 i1 A (f : list value_or_ref -> A) (r : sres (list value_or_ref)) x,
      smap f r = (s1, Ok i1 x) -> exists l, r = (s1, Ok i1 l) /\ x = f l) as Hsm.
    { intros s1 i1 A f [s0 [j l|e|e|p|]] x Hx; unfold smap in Hx; cbn in Hx; try done. inv Hx. eauto. }
    assert (forall n, scount (N.of_nat n) (parse_member_untyped PC) s i = (s', stop_res (quit b er)) ->
      exists ks1 k ks2 its e1 i1, replicate n K_Any = ks1 ++ k :: ks2 /\ g_items ks1 (env_of s) i its e1 i1
          /\ stops_member b k e1 i1 (env_of s')) as Hun.
    { intros n E. apply (scount_quit _ _ _ K_Any) in E as (its & e1 & i1 & Hi & Hlen & Hh'); [|done].
      exists (replicate (length its) K_Any), K_Any, (replicate (n - S (length its)) K_Any), its, e1, i1.
      split; [|done]. replace n with (length its + S (n - S (length its))) at 1 by lia. by rewrite replicate_add. }
    assert (forall lid, st_libs s !! lid = None -> forall A err, (s, @Fail bytes error A err) = (s', stop_res (quit b er)) ->
      b = true /\ s' = s /\ ~ exists lib, exists l : str, st_libs s !! lid = Some l /\ lib = Some l) as Hno.
    { intros lid Hl A err0 Hx. assert (b = true /\ s' = s) as [-> ->] by qinv b Hx. split; [done|]. split; [done|].
      intros (lib & l & Hl' & _). congruence. }
    destruct (ch_types h) as [ks|] eqn:Ets, (ch_library h) as [lid|]; cbn [env_of e_libs].
    - destruct (st_libs s !! lid) as [l|] eqn:Elid.
      2:{ split; [done|]. intros ER. left. rewrite <- Elid. by eapply (Hno lid). }
      rewrite Hty by done. split.
      + intros s1 i1 lm ER. apply Hsm in ER as (ms & ER & ->). split; [eauto|done].
      + intros ER. right. apply smap_quit, items_quit in ER; [|done]. exists (Some l). split; [eauto|done].
    - rewrite Hty by done. split.
      + intros s1 i1 lm ER. apply Hsm in ER as (ms & ER & ->). done.
      + intros ER. right. apply smap_quit, items_quit in ER; [|done]. exists None. done.
    - destruct (st_libs s !! lid) as [l|] eqn:Elid.
      2:{ split; [done|]. intros ER. left. rewrite <- Elid. by eapply (Hno lid). }
      split.
      + intros s1 i1 lm ER. apply Hsm in ER as (ms & ER & ->). split; [eauto|]. apply (scount_ok _ _ _ K_Any) in ER.
        by rewrite Nat2N.id in ER.
      + intros ER. right. apply smap_quit, Hun in ER. exists (Some l). split; [eauto|done].
    - split.
      + intros s1 i1 lm ER. apply Hsm in ER as (ms & ER & ->). split; [done|]. apply (scount_ok _ _ _ K_Any) in ER.
        by rewrite Nat2N.id in ER.
      + intros ER. right. apply smap_quit, Hun in ER. exists None. done. }
  clearbody R.
  apply sbind_quit in H as [H|(s1 & i1 & lm & -> & H)].
  - apply HP in H. destruct H as [H|(lib & Hlib & H)]; [by left|]. right. exists lib. split; [done|]. by left.
  - right. destruct (HR _ _ _ eq_refl) as [Hlib Hit]. exists lm.1. split; [done|]. right.
    apply (items_sound PC MPC SPC NPC) in Hit as (Hs1 & its & Hms & Hits); [|done]. rewrite Hms in H.
    apply sbind_quit in H as [Er|(s2 & i2 & ms & _ & H)]; [|by apply ok_quit in H].
    apply resolve_quit in Er as (its1 & id & its2 & vs & e1 & i2 & -> & Hr & Hn & Hh'); [|done].
    by exists its1, id, its2, (env_of s1), i1, vs, e1, i2.
Qed.
Lemma classes_body_quit b s i s' er : st_classes s = ∅ -> parse_classes_body PC PR s i = (s', stop_res (quit b er)) ->
  stops_class b (env_of s) i (env_of s').
Proof.
  intros Hs H. unfold parse_classes_body in H.
  apply sbind_quit in H as [El|(s1 & i1 & [] & El & H)].
  { apply lib_quit in El as [-> El]. by apply SC_lib. }
  apply parse_binary_library_sound in El as [El Ecl]. rewrite Hs in Ecl.
  assert ((forall e, class_with_id i1 <> Err e) -> head_in [x01] i1) as Hid.
  { intros Hne. destruct (decide (head_in [x01] i1)) as [|Hn]; [done|]. destruct (class_with_id_err i1 Hn) as [e He]. by apply Hne in He. }
  destruct (class_with_id i1) as [i2 [oid mid]|e|e|p|] eqn:Ew.
  - rewrite Ecl, lookup_empty in H. assert (b = true /\ s' = s1) as [-> ->] by qinv b H.
    eapply SC_with_id; [exact El|]. by apply Hid.
  - destruct (class_records i1) as [i2 c|e'|e'|p|] eqn:Ec.
    + apply class_records_exact in Ec as (bs & (h & -> & Hh) & ->).
      rewrite cr_class_info_of in H. cbn [ci_of ci_object_id] in H.
      eapply class_body_quit in H as [(-> & -> & Hno)|(lib & Hlib & [(ks1 & k & ks2 & its & e1 & i3 & Hk & Hi & H)|
        (its1 & id & its2 & e1 & i3 & vs & e2 & i4 & Hi & Hr & Hn & H)])]; [| | |done|done].
      * eapply SC_library; done.
      * eapply SC_member; done.
      * eapply SC_resolve; done.
    + assert (b = false /\ s' = s1) as [-> ->] by qinv b H.
      assert (soft (class_records i1)) as [Hh|Hh]%soft_class_records by (eexists; exact Ec).
      * eapply SC_none; [exact El|]. intros Hb.
        destruct (decide (head_in [x01] i1)) as [H1|H1]; [by apply class_with_id_not_err in Ew|].
        destruct i1 as [|c i1]; [done|]. cbn [head_in begins] in *. set_solver.
      * by eapply SC_cut.
    + assert (b = true /\ s' = s1) as [-> ->] by qinv b H.
      apply class_records_fail in Ec as (H1 & H2 & H3). by eapply SC_header.
    + by destruct b.
    + by destruct b.
  - assert (b = true /\ s' = s1) as [-> ->] by qinv b H. eapply SC_with_id; [exact El|]. by apply Hid.
  - by destruct b.
  - by destruct b.
Qed.
Lemma array_tail_quit b code k fuel len id bs s i s' er :
  (code = x10 /\ k = K_Any) \/ (code = x11 /\ k = K_StringArray) ->
  e_array_header code id len bs -> st_classes s = ∅ ->
  (let! (s, input, ms) := array_loop (parse_member PC k) fuel len 0 s i in
   let! (s, input, vs) := resolve_members PR ms s input in
   (s, Ok input (id, vs))) = (s', stop_res (quit b er)) ->
  stops_record b (env_of s) (bs ++ i) (env_of s').
Proof.
  intros Hck Hb Hs H. apply sbind_quit in H as [E1|(s1 & i1 & ms & E1 & H)].
  - apply array_loop_quit in E1 as (its & e1 & i1 & Hi & Hlen & H); [|done].
    eapply SR_array; [done|done|done|lia|done].
  - apply (array_loop_sound PC MPC SPC NPC) in E1 as (Hs1 & its & -> & Hits & Hf); [|done].
    rewrite resolve_expand in H.
    apply sbind_quit in H as [E2|(s2 & i2 & vs & _ & H)]; [|by apply ok_quit in H].
    apply resolve_quit in E2 as (its1 & rid & its2 & vs & e1 & i2 & -> & Hr & Hn & Hh'); [|done].
    eapply SR_array_resolve; [done|done|done| |done|done|done].
    destruct Hf as [[Hle Hx']|(init & last & Hx' & Hf)].
    + by destruct its1.
    + right. exists init, last. split; [done|]. lia.
Qed.
Lemma array_single_object_quit b s i s' er : st_classes s = ∅ -> head_in [x10] i ->
  parse_array_single_object PC PR s i = (s', stop_res (quit b er)) -> stops_record b (env_of s) i (env_of s').
Proof.
  intros Hs Hh H. unfold parse_array_single_object in H. pose proof (soft_array_object i) as Hsf.
  destruct (array_single_object i) as [i0 ai|e|e|p|] eqn:E; try (by destruct b).
  - apply array_single_object_exact in E as (bs & Hb & ->).
    eapply (array_tail_quit b x10 K_Any); [by left|exact Hb|done|exact H].
  - exfalso. apply Hsf; [by eexists|done].
  - assert (b = true /\ s' = s) as [-> ->] by qinv b H. eapply (SR_array_header x10); [by left|done|].
    intros (id & len & b & r & Hb & ->).
    by rewrite (exact_ok _ _ (mkArrayInfo id len) b r array_single_object_exact) in E.
Qed.
Lemma array_single_string_quit b s i s' er : st_classes s = ∅ -> head_in [x11] i ->
  parse_array_single_string PC PR s i = (s', stop_res (quit b er)) -> stops_record b (env_of s) i (env_of s').
Proof.
  intros Hs Hh H. unfold parse_array_single_string in H. pose proof (soft_array_string i) as Hsf.
  destruct (array_single_string i) as [i0 ai|e|e|p|] eqn:E; try (by destruct b).
  - apply array_single_string_exact in E as (bs & Hb & ->).
    eapply (array_tail_quit b x11 K_StringArray); [by right|exact Hb|done|exact H].
  - exfalso. apply Hsf; [by eexists|done].
  - assert (b = true /\ s' = s) as [-> ->] by qinv b H. eapply (SR_array_header x11); [by right|done|].
    intros (id & len & b & r & Hb & ->).
    by rewrite (exact_ok _ _ (mkArrayInfo id len) b r array_single_string_exact) in E.
Qed.
Lemma binary_array_quit b s i s' er : st_classes s = ∅ -> head_in [x07] i ->
  parse_binary_array PC PR s i = (s', stop_res (quit b er)) -> stops_record b (env_of s) i (env_of s').
Proof.
  intros Hs Hh H. unfold parse_binary_array in H.
  destruct (binary_array_parse i) as [i1 ba|e|e|p|] eqn:E; try (by destruct b).
  - apply binary_array_exact in E as (bs & (k & Hbt & Hai & Hb) & ->).
    assert (k <> K_Any) as HkA.
    { destruct Hb as (? & ? & ? & ? & ? & _ & _ & _ & Hk & _). by apply e_kind_code_iff in Hk as [Hk _]. }
    destruct (checked_product 1 (ba_lengths ba)) as [n|] eqn:Ep.
    2:{ assert (b = true /\ s' = s) as [-> ->] by qinv b H. eapply SR_binary_overflow; [exact Hb|]. intros Hno.
        rewrite checked_product_complete in Ep by (intros j Hj; rewrite N.mul_1_l; by apply Hno). done. }
    apply checked_product_sound in Ep as [-> Hno]; [|done]. rewrite N.mul_1_l in H.
    rewrite Hbt, Hai in H.
    assert (no_overflow (ba_lengths ba)) as Hno'.
    { intros j Hj. specialize (Hno j Hj). by rewrite N.mul_1_l in Hno. }
    rewrite <- parse_member_typed_eq in H by exact HkA.
    apply sbind_quit in H as [E1|(s1 & i2 & ms & E1 & H)].
    + apply scount_quit in E1 as (its & e1 & i2 & Hi & Hlen & H); [|done]. eapply SR_binary; done.
    + unfold scount in E1; apply scount_ok, (items_sound PC MPC SPC NPC) in E1 as (Hs2 & its & -> & Hits); [|exact Hs].
      apply sbind_quit in H as [E2|(s2 & i3 & vs & _ & H)].
      * apply resolve_quit in E2 as (its1 & rid & its2 & vs & e1 & i3 & -> & Hr & Hn & Hh'); [|done].
        eapply SR_binary_resolve; done.
      * exfalso. injection H as _ H. pose proof (chunk_dims_quit (rev (drop 1 (ba_lengths ba))) vs i3) as Hc.
        destruct (chunk_dims _ vs i3) as [i4 r|e|e|p|]; cbn [bind] in H; try (by destruct b).
        -- by destruct (Hc false e).
        -- by destruct (Hc true e).
  - assert (b = false /\ s' = s) as [-> ->] by qinv b H.
    assert (soft (binary_array_parse i)) as [Hf|Hf]%soft_binary_array by (eexists; exact E); [done|].
    by apply SR_binary_cut.
  - assert (b = true /\ s' = s) as [-> ->] by qinv b H.
    assert (exists er, binary_array_parse i = Fail er) as Hf by eauto.
    apply (fail_iff _ _ _ _ binary_array_exact (binary_array_safe i) (soft_binary_array i)) in Hf as [H1 H2].
    apply SR_binary_header; [done|tauto|]. intros (id & bat & lengths & bounds & k & b & r & Hb & ->). apply H1.
    exists (mkBinaryArray id bat lengths bounds (kind_bt k) (kind_ai k)), b, r. split; [by exists k|done].
Qed.
End methods.

Lemma finish_quit {A} b i (f : A -> N * value) (r : sres A) s' er :
  ref_finish i f r = (s', stop_res (quit b er)) -> exists er', r = (s', stop_res (quit b er')).
Proof.
  destruct r as [s [i' a|e|e|p|]]; cbn [ref_finish]; intros H; destruct b; cbn [quit stop_res] in *; try discriminate H;
    injection H as -> _; by exists e.
Qed.
Lemma prim_array_fail' i er : prim_array_parse i = Fail er ->
  ~ cut_prim_array i /\ ~ (exists id p vs b r, e_prim_array id p vs b /\ i = b ++ r).
Proof.
  intros H. assert (exists er, prim_array_parse i = Fail er) as Hf by eauto.
  apply (fail_iff _ _ _ _ prim_array_exact (prim_array_safe i) (soft_prim_array i)) in Hf as [H1 H2].
  split; [tauto|]. intros (id & p & vs & b & r & Hb & ->). apply H1. exists (id, vs), b, r. split; [by exists p|done].
Qed.
Lemma string_record_fail' i er : binary_object_string i = Fail er ->
  ~ cut_string_record i /\ ~ (exists id s b r, e_string_record id s b /\ i = b ++ r).
Proof.
  intros H. assert (exists er, binary_object_string i = Fail er) as Hf by eauto.
  apply (fail_iff _ _ _ _ binary_object_string_exact (binary_object_string_safe i) (soft_string_record i)) in Hf as [H1 H2].
  split; [tauto|]. intros (id & s & b & r & Hb & ->). apply H1. exists (id, s), b, r. done.
Qed.

Lemma quit_found f :
  (forall b s i s' er, st_classes s = ∅ -> parse_classes f s i = (s', stop_res (quit b er)) ->
     stops_class b (env_of s) i (env_of s'))
  /\ (forall b s i s' er, st_classes s = ∅ -> parse_referenceable f s i = (s', stop_res (quit b er)) ->
     stops_record b (env_of s) i (env_of s')).
Proof.
  induction f as [|f [IH1 IH2]]; [by split; intros []|].
  assert (forall s i er, no_library i -> ~ head_in [x01; x02; x03; x04; x05] i ->
    (parse_classes f s i).2 <> Fail er) as HN.
  { intros s i er Hl Hh. destruct f as [|f]; [done|]. rewrite parse_classes_S.
    destruct (parse_classes_body_err (parse_classes f) (parse_referenceable f) s i Hl Hh) as [e ->]. done. }
  assert (forall b s i s' er, st_classes s = ∅ -> parse_classes (S f) s i = (s', stop_res (quit b er)) ->
     stops_class b (env_of s) i (env_of s')) as HC.
  { intros b s i s' er Hc H. rewrite parse_classes_S in H.
    eapply classes_body_quit in H; eauto using mono_classes, mono_referenceable, parse_classes_nothing; apply g_sound. }
  split; [exact HC|].
  intros b s i s' er Hc H.
  destruct f as [|f]; [by destruct b|]. 
  destruct (parse_classes (S f) s i) as [s1 [i1 a|e|e|p|]] eqn:Ec.
  - rewrite parse_referenceable_S in H. unfold parse_referenceable_body in H. rewrite Ec in H. by apply ok_quit in H.
  - destruct (binary_library i) as [rest [lid name]|e'|e'|p|] eqn:El.
    + pose proof (parse_classes_library _ _ _ _ _ _ _ _ Ec El) as Hd.
      rewrite parse_referenceable_S in H. unfold parse_referenceable_body in H. rewrite Ec in H.
      unfold smap in H. cbn [fst snd rmap bind alt_mut] in H.
      unfold parse_arrays, parse_binary_library in H. rewrite El in H. cbn [opt] in H.
      rewrite bool_decide_eq_true_2 in H by done. cbn [sbind fst snd rmap bind alt_mut] in H.
      assert (b = true /\ s' = set_libs s1 (<[lid:=name]> (st_libs s1))) as [-> ->] by qinv b H.
      apply binary_library_exact in El as (bs & Hb & ->).
      apply (SR_library_again (env_of s) bs rest lid name (env_of s1)); [exact Hb|]. eapply (IH1 false _ _ _ e); [done|exact Ec].
    + assert (no_library i) as Hl by (apply no_library_iff; eauto).
      destruct (decide (head_in [x01; x02; x03; x04; x05] i)) as [Hh2|Hh2].
      { rewrite (ref_class_err _ _ _ _ _ Ec) in H by done.
        assert (b = false /\ s' = s1) as [-> ->] by qinv b H. apply SR_class_given_up; [done|]. eapply (IH1 false _ _ _ e); [done|exact Ec]. }
      destruct (parse_classes_nothing (S f) s i Hl Hh2) as [H3 _]. rewrite Ec in H3. cbn [fst] in H3. subst s1.
      destruct (decide (head_in [x10] i)) as [Hh|Hn10].
      { rewrite ref_object_array in H by done. apply finish_quit in H as [er' H].
        eapply array_single_object_quit in H; eauto using mono_classes, mono_referenceable, parse_classes_nothing; apply g_sound. }
      destruct (decide (head_in [x11] i)) as [Hh|Hn11].
      { rewrite ref_string_array in H by done. apply finish_quit in H as [er' H].
        eapply array_single_string_quit in H; eauto using mono_classes, mono_referenceable, parse_classes_nothing; apply g_sound. }
      destruct (decide (head_in [x07] i)) as [Hh|Hn07].
      { rewrite ref_binary_array in H by done. apply finish_quit in H as [er' H].
        eapply binary_array_quit in H; eauto using mono_classes, mono_referenceable, parse_classes_nothing; apply g_sound. }
      destruct (decide (head_in [x0f] i)) as [Hh|Hn0f].
      { rewrite ref_prim_array in H by done. apply finish_quit in H as [er' H].
        unfold parse_array_single_primitive in H. change (bind _ _) with (prim_array_parse i) in H.
        injection H as -> H. apply quit_cases in H as [[-> H]|[-> H]].
        - apply prim_array_fail' in H as [H1 H2]. by apply SR_prims.
        - assert (soft (prim_array_parse i)) as [Hf|Hf]%soft_prim_array by (eexists; exact H); [done|]. by apply SR_prims_cut. }
      destruct (decide (head_in [x06] i)) as [Hh|Hn06].
      { rewrite ref_string in H by done. apply finish_quit in H as [er' H].
        injection H as -> H. apply quit_cases in H as [[-> H]|[-> H]].
        - apply string_record_fail' in H as [H1 H2]. by apply SR_string.
        - assert (soft (binary_object_string i)) as [Hf|Hf]%soft_string_record by (eexists; exact H); [done|]. by apply SR_string_cut. }
      assert (~ head_in [x01; x02; x03; x04; x05; x06; x07; x0f; x10; x11] i) as Hn.
      { intros Hh. destruct i as [|c i]; [done|]. cbn [head_in] in *. set_solver. }
      destruct (referenceable_err_head f s i Hl) as [er1 Her1]; [nohead|]. rewrite Her1 in H.
      assert (b = false /\ s' = s) as [-> ->] by qinv b H. by apply SR_none.
    + exfalso. rewrite parse_classes_S in Ec. unfold parse_classes_body, parse_binary_library in Ec. by rewrite El in Ec.
    + pose proof (binary_library_safe i) as Hs. by rewrite El in Hs.
    + pose proof (binary_library_safe i) as Hs. by rewrite El in Hs.
  - rewrite (ref_class_fail _ _ _ _ _ Ec) in H. assert (b = true /\ s' = s1) as [-> ->] by qinv b H.
    apply SR_class. eapply (IH1 true _ _ _ e); [done|exact Ec].
  - rewrite (ref_class_panic _ _ _ _ _ Ec) in H. by destruct b.
  - rewrite parse_referenceable_S in H. unfold parse_referenceable_body in H. rewrite Ec in H. by destruct b.
Qed.

(** ** What is specified happens *)
Lemma lib_stops e i e' : stops_lib e i e' -> exists er, parse_binary_library (st e) i = (st e', Fail er).
Proof.
  intros [r Hn|id name bs i0 Hb Hd]; unfold parse_binary_library.
  - assert (exists er, binary_library (x0c :: r) = Fail er) as [er ->]; [|by exists er].
    unfold binary_library. rewrite (rt_ok RT_BinaryLibrary).
    destruct (library_id r) as [r1 id|er|er|p|] eqn:E; cbn [bind].
    + exfalso. apply library_id_exact in E as (b & Hb & ->). apply Hn. by exists id, b, r1.
    + by apply positive_id_not_err in E.
    + by exists er.
    + pose proof (positive_id_safe E_InvalidLibraryId r) as Hs. unfold library_id in E. by rewrite E in Hs.
    + pose proof (positive_id_safe E_InvalidLibraryId r) as Hs. unfold library_id in E. by rewrite E in Hs.
  - rewrite (exact_ok binary_library _ (id, name) bs i0 binary_library_exact) by done. cbn [opt].
    rewrite bool_decide_eq_true_2 by done. eexists. reflexivity.
Qed.
Lemma classes_nothing i : no_library i -> ~ head_in [x01; x02; x03; x04; x05] i ->
  exists er, forall f s, parse_classes (S f) s i = (s, Err er).
Proof.
  intros Hl Hh. destruct (class_with_id_err i) as [e1 H1]; [nohead|].
  destruct (class_records_err i) as [e2 H2]; [nohead|]. exists e2. intros f s.
  rewrite parse_classes_S. unfold parse_classes_body.
  rewrite parse_binary_library_none by done. cbn [sbind]. by rewrite H1, H2.
Qed.
Lemma member_leaf f k e i e1 i1 :
  k <> K_Object -> k <> K_ObjectArray -> g_lib e i e1 i1 -> kind_ok e1 k -> ~ (may_be_class k /\ class_start i1) ->
  (forall er, leaf k i1 <> Err er) \/ k <> K_Any ->
  parse_member (parse_classes (S f)) k (st e) i = (st e1, leaf k i1).
Proof.
  intros Hk1 Hk2 Hl Hok Hnc Hr. 
  destruct k as [|p| | |n|n lid| | |p]; try done; cbn [parse_member kind_bt kind_ai];
    unfold parse_member_untyped, parse_member_typed;
    rewrite (parse_binary_library_complete _ _ _ _ Hl); cbn [sbind kind_bt kind_ai]; try reflexivity.
  - unfold member_untyped_body. change (alt _ _) with (leaf K_Any i1). destruct Hr as [Hr|]; [|done].
    destruct (leaf K_Any i1) as [i2 a|er|er|p|] eqn:E; try done. by destruct (Hr er).
  - assert (~ class_start i1) as Hn by (intros ?; apply Hnc; split; [by right|done]).
    apply not_class_start in Hn as [Hn1 Hn2]. destruct (classes_nothing i1 Hn1 Hn2) as [er Her].
    unfold class_or_null. by rewrite Her.
  - assert (~ class_start i1) as Hn by (intros ?; apply Hnc; split; [by right|done]).
    apply not_class_start in Hn as [Hn1 Hn2]. destruct (classes_nothing i1 Hn1 Hn2) as [er Her].
    cbn [cti_library_id cti_type_name]. destruct Hok as [l Hok]. cbn [st st_libs]. rewrite Hok.
    unfold class_or_null. change (mkState (e_libs e1) ∅ (e_objs e1)) with (st e1). by rewrite Her.
Qed.
Lemma member_leaf_any e i e1 i1 er :
  g_lib e i e1 i1 -> ~ class_start i1 -> leaf K_Any i1 = Err er ->
  exists er', forall f, parse_member (parse_classes (S f)) K_Any (st e) i = (st e1, Err er').
Proof.
  intros Hl Hn E. apply not_class_start in Hn as [Hn1 Hn2]. destruct (classes_nothing i1 Hn1 Hn2) as [er' Her].
  exists er'. intros f0. cbn [parse_member]. unfold parse_member_untyped.
  rewrite (parse_binary_library_complete _ _ _ _ Hl); cbn [sbind]. unfold member_untyped_body.
  change (alt _ _) with (leaf K_Any i1). rewrite E, Her. done.
Qed.
Lemma member_soft k e i e1 i1 :
  k <> K_Object -> k <> K_ObjectArray -> g_lib e i e1 i1 -> kind_ok e1 k -> ~ (may_be_class k /\ class_start i1) ->
  soft (leaf k i1) ->
  exists er, ev (fun f => parse_member (parse_classes f) k (st e) i) (st e1, Err er).
Proof.
  intros Hk1 Hk2 Hl Hok Hnc [er E]. assert (k = K_Any \/ k <> K_Any) as [-> |Hk] by (destruct k; auto).
  - destruct (member_leaf_any e i e1 i1 er Hl) as [er' H]; [|done|].
    { intros ?. apply Hnc. split; [by left|done]. }
    exists er'. apply ev_S. exists 0. intros f _. apply H.
  - exists er. apply ev_S. exists 0. intros f _. rewrite <- E. apply member_leaf; auto.
Qed.
Lemma cut_not_class k i : cut_item k i -> ~ (may_be_class k /\ class_start i).
Proof.
  intros H [[-> |Hd] Hs]; [|by destruct k]. apply class_start_head in Hs. destruct H as [H|(r & -> & _)].
  - apply cut_string_head in H. assert (~ head_in [x06] i) by hd. done.
  - cbn in Hs. set_solver.
Qed.
Lemma head_not_class k i : item_head k i -> ~ (may_be_class k /\ class_start i).
Proof.
  intros H [Hm Hs]. apply class_start_head in Hs.
  assert (~ head_in [x06; x08; x09; x0a; x0d; x0e] i) as Hn by hd. apply Hn.
  destruct Hm as [-> |Hd]; [exact H|]. destruct k; try done; destruct i as [|c i]; try done; cbn [item_head begins head_in] in *; set_solver.
Qed.
Lemma quit_ev {A} (P : nat -> sres A) s f er : ev P (s, stop_res (quit f er)) -> exists er, ev P (s, stop_res (quit f er)).
Proof. eauto. Qed.

Lemma stops_quit :
  (forall b e i e', stops_class b e i e' ->
     exists er, ev (fun f => parse_classes f (st e) i) (st e', stop_res (quit b er)))
  /\ (forall b k e i e', stops_member b k e i e' ->
     exists er, ev (fun f => parse_member (parse_classes f) k (st e) i) (st e', stop_res (quit b er)))
  /\ (forall b id e i e', stops_next b id e i e' ->
     exists er, ev (fun f => verify_referenceable (parse_referenceable f) id (st e) i) (st e', stop_res (quit b er)))
  /\ (forall b e i e', stops_record b e i e' ->
     exists er, ev (fun f => parse_referenceable f (st e) i) (st e', stop_res (quit b er))).
Proof.
  apply stops_mut_ind.
  - intros e i e' H. destruct (lib_stops _ _ _ H) as [er E]. exists er. apply ev_S. exists 0. intros f _.
    rewrite parse_classes_S. unfold parse_classes_body. by rewrite E.
  - intros e i e1 i1 Hl Hn. change begins with head_in in Hn. destruct (class_with_id_err i1) as [er1 E1]; [nohead|].
    destruct (class_records_err i1) as [er2 E2]; [nohead|]. exists er2. apply ev_S. exists 0. intros f _.
    rewrite parse_classes_S. unfold parse_classes_body. rewrite (parse_binary_library_complete _ _ _ _ Hl). cbn [sbind].
    by rewrite E1, E2.
  - intros e i e1 i1 Hl Hh.
    assert (exists er, forall f, parse_classes (S f) (st e) i = (st e1, Fail er)) as [er Her].
    2:{ exists er. apply ev_S. exists 0. intros f _. apply Her. }
    pose proof (class_with_id_safe i1) as Hs.
    destruct (class_with_id i1) as [i2 [oid mid]|er|er|p|] eqn:E; try done.
    + eexists. intros f. rewrite parse_classes_S. unfold parse_classes_body.
      rewrite (parse_binary_library_complete _ _ _ _ Hl). cbn [sbind]. rewrite E. cbn [st st_classes]. rewrite lookup_empty. reflexivity.
    + by apply class_with_id_not_err in E.
    + exists er. intros f. rewrite parse_classes_S. unfold parse_classes_body.
      rewrite (parse_binary_library_complete _ _ _ _ Hl). cbn [sbind]. by rewrite E.
  - intros e i e1 i1 Hl Hc.
    assert (head_in [x02; x03; x04; x05] i1) as Hh.
    { destruct Hc; cbn [head_in]; set_solver. }
    destruct (class_with_id_err i1) as [er1 E1]; [hd|].
    assert (soft (class_records i1)) as [er2 E2] by (apply soft_class_records; by right).
    exists er2. apply ev_S. exists 0. intros f _. rewrite parse_classes_S. unfold parse_classes_body.
    rewrite (parse_binary_library_complete _ _ _ _ Hl). cbn [sbind]. by rewrite E1, E2.
  - intros e i e1 i1 Hl Hh Hc Hs. change begins with head_in in Hh.
    destruct (class_with_id_err i1) as [er1 E1]; [hd|].
    assert (exists er, class_records i1 = Fail er) as [er2 E2].
    { apply (fail_iff _ _ _ _ class_records_exact (class_records_safe i1) (soft_class_records i1)). split; [|tauto].
      intros (c & b & r & (h & -> & Hb) & ->). apply Hs. by exists h, b, r. }
    exists er2. apply ev_S. exists 0. intros f _. rewrite parse_classes_S. unfold parse_classes_body.
    rewrite (parse_binary_library_complete _ _ _ _ Hl). cbn [sbind]. by rewrite E1, E2.
  - intros e i e1 bs i1 h Hl Hh Hno.
    eexists. apply ev_S. exists 0. intros f _. rewrite parse_classes_S, (classes_members _ _ _ _ _ _ _ _ Hl Hh).
    unfold parse_class_body. cbn [st st_classes]. rewrite lookup_empty.
    rewrite bool_decide_eq_false_2 by (intros [? [=]]).
    unfold class_library in Hno. unfold class_rec_of.
    destruct (ch_library h) as [lid|]; [|exfalso; eauto].
    assert (e_libs e1 !! lid = None) as Hl0.
    { destruct (e_libs e1 !! lid) as [l|] eqn:E; [|done]. exfalso. eauto. }
    destruct (ch_types h); cbn [st st_libs]; rewrite Hl0; reflexivity.
  - intros b e i e1 bs i1 h lib ks1 k ks2 its e2 i2 e' Hl Hh Hlib Hk Hits _ [er IH].
    exists er. by eapply class_stop.
  - intros b e i e1 bs i1 h lib its1 id its2 e2 i2 vs e3 i3 e' Hl Hh Hlib Hits Hr Hn _ [er IH].
    exists er. by eapply class_resolve_stop.
  - intros k e i e' H. destruct (lib_stops _ _ _ H) as [er E]. exists er. exists 0. intros f _.
    destruct k; cbn [parse_member]; unfold parse_member_untyped, parse_member_typed; by rewrite E.
  - intros k e i e1 i1 Hl Hn. destruct k as [|p| | |n|n lid| | |p]; cbn [kind_ok] in Hn; try (by destruct Hn).
    eexists. exists 0. intros f _. cbn [parse_member kind_bt kind_ai]. unfold parse_member_typed.
    rewrite (parse_binary_library_complete _ _ _ _ Hl). cbn [sbind kind_bt kind_ai cti_library_id st st_libs].
    assert (e_libs e1 !! lid = None) as ->; [|reflexivity].
    destruct (e_libs e1 !! lid); [|done]. by destruct Hn.
  - intros k e i e1 i1 Hl Hok Hc. eapply (member_soft k e i e1 i1); [by destruct k|by destruct k|done|done|by apply cut_not_class|].
    apply leaf_soft. by right.
  - intros k e i e1 i1 Hk1 Hk2 Hl Hok Hh Hc. eapply (member_soft k e i e1 i1); [done..|].
    apply leaf_soft. by left.
  - intros k e i e1 i1 Hl Hok Hh Hc Hs.
    assert (exists er, leaf k i1 = Fail er) as [er E] by (by apply leaf_fail).
    exists er. apply ev_S. exists 0. intros f _. cbn [quit stop_res]. rewrite <- E.
    apply member_leaf; [by destruct k|by destruct k|done|done|by apply head_not_class|left; congruence].
  - intros b e i e1 i1 e' Hl Hs _ [er IH]. exists er. eapply ev_map1; [exact IH|]. intros f Hf. cbn [parse_member].
    unfold parse_member_untyped. rewrite (parse_binary_library_complete _ _ _ _ Hl). cbn [sbind].
    rewrite untyped_body_class' by done. rewrite Hf. apply smap_stop.
  - intros b k e i e1 i1 e' Hk Hl _ [er IH]. exists er. eapply ev_map1; [exact IH|]. intros f Hf.
    destruct Hk as [-> | ->]; cbn [parse_member]; unfold parse_member_typed;
      rewrite (parse_binary_library_complete _ _ _ _ Hl); cbn [sbind kind_bt kind_ai]; exact Hf.
  - intros b k e i e1 i1 e' Hk Hl Hkok Hs _ [er IH].
    assert (exists er, parse_null_object i1 = Err er) as [er1 Her].
    { apply parse_null_object_err. apply class_start_head in Hs. hd. }
    exists er1. eapply ev_map1; [exact IH|]. intros f Hf.
    destruct k as [|p| | |n|n lid| | |p]; try done; cbn [parse_member]; unfold parse_member_typed;
      rewrite (parse_binary_library_complete _ _ _ _ Hl); cbn [sbind kind_bt kind_ai].
    + unfold class_or_null. rewrite Hf. by destruct b; cbn [stop_res quit]; rewrite ?Her.
    + destruct Hkok as [l Hkok]. cbn [st st_libs cti_library_id]. rewrite Hkok.
      change (mkState (e_libs e1) ∅ (e_objs e1)) with (st e1).
      unfold class_or_null. rewrite Hf. by destruct b; cbn [stop_res quit]; rewrite ?Her.
  - intros k e i e1 i1 id o e2 i2 Hk Hl Hkok Hg Hn.
    destruct g_complete as (HgC & _). eexists. exists (2 * length i1 + 1). intros f Hf. specialize (HgC _ _ _ _ _ _ Hg f).
    destruct k as [|p| | |n|n lid| | |p]; try done; cbn [parse_member]; unfold parse_member_typed;
      rewrite (parse_binary_library_complete _ _ _ _ Hl); cbn [sbind kind_bt kind_ai].
    + unfold class_or_null. rewrite HgC by lia. cbn [class_kind] in Hn.
      match goal with |- (if ?c then _ else _) = _ => destruct c eqn:Ec end; [|reflexivity].
      exfalso. apply Hn. unfold str_eqb in Ec. by rewrite andb_true_iff, !bool_decide_eq_true in Ec.
    + destruct Hkok as [l Hkok]. cbn [st st_libs cti_library_id cti_type_name]. rewrite Hkok.
      change (mkState (e_libs e1) ∅ (e_objs e1)) with (st e1).
      unfold class_or_null. rewrite HgC by lia. cbn [class_kind] in Hn.
      match goal with |- (if ?c then _ else _) = _ => destruct c eqn:Ec end; [|reflexivity].
      exfalso. apply Hn. unfold str_eqb in Ec. rewrite andb_true_iff, !bool_decide_eq_true in Ec. by exists l.
  - intros id e i id2 v e1 i1 Hg Hne. destruct g_complete as (_ & _ & _ & _ & HgR).
    eexists. exists (2 * length i + 2). intros f Hf. unfold verify_referenceable. rewrite (HgR _ _ _ _ _ _ Hg f) by lia.
    rewrite (proj2 (N.eqb_neq _ _)) by done. reflexivity.
  - intros b id e i e' _ [er IH]. exists er. eapply ev_map1; [exact IH|]. intros f Hf. unfold verify_referenceable.
    rewrite Hf. by destruct b.
  - intros e i Hl Hn. change begins with head_in in Hn. destruct (referenceable_err_head 0 (st e) i Hl) as [er1 Her1]; [nohead|].
    exists er1. exists 2. intros f Hf. by apply (referenceable_lift 2 f).
  - intros e i e' _ [er IH]. exists er. apply ev_S. eapply ev_map1; [exact IH|]. intros f Hf. by apply ref_class_fail.
  - intros e i e' Hh _ [er [F IH]]. eexists. apply ev_S, ev_S. exists F. intros f Hf.
    apply (ref_class_err f _ _ _ er); [apply IH; lia|exact Hh].
  - intros e bs i id name e' Hb Hst [er [F IH]]. exists (mkError i E_DuplicateLibraryId). apply ev_S. exists (S F). intros f Hf.
    rewrite parse_referenceable_S. unfold parse_referenceable_body. rewrite IH by lia. unfold smap at 1.
    cbn [fst snd stop_res quit rmap bind alt_mut].
    assert (binary_library (bs ++ i) = Ok i (id, name)) as El
      by (by rewrite (exact_ok binary_library _ (id, name) bs i binary_library_exact)).
    assert (is_Some (e_libs e' !! id)) as Hd.
    { change (is_Some (st_libs (st e') !! id)). eapply (parse_classes_library f); [|exact El]. apply (IH f). lia. }
    unfold parse_arrays, parse_binary_library. rewrite El. cbn [opt].
    rewrite bool_decide_eq_true_2 by done. reflexivity.
  - intros e i Hc. pose proof (cut_string_head _ Hc) as Hh. eexists. apply ev_S, ev_S. exists 0. intros f _.
    rewrite ref_string by done. assert (soft (binary_object_string i)) as [er ->] by (apply soft_string_record; by right). reflexivity.
  - intros e i Hh Hc Hs. change begins with head_in in Hh.
    assert (exists er, binary_object_string i = Fail er) as [er E].
    { apply (fail_iff _ _ _ _ binary_object_string_exact (binary_object_string_safe i) (soft_string_record i)). split; [|tauto].
      intros ([id s] & b & r & Hb & ->). apply Hs. by exists id, s, b, r. }
    exists er. apply ev_S, ev_S. exists 0. intros f _. rewrite ref_string by done. by rewrite E.
  - intros e i Hc. assert (head_in [x0f] i) as Hh.
    { destruct Hc as (? & ? & ? & ? & ? & ? & Hb & _ & _ & _ & _ & ->). destruct Hb as (? & ? & _ & _ & ->). hd. }
    eexists. apply ev_S, ev_S. exists 0. intros f _. rewrite ref_prim_array by done.
    unfold parse_array_single_primitive. change (bind _ _) with (prim_array_parse i).
    assert (soft (prim_array_parse i)) as [er ->] by (apply soft_prim_array; by right). reflexivity.
  - intros e i Hh Hc Hs. change begins with head_in in Hh.
    assert (exists er, prim_array_parse i = Fail er) as [er E].
    { apply (fail_iff _ _ _ _ prim_array_exact (prim_array_safe i) (soft_prim_array i)). split; [|tauto].
      intros ([id vs] & b & r & [p Hb] & ->). apply Hs. by exists id, p, vs, b, r. }
    exists er. apply ev_S, ev_S. exists 0. intros f _. rewrite ref_prim_array by done.
    unfold parse_array_single_primitive. change (bind _ _) with (prim_array_parse i). by rewrite E.
  - intros code e i Hcode Hh Hs. change begins with head_in in Hh.
    assert (exists er, forall f, parse_referenceable (S (S f)) (st e) i = (st e, Fail er)) as [er Her].
    2:{ exists er. apply ev_S, ev_S. exists 0. intros f _. apply Her. }
    destruct Hcode as [-> | ->].
    + pose proof (array_single_object_safe i) as Hsf. pose proof (soft_array_object i) as Hso.
      destruct (array_single_object i) as [i0 ai|er|er|p|] eqn:E; try done.
      * exfalso. apply array_single_object_exact in E as (bs & Hb & ->). apply Hs. by eexists _, _, bs, i0.
      * exfalso. apply Hso; [by eexists|done].
      * exists er. intros f. rewrite ref_object_array by done. unfold parse_array_single_object. by rewrite E.
    + pose proof (array_single_string_safe i) as Hsf. pose proof (soft_array_string i) as Hso.
      destruct (array_single_string i) as [i0 ai|er|er|p|] eqn:E; try done.
      * exfalso. apply array_single_string_exact in E as (bs & Hb & ->). apply Hs. by eexists _, _, bs, i0.
      * exfalso. apply Hso; [by eexists|done].
      * exists er. intros f. rewrite ref_string_array by done. unfold parse_array_single_string. by rewrite E.
  - intros code k b e id len bs i its e1 i1 e' Hcode Hh Hits Hlt _ [er [F1 H1]].
    destruct (ev_items _ _ _ _ _ _ Hits) as [F2 H2].
    assert (exists er', stop_res (A:=N) match quit b er with S_Err _ => S_Err (mkError (bs ++ i) E_Other) | y => y end = stop_res (quit b er')) as [er' Her'].
    { destruct b; [by exists er|by eexists]. }
    exists er'. apply ev_S, ev_S. exists (F1 + F2). intros f Hf. rewrite (array_info code k) with (id := id) (len := len) by done.
    rewrite (array_loop_stop (parse_classes (S f)) k its len 0 (st e) i (st e1) i1 (st e') (quit b er)).
    + rewrite <- Her'. destruct b; reflexivity.
    + apply H2. lia.
    + apply g_items_length in Hits as [Hl _]. lia.
    + lia.
    + apply H1. lia.
  - intros code k b e id len bs i its1 rid its2 e1 i1 vs e2 i2 e' Hcode Hh Hits Hfl Hres Hn _ [er [F1 H1]].
    assert (exists er', stop_res (A:=N) match quit b er with S_Err _ => S_Err (mkError (bs ++ i) E_Other) | y => y end = stop_res (quit b er')) as [er' Her'].
    { destruct b; [by exists er|by eexists]. }
    exists er'. apply ev_S, ev_S.
    destruct (ev_items _ _ _ _ _ _ Hits) as [F2 H2]. destruct (ev_resolve _ _ _ _ _ _ Hres) as [F3 H3].
    exists (F1 + F2 + F3). intros f Hf. rewrite (array_info code k) with (id := id) (len := len) by done.
    rewrite (array_loop_items (parse_classes (S f)) k (its1 ++ It_Ref rid :: its2) (S (length i)) len 0 (st e) i (st e1) i1).
    + cbn [sbind]. rewrite resolve_expand.
      rewrite (resolve_stop _ _ _ _ _ _ (st e2) i2 vs (st e') (quit b er)); [|apply H3; lia|done|apply H1; lia].
      rewrite <- Her'. destruct b; reflexivity.
    + apply H2. lia.
    + apply g_items_length in Hits as [Hl _]. lia.
    + destruct Hfl as [[_ Hx]|(init & last & Hx & Hlt)]; [by destruct its1|].
      right. exists init, last. split; [done|]. lia.
    + by eapply g_items_size.
  - intros e i Hc. assert (head_in [x07] i) as Hh.
    { destruct Hc as (? & ? & ? & ? & ? & ? & ? & ? & _ & _ & _ & _ & _ & ->). hd. }
    eexists. apply ev_S, ev_S. exists 0. intros f _. rewrite ref_binary_array by done. unfold parse_binary_array.
    assert (soft (binary_array_parse i)) as [er ->] by (apply soft_binary_array; by right). reflexivity.
  - intros e i Hh Hc Hs. change begins with head_in in Hh.
    assert (exists er, binary_array_parse i = Fail er) as [er E].
    { apply (fail_iff _ _ _ _ binary_array_exact (binary_array_safe i) (soft_binary_array i)). split; [|tauto].
      intros (ba & b & r & (k & Hbt & Hai & Hb) & ->). apply Hs. by eexists _, _, _, _, k, b, r. }
    exists er. apply ev_S, ev_S. exists 0. intros f _. rewrite ref_binary_array by done.
    unfold parse_binary_array. by rewrite E.
  - intros e id bat lengths bounds k bs i Hb Hno. 
    eexists. apply ev_S, ev_S. exists 0. intros f _.
    assert (exists b, bs = x07 :: b) as [b Eb] by (destruct Hb as (? & ? & ? & ? & ? & _ & _ & _ & _ & _ & ->); eauto).
    rewrite ref_binary_array by (rewrite Eb; hd). unfold parse_binary_array.
    rewrite (exact_ok binary_array_parse _
      (mkBinaryArray id bat lengths bounds (kind_bt k) (kind_ai k)) bs i binary_array_exact)
      by (by exists k).
    cbn [ba_lengths].
    destruct (checked_product 1 lengths) as [n|] eqn:Ep; [|reflexivity].
    exfalso. apply Hno. apply checked_product_sound in Ep as [_ Hx]; [|done].
    intros j Hj. specialize (Hx j Hj). by rewrite N.mul_1_l in Hx.
  - intros b e id bat lengths bounds k bs i its e1 i1 e' Hh Hno Hits Hlt _ [er [F1 H1]].
    assert (exists er', stop_res (A:=N) match quit b er with S_Err _ => S_Err (mkError (bs ++ i) E_Other) | y => y end = stop_res (quit b er')) as [er' Her'].
    { destruct b; [by exists er|by eexists]. }
    exists er'. apply ev_S, ev_S. destruct (ev_items _ _ _ _ _ _ Hits) as [F2 H2].
    exists (F1 + F2). intros f Hf. rewrite (binary_info id bat lengths bounds k) by done.
    unfold scount. rewrite (scount_stop (parse_classes (S f)) k (length its) (product lengths) (st e) i (st e1) i1 (map vr_of its) (st e') (quit b er)).
    + rewrite <- Her'. destruct b; reflexivity.
    + apply H2. lia.
    + apply g_items_length in Hits as [Hl _]. lia.
    + lia.
    + apply H1. lia.
  - intros b e id bat lengths bounds k bs i its1 rid its2 e1 i1 vs e2 i2 e' Hh Hno Hits Hres Hn _ [er [F1 H1]].
    assert (exists er', stop_res (A:=N) match quit b er with S_Err _ => S_Err (mkError (bs ++ i) E_Other) | y => y end = stop_res (quit b er')) as [er' Her'].
    { destruct b; [by exists er|by eexists]. }
    exists er'. apply ev_S, ev_S.
    destruct (ev_items _ _ _ _ _ _ Hits) as [F2 H2]. destruct (ev_resolve _ _ _ _ _ _ Hres) as [F3 H3].
    exists (F1 + F2 + F3). intros f Hf. rewrite (binary_info id bat lengths bounds k) by done.
    unfold scount. rewrite <- (N2Nat.id (product lengths)).
    pose proof (g_items_length _ _ _ _ _ _ Hits) as [Hl Hl2]. rewrite replicate_length in Hl2.
    rewrite scount_items by lia. rewrite H2 by lia. cbn [sbind].
    rewrite (resolve_stop _ _ _ _ _ _ (st e2) i2 vs (st e') (quit b er)); [|apply H3; lia|done|apply H1; lia].
    rewrite <- Her'. destruct b; reflexivity.
Qed.

End with_decimal.
