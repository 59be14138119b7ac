(** * Ragged: where a panic comes from. *)
From Verif Require Import Base Utf8 Value DataTypes Records Parser Wire BaseLemmas DataTypesLemmas
  RecordsLemmas MethodLemmas SafetyLemmas Safety Grammar Heads Complete Sound Fuel Message Run Spec
  LemmasA LemmasB LemmasC Positions Reach LemmasD Trees TreeLemmas PropsA PropsB PropsC PropsD Calm.
From Coq Require Import Lia.

Section with_decimal.
Context {DL : DecimalLib}.

(** Specification: at [i], with the tables [e], there is a BinaryArray record whose items are all
    there, but stand for a number of values that does not fill up rows of the declared lengths. *)
Definition ragged (e : env) (i : bytes) : Prop :=
  exists id bat lengths bounds k bs i0 its e1 i1 vs e2 i2,
    i = bs ++ i0 /\ e_binary_array_header id bat lengths bounds k bs /\ no_overflow lengths
    /\ g_items (replicate (N.to_nat (product lengths)) k) e i0 its e1 i1
    /\ g_resolve its e1 i1 vs e2 i2
    /\ forall n, N.of_nat (length vs) <> (n * product (tail lengths))%N.

Lemma chunk_dims_length dims vs i : (vs <> [] -> Forall (fun l => l <> 0%N) dims) ->
  match chunk_dims dims vs i with
  | Ok _ out => length vs = N.to_nat (product dims) * length out \/ vs = []
  | Panic p => p = P_DrainOutOfRange /\ forall n, length vs <> N.to_nat (product dims) * n
  | _ => False
  end.
Proof.
  revert vs. induction dims as [|l dims IH]; intros vs Hd; cbn [chunk_dims]; [left; cbn; lia|].
  destruct (decide (vs = [])) as [->|Hne].
  { simpl. specialize (IH [] ltac:(done)). destruct (chunk_dims dims [] i); try done; [by right|].
    destruct IH as (_ & IH). exfalso. apply (IH 0). simpl. lia. }
  specialize (Hd Hne). inversion Hd as [|? ? Hl Hd']; subst.
  change (product (l :: dims)) with (l * product dims)%N. rewrite N2Nat.inj_mul.
  destruct (chunk_loop_ok (length vs) (N.to_nat l) vs i) as [(rows & -> & Hrows & Hc)|[-> Hn]]; [lia|lia| |].
  - cbn [bind]. specialize (IH (map VArray rows) (fun _ => Hd')).
    assert (length vs = N.to_nat l * length rows) as Hlen by (rewrite <- Hc; apply concat_length_const; done).
    rewrite map_length in IH. destruct (chunk_dims dims _ i); try done.
    + left. destruct IH as [IH|IH]; [by rewrite Hlen, IH, Nat.mul_assoc|]. by destruct rows.
    + destruct IH as [-> IH]. split; [done|]. intros n E. apply (IH n). rewrite Hlen, <- Nat.mul_assoc in E.
      apply Nat.mul_cancel_l in E; [done|lia].
  - cbn [bind]. split; [done|]. intros n E. apply (Hn (N.to_nat (product dims) * n)). by rewrite E, Nat.mul_assoc.
Qed.
Lemma product_cons x l : product (x :: l) = (x * product l)%N.
Proof. done. Qed.
Lemma product_app l1 l2 : product (l1 ++ l2) = (product l1 * product l2)%N.
Proof.
  induction l1 as [|x l1 IH]; [change (product []) with 1%N; by rewrite N.mul_1_l|].
  cbn [app]. by rewrite !product_cons, IH, N.mul_assoc.
Qed.
Lemma product_rev l : product (rev l) = product l.
Proof.
  induction l as [|x l IH]; [done|]. cbn [rev]. rewrite product_app, IH, !product_cons. change (product []) with 1%N.
  by rewrite N.mul_1_r, N.mul_comm.
Qed.

Definition doom {A} (s : state) (i : bytes) (r : sres A) : Prop :=
  st_classes s = ∅ ->
  st_classes r.1 = ∅
  /\ match r.2 with
     | Ok i' _ => i' ⊑s i
     | Panic p => p = P_Unreachable \/ p = P_DrainOutOfRange /\ exists e j, j ⊑s i /\ ragged e j
     | _ => True
     end.

Lemma doom_bind {A C} s i (r : sres A) (f : state -> bytes -> A -> sres C) :
  doom s i r -> (forall s' i' a, doom s' i' (f s' i' a)) -> doom s i (sbind r f).
Proof.
  intros H Hf Hc. destruct (H Hc) as [H1 H2]. destruct r as [s1 [i1 a|e|e|p|]]; cbn [fst snd sbind] in *; try done.
  destruct (Hf s1 i1 a H1) as [H3 H4]. split; [done|].
  destruct (f s1 i1 a) as [s2 [i2 b|e|e|p|]]; cbn [fst snd] in *; try done; [by etrans|].
  destruct H4 as [-> |(-> & e & j & Hj & Hr)]; [by left|]. right. split; [done|]. exists e, j. split; [by etrans|done].
Qed.
Lemma doom_pure {A} s i (r : res A) : rsafe i r -> doom s i (s, r).
Proof. intros Hs Hc. split; [exact Hc|]. cbn [fst snd]. destruct r as [i' a|e|e|p|]; [exact Hs|exact I|exact I|destruct Hs|exact I]. Qed.
Lemma doom_fail {A} s i (r : res A) : match r with Ok _ _ | Panic P_DrainOutOfRange => False | _ => True end -> doom s i (s, r).
Proof. intros Hn Hc. split; [done|]. cbn [fst snd]. destruct r as [i' a|e|e|[]|]; try done. by left. Qed.
Ltac df := first [by apply doom_fail | exfalso; match goal with H : _ |- _ => by destruct H end].
Lemma doom_ok {A} s i (a : A) : doom s i (s, Ok i a).
Proof. intros Hc. split; [exact Hc|]. cbn [fst snd]. reflexivity. Qed.
Lemma doom_smap {A C} (f : A -> C) s i r : doom s i r -> doom s i (smap f r).
Proof. intros H Hc. destruct (H Hc) as [H1 H2]. destruct r as [s1 [i1 a|e|e|p|]]; done. Qed.
Lemma doom_suffix {A} s i j (r : sres A) : j ⊑s i -> doom s j r -> doom s i r.
Proof.
  intros Hj H Hc. destruct (H Hc) as [H1 H2]. split; [done|].
  destruct r as [s1 [i1 a|e|e|p|]]; cbn [fst snd] in *; try done; [by etrans|].
  destruct H2 as [-> |(-> & e & j' & Hj' & Hr)]; [by left|]. right. split; [done|]. exists e, j'. split; [by etrans|done].
Qed.

Lemma doom_lib s i : doom s i (parse_binary_library s i).
Proof.
  unfold parse_binary_library. pose proof (binary_library_safe i) as Hs.
  destruct (binary_library i) as [i1 [lid name]|e|e|p|]; cbn [opt]; [|apply doom_ok|by apply doom_fail|destruct Hs|by apply doom_fail].
  intros Hc. case_bool_decide; cbn [fst snd set_libs st_classes]; (split; [exact Hc|]); [exact I|exact Hs].
Qed.

Section methods.
Context (PC : state -> bytes -> state * res (N * obj value)).
Context (PR : state -> bytes -> state * res N).
Hypothesis HPC : forall s i, doom s i (PC s i).
Hypothesis HPR : forall s i, doom s i (PR s i).
Hypothesis MPC : forall s i, mono s (PC s i).1.
Hypothesis MPR : forall s i, mono s (PR s i).1.
Hypothesis SPC : forall s i s' i' id o, st_classes s = ∅ ->
  PC s i = (s', Ok i' (id, o)) -> g_class (env_of s) i id o (env_of s') i'.
Hypothesis SPR : forall s i s' i' id, st_classes s = ∅ ->
  PR s i = (s', Ok i' id) ->
  exists v e', g_record (env_of s) i id v e' i' /\ env_of s' = add_obj id v e'.
Hypothesis NPC : forall s i, no_library i -> ~ head_in [x01; x02; x03; x04; x05] i ->
  (PC s i).1 = s /\ forall i' a, (PC s i).2 <> Ok i' a.

Lemma doom_untyped s i : doom s i (parse_member_untyped PC s i).
Proof.
  eapply doom_bind; [apply doom_lib|]. clear s i. intros s i _. unfold member_untyped_body.
  assert (rsafe i (alt (rmap VR_Value (member_primitive_typed i))
    (alt (parse_ref_member i) (alt (parse_string_member i) (parse_null_object i))))) as Hs.
  { apply gsafe_alt; [apply gsafe_map, member_primitive_typed_safe|]. apply gsafe_alt; [apply parse_ref_member_safe|].
    apply gsafe_alt; [apply parse_string_member_safe|apply parse_null_object_safe]. }
  destruct (alt _ _) as [i2 a|e|e|p|] eqn:E; try (by apply doom_pure). apply doom_smap, HPC.
Qed.
Lemma doom_class_or_null ok s i : doom s i (class_or_null PC ok s i).
Proof.
  unfold class_or_null. pose proof (HPC s i) as H. intros Hc. destruct (H Hc) as [H1 H2].
  pose proof (parse_null_object_safe i) as Hs.
  destruct (PC s i) as [s1 [i1 [id o]|e|e|p|]] eqn:E; cbn [fst snd] in *.
  - by destruct (ok o).
  - split; [exact H1|]. cbn [snd]. by destruct (parse_null_object i).
  - split; [exact H1|]. cbn [snd]. by destruct (parse_null_object i).
  - by split.
  - by split.
Qed.
Lemma doom_typed_member bt ai s i : doom s i (parse_member_typed PC bt ai s i).
Proof.
  eapply doom_bind; [apply doom_lib|]. clear s i. intros s i _.
  assert (doom s i (s, (Panic P_Unreachable : res value_or_ref))) as Hp by (by apply doom_fail).
  destruct bt, ai as [[ty|ty|ty]|]; auto using doom_untyped, doom_class_or_null.
  - apply doom_pure, gsafe_map, member_primitive_untyped_safe.
  - apply doom_pure, parse_string_member_safe.
  - destruct (st_libs s !! _) as [l|] eqn:E; [apply doom_class_or_null|by apply doom_fail].
  - apply doom_pure. apply gsafe_alt; [apply parse_string_member_safe|]. apply gsafe_alt; [apply parse_ref_member_safe|apply parse_null_object_safe].
  - apply doom_pure, parse_ref_member_safe.
Qed.
Lemma doom_members_typed l s i : doom s i (parse_members_typed PC l s i).
Proof.
  revert s i. induction l as [|[bt ai] l IH]; intros s i; [apply doom_ok|].
  cbn [parse_members_typed]. eapply doom_bind; [apply doom_typed_member|]. intros s1 i1 m.
  eapply doom_bind; [apply IH|]. intros s2 i2 ms. apply doom_ok.
Qed.
Lemma doom_scount_loop {A} fuel n (p : state -> bytes -> sres A) s i :
  (forall s i, doom s i (p s i)) -> doom s i (scount_loop fuel n p s i).
Proof.
  intros Hp. revert n s i. induction fuel as [|fuel IH]; intros n s i; cbn [scount_loop]; (destruct (N.eqb n 0); [apply doom_ok|]);
    [by apply doom_fail|].
  eapply doom_bind; [apply Hp|]. intros s1 i1 m. eapply doom_bind; [apply IH|]. intros s2 i2 ms. apply doom_ok.
Qed.
Lemma doom_array_loop p fuel len cur s i :
  (forall s i, doom s i (p s i)) -> doom s i (array_loop p fuel len cur s i).
Proof.
  intros Hp. revert cur s i. induction fuel as [|fuel IH]; intros cur s i; cbn [array_loop]; (destruct (N.leb len cur); [apply doom_ok|]);
    [by apply doom_fail|].
  eapply doom_bind; [apply Hp|]. intros s1 i1 m. eapply doom_bind; [apply IH|]. intros s2 i2 ms. apply doom_ok.
Qed.
Lemma doom_delete {A} s i id (r : sres A) : doom (set_objects s (delete id (st_objects s))) i r -> doom s i r.
Proof. intros H Hc. by destruct (H Hc). Qed.
Lemma doom_verify id s i : doom s i (verify_referenceable PR id s i).
Proof.
  unfold verify_referenceable. pose proof (HPR s i) as H.
  destruct (PR s i) as [s1 [i1 id2|e|e|p|]] eqn:E; try done. destruct (N.eqb _ _); [done|].
  intros Hc. by destruct (H Hc).
Qed.
Lemma doom_resolve ms s i : doom s i (resolve_members PR ms s i).
Proof.
  revert s i. induction ms as [|m ms IH]; intros s i; cbn [resolve_members]; [apply doom_ok|].
  destruct m as [v|n|id].
  - eapply doom_bind; [apply IH|]. intros. apply doom_ok.
  - eapply doom_bind; [apply IH|]. intros. apply doom_ok.
  - destruct (st_objects s !! id) as [v|].
    + apply (doom_delete _ _ id). eapply doom_bind; [apply IH|]. intros. apply doom_ok.
    + eapply doom_bind; [apply doom_verify|]. clear s i. intros s i id2. destruct (st_objects s !! id2) as [v|]; [|by apply doom_fail].
      apply (doom_delete _ _ id2). eapply doom_bind; [apply IH|]. intros. apply doom_ok.
Qed.
Lemma doom_class_body err oid c s i : doom s i (parse_class_body PC PR err oid c s i).
Proof.
  unfold parse_class_body. case_bool_decide; [by apply doom_fail|].
  eapply doom_bind.
  - assert (forall l : option str, doom s i (smap (pair l) (scount (N.of_nat (length (ci_member_names (cr_class_info c)))) (parse_member_untyped PC) s i))) as Hu.
    { intros l. apply doom_smap, doom_scount_loop. intros. apply doom_untyped. }
    assert (forall (l : option str) mti, doom s i (smap (pair l) (parse_members_with_type_info PC mti s i))) as Ht.
    { intros l mti. apply doom_smap, doom_members_typed. }
    destruct c as [ci lid|ci mti lid|ci|ci mti]; auto; (destruct (st_libs s !! lid); [by auto|by apply doom_fail]).
  - intros s1 i1 lm. eapply doom_bind; [apply doom_resolve|]. intros. apply doom_ok.
Qed.
Lemma doom_classes_body s i : doom s i (parse_classes_body PC PR s i).
Proof.
  eapply doom_bind; [apply doom_lib|]. clear s i. intros s i _.
  pose proof (class_with_id_safe i) as Hs1. pose proof (class_records_safe i) as Hs2.
  destruct (class_with_id i) as [i2 [oid mid]|e|e|p|]; try df.
  - destruct (st_classes s !! mid); [|by apply doom_fail]. apply (doom_suffix _ _ i2); [exact Hs1|apply doom_class_body].
  - destruct (class_records i) as [i2 c| | | |]; try df. apply (doom_suffix _ _ i2); [exact Hs2|apply doom_class_body].
Qed.
Lemma doom_array_single_object s i : doom s i (parse_array_single_object PC PR s i).
Proof.
  unfold parse_array_single_object. pose proof (array_single_object_safe i) as Hs.
  destruct (array_single_object i) as [i1 ai|e|e|p|]; try df. apply (doom_suffix _ _ i1); [exact Hs|].
  eapply doom_bind; [apply doom_array_loop; intros; apply doom_untyped|]. intros s2 i2 ms.
  eapply doom_bind; [apply doom_resolve|]. intros. apply doom_ok.
Qed.
Lemma doom_array_single_string s i : doom s i (parse_array_single_string PC PR s i).
Proof.
  unfold parse_array_single_string. pose proof (array_single_string_safe i) as Hs.
  destruct (array_single_string i) as [i1 ai|e|e|p|]; try df. apply (doom_suffix _ _ i1); [exact Hs|].
  eapply doom_bind; [apply doom_array_loop; intros; apply doom_typed_member|]. intros s2 i2 ms.
  eapply doom_bind; [apply doom_resolve|]. intros. apply doom_ok.
Qed.
Lemma doom_array_single_primitive s i : doom s i (parse_array_single_primitive s i).
Proof.
  unfold parse_array_single_primitive. apply doom_pure. apply gsafe_bind; [apply array_single_primitive_safe|]. intros i1 [ai p].
  apply gsafe_bind; [apply count_safe; [intros; apply member_primitive_untyped_safe|apply member_primitive_untyped_strict]|]. intros i2 vs. cbn. done.
Qed.
Lemma doom_binary_array s i : doom s i (parse_binary_array PC PR s i).
Proof.
  unfold parse_binary_array. pose proof (binary_array_safe i) as Hs.
  destruct (binary_array_parse i) as [i1 ba|e|e|p|] eqn:E; try df.
  destruct (checked_product 1 (ba_lengths ba)) as [n|] eqn:Ep; [|by apply doom_fail].
  assert (rsafe i (Ok i1 ba)) as Hi1 by exact Hs. clear Hs.
  apply binary_array_exact in E as (bs & (k & Hbt & Hai & Hb) & ->).
  apply checked_product_sound in Ep as [-> Hno]; [|done]. rewrite N.mul_1_l.
  rewrite Hbt, Hai.
  assert (k <> K_Any) as HkA.
  { destruct Hb as (? & ? & ? & ? & ? & _ & _ & _ & Hk & _). by apply e_kind_code_iff in Hk as [Hk _]. }
  assert (doom s (bs ++ i1) (scount (product (ba_lengths ba)) (parse_member_typed PC (kind_bt k) (kind_ai k)) s i1)) as D1.
  { apply (doom_suffix _ _ i1); [exact Hi1|]. apply doom_scount_loop. intros. apply doom_typed_member. }
  intros Hc. destruct (D1 Hc) as [Hc1 D1'].
  rewrite <- parse_member_typed_eq in * by exact HkA.
  destruct (scount _ _ s i1) as [s2 [i3 ms|e|e|p|]] eqn:E2; cbn [sbind fst snd] in *; try done.
  unfold scount in E2; apply scount_ok, (items_sound PC MPC SPC NPC) in E2 as (Hs2 & its & -> & Hits); [|exact Hc].
  destruct (doom_resolve (map vr_of its) s2 i3 Hs2) as [Hc2 D2].
  destruct (resolve_members PR _ s2 i3) as [s3 [i4 vs|e|e|p|]] eqn:E3; cbn [sbind fst snd] in *; try done.
  2:{ split; [done|]. destruct D2 as [-> |(-> & e & j & Hj & Hr)]; [by left|]. right. split; [done|]. exists e, j. split; [by etrans|done]. }
  apply (resolve_sound PR MPR SPR) in E3 as [Hs3 Hr]; [|exact Hs2].
  split; [exact Hc2|].
  assert (vs <> [] -> Forall (fun l => l <> 0%N) (rev (tail (ba_lengths ba)))) as Hpos.
  { intros Hne. pose proof (items_resolved_nonempty _ _ _ _ _ _ Hr Hne) as Hine.
    pose proof (g_items_length _ _ _ _ _ _ Hits) as [_ Hkl]. rewrite replicate_length in Hkl.
    assert (product (ba_lengths ba) <> 0%N) as Hp.
    { intros E0. rewrite E0 in Hkl. by destruct its. }
    apply fold_mul_nonzero in Hp. apply Forall_rev. destruct (ba_lengths ba); [done|]. by inv Hp. }
  pose proof (chunk_dims_input (rev (drop 1 (ba_lengths ba))) vs i4) as E1.
  pose proof (chunk_dims_length (rev (tail (ba_lengths ba))) vs i4 Hpos) as Hlen.
  replace (drop 1 (ba_lengths ba)) with (tail (ba_lengths ba)) in * by (by destruct (ba_lengths ba)).
  destruct (chunk_dims _ vs i4) as [i5 out|e|e|p|]; cbn [bind]; try done.
  - subst i5. by do 2 etrans.
  - right. destruct Hlen as [-> Hlen]. split; [done|]. exists (env_of s), (bs ++ i1). split; [done|].
    rewrite product_rev in Hlen.
    exists (ba_object_id ba), (ba_array_type ba), (ba_lengths ba), (ba_lower_bounds ba), k, bs, i1, its, (env_of s2), i3, vs, (env_of s3), i4.
    split; [done|]. split; [exact Hb|]. split.
    { intros j Hj. specialize (Hno j Hj). by rewrite N.mul_1_l in Hno. }
    split; [exact Hits|]. split; [exact Hr|]. intros n En. apply (Hlen (N.to_nat n)).
    apply (f_equal N.to_nat) in En. rewrite Nat2N.id, N2Nat.inj_mul in En. lia.
Qed.
Lemma doom_alt_mut {A} s i (r : sres A) k : doom s i r -> (forall s', doom s' i (k s')) -> doom s i (alt_mut r k).
Proof.
  intros H Hk Hc. destruct (H Hc) as [H1 H2]. destruct r as [s1 [i1 a|e|e|p|]]; cbn [alt_mut fst snd] in *; try done.
  by apply Hk.
Qed.
Lemma doom_arrays s i : doom s i (parse_arrays PC PR s i).
Proof.
  eapply doom_bind; [apply doom_lib|]. clear s i. intros s i _.
  apply doom_alt_mut; [apply doom_array_single_object|]. intros s1.
  apply doom_alt_mut; [apply doom_array_single_primitive|]. intros s2.
  apply doom_alt_mut; [apply doom_array_single_string|]. intros s3.
  apply doom_alt_mut; [apply doom_binary_array|]. intros s4. by apply doom_fail.
Qed.
Lemma doom_referenceable_body s i : doom s i (parse_referenceable_body PC PR s i).
Proof.
  eapply doom_bind.
  - apply doom_alt_mut; [apply doom_smap, HPC|]. intros s1.
    apply doom_alt_mut; [apply doom_smap, doom_arrays|]. intros s2.
    apply doom_alt_mut; [apply doom_pure, gsafe_map, binary_object_string_safe|]. intros s3. by apply doom_fail.
  - intros s1 i1 io Hc. split; [exact Hc|]. cbn [fst snd]. reflexivity.
Qed.
End methods.

Lemma doom_all f : (forall s i, doom s i (parse_classes f s i)) /\ (forall s i, doom s i (parse_referenceable f s i)).
Proof.
  induction f as [|f [IH1 IH2]]; [split; intros; by apply doom_fail|]. split; intros s i.
  - rewrite parse_classes_S. by apply doom_classes_body.
  - rewrite parse_referenceable_S. apply doom_referenceable_body; try done;
      eauto using mono_classes, mono_referenceable, parse_classes_nothing; apply g_sound.
Qed.
Lemma doom_referenceables lf f s i : doom s i (parse_referenceables lf f s i).
Proof.
  revert s i. induction lf as [|lf IH]; intros s i; cbn [parse_referenceables]; [by apply doom_fail|].
  pose proof (proj2 (doom_all f) s i) as H. intros Hc. destruct (H Hc) as [H1 H2].
  destruct (parse_referenceable f s i) as [s1 [i1 a|e|e|p|]]; cbn [fst snd] in *; try done.
  exact (doom_suffix _ _ _ _ H2 (IH s1 i1) H1).
Qed.
Lemma doom_call_array f root s i : doom s i (parse_call_array f root s i).
Proof.
  eapply doom_bind; [apply doom_lib|]. clear s i. intros s i _.
  eapply doom_bind; [apply doom_array_single_object; apply doom_all|]. clear s i. intros s i a.
  case_bool_decide; [apply doom_ok|by apply doom_fail].
Qed.
Lemma doom_sopt {A} s i (r : sres A) : doom s i r -> doom s i (sopt i r).
Proof.
  intros H Hc. destruct (H Hc) as [H1 H2]. unfold sopt. destruct r as [s1 [i1 a|e|e|p|]]; cbn [fst snd opt] in *; try done.
Qed.
Lemma args_safe' flags ca ia i : rsafe i (parse_args flags ca ia i).
Proof.
  unfold parse_args. destruct (intersects _ _); [destruct ca; cbn; done|].
  destruct (intersects _ _); [|cbn; done]. destruct ca as [[|[] ?]|]; cbn; done.
Qed.
Lemma doom_method f root s i : doom s i (parse_method_call_or_return f root s i).
Proof.
  unfold parse_method_call_or_return. apply doom_alt_mut; [apply doom_smap|intros s1; apply doom_alt_mut; [apply doom_smap|intros s2; by apply doom_fail]].
  - eapply doom_bind; [apply doom_lib|]. clear s i. intros s i _.
    pose proof (method_call_safe i) as Hs. destruct (binary_method_call_parse i) as [i1 c|e|e|p|]; try df.
    apply (doom_suffix _ _ i1); [exact Hs|]. eapply doom_bind; [apply doom_sopt, doom_call_array|].
    intros s2 i2 ca. apply doom_pure. apply gsafe_bind; [apply args_safe'|]. intros i3 args. cbn. done.
  - clear s. rename s1 into s. eapply doom_bind; [apply doom_lib|]. clear s i. intros s i _.
    pose proof (method_return_safe i) as Hs. destruct (binary_method_return_parse i) as [i1 c|e|e|p|]; try df.
    apply (doom_suffix _ _ i1); [exact Hs|]. eapply doom_bind; [apply doom_sopt, doom_call_array|].
    intros s2 i2 ca. apply doom_pure. apply gsafe_bind; [apply args_safe'|]. intros i3 args. cbn. done.
Qed.
Lemma doom_message f i : doom init_state i (parse_remoting_message f init_state i).
Proof.
  unfold parse_remoting_message. pose proof (header_safe i) as Hs.
  destruct (serialization_header_parse i) as [i1 h|e|e|p|]; try df. apply (doom_suffix _ _ i1); [exact Hs|].
  eapply doom_bind; [apply doom_referenceables|]. clear i Hs i1. intros s i _.
  eapply doom_bind; [apply doom_sopt, doom_method|]. clear s i. intros s i m.
  eapply doom_bind; [apply doom_referenceables|]. clear s i. intros s i _.
  pose proof (message_end_safe i) as Hs. destruct (message_end i) as [i1 x|e|e|p|]; try df.
  apply (doom_suffix _ _ i1); [exact Hs|]. destruct i1; [|by apply doom_fail]. destruct m; [apply doom_ok|].
  destruct (sh_root_id h) as [r|]; [|apply doom_ok]. destruct (st_objects s !! r); [|by apply doom_fail].
  intros Hc. split; [exact Hc|]. cbn [fst snd]. reflexivity.
Qed.

(** And such a record does panic, wherever it is met. *)
Lemma ragged_panics e i : ragged e i ->
  exists s, ev (fun f => parse_referenceable f (st e) i) (s, Panic P_DrainOutOfRange).
Proof.
  intros (id & bat & lengths & bounds & k & bs & i0 & its & e1 & i1 & vs & e2 & i2 & -> & Hb & Hno & Hits & Hres & Hn).
  exists (st e2). exists (2 * length (bs ++ i0) + 4). intros f Hf. destruct f as [|[|f]]; [lia..|].
  assert (exists b, bs = x07 :: b) as [b Eb]
    by (destruct Hb as (? & ? & ? & ? & ? & _ & _ & _ & _ & _ & ->); eauto).
  rewrite ref_binary_array by (rewrite Eb; hd).
  unfold parse_binary_array. rewrite app_length in Hf.
  rewrite (exact_ok binary_array_parse _
          (mkBinaryArray id bat lengths bounds (kind_bt k) (kind_ai k)) bs i0 binary_array_exact)
          by (by exists k).
  cbn [ba_lengths ba_object_id ba_type_enum ba_additional_type_info].
  rewrite checked_product_complete by (intros j Hj; rewrite N.mul_1_l; by apply Hno).
  rewrite N.mul_1_l. rewrite <- parse_member_typed_eq.
  2:{ destruct Hb as (? & ? & ? & ? & ? & _ & _ & _ & Hk & _). by apply e_kind_code_iff in Hk as [Hk _]. }
  pose proof (g_items_length _ _ _ _ _ _ Hits) as [Hil Hkl]. rewrite replicate_length in Hkl.
  destruct g_complete as (_ & _ & G3 & G4 & _).
  unfold scount. rewrite <- (N2Nat.id (product lengths)).
  rewrite scount_items by lia. rewrite (G3 _ _ _ _ _ _ Hits) by lia. cbn [sbind].
  rewrite (G4 _ _ _ _ _ _ Hres).
  2:{ pose proof (proj1 (proj2 (proj2 g_suffix)) _ _ _ _ _ _ Hits) as Hsf. apply suffix_length in Hsf. lia. }
  cbn [sbind].
  assert (vs <> [] -> Forall (fun l => l <> 0%N) (rev (tail lengths))) as Hpos.
  { intros Hne. pose proof (items_resolved_nonempty _ _ _ _ _ _ Hres Hne) as Hine.
    assert (product lengths <> 0%N) as Hp.
    { intros E0. rewrite E0 in Hkl. by destruct its. }
    apply fold_mul_nonzero in Hp. apply Forall_rev. destruct lengths; [done|]. by inv Hp. }
  pose proof (chunk_dims_length (rev (tail lengths)) vs i2 Hpos) as Hlen.
  replace (drop 1 lengths) with (tail lengths) by (by destruct lengths).
  rewrite product_rev in Hlen.
  destruct (chunk_dims _ vs i2) as [i5 out|e0|e0|p|]; cbn [bind]; try done.
  - exfalso. destruct Hlen as [Hlen| ->]; [apply (Hn (N.of_nat (length out)))|by apply (Hn 0%N)].
    apply (f_equal N.of_nat) in Hlen. rewrite Nat2N.inj_mul, N2Nat.id in Hlen. rewrite Hlen. apply N.mul_comm.
  - by destruct Hlen as [-> _].
Qed.

(** Every panic is one of a BinaryArray record of that kind, somewhere in the input. *)
Lemma panic_ragged W p : deserialize W = PPanic p -> p = P_DrainOutOfRange /\ exists e i, i ⊑s W /\ ragged e i.
Proof.
  intros H. pose proof (panic_only W p H) as [-> _]. split; [done|].
  unfold deserialize in H. destruct (doom_message (2 * length W + 2) W eq_refl) as [_ D].
  destruct (parse_remoting_message _ _ W) as [s [i m|e|e|p|]]; cbn [fst snd] in *; try done.
  injection H as ->. by destruct D as [? |(_ & D)].
Qed.
End with_decimal.
