(** * StopsLeaf: the fixed parts of records are given up exactly if they are cut at a string. *)
From Verif Require Import Base Utf8 Value DataTypes Records Parser Wire BaseLemmas DataTypesLemmas
  RecordsLemmas MethodLemmas SafetyLemmas Safety Grammar Heads Complete Sound Fuel Message Run Spec
  LemmasA LemmasB LemmasC Positions Stops.
From Coq Require Import Lia.

(** A recoverable error. *)
Definition soft {I Er A} (r : ires I Er A) : Prop := exists e, r = Err e.

Section soft.
Context {Er : Type}.
Lemma soft_ok {I A} i (a : A) : ~ soft (Ok i a : ires I Er A).
Proof. by intros [e H]. Qed.
Lemma soft_fail {I A} e : ~ soft (Fail e : ires I Er A).
Proof. by intros [e' H]. Qed.
Lemma soft_map_err {I Fr A} (f : Er -> Fr) (r : ires I Er A) : soft (map_err f r) <-> soft r.
Proof. unfold soft. destruct r; cbn [map_err]; naive_solver. Qed.
Lemma soft_into_failure {I A} (r : ires I Er A) : ~ soft (into_failure r).
Proof. unfold soft. destruct r; cbn [into_failure]; naive_solver. Qed.
Lemma soft_rmap {I A B} (f : A -> B) (r : ires I Er A) : soft (rmap f r) <-> soft r.
Proof. unfold soft, rmap. destruct r; cbn [bind]; naive_solver. Qed.
Lemma soft_alt {I A} (r r' : ires I Er A) : soft (alt r r') <-> soft r /\ soft r'.
Proof. unfold soft. destruct r; cbn [alt]; naive_solver. Qed.
Lemma soft_bind {A B} (p : bytes -> ires bytes Er A) E (k : bytes -> A -> ires bytes Er B) i :
  exact p E ->
  soft (bind (p i) k) <-> soft (p i) \/ exists a b r, E a b /\ i = b ++ r /\ soft (k r a).
Proof.
  intros HE. unfold soft. split.
  - intros [e H]. destruct (p i) as [r a|e1|e1|q|] eqn:Ep; cbn [bind] in H; try done; [|eauto].
    apply HE in Ep as (b & Hb & ->). right. exists a, b, r. eauto.
  - intros [[e H]|(a & b & r & Hb & -> & e & H)].
    + rewrite H. cbn [bind]. eauto.
    + rewrite (exact_ok p E a b r HE Hb). cbn [bind]. eauto.
Qed.
End soft.

Lemma soft_prim_number {A} k (r : nres A) : ~ soft (prim_number k r).
Proof. unfold prim_number. rewrite soft_map_err. apply soft_into_failure. Qed.
Lemma soft_positive_id k i : ~ soft (positive_id k i).
Proof. intros [e H]. by apply positive_id_not_err in H. Qed.
Lemma soft_length i : ~ soft (length_parse i).
Proof.
  unfold length_parse. assert (~ soft (int32_parse i)) as Hn by apply soft_prim_number.
  intros [e H]. apply Hn. destruct (int32_parse i); try done; [by destruct (Z.leb _ _)|]. eexists. reflexivity.
Qed.
Lemma soft_lps i : soft (lps_parse i) <-> no_string i.
Proof.
  split.
  - intros [e H] (s & b & r & Hb & ->). by rewrite (exact_ok _ _ _ _ _ lps_exact Hb) in H.
  - intros H. apply lps_not_ok. intros r s Hs. apply lps_exact in Hs as (b & Hb & ->). apply H. by exists s, b, r.
Qed.
Lemma soft_binary_type i : ~ soft (binary_type_parse i).
Proof. unfold binary_type_parse. rewrite soft_map_err. apply soft_into_failure. Qed.
Lemma soft_primitive_type i : ~ soft (primitive_type_parse i).
Proof. unfold primitive_type_parse. rewrite soft_map_err. apply soft_into_failure. Qed.
Lemma soft_binary_array_type i : ~ soft (binary_array_type_parse i).
Proof. unfold binary_array_type_parse. rewrite soft_map_err. apply soft_into_failure. Qed.

(** Record types. *)
Lemma soft_record {A} rt (k : bytes -> res A) i :
  soft (let? (i, _rt) := record_type_parse rt i in k i)
  <-> ~ head_in [n2b (rt_code rt)] i \/ exists r, i = n2b (rt_code rt) :: r /\ soft (k r).
Proof.
  split.
  - intros H. destruct (decide (head_in [n2b (rt_code rt)] i)) as [Hh|Hh]; [|by left]. right.
    destruct i as [|c i]; [done|]. apply elem_of_list_singleton in Hh as ->. exists i. split; [done|]. by rewrite rt_ok in H.
  - intros [H|(r & -> & H)]; [by apply (rt_err rt)|]. by rewrite rt_ok.
Qed.

(** Counted repetition. *)
Lemma soft_count {A} (p : bytes -> res A) E n i :
  exact p E -> nonempty_enc E ->
  soft (count n p i) <-> exists l bs r, e_list E l bs /\ (N.of_nat (length l) < n)%N /\ i = bs ++ r /\ soft (p r).
Proof.
  intros HE Hne. split.
  - unfold count. generalize (S (length i)) as fuel. intros fuel. revert n i.
    induction fuel as [|fuel IH]; intros n i H; cbn [count_loop] in H;
      (destruct (N.eqb_spec n 0); [by apply soft_ok in H|]); [by destruct H|].
    apply (soft_bind p E) in H as [H|(a & b & r & Hb & -> & H)]; [| |done].
    + exists [], [], i. split; [constructor|]. split; [cbn [length]; lia|]. done.
    + assert (soft (count_loop fuel (N.pred n) p r)) as Hc.
      { destruct H as [e H]. destruct (count_loop _ _ _ _); cbn [bind] in H; try done. eexists. reflexivity. }
      apply IH in Hc as (l & bs & r' & Hl & Hn & -> & Hs). exists (a :: l), (b ++ bs), r'.
      split; [by constructor|]. split; [cbn [length]; lia|]. split; [by rewrite app_assoc|done].
  - intros (l & bs & r & Hl & Hn & -> & [e He]). exists e. unfold count.
    pose proof (e_list_length _ _ _ Hne Hl) as Hlen.
    eapply count_loop_err; [done|done|done|rewrite app_length; lia|done].
Qed.

Section with_decimal.
Context {DL : DecimalLib}.

(** Either well-formed, or given up, or reported. *)
Lemma fail_iff {A} (p : bytes -> res A) E T i :
  exact p E -> rsafe i (p i) -> (soft (p i) <-> T) ->
  (exists e, p i = Fail e) <-> ~ starts E i /\ ~ T.
Proof.
  intros HE Hs HT. split.
  - intros [e H]. split.
    + intros (a & b & r & Hb & ->). by rewrite (exact_ok _ _ _ _ _ HE Hb) in H.
    + rewrite <- HT. intros [e' H']. congruence.
  - intros [H1 H2]. rewrite <- HT in H2. destruct (p i) as [r a|e|e|q|] eqn:Ep; try done; [| |eauto].
    + apply HE in Ep as (b & Hb & ->). destruct H1. by exists a, b, r.
    + destruct H2. eexists. reflexivity.
Qed.

Lemma soft_untyped i p : soft (member_primitive_untyped i p) <-> p = PT_Decimal /\ no_string i.
Proof.
  assert (forall A (r : res A), ~ soft r -> forall p', p' <> PT_Decimal -> soft r <-> p' = PT_Decimal /\ no_string i) as Hno.
  { intros A r Hr p' Hp. naive_solver. }
  destruct p; cbn [member_primitive_untyped]; rewrite ?soft_rmap;
    try (apply Hno; [|done]); try apply soft_prim_number; try apply soft_fail.
  - unfold decimal_parse. rewrite (soft_bind lps_parse e_str) by apply lps_exact. rewrite soft_lps. split.
    + intros [H|(s & b & r & Hb & -> & H)]; [done|]. exfalso.
      destruct (dec_from_str s); [by apply soft_ok in H|by apply soft_fail in H].
    + intros [_ H]. by left.
  - unfold datetime_parse. rewrite soft_map_err. apply soft_into_failure.
Qed.
Lemma soft_typed i :
  soft (member_primitive_typed i)
  <-> ~ head_in [x08] i \/ exists r, i = x08 :: n2b (pt_code PT_Decimal) :: r /\ no_string r.
Proof.
  unfold member_primitive_typed. rewrite (soft_record RT_MemberPrimitiveTyped). cbn [rt_code].
  change (n2b 8) with x08. apply or_iff_compat_l. split.
  - intros (r & -> & H). apply (soft_bind _ _ _ _ primitive_type_exact) in H as [H|(p & b & r' & -> & -> & H)].
    + by apply soft_primitive_type in H.
    + apply soft_untyped in H as [-> H]. by exists r'.
  - intros (r & -> & H). eexists. split; [reflexivity|]. rewrite (soft_bind _ _ _ _ primitive_type_exact). right.
    exists PT_Decimal, [n2b (pt_code PT_Decimal)], r. split; [done|]. split; [done|]. by apply soft_untyped.
Qed.
Lemma soft_ref i : soft (parse_ref_member i) <-> ~ head_in [x09] i.
Proof.
  unfold parse_ref_member. rewrite soft_rmap. unfold member_reference. rewrite (soft_record RT_MemberReference).
  split; [|by left]. intros [H|(r & _ & H)]; [done|]. by apply soft_positive_id in H.
Qed.
Lemma soft_string_record i : soft (binary_object_string i) <-> ~ head_in [x06] i \/ cut_string_record i.
Proof.
  unfold binary_object_string. rewrite (soft_record RT_BinaryObjectString). cbn [rt_code]. change (n2b 6) with x06.
  apply or_iff_compat_l. split.
  - intros (r & -> & H). apply (soft_bind _ _ _ _ object_id_exact) in H as [H|(id & b & r' & Hid & -> & H)].
    + by apply soft_positive_id in H.
    + apply (soft_bind _ _ _ _ lps_exact) in H as [H|(s & b' & r2 & _ & _ & H)]; [|by apply soft_ok in H].
      apply soft_lps in H. by exists id, b, r'.
  - intros (id & b & r & Hid & Hn & ->). eexists. split; [reflexivity|].
    rewrite (soft_bind _ _ _ _ object_id_exact). right. exists id, b, r. split; [done|]. split; [done|].
    rewrite (soft_bind _ _ _ _ lps_exact). left. by apply soft_lps.
Qed.
Lemma soft_string_member i : soft (parse_string_member i) <-> ~ head_in [x06] i \/ cut_string_record i.
Proof. unfold parse_string_member. rewrite soft_rmap. apply soft_string_record. Qed.
Lemma soft_null i : soft (parse_null_object i) <-> ~ head_in [x0a; x0d; x0e] i.
Proof.
  split; [|apply parse_null_object_err]. unfold parse_null_object. rewrite !soft_alt, !soft_rmap.
  unfold object_null, object_null_multiple, object_null_multiple_256.
  rewrite (soft_record RT_ObjectNull), (soft_record RT_ObjectNullMultiple), (soft_record RT_ObjectNullMultiple256).
  cbn [rt_code]. change (n2b 10) with x0a. change (n2b 13) with x0d. change (n2b 14) with x0e.
  intros (H1 & H2 & H3) Hh. destruct i as [|c i]; [done|]. cbn [head_in] in *.
  assert (c = x0a \/ c = x0d \/ c = x0e) as [-> |[-> | ->]] by set_solver.
  - destruct H1 as [H1|(r & _ & H1)]; [set_solver|by apply soft_ok in H1].
  - destruct H3 as [H3|(r & _ & H3)]; [set_solver|].
    assert (~ soft (byte_parse r)) as Hn by apply soft_prim_number. destruct H3 as [e H3].
    destruct (byte_parse r); try done; [by destruct (N.ltb _ _)|]. apply Hn. eexists. reflexivity.
  - destruct H2 as [H2|(r & _ & H2)]; [set_solver|].
    assert (~ soft (int32_parse r)) as Hn by apply soft_prim_number. destruct H2 as [e H2].
    destruct (int32_parse r); try done; [by destruct (Z.ltb _ _)|]. apply Hn. eexists. reflexivity.
Qed.

(** Array headers. *)
Lemma soft_array_info i : ~ soft (array_info_parse i).
Proof.
  unfold array_info_parse. rewrite (soft_bind _ _ _ _ object_id_exact). intros [H|(a & b & r & _ & _ & H)].
  - by apply soft_positive_id in H.
  - apply (soft_bind _ _ _ _ length_exact) in H as [H|(n & b' & r' & _ & _ & H)]; [by apply soft_length in H|by apply soft_ok in H].
Qed.
Lemma soft_array_object i : soft (array_single_object i) <-> ~ head_in [x10] i.
Proof.
  unfold array_single_object. rewrite (soft_record RT_ArraySingleObject). split; [|by left].
  intros [H|(r & _ & H)]; [done|]. by apply soft_array_info in H.
Qed.
Lemma soft_array_string i : soft (array_single_string i) <-> ~ head_in [x11] i.
Proof.
  unfold array_single_string. rewrite (soft_record RT_ArraySingleString). split; [|by left].
  intros [H|(r & _ & H)]; [done|]. by apply soft_array_info in H.
Qed.

(** Primitive arrays. *)
Lemma prim_list p vs bs :
  e_list (fun v bs => prim_type_of v = Some p /\ e_prim v bs) vs bs
  <-> Forall (fun v => prim_type_of v = Some p) vs /\ e_list e_prim vs bs.
Proof.
  split.
  - induction 1 as [|v vs b bs [Hv Hb] _ [IH1 IH2]]; [split; constructor|]. split; by constructor.
  - intros [Hf Hl]. induction Hl as [|v vs b bs Hb Hl IH]; [constructor|]. inv Hf. constructor; auto.
Qed.
Lemma prim_nonempty p : nonempty_enc (fun v bs => prim_type_of v = Some p /\ e_prim v bs).
Proof. intros v [_ Hv]. by apply e_prim_nonempty in Hv. Qed.
Definition prim_array_parse (i : bytes) : res (N * list value) :=
  let? (input, a) := array_single_primitive i in
  let? (input, vs) := count (ai_length a.1) (fun i => member_primitive_untyped i a.2) input in
  Ok input (ai_object_id a.1, vs).
Lemma soft_prim_array i : soft (prim_array_parse i) <-> ~ head_in [x0f] i \/ cut_prim_array i.
Proof.
  unfold prim_array_parse. rewrite (soft_bind _ _ _ _ array_single_primitive_exact).
  assert (soft (array_single_primitive i) <-> ~ head_in [x0f] i) as Hh.
  { unfold array_single_primitive. rewrite (soft_record RT_ArraySinglePrimitive). split; [|by left].
    intros [H|(r & _ & H)]; [done|]. apply (soft_bind _ _ _ _ array_info_exact) in H as [H|(n & b' & r' & _ & _ & H)].
    - by apply soft_array_info in H.
    - apply (soft_bind _ _ _ _ primitive_type_exact) in H as [H|(n' & b'' & r'' & _ & _ & H)];
        [by apply soft_primitive_type in H|by apply soft_ok in H]. }
  rewrite Hh. apply or_iff_compat_l. split.
  - intros ([ai p] & b & r & (b1 & Hb & ->) & -> & H). cbn [fst snd] in *.
    apply (soft_bind _ _ _ _ (exact_count _ _ _ (member_primitive_untyped_exact p) (prim_nonempty p))) in H
      as [H|(l & b' & r' & _ & _ & H)]; [|by apply soft_ok in H].
    apply (soft_count _ _ _ _ (member_primitive_untyped_exact p) (prim_nonempty p)) in H
      as (vs & bs & r' & Hl & Hn & -> & H).
    apply soft_untyped in H as [-> H]. apply prim_list in Hl as [Hf Hl].
    exists (ai_object_id ai), (ai_length ai), b1, vs, bs, r'. split; [done|]. split; [done|]. split; [done|].
    split; [done|]. split; [done|]. by rewrite <- app_assoc.
  - intros (id & len & b & vs & bs & r & Hb & Hf & Hl & Hn & Hs & ->).
    exists (mkArrayInfo id len, PT_Decimal), (b ++ [n2b (pt_code PT_Decimal)]), (bs ++ r). split; [by exists b|].
    split; [by rewrite <- app_assoc|]. cbn [fst snd ai_length].
    rewrite (soft_bind _ _ _ _ (exact_count _ _ _ (member_primitive_untyped_exact PT_Decimal) (prim_nonempty PT_Decimal))).
    left. apply (soft_count _ _ _ _ (member_primitive_untyped_exact PT_Decimal) (prim_nonempty PT_Decimal)).
    exists vs, bs, r. split; [by apply prim_list|]. split; [done|]. split; [done|]. by apply soft_untyped.
Qed.
Lemma prim_array_exact :
  exact prim_array_parse (fun x bs => exists p, e_prim_array x.1 p x.2 bs).
Proof.
  intros i r x. split.
  - intros H. unfold prim_array_parse in H. apply bind_ok in H as (i1 & [ai p] & H1 & H).
    apply bind_ok in H as (i2 & vs & H2 & [= -> <-]). cbn [fst snd] in *.
    apply array_single_primitive_exact in H1 as (b & (b1 & Hb & ->) & ->). cbn [fst snd] in *.
    apply (exact_count _ _ _ (member_primitive_untyped_exact p) (prim_nonempty p)) in H2 as (bs & [Hn Hl] & ->).
    apply prim_list in Hl as [Hf Hl]. exists (b1 ++ n2b (pt_code p) :: bs). split; [|by rewrite <- !app_assoc].
    exists p, b1, bs. rewrite Hn. done.
  - intros (bs & (p & b1 & b2 & Hb & Hf & Hl & ->) & ->). unfold prim_array_parse.
    replace ((b1 ++ n2b (pt_code p) :: b2) ++ r) with ((b1 ++ [n2b (pt_code p)]) ++ b2 ++ r)
      by (by rewrite <- !app_assoc).
    rewrite (exact_ok _ _ (mkArrayInfo x.1 (N.of_nat (length x.2)), p) (b1 ++ [n2b (pt_code p)]) (b2 ++ r) array_single_primitive_exact)
      by (by exists b1).
    cbn [bind fst snd ai_length ai_object_id].
    rewrite (exact_ok _ _ x.2 b2 r (exact_count _ _ _ (member_primitive_untyped_exact p) (prim_nonempty p))).
    + cbn [bind]. by destruct x.
    + split; [done|]. by apply prim_list.
Qed.
Lemma prim_array_safe i : rsafe i (prim_array_parse i).
Proof.
  apply gsafe_bind; [apply array_single_primitive_safe|]. intros i1 [ai p].
  apply gsafe_bind; [apply count_safe; [intros; apply member_primitive_untyped_safe|apply member_primitive_untyped_strict]|].
  intros i2 vs. cbn. done.
Qed.

(** Member types. *)
Lemma soft_type_info bt i :
  soft (additional_type_info_parse i bt) <-> (bt = BT_SystemClass \/ bt = BT_Class) /\ no_string i.
Proof.
  destruct bt; cbn [additional_type_info_parse]; rewrite ?soft_rmap.
  - split; [intros H; by apply soft_primitive_type in H|naive_solver].
  - split; [intros H; by apply soft_ok in H|naive_solver].
  - split; [intros H; by apply soft_ok in H|naive_solver].
  - rewrite soft_lps. naive_solver.
  - unfold class_type_info_parse. rewrite (soft_bind _ _ _ _ lps_exact), soft_lps. split.
    + intros [H|(s & b & r & _ & _ & H)]; [by split; [right|]|]. exfalso.
      apply (soft_bind _ _ _ _ library_id_exact) in H as [H|(n' & b'' & r'' & _ & _ & H)];
        [by apply soft_positive_id in H|by apply soft_ok in H].
    + intros [_ H]. by left.
  - split; [intros H; by apply soft_ok in H|naive_solver].
  - split; [intros H; by apply soft_ok in H|naive_solver].
  - split; [intros H; by apply soft_primitive_type in H|naive_solver].
Qed.
Lemma soft_type_infos bts i :
  soft (additional_infos_parse i bts)
  <-> exists ks1 bt bts2 b r, bts = map kind_bt ks1 ++ bt :: bts2 /\ Forall (fun k => k <> K_Any) ks1
        /\ e_list e_kind_info ks1 b /\ i = b ++ r /\ (bt = BT_SystemClass \/ bt = BT_Class) /\ no_string r.
Proof.
  revert i. induction bts as [|bt bts IH]; intros i; cbn [additional_infos_parse].
  - split; [intros H; by apply soft_ok in H|]. intros (ks1 & bt & bts2 & b & r & H & _). by destruct (map kind_bt ks1).
  - rewrite (soft_bind _ _ _ _ (additional_type_info_exact bt)), soft_type_info. split.
    + intros [[Hb Hn]|(ai & b & r & (k & Hk & Hkb & Hka & Hi) & -> & H)].
      * exists [], bt, bts, [], i. split; [done|]. split; [constructor|]. split; [constructor|]. done.
      * assert (soft (additional_infos_parse r bts)) as Hs.
        { destruct H as [e H]. destruct (additional_infos_parse r bts); cbn [bind] in H; try done. eexists. reflexivity. }
        apply IH in Hs as (ks1 & bt' & bts2 & b' & r' & -> & Hf & Hl & -> & Hb & Hn).
        exists (k :: ks1), bt', bts2, (b ++ b'), r'. subst bt. split; [done|]. split; [by constructor|].
        split; [by constructor|]. split; [by rewrite app_assoc|done].
    + intros (ks1 & bt' & bts2 & b & r & Hbts & Hf & Hl & -> & Hb & Hn).
      destruct ks1 as [|k ks1].
      * injection Hbts as -> ->. inv Hl. left. done.
      * injection Hbts as -> ->. inv Hl. inv Hf. right. exists (kind_ai k), b0, (bs ++ r).
        split; [by exists k|]. split; [by rewrite app_assoc|].
        assert (soft (additional_infos_parse (bs ++ r) (map kind_bt ks1 ++ bt' :: bts2))) as [e He].
        { apply IH. exists ks1, bt', bts2, bs, r. done. }
        exists e. by rewrite He.
Qed.
Definition some_kind (bt : binary_type) : kind :=
  match bt with
  | BT_Primitive => K_Primitive PT_Boolean | BT_String => K_String | BT_Object => K_Object
  | BT_SystemClass => K_SystemClass [] | BT_Class => K_Class [] 0%N | BT_ObjectArray => K_ObjectArray
  | BT_StringArray => K_StringArray | BT_PrimitiveArray => K_PrimitiveArray PT_Boolean
  end.
Lemma some_kind_bt bt : kind_bt (some_kind bt) = bt.
Proof. by destruct bt. Qed.
Lemma some_kind_any bt : some_kind bt <> K_Any.
Proof. by destruct bt. Qed.
Lemma soft_member_types ci i :
  soft (member_type_info_parse i ci)
  <-> exists ks1 k ks2 b4 b5 r, length (ks1 ++ k :: ks2) = length (ci_member_names ci)
       /\ e_list e_kind_code (ks1 ++ k :: ks2) b4 /\ e_list e_kind_info ks1 b5
       /\ declared_class k /\ no_string r /\ i = b4 ++ b5 ++ r.
Proof.
  unfold member_type_info_parse.
  rewrite (soft_bind _ _ _ _ (exact_count _ _ _ binary_type_exact binary_type_nonempty)). split.
  - intros [H|(bts & b4 & r & [Hn Hl] & -> & H)].
    { apply (soft_count _ _ _ _ binary_type_exact binary_type_nonempty) in H as (? & ? & ? & _ & _ & _ & H).
      by apply soft_binary_type in H. }
    apply (soft_bind _ _ _ _ (additional_infos_exact bts)) in H as [H|(n' & b'' & r'' & _ & _ & H)]; [|by apply soft_ok in H].
    apply soft_type_infos in H as (ks1 & bt & bts2 & b5 & r' & -> & Hf & Hi & -> & Hb & Hs).
    exists ks1, (some_kind bt), (map some_kind bts2), b4, b5, r'.
    rewrite app_length, map_length in Hn. cbn [length] in Hn.
    split; [rewrite app_length; cbn [length]; rewrite map_length; lia|].
    split.
    { apply e_list_kind_code. split.
      - apply Forall_app. split; [done|]. apply Forall_cons_2; [apply some_kind_any|].
        apply Forall_forall. intros k Hk. apply elem_of_list_fmap in Hk as (bt' & -> & _). apply some_kind_any.
      - rewrite map_app. cbn [map]. rewrite some_kind_bt, map_map.
        rewrite (map_ext _ id some_kind_bt), map_id. done. }
    split; [done|]. split; [by destruct Hb as [-> | ->]|]. split; [done|]. done.
  - intros (ks1 & k & ks2 & b4 & b5 & r & Hn & Hc & Hi & Hk & Hs & ->). right.
    apply e_list_kind_code in Hc as [Hf Hc].
    exists (map kind_bt (ks1 ++ k :: ks2)), b4, (b5 ++ r). split; [split; [rewrite map_length; lia|done]|].
    split; [done|]. rewrite (soft_bind _ _ _ _ (additional_infos_exact _)). left. apply soft_type_infos.
    exists ks1, (kind_bt k), (map kind_bt ks2), b5, r. rewrite map_app. split; [done|].
    apply Forall_app in Hf as [Hf _]. split; [done|]. split; [done|]. split; [done|]. split; [|done].
    destruct k; try done; [by left|by right].
Qed.
Lemma soft_class_info i :
  soft (class_info_parse' i)
  <-> (exists id b r, e_id id b /\ no_string r /\ i = b ++ r)
      \/ exists id b1 name b2 n b3 names b4 r, e_id id b1 /\ e_str name b2 /\ e_len n b3
           /\ e_list e_str names b4 /\ (N.of_nat (length names) < n)%N /\ no_string r /\ i = b1 ++ b2 ++ b3 ++ b4 ++ r.
Proof.
  unfold class_info_parse'. rewrite soft_map_err. unfold class_info_parse.
  pose proof (exact_length_count lps_parse e_str lps_exact e_str_nonempty) as Hc.
  rewrite (soft_bind _ _ _ _ object_id_exact). split.
  - intros [H|(id & b1 & r & Hid & -> & H)]; [by apply soft_positive_id in H|].
    apply (soft_bind _ _ _ _ lps_exact) in H as [H|(name & b2 & r2 & Hname & -> & H)].
    + left. exists id, b1, r. rewrite <- soft_lps. done.
    + apply (soft_bind _ _ _ _ Hc) in H as [H|(names & b3 & r3 & _ & _ & H)]; [|by apply soft_ok in H].
      unfold length_count in H. apply (soft_bind _ _ _ _ length_exact) in H as [H|(n & b3 & r3 & Hlen & -> & H)];
        [by apply soft_length in H|].
      apply (soft_count _ _ _ _ lps_exact e_str_nonempty) in H as (names & b4 & r4 & Hl & Hn & -> & H).
      apply soft_lps in H. right. exists id, b1, name, b2, n, b3, names, b4, r4. done.
  - intros [(id & b & r & Hid & Hs & ->)|(id & b1 & name & b2 & n & b3 & names & b4 & r & Hid & Hname & Hlen & Hl & Hn & Hs & ->)]; right.
    + exists id, b, r. split; [done|]. split; [done|]. rewrite (soft_bind _ _ _ _ lps_exact). left. by apply soft_lps.
    + exists id, b1, (b2 ++ b3 ++ b4 ++ r). split; [done|]. split; [done|]. rewrite (soft_bind _ _ _ _ lps_exact). right.
      exists name, b2, (b3 ++ b4 ++ r). split; [done|]. split; [done|]. rewrite (soft_bind _ _ _ _ Hc). left.
      unfold length_count. rewrite (soft_bind _ _ _ _ length_exact). right. exists n, b3, (b4 ++ r). split; [done|].
      split; [done|]. apply (soft_count _ _ _ _ lps_exact e_str_nonempty). exists names, b4, r.
      rewrite soft_lps. done.
Qed.
Lemma head_inv c (i : bytes) : head_in [c] i -> exists r, i = c :: r.
Proof. destruct i as [|c' i]; [done|]. intros ->%elem_of_list_singleton. eauto. Qed.
(** The part of the four class records after the record type. *)
Lemma soft_untyped_class c (k : bytes -> class_info -> res class_rec) r :
  c ∈ [x02; x03; x04; x05] -> (forall ci i, ~ soft (k i ci)) ->
  soft (let? (i, ci) := class_info_parse' r in k i ci) -> cut_class_header (c :: r).
Proof.
  intros Hcc Hk H. apply (soft_bind _ _ _ _ class_info_exact) in H as [H|(ci & b & r' & _ & _ & H)]; [|by apply Hk in H].
  apply soft_class_info in H as [(id & b & r' & Hid & Hs & ->)|(id & b1 & name & b2 & n & b3 & names & b4 & r' & Hid & Hname & Hlen & Hl & Hn & Hs & ->)].
  - by eapply CH_name.
  - by eapply CH_member.
Qed.
Lemma soft_typed_class c (k : bytes -> class_info -> member_type_info -> res class_rec) r :
  c ∈ [x04; x05] -> (forall ci mti i, ~ soft (k i ci mti)) ->
  soft (let? (i, ci) := class_info_parse' r in let? (i, mti) := member_type_info_parse i ci in k i ci mti) ->
  cut_class_header (c :: r).
Proof.
  intros Hcc Hk H. apply (soft_bind _ _ _ _ class_info_exact) in H as [H|(ci & b & r' & (b1 & b2 & b3 & Hid & Hname & Hnames & ->) & -> & H)].
  - assert (c ∈ [x02; x03; x04; x05]) as Hcc' by set_solver.
    apply soft_class_info in H as [(id & b & r' & Hid & Hs & ->)|(id & b1 & name & b2 & n & b3 & names & b4 & r' & Hid & Hname & Hlen & Hl & Hn & Hs & ->)].
    + by eapply CH_name.
    + by eapply CH_member.
  - apply (soft_bind _ _ _ _ (member_type_info_exact ci)) in H as [H|(mti & b' & r2 & _ & _ & H)]; [|by apply Hk in H].
    apply soft_member_types in H as (ks1 & k' & ks2 & b4 & b5 & r2 & Hn & Hcd & Hi & Hd & Hs & ->).
    rewrite <- !app_assoc. eapply CH_type; done.
Qed.
Lemma soft_class_cut c r (k : bytes -> class_info -> res class_rec) :
  cut_class_header (c :: r) -> (c = x02 \/ c = x03) ->
  soft (let? (i, ci) := class_info_parse' r in k i ci).
Proof.
  intros H Hc. rewrite (soft_bind _ _ _ _ class_info_exact), soft_class_info. left.
  inversion H as [c' id b r' Hcc Hid Hs|c' id b1 name b2 n b3 names b4 r' Hcc Hid Hname Hlen Hl Hn Hs|
    c' id b1 name b2 names b3 ks1 k' ks2 b4 b5 r' Hcc]; subst.
  - left. by exists id, b, r'.
  - right. by exists id, b1, name, b2, n, b3, names, b4, r'.
  - exfalso. destruct Hc as [-> | ->]; set_solver.
Qed.
Lemma soft_class_cut_typed c r (k : bytes -> class_info -> member_type_info -> res class_rec) :
  cut_class_header (c :: r) ->
  soft (let? (i, ci) := class_info_parse' r in let? (i, mti) := member_type_info_parse i ci in k i ci mti).
Proof.
  intros H. rewrite (soft_bind _ _ _ _ class_info_exact), soft_class_info.
  inversion H as [c' id b r' Hcc Hid Hs|c' id b1 name b2 n b3 names b4 r' Hcc Hid Hname Hlen Hl Hn Hs|
    c' id b1 name b2 names b3 ks1 k' ks2 b4 b5 r' Hcc Hid Hname Hnames Hlen Hcd Hi Hd Hs]; subst.
  - left. left. by exists id, b, r'.
  - left. right. by exists id, b1, name, b2, n, b3, names, b4, r'.
  - right. exists (mkClassInfo id name names), (b1 ++ b2 ++ b3), (b4 ++ b5 ++ r').
    split; [exists b1, b2, b3; done|]. split; [by rewrite <- !app_assoc|].
    rewrite (soft_bind _ _ _ _ (member_type_info_exact _)). left. apply soft_member_types.
    exists ks1, k', ks2, b4, b5, r'. done.
Qed.
Lemma soft_class_records i :
  soft (class_records i) <-> ~ head_in [x02; x03; x04; x05] i \/ cut_class_header i.
Proof.
  split.
  - intros H. destruct (decide (head_in [x02; x03; x04; x05] i)) as [Hh|]; [|by left]. right.
    unfold class_records in H. rewrite !soft_alt in H. destruct H as (H1 & H2 & H3 & H4).
    destruct i as [|c i]; [done|]. cbn [head_in] in Hh.
    assert (c = x02 \/ c = x03 \/ c = x04 \/ c = x05) as [-> |[-> |[-> | ->]]] by set_solver.
    + clear H1 H2 H4. apply (soft_record RT_SystemClassWithMembers) in H3 as [H3|(r & [= <-] & H3)]; [exfalso; apply H3; hd|].
      eapply soft_untyped_class in H3; [exact H3|done|]. intros ci j. apply soft_ok.
    + clear H2 H3 H4. apply (soft_record RT_ClassWithMembers) in H1 as [H1|(r & [= <-] & H1)]; [exfalso; apply H1; hd|].
      eapply soft_untyped_class in H1; [exact H1|done|]. intros ci j H.
      apply (soft_bind _ _ _ _ library_id_exact) in H as [H|(? & ? & ? & _ & _ & H)]; [by apply soft_positive_id in H|by apply soft_ok in H].
    + clear H1 H2 H3. apply (soft_record RT_SystemClassWithMembersAndTypes) in H4 as [H4|(r & [= <-] & H4)]; [exfalso; apply H4; hd|].
      eapply soft_typed_class in H4; [exact H4|set_solver|]. intros ci mti j. apply soft_ok.
    + clear H1 H3 H4. apply (soft_record RT_ClassWithMembersAndTypes) in H2 as [H2|(r & [= <-] & H2)]; [exfalso; apply H2; hd|].
      eapply soft_typed_class in H2; [exact H2|set_solver|]. intros ci mti j H.
      apply (soft_bind _ _ _ _ library_id_exact) in H as [H|(? & ? & ? & _ & _ & H)]; [by apply soft_positive_id in H|by apply soft_ok in H].
  - intros [H|H]; [by apply class_records_err|].
    unfold class_records. rewrite !soft_alt. unfold class_with_members, class_with_members_and_types, system_class_with_members, system_class_with_members_and_types.
    rewrite (soft_record RT_ClassWithMembers), (soft_record RT_ClassWithMembersAndTypes),
      (soft_record RT_SystemClassWithMembers), (soft_record RT_SystemClassWithMembersAndTypes).
    cbn [rt_code]. change (n2b 2) with x02. change (n2b 3) with x03. change (n2b 4) with x04. change (n2b 5) with x05.
    assert (forall c (P : bytes -> Prop), (forall r, i = c :: r -> P r) -> ~ head_in [c] i \/ exists r, i = c :: r /\ P r) as Hor.
    { intros c P HP. destruct (decide (head_in [c] i)) as [Hh|]; [|by left]. right. apply head_inv in Hh as [r ->]. exists r. auto. }
    split; [|split; [|split]]; apply Hor; intros r ->.
    + eapply soft_class_cut; [exact H|by right].
    + by eapply soft_class_cut_typed.
    + eapply soft_class_cut; [exact H|by left].
    + by eapply soft_class_cut_typed.
Qed.

(** BinaryArray headers. *)
Lemma soft_binary_array i : soft (binary_array_parse i) <-> ~ head_in [x07] i \/ cut_binary_array_header i.
Proof.
  pose proof (fun n => exact_count n _ _ length_exact e_len_nonempty) as Hc.
  assert (forall n j, ~ soft (count n length_parse j)) as Hsc.
  { intros n j H. apply (soft_count _ _ _ _ length_exact e_len_nonempty) in H as (? & ? & ? & _ & _ & _ & H).
    by apply soft_length in H. }
  unfold binary_array_parse. rewrite (soft_record RT_BinaryArray). cbn [rt_code]. change (n2b 7) with x07.
  apply or_iff_compat_l. split.
  - intros (r & -> & H).
    apply (soft_bind _ _ _ _ object_id_exact) in H as [H|(id & b1 & r1 & Hid & -> & H)]; [by apply soft_positive_id in H|].
    apply (soft_bind _ _ _ _ binary_array_type_exact) in H as [H|(bat & b2 & r2 & -> & -> & H)]; [by apply soft_binary_array_type in H|].
    apply (soft_bind _ _ _ _ length_exact) in H as [H|(rank & b2 & r3 & [Hv ->] & -> & H)]; [by apply soft_length in H|].
    apply (soft_bind _ _ _ _ (Hc rank)) in H as [H|(lengths & b3 & r4 & [Hr Hl] & -> & H)]; [by apply Hsc in H|].
    assert (exists b4 r5, r4 = b4 ++ r5 /\
      (if (3 <=? bat_code bat)%N then exists lb, length lb = length lengths /\ e_list e_len lb b4 else b4 = [])
      /\ soft (let? (input, bt) := binary_type_parse r5 in
               let? (input, ai) := additional_type_info_parse input bt in
               Ok input (bt, ai))) as (b4 & r5 & -> & Hlb & Hs).
    { unfold cond in H. assert (has_offset bat = (3 <=? bat_code bat)%N) as Hof by (by destruct bat). rewrite Hof in H.
      destruct (3 <=? bat_code bat)%N.
      - apply (soft_bind _ _ _ _ (exact_map Some _ _ (Hc rank))) in H as [H|(lb & b4 & r5 & (lb' & [Hr' Hl'] & _) & -> & H)].
        { rewrite soft_rmap in H. by apply Hsc in H. }
        exists b4, r5. split; [done|]. split; [exists lb'; split; [lia|done]|].
        apply (soft_bind _ _ _ _ binary_type_exact) in H as [H|(bt & b5 & r6 & -> & -> & H)]; [by apply soft_binary_type in H|].
        rewrite (soft_bind _ _ _ _ binary_type_exact). right. exists bt, [n2b (bt_code bt)], r6. split; [done|]. split; [done|].
        apply (soft_bind _ _ _ _ (additional_type_info_exact bt)) in H as [H|(? & ? & ? & _ & _ & H)]; [|by apply soft_ok in H].
        rewrite (soft_bind _ _ _ _ (additional_type_info_exact bt)). by left.
      - cbn [bind] in H. exists [], r4. split; [done|]. split; [done|].
        apply (soft_bind _ _ _ _ binary_type_exact) in H as [H|(bt & b5 & r6 & -> & -> & H)]; [by apply soft_binary_type in H|].
        rewrite (soft_bind _ _ _ _ binary_type_exact). right. exists bt, [n2b (bt_code bt)], r6. split; [done|]. split; [done|].
        apply (soft_bind _ _ _ _ (additional_type_info_exact bt)) in H as [H|(? & ? & ? & _ & _ & H)]; [|by apply soft_ok in H].
        rewrite (soft_bind _ _ _ _ (additional_type_info_exact bt)). by left. }
    apply (soft_bind _ _ _ _ binary_type_exact) in Hs as [H1|(bt & b5 & r6 & -> & -> & H1)]; [by apply soft_binary_type in H1|].
    apply (soft_bind _ _ _ _ (additional_type_info_exact bt)) in H1 as [H1|(? & ? & ? & _ & _ & H1)]; [|by apply soft_ok in H1].
    apply soft_type_info in H1 as [Hbt Hs].
    exists id, b1, bat, lengths, (enc_uint 4 rank ++ b3), b4, (n2b (bt_code bt)), r6.
    split; [done|]. split; [exists b3; rewrite Hr; done|]. split; [done|]. split; [destruct Hbt as [-> | ->]; apply (bool_decide_unpack _); vm_compute; exact I|].
    split; [done|]. by rewrite <- !app_assoc.
  - intros (id & b1 & bat & lengths & b2 & b3 & c & r & Hid & (b2' & Hv & Hl & ->) & Hlb & Hcc & Hs & ->).
    eexists. split; [reflexivity|].
    rewrite (soft_bind _ _ _ _ object_id_exact). right. eexists id, b1, _. split; [done|]. split; [reflexivity|].
    rewrite (soft_bind _ _ _ _ binary_array_type_exact). right. eexists bat, [n2b (bat_code bat)], _. split; [done|]. split; [reflexivity|].
    rewrite (soft_bind _ _ _ _ length_exact). right. eexists (N.of_nat (length lengths)), (enc_uint 4 _), (b2' ++ b3 ++ c :: r).
    split; [split; [done|reflexivity]|]. split; [by rewrite <- app_assoc|].
    rewrite (soft_bind _ _ _ _ (Hc _)). right. eexists lengths, b2', (b3 ++ c :: r). split; [done|]. split; [done|].
    assert (exists bt, c = n2b (bt_code bt) /\ (bt = BT_SystemClass \/ bt = BT_Class)) as (bt & -> & Hbt).
    { assert (c = x03 \/ c = x04) as [-> | ->] by set_solver; [exists BT_SystemClass|exists BT_Class]; eauto. }
    unfold cond. assert (has_offset bat = (3 <=? bat_code bat)%N) as -> by (by destruct bat).
    destruct (3 <=? bat_code bat)%N.
    + destruct Hlb as (lb & Hlen & Hlb).
      rewrite (soft_bind _ _ _ _ (exact_map Some _ _ (Hc _))). right. eexists (Some lb), b3, (n2b (bt_code bt) :: r).
      split; [exists lb; split; [split; [by rewrite Hlen|done]|done]|]. split; [done|].
      rewrite (soft_bind _ _ _ _ binary_type_exact). right. exists bt, [n2b (bt_code bt)], r. split; [done|]. split; [done|].
      rewrite (soft_bind _ _ _ _ (additional_type_info_exact bt)). left. by apply soft_type_info.
    + subst b3. cbn [bind app].
      rewrite (soft_bind _ _ _ _ binary_type_exact). right. exists bt, [n2b (bt_code bt)], r. split; [done|]. split; [done|].
      rewrite (soft_bind _ _ _ _ (additional_type_info_exact bt)). left. by apply soft_type_info.
Qed.

End with_decimal.
