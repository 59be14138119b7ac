(** * RecordsLemmas: the record parsers accept exactly the encodings of [Wire]. *)
From Verif Require Import Base Utf8 Value DataTypes Records Parser Wire BaseLemmas DataTypesLemmas.
From Coq Require Import Lia.

(** ** Automation: inversion of an accepting run, and execution on an encoding. *)

Create HintDb exact.
#[global] Hint Resolve byte_exact int8_exact int16_exact int32_exact int64_exact uint16_exact uint32_exact
  uint64_exact single_exact double_exact timespan_exact datetime_exact boolean_exact char_exact
  library_id_exact object_id_exact length_exact binary_type_exact primitive_type_exact
  binary_array_type_exact record_type_exact lps_exact decimal_exact class_type_info_exact
  e_str_nonempty : exact.

Section with_decimal.
Context {DL : DecimalLib}.

(** ** Primitives *)

Lemma e_prim_nonempty : nonempty_enc e_prim.
Proof.
  intros v Hv. destruct v; simpl in Hv; try done; try (by destruct Hv as [_ [=]]).
  destruct Hv as (s & Hs & _). by apply e_str_nonempty in Hs.
Qed.

Lemma member_primitive_untyped_exact p :
  exact (fun i => member_primitive_untyped i p)
        (fun v bs => prim_type_of v = Some p /\ e_prim v bs).
Proof.
  destruct p; cbn [member_primitive_untyped];
    try (intros i r v; split; [done|];
         intros (bs & (H1 & H2) & _); by destruct v);
    (eapply exact_ext; [eapply exact_map; eauto with exact|]);
    intros v bs; cbv beta; unfold e_uint, e_int; split;
    try (intros (a & He & ->); done);
    intros (Ht & He); destruct v; inv Ht; eauto.
Qed.
Hint Resolve member_primitive_untyped_exact : exact.

Lemma value_with_code_exact : exact value_with_code e_value_with_code.
Proof.
  intros input rest v. unfold value_with_code. rewrite bind_ok. split.
  - intros (i & p & Hp & Hv). apply primitive_type_exact in Hp as (? & -> & ->).
    destruct (decide (p = PT_Null)) as [->|Hn].
    { inv Hv. exists [x11]. done. }
    destruct (decide (p = PT_String)) as [->|Hs].
    { apply rmap_ok in Hv as (s & Hs & ->). apply lps_exact in Hs as (b & Hb & ->).
      exists (x12 :: b). split; [|done]. exists b. done. }
    assert (member_primitive_untyped i p = Ok rest v) as Hv' by (by destruct p).
    apply member_primitive_untyped_exact in Hv' as (b & [Ht Hb] & ->).
    exists (n2b (pt_code p) :: b). split; [|done]. destruct v; simpl; try done; eauto.
  - intros (bs & He & ->).
    destruct v; try (destruct He as (p & bb & Hp & He & ->); cbn [prim_type_of] in Hp; inv Hp;
      eexists _, _; (split; [apply primitive_type_exact; eexists; split; [done|]; done|]);
      cbn iota beta;
      match goal with |- rmap ?f (?q _) = Ok _ ?v =>
        change (member_primitive_untyped (bb ++ rest) (default PT_Null (prim_type_of v)) = Ok rest v) end;
      apply member_primitive_untyped_exact; eauto).
    + destruct He as (b & Hb & ->). eexists _, PT_String.
      split; [apply primitive_type_exact; eexists; split; [done|]; done|].
      cbn iota. apply rmap_ok. exists s. split; [|done]. apply lps_exact. eauto.
    + simpl in He. subst. eexists _, PT_Null.
      split; [apply primitive_type_exact; eexists; split; [done|]; done|]. done.
Qed.
Hint Resolve value_with_code_exact : exact.

Lemma e_value_with_code_nonempty : nonempty_enc e_value_with_code.
Proof.
  intros v Hv. destruct v; simpl in Hv; try done;
    try (by destruct Hv as (? & ? & ? & ? & [=])).
  by destruct Hv as (? & ? & [=]).
Qed.
Hint Resolve e_value_with_code_nonempty : exact.

Lemma member_primitive_typed_exact : exact member_primitive_typed e_prim_typed.
Proof.
  intros input rest v. unfold member_primitive_typed. split.
  - intros Hv. apply bind_ok in Hv as (i1 & rt & H1 & Hv).
    apply record_type_exact in H1 as (? & [-> ->] & ->).
    apply bind_ok in Hv as (i2 & p & H1 & Hv).
    apply primitive_type_exact in H1 as (? & -> & ->).
    apply member_primitive_untyped_exact in Hv as (b & [Ht Hb] & ->).
    eexists (_ :: _ :: b). split; [|done]. eexists _, b. done.
  - intros (bs & (p & b & Ht & Hb & ->) & ->).
    change (record_type_parse RT_MemberPrimitiveTyped ((x08 :: n2b (pt_code p) :: b) ++ rest)) with
      (@Ok bytes error _ (n2b (pt_code p) :: b ++ rest) RT_MemberPrimitiveTyped). cbn [bind].
    change (n2b (pt_code p) :: b ++ rest) with ([n2b (pt_code p)] ++ b ++ rest).
    rewrite (exact_ok primitive_type_parse _ p _ _ primitive_type_exact) by done. cbn [bind].
    apply member_primitive_untyped_exact. eauto.
Qed.
Hint Resolve member_primitive_typed_exact : exact.

Lemma exact_length_count {A} (p : bytes -> res A) E :
  exact p E -> nonempty_enc E -> exact (length_count length_parse p) (e_counted E).
Proof.
  intros Hp HE input rest l. unfold length_count, e_counted. rewrite bind_ok. split.
  - intros (i & n & Hn & Hl). apply length_exact in Hn as (? & [Hn ->] & ->).
    apply (exact_count n p E Hp HE) in Hl as (bs & [<- Hl] & ->).
    eexists (_ ++ bs). split; [|by rewrite app_assoc]. eauto.
  - intros (bs & (b & Hn & Hl & ->) & ->). rewrite <- app_assoc.
    exists (b ++ rest), (N.of_nat (length l)).
    split; [apply length_exact; eexists; split; [|reflexivity]; done|].
    apply (exact_count _ p E Hp HE). eauto.
Qed.

Lemma array_of_value_with_code_exact :
  exact array_of_value_with_code (e_counted e_value_with_code).
Proof. apply exact_length_count; eauto with exact. Qed.
Hint Resolve array_of_value_with_code_exact : exact.

Lemma string_value_with_code_exact : exact string_value_with_code e_string_with_code.
Proof.
  intros input rest s. unfold string_value_with_code, pt_tag. split.
  - intros Hs. apply bind_ok in Hs as (i1 & rt & H1 & Hs).
    apply map_err_ok, into_failure_ok, rmap_ok in H1 as (b & H1 & ->).
    apply (tag1_exact 18) in H1; [|done]. destruct H1 as (bs & [-> ->] & ->).
    apply lps_exact in Hs as (b & ? & ->).
    eexists (_ :: _). split; [|done]. eexists. eauto.
  - intros (bs & (b & Hb & ->) & ->).
    change (pt_tag PT_String ((x12 :: b) ++ rest)) with
      (@Ok bytes (nom_error bytes) _ (b ++ rest) PT_String). cbn.
    apply lps_exact. eauto.
Qed.
Hint Resolve string_value_with_code_exact : exact.

(** ** Small records *)

(** A record is its type code followed by its fields. *)
Lemma exact_record {A} rt (q : bytes -> res A) E :
  exact q E ->
  exact (fun i => let? (i, _rt) := record_type_parse rt i in q i)
        (fun a bs => exists b, E a b /\ bs = n2b (rt_code rt) :: b).
Proof.
  intros Hq. eapply exact_ext.
  - apply (exact_bind (record_type_parse rt) (fun _ => q)); [apply record_type_exact|].
    intros a. exact Hq.
  - intros a bs. cbv beta. split.
    + intros (t & b1 & b2 & [-> ->] & ? & ->). eauto.
    + intros (b & Hb & ->). exists rt, [n2b (rt_code rt)], b. eauto.
Qed.

Lemma member_reference_exact : exact member_reference e_member_reference.
Proof. apply (exact_record RT_MemberReference). apply object_id_exact. Qed.
Hint Resolve member_reference_exact : exact.

Lemma parse_ref_member_exact :
  exact parse_ref_member (fun v bs => exists id, v = VR_Ref id /\ e_member_reference id bs).
Proof.
  eapply exact_ext; [eapply exact_map, member_reference_exact|].
  intros a bs. cbv beta. naive_solver.
Qed.

Lemma exact_two {A B C} (p : bytes -> res A) (q : bytes -> res B) E F (f : A -> B -> C) :
  exact p E -> exact q F ->
  exact (fun i => let? (i, a) := p i in let? (i, b) := q i in Ok i (f a b))
        (fun c bs => exists a b b1 b2, c = f a b /\ E a b1 /\ F b b2 /\ bs = b1 ++ b2).
Proof.
  intros Hp Hq. eapply exact_ext.
  - apply (exact_bind p (fun a i => let? (i, b) := q i in Ok i (f a b))); [exact Hp|].
    intros a. apply (exact_bind q (fun b i => Ok i (f a b))); [exact Hq|].
    intros b. apply exact_ret.
  - intros c bs. cbv beta. split.
    + intros (a & b1 & b2 & ? & (b & b3 & b4 & ? & [-> ->] & ->) & ->).
      rewrite app_nil_r. eauto 10.
    + intros (a & b & b1 & b2 & -> & ? & ? & ->).
      exists a, b1, b2. split; [done|]. split; [|done].
      exists b, b2, []. rewrite app_nil_r. done.
Qed.

Lemma binary_object_string_exact :
  exact binary_object_string (fun p bs => e_string_record p.1 p.2 bs).
Proof.
  eapply exact_ext.
  - apply (exact_record RT_BinaryObjectString), (exact_two object_id lps_parse).
    + apply object_id_exact.
    + apply lps_exact.
  - intros [id s] bs. cbv beta. unfold e_string_record. cbn [fst snd]. split.
    + intros (b & (a & c & b1 & b2 & [= -> ->] & ? & ? & ->) & ->). eauto 10.
    + intros (b1 & b2 & ? & ? & ->). eauto 15.
Qed.
Hint Resolve binary_object_string_exact : exact.

Lemma binary_library_exact :
  exact binary_library (fun p bs => e_library_record p.1 p.2 bs).
Proof.
  eapply exact_ext.
  - apply (exact_record RT_BinaryLibrary), (exact_two library_id lps_parse).
    + apply library_id_exact.
    + apply lps_exact.
  - intros [id s] bs. cbv beta. unfold e_library_record. cbn [fst snd]. split.
    + intros (b & (a & c & b1 & b2 & [= -> ->] & ? & ? & ->) & ->). eauto 10.
    + intros (b1 & b2 & ? & ? & ->). eauto 15.
Qed.
Hint Resolve binary_library_exact : exact.

Lemma parse_string_member_exact :
  exact parse_string_member
    (fun v bs => exists id s, v = VR_Value (VString s) /\ e_string_record id s bs).
Proof.
  eapply exact_ext; [eapply exact_map, binary_object_string_exact|].
  intros a bs. cbv beta. split.
  - intros ([id s] & ? & ->). eauto.
  - intros (id & s & -> & ?). by exists (id, s).
Qed.

Lemma object_null_exact : exact object_null (fun n bs => n = 1%N /\ bs = [x0a]).
Proof.
  eapply exact_ext.
  - apply (exact_record RT_ObjectNull), exact_ret.
  - intros n bs. cbv beta. naive_solver.
Qed.

Lemma object_null_multiple_exact :
  exact object_null_multiple (fun n bs => (0 < n < 2 ^ 31)%N /\ bs = x0e :: enc_uint 4 n).
Proof.
  eapply exact_ext.
  - apply (exact_record RT_ObjectNullMultiple), (positive_id_exact E_InvalidNullCount).
  - intros n bs. cbv beta. unfold e_id, valid_id. split.
    + intros (b & [? ->] & ->). done.
    + intros [? ->]. eexists. split; [split; [done|reflexivity]|done].
Qed.

Lemma object_null_multiple_256_exact :
  exact object_null_multiple_256 (fun n bs => (0 < n < 2 ^ 8)%N /\ bs = x0d :: enc_uint 1 n).
Proof.
  eapply exact_ext.
  - apply (exact_record RT_ObjectNullMultiple256
      (fun input => match byte_parse input with
        | Ok rest n => if N.ltb 0 n then Ok rest n else Fail (mkError input E_InvalidNullCount)
        | Err e => Err e | Fail e => Fail e | Panic p => Panic p | Diverge => Diverge end)
      (fun n bs => (0 < n)%N /\ e_uint 1 n bs)).
    intros input rest n. split.
    + destruct (byte_parse input) eqn:E; try done.
      apply byte_exact in E as (bs & He & ->).
      destruct (N.ltb_spec 0 a); intros E'; inv E'. eauto.
    + intros (bs & [Hn He] & ->).
      rewrite (exact_ok byte_parse _ n bs rest byte_exact He).
      destruct (N.ltb_spec 0 n); [done|lia].
  - intros n bs. cbv beta. unfold e_uint, fits_uint. split.
    + intros (b & [? [? ->]] & ->). done.
    + intros [[? ?] ->]. eexists. split; [split; [done|split; [done|reflexivity]]|done].
Qed.

(** The first byte decides. *)
Lemma record_type_parse_cons rt b i :
  record_type_parse rt (b :: i) =
    if bool_decide (b = n2b (rt_code rt)) then Ok i rt
    else Err (mkError (b :: i) (E_ExpectedRecordType rt)).
Proof.
  unfold record_type_parse, tag1.
  assert ((rt_code rt < 256)%N) as Hrt by (by destruct rt).
  case_bool_decide as Hb.
  - subst. rewrite b2n_n2b_small by done. by rewrite N.eqb_refl.
  - destruct (N.eqb (b2n b) (rt_code rt)) eqn:E; [|done].
    apply b2n_eqb_iff in E; done.
Qed.

Lemma record_type_parse_nil rt :
  record_type_parse rt [] = Err (mkError [] (E_ExpectedRecordType rt)).
Proof. done. Qed.

Lemma parse_null_object_exact :
  exact parse_null_object (fun v bs => exists n, v = VR_Null n /\ e_null n bs).
Proof.
  intros input rest v. unfold parse_null_object, e_null. split.
  - intros Ha.
    apply alt_ok in Ha as [Ha|[_ Ha]].
    { apply rmap_ok in Ha as (n & Ha & ->). apply object_null_exact in Ha. naive_solver. }
    apply alt_ok in Ha as [Ha|[_ Ha]].
    { apply rmap_ok in Ha as (n & Ha & ->). apply object_null_multiple_exact in Ha as (bs & ? & ->). eauto 10. }
    apply rmap_ok in Ha as (n & Ha & ->). apply object_null_multiple_256_exact in Ha as (bs & ? & ->). eauto 10.
  - intros (bs & (n & -> & Hn) & ->). destruct Hn as [[-> ->]|[[Hn ->]|[Hn ->]]].
    + done.
    + rewrite (exact_ok object_null_multiple _ n _ rest object_null_multiple_exact) by done. done.
    + rewrite (exact_ok object_null_multiple_256 _ n _ rest object_null_multiple_256_exact) by done.
      done.
Qed.

Lemma message_end_exact : exact message_end (fun _ bs => bs = [x0b]).
Proof.
  eapply exact_ext.
  - apply (exact_record RT_MessageEnd), exact_ret.
  - intros [] bs. cbv beta. naive_solver.
Qed.

(** ** Member types *)

Definition kind_bt (k : kind) : binary_type :=
  match k with
  | K_Any => BT_Object
  | K_Primitive _ => BT_Primitive | K_String => BT_String | K_Object => BT_Object
  | K_SystemClass _ => BT_SystemClass | K_Class _ _ => BT_Class | K_ObjectArray => BT_ObjectArray
  | K_StringArray => BT_StringArray | K_PrimitiveArray _ => BT_PrimitiveArray
  end.

Definition kind_ai (k : kind) : option additional_type_info :=
  match k with
  | K_Primitive p | K_PrimitiveArray p => Some (AI_Primitive p)
  | K_SystemClass s => Some (AI_SystemClass s)
  | K_Class s lid => Some (AI_Class (mkClassTypeInfo s lid))
  | _ => None
  end.

Lemma e_kind_code_iff k bs : e_kind_code k bs <-> k <> K_Any /\ bs = [n2b (bt_code (kind_bt k))].
Proof. destruct k; unfold e_kind_code; simpl; naive_solver. Qed.

Lemma additional_type_info_exact bt :
  exact (fun i => additional_type_info_parse i bt)
        (fun ai bs => exists k, k <> K_Any /\ kind_bt k = bt /\ kind_ai k = ai
                                /\ e_kind_info k bs).
Proof.
  destruct bt; cbn [additional_type_info_parse];
    (eapply exact_ext; [first [apply exact_ret | eapply exact_map; eauto with exact]|]);
    intros ai bs; cbv beta.
  - split.
    + intros (p & -> & ->). exists (K_Primitive p). done.
    + intros (k & ? & ? & <- & ?). destruct k; simpl in *; simplify_eq; eauto.
  - split.
    + intros [-> ->]. by exists K_String.
    + intros (k & ? & ? & <- & ?). destruct k; simpl in *; simplify_eq; eauto.
  - split.
    + intros [-> ->]. by exists K_Object.
    + intros (k & ? & ? & <- & ?). destruct k; simpl in *; simplify_eq; eauto.
  - split.
    + intros (p & ? & ->). by exists (K_SystemClass p).
    + intros (k & ? & ? & <- & ?). destruct k; simpl in *; simplify_eq; eauto.
  - split.
    + intros ([s lid] & ? & ->). by exists (K_Class s lid).
    + intros (k & ? & ? & <- & ?). destruct k; simpl in *; simplify_eq.
      by exists (mkClassTypeInfo class_name library_id).
  - split.
    + intros [-> ->]. by exists K_ObjectArray.
    + intros (k & ? & ? & <- & ?). destruct k; simpl in *; simplify_eq; eauto.
  - split.
    + intros [-> ->]. by exists K_StringArray.
    + intros (k & ? & ? & <- & ?). destruct k; simpl in *; simplify_eq; eauto.
  - split.
    + intros (p & -> & ->). exists (K_PrimitiveArray p). done.
    + intros (k & ? & ? & <- & ?). destruct k; simpl in *; simplify_eq; eauto.
Qed.

Lemma additional_infos_exact bts :
  exact (fun i => additional_infos_parse i bts)
        (fun ais bs => exists ks, Forall (fun k => k <> K_Any) ks /\ map kind_bt ks = bts
                                  /\ map kind_ai ks = ais /\ e_list e_kind_info ks bs).
Proof.
  induction bts as [|bt bts IH]; intros input rest ais; cbn [additional_infos_parse].
  - split.
    + intros [= <- <-]. exists []. split; [|done]. exists []. repeat split; constructor.
    + intros (bs & (ks & _ & Hk & <- & Hl) & ->). destruct ks; [|done]. by inv Hl.
  - split.
    + intros Ha. apply bind_ok in Ha as (i1 & ai & H1 & Ha).
      apply bind_ok in Ha as (i2 & ais' & H2 & [= -> <-]).
      apply (additional_type_info_exact bt) in H1 as (b1 & (k & Hk & <- & <- & Hi) & ->).
      apply IH in H2 as (b2 & (ks & Hks & <- & <- & Hl) & ->).
      exists (b1 ++ b2). split; [|by rewrite app_assoc].
      exists (k :: ks). repeat split; [by constructor|by constructor].
    + intros (bs & (ks & Hks & Hb & <- & Hl) & ->).
      destruct ks as [|k ks]; [done|]. cbn [map] in Hb. injection Hb as <- <-.
      inv Hl. apply Forall_cons in Hks as [Hk Hks]. rewrite <- app_assoc.
      pose proof (proj2 (additional_type_info_exact (kind_bt k) (b ++ bs0 ++ rest) (bs0 ++ rest)
        (kind_ai k))) as E1. rewrite E1 by (eexists; split; [|done]; by exists k).
      cbn [bind].
      pose proof (proj2 (IH (bs0 ++ rest) rest (map kind_ai ks))) as E2.
      rewrite E2 by (eexists; split; [|done]; by exists ks). done.
Qed.

(** ** Class records *)

Lemma binary_type_nonempty : nonempty_enc (fun (t : binary_type) bs => bs = [n2b (bt_code t)]).
Proof. by intros t [=]. Qed.

Lemma e_list_kind_code ks bs :
  e_list e_kind_code ks bs <->
  Forall (fun k => k <> K_Any) ks
  /\ e_list (fun (t : binary_type) bs => bs = [n2b (bt_code t)]) (map kind_bt ks) bs.
Proof.
  split.
  - induction 1 as [|k ks b bs Hk Hl IH]; [split; constructor|].
    apply e_kind_code_iff in Hk as [? ->]. destruct IH. split; [by constructor|].
    by constructor.
  - revert bs. induction ks as [|k ks IH]; intros bs [Hk Hl].
    + inv Hl. constructor.
    + inv Hl. apply Forall_cons in Hk as [? ?]. constructor; [by apply e_kind_code_iff|].
      by apply IH.
Qed.

Definition mti_of (ks : list kind) : member_type_info :=
  mkMemberTypeInfo (map kind_bt ks) (map kind_ai ks).

Lemma member_type_info_exact ci :
  exact (fun i => member_type_info_parse i ci)
        (fun mti bs => exists ks, mti = mti_of ks
           /\ e_types (Some ks) (length (ci_member_names ci)) bs).
Proof.
  intros input rest mti. unfold member_type_info_parse, e_types. split.
  - intros Hm. apply bind_ok in Hm as (i1 & bts & H1 & Hm).
    apply bind_ok in Hm as (i2 & ais & H2 & [= -> <-]).
    apply (exact_count _ _ _ binary_type_exact binary_type_nonempty) in H1
      as (b1 & [Hn Hl] & ->).
    apply additional_infos_exact in H2 as (b2 & (ks & Hk & <- & <- & Hi) & ->).
    exists (b1 ++ b2). split; [|by rewrite app_assoc].
    exists ks. split; [done|]. exists b1, b2. rewrite map_length in Hn.
    split; [lia|]. split; [by apply e_list_kind_code|]. done.
  - intros (bs & (ks & -> & (b1 & b2 & Hn & Hc & Hi & ->)) & ->).
    apply e_list_kind_code in Hc as [Hk Hc]. rewrite <- app_assoc.
    rewrite (exact_ok _ _ (map kind_bt ks) b1 (b2 ++ rest)
      (exact_count (N.of_nat (length (ci_member_names ci))) _ _ binary_type_exact
         binary_type_nonempty)).
    2:{ split; [rewrite map_length; lia|done]. }
    cbn [bind].
    pose proof (proj2 (additional_infos_exact (map kind_bt ks) (b2 ++ rest) rest
      (map kind_ai ks))) as E2.
    rewrite E2 by (eexists; split; [|done]; by exists ks). done.
Qed.

Definition ci_of (c : class_header) : class_info :=
  mkClassInfo (ch_object_id c) (ch_name c) (ch_member_names c).

Lemma class_info_exact :
  exact class_info_parse'
    (fun ci bs => exists b1 b2 b3, e_id (ci_object_id ci) b1 /\ e_str (ci_name ci) b2
       /\ e_counted e_str (ci_member_names ci) b3 /\ bs = b1 ++ b2 ++ b3).
Proof.
  pose proof (exact_length_count lps_parse e_str lps_exact e_str_nonempty) as Hc.
  intros input rest ci. unfold class_info_parse'. rewrite map_err_ok.
  unfold class_info_parse. split.
  - intros Hm. apply bind_ok in Hm as (i1 & oid & H1 & Hm).
    apply bind_ok in Hm as (i2 & name & H2 & Hm).
    apply bind_ok in Hm as (i3 & names & H3 & [= -> <-]).
    apply object_id_exact in H1 as (b1 & ? & ->). apply lps_exact in H2 as (b2 & ? & ->).
    apply Hc in H3 as (b3 & ? & ->).
    exists (b1 ++ b2 ++ b3). split; [|by rewrite <- !app_assoc]. eauto 10.
  - intros (bs & (b1 & b2 & b3 & H1 & H2 & H3 & ->) & ->). rewrite <- !app_assoc.
    rewrite (exact_ok _ _ _ b1 _ object_id_exact H1). cbn [bind].
    rewrite (exact_ok _ _ _ b2 _ lps_exact H2). cbn [bind].
    rewrite (exact_ok _ _ _ b3 _ Hc H3). cbn [bind]. by destruct ci.
Qed.

Definition class_rec_of (c : class_header) : class_rec :=
  match ch_types c, ch_library c with
  | None, None => CR_SystemClassWithMembers (ci_of c)
  | None, Some lid => CR_ClassWithMembers (ci_of c) lid
  | Some ks, None => CR_SystemClassWithMembersAndTypes (ci_of c) (mti_of ks)
  | Some ks, Some lid => CR_ClassWithMembersAndTypes (ci_of c) (mti_of ks) lid
  end.

Lemma cr_class_info_of c : cr_class_info (class_rec_of c) = ci_of c.
Proof. by destruct c as [? ? ? [] []]. Qed.

Lemma class_records_exact :
  exact class_records (fun r bs => exists c, r = class_rec_of c /\ e_class_header c bs).
Proof.
  intros input rest r. unfold class_records. split.
  - intros Ha. apply alt_ok in Ha as [Ha|[_ Ha]].
    { unfold class_with_members in Ha. apply bind_ok in Ha as (i1 & rt & Ht & Ha).
      apply record_type_exact in Ht as (? & [-> ->] & ->).
      apply bind_ok in Ha as (i2 & ci & H1 & Ha).
      apply class_info_exact in H1 as (? & (b1 & b2 & b3 & ? & ? & ? & ->) & ->).
      apply bind_ok in Ha as (i3 & lid & H2 & [= -> <-]).
      apply library_id_exact in H2 as (b5 & ? & ->).
      eexists (x03 :: b1 ++ b2 ++ b3 ++ [] ++ b5). split.
      - exists (mkClassHeader (ci_object_id ci) (ci_name ci) (ci_member_names ci) None (Some lid)).
        split; [by destruct ci|]. exists b1, b2, b3, [], b5. done.
      - simpl. by rewrite <- !app_assoc. }
    apply alt_ok in Ha as [Ha|[_ Ha]].
    { unfold class_with_members_and_types in Ha. apply bind_ok in Ha as (i1 & rt & Ht & Ha).
      apply record_type_exact in Ht as (? & [-> ->] & ->).
      apply bind_ok in Ha as (i2 & ci & H1 & Ha).
      apply class_info_exact in H1 as (? & (b1 & b2 & b3 & ? & ? & ? & ->) & ->).
      apply bind_ok in Ha as (i3 & mti & H2 & Ha).
      apply member_type_info_exact in H2 as (b4 & (ks & -> & Hks) & ->).
      apply bind_ok in Ha as (i4 & lid & H3 & [= -> <-]).
      apply library_id_exact in H3 as (b5 & ? & ->).
      eexists (x05 :: b1 ++ b2 ++ b3 ++ b4 ++ b5). split.
      - exists (mkClassHeader (ci_object_id ci) (ci_name ci) (ci_member_names ci) (Some ks)
                  (Some lid)).
        split; [by destruct ci|]. exists b1, b2, b3, b4, b5. done.
      - simpl. by rewrite <- !app_assoc. }
    apply alt_ok in Ha as [Ha|[_ Ha]].
    { unfold system_class_with_members in Ha. apply bind_ok in Ha as (i1 & rt & Ht & Ha).
      apply record_type_exact in Ht as (? & [-> ->] & ->).
      apply bind_ok in Ha as (i2 & ci & H1 & [= -> <-]).
      apply class_info_exact in H1 as (? & (b1 & b2 & b3 & ? & ? & ? & ->) & ->).
      eexists (x02 :: b1 ++ b2 ++ b3 ++ [] ++ []). split.
      - exists (mkClassHeader (ci_object_id ci) (ci_name ci) (ci_member_names ci) None None).
        split; [by destruct ci|]. exists b1, b2, b3, [], []. done.
      - simpl. by rewrite app_nil_r, <- !app_assoc. }
    { unfold system_class_with_members_and_types in Ha.
      apply bind_ok in Ha as (i1 & rt & Ht & Ha).
      apply record_type_exact in Ht as (? & [-> ->] & ->).
      apply bind_ok in Ha as (i2 & ci & H1 & Ha).
      apply class_info_exact in H1 as (? & (b1 & b2 & b3 & ? & ? & ? & ->) & ->).
      apply bind_ok in Ha as (i3 & mti & H2 & [= -> <-]).
      apply member_type_info_exact in H2 as (b4 & (ks & -> & Hks) & ->).
      eexists (x04 :: b1 ++ b2 ++ b3 ++ b4 ++ []). split.
      - exists (mkClassHeader (ci_object_id ci) (ci_name ci) (ci_member_names ci) (Some ks) None).
        split; [by destruct ci|]. exists b1, b2, b3, b4, []. done.
      - simpl. by rewrite app_nil_r, <- !app_assoc. }
  - intros (bs & (c & -> & (b1 & b2 & b3 & b4 & b5 & H1 & H2 & H3 & H4 & H5 & ->)) & ->).
    assert (forall r, class_info_parse' (b1 ++ b2 ++ b3 ++ r) = Ok r (ci_of c)) as Hci.
    { intros r. pose proof (proj2 (class_info_exact (b1 ++ b2 ++ b3 ++ r) r (ci_of c))) as E.
      apply E. exists (b1 ++ b2 ++ b3). split; [eauto 10|]. by rewrite <- !app_assoc. }
    destruct c as [oid name names types lib].
    destruct types as [ks|], lib as [lid|];
      cbn [class_code ch_types ch_library ch_member_names e_types] in H4, H5 |- *.
    + change (class_with_members ((x05 :: b1 ++ b2 ++ b3 ++ b4 ++ b5) ++ rest)) with
        (@Err bytes error class_rec (mkError ((x05 :: b1 ++ b2 ++ b3 ++ b4 ++ b5) ++ rest)
          (E_ExpectedRecordType RT_ClassWithMembers))).
      cbn [alt]. unfold class_with_members_and_types.
      change (record_type_parse RT_ClassWithMembersAndTypes
        ((x05 :: b1 ++ b2 ++ b3 ++ b4 ++ b5) ++ rest)) with
        (@Ok bytes error _ ((b1 ++ b2 ++ b3 ++ b4 ++ b5) ++ rest) RT_ClassWithMembersAndTypes).
      cbn [bind]. rewrite <- !app_assoc, Hci. cbn [bind].
      pose proof (proj2 (member_type_info_exact (ci_of (mkClassHeader oid name names (Some ks) (Some lid))) (b4 ++ b5 ++ rest) (b5 ++ rest)
        (mti_of ks))) as E. rewrite E by (eexists; split; [|done]; exists ks; done).
      cbn [bind]. rewrite (exact_ok _ _ _ b5 _ library_id_exact H5). done.
    + subst b5.
      change (class_with_members ((x04 :: b1 ++ b2 ++ b3 ++ b4 ++ []) ++ rest)) with
        (@Err bytes error class_rec (mkError ((x04 :: b1 ++ b2 ++ b3 ++ b4 ++ []) ++ rest)
          (E_ExpectedRecordType RT_ClassWithMembers))).
      cbn [alt].
      change (class_with_members_and_types ((x04 :: b1 ++ b2 ++ b3 ++ b4 ++ []) ++ rest)) with
        (@Err bytes error class_rec (mkError ((x04 :: b1 ++ b2 ++ b3 ++ b4 ++ []) ++ rest)
          (E_ExpectedRecordType RT_ClassWithMembersAndTypes))).
      cbn [alt].
      change (system_class_with_members ((x04 :: b1 ++ b2 ++ b3 ++ b4 ++ []) ++ rest)) with
        (@Err bytes error class_rec (mkError ((x04 :: b1 ++ b2 ++ b3 ++ b4 ++ []) ++ rest)
          (E_ExpectedRecordType RT_SystemClassWithMembers))).
      cbn [alt]. unfold system_class_with_members_and_types.
      change (record_type_parse RT_SystemClassWithMembersAndTypes
        ((x04 :: b1 ++ b2 ++ b3 ++ b4 ++ []) ++ rest)) with
        (@Ok bytes error _ ((b1 ++ b2 ++ b3 ++ b4 ++ []) ++ rest)
           RT_SystemClassWithMembersAndTypes).
      cbn [bind]. rewrite <- !app_assoc, Hci. cbn [bind app].
      pose proof (proj2 (member_type_info_exact (ci_of (mkClassHeader oid name names (Some ks) None)) (b4 ++ rest) rest
        (mti_of ks))) as E. rewrite E by (eexists; split; [|done]; exists ks; done). done.
    + subst b4. cbn [app] in *. unfold class_with_members.
      change (record_type_parse RT_ClassWithMembers
        (x03 :: (b1 ++ b2 ++ b3 ++ b5) ++ rest)) with
        (@Ok bytes error _ ((b1 ++ b2 ++ b3 ++ b5) ++ rest) RT_ClassWithMembers).
      cbn [bind]. rewrite <- !app_assoc, Hci. cbn [bind].
      rewrite (exact_ok _ _ _ b5 _ library_id_exact H5). done.
    + subst b4 b5. cbn [app] in *. rewrite app_nil_r.
      change (class_with_members (x02 :: (b1 ++ b2 ++ b3) ++ rest)) with
        (@Err bytes error class_rec (mkError (x02 :: (b1 ++ b2 ++ b3) ++ rest)
          (E_ExpectedRecordType RT_ClassWithMembers))).
      cbn [alt].
      change (class_with_members_and_types (x02 :: (b1 ++ b2 ++ b3) ++ rest)) with
        (@Err bytes error class_rec (mkError (x02 :: (b1 ++ b2 ++ b3) ++ rest)
          (E_ExpectedRecordType RT_ClassWithMembersAndTypes))).
      cbn [alt]. unfold system_class_with_members.
      change (record_type_parse RT_SystemClassWithMembers (x02 :: (b1 ++ b2 ++ b3) ++ rest)) with
        (@Ok bytes error _ ((b1 ++ b2 ++ b3) ++ rest) RT_SystemClassWithMembers).
      cbn [bind]. rewrite <- !app_assoc, Hci. done.
Qed.

(** ** Arrays *)

Lemma array_info_exact :
  exact array_info_parse
    (fun ai bs => exists b1 b2, e_id (ai_object_id ai) b1 /\ e_len (ai_length ai) b2
                                /\ bs = b1 ++ b2).
Proof.
  eapply exact_ext.
  - apply (exact_two object_id length_parse); [apply object_id_exact|apply length_exact].
  - intros [id len] bs. cbv beta. cbn [ai_object_id ai_length]. split.
    + intros (a & c & b1 & b2 & [= -> ->] & ? & ? & ->). eauto 10.
    + intros (b1 & b2 & ? & ? & ->). eauto 15.
Qed.

Lemma array_single_object_exact :
  exact array_single_object (fun ai bs => e_array_header x10 (ai_object_id ai) (ai_length ai) bs).
Proof.
  eapply exact_ext; [apply (exact_record RT_ArraySingleObject), array_info_exact|].
  intros ai bs. cbv beta. unfold e_array_header. naive_solver.
Qed.

Lemma array_single_string_exact :
  exact array_single_string (fun ai bs => e_array_header x11 (ai_object_id ai) (ai_length ai) bs).
Proof.
  eapply exact_ext; [apply (exact_record RT_ArraySingleString), array_info_exact|].
  intros ai bs. cbv beta. unfold e_array_header. naive_solver.
Qed.

Lemma array_single_primitive_exact :
  exact array_single_primitive
    (fun a bs => exists b, e_array_header x0f (ai_object_id a.1) (ai_length a.1) b
                           /\ bs = b ++ [n2b (pt_code a.2)]).
Proof.
  eapply exact_ext.
  - apply (exact_record RT_ArraySinglePrimitive), (exact_two array_info_parse primitive_type_parse).
    + apply array_info_exact.
    + apply primitive_type_exact.
  - intros [ai p] bs. cbv beta. unfold e_array_header. cbn [fst snd]. split.
    + intros (b & (a & c & b1 & b2 & [= -> ->] & (b3 & b4 & ? & ? & ->) & -> & ->) & ->).
      eexists (_ :: b3 ++ b4). split; [|done]. eauto 10.
    + intros (b & (b3 & b4 & ? & ? & ->) & ->).
      exists ((b3 ++ b4) ++ [n2b (pt_code p)]). split; [|done]. eauto 15.
Qed.

Lemma e_len_nonempty : nonempty_enc e_len.
Proof. intros n [_ Hn]. discriminate Hn. Qed.

Lemma has_offset_iff b : has_offset b = true <-> (3 <= bat_code b)%N.
Proof. destruct b; simpl; split; intros; try done; lia. Qed.

Lemma binary_array_exact :
  exact binary_array_parse
    (fun ba bs => exists k, ba_type_enum ba = kind_bt k /\ ba_additional_type_info ba = kind_ai k
       /\ e_binary_array_header (ba_object_id ba) (ba_array_type ba) (ba_lengths ba)
            (ba_lower_bounds ba) k bs).
Proof.
  intros input rest ba. unfold binary_array_parse, e_binary_array_header. split.
  - intros Ha. apply bind_ok in Ha as (i1 & rt & Ht & Ha).
    apply record_type_exact in Ht as (? & [-> ->] & ->).
    apply bind_ok in Ha as (i2 & oid & Hq & Ha).
    apply object_id_exact in Hq as (b1 & ? & ->).
    apply bind_ok in Ha as (i3 & bat & Hq & Ha).
    apply binary_array_type_exact in Hq as (? & -> & ->).
    apply bind_ok in Ha as (i4 & rank & Hq & Ha).
    apply length_exact in Hq as (? & [? ->] & ->).
    apply bind_ok in Ha as (i5 & lengths & Hq & Ha).
    apply (exact_count rank _ _ length_exact e_len_nonempty) in Hq as (b2 & [Hr ?] & ->).
    apply bind_ok in Ha as (i6 & bounds & Hq & Ha).
    assert (exists b3, match bounds with
       | None => (bat_code bat < 3)%N /\ b3 = []
       | Some lb => (3 <= bat_code bat)%N /\ length lb = length lengths /\ e_list e_len lb b3
       end /\ i5 = b3 ++ i6) as (b3 & Hb & ->).
    { unfold cond in Hq. destruct (has_offset bat) eqn:Ho.
      - apply rmap_ok in Hq as (lb & Hq & ->).
        apply (exact_count rank _ _ length_exact e_len_nonempty) in Hq as (b3 & [Hr' ?] & ->).
        exists b3. split; [|done]. split; [by apply has_offset_iff|]. split; [lia|done].
      - inv Hq. exists []. split; [|done]. split; [|done].
        destruct (N.lt_ge_cases (bat_code bat) 3) as [?|Hge]; [done|].
        apply has_offset_iff in Hge. congruence. }
    clear Hq. apply bind_ok in Ha as (i7 & bt & Hq & Ha).
    apply binary_type_exact in Hq as (? & -> & ->).
    apply bind_ok in Ha as (i8 & ai & Hq & [= -> <-]).
    apply additional_type_info_exact in Hq as (b5 & (k & Hk & <- & <- & Hi) & ->).
    subst rank. cbn [ba_object_id ba_array_type ba_lengths ba_lower_bounds ba_type_enum
                     ba_additional_type_info].
    exists (x07 :: b1 ++ n2b (bat_code bat) :: (enc_uint 4 (N.of_nat (length lengths)) ++ b2)
             ++ b3 ++ [n2b (bt_code (kind_bt k))] ++ b5). split.
    + exists k. split; [done|]. split; [done|].
      exists b1, (enc_uint 4 (N.of_nat (length lengths)) ++ b2), b3, [n2b (bt_code (kind_bt k))], b5.
      split; [done|]. split; [by exists b2|]. split; [done|].
      split; [by apply e_kind_code_iff|]. done.
    + repeat (rewrite <- app_assoc || rewrite <- app_comm_cons || cbn [app]). done.
  - intros (bs & (k & Hbt & Hai & (b1 & b2 & b3 & b4 & b5 & H1 & H2 & H3 & H4 & H5 & ->)) & ->).
    destruct H2 as (b2' & Hv & Hl & ->). apply e_kind_code_iff in H4 as [Hk ->].
    repeat (rewrite <- app_assoc || rewrite <- app_comm_cons || cbn [app]).
    match goal with |- context [record_type_parse RT_BinaryArray (x07 :: ?r)] =>
      change (record_type_parse RT_BinaryArray (x07 :: r)) with (@Ok bytes error _ r RT_BinaryArray)
    end. cbn [bind].
    rewrite (exact_ok _ _ _ b1 _ object_id_exact H1). cbn [bind].
    match goal with |- context [binary_array_type_parse (?c :: ?r)] =>
      change (c :: r) with ([c] ++ r);
      rewrite (exact_ok binary_array_type_parse _ (ba_array_type ba) [c] r binary_array_type_exact
        eq_refl) end. cbn [bind].
    rewrite (exact_ok length_parse e_len (N.of_nat (length (ba_lengths ba))) _ _ length_exact)
      by done. cbn [bind].
    rewrite (exact_ok _ _ (ba_lengths ba) b2' _ (exact_count (N.of_nat (length (ba_lengths ba))) _ _ length_exact e_len_nonempty))
      by done. cbn [bind].
    assert (forall r, cond (has_offset (ba_array_type ba))
       (count (N.of_nat (length (ba_lengths ba))) length_parse) (b3 ++ r)
       = Ok r (ba_lower_bounds ba)) as Hcond.
    { intros r. unfold cond. destruct (ba_lower_bounds ba) as [lb|] eqn:Elb.
      - destruct H3 as (Hge & Hlen & Hlb). apply has_offset_iff in Hge. rewrite Hge.
        rewrite (exact_ok _ _ lb b3 _ (exact_count (N.of_nat (length (ba_lengths ba))) _ _ length_exact e_len_nonempty)).
        + done.
        + split; [by rewrite Hlen|done].
      - destruct H3 as [Hlt ->]. destruct (has_offset (ba_array_type ba)) eqn:Ho; [|done].
        apply has_offset_iff in Ho. lia. }
    rewrite Hcond. cbn [bind].
    match goal with |- context [binary_type_parse (?c :: ?r)] =>
      change (c :: r) with ([c] ++ r);
      rewrite (exact_ok binary_type_parse _ (kind_bt k) [c] r binary_type_exact eq_refl) end.
    cbn [bind].
    pose proof (proj2 (additional_type_info_exact (kind_bt k) (b5 ++ rest) rest (kind_ai k))) as E1.
    rewrite E1 by (eexists; split; [|done]; by exists k). cbn [bind].
    destruct ba; cbn in *. by subst.
Qed.

(** ** Header and method records *)

Lemma header_exact :
  exact serialization_header_parse
    (fun h bs => exists root hid, h = mkHeader root hid 1 0
       /\ match root with Some r => valid_id r | None => True end
       /\ fits_int 4 hid
       /\ bs = x00 :: enc_uint 4 (default 0%N root) ++ enc_int 4 hid ++ enc_int 4 1 ++ enc_int 4 0).
Proof.
  intros input rest h. unfold serialization_header_parse. split.
  - intros Ha. apply bind_ok in Ha as (i1 & rt & Ht & Ha).
    apply record_type_exact in Ht as (? & [-> ->] & ->).
    apply bind_ok in Ha as (i2 & z & Hq & Ha).
    apply int32_exact in Hq as (? & [Hz ->] & ->).
    destruct (Z.ltb_spec z 0); [done|].
    apply bind_ok in Ha as (i3 & hid & Hq & Ha).
    apply int32_exact in Hq as (? & [Hhid ->] & ->).
    apply bind_ok in Ha as (i4 & major & Hq & Ha).
    apply int32_exact in Hq as (? & [Hmaj ->] & ->).
    destruct (Z.eqb_spec major 1) as [->|]; [|done]. cbn [negb] in Ha.
    apply bind_ok in Ha as (i5 & minor & Hq & Ha).
    apply int32_exact in Hq as (? & [Hmin ->] & ->).
    destruct (Z.eqb_spec minor 0) as [->|]; [|done]. cbn [negb] in Ha.
    injection Ha as -> <-.
    destruct (fits_int4_to_N z) as [Hlt He]; [done|done|]. rewrite He.
    exists (x00 :: enc_uint 4 (Z.to_N z) ++ enc_int 4 hid ++ enc_int 4 1 ++ enc_int 4 0).
    split; [|by repeat (rewrite <- app_assoc || rewrite <- app_comm_cons || cbn [app])].
    exists (if Z.eqb z 0 then None else Some (Z.to_N z)), hid. split; [done|].
    destruct (Z.eqb_spec z 0) as [->|]; [done|].
    split; [|done]. unfold valid_id. lia.
  - intros (bs & (root & hid & -> & Hr & Hh & ->) & ->).
    repeat (rewrite <- app_assoc || rewrite <- app_comm_cons).
    match goal with |- context [record_type_parse ?t (x00 :: ?r)] =>
      change (record_type_parse t (x00 :: r)) with (@Ok bytes error _ r t)
    end. cbn [bind].
    assert (default 0 root < 2 ^ 31)%N as Hlt.
    { destruct root; simpl; [unfold valid_id in Hr|]; lia. }
    destruct (id_fits (default 0%N root) Hlt) as [Hf He]. rewrite <- He.
    rewrite (exact_ok int32_parse (e_int 4) _ _ _ int32_exact) by (split; [exact Hf|reflexivity]).
    cbn [bind].
    destruct (Z.ltb_spec (Z.of_N (default 0%N root)) 0); [lia|].
    rewrite (exact_ok int32_parse (e_int 4) hid _ _ int32_exact) by done. cbn [bind].
    rewrite (exact_ok int32_parse (e_int 4) 1%Z _ _ int32_exact) by done. cbn [bind Z.eqb negb].
    rewrite (exact_ok int32_parse (e_int 4) 0%Z _ _ int32_exact) by done. cbn [bind Z.eqb negb].
    do 2 f_equal. destruct root as [r|]; [|done]. simpl. unfold valid_id in Hr.
    destruct (Z.eqb_spec (Z.of_N r) 0); [lia|]. by rewrite N2Z.id.
Qed.

End with_decimal.
