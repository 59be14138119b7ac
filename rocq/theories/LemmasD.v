(** * LemmasD: unreadable positions. *)
From Verif Require Import Base Utf8 Value DataTypes Records Parser Wire BaseLemmas DataTypesLemmas
  RecordsLemmas MethodLemmas SafetyLemmas Safety Grammar Heads Complete Sound Fuel Message Run Spec
  LemmasA LemmasB LemmasC Positions Reach.
From Coq Require Import Lia.

Section with_decimal.
Context {DL : DecimalLib}.

Lemma after_header W root e i :
  after W root e i -> exists ro hb body, ro = (if N.eqb root 0 then None else Some root) /\
    e_header ro hb /\ W = hb ++ body /\ g_objects empty_env body e i.
Proof.
  intros (hid & body & Hr & Hh & -> & Ho). eexists _, _, _. split; [reflexivity|].
  split; [by apply header_bytes_header|]. done.
Qed.

Lemma after_fail W root e i f s err :
  after W root e i -> parse_referenceable f (st e) i = (s, Fail err) -> deserialize W = PErr err.
Proof. intros (ro & hb & body & -> & Hh & -> & Ho)%after_header. by eapply run_fail. Qed.
Lemma after_panic W root e i f s p :
  after W root e i -> parse_referenceable f (st e) i = (s, Panic p) -> deserialize W = PPanic p.
Proof. intros (ro & hb & body & -> & Hh & -> & Ho)%after_header. by eapply run_panic. Qed.
Lemma after_stuck W root e i f err1 :
  after W root e i -> parse_referenceable f (st e) i = (st e, Err err1) ->
  ~ head_in [x15; x16; x0b] i ->
  deserialize W = PErr (mkError i (E_ExpectedRecordType RT_MessageEnd)).
Proof.
  intros (ro & hb & body & -> & Hh & -> & Ho)%after_header H Hhd. by eapply run_stuck.
Qed.
Lemma inside_fail W x s err :
  inside false W x -> site_stops x s (S_Fail err) -> deserialize W = PErr err.
Proof.
  intros (root & e & i & (ro & hb & body & -> & Hh & -> & Ho)%after_header & Hr) Hs.
  by eapply run_reach_fail.
Qed.
Lemma inside_panic W b x s p :
  inside b W x -> site_stops x s (S_Panic p) -> deserialize W = PPanic p.
Proof.
  intros (root & e & i & (ro & hb & body & -> & Hh & -> & Ho)%after_header & Hr) Hs.
  by eapply run_reach_panic.
Qed.
Lemma reach_stuck W root e i b x y :
  after W root e i -> reach_record b e i x -> site_stops x (st e) y ->
  match y with S_Err _ => True | S_Fail _ => b = true | S_Panic _ => False end ->
  deserialize W = PErr (mkError i (E_ExpectedRecordType RT_MessageEnd)).
Proof.
  intros (ro & hb & body & -> & Hh & -> & Ho)%after_header Hr Hs Hy. by eapply run_reach_stuck.
Qed.

(** ** Records *)

Lemma referenceable_err_other f s i s' e :
  parse_referenceable f s i = (s', Err e) -> e = mkError i E_Other.
Proof.
  destruct f as [|f]; [done|]. rewrite parse_referenceable_S. unfold parse_referenceable_body.
  destruct (smap _ (parse_classes f s i)) as [s1 [| | | |]]; cbn [alt_mut sbind]; try done.
  destruct (smap _ (parse_arrays _ _ s1 i)) as [s2 [| | | |]]; cbn [alt_mut sbind]; try done.
  destruct (rmap _ (binary_object_string i)) as [| | | |]; cbn [alt_mut sbind]; try done.
  unfold alt_mut_end. cbn [sbind]. intros [= <- <-]. done.
Qed.

Lemma ref_other {A} i (g : A -> N * value) s r :
  match r with Ok _ _ | Err _ => False | _ => True end ->
  ref_finish i g (s, r) = (s, match r with Ok _ _ | Err _ => Diverge | Fail e => Fail e | Panic p => Panic p | Diverge => Diverge end).
Proof. by destruct r. Qed.

Lemma classes_code f s i :
  ~ head_in [x01; x0c] i ->
  parse_classes (S f) s i = match class_records i with
     | Ok rest c => parse_class_body (parse_classes f) (parse_referenceable f) i
                      (ci_object_id (cr_class_info c)) c s rest
      | Err e => (s, Err e)
      | Fail e => (s, Fail e)
      | Panic p => (s, Panic p)
      | Diverge => (s, Diverge)
      end.
Proof.
  intros Hh. rewrite parse_classes_S. unfold parse_classes_body.
  rewrite parse_binary_library_none by (apply no_library_head; nohead). cbn [sbind].
  destruct (class_with_id_err i) as [er ->]; [nohead|]. done.
Qed.

(** The class record after its code. *)
Definition class_rest (code : byte) (i : bytes) : res class_rec :=
  if Byte.eqb code x02 then
    let? (input, ci) := class_info_parse' i in Ok input (CR_SystemClassWithMembers ci)
  else if Byte.eqb code x03 then
    let? (input, ci) := class_info_parse' i in
    let? (input, lid) := library_id input in Ok input (CR_ClassWithMembers ci lid)
  else if Byte.eqb code x04 then
    let? (input, ci) := class_info_parse' i in
    let? (input, mti) := member_type_info_parse input ci in
    Ok input (CR_SystemClassWithMembersAndTypes ci mti)
  else
    let? (input, ci) := class_info_parse' i in
    let? (input, mti) := member_type_info_parse input ci in
    let? (input, lid) := library_id input in Ok input (CR_ClassWithMembersAndTypes ci mti lid).

Lemma class_records_fails code i err :
  code ∈ [x02; x03; x04; x05] -> class_rest code i = Fail err -> class_records (code :: i) = Fail err.
Proof.
  intros Hc H. unfold class_rest in H. unfold class_records.
  repeat (apply elem_of_cons in Hc as [->|Hc]); [| | | |by apply elem_of_nil in Hc]; cbv [Byte.eqb Byte.to_bits Bool.eqb andb fst snd] in H; cbn [Byte.to_bits] in H.
  - destruct (rt_err RT_ClassWithMembers (fun input _ =>
      let? (input, ci) := class_info_parse' input in
      let? (input, lid) := library_id input in Ok input (CR_ClassWithMembers ci lid)) (x02 :: i)) as [e1 He1]; [hd|].
    unfold class_with_members. rewrite He1. cbn [alt].
    unfold class_with_members_and_types. rewrite alt_skip by (apply rt_err; hd).
    unfold system_class_with_members. change x02 with (n2b (rt_code RT_SystemClassWithMembers)).
    rewrite rt_ok, H. done.
  - unfold class_with_members. change x03 with (n2b (rt_code RT_ClassWithMembers)).
    rewrite rt_ok, H. done.
  - unfold class_with_members. rewrite alt_skip by (apply rt_err; hd).
    unfold class_with_members_and_types. rewrite alt_skip by (apply rt_err; hd).
    unfold system_class_with_members. rewrite alt_skip by (apply rt_err; hd).
    unfold system_class_with_members_and_types.
    change x04 with (n2b (rt_code RT_SystemClassWithMembersAndTypes)).
    rewrite rt_ok, H. done.
  - unfold class_with_members. rewrite alt_skip by (apply rt_err; hd).
    unfold class_with_members_and_types.
    change x05 with (n2b (rt_code RT_ClassWithMembersAndTypes)).
    rewrite rt_ok, H. done.
Qed.

Lemma class_rest_info code i err :
  class_info_parse i = Fail err -> class_rest code i = Fail (mkError (e_input err) E_ExpectedClassInfo).
Proof.
  intros H. unfold class_rest, class_info_parse'. rewrite H. cbn [map_err bind at_err'].
  repeat (destruct (Byte.eqb _ _)); done.
Qed.

Lemma class_code_head code i : code ∈ [x02; x03; x04; x05] -> head_in [x02; x03; x04; x05] (code :: i).
Proof. done. Qed.

Lemma classes_record_fails code f s i err :
  code ∈ [x02; x03; x04; x05] -> class_rest code i = Fail err ->
  parse_classes (S f) s (code :: i) = (s, Fail err).
Proof.
  intros Hc H. rewrite classes_code.
  2:{ apply (class_code_head _ i) in Hc. hd. }
  by rewrite (class_records_fails _ _ _ Hc H).
Qed.
Lemma ref_record_fails code f s i err :
  code ∈ [x02; x03; x04; x05] -> class_rest code i = Fail err ->
  parse_referenceable (S (S f)) s (code :: i) = (s, Fail err).
Proof. intros Hc H. apply ref_class_fail. by apply classes_record_fails. Qed.

(** ** Members *)

(** Kinds under which a reference is accepted. *)
Definition ref_kind (k : kind) : Prop :=
  match k with K_Any | K_Object | K_ObjectArray | K_StringArray | K_PrimitiveArray _ => True | _ => False end.

Lemma any_kind_dec (k : kind) :
  {k = K_Any \/ k = K_Object \/ k = K_ObjectArray} + {~ (k = K_Any \/ k = K_Object \/ k = K_ObjectArray)}.
Proof. destruct k; (left; tauto) || (right; intros [?|[?|?]]; discriminate). Qed.
Lemma member_any PC k s i :
  k = K_Any \/ k = K_Object \/ k = K_ObjectArray -> ~ head_in [x0c] i ->
  parse_member PC k s i = member_untyped_body PC s i.
Proof.
  intros Hk Hh. assert (parse_member_untyped PC s i = member_untyped_body PC s i) as H.
  { unfold parse_member_untyped. by rewrite parse_binary_library_none by by apply no_library_head. }
  destruct Hk as [-> | [-> | ->]]; cbn [parse_member]; [done| |]; unfold parse_member_typed;
    rewrite parse_binary_library_none by (by apply no_library_head); done.
Qed.
Lemma member_typed PC k s i :
  k <> K_Any -> ~ head_in [x0c] i ->
  parse_member PC k s i =
  match kind_bt k, kind_ai k with
  | BT_Primitive, Some (AI_Primitive p) =>
      (s, rmap VR_Value (member_primitive_untyped i p))
  | BT_String, None => (s, parse_string_member i)
  | BT_Object, None => parse_member_untyped PC s i
  | BT_SystemClass, Some (AI_SystemClass class_name) =>
      class_or_null PC (fun o => str_eqb (obj_class o) class_name
                              && bool_decide (obj_library o = None)) s i
  | BT_Class, Some (AI_Class cti) =>
      match st_libs s !! cti_library_id cti with
      | Some library =>
          class_or_null PC (fun o => str_eqb (obj_class o) (cti_type_name cti)
                                  && bool_decide (obj_library o = Some library)) s i
      | None => (s, Fail (mkError i E_MissingLibraryId))
      end
  | BT_ObjectArray, None => parse_member_untyped PC s i
  | BT_StringArray, None =>
      (s, alt (parse_string_member i) (
          alt (parse_ref_member i)
              (parse_null_object i)))
  | BT_PrimitiveArray, Some (AI_Primitive _) => (s, parse_ref_member i)
  | _, _ => (s, Panic P_Unreachable)
  end.
Proof.
  intros Hk Hh. rewrite parse_member_typed_eq by done. unfold parse_member_typed.
  by rewrite parse_binary_library_none by by apply no_library_head.
Qed.

(** A reference. *)
Lemma member_ref PC k s i :
  ref_kind k -> head_in [x09] i -> (forall e, parse_ref_member i <> Err e) ->
  parse_member PC k s i = (s, parse_ref_member i).
Proof.
  intros Hk Hh Hne.
  assert (forall r, alt (parse_ref_member i) r = parse_ref_member i) as Halt.
  { intros r. destruct (parse_ref_member i); try done. by exfalso; eapply Hne. }
  destruct (any_kind_dec k) as [Hk2|Hk2].
  - rewrite member_any; [|done|hd]. unfold member_untyped_body.
    rewrite alt_skip by (apply member_primitive_typed_err; hd). rewrite Halt.
    destruct (parse_ref_member i); try done. by exfalso; eapply Hne.
  - rewrite member_typed; [|naive_solver|hd].
    destruct k; cbn [kind_bt kind_ai]; try done; try naive_solver.
    rewrite alt_skip by (apply parse_string_member_err; hd). by rewrite Halt.
Qed.
Lemma member_ref_bad PC k s z i :
  ref_kind k -> fits_int 4 z -> (z <= 0)%Z ->
  parse_member PC k s (x09 :: enc_int 4 z ++ i)
  = (s, Fail (mkError (enc_int 4 z ++ i) E_InvalidObjectId)).
Proof.
  intros Hk Hz Hz0. assert (parse_ref_member (x09 :: enc_int 4 z ++ i)
    = Fail (mkError (enc_int 4 z ++ i) E_InvalidObjectId)) as H.
  { unfold parse_ref_member, member_reference. change x09 with (n2b (rt_code RT_MemberReference)).
    rewrite rt_ok. unfold object_id. by rewrite positive_id_bad. }
  rewrite member_ref; [by rewrite H|done|hd|by rewrite H].
Qed.

(** Kinds under which a null is accepted. *)
Definition null_kind (k : kind) : Prop :=
  match k with K_Any | K_Object | K_ObjectArray | K_StringArray => True | _ => False end.
Lemma member_null PC k s i :
  null_kind k -> head_in [x0a; x0d; x0e] i -> (forall e, parse_null_object i <> Err e) ->
  parse_member PC k s i = (s, parse_null_object i).
Proof.
  intros Hk Hh Hne.
  destruct (any_kind_dec k) as [Hk2|Hk2].
  - rewrite member_any; [|done|hd]. unfold member_untyped_body.
    rewrite alt_skip by (apply member_primitive_typed_err; hd).
    rewrite alt_skip by (apply parse_ref_member_err; hd).
    rewrite alt_skip by (apply parse_string_member_err; hd).
    destruct (parse_null_object i); try done. by exfalso; eapply Hne.
  - rewrite member_typed; [|naive_solver|hd].
    destruct k; cbn [kind_bt kind_ai]; try done; try naive_solver.
    rewrite alt_skip by (apply parse_string_member_err; hd).
    rewrite alt_skip by (apply parse_ref_member_err; hd). done.
Qed.

(** A member declared as a string that is no string. *)
Lemma member_string_err PC s i :
  ~ head_in [x06; x0c] i -> exists err, parse_member PC K_String s i = (s, Err err).
Proof.
  intros Hh. rewrite member_typed; [|done|nohead]. cbn [kind_bt kind_ai].
  destruct (parse_string_member_err i) as [er ->]; [nohead|]. eauto.
Qed.

Lemma ev_const {A} (P : nat -> A) r : (forall f, P f = r) -> ev P r.
Proof. intros H. exists 0. intros f _. apply H. Qed.


(** ** Libraries *)
Lemma library_fresh e id name lb rest :
  e_library_record id name lb -> e_libs e !! id = None ->
  parse_binary_library (st e) (lb ++ rest) = (st (add_lib id name e), Ok rest tt).
Proof. intros Hl Hf. apply (parse_binary_library_complete e _ (add_lib id name e)). by apply G_lib_some. Qed.
Lemma library_duplicate id name old lb rest e :
  e_library_record id name lb -> e_libs e !! id = Some old ->
  parse_binary_library (st e) (lb ++ rest)
  = (st (add_lib id name e), Fail (mkError rest E_DuplicateLibraryId)).
Proof.
  intros Hl Hold. unfold parse_binary_library.
  rewrite (exact_ok binary_library _ (id, name) lb rest binary_library_exact Hl). cbn [opt st st_libs].
  by rewrite bool_decide_eq_true_2 by (rewrite Hold; eauto).
Qed.

Lemma class_with_id_fails f e id mid rest :
  valid_id id -> valid_id mid ->
  parse_classes (S f) (st e) (x01 :: enc_uint 4 id ++ enc_uint 4 mid ++ rest)
  = (st e, Fail (if N.eqb mid id then mkError (enc_uint 4 mid ++ rest) E_InvalidMetadataId
                 else mkError (x01 :: enc_uint 4 id ++ enc_uint 4 mid ++ rest) E_MissingMetadataId)).
Proof.
  intros Hid Hmid. rewrite parse_classes_S. unfold parse_classes_body.
  rewrite parse_binary_library_none by done. cbn [sbind].
  assert (class_with_id (x01 :: enc_uint 4 id ++ enc_uint 4 mid ++ rest) =
    if N.eqb mid id then Fail (mkError (enc_uint 4 mid ++ rest) E_InvalidMetadataId) else Ok rest (id, mid)) as ->.
  { unfold class_with_id. change x01 with (n2b (rt_code RT_ClassWithId)). rewrite rt_ok, id_ok by done.
    cbn [bind]. rewrite id_ok by done. done. }
  by destruct (N.eqb mid id).
Qed.

(** Libraries never change. *)
Definition libs_le (e e' : env) : Prop :=
  forall id name, e_libs e !! id = Some name -> e_libs e' !! id = Some name.
Lemma libs_le_refl e : libs_le e e.
Proof. by intros ? ?. Qed.
Lemma libs_le_trans e1 e2 e3 : libs_le e1 e2 -> libs_le e2 e3 -> libs_le e1 e3.
Proof. intros H1 H2 id name H. by apply H2, H1. Qed.
Lemma libs_fixed_lib e i e1 i1 : g_lib e i e1 i1 -> libs_le e e1.
Proof.
  destruct 1 as [id name bs i _ Hf|]; [|apply libs_le_refl]. intros id' name' H. cbn [add_lib e_libs].
  rewrite lookup_insert_ne; [done|]. congruence.
Qed.
Lemma libs_fixed :
  (forall e i id o e' i', g_class e i id o e' i' -> libs_le e e')
  /\ (forall k e i it e' i', g_member k e i it e' i' -> libs_le e e')
  /\ (forall ks e i its e' i', g_items ks e i its e' i' -> libs_le e e')
  /\ (forall its e i vs e' i', g_resolve its e i vs e' i' -> libs_le e e')
  /\ (forall e i id v e' i', g_record e i id v e' i' -> libs_le e e').
Proof.
  apply g_mut_ind; intros;
    repeat match goal with H : g_lib _ _ _ _ |- _ => apply libs_fixed_lib in H end;
    eauto using libs_le_refl, libs_le_trans.
Qed.
Lemma libs_fixed_objects e i e' i' : g_objects e i e' i' -> libs_le e e'.
Proof.
  induction 1 as [|e i id v e1 i1 e2 i2 Hr _ IH]; [apply libs_le_refl|].
  eapply libs_le_trans; [|exact IH]. destruct libs_fixed as (_ & _ & _ & _ & H). by apply H in Hr.
Qed.

End with_decimal.
