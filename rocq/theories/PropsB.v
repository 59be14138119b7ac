(** * PropsB: properties C14 - C19 (ids, primitive members, classes, libraries).

    [after W root e i]: the message [W] consists of a header with the root id [root], any
    sequence of well-formed records that leaves the tables [e], and then [i].
    [inside false W x]: [W] is well-formed up to the position [x] inside a record, at any depth
    (Positions.v). *)
From Verif Require Import Base Utf8 Value DataTypes Records Parser Wire BaseLemmas DataTypesLemmas
  RecordsLemmas MethodLemmas SafetyLemmas Safety Grammar Heads Complete Sound Fuel Message Run Spec
  LemmasA LemmasB LemmasC Positions Reach LemmasD Trees TreeLemmas.
From Coq Require Import Lia.

Section with_decimal.
Context {DL : DecimalLib}.

Ltac ex_in := apply (bool_decide_unpack _); vm_compute; exact I.
(** *** Material for the examples *)

Lemma hid_ok : fits_int 4 (-1).
Proof. split; vm_compute; congruence. Qed.
Lemma ex_str s : Forall (fun c => (c < 128)%N) s -> length s < 128 ->
  e_str (bs_of s) (n2b (N.of_nat (length s)) :: bs_of s).
Proof.
  intros Hs Hl. assert (utf8 (bs_of s)) as Hu.
  { exists s. split.
    - eapply Forall_impl; [exact Hs|]. intros c Hc. cbv beta in Hc. left. lia.
    - clear Hl. induction Hs as [|c s Hc _ IH]; [done|]. cbn [bs_of map enc_utf8 concat].
      unfold enc_utf8 in IH. rewrite <- IH. unfold enc_char.
      by destruct (N.ltb_spec c 128); [|lia]. }
  exists [n2b (N.of_nat (length s))]. split; [|done].
  unfold bs_of. rewrite map_length. apply len_prefix_cases. left.
  assert (b2n (n2b (N.of_nat (length s))) = N.of_nat (length s)) as Hb.
  { unfold n2b. rewrite N.mod_small by lia. destruct (Byte.of_N (N.of_nat (length s))) eqn:E.
    - by apply Byte.to_of_N in E.
    - apply Byte.of_N_None_iff in E. lia. }
  eexists. split; [done|]. rewrite Hb. lia.
Qed.
(** A string record: id 5, "hi". *)
Definition ex_record : bytes := bs_of [6; 5;0;0;0; 2;104;105]%N.
Definition ex_string : value := VString (bs_of [104; 105]%N).
Definition ex_env : env := add_obj 5 ex_string empty_env.
Lemma ex_after root rest :
  (root < 2 ^ 31)%N -> after (header_bytes root (-1) ++ ex_record ++ rest) root ex_env rest.
Proof.
  intros Hr. apply (after_step _ _ empty_env (ex_record ++ rest)).
  - apply after_start; [done|apply hid_ok].
  - apply (G_rec_string _ _ 5 (bs_of [104; 105]%N)). exists (enc_uint 4 5), (bs_of [2; 104; 105]%N).
    split; [done|]. split; [|done]. apply (ex_str [104; 105]%N); [|simpl; lia]. repeat constructor.
Qed.

(** ** C14 Identifiers and lengths are validated *)

Theorem C14_object_id_of_record : forall W root e code z rest,
  after W root e (code :: enc_int 4 z ++ rest) -> code ∈ [x01; x06; x07; x0f; x10; x11] ->
  fits_int 4 z -> (z <= 0)%Z ->
  deserialize W = PErr (mkError (enc_int 4 z ++ rest) E_InvalidObjectId).
Proof.
  intros W root e code z rest Ha Hc Hf Hz.
  pose proof (positive_id_bad E_InvalidObjectId z rest Hf Hz) as Hbad.
  repeat (apply elem_of_cons in Hc as [->|Hc]); [| | | | | |by apply elem_of_nil in Hc].
  - eapply after_fail with (f := 2); [exact Ha|]. apply ref_class_fail. rewrite parse_classes_S. unfold parse_classes_body.
    rewrite parse_binary_library_none by done. cbn [sbind]. unfold class_with_id.
    change x01 with (n2b (rt_code RT_ClassWithId)). rewrite rt_ok. unfold object_id. by rewrite Hbad.
  - eapply after_fail with (f := 2); [exact Ha|]. rewrite ref_string by hd. unfold binary_object_string.
    change x06 with (n2b (rt_code RT_BinaryObjectString)). rewrite rt_ok. unfold object_id. by rewrite Hbad.
  - eapply after_fail with (f := 2); [exact Ha|]. rewrite ref_binary_array by hd. unfold parse_binary_array, binary_array_parse.
    change x07 with (n2b (rt_code RT_BinaryArray)). rewrite rt_ok. unfold object_id. by rewrite Hbad.
  - eapply after_fail with (f := 2); [exact Ha|]. rewrite ref_prim_array by hd. unfold parse_array_single_primitive, array_single_primitive.
    change x0f with (n2b (rt_code RT_ArraySinglePrimitive)). rewrite rt_ok. unfold array_info_parse, object_id. by rewrite Hbad.
  - eapply after_fail with (f := 2); [exact Ha|]. rewrite ref_object_array by hd. unfold parse_array_single_object, array_single_object.
    change x10 with (n2b (rt_code RT_ArraySingleObject)). rewrite rt_ok. unfold array_info_parse, object_id. by rewrite Hbad.
  - eapply after_fail with (f := 2); [exact Ha|]. rewrite ref_string_array by hd. unfold parse_array_single_string, array_single_string.
    change x11 with (n2b (rt_code RT_ArraySingleString)). rewrite rt_ok. unfold array_info_parse, object_id. by rewrite Hbad.
Qed.

Theorem C14_object_id_of_class : forall W root e code z rest,
  after W root e (code :: enc_int 4 z ++ rest) -> code ∈ [x02; x03; x04; x05] ->
  fits_int 4 z -> (z <= 0)%Z ->
  deserialize W = PErr (mkError (enc_int 4 z ++ rest) E_ExpectedClassInfo).
Proof.
  intros W root e code z rest Ha Hc Hf Hz. eapply after_fail with (f := 2); [exact Ha|].
  apply ref_record_fails; [done|].
  rewrite (class_rest_info _ _ (mkError (enc_int 4 z ++ rest) E_InvalidObjectId)); [done|].
  unfold class_info_parse, object_id. by rewrite positive_id_bad.
Qed.

Theorem C14_library_id : forall W root e z rest,
  after W root e (x0c :: enc_int 4 z ++ rest) -> fits_int 4 z -> (z <= 0)%Z ->
  deserialize W = PErr (mkError (enc_int 4 z ++ rest) E_InvalidLibraryId).
Proof.
  intros W root e z rest Ha Hf Hz. eapply after_fail with (f := 2); [exact Ha|].
  apply ref_class_fail. rewrite parse_classes_S. unfold parse_classes_body, parse_binary_library, binary_library.
  change x0c with (n2b (rt_code RT_BinaryLibrary)). rewrite rt_ok. unfold library_id. by rewrite positive_id_bad.
Qed.

Theorem C14_library_id_of_class : forall W root e id name nb names nsb z rest,
  after W root e (x03 :: enc_uint 4 id ++ nb ++ nsb ++ enc_int 4 z ++ rest) ->
  valid_id id -> e_str name nb -> e_counted e_str names nsb -> fits_int 4 z -> (z <= 0)%Z ->
  deserialize W = PErr (mkError (enc_int 4 z ++ rest) E_InvalidLibraryId).
Proof.
  intros W root e id name nb names nsb z rest Ha Hid Hn Hns Hf Hz.
  eapply after_fail with (f := 2); [exact Ha|].
  apply ref_record_fails; [by apply elem_of_list_further, elem_of_list_here|].
  unfold class_rest. cbn [Byte.eqb]. cbv [Byte.eqb Byte.to_bits Bool.eqb andb].
  unfold class_info_parse', class_info_parse. rewrite id_ok by done. cbn [bind].
  rewrite (exact_ok lps_parse _ name nb _ lps_exact Hn). cbn [bind].
  rewrite (exact_ok _ _ names nsb _ (exact_length_count _ _ lps_exact e_str_nonempty) Hns). cbn [bind map_err].
  unfold library_id. by rewrite positive_id_bad.
Qed.

Theorem C14_array_length : forall W root e code id z rest,
  after W root e (code :: enc_uint 4 id ++ enc_int 4 z ++ rest) -> code ∈ [x0f; x10; x11] ->
  valid_id id -> fits_int 4 z -> (z < 0)%Z ->
  deserialize W = PErr (mkError (enc_int 4 z ++ rest) E_InvalidLength).
Proof.
  intros W root e code id z rest Ha Hc Hid Hf Hz.
  repeat (apply elem_of_cons in Hc as [->|Hc]); [| | |by apply elem_of_nil in Hc].
  - eapply after_fail with (f := 2); [exact Ha|]. rewrite ref_prim_array by hd. unfold parse_array_single_primitive, array_single_primitive.
    change x0f with (n2b (rt_code RT_ArraySinglePrimitive)). rewrite rt_ok. unfold array_info_parse.
    rewrite id_ok by done. cbn [bind]. by rewrite length_bad.
  - eapply after_fail with (f := 2); [exact Ha|]. rewrite ref_object_array by hd. unfold parse_array_single_object, array_single_object.
    change x10 with (n2b (rt_code RT_ArraySingleObject)). rewrite rt_ok. unfold array_info_parse.
    rewrite id_ok by done. cbn [bind]. by rewrite length_bad.
  - eapply after_fail with (f := 2); [exact Ha|]. rewrite ref_string_array by hd. unfold parse_array_single_string, array_single_string.
    change x11 with (n2b (rt_code RT_ArraySingleString)). rewrite rt_ok. unfold array_info_parse.
    rewrite id_ok by done. cbn [bind]. by rewrite length_bad.
Qed.

Theorem C14_member_count : forall W root e code id name nb z rest,
  after W root e (code :: enc_uint 4 id ++ nb ++ enc_int 4 z ++ rest) -> code ∈ [x02; x03; x04; x05] ->
  valid_id id -> e_str name nb -> fits_int 4 z -> (z < 0)%Z ->
  deserialize W = PErr (mkError (enc_int 4 z ++ rest) E_ExpectedClassInfo).
Proof.
  intros W root e code id name nb z rest Ha Hc Hid Hn Hf Hz.
  eapply after_fail with (f := 2); [exact Ha|]. apply ref_record_fails; [done|].
  rewrite (class_rest_info _ _ (mkError (enc_int 4 z ++ rest) E_InvalidLength)); [done|].
  unfold class_info_parse. rewrite id_ok by done. cbn [bind].
  rewrite (exact_ok lps_parse _ name nb _ lps_exact Hn). cbn [bind].
  unfold length_count. by rewrite length_bad.
Qed.

(** Rank and dimensions of a BinaryArray; [ls] are the dimensions before the bad one. *)
Theorem C14_rank : forall W root e id bat z rest,
  after W root e (x07 :: enc_uint 4 id ++ n2b (bat_code bat) :: enc_int 4 z ++ rest) ->
  valid_id id -> fits_int 4 z -> (z < 0)%Z ->
  deserialize W = PErr (mkError (enc_int 4 z ++ rest) E_InvalidLength).
Proof.
  intros W root e id bat z rest Ha Hid Hf Hz. eapply after_fail with (f := 2); [exact Ha|].
  rewrite ref_binary_array by hd. unfold parse_binary_array, binary_array_parse.
  change x07 with (n2b (rt_code RT_BinaryArray)). rewrite rt_ok, id_ok by done. cbn [bind].
  change (n2b (bat_code bat) :: enc_int 4 z ++ rest) with ([n2b (bat_code bat)] ++ (enc_int 4 z ++ rest)).
  rewrite (exact_ok binary_array_type_parse _ bat _ _ binary_array_type_exact eq_refl). cbn [bind].
  by rewrite length_bad.
Qed.
Theorem C14_dimension : forall W root e id bat rank ls lb z rest,
  after W root e (x07 :: enc_uint 4 id ++ n2b (bat_code bat) :: enc_uint 4 rank ++ lb ++ enc_int 4 z ++ rest) ->
  valid_id id -> valid_len rank -> e_list e_len ls lb -> (N.of_nat (length ls) < rank)%N ->
  fits_int 4 z -> (z < 0)%Z ->
  deserialize W = PErr (mkError (enc_int 4 z ++ rest) E_InvalidLength).
Proof.
  intros W root e id bat rank ls lb z rest Ha Hid Hrk Hls Hlt Hf Hz. eapply after_fail with (f := 2); [exact Ha|].
  rewrite ref_binary_array by hd. unfold parse_binary_array, binary_array_parse.
  change x07 with (n2b (rt_code RT_BinaryArray)). rewrite rt_ok, id_ok by done. cbn [bind].
  match goal with |- context [binary_array_type_parse (?c :: ?r)] => change (c :: r) with ([c] ++ r) end.
  rewrite (exact_ok binary_array_type_parse _ bat _ _ binary_array_type_exact eq_refl). cbn [bind].
  rewrite len_ok by done. cbn [bind]. unfold count.
  rewrite (count_loop_fail length_parse e_len ls lb _ (mkError (enc_int 4 z ++ rest) E_InvalidLength)); try done.
  - exact length_exact.
  - by apply length_bad.
  - apply e_list_length in Hls; [|by intros a [_ Hx]]. rewrite app_length. lia.
Qed.

(** References, at any position where one is accepted. *)
Theorem C14_member_reference : forall W k e z rest,
  inside false W (Site_member k e (x09 :: enc_int 4 z ++ rest)) ->
  match k with
  | K_Any | K_Object | K_ObjectArray | K_StringArray | K_PrimitiveArray _ => True
  | _ => False
  end ->
  fits_int 4 z -> (z <= 0)%Z ->
  deserialize W = PErr (mkError (enc_int 4 z ++ rest) E_InvalidObjectId).
Proof.
  intros W k e z rest Hi Hk Hf Hz. eapply inside_fail; [exact Hi|].
  apply ev_const. intros f. by apply member_ref_bad.
Qed.

Example C14_ex_record : deserialize (header_bytes 1 (-1) ++ ex_record ++ bs_of [16; 0;0;0;0; 1;0;0;0; 10; 11]%N)
  = PErr (mkError (bs_of [0;0;0;0; 1;0;0;0; 10; 11]%N) E_InvalidObjectId).
Proof.
  eapply (C14_object_id_of_record _ _ _ x10 0%Z (bs_of [1;0;0;0; 10; 11]%N));
    [by apply ex_after|ex_in|split; vm_compute; congruence|lia].
Qed.
Example C14_ex_reference :
  deserialize (header_bytes 1 (-1) ++ ex_record ++ bs_of [16; 1;0;0;0; 1;0;0;0; 9; 255;255;255;255; 11]%N)
  = PErr (mkError (bs_of [255;255;255;255; 11]%N) E_InvalidObjectId).
Proof.
  eapply (C14_member_reference _ K_Any ex_env (-1)%Z [x0b]); [|done|split; vm_compute; congruence|lia].
  exists 1%N, ex_env, (bs_of [16; 1;0;0;0; 1;0;0;0; 9; 255;255;255;255; 11]%N). split; [by apply ex_after|].
  eapply (RR_array x10 K_Any false ex_env 1 1 (bs_of [16; 1;0;0;0; 1;0;0;0]%N) _ []);
    [by left|exists (enc_uint 4 1), (enc_uint 4 1); done|constructor|done|apply RM_here].
Qed.
Example C14_ex_length : deserialize (header_bytes 1 (-1) ++ ex_record ++ bs_of [15; 1;0;0;0; 255;255;255;255; 8; 11]%N)
  = PErr (mkError (bs_of [255;255;255;255; 8; 11]%N) E_InvalidLength).
Proof.
  eapply (C14_array_length _ _ _ x0f 1 (-1)%Z (bs_of [8; 11]%N));
    [by apply ex_after|ex_in|done|split; vm_compute; congruence|lia].
Qed.

(** ** C15 Primitive members of classes round-trip *)

(** A class record with primitive members [vs], encoded as [mb]. *)
Definition primitive_members (h : class_header) (vs : list value) (mb : bytes) : Prop :=
  exists ps, ch_types h = Some (map K_Primitive ps)
    /\ Forall2 (fun v p => prim_type_of v = Some p) vs ps /\ e_list e_prim vs mb.

(** Part that holds: no member encoding starts with the byte 12. *)
Theorem C15_primitive_members_partial : forall W root e h hb vs mb lib,
  after W root e (hb ++ mb ++ [x0b]) ->
  e_class_header h hb -> ch_object_id h = root -> NoDup (ch_member_names h) ->
  library_named (e_libs e) h lib -> primitive_members h vs mb ->
  (forall v b, v ∈ vs -> e_prim v b -> match b with x0c :: _ => False | _ => True end) ->
  deserialize W = POk (MValue (VObject (mkObj (ch_name h) lib (zip (ch_member_names h) vs)))).
Proof.
  intros W root e h hb vs mb lib Ha Hh Hid Hnd Hlib (ps & Hps & Hty & Hl) H12.
  assert (valid_id root) as Hr.
  { destruct Hh as (b1 & ? & ? & ? & ? & [Hv _] & _). by rewrite Hid in Hv. }
  eapply after_root; [exact Ha|by apply valid_id_pos|]. apply G_rec_object. rewrite <- Hid.
  rewrite app_assoc. apply tree_class; try done. unfold trees, kinds_of. rewrite Hps. split.
  { rewrite map_length. by apply Forall2_length in Hty. }
  clear -Hty Hl H12. revert mb Hl. induction Hty as [|v p vs ps Hp _ IH]; intros mb Hl; inv Hl; [constructor|].
  simpl. constructor; [|apply IH; [|done]].
  - apply T_prim; [done|done|]. eapply H12; [apply elem_of_list_here|done].
  - intros v' b' Hv. apply H12. by apply elem_of_list_further.
Qed.

(** More generally: where no member together with what follows it reads as a library record.  (A
    value may begin with the byte 12 if a valid id but no string follows.) *)
Theorem C15_no_library_partial : forall W root e h hb vs mb lib,
  after W root e (hb ++ mb ++ [x0b]) ->
  e_class_header h hb -> ch_object_id h = root -> NoDup (ch_member_names h) ->
  library_named (e_libs e) h lib -> primitive_members h vs mb ->
  (forall vs1 vs2 b1 b2, vs = vs1 ++ vs2 -> mb = b1 ++ b2 -> vs2 <> [] ->
     e_list e_prim vs1 b1 -> e_list e_prim vs2 b2 -> no_library (b2 ++ [x0b])) ->
  deserialize W = POk (MValue (VObject (mkObj (ch_name h) lib (zip (ch_member_names h) vs)))).
Proof.
  assert (forall e i vs, g_resolve (map It_Value vs) e i vs e i) as Hres.
  { intros e i vs. induction vs as [|v vs IH]; [apply G_res_nil|]. cbn [map]. by apply G_res_value. }
  intros W root e h hb vs mb lib Ha Hh Hid Hnd Hlib (ps & Hps & Hty & Hl) H12.
  assert (valid_id root) as Hr.
  { destruct Hh as (b1 & ? & ? & ? & ? & [Hv _] & _). by rewrite Hid in Hv. }
  pose proof (kinds_length h hb Hh) as Hk. unfold kinds_of in Hk. rewrite Hps, map_length in Hk.
  eapply after_root; [exact Ha|by apply valid_id_pos|]. apply G_rec_object. rewrite <- Hid.
  rewrite <- (hm_from_iter_distinct (zip (ch_member_names h) vs)).
  2:{ rewrite map_fst_zip; [done|]. apply Forall2_length in Hty. lia. }
  eapply (G_class _ _ _ _ _ _ _ (map It_Value vs) e [x0b]); [|done|done| |].
  - apply G_lib_none. apply no_library_head. pose proof (class_header_head h hb (mb ++ [x0b]) Hh). hd.
  - unfold member_kinds. rewrite Hps. clear -Hty Hl H12. revert mb Hl H12.
    induction Hty as [|v p vs ps Hp _ IH]; intros mb Hl H12; inversion Hl as [|v' vs' b bs Hv Hvs E1 E2]; subst; [constructor|].
    cbn [map]. econstructor.
    + eapply (G_simple _ _ _ _ b); [| |exists v; done]; [|done]. rewrite <- app_assoc.
      apply G_lib_none. rewrite app_assoc. by apply (H12 [] (v :: vs) [] (b ++ bs)); [..|constructor|].
    + apply IH; [done|]. intros vs1 vs2 b1 b2 -> -> Hne H1 H2.
      apply (H12 (v :: vs1) vs2 (b ++ b1) b2); [done|by rewrite app_assoc|done|by apply e_cons|done].
  - apply Hres.
Qed.

(** The property without the restriction. *)
Definition primitive_members_roundtrip : Prop := forall W root e h hb vs mb,
  after W root e (hb ++ mb ++ [x0b]) ->
  e_class_header h hb -> ch_object_id h = root -> NoDup (ch_member_names h) ->
  ch_library h = None -> primitive_members h vs mb ->
  deserialize W = POk (MValue (VObject (mkObj (ch_name h) None (zip (ch_member_names h) vs)))).

Definition ex_class : class_header :=
  mkClassHeader 1 (bs_of [65]%N) [bs_of [97]%N; bs_of [98]%N]
    (Some [K_Primitive PT_Int32; K_Primitive PT_Int32]) None.
Definition ex_class_bytes : bytes :=
  bs_of [4; 1;0;0;0; 1;65; 2;0;0;0; 1;97; 1;98; 0;0; 8;8]%N.
Lemma ex_class_header : e_class_header ex_class ex_class_bytes.
Proof.
  exists (enc_uint 4 1), (bs_of [1; 65]%N), (enc_uint 4 2 ++ bs_of [1; 97; 1; 98]%N),
    (bs_of [0; 0; 8; 8]%N), []. split; [done|]. split.
  { apply (ex_str [65]%N); [repeat constructor|simpl; lia]. }
  split.
  { exists (bs_of [1; 97; 1; 98]%N). split; [done|]. split; [|done].
    change (bs_of [1; 97; 1; 98]%N) with (bs_of [1; 97]%N ++ bs_of [1; 98]%N ++ []).
    apply e_cons; [apply (ex_str [97]%N); [repeat constructor|simpl; lia]|].
    apply e_cons; [apply (ex_str [98]%N); [repeat constructor|simpl; lia]|]. constructor. }
  split; [|done].
  exists (bs_of [0; 0]%N), (bs_of [8; 8]%N). split; [done|]. split; [|split; [|done]].
  - change (bs_of [0; 0]%N) with ([x00] ++ [x00] ++ []). repeat constructor.
  - change (bs_of [8; 8]%N) with ([x08] ++ [x08] ++ []). repeat constructor.
Qed.
Lemma ex_names : NoDup (ch_member_names ex_class).
Proof. apply (bool_decide_unpack _). vm_compute. exact I. Qed.
Lemma ex_int32s a b : fits_int 4 a -> fits_int 4 b ->
  primitive_members ex_class [VInt32 a; VInt32 b] (enc_int 4 a ++ enc_int 4 b).
Proof.
  intros Ha Hb. exists [PT_Int32; PT_Int32]. split; [done|]. split; [by repeat constructor|].
  rewrite <- (app_nil_r (enc_int 4 b)).
  apply e_cons; [done|]. apply e_cons; [done|]. apply e_nil.
Qed.

Example C15_ex : deserialize (header_bytes 1 (-1) ++ ex_record ++ ex_class_bytes ++ bs_of [7;0;0;0; 255;255;255;255; 11]%N)
  = POk (MValue (VObject (mkObj (bs_of [65]%N) None
      [(bs_of [97]%N, VInt32 7); (bs_of [98]%N, VInt32 (-1))]))).
Proof.
  eapply (C15_primitive_members_partial _ 1 ex_env ex_class ex_class_bytes [VInt32 7; VInt32 (-1)]).
  - change (bs_of [7;0;0;0; 255;255;255;255; 11]%N) with
      ((enc_int 4 7 ++ enc_int 4 (-1)) ++ [x0b]).
    apply ex_after. done.
  - apply ex_class_header.
  - done.
  - apply ex_names.
  - done.
  - apply ex_int32s; split; vm_compute; congruence.
  - intros v b Hv Hb. apply elem_of_cons in Hv as [->|Hv].
    + destruct Hb as [_ ->]. vm_compute. exact I.
    + apply elem_of_list_singleton in Hv as ->. destruct Hb as [_ ->]. vm_compute. exact I.
Qed.

(** The values 12 and 0: the message is rejected. *)
(** 12 is read back in spite of its first byte: the following bytes 255, 0 declare a string of 127 bytes. *)
Example C15_no_library_ex : deserialize (header_bytes 1 (-1) ++ ex_class_bytes ++ bs_of [12;0;0;0; 7;255;0;0; 11]%N)
  = POk (MValue (VObject (mkObj (bs_of [65]%N) None
      [(bs_of [97]%N, VInt32 12); (bs_of [98]%N, VInt32 65287)]))).
Proof.
  eapply (C15_no_library_partial _ 1 empty_env ex_class ex_class_bytes [VInt32 12; VInt32 65287]).
  - change (bs_of [12;0;0;0; 7;255;0;0; 11]%N) with ((enc_int 4 12 ++ enc_int 4 65287) ++ [x0b]).
    apply after_start; [done|apply hid_ok].
  - apply ex_class_header.
  - done.
  - apply ex_names.
  - done.
  - apply ex_int32s; split; vm_compute; congruence.
  - intros vs1 vs2 b1 b2 Ev Eb Hne H1 H2. destruct vs1 as [|v1 vs1].
    + inversion H1; subst b1. cbn [app] in Eb. subst b2.
      change ((enc_int 4 12 ++ enc_int 4 65287) ++ [x0b]) with (bs_of [12;0;0;0; 7;255;0;0; 11]%N).
      exists 117440512%N, (bs_of [0;0;0;7]%N), (bs_of [255;0;0; 11]%N).
      split; [split; [done|vm_compute; reflexivity]|]. split; [vm_compute; reflexivity|].
      intros (str & bs & r & Hs & E).
      assert (lps_parse (bs_of [255;0;0; 11]%N) = Ok r str) as E1 by (apply lps_exact; eauto). vm_compute in E1. discriminate E1.
    + injection Ev as <- Ev. inversion H1 as [|v vs b bs Hv Hvs E1 E2]; subst.
      destruct Hv as [_ ->]. rewrite <- app_assoc in Eb. apply app_inj_1 in Eb as [_ Eb]; [|done].
      destruct vs1 as [|v1 vs1]; [|destruct vs1; destruct vs2; done]. inversion Hvs; subst. cbn [app] in Eb. subst b2.
      apply no_library_head. change (enc_int 4 65287 ++ [x0b]) with (bs_of [7;255;0;0; 11]%N). hd.
Qed.
Theorem C15_primitive_members_refuted : ~ primitive_members_roundtrip.
Proof.
  intros H.
  assert (deserialize (header_bytes 1 (-1) ++ ex_class_bytes ++ (enc_int 4 12 ++ enc_int 4 0) ++ [x0b])
    = POk (MValue (VObject (mkObj (ch_name ex_class) None (zip (ch_member_names ex_class) [VInt32 12; VInt32 0])))))
    as E.
  { eapply H.
    - apply after_start; [done|apply hid_ok].
    - apply ex_class_header.
    - done.
    - apply ex_names.
    - done.
    - apply ex_int32s; split; vm_compute; congruence. }
  vm_compute in E. discriminate E.
Qed.
(** The values 268 and 0, followed by an empty string record: the message is accepted with other
    values. *)
Theorem C15_silently_changed : exists W v,
  after W 1 empty_env
    (ex_class_bytes ++ (enc_int 4 268 ++ enc_int 4 0) ++ bs_of [6; 5;0;0;0; 0; 11]%N)
  /\ primitive_members ex_class [VInt32 268; VInt32 0] (enc_int 4 268 ++ enc_int 4 0)
  /\ deserialize W = POk (MValue v)
  /\ v = VObject (mkObj (ch_name ex_class) None (zip (ch_member_names ex_class) [VInt32 84279296; VInt32 0])).
Proof.
  eexists _, _. split; [apply after_start; [done|apply hid_ok]|]. split.
  { apply ex_int32s; split; vm_compute; congruence. }
  split; [|reflexivity]. vm_compute. reflexivity.
Qed.

(** ** C16 Objects carry their declared class, library and members *)

(** Members are trees: any nesting of objects, strings, primitives and nulls. *)
Theorem C16_object_is_as_declared : forall W root e h hb vs mb lib,
  after W root e (hb ++ mb ++ [x0b]) ->
  e_class_header h hb -> ch_object_id h = root -> NoDup (ch_member_names h) ->
  library_named (e_libs e) h lib -> trees (e_libs e) (kinds_of h) vs mb ->
  deserialize W = POk (MValue (VObject (mkObj (ch_name h) lib (zip (ch_member_names h) vs)))).
Proof.
  intros W root e h hb vs mb lib Ha Hh Hid Hnd Hlib Ht.
  assert (valid_id root) as Hr.
  { destruct Hh as (b1 & ? & ? & ? & ? & [Hv _] & _). by rewrite Hid in Hv. }
  eapply after_root; [exact Ha|by apply valid_id_pos|]. apply G_rec_object. rewrite <- Hid.
  rewrite app_assoc. by apply tree_class.
Qed.

(** The library record directly in front of the class. *)
Theorem C16_library_class : forall W root e lid lname lb h hb vs mb,
  after W root e (lb ++ hb ++ mb ++ [x0b]) ->
  e_library_record lid lname lb -> e_libs e !! lid = None ->
  e_class_header h hb -> ch_library h = Some lid -> ch_object_id h = root ->
  NoDup (ch_member_names h) -> trees (<[lid := lname]> (e_libs e)) (kinds_of h) vs mb ->
  deserialize W
  = POk (MValue (VObject (mkObj (ch_name h) (Some lname) (zip (ch_member_names h) vs)))).
Proof.
  intros W root e lid lname lb h hb vs mb Ha Hl Hfresh Hh Hlib Hid Hnd Ht.
  assert (valid_id root) as Hr.
  { destruct Hh as (b1 & ? & ? & ? & ? & [Hv _] & _). by rewrite Hid in Hv. }
  eapply after_root; [exact Ha|by apply valid_id_pos|]. apply G_rec_object. rewrite <- Hid.
  pose proof (kinds_length h hb Hh) as Hk.
  rewrite <- (hm_from_iter_distinct (zip (ch_member_names h) vs)).
  2:{ rewrite map_fst_zip; [done|]. destruct Ht as [Hlen _]. lia. }
  eapply G_class.
  - by apply G_lib_some.
  - exact Hh.
  - unfold class_library. rewrite Hlib. exists lname. cbn [add_lib e_libs]. by rewrite lookup_insert.
  - change (member_kinds h) with (kinds_of h). by apply (trees_items (kinds_of h) vs mb (add_lib lid lname e)).
  - apply resolve_trees.
Qed.

(** Repeated member names: the last value of a name is the one that counts. *)
Theorem C16_repeated_names : forall W root e h hb vs mb lib,
  after W root e (hb ++ mb ++ [x0b]) ->
  e_class_header h hb -> ch_object_id h = root ->
  library_named (e_libs e) h lib -> trees (e_libs e) (kinds_of h) vs mb ->
  exists o, deserialize W = POk (MValue (VObject o))
    /\ obj_class o = ch_name h /\ obj_library o = lib /\ NoDup (map fst (obj_members o))
    /\ (forall k v, (k, v) ∈ obj_members o <->
          exists j, ch_member_names h !! j = Some k /\ vs !! j = Some v
                    /\ forall j', j < j' -> ch_member_names h !! j' <> Some k).
Proof.
  intros W root e h hb vs mb lib Ha Hh Hid Hlib Ht.
  assert (valid_id root) as Hr.
  { destruct Hh as (b1 & ? & ? & ? & ? & [Hv _] & _). by rewrite Hid in Hv. }
  eexists. split.
  { eapply after_root; [exact Ha|by apply valid_id_pos|]. apply G_rec_object. rewrite <- Hid.
    eapply G_class; [|exact Hh|exact Hlib|change (member_kinds h) with (kinds_of h); by apply trees_items|apply resolve_trees].
    apply G_lib_none. apply no_library_head. pose proof (class_header_head h hb (mb ++ [x0b]) Hh). hd. }
  split; [done|]. split; [done|]. split; [apply hm_from_iter_nodup|].
  intros k v. apply hm_from_iter_last. destruct Ht as [Ht _]. rewrite (kinds_length h hb Hh) in Ht. done.
Qed.

Definition ex_lib_bytes : bytes := bs_of [12; 3;0;0;0; 1;76]%N.
(** Library class "A" { a = "hi"; b = system class "B" { x = null } }. *)
Definition ex_outer : class_header :=
  mkClassHeader 1 (bs_of [65]%N) [bs_of [97]%N; bs_of [98]%N] None (Some 3%N).
Definition ex_inner : class_header := mkClassHeader 9 (bs_of [66]%N) [bs_of [120]%N] None None.
Definition ex_outer_bytes : bytes := bs_of [3; 1;0;0;0; 1;65; 2;0;0;0; 1;97; 1;98; 3;0;0;0]%N.
Definition ex_inner_bytes : bytes := bs_of [2; 9;0;0;0; 1;66; 1;0;0;0; 1;120]%N.
Lemma ex_outer_header : e_class_header ex_outer ex_outer_bytes.
Proof.
  exists (enc_uint 4 1), (bs_of [1; 65]%N), (enc_uint 4 2 ++ bs_of [1; 97; 1; 98]%N), [], (enc_uint 4 3).
  split; [done|]. split.
  { apply (ex_str [65]%N); [repeat constructor|simpl; lia]. }
  split; [|done].
  exists (bs_of [1; 97; 1; 98]%N). split; [done|]. split; [|done].
  change (bs_of [1; 97; 1; 98]%N) with (bs_of [1; 97]%N ++ bs_of [1; 98]%N ++ []).
  apply e_cons; [apply (ex_str [97]%N); [repeat constructor|simpl; lia]|].
  apply e_cons; [apply (ex_str [98]%N); [repeat constructor|simpl; lia]|]. constructor.
Qed.
Lemma ex_inner_header : e_class_header ex_inner ex_inner_bytes.
Proof.
  exists (enc_uint 4 9), (bs_of [1; 66]%N), (enc_uint 4 1 ++ bs_of [1; 120]%N), [], [].
  split; [done|]. split.
  { apply (ex_str [66]%N); [repeat constructor|simpl; lia]. }
  split; [|done].
  exists (bs_of [1; 120]%N). split; [done|]. split; [|done].
  change (bs_of [1; 120]%N) with (bs_of [1; 120]%N ++ []).
  apply e_cons; [apply (ex_str [120]%N); [repeat constructor|simpl; lia]|]. constructor.
Qed.
Lemma ex_inner_tree L :
  tree L K_Any (VObject (mkObj (bs_of [66]%N) None [(bs_of [120]%N, VNull)])) (ex_inner_bytes ++ [x0a]).
Proof.
  apply (T_object L K_Any ex_inner None ex_inner_bytes [VNull]); try done.
  - apply ex_inner_header.
  - apply (bool_decide_unpack _). vm_compute. exact I.
  - change [x0a] with ([x0a] ++ []). simpl zip. apply e_cons; [apply T_null; exact I|apply e_nil].
Qed.
Example C16_ex :
  deserialize (header_bytes 1 (-1) ++ ex_record ++ ex_lib_bytes ++ ex_outer_bytes
    ++ (bs_of [6; 8;0;0;0; 2;104;105]%N ++ ex_inner_bytes ++ [x0a]) ++ [x0b])
  = POk (MValue (VObject (mkObj (bs_of [65]%N) (Some (bs_of [76]%N))
      [(bs_of [97]%N, ex_string);
       (bs_of [98]%N, VObject (mkObj (bs_of [66]%N) None [(bs_of [120]%N, VNull)]))]))).
Proof.
  eapply (C16_library_class _ 1 ex_env 3 (bs_of [76]%N) ex_lib_bytes ex_outer ex_outer_bytes
    [ex_string; VObject (mkObj (bs_of [66]%N) None [(bs_of [120]%N, VNull)])]); try done.
  - by apply ex_after.
  - exists (enc_uint 4 3), (bs_of [1; 76]%N). split; [done|]. split; [|done].
    apply (ex_str [76]%N); [repeat constructor|simpl; lia].
  - apply ex_outer_header.
  - apply ex_names.
  - split; [done|]. simpl kinds_of. simpl zip. apply e_cons.
    + apply (T_string _ _ 8); [done|]. exists (enc_uint 4 8), (bs_of [2; 104; 105]%N).
      split; [done|]. split; [|done]. apply (ex_str [104; 105]%N); [|simpl; lia]. repeat constructor.
    + rewrite <- (app_nil_r (ex_inner_bytes ++ [x0a])). apply e_cons; [apply ex_inner_tree|constructor].
Qed.

(** ** C17 Duplicate library ids are rejected *)

Theorem C17_duplicate_library : forall W root e id name old lb rest,
  after W root e (lb ++ rest) -> e_library_record id name lb -> e_libs e !! id = Some old ->
  deserialize W = PErr (mkError rest E_DuplicateLibraryId).
Proof.
  intros W root e id name old lb rest Ha Hl Hold. eapply after_fail with (f := 2); [exact Ha|].
  apply ref_class_fail. rewrite parse_classes_S. unfold parse_classes_body.
  rewrite (library_duplicate _ _ _ _ _ _ Hl) by done. reflexivity.
Qed.
(** At a member, at any depth. *)
Theorem C17_duplicate_library_member : forall W k e id name old lb rest,
  inside false W (Site_member k e (lb ++ rest)) -> e_library_record id name lb ->
  e_libs e !! id = Some old ->
  deserialize W = PErr (mkError rest E_DuplicateLibraryId).
Proof.
  intros W k e id name old lb rest Hi Hl Hold. eapply inside_fail; [exact Hi|].
  apply ev_const. intros f.
  destruct k; cbn [parse_member]; unfold parse_member_untyped, parse_member_typed;
    rewrite (library_duplicate _ _ _ _ _ _ Hl Hold); reflexivity.
Qed.
(** In front of a nested class record. *)
Theorem C17_duplicate_library_class : forall W e id name old lb rest,
  inside false W (Site_class e (lb ++ rest)) -> e_library_record id name lb ->
  e_libs e !! id = Some old ->
  deserialize W = PErr (mkError rest E_DuplicateLibraryId).
Proof.
  intros W e id name old lb rest Hi Hl Hold. eapply inside_fail; [exact Hi|].
  apply ev_S, ev_const. intros f. rewrite parse_classes_S. unfold parse_classes_body.
  rewrite (library_duplicate _ _ _ _ _ _ Hl Hold). reflexivity.
Qed.
(** A declaration stays in force: no later record changes it. *)
Theorem C17_library_is_fixed : forall e i e' i' id name,
  g_objects e i e' i' -> e_libs e !! id = Some name -> e_libs e' !! id = Some name.
Proof. intros e i e' i' id name H. apply (libs_fixed_objects _ _ _ _ H). Qed.
Example C17_ex : exists err,
  deserialize (header_bytes 1 (-1) ++ ex_lib_bytes ++ ex_outer_bytes ++ [x0a; x0a]
    ++ ex_lib_bytes ++ ex_outer_bytes ++ [x0a; x0a; x0b]) = PErr err
  /\ e_inner err = E_DuplicateLibraryId.
Proof.
  eexists. split; [|shelve]. 
  eapply (C17_duplicate_library _ 1
    (add_obj 1 (VObject (mkObj (bs_of [65]%N) (Some (bs_of [76]%N)) [(bs_of [97]%N, VNull); (bs_of [98]%N, VNull)]))
      (add_lib 3 (bs_of [76]%N) empty_env)) 3 (bs_of [76]%N) (bs_of [76]%N) ex_lib_bytes).
  - eapply after_step; [apply after_start; [done|apply hid_ok]|]. apply G_rec_object.
    change 1%N with (ch_object_id ex_outer).
    change [(bs_of [97]%N, VNull); (bs_of [98]%N, VNull)] with
      (hm_from_iter (zip (ch_member_names ex_outer) [VNull; VNull])).
    change (bs_of [65]%N) with (ch_name ex_outer).
    eapply (G_class _ _ (add_lib 3 (bs_of [76]%N) empty_env)).
    + apply G_lib_some; [|done]. exists (enc_uint 4 3), (bs_of [1; 76]%N). split; [done|]. split; [|done].
      apply (ex_str [76]%N); [repeat constructor|simpl; lia].
    + apply ex_outer_header.
    + exists (bs_of [76]%N). done.
    + change ([x0a; x0a] ++ ?x) with (([x0a] ++ [x0a] ++ []) ++ x).
      apply (trees_items _ [VNull; VNull]). split; [done|]. simpl zip.
      apply e_cons; [apply T_null; exact I|]. apply e_cons; [apply T_null; exact I|apply e_nil].
    + apply resolve_trees.
  - exists (enc_uint 4 3), (bs_of [1; 76]%N). split; [done|]. split; [|done].
    apply (ex_str [76]%N); [repeat constructor|simpl; lia].
  - done.
  Unshelve. reflexivity.
Qed.

(** ** C18 A library may precede any referenceable record *)

(** Refuted: in front of anything but a class record, a library is reported as a duplicate. *)
Theorem C18_library_before_non_class : forall W root e id name lb rest,
  after W root e (lb ++ rest) -> e_library_record id name lb -> e_libs e !! id = None ->
  match rest with x01 :: _ | x02 :: _ | x03 :: _ | x04 :: _ | x05 :: _ => False | _ => True end ->
  deserialize W = PErr (mkError rest E_DuplicateLibraryId).
Proof.
  intros W root e id name lb rest Ha Hl Hfresh Hhd. eapply after_fail with (f := 2); [exact Ha|].
  assert (~ head_in [x01; x02; x03; x04; x05] rest) as Hh.
  { destruct rest as [|c rest]; [by intros []|]. simpl. intros Hc.
    repeat (apply elem_of_cons in Hc as [->|Hc]; [done|]). by apply elem_of_nil in Hc. }
  rewrite parse_referenceable_S. unfold parse_referenceable_body. rewrite parse_classes_S.
  unfold parse_classes_body.
  rewrite (library_fresh _ _ _ _ _ Hl Hfresh). cbn [sbind].
  destruct (class_with_id_err rest) as [e1 ->]; [nohead|].
  destruct (class_records_err rest) as [e2 ->]; [nohead|].
  unfold smap at 1. cbn [fst snd rmap bind alt_mut]. unfold parse_arrays.
  rewrite (library_duplicate _ _ name _ _ (add_lib id name e) Hl).
  2:{ cbn [add_lib e_libs]. by rewrite lookup_insert. }
  reflexivity.
Qed.
Definition ex_array_message : bytes := bs_of [15; 1;0;0;0; 1;0;0;0; 2; 7; 11]%N.
Theorem C18_library_before_array_refuted :
  deserialize (header_bytes 1 (-1) ++ ex_array_message) = POk (MValue (VArray [VByte 7]))
  /\ deserialize (header_bytes 1 (-1) ++ ex_lib_bytes ++ ex_array_message)
     = PErr (mkError ex_array_message E_DuplicateLibraryId).
Proof.
  split; [vm_compute; reflexivity|].
  eapply (C18_library_before_non_class _ 1 empty_env 3 (bs_of [76]%N)); [|idtac|done|done].
  - apply after_start; [done|apply hid_ok].
  - exists (enc_uint 4 3), (bs_of [1; 76]%N). split; [done|]. split; [|done].
    apply (ex_str [76]%N); [repeat constructor|simpl; lia].
Qed.

(** ** C19 Classes can be reused through ClassWithId *)

(** Refuted: a ClassWithId record is rejected whatever came before. *)
Theorem C19_class_with_id_rejected : forall W root e id mid rest,
  after W root e (x01 :: enc_uint 4 id ++ enc_uint 4 mid ++ rest) -> valid_id id -> valid_id mid ->
  deserialize W = PErr (if N.eqb mid id then mkError (enc_uint 4 mid ++ rest) E_InvalidMetadataId
                        else mkError (x01 :: enc_uint 4 id ++ enc_uint 4 mid ++ rest) E_MissingMetadataId).
Proof.
  intros W root e id mid rest Ha Hid Hmid. eapply after_fail with (f := 2); [exact Ha|].
  apply ref_class_fail. apply class_with_id_fails; done.
Qed.
(** The same at a nested position. *)
Theorem C19_class_with_id_rejected_member : forall W k e id mid rest,
  inside false W (Site_member k e (x01 :: enc_uint 4 id ++ enc_uint 4 mid ++ rest)) ->
  match k with K_Any | K_Object | K_ObjectArray => True | _ => False end ->
  valid_id id -> valid_id mid ->
  deserialize W = PErr (if N.eqb mid id then mkError (enc_uint 4 mid ++ rest) E_InvalidMetadataId
                        else mkError (x01 :: enc_uint 4 id ++ enc_uint 4 mid ++ rest) E_MissingMetadataId).
Proof.
  intros W k e id mid rest Hi Hk Hid Hmid. eapply inside_fail; [exact Hi|].
  apply ev_S, ev_const. intros f. rewrite member_any; [|destruct k; tauto|hd].
  rewrite untyped_body_class' by (simpl; ex_in).
  rewrite (class_with_id_fails _ _ _ _ _ Hid Hmid). reflexivity.
Qed.
(** A class and a second object of the same class. *)
Theorem C19_class_reuse_refuted :
  deserialize (header_bytes 1 (-1) ++ ex_class_bytes ++ bs_of [7;0;0;0; 8;0;0;0; 1; 2;0;0;0; 1;0;0;0; 9;0;0;0; 9;0;0;0; 11]%N)
  = PErr (mkError (bs_of [1; 2;0;0;0; 1;0;0;0; 9;0;0;0; 9;0;0;0; 11]%N) E_MissingMetadataId).
Proof.
  eapply (C19_class_with_id_rejected _ 1 _ 2 1 (bs_of [9;0;0;0; 9;0;0;0; 11]%N)); [|done|done].
  eapply after_step; [apply after_start; [done|apply hid_ok]|]. apply G_rec_object.
  change (ex_class_bytes ++ bs_of [7;0;0;0; 8;0;0;0; 1; 2;0;0;0; 1;0;0;0; 9;0;0;0; 9;0;0;0; 11]%N) with
    ((ex_class_bytes ++ (enc_int 4 7 ++ enc_int 4 8 ++ [])) ++ bs_of [1; 2;0;0;0; 1;0;0;0; 9;0;0;0; 9;0;0;0; 11]%N).
  eapply (tree_class empty_env ex_class None _ [VInt32 7; VInt32 8]).
  - apply ex_class_header.
  - apply ex_names.
  - done.
  - split; [done|]. simpl kinds_of. simpl zip. apply e_cons; [|apply e_cons; [|apply e_nil]];
      (apply T_prim; [done|split; [split; vm_compute; congruence|reflexivity]|done]).
Qed.

End with_decimal.
