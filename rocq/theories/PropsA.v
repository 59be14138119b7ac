(** * PropsA: properties C01 - C14 (termination, safety, framing, strings, primitives, ids).

    [W] is the input of [RemotingMessage::parse]; [deserialize W] its outcome.
    [g_objects empty_env i e i'] (Grammar.v) says that [i] starts with well-formed records,
    that these define the tables [e], and that [i'] follows them: it stands for an arbitrary
    history before the point of interest. *)
From Verif Require Import Base Utf8 Value DataTypes Records Parser Wire BaseLemmas DataTypesLemmas
  RecordsLemmas MethodLemmas SafetyLemmas Safety Grammar Heads Complete Sound Fuel Message Run Spec
  LemmasA Delimited LemmasB LemmasC.
From Coq Require Import Lia.

Section with_decimal.
Context {DL : DecimalLib}.

(** Root id as the header carries it: 0 stands for none. *)
Definition root_of (root : N) : option N := if N.eqb root 0 then None else Some root.

Lemma header_of root hid :
  (root < 2 ^ 31)%N -> fits_int 4 hid -> e_header (root_of root) (header_bytes root hid).
Proof. apply header_bytes_header. Qed.
Lemma valid_id_lt id : valid_id id -> (id < 2 ^ 31)%N.
Proof. unfold valid_id. lia. Qed.
Lemma root_of_valid id : valid_id id -> root_of id = Some id.
Proof. unfold valid_id, root_of. intros H. destruct (N.eqb_spec id 0); [lia|done]. Qed.

(** ** C01 Parsing terminates on every input *)

Theorem C01_parse_terminates : forall W, deserialize W <> PDiverge.
Proof. exact no_divergence. Qed.

(** The depth of nested calls is at most [2 * length W + 2]: allowing more changes nothing. *)
Theorem C01_nesting_bounded_by_input : forall W f,
  2 * length W + 2 <= f ->
  parse_remoting_message f init_state W = parse_remoting_message (2 * length W + 2) init_state W.
Proof. exact fuel_irrelevant. Qed.

(** ** C02 Parsing never panics *)

(** Part that holds.  Missing: inputs with a BinaryArray and a null run, see below. *)
Theorem C02_never_panics_partial : forall W p,
  deserialize W = PPanic p -> p = P_DrainOutOfRange /\ x07 ∈ W /\ (x0d ∈ W \/ x0e ∈ W).
Proof. exact panic_only. Qed.
Theorem C02_no_unreachable : forall W, deserialize W <> PPanic P_Unreachable.
Proof. intros W H. by apply panic_only in H as [? _]. Qed.

(** A 2 x 2 BinaryArray of objects: a run of 2 nulls, then three single nulls. *)
Definition panic_message : bytes :=
  header_bytes 1 (-1) ++ bs_of [7; 1;0;0;0; 2; 2;0;0;0; 2;0;0;0; 2;0;0;0; 2; 13;2; 10; 10; 10; 11]%N.
Theorem C02_never_panics_refuted : ~ forall W p, deserialize W <> PPanic p.
Proof. intros H. apply (H panic_message P_DrainOutOfRange). vm_compute. reflexivity. Qed.

(** ** C03 Header acceptance is exact *)

Theorem C03_header_required : forall W m,
  deserialize W = POk m ->
  exists root hid body, (root < 2 ^ 31)%N /\ fits_int 4 hid /\ W = header_bytes root hid ++ body.
Proof. exact header_accept. Qed.

Theorem C03_header_errors : forall root hid major minor body,
  fits_int 4 root -> fits_int 4 hid -> fits_int 4 major -> fits_int 4 minor ->
  let rest3 := enc_int 4 minor ++ body in
  let rest2 := enc_int 4 major ++ rest3 in
  let rest1 := enc_int 4 root ++ enc_int 4 hid ++ rest2 in
  ((root < 0)%Z -> deserialize (x00 :: rest1) = PErr (mkError rest1 E_InvalidRootId))
  /\ ((0 <= root)%Z -> major <> 1%Z ->
      deserialize (x00 :: rest1) = PErr (mkError rest2 E_InvalidMajorVersion))
  /\ ((0 <= root)%Z -> major = 1%Z -> minor <> 0%Z ->
      deserialize (x00 :: rest1) = PErr (mkError rest3 E_InvalidMinorVersion)).
Proof. exact header_errors. Qed.

Theorem C03_first_byte : forall W,
  match W with x00 :: _ => False | _ => True end ->
  deserialize W = PErr (mkError W (E_ExpectedRecordType RT_SerializedStreamHeader)).
Proof. exact header_tag. Qed.

(** Every well-formed header is accepted (the shortest message). *)
Theorem C03_header_accepted : forall hid,
  fits_int 4 hid -> deserialize (header_bytes 0 hid ++ [x0b]) = POk (MValue VNull).
Proof.
  intros hid Hh. apply message_complete. eapply (G_msg_value None _ _ empty_env).
  - by apply (header_of 0).
  - constructor.
  - done.
Qed.
Example C03_ex : deserialize (header_bytes 0 (-1) ++ [x0b]) = POk (MValue VNull).
Proof. apply C03_header_accepted. split; vm_compute; congruence. Qed.
Example C03_ex_version : exists e,
  deserialize (bs_of [0; 1;0;0;0; 255;255;255;255; 2;0;0;0; 0;0;0;0; 11]%N) = PErr e
  /\ e_inner e = E_InvalidMajorVersion.
Proof. eexists. split; [vm_compute; reflexivity|reflexivity]. Qed.

(** The header id has no influence on the outcome. *)
Theorem C03_header_id_irrelevant : forall root hid hid' body m,
  (root < 2 ^ 31)%N -> fits_int 4 hid -> fits_int 4 hid' ->
  deserialize (header_bytes root hid ++ body) = POk m ->
  deserialize (header_bytes root hid' ++ body) = POk m.
Proof.
  intros root hid hid' body m Hr Hh Hh' H. pose proof (header_of root hid Hr Hh) as E.
  pose proof (header_of root hid' Hr Hh') as E'.
  set (f := 2 * length (header_bytes root hid ++ body) + 2).
  assert (2 * length (header_bytes root hid' ++ body) + 2 = f) as Hf by done.
  rewrite (deserialize_any f) in H by lia. rewrite (deserialize_any f) by lia.
  unfold parse_remoting_message in *.
  destruct (header_complete _ _ body E) as (h & Hp & Hroot).
  destruct (header_complete _ _ body E') as (h' & Hp' & Hroot').
  rewrite Hp in H. rewrite Hp'. rewrite Hroot in H. by rewrite Hroot'.
Qed.

(** ** C04 Nothing may follow MessageEnd, and MessageEnd is mandatory *)

Theorem C04_message_end_is_last : forall W m, deserialize W = POk m -> exists W', W = W' ++ [x0b].
Proof. exact last_byte. Qed.

Theorem C04_trailing_data : forall root hid i e t,
  (root < 2 ^ 31)%N -> fits_int 4 hid ->
  g_objects empty_env i e (x0b :: t) -> t <> [] ->
  deserialize (header_bytes root hid ++ i) = PErr (mkError t E_TrailingData).
Proof.
  intros root hid i e t Hr Hh Ho Ht. rewrite (run_end _ _ _ _ _ (header_of root hid Hr Hh) Ho).
  by destruct t.
Qed.
Theorem C04_trailing_data_method : forall root hid i e i1 m e1 i2 e2 t,
  (root < 2 ^ 31)%N -> fits_int 4 hid ->
  g_objects empty_env i e i1 -> g_method (root_of root) e i1 m e1 i2 ->
  g_objects e1 i2 e2 (x0b :: t) -> t <> [] ->
  deserialize (header_bytes root hid ++ i) = PErr (mkError t E_TrailingData).
Proof.
  intros root hid i e i1 m e1 i2 e2 t Hr Hh Ho Hm Ho2 Ht.
  rewrite (run_method_end _ _ _ _ _ _ _ _ _ _ (header_of root hid Hr Hh) Ho Hm Ho2). by destruct t.
Qed.
Theorem C04_missing_message_end : forall root hid i e,
  (root < 2 ^ 31)%N -> fits_int 4 hid -> g_objects empty_env i e [] ->
  deserialize (header_bytes root hid ++ i)
  = PErr (mkError [] (E_ExpectedRecordType RT_MessageEnd)).
Proof.
  intros root hid i e Hr Hh Ho. eapply run_stuck_head; [by apply header_of|exact Ho|done|].
  intros [].
Qed.
Example C04_ex : deserialize (header_bytes 1 (-1) ++ bs_of [6; 1;0;0;0; 2;104;105; 11; 11]%N)
  = PErr (mkError [x0b] E_TrailingData).
Proof.
  eapply C04_trailing_data; [done|split; vm_compute; congruence| |done].
  change (bs_of [6; 1;0;0;0; 2;104;105; 11; 11]%N) with (bs_of [6; 1;0;0;0; 2;104;105]%N ++ [x0b; x0b]).
  eapply G_objs_cons; [|apply G_objs_nil]. apply (G_rec_string _ _ 1 (bs_of [104; 105]%N)).
  exists (enc_uint 4 1), (bs_of [2; 104; 105]%N). split; [split; [done|reflexivity]|]. split; [|reflexivity].
  exists [x02]. split; [|split; [reflexivity|]].
  - apply len_prefix_cases. left. exists x02. done.
  - exists [104; 105]%N. split; [|reflexivity]. repeat constructor; unfold scalar; lia.
Qed.

(** ** C05 Accepted messages are self-delimiting *)

(** Part that holds: messages in which no cut-off library record stands where the code looks for
    one.  Libraries are allowed. *)
Theorem C05_prefix_free_delimited_partial : forall root hid body m t,
  (root < 2 ^ 31)%N -> fits_int 4 hid ->
  d_message (header_bytes root hid ++ body) m -> t <> [] ->
  deserialize (header_bytes root hid ++ body) = POk m
  /\ deserialize (header_bytes root hid ++ body ++ t) = PErr (mkError t E_TrailingData).
Proof.
  intros root hid body m t Hr Hh Hm Ht. split; [by apply message_complete, delimited_grammar|].
  eapply message_extend; [by apply header_of|done|done].
Qed.
(** In particular, bodies that nowhere contain the beginning of a cut-off library record, such as
    bodies without the byte 12. *)
Theorem C05_prefix_free_partial : forall root hid body m t,
  (root < 2 ^ 31)%N -> fits_int 4 hid ->
  g_message (header_bytes root hid ++ body) m -> no_cut_library body -> t <> [] ->
  deserialize (header_bytes root hid ++ body ++ t) = PErr (mkError t E_TrailingData).
Proof.
  intros root hid body m t Hr Hh Hm Hn Ht. apply C05_prefix_free_delimited_partial with m; [done|done| |done].
  eapply message_uncut; [by apply header_of|done|done].
Qed.

(** A string of twelve letters: its length byte and the letters after it look like the beginning of
    a library record with a name of 111 bytes, but no library is looked for there. *)
Definition hello_body : bytes :=
  bs_of [6; 1;0;0;0; 12; 72;101;108;108;111;32;87;111;114;108;100;33; 11]%N.
Example C05_delimited_ex :
  exists m, d_message (header_bytes 1 (-1) ++ hello_body) m /\ ~ no_cut_library hello_body.
Proof.
  assert (utf8 (bs_of [72;101;108;108;111;32;87;111;114;108;100;33]%N)) as Hu.
  { exists [72;101;108;108;111;32;87;111;114;108;100;33]%N. split; [|vm_compute; reflexivity].
    repeat constructor; unfold scalar; lia. }
  eexists. split.
  - eapply (D_msg_value (Some 1%N)).
    + by apply (header_root 1 (-1)).
    + change hello_body with (bs_of [6; 1;0;0;0; 12; 72;101;108;108;111;32;87;111;114;108;100;33]%N ++ [x0b]).
      eapply D_objs_cons; [|apply D_objs_nil].
      apply (D_rec_string _ _ 1 (bs_of [72;101;108;108;111;32;87;111;114;108;100;33]%N)).
      exists (enc_uint 4 1), (bs_of [12; 72;101;108;108;111;32;87;111;114;108;100;33]%N).
      split; [split; [done|vm_compute; reflexivity]|]. split; [|vm_compute; reflexivity].
      exists [x0c]. split; [|split; [vm_compute; reflexivity|exact Hu]].
      apply len_prefix_cases. left. by exists x0c.
    + cbn. apply lookup_insert.
  - intros H. apply (H (bs_of [6; 1;0;0;0]%N) (bs_of [12; 72;101;108;108;111;32;87;111;114;108;100;33; 11]%N));
      [vm_compute; reflexivity|]. split; [done|].
    exists 1819043144%N, (bs_of ([32;87;111;114;108;100;33; 11] ++ replicate 103 97))%N, (replicate 103 x61).
    split; [done|].
    exists (bs_of [72;101;108;108]%N), (bs_of ([111;32;87;111;114;108;100;33; 11] ++ replicate 103 97))%N.
    split; [split; [done|vm_compute; reflexivity]|]. split; [|vm_compute; reflexivity].
    exists [x6f]. split; [|split; [vm_compute; reflexivity|]].
    + apply len_prefix_cases. left. by exists x6f.
    + exists ([32;87;111;114;108;100;33; 11] ++ replicate 103 97)%N. split; [|vm_compute; reflexivity].
      repeat constructor; unfold scalar; lia.
Qed.

Definition prefix_message : bytes :=
  header_bytes 1 (-1) ++ bs_of [4; 1;0;0;0; 1;65; 1;0;0;0; 1;97; 0; 8; 12;0;0;0; 11]%N.
Definition prefix_tail : bytes := bs_of [0; 5;0;0;0; 11]%N.
Theorem C05_prefix_free_refuted : ~ forall W t m m',
  deserialize W = POk m -> deserialize (W ++ t) = POk m' -> t = [].
Proof.
  intros H. assert (prefix_tail = []); [|done].
  eapply (H prefix_message prefix_tail); vm_compute; reflexivity.
Qed.

(** ** C06 / C07 Strings are borrowed from the input and valid UTF-8 *)

Theorem C06_strings_borrowed : forall W m s,
  deserialize W = POk m -> string_in s m -> slice_of s W.
Proof. intros W m s H Hs. by destruct (result_string W m s H Hs). Qed.

Theorem C07_strings_utf8 : forall W m s,
  deserialize W = POk m -> string_in s m -> utf8 s.
Proof. intros W m s H Hs. by destruct (result_string W m s H Hs). Qed.

(** A string record whose payload is not well-formed is rejected. *)
Lemma lps_bad rest : (forall s bs t, e_str s bs -> rest <> bs ++ t) -> exists err, lps_parse rest = Err err.
Proof.
  intros H. apply lps_not_ok. intros r s Hr. apply lps_exact in Hr as (bs & He & ->). by eapply H.
Qed.
Lemma string_record_rejected : forall root hid i e id rest,
  (root < 2 ^ 31)%N -> fits_int 4 hid -> valid_id id ->
  g_objects empty_env i e (x06 :: enc_uint 4 id ++ rest) ->
  (forall s bs t, e_str s bs -> rest <> bs ++ t) ->
  deserialize (header_bytes root hid ++ i)
  = PErr (mkError (x06 :: enc_uint 4 id ++ rest) (E_ExpectedRecordType RT_MessageEnd)).
Proof.
  intros root hid i e id rest Hr Hh Hid Ho Hbad.
  destruct (lps_bad rest Hbad) as [err Herr].
  assert (parse_referenceable 2 (st e) (x06 :: enc_uint 4 id ++ rest)
    = (st e, Err (mkError (x06 :: enc_uint 4 id ++ rest) E_Other))) as Hp.
  { rewrite ref_string by hd. unfold binary_object_string.
    change x06 with (n2b (rt_code RT_BinaryObjectString)). rewrite rt_ok, id_ok by done. cbn [bind].
    rewrite Herr. done. }
  eapply run_stuck; [by apply header_of|exact Ho|exact Hp|exact Hp|hd].
Qed.
Lemma len_prefix_inj n p t m q u :
  len_prefix n p -> len_prefix m q -> p ++ t = q ++ u -> n = m /\ p = q /\ t = u.
Proof.
  intros Hp Hq E.
  pose proof (exact_ok parse_len _ n p t parse_len_exact Hp) as H1.
  pose proof (exact_ok parse_len _ m q u parse_len_exact Hq) as H2.
  rewrite E, H2 in H1. injection H1 as -> ->. split; [done|]. split; [|done].
  by apply app_inv_tail in E.
Qed.
Theorem C07_bad_utf8_rejected : forall root hid i e id p s rest,
  (root < 2 ^ 31)%N -> fits_int 4 hid -> valid_id id ->
  len_prefix (N.of_nat (length s)) p -> ~ utf8 s ->
  g_objects empty_env i e (x06 :: enc_uint 4 id ++ p ++ s ++ rest) ->
  deserialize (header_bytes root hid ++ i)
  = PErr (mkError (x06 :: enc_uint 4 id ++ p ++ s ++ rest) (E_ExpectedRecordType RT_MessageEnd)).
Proof.
  intros root hid i e id p s rest Hr Hh Hid Hp Hs Ho. eapply string_record_rejected; try done.
  intros s' bs t (p' & Hp' & -> & Hu) E. rewrite <- app_assoc in E.
  destruct (len_prefix_inj _ _ _ _ _ _ Hp Hp' E) as (Hl & -> & E').
  apply Nat2N.inj in Hl. apply app_inj_1 in E' as [-> _]; done.
Qed.
Example C07_ex : deserialize (header_bytes 1 (-1) ++ bs_of [6; 1;0;0;0; 1;255; 11]%N)
  = PErr (mkError (bs_of [6; 1;0;0;0; 1;255; 11]%N) (E_ExpectedRecordType RT_MessageEnd)).
Proof. vm_compute. reflexivity. Qed.
Example C06_ex : exists m, deserialize (header_bytes 1 (-1) ++ bs_of [6; 1;0;0;0; 2;104;105; 11]%N) = POk m
  /\ string_in (bs_of [104; 105]%N) m.
Proof.
  eexists. split; [vm_compute; reflexivity|]. right. eexists. split.
  - eexists. split; [apply elem_of_list_here|apply sub_here].
  - apply elem_of_list_here.
Qed.

(** ** C08 Length prefixes decode exactly *)

Theorem C08_string_with_any_prefix : forall hid id p s,
  fits_int 4 hid -> valid_id id -> len_prefix (N.of_nat (length s)) p -> utf8 s ->
  deserialize (header_bytes id hid ++ x06 :: enc_uint 4 id ++ p ++ s ++ [x0b])
  = POk (MValue (VString s)).
Proof.
  intros hid id p s Hh Hid Hp Hs. apply message_complete.
  eapply (G_msg_value (Some id) _ _ (add_obj id (VString s) empty_env)).
  - by apply header_root.
  - change (x06 :: enc_uint 4 id ++ p ++ s ++ [x0b]) with ((x06 :: enc_uint 4 id) ++ p ++ s ++ [x0b]).
    rewrite (app_assoc p), app_assoc. eapply G_objs_cons; [|apply G_objs_nil]. apply G_rec_string.
    exists (enc_uint 4 id), (p ++ s). split; [done|]. split; [|done]. by exists p.
  - cbn. apply lookup_insert.
Qed.
Theorem C08_canonical_prefix : forall n, (n < 2 ^ 31)%N -> len_prefix n (leb128 n).
Proof. exact leb128_prefix. Qed.
Theorem C08_prefix_below_2_31 : forall n p, len_prefix n p -> (n < 2 ^ 31)%N.
Proof. exact len_prefix_small. Qed.
Theorem C08_zero_padded : forall n init last,
  len_prefix n (init ++ [last]) -> length init + 2 <= 5 ->
  len_prefix n (init ++ [n2b (128 + b2n last); x00]).
Proof.
  intros n init last (init' & last' & E & Hi & Hl & Hlen & H5 & Hv) Hle.
  apply app_inj_tail in E as [<- <-].
  assert (b2n (n2b (128 + b2n last)) = 128 + b2n last)%N as Hb by (apply b2n_n2b_small; lia).
  exists (init ++ [n2b (128 + b2n last)]), x00. split; [by rewrite <- app_assoc|].
  split; [apply Forall_app; split; [done|constructor; [lia|done]]|].
  split; [done|]. rewrite app_length. cbn [length]. split; [lia|]. split; [done|].
  rewrite <- Hv. clear -Hb Hl. induction init as [|c init IH]; cbn [app len_value].
  - rewrite Hb. rewrite <- N.add_mod_idemp_l by done. change (128 mod 128)%N with 0%N.
    rewrite N.add_0_l. change (b2n x00 mod 128)%N with 0%N. lia.
  - by rewrite IH.
Qed.
Theorem C08_fifth_byte_above_7 : forall root hid i e id b1 b2 b3 b4 b5 rest,
  (root < 2 ^ 31)%N -> fits_int 4 hid -> valid_id id ->
  (128 <= b2n b1)%N -> (128 <= b2n b2)%N -> (128 <= b2n b3)%N -> (128 <= b2n b4)%N ->
  (8 <= b2n b5)%N ->
  g_objects empty_env i e (x06 :: enc_uint 4 id ++ b1 :: b2 :: b3 :: b4 :: b5 :: rest) ->
  deserialize (header_bytes root hid ++ i)
  = PErr (mkError (x06 :: enc_uint 4 id ++ b1 :: b2 :: b3 :: b4 :: b5 :: rest)
       (E_ExpectedRecordType RT_MessageEnd)).
Proof.
  intros root hid i e id b1 b2 b3 b4 b5 rest Hr Hh Hid H1 H2 H3 H4 H5 Ho.
  eapply string_record_rejected; try done.
  intros s bs t (p & Hp & -> & Hu) E. rewrite <- app_assoc in E.
  destruct Hp as (init & last & -> & Hi & Hl & Hlen & Hfive & Hv).
  rewrite app_length in Hlen, Hfive. cbn [length] in *. rewrite <- app_assoc in E.
  destruct init as [|c1 [|c2 [|c3 [|c4 [|c5 init]]]]]; cbn [app length] in *; try lia;
    injection E; intros; subst; try lia.
Qed.
Example C08_ex_padded : len_prefix 5 [x85; x00].
Proof. apply (C08_zero_padded 5 [] x05); [|cbn; lia]. apply len_prefix_cases. left. by exists x05. Qed.
Example C08_ex : deserialize (header_bytes 1 (-1) ++ bs_of [6; 1;0;0;0; 130;128;0;104;105; 11]%N)
  = POk (MValue (VString (bs_of [104; 105]%N))).
Proof. vm_compute. reflexivity. Qed.

(** ** C09 A string takes exactly its declared bytes *)

(** Inside an array of strings, every string is read back, whatever stands around it. *)
Theorem C09_strings_roundtrip : forall hid id recs,
  fits_int 4 hid -> valid_id id -> valid_len (N.of_nat (length recs)) ->
  Forall (fun r : N * bytes * str =>
            valid_id r.1.1 /\ len_prefix (N.of_nat (length r.2)) r.1.2 /\ utf8 r.2) recs ->
  deserialize (header_bytes id hid ++ x11 :: enc_uint 4 id ++ enc_uint 4 (N.of_nat (length recs))
               ++ concat (map (fun r => x06 :: enc_uint 4 r.1.1 ++ r.1.2 ++ r.2) recs) ++ [x0b])
  = POk (MValue (VArray (map (fun r => VString r.2) recs))).
Proof.
  intros hid id recs Hh Hid Hlen Hrec. apply message_complete.
  set (its := map (fun r : N * bytes * str => It_Value (VString r.2)) recs).
  eapply (G_msg_value (Some id) _ _ (add_obj id (VArray (map (fun r : N * bytes * str => VString r.2) recs)) empty_env)).
  - by apply header_root.
  - eapply G_objs_cons; [|apply G_objs_nil].
    change (x11 :: enc_uint 4 id ++ ?a) with ((x11 :: enc_uint 4 id) ++ a). rewrite app_assoc.
    eapply (G_rec_strings _ _ id (N.of_nat (length recs)) _ its).
    + exists (enc_uint 4 id), (enc_uint 4 (N.of_nat (length recs))). done.
    + instantiate (1 := [x0b]). instantiate (1 := empty_env). subst its. rewrite map_length.
      clear Hlen. induction Hrec as [|r recs Hr Hrec IH]; [apply G_items_nil|].
      cbn [map concat length replicate]. rewrite <- app_assoc.
      eapply G_items_cons; [|exact IH]. eapply G_simple; [|done|].
      * apply G_lib_none. apply no_library_head. hd.
      * left. exists r.1.1, r.2. split; [done|]. destruct Hr as (H1 & H2 & H3).
        exists (enc_uint 4 r.1.1), (r.1.2 ++ r.2). split; [done|]. split; [|done]. by exists r.1.2.
    + subst its. destruct recs as [|r recs] using rev_ind; [by left|]. right.
      exists (map (fun r : N * bytes * str => It_Value (VString r.2)) recs), (It_Value (VString r.2)).
      rewrite map_app. split; [done|]. clear.
      assert (forall l, items_size (map (fun r : N * bytes * str => It_Value (VString r.2)) l) = N.of_nat (length l)) as Hs.
      { induction l as [|a l IH]; [done|]. cbn [map items_size item_size length]. lia. }
      change ([It_Value (VString r.2)]) with (map (fun r : N * bytes * str => It_Value (VString r.2)) [r]).
      rewrite <- map_app, !Hs, app_length. cbn [length]. lia.
    + subst its. clear. induction recs as [|r recs IH]; [apply G_res_nil|]. cbn [map]. by apply G_res_value.
  - cbn. apply lookup_insert.
Qed.

(** With fewer bytes than declared the string is rejected. *)
Theorem C09_short_string_rejected : forall root hid i e id n p s,
  (root < 2 ^ 31)%N -> fits_int 4 hid -> valid_id id ->
  len_prefix n p -> (N.of_nat (length s) < n)%N ->
  g_objects empty_env i e (x06 :: enc_uint 4 id ++ p ++ s) ->
  deserialize (header_bytes root hid ++ i)
  = PErr (mkError (x06 :: enc_uint 4 id ++ p ++ s) (E_ExpectedRecordType RT_MessageEnd)).
Proof.
  intros root hid i e id n p s Hr Hh Hid Hp Hs Ho. eapply string_record_rejected; try done.
  intros s' bs t (p' & Hp' & -> & Hu) E. rewrite <- app_assoc in E.
  destruct (len_prefix_inj _ _ _ _ _ _ Hp Hp' E) as (-> & -> & ->). rewrite app_length in Hs. lia.
Qed.
(** A string record is followed by whatever comes after the declared bytes. *)
Theorem C09_rest_untouched : forall hid i e id p s t,
  fits_int 4 hid -> valid_id id -> len_prefix (N.of_nat (length s)) p -> utf8 s ->
  i = x06 :: enc_uint 4 id ++ p ++ s ++ t ->
  g_objects (add_obj id (VString s) empty_env) t e [x0b] ->
  deserialize (header_bytes id hid ++ i)
  = match e_objs e !! id with
    | Some v => POk (MValue v)
    | None => PErr (mkError [] E_MissingRootObject)
    end.
Proof.
  intros hid i e id p s t Hh Hid Hp Hs -> Ho. apply (run_end (Some id) _ _ e []); [by apply header_root|].
  change (x06 :: enc_uint 4 id ++ p ++ s ++ t) with ((x06 :: enc_uint 4 id) ++ p ++ s ++ t).
  rewrite (app_assoc p), app_assoc. eapply G_objs_cons; [|exact Ho]. apply G_rec_string.
  exists (enc_uint 4 id), (p ++ s). split; [done|]. split; [|done]. by exists p.
Qed.
Example C09_ex : deserialize (header_bytes 1 (-1) ++
    bs_of [17; 1;0;0;0; 2;0;0;0; 6; 2;0;0;0; 1;97; 6; 3;0;0;0; 0; 11]%N)
  = POk (MValue (VArray [VString [x61]; VString []])).
Proof. vm_compute. reflexivity. Qed.

(** ** C10 Primitive values round-trip bit-exactly *)

Theorem C10_primitives_roundtrip : forall hid id p vs bs,
  fits_int 4 hid -> valid_id id -> valid_len (N.of_nat (length vs)) ->
  Forall (fun v => prim_type_of v = Some p) vs -> e_list e_prim vs bs ->
  deserialize (header_bytes id hid ++ x0f :: enc_uint 4 id ++ enc_uint 4 (N.of_nat (length vs))
               ++ n2b (pt_code p) :: bs ++ [x0b])
  = POk (MValue (VArray vs)).
Proof.
  intros hid id p vs bs Hh Hid Hlen Ht Hl. apply message_complete.
  eapply (G_msg_value (Some id) _ _ (add_obj id (VArray vs) empty_env)).
  - by apply header_root.
  - eapply G_objs_cons; [|apply G_objs_nil].
    replace (x0f :: enc_uint 4 id ++ enc_uint 4 (N.of_nat (length vs)) ++ n2b (pt_code p) :: bs ++ [x0b])
      with (((x0f :: enc_uint 4 id ++ enc_uint 4 (N.of_nat (length vs))) ++ n2b (pt_code p) :: bs) ++ [x0b]).
    2:{ rewrite <- !app_assoc. cbn [app]. by rewrite <- !app_assoc. }
    apply (G_rec_prims _ _ id p). eexists _, bs. split; [|split; [exact Ht|split; [exact Hl|reflexivity]]].
    exists (enc_uint 4 id), (enc_uint 4 (N.of_nat (length vs))). done.
  - cbn. apply lookup_insert.
Qed.
Example C10_ex : deserialize (header_bytes 1 (-1) ++
    bs_of [15; 1;0;0;0; 2;0;0;0; 8; 255;255;255;255; 12;0;0;0; 11]%N)
  = POk (MValue (VArray [VInt32 (-1); VInt32 12])).
Proof.
  apply (C10_primitives_roundtrip (-1) 1 PT_Int32 [VInt32 (-1); VInt32 12] (bs_of [255;255;255;255; 12;0;0;0]%N)).
  - split; vm_compute; congruence.
  - done.
  - done.
  - repeat constructor.
  - apply (e_cons _ _ _ (bs_of [255;255;255;255]%N) (bs_of [12;0;0;0]%N)).
    + split; [split; vm_compute; congruence|reflexivity].
    + apply (e_cons _ _ _ (bs_of [12;0;0;0]%N) []); [|constructor].
      split; [split; vm_compute; congruence|reflexivity].
Qed.

(** ** C11 Values stay in the range of their type *)

Theorem C11_values_in_range : forall W m v,
  deserialize W = POk m -> value_in v m -> in_type_range v.
Proof. exact result_range. Qed.
(** The second element of an array of 16-bit integers. *)
Example C11_ex : exists m, deserialize (header_bytes 1 (-1) ++ bs_of [15; 1;0;0;0; 2;0;0;0; 7; 0;0; 255;127; 11]%N) = POk m
  /\ value_in (VInt16 32767) m.
Proof.
  exists (MValue (VArray [VInt16 0; VInt16 32767])). split; [vm_compute; reflexivity|].
  exists (VArray [VInt16 0; VInt16 32767]). split; [by left|]. eapply sub_element; [by right; left|apply sub_here].
Qed.

(** ** C12 Booleans are strictly 0 or 1 *)

Theorem C12_bad_boolean : forall root hid i e id len bools b rest,
  (root < 2 ^ 31)%N -> fits_int 4 hid -> valid_id id -> valid_len len ->
  (N.of_nat (length bools) < len)%N -> b <> x00 -> b <> x01 ->
  g_objects empty_env i e (x0f :: enc_uint 4 id ++ enc_uint 4 len ++ x01
                           :: map (fun t : bool => if t then x01 else x00) bools ++ b :: rest) ->
  deserialize (header_bytes root hid ++ i)
  = PErr (mkError (b :: rest) (E_ExpectedPrimitive PT_Boolean)).
Proof.
  intros root hid i e id len bools b rest Hr Hh Hid Hlen Hn Hb0 Hb1 Ho.
  eapply (run_fail _ _ _ _ _ 2); [by apply header_of|exact Ho|].
  rewrite ref_prim_array by hd.
  change (x0f :: enc_uint 4 id ++ enc_uint 4 len ++ x01 :: ?a)
    with (x0f :: enc_uint 4 id ++ enc_uint 4 len ++ n2b (pt_code PT_Boolean) :: a).
  rewrite (prim_array_fail _ _ _ _ (map VBoolean bools) _ (b :: rest)
    (mkError (b :: rest) (E_ExpectedPrimitive PT_Boolean))); try done.
  - apply Forall_forall. intros v Hv. apply elem_of_list_fmap in Hv as (t & -> & _). done.
  - clear. induction bools as [|t l IH]; [constructor|]. cbn [map].
    apply (e_cons _ _ _ [if t then x01 else x00] _); [done|exact IH].
  - by rewrite map_length.
  - cbn. destruct b; done.
Qed.
Theorem C12_good_booleans : forall hid id bools,
  fits_int 4 hid -> valid_id id -> valid_len (N.of_nat (length bools)) ->
  deserialize (header_bytes id hid ++ x0f :: enc_uint 4 id ++ enc_uint 4 (N.of_nat (length bools))
               ++ x01 :: map (fun t : bool => if t then x01 else x00) bools ++ [x0b])
  = POk (MValue (VArray (map VBoolean bools))).
Proof.
  intros hid id bools Hh Hid Hlen. rewrite <- (map_length VBoolean bools) in *.
  apply (C10_primitives_roundtrip hid id PT_Boolean); try done.
  - apply Forall_forall. intros v Hv. apply elem_of_list_fmap in Hv as (t & -> & _). done.
  - clear. induction bools as [|t l IH]; [constructor|]. cbn [map].
    apply (e_cons _ _ _ [if t then x01 else x00] _); [done|exact IH].
Qed.
Example C12_ex : deserialize (header_bytes 1 (-1) ++ bs_of [15; 1;0;0;0; 3;0;0;0; 1; 1; 0; 2; 11]%N)
  = PErr (mkError (bs_of [2; 11]%N) (E_ExpectedPrimitive PT_Boolean)).
Proof.
  apply (C12_bad_boolean 1 (-1) _ empty_env 1 3 [true; false] x02 [x0b]); try done.
  apply G_objs_nil.
Qed.

(** ** C13 Chars are decoded as UTF-8 *)

(** Part that holds: one byte per char, read as Latin-1; so ASCII chars are read correctly.
    Missing: chars from U+0080 on (refuted below). *)
Theorem C13_chars_one_byte_partial : forall hid id bs,
  fits_int 4 hid -> valid_id id -> valid_len (N.of_nat (length bs)) ->
  deserialize (header_bytes id hid ++ x0f :: enc_uint 4 id ++ enc_uint 4 (N.of_nat (length bs))
               ++ x03 :: bs ++ [x0b])
  = POk (MValue (VArray (map (fun b => VChar (b2n b)) bs))).
Proof.
  intros hid id bs Hh Hid Hlen. rewrite <- (map_length (fun b => VChar (b2n b)) bs) in Hlen |- *.
  apply (C10_primitives_roundtrip hid id PT_Char); try done.
  - apply Forall_forall. intros v Hv. apply elem_of_list_fmap in Hv as (t & -> & _). done.
  - clear. induction bs as [|t l IH]; [constructor|]. cbn [map].
    apply (e_cons _ _ _ [t] _); [|exact IH]. cbn [e_prim]. split.
    + unfold fits_uint. change (2 ^ (8 * N.of_nat 1))%N with 256%N. apply b2n_lt.
    + cbn [enc_uint]. by rewrite n2b_b2n.
Qed.
Theorem C13_ascii_partial : forall hid id cs,
  fits_int 4 hid -> valid_id id -> valid_len (N.of_nat (length cs)) ->
  Forall (fun c => c < 128)%N cs ->
  deserialize (header_bytes id hid ++ x0f :: enc_uint 4 id ++ enc_uint 4 (N.of_nat (length cs))
               ++ x03 :: enc_utf8 cs ++ [x0b])
  = POk (MValue (VArray (map VChar cs))).
Proof.
  intros hid id cs Hh Hid Hlen Hc.
  assert (enc_utf8 cs = map n2b cs /\ map (fun b => VChar (b2n b)) (map n2b cs) = map VChar cs) as [-> E].
  { clear -Hc. unfold enc_utf8. induction Hc as [|c cs Hc H [IH1 IH2]]; [done|]. cbn [map concat].
    rewrite IH1, IH2. unfold enc_char. destruct (N.ltb_spec c 128); [|lia].
    by rewrite b2n_n2b_small by lia. }
  rewrite <- E. rewrite <- (map_length n2b cs) in *. by apply C13_chars_one_byte_partial.
Qed.
(** No char outside ASCII is read correctly. *)
Lemma enc_char_two c : scalar c -> (128 <= c)%N ->
  exists b1 b2 r, enc_char c = b1 :: b2 :: r /\ (128 <= b2n b2 < 192)%N.
Proof.
  intros Hs Hc. unfold enc_char.
  assert (forall k, 128 <= b2n (n2b (128 + k mod 64)) < 192)%N as H.
  { intros k. pose proof (N.mod_lt k 64 ltac:(done)). rewrite b2n_n2b_small; lia. }
  destruct (N.ltb_spec c 128); [lia|].
  destruct (N.ltb_spec c 0x800); [eexists _, _, _; split; [reflexivity|apply H]|].
  destruct (N.ltb_spec c 0x10000); [eexists _, _, _; split; [reflexivity|apply H]|].
  eexists _, _, _; split; [reflexivity|apply H].
Qed.
Theorem C13_non_ascii_refuted : forall hid id c,
  fits_int 4 hid -> valid_id id -> scalar c -> (128 <= c)%N ->
  deserialize (header_bytes id hid ++ x0f :: enc_uint 4 id ++ enc_uint 4 1 ++ x03 :: enc_char c ++ [x0b])
  <> POk (MValue (VArray [VChar c])).
Proof.
  intros hid id c Hh Hid Hs Hc. destruct (enc_char_two c Hs Hc) as (b1 & b2 & r & -> & Hb).
  assert (forall l, Forall (fun x => b2n x < 128 \/ 192 <= b2n x)%N l -> b2 ∉ l) as Hnot.
  { intros l Hl Hin. rewrite Forall_forall in Hl. apply Hl in Hin. lia. }
  assert (forall l i, Forall (fun x => b2n x < 128 \/ 192 <= b2n x)%N l -> ~ head_in l (b2 :: i)) as Hhd.
  { intros l i Hl Hin. by apply (Hnot l Hl). }
  erewrite (run_stuck_head _ _ _ _ (b2 :: r ++ [x0b])); [done|by apply header_root| | |].
  - eapply G_objs_cons; [|apply G_objs_nil].
    change (x0f :: enc_uint 4 id ++ enc_uint 4 1 ++ x03 :: (b1 :: b2 :: r) ++ [x0b])
      with (((x0f :: enc_uint 4 id ++ enc_uint 4 1) ++ n2b (pt_code PT_Char) :: [b1]) ++ (b2 :: r ++ [x0b])).
    apply (G_rec_prims _ _ id PT_Char [VChar (b2n b1)]).
    eexists _, [b1]. split; [|split; [repeat constructor|split; [|reflexivity]]].
    + exists (enc_uint 4 id), (enc_uint 4 1). done.
    + apply (e_cons _ _ _ [b1] []); [|constructor]. split.
      * unfold fits_uint. change (2 ^ (8 * N.of_nat 1))%N with 256%N. apply b2n_lt.
      * cbn [enc_uint]. by rewrite n2b_b2n.
  - apply no_library_head. apply Hhd. repeat constructor; vm_compute; intuition congruence.
  - apply Hhd. repeat constructor; left; vm_compute; congruence.
Qed.
Example C13_ex : exists e, deserialize (header_bytes 1 (-1) ++
    bs_of [15; 1;0;0;0; 1;0;0;0; 3; 195;169; 11]%N) = PErr e.
Proof. eexists. vm_compute. reflexivity. Qed.

End with_decimal.
