(** * PropsD: properties C25 - C31 (arrays, null runs, declared classes).

    For [after] and [inside] see Positions.v and PropsB.v; for [trees] see Trees.v. *)
From Verif Require Import Base Utf8 Value DataTypes Records Parser Wire BaseLemmas DataTypesLemmas
  RecordsLemmas MethodLemmas SafetyLemmas Safety Grammar Heads Complete Sound Fuel Message Run Spec
  LemmasA LemmasB LemmasC Positions Reach LemmasD Trees TreeLemmas PropsB PropsC.
From Coq Require Import Lia.

Section with_decimal.
Context {DL : DecimalLib}.

Ltac ex_in := apply (bool_decide_unpack _); vm_compute; exact I.

(** ** C25 Single-dimension arrays have their declared length *)

Theorem C25_primitive_array : forall W root e hb p vs mb len,
  after W root e (hb ++ n2b (pt_code p) :: mb ++ [x0b]) -> e_array_header x0f root len hb ->
  Forall (fun v => prim_type_of v = Some p) vs -> e_list e_prim vs mb -> N.of_nat (length vs) = len ->
  deserialize W = POk (MValue (VArray vs)).
Proof.
  intros W root e hb p vs mb len Ha Hh Hp Hm Hl. subst len.
  assert (valid_id root) as Hr by (by destruct Hh as (? & ? & [? _] & _)).
  eapply after_root; [exact Ha|by apply valid_id_pos|].
  assert (hb ++ n2b (pt_code p) :: mb ++ [x0b] = (hb ++ n2b (pt_code p) :: mb) ++ [x0b]) as ->
    by (by rewrite <- app_assoc).
  eapply G_rec_prims. exists hb, mb. done.
Qed.

(** Object arrays (code 16) and string arrays (code 17). *)
Definition array_kind (code : byte) (k : kind) : Prop :=
  (code = x10 /\ k = K_Any) \/ (code = x11 /\ k = K_StringArray).

Lemma array_items code k its bs e i :
  array_kind code k -> e_list (simple_item k) its bs ->
  g_items (replicate (length its) k) e (bs ++ i) its e i.
Proof.
  intros [[-> ->]|[-> ->]]; [apply simple_items|].
  induction 1 as [|it its b bs Hb _ IH]; [constructor|]. rewrite <- app_assoc.
  eapply G_items_cons; [|exact IH]. eapply G_simple; [|done|exact Hb].
  apply G_lib_none.
  destruct Hb as [(id & s & _ & b1 & b2 & _ & _ & ->)|[(id & _ & b1 & _ & ->)|(n & _ & H)]]; try done.
  by destruct H as [[_ ->]|[[_ ->]|[_ ->]]].
Qed.
Lemma array_record code k e id len hb its e1 i i1 vs e2 i2 :
  array_kind code k -> e_array_header code id len hb ->
  g_items (replicate (length its) k) e i its e1 i1 -> fills len its -> g_resolve its e1 i1 vs e2 i2 ->
  g_record e (hb ++ i) id (VArray vs) e2 i2.
Proof. intros [[-> ->]|[-> ->]]; intros; [by eapply G_rec_objects|by eapply G_rec_strings]. Qed.

Lemma item_values_length its :
  no_refs its -> N.of_nat (length (concat (map item_values its))) = items_size its.
Proof.
  induction 1 as [|it its Hit _ IH]; [done|]. cbn [map concat items_size]. rewrite app_length, <- IH.
  destruct it as [v|n|id]; cbn [item_values item_size]; [simpl; lia|rewrite replicate_length; lia|by destruct (Hit id)].
Qed.

(** Elements and null runs that fill the array: the value is the elements and nulls, one after
    the other. *)
Theorem C25_array_of_items : forall W root e code k hb mb its len,
  after W root e (hb ++ mb ++ [x0b]) -> array_kind code k -> e_array_header code root len hb ->
  e_list (simple_item k) its mb -> no_refs its -> fills len its ->
  exists vs, deserialize W = POk (MValue (VArray vs)) /\ vs = concat (map item_values its)
    /\ (len <= N.of_nat (length vs))%N
    /\ (items_size its = len -> N.of_nat (length vs) = len).
Proof.
  intros W root e code k hb mb its len Ha Hk Hh Hm Hn Hf. exists (concat (map item_values its)).
  assert (valid_id root) as Hr by (by destruct Hh as (? & ? & [? _] & _)).
  split; [|split; [done|]].
  - eapply after_root; [exact Ha|by apply valid_id_pos|].
    eapply array_record; [exact Hk|exact Hh|by eapply array_items|exact Hf|by apply resolve_no_refs].
  - rewrite (item_values_length _ Hn). split; [|done].
    destruct Hf as [[-> ->]|(init & last & -> & Hle)]; [done|lia].
Qed.
(** Elements of any shape, without null runs: exact. *)
Theorem C25_array_of_trees : forall W root e code k hb mb vs len,
  after W root e (hb ++ mb ++ [x0b]) -> array_kind code k -> e_array_header code root len hb ->
  trees (e_libs e) (replicate (N.to_nat len) k) vs mb ->
  deserialize W = POk (MValue (VArray vs)) /\ N.of_nat (length vs) = len.
Proof.
  intros W root e code k hb mb vs len Ha Hk Hh Ht.
  assert (valid_id root) as Hr by (by destruct Hh as (? & ? & [? _] & _)).
  assert (length vs = N.to_nat len) as Hl by (destruct Ht as [Hl _]; by rewrite replicate_length in Hl).
  split; [|lia]. eapply after_root; [exact Ha|by apply valid_id_pos|].
  eapply (array_record code k _ _ _ _ (map tree_item vs)); [exact Hk|exact Hh| | |apply resolve_trees].
  - rewrite map_length, Hl. by apply trees_items.
  - assert (forall l, items_size (map tree_item l) = N.of_nat (length l)) as Hs.
    { induction l as [|v l IH]; [done|]. cbn [map items_size length]. rewrite IH.
      destruct v; cbn [tree_item item_size]; lia. }
    destruct vs as [|v vs _] using rev_ind; [left; simpl in Hl; split; [lia|done]|]. right.
    exists (map tree_item vs), (tree_item v). rewrite map_app. split; [done|].
    change (map tree_item vs ++ map tree_item [v]) with (map tree_item vs ++ map tree_item [v]).
    rewrite <- map_app, !Hs. rewrite app_length in *. simpl length in *. lia.
Qed.
(** No member begins here: the first byte is no code of a class, string, typed primitive,
    reference, null or library record. *)
Definition no_member (rest : bytes) : Prop :=
  match rest with
  | x01 :: _ | x02 :: _ | x03 :: _ | x04 :: _ | x05 :: _ | x06 :: _ | x08 :: _ | x09 :: _
  | x0a :: _ | x0c :: _ | x0d :: _ | x0e :: _ => False
  | _ => True
  end.
Lemma no_member_head rest :
  no_member rest -> ~ head_in [x01; x02; x03; x04; x05; x06; x08; x09; x0a; x0c; x0d; x0e] rest.
Proof.
  intros Hhd. destruct rest as [|c rest]; [by intros []|]. simpl. intros Hc.
  repeat (apply elem_of_cons in Hc as [->|Hc]; [done|]). by apply elem_of_nil in Hc.
Qed.
Lemma classes_no_head e rest :
  ~ head_in [x01; x02; x03; x04; x05; x0c] rest ->
  exists err, forall f, parse_classes (S f) (st e) rest = (st e, Err err).
Proof.
  intros Hh. destruct (class_records_err rest) as [er Her]; [nohead|].
  destruct (class_with_id_err rest) as [er2 Her2]; [nohead|].
  exists er. intros f. rewrite parse_classes_S. unfold parse_classes_body.
  rewrite parse_binary_library_none by (apply no_library_head; nohead). cbn [sbind]. by rewrite Her2, Her.
Qed.
Lemma no_member_stops k e rest :
  no_member rest -> match k with K_Primitive _ => False | K_Class _ lid => is_Some (e_libs e !! lid) | _ => True end ->
  exists err, site_stops (Site_member k e rest) (st e) (S_Err err).
Proof.
  intros Hh%no_member_head Hk.
  destruct (parse_null_object_err rest) as [er1 H1]; [nohead|].
  destruct (parse_string_member_err rest) as [er2 H2]; [nohead|].
  destruct (parse_ref_member_err rest) as [er3 H3]; [nohead|].
  destruct (classes_no_head e rest) as [er4 H4]; [nohead|].
  destruct (any_kind_dec k) as [Hk2|Hk2].
  { exists er4. exists 1. intros f Hf. destruct f as [|f]; [lia|]. rewrite member_any; [|done|nohead].
    unfold member_untyped_body. rewrite alt_skip by (apply member_primitive_typed_err; nohead).
    rewrite alt_skip by eauto. rewrite alt_skip by eauto. rewrite H1. by rewrite H4. }
  destruct k; try done; try naive_solver.
  - exists er2. apply ev_const. intros f. rewrite member_typed; [|done|nohead]. cbn [kind_bt kind_ai]. by rewrite H2.
  - exists er1. exists 1. intros f Hf. destruct f as [|f]; [lia|]. rewrite member_typed; [|done|nohead].
    cbn [kind_bt kind_ai]. unfold class_or_null. by rewrite H4, H1.
  - destruct Hk as [l Hl]. exists er1. exists 1. intros f Hf. destruct f as [|f]; [lia|].
    rewrite member_typed; [|done|nohead].
    cbn [kind_bt kind_ai cti_library_id st st_libs]. rewrite Hl. unfold class_or_null. by rewrite H4, H1.
  - exists er1. apply ev_const. intros f. rewrite member_typed; [|done|nohead]. cbn [kind_bt kind_ai].
    rewrite alt_skip by eauto. rewrite alt_skip by eauto. by rewrite H1.
  - exists er3. apply ev_const. intros f. rewrite member_typed; [|done|nohead]. cbn [kind_bt kind_ai]. by rewrite H3.
Qed.

(** Too few elements: if the next byte starts no element, the message is rejected. *)
Theorem C25_too_few : forall W root e code k aid hb mb its len rest,
  after W root e (hb ++ mb ++ rest) -> array_kind code k -> e_array_header code aid len hb ->
  e_list (simple_item k) its mb -> (items_size its < len)%N -> no_member rest ->
  deserialize W = PErr (mkError (hb ++ mb ++ rest) (E_ExpectedRecordType RT_MessageEnd)).
Proof.
  intros W root e code k aid hb mb its len rest Ha Hk Hh Hm Hlt Hrest.
  destruct (no_member_stops k e rest Hrest) as [err Hs].
  { by destruct Hk as [[-> ->]|[-> ->]]. }
  eapply (reach_stuck _ _ _ _ _ _ (S_Err err)); [exact Ha| |exact Hs|exact I].
  eapply RR_array; [exact Hk|exact Hh|by eapply array_items|done|apply RM_here].
Qed.
(** The same for primitive arrays: what follows must begin with [len] values of the type. *)
Theorem C25_primitive_too_few : forall W root e aid hb p len rest,
  after W root e (hb ++ n2b (pt_code p) :: rest) -> e_array_header x0f aid len hb ->
  (~ exists vs mb r, N.of_nat (length vs) = len /\ Forall (fun v => prim_type_of v = Some p) vs
                     /\ e_list e_prim vs mb /\ rest = mb ++ r) ->
  exists err, deserialize W = PErr err.
Proof.
  intros W root e aid hb p len rest Ha Hh Hno.
  assert (exists c, hb = x0f :: c) as [c Ec] by (destruct Hh as (? & ? & _ & _ & ->); eauto).
  assert (parse_array_single_primitive (st e) (hb ++ n2b (pt_code p) :: rest)
    = (st e, rmap (pair aid) (count len (fun i => member_primitive_untyped i p) rest))) as Hp.
  { destruct Hh as (b1 & b2 & [Hid ->] & [Hlen ->] & ->). unfold parse_array_single_primitive, array_single_primitive.
    cbn [app]. rewrite <- app_assoc.
    change x0f with (n2b (rt_code RT_ArraySinglePrimitive)). rewrite rt_ok.
    unfold array_info_parse. rewrite id_ok by done. cbn [bind]. rewrite len_ok by done. cbn [bind].
    change (n2b (pt_code p) :: rest) with ([n2b (pt_code p)] ++ rest).
    rewrite (exact_ok primitive_type_parse _ p _ _ primitive_type_exact) by done. cbn [bind fst snd ai_length ai_object_id].
    by destruct (count len _ rest). }
  pose proof (count_safe len (fun i => member_primitive_untyped i p) rest
    (member_primitive_untyped_safe p) (member_primitive_untyped_strict p)) as Hs.
  destruct (count len (fun i => member_primitive_untyped i p) rest) as [r vs|er|er|pp|] eqn:E; [| | |done|done].
  - exfalso. apply Hno.
    assert (nonempty_enc (fun v bs => prim_type_of v = Some p /\ e_prim v bs)) as Hne.
    { intros v [_ H]. by apply e_prim_nonempty in H. }
    apply (exact_count len _ _ (member_primitive_untyped_exact p) Hne) in E as (bs & [Hl He] & ->).
    exists vs, bs, r. split; [done|]. split; [|split; [|done]].
    + clear -He. induction He as [|v vs b bs [Hv _] _ IH]; by constructor.
    + eapply e_list_impl; [|exact He]. by intros ? ? [_ ?].
  - eexists. eapply (after_stuck _ _ _ _ 2); [exact Ha| |rewrite Ec; hd].
    rewrite ref_prim_array by (rewrite Ec; hd). rewrite Hp. reflexivity.
  - eexists. eapply (after_fail _ _ _ _ 2); [exact Ha|].
    rewrite ref_prim_array by (rewrite Ec; hd). rewrite Hp. reflexivity.
Qed.

(** Refuted for null runs that overshoot: an array of declared length 1 with a run of 5 nulls. *)
Definition ex_overshoot : bytes := bs_of [13; 5]%N.
Theorem C25_declared_length_refuted : ~ forall W root e hb mb its len vs,
  after W root e (hb ++ mb ++ [x0b]) -> e_array_header x10 root len hb ->
  e_list (simple_item K_Any) its mb -> deserialize W = POk (MValue (VArray vs)) ->
  N.of_nat (length vs) = len.
Proof.
  intros H. specialize (H (header_bytes 1 (-1) ++ ex_record ++ (x10 :: enc_uint 4 1 ++ enc_uint 4 1) ++ ex_overshoot ++ [x0b])
    1%N ex_env (x10 :: enc_uint 4 1 ++ enc_uint 4 1) ex_overshoot [It_Nulls 5] 1%N (replicate 5 VNull)).
  discriminate H.
  - apply ex_after. done.
  - by apply ex_header.
  - change ex_overshoot with (ex_overshoot ++ []). apply e_cons; [|apply e_nil].
    right; right; right. exists 5%N. split; [done|]. right; right. done.
  - vm_compute. reflexivity.
Qed.

Example C25_ex_items :
  deserialize (header_bytes 1 (-1) ++ ex_record ++ (x10 :: enc_uint 4 1 ++ enc_uint 4 3) ++ bs_of [14; 2;0;0;0; 8; 8; 7;0;0;0]%N ++ [x0b])
  = POk (MValue (VArray [VNull; VNull; VInt32 7])).
Proof.
  destruct (C25_array_of_items (header_bytes 1 (-1) ++ ex_record ++ (x10 :: enc_uint 4 1 ++ enc_uint 4 3) ++ bs_of [14; 2;0;0;0; 8; 8; 7;0;0;0]%N ++ [x0b])
    1 ex_env x10 K_Any (x10 :: enc_uint 4 1 ++ enc_uint 4 3) (bs_of [14; 2;0;0;0; 8; 8; 7;0;0;0]%N)
    [It_Nulls 2; It_Value (VInt32 7)] 3) as (vs & H & -> & _).
  - apply ex_after. done.
  - by left.
  - by apply ex_header.
  - change (bs_of [14; 2;0;0;0; 8; 8; 7;0;0;0]%N) with (bs_of [14; 2;0;0;0]%N ++ bs_of [8; 8; 7;0;0;0]%N ++ []).
    apply e_cons; [|apply e_cons; [|apply e_nil]].
    + right; right; right. exists 2%N. split; [done|]. right; left. done.
    + left. eexists. split; [reflexivity|]. exists PT_Int32, (enc_int 4 7). split; [done|]. split; [|done].
      split; [|done]. split; vm_compute; congruence.
  - by repeat constructor.
  - right. exists [It_Nulls 2], (It_Value (VInt32 7)). split; [done|]. vm_compute. split; congruence.
  - exact H.
Qed.
Example C25_ex_prims :
  deserialize (header_bytes 1 (-1) ++ ex_record ++ (x0f :: enc_uint 4 1 ++ enc_uint 4 2) ++ n2b (pt_code PT_Boolean) :: bs_of [1; 0]%N ++ [x0b])
  = POk (MValue (VArray [VBoolean true; VBoolean false])).
Proof.
  apply (C25_primitive_array _ 1 ex_env (x0f :: enc_uint 4 1 ++ enc_uint 4 2) PT_Boolean [VBoolean true; VBoolean false] (bs_of [1; 0]%N) 2).
  - apply ex_after. done.
  - by apply ex_header.
  - by repeat constructor.
  - change (bs_of [1; 0]%N) with ([x01] ++ [x00] ++ []). apply e_cons; [done|]. apply e_cons; [done|]. apply e_nil.
  - done.
Qed.
Example C25_ex_too_few : exists err,
  deserialize (header_bytes 1 (-1) ++ ex_record ++ (x0f :: enc_uint 4 1 ++ enc_uint 4 2) ++ n2b (pt_code PT_Int64) :: [x0b]) = PErr err.
Proof.
  apply (C25_primitive_too_few _ 1 ex_env 1 (x0f :: enc_uint 4 1 ++ enc_uint 4 2) PT_Int64 2 [x0b]).
  - apply ex_after. done.
  - by apply ex_header.
  - intros (vs & mb & r & Hl & Hp & He & Hr).
    destruct vs as [|v vs]; [done|]. inversion Hp as [|x1 x2 Hv _]; subst x1 x2.
    inversion He as [|x1 x2 b bs Hb _]; subst x1 x2.
    assert (length b = 8) as Hlen by (destruct v; try done; by destruct Hb as [_ ->]).
    apply (f_equal length) in Hr. subst mb. rewrite !app_length in Hr. simpl in Hr. lia.
Qed.
Example C25_ex_too_few_objects : exists err,
  deserialize (header_bytes 1 (-1) ++ ex_record ++ (x11 :: enc_uint 4 1 ++ enc_uint 4 2) ++ [x0a] ++ [x0b]) = PErr err.
Proof.
  eexists. eapply (C25_too_few _ 1 ex_env x11 K_StringArray 1 _ [x0a] [It_Nulls 1] 2 [x0b]).
  - apply ex_after. done.
  - by right.
  - by apply ex_header.
  - rewrite <- (app_nil_r [x0a]). apply e_cons; [|apply e_nil].
    right; right. exists 1%N. split; [done|]. by left.
  - done.
  - done.
Qed.

(** ** C26 Multi-dimensional arrays have their declared shape *)

(** Every list of the right length can be arranged; a shape and its elements determine the
    array. *)
Lemma split_rows n m (vs : list value) : length vs = n * m ->
  exists rows, length rows = n /\ Forall (fun r => length r = m) rows /\ concat rows = vs.
Proof.
  revert vs. induction n as [|n IH]; intros vs H.
  - exists []. destruct vs; [|done]. done.
  - destruct (IH (drop m vs)) as (rows & H1 & H2 & H3); [rewrite drop_length; lia|].
    exists (take m vs :: rows). split; [simpl; lia|]. split.
    + constructor; [rewrite take_length; lia|done].
    + cbn [concat]. rewrite H3. apply take_drop.
Qed.
Lemma shape_exists dims : forall vs, N.of_nat (length vs) = product dims -> exists v, has_shape dims v vs.
Proof.
  induction dims as [|d dims IH]; intros vs H.
  - destruct vs as [|v [|v2 vs]]; [done| |].
    + exists v. constructor.
    + unfold product in H. cbn [length fold_right] in H. lia.
  - destruct (split_rows (N.to_nat d) (N.to_nat (product dims)) vs) as (rows & H1 & H2 & H3).
    { cbn [product fold_right] in H. unfold product in *. lia. }
    assert (exists out, Forall2 (has_shape dims) out rows) as [out Hout].
    { clear H1 H3. induction H2 as [|r rows Hr _ IH2]; [by exists []|]. destruct IH2 as [out Hout].
      destruct (IH r) as [v Hv]; [lia|]. exists (v :: out). by constructor. }
    exists (VArray out). rewrite <- H3. constructor; [|done]. rewrite (Forall2_length _ _ _ Hout). lia.
Qed.
Lemma shape_length dims v vs : has_shape dims v vs -> N.of_nat (length vs) = product dims.
Proof.
  revert v vs. induction dims as [|d dims IH]; intros v vs H; [by inv H|].
  inversion H as [|d' dims' rows leaves Hd HF E1 E2 E3]. subst d' dims' d v. clear H E3 vs.
  change (product (N.of_nat (length rows) :: dims)) with (N.of_nat (length rows) * product dims)%N.
  induction HF as [|r l rows leaves Hr _ IH2]; [done|]. cbn [concat length]. rewrite app_length.
  apply IH in Hr. lia.
Qed.
Theorem C26_shape_unique : forall dims v1 v2 vs,
  has_shape dims v1 vs -> has_shape dims v2 vs -> v1 = v2.
Proof.
  induction dims as [|d dims IH]; intros v1 v2 vs H1 H2.
  - inv H1. by inv H2.
  - inversion H1 as [|d' dims' rows leaves Hd HF E1 E2 Hc1]; subst d' dims' v1 vs.
    inversion H2 as [|d' dims' rows2 leaves2 Hd2 HF2 E1 E2 Hc]; subst d' dims' v2. f_equal.
    subst d. clear H1 H2. revert rows2 leaves2 Hc Hd2 HF2. induction HF as [|r l rows leaves Hr _ IH2];
      intros rows2 leaves2 Hc Hd2 HF2; inv HF2; try done.
    cbn [concat length] in *. pose proof (shape_length _ _ _ Hr). pose proof (shape_length _ _ _ H).
    apply app_inj_1 in Hc as [-> Hc]; [|lia]. f_equal; [by eapply IH|]. eapply IH2; [done|lia|done].
Qed.

Lemma shape_rows d dims v vs : has_shape (d :: dims) v vs ->
  exists rows leaves, v = VArray rows /\ Forall2 (has_shape dims) rows leaves /\ concat leaves = vs.
Proof. intros H. inv H. eauto. Qed.

Theorem C26_shape : forall W root e bat d dims bounds k hb vs mb,
  after W root e (hb ++ mb ++ [x0b]) -> e_binary_array_header root bat (d :: dims) bounds k hb ->
  no_overflow (d :: dims) -> (0 < product (d :: dims))%N ->
  trees (e_libs e) (replicate (N.to_nat (product (d :: dims))) k) vs mb ->
  exists v, deserialize W = POk (MValue v) /\ has_shape (d :: dims) v vs.
Proof.
  intros W root e bat d dims bounds k hb vs mb Ha Hh Hno Hpos Ht.
  assert (valid_id root) as Hr by (by destruct Hh as (? & ? & ? & ? & ? & [? _] & _)).
  assert (length vs = N.to_nat (product (d :: dims))) as Hl
    by (destruct Ht as [Hl _]; by rewrite replicate_length in Hl).
  destruct (shape_exists (d :: dims) vs) as [v Hv]; [lia|]. exists v. split; [|done].
  apply shape_rows in Hv as (rows & leaves & -> & HF & Hc).
  eapply after_root; [exact Ha|by apply valid_id_pos|].
  eapply G_rec_array; [exact Hh|done|by apply trees_items|apply resolve_trees|].
  right. split; [|exists leaves; done]. intros ->. simpl length in Hl. lia.
Qed.
(** If some length is 0 the array is empty. *)
Theorem C26_empty : forall W root e bat lengths bounds k hb,
  after W root e (hb ++ [x0b]) -> e_binary_array_header root bat lengths bounds k hb ->
  no_overflow lengths -> product lengths = 0%N ->
  deserialize W = POk (MValue (VArray [])).
Proof.
  intros W root e bat lengths bounds k hb Ha Hh Hno Hz.
  assert (valid_id root) as Hr by (by destruct Hh as (? & ? & ? & ? & ? & [? _] & _)).
  eapply after_root; [exact Ha|by apply valid_id_pos|].
  eapply G_rec_array; [exact Hh|done|rewrite Hz; constructor|constructor|by left].
Qed.
(** Too many elements. *)
Theorem C26_overflow : forall W root e aid bat lengths bounds k hb rest,
  after W root e (hb ++ rest) -> e_binary_array_header aid bat lengths bounds k hb ->
  ~ no_overflow lengths ->
  deserialize W = PErr (mkError (hb ++ rest) E_InvalidLength).
Proof.
  intros W root e aid bat lengths bounds k hb rest Ha Hh Hno.
  assert (exists c, hb = x07 :: c) as [c Ec]
    by (destruct Hh as (? & ? & ? & ? & ? & _ & _ & _ & _ & _ & ->); eauto).
  eapply (after_fail _ _ _ _ 2); [exact Ha|].
  rewrite ref_binary_array by (rewrite Ec; hd). unfold parse_binary_array.
  rewrite (exact_ok binary_array_parse _
    (mkBinaryArray aid bat lengths bounds (kind_bt k) (kind_ai k)) hb rest binary_array_exact)
    by (by exists k).
  cbn [ba_lengths]. destruct (checked_product 1 lengths) as [n|] eqn:En; [|reflexivity].
  exfalso. apply Hno. apply checked_product_sound in En as [_ En]; [|done].
  intros j Hj. rewrite <- (N.mul_1_l (product _)). by apply En.
Qed.
(** Refuted for inner lengths 0: the three empty rows of a 3 x 0 array are lost. *)
Definition ex_3x0 : bytes := bs_of [7; 1;0;0;0; 2; 2;0;0;0; 3;0;0;0; 0;0;0;0; 2]%N.
Lemma ex_lens l : Forall valid_len l -> valid_len (N.of_nat (length l)) ->
  e_counted e_len l (enc_uint 4 (N.of_nat (length l)) ++ concat (map (enc_uint 4) l)).
Proof.
  intros H Hl. eexists. split; [done|]. split; [|reflexivity]. clear Hl.
  induction H as [|x l Hx _ IH]; [apply e_nil|]. cbn [map concat]. apply e_cons; [by split|done].
Qed.
Lemma ex_3x0_ok : e_binary_array_header 1 BAT_Rectangular [3; 0]%N None K_Object ex_3x0.
Proof.
  exists (enc_uint 4 1), (enc_uint 4 2 ++ concat (map (enc_uint 4) [3; 0]%N)), [], [x02], [].
  split; [done|]. split; [apply (ex_lens [3; 0]%N); [by repeat constructor|done]|].
  split; [done|]. split; [done|]. split; done.
Qed.
Lemma ex_3x0_overflow : no_overflow [3; 0]%N.
Proof. intros [|[|[|j]]] Hj; done. Qed.
Theorem C26_zero_length_refuted : ~ forall W root e bat d dims bounds k hb vs mb,
  after W root e (hb ++ mb ++ [x0b]) -> e_binary_array_header root bat (d :: dims) bounds k hb ->
  no_overflow (d :: dims) ->
  trees (e_libs e) (replicate (N.to_nat (product (d :: dims))) k) vs mb ->
  exists v, deserialize W = POk (MValue v) /\ has_shape (d :: dims) v vs.
Proof.
  intros H. destruct (H (header_bytes 1 (-1) ++ ex_record ++ ex_3x0 ++ [] ++ [x0b]) 1%N ex_env
    BAT_Rectangular 3%N [0%N] None K_Object ex_3x0 [] []) as (v & Hv & Hs).
  - by apply ex_after.
  - apply ex_3x0_ok.
  - apply ex_3x0_overflow.
  - split; [done|apply e_nil].
  - assert (v = VArray []) as ->.
    { enough (POk (MValue v) = POk (MValue (VArray []))) as E by congruence. rewrite <- Hv. by vm_compute. }
    inversion Hs; subst. match goal with H1 : concat ?l = [], H2 : N.of_nat (length (concat ?l)) = _ |- _ => by rewrite H1 in H2 end.
Qed.

(** A 2 x 2 array of Int32, lower bounds 1 and 7. *)
Definition ex_2x2 (lb : list N) : bytes :=
  x07 :: enc_uint 4 1 ++ n2b (bat_code BAT_RectangularOffset) :: (enc_uint 4 2 ++ concat (map (enc_uint 4) [2; 2]%N))
    ++ concat (map (enc_uint 4) lb) ++ [x00] ++ [n2b (pt_code PT_Int32)].
Lemma ex_2x2_ok a b : valid_len a -> valid_len b ->
  e_binary_array_header 1 BAT_RectangularOffset [2; 2]%N (Some [a; b]) (K_Primitive PT_Int32) (ex_2x2 [a; b]).
Proof.
  intros Ha Hb.
  exists (enc_uint 4 1), (enc_uint 4 2 ++ concat (map (enc_uint 4) [2; 2]%N)), (concat (map (enc_uint 4) [a; b])), [x00], [n2b (pt_code PT_Int32)].
  split; [done|]. split; [apply (ex_lens [2; 2]%N); [by repeat constructor|done]|].
  split.
  { split; [done|]. split; [done|]. cbn [map concat]. apply e_cons; [by split|]. apply e_cons; [by split|]. apply e_nil. }
  split; [done|]. split; [done|]. done.
Qed.
Definition ex_4ints : bytes := bs_of [1;0;0;0; 2;0;0;0; 3;0;0;0; 4;0;0;0]%N.
Lemma ex_4ints_ok L : trees L (replicate 4 (K_Primitive PT_Int32)) [VInt32 1; VInt32 2; VInt32 3; VInt32 4] ex_4ints.
Proof.
  assert (forall z, fits_int 4 z -> (0 < z < 5)%Z -> tree L (K_Primitive PT_Int32) (VInt32 z) (enc_int 4 z)) as H.
  { intros z Hz Hb. apply T_prim; [done|by split|].
    assert (z = 1 \/ z = 2 \/ z = 3 \/ z = 4)%Z as [-> | [-> | [-> | ->]]] by lia; done. }
  split; [done|]. simpl zip.
  change ex_4ints with (enc_int 4 1 ++ enc_int 4 2 ++ enc_int 4 3 ++ enc_int 4 4 ++ []).
  do 4 (apply e_cons; [apply H; [split; vm_compute; congruence|lia]|]). apply e_nil.
Qed.
Example C26_ex : exists v,
  deserialize (header_bytes 1 (-1) ++ ex_record ++ ex_2x2 [1; 7]%N ++ ex_4ints ++ [x0b]) = POk (MValue v)
  /\ has_shape [2; 2]%N v [VInt32 1; VInt32 2; VInt32 3; VInt32 4].
Proof.
  eapply (C26_shape _ 1 ex_env BAT_RectangularOffset 2 [2%N] (Some [1; 7]%N) (K_Primitive PT_Int32)).
  - by apply ex_after.
  - by apply ex_2x2_ok.
  - intros [|[|[|j]]] Hj; done.
  - done.
  - apply ex_4ints_ok.
Qed.
(** Four lengths of 2^16. *)
Definition ex_huge : bytes :=
  x07 :: enc_uint 4 1 ++ n2b (bat_code BAT_Rectangular) :: (enc_uint 4 4 ++ concat (map (enc_uint 4) [65536; 65536; 65536; 65536]%N)) ++ [] ++ [x02] ++ [].
Example C26_ex_overflow :
  deserialize (header_bytes 1 (-1) ++ ex_record ++ ex_huge ++ [x0b]) = PErr (mkError (ex_huge ++ [x0b]) E_InvalidLength).
Proof.
  eapply (C26_overflow _ 1 ex_env 1 BAT_Rectangular [65536; 65536; 65536; 65536]%N None K_Object).
  - by apply ex_after.
  - exists (enc_uint 4 1), (enc_uint 4 4 ++ concat (map (enc_uint 4) [65536; 65536; 65536; 65536]%N)), [], [x02], [].
    split; [done|]. split; [apply (ex_lens [65536; 65536; 65536; 65536]%N); [by repeat constructor|done]|].
    split; [done|]. split; [done|]. split; done.
  - intros H. specialize (H 4 ltac:(simpl; lia)). vm_compute in H. discriminate H.
Qed.

(** ** C27 Lower bounds do not affect the value *)

(** Replacing a record by one that the parser treats in the same way. *)
Definition same_result {A} (r1 r2 : sres A) : Prop :=
  match r1.2, r2.2 with
  | Ok _ _, Ok _ _ => r1 = r2
  | Err _, Err _ => r1.1 = r2.1
  | Ok _ _, _ | _, Ok _ _ | Err _, _ | _, Err _ => False
  | _, _ => True
  end.

Lemma to_outcome_diverge {A} (r : sres A) (k : state -> bytes -> A -> sres message) :
  r.2 = Diverge -> to_outcome (sbind r k).2 = PDiverge.
Proof. destruct r as [s r]. simpl. by intros ->. Qed.

Lemma same_record W1 W2 root e i1 i2 :
  after W1 root e i1 -> after W2 root e i2 ->
  ~ head_in [x0b; x0c; x15; x16] i1 -> ~ head_in [x0b; x0c; x15; x16] i2 ->
  (forall f s, same_result (parse_referenceable (S (S f)) s i1) (parse_referenceable (S (S f)) s i2)) ->
  forall m, deserialize W1 = POk m -> deserialize W2 = POk m.
Proof.
  intros Ha1 Ha2 Hh1 Hh2 Hsame m Hm.
  apply after_header in Ha1 as (ro & hb1 & body1 & Ero & He1 & -> & Ho1).
  apply after_header in Ha2 as (ro2 & hb2 & body2 & Ero2 & He2 & -> & Ho2).
  subst ro ro2. set (ro := if N.eqb root 0 then None else Some root) in *.
  set (F := S (S (2 * length (hb1 ++ body1) + 2 * length (hb2 ++ body2)))).
  destruct (run_prefix _ hb1 body1 e i1 F He1 Ho1) as (lf1 & Hlf1 & E1); [lia|].
  destruct (run_prefix _ hb2 body2 e i2 F He2 Ho2) as (lf2 & Hlf2 & E2); [lia|].
  pose proof (deserialize_safe (hb2 ++ body2)) as Hsafe2.
  rewrite E1 in Hm. rewrite E2 in *. clear E1 E2 He1 He2 Ho1 Ho2.
  destruct lf1 as [|lf1]; [lia|]. destruct lf2 as [|lf2]; [lia|].
  cbn [parse_referenceables] in *. pose proof (Hsame (2 * length (hb1 ++ body1) + 2 * length (hb2 ++ body2)) (st e)) as Hs.
  fold F in Hs. unfold same_result in Hs.
  destruct (parse_referenceable F (st e) i1) as [s1 [j1 a1|er1|er1|p1|]] eqn:P1; try done;
    destruct (parse_referenceable F (st e) i2) as [s2 [j2 a2|er2|er2|p2|]] eqn:P2; try done; simpl in Hs.
  - injection Hs as -> -> ->.
    assert (parse_referenceables lf1 F s2 j2 = parse_referenceables lf2 F s2 j2) as <-; [|done].
    destruct (decide (lf1 <= lf2)).
    + destruct (sle_referenceables lf1 lf2 F F s2 j2) as [Hd|Hd]; [done|done| |done].
      rewrite (to_outcome_diverge _ _ Hd) in Hm. done.
    + destruct (sle_referenceables lf2 lf1 F F s2 j2) as [Hd|Hd]; [lia|done| |done].
      rewrite (to_outcome_diverge _ _ Hd) in Hsafe2. done.
  - cbn [snd fst] in Hs. subst s2. cbn [sbind] in *.
    destruct (no_method_head F ro s1 i1) as [x1 Hx1]; [apply no_library_head; nohead|nohead|].
    destruct (no_method_head F ro s1 i2) as [x2 Hx2]; [apply no_library_head; nohead|nohead|].
    rewrite Hx1 in Hm. rewrite Hx2 in *. unfold sopt in *. cbn [fst snd opt sbind] in *.
    cbn [parse_referenceables] in *. pose proof (Hsame (2 * length (hb1 ++ body1) + 2 * length (hb2 ++ body2)) s1) as Hs.
    fold F in Hs. unfold same_result in Hs.
    destruct (parse_referenceable F s1 i1) as [s1' [j1 a1|er1'|er1'|p1|]] eqn:Q1; try done;
      destruct (parse_referenceable F s1 i2) as [s2' [j2 a2|er2'|er2'|p2|]] eqn:Q2; try done; simpl in Hs.
    + injection Hs as -> -> ->.
      assert (parse_referenceables (length i1) F s2' j2 = parse_referenceables (length i2) F s2' j2) as <-; [|done].
      destruct (decide (length i1 <= length i2)).
      * destruct (sle_referenceables (length i1) (length i2) F F s2' j2) as [Hd|Hd]; [done|done| |done].
        rewrite (to_outcome_diverge _ _ Hd) in Hm. done.
      * destruct (sle_referenceables (length i2) (length i1) F F s2' j2) as [Hd|Hd]; [lia|done| |done].
        rewrite (to_outcome_diverge _ _ Hd) in Hsafe2. done.
    + cbn [sbind] in *. rewrite message_end_error in Hm by nohead. done.
Qed.

(** Two messages in which, after any records (which may differ, as long as they define the same
    objects and libraries), an array follows that differs in the lower bounds only: the same
    messages come out, whatever follows. *)
Theorem C27_lower_bounds_irrelevant : forall W1 W2 root e aid bat lengths lb1 lb2 k hb1 hb2 rest m,
  after W1 root e (hb1 ++ rest) -> after W2 root e (hb2 ++ rest) ->
  e_binary_array_header aid bat lengths (Some lb1) k hb1 ->
  e_binary_array_header aid bat lengths (Some lb2) k hb2 ->
  (deserialize W1 = POk m <-> deserialize W2 = POk m).
Proof.
  assert (forall W1 W2 root e aid bat lengths lb1 lb2 k hb1 hb2 rest m,
    after W1 root e (hb1 ++ rest) -> after W2 root e (hb2 ++ rest) ->
    e_binary_array_header aid bat lengths (Some lb1) k hb1 ->
    e_binary_array_header aid bat lengths (Some lb2) k hb2 ->
    deserialize W1 = POk m -> deserialize W2 = POk m) as Hone.
  { intros W1 W2 root e aid bat lengths lb1 lb2 k hb1 hb2 rest m Ha1 Ha2 Hh1 Hh2.
    assert (exists c, hb1 = x07 :: c) as [c1 Ec1]
      by (destruct Hh1 as (? & ? & ? & ? & ? & _ & _ & _ & _ & _ & ->); eauto).
    assert (exists c, hb2 = x07 :: c) as [c2 Ec2]
      by (destruct Hh2 as (? & ? & ? & ? & ? & _ & _ & _ & _ & _ & ->); eauto).
    eapply same_record; [exact Ha1|exact Ha2|rewrite Ec1; hd|rewrite Ec2; hd|].
    intros f s. rewrite !ref_binary_array by (first [rewrite Ec1|rewrite Ec2]; hd).
    unfold parse_binary_array.
    rewrite (exact_ok binary_array_parse _
      (mkBinaryArray aid bat lengths (Some lb1) (kind_bt k) (kind_ai k)) hb1 rest binary_array_exact)
      by (by exists k).
    rewrite (exact_ok binary_array_parse _
      (mkBinaryArray aid bat lengths (Some lb2) (kind_bt k) (kind_ai k)) hb2 rest binary_array_exact)
      by (by exists k).
    cbn [ba_lengths ba_object_id ba_type_enum ba_additional_type_info].
    destruct (checked_product 1 lengths) as [n|]; [|done].
    match goal with |- same_result (ref_finish _ _ ?X) _ => destruct X as [s' [j a|er|er|p|]] end; done. }
  intros. split; by eapply Hone.
Qed.
(** A negative lower bound. *)
Theorem C27_negative_lower_bound : forall W root e aid bat lengths lsb lbs lbb z rest,
  after W root e (x07 :: enc_uint 4 aid ++ n2b (bat_code bat) :: lsb ++ lbb ++ enc_int 4 z ++ rest) ->
  valid_id aid -> e_counted e_len lengths lsb -> (3 <= bat_code bat)%N ->
  e_list e_len lbs lbb -> length lbs < length lengths -> fits_int 4 z -> (z < 0)%Z ->
  deserialize W = PErr (mkError (enc_int 4 z ++ rest) E_InvalidLength).
Proof.
  intros W root e aid bat lengths lsb lbs lbb z rest Ha Hid (b & Hrk & Hls & ->) Hbat Hlbs Hlt Hf Hz.
  rewrite <- app_assoc in Ha.
  eapply after_fail with (f := 2); [exact Ha|].
  rewrite ref_binary_array by hd. unfold parse_binary_array, binary_array_parse.
  change x07 with (n2b (rt_code RT_BinaryArray)). rewrite rt_ok, id_ok by done. cbn [bind].
  match goal with |- context [binary_array_type_parse (?c :: ?r)] => change (c :: r) with ([c] ++ r) end.
  rewrite (exact_ok binary_array_type_parse _ bat _ _ binary_array_type_exact eq_refl). cbn [bind].
  rewrite len_ok by done. cbn [bind].
  assert (nonempty_enc e_len) as Hne by (by intros a [_ Hx]).
  rewrite (exact_ok _ _ lengths b _ (exact_count (N.of_nat (length lengths)) length_parse e_len length_exact Hne)) by done.
  cbn [bind]. assert (has_offset bat = true) as -> by (destruct bat; vm_compute in Hbat; try done; by destruct Hbat).
  cbn [cond]. unfold count.
  rewrite (count_loop_fail length_parse e_len lbs lbb _ (mkError (enc_int 4 z ++ rest) E_InvalidLength)); try done.
  - exact length_exact.
  - by apply length_bad.
  - apply e_list_length in Hlbs; [|done]. rewrite app_length. lia.
  - lia.
Qed.
Example C27_ex : forall m,
  deserialize (header_bytes 1 (-1) ++ ex_record ++ ex_2x2 [1; 7]%N ++ ex_4ints ++ [x0b]) = POk m
  <-> deserialize (header_bytes 1 (-1) ++ ex_record ++ ex_2x2 [0; 0]%N ++ ex_4ints ++ [x0b]) = POk m.
Proof.
  intros m. eapply (C27_lower_bounds_irrelevant _ _ 1 ex_env 1 BAT_RectangularOffset [2; 2]%N [1; 7]%N [0; 0]%N (K_Primitive PT_Int32));
    [by apply ex_after|by apply ex_after|by apply ex_2x2_ok|by apply ex_2x2_ok].
Qed.

(** ** C29 Null runs are positive *)

(** Members that may be null. *)
Definition may_be_null (e : env) (k : kind) : Prop :=
  match k with
  | K_Any | K_Object | K_ObjectArray | K_StringArray | K_SystemClass _ => True
  | K_Class _ lid => is_Some (e_libs e !! lid)
  | _ => False
  end.
Lemma null_stops k e i err :
  may_be_null e k -> head_in [x0a; x0d; x0e] i -> parse_null_object i = Fail err ->
  site_stops (Site_member k e i) (st e) (S_Fail err).
Proof.
  intros Hk Hh Hn. assert (null_kind k \/ ~ null_kind k) as [Hk2|Hk2] by (destruct k; simpl; tauto).
  { apply ev_const. intros f. rewrite member_null; [by rewrite Hn|done|done|]. intros er. by rewrite Hn. }
  destruct (classes_no_head e i) as [er4 H4]; [hd|].
  exists 1. intros f Hf. destruct f as [|f]; [lia|]. rewrite member_typed; [|by intros ->; apply Hk2|hd].
  destruct k; simpl in Hk2; try tauto; try done; cbn [kind_bt kind_ai].
  - unfold class_or_null. by rewrite H4, Hn.
  - destruct Hk as [l Hl]. cbn [cti_library_id st st_libs]. rewrite Hl. unfold class_or_null. by rewrite H4, Hn.
Qed.
Theorem C29_null_count_256 : forall W k e rest,
  inside false W (Site_member k e (x0d :: x00 :: rest)) -> may_be_null e k ->
  deserialize W = PErr (mkError (x00 :: rest) E_InvalidNullCount).
Proof.
  intros W k e rest Hi Hk. eapply inside_fail; [exact Hi|]. apply null_stops; [done|hd|].
  unfold parse_null_object.
  rewrite alt_skip by (apply rmap_err, (rt_err RT_ObjectNull); hd).
  rewrite alt_skip by (apply rmap_err, (rt_err RT_ObjectNullMultiple); hd).
  unfold object_null_multiple_256. change x0d with (n2b (rt_code RT_ObjectNullMultiple256)). rewrite rt_ok.
  change (x00 :: rest) with (enc_uint 1 0 ++ rest).
  rewrite (exact_ok byte_parse _ 0%N _ _ byte_exact) by done. done.
Qed.
Theorem C29_null_count : forall W k e z rest,
  inside false W (Site_member k e (x0e :: enc_int 4 z ++ rest)) -> may_be_null e k ->
  fits_int 4 z -> (z <= 0)%Z ->
  deserialize W = PErr (mkError (enc_int 4 z ++ rest) E_InvalidNullCount).
Proof.
  intros W k e z rest Hi Hk Hf Hz. eapply inside_fail; [exact Hi|]. apply null_stops; [done|hd|].
  unfold parse_null_object.
  rewrite alt_skip by (apply rmap_err, (rt_err RT_ObjectNull); hd).
  unfold object_null_multiple. change x0e with (n2b (rt_code RT_ObjectNullMultiple)). rewrite rt_ok.
  rewrite int32_ok by done. by destruct (Z.ltb_spec 0 z); [lia|].
Qed.
(** Positive counts: an array that consists of one run. *)
Theorem C29_positive_count : forall W root e code k hb nb n,
  after W root e (hb ++ nb ++ [x0b]) -> array_kind code k -> e_array_header code root n hb ->
  e_null n nb -> (0 < n)%N ->
  deserialize W = POk (MValue (VArray (replicate (N.to_nat n) VNull))).
Proof.
  intros W root e code k hb nb n Ha Hk Hh Hn Hpos.
  destruct (C25_array_of_items W root e code k hb nb [It_Nulls n] n) as (vs & H & -> & _); try done.
  - rewrite <- (app_nil_r nb). apply e_cons; [|apply e_nil].
    destruct Hk as [[_ ->]|[_ ->]]; [right; right; right|right; right]; by exists n.
  - constructor; [done|constructor].
  - right. exists [], (It_Nulls n). split; [done|]. cbn. lia.
  - rewrite H. simpl. by rewrite app_nil_r.
Qed.
Example C29_ex :
  deserialize (header_bytes 1 (-1) ++ ex_record ++ (x10 :: enc_uint 4 1 ++ enc_uint 4 2) ++ [x0a] ++ x0e :: enc_int 4 (-3) ++ [x0b])
  = PErr (mkError (enc_int 4 (-3) ++ [x0b]) E_InvalidNullCount).
Proof.
  eapply (C29_null_count _ K_Any ex_env (-3)); [|done|split; vm_compute; congruence|lia].
  exists 1%N, ex_env. eexists. split; [by apply ex_after|].
  eapply (RR_array x10 K_Any _ _ 1 2 _ _ [It_Nulls 1]); [by left|by apply ex_header| |done|apply RM_here].
  apply (simple_items [It_Nulls 1] [x0a]). rewrite <- (app_nil_r [x0a]). apply e_cons; [|apply e_nil].
  right; right; right. exists 1%N. split; [done|]. by left.
Qed.

(** ** C30 Member names keep their own values in the presence of null runs *)

Lemma items_long its bs : e_list (simple_item K_Any) its bs -> no_refs its ->
  length its <= length (concat (map item_values its)).
Proof.
  induction 1 as [|it its b bs Hb _ IH]; intros Hn; [done|]. inv Hn.
  cbn [length map concat]. rewrite app_length. specialize (IH H2).
  enough (1 <= length (item_values it)) by lia.
  destruct it as [v|n|id]; cbn [item_values length]; [lia| |by destruct (H1 id)].
  rewrite replicate_length.
  destruct Hb as [(v & ? & _)|[(id & ? & _)|[(id & s & ? & _)|(n' & [= <-] & Hn)]]]; try done.
  destruct Hn as [[-> _]|[[? _]|[? _]]]; lia.
Qed.
(** What the code does, for any members and null runs: names and expanded values are paired in
    order, values left over are dropped. *)
Theorem C30_members_in_order : forall W root e h hb its mb,
  after W root e (hb ++ mb ++ [x0b]) -> e_class_header h hb -> ch_types h = None -> ch_library h = None ->
  ch_object_id h = root -> NoDup (ch_member_names h) ->
  e_list (simple_item K_Any) its mb -> no_refs its -> length its = length (ch_member_names h) ->
  deserialize W
  = POk (MValue (VObject (mkObj (ch_name h) None (zip (ch_member_names h) (concat (map item_values its)))))).
Proof.
  intros W root e h hb its mb Ha Hh Ht Hl Hid Hnd Hm Hn Hlen.
  assert (valid_id root) as Hr.
  { destruct Hh as (b1 & ? & ? & ? & ? & [Hv _] & _). by rewrite Hid in Hv. }
  eapply after_root; [exact Ha|by apply valid_id_pos|]. apply G_rec_object. rewrite <- Hid.
  rewrite <- (hm_from_iter_distinct (zip (ch_member_names h) _)).
  2:{ change (map fst ?l) with (l.*1). rewrite fst_zip; [done|]. rewrite <- Hlen. by eapply items_long. }
  eapply G_class; [|exact Hh| | |by apply resolve_no_refs].
  - apply G_lib_none. apply no_library_head. pose proof (class_header_head h hb (mb ++ [x0b]) Hh). hd.
  - unfold class_library. by rewrite Hl.
  - unfold member_kinds. rewrite Ht, <- Hlen. by apply simple_items.
Qed.
(** With no run longer than 1 every name keeps its own value. *)
Theorem C30_without_runs : forall W root e h hb its mb,
  after W root e (hb ++ mb ++ [x0b]) -> e_class_header h hb -> ch_types h = None -> ch_library h = None ->
  ch_object_id h = root -> NoDup (ch_member_names h) ->
  e_list (simple_item K_Any) its mb -> no_refs its -> length its = length (ch_member_names h) ->
  Forall (fun it => item_size it = 1%N) its ->
  exists ms, deserialize W = POk (MValue (VObject (mkObj (ch_name h) None ms)))
    /\ forall j k it, ch_member_names h !! j = Some k -> its !! j = Some it ->
         ms !! j = Some (k, match it with It_Value v => v | _ => VNull end).
Proof.
  intros W root e h hb its mb Ha Hh Ht Hl Hid Hnd Hm Hn Hlen Hone.
  eexists. split; [by eapply C30_members_in_order|]. intros j k it Hk Hit.
  clear -Hn Hone Hk Hit. revert Hk Hit. generalize (ch_member_names h) as names. clear h. revert j.
  induction its as [|it' its IH]; intros j names Hk Hit; [done|]. inv Hn. inv Hone. destruct names as [|n names]; [done|].
  assert (item_values it' = [match it' with It_Value v => v | _ => VNull end]) as E.
  { destruct it' as [v|n'|id]; [done| |by destruct (H1 id)]. cbn [item_size] in H3. by subst n'. }
  cbn [map concat]. rewrite E. cbn [app]. destruct j as [|j]; [by injection Hk as <-; injection Hit as <-|]. cbn in *. by apply IH.
Qed.
(** A class "A" with the members a, b, c: a run of 2 nulls, 7 and 8. *)
Definition ex_abc : class_header := mkClassHeader 1 (bs_of [65]%N) [bs_of [97]; bs_of [98]; bs_of [99]]%N None None.
Definition ex_abc_bytes : bytes := bs_of [2; 1;0;0;0; 1;65; 3;0;0;0; 1;97; 1;98; 1;99]%N.
Lemma ex_abc_ok : e_class_header ex_abc ex_abc_bytes.
Proof.
  exists (enc_uint 4 1), (bs_of [1; 65]%N), (bs_of [3;0;0;0; 1;97; 1;98; 1;99]%N), [], [].
  split; [done|]. split; [apply (ex_str [65]%N); [repeat constructor|simpl; lia]|]. split.
  - exists (bs_of [1;97; 1;98; 1;99]%N). split; [done|]. split; [|done].
    change (bs_of [1;97; 1;98; 1;99]%N) with (bs_of [1;97]%N ++ bs_of [1;98]%N ++ bs_of [1;99]%N ++ []).
    apply e_cons; [apply (ex_str [97]%N); [repeat constructor|simpl; lia]|].
    apply e_cons; [apply (ex_str [98]%N); [repeat constructor|simpl; lia]|].
    apply e_cons; [apply (ex_str [99]%N); [repeat constructor|simpl; lia]|]. apply e_nil.
  - done.
Qed.
Definition ex_run : list item := [It_Nulls 2; It_Value (VInt32 7); It_Value (VInt32 8)].
Definition ex_run_bytes : bytes := bs_of [13; 2; 8; 8; 7;0;0;0; 8; 8; 8;0;0;0]%N.
Lemma ex_run_ok : e_list (simple_item K_Any) ex_run ex_run_bytes.
Proof.
  change ex_run_bytes with (bs_of [13; 2]%N ++ bs_of [8; 8; 7;0;0;0]%N ++ bs_of [8; 8; 8;0;0;0]%N ++ []).
  apply e_cons; [right; right; right; exists 2%N; split; [done|]; right; right; done|].
  apply e_cons; [|apply e_cons; [|apply e_nil]].
  - left. eexists. split; [reflexivity|]. exists PT_Int32, (enc_int 4 7). split; [done|]. split; [|done].
    split; [|done]. split; vm_compute; congruence.
  - left. eexists. split; [reflexivity|]. exists PT_Int32, (enc_int 4 8). split; [done|]. split; [|done].
    split; [|done]. split; vm_compute; congruence.
Qed.
Lemma ex_abc_nodup : NoDup (ch_member_names ex_abc).
Proof. apply (bool_decide_unpack _). vm_compute. exact I. Qed.
Example C30_ex_shifted :
  deserialize (header_bytes 1 (-1) ++ ex_record ++ ex_abc_bytes ++ ex_run_bytes ++ [x0b])
  = POk (MValue (VObject (mkObj (bs_of [65]%N) None
      [(bs_of [97], VNull); (bs_of [98], VNull); (bs_of [99], VInt32 7)]%N))).
Proof.
  eapply (C30_members_in_order _ 1 ex_env ex_abc _ ex_run);
    [by apply ex_after|apply ex_abc_ok|done|done|done|apply ex_abc_nodup|apply ex_run_ok|by repeat constructor|done].
Qed.
Theorem C30_own_values_refuted : ~ forall W root e h hb its mb o,
  after W root e (hb ++ mb ++ [x0b]) -> e_class_header h hb -> ch_types h = None -> ch_library h = None ->
  ch_object_id h = root -> NoDup (ch_member_names h) ->
  e_list (simple_item K_Any) its mb -> length its = length (ch_member_names h) ->
  deserialize W = POk (MValue (VObject o)) ->
  forall j k v, ch_member_names h !! j = Some k -> its !! j = Some (It_Value v) -> (k, v) ∈ obj_members o.
Proof.
  intros H.
  pose proof (H _ 1%N ex_env ex_abc _ ex_run ex_run_bytes _ ltac:(by apply ex_after) ex_abc_ok eq_refl eq_refl eq_refl
    ex_abc_nodup ex_run_ok eq_refl C30_ex_shifted 1 (bs_of [98]%N) (VInt32 7) eq_refl eq_refl) as Hin.
  cbn [obj_members] in Hin. repeat (apply elem_of_cons in Hin as [Hin|Hin]; [discriminate Hin|]).
  by apply elem_of_nil in Hin.
Qed.

(** ** C31 A typed class member has the declared class and library *)

(** Positions where a member is declared with a class, at any depth (but not inside the object of
    another such member, where the error becomes another one). *)
Theorem C31_wrong_system_class : forall W n e i id o e' i',
  inside false W (Site_member (K_SystemClass n) e i) -> no_library i -> g_class e i id o e' i' ->
  obj_class o <> n \/ obj_library o <> None ->
  deserialize W = PErr (mkError i' E_UnexpectedClass).
Proof.
  intros W n e i id o e' i' Hi Hnl Hg Hne. eapply inside_fail; [exact Hi|].
  exists (2 * length i + 1). intros f Hf. cbn [parse_member]. unfold parse_member_typed.
  rewrite parse_binary_library_none by done. cbn [sbind kind_bt kind_ai]. unfold class_or_null.
  destruct g_complete as (Hc & _). rewrite (Hc _ _ _ _ _ _ Hg) by done.
  match goal with |- context [if ?c then _ else _] => assert (c = false) as Hc2 end; [|by rewrite Hc2].
  apply andb_false_iff. destruct Hne as [Hne|Hne].
  - left. unfold str_eqb. by apply bool_decide_eq_false_2.
  - right. by apply bool_decide_eq_false_2.
Qed.
Theorem C31_wrong_class : forall W n lid l e i id o e' i',
  inside false W (Site_member (K_Class n lid) e i) -> no_library i -> e_libs e !! lid = Some l ->
  g_class e i id o e' i' -> obj_class o <> n \/ obj_library o <> Some l ->
  deserialize W = PErr (mkError i' E_UnexpectedClass).
Proof.
  intros W n lid l e i id o e' i' Hi Hnl Hl Hg Hne. eapply inside_fail; [exact Hi|].
  exists (2 * length i + 1). intros f Hf. cbn [parse_member]. unfold parse_member_typed.
  rewrite parse_binary_library_none by done. cbn [sbind kind_bt kind_ai cti_library_id cti_type_name st st_libs]. rewrite Hl.
  unfold class_or_null.
  destruct g_complete as (Hc & _). rewrite (Hc _ _ _ _ _ _ Hg) by done.
  match goal with |- context [if ?c then _ else _] => assert (c = false) as Hc2 end; [|by rewrite Hc2].
  apply andb_false_iff. destruct Hne as [Hne|Hne].
  - left. unfold str_eqb. by apply bool_decide_eq_false_2.
  - right. by apply bool_decide_eq_false_2.
Qed.
(** Anything else than an object or a null, in particular a reference or a string. *)
Theorem C31_no_class : forall W root e i b k e1 rest,
  after W root e i -> reach_record b e i (Site_member k e1 rest) -> e1 = e ->
  match k with K_SystemClass _ => True | K_Class _ lid => is_Some (e_libs e !! lid) | _ => False end ->
  match rest with
  | x01 :: _ | x02 :: _ | x03 :: _ | x04 :: _ | x05 :: _ | x0a :: _ | x0c :: _ | x0d :: _ | x0e :: _ => False
  | _ => True
  end ->
  deserialize W = PErr (mkError i (E_ExpectedRecordType RT_MessageEnd)).
Proof.
  intros W root e i b k e1 rest Ha Hr -> Hk Hrest.
  assert (~ head_in [x01; x02; x03; x04; x05; x0a; x0c; x0d; x0e] rest) as Hh.
  { destruct rest as [|c rest]; [by intros []|]. simpl. intros Hc.
    repeat (apply elem_of_cons in Hc as [->|Hc]; [done|]). by apply elem_of_nil in Hc. }
  destruct (parse_null_object_err rest) as [er1 H1]; [nohead|].
  destruct (classes_no_head e rest) as [er4 H4]; [nohead|].
  eapply (reach_stuck _ _ _ _ _ _ (S_Err er1)); [exact Ha|exact Hr| |exact I].
  exists 1. intros f Hf. destruct f as [|f]; [lia|].
  destruct k; try done; (rewrite member_typed; [|done|nohead]); cbn [kind_bt kind_ai].
  - unfold class_or_null. by rewrite H4, H1.
  - destruct Hk as [l Hl]. cbn [cti_library_id st st_libs]. rewrite Hl. unfold class_or_null. by rewrite H4, H1.
Qed.
(** A class member of a library that was not declared. *)
Theorem C31_unknown_library : forall W n lid e i,
  inside false W (Site_member (K_Class n lid) e i) -> no_library i -> e_libs e !! lid = None ->
  deserialize W = PErr (mkError i E_MissingLibraryId).
Proof.
  intros W n lid e i Hi Hnl Hl. eapply inside_fail; [exact Hi|]. apply ev_const. intros f.
  cbn [parse_member]. unfold parse_member_typed. rewrite parse_binary_library_none by done.
  cbn [sbind kind_bt kind_ai cti_library_id st st_libs]. by rewrite Hl.
Qed.

(** A class "A" with one member "a", declared with the system class "Z". *)
Definition ex_typed : class_header :=
  mkClassHeader 1 (bs_of [65]%N) [bs_of [97]%N] (Some [K_SystemClass (bs_of [90]%N)]) None.
Definition ex_typed_bytes : bytes := bs_of [4; 1;0;0;0; 1;65; 1;0;0;0; 1;97; 3; 1;90]%N.
Lemma ex_typed_ok : e_class_header ex_typed ex_typed_bytes.
Proof.
  exists (enc_uint 4 1), (bs_of [1; 65]%N), (bs_of [1;0;0;0; 1;97]%N), (bs_of [3; 1;90]%N), [].
  split; [done|]. split; [apply (ex_str [65]%N); [repeat constructor|simpl; lia]|]. split.
  - exists (bs_of [1;97]%N). split; [done|]. split; [|done].
    rewrite <- (app_nil_r (bs_of [1;97]%N)). apply e_cons; [apply (ex_str [97]%N); [repeat constructor|simpl; lia]|apply e_nil].
  - split; [|done]. exists [x03], (bs_of [1; 90]%N). split; [done|]. split; [|split; [|done]].
    + rewrite <- (app_nil_r [x03]). apply e_cons; [done|apply e_nil].
    + rewrite <- (app_nil_r (bs_of [1;90]%N)). apply e_cons; [|apply e_nil].
      apply (ex_str [90]%N); [repeat constructor|simpl; lia].
Qed.
Lemma ex_typed_reach rest :
  reach_record false ex_env (ex_typed_bytes ++ rest) (Site_member (K_SystemClass (bs_of [90]%N)) ex_env rest).
Proof.
  apply RR_class; [simpl; ex_in|].
  eapply (RC_member _ _ _ _ _ _ ex_typed None [] _ []); [by apply G_lib_none|apply ex_typed_ok|done|done|constructor|apply RM_here].
Qed.
(** An inline object of the class "B". *)
Example C31_ex_wrong :
  deserialize (header_bytes 1 (-1) ++ ex_record ++ ex_typed_bytes ++ (ex_inner_bytes ++ [x0a]) ++ [x0b])
  = PErr (mkError [x0b] E_UnexpectedClass).
Proof.
  eapply (C31_wrong_system_class _ (bs_of [90]%N) ex_env).
  - exists 1%N, ex_env. eexists. split; [by apply ex_after|apply ex_typed_reach].
  - done.
  - apply (tree_class ex_env ex_inner None ex_inner_bytes [VNull] [x0a] [x0b]); [apply ex_inner_header| |done|].
    + repeat constructor. by intros H%elem_of_nil.
    + split; [done|]. simpl zip. rewrite <- (app_nil_r [x0a]). apply e_cons; [|apply e_nil]. by apply T_null.
  - by left.
Qed.
(** A reference. *)
Example C31_ex_reference : exists err,
  deserialize (header_bytes 1 (-1) ++ ex_record ++ ex_typed_bytes ++ (x09 :: enc_uint 4 5) ++ [x0b]) = PErr err.
Proof.
  eexists. eapply (C31_no_class _ 1 ex_env _ false (K_SystemClass (bs_of [90]%N)) ex_env);
    [by apply ex_after|apply ex_typed_reach|done|done|done].
Qed.

End with_decimal.
