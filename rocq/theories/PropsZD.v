(** * PropsZD: C77. *)
From Verif Require Import Base Utf8 Value DataTypes Records Parser Wire BaseLemmas DataTypesLemmas
  RecordsLemmas Grammar Heads Complete Message Run Spec LemmasA LemmasB LemmasC Positions Reach LemmasD Trees TreeLemmas
  PropsB PropsC PropsD PropsF Declared.
From Coq Require Import Lia.

Section with_decimal.
Context {DL : DecimalLib}.

(** ** C77 Members may be references or nulls, whatever their declared type *)

(** [one_member W e h lib vs1 k member vs2 rest]: [W] consists of any records, after which the tables
    are [e], the record of the root object with the class header [h] and the library [lib], and [rest].  Of its
    members, one is declared as [k] and written as [member]; the ones before it have the values
    [vs1], the ones after it [vs2] (and are written without references). *)
Definition one_member (W : bytes) (e : env) (h : class_header) (lib : option str) (vs1 : list value) (k : kind)
  (member : bytes) (vs2 : list value) (rest : bytes) : Prop :=
  exists hb ks1 b1 ks2 b2,
    after W (ch_object_id h) e (hb ++ b1 ++ member ++ b2 ++ rest)
    /\ e_class_header h hb /\ NoDup (ch_member_names h) /\ library_named (e_libs e) h lib
    /\ kinds_of h = ks1 ++ k :: ks2 /\ trees (e_libs e) ks1 vs1 b1 /\ trees (e_libs e) ks2 vs2 b2.
(** The result if the member has the value [v]. *)
Definition with_member (h : class_header) (lib : option str) (vs1 : list value) (v : value) (vs2 : list value) : message :=
  MValue (VObject (mkObj (ch_name h) lib (zip (ch_member_names h) (vs1 ++ v :: vs2)))).

Lemma items_app ks1 ks2 e i its1 e1 i1 its2 e2 i2 :
  g_items ks1 e i its1 e1 i1 -> g_items ks2 e1 i1 its2 e2 i2 -> g_items (ks1 ++ ks2) e i (its1 ++ its2) e2 i2.
Proof.
  intros H1 H2. revert e i its1 H1. induction ks1 as [|k ks1 IH]; intros e i its1 H1; inversion H1; subst; [done|].
  cbn [app]. eapply G_items_cons; [done|]. by apply IH.
Qed.
Lemma resolve_trees_app vs its e i us e' i' :
  g_resolve its e i us e' i' -> g_resolve (map tree_item vs ++ its) e i (vs ++ us) e' i'.
Proof.
  intros H. induction vs as [|v vs IH]; [done|]. cbn [map app].
  destruct v; try (by constructor). cbn [tree_item]. by apply (G_res_nulls 1 _ _ _ (vs ++ us)).
Qed.
Lemma one_member_result W e h lib vs1 k member vs2 rest it v e' :
  one_member W e h lib vs1 k member vs2 rest ->
  (forall i, g_member k e (member ++ i) it e i) -> g_resolve (it :: map tree_item vs2) e rest (v :: vs2) e' [x0b] ->
  deserialize W = POk (with_member h lib vs1 v vs2).
Proof.
  intros (hb & ks1 & b1 & ks2 & b2 & Ha & Hh & Hnd & Hlib & Hk & H1 & H2) Hm Hr.
  pose proof (kinds_length h hb Hh) as Hl. rewrite Hk in Hl.
  assert (length (ch_member_names h) = length (vs1 ++ v :: vs2)) as Hlen.
  { destruct H1 as [E1 _], H2 as [E2 _]. rewrite <- Hl, !app_length. cbn. lia. }
  assert (valid_id (ch_object_id h)) as Hid by (destruct Hh as (x1 & ? & ? & ? & ? & [Hv _] & _); done).
  eapply after_root; [exact Ha|by apply valid_id_pos|]. apply G_rec_object.
  rewrite <- (hm_from_iter_distinct (zip (ch_member_names h) (vs1 ++ v :: vs2))) by (rewrite map_fst_zip by lia; done).
  eapply (G_class _ _ e _ _ h lib (map tree_item vs1 ++ it :: map tree_item vs2) e rest).
  - apply G_lib_none. apply no_library_head. pose proof (class_header_head h hb (b1 ++ member ++ b2 ++ rest) Hh). hd.
  - done.
  - done.
  - change (member_kinds h) with (kinds_of h). rewrite Hk.
    eapply items_app; [by apply trees_items|]. eapply G_items_cons; [apply Hm|]. by apply trees_items.
  - by apply resolve_trees_app.
Qed.

(** What holds.  References to objects that were read before, or that follow, are accepted as
    members declared as objects or as arrays; *)
Theorem C77_reference_partial : forall W e h lib vs1 k id vs2 rest v,
  one_member W e h lib vs1 k (x09 :: enc_uint 4 id) vs2 rest ->
  match k with K_Object | K_ObjectArray | K_StringArray | K_PrimitiveArray _ => True | _ => False end ->
  valid_id id ->
  (e_objs e !! id = Some v /\ rest = [x0b]) \/ (e_objs e !! id = None /\ exists e', g_record e rest id v e' [x0b]) ->
  deserialize W = POk (with_member h lib vs1 v vs2).
Proof.
  intros W e h lib vs1 k id vs2 rest v Ho Hk Hid Hv.
  assert (exists e', g_resolve (It_Ref id :: map tree_item vs2) e rest (v :: vs2) e' [x0b]) as [e' Hr].
  { destruct Hv as [[Hv ->]|[Hv (e' & Hr)]]; eexists; [eapply G_res_known; [done|apply resolve_trees]|].
    eapply G_res_next; [done|done|apply resolve_trees]. }
  eapply one_member_result; [exact Ho| |exact Hr]. intros i.
  assert (ref_item (It_Ref id) (x09 :: enc_uint 4 id)) as Hi by (exists id; split; [done|]; by exists (enc_uint 4 id)).
  assert (g_member K_Any e ((x09 :: enc_uint 4 id) ++ i) (It_Ref id) e i) as Hany.
  { eapply G_simple; [by apply G_lib_none|done|]. cbn. tauto. }
  destruct k; try done.
  all: try (eapply G_nested; [tauto|by apply G_lib_none|done]).
  all: eapply G_simple; [by apply G_lib_none|done|]; cbn; tauto.
Qed.
(** nulls are accepted as members declared as objects, as object or string arrays, or with a class. *)
Theorem C77_null_partial : forall W e h lib vs1 k vs2,
  one_member W e h lib vs1 k [x0a] vs2 [x0b] ->
  match k with
  | K_Object | K_ObjectArray | K_StringArray | K_SystemClass _ => True
  | K_Class _ lid => is_Some (e_libs e !! lid)
  | _ => False
  end ->
  deserialize W = POk (with_member h lib vs1 VNull vs2).
Proof.
  intros W e h lib vs1 k vs2 Ho Hk. eapply one_member_result; [exact Ho| |apply (G_res_nulls 1 _ _ _ vs2), resolve_trees].
  intros i. apply (tree_member (e_libs e) k VNull); [|done]. apply T_null. by destruct k.
Qed.
(** The rest is rejected, at any depth: a reference as a member declared as a string or with a class, *)
Theorem C77_reference_rejected : forall W root e i b k rest,
  after W root e i -> reach_record b e i (Site_member k e (x09 :: rest)) ->
  match k with
  | K_String | K_SystemClass _ => True
  | K_Class _ lid => is_Some (e_libs e !! lid)
  | _ => False
  end ->
  deserialize W = PErr (mkError i (E_ExpectedRecordType RT_MessageEnd)).
Proof.
  intros W root e i b k rest Ha Hr Hk. destruct k; try done.
  - by eapply C38_no_string.
  - by eapply C31_no_class.
  - by eapply C31_no_class.
Qed.
(** and a null as a member declared as a string or as an array of primitive values. *)
Theorem C77_null_rejected : forall W root e i b k c rest,
  after W root e i -> reach_record b e i (Site_member k e (c :: rest)) -> c = x0a \/ c = x0d \/ c = x0e ->
  match k with K_String | K_PrimitiveArray _ => True | _ => False end ->
  deserialize W = PErr (mkError i (E_ExpectedRecordType RT_MessageEnd)).
Proof.
  intros W root e i b k c rest Ha Hr Hc Hk. destruct k; try done.
  - eapply C38_no_string; [done|exact Hr|]. by destruct Hc as [-> | [-> | ->]].
  - assert (exists err, forall f, parse_member (parse_classes f) (K_PrimitiveArray p) (st e) (c :: rest) = (st e, Err err)) as [err H].
    { destruct (parse_ref_member_err (c :: rest)) as [er He]; [destruct Hc as [-> | [-> | ->]]; hd|].
      exists er. intros f. rewrite member_typed; [|done|destruct Hc as [-> | [-> | ->]]; hd]. cbn [kind_bt kind_ai]. by rewrite He. }
    eapply (reach_stuck _ _ _ _ _ _ (S_Err err)); [exact Ha|exact Hr| |exact I]. by apply ev_const.
Qed.

(** The property itself is false of the code.  A root object "A" with a member "a" declared with the
    class "Z", and before it an object 5 of this class, without members: *)
Definition ex_z : class_header := mkClassHeader 5 (bs_of [90]%N) [] (Some []) None.
Definition ex_z_bytes : bytes := bs_of [4; 5;0;0;0; 1;90; 0;0;0;0]%N.
Lemma ex_z_ok : e_class_header ex_z ex_z_bytes.
Proof.
  exists (enc_uint 4 5), (bs_of [1; 90]%N), (bs_of [0;0;0;0]%N), [], [].
  split; [done|]. split; [apply (ex_str [90]%N); [repeat constructor|simpl; lia]|]. split.
  - exists []. split; [done|]. split; [apply e_nil|done].
  - split; [|done]. exists [], []. split; [done|]. split; [apply e_nil|]. split; [apply e_nil|done].
Qed.
Definition ex_z_object : value := VObject (mkObj (bs_of [90]%N) None []).
Definition ex_z_env : env := add_obj 5 ex_z_object empty_env.
Lemma ex_z_after root rest : (root < 2 ^ 31)%N -> after (header_bytes root (-1) ++ ex_z_bytes ++ rest) root ex_z_env rest.
Proof.
  intros Hr. apply (after_step _ _ empty_env (ex_z_bytes ++ rest)).
  - apply after_start; [done|apply hid_ok].
  - apply G_rec_object. rewrite <- (app_nil_r ex_z_bytes).
    apply (tree_class empty_env ex_z None ex_z_bytes [] [] rest); [apply ex_z_ok|constructor|done|].
    split; [done|apply e_nil].
Qed.
Lemma ex_typed_one member rest :
  one_member (header_bytes 1 (-1) ++ ex_z_bytes ++ ex_typed_bytes ++ member ++ rest) ex_z_env ex_typed None []
    (K_SystemClass (bs_of [90]%N)) member [] rest.
Proof.
  exists ex_typed_bytes, [], [], [], []. split; [by apply ex_z_after|]. split; [apply ex_typed_ok|].
  split; [repeat constructor; by intros ?%elem_of_nil|]. split; [done|]. split; [done|].
  split; (split; [done|apply e_nil]).
Qed.
Theorem C77_reference_refuted : ~ forall W e h lib vs1 k id vs2 v,
  one_member W e h lib vs1 k (x09 :: enc_uint 4 id) vs2 [x0b] -> by_record k -> valid_id id ->
  e_objs e !! id = Some v -> of_type (e_libs e) k v ->
  deserialize W = POk (with_member h lib vs1 v vs2).
Proof.
  intros H.
  specialize (H _ _ _ _ _ _ _ _ ex_z_object (ex_typed_one (x09 :: enc_uint 4 5) [x0b]) I ltac:(done) eq_refl ltac:(by eexists)).
  vm_compute in H. discriminate H.
Qed.
(** A root object "A" with a member "a" declared as an array of Int32: *)
Definition ex_ints : class_header := mkClassHeader 1 (bs_of [65]%N) [bs_of [97]%N] (Some [K_PrimitiveArray PT_Int32]) None.
Definition ex_ints_bytes : bytes := bs_of [4; 1;0;0;0; 1;65; 1;0;0;0; 1;97; 7; 8]%N.
Lemma ex_ints_ok : e_class_header ex_ints ex_ints_bytes.
Proof.
  exists (enc_uint 4 1), (bs_of [1; 65]%N), (bs_of [1;0;0;0; 1;97]%N), (bs_of [7; 8]%N), [].
  split; [done|]. split; [apply (ex_str [65]%N); [repeat constructor|simpl; lia]|]. split.
  - exists (bs_of [1;97]%N). split; [done|]. split; [|done].
    rewrite <- (app_nil_r (bs_of [1;97]%N)). apply e_cons; [apply (ex_str [97]%N); [repeat constructor|simpl; lia]|apply e_nil].
  - split; [|done]. exists [x07], [x08]. split; [done|]. split; [|split; [|done]].
    + rewrite <- (app_nil_r [x07]). apply e_cons; [done|apply e_nil].
    + rewrite <- (app_nil_r [x08]). apply e_cons; [done|apply e_nil].
Qed.
Lemma ex_ints_one member rest :
  one_member (header_bytes 1 (-1) ++ ex_record ++ ex_ints_bytes ++ member ++ rest) ex_env ex_ints None []
    (K_PrimitiveArray PT_Int32) member [] rest.
Proof.
  exists ex_ints_bytes, [], [], [], []. split; [by apply ex_after|]. split; [apply ex_ints_ok|].
  split; [repeat constructor; by intros ?%elem_of_nil|]. split; [done|]. split; [done|].
  split; (split; [done|apply e_nil]).
Qed.
Theorem C77_null_refuted : ~ forall W e h lib vs1 k vs2,
  one_member W e h lib vs1 k [x0a] vs2 [x0b] -> by_record k ->
  match k with K_Class _ lid => is_Some (e_libs e !! lid) | _ => True end ->
  deserialize W = POk (with_member h lib vs1 VNull vs2).
Proof.
  intros H. specialize (H _ _ _ _ _ _ _ (ex_ints_one [x0a] [x0b]) I I). vm_compute in H. discriminate H.
Qed.
Example C77_ex :
  deserialize (header_bytes 1 (-1) ++ ex_record ++ ex_ints_bytes ++ (x09 :: enc_uint 4 7)
    ++ (x0f :: enc_uint 4 7 ++ enc_uint 4 1 ++ [x08] ++ enc_int 4 13) ++ [x0b])
  = POk (with_member ex_ints None [] (VArray [VInt32 13]) []).
Proof.
  eapply (C77_reference_partial _ ex_env ex_ints None [] (K_PrimitiveArray PT_Int32) 7 []); [apply ex_ints_one|done|done|].
  right. split; [done|]. eexists. apply (G_rec_prims ex_env [x0b] 7 PT_Int32 [VInt32 13]).
  exists (x0f :: enc_uint 4 7 ++ enc_uint 4 1), (enc_int 4 13). split; [by exists (enc_uint 4 7), (enc_uint 4 1)|].
  split; [by repeat constructor|]. split; [|done].
  rewrite <- (app_nil_r (enc_int 4 13)). apply e_cons; [done|apply e_nil].
Qed.
Example C77_ex_null :
  deserialize (header_bytes 1 (-1) ++ ex_z_bytes ++ ex_typed_bytes ++ [x0a] ++ [x0b])
  = POk (with_member ex_typed None [] VNull []).
Proof. eapply (C77_null_partial _ ex_z_env ex_typed None [] (K_SystemClass (bs_of [90]%N)) []); [apply ex_typed_one|done]. Qed.
End with_decimal.
