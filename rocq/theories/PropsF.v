(** * PropsF: properties C37 - C40 and C48. *)
From Verif Require Import Base Utf8 Value DataTypes Records Parser Wire BaseLemmas DataTypesLemmas
  RecordsLemmas MethodLemmas SafetyLemmas Safety Grammar Heads Complete Sound Fuel Message Run Spec
  LemmasA LemmasB LemmasC Positions Reach LemmasD Trees TreeLemmas PropsB PropsC PropsD Calm Size.
From Coq Require Import Lia.

(** ** C37 DateTime and TimeSpan lose no information *)

Theorem C37_date_time : forall raw, (- 2 ^ 63 <= raw < 2 ^ 63)%Z ->
  exists low, (0 <= low < 4)%Z /\ raw = (4 * dt_ticks raw + low)%Z
    /\ (- 2 ^ 61 <= dt_ticks raw < 2 ^ 61)%Z
    /\ (dt_kind raw = Some DTK_Utc <-> low = 1%Z)
    /\ (dt_kind raw = Some DTK_Local <-> low = 2%Z)
    /\ (dt_kind raw = None <-> low = 0%Z \/ low = 3%Z).
Proof.
  intros raw Hr. exists (raw mod 4)%Z. unfold dt_ticks, dt_kind.
  rewrite Z.shiftr_div_pow2 by lia. change (Z.land raw 3) with (Z.land raw (Z.ones 2)). rewrite Z.land_ones by lia.
  change (2 ^ 2)%Z with 4%Z. pose proof (Z.mod_pos_bound raw 4 ltac:(lia)) as Hm.
  pose proof (Z.div_mod raw 4 ltac:(lia)) as Hd.
  change (2 ^ 63)%Z with 9223372036854775808%Z in Hr. change (2 ^ 61)%Z with 2305843009213693952%Z.
  split; [done|]. split; [done|]. split.
  { split; [apply Z.div_le_lower_bound; lia|apply Z.div_lt_upper_bound; lia]. }
  destruct (Z.eqb_spec (raw mod 4) 1) as [E1|E1]; [rewrite E1; repeat split; try done; intros [?|?]; done|].
  destruct (Z.eqb_spec (raw mod 4) 2) as [E2|E2]; [rewrite E2; repeat split; try done; intros [?|?]; done|].
  repeat split; intros; try done; lia.
Qed.
Theorem C37_date_time_unique : forall raw1 raw2,
  dt_ticks raw1 = dt_ticks raw2 -> dt_kind raw1 = dt_kind raw2 -> is_Some (dt_kind raw1) ->
  raw1 = raw2.
Proof.
  intros r1 r2 Ht Hk Hs. unfold dt_ticks, dt_kind in *. rewrite !Z.shiftr_div_pow2 in Ht by lia.
  change 3%Z with (Z.ones 2) in *. rewrite !Z.land_ones in * by lia. change (2 ^ 2)%Z with 4%Z in *.
  pose proof (Z.div_mod r1 4 ltac:(lia)). pose proof (Z.div_mod r2 4 ltac:(lia)).
  destruct (Z.eqb_spec (r1 mod 4) 1), (Z.eqb_spec (r2 mod 4) 1); try (destruct (Z.eqb_spec (r1 mod 4) 2));
    try (destruct (Z.eqb_spec (r2 mod 4) 2)); try done; try lia; by destruct Hs.
Qed.
Theorem C37_time_span : forall raw, ts_value raw = raw.
Proof. done. Qed.
Example C37_ex : dt_ticks (-5) = (-2)%Z /\ dt_kind (-5) = None /\ dt_kind 9 = Some DTK_Utc /\ dt_ticks 9 = 2%Z.
Proof. done. Qed.

Section with_decimal.
Context {DL : DecimalLib}.

(** ** C38 Untyped null and string members are interchangeable with typed ones *)

(** What holds: an inline string is accepted. *)
Theorem C38_inline_string_partial : forall W root e h hb name id s sb,
  after W root e (hb ++ sb ++ [x0b]) -> e_class_header h hb -> ch_library h = None -> ch_object_id h = root ->
  ch_member_names h = [name] -> ch_types h = Some [K_String] -> e_string_record id s sb ->
  deserialize W = POk (MValue (VObject (mkObj (ch_name h) None [(name, VString s)]))).
Proof.
  intros W root e h hb name id s sb Ha Hh Hl Hid Hn Ht Hs.
  assert (valid_id root) as Hr by (destruct Hh as (b1 & ? & ? & ? & ? & [Hv _] & _); by rewrite Hid in Hv).
  eapply after_root; [exact Ha|by apply valid_id_pos|]. apply G_rec_object. rewrite <- Hid.
  change [(name, VString s)] with (zip [name] [VString s]). rewrite <- Hn.
  rewrite app_assoc. apply tree_class; [done| |unfold library_named; by rewrite Hl|].
  - rewrite Hn. repeat constructor. by intros ?%elem_of_nil.
  - unfold kinds_of. rewrite Ht. split; [done|]. simpl zip. rewrite <- (app_nil_r sb). apply e_cons; [|apply e_nil].
    by eapply T_string.
Qed.
(** A reference, a null, or anything else but a string makes the message fail. *)
Theorem C38_no_string : forall W root e i b rest,
  after W root e i -> reach_record b e i (Site_member K_String e rest) ->
  match rest with x06 :: _ | x0c :: _ => False | _ => True end ->
  deserialize W = PErr (mkError i (E_ExpectedRecordType RT_MessageEnd)).
Proof.
  intros W root e i b rest Ha Hr Hrest.
  assert (~ head_in [x06; x0c] rest) as Hh.
  { destruct rest as [|c rest]; [by intros []|]. simpl. intros Hc.
    repeat (apply elem_of_cons in Hc as [->|Hc]; [done|]). by apply elem_of_nil in Hc. }
  assert (exists err, forall f, parse_member (parse_classes f) K_String (st e) rest = (st e, Err err)) as [err H].
  { rewrite <- (app_nil_r rest) in Hh |- *.
    destruct (parse_string_member_err (rest ++ [])) as [er He]; [nohead|]. exists er. intros f.
    rewrite member_typed; [|done|nohead]. cbn [kind_bt kind_ai]. by rewrite He. }
  eapply (reach_stuck _ _ _ _ _ _ (S_Err err)); [exact Ha|exact Hr| |exact I].
  by apply ev_const.
Qed.
(** A class "A" with one member "a" declared as a string. *)
Definition ex_strm : class_header := mkClassHeader 1 (bs_of [65]%N) [bs_of [97]%N] (Some [K_String]) None.
Definition ex_strm_bytes : bytes := bs_of [4; 1;0;0;0; 1;65; 1;0;0;0; 1;97; 1]%N.
Lemma ex_strm_ok : e_class_header ex_strm ex_strm_bytes.
Proof.
  exists (enc_uint 4 1), (bs_of [1; 65]%N), (bs_of [1;0;0;0; 1;97]%N), (bs_of [1]%N), [].
  split; [done|]. split; [apply (ex_str [65]%N); [repeat constructor|simpl; lia]|]. split.
  - exists (bs_of [1;97]%N). split; [done|]. split; [|done].
    rewrite <- (app_nil_r (bs_of [1;97]%N)). apply e_cons; [apply (ex_str [97]%N); [repeat constructor|simpl; lia]|apply e_nil].
  - split; [|done]. exists [x01], []. split; [done|]. split; [|split; [|done]].
    + rewrite <- (app_nil_r [x01]). apply e_cons; [done|apply e_nil].
    + apply (e_cons e_kind_info K_String [] [] []); [done|apply e_nil].
Qed.
Lemma ex_strm_reach rest :
  reach_record false ex_env (ex_strm_bytes ++ rest) (Site_member K_String ex_env rest).
Proof.
  apply RR_class; [simpl; apply elem_of_list_In; simpl; tauto|].
  eapply (RC_member _ _ _ _ _ _ ex_strm None [] _ []); [by apply G_lib_none|apply ex_strm_ok|done|done|constructor|apply RM_here].
Qed.
(** What the format allows: a class with one member declared as a string holds a null. *)
Theorem C38_null_string_refuted : ~ forall W root e h hb name,
  after W root e (hb ++ x0a :: [x0b]) -> e_class_header h hb -> ch_library h = None -> ch_object_id h = root ->
  ch_member_names h = [name] -> ch_types h = Some [K_String] ->
  deserialize W = POk (MValue (VObject (mkObj (ch_name h) None [(name, VNull)]))).
Proof.
  intros H. pose proof (ex_after 1 (ex_strm_bytes ++ x0a :: [x0b]) eq_refl) as Ha.
  specialize (H _ _ _ _ _ _ Ha ex_strm_ok eq_refl eq_refl eq_refl eq_refl).
  rewrite (C38_no_string _ _ _ _ _ _ Ha (ex_strm_reach _) I) in H. done.
Qed.
(** Or a reference to a string that was read before. *)
Theorem C38_string_reference_refuted : ~ forall W root e h hb name id s,
  after W root e (hb ++ (x09 :: enc_uint 4 id) ++ [x0b]) -> e_class_header h hb -> ch_library h = None -> ch_object_id h = root ->
  ch_member_names h = [name] -> ch_types h = Some [K_String] ->
  valid_id id -> e_objs e !! id = Some (VString s) ->
  deserialize W = POk (MValue (VObject (mkObj (ch_name h) None [(name, VString s)]))).
Proof.
  intros H. pose proof (ex_after 1 (ex_strm_bytes ++ (x09 :: enc_uint 4 5) ++ [x0b]) eq_refl) as Ha.
  assert (valid_id 5) as H5 by done.
  specialize (H _ _ _ _ _ _ _ _ Ha ex_strm_ok eq_refl eq_refl eq_refl eq_refl H5 eq_refl).
  rewrite (C38_no_string _ _ _ _ _ _ Ha (ex_strm_reach _) I) in H. done.
Qed.
Example C38_ex : exists err,
  deserialize (header_bytes 1 (-1) ++ ex_record ++ ex_strm_bytes ++ [x0a; x0b]) = PErr err.
Proof. eexists. eapply C38_no_string; [by apply ex_after|apply ex_strm_reach|done]. Qed.

(** ** C40 Nesting depth is unlimited *)

Fixpoint depth (v : value) : nat :=
  match v with
  | VObject o => S (fold_right (fun kv n => max (depth kv.2) n) 0 (obj_members o))
  | VArray vs => S (fold_right (fun w n => max (depth w) n) 0 vs)
  | _ => 0
  end.
(** [d] objects of class "A", one in the other as the member "a". *)
Fixpoint nested (d : nat) : value :=
  match d with
  | O => VNull
  | S d => VObject (mkObj (bs_of [65]%N) None [(bs_of [97]%N, nested d)])
  end.
Fixpoint nested_bytes (d : nat) : bytes :=
  match d with
  | O => [x0a]
  | S d => bs_of [2; 1;0;0;0; 1;65; 1;0;0;0; 1;97]%N ++ nested_bytes d
  end.
Definition nested_header : class_header := mkClassHeader 1 (bs_of [65]%N) [bs_of [97]%N] None None.
Lemma nested_header_ok : e_class_header nested_header (bs_of [2; 1;0;0;0; 1;65; 1;0;0;0; 1;97]%N).
Proof.
  exists (enc_uint 4 1), (bs_of [1; 65]%N), (bs_of [1;0;0;0; 1;97]%N), [], [].
  split; [done|]. split; [apply (ex_str [65]%N); [repeat constructor|simpl; lia]|]. split.
  - exists (bs_of [1;97]%N). split; [done|]. split; [|done].
    rewrite <- (app_nil_r (bs_of [1;97]%N)). apply e_cons; [apply (ex_str [97]%N); [repeat constructor|simpl; lia]|apply e_nil].
  - done.
Qed.
Lemma nested_tree L d : tree L K_Any (nested d) (nested_bytes d).
Proof.
  induction d as [|d IH]; [by apply T_null|]. cbn [nested nested_bytes].
  apply (T_object L K_Any nested_header None _ [nested d]); try done.
  - apply nested_header_ok.
  - repeat constructor. by intros ?%elem_of_nil.
  - simpl zip. rewrite <- (app_nil_r (nested_bytes d)). apply e_cons; [done|apply e_nil].
Qed.
Theorem C40_depth : forall d, exists W,
  length W = 13 * d + 32
  /\ deserialize W = POk (MValue (nested (S d))) /\ depth (nested (S d)) = S d.
Proof.
  intros d. exists (header_bytes 1 (-1) ++ nested_bytes (S d) ++ [x0b]). split; [|split].
  - rewrite !app_length. cbn [nested_bytes]. rewrite app_length.
    assert (length (nested_bytes d) = 13 * d + 1) as ->.
    { induction d as [|d IH]; [done|]. cbn [nested_bytes]. rewrite app_length, IH.
      change (length (bs_of [2; 1;0;0;0; 1;65; 1;0;0;0; 1;97]%N)) with 13. lia. }
    change (length (header_bytes 1 (-1))) with 17.
    change (length (bs_of [2; 1;0;0;0; 1;65; 1;0;0;0; 1;97]%N)) with 13. cbn [length]. lia.
  - eapply (after_root _ 1 empty_env); [apply after_start; [done|apply hid_ok]|done|].
    apply G_rec_object. cbn [nested_bytes].
    apply (tree_class empty_env nested_header None _ [nested d] (nested_bytes d) [x0b]); [apply nested_header_ok| |done|].
    + repeat constructor. by intros ?%elem_of_nil.
    + split; [done|]. simpl zip. rewrite <- (app_nil_r (nested_bytes d)). apply e_cons; [apply nested_tree|apply e_nil].
  - enough (forall d, depth (nested d) = d) by done. clear d. induction d as [|d IH]; [done|].
    cbn [nested depth obj_members fold_right snd]. rewrite IH. lia.
Qed.

(** ** C39 Acceptance is exactly the record grammar, C48 A failed attempt leaves no trace *)

Theorem C39_grammar_accepted : forall W m, g_message W m -> deserialize W = POk m.
Proof. apply message_complete. Qed.
Theorem C39_unique : forall W m1 m2, g_message W m1 -> g_message W m2 -> m1 = m2.
Proof. intros W m1 m2 H1%message_complete H2%message_complete. congruence. Qed.

(** The other direction.  Without the byte 9 (references) after the header it holds: *)
Theorem C39_exact_without_references : forall W m, x09 ∉ drop 17 W ->
  (deserialize W = POk m <-> g_message W m).
Proof. intros W m H1. split; [by apply calm_message|apply message_complete]. Qed.
(** In general an accepted message is in the grammar, or a record that cannot be read with the
    tables at that point was read again with the tables left behind by the failed attempt. *)
Theorem C39_accepted_partial : forall W m, deserialize W = POk m -> g_message W m \/ retried W m.
Proof. apply message_clean_or_retried. Qed.

(** The message: an object 1 of class "A" with the members a (reference to 6), b (an object 2 of
    class "B" whose member p is a reference to 7) and c; the objects 7 "C", 6 "D" and 7 "E". *)
Definition leak_class (id name : N) (members : list N) : list N :=
  [2; id;0;0;0; 1; name; N.of_nat (length members);0;0;0]%N ++ flat_map (fun m => [1; m]%N) members.
Definition leak_ref (id : N) : list N := [9; id;0;0;0]%N.
Definition leak_object (id name n : N) : list N := leak_class id name [120%N] ++ [8; 8; n;0;0;0]%N.
Definition leak_body : bytes := bs_of (leak_class 1 65 [97; 98; 99]%N ++ leak_ref 6
  ++ leak_class 2 66 [112%N] ++ leak_ref 7 ++ leak_object 7 67 1 ++ leak_object 6 68 2
  ++ leak_object 7 69 3 ++ [11]%N).
Definition leak_message : bytes := header_bytes 1 (-1) ++ leak_body.
Definition leak_value (name n : N) : value :=
  VObject (mkObj (bs_of [name]) None [(bs_of [120]%N, VInt32 (Z.of_N n))]).
Definition leak_result : value :=
  VObject (mkObj (bs_of [65]%N) None
    [(bs_of [97]%N, leak_value 68 2);
     (bs_of [98]%N, VObject (mkObj (bs_of [66]%N) None [(bs_of [112]%N, leak_value 69 3)]));
     (bs_of [99]%N, leak_value 67 1)]).
(** It is accepted: the member c, for which nothing is written but the record 7 "C", gets "C". *)
Lemma leak_accepted : deserialize leak_message = POk (MValue leak_result).
Proof. vm_compute. reflexivity. Qed.
Lemma leak_abandoned : exists e', abandoned empty_env leak_body e'.
Proof.
  eexists (mkEnv _ _), 300. eexists. vm_compute. reflexivity.
Qed.
Lemma leak_no_record : forall id v e i, ~ g_record empty_env leak_body id v e i.
Proof. intros id v e i H. destruct leak_abandoned as [e' He]. by eapply abandoned_same. Qed.
Lemma leak_no_objects e i : g_objects empty_env leak_body e i -> e = empty_env /\ i = leak_body.
Proof.
  intros H. inversion H; subst; [done|]. exfalso. by eapply leak_no_record.
Qed.
Lemma leak_after : after leak_message 1 empty_env leak_body.
Proof. apply after_start; [done|apply hid_ok]. Qed.

Theorem C39_grammar_only_refuted : ~ forall W m, deserialize W = POk m -> g_message W m.
Proof.
  intros H. specialize (H _ _ leak_accepted).
  remember leak_message as W eqn:EW. remember (MValue leak_result) as m eqn:Em.
  destruct H as [root hb i e v Hh Ho Hv|root hb i e1 i1 m e2 i2 e3 Hh Ho Hm Ho2].
  - assert (i = leak_body) as ->.
    { assert (length hb = 17) as Hl.
      { destruct Hh as (hid & _ & _ & ->). unfold enc_int. cbn [length]. by rewrite !app_length, !enc_uint_length. }
      apply (f_equal (drop 17)) in EW. rewrite drop_app_alt in EW by done. rewrite EW. reflexivity. }
    apply leak_no_objects in Ho as [_ Ho]. done.
  - destruct Hm; done.
Qed.

(** ** C48 A failed attempt to read a record leaves no trace *)

(** If no record can be read at [i], and neither a method record nor the end stands there, the
    message is rejected: *)
Definition unreadable (e : env) (i : bytes) : Prop :=
  (forall id v e' i', ~ g_record e i id v e' i')
  /\ match i with x15 :: _ | x16 :: _ | x0b :: _ => False | _ => True end.
(** The chain of records from a given point is determined. *)
Lemma g_record_det e i id v e' i' id2 v2 e2 i2 : g_record e i id v e' i' -> g_record e i id2 v2 e2 i2 ->
  add_obj id v e' = add_obj id2 v2 e2 /\ i' = i2.
Proof.
  intros H1 H2. destruct g_complete as (_ & _ & _ & _ & Hc).
  pose proof (Hc _ _ _ _ _ _ H1 _ (Nat.le_refl _)) as E1. rewrite (Hc _ _ _ _ _ _ H2 _ (Nat.le_refl _)) in E1.
  apply pair_equal_spec in E1 as [E1 E2]. injection E2 as <- <-. split; [|done].
  rewrite <- (env_of_st (add_obj _ v _)), <- E1. by rewrite env_of_st.
Qed.
Lemma g_objects_chain e i e1 i1 e2 i2 : g_objects e i e1 i1 -> g_objects e i e2 i2 ->
  g_objects e1 i1 e2 i2 \/ g_objects e2 i2 e1 i1.
Proof.
  intros H1. revert e2 i2. induction H1 as [e i|e i id v e1 i1 e3 i3 Hr Ho IH]; intros e2 i2 H2; [by left|].
  destruct H2 as [e i|e i id2 v2 e1' i1' e4 i4 Hr2 Ho2]; [right; by econstructor|].
  destruct (g_record_det _ _ _ _ _ _ _ _ _ _ Hr Hr2) as [E ->]. apply IH. by rewrite E.
Qed.
Lemma no_record_head_end e b i id v e' i' : b = x15 \/ b = x16 \/ b = x0b -> ~ g_record e (b :: i) id v e' i'.
Proof.
  intros Hb Hr. apply g_record_head in Hr as [Hr|Hr].
  - unfold head_in in Hr. revert Hr. destruct Hb as [-> | [-> | ->]]; apply (bool_decide_unpack _); vm_compute; exact I.
  - apply Hr. by destruct Hb as [-> | [-> | ->]].
Qed.
Theorem C48_unreadable_rejected_partial : forall W root e i, after W root e i -> unreadable e i ->
  x09 ∉ i -> forall m, deserialize W <> POk m.
Proof.
  intros W root e i Ha [Hno Hhd] H9 m Hm. apply message_iff in Hm.
  apply after_header in Ha as (ro & hb & body & -> & Hh & -> & Ho).
  inversion Hm as [root' hb' i' e1 i1 e1' e2 v' Hh' Ho1 Hab Ho2 Hv|root' hb' i' e1 i1 m' e2 i2 e3 Hh' Ho' Hmt Ho3].
  - apply app_inj_1 in H as [-> ->]; [|by rewrite (e_header_length _ _ Hh), (e_header_length _ _ Hh')].
    assert (e1 = e /\ i1 = i) as [-> ->].
    { destruct (g_objects_chain _ _ _ _ _ _ Ho Ho1) as [Hc|Hc].
      + inversion Hc; subst; [done|]. exfalso. by eapply Hno.
      + inversion Hc; subst; [done|]. exfalso. by eapply abandoned_same. }
    inversion Ho2; subst; [done|]. eapply (calm_abandoned e); [exact H9|exact Hab|eassumption].
  - apply app_inj_1 in H as [-> ->]; [|by rewrite (e_header_length _ _ Hh), (e_header_length _ _ Hh')].
    assert (exists b i0, i1 = b :: i0 /\ (b = x15 \/ b = x16)) as (b & i0 & -> & Hb).
    { destruct Hmt as [flags name ty ctx il bs j ca args e' i' Hb Hca Hargs|flags ret ctx il bs j ca args e' i' Hb Hca Hargs].
      - destruct Hb as (b1 & b2 & b3 & b4 & b5 & _ & _ & _ & _ & _ & ->). eexists _, _. split; [reflexivity|by left].
      - destruct Hb as (b1 & b2 & b3 & b4 & _ & _ & _ & _ & ->). eexists _, _. split; [reflexivity|by right]. }
    destruct (g_objects_chain _ _ _ _ _ _ Ho Ho') as [Hc|Hc].
    + inversion Hc; subst; [by destruct Hb as [-> | ->]|]. by eapply Hno.
    + inversion Hc; subst; [by destruct Hb as [-> | ->]|]. eapply (no_record_head_end _ b); [|eassumption]. tauto.
Qed.
Theorem C48_no_trace_refuted : ~ forall W root e i m, after W root e i -> unreadable e i -> deserialize W <> POk m.
Proof.
  intros H. eapply (H _ _ _ _ _ leak_after); [|exact leak_accepted]. split; [apply leak_no_record|]. done.
Qed.
(** An object whose member is a message end. *)
Definition ex_unreadable : bytes := bs_of ([2; 1;0;0;0; 1;65; 1;0;0;0; 1;97] ++ [11])%N.
Example C48_ex : after (header_bytes 1 (-1) ++ ex_unreadable) 1 empty_env ex_unreadable
  /\ unreadable empty_env ex_unreadable
  /\ x09 ∉ ex_unreadable.
Proof.
  split; [apply after_start; [done|apply hid_ok]|]. split; [|apply (bool_decide_unpack _); vm_compute; exact I].
  split; [|done]. intros id v e i H.
  assert (abandoned empty_env ex_unreadable empty_env) as Ha.
  { exists 300. eexists. vm_compute. reflexivity. }
  by eapply abandoned_same.
Qed.
End with_decimal.
