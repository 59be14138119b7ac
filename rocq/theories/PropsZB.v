(** * PropsZB: C75. *)
From Verif Require Import Base Utf8 Value DataTypes Records Parser Wire BaseLemmas DataTypesLemmas
  RecordsLemmas MethodLemmas Grammar Heads Complete Message Spec LemmasA LemmasB LemmasC
  Positions Reach LemmasD Trees TreeLemmas PropsB PropsC PropsE PropsF PropsQ.
From Coq Require Import Lia.

Section with_decimal.
Context {DL : DecimalLib}.

(** ** C75 Everything that a method message carries is reported *)

(** Where the method record of a message stands is determined. *)
Lemma method_head_stuck e i e' i' : head_in [x15; x16] i -> g_objects e i e' i' -> e = e' /\ i = i'.
Proof.
  intros Hh H. destruct H as [|e i id v e1 i1 e2 i2 Hr _]; [done|]. exfalso.
  destruct g_complete as (_ & _ & _ & _ & Hc). specialize (Hc _ _ _ _ _ _ Hr).
  destruct (referenceable_err_head (2 * length i) (st e) i) as [er Her].
  { apply no_library_head. hd. } { hd. }
  specialize (Hc (S (S (2 * length i)))). rewrite Her in Hc. by specialize (Hc ltac:(lia)).
Qed.
Lemma after_det W r1 e1 i1 r2 e2 i2 : after W r1 e1 i1 -> after W r2 e2 i2 ->
  head_in [x15; x16] i1 -> head_in [x15; x16] i2 -> r1 = r2 /\ e1 = e2 /\ i1 = i2.
Proof.
  intros (h1 & b1 & Hr1 & Hh1 & -> & Ho1) (h2 & b2 & Hr2 & Hh2 & E & Ho2) Hd1 Hd2.
  unfold header_bytes in E. apply (f_equal (drop 1)) in E. cbn [app drop] in E.
  rewrite <- !app_assoc in E. apply app_inj_1 in E as [E1 E]; [|by rewrite !enc_uint_length].
  apply app_inj_1 in E as [E2 E]; [|unfold enc_int; by rewrite !enc_uint_length].
  apply app_inv_head in E. apply app_inv_head in E. subst b2.
  split.
  { assert (2 ^ 31 < 2 ^ (8 * N.of_nat 4))%N by done.
    rewrite <- (le_value_enc 4 r1), <- (le_value_enc 4 r2) by lia. by rewrite E1. }
  destruct (g_objects_chain _ _ _ _ _ _ Ho1 Ho2) as [H|H]; [by apply method_head_stuck|].
  apply method_head_stuck in H; [|done]. by destruct H.
Qed.
Lemma end_head : ~ head_in [x15; x16] [x0b].
Proof. cbn. set_solver. Qed.
Lemma header_prefix r1 h1 b1 r2 h2 b2 : e_header r1 h1 -> e_header r2 h2 -> h1 ++ b1 = h2 ++ b2 -> h1 = h2 /\ b1 = b2.
Proof.
  intros (x & _ & _ & ->) (y & _ & _ & ->) E. apply app_inj_1 in E; [done|].
  unfold enc_int. cbn [length]. by rewrite !app_length, !enc_uint_length.
Qed.
Lemma return_det flags ret ctx inline bs i flags' ret' ctx' inline' bs' i' :
  e_method_return flags ret ctx inline bs -> e_method_return flags' ret' ctx' inline' bs' -> bs ++ i = bs' ++ i' ->
  flags = flags' /\ ret = ret' /\ ctx = ctx' /\ inline = inline' /\ i = i'.
Proof.
  intros H1 H2 E.
  pose proof (exact_ok binary_method_return_parse _ (mkBinaryMethodReturn flags ret ctx inline) bs i method_return_exact H1) as E1.
  rewrite E in E1.
  rewrite (exact_ok binary_method_return_parse _ (mkBinaryMethodReturn flags' ret' ctx' inline') bs' i' method_return_exact H2) in E1.
  by injection E1 as -> -> -> -> ->.
Qed.
Lemma call_det flags name type ctx inline bs i flags' name' type' ctx' inline' bs' i' :
  e_method_call flags name type ctx inline bs -> e_method_call flags' name' type' ctx' inline' bs' -> bs ++ i = bs' ++ i' ->
  flags = flags' /\ name = name' /\ type = type' /\ ctx = ctx' /\ inline = inline' /\ i = i'.
Proof.
  intros H1 H2 E.
  pose proof (exact_ok binary_method_call_parse _ (mkBinaryMethodCall flags name type ctx inline) bs i method_call_exact H1) as E1.
  rewrite E in E1.
  rewrite (exact_ok binary_method_call_parse _ (mkBinaryMethodCall flags' name' type' ctx' inline') bs' i' method_call_exact H2) in E1.
  by injection E1 as -> -> -> -> -> ->.
Qed.

Lemma method_no_value W root e i v : after W root e i -> head_in [x15; x16] i -> deserialize W <> POk (MValue v).
Proof.
  intros Ha Hd H%message_iff. inversion H as [root' hb j e1 i1 e1' e2 v' Hh Ho1 Hab Ho2 Hv E1 E2|root' hb j e1 i1 m e2 i2 e3 Hh Ho1 Hs Ho3 E1 E2].
  - subst. apply after_header in Ha as (ro & hb' & body & -> & Hh' & E & Ho).
    destruct (header_prefix _ _ _ _ _ _ Hh' Hh (eq_sym E)) as [-> ->].
    destruct (g_objects_chain _ _ _ _ _ _ Ho Ho1) as [X|X].
    + apply method_head_stuck in X as [<- <-]; [|done]. apply method_head_stuck in Ho2 as [_ ->]; [|done]. by apply end_head.
    + destruct X as [|e1 i1 id w e3 i3 e4 i4 Hr _]; [|by eapply abandoned_same].
      apply method_head_stuck in Ho2 as [_ ->]; [|done]. by apply end_head.
  - subst. inversion Hs.
Qed.
(** What the method record itself carries is reported, whatever else the flags say and whatever
    follows: the names and the context of a call, *)
Theorem C75_call_record_partial : forall W root e flags name type ctx inline bs i m,
  after W root e (bs ++ i) -> e_method_call flags name type ctx inline bs -> deserialize W = POk m ->
  exists args, m = MMethodCall (mkMethodCall name type ctx args).
Proof.
  intros W root e flags name type ctx inline bs i m Ha Hb H.
  assert (forall v, m <> MValue v) as Hm.
  { intros v ->. by eapply method_no_value; [exact Ha|eapply method_head; left; eauto|]. }
  destruct (accepted_method W _ H Hm) as (root' & e' & flags' & inline' & mk & bs' & i' & ca & args & e1 & i1 & e2 & Ha' & Hb' & _ & _ & -> & _).
  assert (e_method flags inline (fun args => MMethodCall (mkMethodCall name type ctx args)) bs) as Hbm by (left; eauto).
  destruct (after_det _ _ _ _ _ _ _ Ha Ha') as (_ & _ & E); [by eapply method_head..|].
  destruct Hb' as [(name' & type' & ctx' & Hb' & ->)|(ret & ctx' & Hb' & ->)].
  - destruct (call_det _ _ _ _ _ _ _ _ _ _ _ _ _ _ Hb Hb' E) as (_ & -> & -> & -> & _). by eexists.
  - exfalso. destruct Hb as (? & ? & ? & ? & ? & _ & _ & _ & _ & _ & ->), Hb' as (? & ? & ? & ? & _ & _ & _ & _ & ->). discriminate E.
Qed.
(** and the return value and the context of a return. *)
Theorem C75_return_record_partial : forall W root e flags ret ctx inline bs i m,
  after W root e (bs ++ i) -> e_method_return flags ret ctx inline bs -> deserialize W = POk m ->
  exists args, m = MMethodReturn (mkMethodReturn ret ctx args).
Proof.
  intros W root e flags ret ctx inline bs i m Ha Hb H.
  assert (forall v, m <> MValue v) as Hm.
  { intros v ->. by eapply method_no_value; [exact Ha|eapply method_head; right; eauto|]. }
  destruct (accepted_method W _ H Hm) as (root' & e' & flags' & inline' & mk & bs' & i' & ca & args & e1 & i1 & e2 & Ha' & Hb' & _ & _ & -> & _).
  assert (e_method flags inline (fun args => MMethodReturn (mkMethodReturn ret ctx args)) bs) as Hbm by (right; eauto).
  destruct (after_det _ _ _ _ _ _ _ Ha Ha') as (_ & _ & E); [by eapply method_head..|].
  destruct Hb' as [(name' & type' & ctx' & Hb' & ->)|(ret' & ctx' & Hb' & ->)].
  - exfalso. destruct Hb as (? & ? & ? & ? & _ & _ & _ & _ & ->), Hb' as (? & ? & ? & ? & ? & _ & _ & _ & _ & _ & ->). discriminate E.
  - destruct (return_det _ _ _ _ _ _ _ _ _ _ _ _ Hb Hb' E) as (_ & -> & -> & _). by eexists.
Qed.

(** [carries W flags record vs]: [W] is a complete method message that consists of any records, the
    method record [record] with the flags [flags], the call array with the elements [vs] (which
    the record's flags may place there: arguments, context, return value, exception, ...) and any
    records. *)
Definition carries (W : bytes) (flags : Z) (record : bytes) (vs : list value) : Prop :=
  exists root e i inline mk e0 i0 e1 i1 e2,
    after W root e (record ++ i) /\ e_method flags inline mk record
    /\ g_lib e i e0 i0 /\ object_array e0 i0 root vs e1 i1 /\ g_objects e1 i1 e2 [x0b].
Lemma method_det flags inline mk flags' inline' mk' bs :
  e_method flags inline mk bs -> e_method flags' inline' mk' bs -> mk = mk' /\ inline = inline'.
Proof.
  intros [(n1 & t1 & c1 & H1 & ->)|(r1 & c1 & H1 & ->)] [(n2 & t2 & c2 & H2 & ->)|(r2 & c2 & H2 & ->)].
  - by destruct (call_det _ _ _ _ _ _ [] _ _ _ _ _ _ [] H1 H2 eq_refl) as (_ & -> & -> & -> & -> & _).
  - exfalso. destruct H1 as (? & ? & ? & ? & ? & _ & _ & _ & _ & _ & ->), H2 as (? & ? & ? & ? & _ & _ & _ & _ & E). discriminate E.
  - exfalso. destruct H2 as (? & ? & ? & ? & ? & _ & _ & _ & _ & _ & ->), H1 as (? & ? & ? & ? & _ & _ & _ & _ & E). discriminate E.
  - by destruct (return_det _ _ _ _ _ [] _ _ _ _ _ [] H1 H2 eq_refl) as (_ & -> & -> & -> & _).
Qed.

(** With the flag ArgsIsArray the whole array is reported. *)
Theorem C75_array_kept_partial : forall W W' flags record vs vs',
  carries W flags record vs -> carries W' flags record vs' ->
  Z.testbit flags bit_ArgsIsArray = true ->
  (exists m, deserialize W = POk m) /\ (deserialize W = deserialize W' -> vs = vs').
Proof.
  intros W W' flags record vs vs' (r & e & i & inl & mk & e0 & i0 & e1 & i1 & e2 & Ha & Hm & Hl & Hc & Ho)
    (r' & e' & i' & inl' & mk' & e0' & i0' & e1' & i1' & e2' & Ha' & Hm' & Hl' & Hc' & Ho') Hb.
  rewrite (method_array _ _ _ _ Hm _ _ _ _ _ _ _ _ _ _ (Some vs) Ha Hl Hc Ho) by (unfold args_rule; rewrite Hb; eauto).
  rewrite (method_array _ _ _ _ Hm' _ _ _ _ _ _ _ _ _ _ (Some vs') Ha' Hl' Hc' Ho') by (unfold args_rule; rewrite Hb; eauto).
  destruct (method_det _ _ _ _ _ _ _ Hm Hm') as [<- _]. split; [eauto|]. intros [= E].
  destruct Hm as [(n1 & t1 & c1 & H1 & ->)|(r1 & c1 & H1 & ->)]; by injection E.
Qed.
(** Without it the array is lost: all of it, *)
Theorem C75_array_lost : forall W W' flags record vs vs',
  carries W flags record vs -> carries W' flags record vs' ->
  Z.testbit flags bit_ArgsIsArray = false -> Z.testbit flags bit_ArgsInArray = false ->
  (exists m, deserialize W = POk m) /\ deserialize W = deserialize W'.
Proof.
  intros W W' flags record vs vs' (r & e & i & inl & mk & e0 & i0 & e1 & i1 & e2 & Ha & Hm & Hl & Hc & Ho)
    (r' & e' & i' & inl' & mk' & e0' & i0' & e1' & i1' & e2' & Ha' & Hm' & Hl' & Hc' & Ho') Hb Hb'.
  rewrite (method_array _ _ _ _ Hm _ _ _ _ _ _ _ _ _ _ inl Ha Hl Hc Ho) by (unfold args_rule; by rewrite Hb, Hb').
  rewrite (method_array _ _ _ _ Hm' _ _ _ _ _ _ _ _ _ _ inl' Ha' Hl' Hc' Ho') by (unfold args_rule; by rewrite Hb, Hb').
  destruct (method_det _ _ _ _ _ _ _ Hm Hm') as [<- <-]. eauto.
Qed.
(** or all but the arguments. *)
Theorem C75_array_rest_lost : forall W W' flags record args vs vs',
  carries W flags record (VArray args :: vs) -> carries W' flags record (VArray args :: vs') ->
  Z.testbit flags bit_ArgsInArray = true ->
  (exists m, deserialize W = POk m) /\ deserialize W = deserialize W'.
Proof.
  intros W W' flags record args vs vs' (r & e & i & inl & mk & e0 & i0 & e1 & i1 & e2 & Ha & Hm & Hl & Hc & Ho)
    (r' & e' & i' & inl' & mk' & e0' & i0' & e1' & i1' & e2' & Ha' & Hm' & Hl' & Hc' & Ho') Hb.
  assert (Z.testbit flags bit_ArgsIsArray = false) as Hb'.
  { assert (flags_ok checked_return_bits flags) as (Hone & _).
    { destruct Hm as [(? & ? & ? & (? & ? & ? & ? & ? & (_ & X & _) & _) & _)|(? & ? & (? & ? & ? & ? & (_ & X & _) & _) & _)]; exact X. }
    destruct (Z.testbit flags bit_ArgsIsArray) eqn:E; [|done].
    by specialize (Hone 2 3 bit_ArgsIsArray bit_ArgsInArray eq_refl eq_refl E Hb). }
  rewrite (method_array _ _ _ _ Hm _ _ _ _ _ _ _ _ _ _ (Some args) Ha Hl Hc Ho) by (unfold args_rule; rewrite Hb, Hb'; eauto).
  rewrite (method_array _ _ _ _ Hm' _ _ _ _ _ _ _ _ _ _ (Some args) Ha' Hl' Hc' Ho') by (unfold args_rule; rewrite Hb, Hb'; eauto).
  destruct (method_det _ _ _ _ _ _ _ Hm Hm') as [<- <-]. eauto.
Qed.

(** A return whose value, a string, is in the call array: 0x1011 is ReturnValueInArray, NoArgs and
    NoContext; 0x1014 is ReturnValueInArray, ArgsIsArray and NoContext. *)
Definition ex_in_array (flags : Z) (c : byte) : bytes :=
  header_bytes 1 (-1) ++ (x16 :: enc_int 4 flags) ++ (x10 :: enc_uint 4 1 ++ enc_uint 4 1)
  ++ (x06 :: enc_uint 4 2 ++ [x01; c]) ++ [x0b].
Lemma ex_in_array_carries flags c : (b2n c < 128)%N -> flags = 0x1011%Z \/ flags = 0x1014%Z ->
  carries (ex_in_array flags c) flags (x16 :: enc_int 4 flags) [VString [c]].
Proof.
  intros Hc Hf. exists 1%N, empty_env, ((x10 :: enc_uint 4 1 ++ enc_uint 4 1) ++ (x06 :: enc_uint 4 2 ++ [x01; c]) ++ [x0b]), None.
  exists (fun args => MMethodReturn (mkMethodReturn None None args)). eexists _, _, _, _, _.
  split; [by apply after_start; [|apply hid_ok]|]. split.
  { right. exists None, None. split; [|done].
    exists (enc_int 4 flags), [], [], [].
    split; [split; [destruct Hf as [-> | ->]; split; vm_compute; congruence|
      split; [apply flags_okb_iff; by destruct Hf as [-> | ->]|done]]|].
    split; [split; [by destruct Hf as [-> | ->]|done]|]. split; [split; [by destruct Hf as [-> | ->]|done]|].
    split; [split; [by destruct Hf as [-> | ->]|done]|]. by rewrite !app_nil_r. }
  split; [by apply G_lib_none|]. split; [|apply G_objs_nil].
  eexists 1%N, _, [It_Value (VString [c])], _, _, _. split; [reflexivity|]. split; [by apply ex_header|].
  split; [|split; [right; by exists [], (It_Value (VString [c]))|apply G_res_value; apply G_res_nil]].
  apply (simple_items [It_Value (VString [c])] (x06 :: enc_uint 4 2 ++ [x01; c])).
  rewrite <- (app_nil_r (x06 :: _)). apply e_cons; [|apply e_nil]. right; right; left.
  exists 2%N, [c]. split; [done|]. exists (enc_uint 4 2), [x01; c]. split; [done|]. split; [|done].
  assert (c = n2b (b2n c)) as E by (symmetry; apply n2b_b2n).
  rewrite E at 1 2. apply (ex_str [b2n c]); [by repeat constructor|simpl; lia].
Qed.
Theorem C75_return_value_refuted : ~ forall W W' flags record v v',
  carries W flags record [v] -> carries W' flags record [v'] -> Z.testbit flags bit_ReturnValueInArray = true ->
  deserialize W = deserialize W' -> v = v'.
Proof.
  intros H. pose proof (ex_in_array_carries 0x1011 x41 ltac:(done) (or_introl eq_refl)) as H1. pose proof (ex_in_array_carries 0x1011 x42 ltac:(done) (or_introl eq_refl)) as H2.
  specialize (H _ _ _ _ _ _ H1 H2 eq_refl).
  destruct (C75_array_lost _ _ _ _ _ _ H1 H2 eq_refl eq_refl) as [_ E]. specialize (H E). discriminate H.
Qed.
Example C75_ex : deserialize (ex_in_array 0x1011 x41) = POk (MMethodReturn (mkMethodReturn None None None)).
Proof. vm_compute. reflexivity. Qed.
Example C75_ex_kept : carries (ex_in_array 0x1014 x41) 0x1014 (x16 :: enc_int 4 0x1014) [VString [x41]]
  /\ deserialize (ex_in_array 0x1014 x41) = POk (MMethodReturn (mkMethodReturn None None (Some [VString [x41]]))).
Proof. split; [apply ex_in_array_carries; [done|by right]|vm_compute; reflexivity]. Qed.
Example C75_ex_rest : carries (header_bytes 1 (-1) ++ ex_call_record 0x18 ++ ex_call_array ++ ex_call_rest) 0x18
  (ex_call_record 0x18) [VArray []].
Proof.
  eexists 1%N, empty_env, _, None, (fun args => MMethodCall (mkMethodCall [] [] None args)), _, _, _, _, _.
  split; [by apply after_start; [|apply hid_ok]|]. split.
  { left. exists [], [], None. split; [|done].
    apply (ex_call_record_ok 0x18); [split; vm_compute; congruence|by apply flags_okb_iff]. }
  split; [by apply G_lib_none|]. split; [apply ex_call_object_array|apply G_objs_nil].
Qed.
Example C75_ex_record : after (header_bytes 1 (-1) ++ ex_return_record 0x811 ++ [x0b]) 1 empty_env (ex_return_record 0x811 ++ [x0b])
  /\ e_method_return 0x811 (Some VNull) None None (ex_return_record 0x811)
  /\ deserialize (header_bytes 1 (-1) ++ ex_return_record 0x811 ++ [x0b]) = POk (MMethodReturn (mkMethodReturn (Some VNull) None None)).
Proof.
  split; [by apply after_start; [|apply hid_ok]|]. split; [|vm_compute; reflexivity].
  apply (ex_return_record_ok 0x811); [split; vm_compute; congruence|by apply flags_okb_iff].
Qed.
End with_decimal.
