(** * PropsZJ: C84, type information may be left out. *)
From Verif Require Import Base Utf8 Value DataTypes Records Parser Wire BaseLemmas Grammar Complete Message Spec
  LemmasA PropsB Tokens TokenLemmas PropsW Untyped UntypedLemmas.
From Coq Require Import Lia.

Section with_decimal.
Context {DL : DecimalLib}.

(** ** C84 Type information may be left out *)

Lemma tokens_complete ts b : e_list e_token ts b -> types_complete ts.
Proof.
  induction 1 as [|t ts b bs Ht _ IH]; intros h ks Hin Hk; [by apply elem_of_nil in Hin|].
  apply elem_of_cons in Hin as [<-|Hin]; [|by apply IH].
  destruct Ht as (b1 & b2 & b3 & b4 & b5 & _ & _ & _ & H & _). rewrite Hk in H. by destruct H as (? & ? & ? & _).
Qed.
Lemma forget_undisturbed header ts : undisturbed (map (forget header) ts).
Proof.
  intros before v after b E. exfalso.
  assert (Tk_value v ∈ map (forget header) ts) as Hin by (rewrite E, elem_of_app, elem_of_cons; auto).
  apply elem_of_list_fmap in Hin as (t & Hv & _). by destruct t.
Qed.

(** With every member and element declared as Object, a message is read as what it means: no
    condition is needed (cf. C15). *)
Theorem C84_objects : forall root ts m W', t_message root ts m ->
  message_bytes root (as_objects ts) W' -> deserialize W' = POk m.
Proof.
  intros root ts m W' Hm HW. apply message_complete. eapply message_t2g; [|apply forget_undisturbed|exact HW].
  by apply (message_f false).
Qed.
(** Without any types at all, if there are never two library records in a row. *)
Theorem C84_untyped : forall root ts m W W', t_message root ts m -> spaced ts ->
  message_bytes root ts W -> message_bytes root (untyped ts) W' -> deserialize W' = POk m.
Proof.
  intros root ts m W W' Hm Hs (hb & b & _ & Hl & _) HW. apply message_complete.
  eapply message_t2g; [|apply forget_undisturbed|exact HW]. apply (message_f true); [done|]. intros _. split; [done|].
  by eapply tokens_complete.
Qed.
(** Hence the result is the same as with types, wherever these do no harm (C15). *)
Theorem C84_same : forall root ts m W W1 W2, t_message root ts m -> spaced ts -> undisturbed ts ->
  message_bytes root ts W -> message_bytes root (as_objects ts) W1 -> message_bytes root (untyped ts) W2 ->
  deserialize W = POk m /\ deserialize W1 = POk m /\ deserialize W2 = POk m.
Proof.
  intros root ts m W W1 W2 Hm Hs Hu HW HW1 HW2. split_and!.
  - apply message_complete. by eapply message_t2g.
  - by eapply C84_objects.
  - by eapply C84_untyped.
Qed.

(** Every message can be written so. *)
Lemma kinds_objects (ks : list kind) : exists b, e_list e_kind_code (map (fun _ => K_Object) ks) b.
Proof. induction ks as [|k ks [b IH]]; [eexists; constructor|]. exists ([x02] ++ b). by constructor. Qed.
Lemma kinds_infos (ks : list kind) : exists b, e_list e_kind_info (map (fun _ => K_Object) ks) b.
Proof. induction ks as [|k ks [b IH]]; [eexists; constructor|]. exists ([] ++ b). by constructor. Qed.
Lemma forget_token full t b : e_token t b -> exists b', e_token (f full t) b'.
Proof.
  destruct t; cbn [f forget e_token]; eauto.
  - intros (b1 & b2 & b3 & b4 & b5 & H1 & H2 & H3 & H4 & H5 & _). unfold fh. destruct full.
    + eexists. exists b1, b2, b3, [], b5. split_and!; [exact H1|exact H2|exact H3|reflexivity|exact H5|reflexivity].
    + destruct (ch_types h) as [ks|] eqn:E.
      * destruct (kinds_objects ks) as [c1 Hc1]. destruct (kinds_infos ks) as [c2 Hc2]. destruct H4 as (? & ? & Hl & _).
        eexists. exists b1, b2, b3, (c1 ++ c2), b5. cbn [header_objects ch_object_id ch_name ch_member_names ch_types ch_library]. rewrite E.
        split_and!; [exact H1|exact H2|exact H3| |exact H5|reflexivity]. exists c1, c2. by rewrite map_length.
      * eexists. exists b1, b2, b3, b4, b5. cbn [header_objects ch_object_id ch_name ch_member_names ch_types ch_library]. rewrite E.
        split_and!; [exact H1|exact H2|exact H3|exact H4|exact H5|reflexivity].
  - intros H. assert (exists p, prim_type_of v = Some p) as [p Hp] by (destruct v; try done; by eexists). eexists. by exists p, b.
  - intros (b1 & b2 & b3 & b4 & b5 & H1 & H2 & H3 & H4 & H5 & _). eexists. exists b1, b2, b3, [x02], [].
    split_and!; [exact H1|exact H2|exact H3|reflexivity|reflexivity|reflexivity].
Qed.
Theorem C84_writable : forall root ts W, message_bytes root ts W ->
  (exists W', message_bytes root (as_objects ts) W') /\ exists W', message_bytes root (untyped ts) W'.
Proof.
  intros root ts W (hb & b & Hh & Hl & _).
  assert (forall full, exists b', e_list e_token (map (f full) ts) b') as H.
  { intros full. clear Hh. induction Hl as [|t ts b bs Ht _ [b2 IH]]; [eexists; constructor|].
    destruct (forget_token full _ _ Ht) as [b1 H1]. exists (b1 ++ b2). by constructor. }
  destruct (H false) as [b1 H1]. destruct (H true) as [b2 H2].
  split; eexists; eexists _, _; split_and!; [exact Hh|exact H1|reflexivity|exact Hh|exact H2|reflexivity].
Qed.

(** Types are only checked: two messages of the format that differ only in their type information
    are read as the same. *)
Lemma spaced_same ts ts' : untyped ts = untyped ts' -> spaced ts -> spaced ts'.
Proof.
  intros E H before t u after -> Ht Hu. unfold untyped in E. rewrite map_app in E. cbn [map] in E.
  apply fmap_app_inv in E as (b1 & r1 & _ & E & ->).
  destruct r1 as [|t1 [|u1 r1]]; try discriminate E. injection E as E1 E2 _.
  apply (H b1 t1 u1 r1); [done|by destruct t, t1|by destruct u, u1].
Qed.
Theorem C84_types_only_checked : forall root ts ts' m m' W W',
  t_message root ts m -> t_message root ts' m' -> untyped ts = untyped ts' -> spaced ts ->
  message_bytes root ts W -> message_bytes root ts' W' -> m = m'.
Proof.
  intros root ts ts' m m' W W' Hm Hm' E Hs HW HW'. destruct (C84_writable _ _ _ HW) as [_ [V HV]].
  pose proof (C84_untyped _ _ _ _ _ Hm Hs HW HV) as H. rewrite E in HV.
  rewrite (C84_untyped _ _ _ _ _ Hm' (spaced_same _ _ E Hs) HW' HV) in H. by injection H.
Qed.
(** Hence, where the types do no harm, either message gives what the other one gives. *)
Theorem C84_types_exchanged : forall root ts ts' m m' W W',
  t_message root ts m -> t_message root ts' m' -> untyped ts = untyped ts' -> spaced ts ->
  undisturbed ts -> undisturbed ts' -> message_bytes root ts W -> message_bytes root ts' W' ->
  deserialize W = POk m /\ deserialize W' = POk m.
Proof.
  intros root ts ts' m m' W W' Hm Hm' E Hs Hu Hu' HW HW'.
  pose proof (C84_types_only_checked _ _ _ _ _ _ _ Hm Hm' E Hs HW HW') as <-. split; apply message_complete.
  - eapply message_t2g; [exact Hm|exact Hu|exact HW].
  - eapply message_t2g; [exact Hm'|exact Hu'|exact HW'].
Qed.

(** An object { a: 12, b: "x" }, with its string in the record after it, which the code rejects with
    types: the Int32 12 is taken for a library record (C15, C69). *)
Definition ex_12_renamed : list token := map (rename ex_swap id) ex_12_tokens.
Example C84_ex : t_message (Some 1%N) ex_12_renamed ex_12_meaning /\ spaced ex_12_renamed
  /\ message_bytes (Some 1%N) ex_12_renamed (message_text 1 ex_12_renamed)
  /\ message_bytes (Some 1%N) (as_objects ex_12_renamed) (message_text 1 (as_objects ex_12_renamed))
  /\ message_bytes (Some 1%N) (untyped ex_12_renamed) (message_text 1 (untyped ex_12_renamed))
  /\ deserialize (message_text 1 ex_12_renamed) <> POk ex_12_meaning
  /\ deserialize (message_text 1 (as_objects ex_12_renamed)) = POk ex_12_meaning
  /\ deserialize (message_text 1 (untyped ex_12_renamed)) = POk ex_12_meaning.
Proof.
  split_and!.
  - pose proof ex_12_mean as H. pose proof ex_swap_inj as Hi. assert (Inj eq eq (@id N)) as Hj by (by intros ?? ?).
    apply (message_rename ex_swap id) in H. exact H.
  - intros before t u after E Ht. unfold ex_12_renamed, ex_12_tokens in E. cbn [map rename] in E.
    destruct before as [|a [|b [|c [|d before]]]]; cbn [app] in E; injection E; intros; subst; try done.
    by destruct before.
  - apply (message_text_ok 1); vm_compute; reflexivity.
  - apply (message_text_ok 1); vm_compute; reflexivity.
  - apply (message_text_ok 1); vm_compute; reflexivity.
  - vm_compute. congruence.
  - vm_compute. reflexivity.
  - vm_compute. reflexivity.
Qed.
(** The typed message, and the one with Object for every type, differ only in their types. *)
Example C84_types_ex : t_message (Some 1%N) (as_objects ex_12_renamed) ex_12_meaning
  /\ untyped ex_12_renamed = untyped (as_objects ex_12_renamed) /\ as_objects ex_12_renamed <> ex_12_renamed
  /\ undisturbed (as_objects ex_12_renamed).
Proof.
  split; [|split; [reflexivity|split; [discriminate|apply forget_undisturbed]]].
  apply (message_f false); [apply C84_ex|]. discriminate.
Qed.
End with_decimal.
