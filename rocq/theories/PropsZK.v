(** * PropsZK: C85, the record in which an array is written. *)
From Verif Require Import Base Utf8 Value DataTypes Records Parser Wire BaseLemmas Grammar Complete Message Spec
  LemmasA PropsB Tokens TokenLemmas PropsW Untyped ArrayForms FormLemmas PropsZC.
From Coq Require Import Lia.

Section with_decimal.
Context {DL : DecimalLib}.

(** ** C85 Arrays may be written in different records *)

Theorem C85_forms_partial : forall root ts ts' m W', t_message root ts m ->
  array_forms true ts ts' -> single_nulls ts -> spaced ts -> undisturbed ts' ->
  message_bytes root ts' W' -> deserialize W' = POk m.
Proof.
  intros root ts ts' m W' Hm Hf Hn Hs Hu HW. apply message_complete.
  eapply message_t2g; [by eapply message_forms|exact Hu|exact HW].
Qed.
(** The same with the simpler condition, for both messages. *)
Theorem C85_forms_12_partial : forall root ts ts' m W W', t_message root ts m ->
  array_forms true ts ts' -> single_nulls ts -> spaced ts -> no_value_12 ts -> no_value_12 ts' ->
  message_bytes root ts W -> message_bytes root ts' W' -> deserialize W = POk m /\ deserialize W' = POk m.
Proof.
  intros root ts ts' m W W' Hm Hf Hn Hs H1 H2 HW HW'. split.
  - apply message_complete. eapply message_t2g; [exact Hm|by apply no_value_12_undisturbed|exact HW].
  - eapply C85_forms_partial; [done..| |done]. by apply no_value_12_undisturbed.
Qed.
(** Being written in another form goes both ways. *)
Theorem C85_symmetric : forall free ts ts', array_forms free ts ts' -> array_forms free ts' ts.
Proof.
  induction 1 as [free|free t ts ts' _ IH|a a' ts ts' Ha _ IH]; [constructor|by constructor|].
  apply AF_array; [|done]. destruct Ha; by econstructor.
Qed.

(** An array of one object, an array of the numbers 7 and 8, in four ways. *)
Definition single_text (id len : N) (info : bytes) : bytes :=
  x07 :: enc_uint 4 id ++ x00 :: (enc_uint 4 1 ++ enc_uint 4 len) ++ info.
Lemma single_text_ok id len k code info : id_ok id = true -> (len < 2 ^ 31)%N ->
  e_kind_code k code -> e_kind_info k info ->
  e_token (Tk_array id BAT_Single [len] None k) (single_text id len (code ++ info)).
Proof.
  intros Hid Hl Hc Hi. exists (enc_uint 4 id), (enc_uint 4 1 ++ enc_uint 4 len), [], code, info.
  split; [split; [by apply id_ok_valid|reflexivity]|]. split.
  { eexists. split; [|split; [|reflexivity]]; [done|]. rewrite <- (app_nil_r (enc_uint 4 len)).
    apply e_cons; [split; [exact Hl|reflexivity]|apply e_nil]. }
  split; [done|]. split; [done|]. split; [done|]. reflexivity.
Qed.
Definition prims_text (id : N) (zs : list Z) : bytes :=
  (x0f :: enc_uint 4 id ++ enc_uint 4 (N.of_nat (length zs))) ++ x08 :: concat (map (enc_int 4) zs).
Definition small_int (z : Z) : bool := (0 <=? z)%Z && (z <? 2 ^ 31)%Z.
Lemma small_int_ok z : small_int z = true -> e_prim (VInt32 z) (enc_int 4 z).
Proof. exact (token_text_ok (Tk_value (VInt32 z))). Qed.
Lemma prims_text_ok id zs : id_ok id = true -> forallb small_int zs = true -> (length zs < 128) ->
  e_token (Tk_prims id PT_Int32 (map VInt32 zs)) (prims_text id zs).
Proof.
  intros Hid Hz Hl. eexists _, _. split.
  { eexists _, _. split; [split; [by apply id_ok_valid|reflexivity]|]. split; [|reflexivity].
    rewrite map_length. split; [unfold valid_len; lia|reflexivity]. }
  split; [by apply Forall_map, Forall_true|]. split; [|reflexivity].
  clear Hl. induction zs as [|z zs IH]; [constructor|]. cbn in Hz. apply andb_prop in Hz as [Hz Hzs].
  apply (e_cons e_prim (VInt32 z) _ (enc_int 4 z)); [by apply small_int_ok|by apply IH].
Qed.

Definition ex_form (outer inner : bool) : list token :=
  (if outer then Tk_objects 1 1 else Tk_array 1 BAT_Single [1%N] None K_Object)
  :: Tk_reference 2
  :: (if inner then [Tk_prims 2 PT_Int32 [VInt32 7; VInt32 8]]
      else [Tk_array 2 BAT_Single [2%N] None (K_Primitive PT_Int32); Tk_value (VInt32 7); Tk_value (VInt32 8)]).
Definition ex_form_bytes (outer inner : bool) : bytes :=
  header_bytes 1 (-1)
  ++ ((if outer then x10 :: enc_uint 4 1 ++ enc_uint 4 1 else single_text 1 1 [x02])
      ++ (x09 :: enc_uint 4 2)
      ++ (if inner then prims_text 2 [7; 8]%Z
          else single_text 2 2 [x00; x08] ++ enc_int 4 7 ++ enc_int 4 8))
  ++ [x0b].
Definition ex_form_meaning : message := MValue (VArray [VArray [VInt32 7; VInt32 8]]).
Lemma ex_form_mean : t_message (Some 1%N) (ex_form true true) ex_form_meaning.
Proof.
  eapply T_msg_value; [eapply T_objs_cons; [|apply T_objs_nil]|].
  - eapply (T_rec_objects _ _ _ _ [It_Ref 2]).
    + cbn. eapply T_items_cons; [|apply T_items_nil]. eapply T_simple; [by apply T_lib_none|done|]. cbn. reflexivity.
    + right. by exists [], (It_Ref 2).
    + eapply T_res_next; [vm_compute; reflexivity|apply T_rec_prims|apply T_res_nil].
  - vm_compute. reflexivity.
Qed.
Lemma ex_form_text outer inner : message_bytes (Some 1%N) (ex_form outer inner) (ex_form_bytes outer inner).
Proof.
  eexists _, _. split; [by apply header_root; [|apply hid_ok]|]. split; [|reflexivity]. unfold ex_form.
  apply e_cons. { destruct outer; [by apply (token_text_ok (Tk_objects 1 1))|]. by apply (single_text_ok 1 1 K_Object [x02] []). }
  apply e_cons; [by apply (token_text_ok (Tk_reference 2))|]. destruct inner.
  - rewrite <- (app_nil_r (prims_text 2 _)). apply e_cons; [|apply e_nil]. by apply (prims_text_ok 2 [7; 8]%Z); [| |cbn; lia].
  - apply e_cons; [by apply (single_text_ok 2 2 (K_Primitive PT_Int32) [x00] [x08])|].
    apply e_cons; [by apply small_int_ok|]. rewrite <- (app_nil_r (enc_int 4 8)). apply e_cons; [by apply small_int_ok|apply e_nil].
Qed.
Lemma ex_form_forms outer inner : array_forms true (ex_form true true) (ex_form outer inner).
Proof.
  unfold ex_form. apply (AF_array [Tk_objects 1 1] [_]).
  { apply (SA_objects 1 1); [lia|by left|]. destruct outer; [by left|]. right. eexists _, _, _. split; [reflexivity|by left]. }
  apply AF_token. rewrite <- (app_nil_r (if inner then _ else _)), <- (app_nil_r [Tk_prims _ _ _]). apply AF_array; [|constructor].
  apply (SA_primitives 2 PT_Int32 [VInt32 7; VInt32 8]); [cbn; lia|by repeat constructor|by left|].
  destruct inner; [by left|]. right. by eexists _, _.
Qed.
Lemma ex_form_12 outer inner : no_value_12 (ex_form outer inner).
Proof.
  intros v b Hin Hb. unfold ex_form in Hin. apply elem_of_cons in Hin as [E|Hin]; [by destruct outer|].
  apply elem_of_cons in Hin as [?|Hin]; [done|]. destruct inner.
  - by apply elem_of_list_singleton in Hin.
  - apply elem_of_cons in Hin as [?|Hin]; [done|].
    apply elem_of_cons in Hin as [E|Hin]; [injection E as ->; destruct Hb as [_ ->]; done|].
    apply elem_of_list_singleton in Hin as E. injection E as ->. destruct Hb as [_ ->]; done.
Qed.
Example C85_ex : t_message (Some 1%N) (ex_form true true) ex_form_meaning
  /\ single_nulls (ex_form true true) /\ spaced (ex_form true true)
  /\ (forall outer inner, array_forms true (ex_form true true) (ex_form outer inner)
      /\ no_value_12 (ex_form outer inner)
      /\ message_bytes (Some 1%N) (ex_form outer inner) (ex_form_bytes outer inner)
      /\ deserialize (ex_form_bytes outer inner) = POk ex_form_meaning)
  /\ NoDup [ex_form_bytes true true; ex_form_bytes true false; ex_form_bytes false true; ex_form_bytes false false].
Proof.
  assert (single_nulls (ex_form true true)) as Hn.
  { intros n Hin. repeat (apply elem_of_cons in Hin as [?|Hin]; [done|]). by apply elem_of_nil in Hin. }
  assert (spaced (ex_form true true)) as Hs.
  { intros before t u after E Ht. destruct before as [|a [|b [|c [|d before]]]]; cbn [app] in E; injection E; intros; subst; try done; by destruct before. }
  split; [apply ex_form_mean|]. split; [done|]. split; [done|]. split.
  - intros outer inner. split; [apply ex_form_forms|]. split; [apply ex_form_12|]. split; [apply ex_form_text|].
    eapply C85_forms_12_partial; [apply ex_form_mean|apply ex_form_forms|done|done|apply (ex_form_12 true true)|apply ex_form_12|apply (ex_form_text true true)|apply ex_form_text].
  - apply (bool_decide_unpack _). vm_compute. exact I.
Qed.

(** With a run of two nulls it is false of the code, which takes a run for one element of a BinaryArray. *)
Theorem C85_runs_refuted : ~ forall root ts ts' m W W', t_message root ts m ->
  array_forms true ts ts' -> spaced ts -> no_value_12 ts -> no_value_12 ts' ->
  message_bytes root ts W -> message_bytes root ts' W' -> deserialize W = POk m -> deserialize W' = POk m.
Proof.
  intros H.
  assert (deserialize (ex_binary_bytes [x0d; x02]) = POk (MValue (VArray [VNull; VNull]))) as E; [|vm_compute in E; discriminate E].
  assert (e_token (Tk_nulls 2) [x0d; x02]) as Hnull by (right; by right).
  apply (H (Some 1%N) [Tk_objects 1 2; Tk_nulls 2] (ex_binary [2]%N) _
           (header_bytes 1 (-1) ++ ((x10 :: enc_uint 4 1 ++ enc_uint 4 2) ++ [x0d; x02]) ++ [x0b])).
  - eapply T_msg_value; [eapply T_objs_cons; [|apply T_objs_nil]|].
    + eapply (T_rec_objects _ _ _ _ [It_Nulls 2]).
      * cbn. eapply T_items_cons; [|apply T_items_nil]. eapply T_simple; [by apply T_lib_none|done|]. cbn. reflexivity.
      * right. by exists [], (It_Nulls 2).
      * apply (T_res_nulls 2), T_res_nil.
    + vm_compute. reflexivity.
  - apply (AF_array [Tk_objects 1 2] [_] [Tk_nulls 2] [Tk_nulls 2]).
    + apply (SA_objects 1 2); [lia|by left|]. right. eexists _, _, _. split; [reflexivity|by left].
    + repeat constructor.
  - intros before t u after E Ht. destruct before as [|a [|b [|c before]]]; cbn [app] in E; injection E; intros; subst; try done; by destruct before.
  - intros v b Hin Hb. repeat (apply elem_of_cons in Hin as [?|Hin]; [discriminate|]); by apply elem_of_nil in Hin.
  - intros v b Hin Hb. repeat (apply elem_of_cons in Hin as [?|Hin]; [discriminate|]); by apply elem_of_nil in Hin.
  - eexists _, _. split; [by apply header_root; [|apply hid_ok]|]. split; [|reflexivity].
    apply e_cons; [by apply (token_text_ok (Tk_objects 1 2))|]. rewrite <- (app_nil_r [x0d; x02]). apply e_cons; [exact Hnull|apply e_nil].
  - apply ex_binary_text. apply (e_cons _ 2%N [] [x0d; x02] []); [by right; right|apply e_nil].
  - vm_compute. reflexivity.
Qed.
(** And with the numbers 12 and 1, which the code takes for a library record in a BinaryArray. *)
Theorem C85_12_refuted : ~ forall root ts ts' m W W', t_message root ts m ->
  array_forms true ts ts' -> single_nulls ts -> spaced ts ->
  message_bytes root ts W -> message_bytes root ts' W' -> deserialize W = POk m -> deserialize W' = POk m.
Proof.
  intros H.
  assert (deserialize (header_bytes 1 (-1) ++ (single_text 1 2 [x00; x08] ++ enc_int 4 12 ++ enc_int 4 1) ++ [x0b])
          = POk (MValue (VArray [VInt32 12; VInt32 1]))) as E; [|vm_compute in E; discriminate E].
  apply (H (Some 1%N) [Tk_prims 1 PT_Int32 [VInt32 12; VInt32 1]]
           [Tk_array 1 BAT_Single [2%N] None (K_Primitive PT_Int32); Tk_value (VInt32 12); Tk_value (VInt32 1)] _
           (header_bytes 1 (-1) ++ prims_text 1 [12; 1]%Z ++ [x0b])).
  - eapply T_msg_value; [eapply T_objs_cons; [apply T_rec_prims|apply T_objs_nil]|]. vm_compute. reflexivity.
  - apply (AF_array [Tk_prims 1 PT_Int32 [VInt32 12; VInt32 1]] (Tk_array _ _ _ _ _ :: map Tk_value [VInt32 12; VInt32 1]) [] []); [|constructor].
    apply (SA_primitives 1 PT_Int32 [VInt32 12; VInt32 1]); [cbn; lia|by repeat constructor|by left|]. right. by eexists _, _.
  - intros n Hin. by apply elem_of_list_singleton in Hin.
  - intros before t u after E Ht. destruct before as [|a [|b before]]; cbn [app] in E; injection E; intros; subst; try done.
  - eexists _, _. split; [by apply header_root; [|apply hid_ok]|]. split; [|reflexivity].
    rewrite <- (app_nil_r (prims_text 1 _)). apply e_cons; [|apply e_nil]. by apply (prims_text_ok 1 [12; 1]%Z); [| |cbn; lia].
  - eexists _, _. split; [by apply header_root; [|apply hid_ok]|]. split; [|reflexivity].
    apply e_cons; [by apply (single_text_ok 1 2 (K_Primitive PT_Int32) [x00] [x08])|].
    apply e_cons; [by apply small_int_ok|]. rewrite <- (app_nil_r (enc_int 4 1)). apply e_cons; [by apply small_int_ok|apply e_nil].
  - vm_compute. reflexivity.
Qed.
End with_decimal.
