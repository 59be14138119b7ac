(** C72: names and values are only copied. *)
From Verif Require Import Base Utf8 Value DataTypes Records Parser Wire BaseLemmas DataTypesLemmas
  RecordsLemmas Grammar Complete Message Spec LemmasA PropsB PropsC Tokens TokenLemmas PropsW Relabel RelabelLemmas.
From Coq Require Import Lia ZifyNat ZifyN.

Section C72.
Context {DL : DecimalLib}.

(** A message with the records [ts] and the meaning [m], with other names and other values: it is
    accepted, and its meaning is [m] with the same replacements. *)
Theorem C72_relabelling_partial : forall root ts m r W,
  relabelling_ok r ->
  t_message root ts m ->
  undisturbed (map (relabel r) ts) ->
  message_bytes root (map (relabel r) ts) W ->
  deserialize W = POk (relabel_message r m).
Proof.
  intros root ts m r W Hr Ht Hu HW. apply message_complete.
  eapply message_t2g; [|exact Hu|exact HW]. by apply message_relabel.
Qed.
(** The same if no new member value starts with the byte 12. *)
Theorem C72_relabelling_12_partial : forall root ts m r W,
  relabelling_ok r ->
  t_message root ts m ->
  no_value_12 (map (relabel r) ts) ->
  message_bytes root (map (relabel r) ts) W ->
  deserialize W = POk (relabel_message r m).
Proof.
  intros root ts m r W Hr Ht Hu. apply C72_relabelling_partial; [done..|]. by apply no_value_12_undisturbed.
Qed.

(** *** Example: the message of C69 (two objects in a library, an array, a string) with longer
    names of classes and members, another library, longer strings, and 7 replaced by 1000. *)
Definition ex_relabelling : relabelling :=
  mkRelabelling (fun s => s ++ ex_name 46 ++ s) (fun _ => ex_name 90) (fun s => ex_name 95 ++ s)
    (fun s => s ++ s) (fun v => match v with VInt32 _ => VInt32 1000 | _ => v end).
Lemma ex_relabelling_ok : relabelling_ok ex_relabelling.
Proof.
  split; [|by intros []].
  intros x y H. cbn in H. by injection H.
Qed.
Example C72_relabelling_ex :
  relabelling_ok ex_relabelling /\ t_message (Some 4%N) ex_tokens ex_meaning
  /\ no_value_12 (map (relabel ex_relabelling) ex_tokens)
  /\ message_bytes (Some 4%N) (map (relabel ex_relabelling) ex_tokens)
       (message_text 4 (map (relabel ex_relabelling) ex_tokens))
  /\ deserialize (message_text 4 (map (relabel ex_relabelling) ex_tokens))
     = POk (MValue (VArray [VObject (mkObj (ex_name 65 ++ ex_name 46 ++ ex_name 65) (Some (ex_name 90))
         [(ex_name 95 ++ ex_name 97, VInt32 1000);
          (ex_name 95 ++ ex_name 98, VObject (mkObj (ex_name 66 ++ ex_name 46 ++ ex_name 66) (Some (ex_name 90))
             [(ex_name 95 ++ ex_name 99, VString (ex_name 120 ++ ex_name 120))]))]);
         VString (ex_name 121 ++ ex_name 121)])).
Proof.
  split; [apply ex_relabelling_ok|]. split; [apply ex_tokens_mean|]. split; [|split].
  - intros v b Hin Hb. cbn in Hin.
    repeat (apply elem_of_cons in Hin as [Heq|Hin]; [simplify_eq|]); [|by apply elem_of_nil in Hin].
    destruct Hb as [_ ->]. done.
  - apply message_text_ok; vm_compute; reflexivity.
  - vm_compute. reflexivity.
Qed.

(** Without the condition it is false of the code: an object with the members 13 and a reference,
    in which 13 is replaced by 12. *)
Definition ex_13_tokens : list token :=
  [Tk_class ex_12_class; Tk_value (VInt32 13); Tk_reference 2; Tk_string 2 (ex_name 120)].
Definition ex_13_meaning : message :=
  MValue (VObject (mkObj (ex_name 65) None [(ex_name 97, VInt32 13); (ex_name 98, VString (ex_name 120))])).
Lemma ex_13_mean : t_message (Some 1%N) ex_13_tokens ex_13_meaning.
Proof.
  eapply T_msg_value.
  - eapply T_objs_cons; [|apply T_objs_nil].
    apply T_rec_object. eapply (T_class _ _ _ _ ex_12_class).
    + by apply T_lib_none.
    + reflexivity.
    + cbn. eapply T_items_cons.
      * eapply T_simple; [by apply T_lib_none|done|]. cbn. split; reflexivity.
      * eapply T_items_cons; [|apply T_items_nil]. eapply T_nested; [by left|by apply T_lib_none|].
        eapply T_simple; [by apply T_lib_none|done|]. cbn. reflexivity.
    + apply T_res_value. eapply T_res_next; [vm_compute; reflexivity|apply T_rec_string|apply T_res_nil].
  - vm_compute. reflexivity.
Qed.
Definition ex_to_12 : relabelling :=
  mkRelabelling id id id id (fun v => match v with VInt32 _ => VInt32 12 | _ => v end).
Theorem C72_relabelling_refuted : ~ forall root ts m r W W',
  relabelling_ok r ->
  t_message root ts m ->
  message_bytes root ts W ->
  message_bytes root (map (relabel r) ts) W' ->
  deserialize W = POk m ->
  deserialize W' = POk (relabel_message r m).
Proof.
  intros H.
  assert (deserialize (message_text 1 (map (relabel ex_to_12) ex_13_tokens)) = POk (relabel_message ex_to_12 ex_13_meaning)) as E.
  { eapply (H (Some 1%N) ex_13_tokens ex_13_meaning ex_to_12 (message_text 1 ex_13_tokens)).
    - split; [|by intros []]. intros x y Hxy. exact Hxy.
    - apply ex_13_mean.
    - apply message_text_ok; vm_compute; reflexivity.
    - apply message_text_ok; vm_compute; reflexivity.
    - vm_compute. reflexivity. }
  vm_compute in E. discriminate E.
Qed.
End C72.
