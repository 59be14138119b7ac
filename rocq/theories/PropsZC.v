(** * PropsZC: C76. *)
From Verif Require Import Base Utf8 Value DataTypes Records Parser Wire BaseLemmas Grammar Complete Message Spec
  LemmasA PropsB Tokens TokenLemmas Nulls NullLemmas PropsW.
From Coq Require Import Lia.

Section with_decimal.
Context {DL : DecimalLib}.

(** ** C76 Runs of nulls in arrays may be written in any way *)

Lemma respell_12 A ts ts' : rtc (respell A) ts ts' -> no_value_12 ts -> no_value_12 ts'.
Proof.
  induction 1 as [|x y z [before h len es ns ns' rest Hh Hes _ _ _ _] _ IH]; [done|]. intros Hn. apply IH.
  intros v b Hin Hb. apply (Hn v b); [|done]. clear -Hin.
  rewrite !elem_of_app, !elem_of_cons, !elem_of_app in Hin. rewrite !elem_of_app, !elem_of_cons, !elem_of_app.
  destruct Hin as [?|[?|[?|[(n & ? & _)%elem_of_list_fmap|?]]]]; auto. discriminate.
Qed.

(** Any number of replacements, in any object or string arrays at any place of the message. *)
Theorem C76_null_runs_partial : forall root ts ts' m W',
  t_message root ts m -> rtc (respell single_array) ts ts' ->
  undisturbed ts' -> message_bytes root ts' W' ->
  deserialize W' = POk m.
Proof.
  intros root ts ts' m W' Hm Hs Hu HW. apply message_complete. eapply message_t2g; [|exact Hu|exact HW].
  by eapply message_respells.
Qed.
Theorem C76_null_runs_12_partial : forall root ts ts' m W W',
  t_message root ts m -> rtc (respell single_array) ts ts' -> no_value_12 ts ->
  message_bytes root ts W -> message_bytes root ts' W' ->
  deserialize W = POk m /\ deserialize W' = POk m.
Proof.
  intros root ts ts' m W W' Hm Hs Hn HW HW'. split.
  - eapply (C76_null_runs_partial root ts ts); [done|reflexivity|by apply no_value_12_undisturbed|done].
  - eapply (C76_null_runs_partial root ts ts'); [done|done| |done].
    apply no_value_12_undisturbed. by eapply respell_12.
Qed.

(** Five elements: a string, three nulls, a reference.  The nulls are written as 1 + 2, as 3 and
    as 2 + 1; a run of less than 256 nulls has two notations. *)
Definition ex_runs (ns : list N) : list token :=
  [Tk_objects 1 5; Tk_string 2 (ex_name 120)] ++ map Tk_nulls ns ++ [Tk_reference 3; Tk_string 3 (ex_name 121)].
Definition ex_runs_meaning : message :=
  MValue (VArray [VString (ex_name 120); VNull; VNull; VNull; VString (ex_name 121)]).
Lemma ex_runs_mean : t_message (Some 1%N) (ex_runs [1; 2]%N) ex_runs_meaning.
Proof.
  eapply T_msg_value.
  - eapply T_objs_cons; [|apply T_objs_nil].
    eapply (T_rec_objects _ _ _ _ [It_Value (VString (ex_name 120)); It_Nulls 1; It_Nulls 2; It_Ref 3]).
    + cbn. do 4 (eapply T_items_cons; [eapply T_simple; [by apply T_lib_none|done|]; cbn; reflexivity|]).
      apply T_items_nil.
    + right. exists [It_Value (VString (ex_name 120)); It_Nulls 1; It_Nulls 2], (It_Ref 3). done.
    + apply T_res_value, (T_res_nulls 1), (T_res_nulls 2).
      eapply T_res_next; [vm_compute; reflexivity|apply T_rec_string|apply T_res_nil].
  - vm_compute. reflexivity.
Qed.
Lemma ex_runs_step ns ns' : Forall (fun n => (0 < n)%N) ns -> Forall (fun n => (0 < n)%N) ns' ->
  total ns = 3%N -> total ns' = 3%N -> respell single_array (ex_runs ns) (ex_runs ns').
Proof.
  intros H1 H2 H3 H4.
  apply (Respell _ [] (Tk_objects 1 5) 5 [Tk_string 2 (ex_name 120)] ns ns' [Tk_reference 3; Tk_string 3 (ex_name 121)]);
    [done|by repeat constructor|done|done|by rewrite H3, H4|rewrite H3; done].
Qed.
Definition ex_runs_bytes (runs : bytes) : bytes :=
  header_bytes 1 (-1) ++ (x10 :: enc_uint 4 1 ++ enc_uint 4 5) ++ (x06 :: enc_uint 4 2 ++ [x01; x78])
  ++ runs ++ (x09 :: enc_uint 4 3) ++ (x06 :: enc_uint 4 3 ++ [x01; x79]) ++ [x0b].
Lemma ex_runs_text ns runs : e_list e_null ns runs -> message_bytes (Some 1%N) (ex_runs ns) (ex_runs_bytes runs).
Proof.
  intros Hr. exists (header_bytes 1 (-1)), ((x10 :: enc_uint 4 1 ++ enc_uint 4 5) ++ (x06 :: enc_uint 4 2 ++ [x01; x78])
    ++ runs ++ (x09 :: enc_uint 4 3) ++ (x06 :: enc_uint 4 3 ++ [x01; x79])).
  split; [by apply header_root; [|apply hid_ok]|]. split; [|unfold ex_runs_bytes; by rewrite <- !app_assoc].
  change (ex_runs ns) with (Tk_objects 1 5 :: Tk_string 2 (ex_name 120) :: map Tk_nulls ns ++ [Tk_reference 3; Tk_string 3 (ex_name 121)]).
  apply e_cons; [by apply (token_text_ok (Tk_objects 1 5))|].
  apply e_cons; [by apply (token_text_ok (Tk_string 2 (ex_name 120)))|].
  induction Hr as [|n ns b bs Hb _ IH]; cbn [map].
  - change ([] ++ ?x) with x. apply (e_cons e_token (Tk_reference 3) [Tk_string 3 (ex_name 121)] (x09 :: enc_uint 4 3)); [by apply (token_text_ok (Tk_reference 3))|].
    rewrite <- (app_nil_r (x06 :: _)). apply e_cons; [by apply (token_text_ok (Tk_string 3 (ex_name 121)))|apply e_nil].
  - rewrite <- app_assoc. change ((?x :: ?y) ++ ?z) with (x :: y ++ z) at 1. by apply e_cons.
Qed.
Lemma ex_runs_12 ns : no_value_12 (ex_runs ns).
Proof.
  intros v b Hin Hb. unfold ex_runs in Hin. rewrite !elem_of_app in Hin.
  destruct Hin as [Hin|[(n & ? & _)%elem_of_list_fmap|Hin]]; [|discriminate|].
  all: repeat (apply elem_of_cons in Hin as [?|Hin]; [discriminate|]); by apply elem_of_nil in Hin.
Qed.
Example C76_ex :
  t_message (Some 1%N) (ex_runs [1; 2]%N) ex_runs_meaning
  /\ rtc (respell single_array) (ex_runs [1; 2]%N) (ex_runs [3]%N)
  /\ no_value_12 (ex_runs [1; 2]%N)
  /\ message_bytes (Some 1%N) (ex_runs [1; 2]%N) (ex_runs_bytes [x0a; x0d; x02])
  /\ message_bytes (Some 1%N) (ex_runs [3]%N) (ex_runs_bytes (x0e :: enc_uint 4 3)).
Proof.
  split; [apply ex_runs_mean|]. split; [apply rtc_once, ex_runs_step; by repeat constructor|].
  split; [apply ex_runs_12|]. split; apply ex_runs_text.
  - apply (e_cons _ 1%N [2%N] [x0a] [x0d; x02]); [by left|].
    apply (e_cons _ 2%N [] [x0d; x02] []); [|apply e_nil]. right. by right.
  - rewrite <- (app_nil_r (x0e :: _)). apply e_cons; [|apply e_nil]. right. by left.
Qed.

(** In a BinaryArray it is false of the code: two nulls, one by one and in one run. *)
Definition ex_binary (ns : list N) : list token := Tk_array 1 BAT_Single [2%N] None K_Object :: map Tk_nulls ns.
Definition ex_binary_bytes (runs : bytes) : bytes :=
  header_bytes 1 (-1) ++ (x07 :: enc_uint 4 1 ++ x00 :: (enc_uint 4 1 ++ enc_uint 4 2) ++ [x02]) ++ runs ++ [x0b].
Lemma ex_binary_text ns runs : e_list e_null ns runs -> message_bytes (Some 1%N) (ex_binary ns) (ex_binary_bytes runs).
Proof.
  intros Hr. exists (header_bytes 1 (-1)), ((x07 :: enc_uint 4 1 ++ x00 :: (enc_uint 4 1 ++ enc_uint 4 2) ++ [x02]) ++ runs).
  split; [by apply header_root; [|apply hid_ok]|]. split; [|unfold ex_binary_bytes; by rewrite <- !app_assoc].
  unfold ex_binary. apply e_cons.
  - exists (enc_uint 4 1), (enc_uint 4 1 ++ enc_uint 4 2), [], [x02], []. split; [done|]. split.
    { eexists. split; [|split; [|reflexivity]]; [done|]. rewrite <- (app_nil_r (enc_uint 4 2)).
      apply e_cons; [done|apply e_nil]. }
    split; [done|]. split; [done|]. split; [done|]. reflexivity.
  - induction Hr as [|n ns b bs Hb _ IH]; cbn [map]; [apply e_nil|by apply e_cons].
Qed.
Theorem C76_binary_array_refuted : ~ forall root ts ts' m W W',
  t_message root ts m -> respell nullable_array ts ts' -> no_value_12 ts ->
  message_bytes root ts W -> message_bytes root ts' W' ->
  deserialize W = POk m -> deserialize W' = POk m.
Proof.
  intros H.
  assert (deserialize (ex_binary_bytes [x0d; x02]) = POk (MValue (VArray [VNull; VNull]))) as E; [|vm_compute in E; discriminate E].
  apply (H (Some 1%N) (ex_binary [1; 1]%N) (ex_binary [2]%N) _ (ex_binary_bytes [x0a; x0a])).
  - eapply T_msg_value.
    + eapply T_objs_cons; [|apply T_objs_nil]. eapply (T_rec_array _ _ _ _ _ _ _ [It_Nulls 1; It_Nulls 1]).
      * intros [|[|k]] Hk; [done|done|cbn in Hk; lia].
      * cbn. do 2 (eapply T_items_cons; [eapply T_nested; [by left|by apply T_lib_none|];
          eapply T_simple; [by apply T_lib_none|done|]; cbn; reflexivity|]). apply T_items_nil.
      * apply (T_res_nulls 1), (T_res_nulls 1), T_res_nil.
      * right. split; [done|]. exists [[VNull]; [VNull]]. split; [by repeat constructor|done].
    + vm_compute. reflexivity.
  - apply (Respell _ [] (Tk_array 1 BAT_Single [2%N] None K_Object) 2 [] [1; 1]%N [2]%N []); by repeat constructor.
  - intros v b Hin Hb. repeat (apply elem_of_cons in Hin as [?|Hin]; [discriminate|]); by apply elem_of_nil in Hin.
  - apply ex_binary_text. apply (e_cons _ 1%N [1%N] [x0a] [x0a]); [by left|].
    apply (e_cons _ 1%N [] [x0a] []); [by left|apply e_nil].
  - apply ex_binary_text. apply (e_cons _ 2%N [] [x0d; x02] []); [by right; right|apply e_nil].
  - vm_compute. reflexivity.
Qed.
End with_decimal.
