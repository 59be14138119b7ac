(** * PropsZE: C78. *)
From Verif Require Import Base Utf8 Value DataTypes Records Parser Wire BaseLemmas Grammar Complete Message Spec
  LemmasA PropsB Tokens TokenLemmas Placement PlaceLemmas PropsW.
From Coq Require Import Lia.

Section with_decimal.
Context {DL : DecimalLib}.

(** ** C78 It does not matter where a library is declared *)

(** Two messages of the format with the same libraries, declared at other places. *)
Theorem C78_libraries_partial : forall root ts ts' m m' W W',
  t_message root ts m -> t_message root ts' m' -> same_but_places ts ts' ->
  undisturbed ts -> undisturbed ts' -> message_bytes root ts W -> message_bytes root ts' W' ->
  deserialize W = POk m /\ deserialize W' = POk m.
Proof.
  intros root ts ts' m m' W W' Hm Hm' Hs Hu Hu' HW HW'. pose proof (message_places _ _ _ _ _ Hs Hm Hm') as E. subst m'.
  split; apply message_complete; [eapply message_t2g; [exact Hm|exact Hu|exact HW]|eapply message_t2g; [exact Hm'|exact Hu'|exact HW']].
Qed.
Lemma value_strip v ts : Tk_value v ∈ ts <-> Tk_value v ∈ strip ts.
Proof.
  induction ts as [|t ts IH]; [done|]. destruct t; cbn [strip]; rewrite ?elem_of_cons, IH; try done.
  split; [by intros [?|?]|auto].
Qed.
Theorem C78_libraries_12_partial : forall root ts ts' m m' W W',
  t_message root ts m -> t_message root ts' m' -> same_but_places ts ts' -> no_value_12 ts ->
  message_bytes root ts W -> message_bytes root ts' W' ->
  deserialize W = POk m /\ deserialize W' = POk m.
Proof.
  intros root ts ts' m m' W W' Hm Hm' Hs Hn HW HW'.
  eapply (C78_libraries_partial root ts ts'); [done|done|done|by apply no_value_12_undisturbed| |done|done].
  apply no_value_12_undisturbed. intros v b Hv. apply (Hn v b).
  apply (proj2 (value_strip _ _)). destruct Hs as [E _]. rewrite E. by apply (proj1 (value_strip _ _)).
Qed.

(** An object "A" with one member "a", an object of the class "B" of the library "L", which is
    declared in front of the object or inside of it. *)
Definition ex_outer : class_header := mkClassHeader 1 (ex_name 65) [ex_name 97] (Some [K_Object]) None.
Definition ex_inner : class_header := mkClassHeader 2 (ex_name 66) [] None (Some 3%N).
Definition ex_before : list token := [Tk_library 3 (ex_name 76); Tk_class ex_outer; Tk_class ex_inner].
Definition ex_inside : list token := [Tk_class ex_outer; Tk_library 3 (ex_name 76); Tk_class ex_inner].
Definition ex_placed : message :=
  MValue (VObject (mkObj (ex_name 65) None [(ex_name 97, VObject (mkObj (ex_name 66) (Some (ex_name 76)) []))])).
Lemma ex_inner_mean e r : e_libs e !! 3%N = Some (ex_name 76) ->
  t_class e (Tk_class ex_inner :: r) 2 (mkObj (ex_name 66) (Some (ex_name 76)) []) e r.
Proof.
  intros Hl. eapply (T_class _ _ _ _ ex_inner (Some (ex_name 76)) [] _ _ []); [by apply T_lib_none|by eexists|apply T_items_nil|apply T_res_nil].
Qed.
Lemma ex_before_mean : t_message (Some 1%N) ex_before ex_placed.
Proof.
  eapply T_msg_value; [eapply T_objs_cons; [|apply T_objs_nil]|].
  - apply T_rec_object. eapply (T_class _ _ _ _ ex_outer); [by apply T_lib_some|done| |apply T_res_value, T_res_nil].
    eapply T_items_cons; [|apply T_items_nil]. eapply T_nested; [by left|by apply T_lib_none|].
    eapply T_inline; [by apply T_lib_none|done|]. by apply ex_inner_mean.
  - vm_compute. reflexivity.
Qed.
Lemma ex_inside_mean : t_message (Some 1%N) ex_inside ex_placed.
Proof.
  eapply T_msg_value; [eapply T_objs_cons; [|apply T_objs_nil]|].
  - apply T_rec_object. eapply (T_class _ _ _ _ ex_outer); [by apply T_lib_none|done| |apply T_res_value, T_res_nil].
    eapply T_items_cons; [|apply T_items_nil]. eapply T_nested; [by left|by apply T_lib_some|].
    eapply T_inline; [by apply T_lib_none|done|]. by apply ex_inner_mean.
  - vm_compute. reflexivity.
Qed.
Example C78_ex :
  t_message (Some 1%N) ex_before ex_placed /\ t_message (Some 1%N) ex_inside ex_placed
  /\ same_but_places ex_before ex_inside /\ no_value_12 ex_before
  /\ message_bytes (Some 1%N) ex_before (message_text 1 ex_before)
  /\ message_bytes (Some 1%N) ex_inside (message_text 1 ex_inside)
  /\ message_text 1 ex_before <> message_text 1 ex_inside.
Proof.
  split; [apply ex_before_mean|]. split; [apply ex_inside_mean|]. split; [by split|]. split.
  { intros v b Hin Hb. repeat (apply elem_of_cons in Hin as [?|Hin]; [discriminate|]); by apply elem_of_nil in Hin. }
  split; [by apply message_text_ok; vm_compute|]. split; [by apply message_text_ok; vm_compute|]. vm_compute. congruence.
Qed.

(** Without the condition it is false of the code: the Int32 12, followed by a library record. *)
Definition ex_12_first : list token :=
  [Tk_library 3 (ex_name 76); Tk_class ex_12_class; Tk_value (VInt32 12); Tk_string 200 (ex_name 120)].
Definition ex_12_later : list token :=
  [Tk_class ex_12_class; Tk_value (VInt32 12); Tk_library 3 (ex_name 76); Tk_string 200 (ex_name 120)].
Lemma ex_12_first_mean : t_message (Some 1%N) ex_12_first ex_12_meaning.
Proof.
  eapply T_msg_value; [eapply T_objs_cons; [|apply T_objs_nil]|].
  - apply T_rec_object. eapply (T_class _ _ _ _ ex_12_class); [by apply T_lib_some|done| |apply T_res_value, T_res_value, T_res_nil].
    eapply T_items_cons; [eapply T_simple; [by apply T_lib_none|done|]; cbn; split; reflexivity|].
    eapply T_items_cons; [|apply T_items_nil]. eapply T_nested; [by left|by apply T_lib_none|].
    eapply T_simple; [by apply T_lib_none|done|]. cbn. reflexivity.
  - vm_compute. reflexivity.
Qed.
Lemma ex_12_later_mean : t_message (Some 1%N) ex_12_later ex_12_meaning.
Proof.
  eapply T_msg_value; [eapply T_objs_cons; [|apply T_objs_nil]|].
  - apply T_rec_object. eapply (T_class _ _ _ _ ex_12_class); [by apply T_lib_none|done| |apply T_res_value, T_res_value, T_res_nil].
    eapply T_items_cons; [eapply T_simple; [by apply T_lib_none|done|]; cbn; split; reflexivity|].
    eapply T_items_cons; [|apply T_items_nil]. eapply T_nested; [by left|by apply T_lib_some|].
    eapply T_simple; [by apply T_lib_none|done|]. cbn. reflexivity.
  - vm_compute. reflexivity.
Qed.
Theorem C78_libraries_refuted : ~ forall root ts ts' m m' W W',
  t_message root ts m -> t_message root ts' m' -> same_but_places ts ts' ->
  message_bytes root ts W -> message_bytes root ts' W' ->
  deserialize W = POk m -> deserialize W' = POk m.
Proof.
  intros H. assert (deserialize (message_text 1 ex_12_later) = POk ex_12_meaning) as E; [|vm_compute in E; discriminate E].
  eapply (H (Some 1%N) ex_12_first ex_12_later _ _ (message_text 1 ex_12_first)).
  - apply ex_12_first_mean.
  - apply ex_12_later_mean.
  - by split.
  - by apply message_text_ok; vm_compute.
  - by apply message_text_ok; vm_compute.
  - vm_compute. reflexivity.
Qed.
End with_decimal.
