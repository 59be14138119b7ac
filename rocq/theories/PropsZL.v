(** * PropsZL: C86, any number of changes. *)
From Verif Require Import Base Utf8 Value DataTypes Records Parser Wire BaseLemmas Grammar Complete Message Spec
  LemmasA PropsB Tokens TokenLemmas PropsW Blocks BlockLemmas Nulls NullLemmas Placement PlaceLemmas Untyped UntypedLemmas
  ArrayForms FormLemmas PropsZJ PropsZK Rewriting.
From Coq Require Import Lia.

Section with_decimal.
Context {DL : DecimalLib}.

(** ** C86 The same content, written in different ways *)

Lemma block_app e X id v e1 T : t_record e X id v e1 [] -> t_record e (X ++ T) id v e1 T.
Proof.
  intros Hr.
  pose proof (proj2 (proj2 (proj2 (proj2 (mut_local (fun _ => True) (fun _ => True))))) _ _ _ _ _ _ Hr) as (X' & E & _ & _ & HJ).
  rewrite app_nil_r in E. subst X'. destruct (HJ e T I ltac:(done) ltac:(done)) as (e1' & H1 & [E1 E2] & _).
  assert (e1' = e1) as -> by (apply env_eq; auto). exact H1.
Qed.
Lemma blocks_peel e Xs e' T e2 i2 : t_blocks e Xs e' -> t_objects e (concat Xs ++ T) e2 i2 -> stop i2 -> t_objects e' T e2 i2.
Proof.
  induction 1 as [e|e X id v e1 Xs e' Hr _ IH]; intros H S; [done|]. cbn [concat] in H. rewrite <- app_assoc in H.
  apply (block_app _ _ _ _ _ (concat Xs ++ T)) in Hr. inversion H as [|? ? ? ? ? ? ? ? Hr' Ho']; subst; [by apply stop_record in Hr|].
  destruct (record_det _ _ _ _ _ _ Hr _ _ _ _ Hr') as (<- & <- & <- & <-). by apply IH.
Qed.
Lemma blocks_push e Xs e' T e2 i2 : t_blocks e Xs e' -> t_objects e' T e2 i2 -> t_objects e (concat Xs ++ T) e2 i2.
Proof.
  induction 1 as [e|e X id v e1 Xs e' Hr _ IH]; intros H; [done|]. cbn [concat]. rewrite <- app_assoc.
  econstructor; [by apply block_app|by apply IH].
Qed.
Lemma message_order root Ws Xs Ys e e' rest m : t_blocks empty_env Ws e -> t_blocks e Xs e' -> pairwise independent Xs ->
  Permutation Xs Ys -> t_message root (concat Ws ++ concat Xs ++ rest) m -> t_message root (concat Ws ++ concat Ys ++ rest) m.
Proof.
  intros HW HX Hp HP Hm. pose proof (blocks_perm _ _ HP _ _ Hp HX) as HY.
  inversion Hm as [i e2 v Ho Hv|i e1 i1 m' e2 i2 e3 Ho Hme Ho']; subst.
  - econstructor; [|exact Hv]. eapply blocks_push; [exact HW|]. eapply blocks_push; [exact HY|].
    eapply blocks_peel; [exact HX| |done]. by eapply blocks_peel.
  - eapply T_msg_method; [|exact Hme|exact Ho']. pose proof (proj1 (method_stop _ _ _ _ _ _ Hme)) as S.
    eapply blocks_push; [exact HW|]. eapply blocks_push; [exact HY|].
    eapply blocks_peel; [exact HX| |exact S]. by eapply blocks_peel.
Qed.

Lemma message_rewrites root ts root' ts' m : rewrites (root, ts) (root', ts') -> t_message root ts m -> t_message root' ts' m.
Proof.
  intros H Hm. inversion H as [f g ? ? Hf Hg|? Ws Xs Ys e e' rest HW HX Hp HP|? ? ? Hr|? ? ? m' Hs Hm'|? ?|? ? Hs Hc|? ? ? Ha Hn Hs]; subst.
  - by apply message_rename.
  - by eapply message_order.
  - eapply message_respells; [by apply rtc_once|exact Hm].
  - by rewrite (message_places _ _ _ _ _ Hs Hm Hm').
  - apply (message_f false); [done|]. discriminate.
  - by apply (message_f true).
  - by eapply message_forms.
Qed.
(** After any number of such changes, the message is read as what it meant before. *)
Theorem C86_rewriting_partial : forall root ts root' ts' m W',
  t_message root ts m -> rtc rewrites (root, ts) (root', ts') ->
  undisturbed ts' -> message_bytes root' ts' W' -> deserialize W' = POk m.
Proof.
  intros root ts root' ts' m W' Hm Hs Hu HW. apply message_complete. eapply message_t2g; [|exact Hu|exact HW].
  remember (root, ts) as x eqn:Ex. remember (root', ts') as y eqn:Ey. clear Hu HW. revert root ts Ex Hm.
  induction Hs as [x|x [root1 ts1] y H _ IH]; intros root ts -> Hm.
  - by injection Ey as -> ->.
  - eapply IH; [done|reflexivity|]. by eapply message_rewrites.
Qed.
(** The condition on the last message can always be met, by one more change. *)
Theorem C86_readable : forall root ts root' ts' m W',
  t_message root ts m -> rtc rewrites (root, ts) (root', ts') -> message_bytes root' ts' W' ->
  exists V, message_bytes root' (as_objects ts') V /\ deserialize V = POk m.
Proof.
  intros root ts root' ts' m W' Hm Hs HW. destruct (C84_writable _ _ _ HW) as [[V HV] _]. exists V. split; [done|].
  eapply C86_rewriting_partial; [exact Hm| |apply forget_undisturbed|exact HV].
  eapply rtc_r; [exact Hs|apply RW_objects].
Qed.

(** The arrays of C85_ex in BinaryArray records, with other ids, declared as arrays of Object. *)
Definition ex_changed : list token :=
  [Tk_array 11 BAT_Single [1%N] None K_Object; Tk_reference 12;
   Tk_array 12 BAT_Single [2%N] None K_Object; Tk_typed (VInt32 7); Tk_typed (VInt32 8)].
Definition ex_changed_bytes : bytes :=
  header_bytes 11 (-1)
  ++ (single_text 11 1 [x02] ++ (x09 :: enc_uint 4 12) ++ single_text 12 2 [x02]
      ++ ([x08; x08] ++ enc_int 4 7) ++ ([x08; x08] ++ enc_int 4 8)) ++ [x0b].
Example C86_ex : t_message (Some 1%N) (ex_form true true) ex_form_meaning
  /\ rtc rewrites (Some 1%N, ex_form true true) (Some 11%N, ex_changed)
  /\ undisturbed ex_changed /\ message_bytes (Some 11%N) ex_changed ex_changed_bytes
  /\ length ex_changed_bytes = 65
  /\ deserialize ex_changed_bytes = POk ex_form_meaning.
Proof.
  split; [apply ex_form_mean|]. split.
  { apply (rtc_l _ _ (Some 1%N, ex_form false false)).
    { apply RW_arrays; [apply ex_form_forms|apply C85_ex|apply C85_ex]. }
    apply (rtc_l _ _ (option_map (fun n => (n + 10)%N) (Some 1%N), map (rename (fun n => (n + 10)%N) id) (ex_form false false))).
    { apply RW_names; [intros x y E; lia|by intros x y E]. }
    apply rtc_once. apply (RW_objects (Some 11%N)). }
  split; [apply (forget_undisturbed header_objects (map (rename (fun n => (n + 10)%N) id) (ex_form false false)))|].
  split; [|split; [vm_compute; reflexivity|vm_compute; reflexivity]].
  eexists _, _. split; [by apply header_root; [|apply hid_ok]|]. split; [|reflexivity].
  apply e_cons; [by apply (single_text_ok 11 1 K_Object [x02] [])|].
  apply e_cons; [by apply (token_text_ok (Tk_reference 12))|].
  apply e_cons; [by apply (single_text_ok 12 2 K_Object [x02] [])|].
  apply e_cons; [by apply (token_text_ok (Tk_typed (VInt32 7)))|].
  rewrite <- (app_nil_r ([x08; x08] ++ _)). apply e_cons; [by apply (token_text_ok (Tk_typed (VInt32 8)))|apply e_nil].
Qed.
End with_decimal.
