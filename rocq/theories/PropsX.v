(** C70: what has been read matters only through the ids that the rest names.  C71: the order of
    independent records does not matter. *)
From Verif Require Import Base Utf8 Value DataTypes Records Parser Wire BaseLemmas DataTypesLemmas
  RecordsLemmas Grammar Complete Message Run Spec LemmasA PropsB PropsC Positions Reach LemmasD Tokens TokenLemmas
  Blocks BlockLemmas Agree PropsW.
From Coq Require Import Lia ZifyNat ZifyN Permutation.

Section C70.
Context {DL : DecimalLib}.

(** Two messages with the same root id that go on alike, after well-formed records: if the objects and
    libraries known at this point are the same for every id the rest contains, and for the root id,
    then the outcome is the same, whatever the rest is. *)
Theorem C70_tables : forall W W' root e e' rest,
  after W root e rest -> after W' root e' rest ->
  (forall n, mentions rest n \/ n = root -> e_objs e !! n = e_objs e' !! n) ->
  (forall n, mentions rest n -> e_libs e !! n = e_libs e' !! n) ->
  deserialize W = deserialize W'.
Proof.
  intros W W' root e e' T (ro & hb & body & -> & Hh & -> & Ho)%after_header
    (ro' & hb' & body' & -> & Hh' & -> & Ho')%after_header H1 H2.
  eapply agree_outcome; [exact Hh|exact Hh'|exact Ho|exact Ho'|]. split; [done|]. split; [done|]. split; [|done].
  intros n [Hn|Hn]; apply H1; [by left|right]. destruct (N.eqb root 0); [done|by injection Hn].
Qed.

Lemma undisturbed_12 R ts : no_value_12 ts -> undisturbed_before R ts.
Proof.
  intros Hn before v after b -> Hl. inversion Hl as [|? ? b1 b2 Hb Hl']; subst. cbn in Hb.
  assert (head b1 <> Some x0c) as H12 by (apply (Hn v b1); [set_solver|done]).
  destruct b1 as [|c b1].
  - exfalso. clear -Hb. destruct v; cbn in Hb; try done; try (by destruct Hb as [_ Hb]); try (by destruct b).
    destruct Hb as (s & (p & (init & last & Hp & _) & Hb & _) & _).
    symmetry in Hb. apply app_eq_nil in Hb as [-> _]. by destruct init.
  - cbn. destruct c; try done.
Qed.
Lemma blocks_app e Xs Ys e2 : t_blocks e (Xs ++ Ys) e2 <-> exists e1, t_blocks e Xs e1 /\ t_blocks e1 Ys e2.
Proof.
  revert e. induction Xs as [|X Xs IH]; intros e; cbn.
  - split; [intros H; exists e; split; [constructor|done]|]. intros (e1 & H & ?). by inversion H; subst.
  - rewrite blocks_cons. split.
    + intros (e1 & Hs & H). apply IH in H as (e3 & ? & ?). exists e3. split; [apply blocks_cons; eauto|done].
    + intros (e3 & H & ?). apply blocks_cons in H as (e1 & ? & ?). exists e1. split; [done|]. apply IH. eauto.
Qed.

(** A record whose ids the rest does not contain, and that is not the root, may be left out or
    inserted, whatever the rest is. *)
Theorem C70_stranger : forall root hb Xs X e e1 b bX rest,
  e_header root hb ->
  t_blocks empty_env Xs e -> t_blocks e [X] e1 ->
  e_list e_token (concat Xs) b -> e_list e_token X bX ->
  undisturbed_before rest (concat Xs) -> undisturbed_before rest (concat Xs ++ X) ->
  (forall n, n ∈ objects_of X -> ~ mentions rest n /\ root <> Some n) ->
  (forall n, n ∈ declared_by X -> ~ mentions rest n) ->
  deserialize (hb ++ b ++ bX ++ rest) = deserialize (hb ++ b ++ rest).
Proof.
  intros root hb Xs X e e1 b bX T Hh Hb HX Eb EX U1 U2 Ho Hl.
  apply (agree_outcome root hb hb _ _ e1 e T Hh Hh).
  - eapply (blocks_t2g T _ (Xs ++ [X])); [apply blocks_app; eauto|]. rewrite concat_app. cbn [concat]. rewrite app_nil_r.
    split; [|exact U2]. exists (b ++ bX). split; [by apply e_list_app|]. by rewrite app_assoc.
  - eapply (blocks_t2g T _ Xs); [exact Hb|]. split; [|exact U1]. eauto.
  - apply blocks_cons in HX as (e2 & HX & H2). inversion H2; subst. apply block_frame in HX as [[H3 H4] _].
    split; [done|]. split; [done|]. split; cbn.
    + intros n Hn. apply H3. intros HnX. destruct (Ho n HnX). naive_solver.
    + intros n Hn. apply H4. intros HnX. by apply (Hl n HnX).
Qed.

(** *** Examples *)

Fixpoint windows (i : bytes) : list bytes :=
  match i with [] => [[]] | c :: r => take 4 i :: windows r end.
Lemma mentions_window i n : mentions i n -> enc_uint 4 n ∈ windows i.
Proof.
  intros (p & q & ->). induction p as [|c p IH]; [|right; exact IH].
  cbn [enc_uint app windows take]. left.
Qed.
Lemma no_mention i n : bool_decide (enc_uint 4 n ∈ windows i) = false -> ~ mentions i n.
Proof. intros H Hm. apply bool_decide_eq_false in H. by apply H, mentions_window. Qed.

(** Two messages that go on with an array (the root, 4) that holds the object 1: in the first the
    strings 1 and 2 precede it, in the second an array of two integers (9) and the string 1. *)
Definition ex_text : list token -> bytes := fun ts => concat (map token_text ts).
Lemma ex_text_ok ts : forallb small_token ts = true -> e_list e_token ts (ex_text ts).
Proof. apply e_list_map, token_text_ok. Qed.
Definition ex_rest : bytes := ex_text [Tk_objects 4 1; Tk_reference 1] ++ [x0b].
Definition ex_one : bytes := ex_text [Tk_string 1 (ex_name 120); Tk_string 2 (ex_name 121)].
Definition ex_other : bytes := (x0f :: enc_uint 4 9 ++ enc_uint 4 2 ++ [x02; x07; x08]) ++ ex_text [Tk_string 1 (ex_name 120)].
Definition ex_one_env : env := add_obj 2 (VString (ex_name 121)) (add_obj 1 (VString (ex_name 120)) empty_env).
Definition ex_other_env : env := add_obj 1 (VString (ex_name 120)) (add_obj 9 (VArray [VByte 7; VByte 8]) empty_env).
Lemma ex_one_after : after (header_bytes 4 (-1) ++ ex_one ++ ex_rest) 4 ex_one_env ex_rest.
Proof.
  exists (-1)%Z, (ex_one ++ ex_rest). split; [done|]. split; [done|]. split; [done|].
  unfold ex_one, ex_text. cbn [map concat]. rewrite app_nil_r, <- app_assoc.
  eapply G_objs_cons; [apply G_rec_string; apply (token_text_ok (Tk_string 1 (ex_name 120))); reflexivity|].
  eapply G_objs_cons; [apply G_rec_string; apply (token_text_ok (Tk_string 2 (ex_name 121))); reflexivity|]. apply G_objs_nil.
Qed.
Lemma ex_other_after : after (header_bytes 4 7 ++ ex_other ++ ex_rest) 4 ex_other_env ex_rest.
Proof.
  exists 7%Z, (ex_other ++ ex_rest). split; [done|]. split; [done|]. split; [done|].
  unfold ex_other, ex_text. cbn [map concat]. rewrite app_nil_r, <- app_assoc.
  eapply G_objs_cons.
  - apply (G_rec_prims _ _ 9 PT_Byte [VByte 7; VByte 8]). eexists _, [x07; x08]. split; [|split; [|split]].
    + eexists _, _. split; [split; [|reflexivity]; by split|]. split; [split; [|reflexivity]; done|]. reflexivity.
    + by repeat constructor.
    + apply (e_cons _ _ _ [x07] [x08]); [done|]. apply (e_cons _ _ _ [x08] []); [done|]. constructor.
    + reflexivity.
  - eapply G_objs_cons; [apply G_rec_string; apply (token_text_ok (Tk_string 1 (ex_name 120))); reflexivity|]. apply G_objs_nil.
Qed.
Example C70_example :
  after (header_bytes 4 (-1) ++ ex_one ++ ex_rest) 4 ex_one_env ex_rest
  /\ after (header_bytes 4 7 ++ ex_other ++ ex_rest) 4 ex_other_env ex_rest
  /\ (forall n, mentions ex_rest n \/ n = 4%N -> e_objs ex_one_env !! n = e_objs ex_other_env !! n)
  /\ (forall n, mentions ex_rest n -> e_libs ex_one_env !! n = e_libs ex_other_env !! n)
  /\ e_objs ex_one_env <> e_objs ex_other_env
  /\ deserialize (header_bytes 4 7 ++ ex_other ++ ex_rest) = POk (MValue (VArray [VString (ex_name 120)])).
Proof.
  split; [apply ex_one_after|]. split; [apply ex_other_after|]. split; [|split; [done|split]].
  - intros n Hn. cbn. destruct (decide (n = 2%N)) as [-> |H2].
    { destruct Hn as [Hn|Hn]; [|done]. exfalso. revert Hn. apply no_mention. vm_compute. reflexivity. }
    destruct (decide (n = 9%N)) as [-> |H9].
    { destruct Hn as [Hn|Hn]; [|done]. exfalso. revert Hn. apply no_mention. vm_compute. reflexivity. }
    rewrite lookup_insert_ne by done. destruct (decide (n = 1%N)) as [-> |H1]; [by rewrite !lookup_insert|].
    rewrite !lookup_insert_ne by done. done.
  - intros H. assert (e_objs ex_one_env !! 2%N = e_objs ex_other_env !! 2%N) as E by (by rewrite H). vm_compute in E. discriminate E.
  - vm_compute. reflexivity.
Qed.
End C70.

Section C71.
Context {DL : DecimalLib}.

(** Independent records at the beginning of a message may be put in any other order, and spelled
    otherwise: the outcome is the same, whatever follows them. *)
Theorem C71_order_partial : forall root hb Xs Ys e b b' rest,
  e_header root hb ->
  t_blocks empty_env Xs e -> pairwise independent Xs -> Permutation Xs Ys ->
  e_list e_token (concat Xs) b -> e_list e_token (concat Ys) b' ->
  undisturbed_before rest (concat Xs) -> undisturbed_before rest (concat Ys) ->
  deserialize (hb ++ b ++ rest) = deserialize (hb ++ b' ++ rest).
Proof.
  intros root hb Xs Ys e b b' T Hh Hb Hp HP Eb Eb' U U'. apply (agree_outcome root hb hb _ _ e e T Hh Hh).
  - eapply (blocks_t2g T _ Xs); [exact Hb|]. split; [|exact U]. eauto.
  - eapply (blocks_t2g T _ Ys); [eapply blocks_perm; [exact HP|exact Hp|exact Hb]|]. split; [|exact U']. eauto.
  - done.
Qed.
Lemma concat_perm {A} (Xs Ys : list (list A)) : Permutation Xs Ys -> Permutation (concat Xs) (concat Ys).
Proof.
  induction 1 as [|X Xs Ys _ IH|X Y Xs|Xs Ys Zs _ IH1 _ IH2]; cbn; [done|by apply Permutation_app_head| |by etrans].
  rewrite !app_assoc. apply Permutation_app_tail, Permutation_app_comm.
Qed.
(** The same for records in which no member value starts with the byte 12. *)
Theorem C71_order_12_partial : forall root hb Xs Ys e b b' rest,
  e_header root hb ->
  t_blocks empty_env Xs e -> pairwise independent Xs -> Permutation Xs Ys ->
  no_value_12 (concat Xs) ->
  e_list e_token (concat Xs) b -> e_list e_token (concat Ys) b' ->
  deserialize (hb ++ b ++ rest) = deserialize (hb ++ b' ++ rest).
Proof.
  intros root hb Xs Ys e b b' T Hh Hb Hp HP Hn Eb Eb'.
  eapply C71_order_partial; [exact Hh|exact Hb|exact Hp|exact HP|exact Eb|exact Eb'| |]; apply undisturbed_12; [done|].
  intros v x Hin. apply Hn. revert Hin. rewrite !elem_of_list_In. apply Permutation_in. symmetry. by apply concat_perm.
Qed.

(** *** Example: an object with its library, an array with a string in it, and a string. *)
Definition ex_block1 : list token :=
  [Tk_library 5 (ex_name 76); Tk_class ex_outer_class; Tk_value (VInt32 7); Tk_class ex_inner_class; Tk_string 3 (ex_name 120)].
Definition ex_block2 : list token := [Tk_objects 4 2; Tk_reference 6; Tk_reference 8; Tk_string 6 (ex_name 121); Tk_string 8 (ex_name 122)].
Definition ex_block3 : list token := [Tk_string 7 (ex_name 123)].
Definition ex_blocks : list (list token) := [ex_block1; ex_block2; ex_block3].
Definition ex_blocks_env : env :=
  add_obj 7 (VString (ex_name 123)) (add_obj 4 (VArray [VString (ex_name 121); VString (ex_name 122)])
    (del_obj 8 (del_obj 6 (add_obj 1 ex_outer_object (add_lib 5 (ex_name 76) empty_env))))).
Lemma ex_blocks_mean : t_blocks empty_env ex_blocks ex_blocks_env.
Proof.
  eapply T_blocks_cons.
  { apply T_rec_object. eapply (T_class _ _ _ _ ex_outer_class).
    - by apply T_lib_some.
    - cbn. by eexists.
    - cbn. eapply T_items_cons.
      + eapply T_simple; [by apply T_lib_none|done|]. cbn. split; reflexivity.
      + eapply T_items_cons; [|apply T_items_nil]. eapply (T_inline _ _ _ _ _ 2); [by apply T_lib_none| |].
        all: cycle 1.
        * eapply (T_class _ _ _ _ ex_inner_class).
          -- by apply T_lib_none.
          -- cbn. by eexists.
          -- cbn. eapply T_items_cons; [|apply T_items_nil].
             eapply T_simple; [by apply T_lib_none|done|]. cbn. reflexivity.
          -- apply T_res_value, T_res_nil.
        * cbn. eexists. split; [reflexivity|]. split; reflexivity.
    - apply T_res_value, T_res_value, T_res_nil. }
  eapply T_blocks_cons.
  { eapply (T_rec_objects _ _ _ _ [It_Ref 6; It_Ref 8]).
    + cbn. eapply T_items_cons; [eapply T_simple; [by apply T_lib_none|done|]; cbn; reflexivity|].
      eapply T_items_cons; [eapply T_simple; [by apply T_lib_none|done|]; cbn; reflexivity|].
      apply T_items_nil.
    + right. by exists [It_Ref 6], (It_Ref 8).
    + eapply T_res_next; [vm_compute; reflexivity|apply T_rec_string|].
      eapply T_res_next; [vm_compute; reflexivity|apply T_rec_string|apply T_res_nil]. }
  eapply T_blocks_cons; [apply T_rec_string|]. apply T_blocks_nil.
Qed.
Definition ex_rest2 : bytes := ex_text [Tk_objects 9 2; Tk_reference 4; Tk_reference 1] ++ [x0b].
Example C71_example :
  let hb := header_bytes 9 (-1) in
  let b := ex_text (concat ex_blocks) in
  let b' := ex_text (concat [ex_block3; ex_block1; ex_block2]) in
  e_header (Some 9%N) hb /\ t_blocks empty_env ex_blocks ex_blocks_env /\ pairwise independent ex_blocks
  /\ Permutation ex_blocks [ex_block3; ex_block1; ex_block2]
  /\ no_value_12 (concat ex_blocks)
  /\ e_list e_token (concat ex_blocks) b /\ e_list e_token (concat [ex_block3; ex_block1; ex_block2]) b'
  /\ b <> b'
  /\ deserialize (hb ++ b ++ ex_rest2)
     = POk (MValue (VArray [VArray [VString (ex_name 121); VString (ex_name 122)]; ex_outer_object])).
Proof.
  cbv zeta. split; [by apply (header_bytes_header 9 (-1))|]. split; [apply ex_blocks_mean|]. split.
  { repeat (apply pw_cons || apply pw_nil || apply Forall_cons_2 || apply Forall_nil_2).
    all: split; [|split]; intros n; cbn; set_solver. }
  split. { unfold ex_blocks. rewrite Permutation_app_comm with (l := [ex_block1; ex_block2]) (l' := [ex_block3]). done. }
  split.
  { intros v b Hin Hb. cbn in Hin. repeat (apply elem_of_cons in Hin as [Heq|Hin]; [simplify_eq|]); [|by apply elem_of_nil in Hin].
    destruct Hb as [_ ->]. done. }
  split; [by apply ex_text_ok|]. split; [by apply ex_text_ok|]. split; [vm_compute; congruence|].
  vm_compute. reflexivity.
Qed.

(** Without the condition it is false of the code: in another order a member that starts with the
    byte 12 can look like a library record. *)
Definition ex_12_block : list token :=
  [Tk_class (mkClassHeader 1 (ex_name 65) [ex_name 97] (Some [K_Primitive PT_Int32]) None); Tk_value (VInt32 12)].
Definition ex_12_blocks : list (list token) := [ex_12_block; [Tk_string 200 (ex_name 120)]; [Tk_string 2 (ex_name 121)]].
Definition ex_12_env : env :=
  add_obj 2 (VString (ex_name 121)) (add_obj 200 (VString (ex_name 120))
    (add_obj 1 (VObject (mkObj (ex_name 65) None [(ex_name 97, VInt32 12)])) empty_env)).
Theorem C71_order_refuted : ~ forall root hb Xs Ys e b b' rest,
  e_header root hb ->
  t_blocks empty_env Xs e -> pairwise independent Xs -> Permutation Xs Ys ->
  e_list e_token (concat Xs) b -> e_list e_token (concat Ys) b' ->
  deserialize (hb ++ b ++ rest) = deserialize (hb ++ b' ++ rest).
Proof.
  intros H.
  assert (deserialize (header_bytes 1 (-1) ++ ex_text (concat ex_12_blocks) ++ [x0b])
    = deserialize (header_bytes 1 (-1) ++ ex_text (concat [ex_12_block; [Tk_string 2 (ex_name 121)]; [Tk_string 200 (ex_name 120)]]) ++ [x0b])) as E.
  { eapply (H (Some 1%N) _ ex_12_blocks _ ex_12_env).
    - by apply (header_bytes_header 1 (-1)).
    - eapply T_blocks_cons.
      { apply T_rec_object. eapply T_class; [by apply T_lib_none|reflexivity| |].
        - cbn. eapply T_items_cons; [|apply T_items_nil]. eapply T_simple; [by apply T_lib_none|done|]. cbn. split; reflexivity.
        - apply T_res_value, T_res_nil. }
      eapply T_blocks_cons; [apply T_rec_string|]. eapply T_blocks_cons; [apply T_rec_string|]. apply T_blocks_nil.
    - repeat (apply pw_cons || apply pw_nil || apply Forall_cons_2 || apply Forall_nil_2).
      all: split; [|split]; intros n; cbn; set_solver.
    - unfold ex_12_blocks. apply perm_skip. apply perm_swap.
    - by apply ex_text_ok.
    - by apply ex_text_ok. }
  vm_compute in E. discriminate E.
Qed.

(** The hypotheses of C70_stranger: the object with its library (block 1) is a stranger to the array
    that follows, which holds the array of block 2 and nine nulls. *)
Definition ex_rest3 : bytes := ex_text [Tk_objects 9 10; Tk_reference 4] ++ [x0d; x09; x0b].
Example C70_stranger_example : exists e e1,
  e_header (Some 9%N) (header_bytes 9 (-1))
  /\ t_blocks empty_env [ex_block2] e /\ t_blocks e [ex_block1] e1
  /\ undisturbed_before ex_rest3 (concat [ex_block2]) /\ undisturbed_before ex_rest3 (concat [ex_block2] ++ ex_block1)
  /\ (forall n, n ∈ objects_of ex_block1 -> ~ mentions ex_rest3 n /\ Some 9%N <> Some n)
  /\ (forall n, n ∈ declared_by ex_block1 -> ~ mentions ex_rest3 n)
  /\ deserialize (header_bytes 9 (-1) ++ ex_text (concat [ex_block2]) ++ ex_text ex_block1 ++ ex_rest3)
     = POk (MValue (VArray (VArray [VString (ex_name 121); VString (ex_name 122)] :: replicate 9 VNull))).
Proof.
  destruct C71_example as (_ & Hb & Hp & _ & Hn & _).
  assert (no_value_12 (concat [ex_block2] ++ ex_block1)) as H12.
  { intros v b Hin. apply Hn. cbn in *. set_solver. }
  assert (no_value_12 (concat [ex_block2])) as H12'.
  { intros v b Hin. apply Hn. cbn in *. set_solver. }
  apply (blocks_perm ex_blocks ([ex_block2] ++ [ex_block1] ++ [ex_block3])) in Hb; [|apply perm_swap|exact Hp].
  apply blocks_app in Hb as (e & H1 & Hb). apply blocks_app in Hb as (e1 & H2 & _). exists e, e1.
  split; [by apply (header_bytes_header 9 (-1))|]. split; [done|]. split; [done|].
  split; [by apply undisturbed_12|]. split; [by apply undisturbed_12|]. split; [|split].
  - intros n Hn'. cbn in Hn'. repeat (apply elem_of_cons in Hn' as [-> |Hn']); [| | |by apply elem_of_nil in Hn'].
    all: split; [apply no_mention; vm_compute; reflexivity|done].
  - intros n Hn'. cbn in Hn'. apply elem_of_list_singleton in Hn' as ->. apply no_mention; vm_compute; reflexivity.
  - vm_compute. reflexivity.
Qed.
End C71.
