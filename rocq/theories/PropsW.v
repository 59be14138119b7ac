(** C69: the ids of objects and libraries are only names. *)
From Verif Require Import Base Utf8 Value DataTypes Records Parser Wire BaseLemmas DataTypesLemmas
  RecordsLemmas Grammar Complete Message Spec LemmasA PropsB PropsC Tokens TokenLemmas.
From Coq Require Import Lia ZifyNat ZifyN.

Section C69.
Context {DL : DecimalLib}.

(** A message with the records [ts] and the meaning [m], with other object ids and other library
    ids: it is accepted with the same meaning, however its records are spelled. *)
Theorem C69_renaming_partial : forall root ts m f g W,
  Inj eq eq f -> Inj eq eq g ->
  t_message root ts m ->
  undisturbed (map (rename f g) ts) ->
  message_bytes (option_map f root) (map (rename f g) ts) W ->
  deserialize W = POk m.
Proof.
  intros root ts m f g W Hf Hg Ht Hu HW. apply message_complete.
  eapply message_t2g; [|exact Hu|exact HW]. by apply message_rename.
Qed.
(** The same for messages in which no member value starts with the byte 12: both messages are
    accepted with the same result. *)
Theorem C69_renaming_12_partial : forall root ts m f g W W',
  Inj eq eq f -> Inj eq eq g ->
  t_message root ts m -> no_value_12 ts ->
  message_bytes root ts W ->
  message_bytes (option_map f root) (map (rename f g) ts) W' ->
  deserialize W = POk m /\ deserialize W' = POk m.
Proof.
  intros root ts m f g W W' Hf Hg Ht Hn HW HW'. split.
  - apply message_complete. eapply message_t2g; [exact Ht| |exact HW]. by apply no_value_12_undisturbed.
  - apply (C69_renaming_partial root ts m f g W' Hf Hg Ht); [|exact HW'].
    apply no_value_12_undisturbed. intros v b Hin Hb. apply (Hn v b); [|done].
    apply elem_of_list_fmap in Hin as (t & Heq & Hin). by destruct t; cbn in Heq; simplify_eq.
Qed.
(** Every message of the grammar is such a sequence of records. *)
Theorem C69_every_message : forall W m, g_message W m ->
  exists root ts, message_bytes root ts W /\ t_message root ts m.
Proof. intros W m. apply message_g2t. Qed.

(** *** Examples *)

Definition small (s : str) : bytes := n2b (N.of_nat (length s)) :: s.
Definition is_small (s : str) : bool := (length s <? 128) && forallb (fun b => N.ltb (b2n b) 128) s.
Lemma small_ok s : is_small s = true -> e_str s (small s).
Proof.
  intros [Hl Hs]%andb_prop. apply Nat.ltb_lt in Hl.
  assert (bs_of (map b2n s) = s) as E.
  { clear. unfold bs_of. induction s as [|b s IH]; [done|]. cbn. rewrite IH. f_equal.
    by destruct b. }
  rewrite <- E at 1. unfold small. rewrite <- E at 3.
  replace (length s) with (length (map b2n s)) by apply map_length. apply ex_str.
  - apply Forall_forall. intros n Hn. apply elem_of_list_fmap in Hn as (b & -> & Hb).
    rewrite forallb_forall in Hs. specialize (Hs b). apply N.ltb_lt, Hs. by apply elem_of_list_In.
  - by rewrite map_length.
Qed.
Definition kind_info_bytes (k : kind) : bytes :=
  match k with
  | K_Primitive p | K_PrimitiveArray p => [n2b (pt_code p)]
  | K_SystemClass name => small name
  | K_Class name lid => small name ++ enc_uint 4 lid
  | _ => []
  end.
Definition small_kind (k : kind) : bool :=
  match k with
  | K_Any => false
  | K_SystemClass name => is_small name
  | K_Class name lid => is_small name && (0 <? lid)%N && (lid <? 2 ^ 31)%N
  | _ => true
  end.
Definition header_text (h : class_header) : bytes :=
  class_code (ch_types h) (ch_library h) :: enc_uint 4 (ch_object_id h) ++ small (ch_name h)
  ++ (enc_uint 4 (N.of_nat (length (ch_member_names h))) ++ concat (map small (ch_member_names h)))
  ++ match ch_types h with
     | None => []
     | Some ks => concat (map (fun k => match kind_code k with Some c => [c] | None => [] end) ks)
                  ++ concat (map kind_info_bytes ks)
     end
  ++ match ch_library h with None => [] | Some lid => enc_uint 4 lid end.
Definition id_ok (n : N) : bool := (0 <? n)%N && (n <? 2 ^ 31)%N.
Definition small_header (h : class_header) : bool :=
  id_ok (ch_object_id h) && is_small (ch_name h) && forallb is_small (ch_member_names h)
  && (length (ch_member_names h) <? 128)
  && match ch_types h with
     | None => true
     | Some ks => (length ks =? length (ch_member_names h)) && forallb small_kind ks
     end
  && match ch_library h with None => true | Some lid => id_ok lid end.
Lemma id_ok_valid n : id_ok n = true -> valid_id n.
Proof. intros [H1 H2]%andb_prop. apply N.ltb_lt in H1, H2. done. Qed.
Lemma e_list_map {A} (E : A -> bytes -> Prop) (h : A -> bytes) (c : A -> bool) l :
  (forall a, c a = true -> E a (h a)) -> forallb c l = true -> e_list E l (concat (map h l)).
Proof.
  intros H. induction l as [|a l IH]; cbn; intros Hl; [constructor|].
  apply andb_prop in Hl as [? ?]. constructor; auto.
Qed.
Lemma small_header_ok h : small_header h = true -> e_class_header h (header_text h).
Proof.
  intros [[[[[H1 H2]%andb_prop H3]%andb_prop H4]%andb_prop H5]%andb_prop H6]%andb_prop.
  apply Nat.ltb_lt in H4. eexists _, _, _, _, _. split; [split; [by apply id_ok_valid|reflexivity]|].
  split; [by apply small_ok|]. split.
  { eexists. split; [|split; [|reflexivity]]; [unfold valid_len; lia|].
    by eapply e_list_map; [apply small_ok|]. }
  split; [|split; [|reflexivity]].
  - destruct (ch_types h) as [ks|]; [|reflexivity]. apply andb_prop in H5 as [Hl H5].
    apply Nat.eqb_eq in Hl. eexists _, _. split; [done|]. split; [|split; [|reflexivity]].
    + eapply e_list_map; [|exact H5]. intros k Hk. unfold e_kind_code. by destruct k.
    + eapply e_list_map; [|exact H5]. intros k Hk. destruct k; cbn in *; try reflexivity; try done.
      * by apply small_ok.
      * apply andb_prop in Hk as [[Hk ?]%andb_prop ?]. eexists _, _. split; [by apply small_ok|].
        split; [|reflexivity]. split; [|done]. apply id_ok_valid. by apply andb_true_intro.
  - destruct (ch_library h); [|reflexivity]. split; [by apply id_ok_valid|done].
Qed.

(** Two bytes for two objects in library 5, one of them a member of the other; an array with a
    reference to the first and to a string that follows. *)
Definition ex_name (n : N) : str := [n2b n].
Definition ex_outer_class : class_header :=
  mkClassHeader 1 (ex_name 65) [ex_name 97; ex_name 98]
    (Some [K_Primitive PT_Int32; K_Class (ex_name 66) 5]) (Some 5%N).
Definition ex_inner_class : class_header :=
  mkClassHeader 2 (ex_name 66) [ex_name 99] (Some [K_String]) (Some 5%N).
Definition ex_tokens : list token :=
  [Tk_library 5 (ex_name 76); Tk_class ex_outer_class; Tk_value (VInt32 7);
   Tk_class ex_inner_class; Tk_string 3 (ex_name 120);
   Tk_objects 4 2; Tk_reference 1; Tk_reference 6; Tk_string 6 (ex_name 121)].
Definition ex_inner_object : value :=
  VObject (mkObj (ex_name 66) (Some (ex_name 76)) [(ex_name 99, VString (ex_name 120))]).
Definition ex_outer_object : value :=
  VObject (mkObj (ex_name 65) (Some (ex_name 76)) [(ex_name 97, VInt32 7); (ex_name 98, ex_inner_object)]).
Definition ex_meaning : message := MValue (VArray [ex_outer_object; VString (ex_name 121)]).

Lemma ex_tokens_mean : t_message (Some 4%N) ex_tokens ex_meaning.
Proof.
  eapply T_msg_value.
  - eapply T_objs_cons.
    { apply T_rec_object. eapply (T_class _ _ _ _ ex_outer_class).
      - by apply T_lib_some.
      - cbn. by eexists.
      - cbn. eapply T_items_cons.
        + eapply T_simple; [by apply T_lib_none|done|]. cbn. split; reflexivity.
        + eapply T_items_cons; [|apply T_items_nil]. eapply (T_inline _ _ _ _ _ 2); [by apply T_lib_none| |].
          all: cycle 1.
          * eapply (T_class _ _ _ _ ex_inner_class).
            -- by apply T_lib_none.
            -- cbn. by eexists.
            -- cbn. eapply T_items_cons; [|apply T_items_nil].
               eapply T_simple; [by apply T_lib_none|done|]. cbn. reflexivity.
            -- apply T_res_value, T_res_nil.
          * cbn. eexists. split; [reflexivity|]. split; reflexivity.
      - apply T_res_value, T_res_value, T_res_nil. }
    eapply T_objs_cons; [|apply T_objs_nil].
    eapply (T_rec_objects _ _ _ _ [It_Ref 1; It_Ref 6]).
    + cbn. eapply T_items_cons; [eapply T_simple; [by apply T_lib_none|done|]; cbn; reflexivity|].
      eapply T_items_cons; [eapply T_simple; [by apply T_lib_none|done|]; cbn; reflexivity|].
      apply T_items_nil.
    + right. by exists [It_Ref 1], (It_Ref 6).
    + eapply T_res_known; [vm_compute; reflexivity|].
      eapply T_res_next; [vm_compute; reflexivity|apply T_rec_string|apply T_res_nil].
  - vm_compute. reflexivity.
Qed.
Lemma ex_tokens_12 : no_value_12 ex_tokens.
Proof.
  intros v b Hin Hb. repeat (apply elem_of_cons in Hin as [Heq|Hin]; [simplify_eq|]); [|by apply elem_of_nil in Hin].
  destruct Hb as [_ ->]. done.
Qed.
(** The bytes of such tokens. *)
Definition token_text (t : token) : bytes :=
  match t with
  | Tk_library id name => x0c :: enc_uint 4 id ++ small name
  | Tk_class h => header_text h
  | Tk_value (VInt32 z) => enc_int 4 z
  | Tk_typed (VInt32 z) => [x08; x08] ++ enc_int 4 z
  | Tk_reference id => x09 :: enc_uint 4 id
  | Tk_string id s => x06 :: enc_uint 4 id ++ small s
  | Tk_objects id len => x10 :: enc_uint 4 id ++ enc_uint 4 len
  | _ => []
  end.
Definition small_token (t : token) : bool :=
  match t with
  | Tk_library id name => id_ok id && is_small name
  | Tk_class h => small_header h
  | Tk_value (VInt32 z) | Tk_typed (VInt32 z) => (0 <=? z)%Z && (z <? 2 ^ 31)%Z
  | Tk_reference id => id_ok id
  | Tk_string id s => id_ok id && is_small s
  | Tk_objects id len => id_ok id && (len <? 2 ^ 31)%N
  | _ => false
  end.
Lemma token_text_ok t : small_token t = true -> e_token t (token_text t).
Proof.
  destruct t as [id name|h|v|v|id|id s| |id len| | | | |]; intros Ht; try discriminate Ht; cbn [e_token token_text].
  - apply andb_prop in Ht as [? ?]. eexists _, _. split; [split; [by apply id_ok_valid|reflexivity]|].
    split; [by apply small_ok|reflexivity].
  - by apply small_header_ok.
  - destruct v; try discriminate Ht. cbn [small_token] in Ht. apply andb_prop in Ht as [Ha Hb].
    apply Z.leb_le in Ha. apply Z.ltb_lt in Hb. split; [|reflexivity]. unfold fits_int.
    change (8 * Z.of_nat 4 - 1)%Z with 31%Z. lia.
  - destruct v; try discriminate Ht. cbn [small_token] in Ht. apply andb_prop in Ht as [Ha Hb].
    apply Z.leb_le in Ha. apply Z.ltb_lt in Hb. eexists _, _. split; [reflexivity|].
    split; [split; [|reflexivity]|reflexivity]. unfold fits_int.
    change (8 * Z.of_nat 4 - 1)%Z with 31%Z. lia.
  - eexists. split; [split; [by apply id_ok_valid|reflexivity]|reflexivity].
  - apply andb_prop in Ht as [? ?]. eexists _, _. split; [split; [by apply id_ok_valid|reflexivity]|].
    split; [by apply small_ok|reflexivity].
  - apply andb_prop in Ht as [? Hl]. apply N.ltb_lt in Hl. eexists _, _. split; [split; [by apply id_ok_valid|reflexivity]|].
    split; [split; [exact Hl|reflexivity]|reflexivity].
Qed.
Definition message_text (root : N) (ts : list token) : bytes :=
  header_bytes root (-1) ++ concat (map token_text ts) ++ [x0b].
Lemma message_text_ok root ts :
  id_ok root = true -> forallb small_token ts = true -> message_bytes (Some root) ts (message_text root ts).
Proof.
  intros Hr Ht. exists (header_bytes root (-1)), (concat (map token_text ts)).
  split; [apply header_root; [by apply id_ok_valid|apply hid_ok]|]. split; [|done].
  eapply e_list_map; [|exact Ht]. apply token_text_ok.
Qed.
Example C69_renaming_ex :
  let f := fun n => (n + 1000)%N in
  let g := fun n => (2 * n)%N in
  Inj eq eq f /\ Inj eq eq g /\ t_message (Some 4%N) ex_tokens ex_meaning /\ no_value_12 ex_tokens
  /\ message_bytes (Some 4%N) ex_tokens (message_text 4 ex_tokens)
  /\ message_bytes (option_map f (Some 4%N)) (map (rename f g) ex_tokens)
       (message_text 1004 (map (rename f g) ex_tokens))
  /\ length (message_text 4 ex_tokens) = 108
  /\ message_text 1004 (map (rename f g) ex_tokens) <> message_text 4 ex_tokens.
Proof.
  cbv zeta. split; [intros x y H; lia|]. split; [intros x y H; lia|]. split; [apply ex_tokens_mean|].
  split; [apply ex_tokens_12|]. split; [by apply message_text_ok; vm_compute|].
  split; [apply message_text_ok; vm_compute; reflexivity|]. split; vm_compute; congruence.
Qed.

(** Without the condition it is false of the code: with other ids a member that starts with the
    byte 12 can look like a library record. *)
Definition ex_12_class : class_header :=
  mkClassHeader 1 (ex_name 65) [ex_name 97; ex_name 98] (Some [K_Primitive PT_Int32; K_Object]) None.
Definition ex_12_tokens : list token :=
  [Tk_class ex_12_class; Tk_value (VInt32 12); Tk_reference 200; Tk_string 200 (ex_name 120)].
Definition ex_12_meaning : message :=
  MValue (VObject (mkObj (ex_name 65) None [(ex_name 97, VInt32 12); (ex_name 98, VString (ex_name 120))])).
Lemma ex_12_mean : t_message (Some 1%N) ex_12_tokens ex_12_meaning.
Proof.
  eapply T_msg_value.
  - eapply T_objs_cons; [|apply T_objs_nil].
    apply T_rec_object. eapply (T_class _ _ _ _ ex_12_class).
    + by apply T_lib_none.
    + reflexivity.
    + cbn. eapply T_items_cons.
      * eapply T_simple; [by apply T_lib_none|done|]. cbn. split; reflexivity.
      * eapply T_items_cons; [|apply T_items_nil]. eapply T_nested; [by left|by apply T_lib_none|].
        eapply T_simple; [by apply T_lib_none|done|]. cbn. reflexivity.
    + apply T_res_value. eapply T_res_next; [vm_compute; reflexivity|apply T_rec_string|apply T_res_nil].
  - vm_compute. reflexivity.
Qed.
Definition ex_swap (n : N) : N := if (n =? 200)%N then 2%N else if (n =? 2)%N then 200%N else n.
Lemma ex_swap_inj : Inj eq eq ex_swap.
Proof.
  intros x y. unfold ex_swap.
  destruct (N.eqb_spec x 200), (N.eqb_spec x 2), (N.eqb_spec y 200), (N.eqb_spec y 2); lia.
Qed.
Theorem C69_renaming_refuted : ~ forall root ts m f g W W',
  Inj eq eq f -> Inj eq eq g ->
  t_message root ts m ->
  message_bytes root ts W ->
  message_bytes (option_map f root) (map (rename f g) ts) W' ->
  deserialize W = POk m ->
  deserialize W' = POk m.
Proof.
  intros H. assert (deserialize (message_text 1 (map (rename ex_swap id) ex_12_tokens)) = POk ex_12_meaning) as E.
  { eapply (H (Some 1%N) ex_12_tokens ex_12_meaning ex_swap id (message_text 1 ex_12_tokens)).
    - apply ex_swap_inj.
    - intros x y Hxy. exact Hxy.
    - apply ex_12_mean.
    - apply message_text_ok; vm_compute; reflexivity.
    - apply (message_text_ok 1); vm_compute; reflexivity.
    - vm_compute. reflexivity. }
  vm_compute in E. discriminate E.
Qed.
End C69.
