(** * PropsE: properties C32 - C36 (method records, error positions). *)
From Verif Require Import Base Utf8 Value DataTypes Records Parser Wire BaseLemmas DataTypesLemmas
  RecordsLemmas MethodLemmas SafetyLemmas Safety Grammar Heads Complete Sound Fuel Message Run Spec
  LemmasA LemmasB LemmasC Positions Reach LemmasD Trees TreeLemmas PropsB PropsC PropsD.
From Coq Require Import Lia.

Section with_decimal.
Context {DL : DecimalLib}.

(** A method record (call or return) with the flags [flags] and the inline arguments [inline];
    [mk args] is the message it stands for if the arguments are [args]. *)
Definition e_method (flags : Z) (inline : option (list value)) (mk : option (list value) -> message)
  (bs : bytes) : Prop :=
  (exists name type ctx, e_method_call flags name type ctx inline bs
     /\ mk = fun args => MMethodCall (mkMethodCall name type ctx args))
  \/ (exists ret ctx, e_method_return flags ret ctx inline bs
     /\ mk = fun args => MMethodReturn (mkMethodReturn ret ctx args)).

Lemma method_head flags inline mk bs i : e_method flags inline mk bs -> head_in [x15; x16] (bs ++ i).
Proof.
  intros [(? & ? & ? & (? & ? & ? & ? & ? & _ & _ & _ & _ & _ & ->) & _)
         |(? & ? & (? & ? & ? & ? & _ & _ & _ & _ & ->) & _)]; hd.
Qed.
Lemma method_cases f root s flags inline mk bs i :
  e_method flags inline mk bs ->
  parse_method_call_or_return f root s (bs ++ i)
  = match sopt i (parse_call_array f root s i) with
    | (s', Ok i' ca) =>
        match parse_args flags ca inline i' with
        | Ok i2 args => (s', Ok i2 (mk args))
        | Fail err => (s', Fail err)
        | _ => parse_method_call_or_return f root s (bs ++ i)
        end
    | (s', Fail err) => (s', Fail err)
    | _ => parse_method_call_or_return f root s (bs ++ i)
    end.
Proof.
  intros Hm. pose proof (method_head _ _ _ _ i Hm) as Hh.
  assert (no_library (bs ++ i)) as Hl by (apply no_library_head; hd).
  destruct (sopt i (parse_call_array f root s i)) as [s' [i' ca|e|e|p|]] eqn:Ec; try done.
  - destruct (parse_args flags ca inline i') as [i2 args|e|e|p|] eqn:Ea; try done;
      unfold parse_method_call_or_return;
      (destruct Hm as [(name & type & ctx & Hb & ->)|(ret & ctx & Hb & ->)];
      [unfold parse_method_call; rewrite parse_binary_library_none by done; cbn [sbind];
       rewrite (exact_ok binary_method_call_parse _ (mkBinaryMethodCall flags name type ctx inline) bs i method_call_exact) by done;
       rewrite Ec; cbn [sbind bmc_message_enum bmc_args]; rewrite Ea; done|]);
      assert (exists b, bs = x16 :: b) as [b Eb]
        by (destruct Hb as (? & ? & ? & ? & _ & _ & _ & _ & ->); eauto);
      unfold parse_method_call; rewrite parse_binary_library_none by done; cbn [sbind];
      (destruct (method_call_err (bs ++ i)) as [er ->]; [rewrite Eb; hd|]);
      unfold smap at 1; cbn [fst snd rmap bind alt_mut];
      unfold parse_method_return; rewrite parse_binary_library_none by done; cbn [sbind];
      rewrite (exact_ok binary_method_return_parse _ (mkBinaryMethodReturn flags ret ctx inline) bs i method_return_exact) by done;
      rewrite Ec; cbn [sbind bmr_message_enum bmr_args]; rewrite Ea; done.
  - unfold parse_method_call_or_return.
    destruct Hm as [(name & type & ctx & Hb & ->)|(ret & ctx & Hb & ->)];
      [unfold parse_method_call; rewrite parse_binary_library_none by done; cbn [sbind];
       rewrite (exact_ok binary_method_call_parse _ (mkBinaryMethodCall flags name type ctx inline) bs i method_call_exact) by done;
       rewrite Ec; done|].
    assert (exists b, bs = x16 :: b) as [b Eb]
        by (destruct Hb as (? & ? & ? & ? & _ & _ & _ & _ & ->); eauto).
    unfold parse_method_call; rewrite parse_binary_library_none by done; cbn [sbind].
    destruct (method_call_err (bs ++ i)) as [er ->]; [rewrite Eb; hd|].
    unfold smap at 1; cbn [fst snd rmap bind alt_mut].
    unfold parse_method_return; rewrite parse_binary_library_none by done; cbn [sbind].
    rewrite (exact_ok binary_method_return_parse _ (mkBinaryMethodReturn flags ret ctx inline) bs i method_return_exact) by done.
    rewrite Ec. done.
Qed.

Lemma after_method_fail W root e i s err f :
  after W root e i -> head_in [x15; x16] i ->
  parse_method_call_or_return f (if N.eqb root 0 then None else Some root) (st e) i = (s, Fail err) ->
  deserialize W = PErr err.
Proof. intros (ro & hb & body & -> & Hh & -> & Ho)%after_header. by eapply run_method_fail. Qed.
Lemma after_method_end W root e bs i flags inline mk ca args e1 i1 e2 t :
  after W root e (bs ++ i) -> e_method flags inline mk bs ->
  g_call_array (if N.eqb root 0 then None else Some root) e i ca e1 i1 -> args_rule flags ca inline args ->
  g_objects e1 i1 e2 (x0b :: t) ->
  deserialize W = match t with _ :: _ => PErr (mkError t E_TrailingData) | [] => POk (mk args) end.
Proof.
  intros (ro & hb & body & -> & Hh & -> & Ho)%after_header Hm Hca Ha Ho2.
  eapply run_method_end; [exact Hh|exact Ho| |exact Ho2].
  destruct Hm as [(name & type & ctx & Hb & ->)|(ret & ctx & Hb & ->)]; [by eapply G_call|by eapply G_return].
Qed.

(** ** C32 Message flag rules are enforced *)

Theorem C32_rejected : forall W root e code flags rest,
  after W root e (code :: enc_int 4 flags ++ rest) -> code = x15 \/ code = x16 ->
  fits_int 4 flags -> ~ flags_ok checked_return_bits flags ->
  deserialize W = PErr (mkError (enc_int 4 flags ++ rest) E_InvalidMessageFlags).
Proof.
  intros W root e code flags rest Ha Hc Hf Hbad.
  assert (message_flags_parse (enc_int 4 flags ++ rest)
          = Fail (mkError (enc_int 4 flags ++ rest) E_InvalidMessageFlags)) as E.
  { rewrite message_flags_eq, int32_ok by done. cbn [map_err bind].
    destruct (flags_okb flags) eqn:Eb; [|done]. by apply flags_okb_iff in Eb. }
  assert (head_in [x15; x16] (code :: enc_int 4 flags ++ rest)) as Hh by (destruct Hc as [-> | ->]; hd).
  eapply (after_method_fail _ _ _ _ (st e) _ 0); [exact Ha|exact Hh|].
  assert (no_library (code :: enc_int 4 flags ++ rest)) as Hl by (apply no_library_head; hd).
  unfold parse_method_call_or_return, parse_method_call. rewrite parse_binary_library_none by done. cbn [sbind].
  destruct Hc as [-> | ->].
  - unfold binary_method_call_parse at 1. change x15 with (n2b (rt_code RT_MethodCall)). rewrite rt_ok. cbn [bind].
    rewrite E. done.
  - destruct (method_call_err (x16 :: enc_int 4 flags ++ rest)) as [er ->]; [hd|].
    unfold smap at 1; cbn [fst snd rmap bind alt_mut].
    unfold parse_method_return; rewrite parse_binary_library_none by done; cbn [sbind].
    unfold binary_method_return_parse at 1. change x16 with (n2b (rt_code RT_MethodReturn)). rewrite rt_ok. cbn [bind].
    rewrite E. done.
Qed.

(** What an accepted method message consists of. *)
Lemma header_after ro hb body e i : e_header ro hb -> g_objects empty_env body e i ->
  after (hb ++ body) (default 0%N ro) e i.
Proof.
  intros (hid & Hr & Hh & ->) Ho. exists hid, body. split; [|done].
  destruct ro as [r|]; [by destruct Hr|done].
Qed.
Lemma header_root ro hb : e_header ro hb -> ro = (if N.eqb (default 0%N ro) 0 then None else Some (default 0%N ro)).
Proof.
  intros (hid & Hr & _). destruct ro as [r|]; [|done]. cbn [default from_option]. unfold id.
  destruct (N.eqb_spec r 0) as [->|]; [by destruct Hr|done].
Qed.
Lemma accepted_method W m : deserialize W = POk m -> (forall v, m <> MValue v) ->
  exists root e flags inline mk bs i ca args e1 i1 e2,
    after W root e (bs ++ i) /\ e_method flags inline mk bs
    /\ call_array_step (if N.eqb root 0 then None else Some root) e i ca e1 i1
    /\ args_rule flags ca inline args /\ m = mk args /\ g_objects e1 i1 e2 [x0b].
Proof.
  intros H Hm. apply message_iff in H.
  destruct H as [root hb i e1 i1 e1' e2 v Hh Ho1 Ha Ho2 Hv|root hb i e1 i1 m e2 i2 e3 Hh Ho1 Hs Ho3]; [by destruct (Hm v)|].
  exists (default 0%N root), e1. rewrite <- (header_root _ _ Hh).
  destruct Hs as [flags name type ctx inline bs j ca args e' i' Hb Hca Ha|flags ret ctx inline bs j ca args e' i' Hb Hca Ha];
    eexists flags, inline, _, bs, j, ca, args, e', i', e3;
    (split; [by apply header_after|]); (split; [|split; [exact Hca|split; [exact Ha|split; [|exact Ho3]]]]);
    [left; eauto 6|reflexivity|right; eauto 6|reflexivity].
Qed.

(** The flags of every accepted method message. *)
Theorem C32_accepted : forall W m,
  deserialize W = POk m -> (forall v, m <> MValue v) ->
  exists root e code flags rest, after W root e (code :: enc_int 4 flags ++ rest) /\ fits_int 4 flags
    /\ code = match m with MMethodCall _ => x15 | _ => x16 end /\ flags_ok checked_return_bits flags.
Proof.
  intros W m H Hm. destruct (accepted_method W m H Hm) as (root & e & flags & inline & mk & bs & i & ca & args & e1 & i1 & e2 & Ha & Hb & _ & _ & -> & _).
  destruct Hb as [(name & type & ctx & (b1 & b2 & b3 & b4 & b5 & (Hf & Hok & ->) & _ & _ & _ & _ & ->) & ->)
                 |(ret & ctx & (b1 & b2 & b3 & b4 & (Hf & Hok & ->) & _ & _ & _ & ->) & ->)].
  - exists root, e, x15, flags, (b2 ++ b3 ++ b4 ++ b5 ++ i). cbn [app] in Ha. rewrite <- !app_assoc in Ha. done.
  - exists root, e, x16, flags, (b2 ++ b3 ++ b4 ++ i). cbn [app] in Ha. rewrite <- !app_assoc in Ha. done.
Qed.

(** Every flag word that obeys the rules can be used: a call with empty names, context and
    arguments, and a call array that contains an empty array. *)
Definition ex_call_record (flags : Z) : bytes :=
  x15 :: enc_int 4 flags ++ [x12; x00] ++ [x12; x00]
  ++ (if Z.testbit flags bit_ContextInline then [x12; x00] else [])
  ++ (if Z.testbit flags bit_ArgsInline then enc_uint 4 0 else []).
Definition ex_return_record (flags : Z) : bytes :=
  x16 :: enc_int 4 flags ++ (if Z.testbit flags bit_ReturnValueInline then [x11] else [])
  ++ (if Z.testbit flags bit_ContextInline then [x12; x00] else [])
  ++ (if Z.testbit flags bit_ArgsInline then enc_uint 4 0 else []).
Definition ex_call_array : bytes := x10 :: enc_uint 4 1 ++ enc_uint 4 1.
Definition ex_call_rest : bytes := (x09 :: enc_uint 4 2) ++ (x10 :: enc_uint 4 2 ++ enc_uint 4 0) ++ [x0b].
Lemma empty_str : e_str [] [x00].
Proof. apply (ex_str []%N); [constructor|simpl; lia]. Qed.
Lemma ex_call_record_ok flags : fits_int 4 flags -> flags_ok checked_return_bits flags ->
  e_method_call flags [] [] (if Z.testbit flags bit_ContextInline then Some [] else None)
    (if Z.testbit flags bit_ArgsInline then Some [] else None) (ex_call_record flags).
Proof.
  intros Hf Hok. eexists _, [x12; x00], [x12; x00], _, _. split; [split; [exact Hf|split; [exact Hok|reflexivity]]|].
  split; [exists [x00]; split; [apply empty_str|done]|]. split; [exists [x00]; split; [apply empty_str|done]|].
  split; [|split; [|reflexivity]]; unfold e_flagged.
  - destruct (Z.testbit flags bit_ContextInline); [|done]. split; [done|]. exists [x00]. split; [apply empty_str|done].
  - destruct (Z.testbit flags bit_ArgsInline); [|done]. split; [done|]. exists []. split; [done|]. split; [apply e_nil|done].
Qed.
Lemma ex_return_record_ok flags : fits_int 4 flags -> flags_ok checked_return_bits flags ->
  e_method_return flags (if Z.testbit flags bit_ReturnValueInline then Some VNull else None)
    (if Z.testbit flags bit_ContextInline then Some [] else None)
    (if Z.testbit flags bit_ArgsInline then Some [] else None) (ex_return_record flags).
Proof.
  intros Hf Hok. eexists _, _, _, _. split; [split; [exact Hf|split; [exact Hok|reflexivity]]|].
  split; [|split; [|split; [|reflexivity]]]; unfold e_flagged.
  - destruct (Z.testbit flags bit_ReturnValueInline); [|done]. done.
  - destruct (Z.testbit flags bit_ContextInline); [|done]. split; [done|]. exists [x00]. split; [apply empty_str|done].
  - destruct (Z.testbit flags bit_ArgsInline); [|done]. split; [done|]. exists []. split; [done|]. split; [apply e_nil|done].
Qed.
Lemma ex_call_array_ok : g_call_array (Some 1%N) empty_env (ex_call_array ++ ex_call_rest)
  (Some [VArray []]) (del_obj 2 empty_env) [x0b].
Proof.
  eapply (G_ca_some _ _ _ empty_env 1 1 ex_call_array ex_call_rest [It_Ref 2]); [|by apply ex_header|done| |right; by exists [], (It_Ref 2)|].
  - apply G_lib_none. done.
  - apply (simple_items [It_Ref 2] (x09 :: enc_uint 4 2)). rewrite <- (app_nil_r (x09 :: _)).
    apply e_cons; [|apply e_nil]. right; left. exists 2%N. split; [done|]. exists (enc_uint 4 2). done.
  - eapply G_res_next; [done| |apply G_res_nil].
    eapply (array_record x10 K_Any _ _ 0 (x10 :: enc_uint 4 2 ++ enc_uint 4 0) []); [by left|by apply ex_header|apply G_items_nil|by left|apply G_res_nil].
Qed.
Lemma ex_call_ok flags mk rec :
  e_method flags (if Z.testbit flags bit_ArgsInline then Some [] else None) mk rec ->
  exists args, deserialize (header_bytes 1 (-1) ++ rec ++ ex_call_array ++ ex_call_rest) = POk (mk args).
Proof.
  intros Hm.
  assert (exists args, args_rule flags (Some [VArray []]) (if Z.testbit flags bit_ArgsInline then Some [] else None) args) as [args Ha].
  { unfold args_rule. destruct (Z.testbit flags bit_ArgsIsArray); [by eexists; eexists|].
    destruct (Z.testbit flags bit_ArgsInArray); [by eexists; eexists; eexists|by eexists]. }
  exists args. eapply (after_method_end _ 1 empty_env _ _ _ _ _ _ _ _ _ _ []); [|exact Hm|apply ex_call_array_ok|exact Ha|apply G_objs_nil].
  apply after_start; [done|apply hid_ok].
Qed.
Theorem C32_accepted_iff : forall code flags, code = x15 \/ code = x16 -> fits_int 4 flags ->
  (exists W root e rest m, after W root e (code :: enc_int 4 flags ++ rest) /\ deserialize W = POk m)
  <-> flags_ok checked_return_bits flags.
Proof.
  intros code flags Hc Hf. split.
  - intros (W & root & e & rest & m & Ha & Hd). destruct (flags_okb flags) eqn:E; [by apply flags_okb_iff|].
    assert (~ flags_ok checked_return_bits flags) as Hn by (intros Ho%flags_okb_iff; congruence).
    rewrite (C32_rejected _ _ _ _ _ _ Ha Hc Hf Hn) in Hd. done.
  - intros Hok. destruct Hc as [-> | ->].
    + edestruct (ex_call_ok flags) as [args Hd]; [left; do 3 eexists; split; [by apply ex_call_record_ok|reflexivity]|].
      eexists _, 1%N, empty_env, _, _. split; [|exact Hd]. apply after_start; [done|apply hid_ok].
    + edestruct (ex_call_ok flags) as [args Hd]; [right; do 2 eexists; split; [by apply ex_return_record_ok|reflexivity]|].
      eexists _, 1%N, empty_env, _, _. split; [|exact Hd]. apply after_start; [done|apply hid_ok].
Qed.

(** The rule of [MS-NRBF], with ReturnValueInline in the return category, is not enforced:
    NoReturnValue together with ReturnValueInline is accepted. *)
Theorem C32_all_rules_refuted : ~ forall W root e code flags rest m,
  after W root e (code :: enc_int 4 flags ++ rest) -> code = x15 \/ code = x16 -> fits_int 4 flags ->
  deserialize W = POk m -> flags_ok (bit_ReturnValueInline :: checked_return_bits) flags.
Proof.
  intros H.
  assert (fits_int 4 2560) as Hf by (split; vm_compute; congruence).
  assert (flags_ok checked_return_bits 2560) as Hok by (apply flags_okb_iff; by vm_compute).
  destruct (proj2 (C32_accepted_iff x16 2560 (or_intror eq_refl) Hf) Hok) as (W & root & e & rest & m & Ha & Hd).
  specialize (H _ _ _ _ _ _ _ Ha (or_intror eq_refl) Hf Hd) as (_ & _ & H & _).
  specialize (H 0 1 bit_ReturnValueInline bit_NoReturnValue eq_refl eq_refl eq_refl eq_refl). done.
Qed.
Example C32_ex : exists m, deserialize (header_bytes 1 (-1) ++ ex_return_record 2560 ++ ex_call_array ++ ex_call_rest) = POk m.
Proof. eexists. vm_compute. reflexivity. Qed.
Example C32_ex_rejected :
  deserialize (header_bytes 1 (-1) ++ ex_record ++ x15 :: enc_int 4 12 ++ [x0b])
  = PErr (mkError (enc_int 4 12 ++ [x0b]) E_InvalidMessageFlags).
Proof.
  eapply (C32_rejected _ 1 ex_env x15); [by apply ex_after|by left|split; vm_compute; congruence|].
  rewrite <- flags_okb_iff. vm_compute. congruence.
Qed.

(** ** C33 Method call arguments come from where the flags say,
    C34 Method return fields come from where the flags say *)

(** No call array follows: neither an object array nor a library. *)
Definition no_call_array (i : bytes) : Prop := match i with x10 :: _ | x0c :: _ => False | _ => True end.
(** The object array with the id [id] and the elements [vs] stands at [i] and is followed by [i']. *)
Definition object_array (e : env) (i : bytes) (id : N) (vs : list value) (e' : env) (i' : bytes) : Prop :=
  exists len ab its i0 e1 i1, i = ab ++ i0 /\ e_array_header x10 id len ab
    /\ g_items (replicate (length its) K_Any) e i0 its e1 i1 /\ fills len its /\ g_resolve its e1 i1 vs e' i'.

Lemma call_array_some root e i e0 i0 vs e' i' : (0 < root)%N -> g_lib e i e0 i0 -> object_array e0 i0 root vs e' i' ->
  g_call_array (if N.eqb root 0 then None else Some root) e i (Some vs) e' i'.
Proof.
  intros Hpos Hl (len & ab & its & j & e1 & i1 & -> & Hh & Hits & Hf & Hr).
  destruct (N.eqb_spec root 0) as [|]; [lia|]. by eapply G_ca_some.
Qed.

Section method.
Context (flags : Z) (inline : option (list value)) (mk : option (list value) -> message) (bs : bytes).
Hypothesis Hm : e_method flags inline mk bs.

Lemma method_no_array W root e i e2 :
  after W root e (bs ++ i) -> no_call_array i -> g_objects e i e2 [x0b] ->
  Z.testbit flags bit_ArgsIsArray = false -> Z.testbit flags bit_ArgsInArray = false ->
  deserialize W = POk (mk inline).
Proof.
  intros Ha Hn Ho H1 H2. eapply (after_method_end _ _ _ _ _ _ _ _ _ _ _ _ _ []); [exact Ha|exact Hm|by apply G_ca_none| |exact Ho].
  unfold args_rule. by rewrite H1, H2.
Qed.
Lemma method_array W root e i e0 i0 vs e1 i1 e2 args :
  after W root e (bs ++ i) -> g_lib e i e0 i0 -> object_array e0 i0 root vs e1 i1 -> g_objects e1 i1 e2 [x0b] ->
  args_rule flags (Some vs) inline args ->
  deserialize W = POk (mk args).
Proof.
  intros Ha Hl Hc Ho Hr. assert (0 < root)%N as Hpos.
  { destruct Hc as (len & ab & its & j & e3 & i3 & -> & (b1 & b2 & [[? _] _] & _) & _). done. }
  eapply (after_method_end _ _ _ _ _ _ _ _ _ _ _ _ _ []); [exact Ha|exact Hm|by eapply call_array_some|exact Hr|exact Ho].
Qed.
Lemma method_missing_array W root e i :
  after W root e (bs ++ i) -> no_call_array i ->
  Z.testbit flags bit_ArgsIsArray = true \/ Z.testbit flags bit_ArgsInArray = true ->
  deserialize W = PErr (mkError i E_InvalidArgs).
Proof.
  intros Ha Hn Hb. eapply (after_method_fail _ _ _ _ (st e) _ (2 * length i + 2)); [exact Ha|by eapply method_head|].
  erewrite method_cases by exact Hm.
  rewrite (call_array_complete _ e i None e i); [|by apply G_ca_none|lia].
  unfold parse_args. change MF_ARGS_IS_ARRAY with (2 ^ bit_ArgsIsArray)%Z.
  change MF_ARGS_IN_ARRAY with (2 ^ bit_ArgsInArray)%Z. rewrite !intersects_testbit by done.
  destruct (Z.testbit flags bit_ArgsIsArray); [done|]. by destruct Hb as [| ->].
Qed.
Lemma method_not_array W root e i e0 i0 vs e1 i1 :
  after W root e (bs ++ i) -> g_lib e i e0 i0 -> object_array e0 i0 root vs e1 i1 ->
  Z.testbit flags bit_ArgsIsArray = false -> Z.testbit flags bit_ArgsInArray = true ->
  (forall a r, vs <> VArray a :: r) ->
  deserialize W = PErr (mkError i1 E_InvalidArgs).
Proof.
  intros Ha Hl Hc H1 H2 Hno. assert (0 < root)%N as Hpos.
  { destruct Hc as (len & ab & its & j & e3 & i3 & -> & (b1 & b2 & [[? _] _] & _) & _). done. }
  eapply (after_method_fail _ _ _ _ (st e1) _ (2 * length i + 2)); [exact Ha|by eapply method_head|].
  erewrite method_cases by exact Hm.
  rewrite (call_array_complete _ e i (Some vs) e1 i1); [|by eapply call_array_some|lia].
  unfold parse_args. change MF_ARGS_IS_ARRAY with (2 ^ bit_ArgsIsArray)%Z.
  change MF_ARGS_IN_ARRAY with (2 ^ bit_ArgsInArray)%Z. rewrite !intersects_testbit by done.
  rewrite H1, H2. destruct vs as [|[] vs]; try done. by edestruct Hno.
Qed.
(** ** C35 *)
Lemma method_wrong_array W root e i e0 i0 id vs e1 i1 :
  after W root e (bs ++ i) -> g_lib e i e0 i0 -> object_array e0 i0 id vs e1 i1 -> id <> root ->
  deserialize W = PErr (mkError i1 E_InvalidCallArrayId).
Proof.
  intros Ha Hl Hc Hne.
  eapply (after_method_fail _ _ _ _ (st e1) _ (2 * length i + 2)); [exact Ha|by eapply method_head|].
  erewrite method_cases by exact Hm.
  assert (g_call_array (Some id) e i (Some vs) e1 i1) as Hg.
  { destruct Hc as (len & ab & its & j & e3 & i3 & -> & Hh & Hits & Hf & Hr). by eapply G_ca_some. }
  apply (call_array_complete _ _ _ _ _ _ (2 * length i + 2)) in Hg; [|lia].
  unfold sopt, parse_call_array in *. revert Hg.
  destruct (parse_binary_library (st e) i) as [s1 [j1 u1|er|er|p|]]; cbn [sbind fst snd opt]; try done.
  destruct (parse_array_single_object _ _ s1 j1) as [s2 [j2 [aid avs]|er|er|p|]]; cbn [sbind fst snd opt]; try done.
  case_bool_decide as Hid; cbn [fst snd opt]; [|done]. intros [= <- <- <-].
  injection Hid as <-. rewrite bool_decide_eq_false_2; [done|].
  destruct (N.eqb_spec root 0); [done|]. congruence.
Qed.
End method.

(** Calls.  Without ArgsIsArray and ArgsInArray: the inline arguments, if any. *)
Theorem C33_inline : forall W root e flags name type ctx inline bs i e2,
  after W root e (bs ++ i) -> e_method_call flags name type ctx inline bs -> no_call_array i -> g_objects e i e2 [x0b] ->
  Z.testbit flags bit_ArgsIsArray = false -> Z.testbit flags bit_ArgsInArray = false ->
  deserialize W = POk (MMethodCall (mkMethodCall name type ctx inline))
  /\ (is_Some inline <-> Z.testbit flags bit_ArgsInline = true)
  /\ (is_Some ctx <-> Z.testbit flags bit_ContextInline = true).
Proof.
  intros W root e flags name type ctx inline bs i e2 Ha Hb Hn Ho H1 H2. split.
  - eapply (method_no_array flags inline (fun args => MMethodCall (mkMethodCall name type ctx args)) bs); eauto.
    left. eauto.
  - destruct Hb as (b1 & b2 & b3 & b4 & b5 & _ & _ & _ & H4 & H5 & _).
    destruct inline, ctx; destruct H4 as [-> _], H5 as [-> _]; split; split; try done; intros []; done.
Qed.
(** ArgsIsArray: the elements of the call array; ArgsInArray: its first element, an array. *)
Theorem C33_args_is_array : forall W root e flags name type ctx inline bs i e0 i0 vs e1 i1 e2,
  after W root e (bs ++ i) -> e_method_call flags name type ctx inline bs -> g_lib e i e0 i0 -> object_array e0 i0 root vs e1 i1 ->
  g_objects e1 i1 e2 [x0b] -> Z.testbit flags bit_ArgsIsArray = true ->
  deserialize W = POk (MMethodCall (mkMethodCall name type ctx (Some vs))).
Proof.
  intros W root e flags name type ctx inline bs i e0 i0 vs e1 i1 e2 Ha Hb Hl Hc Ho H1.
  eapply (method_array flags inline (fun args => MMethodCall (mkMethodCall name type ctx args)) bs); eauto.
  - left. eauto.
  - unfold args_rule. rewrite H1. eauto.
Qed.
Theorem C33_args_in_array : forall W root e flags name type ctx inline bs i e0 i0 vs r e1 i1 e2,
  after W root e (bs ++ i) -> e_method_call flags name type ctx inline bs -> g_lib e i e0 i0 ->
  object_array e0 i0 root (VArray vs :: r) e1 i1 ->
  g_objects e1 i1 e2 [x0b] -> Z.testbit flags bit_ArgsInArray = true ->
  deserialize W = POk (MMethodCall (mkMethodCall name type ctx (Some vs))).
Proof.
  intros W root e flags name type ctx inline bs i e0 i0 vs r e1 i1 e2 Ha Hb Hl Hc Ho H1.
  assert (Z.testbit flags bit_ArgsIsArray = false) as H2.
  { destruct Hb as (b1 & ? & ? & ? & ? & (_ & (Hone & _) & _) & _).
    destruct (Z.testbit flags bit_ArgsIsArray) eqn:E; [|done].
    by specialize (Hone 2 3 bit_ArgsIsArray bit_ArgsInArray eq_refl eq_refl E H1). }
  eapply (method_array flags inline (fun args => MMethodCall (mkMethodCall name type ctx args)) bs); eauto.
  - left. eauto.
  - unfold args_rule. rewrite H1, H2. eauto.
Qed.
(** An array no flag asks for is ignored. *)
Theorem C33_unused_array : forall W root e flags name type ctx inline bs i e0 i0 vs e1 i1 e2,
  after W root e (bs ++ i) -> e_method_call flags name type ctx inline bs -> g_lib e i e0 i0 -> object_array e0 i0 root vs e1 i1 ->
  g_objects e1 i1 e2 [x0b] ->
  Z.testbit flags bit_ArgsIsArray = false -> Z.testbit flags bit_ArgsInArray = false ->
  deserialize W = POk (MMethodCall (mkMethodCall name type ctx inline)).
Proof.
  intros W root e flags name type ctx inline bs i e0 i0 vs e1 i1 e2 Ha Hb Hl Hc Ho H1 H2.
  eapply (method_array flags inline (fun args => MMethodCall (mkMethodCall name type ctx args)) bs); eauto.
  - left. eauto.
  - unfold args_rule. by rewrite H1, H2.
Qed.
(** A call array that is asked for and missing, or of the wrong kind, is an error. *)
Theorem C33_missing_array : forall W root e flags name type ctx inline bs i,
  after W root e (bs ++ i) -> e_method_call flags name type ctx inline bs -> no_call_array i ->
  Z.testbit flags bit_ArgsIsArray = true \/ Z.testbit flags bit_ArgsInArray = true ->
  deserialize W = PErr (mkError i E_InvalidArgs).
Proof.
  intros W root e flags name type ctx inline bs i Ha Hb Hn H.
  eapply (method_missing_array flags inline _ bs); eauto. left. eauto.
Qed.
Theorem C33_not_an_array : forall W root e flags name type ctx inline bs i e0 i0 vs e1 i1,
  after W root e (bs ++ i) -> e_method_call flags name type ctx inline bs -> g_lib e i e0 i0 -> object_array e0 i0 root vs e1 i1 ->
  Z.testbit flags bit_ArgsInArray = true -> (forall a r, vs <> VArray a :: r) ->
  deserialize W = PErr (mkError i1 E_InvalidArgs).
Proof.
  intros W root e flags name type ctx inline bs i e0 i0 vs e1 i1 Ha Hb Hl Hc H1 Hno.
  eapply (method_not_array flags inline _ bs); eauto; [left; eauto|].
  destruct Hb as (b1 & ? & ? & ? & ? & (_ & (Hone & _) & _) & _).
  destruct (Z.testbit flags bit_ArgsIsArray) eqn:E; [|done].
  by specialize (Hone 2 3 bit_ArgsIsArray bit_ArgsInArray eq_refl eq_refl E H1).
Qed.
Lemma object_array_record e i id vs e' i' : object_array e i id vs e' i' -> g_record e i id (VArray vs) e' i' /\ head_in [x10] i.
Proof.
  intros (len & ab & its & j & e3 & i3 & -> & Hh & Hits & Hf & Hr). split; [by eapply G_rec_objects|].
  destruct Hh as (b1 & b2 & _ & _ & ->). hd.
Qed.
Lemma call_array_origin root e i ca e' i' :
  call_array_step (if N.eqb root 0 then None else Some root) e i ca e' i' ->
  match ca with
  | Some vs => exists e0 i0 e1 i1, g_lib e i e0 i0 /\ object_array e0 i0 root vs e1 i1
  | None => forall vs e1 i1, ~ object_array e i root vs e1 i1
  end.
Proof.
  destruct 1 as [ca e' i' Hc|e' Hh Hab].
  - destruct Hc as [Hn|e1 aid len bs i1 its e2 i2 vs e3 i3 Hl Hh Hroot Hits Hf Hr].
    + intros vs e1 i1 [_ Hh]%object_array_record. destruct i as [|c i]; [done|].
      apply elem_of_list_singleton in Hh as ->. done.
    + destruct (N.eqb_spec root 0); [done|]. injection Hroot as <-.
      exists e1, (bs ++ i1), e3, i3. split; [done|]. exists len, bs, its, i1, e2, i2. done.
  - intros vs e1 i1 [Hr _]%object_array_record. by eapply abandoned_array_record.
Qed.
(** Conversely, where the fields of every accepted call come from.  [ca] is the call array; if it
    is taken as absent, no readable array with the root id follows. *)
Theorem C33_origin : forall W c,
  deserialize W = POk (MMethodCall c) ->
  exists root e bs i flags inline ca,
    after W root e (bs ++ i)
    /\ e_method_call flags (mc_method_name c) (mc_type_name c) (mc_call_context c) inline bs
    /\ args_rule flags ca inline (mc_args c)
    /\ match ca with
       | Some vs => exists e0 i0 e1 i1, g_lib e i e0 i0 /\ object_array e0 i0 root vs e1 i1
       | None => forall vs e1 i1, ~ object_array e i root vs e1 i1
       end.
Proof.
  intros W c H. destruct (accepted_method W _ H) as (root & e & flags & inline & mk & bs & i & ca & args & e1 & i1 & e2 & Ha & Hb & Hca & Hr & Hmk & _); [done|].
  destruct Hb as [(name & type & ctx & Hb & ->)|(ret & ctx & Hb & ->)]; [|done]. injection Hmk as ->.
  exists root, e, bs, i, flags, inline, ca. split; [done|]. split; [done|]. split; [done|]. by eapply call_array_origin.
Qed.

(** Returns. *)
Theorem C34_inline : forall W root e flags ret ctx inline bs i e2,
  after W root e (bs ++ i) -> e_method_return flags ret ctx inline bs -> no_call_array i -> g_objects e i e2 [x0b] ->
  Z.testbit flags bit_ArgsIsArray = false -> Z.testbit flags bit_ArgsInArray = false ->
  deserialize W = POk (MMethodReturn (mkMethodReturn ret ctx inline))
  /\ (is_Some ret <-> Z.testbit flags bit_ReturnValueInline = true)
  /\ (is_Some inline <-> Z.testbit flags bit_ArgsInline = true)
  /\ (is_Some ctx <-> Z.testbit flags bit_ContextInline = true).
Proof.
  intros W root e flags ret ctx inline bs i e2 Ha Hb Hn Ho H1 H2. split.
  - eapply (method_no_array flags inline (fun args => MMethodReturn (mkMethodReturn ret ctx args)) bs); eauto.
    right. eauto.
  - destruct Hb as (b1 & b2 & b3 & b4 & _ & H3 & H4 & H5 & _).
    destruct ret, inline, ctx; destruct H3 as [-> _], H4 as [-> _], H5 as [-> _]; split; [|split| |split| |split| |split| |split| |split| |split| |split]; split; try done; intros []; done.
Qed.
Theorem C34_args_is_array : forall W root e flags ret ctx inline bs i e0 i0 vs e1 i1 e2,
  after W root e (bs ++ i) -> e_method_return flags ret ctx inline bs -> g_lib e i e0 i0 -> object_array e0 i0 root vs e1 i1 ->
  g_objects e1 i1 e2 [x0b] -> Z.testbit flags bit_ArgsIsArray = true ->
  deserialize W = POk (MMethodReturn (mkMethodReturn ret ctx (Some vs))).
Proof.
  intros W root e flags ret ctx inline bs i e0 i0 vs e1 i1 e2 Ha Hb Hl Hc Ho H1.
  eapply (method_array flags inline (fun args => MMethodReturn (mkMethodReturn ret ctx args)) bs); eauto.
  - right. eauto.
  - unfold args_rule. rewrite H1. eauto.
Qed.
Theorem C34_args_in_array : forall W root e flags ret ctx inline bs i e0 i0 vs r e1 i1 e2,
  after W root e (bs ++ i) -> e_method_return flags ret ctx inline bs -> g_lib e i e0 i0 ->
  object_array e0 i0 root (VArray vs :: r) e1 i1 ->
  g_objects e1 i1 e2 [x0b] -> Z.testbit flags bit_ArgsInArray = true ->
  deserialize W = POk (MMethodReturn (mkMethodReturn ret ctx (Some vs))).
Proof.
  intros W root e flags ret ctx inline bs i e0 i0 vs r e1 i1 e2 Ha Hb Hl Hc Ho H1.
  assert (Z.testbit flags bit_ArgsIsArray = false) as H2.
  { destruct Hb as (b1 & ? & ? & ? & (_ & (Hone & _) & _) & _).
    destruct (Z.testbit flags bit_ArgsIsArray) eqn:E; [|done].
    by specialize (Hone 2 3 bit_ArgsIsArray bit_ArgsInArray eq_refl eq_refl E H1). }
  eapply (method_array flags inline (fun args => MMethodReturn (mkMethodReturn ret ctx args)) bs); eauto.
  - right. eauto.
  - unfold args_rule. rewrite H1, H2. eauto.
Qed.
Theorem C34_unused_array : forall W root e flags ret ctx inline bs i e0 i0 vs e1 i1 e2,
  after W root e (bs ++ i) -> e_method_return flags ret ctx inline bs -> g_lib e i e0 i0 -> object_array e0 i0 root vs e1 i1 ->
  g_objects e1 i1 e2 [x0b] ->
  Z.testbit flags bit_ArgsIsArray = false -> Z.testbit flags bit_ArgsInArray = false ->
  deserialize W = POk (MMethodReturn (mkMethodReturn ret ctx inline)).
Proof.
  intros W root e flags ret ctx inline bs i e0 i0 vs e1 i1 e2 Ha Hb Hl Hc Ho H1 H2.
  eapply (method_array flags inline (fun args => MMethodReturn (mkMethodReturn ret ctx args)) bs); eauto.
  - right. eauto.
  - unfold args_rule. by rewrite H1, H2.
Qed.
Theorem C34_missing_array : forall W root e flags ret ctx inline bs i,
  after W root e (bs ++ i) -> e_method_return flags ret ctx inline bs -> no_call_array i ->
  Z.testbit flags bit_ArgsIsArray = true \/ Z.testbit flags bit_ArgsInArray = true ->
  deserialize W = PErr (mkError i E_InvalidArgs).
Proof.
  intros W root e flags ret ctx inline bs i Ha Hb Hn H.
  eapply (method_missing_array flags inline _ bs); eauto. right. eauto.
Qed.
Theorem C34_not_an_array : forall W root e flags ret ctx inline bs i e0 i0 vs e1 i1,
  after W root e (bs ++ i) -> e_method_return flags ret ctx inline bs -> g_lib e i e0 i0 -> object_array e0 i0 root vs e1 i1 ->
  Z.testbit flags bit_ArgsInArray = true -> (forall a r, vs <> VArray a :: r) ->
  deserialize W = PErr (mkError i1 E_InvalidArgs).
Proof.
  intros W root e flags ret ctx inline bs i e0 i0 vs e1 i1 Ha Hb Hl Hc H1 Hno.
  eapply (method_not_array flags inline _ bs); eauto; [right; eauto|].
  destruct Hb as (b1 & ? & ? & ? & (_ & (Hone & _) & _) & _).
  destruct (Z.testbit flags bit_ArgsIsArray) eqn:E; [|done].
  by specialize (Hone 2 3 bit_ArgsIsArray bit_ArgsInArray eq_refl eq_refl E H1).
Qed.
Theorem C34_origin : forall W c,
  deserialize W = POk (MMethodReturn c) ->
  exists root e bs i flags inline ca,
    after W root e (bs ++ i)
    /\ e_method_return flags (mr_return_value c) (mr_call_context c) inline bs
    /\ args_rule flags ca inline (mr_args c)
    /\ match ca with
       | Some vs => exists e0 i0 e1 i1, g_lib e i e0 i0 /\ object_array e0 i0 root vs e1 i1
       | None => forall vs e1 i1, ~ object_array e i root vs e1 i1
       end.
Proof.
  intros W c H. destruct (accepted_method W _ H) as (root & e & flags & inline & mk & bs & i & ca & args & e1 & i1 & e2 & Ha & Hb & Hca & Hr & Hmk & _); [done|].
  destruct Hb as [(name & type & ctx & Hb & ->)|(ret & ctx & Hb & ->)]; [done|]. injection Hmk as ->.
  exists root, e, bs, i, flags, inline, ca. split; [done|]. split; [done|]. split; [done|]. by eapply call_array_origin.
Qed.

Example C33_ex_inline :
  deserialize (header_bytes 1 (-1) ++ ex_record ++ ex_call_record 0x22 ++ [x0b])
  = POk (MMethodCall (mkMethodCall [] [] (Some []) (Some []))).
Proof.
  eapply (C33_inline _ 1 ex_env 0x22 [] [] (Some []) (Some []) _ [x0b] ex_env); [by apply ex_after| |done|apply G_objs_nil|done|done].
  apply (ex_call_record_ok 0x22); [split; vm_compute; congruence|by apply flags_okb_iff].
Qed.
Lemma ex_call_object_array : object_array empty_env (ex_call_array ++ ex_call_rest) 1 [VArray []] (del_obj 2 empty_env) [x0b].
Proof.
  exists 1%N, ex_call_array, [It_Ref 2], ex_call_rest. eexists _, _. split; [done|]. split; [by apply ex_header|].
  split; [|split; [right; by exists [], (It_Ref 2)|]].
  - apply (simple_items [It_Ref 2] (x09 :: enc_uint 4 2)). rewrite <- (app_nil_r (x09 :: _)).
    apply e_cons; [|apply e_nil]. right; left. exists 2%N. split; [done|]. exists (enc_uint 4 2). done.
  - eapply G_res_next; [done| |apply G_res_nil].
    eapply (array_record x10 K_Any _ _ 0 (x10 :: enc_uint 4 2 ++ enc_uint 4 0) []); [by left|by apply ex_header|apply G_items_nil|by left|apply G_res_nil].
Qed.
Example C33_ex_in_array :
  deserialize (header_bytes 1 (-1) ++ ex_call_record 0x18 ++ ex_call_array ++ ex_call_rest)
  = POk (MMethodCall (mkMethodCall [] [] None (Some []))).
Proof.
  eapply (C33_args_in_array _ 1 empty_env 0x18 [] [] None None); [by apply after_start; [|apply hid_ok]| | |apply ex_call_object_array|apply G_objs_nil|done].
  - apply (ex_call_record_ok 0x18); [split; vm_compute; congruence|by apply flags_okb_iff].
  - by apply G_lib_none.
Qed.
Example C34_ex_is_array :
  deserialize (header_bytes 1 (-1) ++ ex_return_record 0x814 ++ ex_call_array ++ ex_call_rest)
  = POk (MMethodReturn (mkMethodReturn (Some VNull) None (Some [VArray []]))).
Proof.
  eapply (C34_args_is_array _ 1 empty_env 0x814 (Some VNull) None None); [by apply after_start; [|apply hid_ok]| | |apply ex_call_object_array|apply G_objs_nil|done].
  - apply (ex_return_record_ok 0x814); [split; vm_compute; congruence|by apply flags_okb_iff].
  - by apply G_lib_none.
Qed.
Example C34_ex_missing :
  deserialize (header_bytes 1 (-1) ++ ex_return_record 0x814 ++ [x0b]) = PErr (mkError [x0b] E_InvalidArgs).
Proof.
  eapply (C34_missing_array _ 1 empty_env 0x814 (Some VNull) None None); [by apply after_start; [|apply hid_ok]| |done|by left].
  apply (ex_return_record_ok 0x814); [split; vm_compute; congruence|by apply flags_okb_iff].
Qed.

(** ** C35 The call array must be the root object *)

Theorem C35_wrong_id : forall W root e flags inline mk bs i e0 i0 id vs e1 i1,
  after W root e (bs ++ i) -> e_method flags inline mk bs ->
  g_lib e i e0 i0 -> object_array e0 i0 id vs e1 i1 -> id <> root ->
  deserialize W = PErr (mkError i1 E_InvalidCallArrayId).
Proof. intros W root e flags inline mk bs i e0 i0 aid vs e1 i1 Ha Hm. by eapply method_wrong_array. Qed.
(** Conversely the call array of every accepted message has the root id: [C33_origin],
    [C34_origin]. *)
Example C35_ex :
  deserialize (header_bytes 3 (-1) ++ ex_call_record 0x12 ++ ex_call_array ++ ex_call_rest)
  = PErr (mkError [x0b] E_InvalidCallArrayId).
Proof.
  eapply (C35_wrong_id _ 3 empty_env 0x12); [by apply after_start; [|apply hid_ok]| | |apply ex_call_object_array|done].
  - left. do 3 eexists. split; [|reflexivity]. apply (ex_call_record_ok 0x12); [split; vm_compute; congruence|by apply flags_okb_iff].
  - by apply G_lib_none.
Qed.

(** ** C36 Errors point into the input *)

Theorem C36_error_position : forall W err, deserialize W = PErr err -> exists p, W = p ++ e_input err.
Proof. apply error_suffix. Qed.
Example C36_ex : exists err, deserialize (header_bytes 1 0 ++ [x06; x00]) = PErr err /\ e_input err = [x00].
Proof. eexists. split; [vm_compute; reflexivity|done]. Qed.
End with_decimal.
