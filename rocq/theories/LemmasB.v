(** * LemmasB: self-delimitation, strings, primitive arrays, ids (C05, C08 - C14). *)
From Verif Require Import Base Utf8 Value DataTypes Records Parser Wire BaseLemmas Utf8Lemmas
  DataTypesLemmas RecordsLemmas MethodLemmas SafetyLemmas Safety Grammar Heads Complete Sound Fuel
  Message Run Spec LemmasA Delimited.
From Coq Require Import Lia ZifyBool ZifyNat ZifyN.

Section with_decimal.
Context {DL : DecimalLib}.

(** ** Bytes after a message *)

Lemma cut_library_extend (i t : bytes) :
  i <> [] -> no_library i -> ~ cut_library i -> no_library (i ++ t).
Proof.
  intros Hne Hn Hc. destruct i as [|c r]; [done|]. cbn [app].
  destruct (decide (c = x0c)) as [->|Hx].
  2:{ apply no_library_head. cbn [head_in]. by rewrite elem_of_list_singleton. }
  destruct Hn as (id & b & r' & Hid & -> & Hs). exists id, b, (r' ++ t).
  split; [done|]. split; [by rewrite <- app_assoc|]. intros (s & bs & r'' & He & Heq).
  assert (length bs <= length r' \/ length r' < length bs) as [Hl|Hl] by lia.
  - apply Hs. exists s, bs, (drop (length bs) r'). split; [done|].
    assert (bs = take (length bs) r') as E.
    { apply (f_equal (take (length bs))) in Heq. by rewrite take_app, take_app_le in Heq by lia. }
    rewrite E at 1. by rewrite take_drop.
  - apply Hc. split; [done|]. exists id, s, (drop (length r') bs). split.
    { intros E. apply (f_equal length) in E. rewrite drop_length in E. simpl in E. lia. }
    exists b, bs. split; [done|]. split; [done|]. cbn [app]. f_equal. rewrite <- app_assoc. f_equal.
    assert (r' = take (length r') bs) as E.
    { apply (f_equal (take (length r'))) in Heq. by rewrite take_app, take_app_le in Heq by lia. }
    rewrite E at 1. by rewrite take_drop.
Qed.

Lemma d_lib_extend e i e' i' t : d_lib e i e' i' -> 0 < length i' -> g_lib e (i ++ t) e' (i' ++ t).
Proof.
  intros [id name bs i1 H1 H2|i1 H1 H2] Hl.
  - rewrite <- app_assoc. by constructor.
  - apply G_lib_none. apply cut_library_extend; [|done|done]. intros ->. simpl in Hl. lia.
Qed.

(** Whatever follows, a delimited part of a message keeps its meaning. *)
Lemma d_extend :
  (forall e i id o e' i', d_class e i id o e' i' -> forall t, g_class e (i ++ t) id o e' (i' ++ t))
  /\ (forall k e i it e' i', d_member k e i it e' i' -> forall t, g_member k e (i ++ t) it e' (i' ++ t))
  /\ (forall ks e i its e' i', d_items ks e i its e' i' -> forall t,
        g_items ks e (i ++ t) its e' (i' ++ t))
  /\ (forall its e i vs e' i', d_resolve its e i vs e' i' -> forall t,
        g_resolve its e (i ++ t) vs e' (i' ++ t))
  /\ (forall e i id v e' i', d_record e i id v e' i' -> forall t, g_record e (i ++ t) id v e' (i' ++ t)).
Proof.
  apply d_mut_ind.
  - intros e i e1 bs i1 h lib its e2 i2 vs e3 i3 Hl Hh Hlib Hits IH1 Hres IH2 t.
    apply (d_lib_extend _ _ _ _ t) in Hl.
    2:{ apply class_header_pos in Hh. rewrite app_length. lia. }
    rewrite <- app_assoc in Hl. econstructor; [exact Hl|done|done|by apply IH1|]. apply IH2.
  - intros k e i e1 bs i1 it Hl Hk Hs t. apply (d_lib_extend _ _ _ _ t) in Hl.
    2:{ apply simple_item_nonempty in Hs. rewrite app_length. lia. }
    rewrite <- app_assoc in Hl. econstructor; [exact Hl|done|done].
  - intros k e i e1 i1 id o e2 i2 Hl Hk Hc IH t. apply (d_lib_extend _ _ _ _ t) in Hl.
    2:{ pose proof (g_class_length _ _ _ _ _ _ (IH [])) as H. rewrite !app_nil_r in H. lia. }
    eapply G_inline; [exact Hl|done|apply IH].
  - intros k e i e1 i1 it e2 i2 Hk Hl Hm IH t. apply (d_lib_extend _ _ _ _ t) in Hl.
    2:{ pose proof (g_member_length _ _ _ _ _ _ (IH [])) as H. rewrite !app_nil_r in H. lia. }
    eapply G_nested; [done|exact Hl|apply IH].
  - constructor.
  - intros. econstructor; eauto.
  - constructor.
  - intros. constructor. auto.
  - intros. constructor. auto.
  - intros. eapply G_res_known; eauto.
  - intros. eapply G_res_next; eauto.
  - intros. constructor. auto.
  - intros. rewrite <- app_assoc. by constructor.
  - intros. rewrite <- app_assoc. by econstructor.
  - intros. rewrite <- app_assoc. eapply G_rec_objects; eauto.
  - intros. rewrite <- app_assoc. eapply G_rec_strings; eauto.
  - intros. rewrite <- app_assoc. eapply G_rec_array; eauto.
Qed.

Lemma d_objects_extend t e i e' i' : d_objects e i e' i' -> g_objects e (i ++ t) e' (i' ++ t).
Proof.
  induction 1 as [|e i id v e1 i1 e2 i2 Hr Ho IH]; [constructor|].
  destruct d_extend as (_ & _ & _ & _ & G). econstructor; [by apply G|]. exact IH.
Qed.

Lemma d_call_array_extend t root e i ca e' i' :
  d_call_array root e i ca e' i' -> 0 < length i -> g_call_array root e (i ++ t) ca e' (i' ++ t).
Proof.
  intros [Hh|e1 id len bs i1 its e2 i2 vs e3 i3 Hl Hh -> Hits Hf Hres] Hlen.
  - apply G_ca_none. destruct i as [|c i]; [simpl in Hlen; lia|exact Hh].
  - apply (d_lib_extend _ _ _ _ t) in Hl.
    2:{ apply array_header_length in Hh. rewrite app_length. lia. }
    rewrite <- app_assoc in Hl. destruct d_extend as (_ & _ & G3 & G4 & _).
    eapply G_ca_some; [exact Hl|done|done|by apply G3|done|]. by apply G4.
Qed.
Lemma d_method_extend t root e i m e' i' :
  d_method root e i m e' i' -> 0 < length i' -> g_method root e (i ++ t) m e' (i' ++ t).
Proof.
  intros Hm Hl. 
  assert (forall i0 ca e1, d_call_array root e i0 ca e1 i' -> 0 < length i0) as Hpos.
  { intros i0 ca e1 Hc. destruct i0 as [|c i0]; [|simpl; lia]. exfalso.
    inversion Hc as [H1|e2 id len bs i1 its e3 i2 vs e4 i3 Hl' Hh]; subst; [simpl in Hl; lia|].
    apply array_header_length in Hh. 
    assert (length (bs ++ i1) <= length (@nil byte)) as Hle.
    { destruct Hl' as [id' name bs' j _ _|j _ _]; rewrite ?app_length; lia. }
    rewrite app_length in Hle. simpl in Hle. lia. }
  destruct Hm as [flags name type ctx inline bs i ca args e' i' Hb Hca Hargs
              |flags ret ctx inline bs i ca args e' i' Hb Hca Hargs]; rewrite <- app_assoc.
  - eapply G_call; [done| |done]. eapply d_call_array_extend; [done|by eapply Hpos].
  - eapply G_return; [done| |done]. eapply d_call_array_extend; [done|by eapply Hpos].
Qed.

Lemma e_header_length root hb : e_header root hb -> length hb = 17.
Proof.
  intros (hid & _ & _ & ->). unfold enc_int. cbn [length]. rewrite !app_length, !enc_uint_length. done.
Qed.

Lemma delimited_grammar W m : d_message W m -> g_message W m.
Proof.
  intros [root hb i e v Hh Ho Hv|root hb i e1 i1 m' e2 i2 e3 Hh Ho Hme Ho3].
  - eapply G_msg_value; [done| |done]. apply (d_objects_extend []) in Ho. by rewrite !app_nil_r in Ho.
  - assert (0 < length i2) as Hl.
    { apply (d_objects_extend []) in Ho3. rewrite !app_nil_r in Ho3. apply g_objects_length in Ho3. simpl in Ho3. lia. }
    apply (d_objects_extend []) in Ho, Ho3. apply (d_method_extend []) in Hme; [|done].
    rewrite !app_nil_r in *. by eapply G_msg_method.
Qed.

Lemma message_extend root hb body m t :
  e_header root hb -> d_message (hb ++ body) m -> t <> [] ->
  deserialize (hb ++ body ++ t) = PErr (mkError t E_TrailingData).
Proof.
  intros Hh Hm Ht. inversion Hm as [root' hb' i e v Hh' Ho Hv Heq|root' hb' i e1 i1 m' e2 i2 e3 Hh' Ho Hme Ho3 Heq]; subst.
  - apply app_inj_1 in Heq as [-> ->]; [|by rewrite (e_header_length _ _ Hh), (e_header_length _ _ Hh')].
    pose proof (d_objects_extend t _ _ _ _ Ho) as Ho'. cbn [app] in Ho'.
    rewrite (run_end _ _ _ _ _ Hh Ho'). by destruct t.
  - apply app_inj_1 in Heq as [-> ->]; [|by rewrite (e_header_length _ _ Hh), (e_header_length _ _ Hh')].
    assert (0 < length i2) as Hl.
    { apply (d_objects_extend []) in Ho3. rewrite !app_nil_r in Ho3. apply g_objects_length in Ho3. simpl in Ho3. lia. }
    pose proof (d_objects_extend t _ _ _ _ Ho) as Ho'.
    pose proof (d_method_extend t _ _ _ _ _ _ Hme Hl) as Hme'.
    pose proof (d_objects_extend t _ _ _ _ Ho3) as Ho3'. cbn [app] in Ho3'.
    rewrite (run_method_end _ _ _ _ _ _ _ _ _ _ Hh' Ho' Hme' Ho3'). by destruct t.
Qed.

(** *** A message in which nothing looks like a cut-off library record is delimited *)

Lemma no_cut_suffix i i' : i' ⊑s i -> no_cut_library i -> no_cut_library i'.
Proof. intros [b ->] H p j ->. eapply (H (b ++ p)). by rewrite app_assoc. Qed.
Lemma no_cut_app b i : no_cut_library (b ++ i) -> no_cut_library i.
Proof. apply no_cut_suffix. by exists b. Qed.
Lemma g_lib_uncut e i e' i' : g_lib e i e' i' -> no_cut_library i -> d_lib e i e' i' /\ no_cut_library i'.
Proof.
  intros [id name bs i1 H1 H2|i1 H1] H.
  - split; [by constructor|by eapply no_cut_app].
  - split; [|done]. apply D_lib_none; [done|]. by apply (H [] i1).
Qed.

Lemma g_uncut :
  (forall e i id o e' i', g_class e i id o e' i' -> no_cut_library i -> d_class e i id o e' i')
  /\ (forall k e i it e' i', g_member k e i it e' i' -> no_cut_library i -> d_member k e i it e' i')
  /\ (forall ks e i its e' i', g_items ks e i its e' i' -> no_cut_library i -> d_items ks e i its e' i')
  /\ (forall its e i vs e' i', g_resolve its e i vs e' i' -> no_cut_library i -> d_resolve its e i vs e' i')
  /\ (forall e i id v e' i', g_record e i id v e' i' -> no_cut_library i -> d_record e i id v e' i').
Proof.
  pose proof g_suffix as (S1 & S2 & S3 & S4 & S5).
  apply g_mut_ind.
  - intros e i e1 bs i1 h lib its e2 i2 vs e3 i3 Hl Hh Hlib Hits IH1 Hres IH2 Hn.
    destruct (g_lib_uncut _ _ _ _ Hl Hn) as [Hl' Hn'%no_cut_app].
    econstructor; [exact Hl'|done|done|by apply IH1|]. apply IH2. eapply no_cut_suffix; [by eapply S3|done].
  - intros k e i e1 bs i1 it Hl Hk Hs Hn. destruct (g_lib_uncut _ _ _ _ Hl Hn) as [Hl' _].
    econstructor; [exact Hl'|done|done].
  - intros k e i e1 i1 id o e2 i2 Hl Hk Hc IH Hn. destruct (g_lib_uncut _ _ _ _ Hl Hn) as [Hl' Hn'].
    eapply D_inline; [exact Hl'|done|by apply IH].
  - intros k e i e1 i1 it e2 i2 Hk Hl Hm IH Hn. destruct (g_lib_uncut _ _ _ _ Hl Hn) as [Hl' Hn'].
    eapply D_nested; [done|exact Hl'|by apply IH].
  - constructor.
  - intros k ks e i it e1 i1 its e2 i2 Hm IH1 Hits IH2 Hn.
    econstructor; [by apply IH1|]. apply IH2. eapply no_cut_suffix; [by eapply S2|done].
  - constructor.
  - intros. constructor. auto.
  - intros. constructor. auto.
  - intros. eapply D_res_known; eauto.
  - intros id v its e i e1 i1 vs e' i' Hno Hr IH1 Hres IH2 Hn.
    eapply D_res_next; [done|by apply IH1|]. apply IH2. eapply no_cut_suffix; [by eapply S5|done].
  - intros. constructor. auto.
  - intros. by constructor.
  - intros. by econstructor.
  - intros e i id len bs its e1 i1 vs e2 i2 Hh Hits IH1 Hf Hres IH2 Hn%no_cut_app.
    eapply D_rec_objects; [done|by apply IH1|done|]. apply IH2. eapply no_cut_suffix; [by eapply S3|done].
  - intros e i id len bs its e1 i1 vs e2 i2 Hh Hits IH1 Hf Hres IH2 Hn%no_cut_app.
    eapply D_rec_strings; [done|by apply IH1|done|]. apply IH2. eapply no_cut_suffix; [by eapply S3|done].
  - intros e i id bat lengths bounds k bs its e1 i1 vs e2 i2 out Hh Ho Hits IH1 Hres IH2 Hsh Hn%no_cut_app.
    eapply D_rec_array; [done|done|by apply IH1| |done]. apply IH2. eapply no_cut_suffix; [by eapply S3|done].
Qed.

Lemma g_objects_uncut e i e' i' : g_objects e i e' i' -> no_cut_library i -> d_objects e i e' i'.
Proof.
  induction 1 as [|e i id v e1 i1 e2 i2 Hr Ho IH]; intros Hn; [constructor|].
  pose proof g_suffix as (_ & _ & _ & _ & S5). destruct g_uncut as (_ & _ & _ & _ & G).
  econstructor; [by apply G|]. apply IH. eapply no_cut_suffix; [by eapply S5|done].
Qed.
Lemma g_call_array_uncut root e i ca e' i' :
  g_call_array root e i ca e' i' -> no_cut_library i -> d_call_array root e i ca e' i'.
Proof.
  intros [Hh|e1 id len bs i1 its e2 i2 vs e3 i3 Hl Hh -> Hits Hf Hres] Hn; [by apply D_ca_none|].
  destruct (g_lib_uncut _ _ _ _ Hl Hn) as [Hl' Hn'%no_cut_app].
  pose proof g_suffix as (_ & _ & S3 & _ & _). destruct g_uncut as (_ & _ & G3 & G4 & _).
  eapply D_ca_some; [exact Hl'|done|done|by apply G3|done|]. apply G4; [done|].
  eapply no_cut_suffix; [by eapply S3|done].
Qed.

Lemma message_uncut root hb body m :
  e_header root hb -> g_message (hb ++ body) m -> no_cut_library body -> d_message (hb ++ body) m.
Proof.
  intros Hh Hm Hn. inversion Hm as [root' hb' i e v Hh' Ho Hv Heq|root' hb' i e1 i1 m' e2 i2 e3 Hh' Ho Hme Ho3 Heq]; subst.
  - apply app_inj_1 in Heq as [-> ->]; [|by rewrite (e_header_length _ _ Hh), (e_header_length _ _ Hh')].
    eapply D_msg_value; [done|by apply g_objects_uncut|done].
  - apply app_inj_1 in Heq as [-> ->]; [|by rewrite (e_header_length _ _ Hh), (e_header_length _ _ Hh')].
    assert (no_cut_library i1) as Hn1 by (eapply no_cut_suffix; [by eapply g_objects_suffix|done]).
    assert (i2 ⊑s i1) as Hs.
    { destruct Hme as [flags name type ctx inline bs i ca args e' i' Hb Hca Hargs
                  |flags ret ctx inline bs i ca args e' i' Hb Hca Hargs].
      - eapply method_step_suffix, MS_call; [done|by apply CA_clean|done].
      - eapply method_step_suffix, MS_return; [done|by apply CA_clean|done]. }
    eapply D_msg_method; [done|by apply g_objects_uncut| |].
    + destruct Hme as [flags name type ctx inline bs i ca args e' i' Hb Hca Hargs
                  |flags ret ctx inline bs i ca args e' i' Hb Hca Hargs]; apply no_cut_app in Hn1.
      * eapply D_call; [done|by apply g_call_array_uncut|done].
      * eapply D_return; [done|by apply g_call_array_uncut|done].
    + apply g_objects_uncut; [done|]. by eapply no_cut_suffix.
Qed.

Lemma no_cut_without_12 body : x0c ∉ body -> no_cut_library body.
Proof.
  intros H p i -> (Hne & id & name & t & _ & b1 & b2 & _ & _ & Heq).
  destruct i as [|c i]; [done|]. injection Heq as -> _. apply H. set_solver.
Qed.

(** ** Length prefixes *)

Lemma b2n_low k : (b2n (n2b (128 + k mod 128)) = 128 + k mod 128)%N.
Proof. pose proof (N.mod_lt k 128 ltac:(done)). rewrite b2n_n2b_small; lia. Qed.
Lemma low_mod k : ((128 + k mod 128) mod 128 = k mod 128)%N.
Proof.
  rewrite <- N.add_mod_idemp_l by done. change (128 mod 128)%N with 0%N. rewrite N.add_0_l.
  by rewrite N.mod_mod.
Qed.

Lemma leb128_value f n : (n < 128 ^ N.of_nat f)%N -> len_value (leb128_aux f n) = n.
Proof.
  revert n. induction f as [|f IH]; intros n Hn.
  { change (128 ^ N.of_nat 0)%N with 1%N in Hn. cbn. lia. }
  cbn [leb128_aux]. rewrite Nat2N.inj_succ, N.pow_succ_r' in Hn.
  destruct (N.ltb_spec n 128); cbn [len_value].
  - rewrite b2n_n2b_small by lia. rewrite N.mod_small by lia. lia.
  - rewrite b2n_low, low_mod. rewrite IH by (apply N.div_lt_upper_bound; lia).
    pose proof (N.div_mod n 128 ltac:(done)). lia.
Qed.

Lemma leb128_shape f n : (n < 128 ^ N.of_nat (S f))%N ->
  exists init last, leb128_aux (S f) n = init ++ [last]
    /\ Forall (fun b => 128 <= b2n b)%N init /\ (b2n last < 128)%N /\ length init <= f
    /\ (length init = f -> b2n last = n / 128 ^ N.of_nat f)%N.
Proof.
  revert n. induction f as [|f IH]; intros n Hn; cbn [leb128_aux].
  { change (128 ^ N.of_nat 1)%N with 128%N in Hn. destruct (N.ltb_spec n 128); [|lia].
    exists [], (n2b n). repeat split; [constructor|by rewrite b2n_n2b_small by lia|done|].
    intros _. rewrite b2n_n2b_small by lia. by rewrite N.div_1_r. }
  rewrite Nat2N.inj_succ, N.pow_succ_r' in Hn.
  destruct (N.ltb_spec n 128).
  - exists [], (n2b n). repeat split; [constructor|by rewrite b2n_n2b_small by lia|cbn; lia|].
    cbn. lia.
  - destruct (IH (n / 128)%N) as (init & last & E & F & L & Hlen & Hlast).
    { apply N.div_lt_upper_bound; lia. }
    cbn [leb128_aux] in E. exists (n2b (128 + n mod 128) :: init), last.
    split; [cbn [app]; by rewrite <- E|]. split; [constructor; [rewrite b2n_low; lia|done]|].
    split; [done|]. split; [cbn; lia|]. cbn [length]. intros Hl.
    rewrite Hlast by lia. rewrite N.div_div by (try apply N.pow_nonzero; done).
    by rewrite Nat2N.inj_succ, N.pow_succ_r'.
Qed.

Lemma leb128_prefix n : (n < 2 ^ 31)%N -> len_prefix n (leb128 n).
Proof.
  change (2 ^ 31)%N with 2147483648%N. intros Hn. unfold leb128.
  destruct (leb128_shape 4 n) as (init & last & E & F & L & Hlen & Hlast).
  { change (128 ^ N.of_nat 5)%N with 34359738368%N. lia. }
  exists init, last. rewrite E. repeat split; try done.
  - rewrite app_length. cbn. lia.
  - rewrite app_length. cbn. intros Hl. rewrite Hlast by lia.
    change (128 ^ N.of_nat 4)%N with 268435456%N. apply N.div_lt_upper_bound; lia.
  - rewrite <- E. apply leb128_value. change (128 ^ N.of_nat 5)%N with 34359738368%N. lia.
Qed.

End with_decimal.
