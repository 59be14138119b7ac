(** * ContentLemmas: the bytes of a message pay for its content (property C88). *)
From Verif Require Import Base Utf8 Value DataTypes Records Parser Wire BaseLemmas DataTypesLemmas
  RecordsLemmas MethodLemmas SafetyLemmas Safety Grammar Heads Complete Sound Fuel Message Run Spec
  LemmasA LemmasB LemmasC Positions Reach LemmasD Trees TreeLemmas PropsB PropsC PropsD Calm Size Leftover Content.
From Coq Require Import Lia.

Definition contents (vs : list value) : N := fold_right (fun w n => content w + n)%N 0%N vs.
Definition texts (l : list str) : N := fold_right (fun s n => 1 + text_size s + n)%N 0%N l.
Definition mcontents (l : list (str * value)) : N :=
  fold_right (fun kv n => (1 + text_size kv.1) + content kv.2 + n)%N 0%N l.
Definition cost (i : bytes) : N := N.of_nat (length i).
Lemma cost_app i j : cost (i ++ j) = (cost i + cost j)%N.
Proof. unfold cost. rewrite app_length. lia. Qed.
Lemma cost_cons b i : cost (b :: i) = (1 + cost i)%N.
Proof. unfold cost. cbn [length]. lia. Qed.

Lemma contents_cons v l : contents (v :: l) = (content v + contents l)%N.
Proof. done. Qed.
Lemma contents_app l1 l2 : contents (l1 ++ l2) = (contents l1 + contents l2)%N.
Proof. induction l1 as [|v l1 IH]; [done|]. cbn [app]. rewrite !contents_cons, IH. lia. Qed.
Lemma contents_nulls n : contents (replicate n VNull) = 0%N.
Proof. induction n as [|n IH]; [done|]. cbn [replicate]. rewrite contents_cons, IH. done. Qed.
Lemma content_array vs : content (VArray vs) = contents vs.
Proof. done. Qed.
Lemma content_object o : content (VObject o) = (1 + text_size (obj_class o) + mcontents (obj_members o))%N.
Proof. done. Qed.
Lemma mcontents_cons k v l : mcontents ((k, v) :: l) = ((1 + text_size k) + content v + mcontents l)%N.
Proof. done. Qed.
Lemma texts_cons s l : texts (s :: l) = (1 + text_size s + texts l)%N.
Proof. done. Qed.

Lemma mcontents_insert k v m : (mcontents (hm_insert k v m) <= (1 + text_size k) + content v + mcontents m)%N.
Proof.
  induction m as [|[k' v'] m IH]; cbn [hm_insert]; [rewrite mcontents_cons; unfold mcontents; cbn [fold_right]; lia|].
  unfold str_eqb. case_bool_decide as H; rewrite !mcontents_cons; [subst k'; lia|lia].
Qed.
Lemma mcontents_from_iter l : (mcontents (hm_from_iter l) <= mcontents l)%N.
Proof.
  unfold hm_from_iter. enough (forall m, (mcontents (fold_left (fun m kv => hm_insert kv.1 kv.2 m) l m) <= mcontents l + mcontents m)%N) as H.
  { specialize (H []). unfold mcontents in *. cbn [fold_right] in H. lia. }
  induction l as [|[k v] l IH]; intros m; cbn [fold_left]; [unfold mcontents; cbn [fold_right]; lia|].
  etrans; [apply IH|]. cbn [fst snd]. pose proof (mcontents_insert k v m). rewrite mcontents_cons. lia.
Qed.
Lemma mcontents_zip names vs : (mcontents (zip names vs) <= texts names + contents vs)%N.
Proof.
  revert vs. induction names as [|n names IH]; intros [|v vs]; try (cbn; lia).
  change (zip (n :: names) (v :: vs)) with ((n, v) :: zip names vs).
  rewrite mcontents_cons, texts_cons, contents_cons. specialize (IH vs). lia.
Qed.

Lemma shape_content dims : forall v leaves, has_shape dims v leaves -> content v = contents leaves.
Proof.
  induction dims as [|d dims IH]; intros v leaves Hs.
  - inv Hs. rewrite contents_cons. unfold contents. cbn [fold_right]. lia.
  - inversion Hs as [|d' dims' rows lvs Hd HF E1 E2 E3]. subst d' dims' v leaves. rewrite content_array. clear Hs Hd.
    induction HF as [|r l rows lvs Hr _ IH2]; [done|]. cbn [concat]. by rewrite contents_cons, contents_app, (IH _ _ Hr), IH2.
Qed.
Lemma shaped_content dims vs out : shaped dims vs out -> contents out = contents vs.
Proof.
  intros [[-> ->]|[_ (leaves & HF & <-)]]; [done|].
  induction HF as [|r l rows lvs Hr _ IH]; [done|]. cbn [concat]. by rewrite contents_cons, contents_app, (shape_content _ _ _ Hr), IH.
Qed.

(** ** The objects in the table *)
Definition objs_content (m : gmap N value) : N := map_fold (fun _ v n => content v + n)%N 0%N m.
Lemma objs_content_insert m id v : m !! id = None -> objs_content (<[id := v]> m) = (content v + objs_content m)%N.
Proof. intros H. unfold objs_content. rewrite map_fold_insert_L; [done| |done]. intros. lia. Qed.
Lemma objs_content_delete m id v : m !! id = Some v -> (content v + objs_content (delete id m) = objs_content m)%N.
Proof.
  intros H. rewrite <- (insert_delete m id v H) at 2. rewrite objs_content_insert by apply lookup_delete. done.
Qed.
Lemma objs_content_lookup m id v : m !! id = Some v -> (content v <= objs_content m)%N.
Proof. intros H. rewrite <- (objs_content_delete m id v H). lia. Qed.
Lemma objs_content_delete_le m id : (objs_content (delete id m) <= objs_content m)%N.
Proof.
  destruct (m !! id) as [v|] eqn:E; [rewrite <- (objs_content_delete m id v E); lia|].
  by rewrite delete_notin.
Qed.
Lemma objs_content_replace m id v : (objs_content (<[id := v]> m) <= content v + objs_content m)%N.
Proof.
  rewrite <- insert_delete_insert. rewrite objs_content_insert by apply lookup_delete.
  pose proof (objs_content_delete_le m id). lia.
Qed.

Section bound.
Context {DL : DecimalLib}.

(** ** What is written pays for itself *)
Lemma str_paid s bs : e_str s bs -> (1 + text_size s <= cost bs)%N.
Proof.
  intros (p & Hp & -> & _). assert (p <> []) as Hne.
  { destruct Hp as (init & last & -> & _). by destruct init. }
  rewrite cost_app. unfold text_size. destruct p as [|b p]; [done|]. rewrite cost_cons. unfold cost. lia.
Qed.
Lemma strs_paid l bs : e_list e_str l bs -> (texts l <= cost bs)%N.
Proof.
  induction 1 as [|s l b bs Hs _ IH]; [done|]. rewrite texts_cons, cost_app. apply str_paid in Hs. lia.
Qed.
Lemma prim_content v bs : e_prim v bs -> content v = width v.
Proof. by destruct v. Qed.
Lemma prim_paid v bs : e_prim v bs -> (content v <= cost bs)%N.
Proof.
  intros H. rewrite (prim_content _ _ H).
  assert (bs <> []) as Hne by (intros ->; by apply e_prim_nonempty in H).
  destruct v; cbn [e_prim width] in *; try done; try (destruct bs; [done|]; rewrite cost_cons; lia);
    destruct H as [_ ->]; unfold cost, enc_int; by rewrite enc_uint_length.
Qed.
Lemma prims_paid vs bs : e_list e_prim vs bs -> (contents vs <= cost bs)%N.
Proof.
  induction 1 as [|v l b bs Hs _ IH]; [done|]. rewrite contents_cons, cost_app. apply prim_paid in Hs. lia.
Qed.
Lemma coded_paid v bs : e_value_with_code v bs -> (content v <= cost bs)%N.
Proof.
  intros H. destruct v; cbn [e_value_with_code] in H;
    try (destruct H as (p0 & b0 & Hp & Hb0 & ->); apply prim_paid in Hb0; rewrite !cost_cons; lia).
  - destruct H as (b0 & Hb0 & ->). apply str_paid in Hb0. rewrite cost_cons. cbn [content]. lia.
  - cbn [content width]. lia.
Qed.
Lemma codeds_paid vs bs : e_list e_value_with_code vs bs -> (contents vs <= cost bs)%N.
Proof.
  induction 1 as [|v l b bs Hs _ IH]; [done|]. rewrite contents_cons, cost_app. apply coded_paid in Hs. lia.
Qed.
Lemma header_paid h bs : e_class_header h bs ->
  (1 + text_size (ch_name h) + texts (ch_member_names h) <= cost bs)%N.
Proof.
  intros (b1 & b2 & b3 & b4 & b5 & _ & H2 & (b & _ & H3 & ->) & _ & _ & ->).
  apply str_paid in H2. apply strs_paid in H3. rewrite cost_cons, !cost_app. lia.
Qed.
Lemma record_string_paid id s bs : e_string_record id s bs -> (content (VString s) <= cost bs)%N.
Proof.
  intros (b1 & b2 & _ & H2 & ->). apply str_paid in H2. rewrite cost_cons, cost_app. cbn [content]. lia.
Qed.

Definition worth_of (it : item) : N := match it with It_Value v => content v | _ => 0%N end.
Definition worths (its : list item) : N := fold_right (fun it n => worth_of it + n)%N 0%N its.
Lemma simple_paid k it bs : simple_item k it bs -> (worth_of it <= cost bs)%N.
Proof.
  assert (forall it bs, str_item it bs -> (worth_of it <= cost bs)%N) as Hstr.
  { intros it' bs' (id & s & -> & H). by eapply record_string_paid. }
  assert (forall it bs, ref_item it bs -> (worth_of it <= cost bs)%N) as Href.
  { intros it' bs' (id & -> & _). cbn [worth_of]. lia. }
  assert (forall it bs, null_item it bs -> (worth_of it <= cost bs)%N) as Hnull.
  { intros it' bs' (n & -> & _). cbn [worth_of]. lia. }
  assert (forall it bs, typed_item it bs -> (worth_of it <= cost bs)%N) as Htyped.
  { intros it' bs' (v & -> & p & b & _ & Hb & ->). apply prim_paid in Hb. rewrite !cost_cons. cbn [worth_of]. lia. }
  destruct k; cbn [simple_item]; try done; eauto.
  - intros [H|[H|[H|H]]]; eauto.
  - intros (v & -> & _ & Hv). by apply prim_paid in Hv.
  - intros [H|[H|H]]; eauto.
Qed.

Definition fund (e : env) (i : bytes) : N := (objs_content (e_objs e) + cost i)%N.
Lemma lib_fund e i e' i' : g_lib e i e' i' -> (fund e' i' <= fund e i)%N.
Proof.
  destruct 1 as [id name bs i Hl Hn|]; [|done]. unfold fund. rewrite cost_app. cbn [add_lib e_objs]. lia.
Qed.

Lemma g_fund :
  (forall e i id o e' i', g_class e i id o e' i' -> (content (VObject o) + fund e' i' <= fund e i)%N)
  /\ (forall k e i it e' i', g_member k e i it e' i' -> (worth_of it + fund e' i' <= fund e i)%N)
  /\ (forall ks e i its e' i', g_items ks e i its e' i' -> (worths its + fund e' i' <= fund e i)%N)
  /\ (forall its e i vs e' i', g_resolve its e i vs e' i' ->
     (contents vs + fund e' i' <= worths its + fund e i)%N)
  /\ (forall e i id v e' i', g_record e i id v e' i' -> (content v + fund e' i' <= fund e i)%N).
Proof.
  apply g_mut_ind.
  - intros e i e1 bs i1 h lib its e2 i2 vs e3 i3 Hl Hh _ Hits IH1 Hres IH2.
    apply lib_fund in Hl. unfold fund in Hl at 1. rewrite cost_app in Hl. apply header_paid in Hh.
    rewrite content_object. cbn [obj_class obj_members].
    pose proof (mcontents_from_iter (zip (ch_member_names h) vs)). pose proof (mcontents_zip (ch_member_names h) vs).
    unfold fund in *. lia.
  - intros k e i e1 bs i1 it Hl _ Hs. apply simple_paid in Hs. apply lib_fund in Hl.
    unfold fund in *. rewrite cost_app in Hl. lia.
  - intros k e i e1 i1 id o e2 i2 Hl _ Hc IH. apply lib_fund in Hl. cbn [worth_of]. lia.
  - intros k e i e1 i1 it e2 i2 _ Hl Hm IH. apply lib_fund in Hl. lia.
  - intros e i. cbn. lia.
  - intros k ks e i it e1 i1 its e2 i2 Hm IH1 Hits IH2.
    change (worths (it :: its)) with (worth_of it + worths its)%N. lia.
  - intros e i. cbn. lia.
  - intros v its e i vs e' i' Hr IH. change (worths (It_Value v :: its)) with (content v + worths its)%N.
    rewrite contents_cons. lia.
  - intros n its e i vs e' i' Hr IH. change (worths (It_Nulls n :: its)) with (0 + worths its)%N.
    rewrite contents_app, contents_nulls. lia.
  - intros id v its e i vs e' i' Hv Hr IH. change (worths (It_Ref id :: its)) with (0 + worths its)%N.
    rewrite contents_cons. unfold fund in *. cbn [del_obj e_objs] in IH.
    pose proof (objs_content_delete _ _ _ Hv). lia.
  - intros id v its e i e1 i1 vs e' i' Hn Hrec IH1 Hr IH2.
    change (worths (It_Ref id :: its)) with (0 + worths its)%N.
    rewrite contents_cons. unfold fund in *. cbn [del_obj e_objs] in IH2.
    pose proof (objs_content_delete_le (e_objs e1) id). lia.
  - intros e i id o e' i' Hc IH. exact IH.
  - intros e i id s bs Hs. apply record_string_paid in Hs. unfold fund. rewrite cost_app. lia.
  - intros e i id p vs bs (b1 & b2 & _ & _ & Hl & ->). apply prims_paid in Hl.
    unfold fund. rewrite !cost_app, cost_cons, content_array. lia.
  - intros e i id len bs its e1 i1 vs e2 i2 _ _ IH1 _ _ IH2.
    unfold fund in *. rewrite cost_app, content_array. lia.
  - intros e i id len bs its e1 i1 vs e2 i2 _ _ IH1 _ _ IH2.
    unfold fund in *. rewrite cost_app, content_array. lia.
  - intros e i id bat lengths bounds k bs its e1 i1 vs e2 i2 out _ _ _ IH1 _ IH2 Hsh.
    apply shaped_content in Hsh. unfold fund in *. rewrite cost_app, content_array. lia.
Qed.

Lemma objects_fund e i e' i' : g_objects e i e' i' -> (fund e' i' <= fund e i)%N.
Proof.
  induction 1 as [|e i id v e1 i1 e2 i2 Hr Ho IH]; [done|].
  pose proof (proj2 (proj2 (proj2 (proj2 g_fund))) _ _ _ _ _ _ Hr) as H1.
  etrans; [exact IH|]. unfold fund in *. cbn [add_obj e_objs].
  pose proof (objs_content_replace (e_objs e1) id v). lia.
Qed.
Lemma cost_suffix i j : j ⊑s i -> (cost j <= cost i)%N.
Proof. intros [k ->]. rewrite cost_app. lia. Qed.
Lemma abandoned_content e i e' : abandoned e i e' ->
  (objs_content (e_objs e') <= objs_content (e_objs e) + cost i)%N.
Proof.
  intros Ha. refine (abandoned_held objs_content cost (fun _ => True) cost_suffix _ objs_content_delete_le _ e i e' Ha I); [done|].
  clear. intros e i id v e' i' Hr _. pose proof (proj2 (proj2 (proj2 (proj2 g_fund))) _ _ _ _ _ _ Hr) as H1.
  unfold fund in H1. cbn [add_obj e_objs]. pose proof (objs_content_replace (e_objs e') id v). lia.
Qed.

Lemma inline_content flags args bs :
  e_flagged flags bit_ArgsInline (e_counted e_value_with_code) args bs -> (contents (default [] args) <= cost bs)%N.
Proof.
  destruct args as [args|]; cbn [e_flagged default]; [|intros _; cbn; lia].
  intros (_ & b & _ & Hl & ->). apply codeds_paid in Hl. rewrite cost_app. unfold id. lia.
Qed.
Lemma coded_string_paid s bs : e_string_with_code s bs -> (1 + text_size s <= cost bs)%N.
Proof. intros (b & Hb & ->). apply str_paid in Hb. rewrite cost_cons. lia. Qed.
Lemma context_paid flags ctx bs :
  e_flagged flags bit_ContextInline e_string_with_code ctx bs -> (texts (opt_list ctx) <= cost bs)%N.
Proof.
  destruct ctx as [s|]; cbn [e_flagged opt_list]; [|intros _; cbn; lia].
  intros [_ H]. apply coded_string_paid in H. rewrite texts_cons. change (texts []) with 0%N. lia.
Qed.
Lemma call_array_fund root e i ca e' i' : g_call_array root e i ca e' i' ->
  (contents (default [] ca) + fund e' i' <= fund e i)%N.
Proof.
  destruct 1 as [|e1 aid len bs i1 its e2 i2 vs e3 i3 Hl _ _ Hits _ Hres]; cbn [default]; [cbn; lia|].
  destruct g_fund as (_ & _ & Pi & Pr & _).
  pose proof (Pi _ _ _ _ _ _ Hits). pose proof (Pr _ _ _ _ _ _ Hres).
  apply lib_fund in Hl. unfold fund in *. rewrite cost_app in Hl. cbn [from_option]; unfold id; lia.
Qed.
Lemma step_fund root e i ca e' i' : call_array_step root e i ca e' i' ->
  (contents (default [] ca) <= fund e i)%N.
Proof.
  intros [ca' e0 i0 Hca|e0 _ _]; [|cbn; lia]. apply call_array_fund in Hca. lia.
Qed.
Lemma args_content flags ca inline args : args_rule flags ca inline args ->
  (contents (default [] args) <= contents (default [] ca) + contents (default [] inline))%N.
Proof.
  unfold args_rule. destruct (Z.testbit _ _); [intros (a & -> & ->); cbn [default from_option]; unfold id; lia|].
  destruct (Z.testbit _ _); [|intros ->; lia]. intros (a & r & -> & ->). cbn [default from_option]; unfold id.
  rewrite contents_cons, content_array. lia.
Qed.
Lemma method_fund root e i m e' i' : method_step root e i m e' i' -> (message_content m <= fund e i)%N.
Proof.
  unfold message_content.
  destruct 1 as [flags name type ctx inline bs i ca args e' i' Hc Hca Ha|flags ret ctx inline bs i ca args e' i' Hc Hca Ha];
    apply step_fund in Hca; apply args_content in Ha.
  - destruct Hc as (b1 & b2 & b3 & b4 & b5 & _ & H2 & H3 & H4 & H5 & ->). apply inline_content in H5.
    apply coded_string_paid in H2. apply coded_string_paid in H3. apply context_paid in H4.
    cbn [message_values message_strings mc_args mc_method_name mc_type_name mc_call_context].
    unfold fund in *. rewrite cost_app, cost_cons, !cost_app.
    change (fold_right _ 0%N (name :: type :: opt_list ctx)) with (texts (name :: type :: opt_list ctx)). rewrite !texts_cons.
    change (fold_right _ 0%N (default [] args)) with (contents (default [] args)). lia.
  - destruct Hc as (b1 & b2 & b3 & b4 & _ & H2 & H3 & H4 & ->). apply inline_content in H4. apply context_paid in H3.
    assert (contents (opt_list ret) <= cost b2)%N as Hr.
    { destruct ret as [v|]; cbn [e_flagged opt_list] in *; [|cbn; lia]. destruct H2 as [_ H2]. apply coded_paid in H2.
      rewrite contents_cons. change (contents []) with 0%N. lia. }
    cbn [message_values message_strings mr_args mr_return_value mr_call_context].
    unfold fund in *. rewrite cost_app, cost_cons, !cost_app.
    change (fold_right _ 0%N (opt_list ctx)) with (texts (opt_list ctx)).
    change (fold_right _ 0%N (opt_list ret ++ default [] args)) with (contents (opt_list ret ++ default [] args)).
    rewrite contents_app. lia.
Qed.
Lemma fund_empty i : fund empty_env i = cost i.
Proof. unfold fund, objs_content. cbn [empty_env e_objs]. by rewrite map_fold_empty. Qed.
Lemma message_content_value v : message_content (MValue v) = content v.
Proof. unfold message_content. cbn [message_values message_strings fold_right]. lia. Qed.
Lemma root_paid root hb e v : e_header root hb -> root_value root e v -> (content v <= objs_content (e_objs e))%N.
Proof.
  intros _. destruct root as [r|]; cbn [root_value]; [apply objs_content_lookup|]. intros ->. cbn [content width]. lia.
Qed.
Lemma accepted_content W m : deserialize W = POk m -> (message_content m <= 2 * cost W)%N.
Proof.
  intros H%message_iff. destruct H as [root hb i e1 i1 e1' e2 v Hh Ho Ha Ho2 Hv|root hb i e1 i1 m e2 i2 e3 Hh Ho Hm Ho2];
    rewrite cost_app; apply objects_fund in Ho; rewrite fund_empty in Ho; unfold fund in Ho.
  - apply abandoned_content in Ha. apply objects_fund in Ho2. unfold fund in Ho2. rewrite message_content_value.
    pose proof (root_paid _ _ _ _ Hh Hv). lia.
  - apply method_fund in Hm. unfold fund in Hm. lia.
Qed.
Lemma grammar_content W m : g_message W m -> (message_content m + 17 <= cost W)%N.
Proof.
  intros [root hb i e v Hh Ho Hv|root hb i e1 i1 m' e2 i2 e3 Hh Ho Hm Ho2]; rewrite cost_app;
    apply objects_fund in Ho; rewrite fund_empty in Ho; unfold fund in Ho;
    pose proof Hh as Hl%e_header_length; assert (cost hb = 17%N) as Hl2 by (unfold cost; by rewrite Hl).
  - rewrite message_content_value. pose proof (root_paid _ _ _ _ Hh Hv). lia.
  - assert (method_step root e1 i1 m' e2 i2) as Hs.
    { destruct Hm; econstructor; try done; by apply CA_clean. }
    apply method_fund in Hs. unfold fund in Hs. lia.
Qed.
End bound.
