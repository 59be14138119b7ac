(** * Depth: how deeply a message can be nested, in terms of its length (property C40). *)
From Verif Require Import Base Utf8 Value DataTypes Records Parser Wire BaseLemmas DataTypesLemmas
  RecordsLemmas MethodLemmas SafetyLemmas Safety Grammar Heads Complete Sound Fuel Message Run Spec
  LemmasA LemmasB LemmasC Positions Reach LemmasD Trees TreeLemmas PropsB PropsC PropsD Calm Size
  Leftover PropsF.
From Coq Require Import Lia ZifyNat ZifyN.

Local Open Scope N_scope.
Definition deep (v : value) : N := N.of_nat (depth v).
(** The deepest of a list; all together. *)
Definition deepest (vs : list value) : N := fold_right (fun w n => N.max (deep w) n) 0 vs.
Definition deeps (vs : list value) : N := fold_right (fun w n => deep w + n) 0 vs.

Lemma deepest_le_deeps vs : deepest vs <= deeps vs.
Proof. induction vs as [|v vs IH]; [done|]. unfold deepest, deeps in *. cbn [fold_right]. lia. Qed.
Lemma deepest_app l1 l2 : deepest (l1 ++ l2) = N.max (deepest l1) (deepest l2).
Proof. induction l1 as [|v l1 IH]; [by rewrite N.max_0_l|]. unfold deepest in *. cbn [app fold_right]. rewrite IH. lia. Qed.
Lemma deeps_app l1 l2 : deeps (l1 ++ l2) = deeps l1 + deeps l2.
Proof. induction l1 as [|v l1 IH]; [done|]. unfold deeps in *. cbn [app fold_right]. rewrite IH. lia. Qed.
Lemma deeps_cons v l : deeps (v :: l) = deep v + deeps l.
Proof. done. Qed.
Lemma deepest_cons v l : deepest (v :: l) = N.max (deep v) (deepest l).
Proof. done. Qed.
Lemma deeps_nulls n : deeps (replicate n VNull) = 0.
Proof. induction n as [|n IH]; [done|]. cbn [replicate]. by rewrite deeps_cons, IH. Qed.
Lemma deepest_elem v l : v ∈ l -> deep v <= deepest l.
Proof. induction 1 as [v l|v w l _ IH]; rewrite deepest_cons; lia. Qed.
Lemma deep_array vs : deep (VArray vs) = 1 + deepest vs.
Proof.
  unfold deep. cbn [depth]. rewrite Nat2N.inj_succ, <- N.add_1_l. f_equal.
  induction vs as [|v vs IH]; [done|]. cbn [fold_right]. rewrite deepest_cons, <- IH. unfold deep. lia.
Qed.
Definition mdeep (l : list (str * value)) : N := fold_right (fun kv n => N.max (deep kv.2) n) 0 l.
Lemma deep_object o : deep (VObject o) = 1 + mdeep (obj_members o).
Proof.
  unfold deep. cbn [depth]. rewrite Nat2N.inj_succ, <- N.add_1_l. f_equal.
  induction (obj_members o) as [|[k v] l IH]; [done|]. cbn [fold_right mdeep snd].
  unfold mdeep in IH. rewrite <- IH. unfold deep. lia.
Qed.
Lemma mdeep_insert k v m : mdeep (hm_insert k v m) <= N.max (deep v) (mdeep m).
Proof.
  induction m as [|[k' v'] m IH]; cbn [hm_insert]; unfold mdeep in *; cbn [fold_right snd]; [lia|].
  destruct (str_eqb k k'); cbn [fold_right snd]; lia.
Qed.
Lemma mdeep_from_iter l : mdeep (hm_from_iter l) <= mdeep l.
Proof.
  unfold hm_from_iter. enough (forall m, mdeep (fold_left (fun m kv => hm_insert kv.1 kv.2 m) l m) <= N.max (mdeep l) (mdeep m)) as H.
  { specialize (H []). unfold mdeep in *. cbn [fold_right] in H. lia. }
  induction l as [|[k v] l IH]; intros m; cbn [fold_left]; [unfold mdeep; cbn [fold_right]; lia|].
  etrans; [apply IH|]. cbn [fst snd]. pose proof (mdeep_insert k v m).
  assert (mdeep ((k, v) :: l) = N.max (deep v) (mdeep l)) by done. lia.
Qed.
Lemma mdeep_zip names vs : mdeep (zip names vs) <= deepest vs.
Proof.
  revert vs. induction names as [|n names IH]; intros [|v vs]; unfold mdeep, deepest; cbn [zip zip_with fold_right]; try lia.
  specialize (IH vs). unfold mdeep, deepest in IH. cbn [snd]. lia.
Qed.

Lemma shape_deep dims v leaves : has_shape dims v leaves ->
  deep v <= N.of_nat (length dims) + deepest leaves.
Proof.
  revert v leaves. induction dims as [|d dims IH]; intros v leaves Hs.
  - inv Hs. rewrite deepest_cons. cbn [length]. lia.
  - inversion Hs as [|d' dims' rows lvs Hd HF E1 E2 E3]. subst d' dims' v leaves. clear Hs Hd.
    assert (deepest rows <= N.of_nat (length dims) + deepest (concat lvs)) as H.
    { induction HF as [|r l rows lvs Hr _ IH2]; [cbn; lia|]. cbn [concat].
      rewrite deepest_cons, deepest_app. specialize (IH _ _ Hr). lia. }
    rewrite deep_array. cbn [length]. lia.
Qed.
Lemma shaped_deep dims vs out : shaped dims vs out ->
  deepest out <= N.of_nat (length dims) + deepest vs.
Proof.
  intros [[-> ->]|[_ (leaves & HF & <-)]]; [cbn; lia|].
  induction HF as [|r l rows lvs Hr _ IH]; [cbn; lia|]. cbn [concat].
  rewrite deepest_cons, deepest_app. pose proof (shape_deep dims _ _ Hr). lia.
Qed.

(** ** The objects in the table *)
Definition objs_deep (m : gmap N value) : N := map_fold (fun _ v n => 4 * deep v + n) 0 m.
Lemma objs_deep_insert m id v : m !! id = None -> objs_deep (<[id := v]> m) = 4 * deep v + objs_deep m.
Proof. intros H. unfold objs_deep. rewrite map_fold_insert_L; [done| |done]. intros. lia. Qed.
Lemma objs_deep_delete m id v : m !! id = Some v -> 4 * deep v + objs_deep (delete id m) = objs_deep m.
Proof.
  intros H. rewrite <- (insert_delete m id v H) at 2. rewrite objs_deep_insert by apply lookup_delete. done.
Qed.
Lemma objs_deep_lookup m id v : m !! id = Some v -> 4 * deep v <= objs_deep m.
Proof. intros H. rewrite <- (objs_deep_delete m id v H). lia. Qed.
Lemma objs_deep_delete_le m id : objs_deep (delete id m) <= objs_deep m.
Proof.
  destruct (m !! id) as [v|] eqn:E; [rewrite <- (objs_deep_delete m id v E); lia|].
  by rewrite delete_notin.
Qed.
Lemma objs_deep_replace m id v : objs_deep (<[id := v]> m) <= 4 * deep v + objs_deep m.
Proof.
  rewrite <- insert_delete_insert. rewrite objs_deep_insert by apply lookup_delete.
  pose proof (objs_deep_delete_le m id). lia.
Qed.

Section bound.
Context {DL : DecimalLib}.

Definition len (i : bytes) : N := N.of_nat (length i).
Lemma len_app i j : len (i ++ j) = len i + len j.
Proof. unfold len. rewrite app_length. lia. Qed.
Lemma len_suffix i j : j ⊑s i -> len j <= len i.
Proof. intros [k ->]. rewrite len_app. lia. Qed.
Definition worth (e : env) (i : bytes) : N := objs_deep (e_objs e) + len i.
Definition heavy (it : item) : N := match it with It_Value v => deep v | _ => 0 end.
Definition heavies (its : list item) : N := fold_right (fun it n => heavy it + n) 0 its.

Lemma lib_worth e i e' i' : g_lib e i e' i' -> worth e' i' <= worth e i.
Proof.
  destruct 1 as [id name bs i Hl Hn|]; [|done]. unfold worth. rewrite len_app. cbn [add_lib e_objs]. lia.
Qed.
Lemma simple_heavy k it bs : simple_item k it bs -> heavy it = 0.
Proof.
  assert (forall it bs, str_item it bs -> heavy it = 0) as Hstr by by intros it' bs' (id & s & -> & _).
  assert (forall it bs, ref_item it bs -> heavy it = 0) as Href by by intros it' bs' (id & -> & _).
  assert (forall it bs, null_item it bs -> heavy it = 0) as Hnull by by intros it' bs' (id & -> & _).
  assert (forall v p, prim_type_of v = Some p -> heavy (It_Value v) = 0) as Hprim by by intros [] ? ?.
  assert (forall it bs, typed_item it bs -> heavy it = 0) as Htyped.
  { intros it' bs' (v & -> & p & b & Hp & _). by eapply Hprim. }
  destruct k; cbn [simple_item]; try done; try (by intros Hs; eauto).
  - intros [Hs|[Hs|[Hs|Hs]]]; eauto.
  - intros (v & -> & Hp & _). eauto.
  - intros [Hs|[Hs|Hs]]; eauto.
Qed.
Lemma class_header_len h bs : e_class_header h bs -> 4 <= len bs.
Proof.
  intros (b1 & b2 & b3 & b4 & b5 & [_ ->] & _ & _ & _ & _ & ->). unfold len. cbn [length].
  rewrite app_length, enc_uint_length. lia.
Qed.
Lemma array_header_len code id n bs : e_array_header code id n bs -> 4 <= len bs.
Proof. intros H%array_header_length. unfold len. lia. Qed.
Lemma e_len_list ns bs : e_list e_len ns bs -> len bs = 4 * N.of_nat (length ns).
Proof.
  induction 1 as [|n ns b bs Hn _ IH]; [done|]. rewrite len_app, IH. destruct Hn as [_ ->].
  unfold len. rewrite enc_uint_length. cbn [length]. lia.
Qed.
Lemma binary_len id bat lengths bounds k bs : e_binary_array_header id bat lengths bounds k bs ->
  4 + 4 * N.of_nat (length lengths) <= len bs.
Proof.
  intros (b1 & b2 & b3 & b4 & b5 & [_ ->] & (b & _ & Hl & ->) & _ & _ & _ & ->).
  apply e_len_list in Hl. unfold len in *. cbn [length]. rewrite !app_length, enc_uint_length. cbn [length]. 
  rewrite !app_length. lia.
Qed.

Lemma g_worth :
  (forall e i id o e' i', g_class e i id o e' i' -> 4 * deep (VObject o) + worth e' i' <= worth e i)
  /\ (forall k e i it e' i', g_member k e i it e' i' -> 4 * heavy it + worth e' i' <= worth e i)
  /\ (forall ks e i its e' i', g_items ks e i its e' i' -> 4 * heavies its + worth e' i' <= worth e i)
  /\ (forall its e i vs e' i', g_resolve its e i vs e' i' ->
        4 * deeps vs + worth e' i' <= 4 * heavies its + worth e i)
  /\ (forall e i id v e' i', g_record e i id v e' i' -> 4 * deep v + worth e' i' <= worth e i).
Proof.
  apply g_mut_ind.
  - intros e i e1 bs i1 h lib its e2 i2 vs e3 i3 Hl Hh _ Hits IH1 Hres IH2.
    apply lib_worth in Hl. apply class_header_len in Hh. unfold worth in Hl at 1. rewrite len_app in Hl.
    rewrite deep_object. cbn [obj_members].
    pose proof (mdeep_from_iter (zip (ch_member_names h) vs)). pose proof (mdeep_zip (ch_member_names h) vs).
    pose proof (deepest_le_deeps vs). unfold worth in *. lia.
  - intros k e i e1 bs i1 it Hl _ Hs. apply lib_worth in Hl. rewrite (simple_heavy _ _ _ Hs).
    unfold worth in *. rewrite len_app in Hl. lia.
  - intros k e i e1 i1 id o e2 i2 Hl _ Hc IH. apply lib_worth in Hl. cbn [heavy]. lia.
  - intros k e i e1 i1 it e2 i2 _ Hl Hm IH. apply lib_worth in Hl. lia.
  - intros e i. cbn. lia.
  - intros k ks e i it e1 i1 its e2 i2 Hm IH1 Hits IH2.
    change (heavies (it :: its)) with (heavy it + heavies its). lia.
  - intros e i. cbn. lia.
  - intros v its e i vs e' i' Hr IH.
    change (heavies (It_Value v :: its)) with (deep v + heavies its). rewrite deeps_cons. lia.
  - intros n its e i vs e' i' Hr IH.
    change (heavies (It_Nulls n :: its)) with (heavies its). rewrite deeps_app, deeps_nulls. lia.
  - intros id v its e i vs e' i' Hv Hr IH.
    change (heavies (It_Ref id :: its)) with (heavies its). rewrite deeps_cons. unfold worth in *.
    cbn [del_obj e_objs] in IH. pose proof (objs_deep_delete _ _ _ Hv). lia.
  - intros id v its e i e1 i1 vs e' i' Hn Hrec IH1 Hr IH2.
    change (heavies (It_Ref id :: its)) with (heavies its). rewrite deeps_cons. unfold worth in *.
    cbn [del_obj e_objs] in IH2. pose proof (objs_deep_delete_le (e_objs e1) id). lia.
  - done.
  - intros e i id s bs Hs. unfold worth. rewrite len_app. unfold deep. cbn [depth]. lia.
  - intros e i id p vs bs (b1 & b2 & Hh & Hp & Hl & ->). unfold worth. rewrite !len_app, deep_array.
    apply array_header_len in Hh.
    assert (deepest vs = 0) as ->; [|lia].
    clear -Hp. induction Hp as [|v vs Hv _ IH]; [done|]. rewrite deepest_cons, IH. by destruct v.
  - intros e i id n bs its e1 i1 vs e2 i2 Hh%array_header_len Hits IH1 _ Hres IH2.
    pose proof (deepest_le_deeps vs). unfold worth in *. rewrite len_app, deep_array. lia.
  - intros e i id n bs its e1 i1 vs e2 i2 Hh%array_header_len Hits IH1 _ Hres IH2.
    pose proof (deepest_le_deeps vs). unfold worth in *. rewrite len_app, deep_array. lia.
  - intros e i id bat lengths bounds k bs its e1 i1 vs e2 i2 out Hh%binary_len Hno Hits IH1 Hres IH2 Hsh%shaped_deep.
    pose proof (deepest_le_deeps vs).
    assert (N.of_nat (length (tail lengths)) <= N.of_nat (length lengths)) by (destruct lengths; simpl; lia).
    unfold worth in *. rewrite len_app, deep_array. lia.
Qed.

Lemma objects_worth e i e' i' : g_objects e i e' i' -> worth e' i' <= worth e i.
Proof.
  induction 1 as [|e i id v e1 i1 e2 i2 Hr Ho IH]; [done|].
  destruct g_worth as (_ & _ & _ & _ & Prec). pose proof (Prec _ _ _ _ _ _ Hr) as H1.
  etrans; [exact IH|]. unfold worth in *. cbn [add_obj e_objs].
  pose proof (objs_deep_replace (e_objs e1) id v). lia.
Qed.
Lemma coded_deep v bs : e_value_with_code v bs -> deep v = 0.
Proof. destruct v; cbn [e_value_with_code]; try done; by intros (? & ? & ? & _). Qed.
Lemma coded_deepest vs bs : e_list e_value_with_code vs bs -> deepest vs = 0.
Proof.
  induction 1 as [|v vs b bs Hv _ IH]; [done|]. by rewrite deepest_cons, IH, (coded_deep _ _ Hv).
Qed.
Lemma inline_deepest flags args bs :
  e_flagged flags bit_ArgsInline (e_counted e_value_with_code) args bs -> deepest (default [] args) = 0.
Proof.
  destruct args as [args|]; cbn [e_flagged default]; [|done].
  intros (_ & b & _ & Hl & ->). by apply coded_deepest in Hl.
Qed.
Lemma call_array_worth root e i ca e' i' : g_call_array root e i ca e' i' ->
  4 * deepest (default [] ca) + worth e' i' <= worth e i.
Proof.
  destruct 1 as [|e1 aid n bs i1 its e2 i2 vs e3 i3 Hl Hh _ Hits _ Hres]; cbn [default]; [cbn; lia|].
  destruct g_worth as (_ & _ & Pi & Pr & _).
  pose proof (Pi _ _ _ _ _ _ Hits). pose proof (Pr _ _ _ _ _ _ Hres). pose proof (deepest_le_deeps vs).
  apply lib_worth in Hl. unfold worth in *. rewrite len_app in Hl. cbn [from_option]; unfold id; lia.
Qed.
Lemma args_deepest flags ca inline args : args_rule flags ca inline args ->
  deepest (default [] args) <= N.max (deepest (default [] ca)) (deepest (default [] inline)).
Proof.
  unfold args_rule. destruct (Z.testbit _ _); [intros (a & -> & ->); cbn [default from_option]; unfold id; lia|].
  destruct (Z.testbit _ _); [|intros ->; lia]. intros (a & r & -> & ->). cbn [default from_option]; unfold id.
  rewrite deepest_cons, deep_array. lia.
Qed.

(** A method record, the call array of which may be missing. *)
Lemma step_worth root e i ca e' i' : call_array_step root e i ca e' i' ->
  4 * deepest (default [] ca) <= worth e i.
Proof.
  intros [ca' e0 i0 Hca|e0 _ _]; [|cbn; lia]. apply call_array_worth in Hca. lia.
Qed.
Lemma method_worth root e i m e' i' : method_step root e i m e' i' ->
  4 * deepest (message_values m) <= worth e i.
Proof.
  destruct 1 as [flags name type ctx inline bs i ca args e' i' Hc Hca Ha|flags ret ctx inline bs i ca args e' i' Hc Hca Ha];
    apply step_worth in Hca; apply args_deepest in Ha; unfold worth in *; rewrite len_app.
  - destruct Hc as (b1 & b2 & b3 & b4 & b5 & _ & _ & _ & _ & H5 & _). apply inline_deepest in H5.
    cbn [message_values mc_args]. lia.
  - destruct Hc as (b1 & b2 & b3 & b4 & _ & H2 & _ & H4 & _). apply inline_deepest in H4.
    assert (deepest (opt_list ret) = 0) as Hr.
    { destruct ret as [v|]; cbn [e_flagged opt_list] in *; [|done]. destruct H2 as [_ H2].
      rewrite deepest_cons, (coded_deep _ _ H2). done. }
    cbn [message_values mr_args mr_return_value]. rewrite deepest_app. lia.
Qed.
Lemma worth_empty i : worth empty_env i = len i.
Proof. unfold worth, objs_deep. cbn [empty_env e_objs]. by rewrite map_fold_empty. Qed.

Lemma abandoned_worth e i e' : abandoned e i e' -> objs_deep (e_objs e') <= objs_deep (e_objs e) + len i.
Proof.
  intros Ha. refine (abandoned_held objs_deep len (fun _ => True) len_suffix _ objs_deep_delete_le _ e i e' Ha I); [done|].
  clear. intros e i id v e' i' Hr _. destruct g_worth as (_ & _ & _ & _ & Prec). pose proof (Prec _ _ _ _ _ _ Hr) as H1.
  unfold worth in H1. cbn [add_obj e_objs]. pose proof (objs_deep_replace (e_objs e') id v). lia.
Qed.

Lemma accepted_deep W m : deserialize W = POk m -> 4 * deepest (message_values m) <= 2 * len W.
Proof.
  intros H%message_iff. destruct H as [root hb i e1 i1 e1' e2 v Hh Ho Ha Ho2 Hv|root hb i e1 i1 m e2 i2 e3 Hh Ho Hm Ho2];
    rewrite len_app; apply objects_worth in Ho; rewrite worth_empty in Ho.
  - apply abandoned_worth in Ha. apply objects_worth in Ho2. cbn [message_values].
    rewrite deepest_cons. change (deepest []) with 0. unfold worth in *. destruct root as [r|]; cbn [root_value] in Hv.
    + apply objs_deep_lookup in Hv. lia.
    + subst v. unfold deep. cbn [depth]. lia.
  - apply method_worth in Hm. lia.
Qed.
Lemma grammar_deep W m : g_message W m -> 4 * deepest (message_values m) <= len W.
Proof.
  intros [root hb i e v Hh Ho Hv|root hb i e1 i1 m' e2 i2 e3 Hh Ho Hm Ho2]; rewrite len_app;
    apply objects_worth in Ho; rewrite worth_empty in Ho.
  - cbn [message_values]. rewrite deepest_cons. change (deepest []) with 0.
    unfold worth in Ho. destruct root as [r|]; cbn [root_value] in Hv.
    + apply objs_deep_lookup in Hv. lia.
    + subst v. unfold deep. cbn [depth]. lia.
  - assert (method_step root e1 i1 m' e2 i2) as Hs.
    { destruct Hm; econstructor; try done; by apply CA_clean. }
    apply method_worth in Hs. lia.
Qed.
End bound.
