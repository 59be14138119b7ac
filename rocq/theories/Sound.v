(** * Sound: whatever the parser accepts is derivable in the grammar. *)
From Verif Require Import Base Utf8 Value DataTypes Records Parser Wire BaseLemmas DataTypesLemmas
  RecordsLemmas MethodLemmas SafetyLemmas Safety Grammar Heads Complete.
From Coq Require Import Lia.

Section with_decimal.
Context {DL : DecimalLib}.

(** ** Simple items *)

Lemma str_item_sound i i' m :
  parse_string_member i = Ok i' m -> exists it bs, i = bs ++ i' /\ str_item it bs /\ m = vr_of it.
Proof.
  intros H. apply parse_string_member_exact in H as (bs & (id & s & -> & H) & ->).
  exists (It_Value (VString s)), bs. split; [done|]. split; [|done]. exists id, s. done.
Qed.
Lemma ref_item_sound i i' m :
  parse_ref_member i = Ok i' m -> exists it bs, i = bs ++ i' /\ ref_item it bs /\ m = vr_of it.
Proof.
  intros H. apply parse_ref_member_exact in H as (bs & (id & -> & H) & ->).
  exists (It_Ref id), bs. split; [done|]. split; [|done]. exists id. done.
Qed.
Lemma null_item_sound i i' m :
  parse_null_object i = Ok i' m -> exists it bs, i = bs ++ i' /\ null_item it bs /\ m = vr_of it.
Proof.
  intros H. apply parse_null_object_exact in H as (bs & (n & -> & H) & ->).
  exists (It_Nulls n), bs. split; [done|]. split; [|done]. exists n. done.
Qed.
Lemma typed_item_sound i i' m :
  rmap VR_Value (member_primitive_typed i) = Ok i' m ->
  exists it bs, i = bs ++ i' /\ typed_item it bs /\ m = vr_of it.
Proof.
  intros H. apply rmap_ok in H as (v & H & ->).
  apply member_primitive_typed_exact in H as (bs & H & ->).
  exists (It_Value v), bs. split; [done|]. split; [|done]. exists v. done.
Qed.

Lemma null_ok_head i i' m : parse_null_object i = Ok i' m -> head_in [x0a; x0d; x0e] i.
Proof.
  intros H. destruct (decide (head_in [x0a; x0d; x0e] i)) as [Hh|Hh]; [done|].
  apply parse_null_object_err in Hh as [e He]. congruence.
Qed.

(** ** Shapes *)

Lemma chunk_loop_sound fuel l vs i i' out :
  0 < l -> chunk_loop fuel l vs i = Ok i' out ->
  i' = i /\ exists rows, out = map VArray rows /\ Forall (fun r => length r = l) rows
                         /\ concat rows = vs.
Proof.
  intros Hl. revert vs i' out. induction fuel as [|fuel IH]; intros vs i' out H.
  - destruct vs; [|done]. simpl in H. inv H. split; [done|]. exists []. done.
  - destruct vs as [|v vs]; [simpl in H; inv H; split; [done|]; by exists []|].
    cbn [chunk_loop] in H. destruct (Nat.ltb_spec (length (v :: vs)) l) as [|Hge]; [done|].
    apply bind_ok in H as (i1 & r & H1 & H2). inv H2.
    apply IH in H1 as [-> (rows & -> & Hr & Hc)]. split; [done|].
    exists (take l (v :: vs) :: rows). split; [done|]. split.
    + constructor; [by apply take_length_le|done].
    + cbn [concat]. rewrite Hc. apply take_drop.
Qed.

Lemma has_shape_leaves vs : Forall2 (has_shape []) vs (map (fun v => [v]) vs).
Proof. induction vs; simpl; constructor; [constructor|done]. Qed.
Lemma concat_singletons (vs : list value) : concat (map (fun v => [v]) vs) = vs.
Proof. induction vs; simpl; [done|by f_equal]. Qed.

Lemma group_shape d dims rows leaves :
  Forall (fun r => length r = N.to_nat d) rows ->
  Forall2 (has_shape dims) (concat rows) leaves ->
  exists leaves', Forall2 (has_shape (d :: dims)) (map VArray rows) leaves'
                  /\ concat leaves' = concat leaves.
Proof.
  intros Hr. revert leaves. induction Hr as [|r rows Hr _ IH]; intros leaves H; cbn [concat map] in *.
  - inv H. exists []. split; [constructor|done].
  - apply Forall2_app_inv_l in H as (l1 & l2 & H1 & H2 & ->).
    destruct (IH _ H2) as (leaves' & H3 & H4). exists (concat l1 :: leaves'). split.
    + constructor; [|done]. constructor; [lia|done].
    + cbn [concat]. rewrite H4. by rewrite concat_app.
Qed.

Lemma chunk_dims_sound dims vs i i' out :
  Forall (fun d => d <> 0%N) dims -> chunk_dims (rev dims) vs i = Ok i' out ->
  i' = i /\ exists leaves, Forall2 (has_shape dims) out leaves /\ concat leaves = vs.
Proof.
  intros Hd. revert i' out. induction Hd as [|d dims Hd _ IH]; intros i' out H.
  - simpl in H. inv H. split; [done|]. exists (map (fun v => [v]) out).
    split; [apply has_shape_leaves|apply concat_singletons].
  - cbn [rev] in H. rewrite chunk_dims_app in H. apply bind_ok in H as (i1 & vs1 & H1 & H2).
    apply IH in H1 as [-> (leaves & Hs & Hc)]. cbn [chunk_dims] in H2.
    apply bind_ok in H2 as (i2 & vs2 & H2 & H3). inv H3.
    apply chunk_loop_sound in H2 as [-> (rows & -> & Hr & <-)]; [|lia]. split; [done|].
    destruct (group_shape d dims rows leaves) as (l' & H1 & H2); [done..|].
    exists l'. split; [done|]. congruence.
Qed.

Lemma shaped_sound dims vs i i' out :
  (vs <> [] -> Forall (fun d => d <> 0%N) dims) ->
  chunk_dims (rev dims) vs i = Ok i' out -> i' = i /\ shaped dims vs out.
Proof.
  intros Hd H. destruct vs as [|v vs].
  - rewrite chunk_dims_nil in H. inv H. split; [done|]. by left.
  - apply chunk_dims_sound in H as [-> H]; [|by apply Hd]. split; [done|]. right. done.
Qed.

Lemma checked_product_sound acc l n :
  (acc < 2 ^ 64)%N -> checked_product acc l = Some n ->
  n = (acc * product l)%N /\ forall k, k <= length l -> (acc * product (take k l) < 2 ^ 64)%N.
Proof.
  revert acc. induction l as [|x l IH]; intros acc Ha; cbn [checked_product].
  - intros [= <-]. unfold product. cbn [fold_right]. rewrite N.mul_1_r. split; [done|].
    intros k _. rewrite take_nil. cbn [fold_right]. by rewrite N.mul_1_r.
  - destruct (N.ltb_spec (acc * x) (2 ^ 64)) as [Hlt|]; [|done]. intros H.
    apply IH in H as [-> H]; [|done]. unfold product in *. cbn [fold_right].
    rewrite N.mul_assoc. split; [done|]. intros [|k] Hk.
    + cbn [take fold_right]. by rewrite N.mul_1_r.
    + cbn [take fold_right]. rewrite N.mul_assoc. apply H. simpl in Hk. lia.
Qed.

(** ** One level of the recursion *)

Section methods.
Context (PC : state -> bytes -> sres (N * obj value)).
Context (PR : state -> bytes -> sres N).
Hypothesis HPC : forall s i, mono s (PC s i).1.
Hypothesis HPR : forall s i, mono s (PR s i).1.
Hypothesis SPC : forall s i s' i' id o, st_classes s = ∅ ->
  PC s i = (s', Ok i' (id, o)) -> g_class (env_of s) i id o (env_of s') i'.
Hypothesis SPR : forall s i s' i' id, st_classes s = ∅ ->
  PR s i = (s', Ok i' id) ->
  exists v e', g_record (env_of s) i id v e' i' /\ env_of s' = add_obj id v e'.
(** A class attempt at a wrong position changes nothing; one at a library record leaves the
    library declared. *)
Hypothesis NPC : forall s i, no_library i -> ~ head_in [x01; x02; x03; x04; x05] i ->
  (PC s i).1 = s /\ forall i' a, (PC s i).2 <> Ok i' a.
Hypothesis LPC : forall s i s' e rest lid name,
  PC s i = (s', Err e) -> binary_library i = Ok rest (lid, name) -> is_Some (st_libs s' !! lid).

Lemma classes_of_mono (s s' : state) : mono s s' -> st_classes s = ∅ -> st_classes s' = ∅.
Proof. intros [H _] Hs. congruence. Qed.

Lemma untyped_body_sound s i s' i' m :
  st_classes s = ∅ -> member_untyped_body PC s i = (s', Ok i' m) ->
  (s' = s /\ exists it bs, i = bs ++ i' /\ simple_item K_Any it bs /\ m = vr_of it)
  \/ (exists id o, g_class (env_of s) i id o (env_of s') i' /\ m = VR_Value (VObject o)).
Proof.
  intros Hs. unfold member_untyped_body.
  destruct (rmap VR_Value (member_primitive_typed i)) as [i1 m1|e|e|p|] eqn:E1; cbn [alt]; try done.
  { intros [= <- <- <-]. left. split; [done|].
    apply typed_item_sound in E1 as (it & bs & -> & H & ->). exists it, bs. split; [done|]. cbn. auto. }
  destruct (parse_ref_member i) as [i1 m1|e1|e1|p|] eqn:E2; cbn [alt]; try done.
  { intros [= <- <- <-]. left. split; [done|].
    apply ref_item_sound in E2 as (it & bs & -> & H & ->). exists it, bs. split; [done|]. cbn. auto. }
  destruct (parse_string_member i) as [i1 m1|e2|e2|p|] eqn:E3; cbn [alt]; try done.
  { intros [= <- <- <-]. left. split; [done|].
    apply str_item_sound in E3 as (it & bs & -> & H & ->). exists it, bs. split; [done|]. cbn. auto. }
  destruct (parse_null_object i) as [i1 m1|e3|e3|p|] eqn:E4; cbn [alt]; try done.
  { intros [= <- <- <-]. left. split; [done|].
    apply null_item_sound in E4 as (it & bs & -> & H & ->). exists it, bs. split; [done|]. cbn. auto. }
  intros H. right. unfold smap in H. destruct (PC s i) as [s1 [i1 [id o]|e4|e4|p|]] eqn:E5;
    cbn in H; try done. inv H. exists id, o. split; [by apply SPC|done].
Qed.

Lemma class_or_null_sound ok s i s' i' m :
  st_classes s = ∅ -> class_or_null PC ok s i = (s', Ok i' m) ->
  (s' = s /\ exists it bs, i = bs ++ i' /\ null_item it bs /\ m = vr_of it)
  \/ (exists id o, g_class (env_of s) i id o (env_of s') i' /\ ok o = true
                   /\ m = VR_Value (VObject o)).
Proof.
  intros Hs. unfold class_or_null.
  assert (forall s1, (PC s i).1 = s1 -> (s1, parse_null_object i) = (s', Ok i' m) ->
    s' = s /\ exists it bs, i = bs ++ i' /\ null_item it bs /\ m = vr_of it) as Hn.
  { intros s1 Hs1 H. injection H as -> H. pose proof (null_ok_head _ _ _ H) as Hh.
    destruct (NPC s i) as [Hs2 _]; [apply no_library_head; hd|hd|].
    split; [congruence|]. by apply null_item_sound. }
  destruct (PC s i) as [s1 [i1 [id o]|e|e|p|]] eqn:E; try done.
  - destruct (ok o) eqn:Eo; [|done]. intros [= <- <- <-]. right. exists id, o.
    split; [by apply SPC|]. done.
  - intros H. left. by apply (Hn s1).
  - intros H. left. by apply (Hn s1).
Qed.

Lemma member_sound k s i s' i' m :
  st_classes s = ∅ -> parse_member PC k s i = (s', Ok i' m) ->
  exists it, m = vr_of it /\ g_member k (env_of s) i it (env_of s') i'.
Proof.
  intros Hs H.
  assert (forall s i s' i' m, st_classes s = ∅ -> parse_member_untyped PC s i = (s', Ok i' m) ->
    exists it, m = vr_of it /\ g_member K_Any (env_of s) i it (env_of s') i') as Hu.
  { clear -SPC. intros s i s' i' m Hs H. unfold parse_member_untyped in H.
    destruct (parse_binary_library s i) as [s1 [i1 []|e|e|p|]] eqn:El; cbn [sbind] in H; try done.
    apply parse_binary_library_sound in El as [El Ecl]. rewrite Hs in Ecl.
    apply untyped_body_sound in H as [[-> (it & bs & -> & Hit & ->)]|(id & o & Hg & ->)]; [| |done].
    - exists it. split; [done|]. eapply G_simple; done.
    - exists (It_Value (VObject o)). split; [done|]. eapply G_inline; done. }
  destruct k as [|p| | |n|n lid| | |p]; cbn [parse_member] in H.
  1: by apply Hu.
  all: unfold parse_member_typed in H;
    destruct (parse_binary_library s i) as [s1 [i1 []|e|e|p0|]] eqn:El; cbn [sbind] in H; try done;
    apply parse_binary_library_sound in El as [El Ecl]; rewrite Hs in Ecl;
    cbn [kind_bt kind_ai] in H.
  - injection H as -> H. apply rmap_ok in H as (v & H & ->).
    apply (member_primitive_untyped_exact p) in H as (bs & [Hp Hv] & ->).
    exists (It_Value v). split; [done|]. eapply G_simple; [done|done|]. exists v. done.
  - injection H as -> H. apply str_item_sound in H as (it & bs & -> & Hit & ->).
    exists it. split; [done|]. eapply G_simple; done.
  - apply Hu in H as (it & -> & Hm); [|done]. exists it. split; [done|].
    eapply G_nested; [by left|done|done].
  - apply class_or_null_sound in H as [[-> (it & bs & -> & Hit & ->)]|(id & o & Hg & Hok & ->)]; [| |done].
    + exists it. split; [done|]. eapply G_simple; done.
    + exists (It_Value (VObject o)). split; [done|]. apply andb_prop in Hok as [Ho1 Ho2].
      unfold str_eqb in Ho1. apply bool_decide_eq_true in Ho1, Ho2.
      eapply G_inline; [done| |done]. done.
  - cbn [cti_library_id cti_type_name] in H.
    destruct (st_libs s1 !! lid) as [l|] eqn:Elid; [|done].
    apply class_or_null_sound in H as [[-> (it & bs & -> & Hit & ->)]|(id & o & Hg & Hok & ->)]; [| |done].
    + exists it. split; [done|]. eapply G_simple; [done| |done]. by exists l.
    + exists (It_Value (VObject o)). split; [done|]. apply andb_prop in Hok as [Ho1 Ho2].
      unfold str_eqb in Ho1. apply bool_decide_eq_true in Ho1, Ho2.
      eapply G_inline; [done| |done]. exists l. done.
  - apply Hu in H as (it & -> & Hm); [|done]. exists it. split; [done|].
    eapply G_nested; [by right|done|done].
  - injection H as -> H.
    destruct (parse_string_member i1) as [i2 m1|e1|e1|p1|] eqn:E1; cbn [alt] in H; try done.
    { inv H. apply str_item_sound in E1 as (it & bs & -> & Hit & ->). exists it. split; [done|].
      eapply G_simple; [done|done|]. cbn. auto. }
    destruct (parse_ref_member i1) as [i2 m1|e2|e2|p1|] eqn:E2; cbn [alt] in H; try done.
    { inv H. apply ref_item_sound in E2 as (it & bs & -> & Hit & ->). exists it. split; [done|].
      eapply G_simple; [done|done|]. cbn. auto. }
    apply null_item_sound in H as (it & bs & -> & Hit & ->). exists it. split; [done|].
    eapply G_simple; [done|done|]. cbn. auto.
  - injection H as -> H. apply ref_item_sound in H as (it & bs & -> & Hit & ->). exists it.
    split; [done|]. eapply G_simple; done.
Qed.

Lemma mono_member k s i : mono s (parse_member PC k s i).1.
Proof. destruct k; try apply (mono_untyped PC HPC); apply (mono_typed PC HPC). Qed.

Lemma member_classes k s i s' r :
  st_classes s = ∅ -> parse_member PC k s i = (s', r) -> st_classes s' = ∅.
Proof. intros Hs H. eapply classes_of_mono; [|exact Hs]. pose proof (mono_member k s i). by rewrite H in *. Qed.

Lemma items_sound ks s i s' i' ms :
  st_classes s = ∅ -> parse_items PC ks s i = (s', Ok i' ms) ->
  st_classes s' = ∅ /\ exists its, ms = map vr_of its /\ g_items ks (env_of s) i its (env_of s') i'.
Proof.
  revert s i ms. induction ks as [|k ks IH]; intros s i ms Hs H; cbn [parse_items] in H.
  - inv H. split; [done|]. exists []. split; [done|constructor].
  - destruct (parse_member PC k s i) as [s1 [i1 m|e|e|p|]] eqn:E1; cbn [sbind] in H; try done.
    destruct (parse_items PC ks s1 i1) as [s2 [i2 ms'|e|e|p|]] eqn:E2; cbn [sbind] in H; try done.
    inv H. pose proof (member_classes _ _ _ _ _ Hs E1) as Hs1.
    apply member_sound in E1 as (it & -> & Hm); [|done].
    apply IH in E2 as (Hs2 & its & -> & Hi); [|done]. split; [done|].
    exists (it :: its). split; [done|]. econstructor; done.
Qed.

Lemma scount_ok fuel n k s i s' i' ms :
  scount_loop fuel n (parse_member PC k) s i = (s', Ok i' ms) ->
  parse_items PC (replicate (N.to_nat n) k) s i = (s', Ok i' ms).
Proof.
  revert n s i ms. induction fuel as [|fuel IH]; intros n s i ms; cbn [scount_loop].
  - destruct (N.eqb_spec n 0) as [->|]; done.
  - destruct (N.eqb_spec n 0) as [->|Hn]; [done|]. intros H.
    replace (N.to_nat n) with (S (N.to_nat (N.pred n))) by lia. cbn [replicate parse_items].
    destruct (parse_member PC k s i) as [s1 [i1 m|e|e|p|]] eqn:E1; cbn [sbind] in *; try done.
    destruct (scount_loop fuel (N.pred n) (parse_member PC k) s1 i1) as [s2 [i2 ms'|e|e|p|]] eqn:E2;
      cbn [sbind] in *; try done.
    inv H. apply IH in E2. by rewrite E2.
Qed.

Lemma array_loop_sound k fuel len cur s i s' i' ms :
  st_classes s = ∅ -> array_loop (parse_member PC k) fuel len cur s i = (s', Ok i' ms) ->
  st_classes s' = ∅ /\
  exists its, ms = concat (map expand_null (map vr_of its))
    /\ g_items (replicate (length its) k) (env_of s) i its (env_of s') i'
    /\ (((len <= cur)%N /\ its = [])
        \/ exists init last, its = init ++ [last]
             /\ (cur + items_size init < len <= cur + items_size its)%N).
Proof.
  revert cur s i ms. induction fuel as [|fuel IH]; intros cur s i ms Hs; cbn [array_loop].
  - destruct (N.leb_spec len cur) as [Hle|]; [|done]. intros H. inv H. split; [done|].
    exists []. split; [done|]. split; [constructor|by left].
  - destruct (N.leb_spec len cur) as [Hle|Hlt].
    { intros H. inv H. split; [done|]. exists []. split; [done|]. split; [constructor|by left]. }
    destruct (parse_member PC k s i) as [s1 [i1 m|e|e|p|]] eqn:E1; cbn [sbind]; try done.
    destruct (array_loop (parse_member PC k) fuel len _ s1 i1) as [s2 [i2 ms'|e|e|p|]] eqn:E2;
      cbn [sbind]; try done.
    intros H. inv H. pose proof (member_classes _ _ _ _ _ Hs E1) as Hs1.
    apply member_sound in E1 as (it & -> & Hm); [|done].
    apply IH in E2 as (Hs2 & its & -> & Hi & Hf); [|done]. split; [done|].
    exists (it :: its). split; [done|]. split; [cbn [length replicate]; econstructor; done|].
    right. rewrite member_size_vr in Hf. destruct Hf as [[Hge ->]|(init & last & -> & Hf)].
    + exists [], it. split; [done|]. cbn [items_size]. lia.
    + exists (it :: init), last. split; [done|]. cbn [items_size app]. lia.
Qed.

Lemma resolve_sound its s i s' i' vs :
  st_classes s = ∅ -> resolve_members PR (map vr_of its) s i = (s', Ok i' vs) ->
  st_classes s' = ∅ /\ g_resolve its (env_of s) i vs (env_of s') i'.
Proof.
  revert s i vs. induction its as [|it its IH]; intros s i vs Hs H; cbn [map resolve_members] in H.
  - inv H. split; [done|constructor].
  - destruct it as [v|n|id]; cbn [vr_of] in H.
    + destruct (resolve_members _ _ s i) as [s1 [i1 vs1|e|e|p|]] eqn:E; cbn [sbind] in H; try done.
      inv H. apply IH in E as [Hs1 E]; [|done]. split; [done|]. by constructor.
    + destruct (resolve_members _ _ s i) as [s1 [i1 vs1|e|e|p|]] eqn:E; cbn [sbind] in H; try done.
      inv H. apply IH in E as [Hs1 E]; [|done]. split; [done|]. by constructor.
    + destruct (st_objects s !! id) as [v|] eqn:Eid.
      * destruct (resolve_members _ _ _ i) as [s1 [i1 vs1|e|e|p|]] eqn:E; cbn [sbind] in H; try done.
        inv H. apply IH in E as [Hs1 E]; [|done]. split; [done|]. by apply G_res_known.
      * unfold verify_referenceable in H. pose proof (HPR s i) as Hmono.
        destruct (PR s i) as [s1 [i1 id2|e|e|p|]] eqn:E; cbn [sbind] in H; try done.
        destruct (N.eqb_spec id2 id) as [->|]; cbn [sbind] in H; [|done].
        apply SPR in E as (v & e' & Hr & He); [|done].
        apply (classes_of_mono _ _) in Hmono; [|done].
        assert (st_objects s1 = e_objs (add_obj id v e')) as Ho by (by rewrite <- He).
        assert (st_libs s1 = e_libs e') as Hl.
        { change (st_libs s1) with (e_libs (env_of s1)). by rewrite He. }
        rewrite Ho in H. cbn [add_obj e_objs] in H. rewrite lookup_insert in H.
        destruct (resolve_members _ _ _ i1) as [s2 [i2 vs1|e|e|p|]] eqn:E2; cbn [sbind] in H; try done.
        inv H. apply IH in E2 as [Hs2 E2]; [|done]. split; [done|].
        eapply G_res_next; [done|done|].
        rewrite delete_insert_delete in E2.
        replace (del_obj id e') with (env_of (set_objects s1 (delete id (e_objs e')))); [done|].
        unfold del_obj, env_of, set_objects. cbn. by rewrite Hl.
Qed.

Lemma class_body_sound err h bs s i s' i' id o :
  e_class_header h bs -> st_classes s = ∅ ->
  parse_class_body PC PR err (ch_object_id h) (class_rec_of h) s i = (s', Ok i' (id, o)) ->
  exists lib its e2 i2 vs,
    class_library (env_of s) h lib /\ g_items (member_kinds h) (env_of s) i its e2 i2
    /\ g_resolve its e2 i2 vs (env_of s') i' /\ id = ch_object_id h
    /\ o = mkObj (ch_name h) lib (hm_from_iter (zip (ch_member_names h) vs)).
Proof.
  intros Hh Hs. unfold parse_class_body. rewrite Hs, lookup_empty.
  rewrite bool_decide_eq_false_2 by (intros [? [=]]).
  rewrite cr_class_info_of. cbn [ci_of ci_member_names ci_name]. intros H.
  match type of H with sbind ?r ?k = _ =>
    set (R := r) in H; assert (forall s1 i1 lm, R = (s1, Ok i1 lm) ->
      class_library (env_of s) h lm.1 /\ parse_items PC (member_kinds h) s i = (s1, Ok i1 lm.2)) as HR
  end.
  { intros s1 i1 lm ER. unfold R in ER. unfold class_library, member_kinds, class_rec_of in *.
    assert (forall ks, ch_types h = Some ks -> forall s i,
      parse_members_with_type_info PC (mti_of ks) s i = parse_items PC ks s i) as Hty.
    { intros ks Hks s0 j. unfold parse_members_with_type_info, mti_of.
      cbn [mti_binary_type_enums mti_additional_infos].
      apply parse_members_typed_items. by eapply class_header_kinds. }
    assert (forall A (f : list value_or_ref -> A) (r : sres (list value_or_ref)) x,
      smap f r = (s1, Ok i1 x) -> exists l, r = (s1, Ok i1 l) /\ x = f l) as Hsm.
    { intros A f [s0 [j l|e|e|p|]] x Hx; unfold smap in Hx; cbn in Hx; try done. inv Hx. eauto. }
    destruct (ch_types h) as [ks|] eqn:Ets, (ch_library h) as [lid|].
    - cbn [env_of e_libs]. destruct (st_libs s !! lid) as [l|]; [|done].
      rewrite Hty in ER by done. apply Hsm in ER as (ms & ER & ->). split; [eauto|done].
    - rewrite Hty in ER by done. apply Hsm in ER as (ms & ER & ->). done.
    - cbn [env_of e_libs]. destruct (st_libs s !! lid) as [l|]; [|done].
      apply Hsm in ER as (ms & ER & ->). split; [eauto|]. apply (scount_ok _ _ K_Any) in ER.
      by rewrite Nat2N.id in ER.
    - apply Hsm in ER as (ms & ER & ->). split; [done|]. apply (scount_ok _ _ K_Any) in ER.
      by rewrite Nat2N.id in ER. }
  destruct R as [s1 [i1 lm|e|e|p|]]; cbn [sbind] in H; try done.
  destruct (HR _ _ _ eq_refl) as [Hlib Hit].
  apply items_sound in Hit as (Hs1 & its & Hms & Hits); [|done]. rewrite Hms in H.
  destruct (resolve_members PR (map vr_of its) s1 i1) as [s2 [i2 vs|e|e|p|]] eqn:Er;
    cbn [sbind] in H; try done.
  inv H. apply resolve_sound in Er as [Hs2 Hr]; [|done].
  exists lm.1, its, (env_of s1), i1, vs. done.
Qed.

Lemma classes_body_sound s i s' i' id o :
  st_classes s = ∅ -> parse_classes_body PC PR s i = (s', Ok i' (id, o)) ->
  g_class (env_of s) i id o (env_of s') i'.
Proof.
  intros Hs H. unfold parse_classes_body in H.
  destruct (parse_binary_library s i) as [s1 [i1 []|e|e|p|]] eqn:El; cbn [sbind] in H; try done.
  apply parse_binary_library_sound in El as [El Ecl]. rewrite Hs in Ecl.
  destruct (class_with_id i1) as [i2 [oid mid]|e|e|p|]; try done.
  - by rewrite Ecl, lookup_empty in H.
  - destruct (class_records i1) as [i2 c|e'|e'|p|] eqn:Ec; try done.
    apply class_records_exact in Ec as (bs & (h & -> & Hh) & ->).
    rewrite cr_class_info_of in H. cbn [ci_of ci_object_id] in H.
    eapply class_body_sound in H as (lib & its & e2 & i3 & vs & Hlib & Hits & Hr & -> & ->); [|done|done].
    econstructor; done.
Qed.

(** Array records. *)
Lemma array_tail_sound k fuel len id s i s' i' x :
  st_classes s = ∅ ->
  (let! (s, input, ms) := array_loop (parse_member PC k) fuel len 0 s i in
   let! (s, input, vs) := resolve_members PR ms s input in
   (s, Ok input (id, vs))) = (s', @Ok bytes error (N * list value) i' x) ->
  exists its e1 i1 vs, g_items (replicate (length its) k) (env_of s) i its e1 i1 /\ fills len its
    /\ g_resolve its e1 i1 vs (env_of s') i' /\ x = (id, vs).
Proof.
  intros Hs H.
  destruct (array_loop (parse_member PC k) fuel len 0 s i) as [s1 [i1 ms|e|e|p|]] eqn:E1;
    cbn [sbind] in H; try done.
  apply array_loop_sound in E1 as (Hs1 & its & -> & Hits & Hf); [|done].
  rewrite resolve_expand in H.
  destruct (resolve_members PR (map vr_of its) s1 i1) as [s2 [i2 vs|e|e|p|]] eqn:E2;
    cbn [sbind] in H; try done.
  inv H. apply resolve_sound in E2 as [Hs2 Hr]; [|done].
  exists its, (env_of s1), i1, vs. split; [done|]. split; [|done].
  destruct Hf as [[Hle ->]|(init & last & -> & Hf)].
  - left. split; [lia|done].
  - right. exists init, last. split; [done|]. lia.
Qed.

Lemma array_single_object_sound s i s' i' x :
  st_classes s = ∅ -> parse_array_single_object PC PR s i = (s', Ok i' x) ->
  exists len bs i0 its e1 i1 vs, i = bs ++ i0 /\ e_array_header x10 x.1 len bs
    /\ g_items (replicate (length its) K_Any) (env_of s) i0 its e1 i1 /\ fills len its
    /\ g_resolve its e1 i1 vs (env_of s') i' /\ x.2 = vs.
Proof.
  intros Hs H. unfold parse_array_single_object in H.
  destruct (array_single_object i) as [i0 ai|e|e|p|] eqn:E; try done.
  apply array_single_object_exact in E as (bs & Hb & ->).
  apply (array_tail_sound K_Any) in H as (its & e1 & i1 & vs & H1 & H2 & H3 & ->); [|done].
  exists (ai_length ai), bs, i0, its, e1, i1, vs. done.
Qed.

Lemma arrays_sound s i s' i' x :
  st_classes s = ∅ -> no_library i -> parse_arrays PC PR s i = (s', Ok i' x) ->
  g_record (env_of s) i x.1 (VArray x.2) (env_of s') i'.
Proof.
  intros Hs Hl H.
  destruct (decide (head_in [x07; x0f; x10; x11] i)) as [Hh|Hh].
  2:{ destruct (parse_arrays_err PC PR s i Hl Hh) as [e He]. congruence. }
  unfold parse_arrays in H. rewrite parse_binary_library_none in H by done. cbn [sbind] in H.
  destruct (decide (head_in [x10] i)) as [H10|H10].
  { destruct (parse_array_single_object PC PR s i) as [s1 [i1 a|e|e|p|]] eqn:E1; cbn [alt_mut] in H; try done.
    - inv H. apply array_single_object_sound in E1
        as (len & bs & i0 & its & e1 & i1 & vs & -> & Hb & H1 & H2 & H3 & H4); [|done].
      rewrite H4. econstructor; done.
    - exfalso. unfold parse_array_single_primitive, parse_array_single_string, parse_binary_array in H.
      destruct (array_single_primitive_err i) as [e2 He2]; [hd|]. rewrite He2 in H. cbn [bind alt_mut] in H.
      destruct (array_single_string_err i) as [e3 He3]; [hd|]. rewrite He3 in H. cbn [bind alt_mut] in H.
      destruct (binary_array_err i) as [e4 He4]; [hd|]. rewrite He4 in H. cbn [bind alt_mut] in H.
      done. }
  unfold parse_array_single_object in H. destruct (array_single_object_err i H10) as [e1 He1].
  rewrite He1 in H. cbn [alt_mut] in H.
  destruct (decide (head_in [x0f] i)) as [H0f|H0f].
  { unfold parse_array_single_primitive, parse_array_single_string, parse_binary_array in H.
    destruct (array_single_string_err i) as [e3 He3]; [hd|]. rewrite He3 in H.
    destruct (binary_array_err i) as [e4 He4]; [hd|]. rewrite He4 in H.
    destruct (array_single_primitive i) as [i1 [ai p]|e|e|p|] eqn:E1; cbn [bind alt_mut] in H; try done.
    cbn [fst snd] in H.
    destruct (count (ai_length ai) (fun i => member_primitive_untyped i p) i1) as [i2 vs|e|e|p1|] eqn:E2;
      cbn [bind alt_mut] in H; try done.
    inv H. cbn [fst snd]. apply array_single_primitive_exact in E1 as (bs & (b1 & Hb1 & ->) & ->).
    cbn [fst snd] in Hb1.
    apply (exact_count _ _ _ (member_primitive_untyped_exact p)) in E2 as (b2 & [Hlen Hb2] & ->).
    2:{ intros v [_ Hv]. by apply e_prim_nonempty in Hv. }
    rewrite app_assoc. apply (G_rec_prims _ _ _ p). exists b1, b2.
    rewrite Hlen. split; [done|]. split; [|split].
    - clear -Hb2. induction Hb2 as [|v l b bs [Hp Hv] _ IH]; [constructor|by constructor].
    - clear -Hb2. induction Hb2 as [|v l b bs [Hp Hv] _ IH]; [constructor|by constructor].
    - by rewrite <- app_assoc. }
  unfold parse_array_single_primitive in H. destruct (array_single_primitive_err i H0f) as [e2 He2].
  rewrite He2 in H. cbn [bind alt_mut] in H.
  destruct (decide (head_in [x11] i)) as [H11|H11].
  { unfold parse_array_single_string in H. 
    destruct (array_single_string i) as [i0 ai|e|e|p|] eqn:E; cbn [alt_mut] in H; try done.
    - apply array_single_string_exact in E as (bs & Hb & ->).
      match type of H with alt_mut ?r _ = _ => destruct r as [s1 [i1 a|e|e|p|]] eqn:Er end;
        cbn [alt_mut] in H; try done.
      + inv H. apply (array_tail_sound K_StringArray) in Er
          as (its & e3 & i3 & vs & H1 & H2 & H3 & ->); [|done].
        cbn [fst snd]. by eapply G_rec_strings.
      + exfalso. unfold parse_binary_array in H.
        destruct (binary_array_err (bs ++ i0)) as [e4 He4]; [hd|]. rewrite He4 in H. done.
    - exfalso. unfold parse_binary_array in H.
      destruct (binary_array_err i) as [e4 He4]; [hd|]. rewrite He4 in H. done. }
  unfold parse_array_single_string in H. destruct (array_single_string_err i H11) as [e3 He3].
  rewrite He3 in H. cbn [alt_mut] in H.
  destruct (parse_binary_array PC PR s i) as [s1 [i1 a|e|e|p|]] eqn:E1; cbn [alt_mut] in H; try done.
  inv H. unfold parse_binary_array in E1.
  destruct (binary_array_parse i) as [i2 ba|e|e|p|] eqn:E; try done.
  apply binary_array_exact in E as (bs & (k & Hbt & Hai & Hb) & ->).
  destruct (checked_product 1 (ba_lengths ba)) as [n|] eqn:Ep; [|done].
  apply checked_product_sound in Ep as [-> Hno]; [|done]. rewrite N.mul_1_l in E1.
  rewrite Hbt, Hai in E1. rewrite <- parse_member_typed_eq in E1.
  2:{ destruct Hb as (? & ? & ? & ? & ? & _ & _ & _ & Hk & _). by apply e_kind_code_iff in Hk as [Hk _]. }
  destruct (scount _ _ s i2) as [s2 [i3 ms|e|e|p|]] eqn:E2; cbn [sbind] in E1; try done.
  unfold scount in E2; apply scount_ok, items_sound in E2 as (Hs2 & its & -> & Hits); [|done].
  destruct (resolve_members PR _ s2 i3) as [s3 [i4 vs|e|e|p|]] eqn:E3; cbn [sbind] in E1; try done.
  apply resolve_sound in E3 as [Hs3 Hr]; [|done].
  injection E1 as -> E1. apply bind_ok in E1 as (i5 & out & E1 & E4). inv E4. cbn [fst snd].
  replace (drop 1 (ba_lengths ba)) with (tail (ba_lengths ba)) in E1 by (by destruct (ba_lengths ba)).
  apply shaped_sound in E1 as [-> Hsh].
  - eapply G_rec_array; [done| |done|done|done].
    intros j Hj. specialize (Hno j Hj). by rewrite N.mul_1_l in Hno.
  - intros Hne. pose proof (items_resolved_nonempty _ _ _ _ _ _ Hr Hne) as Hine.
    pose proof (g_items_length _ _ _ _ _ _ Hits) as [_ Hkl]. rewrite replicate_length in Hkl.
    assert (product (ba_lengths ba) <> 0%N) as Hp.
    { intros E0. rewrite E0 in Hkl. by destruct its. }
    apply fold_mul_nonzero in Hp. destruct (ba_lengths ba); [done|]. by inv Hp.
Qed.

Lemma referenceable_body_sound s i s' i' id :
  st_classes s = ∅ -> parse_referenceable_body PC PR s i = (s', Ok i' id) ->
  exists v e', g_record (env_of s) i id v e' i' /\ env_of s' = add_obj id v e'.
Proof.
  intros Hs H. unfold parse_referenceable_body in H.
  match type of H with sbind ?r _ = _ => destruct r as [s1 [i1 io|e|e|p|]] eqn:E end;
    cbn [sbind] in H; try done.
  inv H. exists io.2, (env_of s1). split; [|done].
  destruct (PC s i) as [s2 [i2 [id o]|e|e|p|]] eqn:E1; unfold smap in E; cbn [fst snd rmap bind alt_mut] in E;
    try done.
  { inv E. constructor. by apply SPC. }
  assert (forall s3 r, parse_arrays PC PR s2 i = (s3, r) -> (exists i3 a, r = Ok i3 a) \/ (exists er, r = Err er) ->
    no_library i) as Hnl.
  { intros s3 r Ea Hr. apply no_library_iff.
    destruct (binary_library i) as [rest [lid name]|el|el|p|] eqn:El; [| eauto | | |].
    - exfalso. pose proof (LPC _ _ _ _ _ _ _ E1 El) as Hd.
      unfold parse_arrays, parse_binary_library in Ea. rewrite El in Ea. cbn [opt] in Ea.
      rewrite bool_decide_eq_true_2 in Ea by done. cbn [sbind] in Ea. inv Ea.
      destruct Hr as [(? & ? & [=])|(? & [=])].
    - exfalso. unfold parse_arrays, parse_binary_library in Ea. rewrite El in Ea. cbn [opt sbind] in Ea. inv Ea.
      destruct Hr as [(? & ? & [=])|(? & [=])].
    - exfalso. unfold parse_arrays, parse_binary_library in Ea. rewrite El in Ea. cbn [opt sbind] in Ea. inv Ea.
      destruct Hr as [(? & ? & [=])|(? & [=])].
    - exfalso. unfold parse_arrays, parse_binary_library in Ea. rewrite El in Ea. cbn [opt sbind] in Ea. inv Ea.
      destruct Hr as [(? & ? & [=])|(? & [=])]. }
  destruct (parse_arrays PC PR s2 i) as [s3 [i3 a|e3|e3|p|]] eqn:E2; cbn [fst snd rmap bind alt_mut] in E; try done.
  - inv E. specialize (Hnl _ _ eq_refl (or_introl (ex_intro _ _ (ex_intro _ _ eq_refl)))).
    assert (s2 = s) as ->.
    { destruct (decide (head_in [x07; x0f; x10; x11] i)) as [Hh|Hh].
      - destruct (NPC s i Hnl) as [Hx _]; [hd|]. by rewrite E1 in Hx.
      - destruct (parse_arrays_err PC PR s2 i Hnl Hh) as [e' He']. congruence. }
    cbn [fst snd]. by apply arrays_sound.
  - specialize (Hnl _ _ eq_refl (or_intror (ex_intro _ _ eq_refl))).
    destruct (binary_object_string i) as [i4 [id str]|e4|e4|p|] eqn:E4; cbn [fst snd rmap bind alt_mut] in E; try done.
    inv E. cbn [fst snd].
    assert (head_in [x06] i) as Hh.
    { destruct (decide (head_in [x06] i)) as [|Hh]; [done|]. apply binary_object_string_err in Hh as [e' He']. congruence. }
    assert (s2 = s) as ->.
    { destruct (NPC s i Hnl) as [Hx _]; [hd|]. by rewrite E1 in Hx. }
    destruct (parse_arrays_err PC PR s i Hnl) as [e' He']; [hd|]. rewrite He' in E2. inv E2.
    apply binary_object_string_exact in E4 as (bs & Hb & ->). by constructor.
Qed.

End methods.

Lemma parse_classes_library f s i s' e rest lid name :
  parse_classes f s i = (s', Err e) -> binary_library i = Ok rest (lid, name) ->
  is_Some (st_libs s' !! lid).
Proof.
  destruct f as [|f]; [done|]. rewrite parse_classes_S. intros H El.
  unfold parse_classes_body, parse_binary_library in H. rewrite El in H. cbn [opt] in H.
  case_bool_decide; cbn [sbind] in H; [done|].
  set (s1 := set_libs s (<[lid:=name]> (st_libs s))) in *.
  assert (mono s1 s') as [_ Hm].
  { destruct (class_with_id rest) as [i2 [oid mid]|e1|e1|p|]; try done.
    - destruct (st_classes s1 !! mid) as [c|]; [|done].
      pose proof (mono_class_body (parse_classes f) (parse_referenceable f) (mono_classes f)
        (mono_referenceable f) rest oid c s1 i2) as Hm. by rewrite H in Hm.
    - destruct (class_records rest) as [i2 c|e2|e2|p|]; try done; [|by inv H].
      pose proof (mono_class_body (parse_classes f) (parse_referenceable f) (mono_classes f)
        (mono_referenceable f) rest (ci_object_id (cr_class_info c)) c s1 i2) as Hm. by rewrite H in Hm. }
  apply elem_of_dom, Hm, elem_of_dom. simpl. rewrite lookup_insert. eauto.
Qed.

Lemma parse_classes_nothing f s i :
  no_library i -> ~ head_in [x01; x02; x03; x04; x05] i ->
  (parse_classes f s i).1 = s /\ forall i' a, (parse_classes f s i).2 <> Ok i' a.
Proof.
  intros Hl Hh. destruct f as [|f]; [done|]. rewrite parse_classes_S.
  destruct (parse_classes_body_err (parse_classes f) (parse_referenceable f) s i Hl Hh) as [e ->]. done.
Qed.

(** Whatever is accepted is in the grammar. *)
Theorem g_sound f :
  (forall s i s' i' id o, st_classes s = ∅ -> parse_classes f s i = (s', Ok i' (id, o)) ->
     g_class (env_of s) i id o (env_of s') i')
  /\ (forall s i s' i' id, st_classes s = ∅ -> parse_referenceable f s i = (s', Ok i' id) ->
     exists v e', g_record (env_of s) i id v e' i' /\ env_of s' = add_obj id v e').
Proof.
  induction f as [|f [IH1 IH2]]; [done|]. split.
  - intros s i s' i' id o Hs H. rewrite parse_classes_S in H.
    eapply classes_body_sound in H; eauto using mono_classes, mono_referenceable, parse_classes_nothing.
  - intros s i s' i' id Hs H. rewrite parse_referenceable_S in H.
    eapply referenceable_body_sound in H; eauto using mono_classes, mono_referenceable,
      parse_classes_nothing, parse_classes_library.
Qed.

End with_decimal.
