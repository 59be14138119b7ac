(** * Blames: the records fail exactly with the errors of [Blame.v]. *)
From Verif Require Import Base Utf8 Value DataTypes Records Parser Wire BaseLemmas DataTypesLemmas
  RecordsLemmas MethodLemmas SafetyLemmas Safety Grammar Heads Complete Sound Fuel Message Run Spec
  LemmasA LemmasB LemmasC LemmasD Positions Reach Stops StopsLeaf Quits Blame BlameLeaf.
From Coq Require Import Lia.

Section with_decimal.
Context {DL : DecimalLib}.

(** ** What is specified happens *)
Lemma lib_blames e er i : blame_lib e er i -> exists s', parse_binary_library (st e) i = (s', Fail er).
Proof.
  intros [r Hn|id name bs i0 Hb Hd ->]; unfold parse_binary_library.
  - assert (binary_library (x0c :: r) = Fail er) as ->; [|by eexists].
    unfold binary_library. rewrite (rt_ok RT_BinaryLibrary). apply library_id_fail in Hn. by rewrite Hn.
  - rewrite (exact_ok binary_library _ (id, name) bs i0 binary_library_exact) by done. cbn [opt].
    rewrite bool_decide_eq_true_2 by done. eexists. reflexivity.
Qed.
Lemma flaw_item_head k i er : flaw_item k i er -> item_head k i.
Proof. intros H. apply item_fail in H. assert (exists er, leaf k i = Fail er) as Hf by eauto. by apply leaf_fail in Hf as [? _]. Qed.
Lemma flaw_class_header_head i er : flaw_class_header i er -> head_in [x02; x03; x04; x05] i.
Proof. intros (c & r & Hc & -> & _). exact Hc. Qed.
Lemma blame_with_id_head i er : blame_with_id i er -> head_in [x01] i.
Proof. intros (r & -> & _). hd. Qed.

Lemma blames_fail er :
  (forall e i, blame_class er e i -> exists s', ev (fun f => parse_classes f (st e) i) (s', Fail er))
  /\ (forall k e i, blame_member er k e i ->
        exists s', ev (fun f => parse_member (parse_classes f) k (st e) i) (s', Fail er))
  /\ (forall e i, blame_record er e i -> exists s', ev (fun f => parse_referenceable f (st e) i) (s', Fail er)).
Proof.
  assert (forall id e i s', ev (fun f => parse_referenceable f (st e) i) (s', Fail er) ->
    ev (fun f => verify_referenceable (parse_referenceable f) id (st e) i) (s', Fail er)) as Hver.
  { intros id e i s' H. eapply ev_map1; [exact H|]. intros f Hf. unfold verify_referenceable. by rewrite Hf. }
  apply blame_mut_ind.
  - intros e i H. destruct (lib_blames _ _ _ H) as [s' E]. exists s'. apply ev_S. exists 0. intros f _.
    rewrite parse_classes_S. unfold parse_classes_body. by rewrite E.
  - intros e i e1 i1 Hl Hw. exists (st e1). apply ev_S. exists 0. intros f _.
    rewrite parse_classes_S. unfold parse_classes_body. rewrite (parse_binary_library_complete _ _ _ _ Hl). cbn [sbind].
    apply with_id_fail in Hw as [Hw|[(r & [oid mid] & Hw) ->]]; rewrite Hw; [done|].
    cbn [st st_classes]. by rewrite lookup_empty.
  - intros e i e1 i1 Hl H. pose proof (flaw_class_header_head _ _ H) as Hh. apply class_records_fail in H.
    destruct (class_with_id_err i1) as [er1 E1]; [hd|].
    exists (st e1). apply ev_S. exists 0. intros f _. rewrite parse_classes_S. unfold parse_classes_body.
    rewrite (parse_binary_library_complete _ _ _ _ Hl). cbn [sbind]. by rewrite E1, H.
  - intros e i e1 bs i1 h Hl Hh Hno ->.
    exists (st e1). apply ev_S. exists 0. intros f _. rewrite parse_classes_S, (classes_members _ _ _ _ _ _ _ _ Hl Hh).
    unfold parse_class_body. cbn [st st_classes]. rewrite lookup_empty.
    rewrite bool_decide_eq_false_2 by (intros [? [=]]).
    unfold class_library in Hno. unfold class_rec_of.
    destruct (ch_library h) as [lid|]; [|exfalso; eauto].
    assert (e_libs e1 !! lid = None) as Hl0.
    { destruct (e_libs e1 !! lid) as [l|] eqn:E; [|done]. exfalso. eauto. }
    destruct (ch_types h); cbn [st st_libs]; rewrite Hl0; reflexivity.
  - intros e i e1 bs i1 h lib ks1 k ks2 its e2 i2 Hl Hh Hlib Hk Hits _ [s' IH].
    exists s'. by eapply (class_stop e i e1 bs i1 h lib ks1 k ks2 its e2 i2 s' (S_Fail er)).
  - intros e i e1 bs i1 h lib its1 id its2 e2 i2 vs e3 i3 Hl Hh Hlib Hits Hr Hn _ [s' IH].
    exists s'. eapply (class_resolve_stop e i e1 bs i1 h lib its1 id its2 e2 i2 vs e3 i3 s' (S_Fail er)); try done.
    by apply Hver.
  - intros k e i H. destruct (lib_blames _ _ _ H) as [s' E]. exists s'. exists 0. intros f _.
    destruct k; cbn [parse_member]; unfold parse_member_untyped, parse_member_typed; by rewrite E.
  - intros k e i e1 i1 Hl Hn ->. destruct k as [|p| | |n|n lid| | |p]; cbn [kind_ok] in Hn; try (by destruct Hn).
    exists (st e1). exists 0. intros f _. cbn [parse_member kind_bt kind_ai]. unfold parse_member_typed.
    rewrite (parse_binary_library_complete _ _ _ _ Hl). cbn [sbind kind_bt kind_ai cti_library_id st st_libs].
    assert (e_libs e1 !! lid = None) as ->; [|reflexivity].
    destruct (e_libs e1 !! lid); [|done]. by destruct Hn.
  - intros k e i e1 i1 Hl Hok H. pose proof (flaw_item_head _ _ _ H) as Hh. apply item_fail in H.
    exists (st e1). apply ev_S. exists 0. intros f _. rewrite <- H.
    apply member_leaf; [by destruct k|by destruct k|done|done|by apply head_not_class|left; congruence].
  - intros e i e1 i1 Hl Hs _ [s' IH]. exists s'. eapply ev_map1; [exact IH|]. intros f Hf. cbn [parse_member].
    unfold parse_member_untyped. rewrite (parse_binary_library_complete _ _ _ _ Hl). cbn [sbind].
    rewrite untyped_body_class' by done. by rewrite Hf.
  - intros k e i e1 i1 Hk Hl _ [s' IH]. exists s'. eapply ev_map1; [exact IH|]. intros f Hf.
    destruct Hk as [-> | ->]; cbn [parse_member]; unfold parse_member_typed;
      rewrite (parse_binary_library_complete _ _ _ _ Hl); cbn [sbind kind_bt kind_ai]; exact Hf.
  - intros k e i e1 i1 id o e2 i2 Hk Hl Hkok Hg Hn ->.
    destruct g_complete as (HgC & _). exists (st e2). exists (2 * length i1 + 1). intros f Hf. specialize (HgC _ _ _ _ _ _ Hg f).
    destruct k as [|p| | |n|n lid| | |p]; try done; cbn [parse_member]; unfold parse_member_typed;
      rewrite (parse_binary_library_complete _ _ _ _ Hl); cbn [sbind kind_bt kind_ai].
    + unfold class_or_null. rewrite HgC by lia. cbn [class_kind] in Hn.
      match goal with |- (if ?c then _ else _) = _ => destruct c eqn:Ec end; [|reflexivity].
      exfalso. apply Hn. unfold str_eqb in Ec. by rewrite andb_true_iff, !bool_decide_eq_true in Ec.
    + destruct Hkok as [l Hkok]. cbn [st st_libs cti_library_id cti_type_name]. rewrite Hkok.
      change (mkState (e_libs e1) ∅ (e_objs e1)) with (st e1).
      unfold class_or_null. rewrite HgC by lia. cbn [class_kind] in Hn.
      match goal with |- (if ?c then _ else _) = _ => destruct c eqn:Ec end; [|reflexivity].
      exfalso. apply Hn. unfold str_eqb in Ec. rewrite andb_true_iff, !bool_decide_eq_true in Ec. by exists l.
  - intros e i _ [s' IH]. exists s'. apply ev_S. eapply ev_map1; [exact IH|]. intros f Hf. by apply ref_class_fail.
  - intros e bs i id name e' Hb Hst ->. destruct stops_quit as (Hq & _). apply Hq in Hst as [er0 [F IH]].
    exists (set_libs (st e') (<[id:=name]> (st_libs (st e')))). apply ev_S. exists (S F). intros f Hf.
    rewrite parse_referenceable_S. unfold parse_referenceable_body. rewrite IH by lia. unfold smap at 1.
    cbn [fst snd stop_res quit rmap bind alt_mut].
    assert (binary_library (bs ++ i) = Ok i (id, name)) as El
      by (by rewrite (exact_ok binary_library _ (id, name) bs i binary_library_exact)).
    assert (is_Some (e_libs e' !! id)) as Hd.
    { change (is_Some (st_libs (st e') !! id)). eapply (parse_classes_library f); [|exact El]. apply (IH f). lia. }
    unfold parse_arrays, parse_binary_library. rewrite El. cbn [opt].
    rewrite bool_decide_eq_true_2 by done. reflexivity.
  - intros e i H. exists (st e). apply ev_S, ev_S. exists 0. intros f _.
    rewrite ref_string by (destruct H as (r & -> & _); hd). apply string_record_fail in H. by rewrite H.
  - intros e i H. exists (st e). apply ev_S, ev_S. exists 0. intros f _.
    rewrite ref_prim_array.
    + unfold parse_array_single_primitive. change (bind _ _) with (prim_array_parse i). apply prim_array_fail in H. by rewrite H.
    + destruct H as [(r & -> & _)|(il & b & r & (b1 & b2 & _ & _ & ->) & -> & _)]; hd.
  - intros code e i Hcode H. assert (head_in [code] i) as Hh by (destruct H as (r & -> & _); hd).
    exists (st e). apply ev_S, ev_S. exists 0. intros f _.
    destruct Hcode as [-> | ->].
    + rewrite ref_object_array by done. unfold parse_array_single_object. apply array_object_fail in H. by rewrite H.
    + rewrite ref_string_array by done. unfold parse_array_single_string. apply array_string_fail in H. by rewrite H.
  - intros code k e id len bs i its e1 i1 Hcode Hh Hits Hlt _ [s' [F1 H1]].
    destruct (ev_items _ _ _ _ _ _ Hits) as [F2 H2].
    exists s'. apply ev_S, ev_S. exists (F1 + F2). intros f Hf. rewrite (array_info code k) with (id := id) (len := len) by done.
    rewrite (array_loop_stop (parse_classes (S f)) k its len 0 (st e) i (st e1) i1 s' (S_Fail er)).
    + reflexivity.
    + apply H2. lia.
    + apply g_items_length in Hits as [Hl _]. lia.
    + lia.
    + apply H1. lia.
  - intros code k e id len bs i its1 rid its2 e1 i1 vs e2 i2 Hcode Hh Hits Hfl Hres Hn _ [s' H0].
    apply (Hver rid) in H0 as [F1 H1].
    exists s'. apply ev_S, ev_S.
    destruct (ev_items _ _ _ _ _ _ Hits) as [F2 H2]. destruct (ev_resolve _ _ _ _ _ _ Hres) as [F3 H3].
    exists (F1 + F2 + F3). intros f Hf. rewrite (array_info code k) with (id := id) (len := len) by done.
    rewrite (array_loop_items (parse_classes (S f)) k (its1 ++ It_Ref rid :: its2) (S (length i)) len 0 (st e) i (st e1) i1).
    + cbn [sbind]. rewrite resolve_expand.
      rewrite (resolve_stop _ _ _ _ _ _ (st e2) i2 vs s' (S_Fail er)); [|apply H3; lia|done|apply H1; lia].
      reflexivity.
    + apply H2. lia.
    + apply g_items_length in Hits as [Hl _]. lia.
    + destruct Hfl as [[_ Hx]|(init & last & Hx & Hlt)]; [by destruct its1|].
      right. exists init, last. split; [done|]. lia.
    + by eapply g_items_size.
  - intros e i H. exists (st e). apply ev_S, ev_S. exists 0. intros f _.
    rewrite ref_binary_array by (destruct H as (r & -> & _); hd).
    apply binary_array_fail in H. unfold parse_binary_array. by rewrite H.
  - intros e id bat lengths bounds k bs i Hb Hno ->.
    exists (st e). apply ev_S, ev_S. exists 0. intros f _.
    assert (exists b, bs = x07 :: b) as [b Eb] by (destruct Hb as (? & ? & ? & ? & ? & _ & _ & _ & _ & _ & ->); eauto).
    rewrite ref_binary_array by (rewrite Eb; hd). unfold parse_binary_array.
    rewrite (exact_ok binary_array_parse _
      (mkBinaryArray id bat lengths bounds (kind_bt k) (kind_ai k)) bs i binary_array_exact)
      by (by exists k).
    cbn [ba_lengths].
    destruct (checked_product 1 lengths) as [n|] eqn:Ep; [|reflexivity].
    exfalso. apply Hno. apply checked_product_sound in Ep as [_ Hx]; [|done].
    intros j Hj. specialize (Hx j Hj). by rewrite N.mul_1_l in Hx.
  - intros e id bat lengths bounds k bs i its e1 i1 Hh Hno Hits Hlt _ [s' [F1 H1]].
    exists s'. apply ev_S, ev_S. destruct (ev_items _ _ _ _ _ _ Hits) as [F2 H2].
    exists (F1 + F2). intros f Hf. rewrite (binary_info id bat lengths bounds k) by done.
    unfold scount. rewrite (scount_stop (parse_classes (S f)) k (length its) (product lengths) (st e) i (st e1) i1 (map vr_of its) s' (S_Fail er)).
    + reflexivity.
    + apply H2. lia.
    + apply g_items_length in Hits as [Hl _]. lia.
    + lia.
    + apply H1. lia.
  - intros e id bat lengths bounds k bs i its1 rid its2 e1 i1 vs e2 i2 Hh Hno Hits Hres Hn _ [s' H0].
    apply (Hver rid) in H0 as [F1 H1].
    exists s'. apply ev_S, ev_S.
    destruct (ev_items _ _ _ _ _ _ Hits) as [F2 H2]. destruct (ev_resolve _ _ _ _ _ _ Hres) as [F3 H3].
    exists (F1 + F2 + F3). intros f Hf. rewrite (binary_info id bat lengths bounds k) by done.
    unfold scount. rewrite <- (N2Nat.id (product lengths)).
    pose proof (g_items_length _ _ _ _ _ _ Hits) as [Hl Hl2]. rewrite replicate_length in Hl2.
    rewrite scount_items by lia. rewrite H2 by lia. cbn [sbind].
    rewrite (resolve_stop _ _ _ _ _ _ (st e2) i2 vs s' (S_Fail er)); [|apply H3; lia|done|apply H1; lia].
    reflexivity.
Qed.

(** ** There is an error to blame *)
Lemma lib_blamed e i e' : stops_lib e i e' -> exists er, blame_lib e er i.
Proof.
  intros [r Hn|id name bs i0 Hb Hd].
  - destruct (positive_not E_InvalidLibraryId r Hn) as [er He]. exists er. apply BL_id. by apply library_id_fail.
  - eexists. eapply BL_known; [done|done|reflexivity].
Qed.
Lemma stops_blamed :
  (forall b e i e', stops_class b e i e' -> b = true -> exists er, blame_class er e i)
  /\ (forall b k e i e', stops_member b k e i e' -> b = true -> exists er, blame_member er k e i)
  /\ (forall b (id : N) e i e', stops_next b id e i e' -> b = true -> exists er, blame_record er e i)
  /\ (forall b e i e', stops_record b e i e' -> b = true -> exists er, blame_record er e i).
Proof.
  apply stops_mut_ind; try done.
  - intros e i e' H _. apply lib_blamed in H as [er H]. exists er. by apply BC_lib.
  - intros e i e1 i1 Hl Hh _. change begins with head_in in Hh.
    pose proof (class_with_id_safe i1) as Hs.
    destruct (class_with_id i1) as [i2 x|er|er|p|] eqn:E; try done.
    + eexists. eapply BC_with_id; [exact Hl|]. apply with_id_fail. right. split; [eauto|reflexivity].
    + by apply class_with_id_not_err in E.
    + exists er. eapply BC_with_id; [exact Hl|]. apply with_id_fail. by left.
  - intros e i e1 i1 Hl Hh Hc Hs _. change begins with head_in in Hh.
    assert (exists er, class_records i1 = Fail er) as [er E].
    { apply (fail_iff _ _ _ _ class_records_exact (class_records_safe i1) (soft_class_records i1)). split; [|tauto].
      intros (c & b & r & (h & -> & Hb) & ->). apply Hs. by exists h, b, r. }
    exists er. eapply BC_header; [exact Hl|]. by apply class_records_fail.
  - intros e i e1 bs i1 h Hl Hh Hno _. eexists. eapply BC_library; done.
  - intros b e i e1 bs i1 h lib ks1 k ks2 its e2 i2 e' Hl Hh Hlib Hk Hits _ IH Hb.
    destruct (IH Hb) as [er H]. exists er. by eapply BC_member.
  - intros b e i e1 bs i1 h lib its1 id its2 e2 i2 vs e3 i3 e' Hl Hh Hlib Hits Hr Hn _ IH Hb.
    destruct (IH Hb) as [er H]. exists er. by eapply BC_resolve.
  - intros k e i e' H _. apply lib_blamed in H as [er H]. exists er. by apply BM_lib.
  - intros k e i e1 i1 Hl Hn _. eexists. eapply BM_library; done.
  - intros k e i e1 i1 Hl Hok Hh Hc Hs _.
    assert (exists er, leaf k i1 = Fail er) as [er E] by (by apply leaf_fail).
    exists er. eapply BM_item; [done|done|]. by apply item_fail.
  - intros b e i e1 i1 e' Hl Hs _ IH Hb. destruct (IH Hb) as [er H]. exists er. by eapply BM_inline.
  - intros b k e i e1 i1 e' Hk Hl _ IH Hb. destruct (IH Hb) as [er H]. exists er. by eapply BM_nested.
  - intros k e i e1 i1 id o e2 i2 Hk Hl Hkok Hg Hn _. eexists. by eapply BM_other_class.
  - intros e i e' _ IH _. destruct (IH eq_refl) as [er H]. exists er. by apply BR_class.
  - intros e bs i id name e' Hb Hst _ _. eexists. by eapply BR_library_again.
  - intros e i Hh Hc Hs _. change begins with head_in in Hh.
    assert (exists er, binary_object_string i = Fail er) as [er E].
    { apply (fail_iff _ _ _ _ binary_object_string_exact (binary_object_string_safe i) (soft_string_record i)). split; [|tauto].
      intros ([id s] & b & r & Hb & ->). apply Hs. by exists id, s, b, r. }
    exists er. apply BR_string. by apply string_record_fail.
  - intros e i Hh Hc Hs _. change begins with head_in in Hh.
    assert (exists er, prim_array_parse i = Fail er) as [er E].
    { apply (fail_iff _ _ _ _ prim_array_exact (prim_array_safe i) (soft_prim_array i)). split; [|tauto].
      intros ([id vs] & b & r & [p Hb] & ->). apply Hs. by exists id, p, vs, b, r. }
    exists er. apply BR_prims. by apply prim_array_fail.
  - intros code e i Hcode Hh Hs _. change begins with head_in in Hh. destruct Hcode as [-> | ->].
    + pose proof (array_single_object_safe i) as Hsf. pose proof (soft_array_object i) as Hso.
      destruct (array_single_object i) as [i0 ai|er|er|p|] eqn:E; try done.
      * exfalso. apply array_single_object_exact in E as (bs & Hb & ->). apply Hs. by eexists _, _, bs, i0.
      * exfalso. apply Hso; [by eexists|done].
      * exists er. eapply (BR_array_header er x10); [by left|]. by apply array_object_fail.
    + pose proof (array_single_string_safe i) as Hsf. pose proof (soft_array_string i) as Hso.
      destruct (array_single_string i) as [i0 ai|er|er|p|] eqn:E; try done.
      * exfalso. apply array_single_string_exact in E as (bs & Hb & ->). apply Hs. by eexists _, _, bs, i0.
      * exfalso. apply Hso; [by eexists|done].
      * exists er. eapply (BR_array_header er x11); [by right|]. by apply array_string_fail.
  - intros code k b e id len bs i its e1 i1 e' Hcode Hh Hits Hlt _ IH Hb. destruct (IH Hb) as [er H]. exists er.
    by eapply BR_array.
  - intros code k b e id len bs i its1 rid its2 e1 i1 vs e2 i2 e' Hcode Hh Hits Hfl Hres Hn _ IH Hb.
    destruct (IH Hb) as [er H]. exists er. by eapply BR_array_resolve.
  - intros e i Hh Hc Hs _. change begins with head_in in Hh.
    assert (exists er, binary_array_parse i = Fail er) as [er E].
    { apply (fail_iff _ _ _ _ binary_array_exact (binary_array_safe i) (soft_binary_array i)). split; [|tauto].
      intros (ba & b & r & (k & Hbt & Hai & Hb) & ->). apply Hs. by eexists _, _, _, _, k, b, r. }
    exists er. apply BR_binary_header. by apply binary_array_fail.
  - intros e id bat lengths bounds k bs i Hb Hno _. eexists. by eapply BR_binary_overflow.
  - intros b e id bat lengths bounds k bs i its e1 i1 e' Hh Hno Hits Hlt _ IH Hb. destruct (IH Hb) as [er H]. exists er.
    by eapply BR_binary.
  - intros b e id bat lengths bounds k bs i its1 rid its2 e1 i1 vs e2 i2 e' Hh Hno Hits Hres Hn _ IH Hb.
    destruct (IH Hb) as [er H]. exists er. by eapply BR_binary_resolve.
Qed.
End with_decimal.
