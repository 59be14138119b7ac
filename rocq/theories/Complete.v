(** * Complete: every message of the grammar is accepted, with its meaning. *)
From Verif Require Import Base Utf8 Value DataTypes Records Parser Wire BaseLemmas DataTypesLemmas
  RecordsLemmas MethodLemmas SafetyLemmas Safety Grammar Heads.
From Coq Require Import Lia.

Section with_decimal.
Context {DL : DecimalLib}.

Lemma parse_classes_S f s i :
  parse_classes (S f) s i = parse_classes_body (parse_classes f) (parse_referenceable f) s i.
Proof. reflexivity. Qed.
Lemma parse_referenceable_S f s i :
  parse_referenceable (S f) s i =
  parse_referenceable_body (parse_classes f) (parse_referenceable f) s i.
Proof. reflexivity. Qed.


(** ** Sizes *)

Lemma simple_item_nonempty k it bs : simple_item k it bs -> 0 < length bs.
Proof.
  assert (typed_item it bs -> 0 < length bs) as H1.
  { intros (v & _ & p & b & _ & _ & ->). simpl. lia. }
  assert (ref_item it bs -> 0 < length bs) as H2.
  { intros (v & _ & p & _ & ->). simpl. lia. }
  assert (str_item it bs -> 0 < length bs) as H3.
  { intros (v & ? & _ & b1 & b2 & _ & _ & ->). simpl. lia. }
  assert (null_item it bs -> 0 < length bs) as H4.
  { intros (n & _ & [[_ ->]|[[_ ->]|[_ ->]]]); simpl; lia. }
  destruct k; simpl; try naive_solver.
  intros (v & _ & _ & Hv). destruct bs; [by apply e_prim_nonempty in Hv|simpl; lia].
Qed.

Lemma g_lib_length e i e1 i1 : g_lib e i e1 i1 -> length i1 <= length i.
Proof. destruct 1; [rewrite app_length; lia|done]. Qed.

Lemma array_header_length code id len bs : e_array_header code id len bs -> length bs = 9.
Proof.
  intros (b1 & b2 & [Hid ->] & [Hl ->] & ->). cbn [length]. by rewrite app_length, !enc_uint_length.
Qed.
Lemma prim_array_nonempty id p vs bs : e_prim_array id p vs bs -> 0 < length bs.
Proof.
  intros (b1 & b2 & H & _ & _ & ->). apply array_header_length in H. rewrite app_length. lia.
Qed.
Lemma binary_array_header_nonempty id bat ls bo k bs :
  e_binary_array_header id bat ls bo k bs -> 0 < length bs.
Proof. intros (b1 & b2 & b3 & b4 & b5 & _ & _ & _ & _ & _ & ->). simpl. lia. Qed.
Lemma string_record_nonempty id s bs : e_string_record id s bs -> 0 < length bs.
Proof. intros (b1 & b2 & _ & _ & ->). simpl. lia. Qed.
Lemma class_header_pos h bs : e_class_header h bs -> 0 < length bs.
Proof. intros (b1 & b2 & b3 & b4 & b5 & _ & _ & _ & _ & _ & ->). simpl. lia. Qed.

Lemma g_length :
  (forall e i id o e' i', g_class e i id o e' i' -> length i' < length i)
  /\ (forall k e i it e' i', g_member k e i it e' i' -> length i' < length i)
  /\ (forall ks e i its e' i', g_items ks e i its e' i' ->
        length i' + length its <= length i /\ length ks = length its)
  /\ (forall its e i vs e' i', g_resolve its e i vs e' i' -> length i' <= length i)
  /\ (forall e i id v e' i', g_record e i id v e' i' -> length i' < length i).
Proof.
  apply g_mut_ind; intros; 
    repeat match goal with
    | H : g_lib _ _ _ _ |- _ => apply g_lib_length in H
    | H : e_class_header _ _ |- _ => apply class_header_pos in H
    | H : simple_item _ _ _ |- _ => apply simple_item_nonempty in H
    | H : e_string_record _ _ _ |- _ => apply string_record_nonempty in H
    | H : e_prim_array _ _ _ _ |- _ => apply prim_array_nonempty in H
    | H : e_array_header _ _ _ _ |- _ => apply array_header_length in H
    | H : e_binary_array_header _ _ _ _ _ _ |- _ => apply binary_array_header_nonempty in H
    end; rewrite ?app_length in *; cbn [length] in *; lia.
Qed.

Lemma g_class_length e i id o e' i' : g_class e i id o e' i' -> length i' < length i.
Proof. apply g_length. Qed.
Lemma g_member_length k e i it e' i' : g_member k e i it e' i' -> length i' < length i.
Proof. apply g_length. Qed.
Lemma g_items_length ks e i its e' i' :
  g_items ks e i its e' i' -> length i' + length its <= length i /\ length ks = length its.
Proof. apply g_length. Qed.
Lemma g_resolve_length its e i vs e' i' : g_resolve its e i vs e' i' -> length i' <= length i.
Proof. apply g_length. Qed.
Lemma g_record_length e i id v e' i' : g_record e i id v e' i' -> length i' < length i.
Proof. apply g_length. Qed.

(** ** Members by kind *)

Definition vr_of (it : item) : value_or_ref :=
  match it with It_Value v => VR_Value v | It_Nulls n => VR_Null n | It_Ref id => VR_Ref id end.

Section methods.
Context (PC : state -> bytes -> sres (N * obj value)).
Context (PR : state -> bytes -> sres N).

Definition parse_member (k : kind) : state -> bytes -> sres value_or_ref :=
  match k with
  | K_Any => parse_member_untyped PC
  | _ => parse_member_typed PC (kind_bt k) (kind_ai k)
  end.

Lemma parse_member_typed_eq k :
  k <> K_Any -> parse_member k = parse_member_typed PC (kind_bt k) (kind_ai k).
Proof. by destruct k. Qed.

Fixpoint parse_items (ks : list kind) (s : state) (i : bytes) : sres (list value_or_ref) :=
  match ks with
  | [] => (s, Ok i [])
  | k :: ks =>
      let! (s, i, m) := parse_member k s i in
      let! (s, i, ms) := parse_items ks s i in
      (s, Ok i (m :: ms))
  end.

Lemma parse_members_typed_items ks s i :
  Forall (fun k => k <> K_Any) ks ->
  parse_members_typed PC (zip (map kind_bt ks) (map kind_ai ks)) s i = parse_items ks s i.
Proof.
  intros H. revert s i. induction H as [|k ks Hk _ IH]; intros s i; [done|].
  cbn [map zip zip_with parse_members_typed parse_items]. rewrite parse_member_typed_eq by done.
  destruct (parse_member_typed _ _ _ _ _) as [s1 [i1 m|e|e|p|]]; cbn [sbind]; try done.
  by rewrite IH.
Qed.

Lemma scount_items fuel n k s i :
  n <= fuel ->
  scount_loop fuel (N.of_nat n) (parse_member k) s i = parse_items (replicate n k) s i.
Proof.
  revert fuel s i. induction n as [|n IH]; intros fuel s i Hf.
  - by destruct fuel.
  - destruct fuel as [|fuel]; [lia|]. cbn [scount_loop replicate parse_items].
    destruct (N.eqb_spec (N.of_nat (S n)) 0); [lia|].
    destruct (parse_member _ _ _) as [s1 [i1 m|e|e|p|]]; cbn [sbind]; try done.
    replace (N.pred (N.of_nat (S n))) with (N.of_nat n) by lia. rewrite IH by lia. done.
Qed.

(** Expanding null runs first does not change the result. *)
Lemma resolve_values v n ms s i :
  resolve_members PR (replicate n (VR_Value v) ++ ms) s i =
  (let! (s, i, vs) := resolve_members PR ms s i in (s, Ok i (replicate n v ++ vs))).
Proof.
  induction n as [|n IH].
  - simpl. by destruct (resolve_members PR ms s i) as [s1 [| | | |]].
  - cbn [replicate app resolve_members]. rewrite IH.
    by destruct (resolve_members PR ms s i) as [s1 [| | | |]].
Qed.
Lemma resolve_expand ms s i :
  resolve_members PR (concat (map expand_null ms)) s i = resolve_members PR ms s i.
Proof.
  revert s i. induction ms as [|m ms IH]; intros s i; [done|].
  cbn [map concat]. destruct m as [v|n|id].
  - cbn [expand_null app resolve_members]. by rewrite IH.
  - cbn [expand_null]. rewrite resolve_values. cbn [resolve_members]. by rewrite IH.
  - cbn [expand_null app resolve_members]. destruct (st_objects s !! id).
    + by rewrite IH.
    + destruct (verify_referenceable _ _ _ _) as [s1 [i1 id2|e|e|p|]]; cbn [sbind]; try done.
      destruct (st_objects s1 !! id2); [|done]. by rewrite IH.
Qed.

End methods.

Lemma member_size_vr it : member_size (vr_of it) = item_size it.
Proof. by destruct it. Qed.

(** The array loop, on a sequence of items that fills the array. *)
Lemma array_loop_items PC k its fuel len cur s i s' i' :
  parse_items PC (replicate (length its) k) s i = (s', Ok i' (map vr_of its)) ->
  length its <= fuel ->
  ((len <= cur)%N /\ its = []
   \/ exists init last, its = init ++ [last]
        /\ (cur + items_size init < len <= cur + items_size its)%N) ->
  (forall it, it ∈ its -> (0 < item_size it)%N) ->
  array_loop (parse_member PC k) fuel len cur s i
  = (s', Ok i' (concat (map expand_null (map vr_of its)))).
Proof.
  revert fuel cur s i. induction its as [|it its IH]; intros fuel cur s i Hp Hf Hfill Hpos.
  - destruct Hfill as [[Hle _]|(init & last & Hn & _)]; [|by destruct init].
    simpl in Hp. inv Hp. destruct fuel; cbn [array_loop]; (destruct (N.leb_spec len cur); [done|lia]).
  - destruct Hfill as [[_ Hn]|(init & last & Hn & Hlt)]; [done|].
    simpl in Hf. destruct fuel as [|fuel]; [lia|]. cbn [array_loop].
    destruct (N.leb_spec len cur) as [Hle|_].
    { exfalso. lia. }
    cbn [length replicate parse_items map] in Hp |- *.
    destruct (parse_member PC k s i) as [s1 [i1 m|e|e|p|]]; cbn [sbind] in *; try done.
    destruct (parse_items _ _ s1 i1) as [s2 [i2 ms|e|e|p|]] eqn:E2; cbn [sbind] in *; try done.
    inv Hp. rewrite (IH fuel); [done|done|lia| |].
    + rewrite member_size_vr. destruct init as [|it' init].
      * simpl in Hn. inv Hn. left. split; [|done]. cbn [items_size] in Hlt. lia.
      * simpl in Hn. inv Hn. right. exists init, last. split; [done|].
        cbn [items_size app] in Hlt. lia.
    + intros it' Hit. apply Hpos. set_solver.
Qed.

(** Runs of nulls are never empty. *)
Lemma simple_item_size k it bs : simple_item k it bs -> (0 < item_size it)%N.
Proof.
  assert (null_item it bs -> (0 < item_size it)%N) as H4.
  { intros (n & -> & [[-> ->]|[[? ->]|[? ->]]]); simpl; lia. }
  assert (ref_item it bs -> (0 < item_size it)%N) as H2 by (by intros (id & -> & _)).
  assert (str_item it bs -> (0 < item_size it)%N) as H3 by (by intros (id & s & -> & _)).
  assert (typed_item it bs -> (0 < item_size it)%N) as H1 by (by intros (id & -> & _)).
  destruct k; simpl; naive_solver.
Qed.
Lemma g_member_size k e i it e' i' : g_member k e i it e' i' -> (0 < item_size it)%N.
Proof.
  induction 1; [by eapply simple_item_size|done|done].
Qed.
Lemma g_items_size ks e i its e' i' :
  g_items ks e i its e' i' -> forall it, it ∈ its -> (0 < item_size it)%N.
Proof.
  induction 1; intros it' Hit; [by apply elem_of_nil in Hit|].
  apply elem_of_cons in Hit as [->|Hit]; [by eapply g_member_size|auto].
Qed.

(** ** Simple items *)

Lemma str_item_parse it bs i : str_item it bs -> parse_string_member (bs ++ i) = Ok i (vr_of it).
Proof.
  intros (id & s & -> & H). apply parse_string_member_exact. exists bs. split; [|done].
  exists id, s. done.
Qed.
Lemma ref_item_parse it bs i : ref_item it bs -> parse_ref_member (bs ++ i) = Ok i (vr_of it).
Proof.
  intros (id & -> & H). apply parse_ref_member_exact. exists bs. split; [|done]. exists id. done.
Qed.
Lemma null_item_parse it bs i : null_item it bs -> parse_null_object (bs ++ i) = Ok i (vr_of it).
Proof.
  intros (n & -> & H). apply parse_null_object_exact. exists bs. split; [|done]. exists n. done.
Qed.
Lemma typed_item_parse it bs i :
  typed_item it bs -> rmap VR_Value (member_primitive_typed (bs ++ i)) = Ok i (vr_of it).
Proof.
  intros (v & -> & H). by rewrite (exact_ok _ _ _ _ _ member_primitive_typed_exact H).
Qed.
Lemma str_item_head it bs : str_item it bs -> exists b, bs = x06 :: b.
Proof. intros (id & s & _ & b1 & b2 & _ & _ & ->). eauto. Qed.
Lemma ref_item_head it bs : ref_item it bs -> exists b, bs = x09 :: b.
Proof. intros (id & _ & b & _ & ->). eauto. Qed.
Lemma typed_item_head it bs : typed_item it bs -> exists b, bs = x08 :: b.
Proof. intros (id & _ & p & b & _ & _ & ->). eauto. Qed.
Lemma null_item_head it bs :
  null_item it bs -> exists c b, bs = c :: b /\ (c = x0a \/ c = x0d \/ c = x0e).
Proof. intros (n & _ & [[_ ->]|[[_ ->]|[_ ->]]]); eauto 6. Qed.

Lemma g_class_head e i id o e' i' :
  g_class e i id o e' i' -> head_in [x02; x03; x04; x05; x0c] i.
Proof.
  destruct 1 as [e i e1 bs i1 h lib its e2 i2 vs e3 i3 Hl Hh _ _ _].
  remember (bs ++ i1) as j0 eqn:Ej.
  destruct Hl as [id name b j Hr _|j _].
  - destruct Hr as (b1 & b2 & _ & _ & ->). hd.
  - destruct Hh as (b1 & b2 & b3 & b4 & b5 & _ & _ & _ & _ & _ & ->).
    rewrite Ej. destruct (ch_types h), (ch_library h); hd.
Qed.

(** The pure alternatives fail where a class record stands. *)
Lemma untyped_body_class PC s i :
  head_in [x02; x03; x04; x05; x0c] i ->
  member_untyped_body PC s i = smap (fun p => VR_Value (VObject p.2)) (PC s i).
Proof.
  intros Hh. unfold member_untyped_body.
  rewrite alt_skip.
  2:{ apply member_primitive_typed_err. hd. }
  rewrite alt_skip.
  2:{ apply parse_ref_member_err. hd. }
  rewrite alt_skip.
  2:{ apply parse_string_member_err. hd. }
  destruct (parse_null_object_err i) as [e ->]; [|done].
  hd.
Qed.

Lemma untyped_body_simple PC s bs i it :
  simple_item K_Any it bs -> member_untyped_body PC s (bs ++ i) = (s, Ok i (vr_of it)).
Proof.
  intros [H|[H|[H|H]]]; unfold member_untyped_body.
  - by rewrite (typed_item_parse _ _ _ H).
  - destruct (ref_item_head _ _ H) as [b Eb].
    rewrite alt_skip by (rewrite Eb; apply member_primitive_typed_err; hd).
    by rewrite (ref_item_parse _ _ _ H).
  - destruct (str_item_head _ _ H) as [b Eb].
    rewrite alt_skip by (rewrite Eb; apply member_primitive_typed_err; hd).
    rewrite alt_skip by (rewrite Eb; apply parse_ref_member_err; hd).
    by rewrite (str_item_parse _ _ _ H).
  - destruct (null_item_head _ _ H) as (c & b & Eb & Hc).
    rewrite alt_skip by (rewrite Eb; apply member_primitive_typed_err; hd).
    rewrite alt_skip by (rewrite Eb; apply parse_ref_member_err; hd).
    rewrite alt_skip by (rewrite Eb; apply parse_string_member_err; hd).
    by rewrite (null_item_parse _ _ _ H).
Qed.

(** ** Shapes *)

Lemma chunk_loop_rows fuel l rows i :
  0 < l -> Forall (fun r => length r = l) rows -> length (concat rows) <= fuel ->
  chunk_loop fuel l (concat rows) i = Ok i (map VArray rows).
Proof.
  intros Hl. revert fuel. induction rows as [|r rows IH]; intros fuel Hr Hf.
  - by destruct fuel.
  - inv Hr. cbn [concat map] in *. destruct r as [|v r]; [simpl in Hl; lia|].
    set (r' := v :: r) in *.
    rewrite app_length in Hf. assert (0 < length r') by (simpl; lia).
    destruct fuel as [|fuel]; [lia|].
    change (chunk_loop (S fuel) (length r') (r' ++ concat rows) i) with
      (if Nat.ltb (length (r' ++ concat rows)) (length r') then Panic P_DrainOutOfRange : res (list value)
       else let? (input, x) := chunk_loop fuel (length r') (drop (length r') (r' ++ concat rows)) i in
            Ok input (VArray (take (length r') (r' ++ concat rows)) :: x)).
    destruct (Nat.ltb_spec (length (r' ++ concat rows)) (length r')) as [Hlt|_].
    { rewrite app_length in Hlt. lia. }
    rewrite drop_app, take_app. rewrite IH; [done|done|lia].
Qed.

Lemma chunk_dims_app d1 d2 vs i :
  chunk_dims (d1 ++ d2) vs i = (let? (i, vs) := chunk_dims d1 vs i in chunk_dims d2 vs i).
Proof.
  revert vs i. induction d1 as [|d d1 IH]; intros vs i; [done|].
  cbn [app chunk_dims]. destruct (chunk_loop _ _ _ _); cbn [bind]; done || apply IH.
Qed.

Lemma has_shape_forall2_nil out leaves : Forall2 (has_shape []) out leaves -> out = concat leaves.
Proof.
  induction 1 as [|x l out leaves Hx _ IH]; [done|]. inv Hx. simpl. by f_equal.
Qed.

Lemma has_shape_forall2_cons d dims out leaves :
  Forall2 (has_shape (d :: dims)) out leaves ->
  exists rows leaves',
    out = map VArray rows /\ Forall (fun r => length r = N.to_nat d) rows
    /\ Forall2 (has_shape dims) (concat rows) leaves' /\ concat leaves' = concat leaves.
Proof.
  induction 1 as [|x l out leaves Hx _ IH].
  - exists [], []. split; [done|]. split; [done|]. split; [constructor|done].
  - destruct IH as (rows & leaves' & -> & Hr & Hs & Hc). inv Hx.
    exists (rows0 :: rows), (leaves0 ++ leaves'). split; [done|]. split.
    { constructor; [lia|done]. }
    split; [cbn [concat]; by apply Forall2_app|].
    rewrite concat_app. cbn [concat]. by f_equal.
Qed.

Lemma shaped_chunk_dims dims vs out i :
  Forall (fun d => d <> 0%N) dims ->
  (exists leaves, Forall2 (has_shape dims) out leaves /\ concat leaves = vs) ->
  chunk_dims (rev dims) vs i = Ok i out.
Proof.
  intros Hd. revert vs out. induction Hd as [|d dims Hd Hds IH]; intros vs out (leaves & Hs & Hc).
  - apply has_shape_forall2_nil in Hs. simpl. by subst.
  - cbn [rev]. rewrite chunk_dims_app.
    apply has_shape_forall2_cons in Hs as (rows & leaves' & -> & Hr & Hs & Hc').
    rewrite (IH vs (concat rows)) by (exists leaves'; split; [done|congruence]).
    cbn [bind chunk_dims]. rewrite chunk_loop_rows; [done|lia|done|done].
Qed.

Lemma chunk_dims_nil dims i : chunk_dims dims [] i = Ok i [].
Proof. induction dims as [|d dims IH]; [done|]. cbn [chunk_dims chunk_loop length bind]. apply IH. Qed.

Lemma shaped_complete dims vs out i :
  (vs <> [] -> Forall (fun d => d <> 0%N) dims) ->
  shaped dims vs out -> chunk_dims (rev dims) vs i = Ok i out.
Proof.
  intros Hd [[-> ->]|[Hne Hs]]; [apply chunk_dims_nil|]. by apply shaped_chunk_dims; auto.
Qed.

Lemma checked_product_complete acc l :
  (forall k, k <= length l -> (acc * product (take k l) < 2 ^ 64)%N) ->
  checked_product acc l = Some (acc * product l)%N.
Proof.
  revert acc. induction l as [|n l IH]; intros acc H; cbn [checked_product].
  { unfold product; cbn [fold_right]. by rewrite N.mul_1_r. }
  assert (acc * n < 2 ^ 64)%N as Hn.
  { specialize (H 1 ltac:(simpl; lia)). cbn [take] in H. unfold product in H.
    rewrite take_0 in H. cbn [fold_right] in H. by rewrite N.mul_1_r in H. }
  destruct (N.ltb_spec (acc * n) (2 ^ 64)) as [_|Hge]; [|lia].
  rewrite IH.
  - unfold product. cbn [fold_right]. by rewrite N.mul_assoc.
  - intros k Hk. specialize (H (S k) ltac:(simpl; lia)). cbn [take] in H. unfold product in *.
    cbn [fold_right] in H. by rewrite N.mul_assoc in H.
Qed.

(** ** The mutual induction *)

Lemma e_types_kinds ks n bs : e_types (Some ks) n bs -> Forall (fun k => k <> K_Any) ks.
Proof.
  intros (b1 & b2 & _ & H & _). by apply e_list_kind_code in H as [H _].
Qed.

Lemma class_header_kinds h bs ks :
  e_class_header h bs -> ch_types h = Some ks ->
  Forall (fun k => k <> K_Any) ks /\ length ks = length (ch_member_names h).
Proof.
  intros (? & ? & ? & b4 & ? & ? & ? & ? & Ht & _) Hks. rewrite Hks in Ht. split.
  - by eapply e_types_kinds.
  - by destruct Ht as (? & ? & ? & _).
Qed.

(** The part of [parse_classes] after the record, for a given member list. *)
Lemma parse_class_body_eq PC PR err h bs e i lib its e2 i2 :
  e_class_header h bs -> class_library e h lib ->
  parse_items PC (member_kinds h) (st e) i = (st e2, Ok i2 (map vr_of its)) ->
  length (member_kinds h) <= length i ->
  parse_class_body PC PR err (ch_object_id h) (class_rec_of h) (st e) i =
  (let! (s, input, vs) := resolve_members PR (map vr_of its) (st e2) i2 in
   (s, Ok input (ch_object_id h, mkObj (ch_name h) lib (hm_from_iter (zip (ch_member_names h) vs))))).
Proof.
  intros Hh Hlib Hp Hlen. unfold parse_class_body. cbn [st st_classes]. rewrite lookup_empty.
  rewrite bool_decide_eq_false_2 by (intros [? [=]]).
  rewrite cr_class_info_of. cbn [ci_of ci_member_names ci_name].
  unfold class_library in Hlib. unfold member_kinds in *. unfold class_rec_of.
  assert (forall ks, ch_types h = Some ks -> forall s i,
    parse_members_with_type_info PC (mti_of ks) s i = parse_items PC ks s i) as Hty.
  { intros ks Hks s j. unfold parse_members_with_type_info, mti_of. cbn [mti_binary_type_enums mti_additional_infos].
    apply parse_members_typed_items. by eapply class_header_kinds. }
  destruct (ch_types h) as [ks|] eqn:Ets, (ch_library h) as [lid|].
  - destruct Hlib as (l & Hl & ->). cbn [st st_libs]. rewrite Hl.
    change (mkState (e_libs e) ∅ (e_objs e)) with (st e).
    rewrite Hty by done. rewrite Hp. unfold smap. cbn [rmap bind sbind fst snd]. done.
  - subst lib. change (mkState (e_libs e) ∅ (e_objs e)) with (st e).
    rewrite Hty by done. rewrite Hp. done.
  - destruct Hlib as (l & Hl & ->). cbn [st st_libs]. rewrite Hl.
    change (mkState (e_libs e) ∅ (e_objs e)) with (st e).
    unfold scount. rewrite replicate_length in Hlen.
    change (parse_member_untyped PC) with (parse_member PC K_Any).
    rewrite scount_items by lia. rewrite Hp. done.
  - subst lib. change (mkState (e_libs e) ∅ (e_objs e)) with (st e).
    unfold scount. rewrite replicate_length in Hlen.
    change (parse_member_untyped PC) with (parse_member PC K_Any).
    rewrite scount_items by lia. rewrite Hp. done.
Qed.

Lemma class_header_head h bs i :
  e_class_header h bs -> head_in [x02; x03; x04; x05] (bs ++ i).
Proof.
  intros (b1 & b2 & b3 & b4 & b5 & _ & _ & _ & _ & _ & ->).
  destruct (ch_types h), (ch_library h); hd.
Qed.

Lemma array_tail_complete PC PR k id len its e i e1 i1 vs e2 i2 :
  g_items (replicate (length its) k) e i its e1 i1 ->
  parse_items PC (replicate (length its) k) (st e) i = (st e1, Ok i1 (map vr_of its)) ->
  fills len its ->
  resolve_members PR (map vr_of its) (st e1) i1 = (st e2, Ok i2 vs) ->
  (let! (s, input, ms) := array_loop (parse_member PC k) (S (length i)) len 0 (st e) i in
   let! (s, input, vs) := resolve_members PR ms s input in
   (s, Ok input (id, vs))) = (st e2, @Ok bytes error (N * list value) i2 (id, vs)).
Proof.
  intros Hg Hp Hf Hr. rewrite (array_loop_items PC k its _ len 0 (st e) i (st e1) i1).
  - cbn [sbind]. rewrite resolve_expand, Hr. done.
  - done.
  - apply g_items_length in Hg as [Hg _]. lia.
  - destruct Hf as [[-> ->]|(init & last & -> & Hlt)]; [left; split; [lia|done]|].
    right. exists init, last. split; [done|]. lia.
  - by eapply g_items_size.
Qed.

(** [parse_referenceable] on a record that starts with a string or array byte. *)
Lemma referenceable_not_class PC PR s i :
  head_in [x06; x07; x0f; x10; x11] i ->
  (exists e, PC s i = (s, Err e)) ->
  parse_referenceable_body PC PR s i =
  (let! (s, input, io) :=
     alt_mut (smap (fun p => (p.1, VArray p.2)) (parse_arrays PC PR s i)) (fun s =>
     alt_mut (s, rmap (fun p => (p.1, VString p.2)) (binary_object_string i)) (fun s =>
     alt_mut_end i s)) in
   (set_objects s (<[io.1 := io.2]> (st_objects s)), Ok input io.1)).
Proof. intros Hh [e He]. unfold parse_referenceable_body. by rewrite He. Qed.

Lemma classes_err_head fuel s i :
  head_in [x06; x07; x0f; x10; x11] i -> exists e, parse_classes (S fuel) s i = (s, Err e).
Proof.
  intros Hh. rewrite parse_classes_S. apply parse_classes_body_err.
  - apply no_library_head. hd.
  - hd.
Qed.

Lemma parse_arrays_object PC PR s i :
  head_in [x10] i -> forall s' i' x, parse_array_single_object PC PR s i = (s', Ok i' x) ->
  parse_arrays PC PR s i = (s', Ok i' x).
Proof.
  intros Hh s' i' x H. unfold parse_arrays. rewrite parse_binary_library_none.
  2:{ apply no_library_head. hd. }
  cbn [sbind]. by rewrite H.
Qed.
Lemma parse_arrays_string PC PR s i :
  head_in [x11] i -> forall s' i' x, parse_array_single_string PC PR s i = (s', Ok i' x) ->
  parse_arrays PC PR s i = (s', Ok i' x).
Proof.
  intros Hh s' i' x H. unfold parse_arrays. rewrite parse_binary_library_none.
  2:{ apply no_library_head. hd. }
  cbn [sbind]. unfold parse_array_single_object.
  destruct (array_single_object_err i) as [e1 ->]; [hd|].
  cbn [alt_mut]. unfold parse_array_single_primitive.
  destruct (array_single_primitive_err i) as [e2 ->]; [hd|].
  cbn [alt_mut bind]. by rewrite H.
Qed.
Lemma parse_arrays_prim PC PR s i :
  head_in [x0f] i -> forall s' i' x, parse_array_single_primitive s i = (s', Ok i' x) ->
  parse_arrays PC PR s i = (s', Ok i' x).
Proof.
  intros Hh s' i' x H. unfold parse_arrays. rewrite parse_binary_library_none.
  2:{ apply no_library_head. hd. }
  cbn [sbind]. unfold parse_array_single_object.
  destruct (array_single_object_err i) as [e1 ->]; [hd|].
  cbn [alt_mut]. by rewrite H.
Qed.
Lemma parse_arrays_binary PC PR s i :
  head_in [x07] i -> forall s' i' x, parse_binary_array PC PR s i = (s', Ok i' x) ->
  parse_arrays PC PR s i = (s', Ok i' x).
Proof.
  intros Hh s' i' x H. unfold parse_arrays. rewrite parse_binary_library_none.
  2:{ apply no_library_head. hd. }
  cbn [sbind]. unfold parse_array_single_object.
  destruct (array_single_object_err i) as [e1 ->]; [hd|].
  cbn [alt_mut]. unfold parse_array_single_primitive.
  destruct (array_single_primitive_err i) as [e2 ->]; [hd|].
  cbn [alt_mut bind]. unfold parse_array_single_string.
  destruct (array_single_string_err i) as [e3 ->]; [hd|].
  cbn [alt_mut]. by rewrite H.
Qed.

Lemma parse_array_single_primitive_complete s i id p vs bs :
  e_prim_array id p vs bs -> parse_array_single_primitive s (bs ++ i) = (s, Ok i (id, vs)).
Proof.
  intros (b1 & b2 & Hb & Ht & Hl & ->). unfold parse_array_single_primitive. f_equal.
  assert (array_single_primitive ((b1 ++ n2b (pt_code p) :: b2) ++ i)
    = Ok (b2 ++ i) (mkArrayInfo id (N.of_nat (length vs)), p)) as ->.
  { apply array_single_primitive_exact. exists (b1 ++ [n2b (pt_code p)]). split.
    - exists b1. done.
    - by rewrite <- !app_assoc. }
  cbn [bind fst snd ai_length ai_object_id].
  assert (count (N.of_nat (length vs)) (fun i => member_primitive_untyped i p) (b2 ++ i) = Ok i vs) as ->.
  { eapply exact_count; [apply member_primitive_untyped_exact|intros v [_ Hv]; by apply e_prim_nonempty in Hv|].
    exists b2. split; [|done]. split; [done|].
    clear -Ht Hl. induction Hl as [|v l b bs Hv Hl IH]; [constructor|]. inv Ht.
    constructor; [done|auto]. }
  done.
Qed.

Lemma items_resolved_nonempty its e i vs e' i' :
  g_resolve its e i vs e' i' -> vs <> [] -> its <> [].
Proof. intros H Hv ->. inv H. Qed.

Theorem g_complete :
  (forall e i id o e' i', g_class e i id o e' i' ->
     forall f, 2 * length i + 1 <= f -> parse_classes f (st e) i = (st e', Ok i' (id, o)))
  /\ (forall k e i it e' i', g_member k e i it e' i' ->
     forall f, 2 * length i + 1 <= f ->
       parse_member (parse_classes f) k (st e) i = (st e', Ok i' (vr_of it)))
  /\ (forall ks e i its e' i', g_items ks e i its e' i' ->
     forall f, 2 * length i + 1 <= f ->
       parse_items (parse_classes f) ks (st e) i = (st e', Ok i' (map vr_of its)))
  /\ (forall its e i vs e' i', g_resolve its e i vs e' i' ->
     forall f, 2 * length i + 2 <= f ->
       resolve_members (parse_referenceable f) (map vr_of its) (st e) i = (st e', Ok i' vs))
  /\ (forall e i id v e' i', g_record e i id v e' i' ->
     forall f, 2 * length i + 2 <= f ->
       parse_referenceable f (st e) i = (st (add_obj id v e'), Ok i' id)).
Proof.
  apply g_mut_ind.
  - (* class *)
    intros e i e1 bs i1 h lib its e2 i2 vs e3 i3 Hl Hh Hlib Hits IHits Hres IHres f Hf.
    pose proof (g_lib_length _ _ _ _ Hl) as Hll. pose proof (class_header_pos _ _ Hh) as Hbs.
    rewrite app_length in Hll. pose proof (g_items_length _ _ _ _ _ _ Hits) as [Hil Hkl].
    destruct f as [|f]; [lia|]. rewrite parse_classes_S. unfold parse_classes_body.
    rewrite (parse_binary_library_complete _ _ _ _ Hl). cbn [sbind].
    pose proof (class_header_head h bs i1 Hh) as Hhead.
    destruct (class_with_id_err (bs ++ i1)) as [err ->].
    { hd. }
    rewrite (exact_ok class_records _ (class_rec_of h) bs i1 class_records_exact)
      by (by exists h).
    rewrite cr_class_info_of. cbn [ci_of ci_object_id].
    rewrite (parse_class_body_eq _ _ _ h bs e1 i1 lib its e2 i2); [|done|done| |lia].
    + rewrite IHres by lia. done.
    + apply IHits. lia.
  - (* simple member *)
    intros k e i e1 bs i1 it Hl Hk Hs f Hf.
    assert (0 < f) as Hf0 by lia. destruct f as [|f]; [lia|].
    destruct k as [|p| | |n|n lid| | |p]; cbn [parse_member];
      unfold parse_member_untyped, parse_member_typed;
      rewrite (parse_binary_library_complete _ _ _ _ Hl); cbn [sbind kind_bt kind_ai].
    + by apply untyped_body_simple.
    + destruct Hs as (v & -> & Hp & Hv).
      rewrite (exact_ok _ _ v bs i1 (member_primitive_untyped_exact p)) by done. done.
    + by rewrite (str_item_parse _ _ _ Hs).
    + done.
    + cbn [simple_item] in Hs. unfold class_or_null.
      destruct (null_item_head _ _ Hs) as (c & b & Eb & Hc).
      destruct (parse_classes_body_err (parse_classes f) (parse_referenceable f) (st e1) (bs ++ i1)) as [er Her].
      { apply no_library_head. rewrite Eb. hd. }
      { rewrite Eb. hd. }
      rewrite parse_classes_S, Her. by rewrite (null_item_parse _ _ _ Hs).
    + cbn [simple_item] in Hs. cbn [cti_library_id cti_type_name].
      destruct Hk as [l Hk]. cbn [st st_libs]. rewrite Hk.
      change (mkState (e_libs e1) ∅ (e_objs e1)) with (st e1). unfold class_or_null.
      destruct (null_item_head _ _ Hs) as (c & b & Eb & Hc).
      destruct (parse_classes_body_err (parse_classes f) (parse_referenceable f) (st e1) (bs ++ i1)) as [er Her].
      { apply no_library_head. rewrite Eb. hd. }
      { rewrite Eb. hd. }
      rewrite parse_classes_S, Her. by rewrite (null_item_parse _ _ _ Hs).
    + done.
    + f_equal. destruct Hs as [H|[H|H]].
      * by rewrite (str_item_parse _ _ _ H).
      * destruct (ref_item_head _ _ H) as [b Eb].
        rewrite alt_skip by (rewrite Eb; apply parse_string_member_err; hd).
        by rewrite (ref_item_parse _ _ _ H).
      * destruct (null_item_head _ _ H) as (c & b & Eb & Hc).
        rewrite alt_skip by (rewrite Eb; apply parse_string_member_err; hd).
        rewrite alt_skip by (rewrite Eb; apply parse_ref_member_err; hd).
        by rewrite (null_item_parse _ _ _ H).
    + by rewrite (ref_item_parse _ _ _ Hs).
  - (* inline class *)
    intros k e i e1 i1 id o e2 i2 Hl Hk Hc IHc f Hf.
    pose proof (g_lib_length _ _ _ _ Hl) as Hll.
    pose proof (g_class_head _ _ _ _ _ _ Hc) as Hhead.
    destruct k as [|p| | |n|n lid| | |p]; cbn [parse_member]; try done;
      unfold parse_member_untyped, parse_member_typed;
      rewrite (parse_binary_library_complete _ _ _ _ Hl); cbn [sbind kind_bt kind_ai].
    + rewrite untyped_body_class by done. rewrite IHc by lia. done.
    + unfold class_or_null. rewrite IHc by lia. destruct Hk as [Hk1 Hk2].
      unfold str_eqb. by rewrite !bool_decide_eq_true_2 by done.
    + destruct Hk as (l & Hk & Hk1 & Hk2). cbn [cti_library_id cti_type_name st st_libs]. rewrite Hk.
      change (mkState (e_libs e1) ∅ (e_objs e1)) with (st e1).
      unfold class_or_null. rewrite IHc by lia.
      unfold str_eqb. by rewrite !bool_decide_eq_true_2 by done.
  - (* nested *)
    intros k e i e1 i1 it e2 i2 Hk Hl Hm IHm f Hf.
    pose proof (g_lib_length _ _ _ _ Hl) as Hll.
    destruct Hk as [-> | ->]; cbn [parse_member]; unfold parse_member_typed;
      rewrite (parse_binary_library_complete _ _ _ _ Hl); cbn [sbind kind_bt kind_ai];
      rewrite <- (IHm f) by lia; done.
  - (* items nil *)
    done.
  - (* items cons *)
    intros k ks e i it e1 i1 its e2 i2 Hm IHm Hi IHi f Hf.
    apply g_member_length in Hm. cbn [parse_items]. rewrite IHm by lia. cbn [sbind].
    rewrite IHi by lia. done.
  - done.
  - intros v its e i vs e' i' H IH f Hf. cbn [map vr_of resolve_members]. rewrite IH by lia. done.
  - intros n its e i vs e' i' H IH f Hf. cbn [map vr_of resolve_members]. rewrite IH by lia. done.
  - intros id v its e i vs e' i' Hid H IH f Hf. cbn [map vr_of resolve_members st st_objects].
    rewrite Hid. change (set_objects _ _) with (st (del_obj id e)). rewrite IH by lia. done.
  - intros id v its e i e1 i1 vs e' i' Hid Hr IHr H IH f Hf.
    cbn [map vr_of resolve_members]. cbn [st st_objects]. rewrite Hid.
    change (mkState (e_libs e) ∅ (e_objs e)) with (st e).
    unfold verify_referenceable. rewrite IHr by lia. rewrite N.eqb_refl. cbn [sbind st st_objects add_obj e_objs].
    rewrite lookup_insert. unfold set_objects. cbn [st_objects st_libs st_classes add_obj e_libs].
    rewrite delete_insert_delete.
    change (mkState (e_libs e1) ∅ (delete id (e_objs e1))) with (st (del_obj id e1)).
    apply g_record_length in Hr. rewrite IH by lia. done.
  - (* record: object *)
    intros e i id o e' i' Hc IHc f Hf. destruct f as [|f]; [lia|].
    rewrite parse_referenceable_S. unfold parse_referenceable_body. rewrite IHc by lia. done.
  - (* string *)
    intros e i id s bs Hs f Hf. destruct f as [|[|f]]; [lia..|].
    assert (exists b, bs = x06 :: b) as [b Eb] by (destruct Hs as (? & ? & _ & _ & ->); eauto).
    rewrite parse_referenceable_S. 
    rewrite referenceable_not_class;
      [|rewrite Eb; hd|apply classes_err_head; rewrite Eb; hd].
    destruct (parse_arrays_err (parse_classes (S f)) (parse_referenceable (S f)) (st e) (bs ++ i)) as [er Her].
    { apply no_library_head. rewrite Eb. hd. }
    { rewrite Eb. hd. }
    rewrite Her. unfold smap. cbn [fst snd rmap bind alt_mut].
    rewrite (exact_ok binary_object_string _ (id, s) _ _ binary_object_string_exact Hs). done.
  - (* primitive array *)
    intros e i id p vs bs Hs f Hf. destruct f as [|[|f]]; [lia..|].
    assert (exists b, bs = x0f :: b) as [b Eb]
      by (destruct Hs as (? & ? & (? & ? & _ & _ & ->) & _ & _ & ->); eauto).
    rewrite parse_referenceable_S.
    rewrite referenceable_not_class;
      [|rewrite Eb; hd|apply classes_err_head; rewrite Eb; hd].
    erewrite parse_arrays_prim; [|rewrite Eb; hd|exact (parse_array_single_primitive_complete _ _ _ _ _ _ Hs)].
    done.
  - (* object array *)
    intros e i id len bs its e1 i1 vs e2 i2 Hs Hits IHits Hfl Hres IHres f Hf.
    destruct f as [|[|f]]; [lia..|].
    assert (exists b, bs = x10 :: b) as [b Eb] by (destruct Hs as (? & ? & _ & _ & ->); eauto).
    rewrite parse_referenceable_S.
    rewrite referenceable_not_class;
      [|rewrite Eb; hd|apply classes_err_head; rewrite Eb; hd].
    apply array_header_length in Hs as Hbl. rewrite app_length in Hf.
    pose proof (g_items_length _ _ _ _ _ _ Hits) as [Hil _].
    erewrite parse_arrays_object; [|rewrite Eb; hd|].
    2:{ unfold parse_array_single_object.
        rewrite (exact_ok array_single_object _ (mkArrayInfo id len) bs i array_single_object_exact) by done.
        cbn [ai_length ai_object_id].
        apply (array_tail_complete (parse_classes (S f)) (parse_referenceable (S f)) K_Any id len its e i e1 i1 vs e2 i2); [done| |done|].
        - apply IHits. lia.
        - apply IHres. lia. }
    done.
  - (* string array *)
    intros e i id len bs its e1 i1 vs e2 i2 Hs Hits IHits Hfl Hres IHres f Hf.
    destruct f as [|[|f]]; [lia..|].
    assert (exists b, bs = x11 :: b) as [b Eb] by (destruct Hs as (? & ? & _ & _ & ->); eauto).
    rewrite parse_referenceable_S.
    rewrite referenceable_not_class;
      [|rewrite Eb; hd|apply classes_err_head; rewrite Eb; hd].
    apply array_header_length in Hs as Hbl. rewrite app_length in Hf.
    pose proof (g_items_length _ _ _ _ _ _ Hits) as [Hil _].
    erewrite parse_arrays_string; [|rewrite Eb; hd|].
    2:{ unfold parse_array_single_string.
        rewrite (exact_ok array_single_string _ (mkArrayInfo id len) bs i array_single_string_exact) by done.
        cbn [ai_length ai_object_id].
        apply (array_tail_complete (parse_classes (S f)) (parse_referenceable (S f)) K_StringArray id len its e i e1 i1 vs e2 i2); [done| |done|].
        - apply IHits. lia.
        - apply IHres. lia. }
    done.
  - (* binary array *)
    intros e i id bat lengths bounds k bs its e1 i1 vs e2 i2 out Hs Hno Hits IHits Hres IHres Hsh f Hf.
    destruct f as [|[|f]]; [lia..|].
    assert (exists b, bs = x07 :: b) as [b Eb]
      by (destruct Hs as (? & ? & ? & ? & ? & _ & _ & _ & _ & _ & ->); eauto).
    rewrite parse_referenceable_S.
    rewrite referenceable_not_class;
      [|rewrite Eb; hd|apply classes_err_head; rewrite Eb; hd].
    apply binary_array_header_nonempty in Hs as Hbl. rewrite app_length in Hf.
    pose proof (g_items_length _ _ _ _ _ _ Hits) as [Hil Hkl]. rewrite replicate_length in Hkl.
    erewrite parse_arrays_binary; [|rewrite Eb; hd|].
    2:{ unfold parse_binary_array.
        rewrite (exact_ok binary_array_parse _
          (mkBinaryArray id bat lengths bounds (kind_bt k) (kind_ai k)) bs i binary_array_exact)
          by (by exists k).
        cbn [ba_lengths ba_object_id ba_type_enum ba_additional_type_info].
        rewrite checked_product_complete by (intros j Hj; rewrite N.mul_1_l; by apply Hno).
        rewrite N.mul_1_l. rewrite <- parse_member_typed_eq.
        2:{ destruct Hs as (? & ? & ? & ? & ? & _ & _ & _ & Hk & _). by apply e_kind_code_iff in Hk as [Hk _]. }
        unfold scount. rewrite <- (N2Nat.id (product lengths)).
        rewrite scount_items by lia. rewrite IHits by lia. cbn [sbind].
        rewrite IHres by lia. cbn [sbind].
        rewrite (shaped_complete (drop 1 lengths) vs out i2).
        - cbn [bind]. reflexivity.
        - intros Hne. pose proof (items_resolved_nonempty _ _ _ _ _ _ Hres Hne) as Hine.
          assert (product lengths <> 0%N) as Hp.
          { intros E. rewrite E in Hkl. by destruct its. }
          apply fold_mul_nonzero in Hp. by apply Forall_drop.
        - replace (drop 1 lengths) with (tail lengths) by (by destruct lengths). done. }
    done.
Qed.

(** ** Messages *)

Lemma referenceables_complete e i e' i' :
  g_objects e i e' i' ->
  forall lf f, length i < lf -> 2 * length i + 2 <= f ->
    (exists err, parse_referenceable f (st e') i' = (st e', Err err)) ->
    parse_referenceables lf f (st e) i = (st e', Ok i' tt).
Proof.
  induction 1 as [e i|e i id v e1 i1 e2 i2 Hr Hg IH]; intros lf f Hlf Hf Herr.
  - destruct lf as [|lf]; [lia|]. cbn [parse_referenceables]. by destruct Herr as [err ->].
  - destruct lf as [|lf]; [lia|]. cbn [parse_referenceables].
    destruct g_complete as (_ & _ & _ & _ & Hc). rewrite (Hc _ _ _ _ _ _ Hr) by lia.
    apply g_record_length in Hr. apply IH; [lia|lia|done].
Qed.

(** No record starts here. *)
Lemma referenceable_err_head f s i :
  no_library i -> ~ head_in [x01; x02; x03; x04; x05; x06; x07; x0f; x10; x11] i ->
  exists e, parse_referenceable (S (S f)) s i = (s, Err e).
Proof.
  intros Hl Hh. rewrite parse_referenceable_S. unfold parse_referenceable_body.
  destruct (parse_classes_body_err (parse_classes f) (parse_referenceable f) s i) as [e1 He1]; [done|nohead|].
  rewrite parse_classes_S. rewrite He1. unfold smap at 1. cbn [fst snd rmap bind alt_mut].
  destruct (parse_arrays_err (parse_classes (S f)) (parse_referenceable (S f)) s i) as [e2 He2]; [done|nohead|].
  rewrite He2. unfold smap. cbn [fst snd rmap bind alt_mut].
  destruct (binary_object_string_err i) as [e3 ->]; [nohead|]. cbn [bind alt_mut].
  unfold alt_mut_end. cbn [sbind]. eauto.
Qed.

Lemma g_objects_length e i e' i' : g_objects e i e' i' -> length i' <= length i.
Proof.
  induction 1 as [|e i id v e1 i1 e2 i2 Hr Hg IH]; [done|]. apply g_record_length in Hr. lia.
Qed.

Lemma intersects_testbit z k : (0 <= k)%Z -> intersects z (2 ^ k) = Z.testbit z k.
Proof. intros. by apply intersects_bit. Qed.

Lemma parse_args_complete flags ca inl args i :
  args_rule flags ca inl args -> parse_args flags ca inl i = Ok i args.
Proof.
  unfold args_rule, parse_args. intros H.
  change MF_ARGS_IS_ARRAY with (2 ^ bit_ArgsIsArray)%Z.
  change MF_ARGS_IN_ARRAY with (2 ^ bit_ArgsInArray)%Z.
  rewrite !intersects_testbit by done.
  destruct (Z.testbit flags bit_ArgsIsArray).
  { destruct H as (a & -> & ->). done. }
  destruct (Z.testbit flags bit_ArgsInArray).
  { destruct H as (a & r & -> & ->). done. }
  by subst.
Qed.

Lemma call_array_complete root e i ca e' i' f :
  g_call_array root e i ca e' i' -> 2 * length i + 2 <= f ->
  sopt i (parse_call_array f root (st e) i) = (st e', Ok i' ca).
Proof.
  intros H Hf. unfold sopt, parse_call_array. inv H.
  - rewrite parse_binary_library_none.
    2:{ apply no_library_head. destruct i' as [|c j]; [intros []|]. cbn [head_in].
        rewrite elem_of_list_singleton. intros ->. exact H0. }
    cbn [sbind]. unfold parse_array_single_object.
    destruct (array_single_object_err i') as [er ->]; [|done].
    destruct i' as [|c j]; [intros []|]. cbn [head_in]. rewrite elem_of_list_singleton. intros ->. exact H0.
  - apply g_lib_length in H0 as Hl. rewrite app_length in Hl.
    apply array_header_length in H1 as Hbl.
    pose proof (g_items_length _ _ _ _ _ _ H3) as [Hil _].
    rewrite (parse_binary_library_complete _ _ _ _ H0). cbn [sbind].
    unfold parse_array_single_object.
    rewrite (exact_ok array_single_object _ (mkArrayInfo id len) bs i1 array_single_object_exact) by done.
    cbn [ai_length ai_object_id].
    destruct g_complete as (_ & _ & Hc3 & Hc4 & _).
    change (parse_member_untyped (parse_classes f)) with (parse_member (parse_classes f) K_Any).
    rewrite (array_tail_complete (parse_classes f) (parse_referenceable f) K_Any id len its e1 i1 e2 i2 vs e' i'); [|done| |done|].
    + cbn [sbind fst snd]. by rewrite bool_decide_eq_true_2 by done.
    + apply Hc3; [done|]. lia.
    + apply Hc4; [done|]. lia.
Qed.

Lemma method_complete root e i m e' i' f :
  g_method root e i m e' i' -> 2 * length i + 2 <= f ->
  parse_method_call_or_return f root (st e) i = (st e', Ok i' m) /\ head_in [x15; x16] i.
Proof.
  intros H Hf. unfold parse_method_call_or_return. inv H.
  - assert (exists b, bs = x15 :: b) as [b Eb]
      by (destruct H0 as (? & ? & ? & ? & ? & _ & _ & _ & _ & _ & ->); eauto).
    split; [|rewrite Eb; hd].
    unfold parse_method_call. rewrite parse_binary_library_none
      by (apply no_library_head; rewrite Eb; hd).
    cbn [sbind].
    rewrite (exact_ok binary_method_call_parse _ (mkBinaryMethodCall flags name type ctx inline)
               bs i0 method_call_exact) by done.
    rewrite app_length in Hf.
    rewrite (call_array_complete root e i0 ca e' i' f) by (done || lia). cbn [sbind].
    cbn [bmc_message_enum bmc_args bmc_method_name bmc_type_name bmc_call_context].
    rewrite (parse_args_complete _ _ _ _ _ H2). done.
  - assert (exists b, bs = x16 :: b) as [b Eb]
      by (destruct H0 as (? & ? & ? & ? & _ & _ & _ & _ & ->); eauto).
    split; [|rewrite Eb; hd].
    unfold parse_method_call. rewrite parse_binary_library_none
      by (apply no_library_head; rewrite Eb; hd).
    cbn [sbind].
    destruct (method_call_err (bs ++ i0)) as [er ->]; [rewrite Eb; hd|].
    unfold smap at 1. cbn [fst snd rmap bind alt_mut].
    unfold parse_method_return. rewrite parse_binary_library_none
      by (apply no_library_head; rewrite Eb; hd).
    cbn [sbind].
    rewrite (exact_ok binary_method_return_parse _ (mkBinaryMethodReturn flags ret ctx inline)
               bs i0 method_return_exact) by done.
    rewrite app_length in Hf.
    rewrite (call_array_complete root e i0 ca e' i' f) by (done || lia). cbn [sbind].
    cbn [bmr_message_enum bmr_args bmr_return_value bmr_call_context].
    rewrite (parse_args_complete _ _ _ _ _ H2). done.
Qed.

Lemma header_complete root hb i :
  e_header root hb ->
  exists h, serialization_header_parse (hb ++ i) = Ok i h /\ sh_root_id h = root.
Proof.
  intros (hid & Hr & Hh & ->). exists (mkHeader root hid 1 0). split; [|done].
  apply header_exact. eexists. split; [|reflexivity]. exists root, hid. done.
Qed.

Lemma err_0b f e : exists err, parse_referenceable (S (S f)) (st e) [x0b] = (st e, Err err).
Proof. apply referenceable_err_head; [done|hd]. Qed.

Theorem message_complete W m : g_message W m -> deserialize W = POk m.
Proof.
  intros H. unfold deserialize.
  assert (forall f', 2 * length W <= f' ->
    exists s, parse_remoting_message (S (S f')) init_state W = (s, Ok [] m)) as Hall.
  2:{ destruct (Hall (2 * length W)) as [s Hs]; [lia|].
      replace (2 * length W + 2) with (S (S (2 * length W))) by lia. by rewrite Hs. }
  intros f' Hf'. change init_state with (st empty_env).
  unfold parse_remoting_message. inv H.
  - destruct (header_complete root hb i H0) as (h & -> & <-).
    assert (length i <= length (hb ++ i)) as Hli by (rewrite app_length; lia).
    rewrite (referenceables_complete _ _ _ _ H1) by (lia || apply err_0b).
    cbn [sbind].
    assert (exists err, parse_method_call_or_return (S (S f')) (sh_root_id h) (st e) [x0b] = (st e, Err err)) as [err ->].
    { unfold parse_method_call_or_return, parse_method_call, parse_method_return.
      rewrite parse_binary_library_none by done. cbn [sbind].
      destruct (method_call_err [x0b]) as [e1 ->]; [hd|].
      unfold smap at 1. cbn [fst snd rmap bind alt_mut].
      rewrite parse_binary_library_none by done. cbn [sbind].
      destruct (method_return_err [x0b]) as [e2 ->]; [hd|].
      unfold smap at 1. cbn [fst snd rmap bind alt_mut]. unfold alt_mut_end. eauto. }
    unfold sopt. cbn [fst snd opt sbind].
    rewrite (referenceables_complete e [x0b] e [x0b]); 
      [|apply G_objs_nil|simpl; lia| |apply err_0b].
    2:{ apply g_objects_length in H1. cbn [length] in *. lia. }
    cbn [sbind]. unfold message_end. rewrite record_type_parse_cons. cbn [bind bool_decide].
    rewrite bool_decide_eq_true_2 by done. cbn [bind].
    unfold root_value in H2. destruct (sh_root_id h) as [r|].
    + cbn [st st_objects]. rewrite H2. eauto.
    + subst v. eauto.
  - destruct (header_complete root hb i H0) as (h & -> & <-).
    assert (length i <= length (hb ++ i)) as Hli by (rewrite app_length; lia).
    pose proof (g_objects_length _ _ _ _ H1) as Hl1.
    destruct (method_complete _ _ _ _ _ _ (S (S f')) H2) as [Hm Hhd]; [lia|].
    rewrite (referenceables_complete _ _ _ _ H1).
    2:{ lia. }
    2:{ lia. }
    2:{ apply referenceable_err_head.
        - apply no_library_head. hd.
        - hd. }
    cbn [sbind]. rewrite Hm. unfold sopt. cbn [fst snd opt sbind].
    assert (length i2 <= length i1) as Hl2.
    { assert (forall root e i ca e' i', g_call_array root e i ca e' i' -> length i' <= length i) as Hca.
      { intros ro e j ca e' j' Hc. destruct Hc as [|? ? ? ? ? ? ? ? ? ? ? A1 A2 ? A3 A4 A5]; [done|].
        apply g_lib_length in A1. rewrite app_length in A1. apply g_items_length in A3 as [A3 _].
        apply g_resolve_length in A5. lia. }
      destruct H2 as [? ? ? ? ? ? ? ? ? ? ? ? A|? ? ? ? ? ? ? ? ? ? ? A];
        apply Hca in A; rewrite app_length; lia. }
    rewrite (referenceables_complete _ _ _ _ H3); [|lia|lia|apply err_0b].
    cbn [sbind]. unfold message_end. rewrite record_type_parse_cons.
    rewrite bool_decide_eq_true_2 by done. cbn [bind]. eauto.
Qed.

End with_decimal.
