(** * Reach: what an unreadable position inside a record does to the message. *)
From Verif Require Import Base Utf8 Value DataTypes Records Parser Wire BaseLemmas DataTypesLemmas
  RecordsLemmas MethodLemmas SafetyLemmas Safety Grammar Heads Complete Sound Fuel Message Run Spec
  LemmasA LemmasB LemmasC Positions.
From Coq Require Import Lia.

(** The ways in which reading can stop. *)
Inductive stop := S_Err (e : error) | S_Fail (e : error) | S_Panic (p : panic_site).
Definition stop_res {A} (x : stop) : res A :=
  match x with S_Err e => Err e | S_Fail e => Fail e | S_Panic p => Panic p end.

(** From some amount of fuel on. *)
Definition ev {A} (P : nat -> A) (r : A) : Prop := exists F, forall f, F <= f -> P f = r.

Lemma ev_now {A} (r : A) : ev (fun _ => r) r.
Proof. exists 0. done. Qed.
Lemma ev_S {A} (P : nat -> A) r : ev (fun f => P (S f)) r -> ev P r.
Proof.
  intros [F H]. exists (S F). intros f Hf. destruct f as [|f]; [lia|]. apply H. lia.
Qed.

Section with_decimal.
Context {DL : DecimalLib}.

Definition site_stops (x : site) (s : state) (y : stop) : Prop :=
  match x with
  | Site_member k e i => ev (fun f => parse_member (parse_classes f) k (st e) i) (s, stop_res y)
  | Site_next id e i =>
      ev (fun f => verify_referenceable (parse_referenceable f) id (st e) i) (s, stop_res y)
  | Site_class e i => ev (fun f => parse_classes f (st e) i) (s, stop_res y)
  end.

Lemma ev_items ks e i its e' i' :
  g_items ks e i its e' i' ->
  ev (fun f => parse_items (parse_classes f) ks (st e) i) (st e', Ok i' (map vr_of its)).
Proof.
  intros H. exists (2 * length i + 1). intros f Hf. destruct g_complete as (_ & _ & Hc & _).
  by apply Hc.
Qed.
Lemma ev_resolve its e i vs e' i' :
  g_resolve its e i vs e' i' ->
  ev (fun f => resolve_members (parse_referenceable f) (map vr_of its) (st e) i) (st e', Ok i' vs).
Proof.
  intros H. exists (2 * length i + 2). intros f Hf. destruct g_complete as (_ & _ & _ & Hc & _).
  by apply Hc.
Qed.

Lemma parse_items_stop PC ks1 k ks2 s i s1 i1 ms s2 y :
  parse_items PC ks1 s i = (s1, Ok i1 ms) ->
  parse_member PC k s1 i1 = (s2, stop_res y) ->
  parse_items PC (ks1 ++ k :: ks2) s i = (s2, stop_res y).
Proof.
  revert s i ms. induction ks1 as [|k1 ks1 IH]; intros s i ms H1 H2; cbn [app parse_items] in *.
  - injection H1 as <- <- <-. rewrite H2. by destruct y.
  - destruct (parse_member PC k1 s i) as [s3 [i3 m|e|e|p|]]; cbn [sbind] in *; try done.
    destruct (parse_items PC ks1 s3 i3) as [s4 [i4 ms'|e|e|p|]] eqn:E; cbn [sbind] in *; try done.
    injection H1 as -> -> <-. rewrite (IH _ _ _ E H2). by destruct y.
Qed.

(** [count] stops at the same place, even if it is to read more elements than bytes are left. *)
Lemma scount_stop PC k n1 n s i s1 i1 ms s2 y fuel :
  parse_items PC (replicate n1 k) s i = (s1, Ok i1 ms) -> n1 < fuel -> (N.of_nat n1 < n)%N ->
  parse_member PC k s1 i1 = (s2, stop_res y) ->
  scount_loop fuel n (parse_member PC k) s i = (s2, stop_res y).
Proof.
  revert s i ms fuel n. induction n1 as [|n1 IH]; intros s i ms fuel n H1 Hf Hn H2;
    cbn [replicate parse_items] in *; (destruct fuel as [|fuel]; [lia|]); cbn [scount_loop];
    (destruct (N.eqb_spec n 0); [lia|]).
  - injection H1 as <- <- <-. rewrite H2. by destruct y.
  - destruct (parse_member PC k s i) as [s3 [i3 m|e|e|p|]]; cbn [sbind] in *; try done.
    destruct (parse_items PC (replicate n1 k) s3 i3) as [s4 [i4 ms'|e|e|p|]] eqn:E; cbn [sbind] in *; try done.
    injection H1 as -> -> <-. rewrite (IH _ _ _ fuel (N.pred n) E) by (done || lia). by destruct y.
Qed.

Lemma resolve_stop PR its1 id its2 s i s1 i1 vs s2 y :
  resolve_members PR (map vr_of its1) s i = (s1, Ok i1 vs) -> st_objects s1 !! id = None ->
  verify_referenceable PR id s1 i1 = (s2, stop_res y) ->
  resolve_members PR (map vr_of (its1 ++ It_Ref id :: its2)) s i = (s2, stop_res y).
Proof.
  intros H1 Hn H2. rewrite map_app. cbn [map vr_of]. revert s i vs H1.
  induction (map vr_of its1) as [|m ms IH]; intros s i vs H1; cbn [app resolve_members] in *.
  - injection H1 as <- <- <-. rewrite Hn, H2. by destruct y.
  - destruct m as [v|n|id'].
    + destruct (resolve_members PR ms s i) as [s3 [i3 vs'|e|e|p|]] eqn:E; cbn [sbind] in *; try done.
      injection H1 as -> -> <-. rewrite (IH _ _ _ E). by destruct y.
    + destruct (resolve_members PR ms s i) as [s3 [i3 vs'|e|e|p|]] eqn:E; cbn [sbind] in *; try done.
      injection H1 as -> -> <-. rewrite (IH _ _ _ E). by destruct y.
    + destruct (st_objects s !! id') as [v|].
      * destruct (resolve_members PR ms _ i) as [s3 [i3 vs'|e|e|p|]] eqn:E; cbn [sbind] in *; try done.
        injection H1 as -> -> <-. rewrite (IH _ _ _ E). by destruct y.
      * destruct (verify_referenceable PR id' s i) as [s4 [i4 id2|e|e|p|]]; cbn [sbind] in *; try done.
        destruct (st_objects s4 !! id2); [|done].
        destruct (resolve_members PR ms _ i4) as [s3 [i3 vs'|e|e|p|]] eqn:E; cbn [sbind] in *; try done.
        injection H1 as -> -> <-. rewrite (IH _ _ _ E). by destruct y.
Qed.

(** The class body, as a function of the result of the members. *)
Lemma class_body_stop PC PR err h bs e i lib ks1 k ks2 s1 i1 ms s2 y :
  e_class_header h bs -> class_library e h lib -> member_kinds h = ks1 ++ k :: ks2 ->
  parse_items PC ks1 (st e) i = (s1, Ok i1 ms) -> length ks1 <= length i ->
  parse_member PC k s1 i1 = (s2, stop_res y) ->
  parse_class_body PC PR err (ch_object_id h) (class_rec_of h) (st e) i = (s2, stop_res y).
Proof.
  intros Hh Hlib Hk Hp Hlen Hm. unfold parse_class_body. cbn [st st_classes]. rewrite lookup_empty.
  rewrite bool_decide_eq_false_2 by (intros [? [=]]).
  rewrite cr_class_info_of. cbn [ci_of ci_member_names ci_name].
  unfold class_library in Hlib. unfold member_kinds in *. unfold class_rec_of.
  assert (forall ks, ch_types h = Some ks -> forall s i,
    parse_members_with_type_info PC (mti_of ks) s i = parse_items PC ks s i) as Hty.
  { intros ks Hks s j. unfold parse_members_with_type_info, mti_of. cbn [mti_binary_type_enums mti_additional_infos].
    apply parse_members_typed_items. by eapply class_header_kinds. }
  assert (ch_types h = None -> forall s, s = st e ->
    scount (N.of_nat (length (ch_member_names h))) (parse_member_untyped PC) s i = (s2, stop_res y)) as Hun.
  { intros Ht s ->. rewrite Ht in Hk. assert (k = K_Any /\ ks1 = replicate (length ks1) K_Any
      /\ length ks1 < length (ch_member_names h)) as (-> & Hr & Hlt).
    { assert (Forall (fun x => x = K_Any) (ks1 ++ k :: ks2)) as Hf.
      { rewrite <- Hk. by apply Forall_replicate. }
      apply Forall_app in Hf as [Hf1 Hf2]. inv Hf2. split; [done|]. split.
      - symmetry. apply replicate_as_elem_of. split; [done|]. intros x Hx. by eapply Forall_forall in Hf1.
      - apply (f_equal length) in Hk. rewrite replicate_length, app_length in Hk. simpl in Hk. lia. }
    unfold scount. change (parse_member_untyped PC) with (parse_member PC K_Any).
    rewrite Hr in Hp. eapply scount_stop; [exact Hp|lia|lia|exact Hm]. }
  destruct (ch_types h) as [ks|] eqn:Ets, (ch_library h) as [lid|].
  - destruct Hlib as (l & Hl & ->). cbn [st st_libs]. rewrite Hl.
    change (mkState (e_libs e) ∅ (e_objs e)) with (st e).
    rewrite Hty by done. rewrite Hk. rewrite (parse_items_stop _ _ _ _ _ _ _ _ _ _ _ Hp Hm). by destruct y.
  - change (mkState (e_libs e) ∅ (e_objs e)) with (st e).
    rewrite Hty by done. rewrite Hk. rewrite (parse_items_stop _ _ _ _ _ _ _ _ _ _ _ Hp Hm). by destruct y.
  - destruct Hlib as (l & Hl & ->). cbn [st st_libs]. rewrite Hl.
    rewrite Hun by done. by destruct y.
  - rewrite Hun by done. by destruct y.
Qed.

(** Classes up to the members. *)
Lemma classes_members PC PR e i e1 bs i1 h :
  g_lib e i e1 (bs ++ i1) -> e_class_header h bs ->
  parse_classes_body PC PR (st e) i
  = parse_class_body PC PR (bs ++ i1) (ch_object_id h) (class_rec_of h) (st e1) i1.
Proof.
  intros Hl Hh. unfold parse_classes_body.
  rewrite (parse_binary_library_complete _ _ _ _ Hl). cbn [sbind].
  pose proof (class_header_head h bs i1 Hh) as Hhead.
  destruct (class_with_id_err (bs ++ i1)) as [err ->]; [hd|].
  rewrite (exact_ok class_records _ (class_rec_of h) bs i1 class_records_exact)
    by (by exists h).
  by rewrite cr_class_info_of.
Qed.

Lemma class_start_head i : class_start i -> head_in [x01; x02; x03; x04; x05; x0c] i.
Proof. by destruct i. Qed.

Lemma untyped_body_class' PC s i :
  class_start i -> member_untyped_body PC s i = smap (fun p => VR_Value (VObject p.2)) (PC s i).
Proof.
  intros Hh%class_start_head. unfold member_untyped_body.
  rewrite alt_skip.
  2:{ apply member_primitive_typed_err. hd. }
  rewrite alt_skip.
  2:{ apply parse_ref_member_err. hd. }
  rewrite alt_skip.
  2:{ apply parse_string_member_err. hd. }
  destruct (parse_null_object_err i) as [e ->]; [|done].
  hd.
Qed.

Lemma smap_stop {A B} (f : A -> B) s y : smap f (s, stop_res y) = (s, stop_res y).
Proof. by destruct y. Qed.

(** The array loop stops at the same place. *)
Lemma array_loop_stop PC k its len cur s i s1 i1 s2 y fuel :
  parse_items PC (replicate (length its) k) s i = (s1, Ok i1 (map vr_of its)) -> length its < fuel ->
  (cur + items_size its < len)%N ->
  parse_member PC k s1 i1 = (s2, stop_res y) ->
  array_loop (parse_member PC k) fuel len cur s i = (s2, stop_res y).
Proof.
  revert s i cur fuel. induction its as [|it its IH]; intros s i cur fuel H1 Hf Hn H2;
    cbn [length replicate parse_items map items_size] in *; (destruct fuel as [|fuel]; [lia|]); cbn [array_loop];
    (destruct (N.leb_spec len cur); [lia|]).
  - injection H1 as <- <-. rewrite H2. by destruct y.
  - destruct (parse_member PC k s i) as [s3 [i3 m|e|e|p|]]; cbn [sbind] in *; try done.
    destruct (parse_items PC (replicate (length its) k) s3 i3) as [s4 [i4 ms'|e|e|p|]] eqn:E; cbn [sbind] in *; try done.
    injection H1 as -> -> -> ->. rewrite (IH _ _ (cur + member_size (vr_of it))%N fuel E); [by destruct y|lia| |done].
    rewrite member_size_vr. lia.
Qed.

Lemma ref_finish_stop {A} i (g : A -> N * value) s y :
  ref_finish i g (s, stop_res y)
  = (s, stop_res match y with S_Err _ => S_Err (mkError i E_Other) | y => y end).
Proof. by destruct y. Qed.

(** How a stop at a position inside shows outside.  Under a member declared with a class,
    failures become recoverable errors; a library in front of a record turns recoverable errors
    into failures. *)
Definition quiet_at (e : env) (s : state) : Prop := dom (st_libs s) ⊆ dom (e_libs e).
Definition outcome_of {A} (P : nat -> sres A) (b : bool) (e : env) (s : state) (y : stop) : Prop :=
  exists s' y', ev P (s', stop_res y')
  /\ match y with
     | S_Panic p => y' = S_Panic p
     | S_Fail er => if b then (forall p, y' <> S_Panic p) else y' = S_Fail er
     | S_Err _ => forall p, y' <> S_Panic p
     end
  /\ (quiet_at e s -> s' = s /\
      match y' with
      | S_Fail _ => match y with S_Fail _ => b = false | _ => False end
      | _ => True
      end).

Lemma outcome_map {A B} (P : nat -> sres A) (Q : nat -> sres B) b e e' s y :
  outcome_of P b e s y ->
  (forall s' y', ev P (s', stop_res y') -> ev Q (s', stop_res y')) ->
  dom (e_libs e') ⊆ dom (e_libs e) ->
  outcome_of Q b e' s y.
Proof.
  intros (s' & y' & H1 & H2 & H3) HQ He. exists s', y'. split; [by apply HQ|]. split; [done|].
  intros Hq. apply H3. unfold quiet_at in *. set_solver.
Qed.

Lemma ev_map2 {A B C} (P : nat -> A) (Q : nat -> B) (R : nat -> C) p q r :
  ev P p -> ev Q q -> (forall f, P f = p -> Q f = q -> R f = r) -> ev R r.
Proof.
  intros [F1 H1] [F2 H2] H. exists (F1 + F2). intros f Hf. apply H; [apply H1|apply H2]; lia.
Qed.
Lemma ev_map1 {A C} (P : nat -> A) (R : nat -> C) p r :
  ev P p -> (forall f, P f = p -> R f = r) -> ev R r.
Proof. intros [F1 H1] H. exists F1. intros f Hf. apply H, H1. lia. Qed.

(** Libraries are never forgotten. *)
Lemma libs_lib e i e1 i1 : g_lib e i e1 i1 -> dom (e_libs e) ⊆ dom (e_libs e1).
Proof.
  intros H. apply parse_binary_library_complete in H. pose proof (mono_lib (st e) i) as Hm.
  rewrite H in Hm. apply Hm.
Qed.
Lemma mono_items PC ks s i :
  (forall s i, mono s (PC s i).1) -> mono s (parse_items PC ks s i).1.
Proof.
  intros HPC. revert s i. induction ks as [|k ks IH]; intros s i; [apply mono_refl|].
  cbn [parse_items]. apply mono_bind.
  - destruct k; cbn [parse_member]; try (by apply mono_typed). by apply mono_untyped.
  - intros. apply mono_bind; [apply IH|]. intros. apply mono_refl.
Qed.
Lemma libs_items ks e i its e1 i1 : g_items ks e i its e1 i1 -> dom (e_libs e) ⊆ dom (e_libs e1).
Proof.
  intros H. apply ev_items in H as [F H]. specialize (H F (le_n F)).
  pose proof (mono_items (parse_classes F) ks (st e) i (mono_classes F)) as Hm.
  rewrite H in Hm. apply Hm.
Qed.
Lemma libs_resolve its e i vs e1 i1 : g_resolve its e i vs e1 i1 -> dom (e_libs e) ⊆ dom (e_libs e1).
Proof.
  intros H. apply ev_resolve in H as [F H]. specialize (H F (le_n F)).
  pose proof (mono_resolve (parse_referenceable F) (mono_referenceable F) (map vr_of its) (st e) i) as Hm.
  rewrite H in Hm. apply Hm.
Qed.

Lemma class_stop e i e1 bs i1 h lib ks1 k ks2 its e2 i2 s' y' :
  g_lib e i e1 (bs ++ i1) -> e_class_header h bs -> class_library e1 h lib ->
  member_kinds h = ks1 ++ k :: ks2 -> g_items ks1 e1 i1 its e2 i2 ->
  ev (fun f => parse_member (parse_classes f) k (st e2) i2) (s', stop_res y') ->
  ev (fun f => parse_classes f (st e) i) (s', stop_res y').
Proof.
  intros Hl Hh Hlib Hk Hits Hm. apply ev_S.
  eapply ev_map2; [exact Hm|exact (ev_items _ _ _ _ _ _ Hits)|]. intros f H1 H2.
  rewrite parse_classes_S, (classes_members _ _ _ _ _ _ _ _ Hl Hh).
  apply g_items_length in Hits as [Hlen Hkl].
  eapply class_body_stop; [done|done|exact Hk|exact H2|lia|exact H1].
Qed.

Lemma class_resolve_stop e i e1 bs i1 h lib its1 id its2 e2 i2 vs e3 i3 s' y' :
  g_lib e i e1 (bs ++ i1) -> e_class_header h bs -> class_library e1 h lib ->
  g_items (member_kinds h) e1 i1 (its1 ++ It_Ref id :: its2) e2 i2 ->
  g_resolve its1 e2 i2 vs e3 i3 -> e_objs e3 !! id = None ->
  ev (fun f => verify_referenceable (parse_referenceable f) id (st e3) i3) (s', stop_res y') ->
  ev (fun f => parse_classes f (st e) i) (s', stop_res y').
Proof.
  intros Hl Hh Hlib Hits Hres Hn Hm. apply ev_S.
  eapply ev_map2; [exact (ev_items _ _ _ _ _ _ Hits)| |intros f H1 H2].
  { eapply ev_map2; [exact Hm|exact (ev_resolve _ _ _ _ _ _ Hres)|].
    intros f H1 H2. exact (resolve_stop _ _ _ its2 _ _ _ _ _ _ _ H2 Hn H1). }
  rewrite parse_classes_S, (classes_members _ _ _ _ _ _ _ _ Hl Hh).
  apply g_items_length in Hits as [Hlen Hkl].
  rewrite (parse_class_body_eq _ _ _ h bs e1 i1 lib _ _ _ Hh Hlib H1) by lia.
  rewrite H2. by destruct y'.
Qed.

Lemma array_info code k id len bs i f s :
  (code = x10 /\ k = K_Any) \/ (code = x11 /\ k = K_StringArray) ->
  e_array_header code id len bs ->
  parse_referenceable (S (S f)) s (bs ++ i) = ref_finish (bs ++ i) arr_val
    (let! (s, input, ms) := array_loop (parse_member (parse_classes (S f)) k) (S (length i)) len 0 s i in
     let! (s, input, vs) := resolve_members (parse_referenceable (S f)) ms s input in
     (s, Ok input (id, vs))).
Proof.
  intros Hc Hh. assert (exists b, bs = code :: b) as [b Eb] by (destruct Hh as (? & ? & _ & _ & ->); eauto).
  destruct Hc as [[-> ->]|[-> ->]].
  - rewrite ref_object_array by (rewrite Eb; hd). unfold parse_array_single_object.
    rewrite (exact_ok array_single_object _ (mkArrayInfo id len) bs i array_single_object_exact) by done.
    done.
  - rewrite ref_string_array by (rewrite Eb; hd). unfold parse_array_single_string.
    rewrite (exact_ok array_single_string _ (mkArrayInfo id len) bs i array_single_string_exact) by done.
    done.
Qed.

Lemma binary_info id bat lengths bounds k bs i f s :
  e_binary_array_header id bat lengths bounds k bs -> no_overflow lengths ->
  parse_referenceable (S (S f)) s (bs ++ i) = ref_finish (bs ++ i) arr_val
    (let! (s, input, ms) := scount (product lengths) (parse_member (parse_classes (S f)) k) s i in
     let! (s, input, vs) := resolve_members (parse_referenceable (S f)) ms s input in
     (s, let? (input, vs) := chunk_dims (rev (drop 1 lengths)) vs input in Ok input (id, vs))).
Proof.
  intros Hs Hno. assert (exists b, bs = x07 :: b) as [b Eb]
    by (destruct Hs as (? & ? & ? & ? & ? & _ & _ & _ & _ & _ & ->); eauto).
  rewrite ref_binary_array by (rewrite Eb; hd). unfold parse_binary_array.
  rewrite (exact_ok binary_array_parse _
    (mkBinaryArray id bat lengths bounds (kind_bt k) (kind_ai k)) bs i binary_array_exact)
    by (by exists k).
  cbn [ba_lengths ba_object_id ba_type_enum ba_additional_type_info].
  rewrite checked_product_complete by (intros j Hj; rewrite N.mul_1_l; by apply Hno).
  rewrite N.mul_1_l. rewrite <- parse_member_typed_eq; [done|].
  destruct Hs as (? & ? & ? & ? & ? & _ & _ & _ & Hk & _). by apply e_kind_code_iff in Hk as [Hk _].
Qed.

(** Recoverable errors keep their state through [parse_referenceable]. *)
Lemma outcome_finish {A B} (P : nat -> sres A) (Q : nat -> sres B) b e i s y :
  outcome_of P b e s y ->
  (forall s' y', ev P (s', stop_res y') ->
     ev Q (s', stop_res match y' with S_Err _ => S_Err (mkError i E_Other) | y => y end)) ->
  outcome_of Q b e s y.
Proof.
  intros (s' & y' & H1 & H2 & H3) HQ. eexists s', _. split; [by apply HQ|]. split.
  - destruct y, y', b; try done.
  - intros Hq. destruct (H3 Hq) as [-> H4]. split; [done|]. by destruct y'.
Qed.

Lemma ref_class_err' f s i s' err :
  parse_classes (S f) s i = (s', Err err) -> no_library i -> class_start i ->
  parse_referenceable (S (S f)) s i = (s', Err (mkError i E_Other)).
Proof.
  intros H Hnl Hh%class_start_head. rewrite parse_referenceable_S. unfold parse_referenceable_body. rewrite H.
  unfold smap at 1. cbn [fst snd rmap bind alt_mut].
  destruct (parse_arrays_err (parse_classes (S f)) (parse_referenceable (S f)) s' i) as [e2 He2]; [done|hd|].
  rewrite He2. unfold smap. cbn [fst snd rmap bind alt_mut].
  destruct (binary_object_string_err i) as [e3 ->]; [hd|]. done.
Qed.

Lemma outcome_class_record b e i s y :
  class_start i -> outcome_of (fun f => parse_classes f (st e) i) b e s y ->
  outcome_of (fun f => parse_referenceable f (st e) i) b e s y.
Proof.
  intros Hs (s' & y' & [F H1] & H2 & H3).
  assert (forall er, y' = S_Fail er -> ev (fun f => parse_referenceable f (st e) i) (s', stop_res y')) as HF.
  { intros er ->. apply ev_S. exists F. intros f Hf. apply ref_class_fail. by apply H1. }
  destruct y' as [er|er|p].
  - destruct (binary_library i) as [rest [lid name]|e'|e'|p|] eqn:El.
    + (* library: the array alternative reports a duplicate *)
      assert (exists s1, ev (fun f => parse_referenceable f (st e) i)
        (s1, Fail (mkError rest E_DuplicateLibraryId))) as [s1 Hev].
      { exists (set_libs s' (<[lid:=name]> (st_libs s'))). apply ev_S. exists (S F). intros f Hf. rewrite parse_referenceable_S.
        unfold parse_referenceable_body. rewrite H1 by lia. unfold smap at 1. cbn [fst snd stop_res rmap bind alt_mut].
        unfold parse_arrays, parse_binary_library. rewrite El. cbn [opt].
        assert (bool_decide (is_Some (st_libs s' !! lid)) = true) as ->; [|reflexivity].
        apply bool_decide_eq_true_2. specialize (H1 f ltac:(lia)). destruct f as [|f]; [lia|].
        rewrite parse_classes_S in H1. unfold parse_classes_body in H1.
        unfold parse_binary_library in H1. rewrite El in H1. cbn [opt st st_libs] in H1.
        case_bool_decide as Hd; [done|]. cbn [sbind] in H1.
        set (s2 := set_libs (mkState (e_libs e) ∅ (e_objs e)) (<[lid:=name]> (e_libs e))) in *.
        match type of H1 with ?r = _ => assert (mono s2 r.1) as Hm end.
        { destruct (class_with_id rest) as [r2 [oid mid]|? |? |? |]; try apply mono_refl.
          destruct (class_records rest); try apply mono_refl.
          apply mono_class_body; [apply mono_classes|apply mono_referenceable]. }
        rewrite H1 in Hm. destruct Hm as [_ Hm]. apply elem_of_dom. cbn in Hm. set_solver. }
      exists s1, (S_Fail (mkError rest E_DuplicateLibraryId)). split; [exact Hev|]. split.
      * destruct y, b; try done.
      * intros Hq. exfalso. destruct (H3 Hq) as [-> _].
        specialize (H1 (S F) ltac:(lia)). rewrite parse_classes_S in H1. unfold parse_classes_body in H1.
        unfold parse_binary_library in H1. rewrite El in H1. cbn [opt st st_libs] in H1.
        case_bool_decide as Hd; [done|]. cbn [sbind] in H1.
        set (s2 := set_libs (mkState (e_libs e) ∅ (e_objs e)) (<[lid:=name]> (e_libs e))) in *.
        match type of H1 with ?r = _ => assert (mono s2 r.1) as Hm end.
        { destruct (class_with_id rest) as [r2 [oid mid]|? |? |? |]; try apply mono_refl.
          destruct (class_records rest); try apply mono_refl.
          apply mono_class_body; [apply mono_classes|apply mono_referenceable]. }
        rewrite H1 in Hm. destruct Hm as [_ Hm]. cbn in Hm. unfold quiet_at in Hq.
        apply Hd, elem_of_dom. set_solver.
    + assert (no_library i) as Hnl by (apply no_library_iff; eauto).
      exists s', (S_Err (mkError i E_Other)). split.
      * apply ev_S, ev_S. exists F. intros f Hf.
        apply (ref_class_err' f (st e) i s' er); [apply H1; lia|done|done].
      * split; [by destruct y, b|]. intros Hq. by destruct (H3 Hq).
    + exfalso. specialize (H1 (S F) ltac:(lia)). rewrite parse_classes_S in H1.
      unfold parse_classes_body, parse_binary_library in H1. rewrite El in H1. done.
    + pose proof (binary_library_safe i) as Hb. by rewrite El in Hb.
    + pose proof (binary_library_safe i) as Hb. by rewrite El in Hb.
  - exists s', (S_Fail er). split; [by eapply HF|]. done.
  - exists s', (S_Panic p). split; [|done]. apply ev_S. exists F. intros f Hf.
    apply ref_class_panic. by apply H1.
Qed.

Lemma reach_stops :
  (forall b e i x, reach_class b e i x -> forall s y, site_stops x s y ->
     outcome_of (fun f => parse_classes f (st e) i) b e s y)
  /\ (forall b k e i x, reach_member b k e i x -> forall s y, site_stops x s y ->
     outcome_of (fun f => parse_member (parse_classes f) k (st e) i) b e s y)
  /\ (forall b id e i x, reach_next b id e i x -> forall s y, site_stops x s y ->
     outcome_of (fun f => verify_referenceable (parse_referenceable f) id (st e) i) b e s y)
  /\ (forall b e i x, reach_record b e i x -> forall s y, site_stops x s y ->
     outcome_of (fun f => parse_referenceable f (st e) i) b e s y).
Proof.
  assert (forall A (P : nat -> sres A) e s y, ev P (s, stop_res y) -> outcome_of P false e s y) as Hhere.
  { intros A P e s y H. exists s, y. split; [done|]. split; [by destruct y|].
    intros _. split; [done|]. by destruct y. }
  apply reach_mut_ind.
  - intros e i s y H. by apply Hhere.
  - intros b e i e1 bs i1 h lib ks1 k ks2 its e2 i2 x Hl Hh Hlib Hk Hits Hm IH s y H.
    eapply outcome_map; [by apply IH| |].
    + intros s' y' Hev. by eapply class_stop.
    + apply libs_lib in Hl. apply libs_items in Hits. set_solver.
  - intros b e i e1 bs i1 h lib its1 id its2 e2 i2 vs e3 i3 x Hl Hh Hlib Hits Hres Hn Hm IH s y H.
    eapply outcome_map; [by apply IH| |].
    + intros s' y' Hev. by eapply class_resolve_stop.
    + apply libs_lib in Hl. apply libs_items in Hits. apply libs_resolve in Hres. set_solver.
  - intros k e i s y H. by apply Hhere.
  - intros b e i e1 i1 x Hl Hs Hc IH s y H. eapply outcome_map; [by apply IH| |by eapply libs_lib].
    intros s' y' Hev. eapply ev_map1; [exact Hev|]. intros f Hf. cbn [parse_member].
    unfold parse_member_untyped. rewrite (parse_binary_library_complete _ _ _ _ Hl). cbn [sbind].
    rewrite untyped_body_class' by done. rewrite Hf. apply smap_stop.
  - intros b k e i e1 i1 x Hk Hl Hc IH s y H. eapply outcome_map; [by apply IH| |by eapply libs_lib].
    intros s' y' Hev. eapply ev_map1; [exact Hev|]. intros f Hf.
    destruct Hk as [-> | ->]; cbn [parse_member]; unfold parse_member_typed;
      rewrite (parse_binary_library_complete _ _ _ _ Hl); cbn [sbind kind_bt kind_ai]; exact Hf.
  - intros b k e i e1 i1 x Hk Hl Hkok Hs Hc IH s y H.
    destruct (IH s y H) as (s' & y' & Hev & H2 & H3).
    assert (exists er, parse_null_object i1 = Err er) as [er Her].
    { apply parse_null_object_err. apply class_start_head in Hs. hd. }
    set (y2 := match y' with S_Panic p => S_Panic p | _ => S_Err er end).
    exists s', y2. split; [|split].
    + eapply ev_map1; [exact Hev|]. intros f Hf.
      destruct k as [|p| | |n|n lid| | |p]; try done; cbn [parse_member]; unfold parse_member_typed;
        rewrite (parse_binary_library_complete _ _ _ _ Hl); cbn [sbind kind_bt kind_ai].
      * unfold class_or_null. rewrite Hf. by destruct y'; cbn [stop_res]; rewrite ?Her.
      * destruct Hkok as [l Hkok]. cbn [st st_libs cti_library_id]. rewrite Hkok.
        change (mkState (e_libs e1) ∅ (e_objs e1)) with (st e1).
        unfold class_or_null. rewrite Hf. by destruct y'; cbn [stop_res]; rewrite ?Her.
    + subst y2. destruct y; [by destruct y'; naive_solver| |by subst].
      destruct b; destruct y'; naive_solver.
    + intros Hq. assert (quiet_at e1 s) as Hq1.
      { apply libs_lib in Hl. unfold quiet_at in *. set_solver. }
      destruct (H3 Hq1) as [-> _]. split; [done|]. subst y2. by destruct y'.
  - intros id e i s y H. by apply Hhere.
  - intros b id e i x Hr IH s y H. eapply outcome_map; [by apply IH| |done].
    intros s' y' Hev. eapply ev_map1; [exact Hev|]. intros f Hf. unfold verify_referenceable.
    rewrite Hf. by destruct y'.
  - intros b e i x Hs Hc IH s y H. apply outcome_class_record; [done|]. by apply IH.
  - intros code k b e id len bs i its e1 i1 x Hcode Hh Hits Hlt Hm IH s y H.
    eapply outcome_finish with (i := bs ++ i).
    { eapply (outcome_map _ (fun f => parse_member (parse_classes f) k (st e1) i1)); [by apply IH|done|].
      by eapply libs_items. }
    intros s' y' Hev. apply ev_S, ev_S.
    assert (ev (fun f => parse_member (parse_classes (S f)) k (st e1) i1) (s', stop_res y')) as [F1 H1].
    { destruct Hev as [F Hev]. exists F. intros f Hf. apply Hev. lia. }
    destruct (ev_items _ _ _ _ _ _ Hits) as [F2 H2].
    exists (F1 + F2). intros f Hf. rewrite (array_info code k) with (id := id) (len := len) by done.
    rewrite (array_loop_stop (parse_classes (S f)) k its len 0 (st e) i (st e1) i1 s' y').
    + destruct y'; reflexivity.
    + apply H2. lia.
    + apply g_items_length in Hits as [Hl _]. lia.
    + lia.
    + apply H1. lia.
  - intros code k b e id len bs i its1 rid its2 e1 i1 vs e2 i2 x Hcode Hh Hits Hfl Hres Hn Hm IH s y H.
    eapply outcome_finish with (i := bs ++ i).
    { eapply (outcome_map _ (fun f => verify_referenceable (parse_referenceable f) rid (st e2) i2)); [by apply IH|done|].
      apply libs_items in Hits. apply libs_resolve in Hres. set_solver. }
    intros s' y' [F1 H1]. apply ev_S, ev_S.
    destruct (ev_items _ _ _ _ _ _ Hits) as [F2 H2]. destruct (ev_resolve _ _ _ _ _ _ Hres) as [F3 H3].
    exists (F1 + F2 + F3). intros f Hf. rewrite (array_info code k) with (id := id) (len := len) by done.
    rewrite (array_loop_items (parse_classes (S f)) k (its1 ++ It_Ref rid :: its2) (S (length i)) len 0 (st e) i (st e1) i1).
    + cbn [sbind]. rewrite resolve_expand.
      rewrite (resolve_stop _ _ _ _ _ _ (st e2) i2 vs s' y'); [by destruct y'|apply H3; lia|done|apply H1; lia].
    + apply H2. lia.
    + apply g_items_length in Hits as [Hl _]. lia.
    + destruct Hfl as [[_ Hx]|(init & last & Hx & Hlt)]; [by destruct its1|].
      right. exists init, last. split; [done|]. lia.
    + by eapply g_items_size.
  - intros b e id bat lengths bounds k bs i its e1 i1 x Hh Hno Hits Hlt Hm IH s y H.
    eapply outcome_finish with (i := bs ++ i).
    { eapply (outcome_map _ (fun f => parse_member (parse_classes f) k (st e1) i1)); [by apply IH|done|].
      by eapply libs_items. }
    intros s' y' Hev. apply ev_S, ev_S.
    destruct Hev as [F1 H1]. destruct (ev_items _ _ _ _ _ _ Hits) as [F2 H2].
    exists (F1 + F2). intros f Hf. rewrite (binary_info id bat lengths bounds k) by done.
    unfold scount. rewrite (scount_stop (parse_classes (S f)) k (length its) (product lengths) (st e) i (st e1) i1 (map vr_of its) s' y').
    + destruct y'; reflexivity.
    + apply H2. lia.
    + apply g_items_length in Hits as [Hl _]. lia.
    + lia.
    + apply H1. lia.
  - intros b e id bat lengths bounds k bs i its1 rid its2 e1 i1 vs e2 i2 x Hh Hno Hits Hres Hn Hm IH s y H.
    eapply outcome_finish with (i := bs ++ i).
    { eapply (outcome_map _ (fun f => verify_referenceable (parse_referenceable f) rid (st e2) i2)); [by apply IH|done|].
      apply libs_items in Hits. apply libs_resolve in Hres. set_solver. }
    intros s' y' [F1 H1]. apply ev_S, ev_S.
    destruct (ev_items _ _ _ _ _ _ Hits) as [F2 H2]. destruct (ev_resolve _ _ _ _ _ _ Hres) as [F3 H3].
    exists (F1 + F2 + F3). intros f Hf. rewrite (binary_info id bat lengths bounds k) by done.
    unfold scount. rewrite <- (N2Nat.id (product lengths)).
    pose proof (g_items_length _ _ _ _ _ _ Hits) as [Hl Hl2]. rewrite replicate_length in Hl2.
    rewrite scount_items by lia. rewrite H2 by lia. cbn [sbind].
    rewrite (resolve_stop _ _ _ _ _ _ (st e2) i2 vs s' y'); [by destruct y'|apply H3; lia|done|apply H1; lia].
Qed.

Lemma reach_record_head b e i x :
  reach_record b e i x -> head_in [x01; x02; x03; x04; x05; x0c; x10; x11; x07] i.
Proof.
  destruct 1 as [b e i x Hs _|code k b e id len bs i its e1 i1 x Hc Hh _ _ _
    |code k b e id len bs i its1 rid its2 e1 i1 vs e2 i2 x Hc Hh _ _ _ _ _
    |b e id bat lengths bounds k bs i its e1 i1 x Hh _ _ _ _
    |b e id bat lengths bounds k bs i its1 rid its2 e1 i1 vs e2 i2 x Hh _ _ _ _ _].
  - apply class_start_head in Hs. hd.
  - destruct Hh as (? & ? & _ & _ & ->). destruct Hc as [[-> _]|[-> _]]; hd.
  - destruct Hh as (? & ? & _ & _ & ->). destruct Hc as [[-> _]|[-> _]]; hd.
  - destruct Hh as (? & ? & ? & ? & ? & _ & _ & _ & _ & _ & ->). hd.
  - destruct Hh as (? & ? & ? & ? & ? & _ & _ & _ & _ & _ & ->). hd.
Qed.

(** A failure inside a record, outside members declared with a class. *)
Lemma run_reach_fail root hb i e i1 x s err :
  e_header root hb -> g_objects empty_env i e i1 -> reach_record false e i1 x ->
  site_stops x s (S_Fail err) -> deserialize (hb ++ i) = PErr err.
Proof.
  intros Hh Ho Hr Hs. destruct reach_stops as (_ & _ & _ & HR).
  destruct (HR _ _ _ _ Hr _ _ Hs) as (s' & y' & [F Hev] & -> & _).
  eapply run_fail; [done|done|exact (Hev F (le_n F))].
Qed.
(** A panic inside a record. *)
Lemma run_reach_panic root hb i e i1 b x s p :
  e_header root hb -> g_objects empty_env i e i1 -> reach_record b e i1 x ->
  site_stops x s (S_Panic p) -> deserialize (hb ++ i) = PPanic p.
Proof.
  intros Hh Ho Hr Hs. destruct reach_stops as (_ & _ & _ & HR).
  destruct (HR _ _ _ _ Hr _ _ Hs) as (s' & y' & [F Hev] & -> & _).
  eapply run_panic; [done|done|exact (Hev F (le_n F))].
Qed.
(** A recoverable error inside a record, if nothing was entered in the tables before. *)
Lemma run_reach_stuck root hb i e i1 b x y :
  e_header root hb -> g_objects empty_env i e i1 -> reach_record b e i1 x ->
  site_stops x (st e) y ->
  match y with S_Err _ => True | S_Fail _ => b = true | S_Panic _ => False end ->
  deserialize (hb ++ i) = PErr (mkError i1 (E_ExpectedRecordType RT_MessageEnd)).
Proof.
  intros Hh Ho Hr Hs Hy. destruct reach_stops as (_ & _ & _ & HR).
  destruct (HR _ _ _ _ Hr _ _ Hs) as (s' & y' & [F Hev] & H2 & H3).
  destruct H3 as [-> H3]; [by unfold quiet_at|].
  destruct y' as [er|er|p].
  - pose proof (Hev F (le_n F)) as H. eapply run_stuck; [done|done|exact H|exact H|].
    apply reach_record_head in Hr. hd.
  - exfalso. destruct y; [done|congruence|done].
  - exfalso. destruct y as [| |]; [by eapply H2|subst b; by eapply H2|done].
Qed.

End with_decimal.
