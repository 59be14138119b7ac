(** * Transmit: which messages have an encoding (specification and lemmas for property C55). *)
From Verif Require Import Base Utf8 Utf8Lemmas Value DataTypes Records Parser Wire Grammar BaseLemmas DataTypesLemmas
  RecordsLemmas MethodLemmas SafetyLemmas Safety Heads Complete Sound Fuel Message Run Spec LemmasA LemmasB
  Trees TreeLemmas SerdeSpec.
From Coq Require Import Lia.

(** ** Specification *)

(** Strings of the format: UTF-8, less than 2^31 bytes. *)
Definition text (s : str) : Prop := utf8 s /\ (N.of_nat (length s) < 2 ^ 31)%N.

(** Counts of the format are 31 bits. *)
Definition small {A} (l : list A) : Prop := (N.of_nat (length l) < 2 ^ 31)%N.
Definition node_small (v : value) : Prop :=
  match v with VArray vs => small vs | VObject o => small (obj_members o) | _ => True end.

(** The library names of the objects in a message. *)
Definition library_in (l : str) (m : message) : Prop :=
  exists o, value_in (VObject o) m /\ obj_library o = Some l.

(** Arrays, objects and argument lists have less than 2^31 elements, and there are less than 2^31
    library names. *)
Definition message_small (m : message) : Prop :=
  (forall v, value_in v m -> node_small v)
  /\ match m with
     | MMethodCall c => small (default [] (mc_args c))
     | MMethodReturn r => small (default [] (mr_args r))
     | MValue _ => True
     end
  /\ exists ls, small ls /\ forall l, library_in l m -> l ∈ ls.

Section with_decimal.
Context {DL : DecimalLib}.

(** A node of a value: numbers in the range of their type, strings are texts, decimals are the
    reading of some text. *)
Definition node_ok (v : value) : Prop :=
  in_type_range v /\ Forall text (own_strings v)
  /\ forall d, v = VDecimal d -> exists s, text s /\ dec_from_str s = Some d.

Definition transmittable (m : message) : Prop :=
  (forall v, value_in v m -> node_ok v) /\ Forall text (message_strings m)
  /\ match m with
     | MValue v => match v with VObject _ | VArray _ | VString _ | VNull => True | _ => False end
     | MMethodReturn r =>
         match mr_return_value r with Some (VObject _) | Some (VArray _) => False | _ => True end
     | MMethodCall _ => True
     end.

(** ** Encodings *)

Definition s_bytes (s : str) : bytes := leb128 (N.of_nat (length s)) ++ s.
Lemma s_bytes_ok s : text s -> e_str s (s_bytes s).
Proof. intros [H1 H2]. exists (leb128 (N.of_nat (length s))). split; [by apply leb128_prefix|done]. Qed.

Lemma prim_encoding v p : prim_type_of v = Some p -> node_ok v -> exists bs, e_prim v bs.
Proof.
  intros Hp (Hr & _ & Hd). destruct v; try done; cbn [in_type_range e_prim] in *; try (by eexists).
  all: try (eexists; split; [unfold fits_uint, fits_int; cbn; lia|reflexivity]).
  destruct (Hd d eq_refl) as (s & Hs & E). exists (s_bytes s), s. split; [by apply s_bytes_ok|done].
Qed.

Lemma e_list_each {A} (E : A -> bytes -> Prop) l : (forall a, a ∈ l -> exists b, E a b) -> exists bs, e_list E l bs.
Proof.
  induction l as [|a l IH]; intros H; [eexists; constructor|].
  destruct (H a) as [b Hb]; [left|]. destruct IH as [bs Hbs]; [intros; apply H; by right|].
  eexists. by constructor.
Qed.

(** The tables: libraries for the objects in [v], and no object 3. *)
Definition covers (e : env) (v : value) : Prop :=
  forall o l, sub_value (VObject o) v -> obj_library o = Some l ->
    exists id, valid_id id /\ e_libs e !! id = Some l.

Definition sendable (e : env) (v : value) : Prop :=
  (forall x, sub_value x v -> node_ok x /\ node_small x) /\ covers e v.
Lemma sendable_sub e v w : (forall x, sub_value x w -> sub_value x v) -> sendable e v -> sendable e w.
Proof. intros H [H1 H2]. split; [eauto|]. intros o l Ho. eauto. Qed.

Section fixed.
Context (e : env) (He : e_objs e !! 3%N = None).

Lemma del_3 : del_obj 3 e = e.
Proof. unfold del_obj. destruct e as [l o]. cbn in *. by rewrite delete_notin. Qed.

(** A member encoding [v]: [bs] in the member list, [tb] among the records that follow. *)
Definition as_member (v : value) (it : item) (bs tb : bytes) : Prop :=
  item_size it = 1%N
  /\ (forall i, g_member K_Any e (bs ++ i) it e i)
  /\ forall its i vs e' i', g_resolve its e i vs e' i' -> g_resolve (it :: its) e (tb ++ i) (v :: vs) e' i'.
Definition as_members (vs : list value) (its : list item) (bs tb : bytes) : Prop :=
  length its = length vs /\ Forall (fun it => item_size it = 1%N) its
  /\ (forall i, g_items (replicate (length vs) K_Any) e (bs ++ i) its e i)
  /\ forall i, g_resolve its e (tb ++ i) vs e i.

Lemma members_list vs : (forall v, v ∈ vs -> exists it bs tb, as_member v it bs tb) ->
  exists its bs tb, as_members vs its bs tb.
Proof.
  induction vs as [|v vs IH]; intros H.
  - exists [], [], []. split; [done|]. split; [done|]. split; intros i; constructor.
  - destruct (H v) as (it & bs & tb & Hs & Hm & Hr); [left|].
    destruct IH as (its & bs' & tb' & Hl & Hn & Hi & Hv); [intros; apply H; by right|].
    exists (it :: its), (bs ++ bs'), (tb ++ tb'). split; [cbn; lia|].
    split; [by constructor|]. split; intros i; rewrite <- app_assoc.
    + cbn [length replicate]. econstructor; [apply Hm|apply Hi].
    + apply Hr, Hv.
Qed.

Lemma lib_none i : ~ head_in [x0c] i -> g_lib e i e i.
Proof. intros H. by apply G_lib_none, no_library_head. Qed.
Lemma id_ok id : valid_id id -> e_id id (enc_uint 4 id).
Proof. done. Qed.

Lemma ones_size its : Forall (fun it => item_size it = 1%N) its -> items_size its = N.of_nat (length its).
Proof. induction 1 as [|it its H _ IH]; [done|]. cbn [items_size length]. rewrite H, IH. lia. Qed.

Lemma fills_ones (vs : list value) its : length its = length vs ->
  Forall (fun it => item_size it = 1%N) its -> fills (N.of_nat (length vs)) its.
Proof.
  intros Hl Hs. destruct its as [|it its _] using rev_ind.
  - left. destruct vs; done.
  - right. exists its, it. split; [done|]. rewrite app_length in Hl. cbn in Hl.
    apply Forall_app in Hs as [Hs1 Hs2].
    rewrite (ones_size (its ++ [it])) by (by apply Forall_app). rewrite ones_size by done.
    rewrite app_length. cbn. lia.
Qed.

Lemma array_record id vs its bs tb : valid_id id -> small vs -> as_members vs its bs tb ->
  exists rb, forall i, g_record e (rb ++ i) id (VArray vs) e i.
Proof.
  intros Hid Hn (Hl & Hs & Hi & Hr).
  exists ((x10 :: enc_uint 4 id ++ enc_uint 4 (N.of_nat (length vs))) ++ bs ++ tb). intros i.
  rewrite <- !app_assoc. eapply (G_rec_objects _ _ _ (N.of_nat (length vs))).
  - exists (enc_uint 4 id), (enc_uint 4 (N.of_nat (length vs))). split; [done|]. done.
  - rewrite Hl. apply Hi.
  - by apply fills_ones.
  - apply Hr.
Qed.

Lemma object_record id o its bs tb : valid_id id -> node_ok (VObject o) -> node_small (VObject o) ->
  (forall l, obj_library o = Some l -> exists lid, valid_id lid /\ e_libs e !! lid = Some l) ->
  as_members (map snd (obj_members o)) its bs tb ->
  exists rb, (forall i, ~ head_in [x0c] (rb ++ i)) /\ forall i, g_class e (rb ++ i) id o e i.
Proof.
  intros Hid (Hnd & Htext & _) Hsmall Hlib (Hl & Hs & Hi & Hr).
  destruct o as [c lib ms]. cbn [obj_class obj_library obj_members own_strings in_type_range node_small] in *.
  inversion Htext as [|? ? Hc Ht]; subst. apply Forall_app in Ht as [_ Hnames].
  assert (exists lid b5, match lid with None => b5 = [] | Some l => e_id l b5 end
    /\ match lid with None => lib = None | Some li => exists l, e_libs e !! li = Some l /\ lib = Some l end)
    as (lid & b5 & Hb5 & Hcl).
  { destruct lib as [l|]; [|by exists None, []].
    destruct (Hlib l eq_refl) as (lid & Hlid & E). exists (Some lid), (enc_uint 4 lid). split; [done|]. by exists l. }
  destruct (e_list_each e_str (map fst ms)) as [nb Hnb].
  { intros s Hin. rewrite Forall_forall in Hnames. exists (s_bytes s). by apply s_bytes_ok, Hnames. }
  pose (h := mkClassHeader id c (map fst ms) None lid).
  pose (hb := class_code None lid :: enc_uint 4 id ++ s_bytes c
    ++ (enc_uint 4 (N.of_nat (length (map fst ms))) ++ nb) ++ [] ++ b5).
  exists (hb ++ bs ++ tb).
  assert (forall i, ~ head_in [x0c] ((hb ++ bs ++ tb) ++ i)) as Hh.
  { intros i. unfold hb. cbn [app head_in]. destruct lid; apply (bool_decide_unpack _); vm_compute; exact I. }
  split; [exact Hh|]. intros i.
  assert (mkObj c lib ms = mkObj (ch_name h) lib (hm_from_iter (zip (ch_member_names h) (map snd ms)))) as ->.
  { cbn [h ch_name ch_member_names]. f_equal.
    assert (zip (map fst ms) (map snd ms) = ms) as ->.
    { clear. induction ms as [|[k v] ms IH]; [done|]. cbn. by rewrite IH. }
    symmetry. by apply hm_from_iter_distinct. }
  change id with (ch_object_id h). eapply (G_class e _ e hb (bs ++ tb ++ i) h lib its e (tb ++ i)).
  - specialize (Hh i). rewrite <- (app_assoc hb), <- (app_assoc bs) in Hh |- *. apply lib_none. exact Hh.
  - exists (enc_uint 4 id), (s_bytes c), (enc_uint 4 (N.of_nat (length (map fst ms))) ++ nb), [], b5.
    split; [done|]. split; [by apply s_bytes_ok|]. split.
    { exists nb. split; [|done]. change (ch_member_names h) with (map fst ms). unfold valid_len, small in *. by rewrite map_length. }
    split; [done|]. split; [exact Hb5|done].
  - unfold class_library. cbn [h ch_library]. destruct lid; [|done]. exact Hcl.
  - unfold member_kinds. cbn [h ch_types ch_member_names]. rewrite map_length.
    specialize (Hi (tb ++ i)). by rewrite map_length in Hi.
  - apply Hr.
Qed.

Lemma member_simple v it bs : (forall i, ~ head_in [x0c] (bs ++ i)) -> it = It_Value v ->
  simple_item K_Any it bs -> as_member v it bs [].
Proof.
  intros Hh -> Hs. split; [done|]. split.
  - intros i. eapply G_simple; [apply lib_none, Hh|done|exact Hs].
  - intros. by apply G_res_value.
Qed.

Lemma value_member v : sendable e v -> exists it bs tb, as_member v it bs tb.
Proof.
  induction v as [o IH|vs IH|v Hv] using value_ind'; intros Hv'.
  - destruct Hv' as [H1 H2]. pose proof (H1 _ (sub_here _)) as [Hok Hsm].
    destruct (members_list (map snd (obj_members o))) as (its & bs & tb & Hm).
    { intros v Hin. apply elem_of_list_fmap in Hin as ([k w] & -> & Hin).
      rewrite Forall_forall in IH. apply (IH (k, w) Hin).
      apply (sendable_sub e (VObject o)); [|done]. intros x Hx. by eapply sub_member. }
    destruct (object_record 2 o its bs tb) as (rb & Hh & Hrb); try done.
    { intros l Hl. exact (H2 o l (sub_here _) Hl). }
    exists (It_Value (VObject o)), rb, []. split; [done|]. split.
    + intros i. eapply G_inline; [apply lib_none, Hh|done|apply Hrb].
    + intros. by apply G_res_value.
  - destruct Hv' as [H1 H2]. pose proof (H1 _ (sub_here _)) as [Hok Hsm].
    destruct (members_list vs) as (its & bs & tb & Hm).
    { intros v Hin. rewrite Forall_forall in IH. apply (IH v Hin).
      apply (sendable_sub e (VArray vs)); [|done]. intros x Hx. by eapply sub_element. }
    destruct (array_record 3 vs its bs tb) as (rb & Hrb); try done.
    exists (It_Ref 3), (x09 :: enc_uint 4 3), rb. split; [done|]. split.
    + intros i. eapply G_simple; [apply lib_none; hd|done|]. right. left. exists 3%N. split; [done|].
      exists (enc_uint 4 3). done.
    + intros its' i vs' e' i' Hr. eapply G_res_next; [exact He|apply Hrb|]. by rewrite del_3.
  - destruct Hv' as [H1 H2]. pose proof (H1 _ (sub_here _)) as [Hok Hsm].
    destruct (prim_type_of v) as [p|] eqn:Hp.
    + destruct (prim_encoding v p Hp Hok) as [bs Hbs].
      exists (It_Value v), (x08 :: n2b (pt_code p) :: bs), [].
      apply member_simple; [intros i; hd|done|]. left. exists v. split; [done|]. exists p, bs. done.
    + destruct v as [o|vs| | | | | | | | | | | | | | | |s|]; try done.
      * exists (It_Value (VString s)), (x06 :: enc_uint 4 4 ++ s_bytes s), [].
        apply member_simple; [intros i; hd|done|]. right. right. left. exists 4%N, s. split; [done|].
        exists (enc_uint 4 4), (s_bytes s). split; [done|]. split; [|done]. apply s_bytes_ok.
        destruct Hok as (_ & Ht & _). by inversion Ht.
      * exists (It_Nulls 1), [x0a], []. split; [done|]. split.
        -- intros i. eapply G_simple; [apply lib_none; hd|done|]. right. right. right. exists 1%N. split; [done|]. by left.
        -- intros its i vs e' i' Hr. apply (G_res_nulls 1 _ _ _ _ _ _ Hr).
Qed.

Lemma values_members vs : (forall v, v ∈ vs -> sendable e v) -> exists its bs tb, as_members vs its bs tb.
Proof. intros H. apply members_list. intros v Hv. by apply value_member, H. Qed.

(** A record with the id 1. *)
Lemma value_record v : sendable e v -> record_value v -> exists rb, forall i, g_record e (rb ++ i) 1 v e i.
Proof.
  intros [H1 H2] Hr. pose proof (H1 _ (sub_here _)) as [Hok Hsm].
  destruct v as [o|vs| | | | | | | | | | | | | | | |s|]; try done.
  - destruct (values_members (map snd (obj_members o))) as (its & bs & tb & Hm).
    { intros v Hin. apply elem_of_list_fmap in Hin as ([k w] & -> & Hin).
      apply (sendable_sub e (VObject o)); [|done]. intros x Hx. by eapply sub_member. }
    destruct (object_record 1 o its bs tb) as (rb & _ & Hrb); try done.
    { intros l Hl. exact (H2 o l (sub_here _) Hl). }
    exists rb. intros i. apply G_rec_object, Hrb.
  - destruct (values_members vs) as (its & bs & tb & Hm).
    { intros v Hin. apply (sendable_sub e (VArray vs)); [|done]. intros x Hx. by eapply sub_element. }
    by destruct (array_record 1 vs its bs tb) as (rb & Hrb); eauto.
  - exists (x06 :: enc_uint 4 1 ++ s_bytes s). intros i. apply G_rec_string.
    exists (enc_uint 4 1), (s_bytes s). split; [done|]. split; [|done]. apply s_bytes_ok.
    destruct Hok as (_ & Ht & _). by inversion Ht.
Qed.

(** The call array, with the id 1. *)
Lemma call_array vs : small vs -> (forall v, v ∈ vs -> sendable e v) ->
  exists rb, forall i, g_call_array (Some 1%N) e (rb ++ i) (Some vs) e i.
Proof.
  intros Hn Hv. destruct (values_members vs Hv) as (its & bs & tb & Hl & Hs & Hi & Hr).
  exists ((x10 :: enc_uint 4 1 ++ enc_uint 4 (N.of_nat (length vs))) ++ bs ++ tb). intros i.
  rewrite <- !app_assoc. eapply (G_ca_some _ _ _ e 1 (N.of_nat (length vs))).
  - apply lib_none. hd.
  - exists (enc_uint 4 1), (enc_uint 4 (N.of_nat (length vs))). split; [done|]. done.
  - done.
  - rewrite Hl. apply Hi.
  - by apply fills_ones.
  - apply Hr.
Qed.

(** The flags of a method record with the given parts, and the optional parts. *)
Definition the_flags (args ctx ret : bool) : Z :=
  ((if args then 4 else 1) + (if ctx then 32 else 16) + (if ret then 2048 else 512))%Z.
Lemma the_flags_ok args ctx ret : e_flags (the_flags args ctx ret) (enc_int 4 (the_flags args ctx ret)).
Proof.
  split; [destruct args, ctx, ret; split; vm_compute; congruence|]. split; [|done].
  apply flags_okb_iff. by destruct args, ctx, ret.
Qed.
Lemma flagged_context args ret ctx : Forall text (opt_list ctx) -> exists b,
  e_flagged (the_flags args (bool_decide (is_Some ctx)) ret) bit_ContextInline e_string_with_code ctx b.
Proof.
  intros H. destruct ctx as [s|]; cbn [opt_list e_flagged] in *.
  - inversion H as [|? ? Hs _]; subst. exists (x12 :: s_bytes s).
    split; [by destruct args, ret|]. exists (s_bytes s). split; [by apply s_bytes_ok|done].
  - exists []. split; [by destruct args, ret|done].
Qed.
Lemma flagged_args args ctx ret : exists b, e_flagged (the_flags args ctx ret) bit_ArgsInline
  (e_counted e_value_with_code) None b.
Proof. exists []. split; [by destruct args, ctx, ret|done]. Qed.
Lemma flagged_return args ctx ret :
  (forall v, ret = Some v -> node_ok v /\ match v with VObject _ | VArray _ => False | _ => True end) ->
  exists b, e_flagged (the_flags args ctx (bool_decide (is_Some ret))) bit_ReturnValueInline e_value_with_code ret b.
Proof.
  intros H. destruct ret as [v|]; cbn [e_flagged].
  - destruct (H v eq_refl) as [Hok Hv].
    assert (exists b, e_value_with_code v b) as [b Hb].
    { destruct (prim_type_of v) as [p|] eqn:Hp.
      - destruct (prim_encoding v p Hp Hok) as [bs Hbs]. exists (n2b (pt_code p) :: bs).
        destruct v; try done; by exists p, bs.
      - destruct v as [o|vs| | | | | | | | | | | | | | | |s|]; try done.
        + exists (x12 :: s_bytes s), (s_bytes s). split; [|done]. apply s_bytes_ok.
          destruct Hok as (_ & Ht & _). by inversion Ht.
        + by exists [x11]. }
    exists b. split; [by destruct args, ctx|done].
  - exists []. split; [by destruct args, ctx|done].
Qed.

(** A method record and its call array. *)
Lemma args_after args ctx ret :
  small (default [] args) -> (forall v, v ∈ default [] args -> sendable e v) ->
  exists rb ca, g_call_array (Some 1%N) e (rb ++ [x0b]) ca e [x0b]
    /\ args_rule (the_flags (bool_decide (is_Some args)) ctx ret) ca None args.
Proof.
  intros Hn Hv. destruct args as [vs|]; cbn [default from_option] in *.
  - destruct (call_array vs Hn Hv) as [rb Hrb]. exists rb, (Some vs). split; [apply Hrb|].
    unfold args_rule. destruct ctx, ret; cbn; by exists vs.
  - exists [], None. split; [by apply G_ca_none|]. by destruct ctx, ret.
Qed.
End fixed.

(** The libraries: one empty object, with the id 2, for each of them. *)
Lemma preamble ls : small ls -> exists bs e, (forall i, g_objects empty_env (bs ++ i) e i)
  /\ (forall l, l ∈ ls -> text l -> exists id, valid_id id /\ e_libs e !! id = Some l)
  /\ (forall id, (N.of_nat (length ls) < id)%N -> e_libs e !! id = None)
  /\ (forall id, id <> 2%N -> e_objs e !! id = None).
Proof.
  unfold small. induction ls as [|l ls IH] using rev_ind; intros Hn.
  - exists [], empty_env. split; [intros; apply G_objs_nil|]. split; [intros l Hl; by apply elem_of_nil in Hl|].
    split; intros; apply lookup_empty.
  - rewrite app_length in Hn. cbn in Hn. destruct IH as (bs & e & H1 & H2 & H3 & H4); [lia|].
    destruct (utf8_valid l) eqn:Eu; [destruct (N.ltb (N.of_nat (length l)) (2 ^ 31)) eqn:Ez|].
    2,3: exists bs, e; split; [done|]; split; [|split; [|done]].
    2,4: intros l' [Hl'| ->%elem_of_list_singleton]%elem_of_app [Ht1 Ht2]; [by apply H2|].
    2: by apply N.ltb_ge in Ez; lia.
    2: by apply utf8_valid_iff in Ht1; congruence.
    2,3: intros id Hid; apply H3; rewrite app_length in Hid; cbn in Hid; lia.
    apply N.ltb_lt in Ez. apply utf8_valid_iff in Eu.
    pose (id := N.of_nat (length ls + 1)).
    assert (valid_id id) as Hid by (unfold valid_id, id; lia).
    pose (h := mkClassHeader 2 [] [] None (Some id)).
    pose (hb := x03 :: enc_uint 4 2 ++ [x00] ++ enc_uint 4 0 ++ [] ++ enc_uint 4 id).
    assert (e_class_header h hb) as Hh.
    { exists (enc_uint 4 2), [x00], (enc_uint 4 0), [], (enc_uint 4 id). split; [done|].
      split. { exists [x00]. split; [|split; [done|by exists []]]. apply (leb128_prefix 0). done. }
      split. { exists []. split; [done|]. split; [constructor|done]. }
      done. }
    pose (lb := x0c :: enc_uint 4 id ++ s_bytes l).
    assert (e_library_record id l lb) as Hlb.
    { exists (enc_uint 4 id), (s_bytes l). split; [done|]. split; [by apply s_bytes_ok|done]. }
    exists (bs ++ lb ++ hb), (add_obj 2 (VObject (mkObj [] (Some l) [])) (add_lib id l e)).
    split; [|split; [|split]].
    + intros i. rewrite <- !app_assoc. eapply g_objects_snoc; [apply H1|]. apply G_rec_object.
      apply (G_class e (lb ++ hb ++ i) (add_lib id l e) hb i h (Some l) [] (add_lib id l e) i [] (add_lib id l e) i).
      * apply G_lib_some; [done|]. apply H3. unfold id. lia.
      * exact Hh.
      * exists l. split; [apply lookup_insert|done].
      * constructor.
      * constructor.
    + intros l' Hl' Ht. cbn [add_obj add_lib e_libs].
      apply elem_of_app in Hl' as [Hl'| ->%elem_of_list_singleton].
      * destruct (H2 l' Hl' Ht) as (id' & Hv & E). exists id'. split; [done|]. rewrite lookup_insert_ne; [done|].
        intros <-. rewrite H3 in E; [done|]. unfold id. lia.
      * exists id. split; [done|]. apply lookup_insert.
    + intros id' Hid'. cbn [add_obj add_lib e_libs]. rewrite app_length in Hid'. cbn in Hid'.
      rewrite lookup_insert_ne by (unfold id; lia). apply H3. lia.
    + intros id' Hid'. cbn [add_obj add_lib e_objs]. rewrite lookup_insert_ne by done. by apply H4.
Qed.

Lemma transmit m : message_small m -> transmittable m -> exists W, g_message W m.
Proof.
  intros (Hsm & Hargs & ls & Hls & Hlib) (Hok & Hstr & Hkind).
  destruct (preamble ls Hls) as (pre & e & Hpre & Hcov & _ & Hobj).
  assert (e_objs e !! 3%N = None) as H3 by (by apply Hobj).
  assert (forall v, v ∈ message_values m -> sendable e v) as Hsend.
  { intros v Hv. split.
    - intros x Hx. split; [apply Hok|apply Hsm]; by exists v.
    - intros o l Ho Hl. apply Hcov; [apply Hlib; exists o; split; [by exists v|done]|].
      destruct (Hok (VObject o)) as (_ & Ht & _); [by exists v|]. cbn [own_strings] in Ht.
      inversion Ht as [|? ? _ Ht']; subst. apply Forall_app in Ht' as [Ht' _]. rewrite Hl in Ht'. by inversion Ht'. }
  assert (e_header (Some 1%N) (header_bytes 1 0)) as Hhead by (by apply header_root).
  destruct m as [c|r|v].
  - destruct c as [name type ctx args]. cbn [message_strings message_values mc_method_name mc_type_name
      mc_call_context mc_args] in *.
    inversion Hstr as [|? ? Hn Hs1]; subst. inversion Hs1 as [|? ? Ht Hc]; subst.
    destruct (args_after e H3 args (bool_decide (is_Some ctx)) false Hargs Hsend) as (rb & ca & Hca & Hrule).
    destruct (flagged_context (bool_decide (is_Some args)) false ctx Hc) as [b4 Hb4].
    destruct (flagged_args (bool_decide (is_Some args)) (bool_decide (is_Some ctx)) false) as [b5 Hb5].
    set (fl := the_flags _ _ _) in *.
    exists (header_bytes 1 0 ++ pre ++ (x15 :: enc_int 4 fl ++ (x12 :: s_bytes name) ++ (x12 :: s_bytes type) ++ b4 ++ b5)
            ++ rb ++ [x0b]).
    eapply G_msg_method; [exact Hhead|apply Hpre| |apply G_objs_nil].
    eapply (G_call _ _ fl name type ctx None); [|exact Hca|exact Hrule].
    exists (enc_int 4 fl), (x12 :: s_bytes name), (x12 :: s_bytes type), b4, b5.
    split; [apply the_flags_ok|].
    split; [exists (s_bytes name); split; [by apply s_bytes_ok|done]|].
    split; [exists (s_bytes type); split; [by apply s_bytes_ok|done]|].
    split; [exact Hb4|]. split; [exact Hb5|done].
  - destruct r as [ret ctx args]. cbn [message_strings message_values mr_return_value mr_call_context mr_args] in *.
    destruct (args_after e H3 args (bool_decide (is_Some ctx)) (bool_decide (is_Some ret)) Hargs) as (rb & ca & Hca & Hrule).
    { intros v Hv. apply Hsend. apply elem_of_app. by right. }
    destruct (flagged_context (bool_decide (is_Some args)) (bool_decide (is_Some ret)) ctx Hstr) as [b3 Hb3].
    destruct (flagged_args (bool_decide (is_Some args)) (bool_decide (is_Some ctx)) (bool_decide (is_Some ret))) as [b4 Hb4].
    destruct (flagged_return (bool_decide (is_Some args)) (bool_decide (is_Some ctx)) ret) as [b2 Hb2].
    { intros v ->. split; [|by destruct v]. apply Hok. exists v. split; [|constructor]. apply elem_of_app. left. left. }
    set (fl := the_flags _ _ _) in *.
    exists (header_bytes 1 0 ++ pre ++ (x16 :: enc_int 4 fl ++ b2 ++ b3 ++ b4) ++ rb ++ [x0b]).
    eapply G_msg_method; [exact Hhead|apply Hpre| |apply G_objs_nil].
    eapply (G_return _ _ fl ret ctx None); [|exact Hca|exact Hrule].
    exists (enc_int 4 fl), b2, b3, b4. split; [apply the_flags_ok|].
    split; [exact Hb2|]. split; [exact Hb3|]. split; [exact Hb4|done].
  - assert (v = VNull \/ v <> VNull) as [->|Hv] by (destruct v; auto; by right).
    + exists (header_bytes 0 0 ++ [x0b]). eapply (G_msg_value None); [|apply G_objs_nil|done].
      exists 0%Z. done.
    + destruct (value_record e H3 v) as [rb Hrb]; [apply Hsend; left|by destruct v|].
      exists (header_bytes 1 0 ++ pre ++ rb ++ [x0b]).
      eapply (G_msg_value (Some 1%N)); [exact Hhead| |].
      * eapply g_objects_snoc; [apply Hpre|apply Hrb].
      * cbn. apply lookup_insert.
Qed.

Lemma accepted_transmittable W m : deserialize W = POk m -> transmittable m.
Proof.
  intros H. pose proof (deserialize_safe W) as Hs. rewrite H in Hs. split; [|split].
  - intros v Hv. split; [by eapply result_range|]. split.
    + apply Forall_forall. intros s Hin. assert (string_in s m) as Hsi by (right; by exists v).
      by destruct (result_string_from W m s H Hsi) as (_ & ? & ?).
    + intros d ->. apply (result_value W m _ H) in Hv. inversion Hv as [| |v bs He Ho| |]; subst.
      destruct He as (s & (p & Hp & -> & Hu) & E). exists s. split; [|done]. split; [done|]. by eapply len_prefix_small.
  - apply Forall_forall. intros s Hin. by destruct (result_string_from W m s H) as (_ & ? & ?); [left|].
  - destruct m as [c|r|v]; cbn in Hs.
    + done.
    + destruct (mr_return_value r) as [v|]; [|done]. destruct Hs as (Hs & _).
      destruct (Hs v eq_refl) as (_ & bs & Hb). destruct v; try done; by destruct Hb as (? & ? & ? & _).
    + destruct Hs as (_ & [Hs| ->]); [|done]. by destruct v.
Qed.
End with_decimal.
