(** * Agree: two runs over the same bytes from tables that agree on every id those bytes contain. *)
From Verif Require Import Base Utf8 Value DataTypes Records Parser Wire BaseLemmas DataTypesLemmas
  RecordsLemmas MethodLemmas SafetyLemmas Safety Grammar Heads Complete Sound Fuel Message Run Spec
  LemmasA LemmasB LemmasC Calm Tokens Blocks.
From Coq Require Import Lia.

Lemma mentions_suffix i j n : j ⊑s i -> mentions j n -> mentions i n.
Proof. intros [k ->] (p & q & ->). exists (k ++ p), q. by rewrite <- !app_assoc. Qed.
Lemma mentions_at p n q : mentions (p ++ enc_uint 4 n ++ q) n.
Proof. by exists p, q. Qed.

Section with_decimal.
Context {DL : DecimalLib}.

Section rest.
(** The rest of the message and the root id. *)
Context (T : bytes) (root : option N).

Definition agree (s s2 : state) : Prop :=
  st_classes s = ∅ /\ st_classes s2 = ∅
  /\ (forall n, mentions T n \/ root = Some n -> st_objects s !! n = st_objects s2 !! n)
  /\ (forall n, mentions T n -> st_libs s !! n = st_libs s2 !! n).

(** The same result, and tables that agree again. *)
Definition same {A} (Q : A -> Prop) (r r2 : sres A) : Prop :=
  r.2 = r2.2 /\ agree r.1 r2.1 /\ match r.2 with Ok i a => i ⊑s T /\ Q a | _ => True end.

Lemma same_bind {A B} (Q : A -> Prop) (Q' : B -> Prop) r r2 (f f2 : state -> bytes -> A -> sres B) :
  same Q r r2 ->
  (forall s s2 i a, agree s s2 -> i ⊑s T -> Q a -> same Q' (f s i a) (f2 s2 i a)) ->
  same Q' (sbind r f) (sbind r2 f2).
Proof.
  intros (E & Ha & Hq) Hf. destruct r as [s r], r2 as [s2 r2]. cbn [fst snd] in *. subst r2.
  destruct r as [i a|e|e|p|]; cbn [sbind]; try (by split). destruct Hq. by apply Hf.
Qed.
Lemma same_pure {A} (Q : A -> Prop) s s2 i (r : res A) :
  agree s s2 -> i ⊑s T -> rsafe i r -> (forall i' a, r = Ok i' a -> Q a) -> same Q (s, r) (s2, r).
Proof.
  intros Ha Hi Hs HQ. split; [done|]. split; [done|]. cbn [fst snd]. destruct r as [i' a| | | |]; try done.
  split; [by etrans|]. by eapply HQ.
Qed.
Lemma same_stop {A} (Q : A -> Prop) s s2 (r : res A) :
  agree s s2 -> (forall i a, r <> Ok i a) -> same Q (s, r) (s2, r).
Proof.
  intros Ha Hr. split; [done|]. split; [done|]. cbn [fst snd]. destruct r as [i a| | | |]; try done. by destruct (Hr i a).
Qed.
Lemma same_ok {A} (Q : A -> Prop) s s2 i (a : A) : agree s s2 -> i ⊑s T -> Q a -> same Q (s, Ok i a) (s2, Ok i a).
Proof. done. Qed.
Lemma same_smap {A B} (f : A -> B) (Q : A -> Prop) (Q' : B -> Prop) r r2 :
  (forall a, Q a -> Q' (f a)) -> same Q r r2 -> same Q' (smap f r) (smap f r2).
Proof.
  intros HQ (E & Ha & Hq). unfold smap. split; cbn [fst snd]; [by rewrite E|]. split; [done|].
  destruct r.2; try done. destruct Hq. split; [done|]. by apply HQ.
Qed.
Lemma same_alt_mut {A} (Q : A -> Prop) r r2 (f f2 : state -> sres A) :
  same Q r r2 -> (forall s s2, agree s s2 -> same Q (f s) (f2 s2)) -> same Q (alt_mut r f) (alt_mut r2 f2).
Proof.
  intros (E & Ha & Hq) Hf. destruct r as [s r], r2 as [s2 r2]. cbn [fst snd] in *. subst r2.
  destruct r as [i a|e|e|p|]; cbn [alt_mut]; try (by split). by apply Hf.
Qed.

Lemma agree_libs s s2 lid name : agree s s2 ->
  agree (set_libs s (<[lid := name]> (st_libs s))) (set_libs s2 (<[lid := name]> (st_libs s2))).
Proof.
  intros (H1 & H1' & H2 & H3). split; [done|]. split; [done|]. split; [done|]. intros n Hn. cbn.
  destruct (decide (n = lid)) as [-> |Hne]; [by rewrite !lookup_insert|]. rewrite !lookup_insert_ne by done. by apply H3.
Qed.
Lemma agree_insert s s2 id v : agree s s2 ->
  agree (set_objects s (<[id := v]> (st_objects s))) (set_objects s2 (<[id := v]> (st_objects s2))).
Proof.
  intros (H1 & H1' & H2 & H3). split; [done|]. split; [done|]. split; [|done]. intros n Hn. cbn.
  destruct (decide (n = id)) as [-> |Hne]; [by rewrite !lookup_insert|]. rewrite !lookup_insert_ne by done. by apply H2.
Qed.
Lemma agree_delete s s2 id : agree s s2 ->
  agree (set_objects s (delete id (st_objects s))) (set_objects s2 (delete id (st_objects s2))).
Proof.
  intros (H1 & H1' & H2 & H3). split; [done|]. split; [done|]. split; [|done]. intros n Hn. cbn.
  destruct (decide (n = id)) as [-> |Hne]; [by rewrite !lookup_delete|]. rewrite !lookup_delete_ne by done. by apply H2.
Qed.

Lemma same_lib s s2 i : agree s s2 -> i ⊑s T ->
  same (fun _ => True) (parse_binary_library s i) (parse_binary_library s2 i).
Proof.
  intros Ha Hi. unfold parse_binary_library. pose proof (binary_library_safe i) as Hs.
  destruct (binary_library i) as [i1 [lid name]|e|e|p|] eqn:E; cbn [opt]; try (by apply same_stop); try by apply same_ok.
  apply binary_library_exact in E as (bs & (b1 & b2 & [Hv ->] & Hn & ->) & ->).
  assert (st_libs s !! lid = st_libs s2 !! lid) as ->.
  { apply Ha. eapply mentions_suffix; [exact Hi|]. exists [x0c], (b2 ++ i1). cbn [app]. by rewrite <- app_assoc. }
  case_bool_decide; [apply same_stop; [by apply agree_libs|done]|]. apply same_ok; [by apply agree_libs|by etrans|done].
Qed.

(** References that the rest mentions. *)
Definition known (m : value_or_ref) : Prop := match m with VR_Ref id => mentions T id | _ => True end.
(** Member types whose library the rest mentions. *)
Definition known_type (ai : option additional_type_info) : Prop :=
  match ai with Some (AI_Class cti) => mentions T (cti_library_id cti) | _ => True end.

Lemma known_ref i i' a : i ⊑s T -> parse_ref_member i = Ok i' a -> known a.
Proof.
  intros Hi H. apply parse_ref_member_exact in H as (bs & (id & -> & b & [_ ->] & ->) & ->).
  eapply mentions_suffix; [exact Hi|]. exists [x09], i'. done.
Qed.
Lemma known_string i i' a : parse_string_member i = Ok i' a -> known a.
Proof. unfold parse_string_member. intros H. by apply rmap_ok in H as (v & _ & ->). Qed.
Lemma known_null i i' a : parse_null_object i = Ok i' a -> known a.
Proof. intros H. by apply parse_null_object_exact in H as (bs & (n & -> & _) & _). Qed.
Lemma known_typed i i' a : rmap VR_Value (member_primitive_typed i) = Ok i' a -> known a.
Proof. intros H. by apply rmap_ok in H as (v & _ & ->). Qed.
Lemma known_alt (r r' : res value_or_ref) i' a :
  (r = Ok i' a -> known a) -> (r' = Ok i' a -> known a) -> alt r r' = Ok i' a -> known a.
Proof. intros H1 H2. destruct r; cbn; eauto. Qed.

(** Class records whose libraries the rest mentions. *)
Definition known_class (c : class_rec) : Prop :=
  match c with
  | CR_ClassWithMembers _ lid => mentions T lid
  | CR_ClassWithMembersAndTypes _ mti lid =>
      mentions T lid /\ Forall (fun p => known_type p.2) (zip (mti_binary_type_enums mti) (mti_additional_infos mti))
  | CR_SystemClassWithMembers _ => True
  | CR_SystemClassWithMembersAndTypes _ mti =>
      Forall (fun p => known_type p.2) (zip (mti_binary_type_enums mti) (mti_additional_infos mti))
  end.
Lemma known_kind k bs p q : e_kind_info k bs -> T = p ++ bs ++ q -> known_type (kind_ai k).
Proof.
  destruct k; try done. cbn [e_kind_info]. intros (b1 & b2 & _ & [_ ->] & ->) HT. exists (p ++ b1), q. rewrite HT. by rewrite <- !app_assoc.
Qed.
Lemma known_kinds ks bs p q : e_list e_kind_info ks bs -> T = p ++ bs ++ q -> Forall known_type (map kind_ai ks).
Proof.
  intros H. revert p q. induction H as [|k ks b bs Hk _ IH]; intros p q HT; [constructor|]. cbn. apply Forall_cons_2.
  - eapply (known_kind _ _ p (bs ++ q)); [done|]. rewrite HT. by rewrite <- !app_assoc.
  - apply (IH (p ++ b) q). rewrite HT. by rewrite <- !app_assoc.
Qed.
Lemma known_zip bts ais : Forall known_type ais -> Forall (fun p : binary_type * option additional_type_info => known_type p.2) (zip bts ais).
Proof. intros H. revert bts. induction H as [|a ais Ha _ IH]; intros [|b bts]; try constructor; [done|apply IH]. Qed.
Lemma known_class_of i i' c : i ⊑s T -> class_records i = Ok i' c -> known_class c.
Proof.
  intros [k HT] H. apply class_records_exact in H as (bs & (h & -> & (b1 & b2 & b3 & b4 & b5 & _ & _ & _ & Ht & Hl & ->)) & ->).
  destruct h as [oid name names types lib]. cbn [ch_types ch_library ch_member_names] in *.
  assert (forall lid, lib = Some lid -> mentions T lid) as Hlib.
  { intros lid ->. destruct Hl as [_ ->]. rewrite HT. exists (k ++ class_code types (Some lid) :: b1 ++ b2 ++ b3 ++ b4), i'.
    rewrite <- !app_assoc. cbn [app]. by rewrite <- !app_assoc. }
  assert (forall ks, types = Some ks -> Forall (fun p : binary_type * option additional_type_info => known_type p.2) (zip (map kind_bt ks) (map kind_ai ks))) as Hks.
  { intros ks ->. destruct Ht as (c1 & c2 & _ & _ & Hi & ->). apply known_zip.
    eapply (known_kinds _ _ (k ++ class_code (Some ks) lib :: b1 ++ b2 ++ b3 ++ c1) (b5 ++ i')); [exact Hi|].
    rewrite HT. rewrite <- !app_assoc. cbn [app]. by rewrite <- !app_assoc. }
  destruct types as [ks|], lib as [lid|]; cbn; auto.
Qed.

Section methods.
Context (PC : state -> bytes -> state * res (N * obj value)).
Context (PR : state -> bytes -> state * res N).
Hypothesis HPC : forall s s2 i, agree s s2 -> i ⊑s T -> same (fun _ => True) (PC s i) (PC s2 i).
Hypothesis HPR : forall s s2 i, agree s s2 -> i ⊑s T -> same (fun _ => True) (PR s i) (PR s2 i).

Lemma same_untyped s s2 i : agree s s2 -> i ⊑s T -> same known (parse_member_untyped PC s i) (parse_member_untyped PC s2 i).
Proof.
  intros Ha Hi. eapply same_bind; [by apply same_lib|]. clear s s2 i Ha Hi. intros s s2 i _ Ha Hi _. unfold member_untyped_body.
  assert (rsafe i (alt (rmap VR_Value (member_primitive_typed i))
    (alt (parse_ref_member i) (alt (parse_string_member i) (parse_null_object i))))) as Hs.
  { apply gsafe_alt; [apply gsafe_map, member_primitive_typed_safe|]. apply gsafe_alt; [apply parse_ref_member_safe|].
    apply gsafe_alt; [apply parse_string_member_safe|apply parse_null_object_safe]. }
  assert (forall i' a, alt (rmap VR_Value (member_primitive_typed i))
    (alt (parse_ref_member i) (alt (parse_string_member i) (parse_null_object i))) = Ok i' a -> known a) as Hk.
  { intros i' a. apply known_alt; [apply known_typed|]. apply known_alt; [by apply known_ref|].
    apply known_alt; [apply known_string|apply known_null]. }
  destruct (alt _ _) as [i2 a|e|e|p|] eqn:E; try (by apply (same_pure _ _ _ i)).
  eapply same_smap; [|by apply HPC]. done.
Qed.
Lemma same_class_or_null ok s s2 i : agree s s2 -> i ⊑s T -> same known (class_or_null PC ok s i) (class_or_null PC ok s2 i).
Proof.
  intros Ha Hi. destruct (HPC s s2 i Ha Hi) as (E & Ha' & Hq). unfold class_or_null.
  destruct (PC s i) as [s1 r], (PC s2 i) as [s3 r3]. cbn [fst snd] in *. subst r3.
  destruct r as [i1 [id o]|e|e|p|].
  - destruct Hq. destruct (ok o); [by apply same_ok|by apply same_stop].
  - apply (same_pure _ _ _ i); [done|done|apply parse_null_object_safe|]. intros. by eapply known_null.
  - apply (same_pure _ _ _ i); [done|done|apply parse_null_object_safe|]. intros. by eapply known_null.
  - by apply same_stop.
  - by apply same_stop.
Qed.
Lemma same_typed_member bt ai s s2 i : known_type ai -> agree s s2 -> i ⊑s T ->
  same known (parse_member_typed PC bt ai s i) (parse_member_typed PC bt ai s2 i).
Proof.
  intros Hai Ha Hi. eapply same_bind; [by apply same_lib|]. clear s s2 i Ha Hi. intros s s2 i _ Ha Hi _.
  assert (forall r, same known (s, Panic r) (s2, Panic r)) as Hp by (intros r; by apply same_stop).
  destruct bt, ai as [[ty|ty|ty]|]; auto using same_untyped, same_class_or_null.
  - apply (same_pure _ _ _ i); [done|done|apply gsafe_map, member_primitive_untyped_safe|].
    intros i' a H. by apply rmap_ok in H as (v & _ & ->).
  - apply (same_pure _ _ _ i); [done|done|apply parse_string_member_safe|]. intros. by eapply known_string.
  - replace (st_libs s2 !! cti_library_id ty) with (st_libs s !! cti_library_id ty) by (by apply Ha).
    destruct (st_libs s !! _); [by apply same_class_or_null|by apply same_stop].
  - apply (same_pure _ _ _ i); [done|done| |].
    + apply gsafe_alt; [apply parse_string_member_safe|]. apply gsafe_alt; [apply parse_ref_member_safe|apply parse_null_object_safe].
    + intros i' a. apply known_alt; [apply known_string|]. apply known_alt; [by apply known_ref|apply known_null].
  - apply (same_pure _ _ _ i); [done|done|apply parse_ref_member_safe|]. intros. by eapply known_ref.
Qed.
Lemma same_members_typed l s s2 i : Forall (fun p => known_type p.2) l -> agree s s2 -> i ⊑s T ->
  same (Forall known) (parse_members_typed PC l s i) (parse_members_typed PC l s2 i).
Proof.
  revert s s2 i. induction l as [|[bt ai] l IH]; intros s s2 i Hl Ha Hi; [by apply same_ok|].
  inversion Hl as [|? ? Hai Hl']; subst. cbn [parse_members_typed].
  eapply same_bind; [by apply same_typed_member|]. intros s' s2' i1 m Ha1 H1 Hm.
  eapply same_bind; [by apply IH|]. intros s'' s2'' i2 ms Ha2 H2 Hms. apply same_ok; [done|done|]. by apply Forall_cons_2.
Qed.
Lemma same_scount_loop fuel n (p : state -> bytes -> sres value_or_ref) s s2 i :
  (forall s s2 i, agree s s2 -> i ⊑s T -> same known (p s i) (p s2 i)) -> agree s s2 -> i ⊑s T ->
  same (Forall known) (scount_loop fuel n p s i) (scount_loop fuel n p s2 i).
Proof.
  intros Hp. revert n s s2 i. induction fuel as [|fuel IH]; intros n s s2 i Ha Hi; cbn [scount_loop];
    (destruct (N.eqb n 0); [by apply same_ok|]); [by apply same_stop|].
  eapply same_bind; [by apply Hp|]. intros s' s2' i1 m Ha1 H1 Hm.
  eapply same_bind; [by apply IH|]. intros s'' s2'' i2 ms Ha2 H2 Hms. apply same_ok; [done|done|]. by apply Forall_cons_2.
Qed.
Lemma same_array_loop p fuel len cur s s2 i :
  (forall s s2 i, agree s s2 -> i ⊑s T -> same known (p s i) (p s2 i)) -> agree s s2 -> i ⊑s T ->
  same (Forall known) (array_loop p fuel len cur s i) (array_loop p fuel len cur s2 i).
Proof.
  intros Hp. revert cur s s2 i. induction fuel as [|fuel IH]; intros cur s s2 i Ha Hi; cbn [array_loop];
    (destruct (N.leb len cur); [by apply same_ok|]); [by apply same_stop|].
  eapply same_bind; [by apply Hp|]. intros s' s2' i1 m Ha1 H1 Hm.
  eapply same_bind; [by apply IH|]. intros s'' s2'' i2 ms Ha2 H2 Hms. apply same_ok; [done|done|].
  apply Forall_app. split; [|done]. destruct m as [v|n|id]; cbn; [by repeat constructor| |by repeat constructor].
  by apply Forall_replicate.
Qed.
Lemma same_verify id s s2 i : agree s s2 -> i ⊑s T ->
  same (fun id2 => id2 = id) (verify_referenceable PR id s i) (verify_referenceable PR id s2 i).
Proof.
  intros Ha Hi. destruct (HPR s s2 i Ha Hi) as (E & Ha' & Hq). unfold verify_referenceable.
  destruct (PR s i) as [s1 r], (PR s2 i) as [s3 r3]. cbn [fst snd] in *. subst r3.
  destruct r as [i1 id2|e|e|p|]; try (by apply same_stop). destruct (N.eqb_spec id2 id); [|by apply same_stop].
  destruct Hq. by apply same_ok.
Qed.
Lemma same_resolve ms s s2 i : Forall known ms -> agree s s2 -> i ⊑s T ->
  same (fun _ => True) (resolve_members PR ms s i) (resolve_members PR ms s2 i).
Proof.
  intros Hms. revert s s2 i. induction Hms as [|m ms Hm _ IH]; intros s s2 i Ha Hi; cbn [resolve_members]; [by apply same_ok|].
  destruct m as [v|n|id].
  - eapply same_bind; [by apply IH|]. intros. by apply same_ok.
  - eapply same_bind; [by apply IH|]. intros. by apply same_ok.
  - cbn in Hm. replace (st_objects s2 !! id) with (st_objects s !! id) by (apply Ha; by left).
    destruct (st_objects s !! id) as [v|].
    + eapply same_bind; [apply IH; [by apply agree_delete|done]|]. intros. by apply same_ok.
    + eapply same_bind; [by apply same_verify|]. intros s' s2' i1 id2 Ha1 H1 ->.
      replace (st_objects s2' !! id) with (st_objects s' !! id) by (apply Ha1; by left).
      destruct (st_objects s' !! id) as [v|]; [|by apply same_stop].
      eapply same_bind; [apply IH; [by apply agree_delete|done]|]. intros. by apply same_ok.
Qed.
Lemma same_class_body err oid c s s2 i : known_class c -> agree s s2 -> i ⊑s T ->
  same (fun _ => True) (parse_class_body PC PR err oid c s i) (parse_class_body PC PR err oid c s2 i).
Proof.
  intros Hc Ha Hi. unfold parse_class_body. replace (st_classes s) with (∅ : gmap N class_rec) by (symmetry; apply Ha).
  replace (st_classes s2) with (∅ : gmap N class_rec) by (symmetry; apply Ha).
  case_bool_decide; [by apply same_stop|].
  eapply (same_bind (fun lm : option str * list value_or_ref => Forall known lm.2)).
  - destruct c as [ci lid|ci mti lid|ci|ci mti]; cbn [known_class] in Hc.
    + replace (st_libs s2 !! lid) with (st_libs s !! lid) by (by apply Ha).
      destruct (st_libs s !! lid); [|by apply same_stop]. eapply same_smap; [|apply same_scount_loop; [|done|done]]; [done|].
      intros. by apply same_untyped.
    + destruct Hc as [Hl Hc]. replace (st_libs s2 !! lid) with (st_libs s !! lid) by (by apply Ha).
      destruct (st_libs s !! lid); [|by apply same_stop]. eapply same_smap; [|by apply same_members_typed]. done.
    + eapply same_smap; [|apply same_scount_loop; [|done|done]]; [done|]. intros. by apply same_untyped.
    + eapply same_smap; [|by apply same_members_typed]. done.
  - intros s' s2' i1 lm Ha1 H1 Hlm. eapply same_bind; [by apply same_resolve|]. intros. by apply same_ok.
Qed.
Lemma same_classes_body s s2 i : agree s s2 -> i ⊑s T ->
  same (fun _ => True) (parse_classes_body PC PR s i) (parse_classes_body PC PR s2 i).
Proof.
  intros Ha Hi. eapply same_bind; [by apply same_lib|]. clear s s2 i Ha Hi. intros s s2 i _ Ha Hi _.
  pose proof (class_with_id_safe i) as Hs1. pose proof (class_records_safe i) as Hs2.
  destruct (class_with_id i) as [i2 [oid mid]|e|e|p|]; try (by apply same_stop).
  - replace (st_classes s) with (∅ : gmap N class_rec) by (symmetry; apply Ha).
    replace (st_classes s2) with (∅ : gmap N class_rec) by (symmetry; apply Ha). rewrite lookup_empty. by apply same_stop.
  - destruct (class_records i) as [i2 c|e'|e'|p|] eqn:E; try (by apply same_stop).
    apply same_class_body; [by eapply known_class_of|done|by etrans].
Qed.
Lemma same_array_single_object s s2 i : agree s s2 -> i ⊑s T ->
  same (fun _ => True) (parse_array_single_object PC PR s i) (parse_array_single_object PC PR s2 i).
Proof.
  intros Ha Hi. unfold parse_array_single_object. pose proof (array_single_object_safe i) as Hs.
  destruct (array_single_object i) as [i1 ai|e|e|p|]; try (by apply same_stop). assert (i1 ⊑s T) as Hi1 by (by etrans).
  eapply same_bind; [apply same_array_loop; [intros; by apply same_untyped|done|done]|]. intros s' s2' i2 ms Ha2 H2 Hms.
  eapply same_bind; [by apply same_resolve|]. intros. by apply same_ok.
Qed.
Lemma same_array_single_string s s2 i : agree s s2 -> i ⊑s T ->
  same (fun _ => True) (parse_array_single_string PC PR s i) (parse_array_single_string PC PR s2 i).
Proof.
  intros Ha Hi. unfold parse_array_single_string. pose proof (array_single_string_safe i) as Hs.
  destruct (array_single_string i) as [i1 ai|e|e|p|]; try (by apply same_stop). assert (i1 ⊑s T) as Hi1 by (by etrans).
  eapply same_bind; [apply same_array_loop; [intros; by apply same_typed_member|done|done]|]. intros s' s2' i2 ms Ha2 H2 Hms.
  eapply same_bind; [by apply same_resolve|]. intros. by apply same_ok.
Qed.
Lemma same_array_single_primitive s s2 i : agree s s2 -> i ⊑s T ->
  same (fun _ => True) (parse_array_single_primitive s i) (parse_array_single_primitive s2 i).
Proof.
  intros Ha Hi. apply (same_pure _ _ _ i); [done|done| |done].
  eapply gsafe_bind; [apply array_single_primitive_safe|]. intros i1 a.
  eapply gsafe_bind; [apply count_safe; [intros; apply member_primitive_untyped_safe|apply member_primitive_untyped_strict]|]. intros i2 vs. by exists [].
Qed.
Lemma same_binary_array s s2 i : agree s s2 -> i ⊑s T ->
  same (fun _ => True) (parse_binary_array PC PR s i) (parse_binary_array PC PR s2 i).
Proof.
  intros Ha Hi. unfold parse_binary_array. pose proof (binary_array_safe i) as Hs.
  destruct (binary_array_parse i) as [i1 ba|e|e|p|] eqn:E; try (by apply same_stop). assert (i1 ⊑s T) as Hi1 by (by etrans).
  destruct (checked_product _ _); [|by apply same_stop].
  assert (known_type (ba_additional_type_info ba)) as Hk.
  { apply binary_array_exact in E as (bs & (k & _ & -> & (b1 & b2 & b3 & b4 & b5 & _ & _ & _ & _ & Hk & ->)) & ->).
    destruct Hi as [j HT]. eapply (known_kind k b5 (j ++ x07 :: b1 ++ n2b (bat_code (ba_array_type ba)) :: b2 ++ b3 ++ b4) i1); [done|].
    rewrite HT. rewrite <- !app_assoc. cbn [app]. rewrite <- !app_assoc. cbn [app]. by rewrite <- !app_assoc. }
  eapply same_bind; [apply same_scount_loop; [intros; by apply same_typed_member|done|done]|]. intros s' s2' i2 ms Ha2 H2 Hms.
  eapply same_bind; [by apply same_resolve|]. intros s'' s2'' i3 vs Ha3 H3 _.
  pose proof (chunk_dims_input (rev (drop 1 (ba_lengths ba))) vs i3) as E1.
  destruct (chunk_dims _ vs i3) as [i4 out|e|e|p|]; cbn [bind]; try (by apply same_stop). subst i4. by apply same_ok.
Qed.
Lemma same_alt_end {A} (Q : A -> Prop) s s2 i : agree s s2 -> same Q (alt_mut_end i s) (alt_mut_end i s2).
Proof. intros Ha. by apply same_stop. Qed.
Lemma same_arrays s s2 i : agree s s2 -> i ⊑s T ->
  same (fun _ => True) (parse_arrays PC PR s i) (parse_arrays PC PR s2 i).
Proof.
  intros Ha Hi. eapply same_bind; [by apply same_lib|]. clear s s2 i Ha Hi. intros s s2 i _ Ha Hi _.
  apply same_alt_mut; [by apply same_array_single_object|]. clear s s2 Ha. intros s s2 Ha.
  apply same_alt_mut; [by apply same_array_single_primitive|]. clear s s2 Ha. intros s s2 Ha.
  apply same_alt_mut; [by apply same_array_single_string|]. clear s s2 Ha. intros s s2 Ha.
  apply same_alt_mut; [by apply same_binary_array|]. clear s s2 Ha. intros s s2 Ha. by apply same_alt_end.
Qed.
Lemma same_referenceable_body s s2 i : agree s s2 -> i ⊑s T ->
  same (fun _ => True) (parse_referenceable_body PC PR s i) (parse_referenceable_body PC PR s2 i).
Proof.
  intros Ha Hi. eapply (same_bind (fun _ => True)).
  - apply same_alt_mut; [by eapply same_smap; [|by apply HPC]|]. clear s s2 Ha. intros s s2 Ha.
    apply same_alt_mut; [by eapply same_smap; [|by apply same_arrays]|]. clear s s2 Ha. intros s s2 Ha.
    apply same_alt_mut; [apply (same_pure _ _ _ i); [done|done|apply gsafe_map, binary_object_string_safe|done]|].
    clear s s2 Ha. intros s s2 Ha. by apply same_alt_end.
  - clear s s2 i Ha Hi. intros s s2 i [id v] Ha Hi _. apply same_ok; [by apply agree_insert|done|done].
Qed.
End methods.

Lemma same_classes_referenceable f : forall s s2 i, agree s s2 -> i ⊑s T ->
  same (fun _ => True) (parse_classes f s i) (parse_classes f s2 i)
  /\ same (fun _ => True) (parse_referenceable f s i) (parse_referenceable f s2 i).
Proof.
  induction f as [|f IH]; intros s s2 i Ha Hi; [split; by apply same_stop|].
  rewrite !parse_classes_S, !parse_referenceable_S. split.
  - apply same_classes_body; [| |done|done]; intros; by apply IH.
  - apply same_referenceable_body; [| |done|done]; intros; by apply IH.
Qed.
Lemma same_referenceables lf f s s2 i : agree s s2 -> i ⊑s T ->
  same (fun _ => True) (parse_referenceables lf f s i) (parse_referenceables lf f s2 i).
Proof.
  revert s s2 i. induction lf as [|lf IH]; intros s s2 i Ha Hi; cbn [parse_referenceables]; [by apply same_stop|].
  destruct (same_classes_referenceable f s s2 i Ha Hi) as [_ (E & Ha' & Hq)].
  destruct (parse_referenceable f s i) as [s1 r], (parse_referenceable f s2 i) as [s3 r3]. cbn [fst snd] in *. subst r3.
  destruct r as [i1 id|e|e|p|]; try (by apply same_stop); [|by apply same_ok]. destruct Hq. by apply IH.
Qed.
Lemma same_sopt {A} (Q : A -> Prop) i r r2 : i ⊑s T -> same Q r r2 -> same (fun _ => True) (sopt i r) (sopt i r2).
Proof.
  intros Hi (E & Ha & Hq). destruct r as [s r], r2 as [s2 r2]. cbn [fst snd] in *. subst r2. unfold sopt. cbn [fst snd].
  destruct r; cbn [opt]; try (by apply same_stop); [|by apply same_ok]. destruct Hq. by apply same_ok.
Qed.
Lemma same_call_array f s s2 i : agree s s2 -> i ⊑s T ->
  same (fun _ => True) (parse_call_array f root s i) (parse_call_array f root s2 i).
Proof.
  intros Ha Hi. eapply same_bind; [by apply same_lib|]. clear s s2 i Ha Hi. intros s s2 i _ Ha Hi _.
  eapply same_bind; [apply same_array_single_object; [| |done|done]; intros; by apply same_classes_referenceable|].
  clear s s2 i Ha Hi. intros s s2 i a Ha Hi _. case_bool_decide; [by apply same_ok|by apply same_stop].
Qed.
Lemma parse_args_input flags ca inl i : match parse_args flags ca inl i with Ok i' _ => i' = i | _ => True end.
Proof.
  unfold parse_args. destruct (intersects flags MF_ARGS_IS_ARRAY); [by destruct ca|].
  destruct (intersects flags MF_ARGS_IN_ARRAY); [|done]. by destruct ca as [[|[] ?]|].
Qed.
Lemma same_method f s s2 i : agree s s2 -> i ⊑s T ->
  same (fun _ => True) (parse_method_call_or_return f root s i) (parse_method_call_or_return f root s2 i).
Proof.
  intros Ha Hi.
  apply same_alt_mut; [|clear s s2 Ha; intros s s2 Ha; apply same_alt_mut; [|intros; by apply same_alt_end]].
  - eapply (same_smap _ (fun _ => True)); [done|]. eapply same_bind; [by apply same_lib|]. clear s s2 i Ha Hi. intros s s2 i _ Ha Hi _.
    pose proof (method_call_safe i) as Hs. destruct (binary_method_call_parse i) as [i1 c|e|e|p|]; try (by apply same_stop).
    assert (i1 ⊑s T) as Hi1 by (by etrans).
    eapply same_bind; [eapply same_sopt; [done|by apply same_call_array]|]. clear s s2 Ha. intros s s2 i2 ca Ha Hi2 _.
    pose proof (parse_args_input (bmc_message_enum c) ca (bmc_args c) i2) as E.
    destruct (parse_args _ _ _ _) as [i3 args|e|e|p|]; cbn [bind]; try (by apply same_stop). subst i3. by apply same_ok.
  - eapply (same_smap _ (fun _ => True)); [done|]. eapply same_bind; [by apply same_lib|]. clear s s2 i Ha Hi. intros s s2 i _ Ha Hi _.
    pose proof (method_return_safe i) as Hs. destruct (binary_method_return_parse i) as [i1 c|e|e|p|]; try (by apply same_stop).
    assert (i1 ⊑s T) as Hi1 by (by etrans).
    eapply same_bind; [eapply same_sopt; [done|by apply same_call_array]|]. clear s s2 Ha. intros s s2 i2 ca Ha Hi2 _.
    pose proof (parse_args_input (bmr_message_enum c) ca (bmr_args c) i2) as E.
    destruct (parse_args _ _ _ _) as [i3 args|e|e|p|]; cbn [bind]; try (by apply same_stop). subst i3. by apply same_ok.
Qed.
End rest.

(** The results of two messages with the same root that end alike. *)
Lemma agree_outcome root hb hb2 i i2 e e2 T :
  e_header root hb -> e_header root hb2 ->
  g_objects empty_env i e T -> g_objects empty_env i2 e2 T ->
  agree T root (st e) (st e2) -> deserialize (hb ++ i) = deserialize (hb2 ++ i2).
Proof.
  intros Hh Hh2 Ho Ho2 Ha. set (F := 2 * length (hb ++ i) + 2 + (2 * length (hb2 ++ i2) + 2)).
  destruct (run_prefix root hb i e T F Hh Ho) as (lf & Hlf & E1); [lia|].
  destruct (run_prefix root hb2 i2 e2 T F Hh2 Ho2) as (lf2 & Hlf2 & E2); [lia|].
  pose proof (deserialize_safe (hb ++ i)) as S1. pose proof (deserialize_safe (hb2 ++ i2)) as S2.
  set (L := lf + lf2).
  assert (forall e lf, lf <= L -> (parse_referenceables lf F (st e) T).2 <> Diverge ->
    parse_referenceables lf F (st e) T = parse_referenceables L F (st e) T) as HL.
  { intros e0 l Hl Hd. destruct (sle_referenceables l L F F (st e0) T) as [Hd'|Hd']; [lia|lia|done|done]. }
  rewrite HL in E1; [|lia|]. 2:{ intros Hd. rewrite E1 in S1. destruct (parse_referenceables lf F (st e) T) as [s r]. cbn in Hd. by subst r. }
  rewrite HL in E2; [|lia|]. 2:{ intros Hd. rewrite E2 in S2. destruct (parse_referenceables lf2 F (st e2) T) as [s r]. cbn in Hd. by subst r. }
  rewrite E1, E2. clear E1 E2 HL S1 S2. f_equal.
  match goal with |- ?x.2 = ?y.2 => enough (same T root (fun _ => True) x y) as [H _]; [exact H|] end.
  eapply same_bind; [apply same_referenceables; [exact Ha|by exists []]|]. intros s s2 j _ Hs Hj _.
  eapply same_bind; [eapply same_sopt; [done|by apply same_method]|]. clear s s2 j Hs Hj. intros s s2 j m Hs Hj _.
  eapply same_bind; [by apply same_referenceables|]. clear s s2 j Hs Hj. intros s s2 j _ Hs Hj _.
  pose proof (message_end_safe j) as Hsf.
  destruct (message_end j) as [j1 u|er|er|p|]; try (by apply same_stop).
  assert (j1 ⊑s T) as Hj1 by (by etrans).
  destruct j1 as [|c j1]; [|by apply same_stop]. destruct m as [m|]; [by apply same_ok|].
  destruct root as [r|]; [|by apply same_ok]. 
  replace (st_objects s2 !! r) with (st_objects s !! r) by (apply Hs; by right).
  destruct (st_objects s !! r); [apply same_ok; [by apply agree_delete|done|done]|by apply same_stop].
Qed.
End with_decimal.
