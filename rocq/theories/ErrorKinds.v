(** * ErrorKinds: which kinds of errors the parser can report. *)
From Verif Require Import Base Utf8 Value DataTypes Records Parser Wire BaseLemmas DataTypesLemmas
  RecordsLemmas MethodLemmas SafetyLemmas Safety PropsA.
From Coq Require Import Lia.

Section with_decimal.
Context {DL : DecimalLib}.

(** Failures that can come up while a record is read. *)
Definition failing (k : error_inner) : Prop :=
  match k with
  | E_Eof | E_TrailingData | E_UnresolvableMemberReference | E_MissingRootObject
  | E_DuplicateObjectId | E_ExpectedRecordType _ | E_ExpectedPrimitive PT_Null => False
  | E_ExpectedPrimitive PT_Decimal =>
      exists s, utf8 s /\ (N.of_nat (length s) < 2 ^ 31)%N /\ dec_from_str s = None
  | _ => True
  end.

Definition fk {A} (r : res A) : Prop := match r with Fail e => failing (e_inner e) | _ => True end.
(** nom's own results that never fail. *)
Definition nf {A} (r : nres A) : Prop := match r with Fail _ => False | _ => True end.

Lemma fk_bind {A B} (r : res A) (k : bytes -> A -> res B) :
  fk r -> (forall i a, r = Ok i a -> fk (k i a)) -> fk (bind r k).
Proof. intros H Hk. destruct r; simpl in *; try done. by apply Hk. Qed.
Lemma fk_map {A B} (f : A -> B) (r : res A) : fk r -> fk (rmap f r).
Proof. by destruct r. Qed.
Lemma fk_at_err' {A} k (r : res A) : failing k -> fk (map_err (at_err' k) r).
Proof. by destruct r. Qed.
Lemma fk_at_err {A} k (r : nres A) : failing k -> fk (map_err (at_err k) r).
Proof. by destruct r. Qed.
Lemma fk_at_err_nf {A} k (r : nres A) : nf r -> fk (map_err (at_err k) r).
Proof. by destruct r. Qed.
Lemma fk_alt {A} (r r' : res A) : fk r -> fk r' -> fk (alt r r').
Proof. by destruct r. Qed.
Lemma fk_opt {A} i (r : res A) : fk r -> fk (opt i r).
Proof. by destruct r. Qed.
Lemma fk_cond {A} b (p : bytes -> res A) i : fk (p i) -> fk (cond b p i).
Proof. intros H. destruct b; [by apply fk_map|done]. Qed.
Lemma fk_count {A} n (p : bytes -> res A) i : (forall i, fk (p i)) -> fk (count n p i).
Proof.
  intros Hp. unfold count. generalize (S (length i)) as f. intros f. revert n i.
  induction f as [|f IH]; intros n i; cbn [count_loop]; destruct (N.eqb n 0); try done.
  apply fk_bind; [done|]. intros. by apply fk_bind.
Qed.
Lemma fk_length_count {A} l (p : bytes -> res A) i :
  (forall i, fk (l i)) -> (forall i, fk (p i)) -> fk (length_count l p i).
Proof. intros. apply fk_bind; [done|]. intros. by apply fk_count. Qed.

Lemma fk_number {A} k (r : nres A) : failing (E_ExpectedPrimitive k) -> fk (prim_number k r).
Proof. by destruct r. Qed.
Lemma fk_int32 i : fk (int32_parse i). Proof. by apply fk_number. Qed.
Lemma fk_byte i : fk (byte_parse i). Proof. by apply fk_number. Qed.
Lemma fk_positive k i : failing k -> fk (positive_id k i).
Proof.
  intros Hk. unfold positive_id. pose proof (fk_int32 i) as H. destruct (int32_parse i); try done.
  destruct (Z.ltb _ _); done.
Qed.
Lemma fk_object_id i : fk (object_id i). Proof. by apply fk_positive. Qed.
Lemma fk_library_id i : fk (library_id i). Proof. by apply fk_positive. Qed.
Lemma fk_length i : fk (length_parse i).
Proof.
  unfold length_parse. pose proof (fk_int32 i) as H. destruct (int32_parse i); try done.
  destruct (Z.leb _ _); done.
Qed.
Lemma fk_lps i : fk (lps_parse i). Proof. by apply fk_at_err. Qed.
Lemma fk_record rt i : fk (record_type_parse rt i).
Proof.
  apply fk_at_err_nf. destruct i as [|b i]; cbn; [done|]. by destruct (N.eqb _ _).
Qed.
Lemma fk_decimal i : fk (decimal_parse i).
Proof.
  unfold decimal_parse. apply fk_bind; [apply fk_lps|]. intros i' s Hs.
  destruct (dec_from_str s) eqn:E; [done|]. cbn [fk e_inner failing].
  apply lps_exact in Hs as (bs & (p & Hp & _ & Hu) & _). exists s. split; [done|].
  split; [by eapply len_prefix_small|done].
Qed.
Lemma fk_primitive_type i : fk (primitive_type_parse i). Proof. by apply fk_at_err. Qed.
Lemma fk_binary_type i : fk (binary_type_parse i). Proof. by apply fk_at_err. Qed.
Lemma fk_binary_array_type i : fk (binary_array_type_parse i). Proof. by apply fk_at_err. Qed.

Create HintDb fk discriminated.
Ltac fk :=
  repeat first
    [ solve [auto 1 with fk nocore] | apply fk_int32 | apply fk_byte | apply fk_object_id | apply fk_library_id | apply fk_length
    | apply fk_lps | apply fk_record | apply fk_decimal | apply fk_primitive_type | apply fk_binary_type
    | apply fk_binary_array_type
    | apply fk_bind; [|intros ? ? _] | apply fk_map | apply fk_alt | apply fk_cond | apply fk_count; intros ?
    | apply fk_length_count; intros ? | by apply fk_number | by apply fk_at_err' | by apply fk_at_err | exact I ].

Lemma fk_class_type_info i : fk (class_type_info_parse i). Proof. unfold class_type_info_parse. fk. Qed.
#[local] Hint Resolve fk_class_type_info : fk.
Lemma fk_additional i b : fk (additional_type_info_parse i b).
Proof. destruct b; cbn [additional_type_info_parse]; fk. Qed.
#[local] Hint Resolve fk_additional : fk.
Lemma fk_array_info i : fk (array_info_parse i). Proof. unfold array_info_parse. fk. Qed.
#[local] Hint Resolve fk_array_info : fk.
Lemma fk_class_info' i : fk (class_info_parse' i). Proof. by apply fk_at_err'. Qed.
#[local] Hint Resolve fk_class_info' : fk.
Lemma fk_additionals l i : fk (additional_infos_parse i l).
Proof.
  revert i. induction l as [|b l IH]; intros i; cbn [additional_infos_parse]; [done|].
  apply fk_bind; [apply fk_additional|]. intros. apply fk_bind; [apply IH|]. done.
Qed.
#[local] Hint Resolve fk_additionals : fk.
Lemma fk_member_types i c : fk (member_type_info_parse i c).
Proof. unfold member_type_info_parse. fk. Qed.
#[local] Hint Resolve fk_member_types : fk.
Lemma fk_untyped i p : fk (member_primitive_untyped i p).
Proof. destruct p; cbn [member_primitive_untyped]; fk. Qed.
#[local] Hint Resolve fk_untyped : fk.
Lemma fk_typed i : fk (member_primitive_typed i).
Proof. unfold member_primitive_typed. fk. Qed.
#[local] Hint Resolve fk_typed : fk.
Lemma fk_value_with_code i : fk (value_with_code i).
Proof.
  unfold value_with_code. apply fk_bind; [fk|]. intros i' p _. destruct p; fk.
Qed.
#[local] Hint Resolve fk_value_with_code : fk.
Lemma fk_string_with_code i : fk (string_value_with_code i).
Proof. unfold string_value_with_code. fk. Qed.
#[local] Hint Resolve fk_string_with_code : fk.
Lemma fk_values i : fk (array_of_value_with_code i).
Proof. apply fk_length_count; intros; [apply fk_length|apply fk_value_with_code]. Qed.
#[local] Hint Resolve fk_values : fk.
Lemma fk_reference i : fk (member_reference i). Proof. unfold member_reference. fk. Qed.
#[local] Hint Resolve fk_reference : fk.
Lemma fk_null i : fk (object_null i). Proof. unfold object_null. fk. Qed.
#[local] Hint Resolve fk_null : fk.
Lemma fk_nulls i : fk (object_null_multiple i).
Proof.
  unfold object_null_multiple. apply fk_bind; [fk|]. intros i' ? _.
  pose proof (fk_int32 i') as H. destruct (int32_parse i'); try done. by destruct (Z.ltb _ _).
Qed.
#[local] Hint Resolve fk_nulls : fk.
Lemma fk_nulls_256 i : fk (object_null_multiple_256 i).
Proof.
  unfold object_null_multiple_256. apply fk_bind; [fk|]. intros i' ? _.
  pose proof (fk_byte i') as H. destruct (byte_parse i'); try done. by destruct (N.ltb _ _).
Qed.
#[local] Hint Resolve fk_nulls_256 : fk.
Lemma fk_string i : fk (binary_object_string i). Proof. unfold binary_object_string. fk. Qed.
#[local] Hint Resolve fk_string : fk.
Lemma fk_library i : fk (binary_library i). Proof. unfold binary_library. fk. Qed.
#[local] Hint Resolve fk_library : fk.
Lemma fk_class_records i : fk (class_records i).
Proof.
  unfold class_records, class_with_members, class_with_members_and_types, system_class_with_members,
    system_class_with_members_and_types.
  fk.
Qed.
#[local] Hint Resolve fk_class_records : fk.
Lemma fk_class_with_id i : fk (class_with_id i).
Proof. unfold class_with_id. fk. by destruct (N.eqb _ _). Qed.
#[local] Hint Resolve fk_class_with_id : fk.
Lemma fk_array_object i : fk (array_single_object i).
Proof. unfold array_single_object. fk. Qed.
#[local] Hint Resolve fk_array_object : fk.
Lemma fk_array_string i : fk (array_single_string i).
Proof. unfold array_single_string. fk. Qed.
#[local] Hint Resolve fk_array_string : fk.
Lemma fk_array_primitive i : fk (array_single_primitive i).
Proof. unfold array_single_primitive. fk. Qed.
#[local] Hint Resolve fk_array_primitive : fk.
Lemma fk_binary_array i : fk (binary_array_parse i).
Proof. unfold binary_array_parse. fk. Qed.
#[local] Hint Resolve fk_binary_array : fk.
Lemma fk_flags i : fk (message_flags_parse i).
Proof.
  unfold message_flags_parse. apply fk_bind; [by apply fk_at_err'|]. intros.
  repeat (match goal with |- fk (if ?b then _ else _) => destruct b end); done.
Qed.
#[local] Hint Resolve fk_flags : fk.
Lemma fk_method_call i : fk (binary_method_call_parse i).
Proof.
  unfold binary_method_call_parse.
  fk.
Qed.
#[local] Hint Resolve fk_method_call : fk.
Lemma fk_method_return i : fk (binary_method_return_parse i).
Proof.
  unfold binary_method_return_parse.
  fk.
Qed.
#[local] Hint Resolve fk_method_return : fk.
Lemma fk_null_object i : fk (parse_null_object i).
Proof. unfold parse_null_object. fk. Qed.
#[local] Hint Resolve fk_null_object : fk.
Lemma fk_string_member i : fk (parse_string_member i).
Proof. unfold parse_string_member. fk. Qed.
#[local] Hint Resolve fk_string_member : fk.
Lemma fk_ref_member i : fk (parse_ref_member i).
Proof. unfold parse_ref_member. fk. Qed.
#[local] Hint Resolve fk_ref_member : fk.

(** ** With the parser state *)

Definition sk {A} (Q : state -> A -> Prop) (r : sres A) : Prop :=
  st_classes r.1 = ∅ /\
  match r.2 with Ok _ a => Q r.1 a | Fail e => failing (e_inner e) | _ => True end.
Notation any := (fun _ _ => True).

Lemma sk_bind {A B} (Q : state -> A -> Prop) (R : state -> B -> Prop) r f :
  sk Q r -> (forall s i a, st_classes s = ∅ -> Q s a -> sk R (f s i a)) -> sk R (sbind r f).
Proof.
  intros [H1 H2] Hf. destruct r as [s [i a|e|e|p|]]; simpl in *; try done. by apply Hf.
Qed.
Lemma sk_smap {A B} (f : A -> B) r : sk any r -> sk any (smap f r).
Proof. intros [H1 H2]. split; [done|]. by destruct r as [s []]. Qed.
Lemma sk_alt {A} Q (r : sres A) next :
  sk Q r -> (forall s, st_classes s = ∅ -> sk Q (next s)) -> sk Q (alt_mut r next).
Proof. intros [H1 H2] Hn. destruct r as [s []]; try done. by apply Hn. Qed.
Lemma sk_pure {A} s (r : res A) : st_classes s = ∅ -> fk r -> sk any (s, r).
Proof. intros H1 H2. split; [done|]. by destruct r. Qed.
Lemma sk_fail {A} (Q : state -> A -> Prop) s e : st_classes s = ∅ -> failing (e_inner e) -> sk Q (s, Fail e).
Proof. done. Qed.
Lemma sk_ok {A} (Q : state -> A -> Prop) s i a : st_classes s = ∅ -> Q s a -> sk Q (s, Ok i a).
Proof. done. Qed.
Lemma sk_count {A} n (p : state -> bytes -> sres A) s i :
  (forall s i, st_classes s = ∅ -> sk any (p s i)) -> st_classes s = ∅ -> sk any (scount n p s i).
Proof.
  intros Hp Hs. unfold scount. generalize (S (length i)) as f. intros f. revert n s i Hs.
  induction f as [|f IH]; intros n s i Hs; cbn [scount_loop]; destruct (N.eqb n 0); try done.
  eapply sk_bind; [by apply Hp|]. intros s1 i1 a H1 _. eapply sk_bind; [by apply IH|]. intros. by apply sk_ok.
Qed.

Lemma sk_library s i : st_classes s = ∅ -> sk any (parse_binary_library s i).
Proof.
  intros Hs. unfold parse_binary_library. pose proof (fk_opt i _ (fk_library i)) as H.
  destruct (opt i (binary_library i)) as [j [[lid n]|]| | | |]; try done.
  by destruct (bool_decide _).
Qed.

Section methods.
Context (PC : state -> bytes -> sres (N * obj value)) (PR : state -> bytes -> sres N).
Hypothesis HPC : forall s i, st_classes s = ∅ -> sk any (PC s i).
Hypothesis HPR : forall s i, st_classes s = ∅ -> sk (fun s id => is_Some (st_objects s !! id)) (PR s i).

Lemma sk_untyped_body s i : st_classes s = ∅ -> sk any (member_untyped_body PC s i).
Proof.
  intros Hs. unfold member_untyped_body.
  match goal with |- sk _ (match ?r with _ => _ end) => assert (fk r) as H end.
  { fk; first [apply fk_typed|apply fk_ref_member|apply fk_string_member|apply fk_null_object]. }
  destruct (alt _ _); try done. by apply sk_smap, HPC.
Qed.
Lemma sk_untyped s i : st_classes s = ∅ -> sk any (parse_member_untyped PC s i).
Proof. intros Hs. eapply sk_bind; [by apply sk_library|]. intros. by apply sk_untyped_body. Qed.
Lemma sk_class_or_null ok s i : st_classes s = ∅ -> sk any (class_or_null PC ok s i).
Proof.
  intros Hs. unfold class_or_null. pose proof (HPC s i Hs) as [H1 H2].
  pose proof (fk_null_object i) as Hn.
  destruct (PC s i) as [s1 [j [id o]|e|e|p|]]; cbn [fst snd] in *; try done; try by apply sk_pure.
  by destruct (ok o).
Qed.
Lemma sk_typed bt ai s i : st_classes s = ∅ -> sk any (parse_member_typed PC bt ai s i).
Proof.
  intros Hs. eapply sk_bind; [by apply sk_library|]. intros s1 i1 _ H1 _.
  destruct bt, ai as [[p|n|c]|]; try done; try (by apply sk_untyped); try (by apply sk_class_or_null);
    try (apply sk_pure; [done|]; fk; first [apply fk_untyped|apply fk_ref_member|apply fk_string_member|apply fk_null_object]).
  destruct (st_libs s1 !! _); [by apply sk_class_or_null|by apply sk_fail].
Qed.
Lemma sk_members l s i : st_classes s = ∅ -> sk any (parse_members_typed PC l s i).
Proof.
  revert s i. induction l as [|[bt ai] l IH]; intros s i Hs; cbn [parse_members_typed]; [done|].
  eapply sk_bind; [by apply sk_typed|]. intros s1 i1 m H1 _.
  eapply sk_bind; [by apply IH|]. intros. by apply sk_ok.
Qed.
Lemma sk_resolve ms s i : st_classes s = ∅ -> sk any (resolve_members PR ms s i).
Proof.
  revert s i. induction ms as [|[v|n|id] ms IH]; intros s i Hs; cbn [resolve_members]; [done| | |].
  - eapply sk_bind; [by apply IH|]. intros. by apply sk_ok.
  - eapply sk_bind; [by apply IH|]. intros. by apply sk_ok.
  - destruct (st_objects s !! id) as [v|].
    + eapply sk_bind; [by apply IH|]. intros. by apply sk_ok.
    + eapply sk_bind with (Q := fun s id => is_Some (st_objects s !! id)).
      * unfold verify_referenceable. pose proof (HPR s i Hs) as [H1 H2].
        destruct (PR s i) as [s1 [j id2|e|e|p|]]; try done. by destruct (N.eqb id2 id).
      * intros s1 i1 id2 H1 [v ->]. eapply sk_bind; [by apply IH|]. intros. by apply sk_ok.
Qed.
Lemma sk_class_body err oid c s i : st_classes s = ∅ -> sk any (parse_class_body PC PR err oid c s i).
Proof.
  intros Hs. unfold parse_class_body. rewrite Hs, lookup_empty. rewrite bool_decide_false by (by intros [? ?]).
  assert (forall s i n, st_classes s = ∅ -> sk any (scount n (parse_member_untyped PC) s i)) as Hu.
  { intros. apply sk_count; [|done]. intros. by apply sk_untyped. }
  eapply sk_bind with (Q := any).
  - destruct c as [ci lid|ci mti lid|ci|ci mti]; try (destruct (st_libs s !! lid); [|by apply sk_fail]);
      apply sk_smap; try (by apply Hu); by apply sk_members.
  - intros s1 i1 lm H1 _. eapply sk_bind; [by apply sk_resolve|]. intros. by apply sk_ok.
Qed.
Lemma sk_classes_body s i : st_classes s = ∅ -> sk any (parse_classes_body PC PR s i).
Proof.
  intros Hs. eapply sk_bind; [by apply sk_library|]. intros s1 i1 _ H1 _.
  pose proof (fk_class_with_id i1) as Hw. pose proof (fk_class_records i1) as Hr.
  destruct (class_with_id i1) as [j [oid mid]|e|e|p|]; try done.
  - destruct (st_classes s1 !! mid); [by apply sk_class_body|by apply sk_fail].
  - destruct (class_records i1); try done. by apply sk_class_body.
Qed.
Lemma sk_array_loop p f len cur s i :
  (forall s i, st_classes s = ∅ -> sk any (p s i)) -> st_classes s = ∅ -> sk any (array_loop p f len cur s i).
Proof.
  intros Hp. revert cur s i. induction f as [|f IH]; intros cur s i Hs; cbn [array_loop];
    destruct (N.leb len cur); try done.
  eapply sk_bind; [by apply Hp|]. intros. eapply sk_bind; [by apply IH|]. intros. by apply sk_ok.
Qed.
Lemma sk_array_object s i : st_classes s = ∅ -> sk any (parse_array_single_object PC PR s i).
Proof.
  intros Hs. unfold parse_array_single_object. pose proof (fk_array_object i) as H.
  destruct (array_single_object i); try done.
  eapply sk_bind; [apply sk_array_loop; [intros; by apply sk_untyped|done]|]. intros.
  eapply sk_bind; [by apply sk_resolve|]. intros. by apply sk_ok.
Qed.
Lemma sk_array_string s i : st_classes s = ∅ -> sk any (parse_array_single_string PC PR s i).
Proof.
  intros Hs. unfold parse_array_single_string. pose proof (fk_array_string i) as H.
  destruct (array_single_string i); try done.
  eapply sk_bind; [apply sk_array_loop; [intros; by apply sk_typed|done]|]. intros.
  eapply sk_bind; [by apply sk_resolve|]. intros. by apply sk_ok.
Qed.
Lemma fk_chunk_loop f l vs i : fk (chunk_loop f l vs i).
Proof.
  revert vs i. induction f as [|f IH]; intros [|v vs] i; try done. cbn [chunk_loop].
  destruct (Nat.ltb _ _); [done|]. apply fk_bind; [apply IH|]. done.
Qed.
Lemma fk_chunk_dims ds vs i : fk (chunk_dims ds vs i).
Proof.
  revert vs i. induction ds as [|d ds IH]; intros vs i; [done|]. cbn [chunk_dims].
  apply fk_bind; [apply fk_chunk_loop|]. intros. apply IH.
Qed.
Lemma sk_binary_array s i : st_classes s = ∅ -> sk any (parse_binary_array PC PR s i).
Proof.
  intros Hs. unfold parse_binary_array. pose proof (fk_binary_array i) as H.
  destruct (binary_array_parse i); try done. destruct (checked_product _ _); [|by apply sk_fail].
  eapply sk_bind; [apply sk_count; [intros; by apply sk_typed|done]|]. intros.
  eapply sk_bind; [by apply sk_resolve|]. intros. apply sk_pure; [done|].
  apply fk_bind; [apply fk_chunk_dims|]. done.
Qed.
Lemma sk_arrays s i : st_classes s = ∅ -> sk any (parse_arrays PC PR s i).
Proof.
  intros Hs. eapply sk_bind; [by apply sk_library|]. intros s1 i1 _ H1 _.
  apply sk_alt; [by apply sk_array_object|]. intros s2 H2.
  apply sk_alt; [apply sk_pure; [done|]|].
  { apply fk_bind; [apply fk_array_primitive|]. intros. apply fk_bind; [|done]. apply fk_count. intros. apply fk_untyped. }
  intros s3 H3. apply sk_alt; [by apply sk_array_string|]. intros s4 H4.
  apply sk_alt; [by apply sk_binary_array|]. done.
Qed.
Lemma sk_referenceable_body s i :
  st_classes s = ∅ -> sk (fun s id => is_Some (st_objects s !! id)) (parse_referenceable_body PC PR s i).
Proof.
  intros Hs. unfold parse_referenceable_body. eapply sk_bind with (Q := any).
  - apply sk_alt; [by apply sk_smap, HPC|]. intros s1 H1.
    apply sk_alt; [by apply sk_smap, sk_arrays|]. intros s2 H2.
    apply sk_alt; [apply sk_pure; [done|]; apply fk_map, fk_string|]. done.
  - intros s1 i1 io H1 _. split; [done|]. cbn. rewrite lookup_insert. eauto.
Qed.
End methods.

Lemma sk_parse f : (forall s i, st_classes s = ∅ -> sk any (parse_classes f s i)) /\
  (forall s i, st_classes s = ∅ -> sk (fun s id => is_Some (st_objects s !! id)) (parse_referenceable f s i)).
Proof.
  induction f as [|f [IH1 IH2]]; split; intros s i Hs; try done.
  - by apply sk_classes_body.
  - by apply sk_referenceable_body.
Qed.

Lemma sk_call_array f root s i : st_classes s = ∅ -> sk any (parse_call_array f root s i).
Proof.
  intros Hs. eapply sk_bind; [by apply sk_library|]. intros s1 i1 _ H1 _.
  destruct (sk_parse f). eapply sk_bind; [by apply sk_array_object|]. intros s2 i2 a H2 _.
  by destruct (bool_decide _).
Qed.
Lemma sk_sopt {A} i (r : sres A) : sk any r -> sk any (sopt i r).
Proof. intros [H1 H2]. by destruct r as [s []]. Qed.
Lemma fk_args flags ca inline i : fk (parse_args flags ca inline i).
Proof.
  unfold parse_args. destruct (intersects _ _); [by destruct ca|]. destruct (intersects _ _); [|done].
  destruct ca as [[|[] ?]|]; done.
Qed.
Lemma sk_method f root s i : st_classes s = ∅ -> sk any (parse_method_call_or_return f root s i).
Proof.
  intros Hs. apply sk_alt; [apply sk_smap|intros s1 H1; apply sk_alt; [apply sk_smap|done]].
  - eapply sk_bind; [by apply sk_library|]. intros s1 i1 _ H1 _. pose proof (fk_method_call i1) as H.
    destruct (binary_method_call_parse i1); try done.
    eapply sk_bind; [by apply sk_sopt, sk_call_array|]. intros. apply sk_pure; [done|].
    apply fk_bind; [apply fk_args|]. done.
  - eapply sk_bind; [by apply sk_library|]. intros s2 i2 _ H2 _. pose proof (fk_method_return i2) as H.
    destruct (binary_method_return_parse i2); try done.
    eapply sk_bind; [by apply sk_sopt, sk_call_array|]. intros. apply sk_pure; [done|].
    apply fk_bind; [apply fk_args|]. done.
Qed.
Lemma sk_referenceables lf f s i : st_classes s = ∅ -> sk any (parse_referenceables lf f s i).
Proof.
  revert s i. induction lf as [|lf IH]; intros s i Hs; [done|]. cbn [parse_referenceables].
  pose proof (sk_parse f) as [_ H]. specialize (H s i Hs) as [H1 H2].
  destruct (parse_referenceable f s i) as [s1 []]; try done. by apply IH.
Qed.

(** Kinds of errors of the whole parser. *)
Definition reported (k : error_inner) : Prop :=
  failing k \/ k = E_TrailingData \/ k = E_MissingRootObject
  \/ k = E_ExpectedRecordType RT_SerializedStreamHeader \/ k = E_ExpectedRecordType RT_MessageEnd.

Lemma int32_not_err i : match int32_parse i with Err _ => False | _ => True end.
Proof. unfold int32_parse, prim_number. by destruct (le_int 4 i). Qed.
Lemma referenceables_not_err lf f s i :
  match (parse_referenceables lf f s i).2 with Err _ => False | _ => True end.
Proof.
  revert s i. induction lf as [|lf IH]; intros s i; [done|]. cbn [parse_referenceables].
  destruct (parse_referenceable f s i) as [s1 []]; try done. apply IH.
Qed.
Lemma message_end_kinds i :
  match message_end i with
  | Fail _ => False
  | Err e => e_inner e = E_ExpectedRecordType RT_MessageEnd
  | _ => True
  end.
Proof. unfold message_end, record_type_parse. destruct i as [|b i]; cbn; [done|]. by destruct (N.eqb _ _). Qed.
Lemma header_kinds i :
  match serialization_header_parse i with
  | Fail e => failing (e_inner e)
  | Err e => e_inner e = E_ExpectedRecordType RT_SerializedStreamHeader
  | _ => True
  end.
Proof.
  unfold serialization_header_parse. unfold record_type_parse. destruct i as [|b i]; cbn; [done|].
  destruct (N.eqb _ _); cbn; [|done].
  pose proof (fk_int32 i) as H. pose proof (int32_not_err i) as He.
  destruct (int32_parse i) as [i1 z| | | |]; cbn [bind] in *; try done.
  destruct (Z.ltb z 0); [done|].
  pose proof (fk_int32 i1) as H1. pose proof (int32_not_err i1) as He1.
  destruct (int32_parse i1) as [i2 hid| | | |]; cbn [bind] in *; try done.
  pose proof (fk_int32 i2) as H2. pose proof (int32_not_err i2) as He2.
  destruct (int32_parse i2) as [i3 z3| | | |]; cbn [bind] in *; try done.
  destruct (negb _); [done|].
  pose proof (fk_int32 i3) as H3. pose proof (int32_not_err i3) as He3.
  destruct (int32_parse i3) as [i4 z4| | | |]; cbn [bind] in *; try done.
  by destruct (negb _).
Qed.

Lemma message_kinds f s i : st_classes s = ∅ ->
  match (parse_remoting_message f s i).2 with
  | Err e | Fail e => reported (e_inner e)
  | _ => True
  end.
Proof.
  intros Hs. unfold parse_remoting_message. pose proof (header_kinds i) as H.
  destruct (serialization_header_parse i) as [i1 h|e|e|p|]; cbn [snd]; try done; [|unfold reported; tauto|by left].
  pose proof (sk_referenceables (S (length i1)) f s i1 Hs) as [H1 H2].
  pose proof (referenceables_not_err (S (length i1)) f s i1) as H3.
  destruct (parse_referenceables _ _ _ _) as [s1 [i2 u|e|e|p|]]; cbn [fst snd sbind] in *; try done; [|exact (or_introl H2)].
  pose proof (sk_sopt i2 _ (sk_method f (sh_root_id h) s1 i2 H1)) as [H4 H5].
  unfold sopt in *. destruct (parse_method_call_or_return f (sh_root_id h) s1 i2) as [s2 r].
  cbn [fst snd] in *.
  assert (match opt i2 r with Err _ => False | _ => True end) as H6 by (by destruct r).
  destruct (opt i2 r) as [i3 m|e|e|p|]; cbn [sbind snd] in *; try done; [|exact (or_introl H5)].
  pose proof (sk_referenceables (S (length i3)) f s2 i3 H4) as [H7 H8].
  pose proof (referenceables_not_err (S (length i3)) f s2 i3) as H9.
  destruct (parse_referenceables _ _ _ _) as [s3 [i4 u'|e|e|p|]]; cbn [fst snd sbind] in *; try done; [|exact (or_introl H8)].
  pose proof (message_end_kinds i4) as Hm.
  destruct (message_end i4) as [i5 u2|e|e|p|]; try done; [|unfold reported; cbn; tauto].
  destruct i5; [|unfold reported; cbn; tauto].
  destruct m; [done|]. destruct (sh_root_id h); [|done]. destruct (st_objects s3 !! n); [done|].
  unfold reported; cbn; tauto.
Qed.

Lemma error_kinds W e : deserialize W = PErr e -> reported (e_inner e).
Proof.
  unfold deserialize. pose proof (message_kinds (2 * length W + 2) init_state W eq_refl) as H.
  destruct (parse_remoting_message _ _ _).2; try done; by intros [= <-].
Qed.
End with_decimal.
