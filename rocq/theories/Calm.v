(** * Calm: messages without the byte 9 (references).  A failed attempt to read a record can only
    leave libraries behind there, and then a second attempt fails as well, so that acceptance is
    exactly the grammar. *)
From Verif Require Import Base Utf8 Value DataTypes Records Parser Wire BaseLemmas DataTypesLemmas
  RecordsLemmas MethodLemmas SafetyLemmas Safety Grammar Heads Complete Sound Fuel Message Run Spec
  LemmasA LemmasB LemmasC.
From Coq Require Import Lia.

Definition calm (i : bytes) : Prop := x09 ∉ i.
Lemma calm_suffix i j : calm i -> j ⊑s i -> calm j.
Proof. intros H [k ->] Hj. apply H. apply elem_of_app. by right. Qed.

Section with_decimal.
Context {DL : DecimalLib}.

(** Two runs at the same position, the first from the tables [s], the second from tables [s2] that
    know all the libraries the first one knows in the end.  If the second one succeeds, then the first
    one has not touched the tables; and if it succeeds too, both read the same bytes and have similar
    results. *)
Definition tied {A} (R : A -> A -> Prop) (s s2 : state) (r r2 : sres A) : Prop :=
  st_classes s2 = st_classes s ->
  mono s r.1 /\ st_objects r.1 = st_objects s
  /\ match r.2 with Ok i a => calm i /\ R a a | _ => True end
  /\ (dom (st_libs r.1) ⊆ dom (st_libs s2) ->
      forall i2 a2, r2.2 = Ok i2 a2 ->
        r.1 = s /\ forall i a, r.2 = Ok i a -> r2.1 = s2 /\ i2 = i /\ R a a2).

Lemma tied_bind {A B} (R : A -> A -> Prop) (Q : B -> B -> Prop) s s2 r r2 (f f2 : state -> bytes -> A -> sres B) :
  tied R s s2 r r2 ->
  (forall i a, st_classes s2 = st_classes r.1 -> r.2 = Ok i a -> calm i -> R a a -> mono r.1 (f r.1 i a).1
     /\ st_objects (f r.1 i a).1 = st_objects r.1
     /\ match (f r.1 i a).2 with Ok i' b => calm i' /\ Q b b | _ => True end) ->
  (forall i a a2, calm i -> R a a2 -> tied Q s s2 (f s i a) (f2 s2 i a2)) ->
  tied Q s s2 (sbind r f) (sbind r2 f2).
Proof.
  intros Ht Hm Hf Hc. destruct (Ht Hc) as (H1 & H2 & H3 & H4). destruct r as [s1 [i a|e|e|p|]]; cbn [fst snd sbind] in *.
  2-5: (split; [done|]; split; [done|]; split; [done|]; intros Hd i2 b Hb; 
    destruct r2 as [s3 [i3 a3|e3|e3|p3|]]; cbn [fst snd sbind] in *; try done;
    destruct (H4 Hd i3 a3 eq_refl) as [H5 _]; split; [done|]; intros; done).
  destruct H3 as [H3 H3']. destruct (Hm i a ltac:(destruct H1; cbn; congruence) eq_refl H3 H3') as (M1 & M2 & M3).
  split; [by eapply mono_trans|]. split; [congruence|]. split; [done|].
  intros Hd i2 b Hb. destruct r2 as [s3 [i3 a3|e3|e3|p3|]]; cbn [fst snd sbind] in *; try done.
  assert (dom (st_libs s1) ⊆ dom (st_libs s2)) as Hd1 by (destruct M1; set_solver).
  destruct (H4 Hd1 i3 a3 eq_refl) as [-> H5]. destruct (H5 i a eq_refl) as (-> & -> & HR).
  destruct (Hf i a a3 H3 HR Hc) as (_ & _ & _ & H6). by eapply H6.
Qed.
(** When the continuation is tied for all tables. *)
Lemma tied_bind' {A B} (R : A -> A -> Prop) (Q : B -> B -> Prop) s s2 r r2 (f f2 : state -> bytes -> A -> sres B) :
  tied R s s2 r r2 ->
  (forall s s2 i a a2, calm i -> R a a2 -> tied Q s s2 (f s i a) (f2 s2 i a2)) ->
  tied Q s s2 (sbind r f) (sbind r2 f2).
Proof.
  intros H Hf. eapply tied_bind; [exact H| |intros; by apply Hf]. intros i a Hc Ha Hi HR.
  destruct (Hf r.1 s2 i a a Hi HR Hc) as (H1 & H2 & H3 & _). done.
Qed.
Lemma tied_pure {A} (R : A -> A -> Prop) s s2 i (r r2 : res A) :
  calm i -> rsafe i r -> (forall i1 a1, r = Ok i1 a1 -> R a1 a1) -> (forall i1 a1 i2 a2, r = Ok i1 a1 -> r2 = Ok i2 a2 -> i2 = i1 /\ R a1 a2) ->
  tied R s s2 (s, r) (s2, r2).
Proof.
  intros Hi Hs HR' HR _. split; [done|]. split; [done|]. cbn [fst snd]. split.
  - destruct r as [i' a|e|e|p|]; try done. split; [by eapply calm_suffix|by eapply HR'].
  - intros _ i2 a2 H2. split; [done|]. intros i1 a1 H1. split; [done|]. by eapply HR.
Qed.
Lemma tied_fail {A} (R : A -> A -> Prop) s s2 (r : res A) r2 :
  (forall i a, r <> Ok i a) -> tied R s s2 (s, r) r2.
Proof.
  intros H _. split; [done|]. split; [done|]. cbn [fst snd]. split; [destruct r as [i a| | | |]; try done; by destruct (H i a)|].
  intros _ i2 a2 _. split; [done|]. intros i a Ha. by destruct (H i a).
Qed.
Lemma tied_smap {A B} (f f2 : A -> B) (R : A -> A -> Prop) (Q : B -> B -> Prop) s s2 r r2 :
  (forall a a2, R a a2 -> Q (f a) (f a2) /\ Q (f a) (f2 a2)) -> tied R s s2 r r2 -> tied Q s s2 (smap f r) (smap f2 r2).
Proof.
  intros HQ Ht Hc. destruct (Ht Hc) as (H1 & H2 & H3 & H4). unfold smap. destruct r as [s1 r], r2 as [s3 r2]. cbn [fst snd] in *.
  split; [done|]. split; [done|]. split; [destruct r; try done; cbn; destruct H3 as [? H3]; split; [done|]; by destruct (HQ _ _ H3)|].
  intros Hd i2 b Hb. destruct r2 as [i3 a3| | | |]; try done. destruct (H4 Hd i3 a3 eq_refl) as [H5 H6].
  split; [done|]. intros i a Ha. destruct r as [i1 a1| | | |]; try done. destruct (H6 i1 a1 eq_refl) as (? & ? & ?).
  cbn in Ha, Hb. injection Ha as <- <-. injection Hb as <- <-. split; [done|]. split; [done|]. by apply HQ.
Qed.
Lemma tied_weaken {A} (R Q : A -> A -> Prop) s s2 r r2 :
  (forall a a2, R a a2 -> Q a a2) -> tied R s s2 r r2 -> tied Q s s2 r r2.
Proof.
  intros HQ Ht Hc. destruct (Ht Hc) as (H1 & H2 & H3 & H4). split; [done|]. split; [done|]. split; [destruct r.2; try done; destruct H3; by auto|].
  intros Hd i2 a2 Ha2. destruct (H4 Hd i2 a2 Ha2) as [H5 H6]. split; [done|].
  intros i a Ha. destruct (H6 i a Ha) as (? & ? & ?). eauto.
Qed.

Lemma tied_lib s s2 i : calm i -> tied (fun _ _ => True) s s2 (parse_binary_library s i) (parse_binary_library s2 i).
Proof.
  intros Hi. pose proof (mono_lib s i) as Hm. unfold parse_binary_library in *. pose proof (binary_library_safe i) as Hs.
  destruct (binary_library i) as [i1 [lid name]|e|e|p|]; cbn [opt] in *.
  - intros _. split; [exact Hm|split; [|split]].
    + by case_bool_decide.
    + case_bool_decide; cbn [snd]; [done|]. split; [by eapply calm_suffix|done].
    + intros Hd i2 a2 H2. exfalso. rewrite (bool_decide_eq_true_2 (is_Some (st_libs s2 !! lid))) in H2; [done|].
      clear H2 Hm. apply elem_of_dom. apply Hd. case_bool_decide; simpl; set_solver.
  - eapply tied_pure; [exact Hi|by exists []|done|]. by intros ? ? ? ? [= <- <-] [= <- <-].
  - by apply tied_fail.
  - by apply tied_fail.
  - by apply tied_fail.
Qed.

(** Similar members: no references, and as many nulls. *)
Definition alike (m m2 : value_or_ref) : Prop :=
  match m, m2 with VR_Value _, VR_Value _ => True | VR_Null n, VR_Null n2 => n = n2 | _, _ => False end.
Lemma alike_refl m m2 : alike m m2 -> alike m m.
Proof. by destruct m, m2. Qed.

Lemma calm_no_ref i i' a : calm i -> parse_ref_member i <> Ok i' a.
Proof.
  intros Hi H. apply parse_ref_member_exact in H as (bs & (id & -> & b & _ & ->) & ->). destruct Hi. left.
Qed.
Lemma calm_flat (r : res value_or_ref) i s s2 : calm i -> rsafe i r -> (forall i' id, r <> Ok i' (VR_Ref id)) ->
  tied alike s s2 (s, r) (s2, r).
Proof.
  intros Hi Hs Hr. eapply tied_pure; [exact Hi|exact Hs| |].
  { intros i1 [v|n|id] E1; try done. by destruct (Hr i1 id). }
  intros i1 a1 i2 a2 E1 E2.
  rewrite E1 in E2. injection E2 as -> ->. split; [done|]. destruct a2 as [v|n|id]; try done. by destruct (Hr i2 id).
Qed.
Lemma string_no_ref i i' id : parse_string_member i <> Ok i' (VR_Ref id).
Proof. unfold parse_string_member. intros H. apply rmap_ok in H as (v & _ & H). done. Qed.
Lemma null_no_ref i i' id : parse_null_object i <> Ok i' (VR_Ref id).
Proof. intros H. apply parse_null_object_exact in H as (bs & (n & ? & _) & _). done. Qed.
Lemma typed_no_ref i i' id : rmap VR_Value (member_primitive_typed i) <> Ok i' (VR_Ref id).
Proof. intros H. apply rmap_ok in H as (v & _ & H). done. Qed.
Lemma alt_no_ref (r r' : res value_or_ref) i' id :
  r <> Ok i' (VR_Ref id) -> r' <> Ok i' (VR_Ref id) -> alt r r' <> Ok i' (VR_Ref id).
Proof. intros H1 H2. by destruct r. Qed.
Lemma simple_no_ref i : calm i -> forall i' id,
  alt (rmap VR_Value (member_primitive_typed i)) (alt (parse_ref_member i) (alt (parse_string_member i) (parse_null_object i)))
  <> Ok i' (VR_Ref id).
Proof.
  intros Hi i' id. apply alt_no_ref; [apply typed_no_ref|]. apply alt_no_ref; [by apply calm_no_ref|].
  apply alt_no_ref; [apply string_no_ref|apply null_no_ref].
Qed.
Lemma null_head i i' a : parse_null_object i = Ok i' a -> head_in [x0a; x0d; x0e] i.
Proof. intros H. apply parse_null_object_exact in H as (bs & (n & _ & [[_ ->]|[[_ ->]|[_ ->]]]) & ->); cbn; set_solver. Qed.

Section methods.
Context (PC : state -> bytes -> state * res (N * obj value)).
Context (PR : state -> bytes -> state * res N).
Hypothesis HPC : forall s s2 i, calm i -> tied (fun _ _ => True) s s2 (PC s i) (PC s2 i).
Hypothesis HPN : forall s i, no_library i -> ~ head_in [x01; x02; x03; x04; x05] i ->
  (PC s i).1 = s /\ forall i' a, (PC s i).2 <> Ok i' a.

Lemma tied_untyped s s2 i : calm i -> tied alike s s2 (parse_member_untyped PC s i) (parse_member_untyped PC s2 i).
Proof.
  intros Hi. eapply tied_bind'; [by apply tied_lib|]. clear s s2 i Hi. intros s s2 i _ _ Hi _. unfold member_untyped_body.
  pose proof (simple_no_ref i Hi) as Hn.
  assert (rsafe i (alt (rmap VR_Value (member_primitive_typed i))
    (alt (parse_ref_member i) (alt (parse_string_member i) (parse_null_object i))))) as Hs.
  { apply gsafe_alt; [apply gsafe_map, member_primitive_typed_safe|]. apply gsafe_alt; [apply parse_ref_member_safe|].
    apply gsafe_alt; [apply parse_string_member_safe|apply parse_null_object_safe]. }
  destruct (alt _ _) as [i2 a|e|e|p|] eqn:E;
    try (apply (calm_flat _ i); [done|exact Hs|exact Hn]). eapply tied_smap; [|by apply HPC]. done.
Qed.
Lemma tied_class_or_null ok ok2 s s2 i : calm i -> tied alike s s2 (class_or_null PC ok s i) (class_or_null PC ok2 s2 i).
Proof.
  intros Hi. destruct (decide (head_in [x0a; x0d; x0e] i)) as [Hh|Hh].
  - assert (forall ok s, class_or_null PC ok s i = (s, parse_null_object i) \/ forall i' a, (class_or_null PC ok s i).2 <> Ok i' a /\ (class_or_null PC ok s i).1 = s) as H.
    { intros ok' s'. destruct (HPN s' i) as [H1 H2]; [apply no_library_head; hd|hd|]. unfold class_or_null.
      destruct (PC s' i) as [s1 [i1 [id o]|e|e|p|]]; cbn [fst snd] in *; subst s1; auto. by destruct (H2 i1 (id, o)). }
    destruct (H ok s) as [-> |H1].
    + destruct (H ok2 s2) as [-> |H2].
      * apply (calm_flat _ i); [done|apply parse_null_object_safe|apply null_no_ref].
      * pose proof (calm_flat (parse_null_object i) i s s2 Hi (parse_null_object_safe i) (null_no_ref i)) as Ht. intros Hc. specialize (Ht Hc).
        split; [done|]. split; [done|]. split; [apply Ht|]. intros _ i2 a2 E2. by destruct (H2 i2 a2) as [H3 _].
    + destruct (H1 [] (VR_Null 0)) as [_ E1]. destruct (class_or_null PC ok s i) as [s1 r1] eqn:E. cbn [fst snd] in *. subst s1.
      apply tied_fail. intros i' a. by destruct (H1 i' a).
  - assert (forall i' a, parse_null_object i <> Ok i' a) as Hn by (intros i' a E; by apply null_head in E).
    intros Hc. pose proof (HPC s s2 i Hi Hc) as (H1 & H2 & H3 & H4). unfold class_or_null.
    destruct (PC s i) as [s1 [i1 [id o]|e|e|p|]] eqn:E1; cbn [fst snd] in *.
    + destruct H3 as [H3 _]. split; [by destruct (ok o)|]. split; [by destruct (ok o)|]. split; [by destruct (ok o)|].
      intros Hd i2 a2 Ha2. replace (if ok o then _ else _) with (s1, if ok o then Ok i1 (VR_Value (VObject o)) else Fail (mkError i1 E_UnexpectedClass)) in * by (by destruct (ok o)).
      cbn [fst snd] in *.
      destruct (PC s2 i) as [s3 [i3 [id3 o3]|e3|e3|p3|]]; cbn [fst snd] in *; try done; try (by destruct (Hn i2 a2)).
      destruct (H4 Hd i3 (id3, o3) eq_refl) as [H5 H6]. destruct (H6 i1 (id, o) eq_refl) as (-> & -> & _).
      destruct (ok2 o3); [|done]. cbn [fst snd] in *. injection Ha2 as <- <-. split; [done|]. intros i' a Ha.
      destruct (ok o); [|done]. by injection Ha as <- <-.
    + split; [done|]. split; [done|]. split; [destruct (parse_null_object i) as [i' a| | | |]; try done; by destruct (Hn i' a)|].
      cbn [fst snd]. intros Hd i2 a2 Ha2. split; [|intros i' a Ha; by destruct (Hn i' a)].
      destruct (PC s2 i) as [s3 [i3 [id3 o3]|e3|e3|p3|]]; cbn [fst snd] in *; try done; try (by destruct (Hn i2 a2)).
      by destruct (H4 Hd i3 (id3, o3) eq_refl).
    + split; [done|]. split; [done|]. split; [destruct (parse_null_object i) as [i' a| | | |]; try done; by destruct (Hn i' a)|].
      cbn [fst snd]. intros Hd i2 a2 Ha2. split; [|intros i' a Ha; by destruct (Hn i' a)].
      destruct (PC s2 i) as [s3 [i3 [id3 o3]|e3|e3|p3|]]; cbn [fst snd] in *; try done; try (by destruct (Hn i2 a2)).
      by destruct (H4 Hd i3 (id3, o3) eq_refl).
    + split; [done|]. split; [done|]. split; [done|].
      cbn [fst snd]. intros Hd i2 a2 Ha2. split; [|intros i' a Ha; done].
      destruct (PC s2 i) as [s3 [i3 [id3 o3]|e3|e3|p3|]]; cbn [fst snd] in *; try done; try (by destruct (Hn i2 a2)).
      by destruct (H4 Hd i3 (id3, o3) eq_refl).
    + split; [done|]. split; [done|]. split; [done|].
      cbn [fst snd]. intros Hd i2 a2 Ha2. split; [|intros i' a Ha; done].
      destruct (PC s2 i) as [s3 [i3 [id3 o3]|e3|e3|p3|]]; cbn [fst snd] in *; try done; try (by destruct (Hn i2 a2)).
      by destruct (H4 Hd i3 (id3, o3) eq_refl).
Qed.
Lemma tied_typed_member bt ai s s2 i : calm i -> tied alike s s2 (parse_member_typed PC bt ai s i) (parse_member_typed PC bt ai s2 i).
Proof.
  intros Hi. eapply tied_bind'; [by apply tied_lib|]. clear s s2 i Hi. intros s s2 i _ _ Hi _.
  assert (forall r, tied alike s s2 (s, Panic r) (s2, Panic r)) as Hp by (intros r; by apply tied_fail).
  destruct bt, ai as [[ty|ty|ty]|]; auto using tied_untyped, tied_class_or_null.
  - apply (calm_flat _ i); [done|apply gsafe_map, member_primitive_untyped_safe|].
    intros i' id H. apply rmap_ok in H as (v & _ & H). done.
  - apply (calm_flat _ i); [done|apply parse_string_member_safe|apply string_no_ref].
  - destruct (st_libs s !! _) as [l|] eqn:E; [|by apply tied_fail].
    destruct (st_libs s2 !! _) as [l2|] eqn:E2; [by apply tied_class_or_null|].
    intros Hc. destruct (tied_class_or_null (fun o => str_eqb (obj_class o) (cti_type_name ty) && bool_decide (obj_library o = Some l))
      (fun o => true) s s2 i Hi Hc) as (H1 & H2 & H3 & _).
    split; [done|]. split; [done|]. split; [done|]. done.
  - apply (calm_flat _ i); [done| |].
    + apply gsafe_alt; [apply parse_string_member_safe|]. apply gsafe_alt; [apply parse_ref_member_safe|apply parse_null_object_safe].
    + intros i' id. apply alt_no_ref; [apply string_no_ref|]. apply alt_no_ref; [by apply calm_no_ref|apply null_no_ref].
  - apply (calm_flat _ i); [done|apply parse_ref_member_safe|]. intros i' id. by apply calm_no_ref.
Qed.
Lemma alike_list_refl ms ms2 : Forall2 alike ms ms2 -> Forall2 alike ms ms.
Proof. induction 1 as [|x y ms ms2 H _ IH]; constructor; [by eapply alike_refl|done]. Qed.

Lemma tied_members_typed l s s2 i : calm i ->
  tied (Forall2 alike) s s2 (parse_members_typed PC l s i) (parse_members_typed PC l s2 i).
Proof.
  revert s s2 i. induction l as [|[bt ai] l IH]; intros s s2 i Hi.
  { apply (tied_pure _ _ _ i); [done|by exists []|intros ? ? [= <- <-]; constructor|]. intros ? ? ? ? [= <- <-] [= <- <-]. by split. }
  cbn [parse_members_typed]. eapply tied_bind'; [by apply tied_typed_member|]. intros s' s2' i1 m m2 H1 Hm.
  eapply tied_bind'; [by apply IH|]. intros s'' s2'' i2 ms ms2 H2 Hms. apply (tied_pure _ _ _ i2); [done|by exists []| |].
  - intros ? ? [= <- <-]. constructor; [by eapply alike_refl|by eapply alike_list_refl].
  - intros ? ? ? ? [= <- <-] [= <- <-]. split; [done|]. by constructor.
Qed.
Lemma tied_scount_loop fuel n (p : state -> bytes -> sres value_or_ref) s s2 i :
  (forall s s2 i, calm i -> tied alike s s2 (p s i) (p s2 i)) -> calm i ->
  tied (Forall2 alike) s s2 (scount_loop fuel n p s i) (scount_loop fuel n p s2 i).
Proof.
  intros Hp. revert n s s2 i. induction fuel as [|fuel IH]; intros n s s2 i Hi; cbn [scount_loop]; (destruct (N.eqb n 0);
    [apply (tied_pure _ _ _ i); [done|by exists []|intros ? ? [= <- <-]; constructor|]; intros ? ? ? ? [= <- <-] [= <- <-]; by split|]).
  { by apply tied_fail. }
  eapply tied_bind'; [by apply Hp|]. intros s' s2' i1 m m2 H1 Hm.
  eapply tied_bind'; [by apply IH|]. intros s'' s2'' i2 ms ms2 H2 Hms. apply (tied_pure _ _ _ i2); [done|by exists []| |].
  - intros ? ? [= <- <-]. constructor; [by eapply alike_refl|by eapply alike_list_refl].
  - intros ? ? ? ? [= <- <-] [= <- <-]. split; [done|]. by constructor.
Qed.
Lemma alike_expand m m2 : alike m m2 -> Forall2 alike (expand_null m) (expand_null m2).
Proof.
  destruct m as [v|n|id], m2 as [v2|n2|id2]; cbn; try done; [by repeat constructor|intros ->].
  induction (N.to_nat n2); by constructor.
Qed.
Lemma tied_array_loop p fuel len cur s s2 i :
  (forall s s2 i, calm i -> tied alike s s2 (p s i) (p s2 i)) -> calm i ->
  tied (Forall2 alike) s s2 (array_loop p fuel len cur s i) (array_loop p fuel len cur s2 i).
Proof.
  intros Hp. revert cur s s2 i. induction fuel as [|fuel IH]; intros cur s s2 i Hi; cbn [array_loop]; (destruct (N.leb len cur);
    [apply (tied_pure _ _ _ i); [done|by exists []|intros ? ? [= <- <-]; constructor|]; intros ? ? ? ? [= <- <-] [= <- <-]; by split|]).
  { by apply tied_fail. }
  eapply tied_bind'; [by apply Hp|]. intros s' s2' i1 m m2 H1 Hm.
  assert (member_size m2 = member_size m) as -> by (by destruct m, m2; cbn in *).
  eapply tied_bind'; [by apply IH|]. intros s'' s2'' i2 ms ms2 H2 Hms. apply (tied_pure _ _ _ i2); [done|by exists []| |].
  - intros ? ? [= <- <-]. apply Forall2_app; [apply alike_expand; by eapply alike_refl|by eapply alike_list_refl].
  - intros ? ? ? ? [= <- <-] [= <- <-]. split; [done|]. apply Forall2_app; [by apply alike_expand|done].
Qed.
Lemma tied_resolve ms ms2 s s2 i : Forall2 alike ms ms2 -> calm i ->
  tied (fun _ _ => True) s s2 (resolve_members PR ms s i) (resolve_members PR ms2 s2 i).
Proof.
  intros Hms. revert s s2 i. induction Hms as [|m m2 ms ms2 Hm _ IH]; intros s s2 i Hi; cbn [resolve_members].
  { apply (tied_pure _ _ _ i); [done|by exists []|done|]. by intros ? ? ? ? [= <- <-] [= <- <-]. }
  destruct m as [v|n|id], m2 as [v2|n2|id2]; try done;
    (eapply tied_bind'; [by apply IH|]; intros s' s2' i1 vs vs2 H1 _; apply (tied_pure _ _ _ i1); [done|by exists []|done|];
     by intros ? ? ? ? [= <- <-] [= <- <-]).
Qed.
(** The members of a class record. *)
Lemma tied_class_body err oid c s s2 i : calm i ->
  tied (fun _ _ => True) s s2 (parse_class_body PC PR err oid c s i) (parse_class_body PC PR err oid c s2 i).
Proof.
  intros Hi Hc. unfold parse_class_body. rewrite Hc. case_bool_decide; [by apply tied_fail|]. revert Hc.
  assert (forall l l2, tied (fun lm lm2 : option str * list value_or_ref => Forall2 alike lm.2 lm2.2) s s2
    (smap (pair l) (scount (N.of_nat (length (ci_member_names (cr_class_info c)))) (parse_member_untyped PC) s i))
    (smap (pair l2) (scount (N.of_nat (length (ci_member_names (cr_class_info c)))) (parse_member_untyped PC) s2 i))) as Hu.
  { intros l l2. apply (tied_smap (pair l) (pair l2) (Forall2 alike)); [done|]. apply tied_scount_loop; [|done]. intros. by apply tied_untyped. }
  assert (forall l l2 mti, tied (fun lm lm2 : option str * list value_or_ref => Forall2 alike lm.2 lm2.2) s s2
    (smap (pair l) (parse_members_with_type_info PC mti s i))
    (smap (pair l2) (parse_members_with_type_info PC mti s2 i))) as Ht.
  { intros l l2 mti. apply (tied_smap (pair l) (pair l2) (Forall2 alike)); [done|]. by apply tied_members_typed. }
  eapply (tied_bind' (fun lm lm2 : option str * list value_or_ref => Forall2 alike lm.2 lm2.2)).
  - assert (forall (X Y : sres (option str * list value_or_ref)) e,
      tied (fun lm lm2 : option str * list value_or_ref => Forall2 alike lm.2 lm2.2) s s2 X Y ->
      tied (fun lm lm2 : option str * list value_or_ref => Forall2 alike lm.2 lm2.2) s s2 X (s2, Fail e)) as Hf.
    { intros X Y e Hx Hc. destruct (Hx Hc) as (H1 & H2 & H3 & _). done. }
    destruct c as [ci lid|ci mti lid|ci|ci mti]; auto;
      (destruct (st_libs s !! lid) as [l|]; [|by apply tied_fail]);
      (destruct (st_libs s2 !! lid) as [l2|]; [by auto|eapply Hf; by auto]).
  - intros s' s2' i1 lm lm2 H1 Hlm. eapply tied_bind'; [by apply tied_resolve|]. intros s'' s2'' i2 vs vs2 H2 _.
    apply (tied_pure _ _ _ i2); [done|by exists []|done|]. by intros ? ? ? ? [= <- <-] [= <- <-].
Unshelve. all: exact None.
Qed.

Lemma tied_classes_body s s2 i : calm i -> tied (fun _ _ => True) s s2 (parse_classes_body PC PR s i) (parse_classes_body PC PR s2 i).
Proof.
  intros Hi. eapply tied_bind'; [by apply tied_lib|]. clear s s2 i Hi. intros s s2 i _ _ Hi _.
  pose proof (class_with_id_safe i) as Hs1. pose proof (class_records_safe i) as Hs2.
  destruct (class_with_id i) as [i2 [oid mid]|e|e|p|]; try (by apply tied_fail).
  - intros Hc. rewrite Hc. revert Hc. destruct (st_classes s !! mid); [apply tied_class_body; by eapply calm_suffix|by apply tied_fail].
  - destruct (class_records i); try (by apply tied_fail). apply tied_class_body. by eapply calm_suffix.
Qed.
Lemma tied_array_single_object s s2 i : calm i ->
  tied (fun _ _ => True) s s2 (parse_array_single_object PC PR s i) (parse_array_single_object PC PR s2 i).
Proof.
  intros Hi. unfold parse_array_single_object. pose proof (array_single_object_safe i) as Hs.
  destruct (array_single_object i) as [i1 ai|e|e|p|]; try (by apply tied_fail). apply (calm_suffix i) in Hs; [|done].
  eapply tied_bind'; [apply tied_array_loop; [intros; by apply tied_untyped|done]|]. intros s' s2' i2 ms ms2 H2 Hms.
  eapply tied_bind'; [by apply tied_resolve|]. intros s'' s2'' i3 vs vs2 H3 _.
  apply (tied_pure _ _ _ i3); [done|by exists []|done|]. by intros ? ? ? ? [= <- <-] [= <- <-].
Qed.
Lemma tied_array_single_string s s2 i : calm i ->
  tied (fun _ _ => True) s s2 (parse_array_single_string PC PR s i) (parse_array_single_string PC PR s2 i).
Proof.
  intros Hi. unfold parse_array_single_string. pose proof (array_single_string_safe i) as Hs.
  destruct (array_single_string i) as [i1 ai|e|e|p|]; try (by apply tied_fail). apply (calm_suffix i) in Hs; [|done].
  eapply tied_bind'; [apply tied_array_loop; [intros; by apply tied_typed_member|done]|]. intros s' s2' i2 ms ms2 H2 Hms.
  eapply tied_bind'; [by apply tied_resolve|]. intros s'' s2'' i3 vs vs2 H3 _.
  apply (tied_pure _ _ _ i3); [done|by exists []|done|]. by intros ? ? ? ? [= <- <-] [= <- <-].
Qed.
Lemma chunk_loop_input fuel l vs i i' out : chunk_loop fuel l vs i = Ok i' out -> i' = i.
Proof.
  revert vs out. induction fuel as [|fuel IH]; intros [|v vs] out H; cbn [chunk_loop] in H; try (by injection H); [done|].
  destruct (Nat.ltb _ l); [done|]. destruct (chunk_loop fuel l _ i) as [i2 r|e|e|p|] eqn:E; try done.
  cbn [bind] in H. injection H as <- _. by eapply IH.
Qed.
Lemma chunk_dims_input dims vs i : match chunk_dims dims vs i with Ok i' _ => i' = i | _ => True end.
Proof.
  revert vs i. induction dims as [|l dims IH]; intros vs i; cbn [chunk_dims]; [done|].
  destruct (chunk_loop _ _ vs i) as [i2 r|e|e|p|] eqn:E; cbn [bind]; try done.
  apply chunk_loop_input in E as ->. apply IH.
Qed.
Lemma tied_binary_array s s2 i : calm i ->
  tied (fun _ _ => True) s s2 (parse_binary_array PC PR s i) (parse_binary_array PC PR s2 i).
Proof.
  intros Hi. unfold parse_binary_array. pose proof (binary_array_safe i) as Hs.
  destruct (binary_array_parse i) as [i1 ba|e|e|p|]; try (by apply tied_fail). apply (calm_suffix i) in Hs; [|done].
  destruct (checked_product _ _); [|by apply tied_fail].
  eapply tied_bind'; [apply tied_scount_loop; [intros; by apply tied_typed_member|done]|]. intros s' s2' i2 ms ms2 H2 Hms.
  eapply tied_bind'; [by apply tied_resolve|]. intros s'' s2'' i3 vs vs2 H3 _.
  pose proof (chunk_dims_input (rev (drop 1 (ba_lengths ba))) vs i3) as E1.
  pose proof (chunk_dims_input (rev (drop 1 (ba_lengths ba))) vs2 i3) as E2.
  destruct (chunk_dims _ vs i3) as [i4 out|e|e|p|]; try (by apply tied_fail). subst i4. cbn [bind].
  apply (tied_pure _ _ _ i3); [done|by exists []|done|]. intros ? ? ? ? [= <- <-] H.
  destruct (chunk_dims _ vs2 i3) as [i5 out2|e|e|p|]; try done. subst. cbn [bind] in H. by injection H as <- <-.
Qed.
End methods.

Lemma calm_classes f s s2 i : calm i -> tied (fun _ _ => True) s s2 (parse_classes f s i) (parse_classes f s2 i).
Proof.
  revert s s2 i. induction f as [|f IH]; intros s s2 i Hi; [by apply tied_fail|]. rewrite !parse_classes_S.
  apply tied_classes_body; [done| |done]. intros s' i' Hl Hh. by apply parse_classes_nothing.
Qed.
(** A second attempt with the tables the first one has left behind. *)
Lemma tied_retry {A} (R : A -> A -> Prop) s s1 e s3 i2 a2 r r2 : tied R s s1 r r2 -> st_classes s1 = st_classes s ->
  r = (s1, Err e) -> r2 = (s3, Ok i2 a2) -> s1 = s.
Proof.
  intros Ht Hc -> ->. destruct (Ht Hc) as (_ & _ & _ & H). cbn in H. destruct (H ltac:(done) i2 a2 eq_refl) as [H1 _]. done.
Qed.
Lemma calm_retry F s i s1 err s3 i2 id : calm i -> st_classes s = ∅ ->
  parse_referenceable (S (S F)) s i = (s1, Err err) -> parse_referenceable (S (S F)) s1 i = (s3, Ok i2 id) -> s1 = s.
Proof.
  intros Hi Hs H1 H2. pose proof (abandoned_no_library _ _ _ _ _ H1) as Hl.
  pose proof (classes_referenceable _ _ _ _ _ Hs H1) as Hs1.
  assert (st_classes s1 = st_classes s) as Hc by congruence.
  pose proof (fun s i Hl Hh => parse_classes_nothing (S F) s i Hl Hh) as HPN.
  destruct (abandoned_untraced _ _ _ _ _ Hs H1) as [Hh|Hh]; [|done].
  assert (head_in [x02; x03; x04; x05] i \/ head_in [x10] i \/ head_in [x11] i \/ head_in [x07] i) as Hcases.
  { destruct i as [|c i]; [done|]. unfold traced_heads in Hh. cbn [head_in] in *. set_solver. }
  destruct Hcases as [H|[H|[H|H]]].
  - destruct (parse_classes (S F) s i) as [s' [i' a|e|e|p|]] eqn:E1.
    + rewrite parse_referenceable_S in H1. unfold parse_referenceable_body in H1. by rewrite E1 in H1.
    + rewrite (ref_class_err _ _ _ _ _ E1) in H1 by hd. injection H1 as -> _.
      destruct (parse_classes (S F) s1 i) as [s' [i' a|e'|e'|p|]] eqn:E2.
      * eapply tied_retry; [by apply (calm_classes (S F) s s1 i)|done|exact E1|exact E2].
      * by rewrite (ref_class_err _ _ _ _ _ E2) in H2 by hd.
      * by rewrite (ref_class_fail _ _ _ _ _ E2) in H2.
      * by rewrite (ref_class_panic _ _ _ _ _ E2) in H2.
      * rewrite parse_referenceable_S in H2. unfold parse_referenceable_body in H2. by rewrite E2 in H2.
    + by rewrite (ref_class_fail _ _ _ _ _ E1) in H1.
    + by rewrite (ref_class_panic _ _ _ _ _ E1) in H1.
    + rewrite parse_referenceable_S in H1. unfold parse_referenceable_body in H1. by rewrite E1 in H1.
  - rewrite ref_object_array in H1, H2 by done.
    pose proof (tied_array_single_object _ (parse_referenceable (S F)) (calm_classes (S F)) s s1 i Hi) as Ht.
    destruct (parse_array_single_object _ _ s i) as [s' [? ?|e|e|p|]] eqn:E1; cbn [ref_finish] in H1; try done. injection H1 as -> _.
    destruct (parse_array_single_object _ _ s1 i) as [s' [? ?|e'|e'|p|]] eqn:E2; cbn [ref_finish] in H2; try done.
    by eapply tied_retry.
  - rewrite ref_string_array in H1, H2 by done.
    pose proof (tied_array_single_string _ (parse_referenceable (S F)) (calm_classes (S F)) HPN s s1 i Hi) as Ht.
    destruct (parse_array_single_string _ _ s i) as [s' [? ?|e|e|p|]] eqn:E1; cbn [ref_finish] in H1; try done. injection H1 as -> _.
    destruct (parse_array_single_string _ _ s1 i) as [s' [? ?|e'|e'|p|]] eqn:E2; cbn [ref_finish] in H2; try done.
    by eapply tied_retry.
  - rewrite ref_binary_array in H1, H2 by done.
    pose proof (tied_binary_array _ (parse_referenceable (S F)) (calm_classes (S F)) HPN s s1 i Hi) as Ht.
    destruct (parse_binary_array _ _ s i) as [s' [? ?|e|e|p|]] eqn:E1; cbn [ref_finish] in H1; try done. injection H1 as -> _.
    destruct (parse_binary_array _ _ s1 i) as [s' [? ?|e'|e'|p|]] eqn:E2; cbn [ref_finish] in H2; try done.
    by eapply tied_retry.
Qed.
Lemma calm_abandoned e i e' id v e2 i2 : calm i -> abandoned e i e' -> ~ g_record e' i id v e2 i2.
Proof.
  intros Hi Ha Hg. pose proof Ha as (f & err & H). set (F := f + (2 * length i + 2)).
  destruct g_complete as (_ & _ & _ & _ & Hc). pose proof (Hc _ _ _ _ _ _ Hg (S (S F)) ltac:(lia)) as Hok.
  destruct (sle_referenceable f (S (S F)) (st e) i) as [Hd|He]; [lia|by rewrite H in Hd|]. rewrite H in He. symmetry in He.
  pose proof (calm_retry F (st e) i (st e') err _ _ _ Hi eq_refl He Hok) as E.
  assert (e' = e) as -> by (rewrite <- (env_of_st e'), E; by rewrite env_of_st). by eapply abandoned_same.
Qed.
Lemma calm_abandoned_array e i e' id v e2 i2 : calm i -> head_in [x10] i -> abandoned_array e i e' -> ~ g_record e' i id v e2 i2.
Proof.
  intros Hi Hh Ha Hg. pose proof Ha as (f & err & H). set (F := f + (2 * length i + 2)).
  destruct g_complete as (_ & _ & _ & _ & Hc). pose proof (Hc _ _ _ _ _ _ Hg (S (S F)) ltac:(lia)) as Hok.
  rewrite ref_object_array in Hok by done.
  assert (f <= S F) as Hf by lia.
  destruct (sle_array_single_object (parse_classes f) (parse_classes (S F)) (parse_referenceable f)
      (parse_referenceable (S F)) (fun s i => sle_classes _ _ s i Hf) (fun s i => sle_referenceable _ _ s i Hf)
      (st e) i) as [Hd|Hd]; [by rewrite H in Hd|]. rewrite H in Hd. symmetry in Hd.
  pose proof (fun s i Hl Hh => parse_classes_nothing (S F) s i Hl Hh) as HPN.
  pose proof (tied_array_single_object _ (parse_referenceable (S F)) (calm_classes (S F)) (st e) (st e') i Hi) as Ht.
  destruct (parse_array_single_object _ _ (st e') i) as [s' [? ?|e''|e''|p|]] eqn:E2; cbn [ref_finish] in Hok; try done.
  assert (st e' = st e) as E by (by eapply tied_retry).
  assert (e' = e) as -> by (rewrite <- (env_of_st e'), E; by rewrite env_of_st). by eapply abandoned_array_record.
Qed.

(** On calm messages acceptance is exactly the grammar. *)
Theorem calm_message W m : calm (drop 17 W) -> deserialize W = POk m -> g_message W m.
Proof.
  intros Hq H. apply message_iff in H.
  destruct H as [root hb i e1 i1 e1' e2 v Hh Ho1 Ha Ho2 Hv
                |root hb i e1 i1 m e2 i2 e3 Hh Ho1 Hm Ho3].
  - assert (calm i1) as Hi1.
    { eapply calm_suffix; [exact Hq|]. rewrite drop_app_ge, (e_header_length _ _ Hh), Nat.sub_diag, drop_0
        by (by rewrite (e_header_length _ _ Hh)). by apply (g_objects_suffix _ _ _ _ Ho1). }
    inversion Ho2 as [|e0 i0 id v' e3 i3 e4 i4 Hr Hrest]; subst.
    + destruct Ha as (f & err & Ha). apply abandoned_end_inv in Ha; [|done].
      assert (e2 = e1) as -> by (rewrite <- (env_of_st e2), Ha; by rewrite env_of_st). by econstructor.
    + exfalso. by eapply (calm_abandoned e1 i1 e1').
  - assert (calm i1) as Hi1.
    { eapply calm_suffix; [exact Hq|]. rewrite drop_app_ge, (e_header_length _ _ Hh), Nat.sub_diag, drop_0
        by (by rewrite (e_header_length _ _ Hh)). by apply (g_objects_suffix _ _ _ _ Ho1). }
    assert (forall j ca e' i', calm j -> call_array_step root e1 j ca e' i' -> g_objects e' i' e3 [x0b] ->
      g_call_array root e1 j ca e' i') as Hstep.
    { intros j ca e' i' Hj [ca' e0 i0 Hca|e0 Hh10 Hab] Ho; [done|]. exfalso. inversion Ho; subst.
      - revert Hh10. apply (bool_decide_unpack _). vm_compute. exact I.
      - eapply (calm_abandoned_array e1); [exact Hj|exact Hh10|exact Hab|eassumption]. }
    eapply G_msg_method; [done|done| |exact Ho3].
    destruct Hm as [flags name type ctx inline bs j ca args e' i' Hb Hca Hargs
                |flags ret ctx inline bs j ca args e' i' Hb Hca Hargs].
    + eapply G_call; [done| |done]. apply Hstep; [|done|done]. eapply calm_suffix; [exact Hi1|by exists bs].
    + eapply G_return; [done| |done]. apply Hstep; [|done|done]. eapply calm_suffix; [exact Hi1|by exists bs].
Qed.
End with_decimal.
