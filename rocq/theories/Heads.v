(** * Heads: which alternative applies is decided by the first byte; library prefixes;
    what never changes in the parser's tables. *)
From Verif Require Import Base Utf8 Value DataTypes Records Parser Wire BaseLemmas DataTypesLemmas
  RecordsLemmas MethodLemmas SafetyLemmas Grammar.
From Coq Require Import Lia.

(** The first byte of [i] is one of [l]. *)
Definition head_in (l : list byte) (i : bytes) : Prop :=
  match i with c :: _ => c ∈ l | [] => False end.

Global Instance head_in_dec l i : Decision (head_in l i).
Proof. destruct i; simpl; apply _. Defined.

Lemma head_in_weaken l l' i : head_in l i -> l ⊆ l' -> head_in l' i.
Proof. destruct i as [|c i]; [done|]. simpl. auto. Qed.
Lemma head_in_app l b (bs i : bytes) : head_in l ((b :: bs) ++ i) <-> b ∈ l.
Proof. done. Qed.

Lemma head_disj l l' i :
  head_in l i -> forallb (fun b => negb (bool_decide (b ∈ l'))) l = true -> ~ head_in l' i.
Proof.
  destruct i as [|c i]; [done|]. simpl. intros Hc Hf Hc'. rewrite forallb_forall in Hf.
  specialize (Hf c). rewrite <- elem_of_list_In in Hf. specialize (Hf Hc).
  by rewrite bool_decide_eq_true_2 in Hf.
Qed.

(** Decides [head_in] goals: from another [head_in], or for a concrete first byte. *)
Ltac hd :=
  match goal with
  | H : head_in ?l ?i |- ~ head_in ?l' ?i => apply (head_disj l l' i H); vm_compute; reflexivity
  | H : head_in ?l ?i |- head_in ?l' ?i => apply (head_in_weaken l l' i H); set_solver
  | H : ?c = _ \/ _ |- _ => destruct H as [-> | H]; hd
  | H : ?c = _ |- _ => is_var c; subst c; hd
  | |- ~ head_in _ _ => cbn [app head_in]; apply (bool_decide_unpack _); vm_compute; exact I
  | |- head_in _ _ => cbn [app head_in]; apply (bool_decide_unpack _); vm_compute; exact I
  end.

Ltac nohead := 
  match goal with
  | H : ~ head_in _ _ |- ~ head_in _ _ => intros ?; apply H; (eapply head_in_weaken; [eassumption|set_solver])
  | _ => first [done | simpl; set_solver]
  end.

Lemma rt_err {A} rt (k : bytes -> record_type -> res A) i :
  ~ head_in [n2b (rt_code rt)] i -> exists e, bind (record_type_parse rt i) k = Err e.
Proof.
  intros H. destruct i as [|c i].
  - rewrite record_type_parse_nil. simpl. eauto.
  - rewrite record_type_parse_cons. rewrite bool_decide_eq_false_2; [simpl; eauto|].
    intros ->. apply H. simpl. set_solver.
Qed.

Lemma rmap_err {A B} (f : A -> B) (r : res A) : (exists e, r = Err e) -> exists e, rmap f r = Err e.
Proof. intros [e ->]. simpl. eauto. Qed.
Lemma alt_err {A} (r r' : res A) :
  (exists e, r = Err e) -> (exists e, r' = Err e) -> exists e, alt r r' = Err e.
Proof. intros [e ->] [e' ->]. simpl. eauto. Qed.
Lemma alt_skip {A} (r r' : res A) : (exists e, r = Err e) -> alt r r' = r'.
Proof. by intros [e ->]. Qed.

Section with_decimal.
Context {DL : DecimalLib}.

Lemma class_with_id_err i : ~ head_in [x01] i -> exists e, class_with_id i = Err e.
Proof. intros. by apply (rt_err RT_ClassWithId). Qed.
Lemma class_records_err i :
  ~ head_in [x02; x03; x04; x05] i -> exists e, class_records i = Err e.
Proof.
  intros H. unfold class_records. repeat apply alt_err.
  - apply (rt_err RT_ClassWithMembers). nohead.
  - apply (rt_err RT_ClassWithMembersAndTypes). nohead.
  - apply (rt_err RT_SystemClassWithMembers). nohead.
  - apply (rt_err RT_SystemClassWithMembersAndTypes). nohead.
Qed.
Lemma array_single_object_err i : ~ head_in [x10] i -> exists e, array_single_object i = Err e.
Proof. intros. by apply (rt_err RT_ArraySingleObject). Qed.
Lemma array_single_primitive_err i :
  ~ head_in [x0f] i -> exists e, array_single_primitive i = Err e.
Proof. intros. by apply (rt_err RT_ArraySinglePrimitive). Qed.
Lemma array_single_string_err i : ~ head_in [x11] i -> exists e, array_single_string i = Err e.
Proof. intros. by apply (rt_err RT_ArraySingleString). Qed.
Lemma binary_array_err i : ~ head_in [x07] i -> exists e, binary_array_parse i = Err e.
Proof. intros. by apply (rt_err RT_BinaryArray). Qed.
Lemma binary_object_string_err i : ~ head_in [x06] i -> exists e, binary_object_string i = Err e.
Proof. intros. by apply (rt_err RT_BinaryObjectString). Qed.
Lemma parse_string_member_err i : ~ head_in [x06] i -> exists e, parse_string_member i = Err e.
Proof. intros. by apply rmap_err, binary_object_string_err. Qed.
Lemma parse_ref_member_err i : ~ head_in [x09] i -> exists e, parse_ref_member i = Err e.
Proof. intros. apply rmap_err. by apply (rt_err RT_MemberReference). Qed.
Lemma member_primitive_typed_err i :
  ~ head_in [x08] i -> exists e, rmap VR_Value (member_primitive_typed i) = Err e.
Proof. intros. apply rmap_err. by apply (rt_err RT_MemberPrimitiveTyped). Qed.
Lemma parse_null_object_err i :
  ~ head_in [x0a; x0d; x0e] i -> exists e, parse_null_object i = Err e.
Proof.
  intros H. unfold parse_null_object. repeat apply alt_err; apply rmap_err.
  - apply (rt_err RT_ObjectNull). nohead.
  - apply (rt_err RT_ObjectNullMultiple). nohead.
  - apply (rt_err RT_ObjectNullMultiple256). nohead.
Qed.
Lemma binary_library_err i : ~ head_in [x0c] i -> exists e, binary_library i = Err e.
Proof. intros. by apply (rt_err RT_BinaryLibrary). Qed.
Lemma method_call_err i : ~ head_in [x15] i -> exists e, binary_method_call_parse i = Err e.
Proof. intros. by apply (rt_err RT_MethodCall). Qed.
Lemma method_return_err i : ~ head_in [x16] i -> exists e, binary_method_return_parse i = Err e.
Proof. intros. by apply (rt_err RT_MethodReturn). Qed.
Lemma message_end_err i : ~ head_in [x0b] i -> exists e, message_end i = Err e.
Proof. intros. by apply (rt_err RT_MessageEnd). Qed.

(** ** Library records *)

Lemma positive_id_not_err k i : forall e, positive_id k i <> Err e.
Proof.
  unfold positive_id, int32_parse, prim_number. intros e.
  destruct (le_int 4 i) as [rest z| | | |]; cbn; try done. destruct (0 <? z)%Z; done.
Qed.

Lemma bits_take_not_fail c i :
  match bits_take c i with Fail _ | Panic _ | Diverge => False | _ => True end.
Proof.
  unfold bits_take. destruct i as [i o].
  destruct (N.eqb _ _); [done|]. destruct (N.ltb _ _); [done|].
  by destruct (bits_take_loop _ _ _ _).
Qed.

Definition rec_only {I E A} (r : ires I E A) : Prop :=
  match r with Fail _ | Panic _ | Diverge => False | _ => True end.
Lemma rec_only_bind {I E A B} (r : ires I E A) (f : I -> A -> ires I E B) :
  rec_only r -> (forall i a, rec_only (f i a)) -> rec_only (bind r f).
Proof. destruct r; simpl; auto. Qed.

Lemma len_group_rec i : rec_only (len_group i).
Proof.
  apply rec_only_bind.
  - apply rec_only_bind; [apply bits_take_not_fail|done].
  - intros. apply rec_only_bind; [apply bits_take_not_fail|done].
Qed.
Lemma parse_len_bits_rec i : rec_only (parse_len_bits i).
Proof.
  unfold parse_len_bits.
  do 4 (apply rec_only_bind; [apply len_group_rec|]; intros ? ?;
        match goal with |- rec_only (if ?b then _ else _) => destruct b; [done|] end).
  apply rec_only_bind; [|done].
  apply rec_only_bind.
  - apply rec_only_bind; [apply bits_take_not_fail|]. intros ? ?. by destruct (N.eqb _ _).
  - intros. apply bits_take_not_fail.
Qed.

(** Strings that cannot be read give a recoverable error. *)
Lemma parse_len_not_ok i : (forall r n, parse_len i <> Ok r n) -> exists e, parse_len i = Err e.
Proof.
  intros H. destruct i as [|a i].
  { unfold parse_len, parse_len_bits. destruct len_group_nil as [e ->]. simpl. eauto. }
  unfold parse_len, parse_len_bits in *.
  repeat first
    [ rewrite len_group_cons in *
    | match goal with
      | |- context [len_group ([], 0%N)] =>
          let e := fresh "e" in destruct len_group_nil as [e ->]; simpl; by eauto
      | |- context [preceded _ _ ([], 0%N)] =>
          let e := fresh "e" in destruct len_last_nil as [e ->]; simpl; by eauto
      end
    | progress cbn [bind fst snd negb] in *
    | match goal with
      | |- context [N.leb 128 (b2n ?b)] => destruct (N.leb 128 (b2n b))
      | |- context [len_group (?i, 0%N)] => is_var i; destruct i
      | |- context [preceded _ _ (?i, 0%N)] => is_var i; destruct i
      | |- context [preceded _ _ (_ :: _, 0%N)] => rewrite len_last_cons in *
      | |- context [N.ltb (b2n ?b) 8] => destruct (N.ltb (b2n b) 8)
      | H : forall r n, (if N.eqb 0 0 then Ok ?i ?l else _) <> Ok r n |- _ =>
          exfalso; by apply (H i l)
      end
    | by eauto ].
Qed.

Lemma lps_not_ok i : (forall r s, lps_parse i <> Ok r s) -> exists e, lps_parse i = Err e.
Proof.
  intros H. unfold lps_parse in *.
  destruct (parse_len i) as [r n|e|e|p|] eqn:E; cbn [bind map_err] in *.
  - unfold map_res, take_bytes in *. destruct (N.ltb _ _); cbn in *; [eauto|].
    destruct (from_utf8 _); cbn in *; [exfalso; by eapply H|eauto].
  - eauto.
  - destruct (parse_len_not_ok i) as [e' He']; [by rewrite E|]. by rewrite E in He'.
  - destruct (parse_len_not_ok i) as [e' He']; [by rewrite E|]. by rewrite E in He'.
  - destruct (parse_len_not_ok i) as [e' He']; [by rewrite E|]. by rewrite E in He'.
Qed.

Lemma no_library_iff i : no_library i <-> exists e, binary_library i = Err e.
Proof.
  split.
  - intros H. destruct (decide (head_in [x0c] i)) as [Hh|Hh]; [|by apply binary_library_err].
    destruct i as [|c r]; [done|]. simpl in Hh. apply elem_of_list_singleton in Hh as ->.
    destruct H as (id & b & r' & Hid & -> & Hn).
    unfold binary_library. rewrite record_type_parse_cons. simpl. unfold library_id.
    rewrite (exact_ok _ _ _ _ _ (positive_id_exact _) Hid). cbn [bind].
    destruct (lps_not_ok r') as [e ->]; [|cbn; eauto].
    intros r0 s Hs. apply lps_exact in Hs as (bs & Hbs & ->). apply Hn. eauto.
  - intros [e He]. unfold no_library. destruct i as [|c r]; [done|].
    destruct (decide (c = x0c)) as [->|Hc]; [|by destruct c].
    unfold binary_library in He. rewrite record_type_parse_cons in He. simpl in He.
    destruct (library_id r) as [r' id|e'|e'|p|] eqn:E; cbn [bind] in He; try done.
    + apply library_id_exact in E as (b & Hb & ->). exists id, b, r'. split; [done|]. split; [done|].
      intros (s & bs & r'' & Hs & ->). by rewrite (exact_ok _ _ _ _ _ lps_exact Hs) in He.
    + by apply positive_id_not_err in E.
Qed.

Lemma no_library_head i : ~ head_in [x0c] i -> no_library i.
Proof. intros H. by apply no_library_iff, binary_library_err. Qed.

(** Tables as seen by the grammar. *)
Definition st (e : env) : state := mkState (e_libs e) ∅ (e_objs e).
Definition env_of (s : state) : env := mkEnv (st_libs s) (st_objects s).
Lemma st_env_of s : st_classes s = ∅ -> st (env_of s) = s.
Proof. destruct s. simpl. by intros ->. Qed.
Lemma env_of_st e : env_of (st e) = e.
Proof. by destruct e. Qed.

Lemma parse_binary_library_none s i :
  no_library i -> parse_binary_library s i = (s, Ok i tt).
Proof.
  intros H. apply no_library_iff in H as [e He]. unfold parse_binary_library. by rewrite He.
Qed.

Lemma parse_binary_library_complete e i e1 i1 :
  g_lib e i e1 i1 -> parse_binary_library (st e) i = (st e1, Ok i1 tt).
Proof.
  destruct 1 as [id name bs i Hr Hf|i Hn].
  - unfold parse_binary_library.
    rewrite (exact_ok binary_library _ (id, name) _ _ binary_library_exact Hr). cbn [opt].
    simpl. rewrite Hf. by rewrite bool_decide_eq_false_2 by (intros [? [=]]).
  - by apply parse_binary_library_none.
Qed.

Lemma parse_binary_library_sound s i s1 i1 u :
  parse_binary_library s i = (s1, Ok i1 u) ->
  g_lib (env_of s) i (env_of s1) i1 /\ st_classes s1 = st_classes s.
Proof.
  unfold parse_binary_library. destruct (binary_library i) as [rest [lid name]|e|e|p|] eqn:E;
    cbn [opt]; try done.
  - case_bool_decide as Hd; [done|]. intros [= <- <- _]. split; [|done].
    apply binary_library_exact in E as (bs & Hbs & ->).
    change (env_of (set_libs s (<[lid:=name]> (st_libs s)))) with (add_lib lid name (env_of s)).
    apply G_lib_some; [done|]. simpl. apply eq_None_not_Some. exact Hd.
  - intros [= <- <- _]. split; [|done]. apply G_lib_none. apply no_library_iff. eauto.
Qed.

(** Any result of the library step. *)
Lemma parse_binary_library_cases s i s1 r :
  parse_binary_library s i = (s1, r) ->
  (exists i1, r = Ok i1 tt) \/ (exists e, r = Fail e).
Proof.
  unfold parse_binary_library. pose proof (binary_library_safe i) as Hs.
  destruct (binary_library i) as [rest [lid name]|e|e|p|] eqn:E; cbn [opt]; try done.
  - case_bool_decide; intros [= <- <-]; eauto.
  - intros [= <- <-]; eauto.
  - intros [= <- <-]; eauto.
Qed.

(** ** What the parser never changes *)

(** Classes stay, libraries stay declared. *)
Definition mono (s s' : state) : Prop :=
  st_classes s' = st_classes s /\ dom (st_libs s) ⊆ dom (st_libs s').
Lemma mono_refl s : mono s s.
Proof. done. Qed.
Lemma mono_trans s1 s2 s3 : mono s1 s2 -> mono s2 s3 -> mono s1 s3.
Proof. intros [H1 H2] [H3 H4]. split; [congruence|set_solver]. Qed.
Lemma mono_objects s s' m : mono s s' -> mono s (set_objects s' m).
Proof. done. Qed.

Lemma mono_bind {A B} s (r : sres A) (f : state -> bytes -> A -> sres B) :
  mono s r.1 -> (forall s' i a, mono s' (f s' i a).1) -> mono s (sbind r f).1.
Proof.
  intros H Hf. destruct r as [s1 [i a|e|e|p|]]; simpl in *; try done.
  by eapply mono_trans.
Qed.

Lemma mono_lib s i : mono s (parse_binary_library s i).1.
Proof.
  unfold parse_binary_library. destruct (opt i (binary_library i)) as [i1 [[lid name]|]|e|e|p|];
    try done.
  case_bool_decide; (split; [done|]); simpl; set_solver.
Qed.

Section methods.
Context (PC : state -> bytes -> sres (N * obj value)).
Context (PR : state -> bytes -> sres N).
Hypothesis HPC : forall s i, mono s (PC s i).1.
Hypothesis HPR : forall s i, mono s (PR s i).1.

Lemma mono_untyped_body s i : mono s (member_untyped_body PC s i).1.
Proof. unfold member_untyped_body. destruct (alt _ _); try done. apply HPC. Qed.
Lemma mono_untyped s i : mono s (parse_member_untyped PC s i).1.
Proof. apply mono_bind; [apply mono_lib|]. intros. apply mono_untyped_body. Qed.
Lemma mono_class_or_null ok s i : mono s (class_or_null PC ok s i).1.
Proof.
  unfold class_or_null. pose proof (HPC s i) as H.
  destruct (PC s i) as [s1 [i1 [id o]|e|e|p|]]; try done. by destruct (ok o).
Qed.
Lemma mono_typed bt ai s i : mono s (parse_member_typed PC bt ai s i).1.
Proof.
  apply mono_bind; [apply mono_lib|]. intros s1 i1 _.
  destruct bt, ai as [[]|]; try done; try apply mono_untyped; try apply mono_class_or_null.
  destruct (st_libs s1 !! _); [apply mono_class_or_null|done].
Qed.
Lemma mono_members_typed l s i : mono s (parse_members_typed PC l s i).1.
Proof.
  revert s i. induction l as [|[bt ai] l IH]; intros s i; [done|].
  apply mono_bind; [apply mono_typed|]. intros. apply mono_bind; [apply IH|done].
Qed.
Lemma mono_scount_loop {A} fuel n (p : state -> bytes -> sres A) s i :
  (forall s i, mono s (p s i).1) -> mono s (scount_loop fuel n p s i).1.
Proof.
  intros Hp. revert n s i. induction fuel as [|fuel IH]; intros n s i; simpl;
    (destruct (N.eqb _ _); [done|]); [done|].
  apply mono_bind; [apply Hp|]. intros. apply mono_bind; [apply IH|done].
Qed.
Lemma mono_array_loop p fuel len cur s i :
  (forall s i, mono s (p s i).1) -> mono s (array_loop p fuel len cur s i).1.
Proof.
  intros Hp. revert cur s i. induction fuel as [|fuel IH]; intros n s i; simpl;
    (destruct (N.leb _ _); [done|]); [done|].
  apply mono_bind; [apply Hp|]. intros. apply mono_bind; [apply IH|done].
Qed.
Lemma mono_resolve ms s i : mono s (resolve_members PR ms s i).1.
Proof.
  revert s i. induction ms as [|m ms IH]; intros s i; cbn [resolve_members]; [done|].
  destruct m as [v|n|id].
  - apply mono_bind; [apply IH|done].
  - apply mono_bind; [apply IH|done].
  - destruct (st_objects s !! id).
    + apply mono_bind; [apply (IH (set_objects s _))|done].
    + apply mono_bind.
      * unfold verify_referenceable. pose proof (HPR s i) as H.
        destruct (PR s i) as [s1 [i1 id2|e|e|p|]]; try done. by destruct (N.eqb _ _).
      * intros s1 i1 id2. destruct (st_objects s1 !! id2); [|done].
        apply mono_bind; [apply (IH (set_objects s1 _))|done].
Qed.
Lemma mono_smap {A B} (f : A -> B) s (r : sres A) : mono s r.1 -> mono s (smap f r).1.
Proof. done. Qed.
Lemma mono_class_body err oid c s i : mono s (parse_class_body PC PR err oid c s i).1.
Proof.
  unfold parse_class_body. case_bool_decide; [done|]. apply mono_bind.
  - destruct c as [ci lid|ci mti lid|ci|ci mti];
      try (destruct (st_libs s !! lid); [|done]); apply mono_smap;
      try apply mono_members_typed; apply mono_scount_loop, mono_untyped.
  - intros. apply mono_bind; [apply mono_resolve|done].
Qed.
Lemma mono_classes_body s i : mono s (parse_classes_body PC PR s i).1.
Proof.
  apply mono_bind; [apply mono_lib|]. intros s1 i1 _.
  destruct (class_with_id i1) as [i2 [oid mid]|e|e|p|]; try done.
  - destruct (st_classes s1 !! mid); [apply mono_class_body|done].
  - destruct (class_records i1); try done. apply mono_class_body.
Qed.
Lemma mono_array_single_object s i : mono s (parse_array_single_object PC PR s i).1.
Proof.
  unfold parse_array_single_object. destruct (array_single_object i); try done.
  apply mono_bind; [apply mono_array_loop, mono_untyped|]. intros.
  apply mono_bind; [apply mono_resolve|done].
Qed.
Lemma mono_array_single_string s i : mono s (parse_array_single_string PC PR s i).1.
Proof.
  unfold parse_array_single_string. destruct (array_single_string i); try done.
  apply mono_bind; [apply mono_array_loop, mono_typed|]. intros.
  apply mono_bind; [apply mono_resolve|done].
Qed.
Lemma mono_binary_array s i : mono s (parse_binary_array PC PR s i).1.
Proof.
  unfold parse_binary_array. destruct (binary_array_parse i); try done.
  destruct (checked_product _ _); [|done].
  apply mono_bind; [apply mono_scount_loop, mono_typed|]. intros.
  apply mono_bind; [apply mono_resolve|done].
Qed.
Lemma mono_alt_mut {A} s (r : sres A) next :
  mono s r.1 -> (forall s', mono s s' -> mono s (next s').1) -> mono s (alt_mut r next).1.
Proof. intros H Hn. destruct r as [s1 [| | | |]]; simpl in *; auto. Qed.
Lemma mono_arrays s i : mono s (parse_arrays PC PR s i).1.
Proof.
  apply mono_bind; [apply mono_lib|]. intros s1 i1 _.
  apply mono_alt_mut; [apply mono_array_single_object|]. intros s2 H2.
  apply mono_alt_mut; [done|]. intros s3 H3.
  apply mono_alt_mut; [eapply mono_trans; [exact H3|apply mono_array_single_string]|]. intros s4 H4.
  apply mono_alt_mut; [eapply mono_trans; [exact H4|apply mono_binary_array]|]. done.
Qed.
Lemma mono_referenceable_body s i : mono s (parse_referenceable_body PC PR s i).1.
Proof.
  apply mono_bind; [|done].
  apply mono_alt_mut; [apply mono_smap, HPC|]. intros s1 H1.
  apply mono_alt_mut; [eapply mono_trans; [exact H1|apply mono_smap, mono_arrays]|]. intros s2 H2.
  apply mono_alt_mut; done.
Qed.
End methods.

Lemma mono_rec fuel :
  (forall s i, mono s (parse_classes fuel s i).1)
  /\ (forall s i, mono s (parse_referenceable fuel s i).1).
Proof.
  induction fuel as [|fuel [IH1 IH2]]; [done|]. split; intros s i.
  - by apply mono_classes_body.
  - by apply mono_referenceable_body.
Qed.
Lemma mono_classes fuel s i : mono s (parse_classes fuel s i).1.
Proof. apply mono_rec. Qed.
Lemma mono_referenceable fuel s i : mono s (parse_referenceable fuel s i).1.
Proof. apply mono_rec. Qed.

(** ** Wrong heads leave no trace *)

Lemma parse_classes_body_err PC PR s i :
  no_library i -> ~ head_in [x01; x02; x03; x04; x05] i ->
  exists e, parse_classes_body PC PR s i = (s, Err e).
Proof.
  intros Hl Hh. unfold parse_classes_body.
  rewrite parse_binary_library_none by done. cbn [sbind].
  destruct (class_with_id_err i) as [e1 ->]; [nohead|].
  destruct (class_records_err i) as [e2 ->]; [nohead|]. eauto.
Qed.

Lemma parse_arrays_err PC PR s i :
  no_library i -> ~ head_in [x07; x0f; x10; x11] i ->
  exists e, parse_arrays PC PR s i = (s, Err e).
Proof.
  intros Hl Hh. unfold parse_arrays.
  rewrite parse_binary_library_none by done. cbn [sbind].
  unfold parse_array_single_object, parse_array_single_primitive, parse_array_single_string,
    parse_binary_array.
  destruct (array_single_object_err i) as [e1 ->]; [nohead|]. cbn [alt_mut].
  destruct (array_single_primitive_err i) as [e2 ->]; [nohead|]. cbn [alt_mut bind].
  destruct (array_single_string_err i) as [e3 ->]; [nohead|]. cbn [alt_mut].
  destruct (binary_array_err i) as [e4 ->]; [nohead|]. cbn [alt_mut].
  unfold alt_mut_end. eauto.
Qed.

End with_decimal.
