(** * Worked: the counted parser computes what the parser computes. *)
From Verif Require Import Base Utf8 Value DataTypes Records Parser Work.

Section with_decimal.
Context {DL : DecimalLib} {P : Price}.

Lemma wbind_result {A B} (r : wres A) (f : state -> bytes -> A -> wres B) (r' : sres A)
  (f' : state -> bytes -> A -> sres B) :
  r.2 = r' -> (forall s i a, (f s i a).2 = f' s i a) -> (wbind r f).2 = sbind r' f'.
Proof. intros <- Hf. unfold wbind, sbind. destruct r as [n [s []]]; cbn; try done; apply Hf. Qed.
Lemma wmap_result {A B} (f : A -> B) (r : wres A) (r' : sres A) :
  r.2 = r' -> (wmap f r).2 = smap f r'.
Proof. by intros <-. Qed.
Lemma walt_result {A} (a b : nat * res A) : (walt a b).2 = alt a.2 b.2.
Proof. unfold walt. by destruct a as [n []]. Qed.
Lemma walt_mut_result {A} (r : wres A) (next : state -> wres A) r' next' :
  r.2 = r' -> (forall s, (next s).2 = next' s) -> (walt_mut r next).2 = alt_mut r' next'.
Proof. intros <- Hn. unfold walt_mut, alt_mut. destruct r as [n [s []]]; cbn; try done; apply Hn. Qed.
Lemma w_null_result i : (w_null_object i).2 = parse_null_object i.
Proof. unfold w_null_object, parse_null_object. by rewrite !walt_result. Qed.
Lemma w_class_records_result i : (w_class_records i).2 = class_records i.
Proof. unfold w_class_records, class_records. by rewrite !walt_result. Qed.

Lemma w_scount_loop_result {A} fuel n (p : state -> bytes -> wres A) p' s i :
  (forall s i, (p s i).2 = p' s i) ->
  (w_scount_loop fuel n p s i).2 = scount_loop fuel n p' s i.
Proof.
  intros Hp. revert n s i; induction fuel as [|fuel IH]; intros n s i; cbn;
    destruct (N.eqb n 0); try done.
  apply wbind_result; [apply Hp|]. intros s1 i1 a.
  apply wbind_result; [apply IH|]. done.
Qed.
Lemma w_array_loop_result p p' fuel len cur s i :
  (forall s i, (p s i).2 = p' s i) ->
  (w_array_loop p fuel len cur s i).2 = array_loop p' fuel len cur s i.
Proof.
  intros Hp. revert cur s i; induction fuel as [|fuel IH]; intros cur s i; cbn;
    destruct (N.leb len cur); try done.
  apply wbind_result; [apply Hp|]. intros s1 i1 a.
  apply wbind_result; [apply IH|]. done.
Qed.
Lemma w_primitives_result fuel n p s i :
  (w_primitives fuel n p s i).2
  = (s, count_loop fuel n (fun i => member_primitive_untyped i p) i).
Proof.
  revert n s i; induction fuel as [|fuel IH]; intros n s i; cbn; destruct (N.eqb n 0); try done.
  unfold w_primitive; cbn. destruct (member_primitive_untyped i p) as [i1 a|e|e|q|]; try done.
  cbn. unfold wbind at 1; cbn. rewrite IH.
  by destruct (count_loop fuel (N.pred n) _ i1).
Qed.

Section methods.
Context (PC : state -> bytes -> wres (N * obj value)).
Context (PR : state -> bytes -> wres N).
Context (PC' : state -> bytes -> sres (N * obj value)).
Context (PR' : state -> bytes -> sres N).
Context (HPC : forall s i, (PC s i).2 = PC' s i).
Context (HPR : forall s i, (PR s i).2 = PR' s i).

Lemma w_member_untyped_body_result s i :
  (w_member_untyped_body PC s i).2 = member_untyped_body PC' s i.
Proof using HPC.
  unfold w_member_untyped_body, member_untyped_body.
  rewrite !walt_result, w_null_result. cbn [call w_ref_member w_string_member snd].
  match goal with |- context [alt ?a ?b] => destruct (alt a b) end; try done.
  cbn. by rewrite HPC.
Qed.
Lemma w_member_untyped_result s i : (w_member_untyped PC s i).2 = parse_member_untyped PC' s i.
Proof using HPC. apply wbind_result; [done|]. intros. apply w_member_untyped_body_result. Qed.
Lemma w_class_or_null_result ok s i :
  (w_class_or_null PC ok s i).2 = class_or_null PC' ok s i.
Proof using HPC.
  unfold w_class_or_null, class_or_null. rewrite HPC.
  destruct (PC' s i) as [s1 [i1 [id o]|e|e|q|]]; cbn; rewrite ?w_null_result; done.
Qed.
Lemma w_member_typed_result bt ai s i :
  (w_member_typed PC bt ai s i).2 = parse_member_typed PC' bt ai s i.
Proof using HPC.
  apply wbind_result; [done|]. intros s1 i1 _.
  destruct bt, ai as [[]|]; try done; try apply w_member_untyped_result;
    try apply w_class_or_null_result.
  - destruct (st_libs s1 !! _); [apply w_class_or_null_result|done].
  - cbn [snd]. by rewrite !walt_result, w_null_result.
Qed.
Lemma w_members_typed_result l s i :
  (w_members_typed PC l s i).2 = parse_members_typed PC' l s i.
Proof using HPC.
  revert s i; induction l as [|[bt ai] l IH]; intros s i; [done|]. cbn.
  apply wbind_result; [apply w_member_typed_result|]. intros.
  by apply wbind_result; [apply IH|].
Qed.
Lemma w_verify_result id s i : (w_verify PR id s i).2 = verify_referenceable PR' id s i.
Proof using HPR.
  unfold w_verify, verify_referenceable. rewrite <- HPR.
  destruct (PR s i) as [n [s1 []]]; cbn; try done.
Qed.
Lemma w_resolve_result ms s i : (w_resolve_members PR ms s i).2 = resolve_members PR' ms s i.
Proof using HPR.
  revert s i; induction ms as [|[v|n|id] ms IH]; intros s i; [done| | |]; cbn.
  1-2: by apply wbind_result; [apply IH|].
  destruct (st_objects s !! id); [by apply wbind_result; [apply IH|]|].
  apply wbind_result; [apply w_verify_result|]. intros s1 i1 id2.
  destruct (st_objects s1 !! id2); [by apply wbind_result; [apply IH|]|done].
Qed.
Lemma w_class_body_result err oid c s i :
  (w_class_body PC PR err oid c s i).2 = parse_class_body PC' PR' err oid c s i.
Proof using HPC HPR.
  unfold w_class_body, parse_class_body. case_bool_decide; [done|].
  apply wbind_result.
  - destruct c; try destruct (st_libs s !! _); try done; apply wmap_result;
      try apply w_members_typed_result; apply w_scount_loop_result; apply w_member_untyped_result.
  - intros. by apply wbind_result; [apply w_resolve_result|].
Qed.
Lemma w_classes_body_result s i :
  (w_classes_body PC PR s i).2 = parse_classes_body PC' PR' s i.
Proof using HPC HPR.
  apply wbind_result; [done|]. intros s1 i1 _. cbn [call snd].
  destruct (class_with_id i1) as [r [oid mid]|e|e|q|]; try done.
  - destruct (st_classes s1 !! mid); [|done]. apply w_class_body_result.
  - rewrite w_class_records_result. destruct (class_records i1); try done.
    apply w_class_body_result.
Qed.
Lemma w_array_single_object_result s i :
  (w_array_single_object PC PR s i).2 = parse_array_single_object PC' PR' s i.
Proof using HPC HPR.
  unfold w_array_single_object, parse_array_single_object. cbn [call fst snd].
  destruct (array_single_object i); try done. cbn [wbind snd fst wmore].
  apply wbind_result; [apply w_array_loop_result, w_member_untyped_result|]. intros.
  by apply wbind_result; [apply w_resolve_result|].
Qed.
Lemma w_array_single_string_result s i :
  (w_array_single_string PC PR s i).2 = parse_array_single_string PC' PR' s i.
Proof using HPC HPR.
  unfold w_array_single_string, parse_array_single_string. cbn [call fst snd].
  destruct (array_single_string i); try done. cbn [wbind snd fst wmore].
  apply wbind_result; [apply w_array_loop_result, w_member_typed_result|]. intros.
  by apply wbind_result; [apply w_resolve_result|].
Qed.
Lemma w_array_single_primitive_result s i :
  (w_array_single_primitive s i).2 = parse_array_single_primitive s i.
Proof using Type.
  unfold w_array_single_primitive, parse_array_single_primitive. cbn [call fst snd].
  destruct (array_single_primitive i) as [i1 a|e|e|q|]; try done. cbn [wbind snd fst wmore bind].
  unfold count. destruct (w_primitives _ _ _ s i1) as [n r] eqn:E.
  pose proof (w_primitives_result (S (length i1)) (ai_length a.1) a.2 s i1) as Hr.
  rewrite E in Hr; cbn [snd] in Hr. rewrite Hr.
  by destruct (count_loop _ _ _ i1).
Qed.
Lemma w_binary_array_result s i :
  (w_binary_array PC PR s i).2 = parse_binary_array PC' PR' s i.
Proof using HPC HPR.
  unfold w_binary_array, parse_binary_array. cbn [call fst snd].
  destruct (binary_array_parse i) as [i1 ba|e|e|q|]; try done. cbn [wbind snd fst wmore].
  destruct (checked_product 1 (ba_lengths ba)); [|done].
  apply wbind_result; [apply w_scount_loop_result, w_member_typed_result|]. intros.
  by apply wbind_result; [apply w_resolve_result|].
Qed.
Lemma w_arrays_result s i : (w_arrays PC PR s i).2 = parse_arrays PC' PR' s i.
Proof using HPC HPR.
  apply wbind_result; [done|]. intros.
  apply walt_mut_result; [apply w_array_single_object_result|]. intros.
  apply walt_mut_result; [apply w_array_single_primitive_result|]. intros.
  apply walt_mut_result; [apply w_array_single_string_result|]. intros.
  apply walt_mut_result; [apply w_binary_array_result|]. done.
Qed.
Lemma w_referenceable_body_result s i :
  (w_referenceable_body PC PR s i).2 = parse_referenceable_body PC' PR' s i.
Proof using HPC HPR.
  apply wbind_result; [|done].
  apply walt_mut_result; [apply wmap_result, HPC|]. intros.
  apply walt_mut_result; [apply wmap_result, w_arrays_result|]. intros.
  by apply walt_mut_result.
Qed.
End methods.

Lemma w_rec_result fuel :
  (forall s i, (w_classes fuel s i).2 = parse_classes fuel s i) /\
  (forall s i, (w_referenceable fuel s i).2 = parse_referenceable fuel s i).
Proof.
  induction fuel as [|fuel [IHc IHr]]; [done|]. split; intros s i; cbn.
  - by apply w_classes_body_result.
  - by apply w_referenceable_body_result.
Qed.
Lemma w_classes_result fuel s i : (w_classes fuel s i).2 = parse_classes fuel s i.
Proof. apply w_rec_result. Qed.
Lemma w_referenceable_result fuel s i : (w_referenceable fuel s i).2 = parse_referenceable fuel s i.
Proof. apply w_rec_result. Qed.

Lemma w_call_array_result fuel root s i :
  (w_call_array fuel root s i).2 = parse_call_array fuel root s i.
Proof.
  apply wbind_result; [done|]. intros.
  apply wbind_result; [|done].
  apply w_array_single_object_result; [apply w_classes_result|apply w_referenceable_result].
Qed.
Lemma wopt_result {A} i (r : wres A) r' : r.2 = r' -> (wopt i r).2 = sopt i r'.
Proof. by intros <-. Qed.
Lemma w_method_call_result fuel root s i :
  (w_method_call fuel root s i).2 = parse_method_call fuel root s i.
Proof.
  apply wbind_result; [done|]. intros s1 i1 _. cbn [call fst snd].
  destruct (binary_method_call_parse i1) as [i2 c|e|e|q|]; try done. cbn [wbind snd fst wmore].
  by apply wbind_result; [apply wopt_result, w_call_array_result|].
Qed.
Lemma w_method_return_result fuel root s i :
  (w_method_return fuel root s i).2 = parse_method_return fuel root s i.
Proof.
  apply wbind_result; [done|]. intros s1 i1 _. cbn [call fst snd].
  destruct (binary_method_return_parse i1) as [i2 c|e|e|q|]; try done. cbn [wbind snd fst wmore].
  by apply wbind_result; [apply wopt_result, w_call_array_result|].
Qed.
Lemma w_method_result fuel root s i :
  (w_method fuel root s i).2 = parse_method_call_or_return fuel root s i.
Proof.
  apply walt_mut_result; [apply wmap_result, w_method_call_result|]. intros.
  by apply walt_mut_result; [apply wmap_result, w_method_return_result|].
Qed.
Lemma w_referenceables_result lf fuel s i :
  (w_referenceables lf fuel s i).2 = parse_referenceables lf fuel s i.
Proof.
  revert s i; induction lf as [|lf IH]; intros s i; [done|]. cbn.
  rewrite w_referenceable_result. destruct (parse_referenceable fuel s i) as [s1 []]; try done.
  apply IH.
Qed.

(** The counted parser returns what the parser returns. *)
Lemma w_message_result fuel s i : (w_message fuel s i).2 = parse_remoting_message fuel s i.
Proof.
  unfold w_message, parse_remoting_message.
  destruct (serialization_header_parse i) as [i1 h|e|e|q|]; try done. cbn [wbind snd fst wmore].
  apply wbind_result; [apply w_referenceables_result|]. intros s1 i2 _.
  apply wbind_result; [apply wopt_result, w_method_result|]. intros s2 i3 m.
  apply wbind_result; [apply w_referenceables_result|]. intros s3 i4 _.
  cbn [call fst snd]. destruct (message_end i4) as [i5 c|e|e|q|]; try done.
Qed.
End with_decimal.
