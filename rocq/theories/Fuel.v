(** * Fuel: the recursion bounds of the model do not influence results. *)
From Verif Require Import Base Utf8 Value DataTypes Records Parser BaseLemmas SafetyLemmas Complete.
From Coq Require Import Lia.

Section with_decimal.
Context {DL : DecimalLib}.

(** [r'] is [r], unless [r] ran out of fuel. *)
Definition sle {A} (r r' : sres A) : Prop := r.2 = Diverge \/ r = r'.

Lemma sle_refl {A} (r : sres A) : sle r r.
Proof. by right. Qed.
Lemma sle_bind {A B} (r r' : sres A) (k k' : state -> bytes -> A -> sres B) :
  sle r r' -> (forall s i a, sle (k s i a) (k' s i a)) -> sle (sbind r k) (sbind r' k').
Proof.
  intros [H| ->] Hk.
  - left. destruct r as [s r]. simpl in H. by subst.
  - destruct r' as [s [i a|e|e|p|]]; cbn [sbind]; try apply sle_refl. apply Hk.
Qed.
Lemma sle_smap {A B} (f : A -> B) (r r' : sres A) : sle r r' -> sle (smap f r) (smap f r').
Proof. intros [H| ->]; [left; unfold smap; simpl; by rewrite H|apply sle_refl]. Qed.
Lemma sle_alt_mut {A} (r r' : sres A) k k' :
  sle r r' -> (forall s, sle (k s) (k' s)) -> sle (alt_mut r k) (alt_mut r' k').
Proof.
  intros [H| ->] Hk.
  - left. destruct r as [s r]. simpl in H. by subst.
  - destruct r' as [s [i a|e|e|p|]]; cbn [alt_mut]; try apply sle_refl. apply Hk.
Qed.
Lemma sle_sopt {A} i (r r' : sres A) : sle r r' -> sle (sopt i r) (sopt i r').
Proof. intros [H| ->]; [left; unfold sopt; simpl; by rewrite H|apply sle_refl]. Qed.

Section methods.
Context (PC PC' : state -> bytes -> sres (N * obj value)).
Context (PR PR' : state -> bytes -> sres N).
Hypothesis HPC : forall s i, sle (PC s i) (PC' s i).
Hypothesis HPR : forall s i, sle (PR s i) (PR' s i).

Lemma sle_untyped s i : sle (parse_member_untyped PC s i) (parse_member_untyped PC' s i).
Proof.
  apply sle_bind; [apply sle_refl|]. intros s1 i1 _. unfold member_untyped_body.
  destruct (alt _ _); try apply sle_refl. by apply sle_smap.
Qed.
Lemma sle_class_or_null ok s i : sle (class_or_null PC ok s i) (class_or_null PC' ok s i).
Proof.
  unfold class_or_null. destruct (HPC s i) as [H| ->]; [|apply sle_refl].
  left. destruct (PC s i) as [s1 r]. simpl in H. by subst.
Qed.
Lemma sle_typed bt ai s i : sle (parse_member_typed PC bt ai s i) (parse_member_typed PC' bt ai s i).
Proof.
  apply sle_bind; [apply sle_refl|]. intros s1 i1 _.
  destruct bt, ai as [[]|]; try apply sle_refl; try apply sle_untyped; try apply sle_class_or_null.
  destruct (st_libs s1 !! _); [apply sle_class_or_null|apply sle_refl].
Qed.
Lemma sle_members_typed l s i : sle (parse_members_typed PC l s i) (parse_members_typed PC' l s i).
Proof.
  revert s i. induction l as [|[bt ai] l IH]; intros s i; [apply sle_refl|].
  apply sle_bind; [apply sle_typed|]. intros. apply sle_bind; [apply IH|]. intros. apply sle_refl.
Qed.
Lemma sle_scount {A} n (p p' : state -> bytes -> sres A) s i :
  (forall s i, sle (p s i) (p' s i)) -> sle (scount n p s i) (scount n p' s i).
Proof.
  intros Hp. unfold scount. generalize (S (length i)). intros fuel. revert n s i.
  induction fuel as [|fuel IH]; intros n s i; cbn [scount_loop];
    (destruct (N.eqb _ _); [apply sle_refl|]); [apply sle_refl|].
  apply sle_bind; [apply Hp|]. intros. apply sle_bind; [apply IH|]. intros. apply sle_refl.
Qed.
Lemma sle_array_loop p p' fuel len cur s i :
  (forall s i, sle (p s i) (p' s i)) ->
  sle (array_loop p fuel len cur s i) (array_loop p' fuel len cur s i).
Proof.
  intros Hp. revert cur s i. induction fuel as [|fuel IH]; intros n s i; cbn [array_loop];
    (destruct (N.leb _ _); [apply sle_refl|]); [apply sle_refl|].
  apply sle_bind; [apply Hp|]. intros. apply sle_bind; [apply IH|]. intros. apply sle_refl.
Qed.
Lemma sle_verify id s i : sle (verify_referenceable PR id s i) (verify_referenceable PR' id s i).
Proof.
  unfold verify_referenceable. destruct (HPR s i) as [H| ->]; [|apply sle_refl].
  left. destruct (PR s i) as [s1 r]. simpl in H. by subst.
Qed.
Lemma sle_resolve ms s i : sle (resolve_members PR ms s i) (resolve_members PR' ms s i).
Proof.
  revert s i. induction ms as [|m ms IH]; intros s i; cbn [resolve_members]; [apply sle_refl|].
  destruct m as [v|n|id].
  - apply sle_bind; [apply IH|]. intros. apply sle_refl.
  - apply sle_bind; [apply IH|]. intros. apply sle_refl.
  - destruct (st_objects s !! id).
    + apply sle_bind; [apply IH|]. intros. apply sle_refl.
    + apply sle_bind; [apply sle_verify|]. intros s1 i1 id2.
      destruct (st_objects s1 !! id2); [|apply sle_refl].
      apply sle_bind; [apply IH|]. intros. apply sle_refl.
Qed.
Lemma sle_class_body err oid c s i :
  sle (parse_class_body PC PR err oid c s i) (parse_class_body PC' PR' err oid c s i).
Proof.
  unfold parse_class_body. case_bool_decide; [apply sle_refl|]. apply sle_bind.
  - destruct c as [ci lid|ci mti lid|ci|ci mti];
      try (destruct (st_libs s !! lid); [|apply sle_refl]); apply sle_smap;
      try apply sle_members_typed; apply sle_scount, sle_untyped.
  - intros. apply sle_bind; [apply sle_resolve|]. intros. apply sle_refl.
Qed.
Lemma sle_classes_body s i : sle (parse_classes_body PC PR s i) (parse_classes_body PC' PR' s i).
Proof.
  apply sle_bind; [apply sle_refl|]. intros s1 i1 _.
  destruct (class_with_id i1) as [i2 [oid mid]|e|e|p|]; try apply sle_refl.
  - destruct (st_classes s1 !! mid); [apply sle_class_body|apply sle_refl].
  - destruct (class_records i1); try apply sle_refl. apply sle_class_body.
Qed.
Lemma sle_array_single_object s i :
  sle (parse_array_single_object PC PR s i) (parse_array_single_object PC' PR' s i).
Proof.
  unfold parse_array_single_object. destruct (array_single_object i); try apply sle_refl.
  apply sle_bind; [apply sle_array_loop, sle_untyped|]. intros.
  apply sle_bind; [apply sle_resolve|]. intros. apply sle_refl.
Qed.
Lemma sle_array_single_string s i :
  sle (parse_array_single_string PC PR s i) (parse_array_single_string PC' PR' s i).
Proof.
  unfold parse_array_single_string. destruct (array_single_string i); try apply sle_refl.
  apply sle_bind; [apply sle_array_loop, sle_typed|]. intros.
  apply sle_bind; [apply sle_resolve|]. intros. apply sle_refl.
Qed.
Lemma sle_binary_array s i : sle (parse_binary_array PC PR s i) (parse_binary_array PC' PR' s i).
Proof.
  unfold parse_binary_array. destruct (binary_array_parse i); try apply sle_refl.
  destruct (checked_product _ _); [|apply sle_refl].
  apply sle_bind; [apply sle_scount, sle_typed|]. intros.
  apply sle_bind; [apply sle_resolve|]. intros. apply sle_refl.
Qed.
Lemma sle_arrays s i : sle (parse_arrays PC PR s i) (parse_arrays PC' PR' s i).
Proof.
  apply sle_bind; [apply sle_refl|]. intros s1 i1 _.
  apply sle_alt_mut; [apply sle_array_single_object|]. intros s2.
  apply sle_alt_mut; [apply sle_refl|]. intros s3.
  apply sle_alt_mut; [apply sle_array_single_string|]. intros s4.
  apply sle_alt_mut; [apply sle_binary_array|]. intros. apply sle_refl.
Qed.
Lemma sle_referenceable_body s i :
  sle (parse_referenceable_body PC PR s i) (parse_referenceable_body PC' PR' s i).
Proof.
  apply sle_bind; [|intros; apply sle_refl].
  apply sle_alt_mut; [apply sle_smap, HPC|]. intros s1.
  apply sle_alt_mut; [apply sle_smap, sle_arrays|]. intros s2. apply sle_refl.
Qed.
End methods.

Lemma sle_rec f f' :
  f <= f' ->
  (forall s i, sle (parse_classes f s i) (parse_classes f' s i))
  /\ (forall s i, sle (parse_referenceable f s i) (parse_referenceable f' s i)).
Proof.
  revert f'. induction f as [|f IH]; intros f' Hle.
  - split; intros s i; by left.
  - destruct f' as [|f']; [lia|]. destruct (IH f') as [IH1 IH2]; [lia|]. split; intros s i.
    + rewrite !parse_classes_S. by apply sle_classes_body.
    + rewrite !parse_referenceable_S. by apply sle_referenceable_body.
Qed.
Lemma sle_classes f f' s i : f <= f' -> sle (parse_classes f s i) (parse_classes f' s i).
Proof. intros H. by apply sle_rec. Qed.
Lemma sle_referenceable f f' s i :
  f <= f' -> sle (parse_referenceable f s i) (parse_referenceable f' s i).
Proof. intros H. by apply sle_rec. Qed.

Lemma sle_referenceables lf lf' f f' s i :
  lf <= lf' -> f <= f' -> sle (parse_referenceables lf f s i) (parse_referenceables lf' f' s i).
Proof.
  revert lf' s i. induction lf as [|lf IH]; intros lf' s i Hl Hf; [by left|].
  destruct lf' as [|lf']; [lia|]. cbn [parse_referenceables].
  destruct (sle_referenceable f f' s i Hf) as [H| <-].
  - left. destruct (parse_referenceable f s i) as [s1 r]. simpl in H. by subst.
  - destruct (parse_referenceable f s i) as [s1 [i1 a|e|e|p|]]; try apply sle_refl.
    apply IH; lia.
Qed.
Lemma sle_call_array f f' root s i :
  f <= f' -> sle (parse_call_array f root s i) (parse_call_array f' root s i).
Proof.
  intros Hf. apply sle_bind; [apply sle_refl|]. intros s1 i1 _.
  apply sle_bind; [|intros; apply sle_refl].
  apply sle_array_single_object; intros; [by apply sle_classes|by apply sle_referenceable].
Qed.
Lemma sle_method f f' root s i :
  f <= f' -> sle (parse_method_call_or_return f root s i) (parse_method_call_or_return f' root s i).
Proof.
  intros Hf. apply sle_alt_mut; [|intros s0; apply sle_alt_mut; [|intros; apply sle_refl]];
    apply sle_smap, sle_bind; try apply sle_refl; intros s1 i1 _.
  - destruct (binary_method_call_parse i1); try apply sle_refl.
    apply sle_bind; [by apply sle_sopt, sle_call_array|intros; apply sle_refl].
  - destruct (binary_method_return_parse i1); try apply sle_refl.
    apply sle_bind; [by apply sle_sopt, sle_call_array|intros; apply sle_refl].
Qed.
Lemma sle_message f f' s i :
  f <= f' -> sle (parse_remoting_message f s i) (parse_remoting_message f' s i).
Proof.
  intros Hf. unfold parse_remoting_message.
  destruct (serialization_header_parse i); try apply sle_refl.
  apply sle_bind; [by apply sle_referenceables|]. intros s1 i1 _.
  apply sle_bind; [by apply sle_sopt, sle_method|]. intros s2 i2 m.
  apply sle_bind; [by apply sle_referenceables|]. intros s3 i3 _. apply sle_refl.
Qed.

End with_decimal.
