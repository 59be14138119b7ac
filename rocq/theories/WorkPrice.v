(** * WorkPrice: raising the price of the calls that give up.

    The account of Work.v with price [n] is at most [n] times the account with price 1: the two
    parsers make the same calls. *)
From Verif Require Import Base Utf8 Value DataTypes Records Parser Work Worked.
From Coq Require Import Lia.

Section with_decimal.
Context {DL : DecimalLib}.
Context (n : nat) (Hn : 1 <= n).
Local Arguments Nat.mul : simpl never.

(** Same result, and at most [n] times the cost. *)
Definition dear {A} (a b : nat * A) : Prop := a.2 = b.2 /\ a.1 <= n * b.1.
Notation N_ := (n : Price).
Notation O_ := counting_calls.

Lemma dear_zero {A} (r : A) : dear (0, r) (0, r).
Proof using Hn. split; cbn; [done|lia]. Qed.
Lemma dear_call {A} i (r : res A) : dear (@call N_ A i r) (@call O_ A i r).
Proof using Hn. split; [done|]. unfold call, charge, price, counting_calls. destruct r; cbn; nia. Qed.
Lemma dear_more {A} (a b : nat * A) c d : c <= n * d -> dear a b -> dear (c + a.1, a.2) (d + b.1, b.2).
Proof using Hn. intros Hc [H1 H2]. split; cbn; [done|nia]. Qed.
Lemma dear_bind {A B} (r r' : wres A) (f f' : state -> bytes -> A -> wres B) :
  dear r r' -> (forall s i a, dear (f s i a) (f' s i a)) -> dear (wbind r f) (wbind r' f').
Proof using Hn.
  intros [H1 H2] Hf. unfold wbind. rewrite H1.
  destruct r' as [k [s [i a|e|e|q|]]]; cbn in *; try (split; cbn; [done|lia]).
  unfold wmore. by apply dear_more.
Qed.
Lemma dear_map {A B} (f : A -> B) (r r' : wres A) : dear r r' -> dear (wmap f r) (wmap f r').
Proof using Hn. intros [H1 H2]. unfold wmap. split; cbn; [by rewrite H1|done]. Qed.
Lemma dear_alt {A} (a b a' b' : nat * res A) :
  dear a a' -> dear b b' -> dear (walt a b) (walt a' b').
Proof using Hn.
  intros [H1 H2] [H3 H4]. unfold walt. rewrite H1, H3.
  destruct a' as [k [i x|e|e|q|]]; cbn in *; split; cbn; try done; nia.
Qed.
Lemma dear_alt_mut {A} (r r' : wres A) next next' :
  dear r r' -> (forall s, dear (next s) (next' s)) -> dear (walt_mut r next) (walt_mut r' next').
Proof using Hn.
  intros [H1 H2] Hf. unfold walt_mut. rewrite H1.
  destruct r' as [k [s [i a|e|e|q|]]]; cbn in *; try (split; cbn; [done|lia]).
  unfold wmore. by apply dear_more.
Qed.
Lemma dear_state {A} (s : state) (a b : nat * res A) : dear a b -> dear (a.1, (s, a.2)) (b.1, (s, b.2)).
Proof using Hn. intros [H1 H2]. split; cbn; [by rewrite H1|done]. Qed.
Lemma dear_null i : dear (@w_null_object N_ i) (@w_null_object O_ i).
Proof using Hn. repeat apply dear_alt; apply dear_call. Qed.
Lemma dear_records i : dear (@w_class_records N_ i) (@w_class_records O_ i).
Proof using Hn. repeat apply dear_alt; apply dear_call. Qed.
Lemma dear_library s i : dear (@w_library N_ s i) (@w_library O_ s i).
Proof using Hn.
  destruct (dear_call i (binary_library i)) as [H1 H2]. split; [done|].
  unfold w_library. exact H2.
Qed.
Lemma dear_scount_loop {A} fuel k (p p' : state -> bytes -> wres A) s i :
  (forall s i, dear (p s i) (p' s i)) ->
  dear (w_scount_loop fuel k p s i) (w_scount_loop fuel k p' s i).
Proof using Hn.
  intros Hp. revert k s i; induction fuel as [|fuel IH]; intros k s i; cbn [w_scount_loop];
    destruct (N.eqb k 0); try apply dear_zero.
  apply dear_bind; [apply Hp|]. intros s1 i1 a. apply dear_bind; [apply IH|].
  intros. apply dear_zero.
Qed.
Lemma dear_array_loop fuel len cur (p p' : state -> bytes -> wres value_or_ref) s i :
  (forall s i, dear (p s i) (p' s i)) ->
  dear (w_array_loop p fuel len cur s i) (w_array_loop p' fuel len cur s i).
Proof using Hn.
  intros Hp. revert cur s i; induction fuel as [|fuel IH]; intros cur s i; cbn [w_array_loop];
    destruct (N.leb len cur); try apply dear_zero.
  apply dear_bind; [apply Hp|]. intros s1 i1 a. apply dear_bind; [apply IH|].
  intros. apply dear_zero.
Qed.
Lemma dear_primitives fuel k p s i :
  dear (@w_primitives DL N_ fuel k p s i) (@w_primitives DL O_ fuel k p s i).
Proof using Hn.
  revert k s i; induction fuel as [|fuel IH]; intros k s i; cbn [w_primitives];
    destruct (N.eqb k 0); try apply dear_zero.
  apply dear_bind; [apply dear_state, dear_call|]. intros s1 i1 a. apply dear_bind; [apply IH|].
  intros. apply dear_zero.
Qed.

Section methods.
Context (PC PC' : state -> bytes -> wres (N * obj value)).
Context (PR PR' : state -> bytes -> wres N).
Context (HPC : forall s i, dear (PC s i) (PC' s i)).
Context (HPR : forall s i, dear (PR s i) (PR' s i)).

Lemma dear_untyped_body s i :
  dear (@w_member_untyped_body DL N_ PC s i) (@w_member_untyped_body DL O_ PC' s i).
Proof using Hn HPC.
  unfold w_member_untyped_body. cbv zeta.
  match goal with |- dear (match (snd ?a) with _ => _ end) (match (snd ?b) with _ => _ end) =>
    assert (dear a b) as [H1 H2] end.
  { repeat apply dear_alt; first [apply dear_call|apply dear_null]. }
  revert H1 H2.
  match goal with |- snd ?a = snd ?b -> _ => generalize a; generalize b end.
  intros b a E H2. rewrite E. destruct b as [k [r x|e|e|q|]]; cbn [fst snd] in *;
    try (split; cbn; [done|lia]).
  unfold wmore. apply dear_more; [done|]. apply dear_map, HPC.
Qed.
Lemma dear_untyped s i :
  dear (@w_member_untyped DL N_ PC s i) (@w_member_untyped DL O_ PC' s i).
Proof using Hn HPC.
  apply dear_bind; [apply dear_library|]. intros. apply dear_untyped_body.
Qed.
Lemma dear_class_or_null ok s i :
  dear (@w_class_or_null N_ PC ok s i) (@w_class_or_null O_ PC' ok s i).
Proof using Hn HPC.
  unfold w_class_or_null. cbv zeta. destruct (HPC s i) as [H1 H2]. destruct (dear_null i) as [H3 H4].
  rewrite H1, H3. destruct (PC' s i) as [k [s1 [i1 [id o]|e|e|q|]]]; cbn [fst snd] in *;
    split; cbn [fst snd]; try done; nia.
Qed.
Lemma dear_typed bt ai s i :
  dear (@w_member_typed DL N_ PC bt ai s i) (@w_member_typed DL O_ PC' bt ai s i).
Proof using Hn HPC.
  apply dear_bind; [apply dear_library|]. intros s1 i1 _.
  destruct bt, ai as [[]|]; try apply dear_zero; try apply dear_untyped;
    try apply dear_class_or_null.
  - destruct (dear_call i1 (member_primitive_untyped i1 p)) as [H1 H2].
    unfold w_primitive. split; [done|exact H2].
  - apply dear_state, dear_call.
  - destruct (st_libs s1 !! _); [apply dear_class_or_null|apply dear_zero].
  - apply dear_state. repeat apply dear_alt; first [apply dear_call|apply dear_null].
  - apply dear_state, dear_call.
Qed.
Lemma dear_typeds l s i :
  dear (@w_members_typed DL N_ PC l s i) (@w_members_typed DL O_ PC' l s i).
Proof using Hn HPC.
  revert s i; induction l as [|[bt ai] l IH]; intros s i; cbn [w_members_typed]; [apply dear_zero|].
  apply dear_bind; [apply dear_typed|]. intros. apply dear_bind; [apply IH|].
  intros. apply dear_zero.
Qed.
Lemma dear_verify id s i : dear (w_verify PR id s i) (w_verify PR' id s i).
Proof using Hn HPR.
  unfold w_verify. cbv zeta. destruct (HPR s i) as [H1 H2]. destruct (PR s i) as [k r], (PR' s i) as [k' r'].
  cbn [fst snd] in *. subst r'. destruct r as [s1 [i1 id2|e|e|q|]]; split; cbn; try done; lia.
Qed.
Lemma dear_resolve ms s i : dear (w_resolve_members PR ms s i) (w_resolve_members PR' ms s i).
Proof using Hn HPR.
  revert s i; induction ms as [|[v|k|id] ms IH]; intros s i; cbn [w_resolve_members].
  - apply dear_zero.
  - apply dear_bind; [apply IH|]. intros. apply dear_zero.
  - apply dear_bind; [apply IH|]. intros. apply dear_zero.
  - destruct (st_objects s !! id); cbv zeta.
    { apply dear_bind; [apply IH|]. intros. apply dear_zero. }
    apply dear_bind; [apply dear_verify|]. intros s1 i1 id2.
    destruct (st_objects s1 !! id2); cbv zeta; [|apply dear_zero].
    apply dear_bind; [apply IH|]. intros. apply dear_zero.
Qed.
Lemma dear_class_body err oid c s i :
  dear (@w_class_body DL N_ PC PR err oid c s i) (@w_class_body DL O_ PC' PR' err oid c s i).
Proof using Hn HPC HPR.
  unfold w_class_body. case_bool_decide; [apply dear_zero|]. cbv zeta.
  apply dear_bind.
  - destruct c; try destruct (st_libs s !! _); try apply dear_zero; apply dear_map;
      try apply dear_typeds; apply dear_scount_loop; apply dear_untyped.
  - intros. apply dear_bind; [apply dear_resolve|]. intros. apply dear_zero.
Qed.
Lemma dear_classes_body s i :
  dear (@w_classes_body DL N_ PC PR s i) (@w_classes_body DL O_ PC' PR' s i).
Proof using Hn HPC HPR.
  apply dear_bind; [apply dear_library|]. intros s1 i1 _. cbv zeta.
  destruct (dear_call i1 (class_with_id i1)) as [_ H2]. cbn [call snd].
  destruct (class_with_id i1) as [r [oid mid]|e|e|q|]; try (split; [done|exact H2]).
  - destruct (st_classes s1 !! mid); [|split; [done|exact H2]].
    unfold wmore. apply dear_more; [exact H2|]. apply dear_class_body.
  - destruct (dear_records i1) as [H3 H4]. rewrite H3. cbn [call fst] in *.
    destruct (@w_class_records O_ i1) as [k [r c|e1|e1|q|]]; cbn [fst snd] in *;
      try (split; [done|]; cbn [fst]; nia).
    unfold wmore. apply dear_more; [nia|]. apply dear_class_body.
Qed.
Lemma dear_single_object s i :
  dear (@w_array_single_object DL N_ PC PR s i) (@w_array_single_object DL O_ PC' PR' s i).
Proof using Hn HPC HPR.
  apply dear_bind; [apply dear_state, dear_call|]. intros s1 i1 a.
  apply dear_bind; [apply dear_array_loop, dear_untyped|]. intros.
  apply dear_bind; [apply dear_resolve|]. intros. apply dear_zero.
Qed.
Lemma dear_single_string s i :
  dear (@w_array_single_string DL N_ PC PR s i) (@w_array_single_string DL O_ PC' PR' s i).
Proof using Hn HPC HPR.
  apply dear_bind; [apply dear_state, dear_call|]. intros s1 i1 a.
  apply dear_bind; [apply dear_array_loop, dear_typed|]. intros.
  apply dear_bind; [apply dear_resolve|]. intros. apply dear_zero.
Qed.
Lemma dear_single_primitive s i :
  dear (@w_array_single_primitive DL N_ s i) (@w_array_single_primitive DL O_ s i).
Proof using Hn.
  apply dear_bind; [apply dear_state, dear_call|]. intros s1 i1 a.
  apply dear_bind; [apply dear_primitives|]. intros. apply dear_zero.
Qed.
Lemma dear_binary_array s i :
  dear (@w_binary_array DL N_ PC PR s i) (@w_binary_array DL O_ PC' PR' s i).
Proof using Hn HPC HPR.
  apply dear_bind; [apply dear_state, dear_call|]. intros s1 i1 a.
  destruct (checked_product 1 (ba_lengths a)); [|apply dear_zero].
  apply dear_bind; [apply dear_scount_loop, dear_typed|]. intros.
  apply dear_bind; [apply dear_resolve|]. intros. apply dear_zero.
Qed.
Lemma dear_arrays s i : dear (@w_arrays DL N_ PC PR s i) (@w_arrays DL O_ PC' PR' s i).
Proof using Hn HPC HPR.
  apply dear_bind; [apply dear_library|]. intros.
  apply dear_alt_mut; [apply dear_single_object|]. intros.
  apply dear_alt_mut; [apply dear_single_primitive|]. intros.
  apply dear_alt_mut; [apply dear_single_string|]. intros.
  apply dear_alt_mut; [apply dear_binary_array|]. intros. apply dear_zero.
Qed.
Lemma dear_referenceable_body s i :
  dear (@w_referenceable_body DL N_ PC PR s i) (@w_referenceable_body DL O_ PC' PR' s i).
Proof using Hn HPC HPR.
  apply dear_bind; [|intros; apply dear_zero].
  apply dear_alt_mut; [apply dear_map, HPC|]. intros.
  apply dear_alt_mut; [apply dear_map, dear_arrays|]. intros.
  apply dear_alt_mut; [apply dear_state, dear_call|]. intros. apply dear_zero.
Qed.
End methods.

Lemma dear_rec fuel :
  (forall s i, dear (@w_classes DL N_ fuel s i) (@w_classes DL O_ fuel s i)) /\
  (forall s i, dear (@w_referenceable DL N_ fuel s i) (@w_referenceable DL O_ fuel s i)).
Proof using Hn.
  induction fuel as [|fuel [IHc IHr]]; [split; intros; apply dear_zero|].
  split; intros s i; cbn [w_classes w_referenceable].
  - by apply dear_classes_body.
  - by apply dear_referenceable_body.
Qed.
Lemma dear_opt {A} i (r r' : wres A) : dear r r' -> dear (wopt i r) (wopt i r').
Proof using Hn. intros [H1 H2]. unfold wopt. split; cbn [fst snd]; [by rewrite H1|done]. Qed.
Lemma dear_call_array fuel root s i :
  dear (@w_call_array DL N_ fuel root s i) (@w_call_array DL O_ fuel root s i).
Proof using Hn.
  apply dear_bind; [apply dear_library|]. intros.
  apply dear_bind; [|intros; apply dear_zero].
  apply dear_single_object; apply dear_rec.
Qed.
Lemma dear_method_call fuel root s i :
  dear (@w_method_call DL N_ fuel root s i) (@w_method_call DL O_ fuel root s i).
Proof using Hn.
  apply dear_bind; [apply dear_library|]. intros.
  apply dear_bind; [apply dear_state, dear_call|]. intros.
  apply dear_bind; [apply dear_opt, dear_call_array|]. intros. apply dear_zero.
Qed.
Lemma dear_method_return fuel root s i :
  dear (@w_method_return DL N_ fuel root s i) (@w_method_return DL O_ fuel root s i).
Proof using Hn.
  apply dear_bind; [apply dear_library|]. intros.
  apply dear_bind; [apply dear_state, dear_call|]. intros.
  apply dear_bind; [apply dear_opt, dear_call_array|]. intros. apply dear_zero.
Qed.
Lemma dear_method fuel root s i :
  dear (@w_method DL N_ fuel root s i) (@w_method DL O_ fuel root s i).
Proof using Hn.
  apply dear_alt_mut; [apply dear_map, dear_method_call|]. intros.
  apply dear_alt_mut; [apply dear_map, dear_method_return|]. intros. apply dear_zero.
Qed.
Lemma dear_referenceables lf fuel s i :
  dear (@w_referenceables DL N_ lf fuel s i) (@w_referenceables DL O_ lf fuel s i).
Proof using Hn.
  revert s i; induction lf as [|lf IH]; intros s i; cbn [w_referenceables]; [apply dear_zero|].
  cbv zeta. destruct (proj2 (dear_rec fuel) s i) as [H1 H2]. rewrite H1.
  destruct (@w_referenceable DL O_ fuel s i) as [k [s1 [i1 a|e|e|q|]]]; cbn [fst snd] in *;
    try (split; [done|exact H2]).
  unfold wmore. apply dear_more; [done|apply IH].
Qed.
Lemma dear_message fuel s i : dear (@w_message DL N_ fuel s i) (@w_message DL O_ fuel s i).
Proof using Hn.
  apply dear_bind.
  { apply (dear_state s (@call N_ _ i (serialization_header_parse i)) (@call O_ _ i _)), dear_call. }
  intros s1 i1 h.
  apply dear_bind; [apply dear_referenceables|]. intros s2 i2 _.
  apply dear_bind; [apply dear_opt, dear_method|]. intros s3 i3 m.
  apply dear_bind; [apply dear_referenceables|]. intros s4 i4 _.
  apply dear_bind; [apply dear_state, dear_call|]. intros s5 i5 u. apply dear_zero.
Qed.

(** The work at price [n] is at most [n] times the work at price 1. *)
Lemma work_dear input : @work DL N_ input <= n * @work DL O_ input.
Proof using Hn. apply dear_message. Qed.
End with_decimal.
