(** * WorkLower: the account misses no byte of an accepted message. *)
From Verif Require Import Base Utf8 Value DataTypes Records Parser.
From Verif Require Import BaseLemmas DataTypesLemmas RecordsLemmas MethodLemmas SafetyLemmas Safety Complete Heads.
From Verif Require Import Work Worked WorkBound.
From Coq Require Import Lia.

Section with_decimal.
Context {DL : DecimalLib}.
Local Existing Instance counting_calls.
Notation len := (@length byte).

(** Every byte between the input and the rest has been paid for. *)
Definition paid {A} (i : bytes) (c : wres A) : Prop :=
  forall j a, c.2.2 = Ok j a -> len i <= len j + c.1.
Definition paid1 {A} (i : bytes) (c : nat * res A) : Prop :=
  forall j a, c.2 = Ok j a -> len i <= len j + c.1.

Lemma paid_call {A} i (r : res A) : paid1 i (call i r).
Proof. intros j a. unfold call, charge; cbn. intros ->. lia. Qed.
Lemma paid_walt {A} i (a b : nat * res A) : paid1 i a -> paid1 i b -> paid1 i (walt a b).
Proof.
  unfold paid1, walt. destruct a as [n [j a|e|e|q|]]; cbn; try done.
  intros _ Hb j a E. apply Hb in E. lia.
Qed.
Lemma paid_pure {A} i s (c : nat * res A) : paid1 i c -> paid i (c.1, (s, c.2)).
Proof. intros Hc j a E. by eapply Hc. Qed.
Lemma paid_ret {A} i s (a : A) : paid i (0, (s, Ok i a)).
Proof. intros j b [= <- _]. lia. Qed.
Lemma paid_stop {A} i n s (r : res A) : (forall j a, r <> Ok j a) -> paid i (n, (s, r)).
Proof. intros Hr j a E. by destruct (Hr j a). Qed.
Lemma paid_bind {A B} i (r : wres A) (f : state -> bytes -> A -> wres B) :
  paid i r -> (forall s j a, paid j (f s j a)) -> paid i (wbind r f).
Proof.
  unfold paid, wbind. destruct r as [n [s [j a|e|e|q|]]]; cbn; try done.
  intros H1 H2 j' b E. apply H2 in E. specialize (H1 j a eq_refl). lia.
Qed.
Lemma paid_more {A} n i (c : wres A) : paid i c -> paid i (wmore n c).
Proof. intros Hc j a E. apply Hc in E. unfold wmore; cbn. lia. Qed.
Lemma paid_map {A B} (f : A -> B) i (c : wres A) : paid i c -> paid i (wmap f c).
Proof.
  intros Hc j b E. unfold wmap in *. destruct c as [n [s [j' a|e|e|q|]]]; try done. cbn in *.
  injection E as -> _. by eapply Hc.
Qed.
Lemma paid_walt_mut {A} i (r : wres A) (next : state -> wres A) :
  paid i r -> (forall s, paid i (next s)) -> paid i (walt_mut r next).
Proof.
  intros Hr Hn. unfold walt_mut. destruct r as [n [s [j a|e|e|q|]]]; try done. cbn.
  by apply paid_more.
Qed.
Lemma paid_library s i : paid i (w_library s i).
Proof.
  destruct (w_library_cases s i) as [Hn [[s' Hr]|(s' & e & Hr)]]; intros j a E.
  - rewrite Hr in E. injection E as <- _. rewrite Hn. lia.
  - by rewrite Hr in E.
Qed.
Lemma paid_null i : paid1 i (w_null_object i).
Proof. apply paid_walt, paid_walt; apply paid_call. Qed.
Lemma paid_scount {A} fuel n (p : state -> bytes -> wres A) s i :
  (forall s i, paid i (p s i)) -> paid i (w_scount_loop fuel n p s i).
Proof.
  intros Hp. revert n s i; induction fuel as [|fuel IH]; intros n s i; cbn [w_scount_loop];
    (destruct (N.eqb n 0); [apply paid_ret|]); [by apply paid_stop|].
  apply paid_bind; [apply Hp|]. intros. apply paid_bind; [apply IH|]. intros. apply paid_ret.
Qed.
Lemma paid_array_loop p fuel l cur s i :
  (forall s i, paid i (p s i)) -> paid i (w_array_loop p fuel l cur s i).
Proof.
  intros Hp. revert cur s i; induction fuel as [|fuel IH]; intros cur s i; cbn [w_array_loop];
    (destruct (N.leb l cur); [apply paid_ret|]); [by apply paid_stop|].
  apply paid_bind; [apply Hp|]. intros. apply paid_bind; [apply IH|]. intros. apply paid_ret.
Qed.
Lemma paid_primitives fuel n p s i : paid i (w_primitives fuel n p s i).
Proof.
  revert n s i; induction fuel as [|fuel IH]; intros n s i; cbn [w_primitives];
    (destruct (N.eqb n 0); [apply paid_ret|]); [by apply paid_stop|].
  apply paid_bind; [apply paid_pure, paid_call|]. intros. apply paid_bind; [apply IH|]. intros. apply paid_ret.
Qed.

Section methods.
Context (PC : state -> bytes -> wres (N * obj value)).
Context (PR : state -> bytes -> wres N).
Context (HPC : forall s i, paid i (PC s i)).
Context (HPR : forall s i, paid i (PR s i)).

Lemma paid_untyped_body s i : paid i (w_member_untyped_body PC s i).
Proof using HPC.
  unfold w_member_untyped_body. cbv zeta.
  match goal with |- context [walt ?a ?b] => set (c := walt a b) end.
  assert (paid1 i c) as Hc.
  { do 3 (apply paid_walt; [apply paid_call|]). apply paid_null. }
  clearbody c. destruct c as [n [j a|e|e|q|]]; cbn [fst snd]; try by apply paid_stop.
  - intros j' a' [= <- _]. by apply (Hc j a).
  - by apply paid_more, paid_map.
Qed.
Lemma paid_untyped s i : paid i (w_member_untyped PC s i).
Proof using HPC. apply paid_bind; [apply paid_library|]. intros. apply paid_untyped_body. Qed.
Lemma paid_class_or_null ok s i : paid i (w_class_or_null PC ok s i).
Proof using HPC.
  unfold w_class_or_null. cbv zeta. specialize (HPC s i). pose proof (paid_null i) as Hn.
  destruct (PC s i) as [n [s1 [r [id o]|e|e|q|]]]; cbn [fst snd]; try by apply paid_stop.
  - destruct (ok o); [|by apply paid_stop]. intros j a [= <- _]. by apply (HPC r (id, o)).
  - intros j a E. apply Hn in E. cbn [fst snd]. lia.
  - intros j a E. apply Hn in E. cbn [fst snd]. lia.
Qed.
Lemma paid_typed bt ai s i : paid i (w_member_typed PC bt ai s i).
Proof using HPC.
  apply paid_bind; [apply paid_library|]. intros s1 j _.
  destruct bt, ai as [[]|]; try (by apply paid_stop); try apply paid_untyped;
    try apply paid_class_or_null; try (apply paid_pure, paid_call).
  - intros j' a E. cbn in *. destruct (member_primitive_untyped j p); try done. cbn in *.
    injection E as -> _. lia.
  - destruct (st_libs s1 !! _); [apply paid_class_or_null|by apply paid_stop].
  - cbv zeta. apply paid_pure. do 2 (apply paid_walt; [apply paid_call|]). apply paid_null.
Qed.
Lemma paid_members_typed l s i : paid i (w_members_typed PC l s i).
Proof using HPC.
  revert s i; induction l as [|[bt ai] l IH]; intros s i; cbn [w_members_typed]; [apply paid_ret|].
  apply paid_bind; [apply paid_typed|]. intros. apply paid_bind; [apply IH|]. intros. apply paid_ret.
Qed.
Lemma paid_resolve ms s i : paid i (w_resolve_members PR ms s i).
Proof using HPR.
  revert s i; induction ms as [|[v|n|id] ms IH]; intros s i; cbn [w_resolve_members].
  - apply paid_ret.
  - apply paid_bind; [apply IH|]. intros. apply paid_ret.
  - apply paid_bind; [apply IH|]. intros. apply paid_ret.
  - destruct (st_objects s !! id); [apply paid_bind; [apply IH|]; intros; apply paid_ret|].
    apply paid_bind.
    + unfold w_verify. cbv zeta. specialize (HPR s i).
      destruct (PR s i) as [n [s1 [r id2|e|e|q|]]]; cbn [fst snd]; try by apply paid_stop.
      destruct (N.eqb id2 id); [|by apply paid_stop]. intros j a [= <- _]. by apply (HPR r id2).
    + intros s1 j id2. destruct (st_objects s1 !! id2); [|by apply paid_stop].
      apply paid_bind; [apply IH|]. intros. apply paid_ret.
Qed.
Lemma paid_class_body err oid c s i : paid i (w_class_body PC PR err oid c s i).
Proof using HPC HPR.
  unfold w_class_body. case_bool_decide; [by apply paid_stop|].
  apply paid_bind.
  - destruct c; try (destruct (st_libs s !! _); [|by apply paid_stop]); apply paid_map;
      first [apply paid_members_typed | apply paid_scount, paid_untyped].
  - intros. apply paid_bind; [apply paid_resolve|]. intros. apply paid_ret.
Qed.
Lemma paid_classes_body s i : paid i (w_classes_body PC PR s i).
Proof using HPC HPR.
  apply paid_bind; [apply paid_library|]. intros s1 j _. cbv zeta. cbn [call fst snd].
  pose proof (paid_call j (class_with_id j)) as Hw.
  destruct (class_with_id j) as [r [oid mid]|e|e|q|]; try by apply paid_stop.
  - destruct (st_classes s1 !! mid); [|by apply paid_stop].
    intros j' a E. apply paid_class_body in E. specialize (Hw r (oid, mid) eq_refl).
    unfold wmore, call in *; cbn [fst snd] in *. lia.
  - assert (paid1 j (w_class_records j)) as Hr.
    { do 3 (apply paid_walt; [apply paid_call|]). apply paid_call. }
    destruct (w_class_records j) as [n [r c|e2|e2|q|]]; cbn [fst snd]; try by apply paid_stop.
    intros j' a E. apply paid_class_body in E. specialize (Hr r c eq_refl).
    unfold wmore, call in *; cbn [fst snd] in *. lia.
Qed.
Lemma paid_array_single_object s i : paid i (w_array_single_object PC PR s i).
Proof using HPC HPR.
  apply paid_bind; [apply paid_pure, paid_call|]. intros.
  apply paid_bind; [apply paid_array_loop, paid_untyped|]. intros.
  apply paid_bind; [apply paid_resolve|]. intros. apply paid_ret.
Qed.
Lemma paid_array_single_string s i : paid i (w_array_single_string PC PR s i).
Proof using HPC HPR.
  apply paid_bind; [apply paid_pure, paid_call|]. intros.
  apply paid_bind; [apply paid_array_loop, paid_typed|]. intros.
  apply paid_bind; [apply paid_resolve|]. intros. apply paid_ret.
Qed.
Lemma paid_array_single_primitive s i : paid i (w_array_single_primitive s i).
Proof using Type.
  apply paid_bind; [apply paid_pure, paid_call|]. intros.
  apply paid_bind; [apply paid_primitives|]. intros. apply paid_ret.
Qed.
Lemma paid_binary_array s i : paid i (w_binary_array PC PR s i).
Proof using HPC HPR.
  apply paid_bind; [apply paid_pure, paid_call|]. intros s1 j ba.
  destruct (checked_product 1 (ba_lengths ba)); [|by apply paid_stop].
  apply paid_bind; [apply paid_scount, paid_typed|]. intros.
  apply paid_bind; [apply paid_resolve|]. intros s3 j3 vs.
  destruct (chunk_dims _ vs j3) as [j4 vs'|e|e|q|] eqn:E; try by apply paid_stop.
  apply chunk_dims_rest in E as ->. apply paid_ret.
Qed.
Lemma paid_arrays s i : paid i (w_arrays PC PR s i).
Proof using HPC HPR.
  apply paid_bind; [apply paid_library|]. intros.
  apply paid_walt_mut; [apply paid_array_single_object|]. intros.
  apply paid_walt_mut; [apply paid_array_single_primitive|]. intros.
  apply paid_walt_mut; [apply paid_array_single_string|]. intros.
  apply paid_walt_mut; [apply paid_binary_array|]. intros. by apply paid_stop.
Qed.
Lemma paid_referenceable_body s i : paid i (w_referenceable_body PC PR s i).
Proof using HPC HPR.
  apply paid_bind.
  - apply paid_walt_mut; [by apply paid_map|]. intros.
    apply paid_walt_mut; [apply paid_map, paid_arrays|]. intros.
    apply paid_walt_mut; [apply paid_pure, paid_call|]. intros. by apply paid_stop.
  - intros s1 j a j' b [= <- _]. lia.
Qed.
End methods.

Lemma paid_rec fuel :
  (forall s i, paid i (w_classes fuel s i)) /\ (forall s i, paid i (w_referenceable fuel s i)).
Proof.
  induction fuel as [|fuel [IHc IHr]]; (split; intros s i; cbn [w_classes w_referenceable]).
  - by apply paid_stop.
  - by apply paid_stop.
  - by apply paid_classes_body.
  - by apply paid_referenceable_body.
Qed.
Lemma paid_opt {A} i (c : wres A) : paid i c -> paid i (wopt i c).
Proof.
  intros Hc. destruct c as [n [s [j a|e|e|q|]]]; try by apply paid_stop.
  - intros j' a' [= <- _]. by apply (Hc j a).
  - intros j' a' [= <- _]. lia.
Qed.
Lemma paid_call_array fuel root s i : paid i (w_call_array fuel root s i).
Proof.
  destruct (paid_rec fuel) as [Hc Hr].
  apply paid_bind; [apply paid_library|]. intros.
  apply paid_bind; [by apply paid_array_single_object|]. intros.
  case_bool_decide; [apply paid_ret|by apply paid_stop].
Qed.
Lemma paid_method fuel root s i : paid i (w_method fuel root s i).
Proof.
  apply paid_walt_mut; [apply paid_map|intros; apply paid_walt_mut; [apply paid_map|intros; by apply paid_stop]].
  all: apply paid_bind; [apply paid_library|]; intros.
  all: apply paid_bind; [apply paid_pure, paid_call|]; intros.
  all: apply paid_bind; [apply paid_opt, paid_call_array|]; intros.
  all: match goal with |- context [parse_args ?f ?c ?a ?i] => destruct (parse_args f c a i) eqn:E end;
    try by apply paid_stop.
  all: apply args_rest in E as ->; apply paid_ret.
Qed.
Lemma paid_referenceables lf fuel s i : paid i (w_referenceables lf fuel s i).
Proof.
  revert s i; induction lf as [|lf IH]; intros s i; cbn [w_referenceables]; [by apply paid_stop|].
  pose proof (proj2 (paid_rec fuel) s i) as Hr.
  destruct (w_referenceable fuel s i) as [n [s1 [j a|e|e|q|]]]; cbn [fst snd]; try by apply paid_stop.
  - intros j' u E. apply IH in E. specialize (Hr j a eq_refl). unfold wmore; cbn in *. lia.
  - intros j' u [= <- _]. lia.
Qed.
Lemma paid_message fuel s i m s' j : (w_message fuel s i).2 = (s', Ok j m) ->
  j = [] /\ len i <= (w_message fuel s i).1.
Proof.
  intros E.
  assert (paid i (w_message fuel s i)) as Hp.
  { unfold w_message. cbv zeta.
    apply paid_bind; [apply (paid_pure i s (call i (serialization_header_parse i))), paid_call|]. intros.
    apply paid_bind; [apply paid_referenceables|]. intros.
    apply paid_bind; [apply paid_opt, paid_method|]. intros.
    apply paid_bind; [apply paid_referenceables|]. intros.
    apply paid_bind; [apply paid_pure, paid_call|]. intros s5 j5 _.
    intros j6 m6. cbn [fst snd]. destruct j5; [|done]. intros _. cbn. lia. }
  assert (j = []) as ->.
  { revert E. rewrite w_message_result. unfold parse_remoting_message.
    destruct (serialization_header_parse i) as [i1 h|e|e|q|]; try done.
    destruct (parse_referenceables _ fuel s i1) as [s1 [i2 u|e|e|q|]]; cbn [sbind]; try done.
    destruct (sopt i2 _) as [s2 [i3 mo|e|e|q|]]; cbn [sbind]; try done.
    destruct (parse_referenceables _ fuel s2 i3) as [s3 [i4 u'|e|e|q|]]; cbn [sbind]; try done.
    destruct (message_end i4) as [i5 v|e|e|q|]; try done. destruct i5; [|done].
    repeat case_match; congruence. }
  split; [done|]. specialize (Hp [] m). rewrite E in Hp. specialize (Hp eq_refl). cbn [length] in Hp. lia.
Qed.
End with_decimal.
