(** * WorkBound: the work of the parser is linear in the length of the input. *)
From Verif Require Import Base Utf8 Value DataTypes Records Parser.
From Verif Require Import BaseLemmas DataTypesLemmas RecordsLemmas MethodLemmas SafetyLemmas Safety Complete Heads.
From Verif Require Import Wire Work Worked.
From Coq Require Import Lia.

Section with_decimal.
Context {DL : DecimalLib}.
Local Existing Instance counting_calls.

Notation len := (@length byte).
Local Arguments Nat.mul : simpl never.
Local Arguments Nat.add : simpl never.
Local Arguments Nat.sub : simpl never.

(** ** Record parsers *)

Lemma rmap_strict {A B} (f : A -> B) (p : bytes -> res A) : strict p -> strict (fun i => rmap f (p i)).
Proof.
  intros Hp i r b E. specialize (Hp i r). destruct (p i) as [j a|e|e|q|]; try done. cbn in E.
  injection E as -> _. eauto.
Qed.
Lemma alt_strict {A} (p q : bytes -> res A) : strict p -> strict q -> strict (fun i => alt (p i) (q i)).
Proof. intros Hp Hq i r a E. specialize (Hp i r a). specialize (Hq i r a). destruct (p i); cbn in *; eauto. Qed.

Lemma string_strict : strict binary_object_string.
Proof.
  intros i r a E. apply binary_object_string_exact in E as (bs & Hbs & ->).
  apply string_record_nonempty in Hbs. rewrite app_length. lia.
Qed.
Lemma string_member_strict : strict parse_string_member.
Proof. apply rmap_strict, string_strict. Qed.
Lemma ref_member_strict : strict parse_ref_member.
Proof.
  intros i r a E. apply parse_ref_member_exact in E as (bs & (id & -> & b & [Hid _] & ->) & ->).
  rewrite app_length. simpl. lia.
Qed.
Lemma null_strict : strict parse_null_object.
Proof.
  intros i r a E. apply parse_null_object_exact in E as (bs & (n & -> & Hn) & ->).
  rewrite app_length. destruct Hn as [[-> ->]|[[Hn ->]|[Hn ->]]]; simpl; lia.
Qed.
Lemma typed_strict : strict member_primitive_typed.
Proof.
  intros i r a E. apply member_primitive_typed_exact in E as (bs & (p & b & _ & _ & ->) & ->).
  rewrite app_length. simpl. lia.
Qed.
Lemma untyped_strict p : strict (fun i => member_primitive_untyped i p).
Proof.
  intros i r a E. apply member_primitive_untyped_exact in E as (bs & [_ Hb] & ->).
  rewrite app_length. destruct bs; [by apply e_prim_nonempty in Hb|simpl; lia].
Qed.
Lemma class_records_strict : strict class_records.
Proof.
  intros i r a E. apply class_records_exact in E as (bs & (h & _ & Hh) & ->).
  rewrite app_length. destruct bs; [by apply class_header_nonempty in Hh|simpl; lia].
Qed.
Lemma untyped_leaf_strict : strict (fun i => alt (rmap VR_Value (member_primitive_typed i))
  (alt (parse_ref_member i) (alt (parse_string_member i) (parse_null_object i)))).
Proof.
  apply (alt_strict (fun i => rmap VR_Value (member_primitive_typed i))
    (fun i => alt (parse_ref_member i) (alt (parse_string_member i) (parse_null_object i)))).
  { apply rmap_strict, typed_strict. }
  apply (alt_strict parse_ref_member (fun i => alt (parse_string_member i) (parse_null_object i))).
  { apply ref_member_strict. }
  apply alt_strict; [apply string_member_strict|apply null_strict].
Qed.
Lemma string_item_strict : strict (fun i => alt (parse_string_member i)
  (alt (parse_ref_member i) (parse_null_object i))).
Proof.
  apply (alt_strict parse_string_member (fun i => alt (parse_ref_member i) (parse_null_object i))).
  { apply string_member_strict. }
  apply alt_strict; [apply ref_member_strict|apply null_strict].
Qed.
Lemma safe_le {A} i (r : res A) rest a : rsafe i r -> r = Ok rest a -> len rest <= len i.
Proof. intros Hr ->. by apply suffix_length. Qed.

(** The cost of a chain of record parsers: at most [k] besides the bytes consumed. *)
Definition chain {A} (k : nat) (i : bytes) (c : nat * res A) : Prop :=
  match c.2 with
  | Ok rest _ => c.1 <= k + (len i - len rest)
  | _ => c.1 <= k
  end.
Lemma chain_call {A} i (r : res A) : chain 1 i (call i r).
Proof. unfold chain, call, charge, price, counting_calls. destruct r; cbn; lia. Qed.
Lemma chain_walt {A} k k' i (a b : nat * res A) :
  chain k i a -> chain k' i b -> chain (k + k') i (walt a b).
Proof.
  unfold chain, walt. destruct a as [n [r x|e|e|q|]], b as [m [r' x'|e'|e'|q'|]]; cbn; lia.
Qed.
Lemma chain_weaken {A} k k' i (c : nat * res A) : chain k i c -> k <= k' -> chain k' i c.
Proof. unfold chain. destruct c as [n []]; cbn; lia. Qed.
Lemma chain_null i : chain 3 i (w_null_object i).
Proof. apply (chain_walt 1 2), (chain_walt 1 1); apply chain_call. Qed.
Lemma chain_records i : chain 4 i (w_class_records i).
Proof. apply (chain_walt 1 3), (chain_walt 1 2), (chain_walt 1 1); apply chain_call. Qed.

(** ** The budget *)

(** [bound m sl b i c]: a success consumes at least [m] bytes and costs 40 per byte less [sl];
    anything else costs 40 per byte left plus [b]. *)
Definition bound {A} (m sl b : nat) (i : bytes) (c : wres A) : Prop :=
  match c.2.2 with
  | Ok rest _ => len rest + m <= len i /\ c.1 + sl <= 40 * (len i - len rest)
  | _ => c.1 <= 40 * len i + b
  end.
Local Arguments bound : simpl never.
Lemma bound_weaken {A} m sl b m' sl' b' i (c : wres A) :
  bound m sl b i c -> m' <= m -> sl' <= sl -> b <= b' -> bound m' sl' b' i c.
Proof. unfold bound. destruct c as [n [s []]]; cbn; lia. Qed.
Lemma bound_bind {A B} m m' b i (r : wres A) (f : state -> bytes -> A -> wres B) :
  bound m 0 b i r -> (forall s j a, bound m' 0 b j (f s j a)) -> bound (m + m') 0 b i (wbind r f).
Proof.
  unfold bound. destruct r as [n [s [j a|e|e|q|]]]; cbn; try done. intros [H1 H2] Hf.
  specialize (Hf s j a). destruct (f s j a) as [n' [s' []]]; cbn in *; lia.
Qed.
Lemma bound_ret {A} b i s (a : A) : bound 0 0 b i (0, (s, Ok i a)).
Proof. unfold bound; cbn. lia. Qed.
Lemma bound_stop {A} m sl b i s (r : res A) : (forall j a, r <> Ok j a) -> bound m sl b i (0, (s, r)).
Proof. unfold bound; cbn. destruct r; try lia. intros H. by edestruct H. Qed.
Lemma bound_map {A B} m sl b i (f : A -> B) c : bound m sl b i c -> bound m sl b i (wmap f c).
Proof. unfold bound, wmap. destruct c as [n [s []]]; cbn; done. Qed.

(** ** Libraries *)

(** The input without a leading library. *)
Definition strip (i : bytes) : bytes :=
  match binary_library i with
  | Ok j _ => j
  | _ => i
  end.
Lemma strip_le i : len (strip i) <= len i.
Proof.
  unfold strip. pose proof (binary_library_safe i) as Hs.
  destruct (binary_library i) eqn:E; try done. by eapply safe_le.
Qed.
Lemma strip_id i : ~ head_in [x0c] i -> strip i = i.
Proof. intros Hh. unfold strip. by destruct (binary_library_err i Hh) as [e ->]. Qed.

Lemma w_library_cases s i :
  (w_library s i).1 = S (len i - len (strip i)) /\
  ((exists s', (w_library s i).2 = (s', Ok (strip i) tt))
   \/ (exists s' e, (w_library s i).2 = (s', Fail e))).
Proof.
  unfold w_library, parse_binary_library, strip, call, charge, price, counting_calls.
  pose proof (binary_library_safe i) as Hs.
  destruct (binary_library i) as [j [lid name]|e|e|q|]; cbn; try done.
  - case_bool_decide; eauto.
  - split; [lia|]. eauto.
  - split; [lia|]. eauto.
Qed.

Lemma bound_library {A} m sl b s i (f : state -> bytes -> unit -> wres A) :
  (forall s j, bound m (S sl) b j (f s j tt)) -> S m <= S (m) ->
  bound m sl (S b) i (wbind (w_library s i) f).
Proof.
  intros Hf _. destruct (w_library_cases s i) as [Hn Hr]. pose proof (strip_le i).
  destruct (w_library s i) as [n [s1 r]]. cbn in Hn. subst n.
  destruct Hr as [[s' [= -> ->]]|(s' & e & [= -> ->])]; unfold bound, wbind; cbn.
  - specialize (Hf s' (strip i)). unfold bound in Hf.
    destruct (f s' (strip i) tt) as [n' [s2 []]]; cbn in *; lia.
  - lia.
Qed.

(** ** Members *)

Definition class_tags : list byte := [x01; x02; x03; x04; x05].
Definition array_tags : list byte := [x07; x0f; x10; x11].

(** The budget of [parse_classes]. *)
Definition class_bound {A} (tags : list byte) (i : bytes) (c : wres A) : Prop :=
  (~ head_in tags (strip i) ->
     c.1 <= 6 + (len i - len (strip i)) /\ forall j a, c.2.2 <> Ok j a) /\
  match c.2.2 with
  | Ok rest _ => len rest < len (strip i)
      /\ c.1 + 20 <= (len i - len (strip i)) + 40 * (len (strip i) - len rest)
  | _ => c.1 <= (len i - len (strip i)) + 40 * len (strip i) + 30
  end.
Lemma class_bound_bound {A} tags i (c : wres A) : class_bound tags i c -> bound 1 20 30 i c.
Proof.
  intros [_ H]. pose proof (strip_le i). unfold bound.
  destruct (c.2.2); lia.
Qed.

Section methods.
Context (PC : state -> bytes -> wres (N * obj value)).
Context (PR : state -> bytes -> wres N).
Context (HPC : forall s i, class_bound class_tags i (PC s i)).
Context (HPR : forall s i, bound 1 10 60 i (PR s i)).

Lemma bound_chain {A} k i s (c : nat * res A) :
  chain k i c -> (forall r a, c.2 = Ok r a -> len r < len i) -> k <= 20 ->
  bound 1 19 20 i (c.1, (s, c.2)).
Proof using Type.
  unfold chain, bound. destruct c as [n [r a|e|e|q|]]; cbn; intros Hc Hs Hk; try lia.
  specialize (Hs r a eq_refl). lia.
Qed.

Lemma untyped_body_bound s i : bound 1 10 36 i (w_member_untyped_body PC s i).
Proof using HPC.
  unfold w_member_untyped_body. cbv zeta.
  match goal with |- context [walt ?a ?b] => set (c := walt a b) end.
  assert (chain 6 i c) as Hc.
  { apply (chain_walt 1 5), (chain_walt 1 4), (chain_walt 1 3), chain_null; apply chain_call. }
  assert (forall r a, c.2 = Ok r a -> len r < len i) as Hs.
  { subst c. rewrite !walt_result, w_null_result. cbn [call w_ref_member w_string_member snd].
    apply untyped_leaf_strict. }
  clearbody c. pose proof (class_bound_bound _ _ _ (HPC s i)) as Hp.
  pose proof (bound_chain 6 i s c Hc Hs ltac:(lia)) as Hb.
  destruct c as [n [r a|e|e|q|]]; cbn in Hc, Hs |- *;
    try (eapply bound_weaken; [exact Hb|lia..]).
  unfold bound, wmore, wmap in *. destruct (PC s i) as [n' [s' [r' a'|e'|e'|q'|]]]; cbn in *; lia.
Qed.
Lemma untyped_bound s i : bound 1 9 37 i (w_member_untyped PC s i).
Proof using HPC. apply bound_library; [|lia]. intros. apply untyped_body_bound. Qed.

Lemma class_or_null_bound ok s i : bound 1 9 37 i (w_class_or_null PC ok s i).
Proof using HPC.
  unfold w_class_or_null. destruct (HPC s i) as [Hh Hb']. pose proof (strip_le i) as Hsl.
  pose proof (class_bound_bound _ _ _ (HPC s i)) as Hb. clear Hb'.
  pose proof (chain_null i) as Hc. unfold chain in Hc.
  pose proof (null_strict i) as Hs. rewrite <- w_null_result in Hs.
  pose proof (parse_null_object_err i) as Hn. rewrite <- w_null_result in Hn.
  destruct (PC s i) as [n [s1 [r [id o]|e|e|q|]]]; cbn in Hb, Hh |- *.
  - unfold bound in *; cbn in *. destruct (ok o); cbn; lia.
  - unfold bound in *; cbn in *. destruct (w_null_object i) as [n' [r' a'|e'|e'|q'|]]; cbn in *; try lia.
    destruct (decide (head_in [x0a; x0d; x0e] i)) as [Hd|Hd]; [|by destruct (Hn Hd)].
    rewrite strip_id in Hh by hd. specialize (Hs r' a' eq_refl).
    destruct Hh as [Hh _]; [hd|]. lia.
  - unfold bound in *; cbn in *. destruct (w_null_object i) as [n' [r' a'|e'|e'|q'|]]; cbn in *; try lia.
    destruct (decide (head_in [x0a; x0d; x0e] i)) as [Hd|Hd]; [|by destruct (Hn Hd)].
    rewrite strip_id in Hh by hd. specialize (Hs r' a' eq_refl).
    destruct Hh as [Hh _]; [hd|]. lia.
  - unfold bound in *; cbn in *. lia.
  - unfold bound in *; cbn in *. lia.
Qed.

Lemma typed_bound bt ai s i : bound 1 5 45 i (w_member_typed PC bt ai s i).
Proof using HPC.
  eapply (bound_weaken 1 5 45); [|lia..]. apply (bound_library 1 5 44); [|lia]. intros s1 j.
  assert (forall c : wres value_or_ref, bound 1 9 37 j c -> bound 1 6 44 j c) as Hw
    by (intros c Hc; eapply bound_weaken; [exact Hc|lia..]).
  assert (forall c : nat * res value_or_ref, chain 5 j c -> (forall r a, c.2 = Ok r a -> len r < len j) ->
    bound 1 6 44 j (c.1, (s1, c.2))) as Hp.
  { intros c Hc Hs. eapply bound_weaken; [eapply (bound_chain 5)|..]; try done; lia. }
  destruct bt, ai as [[]|]; try (apply bound_stop; done); try (apply Hw, untyped_bound);
    try (apply Hw, class_or_null_bound).
  - eapply (Hp ((w_primitive j p).1, rmap VR_Value (w_primitive j p).2)).
    + unfold w_primitive, chain, call. cbn. destruct (member_primitive_untyped j p); cbn; lia.
    + cbn. intros r a E. by eapply (rmap_strict VR_Value _ (untyped_strict p)).
  - apply Hp; [|apply string_member_strict]. eapply chain_weaken; [apply chain_call|lia].
  - destruct (st_libs s1 !! _); [apply Hw, class_or_null_bound|apply bound_stop; done].
  - cbv zeta. apply Hp.
    + apply (chain_walt 1 4), (chain_walt 1 3), chain_null; apply chain_call.
    + rewrite !walt_result, w_null_result. apply string_item_strict.
  - apply Hp; [|apply ref_member_strict]. eapply chain_weaken; [apply chain_call|lia].
Qed.

Lemma members_typed_bound l s i : bound 0 0 45 i (w_members_typed PC l s i).
Proof using HPC.
  revert s i; induction l as [|[bt ai] l IH]; intros s i; cbn [w_members_typed]; [apply bound_ret|].
  eapply bound_weaken; [apply (bound_bind 1 0 45)|..]; [| |lia..].
  - eapply bound_weaken; [apply typed_bound|lia..].
  - intros s1 j a. apply (bound_bind 0 0 45); [apply IH|]. intros. apply bound_ret.
Qed.
Lemma scount_bound {A} fuel n (p : state -> bytes -> wres A) s i :
  (forall s i, bound 1 0 45 i (p s i)) -> bound 0 0 45 i (w_scount_loop fuel n p s i).
Proof using Type.
  intros Hp. revert n s i; induction fuel as [|fuel IH]; intros n s i; cbn [w_scount_loop];
    (destruct (N.eqb n 0); [apply bound_ret|]); [apply bound_stop; done|].
  eapply bound_weaken; [apply (bound_bind 1 0 45)|..]; [apply Hp| |lia..].
  intros s1 j a. apply (bound_bind 0 0 45); [apply IH|]. intros. apply bound_ret.
Qed.
Lemma array_loop_bound p fuel len' cur s i :
  (forall s i, bound 1 0 45 i (p s i)) -> bound 0 0 45 i (w_array_loop p fuel len' cur s i).
Proof using Type.
  intros Hp. revert cur s i; induction fuel as [|fuel IH]; intros cur s i; cbn [w_array_loop];
    (destruct (N.leb len' cur); [apply bound_ret|]); [apply bound_stop; done|].
  eapply bound_weaken; [apply (bound_bind 1 0 45)|..]; [apply Hp| |lia..].
  intros s1 j a. apply (bound_bind 0 0 45); [apply IH|]. intros. apply bound_ret.
Qed.
Lemma verify_bound id s i : bound 1 10 60 i (w_verify PR id s i).
Proof using HPR.
  unfold w_verify. pose proof (HPR s i) as Hb.
  destruct (PR s i) as [n [s1 [j a|e|e|q|]]]; cbn; try done.
  unfold bound in *; cbn in *. destruct (N.eqb a id); cbn; lia.
Qed.
Lemma resolve_bound ms s i : bound 0 0 60 i (w_resolve_members PR ms s i).
Proof using HPR.
  revert s i; induction ms as [|[v|n|id] ms IH]; intros s i; cbn [w_resolve_members].
  - apply bound_ret.
  - apply (bound_bind 0 0 60); [apply IH|]. intros. apply bound_ret.
  - apply (bound_bind 0 0 60); [apply IH|]. intros. apply bound_ret.
  - destruct (st_objects s !! id).
    + apply (bound_bind 0 0 60); [apply IH|]. intros. apply bound_ret.
    + eapply bound_weaken; [apply (bound_bind 1 0 60)|..]; [| |lia..].
      { eapply bound_weaken; [apply verify_bound|lia..]. }
      intros s1 j id2. destruct (st_objects s1 !! id2); [|apply bound_stop; done].
      apply (bound_bind 0 0 60); [apply IH|]. intros. apply bound_ret.
Qed.
Lemma class_body_bound err oid c s i : bound 0 0 60 i (w_class_body PC PR err oid c s i).
Proof using HPC HPR.
  unfold w_class_body. case_bool_decide; [apply bound_stop; done|].
  apply (bound_bind 0 0 60).
  - assert (forall i (x : wres (list value_or_ref)) (l : option str), bound 0 0 45 i x ->
      bound 0 0 60 i (wmap (pair l) x)) as Hw.
    { intros i' x l Hx. apply bound_map. eapply bound_weaken; [exact Hx|lia..]. }
    assert (forall n s i, bound 0 0 45 i (w_scount n (w_member_untyped PC) s i)) as Hu.
    { intros. apply scount_bound. intros. eapply bound_weaken; [apply untyped_bound|lia..]. }
    destruct c; try (destruct (st_libs s !! _); [|apply bound_stop; done]); apply Hw;
      first [apply Hu | apply members_typed_bound].
  - intros. apply (bound_bind 0 0 60); [apply resolve_bound|]. intros. apply bound_ret.
Qed.

Lemma classes_body_bound s i : class_bound class_tags i (w_classes_body PC PR s i).
Proof using HPC HPR.
  unfold w_classes_body. destruct (w_library_cases s i) as [Hn Hr]. pose proof (strip_le i) as Hl.
  destruct (w_library s i) as [n [s0 r]]. cbn in Hn. subst n.
  destruct Hr as [[s1 [= -> ->]]|(s1 & e & [= -> ->])]; unfold wbind; cbn [fst snd].
  2: { unfold class_bound; cbn. split; [|lia]. intros _. split; [lia|done]. }
  set (j := strip i) in *. unfold class_bound; fold j. unfold wmore; cbn [call fst snd].
  pose proof (chain_call j (class_with_id j)) as Hw. unfold chain, call in Hw; cbn [fst snd] in Hw.
  pose proof (class_with_id_err j) as He1.
  pose proof (class_records_err j) as He2. rewrite <- w_class_records_result in He2.
  pose proof (chain_records j) as Hc. unfold chain in Hc.
  pose proof (class_records_strict j) as Hs. rewrite <- w_class_records_result in Hs.
  pose proof (class_with_id_ok j) as Hok.
  destruct (class_with_id j) as [rest [oid mid]|e|e|q|] eqn:Eid; cbn [fst snd].
  - destruct (Hok rest oid mid eq_refl) as [Hlt _].
    assert (head_in class_tags j) as Hhd.
    { destruct (decide (head_in [x01] j)) as [Hd|Hd]; [hd|]. by destruct (He1 Hd). }
    split; [done|]. destruct (st_classes s1 !! mid) as [c|]; cbn [fst snd]; [|lia].
    pose proof (class_body_bound j oid c s1 rest) as Hb. unfold bound in Hb.
    destruct (w_class_body PC PR j oid c s1 rest) as [n' [s' []]]; cbn in *; lia.
  - destruct (w_class_records j) as [n2 [rest c|e2|e2|q|]] eqn:Ec; cbn [fst snd] in *.
    + specialize (Hs rest c eq_refl).
      assert (head_in class_tags j) as Hhd.
      { destruct (decide (head_in [x02; x03; x04; x05] j)) as [Hd|Hd]; [hd|].
        destruct He2; [|done]. intros Hd'. apply Hd. hd. }
      split; [done|].
      pose proof (class_body_bound j (ci_object_id (cr_class_info c)) c s1 rest) as Hb.
      unfold bound in Hb.
      destruct (w_class_body PC PR j (ci_object_id (cr_class_info c)) c s1 rest) as [n' [s' []]];
        cbn in *; lia.
    + split; [intros _; split; [lia|done]|lia].
    + split; [intros _; split; [lia|done]|lia].
    + split; [intros _; split; [lia|done]|lia].
    + split; [intros _; split; [lia|done]|lia].
  - split; [intros _; split; [lia|done]|lia].
  - split; [intros _; split; [lia|done]|lia].
  - split; [intros _; split; [lia|done]|lia].
Qed.

(** ** Arrays *)

(** An array record costs one call when its record type byte is not there. *)
Definition array_bound {A} (tag : byte) (i : bytes) (c : wres A) : Prop :=
  (~ head_in [tag] i -> c.1 <= 1 /\ exists e, c.2.2 = Err e) /\ bound 1 30 22 i c.

Lemma array_bound_intro {A B} tag i s (r : res A) (f : state -> bytes -> A -> wres B) :
  (~ head_in [tag] i -> exists e, r = Err e) -> (forall j a, r = Ok j a -> len j < len i) ->
  (forall s j a, bound 0 0 60 j (f s j a)) ->
  array_bound tag i (wbind ((call i r).1, (s, (call i r).2)) f).
Proof using Type.
  intros He Hs Hf. split.
  - intros Hh. destruct (He Hh) as [e ->]. cbn. split; [lia|]. eauto.
  - unfold wbind, call, charge, price, counting_calls. destruct r as [j a|e|e|q|]; cbn; unfold bound; cbn; try lia.
    specialize (Hs j a eq_refl). specialize (Hf s j a). unfold bound in Hf.
    destruct (f s j a) as [n' [s' []]]; cbn in *; lia.
Qed.
Lemma bound_resolve {A} (g : list value -> A) ms s i :
  bound 0 0 60 i (wbind (w_resolve_members PR ms s i) (fun s j vs => (0, (s, Ok j (g vs))))).
Proof using HPR. apply (bound_bind 0 0 60); [apply resolve_bound|]. intros. apply bound_ret. Qed.

Lemma exact_lt {A} (p : bytes -> res A) E i j a :
  exact p E -> nonempty_enc E -> p i = Ok j a -> len j < len i.
Proof using Type. intros Hp HE. by apply (exact_strict p E). Qed.

Lemma array_single_object_bound s i :
  array_bound x10 i (w_array_single_object PC PR s i).
Proof using HPC HPR.
  apply array_bound_intro.
  - apply array_single_object_err.
  - intros j a. apply (exact_lt _ _ _ _ _ array_single_object_exact).
    intros ai. unfold e_array_header. by intros (? & ? & ? & ? & [=]).
  - intros s1 j a. eapply bound_weaken; [apply (bound_bind 0 0 60)|..]; [| |lia..].
    + eapply bound_weaken; [apply array_loop_bound|lia..].
      intros. eapply bound_weaken; [apply untyped_bound|lia..].
    + intros. apply bound_resolve.
Qed.
Lemma array_single_string_bound s i :
  array_bound x11 i (w_array_single_string PC PR s i).
Proof using HPC HPR.
  apply array_bound_intro.
  - apply array_single_string_err.
  - intros j a. apply (exact_lt _ _ _ _ _ array_single_string_exact).
    intros ai. unfold e_array_header. by intros (? & ? & ? & ? & [=]).
  - intros s1 j a. eapply bound_weaken; [apply (bound_bind 0 0 60)|..]; [| |lia..].
    + eapply bound_weaken; [apply array_loop_bound|lia..].
      intros. eapply bound_weaken; [apply typed_bound|lia..].
    + intros. apply bound_resolve.
Qed.
Lemma primitives_bound fuel n p s i : bound 0 0 45 i (w_primitives fuel n p s i).
Proof using Type.
  revert n s i; induction fuel as [|fuel IH]; intros n s i; cbn [w_primitives];
    (destruct (N.eqb n 0); [apply bound_ret|]); [apply bound_stop; done|].
  eapply bound_weaken; [apply (bound_bind 1 0 45)|..]; [| |lia..].
  - eapply bound_weaken; [apply (bound_chain 1)|..]; [apply chain_call|apply untyped_strict|lia..].
  - intros s1 j a. apply (bound_bind 0 0 45); [apply IH|]. intros. apply bound_ret.
Qed.
Lemma array_single_primitive_bound s i : array_bound x0f i (w_array_single_primitive s i).
Proof using Type.
  apply array_bound_intro.
  - apply array_single_primitive_err.
  - intros j a. apply (exact_lt _ _ _ _ _ array_single_primitive_exact).
    intros [ai q] (b & _ & E). by destruct b.
  - intros s1 j a. eapply bound_weaken; [apply (bound_bind 0 0 45)|..]; [| |lia..].
    + apply primitives_bound.
    + intros. apply bound_ret.
Qed.
Lemma chunk_dims_rest dims vs i j vs' : chunk_dims dims vs i = Ok j vs' -> j = i.
Proof using Type.
  assert (forall fuel l vs i j vs', chunk_loop fuel l vs i = Ok j vs' -> j = i) as Hl.
  { clear. induction fuel as [|fuel IH]; intros l [|v vs] i j vs'; cbn; try congruence.
    case_match; [done|]. destruct (chunk_loop fuel l _ i) as [j2 r|e|e|q|] eqn:E; try done.
    apply IH in E as ->. cbn. congruence. }
  revert vs i; induction dims as [|d dims IH]; intros vs i; cbn; [congruence|].
  destruct (chunk_loop _ _ vs i) as [j2 r|e|e|q|] eqn:E; try done. cbn.
  apply Hl in E as ->. apply IH.
Qed.
Lemma binary_array_bound s i : array_bound x07 i (w_binary_array PC PR s i).
Proof using HPC HPR.
  unfold w_binary_array. cbv zeta. apply array_bound_intro.
  - apply binary_array_err.
  - intros j a. intros E. apply binary_array_exact in E as (bs & (k & _ & _ & Hb) & ->).
    apply binary_array_header_nonempty in Hb. rewrite app_length. lia.
  - intros s1 j ba. destruct (checked_product 1 (ba_lengths ba)); [|apply bound_stop; done].
    eapply bound_weaken; [apply (bound_bind 0 0 60)|..]; [| |lia..].
    + eapply bound_weaken; [apply scount_bound|lia..].
      intros. eapply bound_weaken; [apply typed_bound|lia..].
    + intros s2 j2 ms. apply (bound_bind 0 0 60); [apply resolve_bound|]. intros s3 j3 vs.
      destruct (chunk_dims _ vs j3) as [j4 vs'|e|e|q|] eqn:E; try (apply bound_stop; done).
      apply chunk_dims_rest in E as ->. apply bound_ret.
Qed.

(** Only one of the array parsers finds its record type byte. *)
Lemma walt_mut_bound {A} i (tag : byte) (tags : list byte) k (r : wres A) (next : state -> wres A) :
  tag ∉ tags -> array_bound tag i r ->
  (forall s, (~ head_in tags i -> (next s).1 <= k /\ exists e, (next s).2.2 = Err e)
          /\ bound 1 (30 - k) (22 + k) i (next s)) -> k <= 10 ->
  (~ head_in (tag :: tags) i -> (walt_mut r next).1 <= S k /\ exists e, (walt_mut r next).2.2 = Err e)
  /\ bound 1 (30 - S k) (22 + S k) i (walt_mut r next).
Proof using Type.
  clear HPC HPR. intros Htag [Hr1 Hr2] Hn Hk. unfold walt_mut.
  destruct (decide (head_in [tag] i)) as [Hd|Hd].
  - destruct i as [|c i]; [done|]. cbn in Hd. apply elem_of_list_singleton in Hd as ->.
    split; [intros Hh; exfalso; apply Hh; cbn; apply elem_of_list_here|].
    destruct r as [n [s [j a|e|e|q|]]]; cbn in *; try (eapply bound_weaken; [exact Hr2|lia..]).
    destruct (Hn s) as [Hn1 _]. destruct Hn1 as [Hn1 [e' He]]; [done|].
    unfold bound in *. cbn in *. destruct (next s) as [n2 [s2 r2]]; cbn in *. subst r2. lia.
  - destruct (Hr1 Hd) as [Hc [e He]]. destruct r as [n [s r]]; cbn in *. subst r. cbn.
    destruct (Hn s) as [Hn1 Hn2]. split.
    + intros Hh. destruct Hn1 as [Hn1 [e' He]].
      { intros Hh'. apply Hh. destruct i; [done|]. cbn in *. by apply elem_of_list_further. }
      split; [lia|]. eauto.
    + unfold bound in *. destruct (next s) as [n2 [s2 []]]; cbn in *; lia.
Qed.
Lemma arrays_bound s i : class_bound array_tags i (w_arrays PC PR s i).
Proof using HPC HPR.
  unfold w_arrays. destruct (w_library_cases s i) as [Hn Hr]. pose proof (strip_le i) as Hl.
  destruct (w_library s i) as [n [s0 r]]. cbn in Hn. subst n.
  destruct Hr as [[s1 [= -> ->]]|(s1 & e & [= -> ->])]; unfold wbind; cbn [fst snd].
  2: { unfold class_bound; cbn. split; [|lia]. intros _. split; [lia|done]. }
  set (j := strip i) in *.
  match goal with |- class_bound _ _ (wmore _ ?x) => set (c := x) end.
  assert ((~ head_in [x10; x0f; x11; x07] j -> c.1 <= 4 /\ exists e, c.2.2 = Err e)
          /\ bound 1 (30 - 4) (22 + 4) j c) as [Hc1 Hc2].
  { subst c.
    apply walt_mut_bound; [set_solver|apply array_single_object_bound|intros s2|lia].
    apply walt_mut_bound; [set_solver|apply array_single_primitive_bound|intros s3|lia].
    apply walt_mut_bound; [set_solver|apply array_single_string_bound|intros s4|lia].
    apply walt_mut_bound; [set_solver|apply binary_array_bound|intros s5|lia].
    split; [|apply bound_stop; done]. intros _. split; [cbn; lia|]. cbn. eauto. }
  clearbody c. unfold class_bound; fold j. split.
  - intros Hh. destruct Hc1 as [Hc1 [e He]]. { intros Hh'. apply Hh. hd. }
    split; [unfold wmore; cbn; lia|]. intros. unfold wmore; cbn. by rewrite He.
  - unfold bound in Hc2. unfold wmore. destruct c as [n [s2 []]]; cbn in *; lia.
Qed.

Lemma referenceable_body_bound s i : bound 1 10 60 i (w_referenceable_body PC PR s i).
Proof using HPC HPR.
  unfold w_referenceable_body.
  match goal with |- context [wbind ?x _] => set (c := x) end.
  assert (bound 1 10 60 i c) as Hc.
  { subst c. destruct (HPC s i) as [Hp1 Hp2].
    pose proof (strip_le i) as Hl.
    destruct (PC s i) as [n [s1 [j [id o]|e|e|q|]]]; unfold walt_mut at 1; cbn [wmap smap rmap bind fst snd] in *.
    1, 3-5: unfold bound; cbn; lia.
    pose proof (arrays_bound s1 i) as [Ha1 Ha2].
    destruct (w_arrays PC PR s1 i) as [n2 [s2 [j2 a2|e2|e2|q|]]]; unfold walt_mut at 1;
      cbn [wmap smap rmap bind wmore fst snd] in *.
    - destruct (decide (head_in array_tags (strip i))) as [Hd|Hd]; [|by destruct (Ha1 Hd) as [_ []]].
      destruct Hp1 as [Hp1 _]; [hd|]. unfold bound; cbn; lia.
    - pose proof (string_strict i) as Hst. pose proof (binary_object_string_err i) as Hse.
      unfold walt_mut, call, charge, price, counting_calls. 
      destruct (binary_object_string i) as [j3 a3|e3|e3|q|]; cbn [wmore rmap bind fst snd alt_mut_end].
      + specialize (Hst j3 a3 eq_refl).
        destruct (decide (head_in [x06] i)) as [Hd|Hd]; [|by destruct (Hse Hd)].
        rewrite strip_id in * by hd. destruct Hp1 as [Hp1 _]; [hd|]. destruct Ha1 as [Ha1 _]; [hd|].
        unfold bound; cbn. lia.
      + unfold bound; cbn. clear Hst Hse.
        destruct (decide (head_in class_tags (strip i))) as [Hd|Hd].
        * destruct Ha1 as [Ha1 _]; [hd|]. lia.
        * destruct (Hp1 Hd) as [Hp1' _]. lia.
      + unfold bound; cbn. clear Hst Hse.
        destruct (decide (head_in class_tags (strip i))) as [Hd|Hd].
        * destruct Ha1 as [Ha1 _]; [hd|]. lia.
        * destruct (Hp1 Hd) as [Hp1' _]. lia.
      + unfold bound; cbn. clear Hst Hse.
        destruct (decide (head_in class_tags (strip i))) as [Hd|Hd].
        * destruct Ha1 as [Ha1 _]; [hd|]. lia.
        * destruct (Hp1 Hd) as [Hp1' _]. lia.
      + unfold bound; cbn. clear Hst Hse.
        destruct (decide (head_in class_tags (strip i))) as [Hd|Hd].
        * destruct Ha1 as [Ha1 _]; [hd|]. lia.
        * destruct (Hp1 Hd) as [Hp1' _]. lia.
    - unfold bound; cbn.
      destruct (decide (head_in class_tags (strip i))) as [Hd|Hd].
      * destruct Ha1 as [Ha1 _]; [hd|]. lia.
      * destruct (Hp1 Hd) as [Hp1' _]. lia.
    - unfold bound; cbn.
      destruct (decide (head_in class_tags (strip i))) as [Hd|Hd].
      * destruct Ha1 as [Ha1 _]; [hd|]. lia.
      * destruct (Hp1 Hd) as [Hp1' _]. lia.
    - unfold bound; cbn.
      destruct (decide (head_in class_tags (strip i))) as [Hd|Hd].
      * destruct Ha1 as [Ha1 _]; [hd|]. lia.
      * destruct (Hp1 Hd) as [Hp1' _]. lia. }
  clearbody c. unfold wbind. destruct c as [n [s1 [j a|e|e|q|]]]; unfold bound in *; cbn [wmore fst snd] in *; lia.
Qed.
End methods.

Lemma rec_bound fuel :
  (forall s i, class_bound class_tags i (w_classes fuel s i)) /\
  (forall s i, bound 1 10 60 i (w_referenceable fuel s i)).
Proof.
  induction fuel as [|fuel [IHc IHr]].
  - split; intros s i.
    + split; cbn; [intros _; split; [lia|done]|lia].
    + apply bound_stop; done.
  - split; intros s i; cbn [w_classes w_referenceable].
    + by apply classes_body_bound.
    + by apply referenceable_body_bound.
Qed.

(** ** Messages *)

Lemma referenceables_bound lf fuel s i : (w_referenceables lf fuel s i).1 <= 40 * len i + 60
  /\ forall j u, (w_referenceables lf fuel s i).2.2 = Ok j u -> len j <= len i.
Proof.
  revert s i; induction lf as [|lf IH]; intros s i; cbn [w_referenceables].
  { cbn; split; [lia|done]. }
  pose proof (proj2 (rec_bound fuel) s i) as Hb. unfold bound in Hb.
  destruct (w_referenceable fuel s i) as [n [s1 [j a|e|e|q|]]]; cbn [wmore fst snd] in *;
    try (split; [lia|done]).
  - destruct (IH s1 j) as [H1 H2]. split; [lia|]. intros j2 u E. apply H2 in E. lia.
  - split; [lia|]. intros j2 u [= -> _]. lia.
Qed.
Lemma call_array_bound fuel root s i :
  bound 1 0 60 i (w_call_array fuel root s i).
Proof.
  destruct (rec_bound fuel) as [Hc Hr].
  eapply bound_weaken; [apply (bound_library 1 0 59)|..]; [|lia..]. intros s1 j.
  destruct (array_single_object_bound (w_classes fuel) (w_referenceable fuel) Hc Hr s1 j) as [_ Hb].
  unfold wbind, wmore. unfold bound in *.
  destruct (w_array_single_object _ _ s1 j) as [n [s2 [j2 a|e|e|q|]]]; cbn [fst snd] in *; try lia.
  case_bool_decide; cbn [snd]; lia.
Qed.
(** The cost alone, and that nothing is given back. *)
Definition lax {A} (k b : nat) (i : bytes) (c : wres A) : Prop :=
  c.1 <= k * len i + b /\ forall j a, c.2.2 = Ok j a -> len j <= len i.
Lemma lax_bound {A} m sl b i (c : wres A) : bound m sl b i c -> lax 40 b i c.
Proof.
  unfold bound, lax. destruct c as [n [s [j a|e|e|q|]]]; cbn; intros Hb; (split; [lia|]); try done.
  intros j' a' [= <- _]. lia.
Qed.
Lemma lax_opt {A} k b i (c : wres A) : lax k b i c -> lax k b i (wopt i c).
Proof.
  unfold lax. destruct c as [n [s [j a|e|e|q|]]]; cbn; intros [H1 H2]; (split; [lia|]); try done.
  - intros j' a' [= <- _]. eauto.
  - intros j' a' [= <- _]. lia.
Qed.
(** A record, then something that costs 40 per byte. *)
Lemma lax_record {A B} b i s (r : res A) (f : state -> bytes -> A -> wres B) :
  rsafe i r -> (forall s j a, lax 40 b j (f s j a)) ->
  lax 40 (S b) i (wbind ((call i r).1, (s, (call i r).2)) f).
Proof.
  unfold lax, call, charge, price, counting_calls, wbind. intros Hr Hf.
  destruct r as [j a|e|e|q|]; cbn; try (split; [lia|done]).
  pose proof (suffix_length _ _ Hr). destruct (Hf s j a) as [H1 H2]. split; [lia|].
  intros j' a' E. apply H2 in E. lia.
Qed.
Lemma lax_library {A} b i s (f : state -> bytes -> unit -> wres A) :
  (forall s j a, lax 40 b j (f s j a)) -> lax 40 (S b) i (wbind (w_library s i) f).
Proof.
  intros Hf. destruct (w_library_cases s i) as [Hn Hr]. pose proof (strip_le i).
  destruct (w_library s i) as [n [s1 r]]. cbn in Hn. subst n.
  destruct Hr as [[s' [= -> ->]]|(s' & e & [= -> ->])]; unfold lax, wbind; cbn.
  - destruct (Hf s' (strip i) tt) as [H1 H2]. split; [lia|]. intros j a E. apply H2 in E. lia.
  - split; [lia|done].
Qed.
Lemma args_rest flags ca a i j r : parse_args flags ca a i = Ok j r -> j = i.
Proof. unfold parse_args. repeat case_match; congruence. Qed.
Lemma lax_args {A} fuel root s i flags inline (g : option (list value) -> A) :
  lax 40 60 i (wbind (wopt i (w_call_array fuel root s i)) (fun s j ca =>
    (0, (s, bind (parse_args flags ca inline j) (fun j args => Ok j (g args)))))).
Proof.
  pose proof (lax_opt _ _ _ _ (lax_bound _ _ _ _ _ (call_array_bound fuel root s i))) as [H1 H2].
  destruct (wopt i _) as [n [s1 [j a|e|e|q|]]]; unfold lax, wbind; cbn in *; try (split; [lia|done]).
  specialize (H2 j a eq_refl). split; [lia|]. intros j' a' E.
  destruct (parse_args flags a inline j) as [j2 r|e|e|q|] eqn:Ea; try done. cbn in E.
  apply args_rest in Ea as ->. injection E as -> _. done.
Qed.
Lemma method_call_lax fuel root s i : lax 40 62 i (w_method_call fuel root s i).
Proof.
  apply lax_library. intros s1 j _. apply lax_record; [apply method_call_safe|].
  intros. apply lax_args.
Qed.
Lemma method_return_lax fuel root s i : lax 40 62 i (w_method_return fuel root s i).
Proof.
  apply lax_library. intros s1 j _. apply lax_record; [apply method_return_safe|].
  intros. apply lax_args.
Qed.
Lemma method_lax fuel root s i : lax 80 124 i (w_method fuel root s i).
Proof.
  unfold w_method, walt_mut.
  destruct (method_call_lax fuel root s i) as [H1 H2].
  destruct (w_method_call fuel root s i) as [n [s1 [j a|e|e|q|]]]; unfold lax; cbn in *;
    try (split; [lia|done]).
  { split; [lia|]. intros j' a' [= <- _]. eauto. }
  destruct (method_return_lax fuel root s1 i) as [H3 H4].
  destruct (w_method_return fuel root s1 i) as [n2 [s2 [j a|e2|e2|q|]]]; cbn in *;
    try (split; [lia|done]).
  split; [lia|]. intros j' a' [= <- _]. eauto.
Qed.

Lemma message_bound fuel s i : (w_message fuel s i).1 <= 160 * len i + 250.
Proof.
  unfold w_message, wbind at 1. cbv zeta.
  pose proof (header_safe i) as Hh. unfold charge, price, counting_calls.
  destruct (serialization_header_parse i) as [i1 h|e|e|q|]; cbn [fst snd]; try lia.
  apply suffix_length in Hh. unfold wmore at 1; cbn [fst].
  match goal with |- _ + ?x <= _ => enough (x <= 160 * len i1 + 248) by lia end.
  destruct (referenceables_bound (S (len i1)) fuel s i1) as [H1 H2].
  destruct (w_referenceables (S (len i1)) fuel s i1) as [n1 [s1 [i2 u|e|e|q|]]];
    unfold wbind at 1; cbn [fst snd wmore] in *; try lia.
  specialize (H2 i2 u eq_refl).
  destruct (lax_opt _ _ _ _ (method_lax fuel (sh_root_id h) s1 i2)) as [H3 H4].
  destruct (wopt i2 _) as [n2 [s2 [i3 m|e|e|q|]]];
    unfold wbind at 1; cbn [fst snd wmore] in *; try lia.
  specialize (H4 i3 m eq_refl).
  destruct (referenceables_bound (S (len i3)) fuel s2 i3) as [H5 H6].
  destruct (w_referenceables (S (len i3)) fuel s2 i3) as [n3 [s3 [i4 u'|e|e|q|]]];
    unfold wbind at 1; cbn [fst snd wmore] in *; try lia.
  pose proof (chain_call i4 (message_end i4)) as Hm. unfold chain in Hm.
  specialize (H6 i4 u' eq_refl).
  assert (forall i5 v, message_end i4 = Ok i5 v -> len i4 = S (len i5)) as He.
  { intros i5 v E. by apply message_end_exact in E as (bs & -> & ->). }
  destruct (message_end i4) as [i5 v|e|e|q|]; unfold wbind; cbn [call charge fst snd wmore] in *; unfold price, counting_calls in *;
    try lia. specialize (He i5 v eq_refl). lia.
Qed.
End with_decimal.
