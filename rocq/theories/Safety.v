(** * Safety: an invariant of every run of the parser.

    Whatever the input: the parser returns, it panics only at one place, errors point into the
    input, and every piece of data in the results and in the tables is taken from the input.
    [W] is the whole input throughout. *)
From Verif Require Import Base Utf8 Value DataTypes Records Parser Wire BaseLemmas DataTypesLemmas
  RecordsLemmas MethodLemmas SafetyLemmas.
From Coq Require Import Lia.

(** [s] occurs in [W]. *)
Definition occurs (s W : bytes) : Prop := exists p q, W = p ++ s ++ q.

(** A string taken from [W], valid UTF-8 and shorter than 2^31 bytes. *)
Definition str_from (W : bytes) (s : str) : Prop :=
  occurs s W /\ utf8 s /\ (N.of_nat (length s) < 2 ^ 31)%N.

Section with_decimal.
Context {DL : DecimalLib}.

(** [value_from W v]: every string and every primitive in [v] stands in [W], objects have
    pairwise different member names. *)
Inductive value_from (W : bytes) : value -> Prop :=
| vf_object o :
    str_from W (obj_class o) ->
    (forall l, obj_library o = Some l -> str_from W l) ->
    NoDup (map fst (obj_members o)) ->
    (forall k v, (k, v) ∈ obj_members o -> str_from W k /\ value_from W v) ->
    value_from W (VObject o)
| vf_array vs : (forall v, v ∈ vs -> value_from W v) -> value_from W (VArray vs)
| vf_prim v bs : e_prim v bs -> occurs bs W -> value_from W v
| vf_string s : str_from W s -> value_from W (VString s)
| vf_null : value_from W VNull.

(** Where a panic can come from: a multi-dimensional array and a null run. *)
Definition panic_ok (W : bytes) (p : panic_site) : Prop :=
  p = P_DrainOutOfRange /\ x07 ∈ W /\ (x0d ∈ W \/ x0e ∈ W).

Definition item_from (W : bytes) (m : value_or_ref) : Prop :=
  match m with
  | VR_Value v => value_from W v
  | VR_Null n => (0 < n < 2 ^ 31)%N /\ (n = 1%N \/ x0d ∈ W \/ x0e ∈ W)
  | VR_Ref id => valid_id id
  end.

(** The values records with an id stand for. *)
Definition record_value (v : value) : Prop :=
  match v with VObject _ | VArray _ | VString _ => True | _ => False end.

(** Library ids that are declared at the start of the run; they stay declared. *)
Context (D : gset N).

(** The state invariant.  [st_classes] is never written. *)
Record inv (W : bytes) (s : state) : Prop := mkInv {
  inv_classes : st_classes s = ∅;
  inv_declared : D ⊆ dom (st_libs s);
  inv_libs : forall id l, st_libs s !! id = Some l -> valid_id id /\ str_from W l;
  inv_objects : forall id v, st_objects s !! id = Some v ->
    valid_id id /\ value_from W v /\ record_value v;
}.

(** [k] bytes at least are consumed. *)
Definition ssafe {A} (W i : bytes) (k : nat) (Q : A -> Prop) (r : sres A) : Prop :=
  inv W r.1 /\
  match r.2 with
  | Ok rest a => rest ⊑s i /\ length rest + k <= length i /\ Q a
  | Err e | Fail e => e_input e ⊑s i
  | Panic p => panic_ok W p
  | Diverge => False
  end.

Lemma inv_set_libs W s id l :
  inv W s -> valid_id id -> str_from W l -> inv W (set_libs s (<[id := l]> (st_libs s))).
Proof.
  intros [H1 HD H2 H3] Hid Hl. split; [done| | |done]; [simpl; set_solver|]. intros id' l'. simpl.
  rewrite lookup_insert_Some. intros [[-> ->]|[_ H]]; eauto.
Qed.
Lemma inv_insert W s id v :
  inv W s -> valid_id id -> value_from W v -> record_value v ->
  inv W (set_objects s (<[id := v]> (st_objects s))).
Proof.
  intros [H1 HD H2 H3] Hid Hl Hr. split; [done|done|done|]. intros id' l'. simpl.
  rewrite lookup_insert_Some. intros [[-> ->]|[_ H]]; eauto.
Qed.
Lemma inv_delete W s id :
  inv W s -> inv W (set_objects s (delete id (st_objects s))).
Proof.
  intros [H1 HD H2 H3]. split; [done|done|done|]. intros id' l'. simpl.
  rewrite lookup_delete_Some. intros [_ H]; eauto.
Qed.

Lemma occurs_suffix b i j W : i = b ++ j -> i ⊑s W -> occurs b W.
Proof. intros -> [p ->]. by exists p, j. Qed.
Lemma occurs_app b1 b2 b3 W : occurs (b1 ++ b2 ++ b3) W -> occurs b2 W.
Proof. intros (p & q & ->). exists (p ++ b1), (b3 ++ q). by rewrite <- !app_assoc. Qed.
Lemma occurs_tail b1 b2 W : occurs (b1 ++ b2) W -> occurs b2 W.
Proof. intros H. apply (occurs_app b1 b2 []). by rewrite app_nil_r. Qed.
Lemma occurs_head b1 b2 W : occurs (b1 ++ b2) W -> occurs b1 W.
Proof. intros H. by apply (occurs_app [] b1 b2). Qed.
Lemma occurs_cons c b W : occurs (c :: b) W -> occurs b W /\ c ∈ W.
Proof.
  intros (p & q & ->). split.
  - exists (p ++ [c]), q. by rewrite <- app_assoc.
  - set_solver.
Qed.
Lemma len_prefix_small n p : len_prefix n p -> (n < 2 ^ 31)%N.
Proof.
  intros H. change (2 ^ 31)%N with 2147483648%N.
  destruct H as (init & last & -> & Hi & Hl & Hlen & H5 & <-).
  rewrite app_length in Hlen, H5. cbn [length] in *.
  assert (forall l, len_value l < 128 ^ N.of_nat (length l))%N as Hv.
  { induction l as [|b l IH]; [done|]. cbn [len_value length]. rewrite Nat2N.inj_succ, N.pow_succ_r'.
    pose proof (N.mod_lt (b2n b) 128 ltac:(done)). lia. }
  assert (forall l c, len_value (l ++ [c]) = len_value l + 128 ^ N.of_nat (length l) * (b2n c mod 128))%N as Ha.
  { induction l as [|b l IH]; intros c; cbn [len_value length app].
    - change (128 ^ N.of_nat 0)%N with 1%N. lia.
    - rewrite IH. rewrite Nat2N.inj_succ, N.pow_succ_r'. lia. }
  destruct (decide (length init = 4)) as [E|E].
  - rewrite Ha. specialize (Hv init). rewrite E in *. rewrite N.mod_small by lia.
    change (128 ^ N.of_nat 4)%N with 268435456%N in *. lia.
  - specialize (Hv (init ++ [last])). rewrite app_length in Hv. cbn [length] in Hv.
    eapply N.lt_le_trans; [exact Hv|].
    change 2147483648%N with (128 ^ N.of_nat 4 * 8)%N.
    etrans; [apply (N.pow_le_mono_r 128 (N.of_nat (length init + 1)) (N.of_nat 4)); lia|].
    lia.
Qed.
Lemma e_str_from s bs W : e_str s bs -> occurs bs W -> str_from W s.
Proof.
  intros (p & Hp & -> & Hu) Ho. split; [by eapply occurs_tail|]. split; [done|]. by eapply len_prefix_small.
Qed.

Lemma suffix_two (i j e : bytes) : i ⊑s e -> j ⊑s e -> length i <= length j -> i ⊑s j.
Proof.
  intros [p ->] [q Hq] Hl. apply app_eq_app in Hq as (l & [[-> ->]|[-> ->]]).
  - by exists l.
  - rewrite app_length in Hl. destruct l; [done|]. simpl in Hl. lia.
Qed.

(** ** Rules *)

Lemma ssafe_weaken {A} W i j k k' (Q Q' : A -> Prop) r :
  ssafe W i k Q r -> i ⊑s j -> length i + k' <= length j + k -> (forall a, Q a -> Q' a) ->
  ssafe W j k' Q' r.
Proof.
  intros [H1 H2] Hij Hk HQ. split; [done|]. destruct (r.2) as [rest a|e|e|p|]; try done.
  - destruct H2 as (H3 & H4 & H5). split; [by etrans|]. split; [lia|]. eauto.
  - by etrans.
  - by etrans.
Qed.

(** [f] may return to position [i]. *)
Lemma ssafe_bind' {A B} W i k k' (P : A -> Prop) (Q : B -> Prop) r f :
  ssafe W i k P r ->
  (forall s i' a, inv W s -> i' ⊑s i -> length i' + k <= length i -> P a ->
     ssafe W i k' Q (f s i' a)) ->
  ssafe W i k' Q (sbind r f).
Proof.
  intros [H1 H2] Hf. destruct r as [s [i' a|e|e|p|]]; simpl in *; try (split; done).
  destruct H2 as (H3 & H4 & H5). by apply Hf.
Qed.

Lemma ssafe_bind {A B} W i k k1 k2 (P : A -> Prop) (Q : B -> Prop) r f :
  ssafe W i k1 P r ->
  (forall s i' a, inv W s -> i' ⊑s i -> length i' + k1 <= length i -> P a ->
     ssafe W i' k2 Q (f s i' a)) ->
  k <= k1 + k2 ->
  ssafe W i k Q (sbind r f).
Proof.
  intros Hr Hf Hk. eapply ssafe_bind'; [exact Hr|]. intros s i' a Hs Hi Hl Ha.
  eapply ssafe_weaken; [by apply Hf|done|lia|done].
Qed.

Lemma ssafe_ok {A} W s i (Q : A -> Prop) a : inv W s -> Q a -> ssafe W i 0 Q (s, Ok i a).
Proof. intros. split; [done|]. simpl. split; [done|]. split; [lia|done]. Qed.

Lemma ssafe_pure {A} W s i k (Q : A -> Prop) (r : res A) :
  inv W s -> rsafe i r ->
  (forall rest a, r = Ok rest a -> length rest + k <= length i /\ Q a) ->
  ssafe W i k Q (s, r).
Proof.
  intros Hs Hr HQ. split; [done|]. simpl. destruct r as [rest a|e|e|p|]; try done.
  destruct (HQ rest a) as [H1 H2]; [done|]. done.
Qed.

Lemma ssafe_fail {A} W s i k (Q : A -> Prop) e :
  inv W s -> e_input e ⊑s i -> ssafe W i k Q (s, Fail e).
Proof. by split. Qed.
Lemma ssafe_err {A} W s i k (Q : A -> Prop) e :
  inv W s -> e_input e ⊑s i -> ssafe W i k Q (s, Err e).
Proof. by split. Qed.

Lemma ssafe_smap {A B} W i k (P : A -> Prop) (Q : B -> Prop) (f : A -> B) r :
  ssafe W i k P r -> (forall a, P a -> Q (f a)) -> ssafe W i k Q (smap f r).
Proof.
  intros [H1 H2] HPQ. split; [done|]. unfold smap. simpl.
  destruct (r.2) as [rest a|e|e|p|]; simpl; try done.
  destruct H2 as (H3 & H4 & H5). eauto.
Qed.

Lemma ssafe_alt_mut {A} W i k (Q : A -> Prop) r next :
  ssafe W i k Q r -> (forall s, inv W s -> ssafe W i k Q (next s)) ->
  ssafe W i k Q (alt_mut r next).
Proof.
  intros [H1 H2] Hn. destruct r as [s [rest a|e|e|p|]]; simpl in *; try (by split).
  by apply Hn.
Qed.

(** Exact parsers on a suffix of the input. *)
Lemma exact_suffix {A} (p : bytes -> res A) E W i rest a :
  exact p E -> i ⊑s W -> p i = Ok rest a ->
  exists bs, E a bs /\ occurs bs W /\ length i = length bs + length rest.
Proof.
  intros Hp Hi H. apply Hp in H as (bs & Hbs & ->). exists bs. split; [done|].
  split; [by eapply occurs_suffix|]. by rewrite app_length.
Qed.

(** ** The library prefix *)

Lemma parse_binary_library_ssafe W s i :
  inv W s -> i ⊑s W -> ssafe W i 0 (fun _ => True) (parse_binary_library s i).
Proof.
  intros Hs Hi. unfold parse_binary_library.
  pose proof (binary_library_safe i) as Hsafe.
  destruct (binary_library i) as [rest [lid name]|e|e|p|] eqn:E; cbn [opt]; try done; [|].
  - apply (exact_suffix _ _ W _ _ _ (binary_library_exact) Hi) in E as (bs & (b1 & b2 & [Hid ->] & Hn & ->) & Ho & Hl). simpl in Hid, Hn.
    assert (str_from W name) as Hname.
    { eapply e_str_from; [done|]. apply occurs_cons in Ho as [Ho _]. by eapply occurs_tail. }
    rewrite app_comm_cons, app_length in Hl.
    destruct (bool_decide _).
    + apply ssafe_fail; [by apply inv_set_libs|done].
    + eapply ssafe_pure; [by apply inv_set_libs|done|]. intros ? ? [= <- <-]. split; [lia|done].
  - by apply ssafe_ok.
Qed.

Lemma prim_item_ssafe W s i p k :
  inv W s -> i ⊑s W -> k <= 1 ->
  ssafe W i k (item_from W) (s, rmap VR_Value (member_primitive_untyped i p)).
Proof.
  intros Hs Hi Hk. apply ssafe_pure; [done| |].
  - apply gsafe_map, member_primitive_untyped_safe.
  - intros rest a H. apply rmap_ok in H as (v & H & ->).
    pose proof (member_primitive_untyped_strict p _ _ _ H) as Hst.
    apply (exact_suffix _ _ W _ _ _ (member_primitive_untyped_exact p) Hi) in H as (bs & [_ Hv] & Ho & Hl).
    split; [lia|]. by eapply vf_prim.
Qed.

Lemma string_item_ssafe W s i :
  inv W s -> i ⊑s W -> ssafe W i 1 (item_from W) (s, parse_string_member i).
Proof.
  intros Hs Hi. apply ssafe_pure; [done|apply parse_string_member_safe|].
  intros rest a H. apply (exact_suffix _ _ W _ _ _ (parse_string_member_exact) Hi) in H as (bs & (id & str & -> & b1 & b2 & Hid & Hstr & ->) & Ho & Hl). simpl in Hl. split; [lia|].
  apply vf_string. eapply e_str_from; [done|]. apply occurs_cons in Ho as [Ho _].
  by eapply occurs_tail.
Qed.

Lemma ref_item_ssafe W s i :
  inv W s -> i ⊑s W -> ssafe W i 1 (item_from W) (s, parse_ref_member i).
Proof.
  intros Hs Hi. apply ssafe_pure; [done|apply parse_ref_member_safe|].
  intros rest a H. apply (exact_suffix _ _ W _ _ _ (parse_ref_member_exact) Hi) in H as (bs & (id & -> & b & [Hid _] & ->) & Ho & Hl). simpl in Hl. split; [lia|done].
Qed.

Lemma null_item_ssafe W s i :
  inv W s -> i ⊑s W -> ssafe W i 1 (item_from W) (s, parse_null_object i).
Proof.
  intros Hs Hi. apply ssafe_pure; [done|apply parse_null_object_safe|].
  intros rest a H. apply (exact_suffix _ _ W _ _ _ (parse_null_object_exact) Hi) in H as (bs & (n & -> & Hn) & Ho & Hl).
  destruct Hn as [[-> ->]|[[Hn ->]|[Hn ->]]]; simpl in Hl; (split; [lia|]);
    cbn [item_from].
  - split; [lia|]. by left.
  - split; [done|]. apply occurs_cons in Ho as [_ Ho]. auto.
  - split; [lia|]. apply occurs_cons in Ho as [_ Ho]. auto.
Qed.

Lemma typed_item_ssafe W s i :
  inv W s -> i ⊑s W -> ssafe W i 1 (item_from W) (s, rmap VR_Value (member_primitive_typed i)).
Proof.
  intros Hs Hi. apply ssafe_pure; [done|apply gsafe_map, member_primitive_typed_safe|].
  intros rest a H. apply rmap_ok in H as (v & H & ->).
  apply (exact_suffix _ _ W _ _ _ (member_primitive_typed_exact) Hi) in H as (bs & (p & b & _ & Hv & ->) & Ho & Hl).
  simpl in Hl. split; [lia|]. eapply vf_prim; [done|].
  apply occurs_cons in Ho as [Ho _]. by apply occurs_cons in Ho as [Ho _].
Qed.

(** [alt] of pure items. *)
Lemma ssafe_alt {A} W s i k (Q : A -> Prop) (r r' : res A) :
  ssafe W i k Q (s, r) -> ssafe W i k Q (s, r') -> ssafe W i k Q (s, alt r r').
Proof. intros H H'. by destruct r. Qed.

(** ** Counted members *)

Lemma scount_ssafe {A} W i n (p : state -> bytes -> sres A) (Q : A -> Prop) s :
  inv W s -> i ⊑s W ->
  (forall s i', inv W s -> i' ⊑s i -> ssafe W i' 1 Q (p s i')) ->
  ssafe W i 0 (fun l => Forall Q l /\ N.of_nat (length l) = n) (scount n p s i).
Proof.
  intros Hs Hi Hp. unfold scount. assert (length i < S (length i)) as Hf by lia. revert Hf.
  generalize (S (length i)) as fuel. intros fuel. revert n i s Hs Hi Hp.
  induction fuel as [|fuel IH]; intros n i s Hs Hi Hp Hf; [lia|].
  cbn [scount_loop]. destruct (N.eqb_spec n 0) as [->|Hn]; [by apply ssafe_ok|].
  eapply ssafe_bind with (k2 := 0); [by apply Hp| |lia].
  intros s1 i1 a Hs1 Hi1 Hl1 Ha.
  eapply ssafe_bind with (k2 := 0); [apply (IH (N.pred n) i1 s1); [done|by etrans| |lia]| |].
  { intros s2 i2 Hs2 Hi2. apply Hp; [done|]. by etrans. }
  - intros s2 i2 l Hs2 Hi2 Hl2 [Hl Hlen]. apply ssafe_ok; [done|]. split; [by constructor|].
    simpl. lia.
  - lia.
Qed.

(** ** The class table invariants *)

Definition class_from (W : bytes) (p : N * obj value) : Prop :=
  valid_id p.1 /\ value_from W (VObject p.2).
Definition array_from (W : bytes) (p : N * list value) : Prop :=
  valid_id p.1 /\ Forall (value_from W) p.2.

(** [HashMap::from_iter] *)
Lemma hm_insert_elem {V} k (v : V) m k' v' :
  (k', v') ∈ hm_insert k v m -> (k' = k /\ v' = v) \/ (k', v') ∈ m.
Proof.
  induction m as [|[k1 v1] m IH]; simpl.
  - rewrite elem_of_list_singleton. intros [= -> ->]. auto.
  - unfold str_eqb. destruct (bool_decide_reflect (k = k1)) as [->|Hne].
    + rewrite !elem_of_cons. intros [[= -> ->]|H]; auto.
    + rewrite !elem_of_cons. intros [H|H]; [auto|]. apply IH in H as [?|?]; auto.
Qed.
Lemma hm_insert_keys {V} k (v : V) m k' :
  k' ∈ map fst (hm_insert k v m) <-> k' = k \/ k' ∈ map fst m.
Proof.
  induction m as [|[k1 v1] m IH]; simpl.
  - rewrite elem_of_list_singleton, elem_of_nil. naive_solver.
  - unfold str_eqb. destruct (bool_decide_reflect (k = k1)) as [->|Hne]; simpl;
      rewrite !elem_of_cons; [naive_solver|]. rewrite IH. naive_solver.
Qed.
Lemma hm_insert_nodup {V} k (v : V) m :
  NoDup (map fst m) -> NoDup (map fst (hm_insert k v m)).
Proof.
  induction m as [|[k1 v1] m IH]; simpl; intros H.
  - apply NoDup_singleton.
  - apply NoDup_cons in H as [H1 H2].
    unfold str_eqb. destruct (bool_decide_reflect (k = k1)) as [->|Hne]; simpl.
    + by apply NoDup_cons.
    + apply NoDup_cons. split; [|by apply IH]. rewrite hm_insert_keys. naive_solver.
Qed.
Lemma hm_from_iter_elem {V} (l : list (str * V)) k v : (k, v) ∈ hm_from_iter l -> (k, v) ∈ l.
Proof.
  unfold hm_from_iter.
  enough (forall m, (k, v) ∈ fold_left (fun m kv => hm_insert kv.1 kv.2 m) l m ->
            (k, v) ∈ l \/ (k, v) ∈ m) as H.
  { intros Hin. apply H in Hin as [?|Hn]; [done|]. by apply elem_of_nil in Hn. }
  induction l as [|[k1 v1] l IH]; intros m; simpl; [auto|].
  intros H. apply IH in H as [H|H]; [left; set_solver|].
  apply hm_insert_elem in H as [[-> ->]|H]; [left; set_solver|auto].
Qed.
Lemma hm_from_iter_nodup {V} (l : list (str * V)) : NoDup (map fst (hm_from_iter l)).
Proof.
  unfold hm_from_iter.
  enough (forall m : list (str * V), NoDup (map fst m) ->
            NoDup (map fst (fold_left (fun m kv => hm_insert kv.1 kv.2 m) l m))) as H.
  { apply H. simpl. constructor. }
  induction l as [|[k1 v1] l IH]; intros m Hm; simpl; [done|].
  apply IH. by apply hm_insert_nodup.
Qed.

Lemma e_list_occurs {A} (E : A -> bytes -> Prop) l bs W :
  e_list E l bs -> occurs bs W -> Forall (fun a => exists b, E a b /\ occurs b W) l.
Proof.
  induction 1 as [|a l b bs Ha Hl IH]; intros Ho; [done|]. constructor.
  - exists b. split; [done|]. by eapply occurs_head.
  - apply IH. by eapply occurs_tail.
Qed.

Definition header_from (W : bytes) (c : class_header) : Prop :=
  valid_id (ch_object_id c) /\ str_from W (ch_name c) /\ Forall (str_from W) (ch_member_names c).

Lemma e_class_header_from c bs W :
  e_class_header c bs -> occurs bs W -> header_from W c.
Proof.
  intros (b1 & b2 & b3 & b4 & b5 & [Hid ->] & Hn & (b & _ & Hm & ->) & _ & _ & ->) Ho.
  apply occurs_cons in Ho as [Ho _]. split; [done|]. split.
  - eapply e_str_from; [done|]. by eapply occurs_app.
  - apply occurs_tail, occurs_tail, occurs_head, occurs_tail in Ho.
    eapply e_list_occurs in Ho; [|exact Hm]. eapply Forall_impl; [exact Ho|].
    intros s (b' & Hb & Hs). by eapply e_str_from.
Qed.

Section methods.
Context (W : bytes) (L : nat).
Context (PC : state -> bytes -> sres (N * obj value)).
Context (PR : state -> bytes -> sres N).
Hypothesis HPC : forall s i, inv W s -> i ⊑s W -> length i < L ->
  ssafe W i 1 (class_from W) (PC s i).
Hypothesis HPR : forall s i, inv W s -> i ⊑s W -> length i < L ->
  ssafe W i 1 (fun id => valid_id id) (PR s i).

Lemma member_untyped_body_ssafe s i :
  inv W s -> i ⊑s W -> length i < L ->
  ssafe W i 1 (item_from W) (member_untyped_body PC s i).
Proof.
  intros Hs Hi Hl. unfold member_untyped_body.
  match goal with |- ssafe _ _ _ _ (match ?r with _ => _ end) =>
    assert (ssafe W i 1 (item_from W) (s, r)) as H end.
  { apply ssafe_alt; [by apply typed_item_ssafe|].
    apply ssafe_alt; [by apply ref_item_ssafe|].
    apply ssafe_alt; [by apply string_item_ssafe|by apply null_item_ssafe]. }
  destruct (alt _ _); try exact H.
  eapply ssafe_smap; [by apply HPC|]. intros a [_ Ha]. exact Ha.
Qed.

Lemma parse_member_untyped_ssafe s i :
  inv W s -> i ⊑s W -> length i < L ->
  ssafe W i 1 (item_from W) (parse_member_untyped PC s i).
Proof.
  intros Hs Hi Hl. unfold parse_member_untyped.
  eapply ssafe_bind with (k2 := 1); [by apply parse_binary_library_ssafe| |lia].
  intros s1 i1 _ Hs1 Hi1 Hl1 _. apply member_untyped_body_ssafe; [done|by etrans|lia].
Qed.

Lemma class_or_null_ssafe ok s i :
  inv W s -> i ⊑s W -> length i < L ->
  ssafe W i 1 (item_from W) (class_or_null PC ok s i).
Proof.
  intros Hs Hi Hl. unfold class_or_null. pose proof (HPC s i Hs Hi Hl) as H.
  destruct (PC s i) as [s1 [rest [id o]|e|e|p|]]; destruct H as [H1 H2]; simpl in H1, H2.
  - destruct H2 as (H3 & H4 & _ & H5). destruct (ok o).
    + split; [done|]. simpl. auto.
    + by split.
  - by apply null_item_ssafe.
  - by apply null_item_ssafe.
  - by split.
  - done.
Qed.

(** The type information comes from [kind_bt]/[kind_ai], so [unreachable!()] is not reached. *)
Lemma parse_member_typed_ssafe k s i :
  k <> K_Any -> inv W s -> i ⊑s W -> length i < L ->
  ssafe W i 1 (item_from W) (parse_member_typed PC (kind_bt k) (kind_ai k) s i).
Proof.
  intros Hk Hs Hi Hl. unfold parse_member_typed.
  eapply ssafe_bind with (k2 := 1); [by apply parse_binary_library_ssafe| |lia].
  intros s1 i1 _ Hs1 Hi1 Hl1 _.
  assert (i1 ⊑s W) as Hi1W by (by etrans). assert (length i1 < L) as Hl1L by lia.
  destruct k as [|p| | |n|n lid| | |p]; cbn [kind_bt kind_ai]; try done.
  - by apply prim_item_ssafe.
  - by apply string_item_ssafe.
  - by apply parse_member_untyped_ssafe.
  - by apply class_or_null_ssafe.
  - cbn [cti_library_id cti_type_name]. destruct (st_libs s1 !! lid); [by apply class_or_null_ssafe|].
    by apply ssafe_fail.
  - by apply parse_member_untyped_ssafe.
  - apply ssafe_alt; [by apply string_item_ssafe|].
    apply ssafe_alt; [by apply ref_item_ssafe|by apply null_item_ssafe].
  - by apply ref_item_ssafe.
Qed.

Lemma parse_members_typed_ssafe ks s i :
  Forall (fun k => k <> K_Any) ks -> inv W s -> i ⊑s W -> length i < L ->
  ssafe W i 0 (Forall (item_from W))
    (parse_members_typed PC (zip (map kind_bt ks) (map kind_ai ks)) s i).
Proof.
  intros Hks. revert s i. induction Hks as [|k ks Hk Hks IH]; intros s i Hs Hi Hl;
    cbn [map zip zip_with parse_members_typed]; [by apply ssafe_ok|].
  eapply ssafe_bind with (k2 := 0); [by apply parse_member_typed_ssafe| |lia].
  intros s1 i1 m Hs1 Hi1 Hl1 Hm.
  eapply ssafe_bind with (k2 := 0); [apply IH; [done|by etrans|lia]| |].
  - intros s2 i2 ms Hs2 Hi2 Hl2 Hms. apply ssafe_ok; [done|]. by constructor.
  - lia.
Qed.

Lemma verify_referenceable_ssafe id s i :
  inv W s -> i ⊑s W -> length i < L ->
  ssafe W i 1 (fun id => valid_id id) (verify_referenceable PR id s i).
Proof.
  intros Hs Hi Hl. unfold verify_referenceable. pose proof (HPR s i Hs Hi Hl) as H.
  destruct (PR s i) as [s1 [rest id2|e|e|p|]]; try done.
  destruct (N.eqb _ _); [done|]. destruct H as [H1 H2]. by apply ssafe_err.
Qed.

Lemma resolve_members_ssafe ms s i :
  Forall (item_from W) ms -> inv W s -> i ⊑s W -> length i < L ->
  ssafe W i 0
    (fun vs => Forall (value_from W) vs
       /\ ((exists n, VR_Null n ∈ ms /\ n <> 1%N) \/ length vs = length ms))
    (resolve_members PR ms s i).
Proof.
  intros Hms. revert s i. induction Hms as [|m ms Hm Hms IH]; intros s i Hs Hi Hl;
    cbn [resolve_members].
  { apply ssafe_ok; [done|]. auto. }
  assert (forall v s i, value_from W v -> inv W s -> i ⊑s W -> length i < L -> 
    ssafe W i 0
    (fun vs => Forall (value_from W) vs
       /\ ((exists n, VR_Null n ∈ m :: ms /\ n <> 1%N) \/ length vs = S (length ms)))
    (let! (s, input, vs) := resolve_members PR ms s i in (s, Ok input (v :: vs)))) as Hcons.
  { intros v s1 i1 Hv Hs1 Hi1 Hl1.
    eapply ssafe_bind with (k2 := 0); [by apply IH| |lia].
    intros s2 i2 vs Hs2 Hi2 Hl2 [Hvs Hlen]. apply ssafe_ok; [done|]. split; [by constructor|].
    destruct Hlen as [(n & Hn & Hn1)|Hlen]; [left; exists n; set_solver|right; simpl; lia]. }
  destruct m as [v|n|id]; cbn [item_from] in Hm.
  - by apply Hcons.
  - eapply ssafe_bind with (k2 := 0); [by apply IH| |lia].
    intros s2 i2 vs Hs2 Hi2 Hl2 [Hvs Hlen]. apply ssafe_ok; [done|]. split.
    + apply Forall_app. split; [|done]. apply Forall_replicate. constructor.
    + destruct Hlen as [(n' & Hn & Hn1)|Hlen]; [left; exists n'; set_solver|].
      destruct (decide (n = 1%N)) as [->|Hne].
      * right. simpl. lia.
      * left. exists n. set_solver.
  - destruct (st_objects s !! id) as [v|] eqn:Ev.
    + apply Hcons; [|by apply inv_delete|done|done]. by apply (inv_objects W s Hs) in Ev as (_ & ? & _).
    + eapply ssafe_bind'; [by apply verify_referenceable_ssafe|].
      intros s1 i1 id2 Hs1 Hi1 Hl1 _.
      destruct (st_objects s1 !! id2) as [v|] eqn:Ev2; [|by apply ssafe_fail].
      eapply ssafe_weaken; [apply (Hcons v (set_objects s1 (delete id2 (st_objects s1))) i1)|done|lia|done].
      * by apply (inv_objects W s1 Hs1) in Ev2 as (_ & ? & _).
      * by apply inv_delete.
      * by etrans.
      * lia.
Qed.

Lemma mkObj_from h lib vs :
  header_from W h -> (forall l, lib = Some l -> str_from W l) -> Forall (value_from W) vs ->
  value_from W (VObject (mkObj (ch_name h) lib (hm_from_iter (zip (ch_member_names h) vs)))).
Proof.
  intros (H1 & H2 & H3) Hlib Hvs. constructor; cbn [obj_class obj_library obj_members].
  - done.
  - done.
  - apply hm_from_iter_nodup.
  - intros k v Hin. apply hm_from_iter_elem in Hin. split.
    + apply elem_of_zip_l in Hin. by eapply Forall_forall in H3.
    + apply elem_of_zip_r in Hin. by eapply Forall_forall in Hvs.
Qed.

Lemma parse_class_body_ssafe err h s i bs :
  inv W s -> i ⊑s W -> length i < L -> i ⊑s err -> e_class_header h bs ->
  header_from W h ->
  ssafe W err (length err - length i) (class_from W)
    (parse_class_body PC PR err (ch_object_id h) (class_rec_of h) s i).
Proof.
  intros Hs Hi Hl Herr Hbs Hh. pose proof (suffix_length _ _ Herr) as Hlen.
  unfold parse_class_body. rewrite (inv_classes W s Hs), lookup_empty.
  rewrite bool_decide_eq_false_2 by (intros [? [=]]).
  rewrite cr_class_info_of. cbn [ci_of ci_member_names ci_name].
  set (Q := fun lm : option str * list value_or_ref =>
              (forall l, lm.1 = Some l -> str_from W l) /\ Forall (item_from W) lm.2).
  assert (forall l, (forall l', l = Some l' -> str_from W l') ->
    ssafe W i 0 Q (smap (pair l) (scount (N.of_nat (length (ch_member_names h)))
      (parse_member_untyped PC) s i))) as Hunt.
  { intros l Hlw. eapply ssafe_smap; [apply scount_ssafe; [done|done|]|].
    - intros s1 i1 Hs1 Hi1. apply parse_member_untyped_ssafe; [done|by etrans|].
      apply suffix_length in Hi1. lia.
    - intros ms [Hms _]. split; simpl; [done|exact Hms]. }
  assert (forall l ks, (forall l', l = Some l' -> str_from W l') -> ch_types h = Some ks ->
    ssafe W i 0 Q (smap (pair l) (parse_members_with_type_info PC (mti_of ks) s i))) as Hty.
  { intros l ks Hlw Hks. unfold parse_members_with_type_info, mti_of.
    cbn [mti_binary_type_enums mti_additional_infos].
    eapply ssafe_smap; [apply parse_members_typed_ssafe; [|done|done|done]|].
    - destruct Hbs as (? & ? & ? & b4 & ? & ? & ? & ? & Ht & _). rewrite Hks in Ht.
      destruct Ht as (? & ? & _ & Ht & _). by apply e_list_kind_code in Ht as [? _].
    - intros ms Hms. split; simpl; [done|exact Hms]. }
  match goal with |- ssafe _ _ _ _ (sbind ?r _) => assert (ssafe W err (length err - length i) Q r) as Hr end.
  { unfold class_rec_of. destruct (ch_types h) as [ks|] eqn:Ets, (ch_library h) as [lid|].
    - destruct (st_libs s !! lid) as [l|] eqn:El; [|by apply ssafe_fail].
      eapply ssafe_weaken; [apply Hty; [|done]|done|lia|done].
      intros l' [= <-]. by apply (inv_libs W s Hs) in El as [_ ?].
    - eapply ssafe_weaken; [apply Hty; done|done|lia|done].
    - destruct (st_libs s !! lid) as [l|] eqn:El; [|by apply ssafe_fail].
      eapply ssafe_weaken; [apply Hunt|done|lia|done].
      intros l' [= <-]. by apply (inv_libs W s Hs) in El as [_ ?].
    - eapply ssafe_weaken; [apply Hunt; done|done|lia|done]. }
  eapply ssafe_bind'; [exact Hr|]. intros s1 i1 [lib ms] Hs1 Hi1 Hl1 [Hlib Hms].
  simpl in Hlib, Hms. cbn [fst snd].
  assert (length i1 < L) by lia. 
  assert (i1 ⊑s W) as Hi1W.
  { etrans; [|exact Hi]. eapply suffix_two; [done|done|lia]. }
  eapply ssafe_weaken with (i := i1) (k := 0) (Q := class_from W); [|done|lia|done].
  eapply ssafe_bind with (k2 := 0); [by apply resolve_members_ssafe| |lia].
  intros s2 i2 vs Hs2 Hi2 Hl2 [Hvs _]. apply ssafe_ok; [done|]. split; simpl.
  - by destruct Hh.
  - by apply mkObj_from.
Qed.


(** ** Class records *)

Lemma class_with_id_ok i rest oid mid :
  class_with_id i = Ok rest (oid, mid) -> length rest < length i /\ rest ⊑s i.
Proof.
  unfold class_with_id. intros H. apply bind_ok in H as (i1 & rt & H1 & H).
  apply record_type_exact in H1 as (? & [_ ->] & ->).
  apply bind_ok in H as (i2 & o & H2 & H). apply object_id_exact in H2 as (b2 & _ & ->).
  apply bind_ok in H as (i3 & m & H3 & H). apply object_id_exact in H3 as (b3 & _ & ->).
  destruct (N.eqb _ _); [done|]. inv H. split.
  - simpl. rewrite !app_length. lia.
  - exists ((n2b (rt_code RT_ClassWithId) :: b2) ++ b3). by rewrite <- app_assoc.
Qed.

Lemma class_header_nonempty h : ~ e_class_header h [].
Proof. by intros (? & ? & ? & ? & ? & ? & ? & ? & ? & ? & [=]). Qed.

End methods.

Lemma parse_classes_body_ssafe W L PC PR s i :
  (forall s i, inv W s -> i ⊑s W -> length i < L -> ssafe W i 1 (class_from W) (PC s i)) ->
  (forall s i, inv W s -> i ⊑s W -> length i < L ->
     ssafe W i 1 (fun id => valid_id id) (PR s i)) ->
  inv W s -> i ⊑s W -> length i <= L ->
  ssafe W i 1 (class_from W) (parse_classes_body PC PR s i).
Proof.
  intros HPC HPR Hs Hi Hl. unfold parse_classes_body.
  eapply ssafe_bind with (k2 := 1); [by apply parse_binary_library_ssafe| |lia].
  intros s1 i1 _ Hs1 Hi1 Hl1 _.
  pose proof (class_with_id_safe i1) as Hsafe.
  destruct (class_with_id i1) as [rest [oid mid]|e|e|p|] eqn:Ec; try done.
  - rewrite (inv_classes W s1 Hs1), lookup_empty. by apply ssafe_fail.
  - pose proof (class_records_safe i1) as Hsafe2.
    destruct (class_records i1) as [rest c|e2|e2|p|] eqn:Er; try done.
    assert (i1 ⊑s W) as Hi1W by (by etrans).
    pose proof Er as Er'. apply class_records_exact in Er' as (bs & (h & -> & Hh) & E).
    rewrite cr_class_info_of. cbn [ci_of ci_object_id].
    assert (0 < length bs) as Hbs.
    { destruct bs; [by apply class_header_nonempty in Hh|simpl; lia]. }
    assert (length i1 = length bs + length rest) as Hlen by (rewrite E, app_length; done).
    eapply ssafe_weaken; [eapply parse_class_body_ssafe with (L := L) (bs := bs); try done| | |].
    + etrans; [|exact Hi1W]. by exists bs.
    + lia.
    + eapply e_class_header_from; [done|]. by eapply occurs_suffix.
    + done.
    + lia.
    + done.
Qed.

(** ** Arrays *)

Section arrays.
Context (W : bytes) (L : nat).
Context (PC : state -> bytes -> sres (N * obj value)).
Context (PR : state -> bytes -> sres N).
Hypothesis HPC : forall s i, inv W s -> i ⊑s W -> length i < L ->
  ssafe W i 1 (class_from W) (PC s i).
Hypothesis HPR : forall s i, inv W s -> i ⊑s W -> length i < L ->
  ssafe W i 1 (fun id => valid_id id) (PR s i).

Lemma array_loop_ssafe p len s i :
  inv W s -> i ⊑s W ->
  (forall s i', inv W s -> i' ⊑s i -> ssafe W i' 1 (item_from W) (p s i')) ->
  ssafe W i 0 (Forall (item_from W)) (array_loop p (S (length i)) len 0 s i).
Proof.
  assert (length i < S (length i)) as Hf by lia. revert Hf.
  generalize (S (length i)) as fuel. generalize 0%N as cur. intros cur fuel.
  revert cur s i. induction fuel as [|fuel IH]; intros cur s i Hf Hs Hi Hp; [lia|].
  cbn [array_loop]. destruct (N.leb _ _); [by apply ssafe_ok|].
  eapply ssafe_bind with (k2 := 0); [by apply Hp| |lia].
  intros s1 i1 m Hs1 Hi1 Hl1 Hm.
  eapply ssafe_bind with (k2 := 0); [apply IH; [lia|done|by etrans|]| |lia].
  { intros s2 i2 Hs2 Hi2. apply Hp; [done|by etrans]. }
  intros s2 i2 ms Hs2 Hi2 Hl2 Hms. apply ssafe_ok; [done|]. apply Forall_app. split; [|done].
  destruct m as [v|n|id]; simpl; [by constructor| |by constructor].
  apply Forall_replicate. constructor.
Qed.

Lemma array_header_ok code id len bs :
  e_array_header code id len bs -> length bs = 9 /\ valid_id id.
Proof.
  intros (b1 & b2 & [Hid ->] & [Hl ->] & ->). cbn [length]. rewrite app_length, !enc_uint_length. done.
Qed.

Lemma array_tail_ssafe p ai s i :
  inv W s -> i ⊑s W -> length i < L -> valid_id (ai_object_id ai) ->
  (forall s i', inv W s -> i' ⊑s i -> ssafe W i' 1 (item_from W) (p s i')) ->
  ssafe W i 0 (array_from W)
    (let! (s, input, ms) := array_loop p (S (length i)) (ai_length ai) 0 s i in
     let! (s, input, vs) := resolve_members PR ms s input in
     (s, Ok input (ai_object_id ai, vs))).
Proof.
  intros Hs Hi Hl Hid Hp.
  eapply ssafe_bind with (k2 := 0); [by apply array_loop_ssafe| |lia].
  intros s1 i1 ms Hs1 Hi1 Hl1 Hms.
  eapply ssafe_bind with (k2 := 0); [eapply (resolve_members_ssafe W L PC PR HPC HPR); [done..|by etrans|lia]| |lia].
  intros s2 i2 vs Hs2 Hi2 Hl2 [Hvs _]. by apply ssafe_ok.
Qed.

Lemma parse_array_single_object_ssafe s i :
  inv W s -> i ⊑s W -> length i <= L ->
  ssafe W i 1 (array_from W) (parse_array_single_object PC PR s i).
Proof.
  intros Hs Hi Hl. unfold parse_array_single_object.
  pose proof (array_single_object_safe i) as Hsafe.
  destruct (array_single_object i) as [i1 ai|e|e|p|] eqn:E; try done.
  apply array_single_object_exact in E as (bs & Hbs & ->).
  apply array_header_ok in Hbs as [Hb Hid]. rewrite app_length in Hl.
  simpl in Hsafe.
  eapply ssafe_weaken; [apply array_tail_ssafe; [done|by etrans|lia|done|]|done| |done].
  - intros s1 i2 Hs1 Hi2. apply suffix_length in Hi2 as ?.
    eapply parse_member_untyped_ssafe; [exact HPC|done| |lia]. by do 2 (etrans; [done|]).
  - rewrite app_length. lia.
Qed.

Lemma parse_array_single_string_ssafe s i :
  inv W s -> i ⊑s W -> length i <= L ->
  ssafe W i 1 (array_from W) (parse_array_single_string PC PR s i).
Proof.
  intros Hs Hi Hl. unfold parse_array_single_string.
  pose proof (array_single_string_safe i) as Hsafe.
  destruct (array_single_string i) as [i1 ai|e|e|p|] eqn:E; try done.
  apply array_single_string_exact in E as (bs & Hbs & ->).
  apply array_header_ok in Hbs as [Hb Hid]. rewrite app_length in Hl.
  simpl in Hsafe.
  eapply ssafe_weaken; [apply array_tail_ssafe; [done|by etrans|lia|done|]|done| |done].
  - intros s1 i2 Hs1 Hi2. apply suffix_length in Hi2 as ?.
    eapply (parse_member_typed_ssafe W L PC HPC K_StringArray); [done|done| |lia].
    by do 2 (etrans; [done|]).
  - rewrite app_length. lia.
Qed.

Lemma parse_array_single_primitive_ssafe s i :
  inv W s -> i ⊑s W ->
  ssafe W i 1 (array_from W) (parse_array_single_primitive s i).
Proof.
  intros Hs Hi. apply ssafe_pure; [done| |].
  - apply gsafe_bind; [apply array_single_primitive_safe|]. intros i1 [ai p].
    apply gsafe_bind; [|intros; cbn [gsafe]; done].
    apply count_safe; [intros; apply member_primitive_untyped_safe|apply member_primitive_untyped_strict].
  - intros rest a H. apply bind_ok in H as (i1 & [ai p] & H1 & H).
    apply array_single_primitive_exact in H1 as (bs & (b & Hb & ->) & ->).
    apply bind_ok in H as (i2 & vs & H2 & H). inv H.
    eapply exact_count in H2 as (b2 & [Hlen Hvs] & ->);
      [|apply member_primitive_untyped_exact|intros v [_ Hv]; by apply e_prim_nonempty in Hv].
    apply array_header_ok in Hb as [Hb Hid]. split.
    + rewrite !app_length. lia.
    + split; [done|]. simpl. assert (occurs b2 W) as Ho.
      { eapply occurs_suffix with (i := b2 ++ rest); [done|]. etrans; [|exact Hi]. eexists. done. }
      eapply e_list_occurs in Ho; [|exact Hvs]. eapply Forall_impl; [exact Ho|].
      intros v (bv & [_ Hv] & Hov). by eapply vf_prim.
Qed.

(** Chunking. *)
Lemma concat_length_const {A} (l : nat) (rows : list (list A)) :
  Forall (fun r => length r = l) rows -> length (concat rows) = l * length rows.
Proof. induction 1 as [|r rows Hr _ IH]; simpl; [lia|]. rewrite app_length. lia. Qed.

Lemma chunk_loop_ok fuel l vs i :
  0 < l -> length vs <= fuel ->
  (exists rows, chunk_loop fuel l vs i = Ok i (map VArray rows)
     /\ Forall (fun r => length r = l) rows /\ concat rows = vs)
  \/ (chunk_loop fuel l vs i = Panic P_DrainOutOfRange
      /\ forall n, length vs <> l * n).
Proof.
  intros Hl. revert vs. induction fuel as [|fuel IH]; intros vs Hf.
  - destruct vs; [|simpl in Hf; lia]. left. by exists [].
  - destruct vs as [|v vs']; [left; by exists []|]. set (vs := v :: vs') in *.
    change (chunk_loop (S fuel) l vs i) with
      (if Nat.ltb (length vs) l then Panic P_DrainOutOfRange : res (list value)
       else let? (input, r) := chunk_loop fuel l (drop l vs) i in
            Ok input (VArray (take l vs) :: r)).
    destruct (Nat.ltb_spec (length vs) l) as [Hlt|Hge].
    + right. split; [done|]. intros n Hn. destruct n; [|lia].
      rewrite Nat.mul_0_r in Hn. done.
    + destruct (IH (drop l vs)) as [(rows & -> & Hrows & Hc)|[-> Hn]].
      * rewrite drop_length. lia.
      * left. exists (take l vs :: rows). cbn [bind map concat]. split; [done|]. split.
        -- constructor; [|done]. rewrite take_length. lia.
        -- by rewrite Hc, take_drop.
      * right. split; [done|]. intros n Hlen. destruct n as [|n].
        -- rewrite Nat.mul_0_r in Hlen. done.
        -- apply (Hn n). rewrite drop_length. lia.
Qed.

Lemma chunk_dims_ssafe dims vs i :
  Forall (value_from W) vs ->
  (vs <> [] -> Forall (fun l => l <> 0%N) dims) ->
  match chunk_dims dims vs i with
  | Ok i' vs' => i' = i /\ Forall (value_from W) vs'
  | Panic p => p = P_DrainOutOfRange /\ dims <> []
       /\ forall n, length vs <> N.to_nat (fold_right N.mul 1%N dims) * n
  | _ => False
  end.
Proof.
  revert vs. induction dims as [|l dims IH]; intros vs Hvs Hd; [done|].
  cbn [chunk_dims].
  destruct (decide (vs = [])) as [->|Hne].
  { simpl. specialize (IH [] Hvs ltac:(done)). destruct (chunk_dims dims [] i); try done.
    destruct IH as (_ & _ & IH). exfalso. apply (IH 0). simpl. lia. }
  specialize (Hd Hne). inv Hd. rename H1 into Hl0, H2 into Hd.
  destruct (chunk_loop_ok (length vs) (N.to_nat l) vs i) as [(rows & -> & Hrows & Hc)|[-> Hn]].
  - lia.
  - lia.
  - cbn [bind]. specialize (IH (map VArray rows)).
    assert (Forall (value_from W) (map VArray rows)) as Hvr.
    { apply Forall_map, Forall_forall. intros r Hr. cbn. apply vf_array. intros v Hv.
      apply (proj1 (Forall_forall _ _) Hvs). rewrite <- Hc. apply elem_of_list_In, in_concat.
      exists r. split; by apply elem_of_list_In. }
    specialize (IH Hvr (fun _ => Hd)). destruct (chunk_dims dims _ i); try done.
    destruct IH as (-> & _ & IH). split; [done|]. split; [done|]. intros n Hlen.
    apply (IH n). rewrite map_length. rewrite <- Hc, (concat_length_const _ _ Hrows) in Hlen.
    simpl in Hlen. rewrite N2Nat.inj_mul, <- Nat.mul_assoc in Hlen.
    apply Nat.mul_cancel_l in Hlen; [done|lia].
  - cbn [bind]. split; [done|]. split; [done|]. intros n Hlen.
    apply (Hn (N.to_nat (fold_right N.mul 1%N dims) * n)). rewrite Hlen. simpl.
    by rewrite N2Nat.inj_mul, Nat.mul_assoc.
Qed.

Lemma checked_product_spec acc l n :
  checked_product acc l = Some n -> n = (acc * fold_right N.mul 1 l)%N.
Proof.
  revert acc. induction l as [|x l IH]; intros acc; simpl; [intros [= <-]; lia|].
  destruct (N.ltb _ _); [|done]. intros H. apply IH in H. lia.
Qed.

Lemma fold_mul_rev l : fold_right N.mul 1%N (rev l) = fold_right N.mul 1%N l.
Proof.
  assert (forall a b, fold_right N.mul 1%N (a ++ b)
    = (fold_right N.mul 1%N a * fold_right N.mul 1%N b)%N) as H.
  { intros a b. induction a as [|x a IH]; cbn [app fold_right]; [by rewrite N.mul_1_l|].
    by rewrite IH, N.mul_assoc. }
  induction l as [|x l IH]; [done|]. cbn [rev]. rewrite H, IH. cbn [fold_right].
  by rewrite N.mul_1_r, N.mul_comm.
Qed.
Lemma fold_mul_nonzero l : fold_right N.mul 1%N l <> 0%N -> Forall (fun n => n <> 0%N) l.
Proof.
  induction l as [|x l IH]; simpl; intros H; constructor.
  - intros ->. by rewrite N.mul_0_l in H.
  - apply IH. intros E. by rewrite E, N.mul_0_r in H.
Qed.

Lemma parse_binary_array_ssafe s i :
  inv W s -> i ⊑s W -> length i <= L ->
  ssafe W i 1 (array_from W) (parse_binary_array PC PR s i).
Proof.
  intros Hs Hi Hl. unfold parse_binary_array.
  pose proof (binary_array_safe i) as Hsafe.
  destruct (binary_array_parse i) as [i1 ba|e|e|p|] eqn:E; try done.
  apply binary_array_exact in E as (bs & (k & -> & -> & Hbs) & ->).
  simpl in Hsafe.
  destruct (checked_product 1 (ba_lengths ba)) as [n|] eqn:En; [|by apply ssafe_fail].
  apply checked_product_spec in En. rewrite N.mul_1_l in En.
  assert (i1 ⊑s W) as Hi1 by (by etrans).
  destruct Hbs as (b1 & b2 & b3 & b4 & b5 & [Hid ->] & _ & _ & Hk & _ & ->).
  apply e_kind_code_iff in Hk as [Hk _].
  assert (x07 ∈ W) as H07.
  { assert (occurs (x07 :: enc_uint 4 (ba_object_id ba) ++ n2b (bat_code (ba_array_type ba)) :: b2 ++ b3 ++ b4 ++ b5) W) as Ho
      by (by eapply occurs_suffix).
    by apply occurs_cons in Ho as [_ Ho]. }
  rewrite app_length in Hl. simpl in Hl.
  eapply ssafe_weaken with (i := i1) (k := 0) (Q := array_from W);
    [|done|rewrite app_length; simpl; lia|done].
  eapply ssafe_bind with (k2 := 0); [apply scount_ssafe; [done|done|]| |lia].
  { intros s1 i2 Hs1 Hi2. apply suffix_length in Hi2 as ?.
    eapply parse_member_typed_ssafe; [exact HPC|done|done| |lia]. by etrans. }
  intros s1 i2 ms Hs1 Hi2 Hl2 [Hms Hlen].
  assert (i2 ⊑s W) as Hi2W by (by etrans).
  eapply ssafe_bind with (k2 := 0); [eapply (resolve_members_ssafe W L PC PR HPC HPR); [done..|lia]| |lia].
  intros s2 i3 vs Hs2 Hi3 Hl3 [Hvs Hvl].
  pose proof (chunk_dims_ssafe (rev (drop 1 (ba_lengths ba))) vs i3 Hvs) as Hc.
  assert (vs <> [] -> Forall (fun l => l <> 0%N) (rev (drop 1 (ba_lengths ba)))) as Hnz.
  { intros Hne. assert (n <> 0%N) as Hn0.
    { intros ->. destruct ms; [|done].
      destruct Hvl as [(? & Hin & _)|Hvl]; [by apply elem_of_nil in Hin|]. by destruct vs. }
    rewrite En in Hn0. apply fold_mul_nonzero in Hn0. apply Forall_rev, Forall_drop. done. }
  specialize (Hc Hnz). destruct (chunk_dims _ vs i3) as [i4 vs'|e|e|p|]; cbn [bind]; try done.
  - destruct Hc as [-> Hvs']. by apply ssafe_ok.
  - destruct Hc as (-> & Hne & Hc). split; [done|]. cbn [snd]. split; [done|]. split; [done|].
    destruct Hvl as [(m & Hin & Hm1)|Hvl].
    + eapply Forall_forall in Hms; [|exact Hin]. cbn [item_from] in Hms.
      destruct Hms as [_ [->|Hms]]; done.
    + exfalso. rewrite fold_mul_rev in Hc. destruct (ba_lengths ba) as [|l0 ls]; [done|].
      apply (Hc (N.to_nat l0)). rewrite Hvl. cbn [drop].
      assert (length ms = N.to_nat n) as -> by lia. rewrite En. cbn [fold_right].
      rewrite N2Nat.inj_mul. by rewrite Nat.mul_comm.
Qed.

Lemma parse_arrays_ssafe s i :
  inv W s -> i ⊑s W -> length i <= L ->
  ssafe W i 1 (array_from W) (parse_arrays PC PR s i).
Proof.
  intros Hs Hi Hl. unfold parse_arrays.
  eapply ssafe_bind with (k2 := 1); [by apply parse_binary_library_ssafe| |lia].
  intros s1 i1 _ Hs1 Hi1 Hl1 _. assert (i1 ⊑s W) as Hi1W by (by etrans).
  apply ssafe_alt_mut; [apply parse_array_single_object_ssafe; [done|done|lia]|]. intros s2 Hs2.
  apply ssafe_alt_mut; [apply parse_array_single_primitive_ssafe; done|]. intros s3 Hs3.
  apply ssafe_alt_mut; [apply parse_array_single_string_ssafe; [done|done|lia]|]. intros s4 Hs4.
  apply ssafe_alt_mut; [apply parse_binary_array_ssafe; [done|done|lia]|]. intros s5 Hs5.
  by apply ssafe_err.
Qed.

Hypothesis HPC' : forall s i, inv W s -> i ⊑s W -> length i <= L ->
  ssafe W i 1 (class_from W) (PC s i).

Lemma parse_referenceable_body_ssafe s i :
  inv W s -> i ⊑s W -> length i <= L ->
  ssafe W i 1 (fun id => valid_id id) (parse_referenceable_body PC PR s i).
Proof.
  intros Hs Hi Hl. unfold parse_referenceable_body.
  eapply ssafe_bind with (k1 := 1) (k2 := 0)
    (P := fun io => valid_id io.1 /\ value_from W io.2 /\ record_value io.2); [| |lia].
  - apply ssafe_alt_mut.
    { eapply ssafe_smap; [by apply HPC'|]. intros a [Ha1 Ha2]. done. }
    intros s1 Hs1. apply ssafe_alt_mut.
    { eapply ssafe_smap; [by apply parse_arrays_ssafe|]. intros a [Ha1 Ha2]. split; [done|].
      split; [|done]. apply vf_array. intros v Hv. by eapply Forall_forall in Ha2. }
    intros s2 Hs2. apply ssafe_alt_mut.
    { apply ssafe_pure; [done|apply gsafe_map, binary_object_string_safe|].
      intros rest a H. apply rmap_ok in H as ([id str] & H & ->).
      apply (exact_suffix _ _ W _ _ _ binary_object_string_exact Hi) in H
        as (bs & (b1 & b2 & [Hid ->] & Hstr & ->) & Ho & Hlen).
      simpl in Hlen. split; [lia|]. split; [done|]. split; [|done]. apply vf_string.
      eapply e_str_from; [done|]. apply occurs_cons in Ho as [Ho _]. by eapply occurs_tail. }
    intros s3 Hs3. by apply ssafe_err.
  - intros s1 i1 io Hs1 Hi1 Hl1 (Hio1 & Hio2 & Hio3). apply ssafe_ok; [|done]. by apply inv_insert.
Qed.

End arrays.

(** ** The recursion *)

Lemma parse_rec_ssafe W fuel s i :
  inv W s -> i ⊑s W ->
  (2 * length i + 1 <= fuel -> ssafe W i 1 (class_from W) (parse_classes fuel s i))
  /\ (2 * length i + 2 <= fuel ->
      ssafe W i 1 (fun id => valid_id id) (parse_referenceable fuel s i)).
Proof.
  revert s i. induction fuel as [|fuel IH]; intros s i Hs Hi; [lia|].
  split; intros Hf; cbn [parse_classes parse_referenceable].
  - apply parse_classes_body_ssafe with (L := length i); try done.
    + intros s1 i1 Hs1 Hi1 Hl1. apply IH; [done|done|lia].
    + intros s1 i1 Hs1 Hi1 Hl1. apply IH; [done|done|lia].
  - apply parse_referenceable_body_ssafe with (L := length i); try done.
    + intros s1 i1 Hs1 Hi1 Hl1. apply IH; [done|done|lia].
    + intros s1 i1 Hs1 Hi1 Hl1. apply IH; [done|done|lia].
    + intros s1 i1 Hs1 Hi1 Hl1. apply IH; [done|done|lia].
Qed.

Lemma parse_referenceable_ssafe W fuel s i :
  inv W s -> i ⊑s W -> 2 * length i + 2 <= fuel ->
  ssafe W i 1 (fun id => valid_id id) (parse_referenceable fuel s i).
Proof. intros. by apply parse_rec_ssafe. Qed.
Lemma parse_classes_ssafe W fuel s i :
  inv W s -> i ⊑s W -> 2 * length i + 1 <= fuel ->
  ssafe W i 1 (class_from W) (parse_classes fuel s i).
Proof. intros. by apply parse_rec_ssafe. Qed.

Lemma parse_referenceables_ssafe W lf fuel s i :
  inv W s -> i ⊑s W -> 2 * length i + 2 <= fuel -> length i < lf ->
  ssafe W i 0 (fun _ => True) (parse_referenceables lf fuel s i).
Proof.
  revert s i. induction lf as [|lf IH]; intros s i Hs Hi Hf Hlf; [lia|].
  cbn [parse_referenceables].
  pose proof (parse_referenceable_ssafe W fuel s i Hs Hi Hf) as H.
  destruct (parse_referenceable fuel s i) as [s1 [i1 id|e|e|p|]]; destruct H as [H1 H2];
    cbn [fst snd] in H1, H2.
  - destruct H2 as (H3 & H4 & _).
    eapply ssafe_weaken; [apply IH; [done|by etrans|lia|lia]|done|lia|done].
  - by apply ssafe_ok.
  - by apply ssafe_fail.
  - by split.
  - done.
Qed.

(** ** Messages *)

Definition message_from (W : bytes) (m : message) : Prop :=
  let opt_str o := forall s, o = Some s -> str_from W s in
  let opt_args o := forall l, o = Some l -> Forall (value_from W) l in
  match m with
  | MValue v => value_from W v /\ (record_value v \/ v = VNull)
  | MMethodCall c =>
      str_from W (mc_method_name c) /\ str_from W (mc_type_name c)
      /\ opt_str (mc_call_context c) /\ opt_args (mc_args c)
  | MMethodReturn r =>
      (forall v, mr_return_value r = Some v -> value_from W v /\ exists bs, e_value_with_code v bs)
      /\ opt_str (mr_call_context r) /\ opt_args (mr_args r)
  end.

Lemma string_with_code_from W s bs : e_string_with_code s bs -> occurs bs W -> str_from W s.
Proof.
  intros (b & Hb & ->) Ho. apply occurs_cons in Ho as [Ho _]. by eapply e_str_from.
Qed.
Lemma value_with_code_from W v bs : e_value_with_code v bs -> occurs bs W -> value_from W v.
Proof.
  intros H Ho.
  assert ((exists b c, e_prim v b /\ bs = c :: b) \/ v = VNull \/ exists s b, v = VString s /\ e_str s b /\ bs = x12 :: b) as Hc.
  { destruct v; cbn [e_value_with_code] in H;
      try (destruct H as (p & bb & _ & Hp & ->); left; eauto).
    - destruct H as (bb & Hb & ->). right. right. eauto.
    - auto. }
  destruct Hc as [(b & c & Hb & ->)|[->|(s & b & -> & Hb & ->)]].
  - apply occurs_cons in Ho as [Ho _]. by eapply vf_prim.
  - constructor.
  - apply occurs_cons in Ho as [Ho _]. constructor. by eapply e_str_from.
Qed.
Lemma counted_from W l bs :
  e_counted e_value_with_code l bs -> occurs bs W -> Forall (value_from W) l.
Proof.
  intros (b & _ & Hl & ->) Ho. apply occurs_tail in Ho.
  eapply e_list_occurs in Ho; [|exact Hl]. eapply Forall_impl; [exact Ho|].
  intros v (bv & Hv & Hov). by eapply value_with_code_from.
Qed.
Lemma flagged_from {A} z k (E : A -> bytes -> Prop) o bs W (Q : A -> Prop) :
  e_flagged z k E o bs -> occurs bs W -> (forall a bs, E a bs -> occurs bs W -> Q a) ->
  forall a, o = Some a -> Q a.
Proof. intros H Ho HQ a ->. destruct H as [_ H]. eauto. Qed.

Definition args_from (W : bytes) (o : option (list value)) : Prop :=
  forall l, o = Some l -> Forall (value_from W) l.

Lemma parse_call_array_ssafe W fuel root s i :
  inv W s -> i ⊑s W -> 2 * length i + 2 <= fuel ->
  ssafe W i 0 (Forall (value_from W)) (parse_call_array fuel root s i).
Proof.
  intros Hs Hi Hf. unfold parse_call_array.
  eapply ssafe_bind with (k2 := 0); [by apply parse_binary_library_ssafe| |lia].
  intros s1 i1 _ Hs1 Hi1 Hl1 _. assert (i1 ⊑s W) as Hi1W by (by etrans).
  eapply ssafe_bind with (k2 := 0);
    [apply parse_array_single_object_ssafe with (L := length i1); [| |done|done|done]| |lia].
  - intros s2 i2 Hs2 Hi2 Hl2. apply parse_classes_ssafe; [done|done|lia].
  - intros s2 i2 Hs2 Hi2 Hl2. apply parse_referenceable_ssafe; [done|done|lia].
  - intros s2 i2 a Hs2 Hi2 Hl2 [_ Ha]. destruct (bool_decide _).
    + by apply ssafe_ok.
    + by apply ssafe_fail.
Qed.

Lemma ssafe_sopt {A} W i k (Q : A -> Prop) r :
  ssafe W i k Q r -> ssafe W i 0 (fun o => forall a, o = Some a -> Q a) (sopt i r).
Proof.
  intros [H1 H2]. split; [done|]. unfold sopt. cbn [snd].
  destruct (r.2) as [rest a|e|e|p|]; cbn [opt]; try done.
  - destruct H2 as (H3 & H4 & H5). split; [done|]. split; [lia|]. by intros ? [= <-].
  - split; [done|]. split; [lia|]. done.
Qed.

Lemma parse_args_ssafe W flags ca inl s i :
  inv W s -> args_from W ca -> args_from W inl ->
  ssafe W i 0 (args_from W) (s, parse_args flags ca inl i).
Proof.
  intros Hs Hca Hinl. unfold parse_args. destruct (intersects _ _).
  { destruct ca as [l|]; [|by apply ssafe_fail]. by apply ssafe_ok. }
  destruct (intersects _ _).
  { destruct ca as [[|[] l]|]; try (by apply ssafe_fail). apply ssafe_ok; [done|].
    intros l' [= <-]. specialize (Hca _ eq_refl). inv Hca.
    inv H1; [|done]. by apply Forall_forall. }
  by apply ssafe_ok.
Qed.

Lemma ssafe_bind_pure {A B} W i s (P : A -> Prop) (Q : B -> Prop) (r : res A)
    (f : bytes -> A -> res B) :
  ssafe W i 0 P (s, r) ->
  (forall i' a, i' ⊑s i -> P a -> ssafe W i' 0 Q (s, f i' a)) ->
  ssafe W i 0 Q (s, let? (i, a) := r in f i a).
Proof.
  intros [H1 H2] Hf. destruct r as [i' a|e|e|p|]; cbn [bind]; try (by split).
  destruct H2 as (H3 & H4 & H5). eapply ssafe_weaken; [by apply Hf|done| |done].
  cbn [snd] in H4. lia.
Qed.

Lemma parse_method_call_ssafe W fuel root s i :
  inv W s -> i ⊑s W -> 2 * length i + 2 <= fuel ->
  ssafe W i 0 (fun c => message_from W (MMethodCall c)) (parse_method_call fuel root s i).
Proof.
  intros Hs Hi Hf. unfold parse_method_call.
  eapply ssafe_bind with (k2 := 0); [by apply parse_binary_library_ssafe| |lia].
  intros s1 i1 _ Hs1 Hi1 Hl1 _. assert (i1 ⊑s W) as Hi1W by (by etrans).
  pose proof (method_call_safe i1) as Hsafe.
  destruct (binary_method_call_parse i1) as [i2 c|e|e|p|] eqn:E; try done.
  apply (exact_suffix _ _ W _ _ _ method_call_exact Hi1W) in E
    as (bs & (b1 & b2 & b3 & b4 & b5 & _ & Hm & Ht & Hc & Ha & ->) & Ho & Hlen).
  cbn [gsafe] in Hsafe. apply occurs_cons in Ho as [Ho _].
  apply occurs_tail in Ho. pose proof (occurs_head _ _ _ Ho) as Ho2.
  apply occurs_tail in Ho. pose proof (occurs_head _ _ _ Ho) as Ho3.
  apply occurs_tail in Ho. pose proof (occurs_head _ _ _ Ho) as Ho4.
  apply occurs_tail in Ho.
  eapply ssafe_weaken with (i := i2) (k := 0); [|done|apply suffix_length in Hsafe; lia|intros a Ha0; exact Ha0].
  eapply ssafe_bind with (k2 := 0);
    [eapply ssafe_sopt, parse_call_array_ssafe; [done|by etrans|apply suffix_length in Hsafe; lia]| |lia].
  intros s2 i3 ca Hs2 Hi3 Hl3 Hca.
  eapply ssafe_bind_pure; [apply parse_args_ssafe; [done|done|]|].
  - intros l Hl. eapply flagged_from in Ha; [exact Ha|exact Ho| |exact Hl].
    intros l' b Hb Hob. by eapply counted_from.
  - intros i4 args Hi4 Hargs. apply ssafe_ok; [done|]. cbn.
    split; [by eapply string_with_code_from|]. split; [by eapply string_with_code_from|].
    split; [|exact Hargs].
    eapply flagged_from; [exact Hc|done|]. intros; by eapply string_with_code_from.
Qed.

Lemma parse_method_return_ssafe W fuel root s i :
  inv W s -> i ⊑s W -> 2 * length i + 2 <= fuel ->
  ssafe W i 0 (fun c => message_from W (MMethodReturn c)) (parse_method_return fuel root s i).
Proof.
  intros Hs Hi Hf. unfold parse_method_return.
  eapply ssafe_bind with (k2 := 0); [by apply parse_binary_library_ssafe| |lia].
  intros s1 i1 _ Hs1 Hi1 Hl1 _. assert (i1 ⊑s W) as Hi1W by (by etrans).
  pose proof (method_return_safe i1) as Hsafe.
  destruct (binary_method_return_parse i1) as [i2 c|e|e|p|] eqn:E; try done.
  apply (exact_suffix _ _ W _ _ _ method_return_exact Hi1W) in E
    as (bs & (b1 & b2 & b4 & b5 & _ & Hm & Hc & Ha & ->) & Ho & Hlen).
  cbn [gsafe] in Hsafe. apply occurs_cons in Ho as [Ho _].
  apply occurs_tail in Ho. pose proof (occurs_head _ _ _ Ho) as Ho2.
  apply occurs_tail in Ho. pose proof (occurs_head _ _ _ Ho) as Ho4.
  apply occurs_tail in Ho.
  eapply ssafe_weaken with (i := i2) (k := 0); [|done|apply suffix_length in Hsafe; lia|intros a Ha0; exact Ha0].
  eapply ssafe_bind with (k2 := 0);
    [eapply ssafe_sopt, parse_call_array_ssafe; [done|by etrans|apply suffix_length in Hsafe; lia]| |lia].
  intros s2 i3 ca Hs2 Hi3 Hl3 Hca.
  eapply ssafe_bind_pure; [apply parse_args_ssafe; [done|done|]|].
  - intros l Hl. eapply flagged_from in Ha; [exact Ha|exact Ho| |exact Hl].
    intros l' b Hb Hob. by eapply counted_from.
  - intros i4 args Hi4 Hargs. apply ssafe_ok; [done|]. cbn.
    split; [eapply flagged_from; [exact Hm|done|]; intros v b Hb Hob;
      split; [by eapply value_with_code_from|by eexists]|].
    split; [|exact Hargs].
    eapply flagged_from; [exact Hc|done|]. intros; by eapply string_with_code_from.
Qed.

Lemma parse_remoting_message_ssafe W fuel s :
  inv W s -> 2 * length W + 2 <= fuel ->
  ssafe W W 0 (message_from W) (parse_remoting_message fuel s W).
Proof.
  intros Hs Hf. unfold parse_remoting_message.
  pose proof (header_safe W) as Hsafe.
  destruct (serialization_header_parse W) as [i1 h|e|e|p|]; try done.
  cbn [gsafe] in Hsafe.
  assert (length i1 <= length W) by (by apply suffix_length).
  eapply ssafe_weaken with (i := i1) (k := 0); [|done|lia|intros a Ha0; exact Ha0].
  eapply ssafe_bind with (k2 := 0); [apply parse_referenceables_ssafe; [done|done|lia|lia]| |lia].
  intros s2 i2 _ Hs2 Hi2 Hl2 _. assert (i2 ⊑s W) as Hi2W by (by etrans).
  eapply ssafe_bind with (k2 := 0); [eapply ssafe_sopt with (k := 0) (Q := message_from W)| |lia].
  { unfold parse_method_call_or_return. apply ssafe_alt_mut.
    - eapply ssafe_smap; [apply parse_method_call_ssafe; [done|done|lia]|]. done.
    - intros s3 Hs3. apply ssafe_alt_mut.
      + eapply ssafe_smap; [apply parse_method_return_ssafe; [done|done|lia]|]. done.
      + intros s4 Hs4. by apply ssafe_err. }
  intros s3 i3 m Hs3 Hi3 Hl3 Hm. assert (i3 ⊑s W) as Hi3W by (by etrans).
  eapply ssafe_bind with (k2 := 0); [apply parse_referenceables_ssafe; [done|done|lia|lia]| |lia].
  intros s4 i4 _ Hs4 Hi4 Hl4 _.
  pose proof (message_end_safe i4) as Hme.
  destruct (message_end i4) as [i5 u|e|e|p|]; try done.
  cbn [gsafe] in Hme. assert (length i5 <= length i4) by (by apply suffix_length).
  destruct i5 as [|b i5]; [|by apply ssafe_err].
  destruct m as [m|].
  { split; [done|]. cbn [snd]. split; [done|]. split; [lia|]. by apply Hm. }
  destruct (sh_root_id h) as [root|].
  - destruct (st_objects s4 !! root) as [v|] eqn:Ev; [|by apply ssafe_err].
    split; [by apply inv_delete|]. cbn [snd]. split; [done|]. split; [lia|]. cbn.
    apply (inv_objects W s4 Hs4) in Ev as (_ & ? & ?). by auto.
  - split; [done|]. cbn [snd]. split; [done|]. split; [lia|]. split; [constructor|by right].
Qed.

End with_decimal.

Section top.
Context {DL : DecimalLib}.

Lemma inv_init W : inv ∅ W init_state.
Proof.
  split; [done|set_solver| |]; intros id v H; simpl in H; by rewrite lookup_empty in H.
Qed.

(** The whole story about [deserialize]. *)
Theorem deserialize_safe W :
  match deserialize W with
  | POk m => message_from W m
  | PErr e => e_input e ⊑s W
  | PPanic p => panic_ok W p
  | PDiverge => False
  end.
Proof.
  unfold deserialize. pose proof (parse_remoting_message_ssafe ∅ W (2 * length W + 2) init_state) as H.
  destruct H as [_ H]; [apply inv_init|done|].
  destruct (parse_remoting_message _ _ _).2 as [rest m|e|e|p|]; try done.
  by destruct H as (_ & _ & H).
Qed.

End top.
