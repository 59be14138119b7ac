(** * PropsH: C47, C49-C53, deserialisation into structs, maps and other types. *)
From stdpp Require Import sorting.
From Verif Require Import Base Utf8 Value DataTypes Records Parser Wire BaseLemmas Utf8Lemmas Spec Safety PropsA
  Serde SerdeLemmas SerdeSpec PropsG.
From Coq Require Import Lia.
From Coq Require Strings.String.
Import String.StringSyntax.

Lemma Forall2_impl_in {A B} (P Q : A -> B -> Prop) l k :
  Forall2 P l k -> (forall x y, x ∈ l -> y ∈ k -> P x y -> Q x y) -> Forall2 Q l k.
Proof.
  induction 1 as [|x y l k Hxy H IH]; intros HPQ; constructor.
  - apply HPQ; [by left|by left|done].
  - apply IH. intros x' y' Hx Hy. apply HPQ; by right.
Qed.

Section with_libs.
Context {DL : DecimalLib} {FL : FloatLib}.

Lemma sres_eq {A} (r1 r2 : sres A) : (forall a, r1 = SOk a <-> r2 = SOk a) -> r1 = r2.
Proof.
  intros H. destruct r1 as [a|]; [symmetry; by apply H|]. destruct r2 as [a|]; [by apply H|done].
Qed.

(** ** Structs *)

Lemma struct_loop_sound fs ma m m' : NoDup (map fst ma) -> (forall k, k ∈ map fst ma -> hm_get k m = None) ->
  struct_loop fs ma m = SOk m' ->
  (forall k d, (k, d) ∈ ma -> match hm_get k fs with
     | Some t => exists v, d t = SOk v /\ hm_get k m' = Some v
     | None => exists v, d T_ignored = SOk v end)
  /\ (forall k, k ∉ map fst ma -> hm_get k m' = hm_get k m).
Proof.
  revert m. induction ma as [|[k d] ma IH]; intros m Hn Hm; cbn [struct_loop].
  - intros [= <-]. split; [by intros k d ?%elem_of_nil|done].
  - cbn [map fst] in Hn. apply NoDup_cons in Hn as [Hk Hn].
    destruct (hm_get k fs) as [t|] eqn:Ef.
    + rewrite Hm by (left; done). rewrite sres_bind_ok. intros (v & Hv & H).
      apply IH in H as [H1 H2]; [|done|].
      * split.
        -- intros k' d' [[= -> ->]|Hin]%elem_of_cons; [|by apply H1]. rewrite Ef. exists v. split; [done|].
           rewrite H2 by done. cbn. unfold str_eqb. by rewrite bool_decide_true.
        -- intros k' [Hk1 Hk2]%not_elem_of_cons. rewrite H2 by done. cbn. unfold str_eqb. by rewrite bool_decide_false.
      * intros k' Hk'. cbn. unfold str_eqb. rewrite bool_decide_false by (intros ->; done). apply Hm. by right.
    + rewrite sres_bind_ok. intros (v & Hv & H). apply IH in H as [H1 H2]; [|done|intros k' Hk'; apply Hm; by right].
      split.
      * intros k' d' [[= -> ->]|Hin]%elem_of_cons; [|by apply H1]. rewrite Ef. by exists v.
      * intros k' [Hk1 Hk2]%not_elem_of_cons. by apply H2.
Qed.
Lemma struct_loop_complete fs ma m : NoDup (map fst ma) -> (forall k, k ∈ map fst ma -> hm_get k m = None) ->
  (forall k d, (k, d) ∈ ma -> exists v, d (default T_ignored (hm_get k fs)) = SOk v) ->
  exists m', struct_loop fs ma m = SOk m'.
Proof.
  revert m. induction ma as [|[k d] ma IH]; intros m Hn Hm Ha; cbn [struct_loop]; [by exists m|].
  cbn [map fst] in Hn. apply NoDup_cons in Hn as [Hk Hn].
  destruct (Ha k d) as [v Hv]; [by left|].
  destruct (hm_get k fs) as [t|] eqn:Ef; cbn [default from_option] in Hv; unfold id in Hv.
  - rewrite Hm by (left; done). rewrite Hv. cbn [sres_bind]. apply IH; [done| |intros k' d' Hin; apply Ha; by right].
    intros k' Hk'. cbn. unfold str_eqb. rewrite bool_decide_false by (intros ->; done). apply Hm. by right.
  - rewrite Hv. cbn [sres_bind]. apply IH; [done| |intros k' d' Hin; apply Ha; by right].
    intros k' Hk'. apply Hm. by right.
Qed.
Lemma struct_build_ok fs m l : struct_build fs m = SOk l <->
  exists ds, l = zip (map fst fs) ds /\
    Forall2 (fun kt d => match hm_get kt.1 m with Some v => d = v | None => missing_field kt.2 = SOk d end) fs ds.
Proof.
  revert l. induction fs as [|[k t] fs IH]; intros l; cbn [struct_build].
  - split; [intros [= <-]; exists []; split; [done|constructor]|]. intros (ds & -> & H). by inversion H.
  - rewrite sres_bind_ok. split.
    + intros (v & Hv & H). rewrite sres_bind_ok in H. destruct H as (l' & H1 & [= <-]).
      apply IH in H1 as (ds & -> & H1). exists (v :: ds). split; [done|]. constructor; [|done].
      cbn [fst snd]. destruct (hm_get k m); congruence.
    + intros (ds & -> & H). inversion H as [|? v ? ds' Hv Hds]; subst. cbn [fst snd] in Hv. exists v. split.
      * destruct (hm_get k m); congruence.
      * rewrite sres_bind_ok. eexists. split; [apply IH; by exists ds'|done].
Qed.

(** ** C47 Structs are read by member name *)

(** The value of the field [k] of type [t]: that of the member [k], or [None] if there is none and
    the field is optional. *)
Definition field_from (ms : list (str * value)) (kt : str * target) (d : data) : Prop :=
  (exists v, (kt.1, v) ∈ ms /\ value_deserialize v kt.2 = SOk d)
  \/ (kt.1 ∉ map fst ms /\ (exists t, kt.2 = T_option t) /\ d = D_none).

Lemma entries_names f ms : map fst (entries f ms) = map fst ms.
Proof. unfold entries. rewrite map_map. by apply map_ext. Qed.
Lemma entries_in f ms k d : (k, d) ∈ entries f ms <-> exists v, d = f v /\ (k, v) ∈ ms.
Proof.
  unfold entries. rewrite elem_of_list_fmap. split.
  - intros ([k' v] & [= -> ->] & H). eauto.
  - intros (v & -> & H). by exists (k, v).
Qed.
Lemma visit_map_struct fs ms d : NoDup (map fst ms) -> NoDup (map fst fs) ->
  visit_map (T_struct fs) (entries value_deserialize ms) = SOk d <->
  (exists ds, d = D_struct (zip (map fst fs) ds) /\ Forall2 (field_from ms) fs ds)
  /\ forall k v, (k, v) ∈ ms -> k ∉ map fst fs -> exists d', value_deserialize v T_ignored = SOk d'.
Proof.
  intros Hms Hfs. cbn [visit_map]. rewrite sres_bind_ok.
  assert (NoDup (map fst (entries value_deserialize ms))) as Hn by (by rewrite entries_names).
  split.
  - intros (m & Hm & H). rewrite sres_bind_ok in H. destruct H as (l & Hl & [= <-]).
    apply struct_loop_sound in Hm as [H1 H2]; [|done|done].
    apply struct_build_ok in Hl as (ds & -> & Hds). split.
    + exists ds. split; [done|]. eapply Forall2_impl_in; [exact Hds|]. intros [k t] d Hin _. cbn [fst snd].
      destruct (decide (k ∈ map fst ms)) as [Hk|Hk].
      * apply elem_of_list_fmap in Hk as ([k' v] & E & Hv). cbn in E. subst k'.
        specialize (H1 k (value_deserialize v)). rewrite entries_in in H1.
        rewrite (proj2 (hm_get_nodup k fs t Hfs)) in H1 by done. destruct H1 as (x & Hx & ->); [eauto|].
        intros ->. left. exists v. done.
      * rewrite H2 by (by rewrite entries_names). cbn [hm_get]. intros Hd. right. split; [done|].
        cbn [fst snd]. destruct t; try done. injection Hd as <-. eauto.
    + intros k v Hin Hk. specialize (H1 k (value_deserialize v)). rewrite entries_in in H1.
      apply hm_get_none in Hk. rewrite Hk in H1. apply H1. eauto.
  - intros [(ds & -> & Hds) Hunk].
    assert (forall k t, (k, t) ∈ fs -> exists d, field_from ms (k, t) d) as Hf.
    { intros k t Hin. apply elem_of_list_lookup in Hin as [j Hj].
      destruct (Forall2_lookup_l _ _ _ _ _ Hds Hj) as (d & _ & H). by exists d. }
    destruct (struct_loop_complete fs (entries value_deserialize ms) []) as [m Hm]; [done|done| |].
    { intros k d (v & -> & Hin)%entries_in. destruct (hm_get k fs) as [t|] eqn:Ef.
      - cbn. apply hm_get_in in Ef. destruct (Hf k t Ef) as [d [(v' & Hv' & H)|(Hk & _)]].
        + exists d. cbn [fst snd] in *. assert (v' = v) as ->; [|done].
          apply (hm_get_nodup k ms) in Hv', Hin; [|done..]. congruence.
        + destruct Hk. cbn [fst]. change k with (fst (k, v)). by apply elem_of_list_fmap_1.
      - cbn. apply (Hunk k v Hin). by apply hm_get_none. }
    exists m. split; [done|]. apply struct_loop_sound in Hm as [H1 H2]; [|done|done].
    rewrite sres_bind_ok. eexists. split; [|done]. apply struct_build_ok. exists ds. split; [done|].
    eapply Forall2_impl_in; [exact Hds|]. intros [k t] d Hin _. cbn [fst snd].
    intros [(v & Hv & H)|(Hk & [t' Ht] & ->)]; cbn [fst snd] in *.
    + specialize (H1 k (value_deserialize v)). rewrite entries_in in H1.
      rewrite (proj2 (hm_get_nodup k fs t Hfs)) in H1 by done. destruct H1 as (x & Hx & ->); [eauto|]. congruence.
    + rewrite H2 by (by rewrite entries_names). cbn [hm_get]. by rewrite Ht.
Qed.

Theorem C47_struct_value : forall class library ms fs d, NoDup (map fst ms) -> NoDup (map fst fs) ->
  value_deserialize (VObject (mkObj class library ms)) (T_struct fs) = SOk d <->
  (exists ds, d = D_struct (zip (map fst fs) ds) /\ Forall2 (field_from ms) fs ds)
  /\ forall k v, (k, v) ∈ ms -> k ∉ map fst fs -> exists d', value_deserialize v T_ignored = SOk d'.
Proof. intros class library ms fs d H1 H2. rewrite value_deserialize_eq. by apply visit_map_struct. Qed.
Theorem C47_struct : forall W class library ms fs d,
  deserialize W = POk (MValue (VObject (mkObj class library ms))) -> NoDup (map fst fs) ->
  from_slice (T_struct fs) W = FOk d <->
  (exists ds, d = D_struct (zip (map fst fs) ds) /\ Forall2 (field_from ms) fs ds)
  /\ forall k v, (k, v) ∈ ms -> k ∉ map fst fs -> exists d', value_deserialize v T_ignored = SOk d'.
Proof.
  intros W class library ms fs d HW Hfs. rewrite (slice_value (T_struct fs) _ _ ltac:(done) HW).
  apply C47_struct_value; [|done].
  pose proof (C11_values_in_range W _ (VObject (mkObj class library ms)) HW) as H. apply H.
  exists (VObject (mkObj class library ms)). split; [by left|constructor].
Qed.
(** A missing field that is not optional. *)
Theorem C47_missing_field : forall W class library ms fs k t,
  deserialize W = POk (MValue (VObject (mkObj class library ms))) -> NoDup (map fst fs) ->
  (k, t) ∈ fs -> k ∉ map fst ms -> (forall u, t <> T_option u) -> from_slice (T_struct fs) W = FErr.
Proof.
  intros W class library ms fs k t HW Hfs Hin Hk Ht.
  destruct (from_slice (T_struct fs) W) as [d|e| |p|] eqn:E; try done.
  - exfalso. apply (C47_struct W class library ms fs d HW Hfs) in E as [(ds & _ & Hds) _].
    apply elem_of_list_lookup in Hin as [j Hj].
    destruct (Forall2_lookup_l _ _ _ _ _ Hds Hj) as (d' & _ & [(v & Hv & _)|(_ & [u Hu] & _)]).
    + destruct Hk. cbn in Hv. change k with (fst (k, v)). by apply elem_of_list_fmap_1.
    + by apply (Ht u).
  - unfold from_slice in E. rewrite HW in E. by case_match.
  - unfold from_slice in E. rewrite HW in E. by case_match.
  - unfold from_slice in E. rewrite HW in E. by case_match.
Qed.

(** ** What can be ignored *)

(** Not one of the system classes with a fixed layout. *)
Definition ordinary (class : str) (library : option str) : Prop :=
  library <> None \/ (~ is_wrapper_class class /\ ~ is_list_class class).
(** A value all of whose system objects have their layout. *)
Inductive ignorable : value -> Prop :=
| Ig_scalar v : match v with VObject _ | VArray _ => False | _ => True end -> ignorable v
| Ig_array vs : Forall ignorable vs -> ignorable (VArray vs)
| Ig_object class library ms : ordinary class library -> Forall (fun kv => ignorable kv.2) ms ->
    ignorable (VObject (mkObj class library ms))
| Ig_wrapper name prim class v d : (name, prim) ∈ wrapper_classes -> is_class name class ->
    value_deserialize v prim = SOk d -> ignorable (VObject (mkObj class None [(lit "m_value", v)]))
| Ig_list class ms items size version : is_list_class class -> list_members items size version ms ->
    Forall ignorable (take (N.to_nat (i32_as_usize size)) items) ->
    (i32_as_usize size <= N.of_nat (length items) + 1)%N -> ignorable (VObject (mkObj class None ms)).

Lemma ignore_loop_ok ma : ignore_loop ma = SOk tt <-> Forall (fun kd => exists d, kd.2 T_ignored = SOk d) ma.
Proof.
  induction ma as [|[k d] ma IH]; cbn; [split; [constructor|done]|].
  rewrite Forall_cons, <- IH, sres_bind_ok. split; [intros (v & H1 & H2); eauto|intros [[v H1] H2]; eauto].
Qed.
Lemma all_de_exists t vs : (exists ds, all_de t (map value_deserialize vs) = SOk ds)
  <-> Forall (fun v => exists d, value_deserialize v t = SOk d) vs.
Proof.
  split.
  - intros [ds H%all_de_map]. induction H; constructor; eauto.
  - intros H. assert (exists ds, Forall2 (fun v d => value_deserialize v t = SOk d) vs ds) as [ds Hds].
    { induction H as [|v vs [d Hd] H [ds IH]]; [by exists []|]. exists (d :: ds). by constructor. }
    exists ds. by apply all_de_map.
Qed.
Lemma wrapper_class_type class : is_wrapper_class class <-> exists t, hm_get (class_name class) wrapper_classes = Some t.
Proof.
  split.
  - intros (name & v & Hw & Hc). destruct (wraps_class _ _ Hw) as (t & Hin & _). exists t. by eapply wrapper_get.
  - intros [t H%hm_get_in]. pose proof (class_name_cases class) as Hc.
    assert (exists v, wraps (class_name class) v) as [v Hv]; [|by exists (class_name class), v].
    unfold wrapper_classes in H.
    repeat (apply elem_of_cons in H as [[= -> ->]|H]; [first [by exists (VBoolean true); constructor|by exists (VByte 0); constructor|by exists (VSByte 0); constructor
      |by exists (VChar 0); constructor|by exists (VDouble 0); constructor|by exists (VSingle 0); constructor
      |by exists (VInt32 0); constructor|by exists (VUInt32 0); constructor|by exists (VInt64 0); constructor
      |by exists (VUInt64 0); constructor|by exists (VInt16 0); constructor|by exists (VUInt16 0); constructor]|]).
    by apply elem_of_nil in H.
Qed.

Lemma ordinary_any f class library ms t : ordinary class library ->
  value_deserialize_any f (VObject (mkObj class library ms)) t = visit_map t (entries f ms).
Proof.
  intros H. cbn [value_deserialize_any]. unfold object_deserialize_any. destruct library as [l|]; [done|].
  destruct H as [H|[H1 H2]]; [done|]. rewrite wrapper_class_type in H1.
  destruct (hm_get (class_name class) wrapper_classes) as [prim|]; [destruct H1; eauto|].
  unfold str_eqb. case_bool_decide as E; [|done]. destruct H2. unfold is_list_class. rewrite <- E. apply class_name_cases.
Qed.
(** An object of a class from a library is none of the wrappers, whatever its class is called. *)
Fixpoint scalar_target (t : target) : Prop :=
  match t with
  | T_bool | T_int _ | T_f32 | T_f64 | T_char | T_string | T_str | T_bytes => True
  | T_option t => scalar_target t
  | _ => False
  end.
Theorem C41_library_classes_rejected : forall class lib ms t, scalar_target t ->
  value_deserialize (VObject (mkObj class (Some lib) ms)) t = SErr.
Proof.
  intros class lib ms t Ht. induction t; try done; try (rewrite any_type by done; by rewrite ordinary_any by (by left)).
  rewrite value_deserialize_eq. cbn [value_deserialize_option visit_some]. by rewrite IHt.
Qed.
Theorem C41_library_classes_rejected_slice : forall class lib ms t W, scalar_target t ->
  deserialize W = POk (MValue (VObject (mkObj class (Some lib) ms))) -> from_slice t W = FErr.
Proof.
  intros class lib ms t W Ht HW. unfold from_slice. rewrite HW. cbn [message_deserialize].
  destruct t; try done; by rewrite ordinary_any by (by left).
Qed.
Lemma class_cases class library : ordinary class library \/ (library = None /\
  ((exists name prim, (name, prim) ∈ wrapper_classes /\ is_class name class) \/ is_list_class class)).
Proof.
  destruct library as [l|]; [by left; left|].
  destruct (hm_get (class_name class) wrapper_classes) as [prim|] eqn:E.
  { right. split; [done|]. left. exists (class_name class), prim. split; [by apply hm_get_in|apply class_name_cases]. }
  destruct (decide (class_name class = lit "System.Collections.Generic.List")) as [El|El].
  { right. split; [done|]. right. unfold is_list_class. rewrite <- El. apply class_name_cases. }
  left. right. split.
  - rewrite wrapper_class_type. intros [t Ht]. congruence.
  - intros Hc. apply class_name_iff in Hc; [done|]. apply (bool_decide_unpack _). vm_compute. exact I.
Qed.

Lemma list_members_cases ms : NoDup (map fst ms) ->
  (exists items size version, list_members items size version ms)
  \/ (forall items size version, ~ list_members items size version ms).
Proof.
  intros Hn.
  destruct (decide (length ms = 3)) as [Hl|Hl];
    [|right; intros i z v H; by apply list_members_get in H as (_ & _ & _ & ?)].
  destruct (hm_get (lit "_items") ms) as [w|] eqn:E1;
    [|right; intros i z v H; apply list_members_get in H as (? & _); congruence].
  destruct (hm_get (lit "_size") ms) as [w2|] eqn:E2;
    [|right; intros i z v H; apply list_members_get in H as (_ & ? & _); congruence].
  destruct (hm_get (lit "_version") ms) as [w3|] eqn:E3;
    [|right; intros i z v H; apply list_members_get in H as (_ & _ & ? & _); congruence].
  assert ((exists items z ver, w = VArray items /\ w2 = VInt32 z /\ w3 = VInt32 ver)
    \/ (forall items z ver, ~ (w = VArray items /\ w2 = VInt32 z /\ w3 = VInt32 ver))) as [(items & z & ver & -> & -> & ->)|Hno].
  { destruct w; try (right; by intros ? ? ? (? & _)). destruct w2; try (right; by intros ? ? ? (_ & ? & _)).
    destruct w3; try (right; by intros ? ? ? (_ & _ & ?)). left. eauto 7. }
  - left. exists items, z, ver. unfold list_members. symmetry. apply hm_get_in in E1, E2, E3.
    apply submseteq_Permutation_length_eq; [cbn [length]; lia|].
    apply NoDup_submseteq.
    + apply (NoDup_fmap_1 fst). cbn. apply (bool_decide_unpack _). vm_compute. exact I.
    + intros x. rewrite !elem_of_cons, elem_of_nil. by intros [-> | [-> | [-> | []]]].
  - right. intros i z v H. apply list_members_get in H as (H1 & H2 & H3 & _). apply (Hno i z v). split_and!; congruence.
Qed.
Lemma list_members_same items size version items' size' version' ms :
  list_members items size version ms -> list_members items' size' version' ms ->
  items = items' /\ size = size' /\ version = version'.
Proof. intros (H1 & H2 & H3 & _)%list_members_get (G1 & G2 & G3 & _)%list_members_get. split_and!; congruence. Qed.

Lemma elem_of_take_in {A} n (l : list A) x : x ∈ take n l -> x ∈ l.
Proof. intros (j & H & _)%elem_of_take. by eapply elem_of_list_lookup_2. Qed.
Lemma list_items_in items size version ms : list_members items size version ms -> (lit "_items", VArray items) ∈ ms.
Proof. intros H. unfold list_members in H. rewrite H. by left. Qed.
Lemma ignored_items items size version class library ms :
  list_members items size version ms ->
  Forall (fun kv => distinct_names kv.2) ms ->
  (forall w, below w (VObject (mkObj class library ms)) -> distinct_names w ->
    (exists d, value_deserialize w T_ignored = SOk d) <-> ignorable w) ->
  forall v, v ∈ items -> (exists d, value_deserialize v T_ignored = SOk d) <-> ignorable v.
Proof.
  intros Hms Hd IH v Hv. apply list_items_in in Hms. apply IH; [by eapply below_item|].
  rewrite Forall_forall in Hd. specialize (Hd _ Hms). cbn [snd] in Hd.
  inversion Hd as [|? Hvs|? Hf]; subst; [|done]. rewrite Forall_forall in Hvs. by apply Hvs.
Qed.

(** [IgnoredAny] reads exactly the values all of whose system objects have their layout. *)
Theorem ignored_iff : forall v, distinct_names v ->
  (exists d, value_deserialize v T_ignored = SOk d) <-> ignorable v.
Proof.
  intros v. induction v as [v IH] using value_below_ind; intros Hdn.
  destruct Hdn as [o Hn Hd|vs Hd|v Hv].
  - destruct o as [class library ms]. cbn [obj_members] in *. rewrite any_type by done.
    assert (Forall (fun kv => (exists d, value_deserialize kv.2 T_ignored = SOk d) <-> ignorable kv.2) ms) as IH'.
    { rewrite Forall_forall in Hd. apply Forall_forall. intros [k v] Hin. apply IH; [by eapply below_member|]. by apply (Hd (k, v)). }
    destruct (class_cases class library) as [Ho|(-> & [(name & prim & Hin & Hc)|Hc])].
    + rewrite ordinary_any by done. cbn [visit_map].
      transitivity (ignore_loop (entries value_deserialize ms) = SOk tt).
      { destruct (ignore_loop _) as [[]|]; cbn; [|by split; [intros [? ?]|]]. split; [done|]. intros _. by exists D_ignored. }
      rewrite ignore_loop_ok. unfold entries. rewrite Forall_fmap.
      transitivity (Forall (fun kv : str * value => ignorable kv.2) ms).
      { rewrite !Forall_forall in *. split; intros H kv Hkv; apply (IH' kv Hkv); by apply H. }
      split; [by apply Ig_object|]. inversion 1; subst; try done.
      * destruct Ho as [Ho|[Ho _]]; [done|]. destruct Ho. apply wrapper_class_type. eexists. by eapply wrapper_get.
      * destruct Ho as [Ho|[_ Ho]]; done.
    + destruct (one_member ms) as [[v ->]|Hno].
      * rewrite (any_wrapper _ _ _ _ _ _ Hin Hc).
        transitivity (exists d, value_deserialize v prim = SOk d).
        { split.
          - intros [d H]. rewrite sres_bind_ok in H. destruct H as (x & Hx & _). eauto.
          - intros [d H]. rewrite H. cbn [sres_bind]. pose proof (scalar_result _ _ _ (wrapper_scalar _ _ Hin) H) as Hs.
            destruct d; try (exists D_ignored; done); by destruct prim. }
        split; [intros [d H]; by eapply Ig_wrapper|]. inversion 1 as [? Hf| |? ? ? Ho|name' prim' ? ? d Hin' Hc' Hd'|? ? items size ver Hc' Hms]; subst; [done|..].
        -- exfalso. destruct Ho as [Ho|[Ho _]]; [done|]. destruct Ho. apply wrapper_class_type. eexists. by eapply wrapper_get.
        -- exists d. pose proof (wrapper_get _ _ _ Hin Hc). pose proof (wrapper_get _ _ _ Hin' Hc'). congruence.
        -- apply list_members_get in Hms as (_ & _ & _ & ?). done.
      * rewrite (any_wrapper_other _ _ _ _ _ _ Hin Hc Hno). split; [by intros [? ?]|].
        inversion 1 as [? Hf| |? ? ? Ho|name' prim' ? ? d Hin' Hc' Hd'|? ? items size ver Hc' Hms]; subst; [done|..].
        -- exfalso. destruct Ho as [Ho|[Ho _]]; [done|]. destruct Ho. apply wrapper_class_type. eexists. by eapply wrapper_get.
        -- by destruct (Hno v).
        -- apply list_class_get in Hc' as [Hc' _]. rewrite (wrapper_get _ _ _ Hin Hc) in Hc'. done.
    + assert (forall name prim, (name, prim) ∈ wrapper_classes -> is_class name class -> False) as Hnw.
      { intros name prim Hin Hc'. apply list_class_get in Hc as [Hc _]. by rewrite (wrapper_get _ _ _ Hin Hc') in Hc. }
      split.
      * intros [d H].
        destruct (list_members_cases ms Hn) as [(items & z & ver & Hms)|Hno].
        2:{ pose proof (C44_other_members_rejected class ms T_ignored Hc I Hn Hno) as H'.
            rewrite any_type in H' by done. congruence. }
        rewrite (any_list _ _ _ _ _ _ _ Hc Hms) in H. rewrite list_ignored, map_length in H.
        assert (forall v, v ∈ items -> (exists d, value_deserialize v T_ignored = SOk d) <-> ignorable v) as IHi.
        { by eapply ignored_items. }
        destruct (N.leb_spec (i32_as_usize z) (N.of_nat (length items))) as [Hl|Hl].
        -- eapply Ig_list; [done|done| |lia].
           change (map value_deserialize items) with (value_deserialize <$> items) in H. rewrite <- fmap_take in H.
           apply sres_map_ok in H as (ds & H & _).
           pose proof (proj1 (all_de_exists T_ignored _) (ex_intro _ ds H)) as Ha.
           rewrite Forall_forall in Ha |- *. intros v Hv. apply IHi; [|by apply Ha]. by eapply elem_of_take_in.
        -- destruct (N.eqb_spec (i32_as_usize z) (N.of_nat (length items) + 1)) as [El|]; [|done].
           eapply Ig_list; [done|done| |lia].
           rewrite take_ge by lia. apply sres_map_ok in H as (ds & H & _).
           pose proof (proj1 (all_de_exists T_ignored _) (ex_intro _ ds H)) as Ha.
           rewrite Forall_forall in Ha |- *. intros v Hv. apply IHi; [done|by apply Ha].
      * inversion 1 as [? Hf| |? ? ? Ho|name' prim' ? ? d Hin' Hc' Hd'|? ? items size ver Hc' Hms Hit Hsz]; subst; [done|..].
        -- destruct Ho as [Ho|[_ Ho]]; done.
        -- by destruct (Hnw _ _ Hin' Hc').
        -- rewrite (any_list _ _ _ _ _ _ _ Hc Hms), list_ignored, map_length.
           assert (forall v, v ∈ items -> (exists d, value_deserialize v T_ignored = SOk d) <-> ignorable v) as IHi.
           { by eapply ignored_items. }
           destruct (N.leb_spec (i32_as_usize size) (N.of_nat (length items))) as [Hl|Hl].
           ++ change (map value_deserialize items) with (value_deserialize <$> items). rewrite <- fmap_take.
              destruct (proj2 (all_de_exists T_ignored (take (N.to_nat (i32_as_usize size)) items))) as [ds Hds].
              { rewrite Forall_forall in Hit |- *. intros v Hv. apply IHi; [|by apply Hit]. by eapply elem_of_take_in. }
              exists D_ignored. apply sres_map_ok. by exists ds.
           ++ destruct (N.eqb_spec (i32_as_usize size) (N.of_nat (length items) + 1)) as [El|]; [|lia].
              rewrite take_ge in Hit by lia.
              destruct (proj2 (all_de_exists T_ignored items)) as [ds Hds].
              { rewrite Forall_forall in Hit |- *. intros v Hv. apply IHi; [done|by apply Hit]. }
              exists D_ignored. apply sres_map_ok. by exists ds.
  - rewrite any_type by done. rewrite any_array_ignored. split.
    + intros [d H]. apply sres_map_ok in H as (ds & H & _). apply Ig_array.
      pose proof (proj1 (all_de_exists T_ignored _) (ex_intro _ ds H)) as Ha. rewrite Forall_forall in Ha, Hd |- *.
      intros v Hv. apply IH; [by apply below_element|by apply Hd|by apply Ha].
    + inversion 1 as [? Hf|? Hvs| | |]; subst; [done|].
      destruct (proj2 (all_de_exists T_ignored vs)) as [ds Hds].
      { rewrite Forall_forall in Hvs, Hd |- *. intros v Hv. apply IH; [by apply below_element|by apply Hd|by apply Hvs]. }
      exists D_ignored. apply sres_map_ok. by exists ds.
  - rewrite any_type by done. split; [intros _; by apply Ig_scalar|]. intros _. exists D_ignored. by destruct v.
Qed.

Lemma range_distinct v : (forall w, sub_value w v -> in_type_range w) -> distinct_names v.
Proof.
  induction v as [o IH|vs IH|v Hv] using value_ind'; intros H.
  - apply DN_object; [apply (H (VObject o)); constructor|]. rewrite Forall_forall in IH |- *.
    intros [k v] Hin. apply (IH _ Hin). intros w Hw. apply H. by eapply sub_member.
  - apply DN_array. rewrite Forall_forall in IH |- *. intros v Hin. apply (IH _ Hin). intros w Hw. apply H. by eapply sub_element.
  - by apply DN_other.
Qed.
Lemma parsed_distinct W v : deserialize W = POk (MValue v) -> distinct_names v.
Proof.
  intros H. apply range_distinct. intros w Hw. apply (C11_values_in_range W _ w H). exists v. split; [by left|done].
Qed.
(** Unknown members are ignored if they are well-formed: *)
Theorem C47_unknown_members : forall W class library ms fs d,
  deserialize W = POk (MValue (VObject (mkObj class library ms))) -> NoDup (map fst fs) ->
  from_slice (T_struct fs) W = FOk d <->
  (exists ds, d = D_struct (zip (map fst fs) ds) /\ Forall2 (field_from ms) fs ds)
  /\ forall k v, (k, v) ∈ ms -> k ∉ map fst fs -> ignorable v.
Proof.
  intros W class library ms fs d HW Hfs. rewrite (C47_struct W class library ms fs d HW Hfs).
  pose proof (parsed_distinct _ _ HW) as Hd. inversion Hd as [? Hn Hms| |? Hf]; subst; [|done].
  cbn [obj_members] in *. rewrite Forall_forall in Hms.
  split; intros [H1 H2]; (split; [done|]); intros k v Hin Hk; apply (ignored_iff v (Hms (k, v) Hin)); by eapply H2.
Qed.
(** An object A { x: 5, y: a System.Boolean without m_value }. *)
Definition ex_unknown : bytes :=
  header_bytes 1 (-1) ++ bs_of [2; 1;0;0;0; 1;65; 2;0;0;0; 1;120; 1;121]%N
  ++ bs_of [8; 8; 5;0;0;0]%N ++ bs_of [2; 2;0;0;0]%N ++ ex_lps (lit "System.Boolean") ++ bs_of [1;0;0;0; 1;118; 10; 11]%N.
Definition ex_unknown_members : list (str * value) :=
  [(lit "x", VInt32 5); (lit "y", VObject (mkObj (lit "System.Boolean") None [(lit "v", VNull)]))].
Example C47_ex_unknown : deserialize ex_unknown = POk (MValue (VObject (mkObj (lit "A") None ex_unknown_members)))
  /\ from_slice (T_struct [(lit "x", T_int I32)]) ex_unknown = FErr.
Proof. split; vm_compute; reflexivity. Qed.
Theorem C47_unknown_members_refuted : ~ forall W class library ms fs ds,
  deserialize W = POk (MValue (VObject (mkObj class library ms))) -> NoDup (map fst fs) ->
  Forall2 (field_from ms) fs ds -> from_slice (T_struct fs) W = FOk (D_struct (zip (map fst fs) ds)).
Proof.
  intros H. destruct C47_ex_unknown as [H1 H2].
  specialize (H ex_unknown (lit "A") None ex_unknown_members [(lit "x", T_int I32)] [D_int 5] H1).
  rewrite H2 in H. discriminate H.
  - apply NoDup_singleton.
  - constructor; [|constructor]. left. exists (VInt32 5). split; [by left|done].
Qed.
(** An object A { y: "s", x: 5 } read as struct { x: u8, z: Option<i32>, y: String }. *)
Definition ex_struct : bytes :=
  header_bytes 1 (-1) ++ bs_of [2; 1;0;0;0; 1;65; 2;0;0;0; 1;121; 1;120]%N
  ++ bs_of [6; 2;0;0;0; 1;115]%N ++ bs_of [8; 8; 5;0;0;0; 11]%N.
Definition ex_struct_fields : list (str * target) :=
  [(lit "x", T_int U8); (lit "z", T_option (T_int I32)); (lit "y", T_string)].
Example C47_ex :
  deserialize ex_struct = POk (MValue (VObject (mkObj (lit "A") None [(lit "y", VString (lit "s")); (lit "x", VInt32 5)])))
  /\ NoDup (map fst ex_struct_fields)
  /\ from_slice (T_struct ex_struct_fields) ex_struct
     = FOk (D_struct [(lit "x", D_int 5); (lit "z", D_none); (lit "y", D_str (lit "s"))]).
Proof.
  split; [vm_compute; reflexivity|]. split; [|vm_compute; reflexivity].
  apply (bool_decide_unpack _). vm_compute. exact I.
Qed.
Example C47_ex_missing : from_slice (T_struct [(lit "x", T_int U8); (lit "z", T_int I32)]) ex_struct = FErr.
Proof. vm_compute. reflexivity. Qed.

(** ** Sorted maps *)

Lemma str_leb_refl a : str_leb a a = true.
Proof. induction a as [|x a IH]; [done|]. cbn. by rewrite N.eqb_refl. Qed.
Lemma str_leb_lt a b : str_lt a b <-> a <> b /\ str_leb a b = true.
Proof.
  split.
  - intros [(y & t & ->)|(p & x & y & s & t & -> & -> & Hxy)].
    + split.
      * intros E. apply (f_equal length) in E. rewrite app_length in E. cbn in E. lia.
      * induction a as [|x a IH]; [done|]. cbn. by rewrite N.eqb_refl.
    + split.
      * intros E%app_inv_head. injection E as -> _. lia.
      * induction p as [|z p IH]; cbn.
        -- destruct (N.eqb_spec (b2n x) (b2n y)); [lia|]. by apply N.ltb_lt.
        -- by rewrite N.eqb_refl.
  - revert b. induction a as [|x a IH]; intros [|y b]; cbn; intros [Hne H]; try done.
    + left. by exists y, b.
    + destruct (N.eqb_spec (b2n x) (b2n y)) as [E|E].
      * apply b2n_inj in E as ->. destruct (IH b) as [(z & t & ->)|(p & x' & y' & s & t & -> & -> & Hxy)].
        -- split; [congruence|done].
        -- left. by exists z, t.
        -- right. by exists (y :: p), x', y', s, t.
      * right. exists [], x, y, a, b. split_and!; [done..|]. by apply N.ltb_lt.
Qed.
Lemma str_leb_total a b : str_leb a b = false -> str_leb b a = true.
Proof.
  revert b. induction a as [|x a IH]; intros [|y b]; cbn; try done.
  destruct (N.eqb_spec (b2n x) (b2n y)) as [E|E].
  - rewrite <- E, N.eqb_refl. apply IH.
  - destruct (N.eqb_spec (b2n y) (b2n x)); [lia|]. rewrite N.ltb_ge, N.ltb_lt. lia.
Qed.
Lemma str_leb_trans a b c : str_leb a b = true -> str_leb b c = true -> str_leb a c = true.
Proof.
  revert b c. induction a as [|x a IH]; intros [|y b] [|z c]; cbn; try done.
  destruct (N.eqb_spec (b2n x) (b2n y)); destruct (N.eqb_spec (b2n y) (b2n z)); destruct (N.eqb_spec (b2n x) (b2n z));
    rewrite ?N.ltb_lt; try lia; try done. apply IH.
Qed.
Lemma str_leb_antisym a b : str_leb a b = true -> str_leb b a = true -> a = b.
Proof.
  revert b. induction a as [|x a IH]; intros [|y b]; cbn; try done.
  destruct (N.eqb_spec (b2n x) (b2n y)) as [E|E].
  - rewrite <- E, N.eqb_refl. intros H1 H2. apply b2n_inj in E as ->. f_equal. by apply IH.
  - destruct (N.eqb_spec (b2n y) (b2n x)); [lia|]. rewrite !N.ltb_lt. lia.
Qed.
Lemma str_lt_trans a b c : str_lt a b -> str_lt b c -> str_lt a c.
Proof.
  rewrite !str_leb_lt. intros [N1 H1] [N2 H2]. split; [|by eapply str_leb_trans].
  intros ->. apply N1. by apply str_leb_antisym.
Qed.
Lemma str_lt_irrefl a : ~ str_lt a a.
Proof. rewrite str_leb_lt. by intros [? _]. Qed.

Lemma bt_insert_perm {V} k (v : V) m : k ∉ map fst m -> bt_insert k v m ≡ₚ (k, v) :: m.
Proof.
  induction m as [|[k' v'] m IH]; cbn; [done|]. intros [H1 H2]%not_elem_of_cons.
  unfold str_eqb. rewrite bool_decide_false by done. destruct (str_leb k k'); [done|].
  rewrite IH by done. apply Permutation_swap.
Qed.
Lemma bt_insert_sorted {V} k (v : V) m : k ∉ map fst m -> sorted_keys m -> sorted_keys (bt_insert k v m).
Proof.
  unfold sorted_keys. induction m as [|[k' v'] m IH]; cbn.
  - intros _ _. by repeat constructor.
  - intros [H1 H2]%not_elem_of_cons Hs. apply StronglySorted_inv in Hs as [Hs Hf].
    unfold str_eqb. rewrite bool_decide_false by done. destruct (str_leb k k') eqn:E.
    + constructor; [by constructor|]. constructor; [cbn; by apply str_leb_lt|].
      eapply Forall_impl; [exact Hf|]. cbn. intros [k2 v2] Hk2. cbn in *.
      eapply str_lt_trans; [|exact Hk2]. by apply str_leb_lt.
    + constructor; [by apply IH|]. rewrite bt_insert_perm by done. constructor; [|done].
      cbn. apply str_leb_lt. split; [congruence|]. by apply str_leb_total.
Qed.
Lemma sorted_unique {V} (m m' : list (str * V)) : NoDup (map fst m) ->
  sorted_keys m -> sorted_keys m' -> m ≡ₚ m' -> m = m'.
Proof.
  intros Hn Hs Hs' Hp. revert m' Hs' Hp. induction m as [|[k v] m IH]; intros m' Hs' Hp.
  - by apply Permutation_nil_l in Hp as ->.
  - destruct m' as [|[k' v'] m']; [by apply Permutation_nil_r in Hp|].
    apply StronglySorted_inv in Hs as [Hs Hf]. apply StronglySorted_inv in Hs' as [Hs' Hf'].
    rewrite Forall_forall in Hf, Hf'.
    assert ((k, v) = (k', v')) as E.
    { assert ((k, v) ∈ (k', v') :: m') as H1 by (rewrite <- Hp; by left).
      assert ((k', v') ∈ (k, v) :: m) as H2 by (rewrite Hp; by left).
      apply elem_of_cons in H1 as [H1|H1]; [done|]. apply elem_of_cons in H2 as [H2|H2]; [done|].
      specialize (Hf' _ H1). specialize (Hf _ H2). cbn in *. destruct (str_lt_irrefl k). by eapply str_lt_trans. }
    injection E as <- <-. f_equal. apply IH; [|done|done|].
    + cbn in Hn. by apply NoDup_cons in Hn as [_ ?].
    + by apply Permutation_cons_inv in Hp.
Qed.

Lemma map_loop_sound t ma m m' : NoDup (map fst ma) -> (forall k, k ∈ map fst ma -> k ∉ map fst m) -> sorted_keys m ->
  map_loop t ma m = SOk m' ->
  sorted_keys m' /\ exists ds, Forall2 (fun kd d => kd.2 t = SOk d) ma ds /\ m' ≡ₚ zip (map fst ma) ds ++ m.
Proof.
  revert m. induction ma as [|[k d] ma IH]; intros m Hn Hm Hs; cbn [map_loop].
  - intros [= <-]. split; [done|]. exists []. split; [constructor|done].
  - cbn in Hn. apply NoDup_cons in Hn as [Hk Hn]. rewrite sres_bind_ok. intros (v & Hv & H).
    assert (k ∉ map fst m) as Hkm by (apply Hm; by left).
    assert (map fst (bt_insert k v m) ≡ₚ k :: map fst m) as Hp by (by rewrite (bt_insert_perm k v m Hkm)).
    apply IH in H as (H1 & ds & H2 & H3); [|done| |by apply bt_insert_sorted].
    + split; [done|]. exists (v :: ds). split; [by constructor|]. rewrite H3, (bt_insert_perm k v m Hkm). cbn.
      symmetry. apply Permutation_middle.
    + intros k' Hk'. rewrite Hp. intros [->|Hin]%elem_of_cons; [done|]. revert Hin. apply Hm. by right.
Qed.
Lemma map_loop_complete t ma m : Forall (fun kd => exists d, kd.2 t = SOk d) ma -> exists m', map_loop t ma m = SOk m'.
Proof.
  intros H. revert m. induction H as [|[k d] ma [v Hv] H IH]; intros m; cbn [map_loop]; [by exists m|].
  cbn in Hv. rewrite Hv. cbn [sres_bind]. apply IH.
Qed.

(** ** C51 Objects are read into maps by member name *)

Lemma visit_map_map t ms d : NoDup (map fst ms) ->
  visit_map (T_map t) (entries value_deserialize ms) = SOk d <->
  exists m ds, d = D_map m /\ sorted_keys m /\ m ≡ₚ zip (map fst ms) ds
               /\ Forall2 (fun kv d => value_deserialize kv.2 t = SOk d) ms ds.
Proof.
  intros Hn. cbn [visit_map].
  assert (NoDup (map fst (entries value_deserialize ms))) as Hn' by (by rewrite entries_names).
  assert (forall ds, Forall2 (fun kd (d : data) => kd.2 t = SOk d) (entries value_deserialize ms) ds
    <-> Forall2 (fun kv d => value_deserialize kv.2 t = SOk d) ms ds) as Hds by (intros ds; apply Forall2_fmap_l).
  rewrite sres_bind_ok. split.
  - intros (m & H & [= <-]). apply map_loop_sound in H as (H1 & ds & H2 & H3); [|done|intros k _; apply not_elem_of_nil|constructor].
    exists m, ds. rewrite entries_names, app_nil_r in H3. split_and!; try done. by apply Hds.
  - intros (m & ds & -> & Hs & Hp & H). apply Hds in H.
    destruct (map_loop_complete t (entries value_deserialize ms) []) as [m' Hm'].
    { clear -H. revert H. generalize (entries value_deserialize ms). induction 1; constructor; eauto. }
    exists m'. split; [done|]. do 2 f_equal.
    apply map_loop_sound in Hm' as (H1 & ds' & H2 & H3); [|done|intros k _; apply not_elem_of_nil|constructor].
    rewrite entries_names, app_nil_r in H3.
    assert (ds' = ds) as ->.
    { clear -H H2. revert ds H. revert H2. generalize (entries value_deserialize ms). intros ma H2. induction H2 as [|kd d ma ds' H2 _ IH]; intros ds H; inversion H; subst; [done|].
      f_equal; [congruence|by apply IH]. }
    apply sorted_unique; [|done|done|by rewrite H3, Hp].
    assert (map fst m' ≡ₚ map fst (zip (map fst ms) ds)) as -> by (by rewrite H3).
    rewrite fst_zip; [done|]. apply Forall2_length in H2. unfold entries in H2. rewrite !map_length in *. lia.
Qed.
Theorem C51_map : forall W class library ms t d, ordinary class library ->
  deserialize W = POk (MValue (VObject (mkObj class library ms))) ->
  from_slice (T_map t) W = FOk d <->
  exists m ds, d = D_map m /\ sorted_keys m /\ m ≡ₚ zip (map fst ms) ds
               /\ Forall2 (fun kv d => value_deserialize kv.2 t = SOk d) ms ds.
Proof.
  intros W class library ms t d Ho HW. rewrite (slice_value (T_map t) _ _ ltac:(done) HW).
  rewrite any_type by done. rewrite ordinary_any by done. apply visit_map_map.
  pose proof (parsed_distinct _ _ HW) as Hd. by inversion Hd as [? Hn Hms| |? Hf]; subst.
Qed.
(** A class System.Int32 from a library. *)
Definition ex_library_int32 : bytes :=
  header_bytes 1 (-1) ++ bs_of [12; 2;0;0;0; 1;76; 5; 1;0;0;0; 12]%N ++ lit "System.Int32"
  ++ bs_of [1;0;0;0; 7]%N ++ lit "m_value" ++ bs_of [0; 8; 2;0;0;0; 5;0;0;0; 11]%N.
Example C41_ex_library :
  deserialize ex_library_int32 = POk (MValue (VObject (mkObj (lit "System.Int32") (Some (lit "L")) [(lit "m_value", VInt32 5)])))
  /\ from_slice (T_int I32) ex_library_int32 = FErr.
Proof.
  assert (deserialize ex_library_int32 = POk (MValue (VObject (mkObj (lit "System.Int32") (Some (lit "L")) [(lit "m_value", VInt32 5)])))) as H
    by (vm_compute; reflexivity).
  split; [exact H|]. eapply C41_library_classes_rejected_slice; [exact I|exact H].
Qed.
End with_libs.
