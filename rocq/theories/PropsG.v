(** * PropsG: C41-C46, deserialisation into Rust types. *)
From Verif Require Import Base Utf8 Value DataTypes Records Parser Wire BaseLemmas Spec Serde SerdeLemmas SerdeSpec.
From Coq Require Import Lia.
From Coq Require Strings.String.
Import String.StringSyntax.

Section with_libs.
Context {DL : DecimalLib} {FL : FloatLib}.

(** ** Classes *)

Lemma class_name_app name rest : x60 ∉ name ->
  class_name (name ++ x60 :: rest) = name.
Proof.
  induction name as [|b name IH]; cbn; [done|]. intros [Hb Hn]%not_elem_of_cons.
  rewrite IH by done. destruct (N.eqb_spec (b2n b) 96) as [E|E]; [|done].
  destruct Hb. symmetry. by apply b2n_inj.
Qed.
Lemma class_name_whole name : x60 ∉ name -> class_name name = name.
Proof.
  induction name as [|b name IH]; cbn; [done|]. intros [Hb Hn]%not_elem_of_cons.
  rewrite IH by done. destruct (N.eqb_spec (b2n b) 96) as [E|E]; [|done].
  destruct Hb. symmetry. by apply b2n_inj.
Qed.
Lemma class_name_cases class : is_class (class_name class) class.
Proof.
  induction class as [|b class IH]; [by left|]. cbn. destruct (N.eqb_spec (b2n b) 96) as [E|E].
  - right. exists class. cbn [app]. f_equal. by apply b2n_inj.
  - destruct IH as [IH|[rest IH]]; [left|right; exists rest]; cbn; congruence.
Qed.
Lemma class_name_iff name class : x60 ∉ name -> class_name class = name <-> is_class name class.
Proof.
  intros Hn. split; [intros <-; apply class_name_cases|].
  intros [->|[rest ->]]; [by apply class_name_whole|by apply class_name_app].
Qed.

(** Which class is a wrapper, and of what. *)
Inductive wrapper_type : str -> target -> Prop :=
| WT_wraps name t : (name, t) ∈ wrapper_classes -> wrapper_type name t.
Lemma wrapper_names name t : (name, t) ∈ wrapper_classes -> x60 ∉ name.
Proof.
  assert (Forall (fun nt => x60 ∉ nt.1) wrapper_classes) as H.
  { apply (bool_decide_unpack _). vm_compute. exact I. }
  intros Hin. rewrite Forall_forall in H. by apply (H (name, t)).
Qed.
Lemma wrapper_nodup : NoDup (map fst wrapper_classes).
Proof. apply (bool_decide_unpack _). vm_compute. exact I. Qed.
Lemma wrapper_get class name t : (name, t) ∈ wrapper_classes -> is_class name class ->
  hm_get (class_name class) wrapper_classes = Some t.
Proof.
  intros Hin Hc. apply class_name_iff in Hc; [|by eapply wrapper_names]. rewrite Hc.
  apply hm_get_nodup; [apply wrapper_nodup|done].
Qed.
Lemma wraps_class name v : wraps name v -> exists t, (name, t) ∈ wrapper_classes
  /\ exists d, value_deserialize v t = SOk d /\ (forall t', plain t' -> (forall u, t' <> T_option u) ->
      visit_primitive t' d = value_deserialize v t').
Proof.
  assert (forall n t, hm_get n wrapper_classes = Some t -> (n, t) ∈ wrapper_classes) as Hin
    by (intros n t; apply hm_get_in).
  assert (forall k z, in_int k z -> int_fits k z = true) as Hfit.
  { intros k z H. unfold int_fits, int_min, int_max. destruct k; cbn in *; lia. }
  intros H. destruct H as [b|n Hn|z Hz|c|n|n|z Hz|n Hn|z Hz|n Hn|z Hz|n Hn];
    (eexists; split; [by apply Hin|]); eexists; (split; [cbn; by rewrite ?Hfit|]);
    intros t' Hp Ho; destruct t'; try done; by destruct (Ho t').
Qed.

Lemma any_wrapper f name prim class v t : (name, prim) ∈ wrapper_classes -> is_class name class ->
  value_deserialize_any f (VObject (mkObj class None [(lit "m_value", v)])) t
  = sres_bind (f v prim) (visit_primitive t).
Proof.
  intros Hin Hc. cbn [value_deserialize_any]. unfold object_deserialize_any.
  rewrite (wrapper_get _ _ _ Hin Hc). unfold wrapper, entries. cbn [map fst snd length].
  change (N.eqb (N.of_nat 1) 1) with true. cbn iota.
  destruct (f v prim) as [d|]; [|done]. cbn [sres_bind].
  by change (str_eqb (lit "m_value") (lit "m_value")) with true.
Qed.
(** Any other set of members. *)
Lemma any_wrapper_other f name prim class ms t : (name, prim) ∈ wrapper_classes -> is_class name class ->
  (forall v, ms <> [(lit "m_value", v)]) ->
  value_deserialize_any f (VObject (mkObj class None ms)) t = SErr.
Proof.
  intros Hin Hc Hms. cbn [value_deserialize_any]. unfold object_deserialize_any.
  rewrite (wrapper_get _ _ _ Hin Hc). unfold wrapper, entries. rewrite map_length.
  destruct (N.eqb_spec (N.of_nat (length ms)) 1) as [Hl|Hl]; [|done].
  destruct ms as [|[k v] [|]]; cbn [length] in Hl; [lia| |lia]. cbn [map fst snd].
  destruct (f v prim) as [d|]; [|done]. cbn [sres_bind].
  unfold str_eqb. case_bool_decide as E; [|done]. subst. by destruct (Hms v).
Qed.

(** ** C41 A wrapper is read like the primitive it holds *)

Theorem C41_wrapper_is_value : forall name class v t, wraps name v -> is_class name class -> plain t ->
  value_deserialize (VObject (mkObj class None [(lit "m_value", v)])) t = value_deserialize v t.
Proof.
  intros name class v t Hw Hc. destruct (wraps_class _ _ Hw) as (prim & Hin & d & Hd & Hv).
  assert (forall t, (forall u, t <> T_option u) -> plain t ->
    value_deserialize_any value_deserialize (VObject (mkObj class None [(lit "m_value", v)])) t = value_deserialize v t)
    as Hany.
  { intros t0 Ho Hp. rewrite (any_wrapper _ _ _ _ _ _ Hin Hc), Hd. cbn [sres_bind]. by apply Hv. }
  induction t; intros Hp; try (rewrite value_deserialize_eq at 1; by apply Hany).
  - rewrite value_deserialize_eq at 1. cbn [value_deserialize_option visit_some]. rewrite IHt by done.
    rewrite (value_deserialize_eq v (T_option t)). destruct v; try done. by inversion Hw.
  - done.
Qed.
(** On the level of messages. *)
Theorem C41_wrapper_is_value_slice : forall name class v t W W',
  wraps name v -> is_class name class -> plain t ->
  deserialize W = POk (MValue (VObject (mkObj class None [(lit "m_value", v)]))) ->
  deserialize W' = POk (MValue v) -> from_slice t W = from_slice t W'.
Proof.
  intros name class v t W W' Hw Hc Hp HW HW'. unfold from_slice. rewrite HW, HW'. cbn [message_deserialize].
  destruct (wraps_class _ _ Hw) as (prim & Hin & d & Hd & Hv).
  destruct t; try done; try (rewrite (any_wrapper _ _ _ _ _ _ Hin Hc), Hd; cbn [sres_bind];
    rewrite Hv by done; by rewrite value_deserialize_eq).
  rewrite (any_wrapper _ _ _ _ _ _ Hin Hc), Hd. cbn [sres_bind].
  assert (visit_primitive (T_option t) d = SErr) as -> by (by destruct d).
  by destruct Hw.
Qed.
(** Any other set of members is rejected. *)
Lemma any_type t : plain t -> (forall u, t <> T_option u) ->
  forall v, value_deserialize v t = value_deserialize_any value_deserialize v t.
Proof. intros Hp Ho v. rewrite value_deserialize_eq. destruct t; try done. by destruct (Ho t). Qed.
Theorem C41_other_members_rejected : forall class ms t, is_wrapper_class class -> plain t ->
  (forall v, ms <> [(lit "m_value", v)]) -> value_deserialize (VObject (mkObj class None ms)) t = SErr.
Proof.
  intros class ms t (name & v & Hw & Hc) Hp Hms. destruct (wraps_class _ _ Hw) as (prim & Hin & _).
  induction t; try (rewrite any_type by done; by eapply any_wrapper_other).
  - rewrite value_deserialize_eq. cbn [value_deserialize_option visit_some]. by rewrite IHt.
Qed.
Theorem C41_other_members_rejected_slice : forall class ms t W, is_wrapper_class class -> plain t ->
  (forall v, ms <> [(lit "m_value", v)]) -> deserialize W = POk (MValue (VObject (mkObj class None ms))) ->
  from_slice t W = FErr.
Proof.
  intros class ms t W (name & v & Hw & Hc) Hp Hms HW. destruct (wraps_class _ _ Hw) as (prim & Hin & _).
  unfold from_slice. rewrite HW. cbn [message_deserialize].
  destruct t; try done; by rewrite (any_wrapper_other _ _ _ _ _ _ Hin Hc Hms).
Qed.

(** ** C42 Integer targets *)

Lemma int_fits_iff k z : int_fits k z = true <-> in_int k z.
Proof. unfold int_fits, int_min, int_max. destruct k; cbn [int_signed int_bits in_int]; lia. Qed.
Lemma visit_int_int k z d : visit_int (T_int k) z = SOk d <-> in_int k z /\ d = D_int z.
Proof.
  cbn [visit_int]. rewrite <- int_fits_iff. destruct (int_fits k z); [|split; [done|by intros [? _]]].
  split; [by intros [= <-]|by intros [_ ->]].
Qed.
Lemma int_wrapper_class name k : int_wrapper name k -> (name, T_int k) ∈ wrapper_classes.
Proof. intros H. apply hm_get_in. by destruct H. Qed.
Lemma class_int_wrapper name k : (name, T_int k) ∈ wrapper_classes -> int_wrapper name k.
Proof.
  intros H. unfold wrapper_classes in H.
  repeat (apply elem_of_cons in H as [H|H]; [by (discriminate H || (injection H as -> ->; constructor))|]).
  by apply elem_of_nil in H.
Qed.
(** What a scalar target reads has its type. *)
Definition scalar_data (t : target) (d : data) : Prop :=
  match t, d with
  | T_bool, D_bool _ | T_int _, D_int _ | T_char, D_char _ | T_f32, D_f32 _ | T_f64, D_f64 _ => True
  | _, _ => False
  end.
Definition scalar_target (t : target) : Prop :=
  match t with T_bool | T_int _ | T_char | T_f32 | T_f64 => True | _ => False end.
Lemma visit_primitive_scalar t d d' : scalar_target t -> visit_primitive t d = SOk d' -> scalar_data t d'.
Proof.
  intros Ht. destruct d; try done; destruct t; try done; cbn; repeat case_match; try done;
    by intros [= <-].
Qed.
Lemma scalar_result v t d : scalar_target t -> value_deserialize v t = SOk d -> scalar_data t d.
Proof.
  intros Ht. rewrite any_type; [|by destruct t|by destruct t].
  destruct v as [o|vs|b|n|c|dc|n|z|z|z|z|n|z|z|n|n|n|s|]; cbn [value_deserialize_any].
  - unfold object_deserialize_any. destruct o as [c l ms]. destruct l; [by destruct t|].
    destruct (hm_get (class_name c) wrapper_classes) as [prim|].
    + rewrite sres_bind_ok. intros (x & _ & H). by eapply visit_primitive_scalar.
    + repeat case_match; try done; try (by destruct t).
  - by destruct t.
  - apply (visit_primitive_scalar t (D_bool b)); done.
  - apply (visit_primitive_scalar t (D_int (Z.of_N n))); done.
  - apply (visit_primitive_scalar t (D_char c)); done.
  - destruct t; try done. cbn. case_match; try done. by intros [= <-].
  - apply (visit_primitive_scalar t (D_f64 n)); done.
  - apply (visit_primitive_scalar t (D_int z)); done.
  - apply (visit_primitive_scalar t (D_int z)); done.
  - apply (visit_primitive_scalar t (D_int z)); done.
  - apply (visit_primitive_scalar t (D_int z)); done.
  - apply (visit_primitive_scalar t (D_f32 n)); done.
  - apply (visit_primitive_scalar t (D_int z)); done.
  - apply (visit_primitive_scalar t (D_int z)); done.
  - apply (visit_primitive_scalar t (D_int (Z.of_N n))); done.
  - apply (visit_primitive_scalar t (D_int (Z.of_N n))); done.
  - apply (visit_primitive_scalar t (D_int (Z.of_N n))); done.
  - destruct t; try done. cbn. case_match; try done. by intros [= <-].
  - by destruct t.
Qed.
Lemma wrapper_scalar name prim : (name, prim) ∈ wrapper_classes -> scalar_target prim.
Proof.
  intros H. unfold wrapper_classes in H.
  repeat (apply elem_of_cons in H as [H|H]; [by injection H as -> ->|]). by apply elem_of_nil in H.
Qed.

Lemma one_member (ms : list (str * value)) :
  (exists v, ms = [(lit "m_value", v)]) \/ forall v, ms <> [(lit "m_value", v)].
Proof.
  destruct ms as [|[k v] [|]]; try (right; congruence).
  destruct (decide (k = lit "m_value")) as [->|Hk]; [left; by exists v|right; congruence].
Qed.

(** A message is read into an integer type exactly if the integer it holds is in the range of the
    type, and the result is this integer. *)
Theorem C42_integer_value : forall v k d, value_deserialize v (T_int k) = SOk d <->
  exists z, stored_int v z /\ in_int k z /\ d = D_int z.
Proof.
  intros v. induction v as [o IH|vs IH|v Hv] using value_ind'; intros k d.
  - rewrite any_type by done. destruct o as [c l ms]. destruct l as [l|].
    { split; [done|]. intros (z & H & _). inversion H. }
    destruct (hm_get (class_name c) wrapper_classes) as [prim|] eqn:Eg.
    + pose proof (hm_get_in _ _ _ Eg) as Hin. pose proof (class_name_cases c) as Hc.
      destruct (one_member ms) as [[v ->]|Hno].
      * rewrite (any_wrapper _ _ _ _ _ _ Hin Hc). cbn [obj_members] in IH.
        apply Forall_cons in IH as [IH _]. cbn [snd] in IH. rewrite sres_bind_ok. split.
        -- intros (x & Hx & H). pose proof (scalar_result _ _ _ (wrapper_scalar _ _ Hin) Hx) as Hs.
           destruct x; try done; try (by (cbn in H; unfold visit_char in H; cbn in H)).
           destruct prim as [|k'| | | | | | | | | | | | | | | |]; try done. apply IH in Hx as (z' & Hz & Hk & [= ->]).
           cbn [visit_primitive] in H. apply visit_int_int in H as [Hk' ->].
           exists z'. split; [|done]. by eapply SI_wrapper; [apply class_int_wrapper| | |].
        -- intros (z & H & Hk & ->). inversion H as [| | | | | | | | | |name' k' class' v' z' Hw Hc' Hv Hz]; subst.
           assert (prim = T_int k') as ->.
           { rewrite (wrapper_get _ _ _ (int_wrapper_class _ _ Hw) Hc') in Eg. congruence. }
           exists (D_int z). split; [apply IH; eauto|]. by apply visit_int_int.
      * rewrite (any_wrapper_other _ _ _ _ _ _ Hin Hc); [|done].
        split; [done|]. intros (z & H & _). inversion H; subst. by destruct (Hno v).
    + split.
      * cbn [value_deserialize_any]. unfold object_deserialize_any. rewrite Eg. by repeat case_match.
      * intros (z & H & _). inversion H as [| | | | | | | | | |name' k' class' v' z' Hw Hc' Hv Hz]; subst.
        by rewrite (wrapper_get _ _ _ (int_wrapper_class _ _ Hw) Hc') in Eg.
  - split; [done|]. intros (z & H & _). inversion H.
  - rewrite any_type by done.
    destruct v; try done; cbn [value_deserialize_any]; rewrite ?visit_int_int;
      (split; [intros H; try done; try (destruct H as [H1 ->]; eexists; split; [constructor|done])
              |intros (z0 & H & H1 & ->); by inversion H; subst]).
Qed.
Theorem C42_integer_targets : forall W k d, from_slice (T_int k) W = FOk d <->
  exists v z, deserialize W = POk (MValue v) /\ stored_int v z /\ in_int k z /\ d = D_int z.
Proof.
  intros W k d. unfold from_slice. split.
  - destruct (deserialize W) as [m|e|p|]; try done. destruct m as [c|r|v]; try done.
    cbn [message_deserialize]. rewrite <- any_type by done.
    destruct (value_deserialize v (T_int k)) as [d'|] eqn:E; [|done]. intros [= ->].
    apply C42_integer_value in E as (z & H). eauto.
  - intros (v & z & -> & H). cbn [message_deserialize]. rewrite <- any_type by done.
    assert (value_deserialize v (T_int k) = SOk d) as -> by (apply C42_integer_value; eauto). done.
Qed.

(** ** C43 Arrays *)

Lemma all_de_map t vs ds :
  all_de t (map value_deserialize vs) = SOk ds <-> Forall2 (fun v d => value_deserialize v t = SOk d) vs ds.
Proof. rewrite all_de_ok. apply Forall2_fmap_l. Qed.
Lemma each_de_map ts vs ds : length vs = length ts ->
  each_de ts (map value_deserialize vs) = SOk ds
  <-> Forall2 (fun vt d => value_deserialize vt.1 vt.2 = SOk d) (zip vs ts) ds.
Proof.
  intros Hl. rewrite each_de_ok. rewrite map_length, Hl.
  assert (forall vs ts ds, Forall2 (fun td (v : data) => td.2 td.1 = SOk v) (zip ts (map value_deserialize vs)) ds
    <-> Forall2 (fun vt d => value_deserialize vt.1 vt.2 = SOk d) (zip vs ts) ds) as H.
  { clear. intros vs. induction vs as [|v vs IH]; intros [|t ts] ds; cbn.
    - split; inversion 1; constructor.
    - split; inversion 1; constructor.
    - split; inversion 1; constructor.
    - split; inversion 1; subst; constructor; try done; by apply IH. }
  rewrite H. split; [by intros [? _]|done].
Qed.

Theorem C43_vec : forall vs t d, value_deserialize (VArray vs) (T_vec t) = SOk d <->
  exists ds, d = D_seq ds /\ Forall2 (fun v d => value_deserialize v t = SOk d) vs ds.
Proof.
  intros vs t d. rewrite any_type by done. rewrite any_array_vec, sres_map_ok.
  split; intros (ds & H1 & H2); exists ds; split; try done; by apply all_de_map.
Qed.
Theorem C43_tuple : forall vs ts d, value_deserialize (VArray vs) (T_tuple ts) = SOk d <->
  exists ds, d = D_seq ds /\ length vs = length ts
             /\ Forall2 (fun vt d => value_deserialize vt.1 vt.2 = SOk d) (zip vs ts) ds.
Proof.
  intros vs ts d. rewrite any_type by done. rewrite any_array_tuple.
  destruct (Nat.eqb_spec (length vs) (length ts)) as [Hl|Hl]; [|split; [done|by intros (ds & _ & ? & _)]].
  rewrite sres_map_ok. split.
  - intros (ds & H1 & ->). exists ds. split_and!; try done. by apply each_de_map.
  - intros (ds & -> & _ & H). exists ds. split; [|done]. by apply each_de_map.
Qed.
Theorem C43_array : forall vs t n d, value_deserialize (VArray vs) (T_array t n) = SOk d <->
  exists ds, d = D_seq ds /\ length vs = n /\ Forall2 (fun v d => value_deserialize v t = SOk d) vs ds.
Proof.
  intros vs t n d. unfold T_array. rewrite any_type by done. rewrite any_array_tuple, replicate_length.
  destruct (Nat.eqb_spec (length vs) n) as [Hl|Hl]; [|split; [done|by intros (ds & _ & ? & _)]].
  rewrite each_de_replicate by (by rewrite map_length). rewrite sres_map_ok. split.
  - intros (ds & H1 & ->). exists ds. split_and!; try done. by apply all_de_map.
  - intros (ds & -> & _ & H). exists ds. split; [|done]. by apply all_de_map.
Qed.
Lemma slice_value t W v : (forall u, t <> T_option u) -> deserialize W = POk (MValue v) ->
  forall d, from_slice t W = FOk d <-> value_deserialize v t = SOk d.
Proof.
  intros Ho HW d. unfold from_slice. rewrite HW. cbn [message_deserialize]. rewrite value_deserialize_eq.
  destruct t as [| | | | | | | | |t| | | | | | | |]; try (by destruct (Ho t));
    try (destruct (value_deserialize_any _ _ _); split; congruence).
  destruct (value_deserialize_struct _ _ _); split; congruence.
Qed.
Theorem C43_vec_slice : forall W vs t d, deserialize W = POk (MValue (VArray vs)) ->
  from_slice (T_vec t) W = FOk d <->
  exists ds, d = D_seq ds /\ Forall2 (fun v d => value_deserialize v t = SOk d) vs ds.
Proof. intros W vs t d HW. rewrite (slice_value (T_vec t) _ _ ltac:(done) HW). apply C43_vec. Qed.
Theorem C43_array_slice : forall W vs t n d, deserialize W = POk (MValue (VArray vs)) ->
  from_slice (T_array t n) W = FOk d <->
  exists ds, d = D_seq ds /\ length vs = n /\ Forall2 (fun v d => value_deserialize v t = SOk d) vs ds.
Proof. intros W vs t n d HW. rewrite (slice_value (T_array t n) _ _ ltac:(done) HW). apply C43_array. Qed.

(** ** C44 Lists *)

Lemma items_of_get {A} (f : value -> A) ms :
  items_of f ms = match hm_get (lit "_items") ms with Some (VArray items) => Some (map f items) | _ => None end.
Proof.
  induction ms as [|[k v] ms IH]; [done|]. cbn [items_of hm_get]. destruct (str_eqb (lit "_items") k); [by destruct v|done].
Qed.
Lemma list_members_get items z ver ms : list_members items z ver ms ->
  hm_get (lit "_items") ms = Some (VArray items) /\ hm_get (lit "_size") ms = Some (VInt32 z)
  /\ hm_get (lit "_version") ms = Some (VInt32 ver) /\ length ms = 3.
Proof.
  intros H. unfold list_members in H.
  assert (NoDup (map fst ms)) as Hn.
  { assert (NoDup (map fst [(lit "_items", VArray items); (lit "_size", VInt32 z); (lit "_version", VInt32 ver)])) as H1.
    { cbn [map fst]. apply (bool_decide_unpack _). vm_compute. exact I. }
    revert H1. apply NoDup_Permutation_proper. by rewrite H. }
  rewrite !hm_get_nodup by done. rewrite H. split_and!; try done;
    rewrite ?elem_of_cons; eauto.
Qed.
Lemma list_class_get class : is_list_class class ->
  hm_get (class_name class) wrapper_classes = None
  /\ str_eqb (class_name class) (lit "System.Collections.Generic.List") = true.
Proof.
  intros Hc. apply class_name_iff in Hc; [|apply (bool_decide_unpack _); vm_compute; exact I].
  rewrite Hc. done.
Qed.
Lemma any_list f class ms items z ver t : is_list_class class -> list_members items z ver ms ->
  value_deserialize_any f (VObject (mkObj class None ms)) t
  = seq_deserialize_any (SA_list (map f items) 0 0 (i32_as_usize z)) t.
Proof.
  intros [H1 H2]%list_class_get (G1 & G2 & G3 & G4)%list_members_get.
  cbn [value_deserialize_any]. unfold object_deserialize_any. rewrite H1, H2, items_of_get, G1.
  unfold int32_of. rewrite G2, G3, G4. done.
Qed.
Lemma usize_nonneg z : (0 <= z < 2 ^ 31)%Z -> i32_as_usize z = Z.to_N z.
Proof. intros H. unfold i32_as_usize. rewrite Z.mod_small; [done|]. lia. Qed.
Lemma usize_neg z : (- 2 ^ 31 <= z < 0)%Z -> (2 ^ 63 <= i32_as_usize z)%N.
Proof.
  intros H. unfold i32_as_usize. assert (z mod 2 ^ 64 = z + 2 ^ 64)%Z as ->.
  { symmetry. apply (Z.mod_unique z (2 ^ 64) (-1)); lia. }
  lia.
Qed.

(** The first [_size] items, in order. *)
Theorem C44_list_partial : forall class ms items size version t d,
  is_list_class class -> list_members items size version ms -> in_int I32 size ->
  (0 <= size <= Z.of_nat (length items))%Z ->
  value_deserialize (VObject (mkObj class None ms)) (T_vec t) = SOk d <->
  exists ds, d = D_seq ds
    /\ Forall2 (fun v d => value_deserialize v t = SOk d) (take (Z.to_nat size) items) ds.
Proof.
  intros class ms items z ver t d Hc Hms Hz Hl. cbn [in_int] in Hz. rewrite any_type by done.
  rewrite (any_list _ _ _ _ _ _ _ Hc Hms), usize_nonneg by lia. rewrite list_vec, map_length.
  destruct (N.leb_spec (Z.to_N z) (N.of_nat (length items))) as [H|H]; [|lia].
  rewrite sres_map_ok. rewrite Z_N_nat. change (map value_deserialize items) with (value_deserialize <$> items). rewrite <- fmap_take.
  split; intros (ds & H1 & H2); exists ds; split; try done; by apply all_de_map.
Qed.
(** More than one item too few, or a negative size. *)
Theorem C44_wrong_size : forall class ms items size version t,
  is_list_class class -> list_members items size version ms -> in_int I32 size ->
  (Z.of_nat (length items) < 2 ^ 62)%Z ->
  (size < 0 \/ Z.of_nat (length items) + 1 < size)%Z ->
  value_deserialize (VObject (mkObj class None ms)) (T_vec t) = SErr.
Proof.
  intros class ms items z ver t Hc Hms Hz Hb Hl. cbn [in_int] in Hz. rewrite any_type by done.
  rewrite (any_list _ _ _ _ _ _ _ Hc Hms), list_vec, map_length.
  assert (N.of_nat (length items) + 1 < i32_as_usize z)%N as H.
  { destruct Hl as [Hl|Hl].
    - pose proof (usize_neg z). lia.
    - rewrite usize_nonneg by lia. lia. }
  destruct (N.leb_spec (i32_as_usize z) (N.of_nat (length items))); [lia|].
  destruct (N.eqb_spec (i32_as_usize z) (N.of_nat (length items) + 1)); [lia|done].
Qed.
(** One item too few is accepted. *)
Theorem C44_one_missing : forall class ms items size version t d,
  is_list_class class -> list_members items size version ms -> in_int I32 size ->
  (size = Z.of_nat (length items) + 1)%Z ->
  value_deserialize (VObject (mkObj class None ms)) (T_vec t) = SOk d <->
  exists ds, d = D_seq ds /\ Forall2 (fun v d => value_deserialize v t = SOk d) items ds.
Proof.
  intros class ms items z ver t d Hc Hms Hz Hl. cbn [in_int] in Hz. rewrite any_type by done.
  rewrite (any_list _ _ _ _ _ _ _ Hc Hms), usize_nonneg by lia. rewrite list_vec, map_length.
  destruct (N.leb_spec (Z.to_N z) (N.of_nat (length items))) as [H|H]; [lia|].
  destruct (N.eqb_spec (Z.to_N z) (N.of_nat (length items) + 1)); [|lia].
  rewrite sres_map_ok. split; intros (ds & H1 & H2); exists ds; split; try done; by apply all_de_map.
Qed.
(** For arrays of a fixed length the size is exact. *)
Theorem C44_array : forall class ms items size version t n d,
  is_list_class class -> list_members items size version ms -> in_int I32 size ->
  (Z.of_nat n < 2 ^ 62)%Z ->
  value_deserialize (VObject (mkObj class None ms)) (T_array t n) = SOk d <->
  exists ds, d = D_seq ds /\ size = Z.of_nat n /\ n <= length items
    /\ Forall2 (fun v d => value_deserialize v t = SOk d) (take n items) ds.
Proof.
  intros class ms items z ver t n d Hc Hms Hz Hn. cbn [in_int] in Hz. unfold T_array. rewrite any_type by done.
  rewrite (any_list _ _ _ _ _ _ _ Hc Hms), list_tuple, replicate_length.
  assert (i32_as_usize z = N.of_nat n <-> z = Z.of_nat n) as Hzn.
  { destruct (Z.ltb_spec z 0) as [Hneg|Hpos].
    - pose proof (usize_neg z). split; lia.
    - rewrite usize_nonneg by lia. split; lia. }
  destruct (N.eqb_spec (i32_as_usize z) (N.of_nat n)) as [E|E].
  - assert (forall ds, each_de (replicate n t) (map value_deserialize items) = SOk ds <->
      n <= length items /\ Forall2 (fun v d => value_deserialize v t = SOk d) (take n items) ds) as H.
    { intros ds. split.
      - intros H. pose proof (each_de_length _ _ _ H) as [Hl _]. rewrite replicate_length, map_length in Hl.
        split; [done|]. rewrite each_de_ok in H. destruct H as [H _]. apply all_de_map, all_de_ok.
        revert Hl H. clear. revert n ds. induction items as [|v items IH]; intros [|n] ds Hl; cbn in *; try (inversion 1; subst; constructor; done); try lia.
        inversion 1; subst. constructor; [done|]. apply IH; [lia|done].
      - intros [Hl H]. apply each_de_ok. rewrite replicate_length, map_length. split; [|done].
        revert Hl H. clear. revert n ds. induction items as [|v items IH]; intros [|n] ds Hl; cbn in *; try (inversion 1; subst; constructor; done); try lia.
        inversion 1; subst. constructor; [done|]. apply IH; [lia|done]. }
    rewrite sres_map_ok. split.
    + intros (ds & H1 & ->). apply H in H1 as [H1 H2]. exists ds. split_and!; try done. by apply Hzn.
    + intros (ds & -> & _ & H1 & H2). exists ds. split; [|done]. by apply H.
  - split; [done|]. intros (ds & _ & H & _). by apply Hzn in H.
Qed.
(** Any other members are rejected. *)
Theorem C44_other_members_rejected : forall class ms t, is_list_class class -> plain t ->
  NoDup (map fst ms) -> (forall items size version, ~ list_members items size version ms) ->
  value_deserialize (VObject (mkObj class None ms)) t = SErr.
Proof.
  intros class ms t Hc Hp Hn Hno.
  assert (forall t, value_deserialize_any value_deserialize (VObject (mkObj class None ms)) t = SErr) as H.
  { intros t0. destruct (list_class_get _ Hc) as [H1 H2]. cbn [value_deserialize_any]. unfold object_deserialize_any.
    rewrite H1, H2, items_of_get. unfold int32_of.
    destruct (N.eqb_spec (N.of_nat (length ms)) 3) as [Hl|]; [|done].
    destruct (hm_get (lit "_items") ms) as [w|] eqn:E1; [|done]. destruct w as [|items| | | | | | | | | | | | | | | | |]; try done.
    destruct (hm_get (lit "_size") ms) as [w|] eqn:E2; [|done]. destruct w as [| | | | | | | |z| | | | | | | | | |]; try done.
    destruct (hm_get (lit "_version") ms) as [w|] eqn:E3; [|done]. destruct w as [| | | | | | | |ver| | | | | | | | | |]; try done.
    exfalso. apply (Hno items z ver). unfold list_members. symmetry.
    apply hm_get_in in E1, E2, E3.
    apply submseteq_Permutation_length_eq; [cbn [length]; lia|].
    apply NoDup_submseteq.
    - apply (NoDup_fmap_1 fst). cbn. apply (bool_decide_unpack _). vm_compute. exact I.
    - intros x. rewrite !elem_of_cons, elem_of_nil. by intros [-> | [-> | [-> | []]]]. }
  induction t; try (rewrite any_type by done; apply H); try done.
  rewrite value_deserialize_eq. cbn [value_deserialize_option visit_some]. by rewrite IHt.
Qed.

(** The messages of tests/list_of_customers.rs, with any [_size]: two strings and two nulls. *)
Definition ex_lps (s : str) : bytes := n2b (N.of_nat (length s)) :: s.
Definition ex_list_class : str :=
  lit "System.Collections.Generic.List`1[[System.String, mscorlib, Version=4.0.0.0, Culture=neutral, PublicKeyToken=b77a5c561934e089]]".
Definition ex_list_message (size : Z) : bytes :=
  header_bytes 1 (-1) ++ bs_of [4; 1;0;0;0]%N ++ ex_lps ex_list_class ++ bs_of [3;0;0;0]%N
  ++ ex_lps (lit "_items") ++ ex_lps (lit "_size") ++ ex_lps (lit "_version")
  ++ bs_of [6; 0; 0; 8; 8]%N ++ bs_of [9; 2;0;0;0]%N ++ enc_int 4 size ++ bs_of [2;0;0;0]%N
  ++ bs_of [17; 2;0;0;0; 4;0;0;0]%N ++ bs_of [6; 3;0;0;0]%N ++ ex_lps (lit "Bob")
  ++ bs_of [6; 4;0;0;0]%N ++ ex_lps (lit "Rob") ++ bs_of [13; 2]%N ++ [x0b].
Definition ex_list_items : list value := [VString (lit "Bob"); VString (lit "Rob"); VNull; VNull].
Definition ex_list (size : Z) : list (str * value) :=
  [(lit "_items", VArray ex_list_items); (lit "_size", VInt32 size); (lit "_version", VInt32 2)].
Example C44_ex_class : is_list_class ex_list_class.
Proof.
  right. exists (lit "1[[System.String, mscorlib, Version=4.0.0.0, Culture=neutral, PublicKeyToken=b77a5c561934e089]]").
  vm_compute. reflexivity.
Qed.
Example C44_ex_parse : deserialize (ex_list_message 2) = POk (MValue (VObject (mkObj ex_list_class None (ex_list 2)))).
Proof. vm_compute. reflexivity. Qed.
Example C44_ex : from_slice (T_vec T_str) (ex_list_message 2) = FOk (D_seq [D_str (lit "Bob"); D_str (lit "Rob")])
  /\ from_slice (T_array T_string 2) (ex_list_message 2) = FOk (D_seq [D_str (lit "Bob"); D_str (lit "Rob")])
  /\ from_slice (T_vec (T_option T_str)) (ex_list_message 3)
     = FOk (D_seq [D_some (D_str (lit "Bob")); D_some (D_str (lit "Rob")); D_none])
  /\ from_slice (T_vec (T_option T_str)) (ex_list_message 6) = FErr
  /\ from_slice (T_vec (T_option T_str)) (ex_list_message (-1)) = FErr.
Proof. repeat split; vm_compute; reflexivity. Qed.

Theorem C44_size_refuted : ~ forall W class ms items size version t ds,
  is_list_class class -> list_members items size version ms ->
  deserialize W = POk (MValue (VObject (mkObj class None ms))) ->
  from_slice (T_vec t) W = FOk (D_seq ds) -> Z.of_nat (length ds) = size.
Proof.
  intros H.
  specialize (H (ex_list_message 5) ex_list_class (ex_list 5) ex_list_items 5%Z 2%Z (T_option T_str)
    [D_some (D_str (lit "Bob")); D_some (D_str (lit "Rob")); D_none; D_none] C44_ex_class).
  discriminate H; [unfold list_members; reflexivity|vm_compute; reflexivity|vm_compute; reflexivity].
Qed.

(** ** C45 Options *)

Theorem C45_option : forall v t d, value_deserialize v (T_option t) = SOk d <->
  (v = VNull /\ d = D_none) \/ (v <> VNull /\ exists d', d = D_some d' /\ value_deserialize v t = SOk d').
Proof.
  intros v t d. rewrite value_deserialize_eq. cbn [value_deserialize_option visit_some visit_none].
  assert (v = VNull \/ v <> VNull) as [->|Hv] by (destruct v; (by left) || by right).
  - split; [intros [= <-]; by left|]. by intros [[_ ->]|[? _]].
  - transitivity (sres_map D_some (value_deserialize v t) = SOk d); [by destruct v|].
    rewrite sres_map_ok. split.
    + intros (d' & H1 & H2). right. eauto.
    + intros [[? _]|(_ & d' & H1 & H2)]; [done|eauto].
Qed.
(** At the top level only a null message is read. *)
Theorem C45_top_level : forall W t d, from_slice (T_option t) W = FOk d <->
  deserialize W = POk (MValue VNull) /\ d = D_none.
Proof.
  intros W t d. unfold from_slice. destruct (deserialize W) as [m|e|p|]; [|split; [done|by intros [? _]]..].
  destruct m as [c|r|v]; [split; [done|by intros [? _]]..|]. cbn [message_deserialize].
  assert (v = VNull \/ v <> VNull) as [->|Hv] by (destruct v; (by left) || by right).
  - cbn. split; [by intros [= <-]|by intros [_ ->]].
  - assert (value_deserialize_any value_deserialize v (T_option t) = SErr) as ->; [|split; [done|by intros [[= ?] _]]].
    destruct v as [o| | | | | | | | | | | | | | | | | |]; try done.
    destruct o as [c l ms]. cbn [value_deserialize_any]. unfold object_deserialize_any.
    destruct l; [done|]. destruct (hm_get (class_name c) wrapper_classes) as [prim|].
    + destruct (wrapper prim _) as [x|]; [|done]. by destruct x.
    + by repeat case_match.
Qed.

(** ** C46 Method calls and returns *)

Theorem C46_method_messages_rejected : forall W m t, deserialize W = POk m ->
  (forall v, m <> MValue v) -> from_slice t W = FErr.
Proof. intros W m t HW Hm. unfold from_slice. rewrite HW. destruct m; try done. by destruct (Hm v). Qed.
(** A method call without arguments. *)
Definition ex_call_message : bytes :=
  header_bytes 0 0 ++ bs_of [21; 1;0;0;0]%N ++ bs_of [18]%N ++ ex_lps (lit "Run") ++ bs_of [18]%N ++ ex_lps (lit "App") ++ [x0b].
Example C46_ex : deserialize ex_call_message = POk (MMethodCall (mkMethodCall (lit "Run") (lit "App") None None)).
Proof. vm_compute. reflexivity. Qed.

(** ** Examples *)

(** The messages of tests/int32.rs: a System.Int32 object. *)
Definition ex_wrapped (class : str) (code : N) (content : bytes) : bytes :=
  header_bytes 1 (-1) ++ bs_of [4; 1;0;0;0]%N ++ ex_lps class ++ bs_of [1;0;0;0]%N ++ ex_lps (lit "m_value")
  ++ bs_of [0; code]%N ++ content ++ [x0b].
Definition ex_int32 (z : Z) : bytes := ex_wrapped (lit "System.Int32") 8 (enc_int 4 z).
Example C41_ex : deserialize (ex_int32 (-7)) = POk (MValue (VObject (mkObj (lit "System.Int32") None [(lit "m_value", VInt32 (-7))])))
  /\ wraps (lit "System.Int32") (VInt32 (-7)) /\ is_class (lit "System.Int32") (lit "System.Int32")
  /\ plain (T_int I8) /\ from_slice (T_int I8) (ex_int32 (-7)) = FOk (D_int (-7)).
Proof.
  split; [vm_compute; reflexivity|]. split; [by constructor|]. split; [by left|]. split; [done|]. vm_compute. reflexivity.
Qed.
(** A System.Boolean without m_value. *)
Example C41_ex_rejected : is_wrapper_class (lit "System.Boolean")
  /\ value_deserialize (VObject (mkObj (lit "System.Boolean") None [(lit "value", VBoolean true)])) T_bool = SErr
  /\ forall v, [(lit "value", VBoolean true)] <> [(lit "m_value", v)].
Proof.
  split; [exists (lit "System.Boolean"), (VBoolean true); split; [constructor|by left]|]. split; [by vm_compute|done].
Qed.
Example C42_ex : from_slice (T_int U8) (ex_int32 255) = FOk (D_int 255) /\ from_slice (T_int U8) (ex_int32 256) = FErr
  /\ from_slice (T_int U8) (ex_int32 (-1)) = FErr /\ from_slice (T_int I64) (ex_int32 (-1)) = FOk (D_int (-1)).
Proof. repeat split; vm_compute; reflexivity. Qed.
(** tests/array_single_primitive.rs: an array of two Int32. *)
Definition ex_ints : bytes := header_bytes 1 (-1) ++ bs_of [15; 1;0;0;0; 2;0;0;0; 8; 1;0;0;0; 2;1;0;0; 11]%N.
Example C43_ex : deserialize ex_ints = POk (MValue (VArray [VInt32 1; VInt32 258]))
  /\ from_slice (T_vec (T_int U16)) ex_ints = FOk (D_seq [D_int 1; D_int 258])
  /\ from_slice (T_vec (T_int U8)) ex_ints = FErr
  /\ from_slice (T_array (T_int U16) 2) ex_ints = FOk (D_seq [D_int 1; D_int 258])
  /\ from_slice (T_array (T_int U16) 1) ex_ints = FErr /\ from_slice (T_array (T_int U16) 3) ex_ints = FErr
  /\ from_slice (T_tuple [T_int U8; T_int I64]) ex_ints = FOk (D_seq [D_int 1; D_int 258]).
Proof. repeat split; vm_compute; reflexivity. Qed.
Theorem C45_top_level_refuted : ~ forall W v t d, deserialize W = POk (MValue v) -> v <> VNull ->
  from_slice t W = FOk d -> from_slice (T_option t) W = FOk (D_some d).
Proof.
  intros H. specialize (H (ex_int32 1) (VObject (mkObj (lit "System.Int32") None [(lit "m_value", VInt32 1)])) (T_int I32) (D_int 1)).
  assert (from_slice (T_option (T_int I32)) (ex_int32 1) = FErr) as E by (vm_compute; reflexivity).
  rewrite E in H. discriminate H; [vm_compute; reflexivity|done|vm_compute; reflexivity].
Qed.
Example C45_ex : from_slice (T_vec (T_option (T_int I32)))
    (header_bytes 1 (-1) ++ bs_of [16; 1;0;0;0; 2;0;0;0; 10; 8;8; 5;0;0;0; 11]%N)
  = FOk (D_seq [D_none; D_some (D_int 5)]).
Proof. vm_compute. reflexivity. Qed.
End with_libs.
