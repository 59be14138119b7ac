(** * PropsR: C61, types that take whatever comes. *)
From stdpp Require Import sorting.
From Verif Require Import Base Utf8 Value DataTypes Records Parser Wire BaseLemmas Utf8Lemmas Spec Safety PropsA
  Serde SerdeLemmas SerdeSpec PropsG PropsH PropsI Reading PropsL.
From Coq Require Import Lia.
From Coq Require Strings.String.
Import String.StringSyntax.

Section with_libs.
Context {DL : DecimalLib} {FL : FloatLib}.

(** ** Specification *)

(** A scalar as it is. *)
Inductive carries : content -> data -> Prop :=
| Ca_bool b : carries (Bool b) (D_bool b)
| Ca_int z : carries (Int z) (D_int z)
| Ca_f32 n : carries (Single n) (D_f32 n)
| Ca_f64 n : carries (Double n) (D_f64 n)
| Ca_char c : carries (Char c) (D_char c)
| Ca_text s : carries (Text s) (D_str s)
| Ca_borrowed s : carries (Borrowed s) (D_str s).
(** What a value looks like to a type that takes whatever comes: scalars as they are, null as unit,
    arrays and lists as sequences, wrapped primitives as the primitive, every other object as a map. *)
Inductive describes : value -> data -> Prop :=
| Ds_scalar v e d : holds v e -> carries e d -> describes v d
| Ds_null : describes VNull D_unit
| Ds_sequence v vs ds : any_elements v vs -> Forall2 (fun u d => describes u d) vs ds -> describes v (D_seq ds)
| Ds_wrapper name prim class v p : wrapper_of name prim -> is_class name class -> reads v prim p ->
    describes (VObject (mkObj class None [(lit "m_value", v)])) p
| Ds_object class library ms m ds : plain_class class library ->
    Forall2 (fun kv d => describes kv.2 d) ms ds -> sorted_keys m -> m ≡ₚ zip (map fst ms) ds ->
    describes (VObject (mkObj class library ms)) (D_map m).

(** ** Proofs *)
Lemma carries_any e d : carries e d <-> converts e T_any d.
Proof. split; inversion 1; constructor. Qed.
(** The primitive types. *)
Lemma reads_primitive name prim v p : wrapper_of name prim -> reads v prim p -> exists e, primitive p e /\ converts e T_any p.
Proof.
  intros Hw Hr.
  assert (forall e, converts e prim p -> exists e, primitive p e /\ converts e T_any p) as Hc.
  { intros e Hc. destruct Hw; inversion Hc; subst; eexists; (split; [constructor|constructor]). }
  inversion Hr; subst; try (by eapply Hc); inversion Hw.
Qed.
Lemma describes_reads v d : describes v d -> reads v T_any d.
Proof.
  revert d. induction v as [v IH] using value_below_ind. intros d H.
  inversion H as [? e ? Hh Hc| |? vs ds He Hf|name prim class u p Hw Hc Hr|class library ms m ds Hp Hf Hs Hm]; subst.
  - eapply R_scalar; [done|]. by apply carries_any.
  - constructor.
  - eapply R_seq_any; [done|]. eapply Forall2_impl_in; [exact Hf|]. intros u x Hu _ Hd.
    apply IH; [|done]. eapply any_elements_below; done.
  - destruct (reads_primitive _ _ _ _ Hw Hr) as (e & He & Hcv). by eapply R_wrapper.
  - eapply R_map_any; [done| |done|done]. eapply Forall2_impl_in; [exact Hf|]. intros [k u] x Hu _ Hd.
    apply IH; [|done]. by eapply below_member.
Qed.
Lemma reads_describes v d : reads v T_any d -> describes v d.
Proof.
  revert d. induction v as [v IH] using value_below_ind. intros d H.
  inversion H as [? e ? ? Hh Hc|name prim class u p e ? ? Hw Hcl Hr Hp Hc| | | | | | | | | | | | | |? vs ds He Hf|class library ms m ds Hp Hf Hs Hm]; subst.
  - eapply Ds_scalar; [done|]. by apply carries_any.
  - assert (d = p) as -> by (destruct Hp; by inversion Hc). by eapply Ds_wrapper.
  - constructor.
  - eapply Ds_sequence; [done|]. eapply Forall2_impl_in; [exact Hf|]. intros u x Hu _ Hd.
    apply IH; [|done]. eapply any_elements_below; done.
  - eapply Ds_object; [done| |done|done]. eapply Forall2_impl_in; [exact Hf|]. intros [k u] x Hu _ Hd.
    apply IH; [|done]. by eapply below_member.
Qed.
Theorem C61_self_describing : decimal_text -> forall W d,
  from_slice T_any W = FOk d <-> exists v, deserialize W = POk (MValue v) /\ describes v d.
Proof.
  intros Hdec W d. rewrite C56_exact by (done || by constructor). split; intros (v & HW & H); exists v; (split; [done|]).
  - inversion H; subst. by apply reads_describes.
  - constructor; [intros u; discriminate|]. by apply describes_reads.
Qed.

Lemma sort_entries {V} (l : list (str * V)) : NoDup (map fst l) -> exists m, sorted_keys m /\ m ≡ₚ l.
Proof.
  induction l as [|[k v] l IH]; cbn [map fst]; intros H; [exists []; split; [constructor|done]|].
  apply NoDup_cons in H as [Hk H]. destruct (IH H) as (m & Hs & Hm). exists (bt_insert k v m).
  assert (k ∉ map fst m) as Hkm.
  { intros Hin. apply Hk. assert (map fst m ≡ₚ map fst l) as <- by (by rewrite Hm). done. }
  split; [by apply bt_insert_sorted|]. rewrite bt_insert_perm by done. by rewrite Hm.
Qed.
Lemma any_elements_sound v vs u : sound_value v -> any_elements v vs -> u ∈ vs -> sound_value u.
Proof.
  intros Hv H Hin.
  assert (forall class ms items size version, v = VObject (mkObj class None ms) -> list_members items size version ms -> u ∈ items -> sound_value u) as Hl.
  { intros class ms items size version -> Hm%list_items_in Hu. eapply sound_element; [|exact Hu]. by eapply sound_member. }
  destruct H as [? ? H|? ? ? ? ? _ Hm _]; [|by eapply Hl].
  destruct H as [|? ? ? ? ? _ Hm _]; [by eapply sound_element|eapply Hl; [done|done|by eapply elem_of_take_in]].
Qed.

(** Such a type is read whenever the value can be skipped, and only then. *)
Lemma any_or_ignored v : sound_value v -> (exists d, reads v T_any d) <-> reads v T_ignored D_ignored.
Proof.
  induction v as [v IH] using value_below_ind. intros Hv. split.
  - intros [d H].
    inversion H as [? e ? ? Hh Hc|name prim class u p e ? ? Hw Hcl Hr Hp Hc| | | | | | | | | | | | | |? vs ds He Hf|class library ms m ds Hp Hf Hs Hm]; subst.
    + eapply R_scalar; [done|constructor].
    + eapply R_wrapper; [done|done|done|done|constructor].
    + constructor.
    + eapply R_seq_ignored; [done|]. apply Forall_forall. intros u Hu. apply elem_of_list_lookup in Hu as [j Hj].
      destruct (Forall2_lookup_l _ _ _ _ _ Hf Hj) as (x & _ & Hx). apply elem_of_list_lookup_2 in Hj.
      apply IH; [by eapply any_elements_below|by eapply any_elements_sound|by exists x].
    + eapply R_map_ignored; [done|]. apply Forall_forall. intros [k u] Hu. pose proof Hu as Hin.
      apply elem_of_list_lookup in Hu as [j Hj].
      destruct (Forall2_lookup_l _ _ _ _ _ Hf Hj) as (x & _ & Hx). apply IH; [by eapply below_member|by eapply sound_member|by exists x].
  - intros H.
    inversion H as [? e ? ? Hh Hc|name prim class u p e ? ? Hw Hcl Hr Hp Hc| | | | | |? vs He Hf| | | | | |class library ms Hp Hf| | |]; subst.
    + assert (exists d, converts e T_any d) as [d Hd] by (destruct e; eexists; constructor).
      exists d. by eapply R_scalar.
    + destruct (reads_primitive _ _ _ _ Hw Hr) as (e' & He' & Hcv). exists p. by eapply R_wrapper.
    + exists D_unit. constructor.
    + assert (exists ds, Forall2 (fun u d => reads u T_any d) vs ds) as [ds Hds].
      { assert (Forall (fun u => exists d, reads u T_any d) vs) as Hex.
        { apply Forall_forall. intros u Hu. apply IH; [by eapply any_elements_below|by eapply any_elements_sound|]. rewrite Forall_forall in Hf. by apply Hf. }
        clear -Hex. induction Hex as [|u vs [d Hd] _ [ds IHd]]; [by exists []|]. exists (d :: ds). by constructor. }
      exists (D_seq ds). by eapply R_seq_any.
    + assert (exists ds, Forall2 (fun kv d => reads kv.2 T_any d) ms ds) as [ds Hds].
      { assert (Forall (fun kv => exists d, reads kv.2 T_any d) ms) as Hex.
        { apply Forall_forall. intros [k u] Hu. apply IH; [by eapply below_member|by eapply sound_member|]. rewrite Forall_forall in Hf. by apply (Hf (k, u)). }
        clear -Hex. induction Hex as [|u vs [d Hd] _ [ds IHd]]; [by exists []|]. exists (d :: ds). by constructor. }
      destruct (sort_entries (zip (map fst ms) ds)) as (m & Hs & Hm).
      { rewrite fst_zip; [|rewrite map_length; apply Nat.eq_le_incl; by eapply Forall2_length].
        destruct Hv as [Hd _]. by inversion Hd. }
      exists (D_map m). by eapply R_map_any.
Qed.
Theorem C61_whenever_skippable : decimal_text -> forall W,
  (exists d, from_slice T_any W = FOk d) <-> from_slice T_ignored W = FOk D_ignored.
Proof.
  intros Hdec W. rewrite (C56_exact Hdec W T_ignored) by (by constructor). split.
  - intros [d H]. apply C56_exact in H as (v & HW & H); [|done|by constructor]. exists v. split; [done|].
    inversion H; subst. constructor; [intros u; discriminate|]. apply any_or_ignored; [by eapply parsed_sound|by exists d].
  - intros (v & HW & H). inversion H; subst. apply any_or_ignored in H1 as [d Hd]; [|by eapply parsed_sound].
    exists d. apply C56_exact; [done|by constructor|]. exists v. split; [done|]. constructor; [intros u; discriminate|done].
Qed.

(** What is read does not depend on the order of the members, and a list of such values, a struct of
    such values, .. are the parts of one. *)
Theorem C61_vec : decimal_text -> forall W ds,
  from_slice (T_vec T_any) W = FOk (D_seq ds) <-> from_slice T_any W = FOk (D_seq ds).
Proof.
  intros Hdec W ds. rewrite !C56_exact by (done || (by constructor) || constructor; by constructor).
  split; intros (v & HW & H); exists v; (split; [done|]); inversion H as [|? ? ? _ Hr]; subst;
    (constructor; [intros u; discriminate|]).
  - inversion Hr as [? ? ? ? Hh Hc|? ? ? ? ? ? ? ? _ _ _ _ Hc| | | | | | | | | | | | | | |]; subst; [inversion Hc|inversion Hc|]. by eapply R_seq_any.
  - inversion Hr as [? ? ? ? Hh Hc|? ? ? ? ? ? ? ? _ _ _ _ Hc| | | | | | | | | | | | | | |]; subst; [inversion Hc|inversion Hc|]. by eapply R_vec.
Qed.
Theorem C61_map : decimal_text -> forall W m,
  from_slice (T_map T_any) W = FOk (D_map m) <-> from_slice T_any W = FOk (D_map m).
Proof.
  intros Hdec W m. rewrite !C56_exact by (done || (by constructor) || constructor; by constructor).
  split; intros (v & HW & H); exists v; (split; [done|]); inversion H as [|? ? ? _ Hr]; subst;
    (constructor; [intros u; discriminate|]).
  - inversion Hr as [? ? ? ? Hh Hc|? ? ? ? ? ? ? ? _ _ _ _ Hc| | | | | | | | | | | | | | |]; subst; [inversion Hc|inversion Hc|]. by eapply R_map_any.
  - inversion Hr as [? ? ? ? Hh Hc|? ? ? ? ? ? ? ? _ _ _ _ Hc| | | | | | | | | | | | | | |]; subst; [inversion Hc|inversion Hc|]. by eapply R_map.
Qed.
Example C61_ex : from_slice T_any ex_mixed = FOk (D_seq [D_str (lit "s"); D_int 5; D_unit])
  /\ from_slice T_any ex_struct = FOk (D_map [(lit "x", D_int 5); (lit "y", D_str (lit "s"))]).
Proof. split; vm_compute; reflexivity. Qed.
End with_libs.
