(** * PropsZI: C82, C83: wider types and fewer fields. *)
From stdpp Require Import sorting.
From Verif Require Import Base Utf8 Value DataTypes Records Parser Wire Spec PropsA Serde SerdeLemmas SerdeSpec
  Reading Widening Made PropsG PropsH PropsI PropsL PropsU PropsZH.
From Coq Require Import Lia.
From Coq Require Strings.String.
Import String.StringSyntax.

Section with_libs.
Context {DL : DecimalLib} {FL : FloatLib}.

(** Whatever is read as a type without structs can be skipped. *)
Lemma structless_ignored v : forall t d, structless t -> reads v t d -> reads v T_ignored D_ignored.
Proof.
  induction v as [v IH] using value_below_ind. intros t. induction t as [| | | | | | | | |t IHt| | | | | | | |]; intros d Hs Hr;
    inversion Hr as [? ? ? ? Hh Hcv|? ? ? ? p e ? ? Hw Hc Hrp Hp Hcv| | | |? ? ? Hnn Hrt|? ? ? ? He Hf|? ? He Hf|? ? ? ? He Hl Hf|? ? ? ? He Hre|? ? ? Hl Hf|? ? ? ? ? Hf Hi|? ? ? ? ? ? Hpl Hf Hso Hpm|? ? ? Hpl Hf| |? ? ? He Hf|? ? ? ? ? Hpl Hf Hso Hpm]; subst;
    try (by eapply R_scalar; [exact Hh|constructor]);
    try (by eapply R_wrapper; [exact Hw|exact Hc|exact Hrp|exact Hp|constructor]);
    try exact Hr; try apply R_null_ignored.
  - eapply IHt; [|exact Hrt]. by inversion Hs.
  - apply (R_seq_ignored _ vs He). apply Forall_forall. intros u Hu. apply elem_of_list_lookup in Hu as [j Hj].
    destruct (Forall2_lookup_l _ _ _ _ _ Hf Hj) as (x & _ & Hx). apply elem_of_list_lookup_2 in Hj.
    eapply IH; [by eapply any_elements_below|by inversion Hs|exact Hx].
  - apply (R_seq_ignored _ vs (A_elements _ _ He)).
    assert (Forall structless ts) as Hts by (inversion Hs; by subst).
    assert (forall u, u ∈ vs -> forall t d, structless t -> reads u t d -> reads u T_ignored D_ignored) as IHv.
    { intros u Hu. apply IH. by eapply any_elements_below; [apply A_elements|]. }
    clear -Hl Hf Hts IHv. revert ts ds Hl Hf Hts. induction vs as [|u vs IHvs]; intros [|t ts] ds Hl Hf Hts; try done.
    apply Forall_cons in Hts as [Ht Hts]. inversion Hf as [|? ? ? ? H1 H2]; subst; constructor.
    + eapply (IHv u); [by left|exact Ht|exact H1].
    + refine (IHvs _ ts _ _ H2 Hts); [|cbn in Hl; lia]. intros u' Hu'. apply IHv. by right.
  - eapply R_map_ignored; [done|]. apply Forall_forall. intros [k u] Hu. pose proof Hu as Hin.
    apply elem_of_list_lookup in Hu as [j Hj]. destruct (Forall2_lookup_l _ _ _ _ _ Hf Hj) as (x & _ & Hx).
    eapply IH; [by eapply below_member|by inversion Hs|exact Hx].
  - inversion Hs. by subst.
  - inversion Hs. by subst.
  - apply (R_seq_ignored _ [u] (A_elements _ _ He)). apply Forall_cons_2; [|constructor].
    eapply IH; [eapply any_elements_below; [by apply A_elements|by left]|by inversion Hs|exact Hre].
  - apply (R_seq_ignored _ vs He). apply Forall_forall. intros u Hu. apply elem_of_list_lookup in Hu as [j Hj].
    destruct (Forall2_lookup_l _ _ _ _ _ Hf Hj) as (x & _ & Hx). apply elem_of_list_lookup_2 in Hj.
    eapply IH; [by eapply any_elements_below|exact Hs|exact Hx].
  - eapply R_map_ignored; [done|]. apply Forall_forall. intros [k u] Hu. pose proof Hu as Hin.
    apply elem_of_list_lookup in Hu as [j Hj]. destruct (Forall2_lookup_l _ _ _ _ _ Hf Hj) as (x & _ & Hx).
    eapply IH; [by eapply below_member|exact Hs|exact Hx].
Qed.

(** Scalars. *)
Definition leaf_widens (t t' : target) : Prop :=
  match t, t' with
  | T_int k, T_int k' => forall z, in_int k z -> in_int k' z
  | T_int _, T_f32 | T_int _, T_f64 | T_f32, T_f64 | T_str, T_string | T_char, T_string
  | T_bytes, T_str | T_bytes, T_string => True
  | _, _ => False
  end.
Lemma converts_widens e t t' d : leaf_widens t t' -> converts e t d -> exists d', converts e t' d' /\ widened d d'.
Proof.
  intros Hl Hc. destruct Hc; destruct t'; try done; try (eexists; split; [by constructor|constructor]; fail).
  eexists. split; [constructor; by apply Hl|constructor].
Qed.
Lemma leaf_reads v t t' d : leaf_widens t t' -> reads v t d -> exists d', reads v t' d' /\ widened d d'.
Proof.
  intros Hl Hr. inversion Hr; subst; try (by destruct t').
  - edestruct converts_widens as (d' & Hc & Hd); [exact Hl|eassumption|]. exists d'. split; [by eapply R_scalar|done].
  - edestruct converts_widens as (d' & Hc & Hd); [exact Hl|eassumption|]. exists d'. split; [by eapply R_wrapper|done].
Qed.

Lemma forall2_permutation {A B} (R : A -> B -> Prop) (l m : list A) (k : list B) : Forall2 R l k -> m ≡ₚ l ->
  exists m', Forall2 R m m' /\ m' ≡ₚ k.
Proof.
  intros HR Hp. symmetry in Hp. revert k HR. induction Hp as [|x l m Hp IH|x y l|l1 l2 l3 _ IH1 _ IH2]; intros k HR.
  - exists k. by inversion HR; subst.
  - inversion HR as [|? z ? k' Hxz Hk]; subst. destruct (IH _ Hk) as (m' & Hm & Hpm). exists (z :: m'). split; [by constructor|by rewrite Hpm].
  - inversion HR as [|? a ? k' Ha Hk]; subst. inversion Hk as [|? b ? k'' Hb Hk']; subst.
    exists (b :: a :: k''). split; [by constructor; [|constructor]|apply Permutation_swap].
  - destruct (IH1 _ HR) as (m1 & H1 & P1). destruct (IH2 _ H1) as (m2 & H2 & P2). exists m2. split; [done|by rewrite P2].
Qed.
Lemma sorted_same_keys {V U} (m : list (str * V)) (m' : list (str * U)) : map fst m = map fst m' -> sorted_keys m -> sorted_keys m'.
Proof.
  unfold sorted_keys. revert m'. induction m as [|[k v] m IH]; intros [|[k' v'] m'] Hk Hs; [constructor|done|done|].
  cbn in Hk. injection Hk as <- Hk. inversion Hs as [|? ? Hs' Hf]; subst. constructor; [by apply IH|].
  clear -Hk Hf. revert m' Hk. induction m as [|[a v1] m IH]; intros [|[a' v1'] m'] Hk; try done.
  cbn in Hk. injection Hk as <- Hk. apply Forall_cons in Hf as [H1 H2]. constructor; [exact H1|by apply IH].
Qed.
Lemma each_widens (vs : list value) ds (P Q : value -> data -> Prop) : Forall2 P vs ds ->
  (forall u d, u ∈ vs -> P u d -> exists d', Q u d' /\ widened d d') ->
  exists ds', Forall2 Q vs ds' /\ Forall2 widened ds ds'.
Proof.
  induction 1 as [|u d vs ds Hp Hf IH]; intros H; [by exists []|].
  destruct (H u d) as (d' & Hq & Hd); [by left|done|]. destruct IH as (ds' & Hqs & Hds).
  { intros u' d1 Hu. apply H. by right. }
  exists (d' :: ds'). split; by constructor.
Qed.
Lemma each_widens_typed (vs : list value) (ts ts' : list target) ds (R : target -> target -> Prop) :
  length vs = length ts -> Forall2 (fun ut d => reads ut.1 ut.2 d) (zip vs ts) ds -> Forall2 R ts ts' ->
  (forall u t t' d, u ∈ vs -> R t t' -> reads u t d -> exists d', reads u t' d' /\ widened d d') ->
  exists ds', Forall2 (fun ut d => reads ut.1 ut.2 d) (zip vs ts') ds' /\ Forall2 widened ds ds'.
Proof.
  intros Hl Hf HR H. revert vs ds Hl Hf H. induction HR as [|t t' ts ts' Ht HR IH]; intros [|u vs] ds Hl Hf H; try done.
  - inversion Hf; subst. exists []. split; constructor.
  - inversion Hf as [|? d ? ds1 H1 H2]; subst. cbn in H1. destruct (H u t t' d) as (d' & Hq & Hd); [by left|done|done|].
    destruct (IH vs ds1) as (ds' & Hqs & Hds); [cbn in Hl; lia|done|intros u' t1 t2 d1 Hu; apply H; by right|].
    exists (d' :: ds'). split; by constructor.
Qed.

Lemma widens_reads v : forall t' t d, widens t t' -> reads v t d -> exists d', reads v t' d' /\ widened d d'.
Proof.
  induction v as [v IH] using value_below_ind. intros t'. induction t' as [| | | | | | | | |t' IHt| | | | | | | |]; intros t d Hw Hr;
    inversion Hw as [|? ? Hk|?|?| | | | | |t1 t1' Hnn Hw1|t1 t1' Hw1|t1 t1' Hw1|t1 t1' Hw1|t1 t1' Hw1|tsa tsb Hws|tsa tb Hws|fsa fsb Hws|t1 Hsl]; subst;
    try (by exists d; split; [exact Hr|constructor]);
    try (eapply leaf_reads; [|exact Hr]; done).
  - (* T to Option<T> *) destruct (IHt _ _ Hw1 Hr) as (d' & Hd & Hwd). exists (D_some d'). split; [|by constructor].
    apply R_some; [|done]. intros ->. destruct t; try done; inversion Hr as [? ? ? ? Hh| | | | | |? ? ? ? He|? ? He|? ? ? ? He|? ? ? ? He| | | | | | |]; subst;
      try (inversion Hh); try (inversion He; subst; try done; match goal with HH : elements VNull _ |- _ => inversion HH end).
  - (* Option *) inversion Hr as [? ? ? ? Hh Hcv|? ? ? ? ? ? ? ? _ _ _ _ Hcv| | | |? ? d1 Hnn Hrt| | | | | | | | | | |]; subst;
      try (inversion Hcv; fail).
    + exists D_none. split; constructor.
    + destruct (IHt _ _ Hw1 Hrt) as (d' & Hd & Hwd). exists (D_some d'). split; [by constructor|by apply WD_option].
  - (* Vec *) inversion Hr as [? ? ? ? Hh Hcv|? ? ? ? ? ? ? ? _ _ _ _ Hcv| | | | |? vs ? ds He Hf| | | | | | | | | |]; subst;
      try (inversion Hcv; fail).
    destruct (each_widens vs ds _ (fun u d => reads u t' d) Hf) as (ds' & Hq & Hd).
    { intros u d Hu Hd. eapply IH; [by eapply any_elements_below|exact Hw1|exact Hd]. }
    exists (D_seq ds'). split; [by eapply R_vec|by constructor].
  - (* tuple to Vec *) inversion Hr as [? ? ? ? Hh Hcv|? ? ? ? ? ? ? ? _ _ _ _ Hcv| | | | | | |? vs ? ds He Hl Hf| | | | | | | |]; subst;
      try (inversion Hcv; fail).
    destruct (each_widens_typed vs tsa (replicate (length tsa) t') ds (fun t t2 => widens t t2 /\ t2 = t') Hl Hf) as (ds' & Hq & Hd).
    { clear -Hws. induction Hws; cbn; constructor; done. }
    { intros u t t2 d Hu [Hwt ->] Hd. eapply IH; [|exact Hwt|exact Hd]. eapply any_elements_below; [by apply A_elements|done]. }
    exists (D_seq ds'). split; [|by constructor]. apply (R_vec _ vs); [by apply A_elements|].
    clear -Hl Hq. revert tsa ds' Hl Hq. induction vs as [|u vs IHvs]; intros [|t ts] ds' Hl Hq; try done.
    + inversion Hq; subst. constructor.
    + cbn in Hq. inversion Hq; subst. constructor; [done|]. eapply (IHvs ts); [cbn in Hl; lia|done].
  - (* tuple *) inversion Hr as [? ? ? ? Hh Hcv|? ? ? ? ? ? ? ? _ _ _ _ Hcv| | | | | | |? vs ? ds He Hl Hf| | | | | | | |]; subst;
      try (inversion Hcv; fail).
    edestruct (each_widens_typed vs tsa) as (ds' & Hq & Hd); [exact Hl|exact Hf|exact Hws| |].
    { intros u t t2 d Hu Hwt Hd. eapply IH; [|exact Hwt|exact Hd]. eapply any_elements_below; [by apply A_elements|done]. }
    exists (D_seq ds'). split; [|by constructor]. eapply R_tuple; [done| |done]. by rewrite Hl, (Forall2_length _ _ _ Hws).
  - (* map *) inversion Hr as [? ? ? ? Hh Hcv|? ? ? ? ? ? ? ? _ _ _ _ Hcv| | | | | | | | | | |class library ms ? m ds Hpl Hf Hso Hpm| | | |]; subst;
      try (inversion Hcv; fail).
    assert (exists ds', Forall2 (fun kv d => reads kv.2 t' d) ms ds' /\ Forall2 widened ds ds') as (ds' & Hq & Hd).
    { assert (forall k u, (k, u) ∈ ms -> forall d, reads u t1 d -> exists d', reads u t' d' /\ widened d d') as IHm.
      { intros k u Hu d. apply IH; [by eapply below_member|done]. }
      clear -Hf IHm. induction Hf as [|[k u] d ms ds Hp Hf IHf]; [by exists []|].
      destruct (IHm k u ltac:(by left) d Hp) as (d' & Hq & Hd). destruct IHf as (ds' & Hqs & Hds).
      { intros k' u' Hu. apply (IHm k'). by right. }
      exists (d' :: ds'). split; by constructor. }
    assert (Forall2 (fun a b => a.1 = b.1 /\ widened a.2 b.2) (zip (map fst ms) ds) (zip (map fst ms) ds')) as Hz.
    { clear -Hd. revert ms. induction Hd as [|d d' ds ds' H Hd IHd]; intros [|kv ms]; cbn; constructor; [done|apply IHd]. }
    destruct (forall2_permutation _ _ m _ Hz Hpm) as (m' & Hm & Hp'). exists (D_map m'). split; [|by constructor].
    eapply R_map; [done|exact Hq| |exact Hp']. eapply sorted_same_keys; [|exact Hso].
    clear -Hm. induction Hm as [|a b m m' [Hab _] Hm IHm]; [done|]. cbn. by rewrite Hab, IHm.
  - (* struct *) 
    assert (map fst fsa = map fst fields) as Hn.
    { clear -Hws. induction Hws as [|f f' fs fs' [Hff _] Hws IHw]; [done|]. cbn. by rewrite Hff, IHw. }
    assert (forall ds ds', Forall2 widened ds ds' -> widened (D_struct (zip (map fst fsa) ds)) (D_struct (zip (map fst fields) ds'))) as Hz.
    { intros ds ds' Hd. rewrite <- Hn. constructor. clear -Hd. generalize (map fst fsa). induction Hd; intros [|k ks]; cbn; constructor; done. }
    inversion Hr as [? ? ? ? Hh Hcv|? ? ? ? ? ? ? ? _ _ _ _ Hcv| | | | | | | | |vs ? ds Hl Hf|class library ms ? ds Hf Hi| | | | |]; subst;
      try (inversion Hcv; fail).
    + assert (exists ds', Forall2 (fun uf d => reads uf.1 uf.2.2 d) (zip vs fields) ds' /\ Forall2 widened ds ds') as (ds' & Hq & Hd).
      { assert (forall u, u ∈ vs -> forall t' t d, widens t t' -> reads u t d -> exists d', reads u t' d' /\ widened d d') as IHv.
        { intros u Hu. apply IH. by apply below_element. }
        clear -Hf Hl Hws IHv. revert vs ds Hl Hf IHv. induction Hws as [|f f' fs fs' (_ & Hff & _) Hws IHw]; intros [|u vs] ds Hl Hf IHv; try done.
        - inversion Hf; subst. by exists [].
        - inversion Hf as [|? d ? ds1 H1 H2]; subst. cbn in H1. destruct (IHv u ltac:(by left) _ _ _ Hff H1) as (d' & Hq & Hd).
          destruct (IHw vs ds1) as (ds' & Hqs & Hds); [cbn in Hl; lia|done|intros u' Hu; apply IHv; by right|].
          exists (d' :: ds'). split; by constructor. }
      eexists. split; [|by apply Hz]. apply R_struct_array; [|done]. by rewrite Hl, (Forall2_length _ _ _ Hws).
    + assert (exists ds', Forall2 (fun f d => (exists u, (f.1, u) ∈ ms /\ reads u f.2 d)
                        \/ (f.1 ∉ map fst ms /\ (exists t, f.2 = T_option t) /\ d = D_none)) fields ds' /\ Forall2 widened ds ds') as (ds' & Hq & Hd).
      { assert (forall k u, (k, u) ∈ ms -> forall t' t d, widens t t' -> reads u t d -> exists d', reads u t' d' /\ widened d d') as IHm.
        { intros k u Hu. apply IH. by eapply below_member. }
        clear -Hf Hws IHm. revert ds Hf. induction Hws as [|f f' fs fs' (Hff & Hwf & Hop) Hws IHw]; intros ds Hf.
        - inversion Hf; subst. by exists [].
        - inversion Hf as [|? d ? ds1 H1 H2]; subst. destruct (IHw ds1 H2) as (ds' & Hqs & Hds). rewrite Hff in H1.
          destruct H1 as [(u & Hu & H1)|(Hno & Ho & ->)].
          + destruct (IHm _ _ Hu _ _ _ Hwf H1) as (d' & Hq & Hd). exists (d' :: ds'). split; [|by constructor].
            constructor; [|done]. left. by exists u.
          + exists (D_none :: ds'). split; [|constructor; [constructor|done]]. constructor; [|done]. right.
            split; [done|]. split; [by apply Hop|done]. }
      eexists. split; [|by apply Hz]. apply R_struct; [done|]. by rewrite <- Hn.
  - (* newtype *) inversion Hr as [? ? ? ? Hh Hcv|? ? ? ? ? ? ? ? _ _ _ _ Hcv| | | | | | | |? u ? d1 He Hre| | | | | | |]; subst;
      try (inversion Hcv; fail).
    destruct (IH u) with (t' := t') (t := t1) (d := d1) as (d' & Hq & Hd); [|done|done|].
    { eapply any_elements_below; [by apply A_elements|by left]. }
    exists (D_newtype d'). split; [by eapply R_newtype|by constructor].
  - (* ignored *) exists D_ignored. split; [|constructor]. by eapply structless_ignored.
Qed.

(** ** C82 Types may be widened *)

(** (An [Option] at the top level is an error unless the message is null, C45.) *)
Theorem C82_wider_types : decimal_text -> forall W t t' d, rust_type t -> rust_type t' -> widens t t' ->
  (forall u', t' = T_option u' -> exists u, t = T_option u) ->
  from_slice t W = FOk d -> exists d', from_slice t' W = FOk d' /\ widened d d'.
Proof.
  intros Hdec W t t' d Ht Ht' Hw Ho H. apply C56_exact in H as (v & HW & Hr); [|done|done].
  assert (exists d', reads v t' d' /\ widened d d') as (d' & Hr' & Hd).
  { eapply widens_reads; [exact Hw|]. destruct Hr; [constructor|done]. }
  assert ((exists u', t' = T_option u') \/ no_option t') as [[u' ->]|Hno].
  { destruct t' as [| | | | | | | | |u| | | | | | | |]; try (right; intros u' [=]; fail). left. by exists u. }
  - destruct (Ho u' eq_refl) as [u ->]. inversion Hr as [|? ? ? Hno]; subst; [|by destruct (Hno u)].
    exists D_none. split; [|constructor]. apply C56_exact; [done|done|]. exists VNull. split; [done|constructor].
  - exists d'. split; [|done]. apply C56_exact; [done|done|]. exists v. split; [done|by constructor].
Qed.
(** The same for messages that a program made. *)
Theorem C82_made : decimal_text -> forall v t t' d, rust_value v -> rust_type t -> rust_type t' -> widens t t' ->
  (forall u', t' = T_option u' -> exists u, t = T_option u) ->
  message_deserialize (MValue v) t = SOk d -> exists d', message_deserialize (MValue v) t' = SOk d' /\ widened d d'.
Proof.
  intros Hdec v t t' d Hv Ht Ht' Hw Ho Hr. apply C81_rules in Hr; [|done..].
  assert (exists d', reads v t' d' /\ widened d d') as (d' & Hr' & Hd).
  { eapply widens_reads; [exact Hw|]. destruct Hr; [constructor|done]. }
  assert ((exists u', t' = T_option u') \/ no_option t') as [[u' ->]|Hno].
  { destruct t' as [| | | | | | | | |u| | | | | | | |]; try (right; intros u' [=]; fail). left. by exists u. }
  - destruct (Ho u' eq_refl) as [u ->]. inversion Hr as [|? ? ? Hno]; subst; [|by destruct (Hno u)].
    exists D_none. split; [|constructor]. apply C81_rules; [done..|constructor].
  - exists d'. split; [|done]. apply C81_rules; [done..|by constructor].
Qed.

(** The struct { x: u8, y: Option<&str> } read as { x: Option<f64>, y: Option<String> }. *)
Definition ex_narrow : target := T_struct [(lit "x", T_int U8); (lit "y", T_option T_str)].
Definition ex_wide : target := T_struct [(lit "x", T_option T_f64); (lit "y", T_option T_string)].
Example C82_ex : rust_type ex_narrow /\ rust_type ex_wide /\ widens ex_narrow ex_wide
  /\ from_slice ex_narrow ex_struct = FOk (D_struct [(lit "x", D_int 5); (lit "y", D_some (D_str (lit "s")))])
  /\ from_slice ex_wide ex_struct = FOk (D_struct [(lit "x", D_some (D_f64 (int_as_f64 5))); (lit "y", D_some (D_str (lit "s")))]).
Proof.
  split_and!.
  - apply TT_struct; [apply (bool_decide_unpack _); vm_compute; exact I|].
    apply Forall_cons_2; [by constructor|]. apply Forall_cons_2; [constructor; by constructor|constructor].
  - apply TT_struct; [apply (bool_decide_unpack _); vm_compute; exact I|].
    apply Forall_cons_2; [constructor; by constructor|]. apply Forall_cons_2; [constructor; by constructor|constructor].
  - apply W_struct. constructor; [|constructor; [|constructor]].
    + split; [done|]. split; [by apply W_some; [|constructor]|]. intros [u Hu]. discriminate.
    + split; [done|]. split; [by apply W_option; constructor|]. intros _. by exists T_string.
  - vm_compute. reflexivity.
  - vm_compute. reflexivity.
Qed.

(** ** C83 Fields may be left out, reordered and added *)

Lemma forall2_zip_in {A} (R : str * A -> data -> Prop) fs ds f : Forall2 R fs ds -> f ∈ fs ->
  exists d, (f.1, d) ∈ zip (map fst fs) ds /\ R f d.
Proof.
  induction 1 as [|g d fs ds Hg Hf IH]; [by intros ?%elem_of_nil|]. intros [->|Hin]%elem_of_cons.
  - exists d. split; [left|done].
  - destruct (IH Hin) as (d' & Hd & HR). exists d'. split; [by right|done].
Qed.
Lemma zip_names {A} (R : str * A -> data -> Prop) fs ds : Forall2 R fs ds -> map fst (zip (map fst fs) ds) = map fst fs.
Proof. induction 1 as [|f d fs ds _ Hf IH]; [done|]. cbn. by rewrite IH. Qed.

Lemma names_unique {V} (m : list (str * V)) k u v : NoDup (map fst m) -> (k, u) ∈ m -> (k, v) ∈ m -> u = v.
Proof.
  induction m as [|[k' w] m IH]; [by intros _ ?%elem_of_nil|]. cbn. intros [Hn Hd]%NoDup_cons [Eu|Hu]%elem_of_cons [Ev|Hv]%elem_of_cons.
  - congruence.
  - injection Eu as -> ->. destruct Hn. by eapply map_fst_in.
  - injection Ev as -> ->. destruct Hn. by eapply map_fst_in.
  - by apply IH.
Qed.
Lemma fields_reads class library ms fs fs' l :
  NoDup (map fst ms) -> reads (VObject (mkObj class library ms)) (T_struct fs) (D_struct l) ->
  Forall (field_of ms fs) fs' -> Forall (fun f => f.1 ∈ map fst fs' \/ structless f.2) fs ->
  exists l', reads (VObject (mkObj class library ms)) (T_struct fs') (D_struct l')
    /\ map fst l' = map fst fs' /\ Forall (field_kept l) l'.
Proof.
  intros Hn Hr Hk Hd.
  inversion Hr as [? ? ? ? Hh Hcv|? ? ? ? ? ? ? ? _ _ _ _ Hcv| | | | | | | | | |? ? ? ? ds Hf Hi| | | | |]; subst; try (inversion Hcv; fail).
  assert (exists ds', Forall2 (fun f d => (exists u, (f.1, u) ∈ ms /\ reads u f.2 d)
                        \/ (f.1 ∉ map fst ms /\ (exists t, f.2 = T_option t) /\ d = D_none)) fs' ds'
    /\ Forall (field_kept (zip (map fst fs) ds)) (zip (map fst fs') ds')) as (ds' & Hq & Hkept).
  { clear Hd. induction Hk as [|[k t'] fs' Hk _ IH]; [exists []; split; constructor|]. destruct IH as (ds' & Hq & Hkept).
    destruct Hk as [(t & Hin & Hwt & Ho)|(Hno & Hnm & Ho)]; cbn [fst snd] in *.
    - destruct (forall2_zip_in _ _ _ (k, t) Hf Hin) as (d & Hz & [(u & Hu & Hru)|(Hnm & Ht & ->)]); cbn [fst snd] in *.
      + destruct (widens_reads _ _ _ _ Hwt Hru) as (d' & Hd' & Hwd). exists (d' :: ds'). split.
        * constructor; [left; by exists u|done].
        * cbn. constructor; [|done]. left. by exists d.
      + exists (D_none :: ds'). split.
        * constructor; [right; split_and!; [done|by apply Ho|done]|done].
        * cbn. constructor; [|done]. left. exists D_none. split; [done|constructor].
    - exists (D_none :: ds'). split.
      + constructor; [right; split_and!; done|done].
      + cbn. constructor; [|done]. right. split; [|done]. cbn [fst]. by rewrite (zip_names _ _ _ Hf). }
  exists (zip (map fst fs') ds'). split_and!; [|by eapply zip_names|done]. apply R_struct; [done|].
  apply Forall_forall. intros [k u] Hu. rewrite Forall_forall in Hi. destruct (Hi _ Hu) as [Hin|Hig]; [|by right].
  cbn [fst snd] in *. apply elem_of_list_fmap in Hin as ([k' t] & -> & Hin). cbn [fst] in *. rewrite Forall_forall in Hd.
  destruct (Hd _ Hin) as [Hl|Hs]; [by left|]. right. cbn [snd] in Hs.
  destruct (forall2_zip_in _ _ _ (k', t) Hf Hin) as (d & _ & [(u' & Hu' & Hru)|(Hnm & _)]); cbn [fst snd] in *.
  - assert (u' = u) as -> by (by eapply names_unique). by eapply structless_ignored.
  - destruct Hnm. by eapply map_fst_in.
Qed.

(** Fields whose types hold no structs may be left out. *)
Theorem C83_fields_partial : decimal_text -> forall v class library ms fs fs' l,
  v = VObject (mkObj class library ms) -> rust_value v -> rust_type (T_struct fs) -> rust_type (T_struct fs') ->
  Forall (field_of ms fs) fs' -> Forall (fun f => f.1 ∈ map fst fs' \/ structless f.2) fs ->
  message_deserialize (MValue v) (T_struct fs) = SOk (D_struct l) ->
  exists l', message_deserialize (MValue v) (T_struct fs') = SOk (D_struct l')
    /\ map fst l' = map fst fs' /\ Forall (field_kept l) l'.
Proof.
  intros Hdec v class library ms fs fs' l -> Hv Ht Ht' Hk Hd Hr. apply C81_rules in Hr; [|done..].
  inversion Hr as [|? ? ? _ Hr1]; subst.
  destruct (fields_reads _ _ _ _ fs' _ (proj1 (Hv _ (sub_here _))) Hr1 Hk Hd) as (l' & Hl & Hn & Hf).
  exists l'. split; [|done]. apply C81_rules; [done..|]. constructor; [intros u; discriminate|done].
Qed.
Theorem C83_received_partial : decimal_text -> forall W class library ms fs fs' l,
  deserialize W = POk (MValue (VObject (mkObj class library ms))) -> rust_type (T_struct fs) -> rust_type (T_struct fs') ->
  Forall (field_of ms fs) fs' -> Forall (fun f => f.1 ∈ map fst fs' \/ structless f.2) fs ->
  from_slice (T_struct fs) W = FOk (D_struct l) ->
  exists l', from_slice (T_struct fs') W = FOk (D_struct l') /\ map fst l' = map fst fs' /\ Forall (field_kept l) l'.
Proof.
  intros Hdec W class library ms fs fs' l HW Ht Ht' Hk Hd H. apply (C81_from_slice _ _ _ _ HW) in H.
  destruct (C83_fields_partial Hdec _ _ _ _ _ _ _ eq_refl (C81_received _ _ HW) Ht Ht' Hk Hd H) as (l' & Hl & Hn & Hf).
  exists l'. split; [|done]. by apply (C81_from_slice _ _ _ _ HW).
Qed.
(** { x: u8, y: Option<&str> } read as { z: Option<u8>, y: Option<String> }. *)
Definition ex_other : list (str * target) := [(lit "z", T_option (T_int U8)); (lit "y", T_option T_string)].
Example C83_ex : exists ms, deserialize ex_struct = POk (MValue (VObject (mkObj (lit "A") None ms)))
  /\ Forall (field_of ms [(lit "x", T_int U8); (lit "y", T_option T_str)]) ex_other
  /\ Forall (fun f => f.1 ∈ map fst ex_other \/ structless f.2) [(lit "x", T_int U8); (lit "y", T_option T_str)]
  /\ from_slice (T_struct ex_other) ex_struct = FOk (D_struct [(lit "z", D_none); (lit "y", D_some (D_str (lit "s")))]).
Proof.
  eexists. split; [vm_compute; reflexivity|]. split_and!.
  - constructor; [|constructor; [|constructor]].
    + right. split_and!; [apply (bool_decide_unpack _); vm_compute; exact I..|by exists (T_int U8)].
    + left. exists (T_option T_str). split_and!; [right; left|apply W_option; constructor|]. intros _. by exists T_string.
  - constructor; [|constructor; [|constructor]]; right; [by constructor|by repeat constructor].
  - vm_compute. reflexivity.
Qed.

(** A field with a struct may not: { a: A, b: u8 } where the object [a] is a System.Int32 whose value
    is a string is read, but without the field [a] it is not: [IgnoredAny] unwraps the value. *)
Definition ex_not_int : bytes :=
  header_bytes 1 (-1) ++ bs_of [2; 1;0;0;0]%N ++ ex_lps (lit "X") ++ bs_of [2;0;0;0]%N ++ ex_lps (lit "a") ++ ex_lps (lit "b")
  ++ bs_of [2; 2;0;0;0]%N ++ ex_lps (lit "System.Int32") ++ bs_of [1;0;0;0]%N ++ ex_lps (lit "m_value")
  ++ bs_of [6; 3;0;0;0; 1;120; 8;8; 7;0;0;0; 11]%N.
Theorem C83_fields_refuted : exists W class library ms fs fs' l,
  deserialize W = POk (MValue (VObject (mkObj class library ms))) /\ rust_type (T_struct fs) /\ rust_type (T_struct fs')
  /\ Forall (field_of ms fs) fs' /\ from_slice (T_struct fs) W = FOk (D_struct l) /\ from_slice (T_struct fs') W = FErr.
Proof.
  eexists ex_not_int, _, _, _, [(lit "a", T_struct [(lit "m_value", T_string)]); (lit "b", T_int U8)], [(lit "b", T_int U8)], _.
  split_and!; [vm_compute; reflexivity| | | |vm_compute; reflexivity|vm_compute; reflexivity].
  - apply TT_struct; [apply (bool_decide_unpack _); vm_compute; exact I|].
    apply Forall_cons_2; [|by repeat constructor]. apply TT_struct; [apply (bool_decide_unpack _); vm_compute; exact I|].
    by repeat constructor.
  - apply TT_struct; [apply (bool_decide_unpack _); vm_compute; exact I|]. by repeat constructor.
  - constructor; [|constructor]. left. exists (T_int U8). split_and!; [right; left|constructor|]. intros [u Hu]. discriminate.
Qed.
End with_libs.
