(** * PropsM: C59 Equality of messages. *)
From Verif Require Import Base Utf8 Value DataTypes Records Parser Wire BaseLemmas Spec Safety LemmasA PropsA
  Serde SerdeLemmas SerdeSpec PropsG PropsH PropsI Equality EqualitySpec.
From Coq Require Import Lia.
From Coq Require Strings.String.
Import String.StringSyntax.

(** ** Floats *)

Section floats.
Context (e m : N).
Local Notation num := (float_number e m).
Lemma nan_iff a : float_nan e m a = true <-> num a = None.
Proof.
  unfold float_nan, float_number. cbn zeta. destruct (N.eqb _ (2 ^ e - 1)); [|done].
  by destruct (N.eqb _ 0).
Qed.
Lemma pow_pos k : (0 < 2 ^ k)%N.
Proof. apply N.neq_0_lt_0. by apply N.pow_nonzero. Qed.
(** The parts of a bit pattern. *)
Lemma parts a : (a = a / 2 ^ (e + m) * 2 ^ (e + m) + (a / 2 ^ m mod 2 ^ e) * 2 ^ m + a mod 2 ^ m)%N.
Proof.
  pose proof (pow_pos e). pose proof (pow_pos m).
  rewrite (N.add_comm e m), N.pow_add_r, <- N.div_div by lia.
  rewrite (N.div_mod' a (2 ^ m)) at 1. rewrite (N.div_mod' (a / 2 ^ m) (2 ^ e)) at 1. nia.
Qed.
Lemma mod_parts a : (a mod 2 ^ (e + m) = (a / 2 ^ m mod 2 ^ e) * 2 ^ m + a mod 2 ^ m)%N.
Proof.
  pose proof (parts a) as H. pose proof (N.div_mod' a (2 ^ (e + m))) as H'. rewrite (N.mul_comm (2 ^ (e + m))) in H'.
  set (x := (a mod 2 ^ (e + m))%N) in *. set (y := (a / 2 ^ (e + m) * 2 ^ (e + m))%N) in *.
  set (z := (a / 2 ^ m mod 2 ^ e * 2 ^ m)%N) in *. set (t := (a mod 2 ^ m)%N) in *. clearbody x y z t. lia.
Qed.
Definition magnitude (E M : N) : N := if N.eqb E 0 then M else ((2 ^ m + M) * 2 ^ (E - 1))%N.
Lemma magnitude_lt E M E' M' : (M < 2 ^ m)%N -> (M' < 2 ^ m)%N -> (E < E')%N -> (magnitude E M < magnitude E' M')%N.
Proof.
  intros H1 H2 H3. unfold magnitude. pose proof (pow_pos m).
  destruct (N.eqb_spec E 0); destruct (N.eqb_spec E' 0); try lia.
  - pose proof (pow_pos (E' - 1)). nia.
  - assert (2 ^ (E' - 1) = 2 ^ (E - 1) * 2 * 2 ^ (E' - 1 - E))%N as ->.
    { rewrite <- (N.mul_1_r 2) at 3. change (2 * 1)%N with (2 ^ 1)%N. rewrite <- !N.pow_add_r. f_equal. lia. }
    pose proof (pow_pos (E - 1)). pose proof (pow_pos (E' - 1 - E)). nia.
Qed.
Lemma magnitude_inj E M E' M' : (M < 2 ^ m)%N -> (M' < 2 ^ m)%N -> magnitude E M = magnitude E' M' -> E = E' /\ M = M'.
Proof.
  intros H1 H2 H. destruct (N.lt_trichotomy E E') as [Hlt|[->|Hlt]].
  - pose proof (magnitude_lt E M E' M' H1 H2 Hlt). lia.
  - split; [done|]. unfold magnitude in H. destruct (N.eqb E' 0); [done|]. pose proof (pow_pos (E' - 1)). nia.
  - pose proof (magnitude_lt E' M' E M H2 H1 Hlt). lia.
Qed.
Lemma magnitude_0 E M : magnitude E M = 0%N <-> E = 0%N /\ M = 0%N.
Proof.
  unfold magnitude. pose proof (pow_pos m). pose proof (pow_pos (E - 1)). destruct (N.eqb_spec E 0); nia.
Qed.
Lemma sum_zero x p y : (0 < p)%N -> (x * p + y = 0 <-> x = 0 /\ y = 0)%N.
Proof. nia. Qed.
(** [a] and [b] are bit patterns of the right width. *)
Lemma float_eqb_iff a b : (0 < e)%N -> (a < 2 ^ (1 + e + m))%N -> (b < 2 ^ (1 + e + m))%N ->
  float_eqb e m a b = true <-> same_number num a b.
Proof.
  intros He Ha Hb. unfold float_eqb, same_number.
  rewrite !andb_true_iff, !negb_true_iff, <- !not_true_iff_false, !nan_iff.
  unfold float_zero. rewrite orb_true_iff, andb_true_iff, !N.eqb_eq, !mod_parts.
  pose proof (parts a) as Pa. pose proof (parts b) as Pb.
  assert (forall x, (x < 2 ^ (1 + e + m))%N -> (x / 2 ^ (e + m) < 2)%N) as Hs.
  { intros x Hx. apply N.div_lt_upper_bound; [pose proof (pow_pos (e + m)); lia|].
    rewrite <- N.add_assoc, N.pow_add_r in Hx. lia. }
  pose proof (Hs a Ha) as Sa. pose proof (Hs b Hb) as Sb. clear Hs.
  assert (forall x, (x mod 2 ^ m < 2 ^ m)%N) as Hm by (intros x; apply N.mod_lt; pose proof (pow_pos m); lia).
  pose proof (Hm a) as Ma. pose proof (Hm b) as Mb. clear Hm.
  assert (0 < 2 ^ e - 1)%N as Hpe.
  { clear - He. assert (2 ^ 1 <= 2 ^ e)%N as H by (apply N.pow_le_mono_r; [done|lia]). change (2 ^ 1)%N with 2%N in H.
    set (x := (2 ^ e)%N) in *. clearbody x. lia. }
  unfold float_number. cbn zeta.
  change (if N.eqb (a / 2 ^ m mod 2 ^ e) 0 then (a mod 2 ^ m)%N else _) with (magnitude (a / 2 ^ m mod 2 ^ e) (a mod 2 ^ m)).
  change (if N.eqb (b / 2 ^ m mod 2 ^ e) 0 then (b mod 2 ^ m)%N else _) with (magnitude (b / 2 ^ m mod 2 ^ e) (b mod 2 ^ m)).
  rewrite !(N.mod_small (_ / 2 ^ (e + m)) 2) by lia.
  set (sa := (a / 2 ^ (e + m))%N) in *. set (sb := (b / 2 ^ (e + m))%N) in *.
  set (ea := (a / 2 ^ m mod 2 ^ e)%N) in *. set (eb := (b / 2 ^ m mod 2 ^ e)%N) in *.
  set (ma := (a mod 2 ^ m)%N) in *. set (mb := (b mod 2 ^ m)%N) in *.
  pose proof (pow_pos m) as Pm.
  rewrite (sum_zero ea (2 ^ m) ma Pm), (sum_zero eb (2 ^ m) mb Pm).
  assert (a = b -> sa = sb /\ ea = eb /\ ma = mb) as Hab by (intros E; subst sa sb ea eb ma mb; by rewrite E).
  assert (sa = sb -> ea = eb -> ma = mb -> a = b) as Hba by (intros; rewrite Pa, Pb; congruence).
  clearbody sa sb ea eb ma mb. clear Pa Pb Ha Hb.
  split.
  - intros [[Na Nb] [E|[[-> ->] [-> ->]]]].
    + destruct (Hab E) as (-> & -> & ->). destruct (N.eqb eb (2 ^ e - 1)).
      * destruct (N.eqb mb 0); [eauto|done].
      * eauto.
    + destruct (N.eqb_spec 0 (2 ^ e - 1)); [lia|]. exists (Finite 0). 
      split; [destruct (N.eqb sa 1)|destruct (N.eqb sb 1)]; reflexivity.
  - intros (x & Xa & Xb). split; [split; congruence|].
    destruct (N.eqb_spec ea (2 ^ e - 1)) as [Ea|Ea]; destruct (N.eqb_spec eb (2 ^ e - 1)) as [Eb|Eb].
    + left. destruct (N.eqb_spec ma 0); [|done]. destruct (N.eqb_spec mb 0); [|done].
      apply Hba; [|congruence|congruence]. assert (N.eqb sa 1 = N.eqb sb 1) as Es by congruence.
      destruct (N.eqb_spec sa 1), (N.eqb_spec sb 1); try done; lia.
    + destruct (N.eqb ma 0); congruence.
    + destruct (N.eqb mb 0); congruence.
    + assert ((if N.eqb sa 1 then - Z.of_N (magnitude ea ma) else Z.of_N (magnitude ea ma))
        = (if N.eqb sb 1 then - Z.of_N (magnitude eb mb) else Z.of_N (magnitude eb mb)))%Z as Ez by congruence.
      assert (magnitude ea ma = magnitude eb mb /\ (sa = sb \/ magnitude ea ma = 0%N)) as [Em Hz].
      { destruct (N.eqb_spec sa 1), (N.eqb_spec sb 1); lia. }
      destruct (magnitude_inj _ _ _ _ Ma Mb Em) as [-> ->].
      destruct Hz as [->|Hz]; [left; by apply Hba|right]. by apply magnitude_0 in Hz.
Qed.
End floats.

(** ** Decimals *)
Lemma dec_eqb_iff a b : dec_eqb a b = true <-> same_decimal a b.
Proof.
  unfold dec_eqb, same_decimal, signed.
  rewrite andb_true_iff, orb_true_iff, !N.eqb_eq, eqb_true_iff.
  rewrite <- !(N2Z.inj_pow 10).
  assert (0 < 10 ^ dec_scale a)%N as Pa by (apply N.neq_0_lt_0; by apply N.pow_nonzero).
  assert (0 < 10 ^ dec_scale b)%N as Pb by (apply N.neq_0_lt_0; by apply N.pow_nonzero).
  set (p := (10 ^ dec_scale a)%N) in *. set (q := (10 ^ dec_scale b)%N) in *. clearbody p q.
  destruct (dec_neg a), (dec_neg b);
    (split; [intros [H [?|?]]; try done|intros H; split; [|try (by left); right]]); nia.
Qed.

(** ** Values *)

(** What the comparison needs to know about its operands. *)
Definition in_range (v : value) : Prop := forall w, sub_value w v -> in_type_range w.
Lemma in_range_member o k v : in_range (VObject o) -> (k, v) ∈ obj_members o -> in_range v.
Proof. intros H Hin w Hw. apply H. by eapply sub_member. Qed.
Lemma in_range_element vs v : in_range (VArray vs) -> v ∈ vs -> in_range v.
Proof. intros H Hin w Hw. apply H. by eapply sub_element. Qed.

Lemma str_eqb_iff a b : str_eqb a b = true <-> a = b.
Proof. unfold str_eqb. by rewrite bool_decide_eq_true. Qed.
Lemma opt_eqb_iff {A} (f : A -> A -> bool) P a b : (forall x y, a = Some x -> b = Some y -> f x y = true <-> P x y) ->
  opt_eqb f a b = true <-> equal_option P a b.
Proof.
  intros H. destruct a as [x|], b as [y|]; cbn; (split; [intros E; try done|inversion 1; subst; try done]).
  - constructor. by apply H.
  - by apply H.
  - constructor.
Qed.
Lemma opt_str_eqb a b : opt_eqb str_eqb a b = true <-> a = b.
Proof.
  rewrite (opt_eqb_iff _ eq) by (intros; apply str_eqb_iff). split; [by inversion 1; subst|].
  intros ->. destruct b; by constructor.
Qed.
Lemma vec_eqb_iff {A} (f : A -> A -> bool) P a b : (forall x y, x ∈ a -> y ∈ b -> f x y = true <-> P x y) ->
  vec_eqb f a b = true <-> Forall2 P a b.
Proof.
  revert b. induction a as [|x a IH]; intros [|y b] H; cbn;
    try (split; [done|by inversion 1]).
  rewrite andb_true_iff, H, IH by (try (by left); intros; apply H; by right).
  split; [intros [? ?]; by constructor|by inversion 1; subst].
Qed.
Lemma map_all_iff {A} (f : A -> A -> bool) b a :
  map_all f b a = true <-> forall k x, (k, x) ∈ a -> exists y, hm_get k b = Some y /\ f x y = true.
Proof.
  induction a as [|[k x] a IH]; cbn.
  - split; [|done]. intros _ k x Hin. by apply elem_of_nil in Hin.
  - rewrite andb_true_iff, IH. split.
    + intros [H1 H2] k' x' [[= -> ->]|Hin]%elem_of_cons; [|by apply H2].
      destruct (hm_get k b) as [y|]; [|done]. by exists y.
    + intros H. split; [|intros k' x' Hin; apply H; by right].
      destruct (H k x) as (y & -> & Hy); [by left|done].
Qed.
Lemma map_eqb_iff {A} (f : A -> A -> bool) (P : A -> A -> Prop) a b : NoDup (map fst a) -> NoDup (map fst b) ->
  (forall k x y, (k, x) ∈ a -> (k, y) ∈ b -> f x y = true <-> P x y) ->
  map_eqb f a b = true <-> map fst a ≡ₚ map fst b /\ (forall k x y, (k, x) ∈ a -> (k, y) ∈ b -> P x y).
Proof.
  intros Na Nb H. unfold map_eqb. rewrite andb_true_iff, Nat.eqb_eq, map_all_iff. split.
  - intros [Hl Ha]. split.
    + apply submseteq_Permutation_length_eq; [rewrite !map_length; lia|].
      apply NoDup_submseteq; [done|]. intros k Hk. apply elem_of_list_fmap in Hk as ([k' x] & -> & Hin).
      destruct (Ha k' x Hin) as (y & Hy & _). apply hm_get_in in Hy. by apply map_fst_in in Hy.
    + intros k x y Hx Hy. destruct (Ha k x Hx) as (y' & Hy' & Hf). apply hm_get_nodup in Hy; [|done].
      assert (y' = y) as -> by congruence. apply (H k x y Hx); [by apply hm_get_in|done].
  - intros [Hp HP]. split; [apply Permutation_length in Hp; by rewrite !map_length in Hp|].
    intros k x Hx. assert (k ∈ map fst b) as Hk by (rewrite <- Hp; by eapply map_fst_in).
    apply elem_of_list_fmap in Hk as ([k' y] & -> & Hy). exists y. split; [by apply hm_get_nodup|].
    cbn in Hx. apply (H k' x y Hx Hy). by eapply HP.
Qed.
Lemma value_eqb_iff v : forall w, in_range v -> in_range w -> value_eqb v w = true <-> equal v w.
Proof.
  induction v as [[c l ms] IH|vs IH|v Hv] using value_ind'; intros w Rv Rw.
  - destruct w as [[c' l' ns]| | | | | | | | | | | | | | | | | |];
      try (split; [done|by inversion 1; subst]). cbn [value_eqb].
    rewrite !andb_true_iff, str_eqb_iff, opt_str_eqb. cbn in IH. rewrite Forall_forall in IH.
    rewrite (map_eqb_iff _ equal).
    + split; [intros [[-> ->] [H1 H2]]; by constructor|]. 
      inversion 1 as [? Hm| | | | |? ? ? ? H1 H2]; subst; done.
    + exact (Rv _ (sub_here _)).
    + exact (Rw _ (sub_here _)).
    + intros k x y Hx Hy. apply (IH (k, x)); [done|exact (in_range_member _ k x Rv Hx)|exact (in_range_member _ k y Rw Hy)].
  - destruct w as [|ws| | | | | | | | | | | | | | | | |];
      try (split; [done|by inversion 1; subst]). cbn [value_eqb]. rewrite Forall_forall in IH.
    rewrite (vec_eqb_iff _ equal).
    + split; [by constructor|by inversion 1; subst].
    + intros x y Hx Hy. apply IH; [done|exact (in_range_element _ x Rv Hx)|exact (in_range_element _ y Rw Hy)].
  - pose proof (Rv v (sub_here v)) as Iv. pose proof (Rw w (sub_here w)) as Iw.
    destruct v; try done; destruct w; try (split; [done|by inversion 1; subst]); cbn [value_eqb in_type_range] in *;
      rewrite ?eqb_true_iff, ?N.eqb_eq, ?Z.eqb_eq, ?str_eqb_iff, ?dec_eqb_iff;
      try (split; [intros ->; by constructor|by inversion 1; subst]).
    + split; [by constructor|by inversion 1; subst].
    + unfold f64_eqb. rewrite float_eqb_iff by done. split; [by constructor|by inversion 1; subst].
    + unfold f32_eqb. rewrite float_eqb_iff by done. split; [by constructor|by inversion 1; subst].
    + split; [intros _; by constructor|done].
Qed.

(** ** Messages *)

Section messages.
Context {DL : DecimalLib}.

Definition message_range (m : message) : Prop := forall v, value_in v m -> in_type_range v.
Lemma message_range_value m v : message_range m -> v ∈ message_values m -> in_range v.
Proof. intros H Hv w Hw. apply H. by exists v. Qed.
Lemma message_eqb_iff m m' : message_range m -> message_range m' -> message_eqb m m' = true <-> equal_message m m'.
Proof.
  intros R R'.
  assert (forall v w, v ∈ message_values m -> w ∈ message_values m' -> value_eqb v w = true <-> equal v w) as H.
  { intros v w Hv Hw. apply value_eqb_iff; [exact (message_range_value m v R Hv)|exact (message_range_value m' w R' Hw)]. }
  clear R R'. destruct m as [[n t c a]|[v c a]|v], m' as [[n' t' c' a']|[v' c' a']|v'];
    try (split; [done|by inversion 1; subst]); cbn [message_eqb message_values mc_method_name mc_type_name
      mc_call_context mc_args mr_return_value mr_call_context mr_args] in *.
  - rewrite !andb_true_iff, !str_eqb_iff, opt_str_eqb, (opt_eqb_iff _ (Forall2 equal)).
    + split; [intros [[[-> ->] ->] Ha]; by constructor|by inversion 1; subst].
    + intros x y -> ->. by apply vec_eqb_iff.
  - rewrite !andb_true_iff, opt_str_eqb, (opt_eqb_iff _ (Forall2 equal)), (opt_eqb_iff _ equal).
    + split; [intros [[Hv ->] Ha]; by constructor|by inversion 1; subst].
    + intros x y -> ->. apply H; apply elem_of_app; left; by left.
    + intros x y -> ->. apply vec_eqb_iff. intros v1 v2 Hv1 Hv2. apply H; apply elem_of_app; by right.
  - rewrite H by by left. split; [by constructor|by inversion 1; subst].
Qed.
(** C59: [m == m'] on parsed messages: floats and decimals are compared as numbers, objects
    whatever the order of their members, everything else exactly. *)
Theorem C59_equal W W' m m' : deserialize W = POk m -> deserialize W' = POk m' ->
  message_eqb m m' = true <-> equal_message m m'.
Proof. intros H H'. apply message_eqb_iff; intros v; [apply (result_range W m v H)|apply (result_range W' m' v H')]. Qed.

(** [==] is symmetric and transitive, on all values. *)
Lemma equal_sym v : forall w, equal v w -> equal w v.
Proof.
  induction v as [[c l ms] IH|vs IH|v Hv] using value_ind'; intros w H.
  - inversion H as [? Hm| | | | |? ? ? ns H1 H2]; subst; [done|]. constructor; [by symmetry|].
    intros k x y Hx Hy. cbn in IH. rewrite Forall_forall in IH. apply (IH (k, y)); [done|]. by eapply H2.
  - inversion H as [? Hm| | | |? ws H1|]; subst; [done|]. constructor. apply Forall2_flip.
    eapply Forall2_impl_in; [exact H1|]. intros x y Hx Hy Hxy. rewrite Forall_forall in IH. by apply IH.
  - inversion H as [? Hm|a b (x & H1 & H2)|a b (x & H1 & H2)|a b H1| |]; subst; try done; constructor; try done;
      try (exists x; done).
Qed.
Lemma equal_trans v : forall w u, equal v w -> equal w u -> equal v u.
Proof.
  induction v as [[c l ms] IH|vs IH|v Hv] using value_ind'; intros w u H H'.
  - inversion H as [? Hm| | | | |? ? ? ns H1 H2]; subst; [done|].
    inversion H' as [? Hm| | | | |? ? ? us H3 H4]; subst; [done|]. constructor; [by transitivity (map fst ns)|].
    intros k x y Hx Hy. cbn in IH. rewrite Forall_forall in IH.
    assert (k ∈ map fst ns) as Hk by (rewrite <- H1; by eapply map_fst_in).
    apply elem_of_list_fmap in Hk as ([k' z] & -> & Hz). cbn in *.
    apply (IH (k', x) Hx z y); [by eapply H2|by eapply H4].
  - inversion H as [? Hm| | | |? ws H1|]; subst; [done|]. inversion H' as [? Hm| | | |? us H2|]; subst; [done|].
    constructor. clear H H'. revert us H2. induction H1 as [|x y vs ws Hxy H1 IH1]; intros us H2;
      inversion H2 as [|? z ? us' Hyz H2']; subst; constructor.
    + apply (Forall_inv IH y z); done.
    + apply IH1; [by apply (Forall_inv_tail IH)|done].
  - destruct H as [? Hm|a b (x & H1 & H2)|a b (x & H1 & H2)|a b H1| |]; try done;
      inversion H' as [? Hm'|? c (y & H3 & H4)|? c (y & H3 & H4)|? c H3| |]; subst; try done.
    + constructor. exists x. split; [done|]. congruence.
    + constructor. exists x. split; [done|]. congruence.
    + constructor. unfold same_decimal in *.
      assert (0 < 10 ^ Z.of_N (dec_scale b))%Z by (apply Z.pow_pos_nonneg; lia). 
      set (p := (10 ^ Z.of_N (dec_scale a))%Z) in *. set (q := (10 ^ Z.of_N (dec_scale b))%Z) in *.
      set (r := (10 ^ Z.of_N (dec_scale c))%Z) in *. clearbody p q r.
      apply (Z.mul_reg_r _ _ q); [lia|].
      rewrite <- !Z.mul_assoc, (Z.mul_comm r q), (Z.mul_comm p q), !Z.mul_assoc, H1, <- H3. ring.
Qed.
Lemma option_sym {A} (P : A -> A -> Prop) a b : (forall x y, P x y -> P y x) -> equal_option P a b -> equal_option P b a.
Proof. intros H. destruct 1; constructor. by apply H. Qed.
Lemma option_trans {A} (P : A -> A -> Prop) a b c : (forall x y z, P x y -> P y z -> P x z) ->
  equal_option P a b -> equal_option P b c -> equal_option P a c.
Proof. intros H. destruct 1; inversion 1; subst; constructor. by eapply H. Qed.
Lemma list_sym vs ws : Forall2 equal vs ws -> Forall2 equal ws vs.
Proof. intros H. apply Forall2_flip. eapply Forall2_impl; [exact H|]. intros. by apply equal_sym. Qed.
Lemma list_trans vs ws us : Forall2 equal vs ws -> Forall2 equal ws us -> Forall2 equal vs us.
Proof.
  intros H. revert us. induction H as [|x y vs ws Hxy H IH]; intros us; inversion 1; subst; constructor; [|by apply IH].
  by eapply equal_trans.
Qed.
Theorem C59_symmetric W W' m m' : deserialize W = POk m -> deserialize W' = POk m' ->
  message_eqb m m' = message_eqb m' m.
Proof.
  intros H H'. apply eq_bool_prop_intro. rewrite !Is_true_true, (C59_equal _ _ _ _ H H'), (C59_equal _ _ _ _ H' H).
  split; destruct 1; constructor; try (by apply equal_sym); eapply option_sym; eauto using equal_sym, list_sym.
Qed.
Theorem C59_transitive W1 W2 W3 m1 m2 m3 :
  deserialize W1 = POk m1 -> deserialize W2 = POk m2 -> deserialize W3 = POk m3 ->
  message_eqb m1 m2 = true -> message_eqb m2 m3 = true -> message_eqb m1 m3 = true.
Proof.
  intros H1 H2 H3. rewrite (C59_equal _ _ _ _ H1 H2), (C59_equal _ _ _ _ H2 H3), (C59_equal _ _ _ _ H1 H3).
  destruct 1; inversion 1; subst; constructor; try (by eapply equal_trans); eapply option_trans; eauto using equal_trans, list_trans.
Qed.

(** A value equals itself, and all its other member orders, exactly if there is no NaN inside. *)
Lemma equal_same v : forall w, in_range v -> same_value v w -> (forall u, sub_value u v -> ~ is_nan u) -> equal v w.
Proof.
  induction v as [[c l ms] IH|vs IH|v Hv] using value_ind'; intros w R Hs Hn.
  - pose proof Hs as Hs'. apply same_object_inv in Hs' as ([c' l' ns] & ->).
    destruct (same_value_members _ _ _ _ _ _ Hs) as (<- & <- & Hp & H1 & H2). constructor; [done|].
    intros k x y Hx Hy. cbn in IH. rewrite Forall_forall in IH. destruct (H2 k y Hy) as (x' & Hx' & Hxy).
    assert (x' = x) as ->.
    { pose proof (R _ (sub_here _)) as Nd. cbn in Nd. apply (hm_get_nodup k ms) in Hx; [|done].
      apply (hm_get_nodup k ms) in Hx'; [|done]. congruence. }
    apply (IH (k, x)); [done|by eapply in_range_member|done|]. intros u Hu. apply Hn. by eapply sub_member.
  - apply same_array_inv in Hs as (ws & -> & Hs). constructor. eapply Forall2_impl_in; [exact Hs|].
    intros x y Hx Hy Hxy. rewrite Forall_forall in IH. apply IH; [done|by eapply in_range_element|done|].
    intros u Hu. apply Hn. by eapply sub_element.
  - apply same_scalar in Hs; [|done]. subst w. pose proof (Hn v (sub_here v)) as Hi.
    destruct v as [| | | | |d|n| | | | |n| | | | | | |]; try (by apply EQ_same).
    + by apply EQ_decimal.
    + apply EQ_double. cbn in Hi. destruct (double_number n) as [x|] eqn:E; [by exists x|done].
    + apply EQ_single. cbn in Hi. destruct (single_number n) as [x|] eqn:E; [by exists x|done].
Qed.
Lemma equal_no_nan v : forall w, in_range v -> equal v w -> forall u, sub_value u v -> ~ is_nan u.
Proof.
  induction v as [[c l ms] IH|vs IH|v Hv] using value_ind'; intros w R H u Hu.
  - inversion H as [? Hm| | | | |? ? ? ns H1 H2]; subst; [done|].
    inversion Hu as [|? k x Hx Hu'|]; subst; [by intros []|]. cbn in Hx.
    assert (k ∈ map fst ns) as Hk by (rewrite <- H1; by eapply map_fst_in).
    apply elem_of_list_fmap in Hk as ([k' z] & -> & Hz). cbn in *. rewrite Forall_forall in IH.
    apply (IH (k', x) Hx z); [by eapply in_range_member|by eapply H2|done].
  - inversion H as [? Hm| | | |? ws H1|]; subst; [done|]. inversion Hu as [| |? x Hx Hu']; subst; [by intros []|].
    apply elem_of_list_lookup in Hx as (i & Hi). destruct (Forall2_lookup_l _ _ _ _ _ H1 Hi) as (y & Hy & Hxy).
    rewrite Forall_forall in IH. apply elem_of_list_lookup_2 in Hi.
    apply (IH x Hi y); [by eapply in_range_element|done|done].
  - inversion Hu; subst; try done.
    destruct H as [? Hm|a b (x & H1 & H2)|a b (x & H1 & H2)| | |]; [destruct v; try done; by intros []|cbn; congruence|cbn; congruence|by intros []|done|done].
Qed.
Lemma equal_option_self {A} (P : A -> A -> Prop) a : (forall x, a = Some x -> P x x) -> equal_option P a a.
Proof. destruct a as [x|]; intros H; constructor. by apply H. Qed.
Lemma equal_list_self vs : (forall v, v ∈ vs -> equal v v) -> Forall2 equal vs vs.
Proof.
  induction vs as [|v vs IH]; intros H; constructor; [apply H; by left|]. apply IH. intros w Hw. apply H. by right.
Qed.
Lemma equal_list_self_in vs v : Forall2 equal vs vs -> v ∈ vs -> equal v v.
Proof.
  intros H Hv. apply elem_of_list_lookup in Hv as (i & Hi). by eapply Forall2_lookup_lr.
Qed.
Lemma equal_message_self m : equal_message m m <-> forall v, v ∈ message_values m -> equal v v.
Proof.
  split.
  - inversion 1 as [v ? H1|n t c a ? H1|v ? c a ? H1 H2]; subst; cbn; intros x Hx.
    + by apply elem_of_list_singleton in Hx as ->.
    + inversion H1 as [|? ? H2]; subst; cbn in Hx; [by apply elem_of_nil in Hx|]. by eapply equal_list_self_in.
    + apply elem_of_app in Hx as [Hx|Hx].
      * inversion H1 as [|? ? H3]; subst; cbn in Hx; [by apply elem_of_nil in Hx|].
        by apply elem_of_list_singleton in Hx as ->.
      * inversion H2 as [|? ? H3]; subst; cbn in Hx; [by apply elem_of_nil in Hx|]. by eapply equal_list_self_in.
  - intros H. destruct m as [[n t c a]|[v c a]|v]; constructor.
    + apply equal_option_self. intros vs ->. by apply equal_list_self.
    + apply equal_option_self. intros x ->. apply H. cbn. by left.
    + apply equal_option_self. intros vs ->. apply equal_list_self. intros x Hx. apply H. cbn. apply elem_of_app. by right.
    + apply H. by left.
Qed.
(** Parsing the same bytes twice gives equal messages, unless there is a NaN inside. *)
Theorem C59_reflexive W m : deserialize W = POk m -> message_eqb m m = true <-> ~ has_nan m.
Proof.
  intros H. rewrite (C59_equal _ _ _ _ H H), equal_message_self.
  assert (forall v, v ∈ message_values m -> in_range v) as R.
  { intros v Hv w Hw. apply (result_range W m w H). by exists v. }
  split.
  - intros He (u & (v & Hv & Hu) & Hn). exact (equal_no_nan v v (R v Hv) (He v Hv) u Hu Hn).
  - intros Hn v Hv. apply equal_same; [by apply R|constructor|]. intros u Hu Hi. apply Hn. exists u. split; [by exists v|done].
Qed.
(** The order in which a [HashMap] enumerates its entries makes no difference. *)
Lemma equal_same_l v : forall v' w, same_value v v' -> equal v w <-> equal v' w.
Proof.
  induction v as [[c l ms] IH|vs IH|v Hv] using value_ind'; intros v' w Hs.
  - pose proof Hs as Hs'. apply same_object_inv in Hs' as ([c' l' ns] & ->). cbn in IH. rewrite Forall_forall in IH.
    destruct (same_value_members _ _ _ _ _ _ Hs) as (<- & <- & Hp & H1 & H2). split.
    + inversion 1 as [? Hm| | | | |? ? ? us H3 H4]; subst; [done|]. constructor; [by rewrite <- Hp|].
      intros k x' y Hx Hy. destruct (H2 k x' Hx) as (x & Hx' & Hxx). apply (IH (k, x) Hx' x' y Hxx). by eapply H4.
    + inversion 1 as [? Hm| | | | |? ? ? us H3 H4]; subst; [done|]. constructor; [by rewrite Hp|].
      intros k x y Hx Hy. destruct (H1 k x Hx) as (x' & Hx' & Hxx). apply (IH (k, x) Hx x' y Hxx). by eapply H4.
  - apply same_array_inv in Hs as (ws & -> & Hs). rewrite Forall_forall in IH.
    assert (forall us, Forall2 equal vs us <-> Forall2 equal ws us) as E.
    { induction Hs as [|x y vs ws Hxy Hs IH']; [done|]. intros us.
      assert (forall us, Forall2 equal vs us <-> Forall2 equal ws us) as E by (apply IH'; intros z Hz; apply IH; by right).
      split; (inversion 1 as [|? u ? us' Hu Hus]; subst; constructor; [|by apply E]); apply (IH x (elem_of_list_here _ _) y u Hxy); done. }
    split; (inversion 1 as [? Hm| | | |? us H1|]; subst; [done|]; constructor; by apply E).
  - apply same_scalar in Hs; [|done]. by subst.
Qed.
Lemma in_range_same v : forall v', in_range v -> same_value v v' -> in_range v'.
Proof.
  induction v as [[c l ms] IH|vs IH|v Hv] using value_ind'; intros v' R Hs u Hu.
  - pose proof Hs as Hs'. apply same_object_inv in Hs' as ([c' l' ns] & ->). cbn in IH. rewrite Forall_forall in IH.
    destruct (same_value_members _ _ _ _ _ _ Hs) as (<- & <- & Hp & H1 & H2).
    inversion Hu as [|? k x Hx Hu'|]; subst.
    + cbn. rewrite <- Hp. exact (R _ (sub_here _)).
    + cbn in Hx. destruct (H2 k x Hx) as (y & Hy & Hyx). exact (IH (k, y) Hy x (in_range_member _ k y R Hy) Hyx u Hu').
  - apply same_array_inv in Hs as (ws & -> & Hs). inversion Hu as [| |? x Hx Hu']; subst; [exact I|].
    apply elem_of_list_lookup in Hx as (i & Hi). destruct (Forall2_lookup_r _ _ _ _ _ Hs Hi) as (y & Hy & Hyx).
    apply elem_of_list_lookup_2 in Hy. rewrite Forall_forall in IH.
    exact (IH y Hy x (in_range_element _ y R Hy) Hyx u Hu').
  - apply same_scalar in Hs; [|done]. subst. by apply R.
Qed.
Lemma equal_same_both v v' w w' : same_value v v' -> same_value w w' -> equal v w <-> equal v' w'.
Proof.
  intros H H'. rewrite (equal_same_l v v' w H). split; intros E; apply equal_sym; apply (equal_same_l w w' v' H'); by apply equal_sym.
Qed.
Theorem C59_order W U v v' w w' : deserialize W = POk (MValue v) -> deserialize U = POk (MValue w) ->
  same_value v v' -> same_value w w' -> message_eqb (MValue v) (MValue w) = message_eqb (MValue v') (MValue w').
Proof.
  intros HW HU Hv Hw. cbn.
  assert (in_range v) as Rv. { intros x Hx. apply (result_range W _ x HW). exists v. split; [by left|done]. }
  assert (in_range w) as Rw. { intros x Hx. apply (result_range U _ x HU). exists w. split; [by left|done]. }
  apply eq_bool_prop_intro. rewrite !Is_true_true, (value_eqb_iff v w Rv Rw),
    (value_eqb_iff v' w' (in_range_same v v' Rv Hv) (in_range_same w w' Rw Hw)).
  by apply equal_same_both.
Qed.

Definition ex_doubles (bs : bytes) : bytes := header_bytes 1 (-1) ++ bs_of [15; 1;0;0;0; 1;0;0;0; 6]%N ++ bs ++ [x0b].
(** 0.0 == -0.0, NaN != NaN. *)
Example C59_ex_zero : exists m m', deserialize (ex_doubles (bs_of [0;0;0;0;0;0;0;0]%N)) = POk m
  /\ deserialize (ex_doubles (bs_of [0;0;0;0;0;0;0;128]%N)) = POk m' /\ m <> m' /\ message_eqb m m' = true.
Proof.
  exists (MValue (VArray [VDouble 0])), (MValue (VArray [VDouble 9223372036854775808])).
  split; [vm_compute; reflexivity|]. split; [vm_compute; reflexivity|]. split; [congruence|]. vm_compute. reflexivity.
Qed.
Example C59_ex_nan : exists m, deserialize (ex_doubles (bs_of [0;0;0;0;0;0;248;127]%N)) = POk m /\ message_eqb m m = false.
Proof. eexists. split; [vm_compute; reflexivity|]. vm_compute. reflexivity. Qed.
Example C59_ex_infinity : exists m, deserialize (ex_doubles (bs_of [0;0;0;0;0;0;240;127]%N)) = POk m /\ message_eqb m m = true.
Proof. eexists. split; [vm_compute; reflexivity|]. vm_compute. reflexivity. Qed.
(** Members in another order. *)
Definition ex_bools (names : bytes) (values : bytes) : bytes :=
  header_bytes 1 (-1) ++ bs_of [4; 1;0;0;0; 1;67; 2;0;0;0]%N ++ names ++ bs_of [0;0; 1;1]%N ++ values ++ [x0b].
Example C59_ex_order : exists m m', deserialize (ex_bools (bs_of [1;97; 1;98]%N) (bs_of [0; 1]%N)) = POk m
  /\ deserialize (ex_bools (bs_of [1;98; 1;97]%N) (bs_of [1; 0]%N)) = POk m' /\ m <> m' /\ message_eqb m m' = true.
Proof.
  exists (MValue (VObject (mkObj [x43] None [([x61], VBoolean false); ([x62], VBoolean true)]))),
    (MValue (VObject (mkObj [x43] None [([x62], VBoolean true); ([x61], VBoolean false)]))).
  split; [vm_compute; reflexivity|]. split; [vm_compute; reflexivity|]. split; [congruence|]. vm_compute. reflexivity.
Qed.
End messages.
