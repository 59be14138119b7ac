(** * BaseLemmas: facts about bytes, results and the nom primitives. *)
From Verif Require Import Base Value Wire.
From Coq Require Import Lia.

Set Warnings "-deprecated".

Ltac inv H := inversion H; clear H; simplify_eq.

(** ** Bytes *)

Lemma b2n_lt b : (b2n b < 256)%N.
Proof. unfold b2n. pose proof (Byte.to_N_bounded b). lia. Qed.

Lemma n2b_b2n b : n2b (b2n b) = b.
Proof.
  unfold n2b, b2n. rewrite N.mod_small by apply b2n_lt.
  by rewrite Byte.of_to_N.
Qed.

Lemma of_N_Some n : (n < 256)%N -> exists b, Byte.of_N n = Some b /\ b2n b = n.
Proof.
  intros Hn. destruct (Byte.of_N n) eqn:E.
  - exists b. split; [done|]. by apply Byte.to_of_N.
  - apply Byte.of_N_None_iff in E. lia.
Qed.

Lemma b2n_n2b n : b2n (n2b n) = (n mod 256)%N.
Proof.
  unfold n2b.
  destruct (of_N_Some (n mod 256)) as (b & -> & Hb); [|done].
  apply N.mod_lt. lia.
Qed.

Lemma b2n_n2b_small n : (n < 256)%N -> b2n (n2b n) = n.
Proof. intros. rewrite b2n_n2b. by apply N.mod_small. Qed.

Lemma b2n_inj a b : b2n a = b2n b -> a = b.
Proof. intros E. by rewrite <- (n2b_b2n a), <- (n2b_b2n b), E. Qed.

Lemma b2n_eqb_iff b n : (n < 256)%N -> N.eqb (b2n b) n = true <-> b = n2b n.
Proof.
  intros Hn. rewrite N.eqb_eq. split.
  - intros <-. by rewrite n2b_b2n.
  - intros ->. by apply b2n_n2b_small.
Qed.

(** ** Results *)

Section results.
Context {I E : Type}.

Lemma bind_ok {A B} (r : ires I E A) (f : I -> A -> ires I E B) i b :
  bind r f = Ok i b <-> exists i' a, r = Ok i' a /\ f i' a = Ok i b.
Proof. destruct r; simpl; naive_solver. Qed.

Lemma rmap_ok {A B} (f : A -> B) (r : ires I E A) i b :
  rmap f r = Ok i b <-> exists a, r = Ok i a /\ b = f a.
Proof. destruct r; simpl; naive_solver. Qed.

Lemma map_err_ok {F A} (f : E -> F) (r : ires I E A) i a :
  map_err f r = Ok i a <-> r = Ok i a.
Proof. destruct r; simpl; naive_solver. Qed.

Lemma into_failure_ok {A} (r : ires I E A) i a :
  into_failure r = Ok i a <-> r = Ok i a.
Proof. destruct r; simpl; naive_solver. Qed.

Lemma alt_ok {A} (r r' : ires I E A) i a :
  alt r r' = Ok i a <-> r = Ok i a \/ (exists e, r = Err e) /\ r' = Ok i a.
Proof. destruct r; simpl; naive_solver. Qed.

End results.

(** ** Exact parsers *)

(** [exact p E]: [p] accepts precisely the encodings of [E], and consumes exactly them. *)
Definition exact {Er A} (p : bytes -> ires bytes Er A) (E : A -> bytes -> Prop) : Prop :=
  forall input rest a, p input = Ok rest a <-> exists bs, E a bs /\ input = bs ++ rest.

Lemma exact_ok {Er A} (p : bytes -> ires bytes Er A) E a bs rest :
  exact p E -> E a bs -> p (bs ++ rest) = Ok rest a.
Proof. intros H HE. apply H. eauto. Qed.

Lemma exact_inv {Er A} (p : bytes -> ires bytes Er A) E input rest a :
  exact p E -> p input = Ok rest a -> exists bs, E a bs /\ input = bs ++ rest.
Proof. intros H HE. by apply H. Qed.

Lemma exact_ext {Er A} (p : bytes -> ires bytes Er A) (E E' : A -> bytes -> Prop) :
  exact p E -> (forall a bs, E a bs <-> E' a bs) -> exact p E'.
Proof.
  intros H HE i r a. rewrite (H i r a). split; intros (bs & H1 & ->); exists bs; split; auto;
  by apply HE.
Qed.


(** ** Little-endian numbers *)

Lemma enc_uint_length k n : length (enc_uint k n) = k.
Proof. revert n; induction k; intros; simpl; auto. Qed.

Lemma le_value_lt bs : (le_value bs < 2 ^ (8 * N.of_nat (length bs)))%N.
Proof.
  induction bs as [|b bs IH]; [simpl; lia|].
  pose proof (b2n_lt b). cbn [le_value length].
  replace (8 * N.of_nat (S (length bs)))%N with (8 + 8 * N.of_nat (length bs))%N by lia.
  rewrite N.pow_add_r. change (2 ^ 8)%N with 256%N. nia.
Qed.

Lemma enc_le_value bs : enc_uint (length bs) (le_value bs) = bs.
Proof.
  induction bs as [|b bs IH]; [done|].
  cbn [le_value length enc_uint]. pose proof (b2n_lt b).
  f_equal.
  - unfold n2b.
    replace ((b2n b + 256 * le_value bs) mod 256)%N with (b2n b).
    + unfold b2n. by rewrite Byte.of_to_N.
    + rewrite N.mul_comm, N.mod_add by lia. symmetry. by apply N.mod_small.
  - replace ((b2n b + 256 * le_value bs) / 256)%N with (le_value bs); [done|].
    rewrite N.mul_comm, N.div_add by lia. rewrite N.div_small by done. lia.
Qed.

Lemma le_value_enc k n : (n < 2 ^ (8 * N.of_nat k))%N -> le_value (enc_uint k n) = n.
Proof.
  revert n. induction k as [|k IH]; intros n Hn.
  - simpl in *. lia.
  - cbn [enc_uint le_value]. rewrite b2n_n2b.
    rewrite IH.
    + rewrite N.add_comm. symmetry. apply N.div_mod. lia.
    + apply N.div_lt_upper_bound; [lia|].
      replace (8 * N.of_nat (S k))%N with (8 + 8 * N.of_nat k)%N in Hn by lia.
      rewrite N.pow_add_r in Hn. exact Hn.
Qed.

Definition e_uint (k : nat) (n : N) (bs : bytes) : Prop := fits_uint k n /\ bs = enc_uint k n.
Definition e_int (k : nat) (z : Z) (bs : bytes) : Prop := fits_int k z /\ bs = enc_int k z.

Lemma le_uint_exact k : exact (le_uint k) (e_uint k).
Proof.
  intros input rest n. unfold le_uint, e_uint, fits_uint. split.
  - case_match eqn:E; [done|]. intros [= <- <-].
    apply Nat.ltb_ge in E.
    assert (length (take k input) = k) as Hl by (rewrite take_length; lia).
    eexists. split; [split; [|done]|].
    + pose proof (le_value_lt (take k input)) as Hv. by rewrite Hl in Hv.
    + rewrite <- (take_drop k input) at 1. f_equal. symmetry.
      rewrite <- Hl at 1. apply enc_le_value.
  - intros (bs & [Hn ->] & ->). rewrite app_length, enc_uint_length.
    destruct (Nat.ltb _ _) eqn:E; [apply Nat.ltb_lt in E; lia|].
    rewrite drop_app_alt by (by rewrite enc_uint_length).
    rewrite take_app_alt by (by rewrite enc_uint_length).
    by rewrite le_value_enc.
Qed.

Lemma to_signed_spec k n z : k <> 0 -> fits_uint k n ->
  to_signed (8 * N.of_nat k) n = z <-> fits_int k z /\ n = Z.to_N (z mod 2 ^ (8 * Z.of_nat k)).
Proof.
  intros Hk Hn. unfold to_signed, fits_uint, fits_int in *.
  assert (Z.of_N (2 ^ (8 * N.of_nat k - 1)) = 2 ^ (8 * Z.of_nat k - 1))%Z as E1.
  { rewrite N2Z.inj_pow. f_equal. lia. }
  assert (Z.of_N (2 ^ (8 * N.of_nat k)) = 2 ^ (8 * Z.of_nat k))%Z as E2.
  { rewrite N2Z.inj_pow. f_equal. lia. }
  assert (2 ^ (8 * Z.of_nat k) = 2 * 2 ^ (8 * Z.of_nat k - 1))%Z as E3.
  { rewrite <- Z.pow_succ_r by lia. f_equal. lia. }
  assert (0 < 2 ^ (8 * Z.of_nat k - 1))%Z as E4 by (apply Z.pow_pos_nonneg; lia).
  replace (Z.of_N (8 * N.of_nat k)) with (8 * Z.of_nat k)%Z by lia.
  assert (0 <= Z.of_N n < 2 ^ (8 * Z.of_nat k))%Z as Hn' by lia.
  destruct (N.ltb_spec n (2 ^ (8 * N.of_nat k - 1))%N) as [Hlt|Hge].
  - assert (Z.of_N n < 2 ^ (8 * Z.of_nat k - 1))%Z by lia.
    split.
    + intros <-. split; [lia|]. rewrite Z.mod_small by lia. lia.
    + intros [Hz ->]. destruct (Z_lt_le_dec z 0).
      * exfalso. revert H. rewrite Z2N.id by (apply Z.mod_pos_bound; lia).
        rewrite <- (Z_mod_plus_full z 1), Z.mod_small; lia.
      * rewrite Z2N.id; [apply Z.mod_small; lia| apply Z.mod_pos_bound; lia].
  - assert (2 ^ (8 * Z.of_nat k - 1) <= Z.of_N n)%Z by lia.
    split.
    + intros <-. split; [lia|].
      rewrite <- (Z_mod_plus_full _ 1), Z.mod_small by lia. lia.
    + intros [Hz ->]. destruct (Z_lt_le_dec z 0).
      * rewrite Z2N.id by (apply Z.mod_pos_bound; lia).
        rewrite <- (Z_mod_plus_full z 1), Z.mod_small; lia.
      * exfalso. revert H. rewrite Z2N.id by (apply Z.mod_pos_bound; lia).
        rewrite Z.mod_small by lia. lia.
Qed.

Lemma le_int_exact k : k <> 0 -> exact (le_int k) (e_int k).
Proof.
  intros Hk input rest z. unfold le_int. rewrite rmap_ok. split.
  - intros (n & H & ->). apply le_uint_exact in H as (bs & [Hn ->] & ->).
    eexists. split; [|done].
    destruct (proj1 (to_signed_spec k n _ Hk Hn) eq_refl) as [H1 H2].
    split; [done|]. unfold enc_int. by rewrite <- H2.
  - intros (bs & [Hz ->] & ->).
    assert (fits_uint k (Z.to_N (z mod 2 ^ (8 * Z.of_nat k)))) as Hf.
    { unfold fits_uint.
      assert (Z.of_N (2 ^ (8 * N.of_nat k)) = 2 ^ (8 * Z.of_nat k))%Z as E2.
      { rewrite N2Z.inj_pow. f_equal. lia. }
      assert (0 <= z mod 2 ^ (8 * Z.of_nat k) < 2 ^ (8 * Z.of_nat k))%Z.
      { apply Z.mod_pos_bound. lia. }
      lia. }
    eexists. split.
    + apply le_uint_exact. eexists. split; [|done]. by split.
    + symmetry. by apply to_signed_spec.
Qed.

(** ** Tags *)

Lemma tag1_exact n : (n < 256)%N -> exact (tag1 n) (fun b bs => b = n2b n /\ bs = [b]).
Proof.
  intros Hn input rest b. unfold tag1. destruct input as [|c i].
  - split; [done|]. intros (bs & [_ ->] & [=]).
  - destruct (N.eqb _ _) eqn:E.
    + apply b2n_eqb_iff in E; [|done]. subst. naive_solver.
    + split; [done|]. intros (bs & [-> ->] & [= -> ->]).
      by rewrite b2n_n2b_small, N.eqb_refl in E.
Qed.
