(** * Utf8Lemmas: the validity check accepts exactly the UTF-8 encodings of lists of Unicode
    scalar values. *)
From Verif Require Import Base Utf8 Value Wire BaseLemmas.
From Coq Require Import Lia.

Ltac Zify.zify_post_hook ::= Z.to_euclidean_division_equations.

Lemma in_range_iff lo hi b : in_range lo hi b = true <-> (lo <= b2n b <= hi)%N.
Proof.
  unfold in_range. rewrite andb_true_iff, !N.leb_le. done.
Qed.

Lemma n2b_eq n b : n = b2n b -> n2b n = b.
Proof. intros ->. apply n2b_b2n. Qed.

Lemma enc_char_1 b : (b2n b < 128)%N -> enc_char (b2n b) = [b] /\ scalar (b2n b).
Proof.
  intros Hb. unfold enc_char, scalar. destruct (N.ltb_spec (b2n b) 128); [|lia].
  rewrite n2b_b2n. split; [done|lia].
Qed.

Lemma enc_char_2 b0 b1 : (194 <= b2n b0 <= 223)%N -> (128 <= b2n b1 <= 191)%N ->
  let c := ((b2n b0 - 192) * 64 + (b2n b1 - 128))%N in
  enc_char c = [b0; b1] /\ scalar c.
Proof.
  intros H0 H1 c. unfold enc_char, scalar.
  destruct (N.ltb_spec c 128); [lia|]. destruct (N.ltb_spec c 2048); [|lia].
  split; [|lia]. f_equal; [|f_equal]; apply n2b_eq; lia.
Qed.

Lemma enc_char_3 b0 b1 b2 : (224 <= b2n b0 <= 239)%N -> (128 <= b2n b1 <= 191)%N ->
  (128 <= b2n b2 <= 191)%N ->
  (b2n b0 = 224 -> 160 <= b2n b1)%N ->
  (b2n b0 = 237 -> b2n b1 <= 159)%N ->
  let c := ((b2n b0 - 224) * 4096 + (b2n b1 - 128) * 64 + (b2n b2 - 128))%N in
  enc_char c = [b0; b1; b2] /\ scalar c.
Proof.
  intros H0 H1 H2 Ha Hb c. unfold enc_char, scalar.
  assert (0x800 <= c)%N.
  { subst c. destruct (N.eq_dec (b2n b0) 224); [specialize (Ha e)|]; lia. }
  assert (c < 0x10000)%N by lia.
  destruct (N.ltb_spec c 128); [lia|]. destruct (N.ltb_spec c 2048); [lia|].
  destruct (N.ltb_spec c 65536); [|lia].
  split.
  - f_equal; [|f_equal; [|f_equal]]; apply n2b_eq; subst c; lia.
  - subst c. destruct (N.eq_dec (b2n b0) 237); [specialize (Hb e)|]; lia.
Qed.

Lemma enc_char_4 b0 b1 b2 b3 : (240 <= b2n b0 <= 244)%N -> (128 <= b2n b1 <= 191)%N ->
  (128 <= b2n b2 <= 191)%N -> (128 <= b2n b3 <= 191)%N ->
  (b2n b0 = 240 -> 144 <= b2n b1)%N ->
  (b2n b0 = 244 -> b2n b1 <= 143)%N ->
  let c := ((b2n b0 - 240) * 262144 + (b2n b1 - 128) * 4096 + (b2n b2 - 128) * 64
            + (b2n b3 - 128))%N in
  enc_char c = [b0; b1; b2; b3] /\ scalar c.
Proof.
  intros H0 H1 H2 H3 Ha Hb c. unfold enc_char, scalar.
  assert (0x10000 <= c)%N.
  { subst c. destruct (N.eq_dec (b2n b0) 240); [specialize (Ha e)|]; lia. }
  assert (c <= 0x10FFFF)%N.
  { subst c. destruct (N.eq_dec (b2n b0) 244); [specialize (Hb e)|]; lia. }
  destruct (N.ltb_spec c 128); [lia|]. destruct (N.ltb_spec c 2048); [lia|].
  destruct (N.ltb_spec c 65536); [lia|].
  split; [|lia].
  f_equal; [|f_equal; [|f_equal; [|f_equal]]]; apply n2b_eq; subst c; lia.
Qed.

Lemma utf8_cons c s bs : scalar c -> utf8 s -> bs = enc_char c ++ s -> utf8 bs.
Proof.
  intros Hc (cs & Hcs & ->) ->. exists (c :: cs). split; [by constructor|done].
Qed.

Lemma utf8_valid_sound bs : utf8_valid bs = true -> utf8 bs.
Proof.
  remember (length bs) as n eqn:Hn. revert bs Hn.
  induction (lt_wf n) as [n _ IH]. intros bs ->.
  destruct bs as [|b0 r0]; [intros _; exists []; done|].
  cbn [utf8_valid].
  destruct (in_range 0 127 b0) eqn:E0.
  { apply in_range_iff in E0. intros H.
    destruct (enc_char_1 b0) as [He Hs]; [lia|].
    eapply utf8_cons; [exact Hs| |by rewrite He]. eapply IH; [|done|done]. simpl. lia. }
  destruct (in_range 194 223 b0) eqn:E1.
  { apply in_range_iff in E1. destruct r0 as [|b1 r1]; [done|].
    rewrite andb_true_iff. unfold is_cont. rewrite in_range_iff. intros [H1 H].
    destruct (enc_char_2 b0 b1) as [He Hs]; [done|done|].
    eapply utf8_cons; [exact Hs| |by rewrite He]. eapply IH; [|done|done]. simpl. lia. }
  destruct (in_range 224 239 b0) eqn:E2.
  { apply in_range_iff in E2. destruct r0 as [|b1 [|b2 r2]]; [done|done|].
    rewrite !andb_true_iff. unfold is_cont.
    intros [[H1 H2%in_range_iff] H].
    assert ((128 <= b2n b1 <= 191)%N /\ (b2n b0 = 224 -> 160 <= b2n b1)%N
            /\ (b2n b0 = 237 -> b2n b1 <= 159)%N) as (Hr & Ha & Hb).
    { destruct (N.eqb_spec (b2n b0) 224); [apply in_range_iff in H1; lia|].
      destruct (N.eqb_spec (b2n b0) 237); apply in_range_iff in H1; lia. }
    destruct (enc_char_3 b0 b1 b2) as [He Hs]; [done..|].
    eapply utf8_cons; [exact Hs| |by rewrite He]. eapply IH; [|done|done]. simpl. lia. }
  destruct (in_range 240 244 b0) eqn:E3; [|done].
  apply in_range_iff in E3. destruct r0 as [|b1 [|b2 [|b3 r3]]]; [done..|].
  rewrite !andb_true_iff. unfold is_cont.
  intros [[[H1 H2%in_range_iff] H3%in_range_iff] H].
  assert ((128 <= b2n b1 <= 191)%N /\ (b2n b0 = 240 -> 144 <= b2n b1)%N
          /\ (b2n b0 = 244 -> b2n b1 <= 143)%N) as (Hr & Ha & Hb).
  { destruct (N.eqb_spec (b2n b0) 240); [apply in_range_iff in H1; lia|].
    destruct (N.eqb_spec (b2n b0) 244); apply in_range_iff in H1; lia. }
  destruct (enc_char_4 b0 b1 b2 b3) as [He Hs]; [done..|].
  eapply utf8_cons; [exact Hs| |by rewrite He]. eapply IH; [|done|done]. simpl. lia.
Qed.

Lemma in_range_n2b lo hi n : (n < 256)%N ->
  in_range lo hi (n2b n) = N.leb lo n && N.leb n hi.
Proof. intros. unfold in_range. by rewrite b2n_n2b_small. Qed.

Ltac decide_range :=
  repeat match goal with
  | |- context [N.leb ?a ?b] =>
      first [ rewrite (proj2 (N.leb_le a b)) by lia | rewrite (proj2 (N.leb_gt a b)) by lia ];
      cbn [andb]
  end.

Lemma utf8_valid_enc_char c s : scalar c -> utf8_valid (enc_char c ++ s) = utf8_valid s.
Proof.
  intros Hc. unfold scalar in Hc. unfold enc_char.
  destruct (N.ltb_spec c 128).
  { cbn [app utf8_valid]. rewrite in_range_n2b by lia. decide_range. done. }
  destruct (N.ltb_spec c 2048).
  { cbn [app utf8_valid]. unfold is_cont. rewrite !in_range_n2b by lia. decide_range. done. }
  destruct (N.ltb_spec c 65536).
  { cbn [app utf8_valid]. unfold is_cont. rewrite !in_range_n2b by lia.
    rewrite !b2n_n2b_small by lia. decide_range.
    destruct (N.eqb_spec (224 + c / 4096) 224); [decide_range; done|].
    destruct (N.eqb_spec (224 + c / 4096) 237); decide_range; done. }
  cbn [app utf8_valid]. unfold is_cont. rewrite !in_range_n2b by lia.
  rewrite !b2n_n2b_small by lia. decide_range.
  destruct (N.eqb_spec (240 + c / 262144) 240); [decide_range; done|].
  destruct (N.eqb_spec (240 + c / 262144) 244); decide_range; done.
Qed.

Lemma utf8_valid_iff bs : utf8_valid bs = true <-> utf8 bs.
Proof.
  split; [apply utf8_valid_sound|].
  intros (cs & Hcs & ->). induction Hcs as [|c cs Hc Hcs IH]; [done|].
  unfold enc_utf8 in *. cbn [map concat]. by rewrite utf8_valid_enc_char.
Qed.

Ltac Zify.zify_post_hook ::= idtac.
