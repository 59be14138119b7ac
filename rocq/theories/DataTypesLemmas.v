(** * DataTypesLemmas: the parsers of data_type/, combinator.rs and enumeration.rs accept
    exactly the encodings of [Wire]. *)
From Verif Require Import Base Utf8 Value DataTypes Wire BaseLemmas Utf8Lemmas.
From Coq Require Import Lia.

(** ** Combinators *)

Lemma exact_bind {Er A B} (p : bytes -> ires bytes Er A) (q : A -> bytes -> ires bytes Er B)
  E F :
  exact p E -> (forall a, exact (q a) (F a)) ->
  exact (fun i => let? (i, a) := p i in q a i)
    (fun b bs => exists a b1 b2, E a b1 /\ F a b b2 /\ bs = b1 ++ b2).
Proof.
  intros Hp Hq i r b. rewrite bind_ok. split.
  - intros (i' & a & H1 & H2). apply Hp in H1 as (b1 & ? & ->).
    apply Hq in H2 as (b2 & ? & ->). exists (b1 ++ b2). split; [eauto 10|].
    by rewrite <- app_assoc.
  - intros (bs & (a & b1 & b2 & ? & ? & ->) & ->). rewrite <- app_assoc.
    exists (b2 ++ r), a. split; [apply Hp|apply Hq]; eauto.
Qed.

Lemma exact_ret {Er A} (a : A) : exact (Er:=Er) (fun i => Ok i a) (fun x bs => x = a /\ bs = []).
Proof. intros i r x. split; naive_solver. Qed.

Lemma exact_map {Er A B} (f : A -> B) (p : bytes -> ires bytes Er A) E :
  exact p E -> exact (fun i => rmap f (p i)) (fun b bs => exists a, E a bs /\ b = f a).
Proof.
  intros Hp i r b. rewrite rmap_ok. split.
  - intros (a & H & ->). apply Hp in H as (bs & ? & ->). eauto 10.
  - intros (bs & (a & ? & ->) & ->). exists a. split; [|done]. apply Hp. eauto.
Qed.

Lemma exact_map_err {Er Fr A} (f : Er -> Fr) (p : bytes -> ires bytes Er A) E :
  exact p E -> exact (fun i => map_err f (p i)) E.
Proof. intros Hp i r b. rewrite map_err_ok. apply Hp. Qed.

Lemma exact_into_failure {Er A} (p : bytes -> ires bytes Er A) E :
  exact p E -> exact (fun i => into_failure (p i)) E.
Proof. intros Hp i r b. rewrite into_failure_ok. apply Hp. Qed.

Lemma exact_prim_number {A} k (p : bytes -> nres A) E :
  exact p E -> exact (fun i => prim_number k (p i)) E.
Proof. intros. by apply exact_map_err, exact_into_failure. Qed.

Lemma exact_map_opt {A B} (p : bytes -> nres A) (f : A -> option B) E :
  exact p E -> exact (map_opt p f) (fun b bs => exists a, E a bs /\ f a = Some b).
Proof.
  intros Hp i r b. unfold map_opt. rewrite bind_ok. split.
  - intros (i' & a & H1 & H2). apply Hp in H1 as (b1 & ? & ->).
    destruct (f a) eqn:Ef; inv H2. eauto 10.
  - intros (bs & (a & ? & Hf) & ->). exists r, a. rewrite Hf. split; [|done]. apply Hp; eauto.
Qed.

Lemma exact_map_res {A B} (p : bytes -> nres A) (f : A -> option B) E :
  exact p E -> exact (map_res p f) (fun b bs => exists a, E a bs /\ f a = Some b).
Proof.
  intros Hp i r b. unfold map_res. rewrite bind_ok. split.
  - intros (i' & a & H1 & H2). apply Hp in H1 as (b1 & ? & ->).
    destruct (f a) eqn:Ef; inv H2. eauto 10.
  - intros (bs & (a & ? & Hf) & ->). exists r, a. rewrite Hf. split; [|done]. apply Hp; eauto.
Qed.

Definition nonempty_enc {A} (E : A -> bytes -> Prop) : Prop := forall a, ~ E a [].

Lemma e_list_length {A} (E : A -> bytes -> Prop) l bs :
  nonempty_enc E -> e_list E l bs -> length l <= length bs.
Proof.
  intros HE. induction 1 as [|a l b bs Ha Hl IH]; [done|].
  rewrite app_length. simpl. destruct b; [by destruct (HE a)|]. simpl. lia.
Qed.

Lemma count_loop_ok {A} fuel n (p : bytes -> res A) E input rest l :
  exact p E ->
  count_loop fuel n p input = Ok rest l ->
  N.of_nat (length l) = n /\ exists bs, e_list E l bs /\ input = bs ++ rest.
Proof.
  intros Hp. revert n input l. induction fuel as [|fuel IH]; intros n input l; simpl.
  - destruct (N.eqb_spec n 0); [|done]. intros [= <- <-]. split; [by subst|].
    exists []. split; [constructor|done].
  - destruct (N.eqb_spec n 0).
    + intros [= <- <-]. split; [by subst|]. exists []. split; [constructor|done].
    + rewrite bind_ok. intros (i' & a & Ha & H). rewrite bind_ok in H.
      destruct H as (i'' & l' & Hl & [= -> <-]).
      apply Hp in Ha as (b & Hb & ->). apply IH in Hl as (Hn & bs & Hbs & ->).
      split; [simpl; lia|]. exists (b ++ bs). split; [by constructor|]. by rewrite app_assoc.
Qed.

Lemma count_loop_complete {A} fuel (p : bytes -> res A) E rest l bs :
  exact p E -> e_list E l bs -> length l <= fuel ->
  count_loop fuel (N.of_nat (length l)) p (bs ++ rest) = Ok rest l.
Proof.
  intros Hp Hl. revert fuel. induction Hl as [|a l b bs Ha Hl IH]; intros fuel Hf.
  - by destruct fuel.
  - destruct fuel as [|fuel]; [simpl in Hf; lia|]. cbn [count_loop].
    destruct (N.eqb_spec (N.of_nat (length (a :: l))) 0); [simpl in *; lia|].
    rewrite <- app_assoc. rewrite (exact_ok p E a b) by done. cbn [bind].
    replace (N.pred (N.of_nat (length (a :: l)))) with (N.of_nat (length l)) by (simpl; lia).
    rewrite IH; [done|]. simpl in Hf. lia.
Qed.

Lemma exact_count {A} n (p : bytes -> res A) E :
  exact p E -> nonempty_enc E ->
  exact (count n p) (fun l bs => N.of_nat (length l) = n /\ e_list E l bs).
Proof.
  intros Hp HE input rest l. unfold count. split.
  - intros H. by eapply count_loop_ok in H as (? & bs & ? & ->); eauto.
  - intros (bs & [<- Hl] & ->). eapply count_loop_complete; eauto.
    apply e_list_length in Hl; [|done]. rewrite app_length. lia.
Qed.

(** ** Numbers *)

Lemma byte_exact : exact byte_parse (e_uint 1).
Proof. apply exact_prim_number, le_uint_exact. Qed.
Lemma int8_exact : exact int8_parse (e_int 1).
Proof. by apply exact_prim_number, le_int_exact. Qed.
Lemma int16_exact : exact int16_parse (e_int 2).
Proof. by apply exact_prim_number, le_int_exact. Qed.
Lemma int32_exact : exact int32_parse (e_int 4).
Proof. by apply exact_prim_number, le_int_exact. Qed.
Lemma int64_exact : exact int64_parse (e_int 8).
Proof. by apply exact_prim_number, le_int_exact. Qed.
Lemma uint16_exact : exact uint16_parse (e_uint 2).
Proof. by apply exact_prim_number, le_uint_exact. Qed.
Lemma uint32_exact : exact uint32_parse (e_uint 4).
Proof. by apply exact_prim_number, le_uint_exact. Qed.
Lemma uint64_exact : exact uint64_parse (e_uint 8).
Proof. by apply exact_prim_number, le_uint_exact. Qed.
Lemma single_exact : exact single_parse (e_uint 4).
Proof. by apply exact_prim_number, le_uint_exact. Qed.
Lemma double_exact : exact double_parse (e_uint 8).
Proof. by apply exact_prim_number, le_uint_exact. Qed.
Lemma timespan_exact : exact timespan_parse (e_int 8).
Proof. by apply exact_prim_number, le_int_exact. Qed.
Lemma datetime_exact : exact datetime_parse (e_int 8).
Proof. apply exact_map_err, exact_into_failure, int64_exact. Qed.

Lemma boolean_exact : exact boolean_parse (fun b bs => bs = [if b then x01 else x00]).
Proof.
  eapply exact_ext.
  - apply exact_prim_number, exact_map_res, le_uint_exact.
  - intros b bs. cbv beta. unfold e_uint, fits_uint. split.
    + intros (n & [Hn ->] & H).
      destruct (N.eqb_spec n 0); [subst; by inv H|].
      destruct (N.eqb_spec n 1); [subst; by inv H|done].
    + intros ->. destruct b; [exists 1%N|exists 0%N]; split; try split; try done; reflexivity.
Qed.

Lemma char_from_u32_small n : (n < 256)%N -> char_from_u32 n = Some n.
Proof.
  intros. unfold char_from_u32. destruct (N.ltb_spec n 0xD800); [done|lia].
Qed.

(** One byte is always a char, so the wider alternatives of data_type/char.rs are dead. *)
Lemma char_parse_eq input :
  char_parse input = prim_number PT_Char (le_uint 1 input).
Proof.
  unfold char_parse. destruct input as [|b i]; [done|].
  unfold map_opt at 1. change (le_uint 1 (b :: i)) with
    (@Ok bytes (nom_error bytes) N (drop 1 (b :: i)) (b2n b + 256 * 0)%N).
  cbn [bind]. pose proof (b2n_lt b).
  rewrite char_from_u32_small; [done|lia].
Qed.

Lemma char_exact : exact char_parse (e_uint 1).
Proof.
  intros i r a. rewrite char_parse_eq. apply exact_prim_number, le_uint_exact.
Qed.

(** ** Ids and lengths *)

Lemma fits_int4_to_N z : fits_int 4 z -> (0 <= z)%Z ->
  (Z.to_N z < 2 ^ 31)%N /\ enc_int 4 z = enc_uint 4 (Z.to_N z).
Proof.
  unfold fits_int, enc_int. intros [? ?] ?. simpl in *. split; [lia|].
  rewrite Z.mod_small by lia. done.
Qed.

Lemma id_fits n : (n < 2 ^ 31)%N -> fits_int 4 (Z.of_N n) /\ enc_int 4 (Z.of_N n) = enc_uint 4 n.
Proof.
  unfold fits_int, enc_int. intros. simpl in *. split; [lia|].
  rewrite Z.mod_small by lia. by rewrite N2Z.id.
Qed.

Lemma positive_id_exact k : exact (positive_id k) e_id.
Proof.
  intros input rest n. unfold positive_id, e_id, valid_id. split.
  - destruct (int32_parse input) eqn:E; try done.
    apply int32_exact in E as (bs & [Hf ->] & ->).
    destruct (Z.ltb_spec 0 a); intros E'; inv E'.
    destruct (fits_int4_to_N a) as [? Ha]; [done|lia|]. rewrite Ha.
    exists (enc_uint 4 (Z.to_N a)). split; [split; [lia|done]|done].
  - intros (bs & [Hn ->] & ->). destruct (id_fits n) as [H1 H2]; [lia|].
    rewrite <- H2. rewrite (exact_ok int32_parse (e_int 4) (Z.of_N n)); [|apply int32_exact|done].
    destruct (Z.ltb_spec 0 (Z.of_N n)); [|lia]. by rewrite N2Z.id.
Qed.

Lemma library_id_exact : exact library_id e_id.
Proof. apply positive_id_exact. Qed.
Lemma object_id_exact : exact object_id e_id.
Proof. apply positive_id_exact. Qed.

Lemma length_exact : exact length_parse e_len.
Proof.
  intros input rest n. unfold length_parse, e_len, valid_len. split.
  - destruct (int32_parse input) eqn:E; try done.
    apply int32_exact in E as (bs & [Hf ->] & ->).
    destruct (Z.leb_spec 0 a); intros E'; inv E'.
    destruct (fits_int4_to_N a) as [? Ha]; [done|lia|]. rewrite Ha.
    exists (enc_uint 4 (Z.to_N a)). split; [split; [lia|done]|done].
  - intros (bs & [Hn ->] & ->). destruct (id_fits n) as [H1 H2]; [lia|].
    rewrite <- H2. rewrite (exact_ok int32_parse (e_int 4) (Z.of_N n)); [|apply int32_exact|done].
    destruct (Z.leb_spec 0 (Z.of_N n)); [|lia]. by rewrite N2Z.id.
Qed.

(** ** Enumerations *)

Lemma binary_type_parse_cons b i : binary_type_parse (b :: i) =
  match b with
  | x00 => Ok i BT_Primitive | x01 => Ok i BT_String | x02 => Ok i BT_Object
  | x03 => Ok i BT_SystemClass | x04 => Ok i BT_Class | x05 => Ok i BT_ObjectArray
  | x06 => Ok i BT_StringArray | x07 => Ok i BT_PrimitiveArray
  | _ => Fail (mkError (b :: i) E_ExpectedBinaryType)
  end.
Proof. by destruct b. Qed.

Lemma primitive_type_parse_cons b i : primitive_type_parse (b :: i) =
  match b with
  | x01 => Ok i PT_Boolean | x02 => Ok i PT_Byte | x03 => Ok i PT_Char
  | x05 => Ok i PT_Decimal | x06 => Ok i PT_Double | x07 => Ok i PT_Int16
  | x08 => Ok i PT_Int32 | x09 => Ok i PT_Int64 | x0a => Ok i PT_SByte
  | x0b => Ok i PT_Single | x0c => Ok i PT_TimeSpan | x0d => Ok i PT_DateTime
  | x0e => Ok i PT_UInt16 | x0f => Ok i PT_UInt32 | x10 => Ok i PT_UInt64
  | x11 => Ok i PT_Null | x12 => Ok i PT_String
  | _ => Fail (mkError (b :: i) E_ExpectedPrimitiveType)
  end.
Proof. by destruct b. Qed.

Lemma binary_array_type_parse_cons b i : binary_array_type_parse (b :: i) =
  match b with
  | x00 => Ok i BAT_Single | x01 => Ok i BAT_Jagged | x02 => Ok i BAT_Rectangular
  | x03 => Ok i BAT_SingleOffset | x04 => Ok i BAT_JaggedOffset
  | x05 => Ok i BAT_RectangularOffset
  | _ => Fail (mkError (b :: i) E_ExpectedBinaryArrayType)
  end.
Proof. by destruct b. Qed.

Lemma binary_type_exact : exact binary_type_parse (fun t bs => bs = [n2b (bt_code t)]).
Proof.
  intros [|b i] r t.
  - split; [done|]. intros (? & -> & [=]).
  - rewrite binary_type_parse_cons. split.
    + destruct b; try done; intros [= <- <-]; eexists; split; done.
    + intros (? & -> & [= -> ->]). by destruct t.
Qed.

Lemma primitive_type_exact : exact primitive_type_parse (fun t bs => bs = [n2b (pt_code t)]).
Proof.
  intros [|b i] r t.
  - split; [done|]. intros (? & -> & [=]).
  - rewrite primitive_type_parse_cons. split.
    + destruct b; try done; intros [= <- <-]; eexists; split; done.
    + intros (? & -> & [= -> ->]). by destruct t.
Qed.

Lemma binary_array_type_exact :
  exact binary_array_type_parse (fun t bs => bs = [n2b (bat_code t)]).
Proof.
  intros [|b i] r t.
  - split; [done|]. intros (? & -> & [=]).
  - rewrite binary_array_type_parse_cons. split.
    + destruct b; try done; intros [= <- <-]; eexists; split; done.
    + intros (? & -> & [= -> ->]). by destruct t.
Qed.

Lemma record_type_exact rt :
  exact (record_type_parse rt) (fun t bs => t = rt /\ bs = [n2b (rt_code rt)]).
Proof.
  eapply exact_ext.
  - apply exact_map_err, exact_map, (tag1_exact (rt_code rt)). by destruct rt.
  - intros a bs. cbv beta. naive_solver.
Qed.

(** ** Length prefixes *)

Lemma bits_take_bool b i :
  bits_bool (b :: i, 0%N) = Ok (b :: i, 1%N) (N.leb 128 (b2n b)).
Proof.
  unfold bits_bool, bits_take. rewrite N.eqb_refl || idtac.
  change (N.eqb 1 0) with false. cbn iota.
  destruct (N.ltb_spec (N.of_nat (length (b :: i)) * 8) (1 + 0)); [simpl in *; lia|].
  change (N.to_nat ((1 + 0) / 8)) with 0. cbn [take drop].
  by destruct b.
Qed.

Lemma bits_take_7 b i : bits_take 7 (b :: i, 1%N) = Ok (i, 0%N) (b2n b mod 128)%N.
Proof.
  unfold bits_take. change (N.eqb 7 0) with false. cbn iota.
  destruct (N.ltb_spec (N.of_nat (length (b :: i)) * 8) (7 + 1)); [simpl in *; lia|].
  change (N.to_nat ((7 + 1) / 8)) with 1. cbn [take drop].
  destruct i as [|c i]; by destruct b.
Qed.

Lemma len_group_cons b i :
  len_group (b :: i, 0%N) = Ok (i, 0%N) (N.leb 128 (b2n b), (b2n b mod 128)%N).
Proof. unfold len_group, pair_. rewrite bits_take_bool. cbn [bind]. by rewrite bits_take_7. Qed.

Lemma len_group_nil : exists e, len_group ([], 0%N) = Err e.
Proof. eexists. reflexivity. Qed.

Lemma bits_take_5 b i : bits_take 5 (b :: i, 0%N) = Ok (b :: i, 5%N) (N.shiftr (b2n b) 3).
Proof.
  unfold bits_take. change (N.eqb 5 0) with false. cbn iota.
  destruct (N.ltb_spec (N.of_nat (length (b :: i)) * 8) (5 + 0)); [simpl in *; lia|].
  change (N.to_nat ((5 + 0) / 8)) with 0. cbn [take drop].
  by destruct b.
Qed.

Lemma bits_take_3 b i : bits_take 3 (b :: i, 5%N) = Ok (i, 0%N) (b2n b mod 8)%N.
Proof.
  unfold bits_take. change (N.eqb 3 0) with false. cbn iota.
  destruct (N.ltb_spec (N.of_nat (length (b :: i)) * 8) (3 + 5)); [simpl in *; lia|].
  change (N.to_nat ((3 + 5) / 8)) with 1. cbn [take drop].
  destruct i as [|c i]; by destruct b.
Qed.

Lemma len_last_cons b i :
  preceded (bits_tag 0 5) (bits_take 3) (b :: i, 0%N) =
  if N.ltb (b2n b) 8 then Ok (i, 0%N) (b2n b)
  else Err (mkNomError (b :: i, 0%N) K_TagBits).
Proof.
  unfold preceded, bits_tag. rewrite bits_take_5. cbn [bind].
  rewrite N.shiftr_div_pow2. change (2 ^ 3)%N with 8%N.
  destruct (N.ltb_spec (b2n b) 8) as [Hb|Hb].
  - rewrite N.div_small by done. cbn [N.eqb bind]. rewrite bits_take_3.
    by rewrite N.mod_small.
  - destruct (N.eqb_spec (b2n b / 8) 0) as [E|E]; [|done].
    apply N.div_small_iff in E; [lia|done].
Qed.

Lemma len_last_nil : exists e, preceded (bits_tag 0 5) (bits_take 3) ([], 0%N) = Err e.
Proof. eexists. reflexivity. Qed.

Lemma lor_add a b k : (a < 2 ^ k)%N -> N.lor a (N.shiftl b k) = (a + 2 ^ k * b)%N.
Proof.
  intros H.
  assert (N.land a (N.shiftl b k) = 0%N) as Hl.
  { destruct (N.eq_dec a 0) as [->|Ha]; [apply N.land_0_l|].
    apply N.bits_inj. intros n. rewrite N.land_spec, N.bits_0.
    destruct (N.lt_ge_cases n k).
    - rewrite N.shiftl_spec_low by done. apply andb_false_r.
    - rewrite (N.bits_above_log2 a n); [done|].
      apply N.lt_le_trans with k; [|done]. apply N.log2_lt_pow2; [lia|done]. }
  rewrite <- N.lxor_lor by done. rewrite <- N.add_nocarry_lxor by done.
  rewrite N.shiftl_mul_pow2. lia.
Qed.

Lemma b2n_mod128 b : (b2n b mod 128 < 128)%N.
Proof. by apply N.mod_lt. Qed.

(** The possible shapes of a length prefix. *)
Lemma len_prefix_cases n bs : len_prefix n bs <->
  (exists a, bs = [a] /\ (b2n a < 128)%N /\ n = b2n a)
  \/ (exists a b, bs = [a; b] /\ (128 <= b2n a)%N /\ (b2n b < 128)%N
       /\ n = (b2n a mod 128 + 128 * b2n b)%N)
  \/ (exists a b c, bs = [a; b; c] /\ (128 <= b2n a)%N /\ (128 <= b2n b)%N /\ (b2n c < 128)%N
       /\ n = (b2n a mod 128 + 128 * (b2n b mod 128) + 16384 * b2n c)%N)
  \/ (exists a b c d, bs = [a; b; c; d] /\ (128 <= b2n a)%N /\ (128 <= b2n b)%N
       /\ (128 <= b2n c)%N /\ (b2n d < 128)%N
       /\ n = (b2n a mod 128 + 128 * (b2n b mod 128) + 16384 * (b2n c mod 128)
               + 2097152 * b2n d)%N)
  \/ (exists a b c d e, bs = [a; b; c; d; e] /\ (128 <= b2n a)%N /\ (128 <= b2n b)%N
       /\ (128 <= b2n c)%N /\ (128 <= b2n d)%N /\ (b2n e < 8)%N
       /\ n = (b2n a mod 128 + 128 * (b2n b mod 128) + 16384 * (b2n c mod 128)
               + 2097152 * (b2n d mod 128) + 268435456 * b2n e)%N).
Proof.
  split.
  - intros (init & last & -> & Hi & Hl & Hlen & H5 & <-).
    rewrite app_length in Hlen, H5. cbn [length] in Hlen, H5.
    destruct init as [|a [|b [|c [|d [|x init]]]]]; cbn [len_value app length] in *; try lia;
      repeat match goal with H : Forall _ (_ :: _) |- _ => inv H end;
      assert (b2n last mod 128 = b2n last)%N as -> by (by apply N.mod_small).
    + left. exists last. repeat split; try done. lia.
    + right; left. exists a, last. repeat split; try done. lia.
    + right; right; left. exists a, b, last. repeat split; try done. lia.
    + right; right; right; left. exists a, b, c, last. repeat split; try done. lia.
    + right; right; right; right. exists a, b, c, d, last. repeat split; try done; try lia.
  - intros [(a & -> & ? & ->)|[(a & b & -> & ? & ? & ->)|[(a & b & c & -> & ? & ? & ? & ->)
      |[(a & b & c & d & -> & ? & ? & ? & ? & ->)|(a & b & c & d & e & -> & ? & ? & ? & ? & ? & ->)]]]].
    + exists [], a. repeat split; try done; cbn [len_value app length]; try lia.
      rewrite (N.mod_small (b2n a)) by lia. lia.
    + exists [a], b. repeat split; try done; cbn [len_value app length]; try lia; [by repeat constructor|].
      rewrite (N.mod_small (b2n b)) by lia. lia.
    + exists [a; b], c. repeat split; try done; cbn [len_value app length]; try lia; [by repeat constructor|].
      rewrite (N.mod_small (b2n c)) by lia. lia.
    + exists [a; b; c], d. repeat split; try done; cbn [len_value app length]; try lia; [by repeat constructor|].
      rewrite (N.mod_small (b2n d)) by lia. lia.
    + exists [a; b; c; d], e. repeat split; try done; cbn [len_value app length]; try lia; [by repeat constructor|].
      rewrite (N.mod_small (b2n e)) by lia. lia.
Qed.

(** [parse_len_bits] unfolded byte by byte. *)
Fixpoint len_loop (k : nat) (shift acc : N) (input : bytes) : option (bytes * N) :=
  match input with
  | [] => None
  | b :: i =>
      match k with
      | O => if N.ltb (b2n b) 8 then Some (i, acc + shift * b2n b)%N else None
      | S k =>
          if N.leb 128 (b2n b) then len_loop k (shift * 128) (acc + shift * (b2n b mod 128)) i
          else Some (i, acc + shift * b2n b)%N
      end
  end.

Lemma len_fin (i rest : bytes) (a b n : N) : a = b ->
  @Ok bytes (nom_error bytes) N i a = Ok rest n <-> Some (i, b) = Some (rest, n).
Proof. intros ->. naive_solver. Qed.

Lemma parse_len_ok input rest n :
  parse_len input = Ok rest n <-> len_loop 4 1 0 input = Some (rest, n).
Proof.
  unfold parse_len, parse_len_bits.
  destruct input as [|a i].
  { destruct len_group_nil as [e ->]. simpl. done. }
  rewrite len_group_cons. cbn [bind fst snd len_loop]. rewrite N.lor_0_l.
  pose proof (b2n_mod128 a) as Ha.
  destruct (N.leb_spec 128 (b2n a)) as [Ha1|Ha1]; cbn [negb].
  2:{ cbn -[N.add N.mul N.modulo]. rewrite N.mod_small by done. apply len_fin; lia. }
  destruct i as [|b i].
  { destruct len_group_nil as [e ->]. simpl. done. }
  rewrite len_group_cons. cbn [bind fst snd len_loop].
  pose proof (b2n_mod128 b) as Hb.
  rewrite lor_add by done. change (2 ^ 7)%N with 128%N.
  destruct (N.leb_spec 128 (b2n b)) as [Hb1|Hb1]; cbn [negb].
  2:{ cbn -[N.add N.mul N.modulo]. rewrite (N.mod_small (b2n b)) by done.
      apply len_fin; lia. }
  destruct i as [|c i].
  { destruct len_group_nil as [e ->]. simpl. done. }
  rewrite len_group_cons. cbn [bind fst snd len_loop].
  pose proof (b2n_mod128 c) as Hc.
  rewrite lor_add by (change (2 ^ 14)%N with 16384%N; lia). change (2 ^ 14)%N with 16384%N.
  destruct (N.leb_spec 128 (b2n c)) as [Hc1|Hc1]; cbn [negb].
  2:{ cbn -[N.add N.mul N.modulo]. rewrite (N.mod_small (b2n c)) by done.
      apply len_fin; lia. }
  destruct i as [|d i].
  { destruct len_group_nil as [e ->]. simpl. done. }
  rewrite len_group_cons. cbn [bind fst snd len_loop].
  pose proof (b2n_mod128 d) as Hd.
  rewrite lor_add by (change (2 ^ 21)%N with 2097152%N; lia). change (2 ^ 21)%N with 2097152%N.
  destruct (N.leb_spec 128 (b2n d)) as [Hd1|Hd1]; cbn [negb].
  2:{ cbn -[N.add N.mul N.modulo]. rewrite (N.mod_small (b2n d)) by done.
      apply len_fin; lia. }
  destruct i as [|e i].
  { destruct len_last_nil as [x ->]. simpl. done. }
  rewrite len_last_cons.
  destruct (N.ltb_spec (b2n e) 8) as [He|He]; cbn [bind]; [|done].
  rewrite lor_add by (change (2 ^ 28)%N with 268435456%N; lia). change (2 ^ 28)%N with 268435456%N. cbn -[N.add N.mul N.modulo].
  apply len_fin; lia.
Qed.

Lemma Some_pair_inv {A B} (a c : A) (b d : B) : Some (a, b) = Some (c, d) -> a = c /\ b = d.
Proof. naive_solver. Qed.

Lemma len_fin' (i : bytes) (a b : N) : a = b -> Some (i, a) = Some (i, b).
Proof. by intros ->. Qed.

Lemma parse_len_exact : exact parse_len len_prefix.
Proof.
  intros input rest n. rewrite parse_len_ok. split.
  - intros H.
    destruct input as [|a i]; [done|]. cbn [len_loop] in H.
    destruct (N.leb_spec 128 (b2n a)) as [Ha1|Ha1].
    2:{ apply Some_pair_inv in H as [<- <-]. exists [a]. split; [|done]. apply len_prefix_cases. left.
        eexists; repeat split; try done; lia. }
    destruct i as [|b i]; [done|].
    destruct (N.leb_spec 128 (b2n b)) as [Hb1|Hb1].
    2:{ apply Some_pair_inv in H as [<- <-]. exists [a; b]. split; [|done]. apply len_prefix_cases. right; left.
        eexists _, _; repeat split; try done; lia. }
    destruct i as [|c i]; [done|].
    destruct (N.leb_spec 128 (b2n c)) as [Hc1|Hc1].
    2:{ apply Some_pair_inv in H as [<- <-]. exists [a; b; c]. split; [|done]. apply len_prefix_cases. right; right; left.
        eexists _, _, _; repeat split; try done; lia. }
    destruct i as [|d i]; [done|].
    destruct (N.leb_spec 128 (b2n d)) as [Hd1|Hd1].
    2:{ apply Some_pair_inv in H as [<- <-]. exists [a; b; c; d]. split; [|done]. apply len_prefix_cases.
        right; right; right; left.
        eexists _, _, _, _; repeat split; try done; lia. }
    destruct i as [|e i]; [done|].
    destruct (N.ltb_spec (b2n e) 8) as [He|He]; [|done].
    apply Some_pair_inv in H as [<- <-]. exists [a; b; c; d; e]. split; [|done]. apply len_prefix_cases.
    right; right; right; right.
    eexists _, _, _, _, _; repeat split; try done; lia.
  - intros (bs & H & ->). apply len_prefix_cases in H.
    destruct H as [(a & -> & ? & ->)|[(a & b & -> & ? & ? & ->)|[(a & b & c & -> & ? & ? & ? & ->)
      |[(a & b & c & d & -> & ? & ? & ? & ? & ->)|(a & b & c & d & e & -> & ? & ? & ? & ? & ? & ->)]]]];
    cbn [app len_loop];
    repeat match goal with
    | |- context [N.leb 128 (b2n ?x)] => destruct (N.leb_spec 128 (b2n x)); [|lia]
    | |- context [N.leb 128 (b2n ?x)] => destruct (N.leb_spec 128 (b2n x)); [lia|]
    | |- context [N.ltb (b2n ?x) 8] => destruct (N.ltb_spec (b2n x) 8); [|lia]
    end; apply len_fin'; lia.
Qed.


(** ** Strings *)

Lemma take_bytes_exact n : exact (take_bytes n) (fun a bs => bs = a /\ N.of_nat (length a) = n).
Proof.
  intros input rest a. unfold take_bytes. split.
  - destruct (N.ltb_spec (N.of_nat (length input)) n); [done|]. intros [= <- <-].
    exists (take (N.to_nat n) input). split; [split; [done|]|by rewrite take_drop].
    rewrite take_length. lia.
  - intros (bs & [-> <-] & ->). rewrite Nat2N.id.
    destruct (N.ltb_spec (N.of_nat (length (a ++ rest))) (N.of_nat (length a))) as [Hl|Hl].
    { rewrite app_length in Hl. lia. }
    by rewrite drop_app, take_app.
Qed.

Lemma from_utf8_Some a s : from_utf8 a = Some s <-> s = a /\ utf8 a.
Proof.
  unfold from_utf8. rewrite <- utf8_valid_iff. destruct (utf8_valid a); naive_solver.
Qed.

Lemma lps_exact : exact lps_parse e_str.
Proof.
  eapply exact_ext.
  - apply exact_map_err. eapply (exact_bind parse_len (fun len i => map_res (take_bytes len) from_utf8 i)).
    + apply parse_len_exact.
    + intros len. apply exact_map_res, take_bytes_exact.
  - intros s bs. cbv beta. unfold e_str. split.
    + intros (n & b1 & b2 & H1 & (a & [-> <-] & Hu) & ->).
      apply from_utf8_Some in Hu as [-> Hu]. eauto.
    + intros (p & Hp & -> & Hu). exists (N.of_nat (length s)), p, s. split; [done|].
      split; [|done]. exists s. split; [done|]. by apply from_utf8_Some.
Qed.

Lemma len_prefix_nonempty n : ~ len_prefix n [].
Proof. intros (init & last & H & _). by destruct init. Qed.

Lemma e_str_nonempty : nonempty_enc e_str.
Proof.
  intros s (p & Hp & H & _). destruct p; [by apply len_prefix_nonempty in Hp|done].
Qed.

Lemma decimal_exact `{DecimalLib} :
  exact decimal_parse (fun d bs => exists s, e_str s bs /\ dec_from_str s = Some d).
Proof.
  intros input rest d. unfold decimal_parse. rewrite bind_ok. split.
  - intros (i & s & H1 & H2). apply lps_exact in H1 as (bs & Hs & ->).
    destruct (dec_from_str s) eqn:E; inv H2. eauto 10.
  - intros (bs & (s & Hs & Hd) & ->). exists rest, s. rewrite Hd. split; [|done].
    apply lps_exact. eauto.
Qed.

Lemma class_type_info_exact :
  exact class_type_info_parse
    (fun c bs => exists b1 b2, e_str (cti_type_name c) b1 /\ e_id (cti_library_id c) b2
                               /\ bs = b1 ++ b2).
Proof.
  intros input rest c. unfold class_type_info_parse. rewrite bind_ok. split.
  - intros (i & s & H1 & H2). rewrite bind_ok in H2. destruct H2 as (i2 & lid & H2 & [= -> <-]).
    apply lps_exact in H1 as (b1 & ? & ->). apply library_id_exact in H2 as (b2 & ? & ->).
    exists (b1 ++ b2). split; [eauto|]. by rewrite app_assoc.
  - intros (bs & (b1 & b2 & H1 & H2 & ->) & ->). rewrite <- app_assoc.
    eexists _, _. split; [by eapply exact_ok, H1; apply lps_exact|].
    rewrite (exact_ok library_id e_id (cti_library_id c) b2); [|apply library_id_exact|done].
    by destruct c.
Qed.
