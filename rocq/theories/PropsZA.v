(** * PropsZA: C74. *)
From Verif Require Import Base Utf8 Value DataTypes Records Parser Wire BaseLemmas Spec PropsA PropsF Dates Serde PropsG.
From Coq Require Import Lia ZifyNat ZifyN.

(** ** C74 Dates are those that .NET wrote *)

Definition date_raw (ticks : N) (z : zone) : Z :=
  match z with Local => (Z.of_N ticks - 2 ^ 63)%Z | _ => Z.of_N (ticks + zone_code z * 2 ^ 62) end.
Lemma date_raw_bytes ticks z : (ticks <= last_tick)%N ->
  fits_int 8 (date_raw ticks z) /\ date_bytes ticks z = enc_int 8 (date_raw ticks z).
Proof.
  intros H. unfold last_tick in H. unfold date_bytes, enc_int, fits_int. change (8 * Z.of_nat 8)%Z with 64%Z.
  change (64 - 1)%Z with 63%Z. destruct z; unfold date_raw; cbn [zone_code].
  - split; [lia|]. f_equal. rewrite Z.mod_small by lia. lia.
  - split; [lia|]. f_equal. rewrite Z.mod_small by lia. lia.
  - split; [lia|]. f_equal. rewrite <- (Z.mod_unique (Z.of_N ticks - 2 ^ 63) (2 ^ 64) (-1) (Z.of_N ticks + 2 ^ 63)); lia.
Qed.

Section with_decimal.
Context {DL : DecimalLib}.

(** An array of dates as .NET writes it, and the result. *)
Definition dates_message (hid : Z) (id : N) (dates : list (N * zone)) : bytes :=
  header_bytes id hid ++ x0f :: enc_uint 4 id ++ enc_uint 4 (N.of_nat (length dates))
  ++ n2b (pt_code PT_DateTime) :: concat (map (fun d => date_bytes d.1 d.2) dates) ++ [x0b].
Lemma dates_result hid id dates : fits_int 4 hid -> valid_id id -> valid_len (N.of_nat (length dates)) ->
  Forall (fun d => (d.1 <= last_tick)%N) dates ->
  deserialize (dates_message hid id dates) = POk (MValue (VArray (map (fun d => VDateTime (date_raw d.1 d.2)) dates))).
Proof.
  intros Hh Hi Hl Hd. unfold dates_message.
  replace (length dates) with (length (map (fun d => VDateTime (date_raw d.1 d.2)) dates)) by apply map_length.
  apply C10_primitives_roundtrip; [done|done|by rewrite map_length|..].
  - clear. induction dates; by constructor.
  - clear -Hd. induction Hd as [|[t z] dates Ht _ IH]; [constructor|]. cbn [map concat fst snd].
    constructor; [|done]. cbn [fst] in Ht. destruct (date_raw_bytes t z Ht) as [H1 ->]. by split.
Qed.

(** The accessors read the fields at the wrong end: this is what they report. *)
Theorem C74_reported : forall hid id ticks z,
  fits_int 4 hid -> valid_id id -> (ticks <= last_tick)%N ->
  exists raw, deserialize (dates_message hid id [(ticks, z)]) = POk (MValue (VArray [VDateTime raw]))
    /\ dt_ticks raw = (Z.of_N ticks / 4 + match z with Unspecified => 0 | Utc => 2 ^ 60 | Local => - 2 ^ 61 end)%Z
    /\ (dt_kind raw = Some DTK_Utc <-> (ticks mod 4 = 1)%N)
    /\ (dt_kind raw = Some DTK_Local <-> (ticks mod 4 = 2)%N).
Proof.
  intros hid id ticks z Hh Hi Ht. exists (date_raw ticks z).
  split; [apply (dates_result hid id [(ticks, z)]); [done|done|done|by constructor]|].
  assert (date_raw ticks z = Z.of_N ticks + 4 * match z with Unspecified => 0 | Utc => 2 ^ 60 | Local => - 2 ^ 61 end)%Z as E.
  { destruct z; unfold date_raw; cbn [zone_code]; lia. }
  unfold dt_ticks, dt_kind. change 3%Z with (Z.ones 2). rewrite Z.shiftr_div_pow2, Z.land_ones by lia.
  change (2 ^ 2)%Z with 4%Z. rewrite E. rewrite Z.mul_comm, Z.div_add, Z.mod_add by lia.
  split; [done|]. clear E. pose proof (N2Z.inj_mod ticks 4) as Em. change (Z.of_N 4) with 4%Z in Em. rewrite <- Em. clear Em.
  pose proof (N.mod_lt ticks 4 ltac:(lia)).
  destruct (Z.eqb_spec (Z.of_N (ticks mod 4)) 1), (Z.eqb_spec (Z.of_N (ticks mod 4)) 2); split; split; intros; try done; lia.
Qed.

(** So they are right only for the first instant of the year 1 without a zone, and for a single
    instant (of the year 4872) in UTC. *)
Theorem C74_right_exactly : forall hid id ticks z raw,
  fits_int 4 hid -> valid_id id -> (ticks <= last_tick)%N ->
  deserialize (dates_message hid id [(ticks, z)]) = POk (MValue (VArray [VDateTime raw])) ->
  (reports raw ticks z <-> (ticks = 0%N /\ z = Unspecified) \/ (ticks = 1537228672809129301%N /\ z = Utc)).
Proof.
  intros hid id ticks z raw Hh Hi Ht HW. unfold last_tick in Ht.
  destruct (C74_reported hid id ticks z Hh Hi Ht) as (raw' & Hr & E1 & E2 & E3).
  rewrite HW in Hr. injection Hr as <-. split.
  - intros [H1 H2]. rewrite H1 in E1. rewrite H2 in E2, E3. clear H1 H2.
    pose proof (Z.div_mod (Z.of_N ticks) 4 ltac:(lia)). pose proof (Z.mod_pos_bound (Z.of_N ticks) 4 ltac:(lia)).
    pose proof (N.div_mod ticks 4 ltac:(lia)). pose proof (N.mod_lt ticks 4 ltac:(lia)).
    destruct z.
    + left. split; [lia|done].
    + right. split; [|done]. destruct E2 as [E2 _]. specialize (E2 eq_refl). lia.
    + lia.
  - intros [[-> ->]|[-> ->]]; (split; [rewrite E1; vm_compute; reflexivity|]).
    + destruct (dt_kind raw) as [[]|]; [..|done]; [destruct E2 as [X _]|destruct E3 as [X _]]; specialize (X eq_refl); done.
    + by apply E2.
Qed.
(** No date on a full second reports a zone. *)
Theorem C74_full_seconds : forall hid id seconds z raw,
  fits_int 4 hid -> valid_id id -> (seconds * 10000000 <= last_tick)%N ->
  deserialize (dates_message hid id [((seconds * 10000000)%N, z)]) = POk (MValue (VArray [VDateTime raw])) ->
  dt_kind raw = None.
Proof.
  intros hid id seconds z raw Hh Hi Ht HW.
  destruct (C74_reported hid id (seconds * 10000000) z Hh Hi Ht) as (raw' & Hr & E1 & E2 & E3).
  rewrite HW in Hr. injection Hr as <-.
  assert ((seconds * 10000000) mod 4 = 0)%N as E.
  { replace (seconds * 10000000)%N with (seconds * 2500000 * 4)%N by lia. apply N.mod_mul. lia. }
  rewrite E in E2, E3. destruct (dt_kind _) as [[]|]; [|by destruct E3 as [E3 _]; specialize (E3 eq_refl)|done].
  by destruct E2 as [E2 _]; specialize (E2 eq_refl).
Qed.
(** 2021-01-01T00:00:00Z. *)
Theorem C74_dates_refuted : ~ forall hid id ticks z,
  fits_int 4 hid -> valid_id id -> (ticks <= last_tick)%N ->
  exists raw, deserialize (dates_message hid id [(ticks, z)]) = POk (MValue (VArray [VDateTime raw])) /\ reports raw ticks z.
Proof.
  intros H. assert (fits_int 4 (-1)) as Hh by (split; vm_compute; congruence).
  destruct (H (-1)%Z 1%N 637450560000000000%N Utc Hh) as (raw & HW & Hr); [done|done|].
  apply (C74_right_exactly (-1) 1) in Hr; [|done..]. destruct Hr as [[Hr _]|[Hr _]]; discriminate Hr.
Qed.

(** What holds: read as [i64], a date is the value that .NET wrote. *)
Context {FL : FloatLib}.
Theorem C74_raw_partial : forall hid id dates,
  fits_int 4 hid -> valid_id id -> valid_len (N.of_nat (length dates)) -> Forall (fun d => (d.1 <= last_tick)%N) dates ->
  exists raws, from_slice (T_vec (T_int I64)) (dates_message hid id dates) = FOk (D_seq (map D_int raws))
    /\ Forall2 (fun raw d => Z.of_N d.1 = (raw mod 2 ^ 62)%Z /\ Z.of_N (zone_code d.2) = (raw / 2 ^ 62 mod 4)%Z) raws dates.
Proof.
  intros hid id dates Hh Hi Hl Hd. exists (map (fun d => date_raw d.1 d.2) dates). split.
  - apply (C43_vec_slice _ _ _ _ (dates_result hid id dates Hh Hi Hl Hd)). eexists. split; [reflexivity|].
    clear -Hd. induction Hd as [|[t z] dates Ht _ IH]; constructor; [|done]. cbn [fst snd] in *.
    destruct (date_raw_bytes t z Ht) as [[H1 H2] _]. change (8 * Z.of_nat 8 - 1)%Z with 63%Z in H1, H2.
    rewrite any_type by done. cbn [value_deserialize_any visit_int].
    assert (int_fits I64 (date_raw t z) = true) as -> by (apply int_fits_iff; cbn; lia). done.
  - clear -Hd. induction Hd as [|[t z] dates Ht _ IH]; constructor; [|done]. cbn [fst snd] in *. unfold last_tick in Ht.
    destruct z; unfold date_raw; cbn [zone_code]; lia.
Qed.
Example C74_ex : fits_int 4 (-1) /\ valid_id 1 /\ (637450560000000000 <= last_tick)%N
  /\ exists raw, deserialize (dates_message (-1) 1 [(637450560000000000%N, Utc)]) = POk (MValue (VArray [VDateTime raw]))
     /\ dt_ticks raw = 1312284144606846976%Z /\ dt_kind raw = None.
Proof.
  split; [split; vm_compute; congruence|]. split; [done|]. split; [done|]. eexists.
  split; [vm_compute; reflexivity|]. split; vm_compute; reflexivity.
Qed.
End with_decimal.
