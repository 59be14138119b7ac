(** * PropsZG: C80. *)
From Verif Require Import Base Utf8 Value DataTypes Records Parser Wire BaseLemmas Spec Safety LemmasA PropsA Serde SerdeLemmas SerdeSpec
  Reading PropsG PropsH PropsI PropsL Equality EqualitySpec PropsM EqualData EqualReads.
From Coq Require Import Lia.
From Coq Require Strings.String.
Import String.StringSyntax.

Section with_libs.
Context {DL : DecimalLib} {FL : FloatLib}.

(** ** C80 Equal messages are read as equal values *)

Lemma both_sym v w : both v w -> both w v.
Proof. intros [He Ha]. split; [by apply equal_sym|]. intros a b Hva Hwb Hs. symmetry. apply Ha; [done|done|]. by unfold same_decimal in *. Qed.

Lemma slice_equal W W' v w : casts_keep_equality -> decimal_text -> deserialize W = POk (MValue v) -> deserialize W' = POk (MValue w) ->
  both v w -> forall t d, rust_type t -> from_slice t W = FOk d -> exists d', from_slice t W' = FOk d' /\ equal_data d d'.
Proof.
  intros Hc Hdec H H' Hb t d Ht Hr. apply (C56_exact Hdec W t d Ht) in Hr as (v' & Hv & Hr). assert (v' = v) as -> by congruence.
  destruct Hr as [t|v t d Ho Hr].
  - destruct Hb as [He _]. apply equal_null in He as ->. exists D_none. split; [|by constructor].
    apply (C56_exact Hdec W' _ _ Ht). exists VNull. split; [done|constructor].
  - destruct (reads_equal Hc v w t d Hb (parsed_distinct _ _ H') Hr) as (d' & Hd' & Hdd). exists d'. split; [|done].
    apply (C56_exact Hdec W' _ _ Ht). exists w. split; [done|by constructor].
Qed.

Theorem C80_equal_partial : casts_keep_equality -> decimal_text -> forall W W' m m' t, rust_type t ->
  deserialize W = POk m -> deserialize W' = POk m' -> message_eqb m m' = true -> decimals_alike m m' ->
  match from_slice t W, from_slice t W' with
  | FOk d, FOk d' => equal_data d d'
  | FErr, FErr => True
  | _, _ => False
  end.
Proof.
  intros Hc Hdec W W' m m' t Ht H H' He Hal. apply (C59_equal _ _ _ _ H H') in He.
  assert (forall W m, deserialize W = POk m -> (exists d, from_slice t W = FOk d) \/ from_slice t W = FErr) as Hcases.
  { intros U u HU. unfold from_slice. rewrite HU. destruct (message_deserialize u t) as [d|]; [left; by exists d|by right]. }
  destruct He as [v w He|name type context args args' Ha|v v' context args args' Hv Ha].
  - assert (both v w) as Hb.
    { split; [done|]. intros a b Hva Hwb. apply Hal; [exists v|exists w]; (split; [by left|done]). }
    destruct (Hcases W _ H) as [[d Hd]| Hd], (Hcases W' _ H') as [[d' Hd']| Hd']; rewrite Hd, Hd'; try done.
    + destruct (slice_equal W W' v w Hc Hdec H H' Hb t d Ht Hd) as (d2 & H2 & Hdd). congruence.
    + destruct (slice_equal W W' v w Hc Hdec H H' Hb t d Ht Hd) as (d2 & H2 & Hdd). congruence.
    + destruct (slice_equal W' W w v Hc Hdec H' H (both_sym _ _ Hb) t d' Ht Hd') as (d2 & H2 & Hdd). congruence.
  - unfold from_slice. by rewrite H, H'.
  - unfold from_slice. by rewrite H, H'.
Qed.

(** Without decimals nothing is asked of their texts. *)
Lemma no_decimals_alike m m' : (forall a, ~ value_in (VDecimal a) m) -> decimals_alike m m'.
Proof. intros H a b Ha. by destruct (H a). Qed.

(** Two members in different order, 0.0 and -0.0, read as a struct. *)
Definition ex_point (names codes values : bytes) : bytes :=
  header_bytes 1 (-1) ++ bs_of [4; 1;0;0;0; 1;67; 2;0;0;0]%N ++ names ++ bs_of [0;0]%N ++ codes ++ values ++ [x0b].
Definition ex_point1 : bytes := ex_point (bs_of [1;97; 1;98]%N) (bs_of [6; 1]%N) (bs_of [0;0;0;0;0;0;0;0; 1]%N).
Definition ex_point2 : bytes := ex_point (bs_of [1;98; 1;97]%N) (bs_of [1; 6]%N) (bs_of [1; 0;0;0;0;0;0;0;128]%N).
Example C80_ex : exists m m' d d',
  deserialize ex_point1 = POk m /\ deserialize ex_point2 = POk m' /\ m <> m' /\ message_eqb m m' = true
  /\ decimals_alike m m'
  /\ (let t := T_struct [(lit "a", T_f64); (lit "b", T_bool)] in
      rust_type t /\ from_slice t ex_point1 = FOk d /\ from_slice t ex_point2 = FOk d' /\ d <> d').
Proof.
  exists (MValue (VObject (mkObj [x43] None [([x61], VDouble 0); ([x62], VBoolean true)]))),
    (MValue (VObject (mkObj [x43] None [([x62], VBoolean true); ([x61], VDouble 9223372036854775808)]))),
    (D_struct [(lit "a", D_f64 0); (lit "b", D_bool true)]), (D_struct [(lit "a", D_f64 9223372036854775808); (lit "b", D_bool true)]).
  split; [vm_compute; reflexivity|]. split; [vm_compute; reflexivity|]. split; [congruence|]. split; [vm_compute; reflexivity|].
  split.
  - apply no_decimals_alike. intros a (v & Hv & Hs). apply elem_of_list_singleton in Hv as ->.
    inversion Hs as [|? k x Hk Hx|]; subst. cbn [obj_members] in Hk.
    apply elem_of_cons in Hk as [[= -> ->]|Hk]; [by inversion Hx|].
    apply elem_of_list_singleton in Hk as [= -> ->]. by inversion Hx.
  - cbv zeta. split; [|split; [vm_compute; reflexivity|split; [vm_compute; reflexivity|congruence]]].
    apply TT_struct; [|repeat constructor].
    apply (bool_decide_unpack _). vm_compute. exact I.
Qed.
(** [casts_keep_equality] is no contradiction. *)
Example C80_casts : exists FL' : FloatLib, @casts_keep_equality FL'.
Proof.
  exists {| f64_as_f32 := fun _ => 0%N; f32_as_f64 := fun _ => 0%N; int_as_f32 := fun _ => 0%N; int_as_f64 := fun _ => 0%N |}.
  repeat split; intros; by exists (Finite 0).
Qed.

(** The full property is wrong: [Decimal] is read as its text, and 1.0 and 1.00 are equal
    decimals.  rust_decimal keeps trailing zeros ([dec_from_str], [dec_to_string] here). *)
Definition ex_decimals (text : bytes) : bytes :=
  header_bytes 1 (-1) ++ x0f :: enc_uint 4 1 ++ enc_uint 4 1 ++ n2b (pt_code PT_Decimal) :: ex_lps text ++ [x0b].
Lemma ex_decimals_parse text d : length text < 100 -> utf8 text -> dec_from_str text = Some d ->
  deserialize (ex_decimals text) = POk (MValue (VArray [VDecimal d])).
Proof.
  intros Hl Hu Hd. apply (C10_primitives_roundtrip (-1) 1 PT_Decimal [VDecimal d] (ex_lps text)).
  - split; vm_compute; congruence.
  - done.
  - done.
  - by repeat constructor.
  - rewrite <- (app_nil_r (ex_lps text)). apply (e_cons _ _ _ (ex_lps text) []); [|constructor].
    exists text. split; [|done]. exists [n2b (N.of_nat (length text))]. split; [|done].
    assert (b2n (n2b (N.of_nat (length text))) = N.of_nat (length text)) as E by (apply b2n_n2b_small; lia).
    exists [], (n2b (N.of_nat (length text))). cbn [app len_value length]. rewrite E.
    split_and!; [done|constructor|lia|lia|lia|].
    rewrite N.mod_small by lia. lia.
Qed.
Theorem C80_decimal_refuted : forall d1 d2,
  dec_from_str (lit "1.0") = Some d1 -> dec_from_str (lit "1.00") = Some d2 ->
  same_decimal d1 d2 -> dec_to_string d1 <> dec_to_string d2 ->
  exists W W' m m' t d d', rust_type t
    /\ deserialize W = POk m /\ deserialize W' = POk m' /\ message_eqb m m' = true
    /\ from_slice t W = FOk d /\ from_slice t W' = FOk d' /\ ~ equal_data d d'.
Proof.
  intros d1 d2 H1 H2 Hs Hne.
  assert (deserialize (ex_decimals (lit "1.0")) = POk (MValue (VArray [VDecimal d1]))) as P1.
  { apply ex_decimals_parse; [cbn; lia|exists [49; 46; 48]%N; split; [repeat constructor; by left|reflexivity]|done]. }
  assert (deserialize (ex_decimals (lit "1.00")) = POk (MValue (VArray [VDecimal d2]))) as P2.
  { apply ex_decimals_parse; [cbn; lia|exists [49; 46; 48; 48]%N; split; [repeat constructor; by left|reflexivity]|done]. }
  exists (ex_decimals (lit "1.0")), (ex_decimals (lit "1.00")), (MValue (VArray [VDecimal d1])), (MValue (VArray [VDecimal d2])),
    (T_vec T_string), (D_seq [D_str (dec_to_string d1)]), (D_seq [D_str (dec_to_string d2)]).
  split_and!; [by repeat constructor|done|done| | | |].
  - apply (C59_equal _ _ _ _ P1 P2). constructor. constructor. constructor; [by constructor|constructor].
  - unfold from_slice. by rewrite P1.
  - unfold from_slice. by rewrite P2.
  - inversion 1 as [? Hm| | | | |? ? Hf| |]; subst; [done|]. inversion Hf as [|? ? ? ? He _]; subst. inversion He; congruence.
Qed.
End with_libs.

(** Such a decimal library: digits after an optional point, trailing zeros kept. *)
Example C80_decimal_library : exists (DL : DecimalLib) d1 d2,
  dec_from_str (lit "1.0") = Some d1 /\ dec_from_str (lit "1.00") = Some d2
  /\ same_decimal d1 d2 /\ dec_to_string d1 <> dec_to_string d2.
Proof.
  exists {| dec_from_str s := if bool_decide (s = lit "1.0") then Some (mkDecimal false 10 1) else if bool_decide (s = lit "1.00") then Some (mkDecimal false 100 2) else None;
            dec_to_string d := if N.eqb (dec_scale d) 1 then lit "1.0" else lit "1.00" |}, (mkDecimal false 10 1), (mkDecimal false 100 2).
  split_and!; [vm_compute; reflexivity|vm_compute; reflexivity|reflexivity|vm_compute; congruence].
Qed.
