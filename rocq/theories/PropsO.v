(** * PropsO: exactly which inputs make the parser panic (C02). *)
From Verif Require Import Base Utf8 Value DataTypes Records Parser Wire BaseLemmas DataTypesLemmas
  RecordsLemmas MethodLemmas SafetyLemmas Safety Grammar Heads Complete Sound Fuel Message Run Spec
  LemmasA LemmasB LemmasC Positions Reach LemmasD Trees TreeLemmas PropsA PropsB PropsC PropsD PropsE Calm Ragged Panics Transmit.
From Coq Require Import Lia.

Section with_decimal.
Context {DL : DecimalLib}.

(** The specification consists of [ragged] (Ragged.v), [calamity] and [tried] (Panics.v), and of the
    grammar they refer to. *)
Theorem C02_panics_exactly : forall W p,
  deserialize W = PPanic p <-> p = P_DrainOutOfRange /\ exists e i, tried W e i /\ calamity e i.
Proof.
  intros W p. split.
  - intros H. pose proof (panic_only W p H) as [-> _]. split; [done|]. by apply message_panic.
  - intros (-> & e & i & Ht & Hc). by eapply tried_panics.
Qed.

(** In particular: every panicking input contains a BinaryArray record with at least two dimensions and
    a multiple-null record that does not stand for a single null among its items. *)
Lemma resolve_size its e i vs e' i' : g_resolve its e i vs e' i' -> N.of_nat (length vs) = items_size its.
Proof.
  induction 1; cbn [items_size item_size length]; rewrite ?app_length, ?replicate_length; try lia.
Qed.
Lemma ragged_shape e i : ragged e i -> exists id bat lengths bounds k bs i0 its e1 i1 n,
  i = bs ++ i0 /\ e_binary_array_header id bat lengths bounds k bs /\ 2 <= length lengths
  /\ g_items (replicate (N.to_nat (product lengths)) k) e i0 its e1 i1 /\ It_Nulls n ∈ its /\ n <> 1%N.
Proof.
  intros (id & bat & lengths & bounds & k & bs & i0 & its & e1 & i1 & vs & e2 & i2 & -> & Hb & Hno & Hits & Hres & Hn).
  assert (exists n, It_Nulls n ∈ its /\ n <> 1%N) as (n & Hin & Hn1).
  { destruct (decide (Forall (fun it => item_size it = 1%N) its)) as [Hf|Hf].
    - exfalso. pose proof (ones_size _ Hf) as Hs. pose proof (resolve_size _ _ _ _ _ _ Hres) as Hv.
      pose proof (g_items_length _ _ _ _ _ _ Hits) as [_ Hkl]. rewrite replicate_length in Hkl.
      assert (N.of_nat (length vs) = product lengths) as Hvl by lia.
      destruct lengths as [|l lengths]; [apply (Hn 1%N); rewrite Hvl; done|].
      apply (Hn l). rewrite Hvl. done.
    - apply not_Forall_Exists in Hf; [|apply _]. apply Exists_exists in Hf as (it & Hin & Hit).
      destruct it as [v|n|r]; cbn in Hit; try done. by exists n. }
  exists id, bat, lengths, bounds, k, bs, i0, its, e1, i1, n.
  split; [done|]. split; [done|]. split; [|done].
  destruct lengths as [|l [|l2 lengths]]; cbn [length]; [exfalso..|lia].
  - apply (Hn (N.of_nat (length vs))). cbn. lia.
  - apply (Hn (N.of_nat (length vs))). cbn. lia.
Qed.
Theorem C02_panics_need_overshoot : forall W p, deserialize W = PPanic p ->
  p = P_DrainOutOfRange /\ exists e i id bat lengths bounds k bs i0 its e1 i1 n,
    i ⊑s W /\ i = bs ++ i0 /\ e_binary_array_header id bat lengths bounds k bs /\ 2 <= length lengths
    /\ g_items (replicate (N.to_nat (product lengths)) k) e i0 its e1 i1 /\ It_Nulls n ∈ its /\ n <> 1%N.
Proof.
  intros W p H. apply panic_ragged in H as (-> & e & i & Hs & Hr). split; [done|].
  apply ragged_shape in Hr as (id & bat & lengths & bounds & k & bs & i0 & its & e1 & i1 & n & -> & Hr).
  by exists e, (bs ++ i0), id, bat, lengths, bounds, k, bs, i0, its, e1, i1, n.
Qed.

(** Examples: a ragged record at the top level, behind a reference in an array, behind a reference in a
    call array, after a method. *)
Definition ragged_bytes : bytes := bs_of [7; 2;0;0;0; 2; 2;0;0;0; 2;0;0;0; 2;0;0;0; 2; 13;2; 10; 10; 10]%N.
Example C02_ex_top : deserialize panic_message = PPanic P_DrainOutOfRange.
Proof. vm_compute. reflexivity. Qed.
Example C02_ex_reference : deserialize (header_bytes 1 (-1) ++ ex_call_array ++ bs_of [9; 2;0;0;0]%N ++ ragged_bytes ++ [x0b])
  = PPanic P_DrainOutOfRange.
Proof. vm_compute. reflexivity. Qed.
Example C02_ex_call_array : deserialize (header_bytes 1 (-1) ++ ex_call_record 8 ++ ex_call_array ++ bs_of [9; 2;0;0;0]%N ++ ragged_bytes ++ [x0b])
  = PPanic P_DrainOutOfRange.
Proof. vm_compute. reflexivity. Qed.
Example C02_ex_after_method : deserialize (header_bytes 1 (-1) ++ ex_call_record 1 ++ ragged_bytes ++ [x0b])
  = PPanic P_DrainOutOfRange.
Proof. vm_compute. reflexivity. Qed.
Example C02_ex_tried : exists e i, tried panic_message e i /\ calamity e i.
Proof. apply (proj1 (C02_panics_exactly panic_message P_DrainOutOfRange) C02_ex_top). Qed.
End with_decimal.
