(** * PropsU: C64-C68, deserialisation into arbitrary types. *)
From Verif Require Import Base Utf8 Value DataTypes Records Parser Wire Spec PropsA Serde SerdeLemmas SerdeSpec Display
  Reading PropsG PropsH PropsI PropsL.
From Verif Require Import Visitors VisitorSpec VisitorLemmas VisitorComplete VisitorEnds TargetWorld TargetLemmas.
From Coq Require Import Lia.
From Coq Require Strings.String.
Import String.StringSyntax.

Section with_libs.
Context {DL : DecimalLib} {FL : FloatLib} {TL : TextLib}.

Lemma same_distinct v : forall w, same_value v w -> distinct_names v -> distinct_names w.
Proof.
  induction v as [v IH] using value_below_ind. intros w Hs Hd.
  inversion Hd as [[c l ms] Hn Hms|vs Hvs|? Hsc]; subst.
  - destruct (same_object_inv _ _ Hs) as [[c' l' ns] ->].
    apply same_value_members in Hs as (<- & <- & Hp & H1 & H2). cbn [obj_members] in *. rewrite Forall_forall in Hms.
    constructor; [by rewrite <- Hp|]. apply Forall_forall. intros [k w] Hw. destruct (H2 k w Hw) as (v & Hv & Hvw).
    eapply IH; [by eapply below_member|exact Hvw|exact (Hms (k, v) Hv)].
  - destruct (same_array_inv _ _ Hs) as (ws & -> & Hvw). constructor. apply Forall_forall. intros w Hw.
    rewrite Forall_forall in Hvs. apply elem_of_list_lookup in Hw as [i Hi].
    destruct (Forall2_lookup_r _ _ _ _ _ Hvw Hi) as (v & Hv & Hs'). apply elem_of_list_lookup_2 in Hv.
    eapply IH; [by apply below_element|exact Hs'|by apply Hvs].
  - by rewrite <- (same_scalar _ _ Hs Hsc).
Qed.
Lemma enumerated_distinct order W m : (forall v, same_value v (order v)) -> deserialize W = POk m ->
  forall v, enumerated order m = MValue v -> distinct_names v.
Proof.
  intros Ho H v. destruct m as [c|c|w]; cbn; try done. intros [= <-].
  eapply same_distinct; [apply Ho|]. by eapply parsed_distinct.
Qed.

Section world.
Context {U Ty St : Type} (T : world U Ty St) (order : value -> value).

(** [returns t W r]: [from_slice::<t>(W)] returns [r]. *)
Definition returns (t : Ty) (W : bytes) (r : tres U) : Prop :=
  exists n, from_slice_run T order n t W = match r with TOk u => R_returned u | TErr e => R_error e end.

Lemma outcome_iff W m t n r : deserialize W = POk m ->
  from_slice_run T order n t W = match r with TOk u => R_returned u | TErr e => R_error e end
  <-> message_run T n (enumerated order m) t = Done r.
Proof.
  intros H. unfold from_slice_run. rewrite H.
  destruct (message_run T n (enumerated order m) t) as [[u|e]| |], r as [u'|e']; split; try done; congruence.
Qed.

(** The number of steps does not matter: it is only a bound. *)
Theorem C64_steps : forall t W n n', n <= n' -> from_slice_run T order n t W <> R_running ->
  from_slice_run T order n' t W = from_slice_run T order n t W.
Proof.
  intros t W n n' Hn. unfold from_slice_run. destruct (deserialize W) as [m| | |]; try done.
  pose proof (message_mono T n n' (enumerated order m) t Hn) as H.
  destruct (message_run T n (enumerated order m) t) as [r| |] eqn:E.
  - rewrite (less_stopped _ _ H) by done. done.
  - by rewrite (less_stopped _ _ H).
  - done.
Qed.

(** Whatever type is asked for, and in whatever order the maps are enumerated, it gets what the
    rules say. *)
Theorem C64_rules : forall W m t r, (forall v, same_value v (order v)) -> deserialize W = POk m ->
  returns t W r <-> message_gets T (enumerated order m) t r.
Proof.
  intros W m t r Ho H. pose proof (enumerated_distinct order W m Ho H) as Hd. unfold returns. split.
  - intros [n Hn]. apply (outcome_iff _ _ _ _ _ H) in Hn. by eapply message_sound.
  - intros Hg. apply message_complete in Hg as [n Hn]; [|done]. exists n. by apply (outcome_iff _ _ _ _ _ H).
Qed.

(** The rules leave no choice. *)
Theorem C64_unique : forall W m t r r', (forall v, same_value v (order v)) -> deserialize W = POk m ->
  message_gets T (enumerated order m) t r -> message_gets T (enumerated order m) t r' -> r = r'.
Proof.
  intros W m t r r' Ho H H1 H2. pose proof (enumerated_distinct order W m Ho H) as Hd.
  apply message_complete in H1 as [n1 H1]; [|done]. apply message_complete in H2 as [n2 H2]; [|done].
  pose proof (message_mono T n1 (n1 `max` n2) (enumerated order m) t ltac:(lia)) as M1.
  pose proof (message_mono T n2 (n1 `max` n2) (enumerated order m) t ltac:(lia)) as M2.
  rewrite (less_stopped _ _ M1) in M2 by congruence.
  rewrite H1, H2 in M2. apply less_stopped in M2; [|done]. congruence.
Qed.

(** A parse error is returned as it is: no implementation sees anything of a message that does not
    parse. *)
Theorem C64_parse_error : forall W e t n, deserialize W = PErr e ->
  from_slice_run T order n t W = R_error (slice_error_text e).
Proof. intros W e t n H. unfold from_slice_run. by rewrite H. Qed.

(** Types whose implementations come to an end are read in finitely many steps, from any input. *)
Theorem C65_terminates : ends T -> forall W t, exists n, from_slice_run T order n t W <> R_running.
Proof.
  intros He W t. unfold from_slice_run. pose proof (C01_parse_terminates W) as Hp.
  destruct (deserialize W) as [m| | |]; try (by exists 0).
  destruct (message_stops T (enumerated order m) t He) as [n Hn]. exists n.
  by destruct (message_run T n (enumerated order m) t) as [[]| |].
Qed.

(** Implementations that follow the protocol of serde never make the crate panic. *)
Theorem C65_no_panic : orderly T -> forall W t n, from_slice_run T order n t W <> R_panic.
Proof.
  intros Ho W t n. unfold from_slice_run. destruct (deserialize W) as [m| | |]; try done.
  pose proof (message_no_panic T n (enumerated order m) t Ho) as H.
  by destruct (message_run T n (enumerated order m) t) as [[]| |].
Qed.

(** Hence such types always get an answer: a result, an error, or the panic of the parser (C05). *)
Theorem C65_answers : ends T -> orderly T -> forall W t, exists n,
  (exists u, from_slice_run T order n t W = R_returned u) \/ (exists e, from_slice_run T order n t W = R_error e)
  \/ exists p, from_slice_run T order n t W = R_parse_panic p.
Proof.
  intros He Ho W t. destruct (C65_terminates He W t) as [n Hn]. exists n.
  pose proof (C65_no_panic Ho W t n) as Hp. destruct (from_slice_run T order n t W); try done; eauto 6.
Qed.

(** ** Nothing is left out *)

(** An implementation that passes errors on. *)
Definition honest (post : tres U -> tres U) : Prop := forall e, post (TErr e) = TErr e.

Lemma nothing_left_ok {A} what (all left : list A) (r : tres U) u :
  nothing_left what all left r = TOk u -> left = [] /\ r = TOk u.
Proof. by destruct left, r. Qed.

(** An array, read successfully, was read to the end: every element was handed over, in order. *)
Theorem C66_whole_array : forall W vs t m vis post n u, (forall v, same_value v (order v)) ->
  deserialize W = POk (MValue (VArray vs)) -> w_impl T t = I_call m vis post -> honest post ->
  from_slice_run T order n t W = R_returned u ->
  exists ws u', Forall2 same_value vs ws /\ one_by_one T (on_seq vis) ws (TOk u') [] /\ post (TOk u') = TOk u.
Proof.
  intros W vs t m vis post n u Ho H Hi Hh Hr.
  assert (returns t W (TOk u)) as Hg by (by exists n). apply (C64_rules W _ t (TOk u) Ho H) in Hg.
  cbn [enumerated] in Hg. destruct (same_array_inv _ _ (Ho (VArray vs))) as (ws & Hw & Hf). rewrite Hw in Hg.
  assert (exists r, visits T vis (VArray ws) r /\ post r = TOk u) as (r & Hv & Hp).
  { inversion Hg as [? ? ? Hi'|?|?|v' t' vis' post' r' Hi' Hv'|v' t' m' vis' post' r' Hi' Hm' Hs']; subst.
    - congruence.
    - rewrite Hi in Hi'. injection Hi' as -> -> ->. eauto.
    - rewrite Hi in Hi'. injection Hi' as -> -> ->. exists r'. split; [|done]. inversion Hs'; subst; done. }
  exists ws. inversion Hv as [? ? ? Ht|? ? r' left Hq| | | | |]; subst; [inversion Ht|].
  destruct (nothing_left _ _ left r') as [u'|e'] eqn:E; [|by rewrite Hh in Hp].
  exists u'. split; [done|]. split; [|done]. apply nothing_left_ok in E as [-> ->]. done.
Qed.

(** The members of an object that is read as a map were all handed over. *)
Theorem C66_whole_object : forall W class library ms t m vis post n u, (forall v, same_value v (order v)) ->
  deserialize W = POk (MValue (VObject (mkObj class library ms))) -> plain_class class library ->
  w_impl T t = I_call m vis post -> honest post -> from_slice_run T order n t W = R_returned u ->
  exists b ns u', same_value (VObject (mkObj class library ms)) (VObject (mkObj class library ns)) /\
    entry_by_entry T b (on_map vis (N.of_nat (length ns))) ns None (TOk u') [] /\ post (TOk u') = TOk u.
Proof.
  intros W class library ms t m vis post n u Ho H Hc Hi Hh Hr.
  assert (returns t W (TOk u)) as Hg by (by exists n). apply (C64_rules W _ t (TOk u) Ho H) in Hg.
  cbn [enumerated] in Hg. pose proof (Ho (VObject (mkObj class library ms))) as Hs0.
  destruct (same_object_inv _ _ Hs0) as [[c l ns] Hw]. rewrite Hw in *.
  pose proof Hs0 as Hs1. apply same_value_members in Hs1 as (<- & <- & _).
  assert (forall r, visits T vis (VObject (mkObj class library ns)) r -> post r = TOk u ->
    exists b ns0 u', same_value (VObject (mkObj class library ms)) (VObject (mkObj class library ns0)) /\
    entry_by_entry T b (on_map vis (N.of_nat (length ns0))) ns0 None (TOk u') [] /\ post (TOk u') = TOk u) as Hany.
  { intros r Hv Hp. inversion Hv as [? ? ? Ht| |? ? ? ? ? ? ? Hw1 Hw2|? ? ? ? ? ? Hw1 Hw2|? ? ? ? ? ? ? ? Hl|? ? ? Hl|? ? ? ? r' left Hpl He]; subst.
    - inversion Ht.
    - destruct Hc as [Hc|[Hc _]]; [done|]. by destruct (Hc _ _ Hw1).
    - by rewrite Hh in Hp.
    - destruct Hc as [Hc|[_ Hc]]; done.
    - by rewrite Hh in Hp.
    - destruct (nothing_left _ _ left r') as [u'|e'] eqn:E; [|by rewrite Hh in Hp].
      apply nothing_left_ok in E as [-> ->]. eauto 8. }
  inversion Hg as [? ? ? Hi'|?|?|v' t' vis' post' r' Hi' Hv'|v' t' m' vis' post' r' Hi' Hm' Hs']; subst.
  - congruence.
  - rewrite Hi in Hi'. injection Hi' as -> -> ->.
    match goal with E : post' r' = TOk u |- _ => rewrite E; exact (Hany _ Hv' E) end.
  - rewrite Hi in Hi'. injection Hi' as -> -> ->.
    assert (post' r' = TOk u) as Hp by congruence.
    match goal with E : post' r' = TOk u |- context [post' r'] => rewrite E | _ => idtac end.
    inversion Hs' as [| | |? o r left He|? ? ? Hno Hv'|? ? ? Hv'|? ? ? Hv']; subst; try done; try exact (Hany _ Hv' Hp).
    cbn [obj_members] in He. destruct (nothing_left _ _ left r) as [u'|e'] eqn:E; [|by rewrite Hh in Hp].
    apply nothing_left_ok in E as [-> ->]. eauto 8.
Qed.

(** A [List<T>], read successfully, was asked for as many elements as its size says. *)
Theorem C66_whole_list : forall W class ms items size version t m vis post n u,
  (forall v, same_value v (order v)) ->
  deserialize W = POk (MValue (VObject (mkObj class None ms))) -> is_list_class class ->
  list_members items size version ms ->
  w_impl T t = I_call m vis post -> m <> M_struct -> honest post -> from_slice_run T order n t W = R_returned u ->
  exists items' u', Forall2 same_value items items' /\
    up_to T (on_seq vis) items' (Z.to_N (as_usize size)) (TOk u') 0 /\ post (TOk u') = TOk u.
Proof.
  intros W class ms items size version t m vis post n u Ho H Hl Hlm Hi Hm Hh Hr.
  assert (returns t W (TOk u)) as Hg by (by exists n). apply (C64_rules W _ t (TOk u) Ho H) in Hg.
  cbn [enumerated] in Hg. pose proof (Ho (VObject (mkObj class None ms))) as Hs0.
  pose proof (parsed_distinct _ _ H) as Hd.
  destruct (same_object_inv _ _ Hs0) as [[c l ns] Hw]. rewrite Hw in *.
  apply same_value_members in Hs0 as (<- & <- & Hp & H1 & H2). cbn [obj_members] in *.
  assert (exists items', Forall2 same_value items items' /\ list_members items' size version ns) as (items' & Hit & Hns).
  { pose proof (list_members_get _ _ _ _ Hlm) as (G1 & G2 & G3 & G4).
    apply hm_get_in in G1, G2, G3.
    destruct (H1 _ _ G1) as (w1 & I1 & S1), (H1 _ _ G2) as (w2 & I2 & S2), (H1 _ _ G3) as (w3 & I3 & S3).
    destruct (same_array_inv _ _ S1) as (items' & -> & Hit).
    rewrite <- (same_scalar _ _ S2 I) in I2. rewrite <- (same_scalar _ _ S3 I) in I3.
    exists items'. split; [done|]. unfold list_members. symmetry.
    apply submseteq_Permutation_length_eq.
    - apply Permutation_length in Hp. rewrite !map_length in Hp. cbn [length]. lia.
    - apply NoDup_submseteq.
      + apply (NoDup_fmap_1 fst). cbn. apply (bool_decide_unpack _). vm_compute. exact I.
      + intros x. rewrite !elem_of_cons, elem_of_nil. by intros [-> | [-> | [-> | []]]]. }
  assert (exists r, visits T vis (VObject (mkObj class None ns)) r /\ post r = TOk u) as (r & Hv & Hpost).
  { inversion Hg as [? ? ? Hi'|?|?|v' t' vis' post' r' Hi' Hv'|v' t' m' vis' post' r' Hi' Hm' Hs']; subst.
    - congruence.
    - rewrite Hi in Hi'. injection Hi' as -> -> ->. eauto.
    - rewrite Hi in Hi'. injection Hi' as -> -> ->. exists r'. split; [|done]. inversion Hs'; subst; done. }
  exists items'. inversion Hv as [? ? ? Ht| |? ? ? ? ? ? ? Hw1 Hw2|? ? ? ? ? ? Hw1 Hw2|? ? ? items2 size2 version2 r' left Hl' Hlm' Hu|? ? ? Hl' Hno|? ? ? ? r' left Hpl He]; subst.
  - inversion Ht.
  - exfalso. apply list_class_get in Hl as [Hl _]. rewrite (wrapper_get class name prim) in Hl; [done| |done]. by apply wrapper_of_iff.
  - by rewrite Hh in Hpost.
  - pose proof (list_members_get _ _ _ _ Hns) as (G1 & G2 & G3 & _).
    pose proof (list_members_get _ _ _ _ Hlm') as (K1 & K2 & K3 & _).
    assert (items2 = items') as -> by congruence. assert (size2 = size) as -> by congruence.
    unfold all_answers in Hpost. destruct r' as [u'|e']; [|by rewrite Hh in Hpost].
    destruct (N.eqb_spec left 0) as [Hz|]; [|by rewrite Hh in Hpost]. rewrite Hz in Hu. eauto.
  - by rewrite Hh in Hpost.
  - destruct Hpl as [Hpl|[_ Hpl]]; done.
Qed.

(** Method calls and returns: no visitor is ever called. *)
Theorem C64_calls : forall W c t m vis post n,
  deserialize W = POk (MMethodCall c) -> w_impl T t = I_call m vis post -> honest post ->
  from_slice_run T order n t W = R_error (lit "invalid type: method call, expected " ++ expecting vis).
Proof.
  intros W c t m vis post n H Hi Hh. unfold from_slice_run. rewrite H. cbn [enumerated]. unfold message_run.
  rewrite Hi, Hh. done.
Qed.
Theorem C64_returns : forall W c t m vis post n,
  deserialize W = POk (MMethodReturn c) -> w_impl T t = I_call m vis post -> honest post ->
  from_slice_run T order n t W = R_error (lit "invalid type: method return, expected " ++ expecting vis).
Proof.
  intros W c t m vis post n H Hi Hh. unfold from_slice_run. rewrite H. cbn [enumerated]. unfold message_run.
  rewrite Hi, Hh. done.
Qed.

(** ** Error texts *)

(** An implementation that stops before the end of an array is told how many elements there are and
    how many it has asked for. *)
Theorem C67_array : forall W vs ws t m vis post u left, (forall v, same_value v (order v)) ->
  deserialize W = POk (MValue (VArray vs)) -> order (VArray vs) = VArray ws ->
  w_impl T t = I_call m vis post -> honest post ->
  one_by_one T (on_seq vis) ws (TOk u) left -> left <> [] ->
  returns t W (TErr (lit "invalid length " ++ digits (N.of_nat (length vs)) ++ lit ", expected "
    ++ digits (N.of_nat (length vs - length left))
    ++ (if Nat.eqb (length vs - length left) 1 then lit " element" else lit " elements") ++ lit " in array")).
Proof.
  intros W vs ws t m vis post u left Ho H Hw Hi Hh Hq Hl.
  apply (C64_rules W _ t _ Ho H). cbn [enumerated]. rewrite Hw.
  assert (visits T vis (VArray ws) (nothing_left (lit "array") ws left (TOk u))) as Hv by (by apply V_array).
  pose proof (Ho (VArray vs)) as Hs. rewrite Hw in Hs. destruct (same_array_inv _ _ Hs) as (ws' & [= <-] & Hf).
  apply Forall2_length in Hf. destruct left as [|w left]; [done|]. cbn [nothing_left] in Hv.
  set (e := length_error _ _ _) in Hv.
  match goal with |- message_gets _ _ _ (TErr ?e') => assert (e = e') as <- end.
  { unfold e, length_error. rewrite <- Hf. rewrite Nat2N.inj_sub.
    do 4 f_equal.
    destruct (N.eqb_spec (N.of_nat (length vs) - N.of_nat (length (w :: left))) 1),
      (Nat.eqb_spec (length vs - length (w :: left)) 1); try lia; done. }
  rewrite <- Hh. destruct m.
  - eapply MG_value; [done..|]. by apply S_any.
  - by eapply MG_option.
  - eapply MG_value; [done..|]. by apply S_struct_other.
  - eapply MG_value; [done..|]. by apply S_enum.
Qed.
(** The same for the members of an object. *)
Theorem C67_object : forall W class library ms ns t m vis post b u left, (forall v, same_value v (order v)) ->
  deserialize W = POk (MValue (VObject (mkObj class library ms))) -> plain_class class library ->
  order (VObject (mkObj class library ms)) = VObject (mkObj class library ns) ->
  w_impl T t = I_call m vis post -> honest post -> (b = false <-> m = M_struct) ->
  entry_by_entry T b (on_map vis (N.of_nat (length ns))) ns None (TOk u) left -> left <> [] ->
  returns t W (TErr (lit "invalid length " ++ digits (N.of_nat (length ms)) ++ lit ", expected "
    ++ digits (N.of_nat (length ms - length left))
    ++ (if Nat.eqb (length ms - length left) 1 then lit " element" else lit " elements") ++ lit " in map")).
Proof.
  intros W class library ms ns t m vis post b u left Ho H Hpl Hw Hi Hh Hb Hq Hl.
  apply (C64_rules W _ t _ Ho H). cbn [enumerated]. rewrite Hw.
  pose proof (Ho (VObject (mkObj class library ms))) as Hs. rewrite Hw in Hs.
  apply same_value_members in Hs as (_ & _ & Hf & _). cbn [obj_members] in Hf.
  apply Permutation_length in Hf. rewrite !map_length in Hf.
  destruct left as [|w left]; [done|].
  set (e := length_error (lit "map") (N.of_nat (length ns)) (N.of_nat (length ns) - N.of_nat (length (w :: left)))).
  match goal with |- message_gets _ _ _ (TErr ?e') => assert (e = e') as <- end.
  { unfold e, length_error. rewrite <- Hf. rewrite Nat2N.inj_sub. do 4 f_equal.
    destruct (N.eqb_spec (N.of_nat (length ms) - N.of_nat (length (w :: left))) 1),
      (Nat.eqb_spec (length ms - length (w :: left)) 1); try lia; done. }
  rewrite <- Hh. destruct b.
  - pose proof (V_map T vis class library ns (TOk u) (w :: left) Hpl Hq) as Hv.
    destruct m.
    + eapply MG_value; [done..|]. by apply S_any.
    + by eapply MG_option.
    + destruct Hb as [_ Hb]. specialize (Hb eq_refl). done.
    + eapply MG_value; [done..|]. by apply S_enum.
  - destruct Hb as [Hb _]. rewrite (Hb eq_refl) in Hi. eapply MG_value; [done..|].
    exact (S_struct T vis (mkObj class library ns) (TOk u) (w :: left) Hq).
Qed.

(** [handed st vs n r left k f]: [up_to]; [k] elements were handed over, [f] could not be read. *)
Inductive handed : St -> list value -> N -> tres U -> N -> nat -> nat -> Prop :=
| H_done st vs n r : w_seq T st = Q_return r -> handed st vs n r n 0 0
| H_element st t c v vs n u r left k f : w_seq T st = Q_next t c -> gets T v t (TOk u) ->
    handed (c (TOk (Some u))) vs n r left k f -> handed st (v :: vs) (N.succ n) r left (S k) f
| H_failed st t c v vs n e r left k f : w_seq T st = Q_next t c -> gets T v t (TErr e) ->
    handed (c (TErr e)) vs (N.succ n) r left k f -> handed st (v :: vs) (N.succ n) r left k (S f)
| H_missing st t c n r left k f : w_seq T st = Q_next t c ->
    handed (c (TOk None)) [] n r left k f -> handed st [] (N.succ n) r left k f
| H_no_more st t c vs r left k f : w_seq T st = Q_next t c ->
    handed (c (TOk None)) vs 0 r left k f -> handed st vs 0 r left k f.
(** Every run is of this form. *)
Lemma up_to_handed st vs n r left : up_to T st vs n r left -> exists k f, handed st vs n r left k f.
Proof.
  revert st vs n r left.
  apply (up_to_min _ _ _ _ _ _ T (fun _ _ _ => True) (fun _ _ _ _ => True) (fun _ _ _ => True)
    (fun _ _ _ _ => True) (fun st vs n r left => exists k f, handed st vs n r left k f)
    (fun _ _ _ _ _ _ => True)); try done.
  - intros st vs n r H. exists 0, 0. by apply H_done.
  - intros st t c v vs n u r left H Hg _ _ (k & f & IH). exists (S k), f. by eapply H_element.
  - intros st t c v vs n e r left H Hg _ _ (k & f & IH). exists k, (S f). by eapply H_failed.
  - intros st t c n r left H _ (k & f & IH). exists k, f. by eapply H_missing.
  - intros st t c vs r left H _ (k & f & IH). exists k, f. by eapply H_no_more.
Qed.
Lemma handed_up_to st vs n r left k f : handed st vs n r left k f -> up_to T st vs n r left.
Proof.
  induction 1; [by apply U_done|by eapply U_element|by eapply U_element_error|by eapply U_missing|by eapply U_no_more].
Qed.
Lemma handed_count st vs n r left k f : handed st vs n r left k f ->
  (N.of_nat f + n <= N.of_nat (length vs))%N -> (N.of_nat k + left = n)%N.
Proof.
  induction 1 as [st vs n r H|st t c v vs n u r left k f H Hg _ IH|st t c v vs n e r left k f H Hg _ IH
    |st t c n r left k f H _ IH|st t c vs r left k f H _ IH]; cbn [length] in *; intros Hn; lia.
Qed.
(** An implementation that stops before the end of a [List<T>] with enough items is told the size
    and how many elements it was given. *)
Theorem C68_list_partial : forall W class ms ns items size version t m vis post u left k f,
  (forall v, same_value v (order v)) ->
  deserialize W = POk (MValue (VObject (mkObj class None ms))) -> is_list_class class ->
  order (VObject (mkObj class None ms)) = VObject (mkObj class None ns) ->
  list_members items size version ns -> (0 <= size < 2 ^ 31)%Z ->
  w_impl T t = I_call m vis post -> m <> M_struct -> honest post ->
  handed (on_seq vis) items (Z.to_N size) (TOk u) left k f -> left <> 0%N ->
  (Z.of_nat f + size <= Z.of_nat (length items))%Z ->
  returns t W (TErr (lit "invalid length " ++ digits (Z.to_N size) ++ lit ", expected "
    ++ digits (N.of_nat k) ++ (if Nat.eqb k 1 then lit " element" else lit " elements") ++ lit " in list")).
Proof.
  intros W class ms ns items size version t m vis post u left k f Ho H Hl Hw Hlm H0 Hi Hm Hh Hq Hk Hf.
  apply (C64_rules W _ t _ Ho H). cbn [enumerated]. rewrite Hw.
  pose proof (handed_count _ _ _ _ _ _ _ Hq ltac:(lia)) as Hc. apply handed_up_to in Hq.
  assert (as_usize size = size) as Hz by (unfold as_usize; apply Z.mod_small; lia).
  pose proof (V_list T vis class ns items size version (TOk u) left Hl Hlm) as Hv.
  rewrite Hz in Hv. specialize (Hv Hq). unfold all_answers in Hv.
  destruct (N.eqb_spec left 0); [lia|].
  set (e := length_error _ _ _) in Hv.
  match goal with |- message_gets _ _ _ (TErr ?e') => assert (e = e') as <- end.
  { unfold e, length_error. replace (Z.to_N size - left)%N with (N.of_nat k) by lia. do 4 f_equal.
    destruct (N.eqb_spec (N.of_nat k) 1), (Nat.eqb_spec k 1); try lia; done. }
  rewrite <- Hh. destruct m; try done.
  - eapply MG_value; [done..|]. by apply S_any.
  - by eapply MG_option.
  - eapply MG_value; [done..|]. by apply S_enum.
Qed.
End world.

(** ** The standard and derived types are an instance *)

(** The outcome in the terms of Serde.v, where only the texts of parse errors are told apart. *)
Definition same_outcome (r : run_outcome data) (o : slice_outcome) : Prop :=
  match o with
  | FOk d => r = R_returned d
  | FErr => exists e, r = R_error e
  | FErr_parse e => r = R_error (slice_error_text e)
  | FPanic p => r = R_parse_panic p
  | FDiverge => False
  end.

Theorem C64_targets : forall oops order, (forall v, same_value v (order v)) -> forall W t,
  exists n, forall n', n <= n' ->
    same_outcome (from_slice_run (target_world oops) order n' (TT t) W) (from_slice t W).
Proof.
  intros oops order Ho W t. pose proof (C01_parse_terminates W) as Hp. unfold from_slice.
  destruct (deserialize W) as [m|e|p|] eqn:E; try done.
  - assert (exists r, message_gets (target_world oops) (enumerated order m) (TT t) r /\ erase r = message_deserialize m t)
      as (r & Hg & <-).
    { replace (message_deserialize m t) with (message_deserialize (enumerated order m) t).
      - apply target_message. by eapply enumerated_distinct.
      - destruct m as [c|c|v]; try done. cbn [enumerated]. by eapply C49_member_order. }
    apply (C64_rules (target_world oops) order W m (TT t) _ Ho E) in Hg as [n Hn]. exists n. intros n' Hn'.
    rewrite (C64_steps (target_world oops) order _ _ n n' Hn'); rewrite Hn; [|by destruct r].
    destruct r as [d|e]; [done|]. by exists e.
  - exists 0. intros n' _. by rewrite (C64_parse_error (target_world oops) order W e).
  - exists 0. intros n' _. unfold from_slice_run. by rewrite E.
Qed.

(** ** Examples *)

(** A recursive type of one's own: counts the scalars in whatever there is. *)
Inductive counting := C_sum (n : nat) | C_end (r : tres nat).
Definition count_visitor : visitor nat unit counting := {|
    expecting := lit "something"; on_bool _ := TOk 1; on_int _ _ := TOk 1; on_f32 _ := TOk 1; on_f64 _ := TOk 1; on_char _ := TOk 1;
    on_str _ := TOk 1; on_string _ := TOk 1; on_borrowed_str _ := TOk 1; on_unit := TOk 0; on_none := TErr (lit "no");
    on_some := O_return (TErr (lit "no")); on_enum := O_return (TErr (lit "no")); on_seq := C_sum 0; on_map _ := C_sum 0 |}.
Definition count_world : world nat unit counting := {|
  w_impl _ := I_call M_any count_visitor id;
  w_seq st :=
    match st with
    | C_sum n => Q_next tt (fun r => match r with
                                     | TOk (Some m) => C_sum (n + m)
                                     | TOk None => C_end (TOk n)
                                     | TErr e => C_end (TErr e)
                                     end)
    | C_end r => Q_return r
    end;
  w_map st :=
    match st with
    | C_sum n => P_entry tt tt (fun r => match r with
                                         | TOk (Some (_, m)) => C_sum (n + m)
                                         | TOk None => C_end (TOk n)
                                         | TErr e => C_end (TErr e)
                                         end)
    | C_end r => P_return r
    end |}.
(** The hypotheses of the theorems: *)
Example C65_ends_ex : ends count_world.
Proof.
  exists (fun _ => 0), (fun st => match st with C_sum _ => 1 | C_end _ => 0 end). split_and!; try done.
  - intros [n|r] t k; [|done]. intros H. injection H as <- <-. cbn. lia.
  - intros [n|r] t k; done.
  - intros [n|r] tk tv k; [|done]. intros H. injection H as <- <- <-. cbn. lia.
Qed.
Example C65_orderly_ex : orderly count_world.
Proof.
  exists (fun _ => False). split_and!; try (intros; by intros ?).
  intros [n|r] t k; done.
Qed.
Example C64_order_ex : forall v : value, same_value v (id v).
Proof. intros v. apply same_refl. Qed.
(** Two members, in an object; two items of four, in a list; two elements of an array. *)
Example C64_count_ex :
  from_slice_run count_world id 20 tt ex_struct = R_returned 2
  /\ from_slice_run count_world id 20 tt (ex_list_message 2) = R_returned 2
  /\ from_slice_run count_world id 20 tt ex_ints = R_returned 2
  /\ from_slice_run count_world id 0 tt ex_ints = R_running
  /\ from_slice_run count_world id 20 tt ex_call_message = R_error (lit "invalid type: method call, expected something").
Proof. split_and!; vm_compute; reflexivity. Qed.
(** The visitor of the example is told about the two integers one by one. *)
Example C64_rules_ex : message_gets count_world (enumerated id (MValue (VArray [VInt32 1; VInt32 258]))) tt (TOk 2).
Proof.
  eapply (MG_value count_world _ tt M_any _ id); [done..|]. apply S_any.
  apply (V_array count_world _ _ (TOk 2) []).
  eapply Q_element; [done|eapply G_call; [done|]; apply S_any, V_scalar; constructor|].
  eapply Q_element; [done|eapply G_call; [done|]; apply S_any, V_scalar; constructor|].
  eapply Q_no_more; [done|]. by apply Q_done.
Qed.

(** A visitor that takes only the first element: an error if there are more. *)
Definition first_world : world nat unit (option (tres nat)) := {|
  w_impl _ := I_call M_any {|
    expecting := lit "something"; on_bool _ := TErr (lit "no"); on_int _ z := TOk (Z.to_nat z); on_f32 _ := TErr (lit "no"); on_f64 _ := TErr (lit "no"); on_char _ := TErr (lit "no");
    on_str _ := TErr (lit "no"); on_string _ := TErr (lit "no"); on_borrowed_str _ := TErr (lit "no"); on_unit := TErr (lit "no"); on_none := TErr (lit "no");
    on_some := O_return (TErr (lit "no")); on_enum := O_return (TErr (lit "no")); on_seq := None; on_map _ := None |} id;
  w_seq st :=
    match st with
    | None => Q_next tt (fun r => Some (match r with TOk (Some m) => TOk m | _ => TErr (lit "nothing") end))
    | Some r => Q_return r
    end;
  w_map st :=
    match st with
    | None => P_value tt Some
    | Some r => P_return r
    end |}.
Example C66_early_ex : from_slice_run first_world id 20 tt ex_ints
  = R_error (lit "invalid length 2, expected 1 element in array").
Proof. vm_compute. reflexivity. Qed.
(** And it asks for a value without having asked for a name, which panics: the hypothesis of
    C65_no_panic is needed. *)
Example C65_disorderly_ex : from_slice_run first_world id 20 tt ex_struct = R_panic.
Proof. vm_compute. reflexivity. Qed.

(** A visitor that never stops asking: the hypothesis of C65_terminates is needed. *)
Definition endless_world : world unit unit unit := {|
  w_impl _ := I_call M_any {|
    expecting := lit "something"; on_bool _ := TErr (lit "no"); on_int _ z := TOk tt; on_f32 _ := TErr (lit "no"); on_f64 _ := TErr (lit "no"); on_char _ := TErr (lit "no");
    on_str _ := TErr (lit "no"); on_string _ := TErr (lit "no"); on_borrowed_str _ := TErr (lit "no"); on_unit := TErr (lit "no"); on_none := TErr (lit "no");
    on_some := O_return (TErr (lit "no")); on_enum := O_return (TErr (lit "no")); on_seq := tt; on_map _ := tt |} id;
  w_seq _ := Q_next tt (fun _ => tt);
  w_map _ := P_entry tt tt (fun _ => tt) |}.
Example C65_endless_orderly : orderly endless_world.
Proof. exists (fun _ => False). split_and!; intros; try done; by intros ?. Qed.
Example C65_endless_ex : forall n, from_slice_run endless_world id n tt ex_ints = R_running.
Proof.
  intros n. unfold from_slice_run.
  replace (deserialize ex_ints) with (POk (MValue (VArray [VInt32 1; VInt32 258]))) by (vm_compute; reflexivity).
  assert (forall rec fuel vs c, (forall v : value, v ∈ vs -> rec v tt <> Panicked) ->
    array_run endless_world rec fuel tt vs c = Running) as H.
  { intros rec fuel. induction fuel as [|fuel IH]; intros vs c Hv; [done|]. destruct vs as [|v vs]; cbn; [by apply IH|].
    destruct (rec v tt) as [r| |] eqn:E; [|by destruct (Hv v ltac:(by left))|done]. apply IH.
    intros w Hw. apply Hv. by right. }
  cbn [enumerated id message_run w_impl endless_world value_any array_any]. unfold array_any. cbn [on_seq].
  rewrite H; [done|]. intros v Hv. by apply (value_no_panic endless_world n v tt), C65_endless_orderly.
Qed.

(** A [List<T>] with four items and the size 6: the visitor is given four elements. *)
Example C68_given_ex :
  handed count_world (C_sum 0) ex_list_items 6 (TOk 2) 1 4 0.
Proof.
  assert (forall s, gets count_world (VString s) tt (TOk 1)) as Hs.
  { intros s. eapply (G_call count_world _ _ M_any _ id); [done|]. apply S_any, V_scalar. constructor. }
  assert (gets count_world VNull tt (TOk 0)) as Hn.
  { eapply (G_call count_world _ _ M_any _ id); [done|]. apply S_any, V_scalar. constructor. }
  eapply (H_element count_world _ tt _ _ _ 5 1); [reflexivity|apply Hs|].
  eapply (H_element count_world _ tt _ _ _ 4 1); [reflexivity|apply Hs|].
  eapply (H_element count_world _ tt _ _ _ 3 0); [reflexivity|apply Hn|].
  eapply (H_element count_world _ tt _ _ _ 2 0); [reflexivity|apply Hn|].
  eapply (H_missing count_world _ tt _ 1); [reflexivity|]. by apply H_done.
Qed.
Example C68_text_ex : from_slice_run count_world id 20 tt (ex_list_message 6)
  = R_error (lit "invalid length 6, expected 5 elements in list").
Proof. vm_compute. reflexivity. Qed.
(** Without the condition that there are enough items the text is wrong: it says 5. *)
Theorem C68_list_refuted : ~ forall (U Ty St : Type) (T : world U Ty St) order W class ms ns items size version t m vis post u left k f,
  (forall v, same_value v (order v)) ->
  deserialize W = POk (MValue (VObject (mkObj class None ms))) -> is_list_class class ->
  order (VObject (mkObj class None ms)) = VObject (mkObj class None ns) ->
  list_members items size version ns -> (0 <= size < 2 ^ 31)%Z ->
  w_impl T t = I_call m vis post -> m <> M_struct -> honest post ->
  handed T (on_seq vis) items (Z.to_N size) (TOk u) left k f -> left <> 0%N ->
  returns T order t W (TErr (lit "invalid length " ++ digits (Z.to_N size) ++ lit ", expected "
    ++ digits (N.of_nat k) ++ (if Nat.eqb k 1 then lit " element" else lit " elements") ++ lit " in list")).
Proof.
  intros H.
  specialize (H nat unit counting count_world id (ex_list_message 6) ex_list_class (ex_list 6) (ex_list 6) ex_list_items
    6%Z 2%Z tt M_any count_visitor id 2 1%N 4 0 C64_order_ex).
  destruct H as [n Hn].
  - vm_compute. reflexivity.
  - exact C44_ex_class.
  - reflexivity.
  - unfold list_members. reflexivity.
  - lia.
  - reflexivity.
  - discriminate.
  - intros e. reflexivity.
  - exact C68_given_ex.
  - discriminate.
  - pose proof (C64_steps count_world id tt (ex_list_message 6) 20 (n `max` 20) ltac:(lia)) as H1.
    rewrite C68_text_ex in H1. specialize (H1 ltac:(discriminate)).
    pose proof (C64_steps count_world id tt (ex_list_message 6) n (n `max` 20) ltac:(lia)) as H2.
    rewrite Hn in H2. specialize (H2 ltac:(discriminate)). rewrite H1 in H2.
    apply (f_equal (fun r => match r with R_error e => e | _ => [] end)) in H2. revert H2. vm_compute. discriminate.
Qed.
(** The hypotheses of C67 and C68: a visitor that stops after the first element. *)
Example C67_array_ex : one_by_one first_world None [VInt32 1; VInt32 258] (TOk 1) [VInt32 258].
Proof.
  eapply (Q_element first_world _ tt); [reflexivity| |].
  - eapply (G_call first_world _ _ M_any _ id); [done|]. apply S_any, V_scalar. constructor.
  - by apply Q_done.
Qed.
Definition stop_world : world nat unit bool := {|
  w_impl _ := I_call M_any {|
    expecting := lit "something"; on_bool _ := TOk 0; on_int _ z := TOk 0; on_f32 _ := TOk 0; on_f64 _ := TOk 0;
    on_char _ := TOk 0; on_str _ := TOk 0; on_string _ := TOk 0; on_borrowed_str _ := TOk 0; on_unit := TOk 0;
    on_none := TOk 0; on_some := O_return (TOk 0); on_enum := O_return (TOk 0); on_seq := true; on_map _ := true |} id;
  w_seq st := if st then Q_next tt (fun _ => false) else Q_return (TOk 1);
  w_map st := if st then P_entry tt tt (fun _ => false) else P_return (TOk 1) |}.
Example C67_object_ex : from_slice_run stop_world id 20 tt ex_struct
    = R_error (lit "invalid length 2, expected 1 element in map")
  /\ exists s v, entry_by_entry stop_world true true [(s, VInt32 5); (lit "b", v)] None (TOk 1) [(lit "b", v)].
Proof.
  split; [vm_compute; reflexivity|]. exists (lit "a"), VNull.
  eapply (P_both stop_world); [reflexivity| | |].
  - exact (N_name stop_world true (lit "a") tt M_any _ id eq_refl ltac:(discriminate)).
  - eapply (G_call stop_world _ _ M_any _ id); [done|]. apply S_any, V_scalar. constructor.
  - by apply P_done.
Qed.
Example C68_list_ex : from_slice_run stop_world id 20 tt (ex_list_message 2)
    = R_error (lit "invalid length 2, expected 1 element in list")
  /\ handed stop_world true ex_list_items (Z.to_N 2) (TOk 1) 1 1 0.
Proof.
  split; [vm_compute; reflexivity|].
  eapply (H_element stop_world _ tt _ _ _ 1 0); [reflexivity| |by apply H_done].
  eapply (G_call stop_world _ _ M_any _ id); [done|]. apply S_any, V_scalar. constructor.
Qed.

End with_libs.
