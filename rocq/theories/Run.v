(** * Run: what [deserialize] does after a sequence of well-formed records. *)
From Verif Require Import Base Utf8 Value DataTypes Records Parser Wire BaseLemmas DataTypesLemmas
  RecordsLemmas MethodLemmas SafetyLemmas Safety Grammar Heads Complete Sound Fuel Message.
From Coq Require Import Lia.

Section with_decimal.
Context {DL : DecimalLib}.

(** [deserialize] as a function of the result of [parse_remoting_message]. *)
Definition to_outcome (r : res message) : outcome :=
  match r with
  | Ok _ m => POk m
  | Err e => PErr e
  | Fail e => PErr e
  | Panic p => PPanic p
  | Diverge => PDiverge
  end.

Lemma deserialize_any f W :
  2 * length W + 2 <= f ->
  deserialize W = to_outcome (parse_remoting_message f init_state W).2.
Proof.
  intros Hf. pose proof (deserialize_safe W) as Hs. unfold deserialize in *.
  destruct (sle_message (2 * length W + 2) f init_state W Hf) as [Hd|Hd].
  - by rewrite Hd in Hs.
  - by rewrite Hd.
Qed.

Lemma referenceables_prefix e i e' i' :
  g_objects e i e' i' ->
  forall lf f, length i < lf -> 2 * length i + 2 <= f ->
  exists lf', length i' < lf' /\
    parse_referenceables lf f (st e) i = parse_referenceables lf' f (st e') i'.
Proof.
  induction 1 as [e i|e i id v e1 i1 e2 i2 Hr Hg IH]; intros lf f Hlf Hf; [by exists lf|].
  destruct lf as [|lf]; [lia|]. cbn [parse_referenceables].
  destruct g_complete as (_ & _ & _ & _ & Hc). rewrite (Hc _ _ _ _ _ _ Hr) by lia.
  apply g_record_length in Hr. apply IH; lia.
Qed.

Lemma referenceables_loop_fuel lf f s i :
  length i < lf -> (parse_referenceables lf f s i).2 = (parse_referenceables (S (length i)) f s i).2
    \/ (parse_referenceables (S (length i)) f s i).2 = Diverge.
Proof.
  intros H. destruct (sle_referenceables (S (length i)) lf f f s i) as [Hd|Hd]; [lia|lia|by right|].
  left. by rewrite Hd.
Qed.

Lemma run_prefix root hb i e i' f :
  e_header root hb -> g_objects empty_env i e i' -> 2 * length (hb ++ i) + 2 <= f ->
  exists lf, length i' < lf /\ deserialize (hb ++ i) =
  to_outcome (
    (let! (s, input, _u) := parse_referenceables lf f (st e) i' in
     let! (s, input, m) := sopt input (parse_method_call_or_return f root s input) in
     let! (s, input, _u) := parse_referenceables (S (length input)) f s input in
     match message_end input with
     | Ok input _ =>
         match input with
         | _ :: _ => (s, Err (mkError input E_TrailingData))
         | [] =>
             match m with
             | Some m => (s, Ok input m)
             | None =>
                 match root with
                 | Some root_id =>
                     match st_objects s !! root_id with
                     | Some v =>
                         (set_objects s (delete root_id (st_objects s)), Ok input (MValue v))
                     | None => (s, Err (mkError input E_MissingRootObject))
                     end
                 | None => (s, Ok input (MValue VNull))
                 end
             end
         end
     | Err e => (s, Err e)
     | Fail e => (s, Fail e)
     | Panic p => (s, Panic p)
     | Diverge => (s, Diverge)
     end).2).
Proof.
  intros Hh Ho Hf. rewrite app_length in Hf.
  destruct (referenceables_prefix _ _ _ _ Ho (S (length i)) f) as (lf & Hlf & Hr); [lia|lia|].
  exists lf. split; [done|]. rewrite (deserialize_any f) by (rewrite app_length; lia).
  unfold parse_remoting_message. destruct (header_complete root hb i Hh) as (h & -> & <-).
  change init_state with (st empty_env). by rewrite Hr.
Qed.

Lemma referenceable_lift f F s i r :
  f <= F -> (parse_referenceable f s i) = r -> r.2 <> Diverge -> parse_referenceable F s i = r.
Proof.
  intros Hf H Hd. destruct (sle_referenceable f F s i Hf) as [H'|H']; congruence.
Qed.

(** A record that cannot be read and does not permit an alternative. *)
Lemma run_fail root hb i e i' f s err :
  e_header root hb -> g_objects empty_env i e i' ->
  parse_referenceable f (st e) i' = (s, Fail err) -> deserialize (hb ++ i) = PErr err.
Proof.
  intros Hh Ho Hf. set (F := f + (2 * length (hb ++ i) + 2)).
  destruct (run_prefix root hb i e i' F Hh Ho) as (lf & Hlf & ->); [lia|].
  destruct lf as [|lf]; [lia|]. cbn [parse_referenceables].
  rewrite (referenceable_lift f F _ _ _ ltac:(lia) Hf) by done. done.
Qed.
Lemma run_panic root hb i e i' f s p :
  e_header root hb -> g_objects empty_env i e i' ->
  parse_referenceable f (st e) i' = (s, Panic p) -> deserialize (hb ++ i) = PPanic p.
Proof.
  intros Hh Ho Hf. set (F := f + (2 * length (hb ++ i) + 2)).
  destruct (run_prefix root hb i e i' F Hh Ho) as (lf & Hlf & ->); [lia|].
  destruct lf as [|lf]; [lia|]. cbn [parse_referenceables].
  rewrite (referenceable_lift f F _ _ _ ltac:(lia) Hf) by done. done.
Qed.

Lemma message_end_error i :
  ~ head_in [x0b] i -> message_end i = Err (mkError i (E_ExpectedRecordType RT_MessageEnd)).
Proof.
  intros H. unfold message_end. destruct i as [|c i].
  - by rewrite record_type_parse_nil.
  - rewrite record_type_parse_cons. rewrite bool_decide_eq_false_2; [done|].
    intros ->. apply H. simpl. set_solver.
Qed.

(** A position at which no record can be read, twice. *)
Lemma run_stuck root hb i e i' f s1 err1 s2 err2 :
  e_header root hb -> g_objects empty_env i e i' ->
  parse_referenceable f (st e) i' = (s1, Err err1) ->
  parse_referenceable f s1 i' = (s2, Err err2) ->
  ~ head_in [x15; x16; x0b] i' ->
  deserialize (hb ++ i) = PErr (mkError i' (E_ExpectedRecordType RT_MessageEnd)).
Proof.
  intros Hh Ho H1 H2 Hhd. set (F := f + (2 * length (hb ++ i) + 2)).
  destruct (run_prefix root hb i e i' F Hh Ho) as (lf & Hlf & ->); [lia|].
  destruct lf as [|lf]; [lia|]. cbn [parse_referenceables].
  rewrite (referenceable_lift f F _ _ _ ltac:(lia) H1) by done. cbn [sbind].
  pose proof (abandoned_no_library _ _ _ _ _ H1) as Hl.
  destruct (no_method_head F root s1 i' Hl) as [er ->]; [nohead|].
  unfold sopt. cbn [fst snd opt sbind].
  rewrite (referenceable_lift f F _ _ _ ltac:(lia) H2) by done. cbn [sbind].
  rewrite message_end_error by nohead. done.
Qed.

(** A position at which nothing looks like a record. *)
Lemma run_stuck_head root hb i e i' :
  e_header root hb -> g_objects empty_env i e i' -> no_library i' ->
  ~ head_in [x01; x02; x03; x04; x05; x06; x07; x0b; x0f; x10; x11; x15; x16] i' ->
  deserialize (hb ++ i) = PErr (mkError i' (E_ExpectedRecordType RT_MessageEnd)).
Proof.
  intros Hh Ho Hl Hhd. destruct (referenceable_err_head 0 (st e) i' Hl) as [er Her]; [nohead|].
  eapply run_stuck; [done|done|exact Her|exact Her|nohead].
Qed.

Lemma no_method_0b f root s i :
  exists e, parse_method_call_or_return f root s (x0b :: i) = (s, Err e).
Proof. apply no_method_head; [done|hd]. Qed.

Lemma err_0b_cons f s t : exists err, parse_referenceable (S (S f)) s (x0b :: t) = (s, Err err).
Proof. apply referenceable_err_head; [done|hd]. Qed.

(** The end of a message without method record. *)
Lemma run_end root hb i e t :
  e_header root hb -> g_objects empty_env i e (x0b :: t) ->
  deserialize (hb ++ i) =
  match t with
  | _ :: _ => PErr (mkError t E_TrailingData)
  | [] => match root with
          | None => POk (MValue VNull)
          | Some r => match e_objs e !! r with
                      | Some v => POk (MValue v)
                      | None => PErr (mkError [] E_MissingRootObject)
                      end
          end
  end.
Proof.
  intros Hh Ho. set (F := S (S (2 * length (hb ++ i)))).
  destruct (run_prefix root hb i e _ F Hh Ho) as (lf & Hlf & ->); [lia|].
  destruct lf as [|lf]; [lia|]. cbn [parse_referenceables].
  destruct (err_0b_cons (2 * length (hb ++ i)) (st e) t) as [er Her].
  unfold F at 1. rewrite Her. cbn [sbind].
  destruct (no_method_0b F root (st e) t) as [er2 ->]. unfold sopt. cbn [fst snd opt sbind].
  unfold F. rewrite Her. cbn [sbind].
  unfold message_end. rewrite record_type_parse_cons. rewrite bool_decide_eq_true_2 by done. cbn [bind].
  destruct t as [|c t]; [|done]. destruct root as [r|]; [|done].
  cbn [st st_objects]. by destruct (e_objs e !! r).
Qed.

Lemma referenceables_err lf f s i s' err :
  0 < lf -> parse_referenceable f s i = (s', Err err) ->
  parse_referenceables lf f s i = (s', Ok i tt).
Proof. intros Hlf H. destruct lf; [lia|]. cbn [parse_referenceables]. by rewrite H. Qed.

(** After a method record. *)
Lemma run_method_end root hb i e i1 m e1 i2 e2 t :
  e_header root hb -> g_objects empty_env i e i1 -> g_method root e i1 m e1 i2 ->
  g_objects e1 i2 e2 (x0b :: t) ->
  deserialize (hb ++ i) =
  match t with
  | _ :: _ => PErr (mkError t E_TrailingData)
  | [] => POk m
  end.
Proof.
  intros Hh Ho Hm Ho2. set (F := S (S (2 * length (hb ++ i)))).
  pose proof (g_objects_length _ _ _ _ Ho) as Hl. 
  destruct (method_complete _ _ _ _ _ _ F Hm) as [Hm' Hhd].
  { unfold F. rewrite app_length. lia. }
  destruct (run_prefix root hb i e _ F Hh Ho) as (lf & Hlf & ->); [lia|].
  destruct (referenceable_err_head (2 * length (hb ++ i)) (st e) i1) as [er Her].
  { apply no_library_head. hd. } { hd. }
  rewrite (referenceables_err lf F _ _ _ _ ltac:(lia) Her). cbn [sbind]. rewrite Hm'. unfold sopt. cbn [fst snd opt sbind].
  assert (length i2 <= length i1) as Hl2.
  { assert (forall root e i ca e' i', g_call_array root e i ca e' i' -> length i' <= length i) as Hca.
    { intros ro e0 j ca e' j' Hc. destruct Hc as [|? ? ? ? ? ? ? ? ? ? ? A1 A2 ? A3 A4 A5]; [done|].
      apply g_lib_length in A1. rewrite app_length in A1. apply g_items_length in A3 as [A3 _].
      apply g_resolve_length in A5. lia. }
    destruct Hm as [? ? ? ? ? ? ? ? ? ? ? ? A|? ? ? ? ? ? ? ? ? ? ? A];
      apply Hca in A; rewrite app_length; lia. }
  rewrite (referenceables_complete _ _ _ _ Ho2).
  2:{ lia. } 2:{ unfold F. rewrite app_length. lia. } 2:{ apply err_0b_cons. }
  cbn [sbind]. unfold message_end. rewrite record_type_parse_cons. rewrite bool_decide_eq_true_2 by done.
  cbn [bind]. by destruct t.
Qed.

(** A method record that cannot be read. *)
Lemma run_method_fail root hb i e i1 s err f :
  e_header root hb -> g_objects empty_env i e i1 -> head_in [x15; x16] i1 ->
  parse_method_call_or_return f root (st e) i1 = (s, Fail err) ->
  deserialize (hb ++ i) = PErr err.
Proof.
  intros Hh Ho Hhd Hm. set (F := S (S (f + (2 * length (hb ++ i))))).
  destruct (run_prefix root hb i e _ F Hh Ho) as (lf & Hlf & ->); [lia|].
  destruct lf as [|lf]; [lia|]. cbn [parse_referenceables].
  destruct (referenceable_err_head (f + (2 * length (hb ++ i))) (st e) i1) as [er Her].
  { apply no_library_head. hd. } { hd. }
  unfold F at 1. rewrite Her. cbn [sbind].
  destruct (sle_method f F root (st e) i1) as [Hd|Hd]; [lia|by rewrite Hm in Hd|].
  rewrite <- Hd, Hm. done.
Qed.

End with_decimal.
