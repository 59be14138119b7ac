(** * VisitorEnds: when the deserializers of Visitors.v come to an end, and without a panic. *)
From Verif Require Import Base Utf8 Value DataTypes Records Parser Serde SerdeSpec SerdeLemmas.
From Verif Require Import Reading PropsG PropsH PropsI PropsL Visitors VisitorSpec VisitorLemmas VisitorComplete.
From Coq Require Import Lia.
From Coq Require Strings.String.
Import String.StringSyntax.

Section rules.
Context {DL : DecimalLib} {FL : FloatLib} {TL : TextLib}.
Context {U Ty St : Type} (W : world U Ty St).

(** ** No panic *)

Lemma bind_no_panic {A B} (a : out A) (f : A -> out B) :
  a <> Panicked -> (forall x, f x <> Panicked) -> out_bind a f <> Panicked.
Proof. intros Ha Hf. destruct a; cbn; [apply Hf|done..]. Qed.
Lemma key_no_panic f b s t : key_run W f b s t <> Panicked.
Proof.
  revert t. induction f as [|f IH]; intros t; cbn [key_run];
    destruct (w_impl W t) as [|[] vis post]; try done; destruct (on_enum vis); try done.
  apply bind_no_panic; [apply IH|done].
Qed.

Section panic.
Context (named : St -> Prop).
Context (Hstart : forall t m vis post n, w_impl W t = I_call m vis post -> ~ named (on_map vis n)).
Context (Hval : forall st t k, w_map W st = P_value t k -> named st).
Context (Hkey : forall st t k, w_map W st = P_key t k -> ~ named (k (TOk None))).
Context (Hval' : forall st t k x, w_map W st = P_value t k -> ~ named (k x)).
Context (Hentry : forall st tk tv k x, w_map W st = P_entry tk tv k -> ~ named (k x)).
Context (rec : value -> Ty -> out (tres U)) (Hrec : forall v t, rec v t <> Panicked).

Lemma array_no_panic f st vs c : array_run W rec f st vs c <> Panicked.
Proof using Hrec.
  revert st vs c. induction f as [|f IH]; intros st vs c; cbn [array_run]; [done|].
  destruct (w_seq W st); [done|]. destruct vs; [apply IH|].
  apply bind_no_panic; [apply Hrec|]. intros. apply IH.
Qed.
Lemma list_no_panic f st vs c n : list_run W rec f st vs c n <> Panicked.
Proof using Hrec.
  revert st vs c. induction f as [|f IH]; intros st vs c; cbn [list_run]; [done|].
  destruct (w_seq W st); [done|]. destruct (N.ltb c n); [|apply IH]. destruct vs; [apply IH|].
  apply bind_no_panic; [apply Hrec|]. intros []; apply IH.
Qed.
Lemma map_no_panic f b st ms p : (named st -> p <> None) -> map_run W rec f b st ms p <> Panicked.
Proof using Hval Hkey Hval' Hentry Hrec.
  revert st ms p. induction f as [|f IH]; intros st ms p Hp; cbn [map_run]; [done|].
  destruct (w_map W st) as [r|t k|t k|tk tv k] eqn:E; [done|..].
  - destruct ms as [|[s v] ms].
    + apply IH. intros Hn. by apply Hkey in E.
    + apply bind_no_panic; [apply key_no_panic|]. intros. by apply IH.
  - destruct p as [v|]; [|exfalso; apply Hp; [by eapply Hval|done]].
    apply bind_no_panic; [apply Hrec|]. intros. apply IH. intros Hn. by apply (Hval' _ _ _ x) in E.
  - destruct ms as [|[s v] ms].
    + apply IH. intros Hn. by apply (Hentry _ _ _ _ (TOk None)) in E.
    + apply bind_no_panic; [apply key_no_panic|]. intros [u|].
      * apply bind_no_panic; [apply Hrec|]. intros. apply IH. intros Hn. by eapply Hentry in E.
      * apply IH. intros Hn. by eapply Hentry in E.
Qed.
Context (t0 : Ty) (m0 : method) (vis : visitor U Ty St) (post0 : tres U -> tres U).
Context (Hvis : w_impl W t0 = I_call m0 vis post0).
Lemma map_any_no_panic f b ms : Visitors.map_any W rec f b vis ms <> Panicked.
Proof using Hstart Hval Hkey Hval' Hentry Hrec Hvis.
  apply bind_no_panic; [|intros []; done]. apply map_no_panic. intros Hn. by eapply Hstart in Hn.
Qed.
Lemma any_no_panic f v : value_any W rec f vis v <> Panicked.
Proof using Hstart Hval Hkey Hval' Hentry Hrec Hvis.
  destruct v as [[c l ms]|vs| | | | | | | | | | | | | | | | |]; cbn [value_any]; try done.
  - unfold object_any. destruct l; [apply map_any_no_panic|].
    destruct (hm_get (class_name c) wrapper_classes); [done|].
    destruct (str_eqb _ _); [|apply map_any_no_panic].
    destruct (N.eqb _ _); [|done].
    destruct (hm_get _ ms) as [[]|]; try done.
    destruct (hm_get _ ms) as [[]|]; try done.
    destruct (hm_get _ ms) as [[]|]; try done.
    apply bind_no_panic; [apply list_no_panic|intros []; done].
  - apply bind_no_panic; [apply array_no_panic|intros [? []]; done].
Qed.
Lemma struct_no_panic f v : value_struct W rec f vis v <> Panicked.
Proof using Hstart Hval Hkey Hval' Hentry Hrec Hvis.
  destruct v; cbn [value_struct]; try apply any_no_panic. apply map_any_no_panic.
Qed.
Lemma option_no_panic v : value_option rec vis v <> Panicked.
Proof using Hrec.
  unfold value_option. destruct v; try done; (destruct (on_some vis); [done|]; by apply bind_no_panic).
Qed.
End panic.

Lemma value_no_panic f v t : orderly W -> value_run W f v t <> Panicked.
Proof.
  intros (named & H1 & H2 & H3 & H4 & H5). revert v t.
  induction f as [|f IH]; intros v t; [done|]. cbn [value_run].
  destruct (w_impl W t) as [|m vis post] eqn:E; [done|].
  destruct m; (apply bind_no_panic; [|done]).
  - by eapply any_no_panic.
  - by apply option_no_panic.
  - by eapply struct_no_panic.
  - by eapply any_no_panic.
Qed.
Lemma message_no_panic f m t : orderly W -> message_run W f m t <> Panicked.
Proof.
  intros Ho. pose proof (fun v t => value_no_panic f v t Ho) as Hr.
  destruct Ho as (named & H1 & H2 & H3 & H4 & H5). unfold message_run.
  destruct (w_impl W t) as [|meth vis post] eqn:E; [done|]. destruct m as [c|c|v]; try done.
  destruct meth; (apply bind_no_panic; [|done]); first [by eapply any_no_panic|by eapply struct_no_panic].
Qed.

(** ** The end *)

Definition stops {A} (run : nat -> out A) : Prop := exists F, run F <> Running.

Lemma value_up F F' v t : F <= F' -> value_run W F v t <> Running -> value_run W F' v t = value_run W F v t.
Proof. intros H. apply less_stopped. by apply value_mono. Qed.
Lemma arr_up F F' G st vs c : F <= F' -> F <= G -> arr W F st vs c <> Running ->
  array_run W (value_run W G) F' st vs c = arr W F st vs c.
Proof. intros H HG. apply less_stopped, array_mono; [|done]. intros. by apply value_mono. Qed.
Lemma lst_up F F' G st vs c n : F <= F' -> F <= G -> lst W F st vs c n <> Running ->
  list_run W (value_run W G) F' st vs c n = lst W F st vs c n.
Proof. intros H HG. apply less_stopped, list_mono; [|done]. intros. by apply value_mono. Qed.
Lemma mp_up F F' G b st ms p : F <= F' -> F <= G -> mp W F b st ms p <> Running ->
  map_run W (value_run W G) F' b st ms p = mp W F b st ms p.
Proof. intros H HG. apply less_stopped, map_mono; [|done]. intros. by apply value_mono. Qed.

Section ends.
Context (depth : Ty -> nat) (patience : St -> nat).
Context (Hsome : forall t vis post t' k, w_impl W t = I_call M_option vis post -> on_some vis = O_read t' k ->
  depth t' < depth t).
Context (Henum : forall t vis post t' k, w_impl W t = I_call M_enum vis post -> on_enum vis = O_read t' k ->
  depth t' < depth t).
Context (Hseq : forall st t k, w_seq W st = Q_next t k -> patience (k (TOk None)) < patience st).
Context (Hkey : forall st t k, w_map W st = P_key t k -> patience (k (TOk None)) < patience st).
Context (Hent : forall st tk tv k, w_map W st = P_entry tk tv k -> patience (k (TOk None)) < patience st).

Lemma key_stops b s t : stops (fun F => key_run W F b s t).
Proof using Hsome Henum Hseq Hkey Hent.
  remember (depth t) as n eqn:En. revert t En. induction (lt_wf n) as [n _ IH]. intros t ->.
  destruct (w_impl W t) as [r|m vis post] eqn:E; [exists 0; cbn; by rewrite E|].
  destruct m; try (exists 0; cbn; by rewrite E).
  destruct (on_enum vis) as [r|t' k] eqn:Ee; [exists 0; cbn; by rewrite E, Ee|].
  destruct (IH (depth t') (Henum _ _ _ _ _ E Ee) t' eq_refl) as [F HF].
  exists (S F). cbn. rewrite E, Ee. by destruct (key_run W F b s t').
Qed.
Lemma arr_stops vs : (forall v t, v ∈ vs -> stops (fun F => value_run W F v t)) ->
  forall st c, stops (fun F => arr W F st vs c).
Proof using Hsome Henum Hseq Hkey Hent.
  induction vs as [|v vs IH]; intros Hv st c.
  - remember (patience st) as n eqn:En. revert st En. induction (lt_wf n) as [n _ IHn]. intros st ->.
    destruct (w_seq W st) as [r|t k] eqn:E; [exists 1; unfold arr; cbn; by rewrite E|].
    destruct (IHn _ (Hseq _ _ _ E) _ eq_refl) as [F HF]. exists (S F). unfold arr; cbn [array_run].
    rewrite E. by rewrite (arr_up F) by (lia || done).
  - destruct (w_seq W st) as [r|t k] eqn:E; [exists 1; unfold arr; cbn; by rewrite E|].
    destruct (Hv v t (elem_of_list_here _ _)) as [F1 H1].
    destruct (value_run W F1 v t) as [x| |] eqn:Er; [|exists (S F1)|done].
    + destruct (IH (fun w t' Hw => Hv w t' (elem_of_list_further _ _ _ Hw)) (k (tres_map Some x)) (c + 1)%N) as [F2 H2].
      exists (S (F1 `max` F2)). unfold arr; cbn [array_run]. rewrite E, (up_value W F1 _ v t x) by (lia || done).
      cbn [out_bind]. by rewrite (arr_up F2) by (lia || done).
    + unfold arr; cbn [array_run]. rewrite E.
      by rewrite (value_up F1), Er by (lia || by rewrite Er).
Qed.
Lemma lst_stops n vs : (forall v t, v ∈ vs -> stops (fun F => value_run W F v t)) ->
  forall st c, stops (fun F => lst W F st vs c n).
Proof using Hsome Henum Hseq Hkey Hent.
  induction vs as [|v vs IH]; intros Hv st c.
  - remember (patience st) as m eqn:En. revert st c En. induction (lt_wf m) as [m _ IHn]. intros st c ->.
    destruct (w_seq W st) as [r|t k] eqn:E; [exists 1; unfold lst; cbn; by rewrite E|].
    destruct (IHn _ (Hseq _ _ _ E) _ (c + 1)%N eq_refl) as [F HF].
    destruct (IHn _ (Hseq _ _ _ E) _ c eq_refl) as [F' HF'].
    exists (S (F `max` F')). unfold lst; cbn [list_run]. rewrite E. destruct (N.ltb c n).
    + by rewrite (lst_up F) by (lia || done).
    + by rewrite (lst_up F') by (lia || done).
  - remember (patience st) as m eqn:En. revert st c En. induction (lt_wf m) as [m _ IHn]. intros st c ->.
    destruct (w_seq W st) as [r|t k] eqn:E; [exists 1; unfold lst; cbn; by rewrite E|].
    destruct (N.ltb c n) eqn:Ec.
    + destruct (Hv v t (elem_of_list_here _ _)) as [F1 H1].
      pose proof (IH (fun w t' Hw => Hv w t' (elem_of_list_further _ _ _ Hw))) as IH'.
      destruct (value_run W F1 v t) as [[u|e]| |] eqn:Er; [| |exists (S F1)|done].
      * destruct (IH' (k (TOk (Some u))) (c + 1)%N) as [F2 H2].
        exists (S (F1 `max` F2)). unfold lst; cbn [list_run].
        rewrite E, Ec, (up_value W F1 _ v t (TOk u)) by (lia || done).
        cbn [out_bind]. by rewrite (lst_up F2) by (lia || done).
      * destruct (IH' (k (TErr e)) c) as [F2 H2].
        exists (S (F1 `max` F2)). unfold lst; cbn [list_run].
        rewrite E, Ec, (up_value W F1 _ v t (TErr e)) by (lia || done).
        cbn [out_bind]. by rewrite (lst_up F2) by (lia || done).
      * unfold lst; cbn [list_run]. rewrite E, Ec.
        by rewrite (value_up F1), Er by (lia || by rewrite Er).
    + destruct (IHn _ (Hseq _ _ _ E) _ c eq_refl) as [F' HF'].
      exists (S F'). unfold lst; cbn [list_run]. rewrite E, Ec.
      by rewrite (lst_up F') by (lia || done).
Qed.
Lemma mp_stops b ms : (forall s v t, (s, v) ∈ ms -> stops (fun F => value_run W F v t)) ->
  forall st p, (forall v t, p = Some v -> stops (fun F => value_run W F v t)) ->
  stops (fun F => mp W F b st ms p).
Proof using Hsome Henum Hseq Hkey Hent.
  assert (forall ms,
    (forall st p, (forall v t, p = Some v -> stops (fun F => value_run W F v t)) ->
      (forall t k, w_map W st = P_key t k -> stops (fun F => mp W (S F) b st ms p)) ->
      (forall tk tv k, w_map W st = P_entry tk tv k -> stops (fun F => mp W (S F) b st ms p)) ->
      (p = None \/ forall st', stops (fun F => mp W F b st' ms None)) ->
      stops (fun F => mp W F b st ms p))) as Hstep.
  { intros ms0 st p Hp Hk He Hv.
    destruct (w_map W st) as [r|t k|t k|tk tv k] eqn:E.
    - exists 1. unfold mp; cbn. by rewrite E.
    - destruct (Hk _ _ eq_refl) as [F HF]. by exists (S F).
    - destruct p as [v|]; [|exists 1; unfold mp; cbn; by rewrite E].
      destruct Hv as [|Hv]; [done|]. destruct (Hp v t eq_refl) as [F1 H1].
      destruct (value_run W F1 v t) as [x| |] eqn:Er; [|exists (S F1)|done].
      + destruct (Hv (k x)) as [F2 H2]. exists (S (F1 `max` F2)). unfold mp; cbn [map_run].
        rewrite E, (up_value W F1 _ v t x) by (lia || done). cbn [out_bind].
        by rewrite (mp_up F2) by (lia || done).
      + unfold mp; cbn [map_run]. rewrite E.
        by rewrite (value_up F1), Er by (lia || by rewrite Er).
    - destruct (He _ _ _ eq_refl) as [F HF]. by exists (S F). }
  induction ms as [|[s v] ms IH]; intros Hms.
  - (* nothing left: the patience gets smaller, or the pending value is taken *)
    assert (forall n st p, patience st = n -> p = None \/ (forall st', stops (fun F => mp W F b st' [] None)) ->
      (forall v t, p = Some v -> stops (fun F => value_run W F v t)) -> stops (fun F => mp W F b st [] p)) as Hn.
    { intros n. induction (lt_wf n) as [n _ IHn]. intros st p <- Hp Hpv. apply Hstep; [done| | |done].
      - intros t k E. destruct (IHn _ (Hkey _ _ _ E) _ p eq_refl Hp Hpv) as [F HF]. exists F.
        unfold mp; cbn [map_run]. rewrite E.
        by rewrite (mp_up F) by (lia || done).
      - intros tk tv k E. destruct (IHn _ (Hent _ _ _ _ E) _ p eq_refl Hp Hpv) as [F HF]. exists F.
        unfold mp; cbn [map_run]. rewrite E.
        by rewrite (mp_up F) by (lia || done). }
    intros st p Hp. eapply Hn; [done| |done]. right. intros st'. eapply Hn; [done|by left|done].
  - assert (forall s v t, (s, v) ∈ ms -> stops (fun F => value_run W F v t)) as Hms'
      by (intros s' v' t' Hin; eapply Hms, elem_of_list_further, Hin).
    assert (forall st p, p = None \/ (forall st', stops (fun F => mp W F b st' ((s, v) :: ms) None)) ->
      (forall v t, p = Some v -> stops (fun F => value_run W F v t)) ->
      stops (fun F => mp W F b st ((s, v) :: ms) p)) as Hn.
    { intros st p Hp Hpv. apply Hstep; [done| | |done].
      - intros t k E. destruct (key_stops b s t) as [F1 H1].
        destruct (key_run W F1 b s t) as [x| |] eqn:Ek; [|by destruct (key_no_panic F1 b s t)|done].
        destruct (IH Hms' (k (tres_map Some x)) (Some v)) as [F2 H2].
        { intros w t' [= <-]. eapply Hms, elem_of_list_here. }
        exists (F1 `max` F2). unfold mp; cbn [map_run].
        rewrite E, (up_key W F1 _ b s t x) by (lia || done). cbn [out_bind].
        by rewrite (mp_up F2) by (lia || done).
      - intros tk tv k E. destruct (key_stops b s tk) as [F1 H1].
        destruct (key_run W F1 b s tk) as [x| |] eqn:Ek; [|by destruct (key_no_panic F1 b s tk)|done].
        destruct x as [u|e].
        + destruct (Hms s v tv (elem_of_list_here _ _)) as [F3 H3].
          destruct (value_run W F3 v tv) as [y| |] eqn:Er; [|exists (F1 `max` F3)|done].
          * destruct (IH Hms' (k (tres_map (fun w => Some (u, w)) y)) p Hpv) as [F2 H2].
            exists (F1 `max` F2 `max` F3). unfold mp; cbn [map_run].
            rewrite E, (up_key W F1 _ b s tk (TOk u)) by (lia || done). cbn [out_bind].
            rewrite (up_value W F3 _ v tv y) by (lia || done). cbn [out_bind].
            by rewrite (mp_up F2) by (lia || done).
          * unfold mp; cbn [map_run]. rewrite E, (up_key W F1 _ b s tk (TOk u)) by (lia || done). cbn [out_bind].
            by rewrite (value_up F3), Er by (lia || by rewrite Er).
        + destruct (IH Hms' (k (TErr e)) p Hpv) as [F2 H2].
          exists (F1 `max` F2). unfold mp; cbn [map_run].
          rewrite E, (up_key W F1 _ b s tk (TErr e)) by (lia || done). cbn [out_bind].
          by rewrite (mp_up F2) by (lia || done). }
    intros st p Hp. apply Hn; [|done]. right. intros st'. apply Hn; [by left|done].
Qed.

Lemma map_any_stops b vis ms : (forall s v t, (s, v) ∈ ms -> stops (fun F => value_run W F v t)) ->
  stops (fun F => Visitors.map_any W (value_run W F) F b vis ms).
Proof using Hsome Henum Hseq Hkey Hent.
  intros Hv. destruct (mp_stops b ms Hv (on_map vis (N.of_nat (length ms))) None) as [F HF]; [done|].
  exists F. unfold Visitors.map_any. unfold mp in HF. by destruct (map_run W _ F b _ ms None) as [[]| |].
Qed.
Lemma any_stops vis v : (forall w t, below w v -> stops (fun F => value_run W F w t)) ->
  stops (fun F => anyr W F vis v).
Proof using Hsome Henum Hseq Hkey Hent.
  intros Hb. unfold anyr. destruct v as [[c l ms]|vs| | | | | | | | | | | | | | | | |]; try by exists 0.
  - cbn [value_any].
    assert (forall b, stops (fun F => Visitors.map_any W (value_run W F) F b vis ms)) as Hm.
    { intros b. apply map_any_stops. intros s v t Hin. eapply Hb, below_member. exact Hin. }
    unfold object_any. destruct l; [apply Hm|].
    destruct (hm_get (class_name c) wrapper_classes); [by exists 0|].
    destruct (str_eqb _ _); [|apply Hm].
    destruct (N.eqb _ _); [|by exists 0].
    destruct (hm_get (lit "_items") ms) as [w|] eqn:E1; [|by exists 0].
    destruct w as [|vs| | | | | | | | | | | | | | | | |]; try by exists 0.
    destruct (hm_get (lit "_size") ms) as [[]|]; try by exists 0.
    destruct (hm_get (lit "_version") ms) as [[]|]; try by exists 0.
    destruct (lst_stops (i32_as_usize z) vs) with (st := on_seq vis) (c := 0%N) as [F HF].
    { intros v t Hin. apply Hb. eapply below_item; [done|]. apply hm_get_in in E1. exact E1. }
    exists F. unfold list_any. unfold lst in HF. by destruct (list_run W _ F _ vs 0 _) as [[]| |].
  - cbn [value_any]. destruct (arr_stops vs) with (st := on_seq vis) (c := 0%N) as [F HF].
    { intros v t Hin. apply Hb. by apply below_element. }
    exists F. unfold array_any. unfold arr in HF. by destruct (array_run W _ F _ vs 0) as [[? []]| |].
Qed.
Lemma struct_stops vis v : (forall w t, below w v -> stops (fun F => value_run W F w t)) ->
  stops (fun F => value_struct W (value_run W F) F vis v).
Proof using Hsome Henum Hseq Hkey Hent.
  intros Hb. destruct v as [o| | | | | | | | | | | | | | | | | |]; try (by apply any_stops).
  apply map_any_stops. intros s v t Hin. eapply Hb, below_member, Hin.
Qed.
Lemma value_stops v t : stops (fun F => value_run W F v t).
Proof using Hsome Henum Hseq Hkey Hent.
  revert t. induction v as [v IH] using value_below_ind. intros t.
  remember (depth t) as n eqn:En. revert t En. induction (lt_wf n) as [n _ IHn]. intros t ->.
  destruct (w_impl W t) as [r|m vis post] eqn:E; [exists 1; cbn; by rewrite E|].
  destruct m.
  - destruct (any_stops vis v) as [F HF]; [intros; by apply IH|]. exists (S F). cbn [value_run]. rewrite E.
    unfold anyr in HF. by destruct (value_any W _ F vis v).
  - destruct (on_some vis) as [r|t' k] eqn:Es.
    + exists 1. cbn [value_run]. rewrite E. unfold value_option. destruct v; try done; by rewrite Es.
    + destruct (IHn _ (Hsome _ _ _ _ _ E Es) _ eq_refl) as [F HF]. exists (S F). cbn [value_run]. rewrite E.
      unfold value_option. rewrite Es. destruct v; try done; by destruct (value_run W F _ t').
  - destruct (struct_stops vis v) as [F HF]; [intros; by apply IH|]. exists (S F). cbn [value_run]. rewrite E.
    by destruct (value_struct W _ F vis v).
  - destruct (any_stops vis v) as [F HF]; [intros; by apply IH|]. exists (S F). cbn [value_run]. rewrite E.
    unfold anyr in HF. by destruct (value_any W _ F vis v).
Qed.
End ends.

Lemma message_stops m t : ends W -> exists F, message_run W F m t <> Running.
Proof.
  intros (depth & patience & H1 & H2 & H3 & H4 & H5). unfold message_run.
  destruct (w_impl W t) as [|meth vis post] eqn:E; [by exists 0|]. destruct m as [c|c|v]; try by exists 0.
  assert (forall w t, below w v -> stops (fun F => value_run W F w t)) as Hb
    by (intros; by eapply value_stops).
  assert (stops (fun F => anyr W F vis v)) as [F HF] by (by eapply any_stops).
  assert (stops (fun F => value_struct W (value_run W F) F vis v)) as [F' HF'] by (by eapply struct_stops).
  unfold anyr in HF. destruct meth.
  - exists F. by destruct (value_any W _ F vis v).
  - exists F. by destruct (value_any W _ F vis v).
  - exists F'. by destruct (value_struct W _ F' vis v).
  - exists F. by destruct (value_any W _ F vis v).
Qed.
End rules.
