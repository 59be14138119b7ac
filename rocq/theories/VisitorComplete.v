(** * VisitorComplete: whatever the rules of VisitorSpec.v say, the deserializers of Visitors.v
    do, in finitely many steps. *)
From Verif Require Import Base Utf8 Value DataTypes Records Parser Serde SerdeSpec SerdeLemmas.
From Verif Require Import Reading PropsG PropsH PropsI PropsL Visitors VisitorSpec VisitorLemmas.
From Coq Require Import Lia.
From Coq Require Strings.String.
Import String.StringSyntax.

(** ** More steps do not change a result *)

Definition less {A} (a b : out A) : Prop := a = Running \/ a = b.
Lemma less_refl {A} (a : out A) : less a a.
Proof. by right. Qed.
Lemma less_running {A} (a : out A) : less Running a.
Proof. by left. Qed.
Lemma less_bind {A B} (a b : out A) (f g : A -> out B) :
  less a b -> (forall x, less (f x) (g x)) -> less (out_bind a f) (out_bind b g).
Proof. intros [-> | ->] Hf; [by left|]. destruct b; cbn; [apply Hf|by right..]. Qed.
Lemma less_done {A} (a b : out A) x : less a b -> a = Done x -> b = Done x.
Proof. by intros [-> | ->]. Qed.
Lemma less_stopped {A} (a b : out A) : less a b -> a <> Running -> b = a.
Proof. by intros [-> | ->]. Qed.

Section rules.
Context {DL : DecimalLib} {FL : FloatLib} {TL : TextLib}.
Context {U Ty St : Type} (W : world U Ty St).

Lemma key_mono f f' b s t : f <= f' -> less (key_run W f b s t) (key_run W f' b s t).
Proof.
  revert f' t. induction f as [|f IH]; intros [|f'] t Hf; try lia; try apply less_refl; cbn [key_run].
  - destruct (w_impl W t) as [|[] vis post]; try apply less_refl. destruct (on_enum vis); [apply less_refl|by left].
  - destruct (w_impl W t) as [|[] vis post]; try apply less_refl. destruct (on_enum vis); [apply less_refl|].
    apply less_bind; [apply IH; lia|]. intros. apply less_refl.
Qed.

Section mono.
Context (rec rec' : value -> Ty -> out (tres U)).
Context (Hrec : forall v t, less (rec v t) (rec' v t)).

Lemma array_mono f f' st vs c : f <= f' -> less (array_run W rec f st vs c) (array_run W rec' f' st vs c).
Proof using Hrec.
  revert f' st vs c. induction f as [|f IH]; intros [|f'] st vs c Hf; try lia; try apply less_running.
  cbn [array_run]. destruct (w_seq W st); [apply less_refl|]. destruct vs; [apply IH; lia|].
  apply less_bind; [apply Hrec|]. intros. apply IH. lia.
Qed.
Lemma list_mono f f' st vs c n : f <= f' ->
  less (list_run W rec f st vs c n) (list_run W rec' f' st vs c n).
Proof using Hrec.
  revert f' st vs c. induction f as [|f IH]; intros [|f'] st vs c Hf; try lia; try apply less_running.
  cbn [list_run]. destruct (w_seq W st); [apply less_refl|].
  destruct (N.ltb c n); [|apply IH; lia]. destruct vs; [apply IH; lia|].
  apply less_bind; [apply Hrec|]. intros []; apply IH; lia.
Qed.
Lemma map_mono f f' b st ms p : f <= f' ->
  less (map_run W rec f b st ms p) (map_run W rec' f' b st ms p).
Proof using Hrec.
  revert f' st ms p. induction f as [|f IH]; intros [|f'] st ms p Hf; try lia; try apply less_running.
  cbn [map_run]. destruct (w_map W st); [apply less_refl|..].
  - destruct ms as [|[s v] ms]; [apply IH; lia|].
    apply less_bind; [apply key_mono; lia|]. intros. apply IH. lia.
  - destruct p; [|apply less_refl]. apply less_bind; [apply Hrec|]. intros. apply IH. lia.
  - destruct ms as [|[s v] ms]; [apply IH; lia|].
    apply less_bind; [apply key_mono; lia|]. intros []; [|apply IH; lia].
    apply less_bind; [apply Hrec|]. intros. apply IH. lia.
Qed.
Lemma map_any_mono f f' b vis ms : f <= f' ->
  less (Visitors.map_any W rec f b vis ms) (Visitors.map_any W rec' f' b vis ms).
Proof using Hrec.
  intros Hf. unfold Visitors.map_any. apply less_bind; [by apply map_mono|]. intros []. apply less_refl.
Qed.
Lemma any_mono f f' vis v : f <= f' -> less (value_any W rec f vis v) (value_any W rec' f' vis v).
Proof using Hrec.
  intros Hf. destruct v as [[c l ms]|vs| | | | | | | | | | | | | | | | |]; cbn [value_any]; try apply less_refl.
  - unfold object_any. destruct l; [by apply map_any_mono|].
    destruct (hm_get (class_name c) wrapper_classes); [apply less_refl|].
    destruct (str_eqb _ _); [|by apply map_any_mono].
    destruct (N.eqb _ _); [|apply less_refl].
    destruct (hm_get _ ms) as [[]|]; try apply less_refl.
    destruct (hm_get _ ms) as [[]|]; try apply less_refl.
    destruct (hm_get _ ms) as [[]|]; try apply less_refl.
    apply less_bind; [by apply list_mono|]. intros []. apply less_refl.
  - apply less_bind; [by apply array_mono|]. intros [? []]. apply less_refl.
Qed.
Lemma struct_mono f f' vis v : f <= f' ->
  less (value_struct W rec f vis v) (value_struct W rec' f' vis v).
Proof using Hrec.
  intros Hf. destruct v; cbn [value_struct]; try by apply any_mono. by apply map_any_mono.
Qed.
Lemma option_mono (vis : visitor U Ty St) v : less (value_option rec vis v) (value_option rec' vis v).
Proof using Hrec.
  unfold value_option. destruct v; try apply less_refl;
    (destruct (on_some vis); [apply less_refl|]; apply less_bind; [apply Hrec|]; intros; apply less_refl).
Qed.
End mono.

Lemma value_mono f f' v t : f <= f' -> less (value_run W f v t) (value_run W f' v t).
Proof.
  revert f' v t. induction f as [|f IH]; intros [|f'] v t Hf; try lia; try apply less_running.
  cbn [value_run]. destruct (w_impl W t) as [|[] vis post]; [apply less_refl|..];
    (apply less_bind; [|intros; apply less_refl]).
  - apply any_mono; [|lia]. intros; apply IH; lia.
  - apply option_mono. intros; apply IH; lia.
  - apply struct_mono; [|lia]. intros; apply IH; lia.
  - apply any_mono; [|lia]. intros; apply IH; lia.
Qed.

(** The pieces with the same number of steps for everything. *)
Definition arr F st vs c := array_run W (value_run W F) F st vs c.
Definition lst F st vs c n := list_run W (value_run W F) F st vs c n.
Definition mp F b st ms p := map_run W (value_run W F) F b st ms p.
Definition anyr F vis v := value_any W (value_run W F) F vis v.
Definition srv F m vis v :=
  match m with
  | M_option => value_option (value_run W F) vis v
  | M_struct => value_struct W (value_run W F) F vis v
  | M_any | M_enum => value_any W (value_run W F) F vis v
  end.
Lemma up_key F F' b s t r : F <= F' -> key_run W F b s t = Done r -> key_run W F' b s t = Done r.
Proof. intros. eapply less_done; [by apply key_mono|done]. Qed.
Lemma up_value F F' v t r : F <= F' -> value_run W F v t = Done r -> value_run W F' v t = Done r.
Proof. intros. eapply less_done; [by apply value_mono|done]. Qed.
Lemma up_arr F F' G st vs c r : F <= F' -> F <= G ->
  arr F st vs c = Done r -> array_run W (value_run W G) F' st vs c = Done r.
Proof. intros H HG. eapply less_done, array_mono; [|done]. intros. by apply value_mono. Qed.
Lemma up_lst F F' G st vs c n r : F <= F' -> F <= G ->
  lst F st vs c n = Done r -> list_run W (value_run W G) F' st vs c n = Done r.
Proof. intros H HG. eapply less_done, list_mono; [|done]. intros. by apply value_mono. Qed.
Lemma up_mp F F' G b st ms p r : F <= F' -> F <= G ->
  mp F b st ms p = Done r -> map_run W (value_run W G) F' b st ms p = Done r.
Proof. intros H HG. eapply less_done, map_mono; [|done]. intros. by apply value_mono. Qed.

Lemma key_complete b s t r : gets_name W b s t r -> exists F, key_run W F b s t = Done r.
Proof.
  induction 1 as [t r H|t m vis post H Hm|t vis post r H H2|t vis post t' k r H H2 H3 [F IH]].
  - exists 0. cbn. by rewrite H.
  - exists 0. cbn. rewrite H. by destruct m.
  - exists 0. cbn. by rewrite H, H2.
  - exists (S F). cbn. by rewrite H, H2, IH.
Qed.

Definition Pget v t r := distinct_names v -> exists F, value_run W F v t = Done r.
Definition Psrv m vis v r := distinct_names v -> exists F, srv F m vis v = Done r.
Definition Pvis vis v r := distinct_names v -> exists F, anyr F vis v = Done r.
Definition Pone st vs r left := Forall distinct_names vs ->
  length left <= length vs /\
  forall c, exists F, arr F st vs c = Done (r, (left, c + N.of_nat (length vs) - N.of_nat (length left))%N).
Definition Pupto st vs n r left := Forall distinct_names vs ->
  (left <= n)%N /\ forall c, exists F, lst F st vs c (c + n)%N = Done (r, c + n - left)%N.
Definition Pent b st ms p r left :=
  Forall (fun kv => distinct_names kv.2) ms -> (forall v, p = Some v -> distinct_names v) ->
  exists F, mp F b st ms p = Done (r, left).

Lemma all_complete :
  (forall v t r, gets W v t r -> Pget v t r) /\
  (forall m vis v r, serves W m vis v r -> Psrv m vis v r) /\
  (forall vis v r, visits W vis v r -> Pvis vis v r) /\
  (forall st vs r left, one_by_one W st vs r left -> Pone st vs r left) /\
  (forall st vs n r left, up_to W st vs n r left -> Pupto st vs n r left) /\
  (forall b st ms p r left, entry_by_entry W b st ms p r left -> Pent b st ms p r left).
Proof.
  apply gets_mutind.
  - (* G_skip *) intros v t r H _. exists 1. cbn. by rewrite H.
  - (* G_call *) intros v t m vis post r H _ IH Hd. destruct (IH Hd) as [F HF].
    exists (S F). cbn [value_run]. rewrite H. unfold srv in HF. destruct m; by rewrite HF.
  - (* S_none *) intros vis _. by exists 0.
  - intros vis v r Hv H _. exists 0. unfold srv, value_option. destruct v; try done; by rewrite H.
  - intros vis v t k r Hv H _ IH Hd. destruct (IH Hd) as [F HF]. exists F.
    unfold srv, value_option. destruct v; try done; by rewrite H, HF.
  - (* S_struct *) intros vis o r left Hent IH Hd.
    inversion Hd as [o' Hn Hds| |]; subst; [|done]. destruct (IH Hds) as [F HF]; [done|].
    exists F. unfold srv, value_struct, Visitors.map_any. unfold mp in HF. rewrite HF. cbn [out_bind].
    rewrite left_map; [done|]. by eapply map_left.
  - intros vis v r Hv _ IH Hd. destruct (IH Hd) as [F HF]. exists F. unfold srv.
    destruct v; try done. by destruct (Hv o).
  - intros vis v r _ IH Hd. by destruct (IH Hd) as [F HF]; exists F.
  - intros vis v r _ IH Hd. by destruct (IH Hd) as [F HF]; exists F.
  - (* V_scalar *) intros vis v r H _. exists 0. by destruct H.
  - (* V_array *) intros vis vs r left _ IH Hd. destruct IH as [Hl IH]; [by inversion Hd|].
    destruct (IH 0%N) as [F HF]. exists F.
    unfold anyr, value_any, array_any. unfold arr in HF. rewrite HF. cbn [out_bind].
    by rewrite (left_array vs left) by lia.
  - (* V_wrapper *) intros vis name prim class v p r Hw Hc Hv Ht _. exists 0.
    unfold anyr, value_any, object_any.
    assert (hm_get (class_name class) wrapper_classes = Some prim) as ->
      by (eapply wrapper_get; [by apply wrapper_of_iff|done]).
    assert (wrapper prim (entries value_deserialize [(lit "m_value", v)]) = SOk p) as -> by (apply wrapper_is; eauto).
    by rewrite (told_prim_eq vis prim p r Ht).
  - intros vis name prim class ms e Hw Hc Hno _. exists 0. unfold anyr, value_any, object_any.
    assert (hm_get (class_name class) wrapper_classes = Some prim) as ->
      by (eapply wrapper_get; [by apply wrapper_of_iff|done]).
    by destruct (wrapper_fault_error prim ms e Hno) as [-> ->].
  - (* V_list *) intros vis class ms items size version r left Hl Hlm _ IH Hd.
    destruct IH as [Hle IH].
    { inversion Hd as [o' Hn Hds| |]; subst; [|done]. apply list_items_in in Hlm.
      rewrite Forall_forall in Hds. specialize (Hds _ Hlm). cbn in Hds. by inversion Hds. }
    destruct (IH 0%N) as [F HF]. exists F. unfold anyr, value_any, object_any.
    destruct (list_class_get _ Hl) as [-> ->].
    pose proof (list_members_get _ _ _ _ Hlm) as (-> & -> & -> & ->). cbn [N.eqb N.of_nat].
    unfold list_any. rewrite N.add_0_l in HF. unfold lst in HF. rewrite usize_eq, HF. cbn [out_bind].
    rewrite left_list by lia.
    by replace (Z.to_N (as_usize size) - (Z.to_N (as_usize size) - left))%N with left by lia.
  - intros vis class ms Hl Hno _. exists 0. unfold anyr, value_any, object_any.
    destruct (list_class_get _ Hl) as [-> Hs]. rewrite Hs. apply str_eqb_eq in Hs. rewrite Hs.
    destruct (N.eqb_spec (N.of_nat (length ms)) 3) as [E3|]; [|done].
    destruct (hm_get (lit "_items") ms) as [[]|] eqn:E1; try done.
    destruct (hm_get (lit "_size") ms) as [[]|] eqn:E2; try done.
    destruct (hm_get (lit "_version") ms) as [[]|] eqn:E4; try done.
    destruct (Hno vs z z0). unfold list_members. symmetry. apply hm_get_in in E1, E2, E4.
    apply submseteq_Permutation_length_eq; [cbn [length]; lia|].
    apply NoDup_submseteq.
    + apply (NoDup_fmap_1 fst). cbn. apply (bool_decide_unpack _). vm_compute. exact I.
    + intros x. rewrite !elem_of_cons, elem_of_nil. by intros [-> | [-> | [-> | []]]].
  - (* V_map *) intros vis class library ms r left Hpl Hent IH Hd.
    inversion Hd as [o' Hn Hds| |]; subst; [|done]. destruct (IH Hds) as [F HF]; [done|].
    exists F. unfold anyr, value_any, object_any.
    assert (Visitors.map_any W (value_run W F) F true vis ms = Done (nothing_left (lit "map") ms left r)) as Hm.
    { unfold Visitors.map_any. unfold mp in HF. rewrite HF. cbn [out_bind].
      rewrite left_map; [done|]. by eapply map_left. }
    destruct library; [done|]. apply plain_class_iff in Hpl. destruct Hpl as [|[H1 H2]]; [done|].
    rewrite wrapper_class_type in H1.
    destruct (hm_get (class_name class) wrapper_classes) as [prim|] eqn:E; [destruct H1; eauto|].
    destruct (str_eqb (class_name class) _) eqn:El; [|done].
    destruct H2. apply str_eqb_eq in El. unfold is_list_class. rewrite <- El. apply class_name_cases.
  - (* Q_done *) intros st vs r H _. split; [done|]. intros c. exists 1. unfold arr; cbn [array_run].
    rewrite H. do 3 f_equal. lia.
  - intros st t k v vs x r left H _ IH1 _ IH2 Hd. apply Forall_cons in Hd as [Hd1 Hd2].
    destruct (IH1 Hd1) as [F1 H1], (IH2 Hd2) as [Hl H2]. split; [cbn [length]; lia|]. intros c.
    destruct (H2 (c + 1)%N) as [F2 H3]. exists (S (F1 `max` F2)).
    unfold arr; cbn [array_run]. rewrite H, (up_value F1 _ v t x) by (lia || done). cbn [out_bind length].
    replace (c + N.of_nat (S (length vs)))%N with (c + 1 + N.of_nat (length vs))%N by lia.
    eapply up_arr; [| |done]; lia.
  - intros st t k r left H _ IH Hd. destruct (IH Hd) as [Hl H2]. split; [done|]. intros c.
    destruct (H2 c) as [F HF]. exists (S F).
    unfold arr; cbn [array_run]. rewrite H. eapply up_arr; [| |done]; lia.
  - (* U_done *) intros st vs n r H _. split; [done|]. intros c. exists 1. unfold lst; cbn [list_run].
    rewrite H. do 2 f_equal. lia.
  - intros st t k v vs n u r left H _ IH1 _ IH2 Hd. apply Forall_cons in Hd as [Hd1 Hd2].
    destruct (IH1 Hd1) as [F1 H1], (IH2 Hd2) as [Hle H2]. split; [lia|]. intros c.
    destruct (H2 (c + 1)%N) as [F2 H3].
    exists (S (F1 `max` F2)). unfold lst; cbn [list_run]. rewrite H.
    assert (N.ltb c (c + N.succ n) = true) as -> by (apply N.ltb_lt; lia).
    rewrite (up_value F1 _ v t (TOk u)) by (lia || done). cbn [out_bind].
    replace (c + N.succ n)%N with (c + 1 + n)%N by lia.
    eapply up_lst; [| |done]; lia.
  - intros st t k v vs n e r left H _ IH1 _ IH2 Hd. apply Forall_cons in Hd as [Hd1 Hd2].
    destruct (IH1 Hd1) as [F1 H1], (IH2 Hd2) as [Hle H2]. split; [lia|]. intros c.
    destruct (H2 c) as [F2 H3].
    exists (S (F1 `max` F2)). unfold lst; cbn [list_run]. rewrite H.
    assert (N.ltb c (c + N.succ n) = true) as -> by (apply N.ltb_lt; lia).
    rewrite (up_value F1 _ v t (TErr e)) by (lia || done). cbn [out_bind].
    eapply up_lst; [| |done]; lia.
  - intros st t k n r left H _ IH Hd. destruct (IH Hd) as [Hle H2]. split; [lia|]. intros c.
    destruct (H2 (c + 1)%N) as [F2 H3].
    exists (S F2). unfold lst; cbn [list_run]. rewrite H.
    assert (N.ltb c (c + N.succ n) = true) as -> by (apply N.ltb_lt; lia).
    replace (c + N.succ n)%N with (c + 1 + n)%N by lia.
    eapply up_lst; [| |done]; lia.
  - intros st t k vs r left H _ IH Hd. destruct (IH Hd) as [Hle H2]. split; [lia|]. intros c.
    destruct (H2 c) as [F2 H3].
    exists (S F2). unfold lst; cbn [list_run]. rewrite H.
    assert (N.ltb c (c + 0) = false) as -> by (apply N.ltb_ge; lia).
    eapply up_lst; [| |done]; lia.
  - (* P_done *) intros b st ms p r H _ _. exists 1. unfold mp; cbn [map_run]. by rewrite H.
  - intros b st t k s v ms p x r left H Hk _ IH Hd Hp. apply Forall_cons in Hd as [Hd1 Hd2].
    destruct (key_complete _ _ _ _ Hk) as [F1 H1]. destruct IH as [F2 H2]; [done|by intros w [= <-]|].
    exists (S (F1 `max` F2)). unfold mp; cbn [map_run].
    rewrite H, (up_key F1 _ b s t x) by (lia || done). cbn [out_bind].
    eapply up_mp; [| |done]; lia.
  - intros b st t k p r left H _ IH Hd Hp. destruct (IH Hd Hp) as [F HF]. exists (S F).
    unfold mp; cbn [map_run]. rewrite H. eapply up_mp; [| |done]; lia.
  - intros b st t k v ms x r left H _ IH1 _ IH2 Hd Hp.
    destruct (IH1 (Hp v eq_refl)) as [F1 H1]. destruct IH2 as [F2 H2]; [done..|].
    exists (S (F1 `max` F2)). unfold mp; cbn [map_run].
    rewrite H, (up_value F1 _ v t x) by (lia || done). cbn [out_bind].
    eapply up_mp; [| |done]; lia.
  - intros b st tk tv k s v ms p u x r left H Hk _ IH1 _ IH2 Hd Hp. apply Forall_cons in Hd as [Hd1 Hd2].
    destruct (key_complete _ _ _ _ Hk) as [F0 H0].
    destruct (IH1 Hd1) as [F1 H1]. destruct IH2 as [F2 H2]; [done..|].
    exists (S (F0 `max` F1 `max` F2)). unfold mp; cbn [map_run].
    rewrite H, (up_key F0 _ b s tk (TOk u)) by (lia || done). cbn [out_bind].
    rewrite (up_value F1 _ v tv x) by (lia || done). cbn [out_bind].
    eapply up_mp; [| |done]; lia.
  - intros b st tk tv k s v ms p e r left H Hk _ IH2 Hd Hp. apply Forall_cons in Hd as [Hd1 Hd2].
    destruct (key_complete _ _ _ _ Hk) as [F0 H0]. destruct IH2 as [F2 H2]; [done..|].
    exists (S (F0 `max` F2)). unfold mp; cbn [map_run].
    rewrite H, (up_key F0 _ b s tk (TErr e)) by (lia || done). cbn [out_bind].
    eapply up_mp; [| |done]; lia.
  - intros b st tk tv k p r left H _ IH Hd Hp. destruct (IH Hd Hp) as [F HF]. exists (S F).
    unfold mp; cbn [map_run]. rewrite H. eapply up_mp; [| |done]; lia.
Qed.

Lemma value_complete v t r : distinct_names v -> gets W v t r -> exists F, value_run W F v t = Done r.
Proof. intros Hd H. exact (proj1 all_complete v t r H Hd). Qed.
Lemma message_complete m t r : (forall v, m = MValue v -> distinct_names v) ->
  message_gets W m t r -> exists F, message_run W F m t = Done r.
Proof.
  intros Hd. destruct 1 as [m t r H|c t meth vis post H|c t meth vis post H|v t vis post r H Hv|v t meth vis post r H Hm Hv].
  - exists 0. unfold message_run. by rewrite H.
  - exists 0. unfold message_run. by rewrite H.
  - exists 0. unfold message_run. by rewrite H.
  - apply (proj1 (proj2 (proj2 all_complete))) in Hv. destruct Hv as [F HF]; [by apply Hd|].
    exists F. unfold message_run. rewrite H. unfold anyr in HF. by rewrite HF.
  - apply (proj1 (proj2 all_complete)) in Hv. destruct Hv as [F HF]; [by apply Hd|].
    exists F. unfold message_run. rewrite H. unfold srv in HF. destruct meth; try done; by rewrite HF.
Qed.
Lemma message_mono f f' m t : f <= f' -> less (message_run W f m t) (message_run W f' m t).
Proof.
  intros Hf. unfold message_run. destruct (w_impl W t) as [|meth vis post]; [apply less_refl|].
  destruct m as [c|c|v]; try apply less_refl.
  assert (forall v t, less (value_run W f v t) (value_run W f' v t)) as Hv by (intros; by apply value_mono).
  destruct meth; (apply less_bind; [|intros; apply less_refl]).
  - by apply any_mono.
  - by apply any_mono.
  - by apply struct_mono.
  - by apply any_mono.
Qed.
End rules.
