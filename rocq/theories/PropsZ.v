(** * PropsZ: C73. *)
From Verif Require Import Base Utf8 Utf8Lemmas Value DataTypes Records Parser Wire Grammar BaseLemmas DataTypesLemmas
  RecordsLemmas MethodLemmas SafetyLemmas Safety Heads Complete Sound Fuel Message Run Spec LemmasA LemmasB
  Trees TreeLemmas Serde SerdeSpec SerdeLemmas Transmit PropsA PropsB PropsG PropsH PropsI PropsK Reading PropsL Received.
From Coq Require Import Lia ZifyNat ZifyN.
From Coq Require Strings.String.
Import String.StringSyntax.

(** Induction over data. *)
Section data_ind'.
Context (P : data -> Prop).
Context (Hsome : forall d, P d -> P (D_some d)).
Context (Hnew : forall d, P d -> P (D_newtype d)).
Context (Hseq : forall ds, Forall P ds -> P (D_seq ds)).
Context (Hmap : forall m, Forall (fun kd => P kd.2) m -> P (D_map m)).
Context (Hstruct : forall m, Forall (fun kd => P kd.2) m -> P (D_struct m)).
Context (Hother : forall d, match d with D_some _ | D_newtype _ | D_seq _ | D_map _ | D_struct _ => False | _ => True end -> P d).
Fixpoint data_ind' (d : data) : P d.
Proof using Type*.
  destruct d; try (apply Hother; exact I).
  - apply Hsome, data_ind'.
  - apply Hseq. induction ds as [|d ds IH]; constructor; [apply data_ind'|exact IH].
  - apply Hmap. induction m as [|[k d] m IH]; constructor; [apply data_ind'|exact IH].
  - apply Hstruct. induction fields as [|[k d] m IH]; constructor; [apply data_ind'|exact IH].
  - apply Hnew, data_ind'.
Qed.
End data_ind'.

Lemma inside_trans y x d : inside y x -> inside x d -> inside y d.
Proof. intros Hy. induction 1; try done; econstructor; eauto. Qed.
Lemma source_inside x d : inside x d -> has_source d -> has_source x.
Proof.
  intros Hx (H1 & H2 & H3 & H4).
  split_and!; intros; eauto using inside_trans.
Qed.
Lemma small_inside x d : inside x d -> data_small d -> data_small x.
Proof.
  intros Hx Hs y Hy. apply Hs. by eapply inside_trans.
Qed.

Section with_libs.
Context {DL : DecimalLib} {FL : FloatLib}.

(** ** Sufficiency: a value for every result *)

Definition part_ok (w : value) : Prop := node_ok w /\ node_small w /\ forall o, w = VObject o -> obj_library o = None.
Definition built (v : value) : Prop :=
  (forall w, sub_value w v -> part_ok w)
  /\ match v with VObject _ | VArray _ | VString _ | VNull => True | _ => False end.

Lemma leaf_parts v : match v with VObject _ | VArray _ => False | _ => True end -> part_ok v -> forall w, sub_value w v -> part_ok w.
Proof. intros Hl Hv w Hw. by destruct Hw. Qed.
Lemma array_built vs : small vs -> Forall built vs -> built (VArray vs).
Proof.
  intros Hs Hf. split; [|done]. apply sub_inv.
  - split; [|done]. split_and!; try done. constructor.
  - eapply Forall_impl; [exact Hf|]. intros v [H _]. exact H.
Qed.
Lemma object_built c ms : text c -> Forall text (map fst ms) -> NoDup (map fst ms) -> small ms ->
  Forall (fun kv => forall x, sub_value x kv.2 -> part_ok x) ms -> built (VObject (mkObj c None ms)).
Proof.
  intros Hc Ht Hn Hs Hf. split; [|done]. apply sub_inv; [|done].
  split; [|split; [done|]]; [|by intros o [= <-]].
  split_and!; [done| |done]. cbn [own_strings obj_class obj_library obj_members app]. by constructor.
Qed.
Lemma text_valid s : utf8_valid s = true -> short s -> text s.
Proof. intros H Hs. split; [by apply utf8_valid_iff|exact Hs]. Qed.
Lemma wrapper_built name v : utf8_valid name = true -> short name ->
  match v with VObject _ | VArray _ => False | _ => True end -> node_ok v -> built (VObject (mkObj name None [(lit "m_value", v)])).
Proof.
  intros H1 H2 Hl Hv. apply object_built.
  - by apply text_valid.
  - constructor; [|constructor]. by apply text_valid; vm_compute.
  - apply NoDup_singleton.
  - done.
  - constructor; [|constructor]. cbn [snd]. apply leaf_parts; [done|]. split; [done|]. split; [by destruct v|]. intros o ->. done.
Qed.
Lemma string_built s : text s -> built (VString s).
Proof.
  intros H. split; [|done]. apply leaf_parts; [done|]. split; [|by split]. split_and!; try done. cbn. by constructor.
Qed.
Lemma null_built : built VNull.
Proof. split; [|done]. apply leaf_parts; [done|]. split; [|by split]. split_and!; try done. constructor. Qed.
Lemma char_text c : scalar c -> text (enc_char c).
Proof.
  intros H. split; [by apply enc_char_utf8|]. unfold enc_char. repeat case_match; cbn; lia.
Qed.

Definition source_of (t : target) (d : data) : Prop :=
  exists v, built v /\ reads v t d /\ (v = VNull -> d = D_unit \/ d = D_none).

Lemma gather_vec t ds : Forall (source_of t) ds -> exists vs, Forall built vs /\ Forall2 (fun u d => reads u t d) vs ds.
Proof.
  induction 1 as [|d ds (v & Hb & Hr & _) _ (vs & IH1 & IH2)]; [exists []; split_and!; constructor|].
  exists (v :: vs). split; by constructor.
Qed.
Lemma gather_tuple ts ds : Forall2 source_of ts ds ->
  exists vs, length vs = length ts /\ Forall built vs /\ Forall2 (fun ut d => reads ut.1 ut.2 d) (zip vs ts) ds.
Proof.
  induction 1 as [|t d ts ds (v & Hb & Hr & _) _ (vs & IH0 & IH1 & IH2)]; [exists []; split_and!; constructor|].
  exists (v :: vs). split; [cbn; lia|]. split; by constructor.
Qed.
Lemma gather_map t m : Forall (fun kd => source_of t kd.2) m ->
  exists ms : list (str * value), map fst ms = map fst m /\ Forall (fun kv => built kv.2) ms /\ Forall2 (fun kv d => reads kv.2 t d) ms (map snd m).
Proof.
  induction 1 as [|[k d] m (v & Hb & Hr & _) _ (vs & IH0 & IH1 & IH2)]; [exists []; split_and!; constructor|].
  exists ((k, v) :: vs). split; [cbn; congruence|]. split; by constructor.
Qed.
Lemma gather_struct (fs : list (str * target)) (l : list (str * data)) : Forall2 (fun f kd => f.1 = kd.1 /\ source_of f.2 kd.2) fs l ->
  map fst fs = map fst l /\ exists vs, length vs = length fs /\ Forall built vs
    /\ Forall2 (fun uf d => reads uf.1 uf.2.2 d) (zip vs fs) (map snd l).
Proof.
  induction 1 as [|[k t] [k' d] fs l [E (v & Hb & Hr & _)] _ (E' & vs & IH0 & IH1 & IH2)]; [split; [done|]; exists []; split_and!; constructor|].
  cbn in E. split; [cbn; congruence|]. exists (v :: vs). split; [cbn; lia|]. split; by constructor.
Qed.
Lemma zip_split {A B} (m : list (A * B)) : zip (map fst m) (map snd m) = m.
Proof. induction m as [|[a b] m IH]; [done|]. cbn. f_equal. exact IH. Qed.
Lemma sorted_nodup {V} (m : list (str * V)) : sorted_keys m -> NoDup (map fst m).
Proof.
  induction 1 as [|[k d] m _ IH Hf]; constructor; [|done]. intros Hin. apply elem_of_list_fmap in Hin as ([k' d'] & E & Hin). cbn in E. subst k'.
  rewrite Forall_forall in Hf. apply Hf in Hin. by apply str_lt_irrefl in Hin.
Qed.
Lemma empty_plain : plain_class [] None.
Proof.
  right. split.
  - intros name t Hw [H|(a & H)]; destruct Hw as [| | | |? ? Hi]; try done; by destruct Hi.
  - by intros [H|(a & H)].
Qed.
Lemma map_source t m : sorted_keys m -> Forall (fun kd => utf8 kd.1 /\ source_of t kd.2) m ->
  short m -> (forall k d, (k, d) ∈ m -> short k) ->
  exists (ms : list (str * value)) ds, built (VObject (mkObj [] None ms)) /\ Forall2 (fun kv d => reads kv.2 t d) ms ds /\ m ≡ₚ zip (map fst ms) ds.
Proof.
  intros Hs Hf Hm Hk. destruct (gather_map t m) as (ms & E & Hb & Hr).
  { eapply Forall_impl; [exact Hf|]. by intros ? [_ H]. }
  exists ms, (map snd m). split; [|split; [done|]]; [|by rewrite E, zip_split].
  apply object_built.
  - by apply text_valid.
  - rewrite E. apply Forall_forall. intros k Hin. apply elem_of_list_fmap in Hin as ([k' d] & -> & Hin).
    rewrite Forall_forall in Hf. split; [by apply (Hf (k', d))|]. by eapply Hk.
  - rewrite E. by apply sorted_nodup.
  - unfold small. assert (length ms = length m) as -> by (apply (f_equal length) in E; by rewrite !map_length in E). done.
  - eapply Forall_impl; [exact Hb|]. intros kv [H _]. exact H.
Qed.

Lemma int_source k z : in_int k z -> (- 2 ^ 63 <= z < 2 ^ 64)%Z -> source_of (T_int k) (D_int z) /\ source_of T_any (D_int z).
Proof.
  intros Hk Hz. destruct (decide (z < 2 ^ 63)%Z) as [Hs|Hs].
  - assert (built (VObject (mkObj (lit "System.Int64") None [(lit "m_value", VInt64 z)]))) as Hb.
    { apply wrapper_built; try done. split_and!; try done; [|constructor]. cbn. lia. }
    split; eexists; (split; [exact Hb|]); (split; [|discriminate]);
      (eapply (R_wrapper (lit "System.Int64") (T_int I64)); [apply WO_int; constructor|by left| |apply P_int|by constructor]);
      (eapply R_scalar; [constructor|]; constructor; cbn; lia).
  - assert (built (VObject (mkObj (lit "System.UInt64") None [(lit "m_value", VUInt64 (Z.to_N z))]))) as Hb.
    { apply wrapper_built; try done. split_and!; try done; [|constructor]. cbn [in_type_range]. lia. }
    assert (reads (VUInt64 (Z.to_N z)) (T_int U64) (D_int z)) as Hr.
    { rewrite <- (Z2N.id z) at 2 by lia. eapply R_scalar; [constructor|]. constructor. cbn. lia. }
    split; eexists; (split; [exact Hb|]); (split; [|discriminate]);
      (eapply (R_wrapper (lit "System.UInt64") (T_int U64)); [apply WO_int; constructor|by left|exact Hr|apply P_int|by constructor]).
Qed.
Lemma bool_source t b : t = T_bool \/ t = T_any -> source_of t (D_bool b).
Proof.
  intros Ht. exists (VObject (mkObj (lit "System.Boolean") None [(lit "m_value", VBoolean b)])).
  split; [apply wrapper_built; try done; split_and!; try done; constructor|]. split; [|discriminate].
  eapply (R_wrapper (lit "System.Boolean")); [constructor|by left| |constructor|destruct Ht as [-> | ->]; constructor].
  eapply R_scalar; constructor.
Qed.
Lemma f32_source t n : (n < 2 ^ 32)%N -> t = T_f32 \/ t = T_any -> source_of t (D_f32 n).
Proof.
  intros Hn Ht. exists (VObject (mkObj (lit "System.Single") None [(lit "m_value", VSingle n)])).
  split; [apply wrapper_built; try done; split_and!; try done; constructor|]. split; [|discriminate].
  eapply (R_wrapper (lit "System.Single")); [constructor|by left| |constructor|destruct Ht as [-> | ->]; constructor].
  eapply R_scalar; constructor.
Qed.
Lemma f64_source t n : (n < 2 ^ 64)%N -> t = T_f64 \/ t = T_any -> source_of t (D_f64 n).
Proof.
  intros Hn Ht. exists (VObject (mkObj (lit "System.Double") None [(lit "m_value", VDouble n)])).
  split; [apply wrapper_built; try done; split_and!; try done; constructor|]. split; [|discriminate].
  eapply (R_wrapper (lit "System.Double")); [constructor|by left| |constructor|destruct Ht as [-> | ->]; constructor].
  eapply R_scalar; constructor.
Qed.
Lemma char_source t c : scalar c -> t = T_char \/ t = T_any -> source_of t (D_char c).
Proof.
  intros Hc Ht. exists (VObject (mkObj (lit "System.Char") None [(lit "m_value", VString (enc_char c))])).
  split.
  { apply wrapper_built; try done. split_and!; try done. constructor; [|constructor]. by apply char_text. }
  split; [|discriminate].
  eapply (R_wrapper (lit "System.Char")); [constructor|by left| |constructor|destruct Ht as [-> | ->]; constructor].
  eapply R_scalar; [constructor|]. by constructor.
Qed.
Lemma str_source t s : utf8 s -> short s -> t = T_string \/ t = T_str \/ t = T_any -> source_of t (D_str s).
Proof.
  intros Hu Hs Ht. exists (VString s). split; [by apply string_built|]. split; [|discriminate].
  eapply R_scalar; [constructor|]. destruct Ht as [->|[-> | ->]]; constructor.
Qed.
Lemma null_source t d : (t, d) = (T_unit, D_unit) \/ (t, d) = (T_any, D_unit) \/ (exists u, (t, d) = (T_option u, D_none)) -> source_of t d.
Proof.
  intros H. exists VNull. split; [apply null_built|].
  destruct H as [[= -> ->]|[[= -> ->]|(u & [= -> ->])]]; (split; [constructor|]); intros _; [by left|by left|by right].
Qed.

Lemma source_exists d : forall t, has_type t d -> has_source d -> data_small d -> source_of t d.
Proof.
  induction d as [d IH|d IH|ds IH|m IH|m IH|d Hd] using data_ind'; intros t Ht Hs Hf.
  - inversion Ht as [ | | | | | | | | | |t' ? Ht'| | | | | | | | | | | | | | | ]; subst.
    destruct (IH t' Ht') as (v & Hb & Hr & Hn).
    { eapply source_inside; [|exact Hs]. repeat constructor. }
    { eapply small_inside; [|exact Hf]. repeat constructor. }
    assert (v <> VNull) as Hv.
    { intros E. destruct Hs as (_ & _ & Hs1 & Hs2). destruct (Hn E) as [-> | ->]; [apply Hs2|apply Hs1]; constructor. }
    exists v. split; [done|]. split; [by apply R_some|]. done.
  - inversion Ht as [ | | | | | | | | | | | | | | |t' ? Ht'| | | | | | | | | | ]; subst.
    destruct (IH t' Ht') as (v & Hb & Hr & Hn).
    { eapply source_inside; [|exact Hs]. repeat constructor. }
    { eapply small_inside; [|exact Hf]. repeat constructor. }
    exists (VArray [v]). split; [apply array_built; [done|by constructor]|]. split; [|discriminate].
    eapply R_newtype; [constructor|done].
  - assert (forall d, d ∈ ds -> has_source d /\ data_small d) as Hin.
    { intros d Hd. split; [eapply source_inside; [|exact Hs]|eapply small_inside; [|exact Hf]]; econstructor; eauto; constructor. }
    assert (short ds) as Hlen by (apply (Hf (D_seq ds)); constructor).
    rewrite Forall_forall in IH.
    assert (forall t0, Forall (has_type t0) ds -> exists vs, built (VArray vs) /\ Forall2 (fun u d => reads u t0 d) vs ds) as Hvec.
    { intros t0 H0. destruct (gather_vec t0 ds) as (vs & Hb & Hr).
      { rewrite Forall_forall in *. intros d Hd. destruct (Hin d Hd). apply IH; auto. }
      exists vs. split; [|done]. apply array_built; [|done]. unfold small. by rewrite (Forall2_length _ _ _ Hr). }
    inversion Ht as [ | | | | | | | | | | |t' ? Ht'|ts ? Ht'| | | | | | | | | | | |? Ht'| ]; subst.
    + destruct (Hvec _ Ht') as (vs & Hb & Hr). exists (VArray vs). split; [done|]. split; [|discriminate].
      eapply R_vec; [do 2 constructor|done].
    + destruct (gather_tuple ts ds) as (vs & Hl & Hb & Hr).
      { assert (forall d, d ∈ ds -> forall t, has_type t d -> source_of t d) as H1.
        { intros d Hd t H. destruct (Hin d Hd). by apply IH. }
        clear -Ht' H1. induction Ht' as [|t d ts ds H _ IH]; constructor; [apply H1; [by left|done]|].
        apply IH. intros; apply H1; [by right|done]. }
      exists (VArray vs). split; [|split; [|discriminate]].
      * apply array_built; [|done]. unfold small. rewrite Hl. by rewrite (Forall2_length _ _ _ Ht').
      * eapply R_tuple; [constructor|done|done].
    + destruct (Hvec _ Ht') as (vs & Hb & Hr). exists (VArray vs). split; [done|]. split; [|discriminate].
      eapply R_seq_any; [do 2 constructor|done].
  - assert (forall t0, Forall (fun kd => utf8 kd.1 /\ has_type t0 kd.2) m -> Forall (fun kd => utf8 kd.1 /\ source_of t0 kd.2) m) as H.
    { intros t0 H0. rewrite Forall_forall in *. intros [k d] Hin. destruct (H0 _ Hin) as [H1 H2]. split; [done|].
      apply (IH (k, d)); [done|done|..]; cbn;
        [eapply source_inside; [|exact Hs]|eapply small_inside; [|exact Hf]]; econstructor; eauto; constructor. }
    destruct (Hf (D_map m)) as [Hl Hk]; [constructor|].
    inversion Ht as [ | | | | | | | | | | | | |t' ? Hsk Ht'| | | | | | | | | | | |? Hsk Ht']; subst;
      destruct (map_source _ m Hsk (H _ Ht') Hl Hk) as (ms & ds & Hb & Hr & Hp);
      (exists (VObject (mkObj [] None ms)); split; [done|]; split; [|discriminate]).
    + eapply R_map; [apply empty_plain|done..].
    + eapply R_map_any; [apply empty_plain|done..].
  - inversion Ht as [ | | | | | | | | | | | | | |fs ? Ht'| | | | | | | | | | | ]; subst.
    destruct (gather_struct fs m) as (E & vs & Hl & Hb & Hr).
    { assert (forall k d, (k, d) ∈ m -> forall t, has_type t d -> source_of t d) as H1.
      { intros k d Hin t H. rewrite Forall_forall in IH. apply (IH (k, d)); [done|done|..]; cbn;
          [eapply source_inside; [|exact Hs]|eapply small_inside; [|exact Hf]]; econstructor; eauto; constructor. }
      clear -Ht' H1. induction Ht' as [|f [k d] fs m [E H] _ IH]; constructor.
      - split; [done|]. apply (H1 k); [by left|done].
      - apply IH. intros k' d' Hin. apply (H1 k'). by right. }
    exists (VArray vs). split; [|split; [|discriminate]].
    + apply array_built; [|done]. unfold small. rewrite Hl. rewrite (Forall2_length _ _ _ Ht'). apply (Hf (D_struct m)). constructor.
    + rewrite <- (zip_split m), <- E. by apply R_struct_array.
  - assert (fits d) as Hfd by (apply Hf; constructor). destruct Hs as (Hi & Hby & _).
    inversion Ht; subst; try done; cbn [fits] in Hfd.
    all: try (apply bool_source; auto; fail).
    all: try (apply f32_source; auto; fail).
    all: try (apply f64_source; auto; fail).
    all: try (apply char_source; auto; fail).
    all: try (apply str_source; auto; fail).
    all: try (apply null_source; eauto; fail).
    + apply int_source; [done|]. apply Hi. constructor.
    + exists (VString s). split; [|split; [|discriminate]].
      * apply string_built. split; [|done]. apply Hby. constructor.
      * eapply R_scalar; constructor.
    + exists (VString []). split; [|split; [|discriminate]].
      * apply string_built. by apply text_valid.
      * eapply R_scalar; constructor.
    + destruct H as [H|H]; (eapply int_source; [exact H|]; apply Hi; constructor).
Qed.

(** ** Necessity *)

(** One step of [has_source]. *)
Definition own_source (x : data) : Prop :=
  match x with
  | D_int z => (- 2 ^ 63 <= z < 2 ^ 64)%Z
  | D_bytes s => utf8 s
  | D_some x => x <> D_none /\ x <> D_unit
  | _ => True
  end.
Lemma source_own d : (forall x, inside x d -> own_source x) -> has_source d.
Proof.
  intros H. split_and!.
  - intros z Hz. exact (H _ Hz).
  - intros s Hs. exact (H _ Hs).
  - intros Hx. destruct (H _ Hx) as [Hn _]. by apply Hn.
  - intros Hx. destruct (H _ Hx) as [_ Hn]. by apply Hn.
Qed.
Lemma own_here d : has_source d -> own_source d.
Proof.
  intros (H1 & H2 & H3 & H4). destruct d as [| | | | | | | | |d| | | | |]; try done; cbn.
  - apply H1. constructor.
  - apply H2. constructor.
  - split; intros ->; [apply H3|apply H4]; constructor.
Qed.
Lemma own_source_inside d : has_source d -> forall x, inside x d -> own_source x.
Proof. intros H x Hx. apply own_here. by eapply source_inside. Qed.
Lemma leaf_source d : match d with D_some _ | D_newtype _ | D_seq _ | D_map _ | D_struct _ => False | _ => True end ->
  own_source d -> has_source d.
Proof. intros Hl Hd. apply source_own. intros x Hx. by destruct Hx. Qed.
Lemma seq_source ds : Forall has_source ds -> has_source (D_seq ds).
Proof.
  intros H. apply source_own. intros x Hx. inversion Hx as [| | |d ? Hin Hi| |]; subst; [done|].
  rewrite Forall_forall in H. by apply (own_source_inside d); [apply H|].
Qed.
Lemma map_has_source m : Forall (fun kd => has_source kd.2) m -> has_source (D_map m).
Proof.
  intros H. apply source_own. intros x Hx. inversion Hx as [| | | |k d ? Hin Hi|]; subst; [done|].
  rewrite Forall_forall in H. by apply (own_source_inside d); [apply (H (k, d))|].
Qed.
Lemma struct_source l : Forall (fun kd => has_source kd.2) l -> has_source (D_struct l).
Proof.
  intros H. apply source_own. intros x Hx. inversion Hx as [| | | | |k d ? Hin Hi]; subst; [done|].
  rewrite Forall_forall in H. by apply (own_source_inside d); [apply (H (k, d))|].
Qed.
Lemma zip_source (ks : list str) ds : Forall has_source ds -> Forall (fun kd : str * data => has_source kd.2) (zip ks ds).
Proof.
  intros H. apply Forall_forall. intros x Hx. rewrite Forall_forall in H. apply H. by apply (zip_in_l ks ds).
Qed.
Lemma forall2_source {A} (P : A -> data -> Prop) l ds : Forall2 P l ds -> (forall a d, a ∈ l -> P a d -> has_source d) -> Forall has_source ds.
Proof.
  intros H Ha. apply Forall_forall. intros x Hx. apply elem_of_list_lookup in Hx as [j Hj].
  destruct (Forall2_lookup_r _ _ _ _ _ H Hj) as (u & Hu & Hru). apply (Ha u); [by eapply elem_of_list_lookup_2|done].
Qed.

Lemma converts_source v e t d : holds v e -> typed_value v -> converts e t d -> has_source d.
Proof.
  intros Hh Hv Hc. destruct (Hv v (sub_here v)) as [Hr Hs].
  destruct Hc; apply leaf_source; try done; cbn [own_source].
  - inversion Hh; subst; cbn [in_type_range] in Hr; lia.
  - inversion Hh; subst. apply Hs. by left.
  - inversion Hh; subst; cbn [in_type_range] in Hr; lia.
Qed.
Lemma primitive_source p e t d : has_source p -> primitive p e -> converts e t d -> has_source d.
Proof.
  intros Hs Hp Hc. destruct Hc; apply leaf_source; try done; cbn [own_source]; inversion Hp; subst; by apply own_here in Hs.
Qed.
(** Only null is read as one of these. *)
Lemma null_only v t d : reads v t d -> d = D_unit \/ d = D_none -> v = VNull.
Proof.
  intros H. destruct H as [v e t d Hh Hc|? ? ? ? ? ? ? ? ? ? ? ? Hc| | | | | | | | | | | | | | |]; try done; intros [E|E]; try done; subst; inversion Hc.
Qed.

Lemma reads_source v : forall t d, typed_value v -> reads v t d -> has_source d.
Proof.
  induction v as [v IH] using value_below_ind. intros t d Hv. revert d.
  induction t as [| | | | | | | | |t IHt| | | | | | | |]; intros d Hr;
    inversion Hr as [? ? ? ? Hh Hcv|? ? ? ? p e ? ? Hw Hc Hrp Hp Hcv| | | |? ? ? Hnn Hrt|? ? ? ? He Hf|? ? He Hf|? ? ? ? He Hl Hf|? ? ? ? He Hre|? ? ? Hl Hf|? ? ? ? ? Hf Hi|? ? ? ? ? ? Hpl Hf Hs Hpm|? ? ? Hpl Hf| |? ? ? He Hf|? ? ? ? ? Hpl Hf Hs Hpm]; subst;
    try (by eapply converts_source);
    try (eapply primitive_source; [|exact Hp|exact Hcv]; eapply IH; [| |exact Hrp];
         [eapply (below_member (lit "m_value")); by left|eapply (typed_member _ _ _ (lit "m_value")); [exact Hv|by left]]);
    try (apply leaf_source; done).
  - (* Some *)
    apply IHt in Hrt as Hs. apply source_own. intros x Hx. inversion Hx; subst.
    + split; intros ->; apply Hnn; eapply null_only; eauto.
    + by eapply own_source_inside.
  - apply seq_source. eapply forall2_source; [exact Hf|]. intros u x Hu. 
    destruct (any_elements_below _ _ _ He Hu) as [Hb Ht]. apply IH; [done|by apply Ht].
  - apply seq_source. eapply forall2_source; [exact Hf|]. intros [u t] x Hu.
    apply zip_in_l in Hu as [Hu _]. cbn in Hu |- *. destruct (any_elements_below _ _ _ (A_elements _ _ He) Hu) as [Hb Ht]. apply IH; [done|by apply Ht].
  - apply map_has_source. rewrite Hpm. apply zip_source. eapply forall2_source; [exact Hf|]. intros [k u] x Hu.
    apply IH; [by eapply below_member|by eapply typed_member].
  - apply struct_source, zip_source. eapply forall2_source; [exact Hf|]. intros [u f] x Hu.
    apply zip_in_l in Hu as [Hu _]. cbn in Hu |- *. apply IH; [by apply below_element|by eapply typed_element].
  - apply struct_source, zip_source. eapply forall2_source; [exact Hf|]. intros f x _.
    intros [(u & Hu & Hru)|(_ & _ & ->)]; [|by apply leaf_source]. eapply IH; [by eapply below_member|by eapply typed_member|exact Hru].
  - apply source_own. intros x Hx. inversion Hx; subst; [done|]. eapply own_source_inside; [|done].
    destruct (any_elements_below _ _ u (A_elements _ _ He)) as [Hb Ht]; [by left|]. eapply IH; [exact Hb|by apply Ht|done].
  - apply seq_source. eapply forall2_source; [exact Hf|]. intros u x Hu. 
    destruct (any_elements_below _ _ _ He Hu) as [Hb Ht]. apply IH; [done|by apply Ht].
  - apply map_has_source. rewrite Hpm. apply zip_source. eapply forall2_source; [exact Hf|]. intros [k u] x Hu.
    apply IH; [by eapply below_member|by eapply typed_member].
Qed.

(** ** C73 Every value of a supported type can be received *)

(** Which values a program can receive at a type: within the limits of the format, all values of
    the type but those the format has no source for; at the top level of an [Option] only [None]. *)
Theorem C73_receivable : decimal_text -> forall t d, rust_type t -> data_small d ->
  (exists W, from_slice t W = FOk d)
  <-> has_type t d /\ has_source d /\ forall u, t = T_option u -> d = D_none.
Proof.
  intros Hdec t d Ht Hd. split.
  - intros [W HW]. split; [by eapply C57_results_typed|]. apply C56_exact in HW as (v & HW & Hr); [|done|done].
    destruct Hr as [u|v t d Hno Hr].
    + split; [by apply leaf_source|done].
    + split; [|intros u ->; by destruct (Hno u)]. eapply reads_source; [|exact Hr].
      intros w Hw. assert (value_in w (MValue v)) as Hin by (exists v; split; [by left|done]). split.
      * by apply (C11_values_in_range W (MValue v)).
      * intros s Hs. apply (C07_strings_utf8 W (MValue v)); [done|]. right. by exists w.
  - intros (Hty & Hs & Hopt).
    assert (exists v, built v /\ reads_top v t d) as (v & [Hb Hk] & Hr).
    { assert ((exists u, t = T_option u) \/ no_option t) as [[u ->]|Hno].
      { destruct t as [| | | | | | | | |u| | | | | | | |]; try (right; intros u' [=]; fail). left. by exists u. }
      - rewrite (Hopt u eq_refl). exists VNull. split; [apply null_built|constructor].
      - destruct (source_exists d t Hty Hs Hd) as (v & Hb & Hr & _). exists v. split; [done|]. by apply RT_value. }
    assert (forall w, value_in w (MValue v) -> part_ok w) as Hp.
    { intros w (v' & Hv' & Hw). apply elem_of_list_singleton in Hv' as ->. by apply Hb. }
    destruct (transmit (MValue v)) as [W HW].
    + split; [intros w Hw; by apply Hp|]. split; [done|]. exists []. split; [done|].
      intros l (o & Ho & Hl). apply Hp in Ho as (_ & _ & Ho). by rewrite (Ho o eq_refl) in Hl.
    + split; [intros w Hw; by apply Hp|]. split; [constructor|]. exact Hk.
    + exists W. apply C56_exact; [done|done|]. exists v. split; [|done]. by apply message_complete.
Qed.
(** Without limits: nothing else is ever received. *)
Theorem C73_only : decimal_text -> forall t d W, rust_type t -> from_slice t W = FOk d ->
  has_type t d /\ has_source d.
Proof.
  intros Hdec t d W Ht HW. split; [by eapply C57_results_typed|]. apply C56_exact in HW as (v & HW & Hr); [|done|done].
  destruct Hr as [u|v t d Hno Hr]; [by apply leaf_source|]. eapply reads_source; [|exact Hr].
  intros w Hw. assert (value_in w (MValue v)) as Hin by (exists v; split; [by left|done]). split.
  - by apply (C11_values_in_range W (MValue v)).
  - intros s Hs. apply (C07_strings_utf8 W (MValue v)); [done|]. right. by exists w.
Qed.

(** A struct with an optional vector of integers, a map of characters and a newtype; and an
    [i128] beyond 64 bits, and [Some(None)]. *)
Definition ex_type : target :=
  T_struct [(lit "a", T_option (T_vec (T_int I128))); (lit "b", T_map T_char); (lit "c", T_newtype (T_option T_unit))].
Definition ex_data : data :=
  D_struct [(lit "a", D_some (D_seq [D_int (-5); D_int (2 ^ 64 - 1)])); (lit "b", D_map [(lit "k", D_char 0x20AC)]);
            (lit "c", D_newtype D_none)].
Ltac each_inside := repeat match goal with
  | H : _ ∈ [] |- _ => by apply elem_of_nil in H
  | H : _ ∈ _ :: _ |- _ => apply elem_of_cons in H as [?|?]; simplify_eq
  | H : inside _ _ |- _ => inversion H; subst; clear H
  end.
Example C73_ex : rust_type ex_type /\ data_small ex_data /\ has_type ex_type ex_data /\ has_source ex_data
  /\ (forall u, ex_type = T_option u -> ex_data = D_none).
Proof.
  split_and!.
  - apply TT_struct.
    + apply (bool_decide_unpack _). vm_compute. exact I.
    + repeat (apply Forall_cons_2; [cbn [snd]; repeat constructor|]). constructor.
  - intros x Hx. unfold ex_data in Hx. each_inside; cbn [fits]; try done; try (split; [done|intros k d Hin; each_inside; done]).
  - apply HT_struct. repeat (apply Forall2_cons; split; [split; [done|]; cbn [fst snd]|]); [..|by constructor].
    + apply HT_some, HT_vec. repeat (apply Forall_cons_2; [constructor; cbn; lia|]). constructor.
    + apply HT_map; [repeat constructor|]. apply Forall_cons_2; [|constructor]. split.
      * apply utf8_valid_iff. done.
      * constructor. unfold scalar. lia.
    + apply HT_newtype, HT_none.
  - apply source_own. intros x Hx. unfold ex_data in Hx. each_inside; cbn [own_source]; try done; lia.
  - done.
Qed.
Example C73_ex_received : decimal_text -> exists W, from_slice ex_type W = FOk ex_data.
Proof. intros H. destruct C73_ex as (H1 & H2 & H3). by apply C73_receivable. Qed.
Example C73_ex_not : decimal_text ->
  (forall W, from_slice (T_newtype (T_int I128)) W <> FOk (D_newtype (D_int (2 ^ 64))))
  /\ (forall W, from_slice (T_vec (T_option (T_option T_bool))) W <> FOk (D_seq [D_some D_none]))
  /\ has_type (T_newtype (T_int I128)) (D_newtype (D_int (2 ^ 64)))
  /\ has_type (T_vec (T_option (T_option T_bool))) (D_seq [D_some D_none]).
Proof.
  intros Hdec. split_and!.
  - intros W HW. apply C73_only in HW as [_ (H & _)]; [|done|repeat constructor].
    assert (inside (D_int (2 ^ 64)) (D_newtype (D_int (2 ^ 64)))) as Hi by (repeat constructor). apply H in Hi. lia.
  - intros W HW. apply C73_only in HW as [_ (_ & _ & H & _)]; [|done|repeat constructor]. apply H.
    eapply inside_seq; [by left|constructor].
  - constructor. constructor. cbn. lia.
  - repeat constructor.
Qed.
End with_libs.
