(** * UntypedLemmas: messages without type information mean the same. *)
From Verif Require Import Base Value Wire Grammar Tokens TokenLemmas Untyped.
From Coq Require Import Lia.

Section with_decimal.
Context {DL : DecimalLib}.

Section forget.
Context (full : bool).
Definition fh : class_header -> class_header := if full then header_untyped else header_objects.
Definition f : token -> token := forget fh.

Lemma fh_id h : ch_object_id (fh h) = ch_object_id h. Proof. unfold fh. by destruct full. Qed.
Lemma fh_name h : ch_name (fh h) = ch_name h. Proof. unfold fh. by destruct full. Qed.
Lemma fh_names h : ch_member_names (fh h) = ch_member_names h. Proof. unfold fh. by destruct full. Qed.
Lemma fh_library h : ch_library (fh h) = ch_library h. Proof. unfold fh. by destruct full. Qed.

(** What is needed of the rest of the message. *)
Definition ok (ts : list token) : Prop := full = true -> spaced ts /\ types_complete ts.
Lemma ok_tail t ts : ok (t :: ts) -> ok ts.
Proof.
  intros H Hf. destruct (H Hf) as [Hs Hc]. split.
  - intros before a b after ->. by apply (Hs (t :: before) a b after).
  - intros h ks Hin. apply Hc. by right.
Qed.

Lemma lib_f e i e1 i1 : t_lib e i e1 i1 -> t_lib e (map f i) e1 (map f i1).
Proof.
  intros [id name ts H|ts H]; [by constructor|]. constructor. destruct ts as [|t ts]; [done|]. by destruct t.
Qed.
Lemma lib_ok e i e1 i1 : t_lib e i e1 i1 -> ok i -> ok i1.
Proof. intros [id name ts H|ts H]; [apply ok_tail|done]. Qed.
(** After an optional library, no library. *)
Lemma lib_none e t ts : ~ is_library t -> t_lib e (t :: ts) e (t :: ts).
Proof. intros H. constructor. by destruct t. Qed.

Lemma simple_f k it t : simple_token k it t -> simple_token K_Any it (f t).
Proof. destruct k, t; cbn; try done; intros [H _]; done. Qed.
Lemma simple_lib k it t : simple_token k it t -> ~ is_library (f t).
Proof. destruct k, t; cbn; tauto. Qed.
Lemma simple_lib0 k it t : simple_token k it t -> ~ is_library t.
Proof. destruct k, t; cbn; tauto. Qed.

(** The library in front of the class record may be taken before. *)
Lemma class_split e i id o e' i' : t_class e i id o e' i' ->
  exists e1 i1, t_lib e i e1 i1 /\ t_class e1 i1 id o e' i'.
Proof.
  intros [e0 i0 e1 i1 h lib its e2 i2 vs e3 i3 Hl Hc Hi Hr]. exists e1, (Tk_class h :: i1). split; [done|].
  eapply T_class; [apply lib_none; by intros []|done..].
Qed.
Lemma any_object e i it e' i' : t_member K_Any e i it e' i' -> t_member K_Object e i it e' i'.
Proof.
  intros H. inversion H as [k0 e0 i0 e1 t i1 it0 Hl Hk Hs|k0 e0 i0 e1 i1 id o e2 i2 Hl Hk Hc|k0 e0 i0 e1 i1 it0 e2 i2 [?|?] Hl Hm]; subst; [..|done|done].
  - eapply T_nested; [by left|exact Hl|]. eapply T_simple; [apply lib_none|exact Hk|exact Hs]. by eapply simple_lib0.
  - eapply T_nested; [by left|exact Hl|]. destruct (class_split _ _ _ _ _ _ Hc) as (e3 & i3 & Hl' & Hc').
    eapply T_inline; [exact Hl'|done|exact Hc'].
Qed.

(** A member of any kind, as a member of kind Object, or without kind. *)
Definition as_member (k : kind) (e : env) (i : list token) (it : item) (e' : env) (i' : list token) : Prop :=
  t_member K_Object e i it e' i' /\ (full = true -> t_member K_Any e i it e' i')
  /\ (k = K_Any \/ k = K_StringArray -> t_member k e i it e' i').
Definition as_items (ks : list kind) (e : env) (i : list token) (its : list item) (e' : env) (i' : list token) : Prop :=
  t_items (map (fun _ => K_Object) ks) e i its e' i' /\ (full = true -> t_items (map (fun _ => K_Any) ks) e i its e' i')
  /\ (Forall (fun k => k = K_Any \/ k = K_StringArray) ks -> t_items ks e i its e' i').

Lemma lib_after id name e i e' j : spaced (Tk_library id name :: i) -> t_lib e (map f i) e' j -> e' = e /\ j = map f i.
Proof.
  intros Hsp Hl. inversion Hl as [id' name' ts H E|]; [|done]. exfalso. destruct i as [|t i]; [done|].
  apply (Hsp [] (Tk_library id name) t i); [done|done|]. cbn in E. by destruct t.
Qed.
Lemma mut_f :
  (forall e i id o e' i', t_class e i id o e' i' -> ok i -> t_class e (map f i) id o e' (map f i') /\ ok i')
  /\ (forall k e i it e' i', t_member k e i it e' i' -> ok i -> as_member k e (map f i) it e' (map f i') /\ ok i')
  /\ (forall ks e i its e' i', t_items ks e i its e' i' -> ok i -> as_items ks e (map f i) its e' (map f i') /\ ok i')
  /\ (forall its e i vs e' i', t_resolve its e i vs e' i' -> ok i -> t_resolve its e (map f i) vs e' (map f i') /\ ok i')
  /\ (forall e i id v e' i', t_record e i id v e' i' -> ok i -> t_record e (map f i) id v e' (map f i') /\ ok i').
Proof.
  apply t_mut_ind.
  - intros e i e1 i1 h lib its e2 i2 vs e3 i3 Hl Hlib _ IHi _ IHr Hok.
    pose proof (lib_ok _ _ _ _ Hl Hok) as Hok1. pose proof (ok_tail _ _ Hok1) as Hok2.
    destruct (IHi Hok2) as [(HO & HA & HS) Hok3]. destruct (IHr Hok3) as [Hr Hok4]. split; [|done].
    apply lib_f in Hl. cbn [map f forget] in Hl.
    rewrite <- (fh_id h), <- (fh_name h), <- (fh_names h).
    eapply T_class; [exact Hl| | |exact Hr].
    + unfold class_library in *. by rewrite fh_library.
    + unfold member_kinds. unfold fh in *. destruct full eqn:Ef.
      * cbn [ch_types header_untyped ch_member_names]. specialize (HA eq_refl).
        assert (replicate (length (ch_member_names h)) K_Any = map (fun _ => K_Any) (member_kinds h)) as ->; [|exact HA].
        unfold member_kinds. destruct (ch_types h) as [ks|] eqn:Et.
        -- destruct (Hok1 Ef) as [_ Hc]. rewrite <- (Hc h ks) by (done || by left). clear. induction ks; cbn; congruence.
        -- generalize (length (ch_member_names h)). intros n. induction n; cbn; congruence.
      * unfold member_kinds in *. cbn [ch_types header_objects ch_member_names]. destruct (ch_types h) as [ks|]; cbn [option_map].
        -- exact HO.
        -- apply HS. apply Forall_replicate. by left.
  - intros k e i e1 t i1 it Hl Hk Hs Hok. split; [|by apply (ok_tail t), (lib_ok _ _ _ _ Hl)].
    apply lib_f in Hl. cbn [map] in Hl.
    assert (t_member K_Any e (map f i) it e1 (map f i1)) as HA by (eapply T_simple; [exact Hl|done|by eapply simple_f]).
    split; [by apply any_object|]. split; [done|]. intros [->| ->]; [done|]. eapply T_simple; [exact Hl|done|]. by destruct t.
  - intros k e i e1 i1 id o e2 i2 Hl Hk _ IH Hok. destruct (IH (lib_ok _ _ _ _ Hl Hok)) as [Hc Hok2]. split; [|done].
    apply lib_f in Hl.
    assert (t_member K_Any e (map f i) (It_Value (VObject o)) e2 (map f i2)) as HA by (by eapply T_inline).
    split; [by apply any_object|]. split; [done|]. intros [->| ->]; [done|]. done.
  - intros k e i e1 i1 it e2 i2 Hk Hl _ IH Hok. destruct (IH (lib_ok _ _ _ _ Hl Hok)) as [(_ & _ & HA) Hok2]. split; [|done].
    specialize (HA (or_introl eq_refl)). pose proof (lib_f _ _ _ _ Hl) as Hl'. split; [|split].
    + eapply T_nested; [by left|exact Hl'|exact HA].
    + intros Hf. destruct (Hok Hf) as [Hsp _]. inversion Hl as [idl name ts Hn|ts Hn]; subst; [|done].
      inversion HA as [k0 e0 i0 e1' t i1' it0 Hl2 Hk0 Hs|k0 e0 i0 e1' i1' id o e2' i2' Hl2 Hk0 Hc|k0 e0 i0 e1' i1' it0 e2' i2' [?|?] Hl2 Hm]; subst; [..|done|done].
      * apply (lib_after idl name) in Hl2 as [-> E]; [|done]. eapply T_simple; [|exact Hk0|exact Hs]. cbn [map f forget]. rewrite <- E. by apply T_lib_some.
      * apply (lib_after idl name) in Hl2 as [-> ->]; [|done]. eapply T_inline; [|exact Hk0|exact Hc]. cbn [map f forget]. by apply T_lib_some.
    + intros [->| ->]; by destruct Hk.
  - intros e i Hok. split; [|done]. split; [constructor|]. split; [intros _; constructor|intros _; constructor].
  - intros k ks e i it e1 i1 its e2 i2 _ IH1 _ IH2 Hok. destruct (IH1 Hok) as [(HO & HA & HS) Hok1].
    destruct (IH2 Hok1) as [(HOs & HAs & HSs) Hok2]. split; [|done]. split; [by eapply T_items_cons|]. split.
    + intros Hf. eapply T_items_cons; [by apply HA|by apply HAs].
    + intros [Hk Hks]%Forall_cons. eapply T_items_cons; [by apply HS|by apply HSs].
  - intros e i Hok. split; [constructor|done].
  - intros v its e i vs e' i' _ IH Hok. destruct (IH Hok) as [H Hok1]. split; [by constructor|done].
  - intros n its e i vs e' i' _ IH Hok. destruct (IH Hok) as [H Hok1]. split; [by constructor|done].
  - intros id v its e i vs e' i' Hv _ IH Hok. destruct (IH Hok) as [H Hok1]. split; [by apply T_res_known|done].
  - intros id v its e i e1 i1 vs e' i' Hv _ IH1 _ IH2 Hok. destruct (IH1 Hok) as [H1 Hok1]. destruct (IH2 Hok1) as [H2 Hok2].
    split; [by eapply T_res_next|done].
  - intros e i id o e' i' _ IH Hok. destruct (IH Hok) as [H Hok1]. split; [by constructor|done].
  - intros e i id s Hok. split; [constructor|by eapply ok_tail].
  - intros e i id p vs Hok. split; [constructor|by eapply ok_tail].
  - intros e i id len its e1 i1 vs e2 i2 _ IHi Hf _ IHr Hok. destruct (IHi (ok_tail _ _ Hok)) as [(_ & _ & HS) Hok1].
    destruct (IHr Hok1) as [Hr Hok2]. split; [|done]. eapply T_rec_objects; [|exact Hf|exact Hr].
    apply HS. apply Forall_replicate. by left.
  - intros e i id len its e1 i1 vs e2 i2 _ IHi Hf _ IHr Hok. destruct (IHi (ok_tail _ _ Hok)) as [(_ & _ & HS) Hok1].
    destruct (IHr Hok1) as [Hr Hok2]. split; [|done]. eapply T_rec_strings; [|exact Hf|exact Hr].
    apply HS. apply Forall_replicate. by right.
  - intros e i id bat lengths bounds k its e1 i1 vs e2 i2 out Ho _ IHi _ IHr Hs Hok.
    destruct (IHi (ok_tail _ _ Hok)) as [(HO & _) Hok1]. destruct (IHr Hok1) as [Hr Hok2]. split; [|done].
    cbn [map f forget]. eapply T_rec_array; [done| |exact Hr|done].
    rewrite fmap_replicate in HO. exact HO.
Qed.
Lemma objects_f e i e' i1 : t_objects e i e' i1 -> ok i -> t_objects e (map f i) e' (map f i1) /\ ok i1.
Proof.
  induction 1 as [|e ts id v e1 ts1 e2 ts2 H1 _ IH]; intros Hok; [split; [constructor|done]|].
  destruct (proj2 (proj2 (proj2 (proj2 mut_f))) _ _ _ _ _ _ H1 Hok) as [H2 Hok1].
  destruct (IH Hok1) as [H3 Hok2]. split; [|done]. by econstructor.
Qed.
Lemma call_array_f root e i ca e' i1 : t_call_array root e i ca e' i1 -> ok i ->
  t_call_array root e (map f i) ca e' (map f i1) /\ ok i1.
Proof.
  destruct mut_f as (_ & _ & Pi & Pr & _).
  intros [Hn|e1 id l ts1 its e2 ts2 vs e3 ts3 Hl -> Hi Hf H1] Hok.
  - split; [|done]. constructor. destruct i as [|t i]; [done|]. by destruct t.
  - pose proof (ok_tail _ _ (lib_ok _ _ _ _ Hl Hok)) as Hok1. destruct (Pi _ _ _ _ _ _ Hi Hok1) as [(_ & _ & HS) Hok2].
    destruct (Pr _ _ _ _ _ _ H1 Hok2) as [Hr Hok3]. split; [|done]. apply lib_f in Hl. eapply T_ca_some; [exact Hl|done| |exact Hf|exact Hr].
    apply HS. apply Forall_replicate. by left.
Qed.
Lemma message_f root i m : t_message root i m -> ok i -> t_message root (map f i) m.
Proof.
  intros [ts e v Ho H1|ts e1 ts1 m' e2 ts2 e3 Ho Hm Ho'] Hok.
  - destruct (objects_f _ _ _ _ Ho Hok) as [Ho1 _]. by econstructor.
  - destruct (objects_f _ _ _ _ Ho Hok) as [Ho1 Hok1].
    destruct Hm as [flags name type ctx inl ts1 ca args e' i' Hc Ha|flags ret ctx inl ts1 ca args e' i' Hc Ha].
    all: destruct (call_array_f _ _ _ _ _ _ Hc (ok_tail _ _ Hok1)) as [Hc' Hok2].
    all: destruct (objects_f _ _ _ _ Ho' Hok2) as [Ho2 _].
    all: eapply T_msg_method; [exact Ho1| |exact Ho2]; by econstructor.
Qed.
End forget.
End with_decimal.
