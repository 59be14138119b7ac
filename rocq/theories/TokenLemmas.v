(** * TokenLemmas: sequences of tokens and the grammar; renaming. *)
From Verif Require Import Base Value Wire Grammar Tokens.

Section with_decimal.
Context {DL : DecimalLib}.
Implicit Types (e : env) (i : bytes) (ts : list token).

(** ** Tokens and bytes *)

Definition spells (ts : list token) (i : bytes) : Prop :=
  exists b, e_list e_token ts b /\ i = b ++ [x0b].

Lemma spells_cons t ts i :
  spells (t :: ts) i -> exists b i', e_token t b /\ i = b ++ i' /\ spells ts i'.
Proof.
  intros (b & Hl & ->). inversion Hl; subst.
  eexists _, _. split; [done|]. split; [by rewrite <- app_assoc|]. by eexists.
Qed.
Lemma spells_cons_2 t b ts i : e_token t b -> spells ts i -> spells (t :: ts) (b ++ i).
Proof.
  intros Ht (b' & Hl & ->). exists (b ++ b'). split; [by constructor|]. by rewrite app_assoc.
Qed.

Lemma undisturbed_tail t ts : undisturbed (t :: ts) -> undisturbed ts.
Proof. intros H before v after b -> Hl. eapply (H (t :: before)); [done|exact Hl]. Qed.

Definition is_value (t : token) : bool := match t with Tk_value _ => true | _ => false end.
Definition token_code (t : token) (c : byte) : Prop :=
  match t with
  | Tk_library _ _ => c = x0c
  | Tk_class h => c = x02 \/ c = x03 \/ c = x04 \/ c = x05
  | Tk_value _ => True
  | Tk_typed _ => c = x08
  | Tk_reference _ => c = x09
  | Tk_string _ _ => c = x06
  | Tk_nulls _ => c = x0a \/ c = x0d \/ c = x0e
  | Tk_objects _ _ => c = x10
  | Tk_strings _ _ => c = x11
  | Tk_prims _ _ _ => c = x0f
  | Tk_array _ _ _ _ _ => c = x07
  | Tk_call _ _ _ _ _ => c = x15
  | Tk_return _ _ _ _ => c = x16
  end.

Lemma e_token_code t b : e_token t b -> is_value t = false -> exists c r, b = c :: r /\ token_code t c.
Proof.
  destruct t as [| h | | | | | | | | | | |]; cbn; intros H ?; try done.
  - destruct H as (? & ? & _ & _ & ->). eauto.
  - destruct H as (? & ? & ? & ? & ? & _ & _ & _ & _ & _ & ->). eexists _, _. split; [done|].
    destruct (ch_types h), (ch_library h); cbn; tauto.
  - destruct H as (? & ? & _ & _ & ->). eauto.
  - destruct H as (? & _ & ->). eauto.
  - destruct H as (? & ? & _ & _ & ->). eauto.
  - destruct H as [(_ & ->)|[(_ & ->)|(_ & ->)]]; eexists _, _; split; try reflexivity; tauto.
  - destruct H as (? & ? & _ & _ & ->). eauto.
  - destruct H as (? & ? & _ & _ & ->). eauto.
  - destruct H as (? & ? & (? & ? & _ & _ & ->) & _ & _ & ->). cbn. eauto.
  - destruct H as (? & ? & ? & ? & ? & _ & _ & _ & _ & _ & ->). eauto.
  - destruct H as (? & ? & ? & ? & ? & _ & _ & _ & _ & _ & ->). eauto.
  - destruct H as (? & ? & ? & ? & _ & _ & _ & _ & ->). eauto.
Qed.

Lemma not_12 c r : c <> x0c -> no_library (c :: r).
Proof. by destruct c. Qed.

Lemma spells_no_library ts i :
  spells ts i -> undisturbed ts -> match ts with Tk_library _ _ :: _ => False | _ => True end ->
  no_library i.
Proof.
  intros Hs Hu Hn. destruct ts as [|t ts].
  - destruct Hs as (b & Hl & ->). by inversion Hl; subst.
  - destruct (is_value t) eqn:Hv.
    + destruct t as [| |v| | | | | | | | | |]; try done. destruct Hs as (b & Hl & ->).
      by apply (Hu [] v ts b).
    + apply spells_cons in Hs as (b & i' & Ht & -> & _).
      apply e_token_code in Ht as (c & r & -> & Hc); [|done]. cbn [app]. apply not_12. intros ->.
      destruct t; cbn in Hc; try done; naive_solver.
Qed.

Lemma no_library_head id name ts i : spells (Tk_library id name :: ts) i -> ~ no_library i.
Proof.
  intros Hs Hn. apply spells_cons in Hs as (b & i' & (b1 & b2 & Hid & Hs & ->) & -> & _).
  cbn in Hn. destruct Hn as (id' & b' & r' & Hid' & Heq & Hn). destruct Hn.
  destruct Hid as [? ->], Hid' as [? ->]. rewrite <- app_assoc in Heq.
  apply app_inj_1 in Heq as [_ <-]; [|by cbn [enc_uint]]. by exists name, b2, i'.
Qed.

(** ** From tokens to the grammar *)

Definition good (ts : list token) (i : bytes) : Prop := spells ts i /\ undisturbed ts.
Lemma good_cons t ts i :
  good (t :: ts) i -> exists b i', e_token t b /\ i = b ++ i' /\ good ts i'.
Proof.
  intros [Hs Hu]. apply spells_cons in Hs as (b & i' & ? & ? & ?).
  exists b, i'. do 3 (split; [done|]). by eapply undisturbed_tail.
Qed.

Lemma lib_t2g e ts e' ts' i : t_lib e ts e' ts' -> good ts i -> exists i', good ts' i' /\ g_lib e i e' i'.
Proof.
  intros H Hg. destruct H as [id name ts Hid|ts Hn].
  - apply good_cons in Hg as (b & i' & Ht & -> & Hg). exists i'. split; [done|]. by constructor.
  - exists i. split; [done|]. constructor. destruct Hg. by eapply spells_no_library.
Qed.

Lemma simple_t2g k it t b : simple_token k it t -> e_token t b -> simple_item k it b.
Proof.
  intros H Hb. destruct k, t; cbn in H, Hb; try done; subst; cbn.
  all: unfold typed_item, ref_item, str_item, null_item.
  all: try (naive_solver; fail).
Qed.

Lemma mut_t2g :
  (forall e ts id o e' ts', t_class e ts id o e' ts' ->
     forall i, good ts i -> exists i', good ts' i' /\ g_class e i id o e' i')
  /\ (forall k e ts it e' ts', t_member k e ts it e' ts' ->
     forall i, good ts i -> exists i', good ts' i' /\ g_member k e i it e' i')
  /\ (forall ks e ts its e' ts', t_items ks e ts its e' ts' ->
     forall i, good ts i -> exists i', good ts' i' /\ g_items ks e i its e' i')
  /\ (forall its e ts vs e' ts', t_resolve its e ts vs e' ts' ->
     forall i, good ts i -> exists i', good ts' i' /\ g_resolve its e i vs e' i')
  /\ (forall e ts id v e' ts', t_record e ts id v e' ts' ->
     forall i, good ts i -> exists i', good ts' i' /\ g_record e i id v e' i').
Proof.
  apply t_mut_ind.
  - intros e ts e1 ts1 h lib its e2 ts2 vs e3 ts3 Hl Hlib _ IHi _ IHr i Hg.
    eapply lib_t2g in Hl as (i1 & Hg1 & Hl); [|done].
    apply good_cons in Hg1 as (b & i2 & Ht & -> & Hg2).
    apply IHi in Hg2 as (i3 & Hg3 & Hi). apply IHr in Hg3 as (i4 & Hg4 & Hr).
    exists i4. split; [done|]. by eapply G_class.
  - intros k e ts e1 t ts1 it Hl Hk Hst i Hg.
    eapply lib_t2g in Hl as (i1 & Hg1 & Hl); [|done].
    apply good_cons in Hg1 as (b & i2 & Ht & -> & Hg2). exists i2. split; [done|].
    eapply G_simple; [done..|]. by eapply simple_t2g.
  - intros k e ts e1 ts1 id o e2 ts2 Hl Hk _ IH i Hg.
    eapply lib_t2g in Hl as (i1 & Hg1 & Hl); [|done]. apply IH in Hg1 as (i2 & Hg2 & Hc).
    exists i2. split; [done|]. by eapply G_inline.
  - intros k e ts e1 ts1 it e2 ts2 Hk Hl _ IH i Hg.
    eapply lib_t2g in Hl as (i1 & Hg1 & Hl); [|done]. apply IH in Hg1 as (i2 & Hg2 & Hc).
    exists i2. split; [done|]. by eapply G_nested.
  - intros e ts i Hg. exists i. split; [done|constructor].
  - intros k ks e ts it e1 ts1 its e2 ts2 _ IH1 _ IH2 i Hg.
    apply IH1 in Hg as (i1 & Hg & H1). apply IH2 in Hg as (i2 & Hg & H2).
    exists i2. split; [done|]. by eapply G_items_cons.
  - intros e ts i Hg. exists i. split; [done|constructor].
  - intros v its e ts vs e' ts' _ IH i Hg. apply IH in Hg as (i1 & Hg & H1).
    exists i1. split; [done|]. by constructor.
  - intros n its e ts vs e' ts' _ IH i Hg. apply IH in Hg as (i1 & Hg & H1).
    exists i1. split; [done|]. by constructor.
  - intros id v its e ts vs e' ts' Hv _ IH i Hg. apply IH in Hg as (i1 & Hg & H1).
    exists i1. split; [done|]. by apply G_res_known.
  - intros id v its e ts e1 ts1 vs e' ts' Hv _ IH1 _ IH2 i Hg.
    apply IH1 in Hg as (i1 & Hg & H1). apply IH2 in Hg as (i2 & Hg & H2).
    exists i2. split; [done|]. by eapply G_res_next.
  - intros e ts id o e' ts' _ IH i Hg. apply IH in Hg as (i1 & Hg & H1).
    exists i1. split; [done|]. by constructor.
  - intros e ts id s i Hg. apply good_cons in Hg as (b & i' & Ht & -> & Hg).
    exists i'. split; [done|]. by constructor.
  - intros e ts id p vs i Hg. apply good_cons in Hg as (b & i' & Ht & -> & Hg).
    exists i'. split; [done|]. by eapply G_rec_prims.
  - intros e ts id len its e1 ts1 vs e2 ts2 _ IH1 Hf _ IH2 i Hg.
    apply good_cons in Hg as (b & i' & Ht & -> & Hg).
    apply IH1 in Hg as (i1 & Hg & H1). apply IH2 in Hg as (i2 & Hg & H2).
    exists i2. split; [done|]. by eapply G_rec_objects.
  - intros e ts id len its e1 ts1 vs e2 ts2 _ IH1 Hf _ IH2 i Hg.
    apply good_cons in Hg as (b & i' & Ht & -> & Hg).
    apply IH1 in Hg as (i1 & Hg & H1). apply IH2 in Hg as (i2 & Hg & H2).
    exists i2. split; [done|]. by eapply G_rec_strings.
  - intros e ts id bat lengths bounds k its e1 ts1 vs e2 ts2 out Ho _ IH1 _ IH2 Hs i Hg.
    apply good_cons in Hg as (b & i' & Ht & -> & Hg).
    apply IH1 in Hg as (i1 & Hg & H1). apply IH2 in Hg as (i2 & Hg & H2).
    exists i2. split; [done|]. by eapply G_rec_array.
Qed.
Definition items_t2g := proj1 (proj2 (proj2 mut_t2g)).
Definition resolve_t2g := proj1 (proj2 (proj2 (proj2 mut_t2g))).
Definition record_t2g := proj2 (proj2 (proj2 (proj2 mut_t2g))).

Lemma objects_t2g e ts e' ts' :
  t_objects e ts e' ts' -> forall i, good ts i -> exists i', good ts' i' /\ g_objects e i e' i'.
Proof.
  induction 1 as [e ts|e ts id v e1 ts1 e2 ts2 Hr _ IH]; intros i Hg.
  - exists i. split; [done|constructor].
  - eapply record_t2g in Hr as (i1 & Hg1 & Hr); [|done]. apply IH in Hg1 as (i2 & Hg2 & Ho).
    exists i2. split; [done|]. by econstructor.
Qed.

(** Records do not start with a bare value. *)
Definition starts_record (ts : list token) : Prop :=
  match ts with t :: _ => is_value t = false | [] => True end.
Lemma lib_starts e ts e' t ts' : t_lib e ts e' (t :: ts') -> is_value t = false -> starts_record ts.
Proof. inversion 1; subst; done. Qed.
Lemma record_starts e ts id v e' ts' : t_record e ts id v e' ts' -> starts_record ts.
Proof.
  inversion 1 as [? ? ? ? ? ? Hc| | | | |]; subst; try done.
  inversion Hc; subst. by eapply lib_starts.
Qed.
Lemma objects_starts e ts e' : t_objects e ts e' [] -> starts_record ts.
Proof. inversion 1; subst; [done|]. by eapply record_starts. Qed.

Lemma call_array_t2g root e ts ca e' ts' i :
  t_call_array root e ts ca e' ts' -> (starts_record ts' ) -> good ts i ->
  exists i', good ts' i' /\ g_call_array root e i ca e' i'.
Proof.
  intros H Hst Hg. destruct H as [Hn|e1 id len ts1 its e2 ts2 vs e3 ts3 Hl -> Hi Hf Hr].
  - exists i. split; [done|]. constructor. destruct ts as [|t ts].
    + destruct Hg as [(b & Hl & ->) _]. by inversion Hl; subst.
    + apply good_cons in Hg as (b & i' & Ht & -> & _). cbn in Hst.
      apply e_token_code in Ht as (c & r & -> & Hc); [|done]. cbn [app].
      assert (c <> x0c /\ c <> x10) as [? ?].
      { destruct t; cbn in Hc; try done; naive_solver. }
      by destruct c.
  - eapply lib_t2g in Hl as (i1 & Hg1 & Hl); [|done].
    apply good_cons in Hg1 as (b & i2 & Ht & -> & Hg2).
    eapply items_t2g in Hi as (i3 & Hg3 & Hi); [|done].
    eapply resolve_t2g in Hr as (i4 & Hg4 & Hr); [|done].
    exists i4. split; [done|]. by eapply G_ca_some.
Qed.

Lemma good_end i : good [] i -> i = [x0b].
Proof. intros [(b & Hl & ->) _]. by inversion Hl; subst. Qed.

Lemma message_t2g root ts m W :
  t_message root ts m -> undisturbed ts -> message_bytes root ts W -> g_message W m.
Proof.
  intros H Hu (hb & b & Hh & Hl & ->). assert (good ts (b ++ [x0b])) as Hg by (split; [by eexists|done]).
  destruct H as [ts e v Ho Hr|ts e1 ts1 m e2 ts2 e3 Ho Hm Ho'].
  - eapply objects_t2g in Ho as (i & Hg' & Ho); [|done]. apply good_end in Hg' as ->.
    by eapply G_msg_value.
  - eapply objects_t2g in Ho as (i & Hg' & Ho); [|done].
    assert (exists i2, good ts2 i2 /\ g_method root e1 i m e2 i2) as (i2 & Hg2 & Hm').
    { apply objects_starts in Ho'. destruct Hm.
      all: apply good_cons in Hg' as (b2 & i4 & Ht & -> & Hg').
      all: eapply call_array_t2g in Hg' as (i2 & Hg2 & Hc); [|done..].
      all: exists i2; split; [done|].
      - by eapply G_call.
      - by eapply G_return. }
    eapply objects_t2g in Ho' as (i3 & Hg3 & Ho'); [|done]. apply good_end in Hg3 as ->.
    by eapply G_msg_method.
Qed.

(** ** From the grammar to tokens *)

Lemma e_list_app {A} (E : A -> bytes -> Prop) l l' b b' :
  e_list E l b -> e_list E l' b' -> e_list E (l ++ l') (b ++ b').
Proof.
  intros Hl Hl'. induction Hl as [|a l b1 b2 Ha _ IH]; [done|].
  cbn. rewrite <- app_assoc. by constructor.
Qed.

Lemma spells_app pre b ts i : e_list e_token pre b -> spells ts i -> spells (pre ++ ts) (b ++ i).
Proof.
  intros Hl (b' & Hl' & ->). exists (b ++ b'). split; [by apply e_list_app|]. by rewrite app_assoc.
Qed.

(** The bytes between two positions are tokens with some meaning. *)
Definition took (i i' : bytes) (P : list token -> list token -> Prop) : Prop :=
  exists pre b, i = b ++ i' /\ e_list e_token pre b /\ forall ts, spells ts i' -> P (pre ++ ts) ts.

Lemma took_refl i (P : list token -> list token -> Prop) : (forall ts, spells ts i -> P ts ts) -> took i i P.
Proof. intros H. exists [], []. split; [done|]. split; [constructor|done]. Qed.
Lemma took_bind i i1 i2 P Q (R : list token -> list token -> Prop) :
  took i i1 P -> took i1 i2 Q -> (forall a b c, P a b -> Q b c -> R a c) -> took i i2 R.
Proof.
  intros (p1 & b1 & -> & Hl1 & H1) (p2 & b2 & -> & Hl2 & H2) H.
  exists (p1 ++ p2), (b1 ++ b2). split; [by rewrite app_assoc|]. split; [by apply e_list_app|].
  intros ts Hs. rewrite <- app_assoc. eapply H; [apply H1; by apply spells_app|by apply H2].
Qed.
Lemma took_comp i i1 i2 P Q :
  took i i1 P -> took i1 i2 Q -> took i i2 (fun a c => exists b, P a b /\ Q b c).
Proof. intros H1 H2. eapply took_bind; [exact H1|exact H2|]. eauto. Qed.
Lemma took_mono i i' (P Q : list token -> list token -> Prop) :
  took i i' P -> (forall a b, P a b -> Q a b) -> took i i' Q.
Proof.
  intros (p & b & -> & Hl & H) HPQ. exists p, b. do 2 (split; [done|]). intros ts Hs. by apply HPQ, H.
Qed.
Lemma took_token t b i : e_token t b -> took (b ++ i) i (fun a ts => a = t :: ts).
Proof.
  intros Ht. exists [t], b. split; [done|]. split; [|done].
  rewrite <- (app_nil_r b). by repeat constructor.
Qed.

Lemma lib_g2t e i e' i' : g_lib e i e' i' -> took i i' (fun a b => t_lib e a e' b).
Proof.
  destruct 1 as [id name bs i Hb Hid|i Hn].
  - eapply took_mono; [by eapply (took_token (Tk_library id name))|]. cbn. intros ? ? ->. by constructor.
  - apply took_refl. intros ts Hs. constructor.
    destruct ts as [|[] ts]; try done. by eapply no_library_head.
Qed.

Lemma simple_g2t k it bs : simple_item k it bs -> exists t, e_token t bs /\ simple_token k it t.
Proof.
  assert (typed_item it bs -> exists v, it = It_Value v /\ e_token (Tk_typed v) bs) as Hty.
  { intros (v & ? & ?). by exists v. }
  assert (ref_item it bs -> exists id, it = It_Ref id /\ e_token (Tk_reference id) bs) as Hr.
  { intros (v & ? & ?). by exists v. }
  assert (str_item it bs -> exists id s, it = It_Value (VString s) /\ e_token (Tk_string id s) bs) as Hs.
  { intros (id & s & ? & ?). by exists id, s. }
  assert (null_item it bs -> exists n, it = It_Nulls n /\ e_token (Tk_nulls n) bs) as Hn.
  { intros (v & ? & ?). by exists v. }
  destruct k; cbn; intros H; try done.
  - destruct H as [H|[H|[H|H]]].
    + apply Hty in H as (v & -> & H). by eexists.
    + apply Hr in H as (v & -> & H). by eexists.
    + apply Hs in H as (id & v & -> & H). by eexists.
    + apply Hn in H as (v & -> & H). by eexists.
  - destruct H as (v & -> & ? & ?). by exists (Tk_value v).
  - apply Hs in H as (id & v & -> & H). by eexists.
  - apply Hn in H as (v & -> & H). by eexists.
  - apply Hn in H as (v & -> & H). by eexists.
  - destruct H as [H|[H|H]].
    + apply Hs in H as (id & v & -> & H). by eexists.
    + apply Hr in H as (v & -> & H). by eexists.
    + apply Hn in H as (v & -> & H). by eexists.
  - apply Hr in H as (v & -> & H). by eexists.
Qed.

Lemma mut_g2t :
  (forall e i id o e' i', g_class e i id o e' i' -> took i i' (fun a b => t_class e a id o e' b))
  /\ (forall k e i it e' i', g_member k e i it e' i' -> took i i' (fun a b => t_member k e a it e' b))
  /\ (forall ks e i its e' i', g_items ks e i its e' i' -> took i i' (fun a b => t_items ks e a its e' b))
  /\ (forall its e i vs e' i', g_resolve its e i vs e' i' -> took i i' (fun a b => t_resolve its e a vs e' b))
  /\ (forall e i id v e' i', g_record e i id v e' i' -> took i i' (fun a b => t_record e a id v e' b)).
Proof.
  apply g_mut_ind.
  - intros e i e1 bs i1 h lib its e2 i2 vs e3 i3 Hl%lib_g2t Hh Hlib _ IHi _ IHr.
    eapply took_bind; [exact Hl|eapply took_comp; [by eapply (took_token (Tk_class h))|
      eapply took_comp; [exact IHi|exact IHr]]|].
    cbn. intros a b c Ha (b' & -> & d & Hi & Hr). by eapply T_class.
  - intros k e i e1 bs i1 it Hl%lib_g2t Hk Hs. apply simple_g2t in Hs as (t & Ht & Hs).
    eapply took_bind; [exact Hl|by eapply (took_token t)|]. cbn. intros a b c Ha ->. by eapply T_simple.
  - intros k e i e1 i1 id o e2 i2 Hl%lib_g2t Hk _ IH.
    eapply took_bind; [exact Hl|exact IH|]. cbn. intros a b c Ha Hb. by eapply T_inline.
  - intros k e i e1 i1 it e2 i2 Hk Hl%lib_g2t _ IH.
    eapply took_bind; [exact Hl|exact IH|]. cbn. intros a b c Ha Hb. by eapply T_nested.
  - intros e i. apply took_refl. intros. constructor.
  - intros k ks e i it e1 i1 its e2 i2 _ IH1 _ IH2.
    eapply took_bind; [exact IH1|exact IH2|]. cbn. intros a b c Ha Hb. by eapply T_items_cons.
  - intros e i. apply took_refl. intros. constructor.
  - intros v its e i vs e' i' _ IH. eapply took_mono; [exact IH|]. cbn. intros. by constructor.
  - intros n its e i vs e' i' _ IH. eapply took_mono; [exact IH|]. cbn. intros. by constructor.
  - intros id v its e i vs e' i' Hv _ IH. eapply took_mono; [exact IH|]. cbn. intros. by apply T_res_known.
  - intros id v its e i e1 i1 vs e' i' Hv _ IH1 _ IH2.
    eapply took_bind; [exact IH1|exact IH2|]. cbn. intros. by eapply T_res_next.
  - intros e i id o e' i' _ IH. eapply took_mono; [exact IH|]. cbn. intros. by constructor.
  - intros e i id s bs Hb. eapply took_mono; [by eapply (took_token (Tk_string id s))|].
    cbn. intros ? ? ->. constructor.
  - intros e i id p vs bs Hb. eapply took_mono; [by eapply (took_token (Tk_prims id p vs))|].
    cbn. intros ? ? ->. constructor.
  - intros e i id len bs its e1 i1 vs e2 i2 Hb _ IH1 Hf _ IH2.
    eapply took_bind; [by eapply (took_token (Tk_objects id len))|eapply took_comp; [exact IH1|exact IH2]|].
    cbn. intros a b c -> (d & ? & ?). by eapply T_rec_objects.
  - intros e i id len bs its e1 i1 vs e2 i2 Hb _ IH1 Hf _ IH2.
    eapply took_bind; [by eapply (took_token (Tk_strings id len))|eapply took_comp; [exact IH1|exact IH2]|].
    cbn. intros a b c -> (d & ? & ?). by eapply T_rec_strings.
  - intros e i id bat lengths bounds k bs its e1 i1 vs e2 i2 out Hb Ho _ IH1 _ IH2 Hs.
    eapply took_bind; [by eapply (took_token (Tk_array id bat lengths bounds k))|
      eapply took_comp; [exact IH1|exact IH2]|].
    cbn. intros a b c -> (d & ? & ?). by eapply T_rec_array.
Qed.
Definition items_g2t := proj1 (proj2 (proj2 mut_g2t)).
Definition resolve_g2t := proj1 (proj2 (proj2 (proj2 mut_g2t))).
Definition record_g2t := proj2 (proj2 (proj2 (proj2 mut_g2t))).

Lemma objects_g2t e i e' i' : g_objects e i e' i' -> took i i' (fun a b => t_objects e a e' b).
Proof.
  induction 1 as [e i|e i id v e1 i1 e2 i2 Hr _ IH].
  - apply took_refl. intros. constructor.
  - apply record_g2t in Hr. eapply took_bind; [exact Hr|exact IH|]. cbn. intros. by econstructor.
Qed.

Lemma call_array_g2t root e i ca e' i' :
  g_call_array root e i ca e' i' -> took i i' (fun a b => t_call_array root e a ca e' b).
Proof.
  destruct 1 as [Hn|e1 id len bs i1 its e2 i2 vs e3 i3 Hl Hb -> Hi Hf Hr].
  - apply took_refl. intros ts Hs. constructor. destruct ts as [|t ts]; [done|].
    apply spells_cons in Hs as (b & i' & Ht & -> & _).
    destruct t; try done; apply e_token_code in Ht as (c & r & -> & Hc); try done; cbn in Hc; by subst.
  - apply lib_g2t in Hl. apply items_g2t in Hi. apply resolve_g2t in Hr.
    eapply took_bind; [exact Hl|eapply took_comp; [by eapply (took_token (Tk_objects id len))|
      eapply took_comp; [exact Hi|exact Hr]]|].
    cbn. intros a b c Ha (b' & -> & d & ? & ?). by eapply T_ca_some.
Qed.

Lemma message_g2t W m :
  g_message W m -> exists root ts, message_bytes root ts W /\ t_message root ts m.
Proof.
  assert (spells [] [x0b]) as Hend by (exists []; split; [constructor|done]).
  destruct 1 as [root hb i e v Hh Ho Hr|root hb i e1 i1 m e2 i2 e3 Hh Ho Hm Ho'].
  - apply objects_g2t in Ho as (ts & b & -> & Hl & H). exists root, ts. split; [by exists hb, b|].
    econstructor; [|done]. specialize (H [] Hend). by rewrite app_nil_r in H.
  - apply objects_g2t in Ho. apply objects_g2t in Ho'.
    assert (took i1 i2 (fun a b => t_method root e1 a m e2 b)) as Hm'.
    { destruct Hm as [flags name type ctx inline bs i' ca args e' i2 Hb Hc Ha
                     |flags ret ctx inline bs i' ca args e' i2 Hb Hc Ha]; apply call_array_g2t in Hc.
      - eapply took_bind; [by eapply (took_token (Tk_call flags name type ctx inline))|exact Hc|].
        cbn. intros a b c -> ?. by eapply T_call.
      - eapply took_bind; [by eapply (took_token (Tk_return flags ret ctx inline))|exact Hc|].
        cbn. intros a b c -> ?. by eapply T_return. }
    assert (took i [x0b] (fun a b => b = [] -> t_message root a m)) as (ts & b & -> & Hl & H).
    { eapply took_bind; [exact Ho|eapply took_comp; [exact Hm'|exact Ho']|].
      cbn. intros x y z Ha (d & ? & ?) ->. by eapply T_msg_method. }
    exists root, ts. split; [by exists hb, b|]. specialize (H [] Hend eq_refl). by rewrite app_nil_r in H.
Qed.
End with_decimal.

(** ** Renaming *)

Lemma map_replicate {A B} (h : A -> B) n x : map h (replicate n x) = replicate n (h x).
Proof. induction n; cbn; congruence. Qed.

Section renaming.
Context (f g : N -> N) `{!Inj (=) (=) f, !Inj (=) (=) g}.

Definition rename_env (e : env) : env := mkEnv (kmap g (e_libs e)) (kmap f (e_objs e)).
Definition rename_item (it : item) : item := match it with It_Ref id => It_Ref (f id) | _ => it end.
Notation re := rename_env.
Notation rt := (map (rename f g)).

Lemma rename_empty : re empty_env = empty_env.
Proof using. unfold rename_env, empty_env. cbn. by rewrite !kmap_empty. Qed.
Lemma rename_add_lib id name e : re (add_lib id name e) = add_lib (g id) name (re e).
Proof. unfold rename_env, add_lib. cbn. by rewrite (kmap_insert g). Qed.
Lemma rename_add_obj id v e : re (add_obj id v e) = add_obj (f id) v (re e).
Proof. unfold rename_env, add_obj. cbn. by rewrite (kmap_insert f). Qed.
Lemma rename_del_obj id e : re (del_obj id e) = del_obj (f id) (re e).
Proof. unfold rename_env, del_obj. cbn. by rewrite (kmap_delete f). Qed.
Lemma rename_libs e id : e_libs (re e) !! g id = e_libs e !! id.
Proof. cbn. apply (lookup_kmap g). Qed.
Lemma rename_objs e id : e_objs (re e) !! f id = e_objs e !! id.
Proof. cbn. apply (lookup_kmap f). Qed.

Lemma items_size_rename its : items_size (map rename_item its) = items_size its.
Proof using. induction its as [|[] its IH]; cbn; lia. Qed.
Lemma fills_rename len its : fills len its -> fills len (map rename_item its).
Proof using.
  intros [[-> ->]|(init & last & -> & H)]; [by left|]. right.
  exists (map rename_item init), (rename_item last). rewrite map_app. split; [done|].
  rewrite <- (items_size_rename init) in H. rewrite <- (items_size_rename (init ++ [last])) in H.
  by rewrite map_app in H.
Qed.
Lemma kinds_rename h : member_kinds (rename_header f g h) = map (rename_kind g) (member_kinds h).
Proof using.
  unfold member_kinds, rename_header. cbn. destruct (ch_types h); cbn; [done|].
  by rewrite map_replicate.
Qed.
Lemma class_library_rename e h lib : class_library e h lib -> class_library (re e) (rename_header f g h) lib.
Proof.
  unfold class_library, rename_header. cbn [ch_library]. destruct (ch_library h); cbn [option_map]; [|done].
  by rewrite rename_libs.
Qed.
Lemma kind_ok_rename e k : kind_ok e k -> kind_ok (re e) (rename_kind g k).
Proof. destruct k; cbn [kind_ok rename_kind]; try done. by rewrite rename_libs. Qed.
Lemma class_kind_rename e k o : class_kind e k o -> class_kind (re e) (rename_kind g k) o.
Proof. destruct k; cbn [class_kind rename_kind]; try done. by rewrite rename_libs. Qed.
Lemma simple_rename k it t :
  simple_token k it t -> simple_token (rename_kind g k) (rename_item it) (rename f g t).
Proof using. destruct k, t; cbn; try done; try (intros ->; done); by intros [-> ?]. Qed.

Lemma lib_rename e ts e' ts' : t_lib e ts e' ts' -> t_lib (re e) (rt ts) (re e') (rt ts').
Proof.
  destruct 1 as [id name ts Hid|ts Hn].
  - rewrite rename_add_lib. cbn [map rename]. constructor. by rewrite rename_libs.
  - constructor. destruct ts as [|[]]; done.
Qed.

Lemma mut_rename :
  (forall e ts id o e' ts', t_class e ts id o e' ts' -> t_class (re e) (rt ts) (f id) o (re e') (rt ts'))
  /\ (forall k e ts it e' ts', t_member k e ts it e' ts' ->
        t_member (rename_kind g k) (re e) (rt ts) (rename_item it) (re e') (rt ts'))
  /\ (forall ks e ts its e' ts', t_items ks e ts its e' ts' ->
        t_items (map (rename_kind g) ks) (re e) (rt ts) (map rename_item its) (re e') (rt ts'))
  /\ (forall its e ts vs e' ts', t_resolve its e ts vs e' ts' ->
        t_resolve (map rename_item its) (re e) (rt ts) vs (re e') (rt ts'))
  /\ (forall e ts id v e' ts', t_record e ts id v e' ts' ->
        t_record (re e) (rt ts) (f id) v (re e') (rt ts')).
Proof.
  apply t_mut_ind.
  - intros e ts e1 ts1 h lib its e2 ts2 vs e3 ts3 Hl%lib_rename Hlib%class_library_rename _ IHi _ IHr.
    rewrite <- kinds_rename in IHi. exact (T_class _ _ _ _ _ _ _ _ _ _ _ _ Hl Hlib IHi IHr).
  - intros k e ts e1 t ts1 it Hl%lib_rename Hk%kind_ok_rename Hs%simple_rename. by eapply T_simple.
  - intros k e ts e1 ts1 id o e2 ts2 Hl%lib_rename Hk%class_kind_rename _ IH. by eapply (T_inline _ _ _ _ _ (f id)).
  - intros k e ts e1 ts1 it e2 ts2 Hk Hl%lib_rename _ IH. eapply T_nested; [|exact Hl|exact IH].
    destruct Hk as [-> | ->]; cbn; tauto.
  - intros. constructor.
  - intros. cbn. by eapply T_items_cons.
  - intros. constructor.
  - intros. cbn. by constructor.
  - intros. cbn. by constructor.
  - intros id v its e ts vs e' ts' Hv _ IH. cbn. apply T_res_known; [by rewrite rename_objs|].
    by rewrite rename_del_obj in IH.
  - intros id v its e ts e1 ts1 vs e' ts' Hv _ IH1 _ IH2. cbn.
    rewrite rename_del_obj in IH2. eapply T_res_next; [by rewrite rename_objs|done..].
  - intros. by constructor.
  - intros. cbn. constructor.
  - intros. cbn. constructor.
  - intros e ts id len its e1 ts1 vs e2 ts2 _ IH1 Hf _ IH2. cbn.
    rewrite map_replicate in IH1. eapply T_rec_objects; [|by apply fills_rename|exact IH2].
    by rewrite map_length.
  - intros e ts id len its e1 ts1 vs e2 ts2 _ IH1 Hf _ IH2. cbn.
    rewrite map_replicate in IH1. eapply T_rec_strings; [|by apply fills_rename|exact IH2].
    by rewrite map_length.
  - intros e ts id bat lengths bounds k its e1 ts1 vs e2 ts2 out Ho _ IH1 _ IH2 Hs. cbn.
    rewrite map_replicate in IH1. by eapply T_rec_array.
Qed.
Definition items_rename := proj1 (proj2 (proj2 mut_rename)).
Definition resolve_rename := proj1 (proj2 (proj2 (proj2 mut_rename))).
Definition record_rename := proj2 (proj2 (proj2 (proj2 mut_rename))).

Lemma objects_rename e ts e' ts' : t_objects e ts e' ts' -> t_objects (re e) (rt ts) (re e') (rt ts').
Proof.
  induction 1 as [|e ts id v e1 ts1 e2 ts2 Hr _ IH]; [constructor|].
  apply record_rename in Hr. rewrite rename_add_obj in IH. by econstructor.
Qed.
Lemma call_array_rename root e ts ca e' ts' :
  t_call_array root e ts ca e' ts' ->
  t_call_array (option_map f root) (re e) (rt ts) ca (re e') (rt ts').
Proof.
  destruct 1 as [Hn|e1 id len ts1 its e2 ts2 vs e3 ts3 Hl -> Hi Hf Hr].
  - constructor. by destruct ts as [|[]].
  - apply lib_rename in Hl. apply items_rename in Hi. apply resolve_rename in Hr.
    rewrite map_replicate in Hi. eapply T_ca_some; [exact Hl|done| |by apply fills_rename|exact Hr].
    by rewrite map_length.
Qed.
Lemma message_rename root ts m :
  t_message root ts m -> t_message (option_map f root) (rt ts) m.
Proof.
  destruct 1 as [ts e v Ho Hr|ts e1 ts1 m e2 ts2 e3 Ho Hm Ho'].
  - apply objects_rename in Ho. rewrite rename_empty in Ho. econstructor; [exact Ho|].
    destruct root; cbn [option_map root_value] in *; [|done]. by rewrite rename_objs.
  - apply objects_rename in Ho, Ho'. rewrite rename_empty in Ho.
    eapply T_msg_method; [exact Ho| |exact Ho'].
    destruct Hm as [? ? ? ? ? ? ? ? ? ? Hc Ha|? ? ? ? ? ? ? ? ? Hc Ha]; apply call_array_rename in Hc; by econstructor.
Qed.
End renaming.

Lemma no_value_12_undisturbed `{DecimalLib} ts : no_value_12 ts -> undisturbed ts.
Proof.
  intros Hn before v after b -> Hl. inversion Hl as [|? ? b1 b2 Hb Hl']; subst. cbn in Hb.
  assert (head b1 <> Some x0c) as H12 by (apply (Hn v b1); [set_solver|done]).
  destruct b1 as [|c b1].
  - exfalso. clear -Hb. destruct v; cbn in Hb; try done; try (by destruct Hb as [_ Hb]); try (by destruct b).
    destruct Hb as (s & (p & (init & last & Hp & _) & Hb & _) & _).
    symmetry in Hb. apply app_eq_nil in Hb as [-> _]. by destruct init.
  - cbn. destruct c; try done.
Qed.
