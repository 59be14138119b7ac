(** * NullLemmas: derivations over tokens with other runs of nulls. *)
From Verif Require Import Base Value Wire Grammar Tokens Nulls.
From Coq Require Import Lia.

Section with_decimal.
Context {DL : DecimalLib}.

Definition token_item (t : token) : item :=
  match t with
  | Tk_typed v => It_Value v
  | Tk_reference id => It_Ref id
  | Tk_string _ s => It_Value (VString s)
  | Tk_nulls n => It_Nulls n
  | _ => It_Nulls 0
  end.
Lemma item_places t : element t -> item_size (token_item t) = places t /\ (0 < places t)%N.
Proof. destruct t; cbn; try done; split; lia. Qed.
Lemma items_size_app l l' : items_size (l ++ l') = (items_size l + items_size l')%N.
Proof. induction l as [|it l IH]; cbn [items_size app]; [done|]. rewrite IH. lia. Qed.
Lemma items_places es : Forall element es -> items_size (map token_item es) = total (map places es).
Proof. induction 1 as [|t es Ht _ IH]; [done|]. cbn. destruct (item_places t Ht). unfold total in IH. lia. Qed.
Lemma items_nulls ns : items_size (map It_Nulls ns) = total ns.
Proof. induction ns as [|n ns IH]; [done|]. cbn. unfold total in IH. lia. Qed.
Lemma total_app l l' : total (l ++ l') = (total l + total l')%N.
Proof. induction l as [|n l IH]; cbn; [done|]. unfold total in *. lia. Qed.

Definition array_kind (k : kind) : Prop := k = K_Any \/ k = K_StringArray.
Lemma element_member k e t r it e' r' : array_kind k -> element t -> t_member k e (t :: r) it e' r' ->
  it = token_item t /\ e' = e /\ r' = r /\ simple_token k it t.
Proof.
  intros Hk Ht H. inversion H as [k0 ? ? e1 t1 i1 it1 Hl Hok Hs|k0 ? ? e1 i1 id o e2 i2 Hl Hc Hcl|k0 ? ? e1 i1 it1 e2 i2 Hk' Hl Hm]; subst.
  - assert (t1 = t /\ r' = r /\ e' = e) as (-> & -> & ->) by (inversion Hl; subst; done).
    destruct Hk as [-> | ->], t; cbn in *; try done; subst; done.
  - exfalso. inversion Hl; subst; [done|]. inversion Hcl as [? ? e2 i2 h lib its e3 i3 vs e4 i4 Hl2]; subst.
    inversion Hl2; subst; done.
  - destruct Hk as [-> | ->]; by destruct Hk'.
Qed.
Lemma element_member_intro k e t r : array_kind k -> element t -> simple_token k (token_item t) t ->
  t_member k e (t :: r) (token_item t) e r.
Proof.
  intros Hk Ht Hs. eapply (T_simple _ _ _ e); [constructor; by destruct t| |exact Hs]. by destruct Hk as [-> | ->].
Qed.
Lemma elements_read k n e es r its e1 i1 : array_kind k -> Forall element es ->
  t_items (replicate n k) e (es ++ r) its e1 i1 ->
  (exists its2, its = map token_item es ++ its2 /\ t_items (replicate (n - length es) k) e r its2 e1 i1
     /\ Forall (fun t => simple_token k (token_item t) t) es)
  \/ n < length es /\ its = map token_item (take n es).
Proof.
  intros Hk Hes. revert n its. induction Hes as [|t es Ht Hes IH]; intros n its H.
  - left. exists its. rewrite Nat.sub_0_r. done.
  - destruct n as [|n]; [right; split; [cbn; lia|]; by inversion H|].
    cbn [replicate] in H. inversion H as [|? ? ? ? it e2 i2 its' ? ? Hm Hi]; subst. cbn [app] in Hm.
    apply element_member in Hm as (-> & -> & -> & Hs); [|done..].
    destruct (IH _ _ Hi) as [(its2 & -> & H2 & Hf)|[Hn ->]].
    + left. exists its2. split; [done|]. split; [done|]. by constructor.
    + right. split; [cbn; lia|]. done.
Qed.
Lemma elements_intro k e es r its2 e1 i1 : array_kind k -> Forall element es ->
  Forall (fun t => simple_token k (token_item t) t) es ->
  t_items (replicate (length its2) k) e r its2 e1 i1 ->
  t_items (replicate (length (map token_item es ++ its2)) k) e (es ++ r) (map token_item es ++ its2) e1 i1.
Proof.
  intros Hk Hes Hs H. induction Hes as [|t es Ht Hes IH]; [done|].
  apply Forall_cons in Hs as [Hst Hs]. cbn. eapply T_items_cons; [by apply element_member_intro|]. by apply IH.
Qed.
Lemma nulls_elements ns : Forall (fun n => (0 < n)%N) ns -> Forall element (map Tk_nulls ns).
Proof. induction 1; by constructor. Qed.
Lemma nulls_items ns : map token_item (map Tk_nulls ns) = map It_Nulls ns.
Proof. by rewrite map_map. Qed.
Lemma nulls_places ns : map places (map Tk_nulls ns) = ns.
Proof. rewrite map_map. apply map_id. Qed.

Lemma resolve_nulls ns its e i vs e' i' :
  t_resolve (map It_Nulls ns ++ its) e i vs e' i' <->
  exists vs', vs = replicate (N.to_nat (total ns)) VNull ++ vs' /\ t_resolve its e i vs' e' i'.
Proof.
  revert vs. induction ns as [|n ns IH]; intros vs; cbn [map app total foldr].
  - split; [intros H; by exists vs|]. intros (? & -> & H). done.
  - fold (total ns). split.
    + intros H. inversion H as [|? ? ? ? ? ? ? Hx|? ? ? ? vs1 ? ? Hx|? ? ? ? ? ? ? ? ? Hx|? ? ? ? ? ? ? ? ? ? ? Hx]; subst.
      apply IH in Hx as (vs' & -> & Hx). exists vs'. split; [|done].
      rewrite app_assoc, <- replicate_add. f_equal. f_equal. lia.
    + intros (vs' & -> & Hx). rewrite N2Nat.inj_add, replicate_add, <- app_assoc. apply T_res_nulls. apply IH. eauto.
Qed.
Lemma resolve_swap l1 ns ns' l2 e i vs e' i' : total ns = total ns' ->
  t_resolve (l1 ++ map It_Nulls ns ++ l2) e i vs e' i' -> t_resolve (l1 ++ map It_Nulls ns' ++ l2) e i vs e' i'.
Proof.
  intros Hn. revert e i vs. induction l1 as [|it l1 IH]; intros e i vs H; cbn [app] in *.
  - apply resolve_nulls in H as (vs' & -> & H). apply resolve_nulls. rewrite <- Hn. eauto.
  - inversion H; subst.
    + constructor. by apply IH.
    + constructor. by apply IH.
    + eapply T_res_known; [done|]. by apply IH.
    + eapply T_res_next; [done|done|]. by apply IH.
Qed.

(** ** The simulation *)
Context (h : token) (len : N) (es : list token) (ns ns' : list N) (rest : list token).
Context (Hh : single_array h len) (Hes : Forall element es).
Context (Hns : Forall (fun n => (0 < n)%N) ns) (Hns' : Forall (fun n => (0 < n)%N) ns').
Context (Htot : total ns = total ns') (Hlen : (total (map places es) + total ns <= len)%N).

Lemma total_take (l : list token) n : Forall element l -> n < length l ->
  (total (map places (take n l)) < total (map places l))%N.
Proof.
  intros Hl Hn. rewrite <- (take_drop n l) at 2. rewrite map_app, total_app.
  destruct (drop n l) as [|t r] eqn:E; [apply (f_equal length) in E; rewrite drop_length in E; cbn in E; lia|].
  assert (element t) as Ht.
  { rewrite <- (take_drop n l), E in Hl. apply Forall_app in Hl as [_ Hl]. by inversion Hl. }
  destruct (item_places t Ht). cbn [map total foldr]. lia.
Qed.
Lemma fills_size its : fills len its -> (len <= items_size its)%N.
Proof. intros [[-> ->]|(init & last & -> & _ & ?)]; cbn; lia. Qed.
Lemma fills_intro its : (len <= items_size its)%N -> (forall init last, its = init ++ [last] -> (items_size init < len)%N) -> fills len its.
Proof.
  intros H1 H2. destruct its as [|last init _] using rev_ind.
  - left. cbn in H1. split; [lia|done].
  - right. exists init, last. split; [done|]. split; [by eapply H2|done].
Qed.
Lemma array_swap k e its e1 i1 vs e2 i2 : array_kind k ->
  t_items (replicate (length its) k) e (es ++ map Tk_nulls ns ++ rest) its e1 i1 -> fills len its -> t_resolve its e1 i1 vs e2 i2 ->
  exists its', t_items (replicate (length its') k) e (es ++ map Tk_nulls ns' ++ rest) its' e1 i1 /\ fills len its' /\ t_resolve its' e1 i1 vs e2 i2.
Proof using Hes Hh Hlen Hns Hns' Htot.
  intros Hk Hi Hf Hr. rewrite app_assoc in Hi.
  assert (Forall element (es ++ map Tk_nulls ns)) as Hall by (apply Forall_app; split; [done|by apply nulls_elements]).
  pose proof (fills_size _ Hf) as Hsz.
  apply elements_read in Hi; [|done..]. destruct Hi as [(its2 & -> & Hi & Hs)|[Hn Heq]].
  2:{ exfalso. rewrite Heq in Hsz. rewrite items_places in Hsz by (by apply Forall_take).
      pose proof (total_take _ _ Hall Hn) as Ht. rewrite map_app, total_app, nulls_places in Ht. lia. }
  rewrite map_app, nulls_items, <- app_assoc in Hf, Hr, Hsz.
  apply Forall_app in Hs as [Hs _].
  exists (map token_item es ++ map It_Nulls ns' ++ its2). split; [|split].
  - assert (length its2 = length (map token_item (es ++ map Tk_nulls ns) ++ its2) - length (es ++ map Tk_nulls ns)) as El
      by (rewrite (app_length (map _ _)), map_length; lia).
    rewrite <- El in Hi. apply elements_intro; [done..|]. rewrite <- nulls_items.
    apply elements_intro; [done|by apply nulls_elements| |done].
    apply Forall_forall. intros t (n & -> & _)%elem_of_list_fmap. by destruct Hk as [-> | ->].
  - rewrite !items_size_app, items_nulls, (items_places es Hes) in Hsz.
    apply fills_intro; [rewrite !items_size_app, items_nulls, (items_places es Hes); lia|].
    intros init last E. destruct its2 as [|last2 init2 _] using rev_ind.
    + assert (items_size (init ++ [last]) = len) as E2.
      { rewrite <- E, !items_size_app, items_nulls, (items_places es Hes). cbn in Hsz |- *. lia. }
      rewrite items_size_app in E2. enough (0 < items_size [last])%N by lia.
      assert (last ∈ map token_item (es ++ map Tk_nulls ns')) as Hin.
      { rewrite map_app, nulls_items. rewrite app_nil_r in E. rewrite E. set_solver. }
      apply elem_of_list_fmap in Hin as (t & -> & Hin).
      assert (element t) as Ht.
      { apply elem_of_app in Hin as [Hin|Hin]; [by eapply (proj1 (Forall_forall _ _) Hes)|].
        by eapply (proj1 (Forall_forall _ _) (nulls_elements _ Hns')). }
      destruct (item_places t Ht) as [E3 ?]. cbn [items_size]. lia.
    + rewrite !app_assoc in E. apply app_inj_tail in E as [<- <-]. rewrite <- !app_assoc.
      destruct Hf as [[_ Hf]|(init' & last' & E & Hlt & _)].
      { apply app_eq_nil in Hf as [_ [_ [_ Hf]%app_eq_nil]%app_eq_nil]. done. }
      rewrite !app_assoc in E. apply app_inj_tail in E as [<- <-]. rewrite <- !app_assoc in Hlt.
      rewrite !items_size_app, items_nulls in *. lia.
  - by apply (resolve_swap _ ns).
Qed.

Definition R (i i' : list token) : Prop :=
  i = i' \/ exists a, i = a ++ h :: es ++ map Tk_nulls ns ++ rest /\ i' = a ++ h :: es ++ map Tk_nulls ns' ++ rest.
Lemma R_nil i : R [] i -> i = [].
Proof. intros [<-|(a & E & _)]; [done|]. by destruct a. Qed.
Lemma R_cons t i j : R (t :: i) j -> exists j1, j = t :: j1 /\
  (R i j1 \/ t = h /\ i = es ++ map Tk_nulls ns ++ rest /\ j1 = es ++ map Tk_nulls ns' ++ rest).
Proof.
  intros [<-|(a & E & ->)]; [eexists; split; [reflexivity|]; by left; left|].
  destruct a as [|t' a]; cbn [app] in *; injection E as -> ->; eexists; (split; [reflexivity|]).
  - by right.
  - left. right. by eexists.
Qed.
Lemma R_other t i j : (forall l, ~ single_array t l) -> R (t :: i) j -> exists j1, j = t :: j1 /\ R i j1.
Proof using Hh.
  intros Hn (j1 & -> & [H|[-> _]])%R_cons; [eauto|]. by destruct (Hn _ Hh).
Qed.
Lemma R_head i j : R i j -> match i, j with [], [] => True | t :: _, t' :: _ => t = t' | _, _ => False end.
Proof. intros H. destruct i as [|t i]; [by apply R_nil in H as ->|]. by apply R_cons in H as (j1 & -> & _). Qed.
Ltac no_array := let l := fresh in let X := fresh in intros l X; exact X.
Lemma lib_R e i e1 i1 j : t_lib e i e1 i1 -> R i j -> exists j1, t_lib e j e1 j1 /\ R i1 j1.
Proof using Hh.
  intros H Hr. destruct H as [id name ts Hid|ts Hn].
  - apply R_other in Hr as (j1 & -> & Hr); [|no_array]. exists j1. split; [by constructor|done].
  - exists j. split; [|done]. constructor. pose proof (R_head _ _ Hr). destruct ts, j; try done. by subst.
Qed.
Lemma mut_R :
  (forall e i id o e' i1, t_class e i id o e' i1 -> forall j, R i j -> exists j1, t_class e j id o e' j1 /\ R i1 j1)
  /\ (forall k e i it e' i1, t_member k e i it e' i1 -> forall j, R i j -> exists j1, t_member k e j it e' j1 /\ R i1 j1)
  /\ (forall ks e i its e' i1, t_items ks e i its e' i1 -> forall j, R i j -> exists j1, t_items ks e j its e' j1 /\ R i1 j1)
  /\ (forall its e i vs e' i1, t_resolve its e i vs e' i1 -> forall j, R i j -> exists j1, t_resolve its e j vs e' j1 /\ R i1 j1)
  /\ (forall e i id v e' i1, t_record e i id v e' i1 -> forall j, R i j -> exists j1, t_record e j id v e' j1 /\ R i1 j1).
Proof using Hes Hh Hlen Hns Hns' Htot.
  apply t_mut_ind.
  - intros e i e1 i1 hd lib its e2 i2 vs e3 i3 Hl Hlib _ IHi _ IHr j Hj.
    destruct (lib_R _ _ _ _ _ Hl Hj) as (j1 & Hl' & (j2 & -> & Hj2)%R_other); [|no_array].
    destruct (IHi _ Hj2) as (j3 & Hi' & Hj3). destruct (IHr _ Hj3) as (j4 & Hr' & Hj4).
    exists j4. split; [|done]. exact (T_class _ _ _ _ _ _ _ _ _ _ _ _ Hl' Hlib Hi' Hr').
  - intros k e i e1 t i1 it Hl Hk Hs j Hj.
    destruct (lib_R _ _ _ _ _ Hl Hj) as (j1 & Hl' & (j2 & -> & Hj2)%R_other); [|intros l X; by destruct k, t].
    exists j2. split; [|done]. by eapply T_simple.
  - intros k e i e1 i1 id o e2 i2 Hl Hk _ IH j Hj. destruct (lib_R _ _ _ _ _ Hl Hj) as (j1 & Hl' & Hj1).
    destruct (IH _ Hj1) as (j2 & Hc & Hj2). exists j2. split; [|done]. by eapply (T_inline _ _ _ _ _ id).
  - intros k e i e1 i1 it e2 i2 Hk Hl _ IH j Hj. destruct (lib_R _ _ _ _ _ Hl Hj) as (j1 & Hl' & Hj1).
    destruct (IH _ Hj1) as (j2 & Hc & Hj2). exists j2. split; [|done]. by eapply T_nested.
  - intros e i j Hj. exists j. split; [constructor|done].
  - intros k ks e i it e1 i1 its e2 i2 _ IH1 _ IH2 j Hj. destruct (IH1 _ Hj) as (j1 & H1 & Hj1).
    destruct (IH2 _ Hj1) as (j2 & H2 & Hj2). exists j2. split; [|done]. by eapply T_items_cons.
  - intros e i j Hj. exists j. split; [constructor|done].
  - intros v its e i vs e' i' _ IH j Hj. destruct (IH _ Hj) as (j1 & H1 & Hj1). exists j1. split; [by constructor|done].
  - intros n its e i vs e' i' _ IH j Hj. destruct (IH _ Hj) as (j1 & H1 & Hj1). exists j1. split; [by constructor|done].
  - intros id v its e i vs e' i' Hv _ IH j Hj. destruct (IH _ Hj) as (j1 & H1 & Hj1). exists j1. split; [by apply T_res_known|done].
  - intros id v its e i e1 i1 vs e' i' Hv _ IH1 _ IH2 j Hj. destruct (IH1 _ Hj) as (j1 & H1 & Hj1).
    destruct (IH2 _ Hj1) as (j2 & H2 & Hj2). exists j2. split; [|done]. by eapply T_res_next.
  - intros e i id o e' i' _ IH j Hj. destruct (IH _ Hj) as (j1 & H1 & Hj1). exists j1. split; [by constructor|done].
  - intros e i id s j (j1 & -> & Hj)%R_other; [|no_array]. exists j1. split; [constructor|done].
  - intros e i id p vs j (j1 & -> & Hj)%R_other; [|no_array]. exists j1. split; [constructor|done].
  - intros e i id l its e1 i1 vs e2 i2 Hi IHi Hf Hr IHr j (j1 & -> & [Hj|(E & -> & ->)])%R_cons.
    + destruct (IHi _ Hj) as (j2 & Hi' & Hj2). destruct (IHr _ Hj2) as (j3 & Hr' & Hj3).
      exists j3. split; [|done]. by eapply T_rec_objects.
    + pose proof Hh as E2. rewrite <- E in E2. cbn in E2. subst l. destruct (array_swap _ _ _ _ _ _ _ _ (or_introl eq_refl) Hi Hf Hr) as (its' & Hi' & Hf' & Hr').
      exists i2. split; [by eapply T_rec_objects|by left].
  - intros e i id l its e1 i1 vs e2 i2 Hi IHi Hf Hr IHr j (j1 & -> & [Hj|(E & -> & ->)])%R_cons.
    + destruct (IHi _ Hj) as (j2 & Hi' & Hj2). destruct (IHr _ Hj2) as (j3 & Hr' & Hj3).
      exists j3. split; [|done]. by eapply T_rec_strings.
    + pose proof Hh as E2. rewrite <- E in E2. cbn in E2. subst l. destruct (array_swap _ _ _ _ _ _ _ _ (or_intror eq_refl) Hi Hf Hr) as (its' & Hi' & Hf' & Hr').
      exists i2. split; [by eapply T_rec_strings|by left].
  - intros e i id bat lengths bounds k its e1 i1 vs e2 i2 out Ho _ IH1 _ IH2 Hs j (j1 & -> & Hj)%R_other; [|no_array].
    destruct (IH1 _ Hj) as (j2 & Hi' & Hj2). destruct (IH2 _ Hj2) as (j3 & Hr' & Hj3).
    exists j3. split; [|done]. by eapply T_rec_array.
Qed.
Lemma objects_R e i e' i1 j : t_objects e i e' i1 -> R i j -> exists j1, t_objects e j e' j1 /\ R i1 j1.
Proof using Hes Hh Hlen Hns Hns' Htot.
  intros H. revert j. induction H as [|e ts id v e1 ts1 e2 ts2 H1 _ IH]; intros j Hj; [exists j; split; [constructor|done]|].
  destruct (proj2 (proj2 (proj2 (proj2 mut_R))) _ _ _ _ _ _ H1 _ Hj) as (j1 & H2 & Hj1).
  destruct (IH _ Hj1) as (j2 & H3 & Hj2). exists j2. split; [|done]. by econstructor.
Qed.
Lemma call_array_R root e i ca e' i1 j : t_call_array root e i ca e' i1 -> R i j ->
  exists j1, t_call_array root e j ca e' j1 /\ R i1 j1.
Proof using Hes Hh Hlen Hns Hns' Htot.
  destruct mut_R as (_ & _ & Pi & Pr & _).
  intros [Hn|e1 id l ts1 its e2 ts2 vs e3 ts3 Hl -> Hi Hf H1] Hj.
  - exists j. split; [|done]. constructor. pose proof (R_head _ _ Hj). destruct i, j; try done. by subst.
  - destruct (lib_R _ _ _ _ _ Hl Hj) as (j1 & Hl' & (j2 & -> & [Hj2|(E & -> & ->)])%R_cons).
    + destruct (Pi _ _ _ _ _ _ Hi _ Hj2) as (j3 & Hi' & Hj3). destruct (Pr _ _ _ _ _ _ H1 _ Hj3) as (j4 & H1' & Hj4).
      exists j4. split; [|done]. by eapply T_ca_some.
    + pose proof Hh as E2. rewrite <- E in E2. cbn in E2. subst l. destruct (array_swap _ _ _ _ _ _ _ _ (or_introl eq_refl) Hi Hf H1) as (its' & Hi' & Hf' & Hr').
      exists ts3. split; [by eapply T_ca_some|by left].
Qed.
Lemma message_R root i m j : t_message root i m -> R i j -> t_message root j m.
Proof using Hes Hh Hlen Hns Hns' Htot.
  intros [ts e v Ho H1|ts e1 ts1 m' e2 ts2 e3 Ho Hm Ho'] Hj.
  - destruct (objects_R _ _ _ _ _ Ho Hj) as (j1 & Ho1 & ->%R_nil). by econstructor.
  - destruct (objects_R _ _ _ _ _ Ho Hj) as (j1 & Ho1 & Hj1).
    destruct Hm as [flags name type ctx inl ts1 ca args e' i' Hc Ha|flags ret ctx inl ts1 ca args e' i' Hc Ha].
    all: apply R_other in Hj1 as (j2 & -> & Hj2); [|no_array].
    all: destruct (call_array_R _ _ _ _ _ _ _ Hc Hj2) as (j3 & Hc' & Hj3).
    all: destruct (objects_R _ _ _ _ _ Ho' Hj3) as (j4 & Ho4 & ->%R_nil).
    all: eapply T_msg_method; [exact Ho1| |exact Ho4]; by econstructor.
Qed.
End with_decimal.

Section respell.
Context {DL : DecimalLib}.
Lemma message_respell root ts ts' m : respell single_array ts ts' -> t_message root ts m -> t_message root ts' m.
Proof.
  intros [before h len es ns ns' rest Hh Hes Hns Hns' Ht Hl] Hm.
  eapply (message_R h len es ns ns' rest); [done..|]. right. by eexists.
Qed.
Lemma message_respells root ts ts' m : rtc (respell single_array) ts ts' -> t_message root ts m -> t_message root ts' m.
Proof. induction 1 as [|x y z Hs _ IH]; [done|]. intros H. by apply IH, (message_respell _ x). Qed.
End respell.
