(** * PlaceLemmas: derivations over tokens are unique, and do without the declarations of libraries. *)
From Verif Require Import Base Value Wire Grammar Tokens Placement Parser Complete NullLemmas.
From Coq Require Import Lia.

Section with_decimal.
Context {DL : DecimalLib}.

(** ** Uniqueness *)

Lemma lib_det e i e1 i1 e2 i2 : t_lib e i e1 i1 -> t_lib e i e2 i2 -> e1 = e2 /\ i1 = i2.
Proof. intros H1 H2. destruct H1; inversion H2; subst; done. Qed.
Lemma class_library_det e h l l' : class_library e h l -> class_library e h l' -> l = l'.
Proof. unfold class_library. destruct (ch_library h); [|congruence]. intros (x & ? & ->) (y & ? & ->). congruence. Qed.
Lemma simple_det k t it it' : simple_token k it t -> simple_token k it' t -> it = it'.
Proof. destruct k, t; cbn; try done; naive_solver congruence. Qed.
Lemma shaped_det dims vs out out' : (vs <> [] -> Forall (fun d => d <> 0%N) dims) ->
  shaped dims vs out -> shaped dims vs out' -> out = out'.
Proof.
  intros Hd H1 H2. apply (shaped_complete _ _ _ []) in H1; [|done]. apply (shaped_complete _ _ _ []) in H2; [|done]. congruence.
Qed.
Lemma resolve_nonempty its e i vs e' i' : t_resolve its e i vs e' i' -> vs <> [] -> its <> [].
Proof. by intros H Hn ->; inversion H; subst. Qed.
Lemma product_dims lengths : product lengths <> 0%N -> Forall (fun d => d <> 0%N) (tail lengths).
Proof.
  assert (forall l, product l <> 0%N -> Forall (fun d => d <> 0%N) l) as H.
  { induction l as [|n l IH]; [constructor|]. unfold product in *. cbn [fold_right]. intros Hp.
    constructor; [|apply IH]; intros E; apply Hp; rewrite E; lia. }
  intros Hp. apply H in Hp. destruct Hp; cbn; [constructor|done].
Qed.
Lemma items_length ks e i its e' i' : t_items ks e i its e' i' -> length its = length ks.
Proof. induction 1; cbn; congruence. Qed.
Lemma fills_short len (its its2 : list item) : fills len its -> fills len its2 ->
  take (length its) its = take (length its) its2 -> length its2 <= length its.
Proof.
  intros H1 H2 E. destruct (Nat.le_gt_cases (length its2) (length its)) as [|Hlt]; [done|exfalso].
  rewrite firstn_all in E. assert (len <= items_size its)%N as Hs by (destruct H1 as [[-> _]|(x & y & -> & Hx)]; [apply N.le_0_l|apply Hx]).
  destruct H2 as [[_ ->]|(init & last & -> & Hi & _)]; [cbn in Hlt; lia|].
  rewrite app_length in Hlt. cbn in Hlt. rewrite take_app_le in E by lia.
  rewrite <- (take_drop (length its) init), <- E, items_size_app in Hi. lia.
Qed.
Lemma fills_det len (its its2 : list item) : fills len its -> fills len its2 ->
  (forall n, take n its = take n its2 \/ length its < n \/ length its2 < n) -> length its = length its2.
Proof.
  intros H1 H2 E. apply Nat.le_antisymm.
  - destruct (E (length its2)) as [E1|[?|?]]; [|lia..]. by apply (fills_short len its2 its).
  - destruct (E (length its)) as [E1|[?|?]]; [|lia..]. by apply (fills_short len its its2).
Qed.

Lemma mut_det :
  (forall e i id o e' i', t_class e i id o e' i' ->
     forall id2 o2 e2 i2, t_class e i id2 o2 e2 i2 -> id = id2 /\ o = o2 /\ e' = e2 /\ i' = i2)
  /\ (forall k e i it e' i', t_member k e i it e' i' ->
     forall it2 e2 i2, t_member k e i it2 e2 i2 -> it = it2 /\ e' = e2 /\ i' = i2)
  /\ (forall ks e i its e' i', t_items ks e i its e' i' ->
     forall ks2 its2 e2 i2, t_items ks2 e i its2 e2 i2 ->
     (forall n, n <= length ks -> n <= length ks2 -> take n ks = take n ks2 -> take n its = take n its2)
     /\ (ks = ks2 -> its = its2 /\ e' = e2 /\ i' = i2))
  /\ (forall its e i vs e' i', t_resolve its e i vs e' i' ->
     forall vs2 e2 i2, t_resolve its e i vs2 e2 i2 -> vs = vs2 /\ e' = e2 /\ i' = i2)
  /\ (forall e i id v e' i', t_record e i id v e' i' ->
     forall id2 v2 e2 i2, t_record e i id2 v2 e2 i2 -> id = id2 /\ v = v2 /\ e' = e2 /\ i' = i2).
Proof.
  apply t_mut_ind.
  - intros e i e1 i1 h lib its e2 i2 vs e3 i3 Hl Hlib _ IHi _ IHr id2 o2 e2' i2' H.
    inversion H as [? ? e1' i1' h' lib' its' e4 i4 vs' e5 i5 Hl' Hlib' Hi' Hr']; subst.
    destruct (lib_det _ _ _ _ _ _ Hl Hl') as [<- [= <- <-]].
    destruct (IHi _ _ _ _ Hi') as [_ Hx]. destruct (Hx eq_refl) as (<- & <- & <-).
    destruct (IHr _ _ _ Hr') as (<- & <- & <-). by rewrite (class_library_det _ _ _ _ Hlib Hlib').
  - intros k e i e1 t i1 it Hl Hk Hs it2 e2 i2 H.
    inversion H as [k0 ? ? e1' t' i1' ? Hl' Hok' Hs'|k0 ? ? e1' i1' id o e3 i3 Hl' Hc' Hcl'|k0 ? ? e1' i1' it1 e3 i3 Hk' Hl' Hm']; subst.
    + destruct (lib_det _ _ _ _ _ _ Hl Hl') as [<- [= <- <-]]. by rewrite (simple_det _ _ _ _ Hs Hs').
    + exfalso. destruct (lib_det _ _ _ _ _ _ Hl Hl') as [<- <-]. inversion Hcl' as [? ? ? ? ? ? ? ? ? ? ? ? Hl2]; subst.
      inversion Hl2; subst; by destruct k.
    + by destruct Hk' as [-> | ->].
  - intros k e i e1 i1 id o e2 i2 Hl Hk Hcl IH it2 e2' i2' H.
    inversion H as [k0 ? ? e1' t' i1' ? Hl' Hok' Hs'|k0 ? ? e1' i1' id' o' e3 i3 Hl' Hc' Hcl'|k0 ? ? e1' i1' it1 e3 i3 Hk' Hl' Hm']; subst.
    + exfalso. destruct (lib_det _ _ _ _ _ _ Hl Hl') as [<- ->]. inversion Hcl as [? ? ? ? ? ? ? ? ? ? ? ? Hl2]; subst.
      inversion Hl2; subst; by destruct k.
    + destruct (lib_det _ _ _ _ _ _ Hl Hl') as [<- <-]. by destruct (IH _ _ _ _ Hcl') as (_ & <- & <- & <-).
    + by destruct Hk' as [-> | ->].
  - intros k e i e1 i1 it e2 i2 Hk Hl _ IH it2 e2' i2' H.
    inversion H as [k0 ? ? e1' t' i1' ? Hl' Hok' Hs'|k0 ? ? e1' i1' id' o' e3 i3 Hl' Hc' Hcl'|k0 ? ? e1' i1' it1 e3 i3 Hk' Hl' Hm']; subst.
    + by destruct Hk as [-> | ->].
    + by destruct Hk as [-> | ->].
    + destruct (lib_det _ _ _ _ _ _ Hl Hl') as [<- <-]. by apply IH.
  - intros e i ks2 its2 e2 i2 H. split; [intros [|n] ? ? ?; [done|cbn in *; lia]|]. intros <-. by inversion H.
  - intros k ks e i it e1 i1 its e2 i2 _ IH1 _ IH2 ks2 its2 e2' i2' H. 
    inversion H as [|k' ks' ? ? it' e1' i1' its' ? ? Hm' Hi']; subst; [split; [intros [|n]; cbn; [done|lia]|done]|].
    split.
    + intros [|n]; cbn [take length]; [done|]. intros Hn1 Hn2 [= <- E]. destruct (IH1 _ _ _ Hm') as (<- & <- & <-).
      f_equal. destruct (IH2 _ _ _ _ Hi') as [Hx _]. apply Hx; [lia|lia|done].
    + intros [= <- <-]. destruct (IH1 _ _ _ Hm') as (<- & <- & <-). destruct (IH2 _ _ _ _ Hi') as [_ Hx].
      by destruct (Hx eq_refl) as (<- & <- & <-).
  - intros e i vs2 e2 i2 H. by inversion H.
  - intros v its e i vs e' i' _ IH vs2 e2 i2 H. inversion H as [|? ? ? ? vs2' ? ? Hx| | |]; subst.
    by destruct (IH _ _ _ Hx) as (<- & <- & <-).
  - intros n its e i vs e' i' _ IH vs2 e2 i2 H. inversion H as [| |? ? ? ? vs2' ? ? Hx| |]; subst.
    by destruct (IH _ _ _ Hx) as (<- & <- & <-).
  - intros id v its e i vs e' i' Hv _ IH vs2 e2 i2 H.
    inversion H as [| | |? v' ? ? ? vs2' ? ? Hv' Hx|? v' ? ? ? e1 i1 vs2' ? ? Hv' Hr Hx]; subst; [|congruence].
    destruct (IH _ _ _ Hx) as (<- & <- & <-). split; [|done]. congruence.
  - intros id v its e i e1 i1 vs e' i' Hv _ IH1 _ IH2 vs2 e2 i2 H.
    inversion H as [| | |? v' ? ? ? vs2' ? ? Hv' Hx|? v' ? ? ? e1' i1' vs2' ? ? Hv' Hr Hx]; subst; [congruence|].
    destruct (IH1 _ _ _ _ Hr) as (_ & <- & <- & <-). by destruct (IH2 _ _ _ Hx) as (<- & <- & <-).
  - intros e i id o e' i' Hcl IH id2 v2 e2 i2 H.
    inversion H as [? ? ? o2 ? ? Hcl'| | | | |]; subst; [by destruct (IH _ _ _ _ Hcl') as (<- & <- & <- & <-)|..].
    all: exfalso; inversion Hcl as [? ? ? ? ? ? ? ? ? ? ? ? Hl2]; subst; inversion Hl2.
  - intros e i id s id2 v2 e2 i2 H. inversion H as [? ? ? o2 ? ? Hcl'| | | | |]; subst; [|done].
    exfalso; inversion Hcl' as [? ? ? ? ? ? ? ? ? ? ? ? Hl2]; subst; inversion Hl2.
  - intros e i id p vs id2 v2 e2 i2 H. inversion H as [? ? ? o2 ? ? Hcl'| | | | |]; subst; [|done].
    exfalso; inversion Hcl' as [? ? ? ? ? ? ? ? ? ? ? ? Hl2]; subst; inversion Hl2.
  - intros e i id len its e1 i1 vs e2 i2 Hits IH1 Hf _ IH2 id2 v2 e2' i2' H.
    inversion H as [? ? ? o2 ? ? Hcl'| | |? ? ? ? its' e3 i3 vs' ? ? Hi' Hf' Hr'| |]; subst.
    { exfalso; inversion Hcl' as [? ? ? ? ? ? ? ? ? ? ? ? Hl2]; subst; inversion Hl2. }
    destruct (IH1 _ _ _ _ Hi') as [Hx Hy].
    assert (length its = length its') as E.
    { apply (fills_det len); [done|done|]. intros n. destruct (decide (length its < n)); [auto|].
      destruct (decide (length its' < n)); [auto|]. left. apply Hx; rewrite ?replicate_length; [lia..|].
      rewrite !take_replicate. f_equal. lia. }
    destruct Hy as (<- & <- & <-); [by rewrite E|]. by destruct (IH2 _ _ _ Hr') as (<- & <- & <-).
  - intros e i id len its e1 i1 vs e2 i2 Hits IH1 Hf _ IH2 id2 v2 e2' i2' H.
    inversion H as [? ? ? o2 ? ? Hcl'| | | |? ? ? ? its' e3 i3 vs' ? ? Hi' Hf' Hr'|]; subst.
    { exfalso; inversion Hcl' as [? ? ? ? ? ? ? ? ? ? ? ? Hl2]; subst; inversion Hl2. }
    destruct (IH1 _ _ _ _ Hi') as [Hx Hy].
    assert (length its = length its') as E.
    { apply (fills_det len); [done|done|]. intros n. destruct (decide (length its < n)); [auto|].
      destruct (decide (length its' < n)); [auto|]. left. apply Hx; rewrite ?replicate_length; [lia..|].
      rewrite !take_replicate. f_equal. lia. }
    destruct Hy as (<- & <- & <-); [by rewrite E|]. by destruct (IH2 _ _ _ Hr') as (<- & <- & <-).
  - intros e i id bat lengths bounds k its e1 i1 vs e2 i2 out Ho Hits IH1 Hres IH2 Hs id2 v2 e2' i2' H.
    inversion H as [? ? ? o2 ? ? Hcl'| | | | |? ? ? ? ? ? ? its' e3 i3 vs' ? ? out' Ho' Hi' Hr' Hs']; subst.
    { exfalso; inversion Hcl' as [? ? ? ? ? ? ? ? ? ? ? ? Hl2]; subst; inversion Hl2. }
    destruct (IH1 _ _ _ _ Hi') as [_ Hy]. destruct (Hy eq_refl) as (<- & <- & <-).
    destruct (IH2 _ _ _ Hr') as (<- & <- & <-). rewrite (shaped_det (tail lengths) vs out out'); [done| |done|done].
    intros Hne. apply product_dims. intros E. apply (resolve_nonempty _ _ _ _ _ _ Hres Hne).
    apply items_length in Hits. rewrite E in Hits. by destruct its.
Qed.
Definition items_det := proj1 (proj2 (proj2 mut_det)).
Definition resolve_det := proj1 (proj2 (proj2 (proj2 mut_det))).
Definition record_det := proj2 (proj2 (proj2 (proj2 mut_det))).

(** Where a sequence of records ends. *)
Definition stop (i : list token) : Prop :=
  match i with [] | Tk_call _ _ _ _ _ :: _ | Tk_return _ _ _ _ :: _ => True | _ => False end.
Lemma stop_record e i id v e' i' : t_record e i id v e' i' -> ~ stop i.
Proof.
  destruct 1 as [? ? ? ? ? ? Hcl| | | | |]; cbn; try (by intros X).
  inversion Hcl as [? ? ? ? ? ? ? ? ? ? ? ? Hl2]; subst. inversion Hl2; by intros X.
Qed.
Lemma objects_det e i e1 i1 e2 i2 : t_objects e i e1 i1 -> stop i1 -> t_objects e i e2 i2 -> stop i2 -> e1 = e2 /\ i1 = i2.
Proof.
  intros H. revert e2 i2. induction H as [e i|e i id v e1 i1 e2 i2 Hr Ho IH]; intros e' i' S1 H' S2.
  - inversion H' as [|? ? ? ? ? ? ? ? Hr' Ho']; subst; [done|]. by apply stop_record in Hr'.
  - inversion H' as [|? ? ? ? ? ? ? ? Hr' Ho']; subst; [by apply stop_record in Hr|].
    destruct (record_det _ _ _ _ _ _ Hr _ _ _ _ Hr') as (<- & <- & <- & <-). by apply IH.
Qed.
Lemma call_array_det root e i ca e1 i1 ca2 e2 i2 :
  t_call_array root e i ca e1 i1 -> t_call_array root e i ca2 e2 i2 -> ca = ca2 /\ e1 = e2 /\ i1 = i2.
Proof.
  intros H1 H2. destruct H1 as [Hn|e1 id len i1 its e3 i3 vs e4 i4 Hl Hroot Hi Hf Hr];
    inversion H2 as [Hn'|e1' id' len' i1' its' e3' i3' vs' ? ? Hl' Hroot' Hi' Hf' Hr']; subst; try done.
  - exfalso. inversion Hl'; subst; done.
  - exfalso. inversion Hl; subst; done.
  - destruct (lib_det _ _ _ _ _ _ Hl Hl') as [<- [= <- <- <-]].
    destruct (items_det _ _ _ _ _ _ Hi _ _ _ _ Hi') as [Hx Hy].
    assert (length its = length its') as E.
    { apply (fills_det len); [done|done|]. intros n. destruct (decide (length its < n)); [auto|].
      destruct (decide (length its' < n)); [auto|]. left. apply Hx; rewrite ?replicate_length; [lia..|].
      rewrite !take_replicate. f_equal. lia. }
    destruct Hy as (<- & <- & <-); [by rewrite E|]. by destruct (resolve_det _ _ _ _ _ _ Hr _ _ _ Hr') as (<- & <- & <-).
Qed.
Lemma args_det flags ca inline a a' : args_rule flags ca inline a -> args_rule flags ca inline a' -> a = a'.
Proof.
  unfold args_rule. destruct (Z.testbit flags _); [|destruct (Z.testbit flags _); [|congruence]].
  - intros (x & -> & ->) (y & [= <-] & ->). done.
  - intros (x & r & -> & ->) (y & r' & [= <- <-] & ->). done.
Qed.
Lemma method_det root e i m e1 i1 m2 e2 i2 :
  t_method root e i m e1 i1 -> t_method root e i m2 e2 i2 -> m = m2 /\ e1 = e2 /\ i1 = i2.
Proof.
  intros H1 H2. destruct H1 as [flags name type ctx inline i ca args e1 i1 Hc Ha|flags ret ctx inline i ca args e1 i1 Hc Ha]; inversion H2 as [? ? ? ? ? ? ca' args' ? ? Hc' Ha'|? ? ? ? ? ca' args' ? ? Hc' Ha']; subst.
  all: destruct (call_array_det _ _ _ _ _ _ _ _ _ Hc Hc') as (<- & <- & <-); by rewrite (args_det _ _ _ _ _ Ha Ha').
Qed.

(** Messages that begin with some libraries [L] instead of none. *)
Inductive message_with (L : gmap N str) (root : option N) : list token -> message -> Prop :=
| M_value i e v : t_objects (mkEnv L ∅) i e [] -> root_value root e v -> message_with L root i (MValue v)
| M_method i e1 i1 m e2 i2 e3 :
    t_objects (mkEnv L ∅) i e1 i1 -> t_method root e1 i1 m e2 i2 -> t_objects e2 i2 e3 [] -> message_with L root i m.
Lemma method_stop root e i m e' i' : t_method root e i m e' i' -> stop i /\ i <> [].
Proof. by destruct 1. Qed.
Lemma message_with_det L root i m m' : message_with L root i m -> message_with L root i m' -> m = m'.
Proof.
  intros H1 H2. destruct H1 as [i e v Ho Hv|i e1 i1 m e2 i2 e3 Ho Hm Ho2];
    inversion H2 as [? e' v' Ho' Hv'|? e1' i1' m1 e2' i2' e3' Ho' Hm' Ho2']; subst.
  - destruct (objects_det _ _ _ _ _ _ Ho I Ho' I) as [<- _]. f_equal. destruct root; cbn in *; congruence.
  - exfalso. destruct (method_stop _ _ _ _ _ _ Hm') as [S N]. destruct (objects_det _ _ _ _ _ _ Ho I Ho' S) as [_ E]. by rewrite <- E in N.
  - exfalso. destruct (method_stop _ _ _ _ _ _ Hm) as [S N]. destruct (objects_det _ _ _ _ _ _ Ho S Ho' I) as [_ E]. by rewrite E in N.
  - destruct (method_stop _ _ _ _ _ _ Hm) as [S _]. destruct (method_stop _ _ _ _ _ _ Hm') as [S' _].
    destruct (objects_det _ _ _ _ _ _ Ho S Ho' S') as [<- <-]. by destruct (method_det _ _ _ _ _ _ _ _ _ Hm Hm') as (<- & _).
Qed.

(** ** Without the declarations *)

(** From the tokens [i] to the rest [i'], the libraries [e] became those of [e']. *)
Definition declared (i : list token) (e : env) (i' : list token) (e' : env) : Prop :=
  e_libs e ⊆ e_libs e'
  /\ exists X, i = X ++ i' /\ Permutation (map_to_list (e_libs e')) (libraries X ++ map_to_list (e_libs e)).
Lemma libraries_app X Y : libraries (X ++ Y) = libraries X ++ libraries Y.
Proof. induction X as [|t X IH]; [done|]. destruct t; cbn; by rewrite IH. Qed.
Lemma declared_refl i e i' : i = i' -> declared i e i' e.
Proof. intros <-. split; [done|]. by exists []. Qed.
Lemma declared_trans i e i1 e1 i2 e2 : declared i e i1 e1 -> declared i1 e1 i2 e2 -> declared i e i2 e2.
Proof.
  intros [S1 (X & -> & P1)] [S2 (Y & -> & P2)]. split; [by etrans|]. exists (X ++ Y). split; [by rewrite app_assoc|].
  rewrite libraries_app, P2, P1, !app_assoc. apply Permutation_app_tail, Permutation_app_comm.
Qed.
Lemma declared_token t i e i' : match t with Tk_library _ _ => False | _ => True end -> i = t :: i' -> declared i e i' e.
Proof. intros H ->. split; [done|]. exists [t]. split; [done|]. by destruct t. Qed.
Lemma declared_del i e i' e' id : declared i (del_obj id e) i' e' -> declared i e i' e'.
Proof. done. Qed.
Lemma lib_declared e i e1 i1 : t_lib e i e1 i1 -> declared i e i1 e1.
Proof.
  destruct 1 as [id name ts H|ts H]; [|by apply declared_refl]. split; [by apply insert_subseteq|].
  exists [Tk_library id name]. split; [done|]. cbn. by rewrite map_to_list_insert.
Qed.

Section libs.
Context (L : gmap N str).
Definition wl (e : env) : env := mkEnv L (e_objs e).
Lemma strip_head i : match strip i with Tk_library _ _ :: _ => False | _ => True end.
Proof. induction i as [|t i IH]; [done|]. by destruct t. Qed.
Lemma lib_strip e i e1 i1 : t_lib e i e1 i1 -> t_lib (wl e) (strip i) (wl e1) (strip i1).
Proof.
  destruct 1 as [id name ts H|ts H]; [|apply T_lib_none, strip_head]. cbn [strip].
  apply (T_lib_none (wl e)), strip_head.
Qed.
Lemma lookup_sub e id x : e_libs e ⊆ L -> e_libs e !! id = Some x -> L !! id = Some x.
Proof. intros Hs H. by eapply lookup_weaken. Qed.
Lemma class_library_wl e h lib : e_libs e ⊆ L -> class_library e h lib -> class_library (wl e) h lib.
Proof.
  intros Hs. unfold class_library. destruct (ch_library h); [|done]. intros (l & Hl & ->). exists l. split; [|done].
  by apply (lookup_sub e).
Qed.
Lemma kind_ok_wl e k : e_libs e ⊆ L -> kind_ok e k -> kind_ok (wl e) k.
Proof. intros Hs. destruct k; try done. intros [l Hl]. exists l. by apply (lookup_sub e). Qed.
Lemma class_kind_wl e k o : e_libs e ⊆ L -> class_kind e k o -> class_kind (wl e) k o.
Proof. intros Hs. destruct k; try done. intros (l & Hl & Ho). exists l. split; [|done]. by apply (lookup_sub e). Qed.
Lemma strip_cons t i : match t with Tk_library _ _ => False | _ => True end -> strip (t :: i) = t :: strip i.
Proof. by destruct t. Qed.

Lemma mut_strip :
  (forall e i id o e' i', t_class e i id o e' i' ->
     declared i e i' e' /\ (e_libs e' ⊆ L -> t_class (wl e) (strip i) id o (wl e') (strip i')))
  /\ (forall k e i it e' i', t_member k e i it e' i' ->
     declared i e i' e' /\ (e_libs e' ⊆ L -> t_member k (wl e) (strip i) it (wl e') (strip i')))
  /\ (forall ks e i its e' i', t_items ks e i its e' i' ->
     declared i e i' e' /\ (e_libs e' ⊆ L -> t_items ks (wl e) (strip i) its (wl e') (strip i')))
  /\ (forall its e i vs e' i', t_resolve its e i vs e' i' ->
     declared i e i' e' /\ (e_libs e' ⊆ L -> t_resolve its (wl e) (strip i) vs (wl e') (strip i')))
  /\ (forall e i id v e' i', t_record e i id v e' i' ->
     declared i e i' e' /\ (e_libs e' ⊆ L -> t_record (wl e) (strip i) id v (wl e') (strip i'))).
Proof.
  apply t_mut_ind.
  - intros e i e1 i1 h lib its e2 i2 vs e3 i3 Hl Hlib _ [D1 IHi] _ [D2 IHr].
    pose proof (lib_declared _ _ _ _ Hl) as D0. split.
    { eapply declared_trans; [exact D0|]. eapply declared_trans; [by apply (declared_token (Tk_class h))|].
      by eapply declared_trans. }
    intros Hs. assert (e_libs e2 ⊆ L) as Hs2 by (etrans; [apply D2|done]).
    assert (e_libs e1 ⊆ L) as Hs1 by (etrans; [apply D1|done]).
    apply lib_strip in Hl. cbn [strip] in Hl.
    eapply T_class; [exact Hl|by apply class_library_wl|by apply IHi|by apply IHr].
  - intros k e i e1 t i1 it Hl Hk Hst.
    assert (match t with Tk_library _ _ => False | _ => True end) as Ht by (by destruct k, t).
    split; [eapply declared_trans; [by apply lib_declared|by apply (declared_token t)]|].
    intros Hs. apply lib_strip in Hl. rewrite strip_cons in Hl by done. eapply T_simple; [exact Hl|by apply kind_ok_wl|done].
  - intros k e i e1 i1 id o e2 i2 Hl Hk Hc [D IH]. split; [eapply declared_trans; [by apply lib_declared|done]|].
    intros Hs. assert (e_libs e1 ⊆ L) as Hs1 by (etrans; [apply D|done]).
    eapply T_inline; [by apply lib_strip|by apply class_kind_wl|by apply IH].
  - intros k e i e1 i1 it e2 i2 Hk Hl _ [D IH]. split; [eapply declared_trans; [by apply lib_declared|done]|].
    intros Hs. eapply T_nested; [done|by apply lib_strip|by apply IH].
  - intros e i. split; [by apply declared_refl|]. intros _. constructor.
  - intros k ks e i it e1 i1 its e2 i2 _ [D1 IH1] _ [D2 IH2]. split; [by eapply declared_trans|].
    intros Hs. eapply T_items_cons; [apply IH1; etrans; [apply D2|done]|by apply IH2].
  - intros e i. split; [by apply declared_refl|]. intros _. constructor.
  - intros v its e i vs e' i' _ [D IH]. split; [done|]. intros Hs. constructor. by apply IH.
  - intros n its e i vs e' i' _ [D IH]. split; [done|]. intros Hs. constructor. by apply IH.
  - intros id v its e i vs e' i' Hv _ [D IH]. split; [done|]. intros Hs. apply T_res_known; [done|]. by apply IH.
  - intros id v its e i e1 i1 vs e' i' Hv _ [D1 IH1] _ [D2 IH2]. split; [by eapply declared_trans|].
    intros Hs. eapply T_res_next; [done|apply IH1; etrans; [apply D2|done]|]. by apply IH2.
  - intros e i id o e' i' _ [D IH]. split; [done|]. intros Hs. constructor. by apply IH.
  - intros e i id s. split; [by apply (declared_token (Tk_string id s))|]. intros _. constructor.
  - intros e i id p vs. split; [by apply (declared_token (Tk_prims id p vs))|]. intros _. constructor.
  - intros e i id len its e1 i1 vs e2 i2 _ [D1 IH1] Hf _ [D2 IH2].
    split; [eapply declared_trans; [by apply (declared_token (Tk_objects id len))|by eapply declared_trans]|].
    intros Hs. eapply T_rec_objects; [apply IH1; etrans; [apply D2|done]|done|by apply IH2].
  - intros e i id len its e1 i1 vs e2 i2 _ [D1 IH1] Hf _ [D2 IH2].
    split; [eapply declared_trans; [by apply (declared_token (Tk_strings id len))|by eapply declared_trans]|].
    intros Hs. eapply T_rec_strings; [apply IH1; etrans; [apply D2|done]|done|by apply IH2].
  - intros e i id bat lengths bounds k its e1 i1 vs e2 i2 out Ho _ [D1 IH1] _ [D2 IH2] Hsh.
    split; [eapply declared_trans; [by apply (declared_token (Tk_array id bat lengths bounds k))|by eapply declared_trans]|].
    intros Hs. eapply T_rec_array; [done|apply IH1; etrans; [apply D2|done]|by apply IH2|done].
Qed.
Definition items_strip := proj1 (proj2 (proj2 mut_strip)).
Definition resolve_strip := proj1 (proj2 (proj2 (proj2 mut_strip))).
Definition record_strip := proj2 (proj2 (proj2 (proj2 mut_strip))).
Lemma objects_strip e i e' i' : t_objects e i e' i' ->
  declared i e i' e' /\ (e_libs e' ⊆ L -> t_objects (wl e) (strip i) (wl e') (strip i')).
Proof.
  induction 1 as [e i|e i id v e1 i1 e2 i2 Hr Ho [D IH]]; [split; [by apply declared_refl|intros _; constructor]|].
  destruct (record_strip _ _ _ _ _ _ Hr) as [D1 H1]. split; [eapply declared_trans; [exact D1|exact D]|].
  intros Hs. eapply T_objs_cons; [apply H1; etrans; [apply D|done]|by apply IH].
Qed.
Lemma call_array_strip root e i ca e' i' : t_call_array root e i ca e' i' ->
  declared i e i' e' /\ (e_libs e' ⊆ L -> t_call_array root (wl e) (strip i) ca (wl e') (strip i')).
Proof.
  destruct 1 as [Hn|e1 id len i1 its e2 i2 vs e3 i3 Hl Hroot Hi Hf Hr].
  - split; [by apply declared_refl|]. intros _. constructor. destruct i as [|t i]; [done|]. by destruct t.
  - destruct (items_strip _ _ _ _ _ _ Hi) as [D1 H1]. destruct (resolve_strip _ _ _ _ _ _ Hr) as [D2 H2].
    split.
    { eapply declared_trans; [by apply lib_declared|]. eapply declared_trans; [by apply (declared_token (Tk_objects id len))|].
      by eapply declared_trans. }
    intros Hs. apply lib_strip in Hl. cbn [strip] in Hl. eapply T_ca_some; [exact Hl|done|apply H1; etrans; [apply D2|done]|done|by apply H2].
Qed.
Lemma method_strip root e i m e' i' : t_method root e i m e' i' ->
  declared i e i' e' /\ (e_libs e' ⊆ L -> t_method root (wl e) (strip i) m (wl e') (strip i')).
Proof.
  destruct 1 as [flags name type ctx inline i ca args e' i' Hc Ha|flags ret ctx inline i ca args e' i' Hc Ha].
  - apply call_array_strip in Hc as [D H]. split; [eapply declared_trans; [by apply (declared_token (Tk_call flags name type ctx inline))|done]|].
    intros Hs. cbn [strip]. eapply T_call; [by apply H|done].
  - apply call_array_strip in Hc as [D H]. split; [eapply declared_trans; [by apply (declared_token (Tk_return flags ret ctx inline))|done]|].
    intros Hs. cbn [strip]. eapply T_return; [by apply H|done].
Qed.
End libs.

Lemma no_libs : map_to_list (e_libs empty_env) = [].
Proof. apply map_to_list_empty. Qed.
Lemma message_strip root ts m : t_message root ts m ->
  exists L, Permutation (map_to_list L) (libraries ts) /\ message_with L root (strip ts) m.
Proof.
  destruct 1 as [ts e v Ho Hv|ts e1 ts1 m e2 ts2 e3 Ho Hm Ho2].
  - exists (e_libs e). destruct (objects_strip (e_libs e) _ _ _ _ Ho) as [(_ & X & EX & P) H].
    rewrite app_nil_r in EX. subst X. rewrite no_libs, app_nil_r in P. split; [done|].
    eapply M_value; [exact (H (reflexivity _))|]. by destruct root.
  - exists (e_libs e3). destruct (objects_strip (e_libs e3) _ _ _ _ Ho) as [D1 H1].
    destruct (method_strip (e_libs e3) _ _ _ _ _ _ Hm) as [D2 H2]. destruct (objects_strip (e_libs e3) _ _ _ _ Ho2) as [D3 H3].
    destruct (declared_trans _ _ _ _ _ _ D1 (declared_trans _ _ _ _ _ _ D2 D3)) as (_ & X & E & P).
    rewrite app_nil_r in E. subst X. rewrite no_libs, app_nil_r in P. split; [done|].
    assert (e_libs e2 ⊆ e_libs e3) by apply D3. assert (e_libs e1 ⊆ e_libs e3) by (etrans; [apply D2|done]).
    eapply M_method; [by apply H1|by apply H2|]. exact (H3 (reflexivity _)).
Qed.
Lemma message_places root ts ts' m m' : same_but_places ts ts' -> t_message root ts m -> t_message root ts' m' -> m = m'.
Proof.
  intros [Es El] H1 H2. apply message_strip in H1 as (L & P1 & H1). apply message_strip in H2 as (L' & P2 & H2).
  assert (L = L') as <- by (apply map_to_list_inj; by rewrite P1, P2). rewrite <- Es in H2. by eapply message_with_det.
Qed.
End with_decimal.
