(** * EqualReads: equal values are read as equal data. *)
From stdpp Require Import sorting.
From Verif Require Import Base Utf8 Value Wire Spec Serde SerdeSpec Reading EqualitySpec EqualData PropsL.
From Coq Require Import Lia.
From Coq Require Strings.String.
Import String.StringSyntax.

Section with_libs.
Context {DL : DecimalLib} {FL : FloatLib}.
Hypothesis casts : casts_keep_equality.

Definition alike (v w : value) : Prop :=
  forall a b, sub_value (VDecimal a) v -> sub_value (VDecimal b) w -> same_decimal a b -> dec_to_string a = dec_to_string b.
Lemma alike_member k v ms c l w ns c' l' k' : alike (VObject (mkObj c l ms)) (VObject (mkObj c' l' ns)) ->
  (k, v) ∈ ms -> (k', w) ∈ ns -> alike v w.
Proof. intros H Hv Hw a b Ha Hb. apply H; eapply sub_member; by cbn. Qed.
Lemma alike_element v vs w ws : alike (VArray vs) (VArray ws) -> v ∈ vs -> w ∈ ws -> alike v w.
Proof. intros H Hv Hw a b Ha Hb. apply H; by eapply sub_element. Qed.

(** ** Scalars *)

Inductive equal_content : content -> content -> Prop :=
| EC_same e : match e with Single _ | Double _ => False | _ => True end -> equal_content e e
| EC_single a b : same_number single_number a b -> equal_content (Single a) (Single b)
| EC_double a b : same_number double_number a b -> equal_content (Double a) (Double b).

Lemma int_f32 z : equal_data (D_f32 (int_as_f32 z)) (D_f32 (int_as_f32 z)).
Proof using casts. destruct casts as (_ & _ & H & _). destruct (H z) as [x Hx]. apply ED_f32. by exists x. Qed.
Lemma int_f64 z : equal_data (D_f64 (int_as_f64 z)) (D_f64 (int_as_f64 z)).
Proof using casts. destruct casts as (_ & _ & _ & H). destruct (H z) as [x Hx]. apply ED_f64. by exists x. Qed.
Lemma converts_equal e e' t d : equal_content e e' -> converts e t d -> exists d', converts e' t d' /\ equal_data d d'.
Proof using casts.
  destruct casts as (H1 & H2 & _). intros He Hc. destruct He as [e He|a b Hn|a b Hn].
  - exists d. split; [done|]. destruct Hc; try done; try (by constructor); try apply int_f32; apply int_f64.
  - inversion Hc; subst; eexists; (split; [constructor|constructor]); auto.
  - inversion Hc; subst; eexists; (split; [constructor|constructor]); auto.
Qed.
Lemma holds_equal v w e : equal v w -> alike v w -> holds v e -> exists e', holds w e' /\ equal_content e e'.
Proof.
  intros He Ha Hh. destruct He as [v Hv|a b Hn|a b Hn|a b Hn|vs ws Hf|c l ms ns Hp Hm].
  - exists e. split; [done|]. apply EC_same. by destruct Hh.
  - inversion Hh; subst. eexists. split; [constructor|by constructor].
  - inversion Hh; subst. eexists. split; [constructor|by constructor].
  - inversion Hh; subst. eexists. split; [constructor|]. rewrite (Ha a b); [by constructor|constructor|constructor|done].
  - inversion Hh.
  - inversion Hh.
Qed.
Lemma primitive_equal p p' e : equal_data p p' -> primitive p e -> exists e', primitive p' e' /\ equal_content e e'.
Proof.
  intros He Hp. destruct Hp; inversion He; subst; try done; eexists; (split; [constructor|]); by constructor.
Qed.

(** ** Arrays and lists *)

Lemma equal_null w : equal VNull w -> w = VNull.
Proof. by inversion 1. Qed.
Lemma equal_is_null v : equal v VNull -> v = VNull.
Proof. by inversion 1. Qed.
Lemma equal_int32 z w : equal (VInt32 z) w -> w = VInt32 z.
Proof. by inversion 1. Qed.
Lemma equal_array vs w : equal (VArray vs) w -> exists ws, w = VArray ws /\ Forall2 equal vs ws.
Proof. inversion 1; subst; [done|]. eauto. Qed.
Lemma equal_obj c l ms w : equal (VObject (mkObj c l ms)) w -> exists ns, w = VObject (mkObj c l ns)
  /\ map fst ms ≡ₚ map fst ns /\ forall k v w, (k, v) ∈ ms -> (k, w) ∈ ns -> equal v w.
Proof. inversion 1; subst; [done|]. eauto. Qed.
Lemma names_find (ms ns : list (str * value)) k v : map fst ms ≡ₚ map fst ns -> (k, v) ∈ ms -> exists w, (k, w) ∈ ns.
Proof.
  intros Hp Hin. assert (k ∈ map fst ms) as Hk by (apply elem_of_list_fmap; by exists (k, v)).
  rewrite Hp in Hk. apply elem_of_list_fmap in Hk as ([k' w] & -> & Hw). by exists w.
Qed.

Lemma zip_fields vs (fs : list (str * target)) ds :
  Forall2 (fun uf d => reads uf.1 uf.2.2 d) (zip vs fs) ds <-> Forall2 (fun ut d => reads ut.1 ut.2 d) (zip vs (map snd fs)) ds.
Proof.
  assert (zip vs (map snd fs) = map (fun uf : value * (str * target) => (uf.1, uf.2.2)) (zip vs fs)) as ->.
  { revert fs. induction vs as [|v vs IH]; intros [|f fs]; [done..|]. cbn. by rewrite IH. }
  generalize (zip vs fs). intros l. split.
  - induction 1; cbn [map]; by constructor.
  - revert ds. induction l as [|x l IH]; intros ds H; cbn [map] in H; inversion H; subst; constructor; auto.
Qed.
Lemma struct_zip (names : list str) ds es : Forall2 equal_data ds es ->
  Forall2 (fun a b => a.1 = b.1 /\ equal_data a.2 b.2) (zip names ds) (zip names es).
Proof.
  intros H. revert names. induction H as [|d e ds es Hd _ IH]; intros [|k names]; by constructor.
Qed.
Lemma any_elements_distinct v vs u : any_elements v vs -> distinct_names v -> u ∈ vs -> distinct_names u.
Proof.
  intros He Hd Hu.
  assert (forall items size version ms c l, list_members items size version ms -> distinct_names (VObject (mkObj c l ms)) ->
    u ∈ items -> distinct_names u) as H.
  { intros items size version ms c l Hl Hdo Hui. inversion Hdo as [o Hn Hdm| |]; subst; [|done]. cbn in Hdm. rewrite Forall_forall in Hdm.
    assert ((lit "_items", VArray items) ∈ ms) as Hin by (unfold list_members in Hl; rewrite Hl; left).
    specialize (Hdm _ Hin). cbn in Hdm. inversion Hdm as [|? Hf|]; subst; [|done]. rewrite Forall_forall in Hf. by apply Hf. }
  destruct He as [v vs He|]; [destruct He|].
  - inversion Hd as [|? Hf|]; subst; [|done]. rewrite Forall_forall in Hf. by apply Hf.
  - eapply H; [done|done|]. apply elem_of_list_lookup in Hu as [i Hi]. apply lookup_take_Some in Hi as [Hi _]. by eapply elem_of_list_lookup_2.
  - by eapply H.
Qed.
Definition both (v w : value) : Prop := equal v w /\ alike v w.
Lemma both_elements vs ws : Forall2 equal vs ws -> alike (VArray vs) (VArray ws) -> Forall2 both vs ws.
Proof.
  intros Hf Ha. apply Forall2_same_length_lookup. split; [by apply Forall2_length in Hf|]. intros i v w Hv Hw. split.
  - by eapply (Forall2_lookup_lr _ _ _ _ _ _ Hf).
  - eapply alike_element; [exact Ha|by eapply elem_of_list_lookup_2..].
Qed.
Lemma both_list c l items size version ms ns : both (VObject (mkObj c l ms)) (VObject (mkObj c l ns)) ->
  list_members items size version ms -> NoDup (map fst ns) ->
  exists items', list_members items' size version ns /\ Forall2 both items items'.
Proof.
  intros [He Ha] Hl Hn. apply equal_obj in He as (ns' & [= <-] & Hp & Hm).
  assert (forall k v, (k, v) ∈ [(lit "_items", VArray items); (lit "_size", VInt32 size); (lit "_version", VInt32 version)] ->
    exists w, (k, w) ∈ ns /\ both v w) as H.
  { intros k v Hin. unfold list_members in Hl. rewrite <- Hl in Hin. destruct (names_find _ _ _ _ Hp Hin) as [w Hw].
    exists w. split; [done|]. split; [by eapply Hm|by eapply alike_member]. }
  destruct (H (lit "_items") (VArray items)) as (w1 & I1 & E1 & A1); [by left|].
  destruct (H (lit "_size") (VInt32 size)) as (w2 & I2 & E2 & _); [by right; left|].
  destruct (H (lit "_version") (VInt32 version)) as (w3 & I3 & E3 & _); [by right; right; left|].
  apply equal_array in E1 as (items' & -> & Hf). apply equal_int32 in E2 as ->. apply equal_int32 in E3 as ->.
  exists items'. split; [|by apply both_elements]. unfold list_members. symmetry.
  apply submseteq_Permutation_length_eq.
  - apply Permutation_length in Hp. unfold list_members in Hl. apply Permutation_length in Hl. rewrite !map_length in Hp. cbn [length] in *. lia.
  - apply NoDup_submseteq.
    + apply (NoDup_fmap_1 fst). cbn. apply (bool_decide_unpack _). vm_compute. exact I.
    + intros x. rewrite !elem_of_cons, elem_of_nil. by intros [-> | [-> | [-> | []]]].
Qed.
Lemma elements_both v w vs : both v w -> distinct_names w -> elements v vs -> exists ws, elements w ws /\ Forall2 both vs ws.
Proof.
  intros Hb Hd He. destruct He as [vs|c ms items size version Hc Hl Hs].
  - destruct Hb as [He Ha]. apply equal_array in He as (ws & -> & Hf). exists ws. split; [constructor|by apply both_elements].
  - pose proof Hb as [He _]. apply equal_obj in He as (ns & -> & Hp & _).
    assert (NoDup (map fst ns)) as Hn by (by inversion Hd; subst).
    destruct (both_list _ _ _ _ _ _ _ Hb Hl Hn) as (items' & Hl' & Hf).
    exists (take (Z.to_nat (as_usize size)) items'). split; [|by apply Forall2_take].
    apply (E_list c ns items' size version); [done|done|]. apply Forall2_length in Hf. by rewrite <- Hf.
Qed.
Lemma any_elements_both v w vs : both v w -> distinct_names w -> any_elements v vs -> exists ws, any_elements w ws /\ Forall2 both vs ws.
Proof.
  intros Hb Hd He. destruct He as [v vs He|c ms items size version Hc Hl Hs].
  - destruct (elements_both _ _ _ Hb Hd He) as (ws & Hw & Hf). exists ws. split; [by constructor|done].
  - pose proof Hb as [He _]. apply equal_obj in He as (ns & -> & Hp & _).
    assert (NoDup (map fst ns)) as Hn by (by inversion Hd; subst).
    destruct (both_list _ _ _ _ _ _ _ Hb Hl Hn) as (items' & Hl' & Hf).
    exists items'. split; [|done]. apply (A_one_missing c ns items' size version); [done|done|]. apply Forall2_length in Hf. by rewrite <- Hf.
Qed.
(** ** Maps *)

Lemma in_unique (ns : list (str * value)) k w w' : NoDup (map fst ns) -> (k, w) ∈ ns -> (k, w') ∈ ns -> w = w'.
Proof.
  induction ns as [|[k' x] ns IH]; intros Hn H1 H2; [by apply elem_of_nil in H1|]. cbn [map] in Hn. apply NoDup_cons in Hn as [Hk Hn].
  apply elem_of_cons in H1, H2. destruct H1 as [H1|H1], H2 as [H2|H2]; [by simplify_eq| | |].
  - simplify_eq. exfalso. apply Hk. apply elem_of_list_fmap. by exists (k', w').
  - simplify_eq. exfalso. apply Hk. apply elem_of_list_fmap. by exists (k', w).
  - by apply IH.
Qed.
Lemma sorted_same_keys {V W} (m : list (str * V)) (n : list (str * W)) : map fst m = map fst n -> sorted_keys m -> sorted_keys n.
Proof.
  unfold sorted_keys. revert n. induction m as [|[k v] m IH]; intros [|[k' w] n] He Hs; try discriminate; [constructor|].
  cbn [map fst] in He. injection He as -> He. inversion Hs as [|? ? Hs' Hf]; subst. constructor; [by apply IH|].
  apply Forall_forall. intros [k w'] Hin. cbn [fst]. assert (k ∈ map fst m) as Hk.
  { rewrite He. apply elem_of_list_fmap. by exists (k, w'). }
  apply elem_of_list_fmap in Hk as ([k2 v2] & -> & Hv). rewrite Forall_forall in Hf. apply (Hf _ Hv).
Qed.
Lemma forall_exists {A B} (P : A -> B -> Prop) l : Forall (fun a => exists b, P a b) l -> exists l', Forall2 P l l'.
Proof. induction 1 as [|a l [b Hb] _ [l' IH]]; [by exists []|]. exists (b :: l'). by constructor. Qed.
(** A sorted map of the results for [ms] gives one for [ns]. *)
Lemma map_equal (t : target) ms ns m ds :
  map fst ms ≡ₚ map fst ns -> NoDup (map fst ns) ->
  (forall k v w d, (k, v) ∈ ms -> (k, w) ∈ ns -> reads v t d -> exists d', reads w t d' /\ equal_data d d') ->
  Forall2 (fun kv d => reads kv.2 t d) ms ds -> sorted_keys m -> m ≡ₚ zip (map fst ms) ds ->
  exists m' ds', Forall2 (fun kv d => reads kv.2 t d) ns ds' /\ sorted_keys m' /\ m' ≡ₚ zip (map fst ns) ds'
    /\ equal_data (D_map m) (D_map m').
Proof.
  intros Hp Hn Hr Hf Hs Hm.
  assert (Forall (fun a => exists b : str * data, (a.1 = b.1 /\ equal_data a.2 b.2) /\ exists w, (b.1, w) ∈ ns /\ reads w t b.2) m) as Hall.
  { apply Forall_forall. intros [k d] Hin. rewrite Hm in Hin.
    apply elem_of_list_lookup in Hin as [i Hi]. apply lookup_zip_with_Some in Hi as (k' & d' & [= <- <-] & Hk & Hd).
    rewrite list_lookup_fmap in Hk. apply fmap_Some in Hk as ([k' v] & Hv & ->). cbn [fst].
    pose proof (Forall2_lookup_lr _ _ _ _ _ _ Hf Hv Hd) as Hrd. cbn [snd] in Hrd. apply elem_of_list_lookup_2 in Hv.
    destruct (names_find _ _ _ _ Hp Hv) as [w Hw]. destruct (Hr _ _ _ _ Hv Hw Hrd) as (d' & Hd' & He).
    exists (k', d'). split; [by split|]. by exists w. }
  apply forall_exists in Hall as [m' Hall].
  assert (map fst m = map fst m') as Hk.
  { clear -Hall. induction Hall as [|? ? ? ? [[E _] _] _ IH]; [done|]. cbn [map]. by rewrite E, IH. }
  assert (map fst m' ≡ₚ map fst ns) as Hp'.
  { rewrite <- Hk, Hm, <- Hp. apply Forall2_length in Hf.
    assert (map fst (zip (map fst ms) ds) = map fst ms) as E by (apply fst_zip; rewrite map_length; lia). by rewrite E. }
  symmetry in Hp'. apply (Permutation_map_inv fst m') in Hp' as (m2 & E2 & Hp2).
  exists m', (map snd m2). split_and!.
  - apply Forall2_same_length_lookup. split.
    + rewrite map_length. apply (f_equal length) in E2. by rewrite !map_length in E2.
    + intros i [k w] d Hi Hd. rewrite list_lookup_fmap in Hd. apply fmap_Some in Hd as ([k2 d2] & Hd & ->). cbn [snd].
      assert (k2 = k) as ->.
      { apply (f_equal (fun l => l !! i)) in E2. rewrite !list_lookup_fmap, Hi, Hd in E2. by injection E2. }
      apply elem_of_list_lookup_2 in Hi, Hd. rewrite <- Hp2 in Hd. apply elem_of_list_lookup in Hd as [j Hj].
      destruct (Forall2_lookup_r _ _ _ _ _ Hall Hj) as (a & _ & _ & w' & Hw' & Hrd). cbn in *.
      by rewrite (in_unique _ _ _ _ Hn Hi Hw').
  - by eapply sorted_same_keys.
  - rewrite E2, Hp2. clear. induction m2 as [|[k d] m2 IH]; [done|]. cbn. by constructor.
  - constructor. eapply Forall2_impl; [exact Hall|]. by intros ? ? [? _].
Qed.

(** ** Values *)

Lemma reads_equal v : forall w t d, both v w -> distinct_names w -> reads v t d -> exists d', reads w t d' /\ equal_data d d'.
Proof using casts.
  induction v as [v IH] using value_below_ind.
  assert (forall vs w ws t ds, distinct_names w -> Forall2 both vs ws -> (forall u, u ∈ vs -> below u v) -> (forall u, u ∈ ws -> distinct_names u) ->
    Forall2 (fun u d => reads u t d) vs ds -> exists ds', Forall2 (fun u d => reads u t d) ws ds' /\ Forall2 equal_data ds ds') as Hseq.
  { intros vs w ws t ds _ Hf Hv Hw Hr. revert ws Hf Hw. induction Hr as [|u d vs ds Hrd _ IHr]; intros ws Hf Hw; inversion Hf as [|? u' ? ws' Hu Hf']; subst.
    - exists []. by split.
    - destruct (IH u ltac:(apply Hv; by left) u' t d Hu ltac:(apply Hw; by left) Hrd) as (d' & Hd' & He).
      destruct (IHr ltac:(intros x Hx; apply Hv; by right) ws' Hf' ltac:(intros x Hx; apply Hw; by right)) as (ds' & Hds & Hes).
      exists (d' :: ds'). split; by constructor. }
  assert (forall vs ws ts ds, Forall2 both vs ws -> (forall u, u ∈ vs -> below u v) -> (forall u, u ∈ ws -> distinct_names u) ->
    length vs = length ts -> Forall2 (fun ut d => reads ut.1 ut.2 d) (zip vs ts) ds ->
    exists ds', Forall2 (fun ut d => reads ut.1 ut.2 d) (zip ws ts) ds' /\ Forall2 equal_data ds ds') as Heach.
  { intros vs ws ts ds Hf. revert ts ds. induction Hf as [|u u' vs ws Hu Hf IHf]; intros ts ds Hv Hw Hl Hr.
    - inversion Hr; subst. exists []. by split.
    - destruct ts as [|t ts]; [done|]. cbn [zip zip_with] in Hr. inversion Hr as [|? d ? ds0 Hrd Hr0]; subst. cbn [fst snd] in Hrd.
      destruct (IH u ltac:(apply Hv; by left) u' t d Hu ltac:(apply Hw; by left) Hrd) as (d' & Hd' & He).
      destruct (IHf ts ds0 ltac:(intros x Hx; apply Hv; by right) ltac:(intros x Hx; apply Hw; by right) ltac:(by injection Hl) Hr0) as (ds' & Hds & Hes).
      exists (d' :: ds'). split; by constructor. }
  assert (forall w t d, (forall u, t <> T_option u) -> both v w -> distinct_names w -> reads v t d -> exists d', reads w t d' /\ equal_data d d') as Hcore.
  { intros w t d Ho Hb Hd Hr. pose proof Hb as [He Ha].
    assert (forall vs ws, any_elements v vs -> any_elements w ws -> (forall u, u ∈ vs -> below u v) /\ (forall u, u ∈ ws -> distinct_names u)) as Hin.
    { intros vs ws H1 H2. split; intros u Hu.
      - by apply (any_elements_below v vs).
      - eapply any_elements_distinct; [exact H2|exact Hd|exact Hu]. }
    destruct Hr as [v e t d Hh Hc|name prim class v p e t d Hw Hcl Hp Hpr Hc| | |t|v t d Hv Hr|v vs t ds He' Hf|v vs He' Hf|v vs ts ds He' Hl Hf
      |v u t d He' Hr|vs fs ds Hl Hf|c l ms fs ds Hf Hi|c l ms t m ds Hpl Hf Hs Hm|c l ms Hpl Hf| |v vs ds He' Hf|c l ms m ds Hpl Hf Hs Hm].
    - destruct (holds_equal _ _ _ He Ha Hh) as (e' & Hh' & Hee). destruct (converts_equal _ _ _ _ Hee Hc) as (d' & Hc' & Hdd).
      exists d'. split; [by eapply R_scalar|done].
    - apply equal_obj in He as (ns & -> & Hpm & Hm).
      assert (exists w, ns = [(lit "m_value", w)]) as [w ->].
      { cbn [map fst] in Hpm. pose proof (Permutation_length Hpm) as Hlen. rewrite map_length in Hlen. destruct ns as [|[k w] [|]]; try done.
        cbn [map fst] in Hpm. apply Permutation_length_1 in Hpm. rewrite <- Hpm. by exists w. }
      destruct (IH v ltac:(eapply below_member; cbn; by left) w prim p) as (p' & Hp' & Hpe).
      + split; [eapply Hm; by left|eapply alike_member; [exact Ha|by left|by left]].
      + inversion Hd as [o Hn Hdm| |]; subst; [|done]. cbn in Hdm. by inversion Hdm.
      + done.
      + destruct (primitive_equal _ _ _ Hpe Hpr) as (e' & Hpr' & Hee). destruct (converts_equal _ _ _ _ Hee Hc) as (d' & Hc' & Hdd).
        exists d'. split; [by eapply R_wrapper|done].
    - apply equal_null in He as ->. eexists. split; [constructor|by constructor].
    - apply equal_null in He as ->. eexists. split; [constructor|by constructor].
    - by destruct (Ho t).
    - by destruct (Ho t).
    - destruct (any_elements_both _ _ _ Hb Hd He') as (ws & Hw & Hfb). destruct (Hin vs ws He' Hw) as [H1 H2].
      destruct (Hseq vs w ws t ds Hd Hfb H1 H2 Hf) as (ds' & Hds & Hes). exists (D_seq ds'). split; [by eapply R_vec|by constructor].
    - destruct (any_elements_both _ _ _ Hb Hd He') as (ws & Hw & Hfb). destruct (Hin vs ws He' Hw) as [H1 H2].
      exists D_ignored. split; [|by constructor]. eapply R_seq_ignored; [exact Hw|]. apply Forall_lookup. intros i u' Hu'.
      destruct (Forall2_lookup_r _ _ _ _ _ Hfb Hu') as (u & Hu & Hbu). rewrite Forall_lookup in Hf. apply elem_of_list_lookup_2 in Hu' as Hu2.
      destruct (IH u ltac:(apply H1; by eapply elem_of_list_lookup_2) u' T_ignored D_ignored Hbu (H2 _ Hu2) (Hf i u Hu)) as (d' & Hd' & Hdd).
      by inversion Hdd; subst.
    - destruct (elements_both _ _ _ Hb Hd He') as (ws & Hw & Hfb).
      destruct (Hin vs ws (A_elements _ _ He') (A_elements _ _ Hw)) as [H1 H2].
      destruct (Heach vs ws ts ds Hfb H1 H2 Hl Hf) as (ds' & Hds & Hes). exists (D_seq ds'). split; [|by constructor].
      eapply R_tuple; [exact Hw| |exact Hds]. rewrite <- Hl. symmetry. by apply Forall2_length in Hfb.
    - destruct (elements_both _ _ _ Hb Hd He') as (ws & Hw & Hfb). inversion Hfb as [|? u' ? ws' Hbu Hfb']; subst. inversion Hfb'; subst.
      destruct (Hin [u] [u'] (A_elements _ _ He') (A_elements _ _ Hw)) as [H1 H2].
      destruct (IH u ltac:(apply H1; by left) u' t d Hbu ltac:(apply H2; by left) Hr) as (d' & Hd' & Hdd).
      exists (D_newtype d'). split; [by eapply R_newtype|by constructor].
    - destruct (equal_array _ _ He) as (ws & -> & Hf0). pose proof (both_elements _ _ Hf0 Ha) as Hfb.
      destruct (Hin vs ws ltac:(by do 2 constructor) ltac:(by do 2 constructor)) as [H1 H2].
      destruct (Heach vs ws (map snd fs) ds Hfb H1 H2) as (ds' & Hds & Hes).
      + by rewrite map_length.
      + by apply zip_fields.
      + exists (D_struct (zip (map fst fs) ds')). split.
        * apply R_struct_array; [rewrite <- Hl; symmetry; by apply Forall2_length in Hfb|]. by apply zip_fields.
        * constructor. apply struct_zip. done.
    - destruct (equal_obj _ _ _ _ He) as (ns & -> & Hp & Hm).
      assert (NoDup (map fst ns) /\ forall k w, (k, w) ∈ ns -> distinct_names w) as [Hn Hdn].
      { inversion Hd as [o Hn Hdm| |]; subst; [|done]. cbn in Hn, Hdm. split; [done|]. rewrite Forall_forall in Hdm. intros k x Hkw. apply (Hdm _ Hkw). }
      assert (forall k u u' t d, (k, u) ∈ ms -> (k, u') ∈ ns -> reads u t d -> exists d', reads u' t d' /\ equal_data d d') as Hmem.
      { intros k u u' t d Hu Hu' Hr. eapply (IH u); [by eapply below_member| |by eapply Hdn|exact Hr].
        split; [by eapply Hm|by eapply alike_member]. }
      assert (exists ds', Forall2 (fun f d => (exists u, (f.1, u) ∈ ns /\ reads u f.2 d)
                        \/ (f.1 ∉ map fst ns /\ (exists t, f.2 = T_option t) /\ d = D_none)) fs ds' /\ Forall2 equal_data ds ds') as (ds' & Hds & Hes).
      { clear -Hf Hmem Hp. induction Hf as [|f d fs ds Hfd _ (ds' & H1 & H2)]; [exists []; by split|].
        destruct Hfd as [(u & Hu & Hr)|(Hno & Ht & ->)].
        - destruct (names_find _ _ _ _ Hp Hu) as [u' Hu']. destruct (Hmem _ _ _ _ _ Hu Hu' Hr) as (d' & Hd' & Hdd).
          exists (d' :: ds'). split; constructor; try done. left. by exists u'.
        - exists (D_none :: ds'). split; constructor; try done; [|by constructor]. right. by rewrite <- Hp. }
      exists (D_struct (zip (map fst fs) ds')). split; [|constructor; by apply struct_zip].
      apply R_struct; [done|]. apply Forall_forall. intros [k w] Hkw. cbn [fst snd].
      destruct (names_find _ _ _ _ (symmetry Hp) Hkw) as [u Hu]. rewrite Forall_forall in Hi. destruct (Hi _ Hu) as [Hk|Hr]; [by left|right].
      cbn [snd] in Hr. destruct (Hmem _ _ _ _ _ Hu Hkw Hr) as (d' & Hd' & Hdd). by inversion Hdd; subst.
    - destruct (equal_obj _ _ _ _ He) as (ns & -> & Hp & Hme).
      assert (NoDup (map fst ns) /\ forall k w, (k, w) ∈ ns -> distinct_names w) as [Hn Hdn].
      { inversion Hd as [o Hn Hdm| |]; subst; [|done]. cbn in Hn, Hdm. split; [done|]. rewrite Forall_forall in Hdm. intros k x Hkw. apply (Hdm _ Hkw). }
      destruct (map_equal t ms ns m ds Hp Hn) as (m' & ds' & H1 & H2 & H3 & H4); [|done|done|done|].
      + intros k u u' d Hu Hu' Hr. eapply (IH u); [by eapply below_member| |by eapply Hdn|exact Hr].
        split; [by eapply Hme|by eapply alike_member].
      + exists (D_map m'). split; [by eapply R_map|done].
    - destruct (equal_obj _ _ _ _ He) as (ns & -> & Hp & Hme).
      assert (NoDup (map fst ns) /\ forall k w, (k, w) ∈ ns -> distinct_names w) as [Hn Hdn].
      { inversion Hd as [o Hn Hdm| |]; subst; [|done]. cbn in Hn, Hdm. split; [done|]. rewrite Forall_forall in Hdm. intros k x Hkw. apply (Hdm _ Hkw). }
      exists D_ignored. split; [|by constructor]. apply R_map_ignored; [done|]. apply Forall_forall. intros [k w] Hkw. cbn [snd].
      destruct (names_find _ _ _ _ (symmetry Hp) Hkw) as [u Hu]. rewrite Forall_forall in Hf. pose proof (Hf _ Hu) as Hr. cbn [snd] in Hr.
      destruct (IH u ltac:(by eapply below_member) w T_ignored D_ignored) as (d' & Hd' & Hdd).
      + split; [by eapply Hme|by eapply alike_member].
      + by eapply Hdn.
      + done.
      + by inversion Hdd; subst.
    - apply equal_null in He as ->. eexists. split; [constructor|by constructor].
    - destruct (any_elements_both _ _ _ Hb Hd He') as (ws & Hw & Hfb). destruct (Hin vs ws He' Hw) as [H1 H2].
      destruct (Hseq vs w ws T_any ds Hd Hfb H1 H2 Hf) as (ds' & Hds & Hes). exists (D_seq ds'). split; [by eapply R_seq_any|by constructor].
    - destruct (equal_obj _ _ _ _ He) as (ns & -> & Hp & Hme).
      assert (NoDup (map fst ns) /\ forall k w, (k, w) ∈ ns -> distinct_names w) as [Hn Hdn].
      { inversion Hd as [o Hn Hdm| |]; subst; [|done]. cbn in Hn, Hdm. split; [done|]. rewrite Forall_forall in Hdm. intros k x Hkw. apply (Hdm _ Hkw). }
      destruct (map_equal T_any ms ns m ds Hp Hn) as (m' & ds' & H1 & H2 & H3 & H4); [|done|done|done|].
      + intros k u u' d Hu Hu' Hr. eapply (IH u); [by eapply below_member| |by eapply Hdn|exact Hr].
        split; [by eapply Hme|by eapply alike_member].
      + exists (D_map m'). split; [by eapply R_map_any|done]. }
  intros w t. induction t; intros d Hb Hd Hr; try (by apply Hcore).
  assert ((v = VNull /\ d = D_none) \/ exists d0, d = D_some d0 /\ v <> VNull /\ reads v t d0) as [[-> ->]|(d0 & -> & Hv & Hr0)].
  { inversion Hr; subst; try (by left); try (right; by eauto).
    - match goal with H : converts _ _ _ |- _ => inversion H end.
    - match goal with H : converts _ _ _ |- _ => inversion H end. }
  - destruct Hb as [He _]. apply equal_null in He as ->. exists D_none. split; [constructor|by constructor].
  - destruct (IHt d0 Hb Hd Hr0) as (d' & Hd' & Hdd). exists (D_some d'). split; [|by constructor]. constructor; [|done].
    intros ->. apply Hv. destruct Hb as [He _]. by apply equal_is_null in He.
Qed.
End with_libs.
