(** * PropsL: C56, C57: [from_slice] follows the rules of Reading.v; its results are well typed. *)
From stdpp Require Import sorting.
From Verif Require Import Base Utf8 Value DataTypes Records Parser Wire BaseLemmas Utf8Lemmas Spec Safety PropsA
  Serde SerdeLemmas SerdeSpec PropsG PropsH PropsI Reading Made.
From Coq Require Import Lia.
From Coq Require Strings.String.
Import String.StringSyntax.

Section with_libs.
Context {DL : DecimalLib} {FL : FloatLib}.

(** ** Scalars *)

Lemma conv_bool t b d : visit_bool t b = SOk d <-> converts (Bool b) t d.
Proof. split; [destruct t; try done; intros [= <-]; constructor|by inversion 1]. Qed.
Lemma conv_int t z d : visit_int t z = SOk d <-> converts (Int z) t d.
Proof.
  split.
  - destruct t as [|k| | | | | | | | | | | | | | | |]; try done; try (intros [= <-]; constructor).
    rewrite visit_int_int. intros [H ->]. by constructor.
  - inversion 1; subst; try done. by apply visit_int_int.
Qed.
Lemma conv_f32 t z d : visit_f32 t z = SOk d <-> converts (Single z) t d.
Proof. split; [destruct t; try done; intros [= <-]; constructor|by inversion 1]. Qed.
Lemma conv_f64 t z d : visit_f64 t z = SOk d <-> converts (Double z) t d.
Proof. split; [destruct t; try done; intros [= <-]; constructor|by inversion 1]. Qed.
Lemma conv_char t c d : visit_char t c = SOk d <-> converts (Char c) t d.
Proof. split; [destruct t; try done; intros [= <-]; constructor|by inversion 1]. Qed.
Lemma conv_text t s d : utf8 s -> visit_str t s = SOk d <-> converts (Text s) t d.
Proof.
  intros Hs. split.
  - destruct t; try done; cbn [visit_str]; try (intros [= <-]; constructor).
    destruct (single_char s) as [c|] eqn:E; [|done]. apply single_char_iff in E as [Hc ->]; [|done].
    intros [= <-]. by constructor.
  - inversion 1; subst; try done. cbn [visit_str]. by rewrite single_char_enc.
Qed.
Lemma conv_borrowed t s d : utf8 s -> visit_borrowed_str t s = SOk d <-> converts (Borrowed s) t d.
Proof.
  intros Hs. split.
  - destruct t; try done; cbn [visit_borrowed_str visit_str]; try (intros [= <-]; constructor).
    destruct (single_char s) as [c|] eqn:E; [|done]. apply single_char_iff in E as [Hc ->]; [|done].
    intros [= <-]. by constructor.
  - inversion 1; subst; try done. cbn [visit_borrowed_str visit_str]. by rewrite single_char_enc.
Qed.
Lemma conv_primitive t x d : visit_primitive t x = SOk d <-> exists e, primitive x e /\ converts e t d.
Proof.
  split.
  - destruct x; try done; cbn [visit_primitive]; intros H; eexists; (split; [constructor|]);
      [by apply conv_bool|by apply conv_int|by apply conv_f32|by apply conv_f64|by apply conv_char].
  - intros (e & [] & H); cbn [visit_primitive]; [by apply conv_bool|by apply conv_int|by apply conv_f32|by apply conv_f64|by apply conv_char].
Qed.

(** ** Classes *)

Lemma wrapper_of_iff name t : wrapper_of name t <-> (name, t) ∈ wrapper_classes.
Proof.
  split.
  - intros []; [apply (hm_get_in _ wrapper_classes); reflexivity..|by apply int_wrapper_class].
  - intros H. destruct t as [|k| | | | | | | | | | | | | | | |];
      [|constructor; by apply class_int_wrapper|..];
      (unfold wrapper_classes in H;
       repeat (apply elem_of_cons in H as [H|H]; [first [discriminate H|injection H as ->; constructor]|]);
       by apply elem_of_nil in H).
Qed.
Lemma plain_class_iff c l : plain_class c l <-> ordinary c l.
Proof.
  unfold plain_class, ordinary. rewrite wrapper_class_type. split; (intros [H|[H1 H2]]; [by left|right; split; [|done]]).
  - intros [t H]. apply (H1 (class_name c) t); [apply wrapper_of_iff; by apply hm_get_in|apply class_name_cases].
  - intros name t H Hc. destruct H1. exists t. eapply wrapper_get; [by apply wrapper_of_iff|done].
Qed.
Lemma usize_eq z : i32_as_usize z = Z.to_N (as_usize z).
Proof. done. Qed.
Lemma as_usize_nonneg z : (0 <= as_usize z)%Z.
Proof. unfold as_usize. apply Z.mod_pos_bound. lia. Qed.

(** ** Ignored values *)

Lemma reads_ignored v d : reads v T_ignored d -> d = D_ignored.
Proof.
  inversion 1 as [? ? ? ? _ Hc|? ? ? ? ? ? ? ? _ _ _ _ Hc| | | | | | | | | | | | | | |]; subst; try done; by inversion Hc.
Qed.

(** ** The rules *)

(** What the values of parsed messages satisfy. *)
Definition sound_value (v : value) : Prop := distinct_names v /\ forall s, sub_value (VString s) v -> utf8 s.
Lemma sound_member c l ms k u : sound_value (VObject (mkObj c l ms)) -> (k, u) ∈ ms -> sound_value u.
Proof.
  intros [Hd Hs] Hin. split.
  - inversion Hd as [? _ H| |? Hf]; subst; [|done]. rewrite Forall_forall in H. by apply (H (k, u)).
  - intros s H. apply Hs. by eapply sub_member.
Qed.
Lemma sound_element vs u : sound_value (VArray vs) -> u ∈ vs -> sound_value u.
Proof.
  intros [Hd Hs] Hin. split.
  - inversion Hd as [|? H|? Hf]; subst; [|done]. rewrite Forall_forall in H. by apply H.
  - intros s H. apply Hs. by eapply sub_element.
Qed.

Lemma each_struct_map (fs : list (str * target)) vs ds : length vs = length fs ->
  each_de (map snd fs) (map value_deserialize vs) = SOk ds
  <-> Forall2 (fun uf d => value_deserialize uf.1 uf.2.2 = SOk d) (zip vs fs) ds.
Proof.
  intros Hl. rewrite each_de_map by (by rewrite map_length).
  replace (zip vs (map snd fs)) with (map (fun uf => (uf.1, uf.2.2)) (zip vs fs)).
  - by rewrite Forall2_fmap_l.
  - clear ds. revert fs Hl. induction vs as [|v vs IH]; intros [|f fs] Hl; try done. cbn. f_equal. apply IH. cbn in Hl. lia.
Qed.
Lemma Forall2_iff_in {A B} (P Q : A -> B -> Prop) l k :
  (forall x y, x ∈ l -> P x y <-> Q x y) -> Forall2 P l k <-> Forall2 Q l k.
Proof. intros H. split; intros Hf; eapply Forall2_impl_in; try exact Hf; intros x y Hx _; by apply H. Qed.
Lemma Forall_iff_in {A} (P Q : A -> Prop) l : (forall x, x ∈ l -> P x <-> Q x) -> Forall P l <-> Forall Q l.
Proof. rewrite !Forall_forall. intros H. split; intros Hf x Hx; apply H; auto. Qed.
Lemma zip_in_l {A B} (l : list A) (k : list B) x : x ∈ zip l k -> x.1 ∈ l /\ x.2 ∈ k.
Proof. destruct x as [a b]. intros H. split; [by eapply elem_of_zip_l|by eapply elem_of_zip_r]. Qed.

(** The rules for the elements of a sequence. *)
Section sequences.
Context (items : list value).
Context (IH : forall u, u ∈ items -> forall t d, rust_type t -> value_deserialize u t = SOk d <-> reads u t d).
Lemma items_vec t vs ds : rust_type t -> (forall u, u ∈ vs -> u ∈ items) ->
  all_de t (map value_deserialize vs) = SOk ds <-> Forall2 (fun u d => reads u t d) vs ds.
Proof. intros Ht Hin. rewrite all_de_map. apply Forall2_iff_in. intros u d Hu. apply IH; [by apply Hin|done]. Qed.
Lemma items_ignored vs : (forall u, u ∈ vs -> u ∈ items) ->
  (exists ds, all_de T_ignored (map value_deserialize vs) = SOk ds) <-> Forall (fun u => reads u T_ignored D_ignored) vs.
Proof.
  intros Hin. rewrite all_de_exists. apply Forall_iff_in. intros u Hu. split.
  - intros [d H]. apply IH in H; [|by apply Hin|by constructor]. by pose proof (reads_ignored _ _ H) as ->.
  - intros H. exists D_ignored. apply IH; [by apply Hin|by constructor|done].
Qed.
Lemma items_tuple ts vs ds : Forall rust_type ts -> length vs = length ts -> (forall u, u ∈ vs -> u ∈ items) ->
  each_de ts (map value_deserialize vs) = SOk ds <-> Forall2 (fun ut d => reads ut.1 ut.2 d) (zip vs ts) ds.
Proof.
  intros Ht Hl Hin. rewrite each_de_map by done. rewrite Forall_forall in Ht. apply Forall2_iff_in.
  intros ut d [H1 H2]%zip_in_l. apply IH; auto.
Qed.
Lemma items_struct (fs : list (str * target)) vs ds : Forall (fun f => rust_type f.2) fs -> length vs = length fs -> (forall u, u ∈ vs -> u ∈ items) ->
  each_de (map snd fs) (map value_deserialize vs) = SOk ds <-> Forall2 (fun uf d => reads uf.1 uf.2.2 d) (zip vs fs) ds.
Proof.
  intros Ht Hl Hin. rewrite each_struct_map by done. rewrite Forall_forall in Ht. apply Forall2_iff_in.
  intros uf d [H1 H2]%zip_in_l. apply IH; auto.
Qed.
End sequences.

Definition no_option (t : target) : Prop := forall u, t <> T_option u.
Definition no_struct (t : target) : Prop := forall fs, t <> T_struct fs.
Lemma not_ordinary_wrapper name prim c : wrapper_of name prim -> is_class name c -> ~ ordinary c None.
Proof.
  intros Hw Hc Ho. apply plain_class_iff in Ho as [Ho|[Ho _]]; [done|]. by apply (Ho name prim).
Qed.
Lemma not_ordinary_list c : is_list_class c -> ~ ordinary c None.
Proof. intros Hc [Ho|[_ Ho]]; done. Qed.
Lemma not_wrapper_list name prim c : wrapper_of name prim -> is_class name c -> ~ is_list_class c.
Proof.
  intros Hw Hc Hl. apply list_class_get in Hl as [Hl _]. apply wrapper_of_iff in Hw.
  by rewrite (wrapper_get _ _ _ Hw Hc) in Hl.
Qed.
Lemma any_elements_class c l ms vs : any_elements (VObject (mkObj c l ms)) vs ->
  l = None /\ is_list_class c /\ exists items size version, list_members items size version ms.
Proof.
  inversion 1 as [? ? He|]; subst; [inversion He; subst|]; (split; [done|]; split; [done|]); eauto.
Qed.
Lemma elements_class c l ms vs : elements (VObject (mkObj c l ms)) vs ->
  l = None /\ is_list_class c /\ exists items size version, list_members items size version ms.
Proof. intros H. eapply any_elements_class. by constructor. Qed.

Section objects.
Context (c : str) (l : option str) (ms : list (str * value)).
Context (Hn : NoDup (map fst ms)).
Context (IH : forall k u, (k, u) ∈ ms -> forall t d, rust_type t -> value_deserialize u t = SOk d <-> reads u t d).

Lemma reads_struct_object fs d : rust_type (T_struct fs) ->
  visit_map (T_struct fs) (entries value_deserialize ms) = SOk d
  <-> reads (VObject (mkObj c l ms)) (T_struct fs) d.
Proof.
  intros Ht. inversion Ht as [| | | | |? Hfs Hft|? Hf]; subst; [|done]. rewrite Forall_forall in Hft.
  rewrite visit_map_struct by done.
  assert (forall ds, Forall2 (field_from ms) fs ds <->
    Forall2 (fun f d => (exists u, (f.1, u) ∈ ms /\ reads u f.2 d)
                        \/ (f.1 ∉ map fst ms /\ (exists t, f.2 = T_option t) /\ d = D_none)) fs ds) as Hds.
  { intros ds. apply Forall2_iff_in. intros f x Hfi. unfold field_from. apply or_iff_compat_r.
    split; intros (u & Hu & H); exists u; (split; [done|]); eapply IH; eauto. }
  assert ((forall k v, (k, v) ∈ ms -> k ∉ map fst fs -> exists d', value_deserialize v T_ignored = SOk d')
    <-> Forall (fun m => m.1 ∈ map fst fs \/ reads m.2 T_ignored D_ignored) ms) as Hig.
  { rewrite Forall_forall. split.
    - intros H [k u] Hin. destruct (decide (k ∈ map fst fs)) as [|Hk]; [by left|]. right.
      destruct (H k u Hin Hk) as [x Hx]. apply (IH k) in Hx; [|done|by constructor]. cbn.
      by pose proof (reads_ignored _ _ Hx) as ->.
    - intros H k u Hin Hk. destruct (H (k, u) Hin) as [?|Hr]; [done|]. exists D_ignored. apply (IH k); [done|by constructor|done]. }
  split.
  - intros [(ds & -> & H1) H2]. apply R_struct; [by apply Hds|by apply Hig].
  - inversion 1 as [? ? ? ? Hh _|? ? ? ? ? ? ? ? _ _ _ _ Hc| | | | | | | | | |? ? ? ? ds H1 H2| | | | |]; subst; [inversion Hh|inversion Hc|].
    split; [exists ds; split; [done|by apply Hds]|by apply Hig].
Qed.

Lemma reads_plain t d : ordinary c l -> rust_type t -> no_option t ->
  visit_map t (entries value_deserialize ms) = SOk d <-> reads (VObject (mkObj c l ms)) t d.
Proof.
  intros Ho Ht Hno.
  assert (forall vs, ~ any_elements (VObject (mkObj c l ms)) vs) as Hae.
  { intros vs (-> & Hc & _)%any_elements_class. by apply (not_ordinary_list c). }
  assert (forall vs, ~ elements (VObject (mkObj c l ms)) vs) as He.
  { intros vs H. apply (Hae vs). by constructor. }
  assert (forall t d, reads (VObject (mkObj c l ms)) t d -> t = T_ignored \/ (exists u, t = T_option u)
    \/ (exists u, t = T_map u) \/ (exists fs, t = T_struct fs) \/ t = T_any) as Hinv.
  { intros t0 d0. inversion 1 as [? ? ? ? Hh|? ? ? ? ? ? ? ? Hw Hc| | | | | | | | | | | | | | |]; subst;
      [inversion Hh|by destruct (not_ordinary_wrapper _ _ _ Hw Hc)|eauto 10..].
    - by destruct (Hae vs).
    - by destruct (He vs).
    - by destruct (He [u]). }
  destruct t as [| | | | | | | | |u| | |t|fs| | | |];
    try (split; [done|]; intros H; by destruct (Hinv _ _ H) as [?|[[? ?]|[[? ?]|[[? ?]|?]]]]).
  - by destruct (Hno u).
  - inversion Ht as [| |? Ht'| | | |? Hf]; subst; [|done]. rewrite visit_map_map by done. split.
    + intros (m & ds & -> & Hs & Hp & Hf). eapply R_map; [by apply plain_class_iff| |done|done].
      eapply Forall2_iff_in; [|exact Hf]. intros [k u] x Hin. symmetry. by apply (IH k).
    + inversion 1 as [? ? ? ? Hh _|? ? ? ? ? ? ? ? _ _ _ _ Hc| | | | | | | | | | |? ? ? ? m ds Hp Hf Hs Hpe| | | |]; subst; [inversion Hh|inversion Hc|].
      exists m, ds. split_and!; [done..|]. eapply Forall2_iff_in; [|exact Hf]. intros [k u] x Hin. by apply (IH k).
  - by apply reads_struct_object.
  - cbn [visit_map]. 
    assert (ignore_loop (entries value_deserialize ms) = SOk tt <-> Forall (fun kv => reads kv.2 T_ignored D_ignored) ms) as Hi.
    { rewrite ignore_loop_ok. unfold entries. rewrite Forall_fmap. apply Forall_iff_in. intros [k u] Hin. cbn. split.
      - intros [x Hx]. apply (IH k) in Hx; [|done|by constructor]. by pose proof (reads_ignored _ _ Hx) as ->.
      - intros Hr. exists D_ignored. apply (IH k); [done|by constructor|done]. }
    rewrite sres_bind_ok. split.
    + intros ([] & H & [= <-]). apply R_map_ignored; [by apply plain_class_iff|by apply Hi].
    + inversion 1 as [? ? ? ? Hh _|? ? ? ? ? ? ? ? Hw Hc| | | | |? ? Hv| | | | | | |? ? ? Hp Hf| | |]; subst;
        [inversion Hh|by destruct (not_ordinary_wrapper _ _ _ Hw Hc)|by destruct (Hae vs)|].
      exists tt. split; [by apply Hi|done].
  - rewrite map_any, visit_map_map by done. split.
    + intros (m & ds & -> & Hs & Hp & Hf). eapply R_map_any; [by apply plain_class_iff| |done|done].
      eapply Forall2_iff_in; [|exact Hf]. intros [k u] x Hin. symmetry. apply (IH k); [done|by constructor].
    + inversion 1 as [? ? ? ? Hh _|? ? ? ? ? ? ? ? Hw Hc| | | | | | | | | | | | | |? ? ? Hv|? ? ? m ds Hp Hf Hs Hpe]; subst;
        [inversion Hh|by destruct (not_ordinary_wrapper _ _ _ Hw Hc)|by destruct (Hae vs)|].
      exists m, ds. split_and!; [done..|]. eapply Forall2_iff_in; [|exact Hf]. intros [k u] x Hin. apply (IH k); [done|by constructor].
Qed.

Lemma reads_bad t d : no_option t -> no_struct t -> ~ ordinary c l ->
  (forall name prim v, wrapper_of name prim -> is_class name c -> ms <> [(lit "m_value", v)]) ->
  (is_list_class c -> forall items size version, ~ list_members items size version ms) ->
  ~ reads (VObject (mkObj c l ms)) t d.
Proof.
  clear Hn IH. intros Hno Hns Ho Hw Hl.
  assert (forall vs, ~ any_elements (VObject (mkObj c l ms)) vs) as Hae.
  { intros vs (-> & Hc & i & s & v & Hm)%any_elements_class. by apply (Hl Hc i s v). }
  assert (forall vs, ~ elements (VObject (mkObj c l ms)) vs) as He.
  { intros vs H. apply (Hae vs). by constructor. }
  inversion 1 as [? ? ? ? Hh|? ? ? ? ? ? ? ? Hw' Hc| | | |? ? ? ? ?| | | | | | |? ? ? ? ? ? Hp|? ? ? Hp| | |? ? ? ? ? Hp]; subst.
  - inversion Hh.
  - by eapply Hw.
  - by destruct (Hno _ eq_refl).
  - by destruct (Hae vs).
  - by destruct (Hae vs).
  - by destruct (He vs).
  - by destruct (He [u]).
  - by destruct (Hns _ eq_refl).
  - by apply plain_class_iff in Hp.
  - by apply plain_class_iff in Hp.
  - by destruct (Hae vs).
  - by apply plain_class_iff in Hp.
Qed.
End objects.

Lemma reads_wrapper name prim c v t d : wrapper_of name prim -> is_class name c ->
  (forall x, value_deserialize v prim = SOk x <-> reads v prim x) -> no_option t -> no_struct t ->
  sres_bind (value_deserialize v prim) (visit_primitive t) = SOk d
  <-> reads (VObject (mkObj c None [(lit "m_value", v)])) t d.
Proof.
  intros Hw Hc IH Hno Hns. rewrite sres_bind_ok. setoid_rewrite IH. setoid_rewrite conv_primitive. split.
  - intros (x & Hx & e & He & Hd). by eapply R_wrapper.
  - inversion 1 as [? ? ? ? Hh|? prim' ? ? p e ? ? Hw' Hc' Hr Hp Hcv| | | |? ? ? ? ?|? ? ? ? Hv|? ? Hv|? ? ? ? Hv|? ? ? ? Hv| | |? ? ? ? ? ? Hp|? ? ? Hp| |? ? ? Hv|? ? ? ? ? Hp]; subst.
    + inversion Hh.
    + assert (prim' = prim) as ->.
      { apply wrapper_of_iff in Hw, Hw'. pose proof (wrapper_get _ _ _ Hw Hc). pose proof (wrapper_get _ _ _ Hw' Hc'). congruence. }
      eauto 6.
    + by destruct (Hno _ eq_refl).
    + apply any_elements_class in Hv as (_ & Hl & _). by destruct (not_wrapper_list _ _ _ Hw Hc).
    + apply any_elements_class in Hv as (_ & Hl & _). by destruct (not_wrapper_list _ _ _ Hw Hc).
    + apply elements_class in Hv as (_ & Hl & _). by destruct (not_wrapper_list _ _ _ Hw Hc).
    + apply elements_class in Hv as (_ & Hl & _). by destruct (not_wrapper_list _ _ _ Hw Hc).
    + by destruct (Hns _ eq_refl).
    + apply plain_class_iff in Hp. by destruct (not_ordinary_wrapper _ _ _ Hw Hc).
    + apply plain_class_iff in Hp. by destruct (not_ordinary_wrapper _ _ _ Hw Hc).
    + apply any_elements_class in Hv as (_ & Hl & _). by destruct (not_wrapper_list _ _ _ Hw Hc).
    + apply plain_class_iff in Hp. by destruct (not_ordinary_wrapper _ _ _ Hw Hc).
Qed.

Section sequences2.
Context (v : value) (vs : list value).
Context (IH : forall u, u ∈ vs -> forall t d, rust_type t -> value_deserialize u t = SOk d <-> reads u t d).
(** [v] is neither a scalar nor an object of another kind. *)
Context (Hv : forall t d, reads v t d -> match t with
   | T_vec t => exists us ds, d = D_seq ds /\ any_elements v us /\ Forall2 (fun u d => reads u t d) us ds
   | T_tuple ts => exists us ds, d = D_seq ds /\ elements v us /\ length us = length ts
                     /\ Forall2 (fun ut d => reads ut.1 ut.2 d) (zip us ts) ds
   | T_newtype t => exists u x, d = D_newtype x /\ elements v [u] /\ reads u t x
   | T_ignored => exists us, any_elements v us /\ Forall (fun u => reads u T_ignored D_ignored) us
   | T_any => exists us ds, d = D_seq ds /\ any_elements v us /\ Forall2 (fun u d => reads u T_any d) us ds
   | T_option _ | T_struct _ => True
   | _ => False end).

Lemma reads_vec us t d : any_elements v us -> (forall us', any_elements v us' -> us' = us) ->
  (forall u, u ∈ us -> u ∈ vs) -> rust_type t ->
  sres_map D_seq (all_de t (map value_deserialize us)) = SOk d <-> reads v (T_vec t) d.
Proof.
  intros He Hu Hin Ht. rewrite sres_map_ok. split.
  - intros (ds & H & ->). eapply R_vec; [done|]. by apply (items_vec vs IH).
  - intros (us' & ds & -> & H1 & H2)%Hv. apply Hu in H1 as ->. exists ds. split; [|done]. by apply (items_vec vs IH).
Qed.
Lemma reads_seq_any us d : any_elements v us -> (forall us', any_elements v us' -> us' = us) ->
  (forall u, u ∈ us -> u ∈ vs) ->
  sres_map D_seq (all_de T_any (map value_deserialize us)) = SOk d <-> reads v T_any d.
Proof.
  intros He Hu Hin. rewrite sres_map_ok. split.
  - intros (ds & H & ->). eapply R_seq_any; [done|]. apply (items_vec vs IH); [by constructor|done|done].
  - intros (us' & ds & -> & H1 & H2)%Hv. apply Hu in H1 as ->. exists ds. split; [|done].
    apply (items_vec vs IH); [by constructor|done|done].
Qed.
Lemma reads_seq_ignored us d : any_elements v us -> (forall us', any_elements v us' -> us' = us) ->
  (forall u, u ∈ us -> u ∈ vs) ->
  sres_map (fun _ => D_ignored) (all_de T_ignored (map value_deserialize us)) = SOk d <-> reads v T_ignored d.
Proof.
  intros He Hu Hin. rewrite sres_map_ok. split.
  - intros (ds & H & ->). eapply R_seq_ignored; [done|]. apply (items_ignored vs IH); eauto.
  - intros H. pose proof (reads_ignored _ _ H) as ->. apply Hv in H as (us' & H1 & H2). apply Hu in H1 as ->.
    apply (items_ignored vs IH) in H2 as [ds Hds]; eauto.
Qed.
Lemma reads_tuple us ts d : elements v us -> (forall us', elements v us' -> us' = us) ->
  (forall u, u ∈ us -> u ∈ vs) -> Forall rust_type ts -> length us = length ts ->
  sres_map D_seq (each_de ts (map value_deserialize us)) = SOk d <-> reads v (T_tuple ts) d.
Proof.
  intros He Hu Hin Ht Hl. rewrite sres_map_ok. split.
  - intros (ds & H & ->). eapply R_tuple; [done|done|]. by apply (items_tuple vs IH).
  - intros (us' & ds & -> & H1 & Hl' & H2)%Hv. apply Hu in H1 as ->. exists ds. split; [|done]. by apply (items_tuple vs IH).
Qed.
End sequences2.

(** Arrays. *)
Lemma elements_array vs us : elements (VArray vs) us <-> us = vs.
Proof. split; [by inversion 1|intros ->; constructor]. Qed.
Lemma any_elements_array vs us : any_elements (VArray vs) us <-> us = vs.
Proof. split; [inversion 1 as [? ? He|]; subst; by apply elements_array|intros ->; constructor; constructor]. Qed.
Lemma array_inv vs t d : reads (VArray vs) t d -> match t with
   | T_vec t => exists us ds, d = D_seq ds /\ any_elements (VArray vs) us /\ Forall2 (fun u d => reads u t d) us ds
   | T_tuple ts => exists us ds, d = D_seq ds /\ elements (VArray vs) us /\ length us = length ts
                     /\ Forall2 (fun ut d => reads ut.1 ut.2 d) (zip us ts) ds
   | T_newtype t => exists u x, d = D_newtype x /\ elements (VArray vs) [u] /\ reads u t x
   | T_ignored => exists us, any_elements (VArray vs) us /\ Forall (fun u => reads u T_ignored D_ignored) us
   | T_any => exists us ds, d = D_seq ds /\ any_elements (VArray vs) us /\ Forall2 (fun u d => reads u T_any d) us ds
   | T_option _ | T_struct _ => True
   | _ => False end.
Proof. inversion 1 as [? ? ? ? Hh| | | | | | | | | | | | | | | |]; subst; [inversion Hh|eauto 8..]. Qed.
Lemma reads_array vs t d :
  (forall u, u ∈ vs -> forall t d, rust_type t -> value_deserialize u t = SOk d <-> reads u t d) ->
  rust_type t -> no_option t ->
  value_deserialize_any value_deserialize (VArray vs) t = SOk d <-> reads (VArray vs) t d.
Proof.
  intros IH Ht Hno. cbn [value_deserialize_any].
  destruct t as [| | | | | | | | |u|t|ts| |fs|t| | |]; try (split; [done|]; intros H; by apply array_inv in H).
  - by destruct (Hno u).
  - rewrite array_vec. inversion Ht as [|? Ht'| | | | |? Hf]; subst; [|done].
    apply (reads_vec (VArray vs) vs IH (array_inv vs)); [by apply any_elements_array|by intros ? ?%any_elements_array|done|done].
  - rewrite array_tuple, map_length. inversion Ht as [| | | |? Ht'| |? Hf]; subst; [|done].
    destruct (Nat.eqb_spec (length vs) (length ts)) as [El|El].
    + apply (reads_tuple (VArray vs) vs IH (array_inv vs)); [constructor|by intros ? ?%elements_array|done|done|done].
    + split; [done|]. intros H. apply array_inv in H as (us & ds & _ & ->%elements_array & Hl & _). done.
  - rewrite array_struct, map_length. inversion Ht as [| | | | |? Hn Ht'|? Hf]; subst; [|done].
    destruct (Nat.eqb_spec (length vs) (length fs)) as [El|El].
    + rewrite sres_map_ok. split.
      * intros (ds & H & ->). apply R_struct_array; [done|]. by apply (items_struct vs IH).
      * inversion 1 as [? ? ? ? Hh| | | | | | | | | |? ? ds Hl Hf| | | | | |]; subst; [inversion Hh|].
        exists ds. split; [|done]. by apply (items_struct vs IH).
    + split; [done|]. inversion 1 as [? ? ? ? Hh| | | | | | | | | |? ? ds Hl Hf| | | | | |]; subst; [inversion Hh|done].
  - rewrite array_newtype. inversion Ht as [| | |? Ht'| | |? Hf]; subst; [|done].
    assert (reads (VArray vs) (T_newtype t) d <-> exists u x, vs = [u] /\ d = D_newtype x /\ reads u t x) as ->.
    { split; [intros (u & x & -> & He%elements_array & Hr)%array_inv; eauto|].
      intros (u & x & -> & -> & Hr). eapply R_newtype; [constructor|done]. }
    destruct vs as [|u [|u' vs]]; cbn [map].
    + split; [done|by intros (? & ? & ? & _)].
    + rewrite sres_map_ok. split.
      * intros (x & Hx & ->). exists u, x. split_and!; [done..|]. apply IH; [by left|done|done].
      * intros (u' & x & [= <-] & -> & Hr). exists x. split; [|done]. apply IH; [by left|done|done].
    + rewrite sres_bind_ok. split; [by intros (? & ? & ?)|by intros (? & ? & ? & _)].
  - rewrite array_ignored.
    apply (reads_seq_ignored (VArray vs) vs IH (array_inv vs)); [by apply any_elements_array|by intros ? ?%any_elements_array|done].
  - rewrite seq_any, array_vec.
    apply (reads_seq_any (VArray vs) vs IH (array_inv vs)); [by apply any_elements_array|by intros ? ?%any_elements_array|done].
Qed.

(** Lists. *)
Section lists.
Context (c : str) (ms : list (str * value)) (items : list value) (size version : Z).
Context (Hc : is_list_class c) (Hm : list_members items size version ms).
Context (IH : forall u, u ∈ items -> forall t d, rust_type t -> value_deserialize u t = SOk d <-> reads u t d).
Notation v := (VObject (mkObj c None ms)).
Lemma elements_list us : elements v us <-> (as_usize size <= Z.of_nat (length items))%Z
  /\ us = take (Z.to_nat (as_usize size)) items.
Proof using Hc Hm.
  split; [|intros [H ->]; by eapply E_list].
  inversion 1 as [|? ? items' size' ver' _ Hm' Hl]; subst.
  destruct (list_members_same _ _ _ _ _ _ _ Hm Hm') as (<- & <- & <-). done.
Qed.
Lemma any_elements_list us : any_elements v us <-> 
  ((as_usize size <= Z.of_nat (length items))%Z /\ us = take (Z.to_nat (as_usize size)) items)
  \/ (as_usize size = Z.of_nat (length items) + 1)%Z /\ us = items.
Proof using Hc Hm.
  rewrite <- elements_list. split.
  - inversion 1 as [|? ? items' size' ver' _ Hm' Hl]; subst; [by left|right].
    destruct (list_members_same _ _ _ _ _ _ _ Hm Hm') as (<- & <- & <-). done.
  - intros [H|[H ->]]; [by constructor|by eapply A_one_missing].
Qed.
Lemma list_inv t d : reads v t d -> match t with
   | T_vec t => exists us ds, d = D_seq ds /\ any_elements v us /\ Forall2 (fun u d => reads u t d) us ds
   | T_tuple ts => exists us ds, d = D_seq ds /\ elements v us /\ length us = length ts
                     /\ Forall2 (fun ut d => reads ut.1 ut.2 d) (zip us ts) ds
   | T_newtype t => exists u x, d = D_newtype x /\ elements v [u] /\ reads u t x
   | T_ignored => exists us, any_elements v us /\ Forall (fun u => reads u T_ignored D_ignored) us
   | T_any => exists us ds, d = D_seq ds /\ any_elements v us /\ Forall2 (fun u d => reads u T_any d) us ds
   | T_option _ | T_struct _ => True
   | _ => False end.
Proof using Hc Hm.
  inversion 1 as [? ? ? ? Hh|? ? ? ? ? ? ? ? Hw Hcl| | | | | | | | | | |? ? ? ? ? ? Hp|? ? ? Hp| | |? ? ? ? ? Hp]; subst; [inversion Hh| |eauto 8..| | |eauto 8|].
  - by destruct (not_wrapper_list _ _ _ Hw Hcl).
  - apply plain_class_iff in Hp. by destruct (not_ordinary_list c).
  - apply plain_class_iff in Hp. by destruct (not_ordinary_list c).
  - apply plain_class_iff in Hp. by destruct (not_ordinary_list c).
Qed.
Lemma each_de_take ts : length ts <= length items ->
  each_de ts (map value_deserialize items) = each_de ts (map value_deserialize (take (length ts) items)).
Proof using.
  clear. revert items. induction ts as [|t ts IH]; intros [|u us] Hl; cbn in Hl; try lia; try done.
  cbn. by rewrite IH by lia.
Qed.
Lemma reads_list t d : rust_type t -> no_option t -> no_struct t ->
  seq_deserialize_any (SA_list (map value_deserialize items) 0 0 (i32_as_usize size)) t = SOk d <-> reads v t d.
Proof using Hc Hm IH.
  intros Ht Hno Hns. rewrite usize_eq. pose proof (as_usize_nonneg size) as Hz.
  assert (forall u n, u ∈ take n items -> u ∈ items) as Htk by (intros u n; apply elem_of_take_in).
  destruct t as [| | | | | | | | |u|t|ts| |fs|t| | |]; try (split; [done|]; intros H; by apply list_inv in H).
  - by destruct (Hno u).
  - rewrite list_vec, map_length. inversion Ht as [|? Ht'| | | | |? Hf]; subst; [|done].
    destruct (N.leb_spec (Z.to_N (as_usize size)) (N.of_nat (length items))) as [Hl|Hl].
    + replace (N.to_nat (Z.to_N (as_usize size))) with (Z.to_nat (as_usize size)) by lia.
      change (map value_deserialize items) with (value_deserialize <$> items). rewrite <- fmap_take.
      apply (reads_vec v items IH list_inv); [..|by intros u; apply Htk|done].
      * apply any_elements_list. left. split; [lia|done].
      * intros us' [[_ ->]|[? ->]]%any_elements_list; [done|lia].
    + destruct (N.eqb_spec (Z.to_N (as_usize size)) (N.of_nat (length items) + 1)) as [El|El].
      * apply (reads_vec v items IH list_inv); [..|done|done].
        -- apply any_elements_list. right. split; [lia|done].
        -- intros us' [[? ->]|[_ ->]]%any_elements_list; [lia|done].
      * split; [done|]. intros (us & ds & _ & He & _)%list_inv. apply any_elements_list in He as [[? _]|[? _]]; lia.
  - rewrite list_tuple. inversion Ht as [| | | |? Ht'| |? Hf]; subst; [|done].
    destruct (N.eqb_spec (Z.to_N (as_usize size)) (N.of_nat (length ts))) as [El|El].
    + assert (Z.to_nat (as_usize size) = length ts) as Es by lia.
      destruct (Z.leb_spec (as_usize size) (Z.of_nat (length items))) as [Hl|Hl].
      * rewrite each_de_take by lia. rewrite <- Es.
        apply (reads_tuple v items IH list_inv); [..|by intros u; apply Htk|done|].
        -- apply elements_list. split; [lia|done].
        -- by intros us' [_ ->]%elements_list.
        -- rewrite take_length. lia.
      * split.
        -- intros (ds & H & _)%sres_map_ok. apply each_de_length in H as [H _]. rewrite map_length in H. lia.
        -- intros (us & ds & _ & He & _)%list_inv. apply elements_list in He as [? _]. lia.
    + split; [done|]. intros (us & ds & _ & He & Hlen & _)%list_inv. apply elements_list in He as [? ->].
      rewrite take_length in Hlen. lia.
  - by destruct (Hns fs).
  - rewrite list_newtype. inversion Ht as [| | |? Ht'| | |? Hf]; subst; [|done].
    assert (reads v (T_newtype t) d <-> exists u us x, items = u :: us /\ as_usize size = 1%Z /\ d = D_newtype x /\ reads u t x) as ->.
    { split.
      - intros (u & x & -> & [Hl He]%elements_list & Hr)%list_inv. assert (length [u] = Z.to_nat (as_usize size)) as Hlen.
        { rewrite He, take_length. lia. } cbn in Hlen.
        destruct items as [|u' us]; [by rewrite take_nil in He|]. replace (Z.to_nat (as_usize size)) with 1 in He by lia.
        cbn in He. injection He as <-. exists u, us, x. split_and!; [done|lia|done|done].
      - intros (u & us & x & Hi & Hs & -> & Hr). eapply R_newtype; [|done]. apply elements_list.
        rewrite Hs, Hi. cbn. split; [lia|done]. }
    destruct (N.eqb_spec (Z.to_N (as_usize size)) 0) as [E0|E0].
    { split; [done|]. intros (? & ? & ? & _ & ? & _). lia. }
    destruct items as [|u us]; cbn [map]; [split; [done|by intros (? & ? & ? & ? & _)]|].
    rewrite sres_bind_ok. split.
    + intros (x & Hx & H). destruct (N.eqb_spec (Z.to_N (as_usize size)) 1) as [E1|]; [|done]. injection H as <-.
      exists u, us, x. split_and!; [done|lia|done|]. apply IH; [by left|done|done].
    + intros (u' & us' & x & [= <- <-] & Hs & -> & Hr). exists x. rewrite Hs. split; [|done]. apply IH; [by left|done|done].
  - rewrite list_ignored, map_length.
    destruct (N.leb_spec (Z.to_N (as_usize size)) (N.of_nat (length items))) as [Hl|Hl].
    + replace (N.to_nat (Z.to_N (as_usize size))) with (Z.to_nat (as_usize size)) by lia.
      change (map value_deserialize items) with (value_deserialize <$> items). rewrite <- fmap_take.
      apply (reads_seq_ignored v items IH list_inv); [..|by intros u; apply Htk].
      * apply any_elements_list. left. split; [lia|done].
      * intros us' [[_ ->]|[? ->]]%any_elements_list; [done|lia].
    + destruct (N.eqb_spec (Z.to_N (as_usize size)) (N.of_nat (length items) + 1)) as [El|El].
      * apply (reads_seq_ignored v items IH list_inv); [..|done].
        -- apply any_elements_list. right. split; [lia|done].
        -- intros us' [[? ->]|[_ ->]]%any_elements_list; [lia|done].
      * split; [done|]. intros H. pose proof (reads_ignored _ _ H) as ->. apply list_inv in H as (us & He & _).
        apply any_elements_list in He as [[? _]|[? _]]; lia.
  - rewrite seq_any, list_vec, map_length.
    destruct (N.leb_spec (Z.to_N (as_usize size)) (N.of_nat (length items))) as [Hl|Hl].
    + replace (N.to_nat (Z.to_N (as_usize size))) with (Z.to_nat (as_usize size)) by lia.
      change (map value_deserialize items) with (value_deserialize <$> items). rewrite <- fmap_take.
      apply (reads_seq_any v items IH list_inv); [..|by intros u; apply Htk].
      * apply any_elements_list. left. split; [lia|done].
      * intros us' [[_ ->]|[? ->]]%any_elements_list; [done|lia].
    + destruct (N.eqb_spec (Z.to_N (as_usize size)) (N.of_nat (length items) + 1)) as [El|El].
      * apply (reads_seq_any v items IH list_inv); [..|done].
        -- apply any_elements_list. right. split; [lia|done].
        -- intros us' [[? ->]|[_ ->]]%any_elements_list; [lia|done].
      * split; [done|]. intros (us & ds & _ & He & _)%list_inv.
        apply any_elements_list in He as [[? _]|[? _]]; lia.
Qed.
End lists.

(** Scalars. *)
Lemma reads_scalar v t d : (forall x, utf8 (dec_to_string x)) -> (forall s, v = VString s -> utf8 s) ->
  match v with VObject _ | VArray _ => False | _ => True end -> no_option t ->
  value_deserialize_any value_deserialize v t = SOk d <-> reads v t d.
Proof.
  intros Hdec Hs Hv Hno.
  assert (v = VNull \/ exists e, holds v e /\ forall t d, value_deserialize_any value_deserialize v t = SOk d <-> converts e t d)
    as [->|(e & He & Hc)].
  { destruct v; try done; first [left; reflexivity|right; eexists; split; [once constructor|]]; intros t9 x9; cbn [value_deserialize_any];
      first [apply conv_bool|apply conv_int|apply conv_f32|apply conv_f64|apply conv_char|by apply conv_borrowed, Hs|by apply conv_text, Hdec]. }
  - cbn [value_deserialize_any]. destruct t as [| | | | | | | | |u| | | | | | | |]; cbn [visit_unit];
      try (split; [done|]; inversion 1 as [? ? ? ? Hh| | | | | |? ? ? ? Ha|? ? Ha|? ? ? ? Ha|? ? ? ? Ha| | | | | | |]; subst; [inversion Hh|..]; 
           try (inversion Ha as [? ? Ha'|]; subst; inversion Ha'); by inversion Ha).
    + split; [intros [= <-]; constructor|]. inversion 1 as [? ? ? ? Hh| | | | | | | | | | | | | | | |]; subst; [inversion Hh|done].
    + by destruct (Hno u).
    + split; [intros [= <-]; constructor|]. intros H. by rewrite (reads_ignored _ _ H).
    + split; [intros [= <-]; constructor|]. inversion 1 as [? ? ? ? Hh| | | | | | | | | | | | | | |? ? ? Ha|]; subst; [inversion Hh|done|].
      inversion Ha as [? ? Ha'|]; subst; inversion Ha'.
  - rewrite Hc. split; [by apply R_scalar|].
    inversion 1 as [? e' ? ? He' Hcv| | | | |? ? ? ? ?|? ? ? ? Ha|? ? Ha|? ? ? ? Ha|? ? ? ? Ha| | | | | |? ? ? Ha|]; subst; try done.
    + assert (e' = e) as -> by (destruct He; by inversion He'). done.
    + inversion He.
    + inversion He.
    + inversion He.
    + by destruct (Hno _ eq_refl).
    + inversion Ha as [? ? Ha'|]; subst; [inversion Ha'; subst|]; done.
    + inversion Ha as [? ? Ha'|]; subst; [inversion Ha'; subst|]; done.
    + inversion Ha; subst; done.
    + inversion Ha; subst; done.
    + inversion He.
    + inversion Ha as [? ? Ha'|]; subst; [inversion Ha'; subst|]; done.
Qed.

(** Everything. *)
Theorem reads_iff : (forall x, utf8 (dec_to_string x)) -> forall v, sound_value v ->
  forall t d, rust_type t -> value_deserialize v t = SOk d <-> reads v t d.
Proof.
  intros Hdec v. induction v as [v IH] using value_below_ind. intros Hv.
  assert ((forall t d, rust_type t -> no_option t -> no_struct t ->
      value_deserialize_any value_deserialize v t = SOk d <-> reads v t d)
    /\ (forall fs d, rust_type (T_struct fs) ->
      value_deserialize_struct value_deserialize v (T_struct fs) = SOk d <-> reads v (T_struct fs) d)) as [Ha Hst].
  2:{ intros t. induction t as [| | | | | | | | |t IHt| | | | | | | |]; intros d Ht; rewrite value_deserialize_eq;
        try (apply Ha; [done|intros u; discriminate|intros u; discriminate]); try (by apply Hst).
      inversion Ht as [? Ht'| | | | | |? Hf]; subst; [|done].
      rewrite <- value_deserialize_eq with (t := T_option t). rewrite C45_option. split.
      - intros [[-> ->]|(Hnn & x & -> & Hx)]; [constructor|]. constructor; [done|]. by apply IHt.
      - inversion 1 as [? ? ? ? Hh Hcv|? ? ? ? ? ? ? ? _ _ _ _ Hcv| | | |? ? x Hnn Hx| | | | | | | | | | |]; subst;
          [inversion Hcv|inversion Hcv|by left|]. right. split; [done|]. exists x. split; [done|]. by apply IHt. }
  assert (match v with VObject _ | VArray _ => False | _ => True end -> 
    forall t d, no_option t -> value_deserialize_any value_deserialize v t = SOk d <-> reads v t d) as Hsc.
  { intros H t d Hno. apply reads_scalar; [done| |done|done]. intros s ->. apply Hv. constructor. }
  destruct v as [[c l ms]|vs| | | | | | | | | | | | | | | | |];
    [| |(split; [intros ? ? _ Hno _; by apply Hsc|intros fs ? _; by apply (Hsc I (T_struct fs))])..].
  - assert (NoDup (map fst ms)) as Hn.
    { destruct Hv as [Hd _]. by inversion Hd as [? Hn _| |? Hf]; subst. }
    assert (forall k u, (k, u) ∈ ms -> forall t d, rust_type t -> value_deserialize u t = SOk d <-> reads u t d) as IHm.
    { intros k u Hin. apply IH; [by eapply below_member|by eapply sound_member]. }
    split; [|intros fs d Ht; by apply reads_struct_object].
    intros t d Ht Hno Hns.
    destruct (class_cases c l) as [Ho|(-> & [(name & prim & Hin & Hc)|Hc])].
    + rewrite ordinary_any by done. by apply reads_plain.
    + assert (wrapper_of name prim) as Hw by (by apply wrapper_of_iff).
      destruct (one_member ms) as [[u ->]|Hno1].
      * rewrite (any_wrapper _ _ _ _ _ _ Hin Hc). apply (reads_wrapper name); [done|done| |done|done].
        intros x. apply (IHm (lit "m_value")); [by left|]. constructor. apply wrapper_scalar in Hin. by destruct prim.
      * rewrite (any_wrapper_other _ _ _ _ _ _ Hin Hc Hno1). split; [done|]. intros H. exfalso. revert H.
        apply reads_bad; [done|done|by apply (not_ordinary_wrapper name prim c)|by intros ? ? u _ _; apply Hno1|]. intros Hl. by destruct (not_wrapper_list _ _ _ Hw Hc).
    + destruct (list_members_cases ms Hn) as [(items & z & ver & Hms)|Hnol].
      * rewrite (any_list _ _ _ _ _ _ _ Hc Hms). apply (reads_list c ms items z ver Hc Hms); [|done|done|done].
        intros u Hu. apply list_items_in in Hms. apply IH; [by eapply below_item|].
        apply (sound_element items); [|done]. by eapply sound_member.
      * split.
        -- intros H. exfalso. destruct (object_cases c None ms Hn) as [[Ho _]|[(name & prim & u & _ & _ & Hin & Hcl & _)|[(items & z & ver & _ & _ & Hm & _)|[_ H']]]].
           ++ by destruct (not_ordinary_list c).
           ++ apply wrapper_of_iff in Hin. by destruct (not_wrapper_list _ _ _ Hin Hcl).
           ++ by destruct (Hnol items z ver).
           ++ by rewrite H' in H.
        -- intros H. exfalso. revert H. apply reads_bad; [done|done|by apply not_ordinary_list| |done].
           intros name prim u Hw Hcl. by destruct (not_wrapper_list _ _ _ Hw Hcl).
  - assert (forall u, u ∈ vs -> forall t d, rust_type t -> value_deserialize u t = SOk d <-> reads u t d) as IHv.
    { intros u Hu. apply IH; [by apply below_element|by eapply sound_element]. }
    split; [intros t d Ht Hno _; by apply reads_array|]. intros fs d Ht. by apply (reads_array vs (T_struct fs)).
Qed.

(** ** C56 What a message is read as *)

Lemma parsed_sound W v : deserialize W = POk (MValue v) -> sound_value v.
Proof.
  intros HW. split; [by eapply parsed_distinct|]. intros s Hs. apply (C07_strings_utf8 W (MValue v)); [done|].
  right. exists (VString s). split; [|by left]. exists v. split; [by left|done].
Qed.
(** [Display] of a decimal is a [String], so UTF-8. *)
Definition decimal_text : Prop := forall x, utf8 (dec_to_string x).
Theorem C56_exact : decimal_text -> forall W t d, rust_type t ->
  from_slice t W = FOk d <-> exists v, deserialize W = POk (MValue v) /\ reads_top v t d.
Proof.
  intros Hdec W t d Ht.
  assert ((exists u, t = T_option u) \/ no_option t) as [[u ->]|Hno].
  { destruct t as [| | | | | | | | |u| | | | | | | |]; try (right; intros u' [=]; fail). left. by exists u. }
  - rewrite C45_top_level. split.
    + intros [HW ->]. exists VNull. split; [done|constructor].
    + intros (v & HW & Hr). inversion Hr as [|? ? ? Hno]; subst; [done|]. by destruct (Hno u).
  - split.
    + intros H. assert (exists v, deserialize W = POk (MValue v)) as [v HW].
      { unfold from_slice in H. destruct (deserialize W) as [[| |v]| | |]; try done. by exists v. }
      exists v. split; [done|]. apply (slice_value t W v Hno HW) in H. constructor; [done|].
      apply (reads_iff Hdec v (parsed_sound _ _ HW) t d Ht). done.
    + intros (v & HW & Hr). apply (slice_value t W v Hno HW). apply (reads_iff Hdec v (parsed_sound _ _ HW) t d Ht).
      inversion Hr; subst; [|done]. by destruct (Hno t0).
Qed.

(** An array of a string, a wrapped 5 and null, read as (&str, f64, Option<char>). *)
Definition ex_mixed : bytes :=
  header_bytes 1 (-1) ++ bs_of [16; 1;0;0;0; 3;0;0;0]%N ++ bs_of [6; 2;0;0;0; 1;115]%N
  ++ bs_of [4; 3;0;0;0]%N ++ ex_lps (lit "System.Int32") ++ bs_of [1;0;0;0]%N ++ ex_lps (lit "m_value")
  ++ bs_of [0; 8; 5;0;0;0; 10; 11]%N.
Definition ex_mixed_value : value :=
  VArray [VString (lit "s"); VObject (mkObj (lit "System.Int32") None [(lit "m_value", VInt32 5)]); VNull].
Definition ex_mixed_type : target := T_tuple [T_str; T_f64; T_option T_char].
Example C56_ex : deserialize ex_mixed = POk (MValue ex_mixed_value) /\ rust_type ex_mixed_type
  /\ reads_top ex_mixed_value ex_mixed_type (D_seq [D_str (lit "s"); D_f64 (int_as_f64 5); D_none]).
Proof.
  split; [vm_compute; reflexivity|]. split.
  - apply TT_tuple. apply Forall_cons_2; [by constructor|]. apply Forall_cons_2; [by constructor|].
    apply Forall_cons_2; [|constructor]. constructor. by constructor.
  - apply RT_value; [intros u; discriminate|]. eapply R_tuple; [constructor|reflexivity|]. cbn [zip zip_with].
    constructor; [eapply R_scalar; constructor|].
    constructor; [eapply (R_wrapper (lit "System.Int32") (T_int I32)); [apply WO_int; constructor|by left|..]|].
    + eapply R_scalar; constructor. cbn. lia.
    + constructor.
    + constructor.
    + constructor; [apply R_none|constructor].
Qed.

(** ** C57 Results are well typed *)

Lemma enc_char_utf8 c : scalar c -> utf8 (enc_char c).
Proof. intros Hc. exists [c]. split; [by constructor|]. unfold enc_utf8. cbn. by rewrite app_nil_r. Qed.
(** What the values of parsed messages satisfy. *)
Definition typed_value (v : value) : Prop := forall w, sub_value w v -> in_type_range w /\ forall s, s ∈ own_strings w -> utf8 s.
Lemma typed_rust v : typed_value v -> rust_value v.
Proof. intros H w Hw. destruct (H w Hw) as [Hr Hs]. split; [|done]. destruct w; try done. by destruct Hr. Qed.
Lemma typed_member c l ms k u : typed_value (VObject (mkObj c l ms)) -> (k, u) ∈ ms -> typed_value u.
Proof. intros H Hin w Hw. apply H. by eapply sub_member. Qed.
Lemma typed_element vs u : typed_value (VArray vs) -> u ∈ vs -> typed_value u.
Proof. intros H Hin w Hw. apply H. by eapply sub_element. Qed.
Lemma rust_member c l ms k u : rust_value (VObject (mkObj c l ms)) -> (k, u) ∈ ms -> rust_value u.
Proof. intros H Hin w Hw. apply H. by eapply sub_member. Qed.
Lemma rust_element vs u : rust_value (VArray vs) -> u ∈ vs -> rust_value u.
Proof. intros H Hin w Hw. apply H. by eapply sub_element. Qed.
Lemma converts_typed v e t d : decimal_text -> holds v e -> rust_value v -> converts e t d -> has_type t d.
Proof.
  intros Hdec Hh Ht Hc. specialize (Ht v (sub_here v)).
  destruct Hc; try (constructor; done);
    try (constructor; inversion Hh; subst; destruct Ht as [Ht _]; cbn [rust_range] in Ht; unfold in_int; lia); inversion Hh; subst.
  - constructor. by destruct Ht as [? _].
  - constructor. apply enc_char_utf8. by destruct Ht as [? _].
  - constructor. apply Hdec.
  - constructor. apply Ht. by left.
  - constructor. apply Ht. by left.
  - constructor. by destruct Ht as [? _].
  - constructor. apply Hdec.
  - constructor. apply Ht. by left.
Qed.
Lemma primitive_typed name t p e t' d : wrapper_of name t -> has_type t p -> primitive p e -> converts e t' d -> has_type t' d.
Proof.
  intros Hw Ht Hp Hc. destruct Hp; inversion Hc; subst; try (constructor; done); inversion Ht; subst; try (inversion Hw; fail).
  - constructor. inversion Hw as [| | | |? k0 Hi]; subst. destruct Hi; unfold in_int in *; cbn in *; lia.
  - by constructor.
  - constructor. by apply enc_char_utf8.
  - by constructor.
Qed.
Lemma any_elements_below v vs u : any_elements v vs -> u ∈ vs -> below u v /\ (typed_value v -> typed_value u).
Proof.
  assert (forall class ms items size version, list_members items size version ms -> u ∈ items ->
    below u (VObject (mkObj class None ms)) /\ (typed_value (VObject (mkObj class None ms)) -> typed_value u)) as Hl.
  { intros class ms items size version Hm%list_items_in Hin. split; [by eapply below_item|].
    intros Ht. eapply typed_element; [|exact Hin]. by eapply typed_member. }
  intros H Hin. destruct H as [? ? H|? ? ? ? ? _ Hm _]; [|by eapply Hl].
  destruct H as [|? ? ? ? ? _ Hm _]; [|eapply Hl; [done|by eapply elem_of_take_in]].
  split; [by apply below_element|]. intros Ht. by eapply typed_element.
Qed.
Lemma any_elements_rust v vs u : any_elements v vs -> u ∈ vs -> below u v /\ (rust_value v -> rust_value u).
Proof.
  assert (forall class ms items size version, list_members items size version ms -> u ∈ items ->
    below u (VObject (mkObj class None ms)) /\ (rust_value (VObject (mkObj class None ms)) -> rust_value u)) as Hl.
  { intros class ms items size version Hm%list_items_in Hin. split; [by eapply below_item|].
    intros Ht. eapply rust_element; [|exact Hin]. by eapply rust_member. }
  intros H Hin. destruct H as [? ? H|? ? ? ? ? _ Hm _]; [|by eapply Hl].
  destruct H as [|? ? ? ? ? _ Hm _]; [|eapply Hl; [done|by eapply elem_of_take_in]].
  split; [by apply below_element|]. intros Ht. by eapply rust_element.
Qed.
Lemma reads_typed : decimal_text -> forall v t d, rust_value v -> reads v t d -> has_type t d.
Proof.
  intros Hdec v. induction v as [v IH] using value_below_ind. intros t d Hv.
  revert d. induction t as [| | | | | | | | |t IHt| | | | | | | |]; intros d Hr;
    inversion Hr as [? ? ? ? Hh Hcv|? ? ? ? p e ? ? Hw Hc Hrp Hp Hcv| | | |? ? ? Hnn Hrt|? ? ? ? He Hf|? ? He Hf|? ? ? ? He Hl Hf|? ? ? ? He Hre|? ? ? Hl Hf|? ? ? ? ? Hf Hi|? ? ? ? ? ? Hpl Hf Hs Hpm|? ? ? Hpl Hf| |? ? ? He Hf|? ? ? ? ? Hpl Hf Hs Hpm]; subst;
    try (by eapply converts_typed);
    try (eapply primitive_typed; [exact Hw| |exact Hp|exact Hcv]; eapply IH; [| |exact Hrp];
         [eapply (below_member (lit "m_value")); by left|eapply (rust_member _ _ _ (lit "m_value")); [exact Hv|by left]]);
    try (constructor; done).
  - constructor. by apply IHt.
  - constructor. apply Forall_forall. intros x Hx. apply elem_of_list_lookup in Hx as [j Hj].
    destruct (Forall2_lookup_r _ _ _ _ _ Hf Hj) as (u & Hu & Hru). apply elem_of_list_lookup_2 in Hu.
    destruct (any_elements_rust _ _ _ He Hu) as [Hb Ht]. eapply IH; [exact Hb|by apply Ht|exact Hru].
  - constructor. assert (forall u, u ∈ vs -> forall t d, reads u t d -> has_type t d) as IHv.
    { intros u Hu t d. destruct (any_elements_rust _ _ _ (A_elements _ _ He) Hu) as [Hb Ht]. apply IH; [done|by apply Ht]. }
    clear -Hl Hf IHv. revert ts ds Hl Hf. induction vs as [|u vs IHvs]; intros [|t ts] ds Hl Hf; try done; inversion Hf as [|? ? ? ? H1 H2]; subst; constructor.
    + apply (IHv u); [by left|done].
    + apply IHvs; [|cbn in Hl; lia|done]. intros u' Hu'. apply IHv. by right.
  - constructor; [done|]. apply Forall_forall. intros [k x] Hkx. rewrite Hpm in Hkx.
    destruct (in_zip_forall2 _ _ _ _ _ Hf Hkx) as (u & Hu & Hru). cbn in Hru. cbn [fst snd]. split.
    + apply (Hv _ (sub_here _)). cbn. right. apply elem_of_app. right. by eapply map_fst_in.
    + eapply IH; [by eapply below_member|by eapply rust_member|done].
  - constructor. assert (forall u, u ∈ vs -> forall t d, reads u t d -> has_type t d) as IHv.
    { intros u Hu t d. apply IH; [by apply below_element|by eapply rust_element]. }
    clear -Hl Hf IHv. revert fields ds Hl Hf. induction vs as [|u vs IHvs]; intros [|f fs] ds Hl Hf; try done; inversion Hf as [|? ? ? ? H1 H2]; subst; constructor.
    + split; [done|]. apply (IHv u); [by left|done].
    + apply IHvs; [|cbn in Hl; lia|done]. intros u' Hu'. apply IHv. by right.
  - constructor. clear Hi Hr.
    assert (forall k u, (k, u) ∈ ms -> forall t d, reads u t d -> has_type t d) as IHm.
    { intros k u Hu t d. apply IH; [by eapply below_member|by eapply rust_member]. }
    clear -Hf IHm. induction Hf as [|f x fs ds Hfx _ IHf]; constructor; [|done]. split; [done|]. cbn.
    destruct Hfx as [(u & Hu & Hr)|(_ & [t Ht] & ->)]; [by eapply IHm|]. rewrite Ht. constructor.
  - constructor. destruct (any_elements_rust _ _ u (A_elements _ _ He)) as [Hb Ht]; [by left|].
    eapply IH; [exact Hb|by apply Ht|done].
  - constructor. apply Forall_forall. intros x Hx. apply elem_of_list_lookup in Hx as [j Hj].
    destruct (Forall2_lookup_r _ _ _ _ _ Hf Hj) as (u & Hu & Hru). apply elem_of_list_lookup_2 in Hu.
    destruct (any_elements_rust _ _ _ He Hu) as [Hb Ht]. eapply IH; [exact Hb|by apply Ht|exact Hru].
  - constructor; [done|]. apply Forall_forall. intros [k x] Hkx. rewrite Hpm in Hkx.
    destruct (in_zip_forall2 _ _ _ _ _ Hf Hkx) as (u & Hu & Hru). cbn in Hru. cbn [fst snd]. split.
    + apply (Hv _ (sub_here _)). cbn. right. apply elem_of_app. right. by eapply map_fst_in.
    + eapply IH; [by eapply below_member|by eapply rust_member|done].
Qed.
Theorem C57_results_typed : decimal_text -> forall W t d, rust_type t -> from_slice t W = FOk d -> has_type t d.
Proof.
  intros Hdec W t d Ht H. apply C56_exact in H as (v & HW & Hr); [|done|done].
  destruct Hr as [|v t d Hno Hr]; [constructor|]. eapply reads_typed; [done| |exact Hr].
  apply typed_rust. intros w Hw. assert (value_in w (MValue v)) as Hin by (exists v; split; [by left|done]). split.
  - by apply (C11_values_in_range W (MValue v)).
  - intros s Hs. apply (C07_strings_utf8 W (MValue v)); [done|]. right. by exists w.
Qed.
Example C57_ex : exists d, from_slice (T_struct ex_struct_fields) ex_struct = FOk d /\ rust_type (T_struct ex_struct_fields).
Proof.
  eexists. split; [vm_compute; reflexivity|]. apply TT_struct.
  - apply (bool_decide_unpack _). vm_compute. exact I.
  - apply Forall_cons_2; [by constructor|]. apply Forall_cons_2; [constructor; by constructor|]. apply Forall_cons_2; [by constructor|constructor].
Qed.

(** ** C58 The type does not influence parsing *)

(** Whether the bytes parse, and the error or panic if not, is the same for all types. *)
Theorem C58_parse_failures : forall W t t' e p,
  (from_slice t W = FErr_parse e <-> from_slice t' W = FErr_parse e)
  /\ (from_slice t W = FPanic p <-> from_slice t' W = FPanic p)
  /\ (from_slice t W = FErr_parse e <-> deserialize W = PErr e)
  /\ (from_slice t W = FPanic p <-> deserialize W = PPanic p).
Proof.
  intros W t t' e p. unfold from_slice.
  destruct (deserialize W) as [m| | |]; [destruct (message_deserialize m t), (message_deserialize m t')|..];
    split_and!; split; congruence.
Qed.
(** An array that is cut off, for a vector and for a boolean. *)
Example C58_ex : let W := header_bytes 1 (-1) ++ bs_of [15; 1;0;0;0; 2;0;0;0; 8; 5;0]%N in
  from_slice (T_vec (T_int I32)) W = FErr_parse (mkError (bs_of [5;0]%N) (E_ExpectedPrimitive PT_Int32))
  /\ from_slice T_bool W = FErr_parse (mkError (bs_of [5;0]%N) (E_ExpectedPrimitive PT_Int32)).
Proof. split; vm_compute; reflexivity. Qed.
End with_libs.

(** The hypothesis on decimals can be met. *)
Example decimal_text_ex : exists DL : DecimalLib, @decimal_text DL.
Proof.
  exists {| dec_from_str _ := None; dec_to_string _ := [x30] |}. intros x. exists [48%N]. split; [|reflexivity].
  apply Forall_cons_2; [|constructor]. unfold scalar. cbn. lia.
Qed.
