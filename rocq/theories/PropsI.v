(** * PropsI: C49, C50, C52, C53: further properties of deserialisation. *)
From stdpp Require Import sorting.
From Verif Require Import Base Utf8 Value DataTypes Records Parser Wire BaseLemmas Utf8Lemmas Spec Safety PropsA
  Serde SerdeLemmas SerdeSpec PropsG PropsH.
From Coq Require Import Lia.
From Coq Require Strings.String.
Import String.StringSyntax.

Section with_libs.
Context {DL : DecimalLib} {FL : FloatLib}.

(** ** C49 The order of the members does not matter *)

(** Deserializers that read the same. *)
Definition same_de (d d' : de) : Prop := forall t, d t = d' t.
Lemma all_de_ext t l l' : Forall2 same_de l l' -> all_de t l = all_de t l'.
Proof. induction 1 as [|d d' l l' H _ IH]; cbn; [done|]. by rewrite H, IH. Qed.
Lemma each_de_ext ts l l' : Forall2 same_de l l' -> each_de ts l = each_de ts l'.
Proof.
  intros H. revert ts. induction H as [|d d' l l' H _ IH]; intros [|t ts]; cbn; try done. by rewrite H, IH.
Qed.
Lemma Forall2_take_both {A B} (P : A -> B -> Prop) n l k : Forall2 P l k -> Forall2 P (take n l) (take n k).
Proof. apply Forall2_take. Qed.

Lemma array_struct l fs :
  seq_deserialize_any (SA_array l 0) (T_struct fs)
  = if Nat.eqb (length l) (length fs)
    then sres_map (fun ds => D_struct (zip (map fst fs) ds)) (each_de (map snd fs) l) else SErr.
Proof.
  unfold seq_deserialize_any, visit_seq. rewrite seq_each_array.
  destruct (each_de (map snd fs) l) as [ds|] eqn:E; cbn [sres_map sres_bind]; [|by case_match].
  apply each_de_length in E as [H _]. rewrite map_length in H. unfold seq_end. rewrite drop_length, map_length.
  destruct (Nat.eqb_spec (length l) (length fs)); destruct (N.eqb_spec (N.of_nat (length l - length fs)) 0); try lia; done.
Qed.
Lemma list_struct l size fs :
  seq_deserialize_any (SA_list l 0 0 size) (T_struct fs)
  = if N.eqb size (N.of_nat (length fs))
    then sres_map (fun ds => D_struct (zip (map fst fs) ds)) (each_de (map snd fs) l) else SErr.
Proof.
  unfold seq_deserialize_any, visit_seq. rewrite seq_each_list by lia. rewrite N.sub_0_r, map_length.
  destruct (N.leb_spec (N.of_nat (length fs)) size) as [H|H];
    [|destruct (N.eqb_spec size (N.of_nat (length fs))); [lia|done]].
  destruct (each_de (map snd fs) l) as [ds|] eqn:E; cbn [sres_map sres_bind seq_end]; [|by case_match].
  destruct (N.eqb_spec (0 + N.of_nat (length fs)) size);
    destruct (N.eqb_spec size (N.of_nat (length fs))); try lia; done.
Qed.
Lemma array_newtype l t :
  seq_deserialize_any (SA_array l 0) (T_newtype t)
  = match l with [d] => sres_map D_newtype (d t) | d :: _ => let# _v := d t in SErr | [] => SErr end.
Proof.
  destruct l as [|d [|d' l]]; [done| |]; unfold seq_deserialize_any, visit_seq; cbn [next_element array_next];
    destruct (d t) as [v|]; done.
Qed.
Lemma list_newtype l size t :
  seq_deserialize_any (SA_list l 0 0 size) (T_newtype t)
  = if N.eqb size 0 then SErr else
    match l with d :: _ => let# v := d t in if N.eqb size 1 then SOk (D_newtype v) else SErr | [] => SErr end.
Proof.
  unfold seq_deserialize_any, visit_seq. cbn [next_element].
  destruct (N.ltb_spec 0 size) as [H|H].
  - destruct (N.eqb_spec size 0); [lia|]. destruct l as [|d l]; [done|]. cbn [array_next].
    destruct (d t) as [v|]; [|done]. cbn [sres_bind seq_end].
    destruct (N.eqb_spec (0 + 1) size); destruct (N.eqb_spec size 1); try lia; done.
  - destruct (N.eqb_spec size 0); [done|lia].
Qed.
Lemma array_vec l t : seq_deserialize_any (SA_array l 0) (T_vec t) = sres_map D_seq (all_de t l).
Proof.
  unfold seq_deserialize_any, visit_seq, seq_fuel. rewrite seq_loop_array by lia. by destruct (all_de t l).
Qed.
Lemma array_ignored l :
  seq_deserialize_any (SA_array l 0) T_ignored = sres_map (fun _ => D_ignored) (all_de T_ignored l).
Proof.
  unfold seq_deserialize_any, visit_seq, seq_fuel. rewrite seq_loop_array by lia. by destruct (all_de T_ignored l).
Qed.
Lemma array_tuple l ts :
  seq_deserialize_any (SA_array l 0) (T_tuple ts)
  = if Nat.eqb (length l) (length ts) then sres_map D_seq (each_de ts l) else SErr.
Proof.
  unfold seq_deserialize_any, visit_seq. rewrite seq_each_array.
  destruct (each_de ts l) as [ds|] eqn:E; cbn [sres_map sres_bind]; [|by case_match].
  apply each_de_length in E as [H _]. unfold seq_end. rewrite drop_length.
  destruct (Nat.eqb_spec (length l) (length ts)); destruct (N.eqb_spec (N.of_nat (length l - length ts)) 0); try lia; done.
Qed.
Lemma seq_array_ext l l' t : Forall2 same_de l l' ->
  seq_deserialize_any (SA_array l 0) t = seq_deserialize_any (SA_array l' 0) t.
Proof.
  intros H. pose proof (Forall2_length _ _ _ H) as Hl.
  destruct t; try done.
  - rewrite !array_vec. by erewrite all_de_ext.
  - rewrite !array_tuple, Hl. by erewrite each_de_ext.
  - rewrite !array_struct, Hl. by erewrite each_de_ext.
  - rewrite !array_newtype. destruct H as [|d d' l l' Hd H]; [done|]. destruct H as [|d2 d2' l l' Hd2 H]; by rewrite Hd.
  - rewrite !array_ignored. by erewrite all_de_ext.
  - rewrite !seq_any, !array_vec. by erewrite all_de_ext.
Qed.
Lemma seq_list_ext l l' size t : Forall2 same_de l l' ->
  seq_deserialize_any (SA_list l 0 0 size) t = seq_deserialize_any (SA_list l' 0 0 size) t.
Proof.
  intros H. pose proof (Forall2_length _ _ _ H) as Hl.
  destruct t; try done.
  - rewrite !list_vec, Hl. rewrite (all_de_ext t _ _ H). by rewrite (all_de_ext t _ _ (Forall2_take_both _ _ _ _ H)).
  - rewrite !list_tuple. by erewrite each_de_ext.
  - rewrite !list_struct. by erewrite each_de_ext.
  - rewrite !list_newtype. destruct H as [|d d' l l' Hd H]; [done|]. by rewrite Hd.
  - rewrite !list_ignored, Hl. rewrite (all_de_ext _ _ _ H). by rewrite (all_de_ext _ _ _ (Forall2_take_both _ _ _ _ H)).
  - rewrite !seq_any, !list_vec, Hl. rewrite (all_de_ext _ _ _ H). by rewrite (all_de_ext _ _ _ (Forall2_take_both _ _ _ _ H)).
Qed.

(** Entries with the same names and deserializers. *)
Definition same_ma (ma ma' : map_access) : Prop :=
  NoDup (map fst ma) /\ NoDup (map fst ma')
  /\ (forall k d, (k, d) ∈ ma -> exists d', (k, d') ∈ ma' /\ same_de d d')
  /\ (forall k d, (k, d) ∈ ma' -> exists d', (k, d') ∈ ma /\ same_de d d').
Lemma same_ma_sym ma ma' : same_ma ma ma' -> same_ma ma' ma.
Proof. intros (H1 & H2 & H3 & H4). done. Qed.
Lemma same_ma_keys ma ma' k : same_ma ma ma' -> k ∈ map fst ma <-> k ∈ map fst ma'.
Proof.
  intros (_ & _ & H3 & H4). split; intros H; apply elem_of_list_fmap in H as ([k' d] & -> & H);
    [apply H3 in H as (d' & H & _)|apply H4 in H as (d' & H & _)]; cbn;
    change k' with (fst (k', d')); by apply elem_of_list_fmap_1.
Qed.
Lemma map_fst_in {V} (k : str) (v : V) (m : list (str * V)) : (k, v) ∈ m -> k ∈ map fst m.
Proof. intros H. change k with (fst (k, v)). by apply elem_of_list_fmap_1. Qed.
Lemma in_zip_forall2 {A B} (P : str * A -> B -> Prop) (l : list (str * A)) ds k d : Forall2 P l ds ->
  (k, d) ∈ zip (map fst l) ds -> exists a, (k, a) ∈ l /\ P (k, a) d.
Proof.
  induction 1 as [|[k' a] d' l ds Hp H IH]; cbn; [by intros ?%elem_of_nil|].
  intros [[= -> ->]|Hin]%elem_of_cons; [exists a; split; [by left|done]|].
  apply IH in Hin as (a' & H1 & H2). exists a'. split; [by right|done].
Qed.
Lemma zip_forall2_in {A B} (P : str * A -> B -> Prop) (l : list (str * A)) ds k a : Forall2 P l ds ->
  (k, a) ∈ l -> exists d, (k, d) ∈ zip (map fst l) ds /\ P (k, a) d.
Proof.
  induction 1 as [|[k' a'] d' l ds Hp H IH]; cbn; [by intros ?%elem_of_nil|].
  intros [[= -> ->]|Hin]%elem_of_cons; [exists d'; split; [by left|done]|].
  apply IH in Hin as (d & H1 & H2). exists d. split; [by right|done].
Qed.

Lemma struct_loop_same fs ma ma' m : same_ma ma ma' -> struct_loop fs ma [] = SOk m ->
  exists m', struct_loop fs ma' [] = SOk m' /\ forall k, hm_get k fs <> None -> hm_get k m = hm_get k m'.
Proof.
  intros Hs H. pose proof Hs as (H1 & H2 & H3 & H4). apply struct_loop_sound in H as [G1 G2]; [|done|done].
  destruct (struct_loop_complete fs ma' []) as [m' Hm']; [done|done| |].
  { intros k d Hin. apply H4 in Hin as (d' & Hin & Hd). apply G1 in Hin.
    destruct (hm_get k fs) as [t|]; cbn.
    - destruct Hin as (v & Hv & _). exists v. by rewrite Hd.
    - destruct Hin as (v & Hv). exists v. by rewrite Hd. }
  exists m'. split; [done|]. apply struct_loop_sound in Hm' as [F1 F2]; [|done|done].
  intros k Hk. destruct (decide (k ∈ map fst ma)) as [Hin|Hout].
  - apply elem_of_list_fmap in Hin as ([k' d] & -> & Hin). cbn [fst] in *.
    pose proof (H3 _ _ Hin) as (d' & Hin' & Hd). apply G1 in Hin. apply F1 in Hin'.
    destruct (hm_get k' fs) as [t|]; [|done]. destruct Hin as (v & Hv & ->). destruct Hin' as (v' & Hv' & ->).
    rewrite Hd in Hv. congruence.
  - rewrite G2 by done. rewrite F2; [done|]. by rewrite <- (same_ma_keys _ _ _ Hs).
Qed.
Lemma struct_build_same fs m m' : (forall k, hm_get k fs <> None -> hm_get k m = hm_get k m') ->
  struct_build fs m = struct_build fs m'.
Proof.
  intros H. assert (forall gs, (forall k, k ∈ map fst gs -> hm_get k fs <> None) -> struct_build gs m = struct_build gs m') as Hg.
  { intros gs. induction gs as [|[k t] gs IH]; intros Hgs; [done|]. cbn [struct_build].
    rewrite (H k) by (apply Hgs; by left). rewrite IH; [done|]. intros k' Hk'. apply Hgs. by right. }
  apply Hg. intros k Hk. rewrite hm_get_none. by intros ?.
Qed.
Lemma visit_map_same t ma ma' : same_ma ma ma' -> visit_map t ma = visit_map t ma'.
Proof.
  intros Hs. apply sres_eq. intros d.
  assert (forall ma ma', same_ma ma ma' -> visit_map t ma = SOk d -> visit_map t ma' = SOk d) as H;
    [|split; apply H; [done|by apply same_ma_sym]].
  clear ma ma' Hs. intros ma ma' Hs. pose proof Hs as (H1 & H2 & H3 & H4).
  assert (forall t, visit_map (T_map t) ma = SOk d -> visit_map (T_map t) ma' = SOk d) as Hmap.
  { clear t. intros t. cbn [visit_map]. rewrite !sres_bind_ok. intros (m & Hm & [= <-]).
    apply map_loop_sound in Hm as (G1 & ds & G2 & G3); [|done|intros k _; apply not_elem_of_nil|constructor].
    rewrite app_nil_r in G3.
    destruct (map_loop_complete t ma' []) as [m' Hm'].
    { apply Forall_forall. intros [k d] Hin. apply H4 in Hin as (d' & Hin & Hd).
      destruct (zip_forall2_in _ _ _ _ _ G2 Hin) as (v & _ & Hv). exists v. cbn in *. by rewrite Hd. }
    exists m'. split; [done|]. do 2 f_equal.
    apply map_loop_sound in Hm' as (F1 & ds' & F2 & F3); [|done|intros k _; apply not_elem_of_nil|constructor].
    rewrite app_nil_r in F3.
    assert (NoDup (map fst m')) as Nm'.
    { assert (map fst m' ≡ₚ map fst (zip (map fst ma') ds')) as -> by (by rewrite F3).
      rewrite fst_zip; [done|]. apply Forall2_length in F2. rewrite map_length. apply Nat.eq_le_incl. exact F2. }
    assert (NoDup (map fst m)) as Nm.
    { assert (map fst m ≡ₚ map fst (zip (map fst ma) ds)) as -> by (by rewrite G3).
      rewrite fst_zip; [done|]. apply Forall2_length in G2. rewrite map_length. apply Nat.eq_le_incl. exact G2. }
    apply sorted_unique; [done|done|done|].
    apply NoDup_Permutation; [by apply (NoDup_fmap_1 fst)|by apply (NoDup_fmap_1 fst)|].
    intros [k v]. rewrite G3, F3. split; intros Hin.
    + apply (in_zip_forall2 _ _ _ _ _ F2) in Hin as (d & Hin & Hd). cbn in Hd.
      apply H4 in Hin as (d' & Hin & Hdd). destruct (zip_forall2_in _ _ _ _ _ G2 Hin) as (v' & Hv' & E).
      cbn in E. rewrite Hdd in Hd. assert (v' = v) as -> by congruence. exact Hv'.
    + apply (in_zip_forall2 _ _ _ _ _ G2) in Hin as (d & Hin & Hd). cbn in Hd.
      apply H3 in Hin as (d' & Hin & Hdd). destruct (zip_forall2_in _ _ _ _ _ F2 Hin) as (v' & Hv' & E).
      cbn in E. rewrite Hdd in Hd. assert (v' = v) as -> by congruence. exact Hv'. }
  destruct t; try done; [by apply Hmap|..|rewrite !map_any; by apply Hmap]; cbn [visit_map].
  - rewrite !sres_bind_ok. intros (m & Hm & H). destruct (struct_loop_same _ _ _ _ Hs Hm) as (m' & Hm' & Hget).
    exists m'. split; [done|]. by rewrite <- (struct_build_same _ _ _ Hget).
  - rewrite !sres_bind_ok. intros ([] & H & [= <-]). exists tt. split; [|done].
    rewrite ignore_loop_ok, Forall_forall in H |- *. intros [k d] Hin.
    apply H4 in Hin as (d' & Hin & Hd). destruct (H _ Hin) as [v Hv]. exists v. cbn in *. by rewrite Hd.
Qed.
Lemma same_ma_length ma ma' : same_ma ma ma' -> length ma = length ma'.
Proof.
  intros Hs. pose proof Hs as (H1 & H2 & _).
  assert (map fst ma ≡ₚ map fst ma') as Hp by (apply NoDup_Permutation; [done..|]; intros k; by apply same_ma_keys).
  apply Permutation_length in Hp. by rewrite !map_length in Hp.
Qed.
Lemma wrapper_same prim ma ma' : same_ma ma ma' -> wrapper prim ma = wrapper prim ma'.
Proof.
  intros Hs. pose proof (same_ma_length _ _ Hs) as Hl. destruct Hs as (_ & _ & H & _). unfold wrapper. rewrite <- Hl.
  destruct (N.eqb_spec (N.of_nat (length ma)) 1) as [E|E]; [|done].
  destruct ma as [|[k d] [|]]; cbn in E; try lia. destruct ma' as [|[k' d'] [|]]; cbn in Hl; try lia.
  destruct (H k d) as (d2 & Hin & Hd); [by left|]. apply elem_of_list_singleton in Hin as [= -> ->]. by rewrite Hd.
Qed.

Lemma same_value_members c l ms c' l' ns : same_value (VObject (mkObj c l ms)) (VObject (mkObj c' l' ns)) ->
  c = c' /\ l = l' /\ map fst ms ≡ₚ map fst ns
  /\ (forall k v, (k, v) ∈ ms -> exists w, (k, w) ∈ ns /\ same_value v w)
  /\ (forall k w, (k, w) ∈ ns -> exists v, (k, v) ∈ ms /\ same_value v w).
Proof.
  inversion 1 as [|? ?|? ? ? ms' ? Hf Hp]; subst.
  - split_and!; try done; intros k v Hv; exists v; split; [done|constructor|done|constructor].
  - split_and!; try done.
    + rewrite <- Hp. clear -Hf. induction Hf as [|a b ? ? [E _] _ IH]; cbn; [done|]. by rewrite E, IH.
    + intros k v Hv. clear -Hf Hp Hv. setoid_rewrite <- Hp. clear Hp. induction Hf as [|a b ? ? [E Hs] _ IH]; [by apply elem_of_nil in Hv|].
      apply elem_of_cons in Hv as [<-|Hv].
      * exists b.2. cbn in *. subst. destruct b; cbn. split; [by left|done].
      * destruct (IH Hv) as (w & H1 & H2). exists w. split; [by right|done].
    + intros k w Hw. rewrite <- Hp in Hw. clear -Hf Hw. induction Hf as [|a b ? ? [E Hs] _ IH]; [by apply elem_of_nil in Hw|].
      apply elem_of_cons in Hw as [<-|Hw].
      * exists a.2. cbn in *. subst. destruct a; cbn. split; [by left|done].
      * destruct (IH Hw) as (v & H1 & H2). exists v. split; [by right|done].
Qed.

Lemma entries_same ms ns : NoDup (map fst ms) -> map fst ms ≡ₚ map fst ns ->
  (forall k v, (k, v) ∈ ms -> exists w, (k, w) ∈ ns /\ same_de (value_deserialize v) (value_deserialize w)) ->
  (forall k w, (k, w) ∈ ns -> exists v, (k, v) ∈ ms /\ same_de (value_deserialize v) (value_deserialize w)) ->
  same_ma (entries value_deserialize ms) (entries value_deserialize ns).
Proof.
  intros Hn Hp H1 H2. unfold same_ma. rewrite !entries_names. split_and!; [done|by rewrite <- Hp|..].
  - intros k d Hd. apply entries_in in Hd as (v & -> & Hd). apply H1 in Hd as (w & Hw & Hs).
    exists (value_deserialize w). split; [apply entries_in; by exists w|done].
  - intros k d Hd. apply entries_in in Hd as (w & -> & Hd). apply H2 in Hd as (v & Hv & Hs).
    exists (value_deserialize v). split; [apply entries_in; by exists v|]. intros t. symmetry. apply Hs.
Qed.

(** The deserializers of [v] and [w] for all targets, from those of the two methods. *)
Definition is_null (v : value) : bool := match v with VNull => true | _ => false end.
Lemma same_by_type v w : is_null v = is_null w ->
  (forall t, value_deserialize_any value_deserialize v t = value_deserialize_any value_deserialize w t) ->
  (forall fs, value_deserialize_struct value_deserialize v (T_struct fs)
              = value_deserialize_struct value_deserialize w (T_struct fs)) ->
  same_de (value_deserialize v) (value_deserialize w).
Proof.
  intros Hn Ha Hs t. induction t; rewrite !value_deserialize_eq; try apply Ha; try apply Hs.
  unfold value_deserialize_option. destruct v, w; try done; unfold visit_some; by rewrite IHt.
Qed.

Definition same_methods (v w : value) : Prop :=
  (forall t, value_deserialize_any value_deserialize v t = value_deserialize_any value_deserialize w t)
  /\ (forall fs, value_deserialize_struct value_deserialize v (T_struct fs)
                 = value_deserialize_struct value_deserialize w (T_struct fs)).
Lemma same_null v w : same_value v w -> is_null v = is_null w.
Proof. by destruct 1. Qed.
Lemma same_array_inv vs w : same_value (VArray vs) w -> exists ws, w = VArray ws /\ Forall2 same_value vs ws.
Proof.
  inversion 1 as [|? ws H'|]; subst; [|by exists ws].
  exists vs. split; [done|]. clear. induction vs; constructor; [constructor|done].
Qed.
Lemma same_object_inv o w : same_value (VObject o) w -> exists o', w = VObject o'.
Proof. inversion 1; eauto. Qed.
Lemma same_scalar v w : same_value v w -> match v with VObject _ | VArray _ => False | _ => True end -> v = w.
Proof. by destruct 1. Qed.
(** The member [k] of both. *)
Lemma same_get k ms ns : NoDup (map fst ms) -> map fst ms ≡ₚ map fst ns ->
  (forall k v, (k, v) ∈ ms -> exists w, (k, w) ∈ ns /\ same_value v w) ->
  match hm_get k ms, hm_get k ns with
  | Some v, Some w => (k, v) ∈ ms /\ same_value v w
  | None, None => True
  | _, _ => False
  end.
Proof.
  intros Hn Hp H. destruct (hm_get k ms) as [v|] eqn:E.
  - apply hm_get_in in E. destruct (H _ _ E) as (w & Hw & Hs).
    rewrite (proj2 (hm_get_nodup k ns w ltac:(by rewrite <- Hp)) Hw). done.
  - apply hm_get_none in E. rewrite Hp in E. apply hm_get_none in E. by rewrite E.
Qed.
Lemma same_methods_all v : forall w, same_value v w -> distinct_names v -> same_methods v w.
Proof.
  induction v as [v IH] using value_below_ind. intros w Hs Hd.
  assert (forall u u', below u v -> same_value u u' -> distinct_names u ->
    same_de (value_deserialize u) (value_deserialize u')) as IHd.
  { intros u u' Hu Hsu Hdu. destruct (IH u Hu u' Hsu Hdu) as [H1 H2]. apply same_by_type; [by apply same_null|done|done]. }
  clear IH. inversion Hd as [[c l ms] Hn Hms|vs Hvs|? Hsc]; subst; clear Hd.
  - destruct (same_object_inv _ _ Hs) as [[c' l' ns] ->].
    apply same_value_members in Hs as (<- & <- & Hp & H1 & H2). cbn [obj_members] in *. rewrite Forall_forall in Hms.
    assert (same_ma (entries value_deserialize ms) (entries value_deserialize ns)) as Hma.
    { apply entries_same; [done|done|..].
      - intros k v Hv. destruct (H1 k v Hv) as (w & Hw & Hvw). exists w. split; [done|].
        apply IHd; [by eapply below_member|done|by apply (Hms (k, v))].
      - intros k w Hw. destruct (H2 k w Hw) as (v & Hv & Hvw). exists v. split; [done|].
        apply IHd; [by eapply below_member|done|by apply (Hms (k, v))]. }
    split; [|intros fs; by apply visit_map_same].
    intros t. cbn [value_deserialize_any]. unfold object_deserialize_any. destruct l as [l|]; [by apply visit_map_same|].
    destruct (hm_get (class_name c) wrapper_classes) as [prim|]; [by rewrite (wrapper_same _ _ _ Hma)|].
    destruct (str_eqb _ _); [|by apply visit_map_same].
    assert (length ms = length ns) as <-.
    { apply Permutation_length in Hp. by rewrite !map_length in Hp. }
    destruct (N.eqb _ 3); [|done].
    assert (int32_of (lit "_size") ms = int32_of (lit "_size") ns) as <-.
    { unfold int32_of. pose proof (same_get (lit "_size") ms ns Hn Hp H1) as G.
      destruct (hm_get _ ms) as [v|], (hm_get _ ns) as [w|]; try done. destruct G as [_ G]. by destruct G. }
    assert (int32_of (lit "_version") ms = int32_of (lit "_version") ns) as <-.
    { unfold int32_of. pose proof (same_get (lit "_version") ms ns Hn Hp H1) as G.
      destruct (hm_get _ ms) as [v|], (hm_get _ ns) as [w|]; try done. destruct G as [_ G]. by destruct G. }
    rewrite !items_of_get. pose proof (same_get (lit "_items") ms ns Hn Hp H1) as G.
    destruct (hm_get (lit "_items") ms) as [v|], (hm_get (lit "_items") ns) as [w|]; try done.
    destruct G as [Hin G]. destruct v as [o|items| | | | | | | | | | | | | | | | |];
      try (by rewrite <- (same_scalar _ _ G I)); [by destruct (same_object_inv _ _ G) as [? ->]|].
    destruct (same_array_inv _ _ G) as (items' & -> & Hit).
    destruct (int32_of (lit "_size") ms) as [size|]; [|done].
    destruct (int32_of (lit "_version") ms) as [version|]; [|done].
    apply seq_list_ext. apply Forall2_fmap. eapply Forall2_impl_in; [exact Hit|].
    intros u u' Hu _ Hsu. apply IHd; [by eapply below_item|done|].
    pose proof (Hms _ Hin) as Hda. inversion Hda as [|? Hf|]; subst; [|done]. rewrite Forall_forall in Hf. by apply Hf.
  - destruct (same_array_inv _ _ Hs) as (ws & -> & Hvw). rewrite Forall_forall in Hvs.
    assert (Forall2 same_de (map value_deserialize vs) (map value_deserialize ws)) as Hf.
    { apply Forall2_fmap. eapply Forall2_impl_in; [exact Hvw|].
      intros u u' Hu _ Hsu. apply IHd; [by apply below_element|done|by apply Hvs]. }
    split; [intros t|intros fs]; by apply seq_array_ext.
  - by rewrite (same_scalar _ _ Hs Hsc).
Qed.
(** Whatever order the hash maps have their entries in, the result is the same. *)
Theorem C49_member_order : forall W v w t, deserialize W = POk (MValue v) -> same_value v w ->
  message_deserialize (MValue w) t = message_deserialize (MValue v) t.
Proof.
  intros W v w t HW Hs. destruct (same_methods_all v w Hs (parsed_distinct _ _ HW)) as [H1 H2].
  cbn [message_deserialize]. destruct t; done.
Qed.

(** An object A { y: "s", x: 5 } with its members in the other order. *)
Example C49_ex :
  let v := VObject (mkObj (lit "A") None [(lit "y", VString (lit "s")); (lit "x", VInt32 5)]) in
  let w := VObject (mkObj (lit "A") None [(lit "x", VInt32 5); (lit "y", VString (lit "s"))]) in
  deserialize ex_struct = POk (MValue v) /\ same_value v w /\ v <> w.
Proof.
  cbn zeta. split; [vm_compute; reflexivity|]. split; [|discriminate].
  eapply same_object; [|apply Permutation_swap].
  constructor; [split; [done|constructor]|]. constructor; [split; [done|constructor]|]. constructor.
Qed.

(** ** C50 Newtype structs and enums *)

(** What a newtype struct can be read from: an array of one element or a list of size one. *)
Inductive only_element : value -> value -> Prop :=
| only_array u : only_element (VArray [u]) u
| only_list class ms u items version : is_list_class class -> list_members (u :: items) 1 version ms ->
    only_element (VObject (mkObj class None ms)) u.

Lemma any_scalar_newtype f v t : match v with VObject _ | VArray _ => False | _ => True end ->
  value_deserialize_any f v (T_newtype t) = SErr.
Proof. by destruct v. Qed.
Lemma primitive_newtype t d : visit_primitive (T_newtype t) d = SErr.
Proof. by destruct d. Qed.
Lemma i32_as_usize_1 z : i32_as_usize z = 1%N -> (- 2 ^ 31 <= z < 2 ^ 31)%Z -> z = 1%Z.
Proof.
  unfold i32_as_usize. intros H Hz. assert (z mod 2 ^ 64 = 1)%Z as Hm.
  { pose proof (Z.mod_pos_bound z (2 ^ 64) ltac:(lia)). lia. }
  destruct (Z.leb_spec 0 z); [rewrite Z.mod_small in Hm; lia|].
  rewrite <- (Z.mod_add z 1 (2 ^ 64)) in Hm by lia. rewrite Z.mod_small in Hm; lia.
Qed.
Lemma three_members ms items z ver : length ms = 3 -> hm_get (lit "_items") ms = Some (VArray items) ->
  hm_get (lit "_size") ms = Some (VInt32 z) -> hm_get (lit "_version") ms = Some (VInt32 ver) ->
  list_members items z ver ms.
Proof.
  intros Hl E1 E2 E3. unfold list_members. symmetry. apply hm_get_in in E1, E2, E3.
  apply submseteq_Permutation_length_eq; [cbn [length]; lia|].
  apply NoDup_submseteq.
  - apply (NoDup_fmap_1 fst). cbn. apply (bool_decide_unpack _). vm_compute. exact I.
  - intros x. rewrite !elem_of_cons, elem_of_nil. by intros [-> | [-> | [-> | []]]].
Qed.
(** How an object is read. *)
Lemma object_cases c l ms : NoDup (map fst ms) ->
  let any := value_deserialize_any value_deserialize (VObject (mkObj c l ms)) in
  (ordinary c l /\ forall t, any t = visit_map t (entries value_deserialize ms))
  \/ (exists name prim v, l = None /\ ms = [(lit "m_value", v)] /\ (name, prim) ∈ wrapper_classes /\ is_class name c
        /\ forall t, any t = sres_bind (value_deserialize v prim) (visit_primitive t))
  \/ (exists items size version, l = None /\ is_list_class c /\ list_members items size version ms
        /\ forall t, any t = seq_deserialize_any (SA_list (map value_deserialize items) 0 0 (i32_as_usize size)) t)
  \/ (l = None /\ forall t, any t = SErr).
Proof.
  intros Hn any. destruct (class_cases c l) as [Ho|[-> [(name & prim & Hin & Hc)|Hc]]].
  - left. split; [done|]. intros t. by apply ordinary_any.
  - destruct (one_member ms) as [[v ->]|Hno].
    + right; left. exists name, prim, v. split_and!; [done..|]. intros t. by apply (any_wrapper _ name).
    + right; right; right. split; [done|]. intros t. by apply (any_wrapper_other _ name prim).
  - destruct (list_members_cases ms Hn) as [(items & z & ver & Hms)|Hno].
    + right; right; left. exists items, z, ver. split_and!; [done..|]. intros t. by apply any_list with ver.
    + right; right; right. split; [done|]. intros t. destruct (list_class_get _ Hc) as [H1 H2].
      subst any. cbn [value_deserialize_any]. unfold object_deserialize_any. rewrite H1, H2.
      destruct (N.eqb_spec (N.of_nat (length ms)) 3) as [El|]; [|done].
      destruct (items_of value_deserialize ms) as [its|] eqn:E1; [|done].
      destruct (int32_of (lit "_size") ms) as [z|] eqn:E2; [|done].
      destruct (int32_of (lit "_version") ms) as [ver|] eqn:E3; [|done].
      exfalso. rewrite items_of_get in E1. unfold int32_of in E2, E3.
      destruct (hm_get (lit "_items") ms) as [w|] eqn:G1; [|done]. destruct w as [|items| | | | | | | | | | | | | | | | |]; try done.
      destruct (hm_get (lit "_size") ms) as [w|] eqn:G2; [|done]. destruct w as [| | | | | | | |z'| | | | | | | | | |]; try done.
      destruct (hm_get (lit "_version") ms) as [w|] eqn:G3; [|done]. destruct w as [| | | | | | | |ver'| | | | | | | | | |]; try done.
      apply (Hno items z' ver'). apply three_members; [lia|done..].
Qed.
Lemma newtype_value v t d : (forall w, sub_value w v -> in_type_range w) ->
  value_deserialize v (T_newtype t) = SOk d <->
  exists u x, only_element v u /\ d = D_newtype x /\ value_deserialize u t = SOk x.
Proof.
  intros Hr. pose proof (range_distinct v Hr) as Hd. rewrite value_deserialize_eq.
  assert (forall u x, only_element v u -> value_deserialize u t = SOk x ->
    value_deserialize_any value_deserialize v (T_newtype t) = SOk (D_newtype x)) as Hback.
  { intros u x [|class ms u' items version Hc Hms] Hx.
    - cbn [value_deserialize_any map]. by rewrite array_newtype, Hx.
    - rewrite (any_list _ _ _ _ _ _ _ Hc Hms). cbn [map]. rewrite list_newtype. cbn. by rewrite Hx. }
  split; [|by intros (u & x & Hu & -> & Hx); eapply Hback].
  clear Hback. inversion Hd as [[c l ms] Hn Hms|vs Hvs|? Hsc]; subst.
  - cbn [obj_members] in *.
    destruct (object_cases c l ms Hn) as [[_ ->]|[(name & prim & v & _ & _ & _ & _ & ->)|[(items & z & ver & -> & Hc & Hm & ->)|[_ ->]]]];
      [done| |..|done].
    + intros H. apply sres_bind_ok in H as (x & _ & H). by rewrite primitive_newtype in H.
    + rewrite list_newtype. destruct (N.eqb_spec (i32_as_usize z) 0) as [|Hz0]; [done|].
      destruct items as [|u items]; [done|]. cbn [map]. intros H. apply sres_bind_ok in H as (x & Hx & H).
      destruct (N.eqb_spec (i32_as_usize z) 1) as [Hz|]; [|done]. injection H as <-.
      exists u, x. split; [|done]. assert (z = 1%Z) as ->.
      { apply i32_as_usize_1; [done|]. apply (Hr (VInt32 z)). eapply sub_member; [|constructor]. cbn.
        unfold list_members in Hm. rewrite Hm. right. left. }
      by eapply only_list.
  - cbn [value_deserialize_any]. rewrite array_newtype. destruct vs as [|u [|u' vs]]; cbn [map]; [done| |].
    + intros (x & Hx & ->)%sres_map_ok. exists u, x. split; [constructor|done].
    + by intros (x & Hx & H)%sres_bind_ok.
  - by rewrite any_scalar_newtype.
Qed.
Theorem C50_newtype : forall W v t d, deserialize W = POk (MValue v) ->
  from_slice (T_newtype t) W = FOk d <->
  exists u x, only_element v u /\ d = D_newtype x /\ value_deserialize u t = SOk x.
Proof.
  intros W v t d HW. rewrite (slice_value (T_newtype t) _ _ ltac:(done) HW). apply newtype_value.
  intros w Hw. apply (C11_values_in_range W _ w HW). exists v. split; [by left|done].
Qed.
Lemma primitive_enum d : visit_primitive T_enum d = SErr.
Proof. by destruct d. Qed.
Lemma object_enum f o : object_deserialize_any f o T_enum = SErr.
Proof.
  destruct o as [c [l|] ms]; [done|]. unfold object_deserialize_any.
  destruct (hm_get _ _) as [prim|]; [destruct (wrapper _ _) as [x|]; [apply primitive_enum|done]|].
  destruct (str_eqb _ _); [|done]. destruct (N.eqb _ _); [|done]. 
  destruct (items_of f ms), (int32_of (lit "_size") ms), (int32_of (lit "_version") ms); done.
Qed.
Theorem C50_enum_never : forall W d, from_slice T_enum W <> FOk d.
Proof.
  intros W d. unfold from_slice. destruct (deserialize W) as [m| | |]; [|done..].
  destruct m as [| |v]; [done|done|]. cbn [message_deserialize].
  destruct v as [o| | | | | | | | | | | | | | | | | |]; try done. cbn [value_deserialize_any]. by rewrite object_enum.
Qed.
(** A newtype struct is not read like its content: *)
Definition ex_int_array : bytes :=
  header_bytes 1 (-1) ++ bs_of [15; 1;0;0;0; 1;0;0;0; 8; 7;0;0;0; 11]%N.
Example C50_ex : deserialize (ex_int32 5) = POk (MValue (VObject (mkObj (lit "System.Int32") None [(lit "m_value", VInt32 5)])))
  /\ from_slice (T_int I32) (ex_int32 5) = FOk (D_int 5)
  /\ from_slice (T_newtype (T_int I32)) (ex_int32 5) = FErr
  /\ from_slice (T_newtype (T_int I32)) ex_int_array = FOk (D_newtype (D_int 7)).
Proof. split_and!; vm_compute; reflexivity. Qed.
Theorem C50_transparent_refuted : ~ forall W t d, from_slice t W = FOk d -> from_slice (T_newtype t) W = FOk (D_newtype d).
Proof.
  intros H. destruct C50_ex as (_ & H1 & H2 & _). apply H in H1. rewrite H1 in H2. discriminate H2.
Qed.

(** ** C52 Borrowed strings *)

(** [borrowed t d s]: the value [d] of type [t] holds the reference [s], a [&str] or [&[u8]]. *)
Inductive borrowed : target -> data -> str -> Prop :=
| B_str s : borrowed T_str (D_str s) s
| B_bytes s : borrowed T_bytes (D_bytes s) s
| B_option t d s : borrowed t d s -> borrowed (T_option t) (D_some d) s
| B_vec t ds d s : d ∈ ds -> borrowed t d s -> borrowed (T_vec t) (D_seq ds) s
| B_tuple ts ds t d s : (t, d) ∈ zip ts ds -> borrowed t d s -> borrowed (T_tuple ts) (D_seq ds) s
| B_map t m k d s : (k, d) ∈ m -> borrowed t d s -> borrowed (T_map t) (D_map m) s
| B_struct fs l k t d s : NoDup (map fst fs) (* as the fields of a Rust struct *) ->
    (k, t) ∈ fs -> (k, d) ∈ l -> borrowed t d s -> borrowed (T_struct fs) (D_struct l) s
| B_newtype t d s : borrowed t d s -> borrowed (T_newtype t) (D_newtype d) s.

(** References out of [d] satisfy [R]. *)
Definition yields (R : str -> Prop) (t : target) (d : data) : Prop := forall s, borrowed t d s -> R s.
Definition de_yields (R : str -> Prop) (f : de) : Prop := forall t d, f t = SOk d -> yields R t d.

Lemma all_de_yields R t l ds : Forall (de_yields R) l -> all_de t l = SOk ds -> Forall (yields R t) ds.
Proof.
  intros Hl H. apply all_de_ok in H. induction H as [|f d l ds Hf _ IH]; constructor.
  - inversion Hl as [|? ? Hd]; subst. by apply Hd.
  - apply IH. by inversion Hl.
Qed.
Lemma each_de_yields R ts l ds : Forall (de_yields R) l -> each_de ts l = SOk ds -> Forall2 (yields R) ts ds.
Proof.
  revert l ds. induction ts as [|t ts IH]; intros l ds Hl; cbn; [intros [= <-]; constructor|].
  destruct l as [|f l]; [done|]. inversion Hl as [|? ? Hf Hl']; subst. rewrite sres_bind_ok. intros (v & Hv & H).
  rewrite sres_bind_ok in H. destruct H as (vs & Hvs & [= <-]). constructor; [by apply Hf|by eapply IH].
Qed.
Lemma seq_yields_vec R t ds : Forall (yields R t) ds -> yields R (T_vec t) (D_seq ds).
Proof. intros H s Hs. inversion Hs; subst. rewrite Forall_forall in H. by eapply H. Qed.
Lemma seq_yields_tuple R ts ds : Forall2 (yields R) ts ds -> yields R (T_tuple ts) (D_seq ds).
Proof.
  intros H s Hs. inversion Hs as [| | | |? ? t d ? Hin Hb| | |]; subst. clear Hs.
  induction H as [|t' d' ts ds Ht _ IH]; [by apply elem_of_nil in Hin|].
  cbn in Hin. apply elem_of_cons in Hin as [[= -> ->]|Hin]; [by apply Ht|by apply IH].
Qed.
Lemma seq_yields_struct R fs ds : Forall2 (yields R) (map snd fs) ds ->
  yields R (T_struct fs) (D_struct (zip (map fst fs) ds)).
Proof.
  intros H s Hs. inversion Hs as [| | | | | |? ? k t d ? Hn Hf Hin Hb|]; subst. clear Hs.
  revert ds H Hin. induction fs as [|[k' t'] fs IH]; intros ds H Hin; [by apply elem_of_nil in Hf|].
  cbn in H, Hn, Hin. apply NoDup_cons in Hn as [Hk Hn]. inversion H as [|? d' ? ds' Hd Hds]; subst. cbn in Hin.
  apply elem_of_cons in Hin as [[= -> ->]|Hin].
  - apply elem_of_cons in Hf as [[= ->]|Hf]; [by apply Hd|]. destruct Hk. by eapply map_fst_in.
  - apply elem_of_cons in Hf as [[= -> ->]|Hf]; [|by eapply IH].
    destruct Hk. by apply elem_of_zip_l in Hin.
Qed.
Lemma seq_yields_newtype R t d : yields R t d -> yields R (T_newtype t) (D_newtype d).
Proof. intros H s Hs. inversion Hs; subst. by apply H. Qed.

Lemma array_yields R l : Forall (de_yields R) l -> de_yields R (seq_deserialize_any (SA_array l 0)).
Proof.
  intros Hl t d. destruct t as [| | | | | | | | | |t|ts| |fs|t| | |]; try done.
  - rewrite array_vec. intros (ds & H & ->)%sres_map_ok. apply seq_yields_vec. by eapply all_de_yields.
  - rewrite array_tuple. destruct (Nat.eqb _ _); [|done]. intros (ds & H & ->)%sres_map_ok.
    apply seq_yields_tuple. by eapply each_de_yields.
  - rewrite array_struct. destruct (Nat.eqb _ _); [|done]. intros (ds & H & ->)%sres_map_ok.
    apply seq_yields_struct. by eapply each_de_yields.
  - rewrite array_newtype. destruct Hl as [|f l Hf Hl]; [done|]. destruct l.
    + intros (x & H & ->)%sres_map_ok. apply seq_yields_newtype. by apply Hf.
    + by intros (x & H & ?)%sres_bind_ok.
  - intros _ s Hs. inversion Hs.
  - intros _ s Hs. inversion Hs.
Qed.
Lemma list_yields R l size : Forall (de_yields R) l -> de_yields R (seq_deserialize_any (SA_list l 0 0 size)).
Proof.
  intros Hl t d. destruct t as [| | | | | | | | | |t|ts| |fs|t| | |]; try done.
  - rewrite list_vec. destruct (N.leb _ _); [|destruct (N.eqb _ _); [|done]]; intros (ds & H & ->)%sres_map_ok;
      apply seq_yields_vec; (eapply all_de_yields; [|exact H]); [by apply Forall_take|done].
  - rewrite list_tuple. destruct (N.eqb _ _); [|done]. intros (ds & H & ->)%sres_map_ok.
    apply seq_yields_tuple. by eapply each_de_yields.
  - rewrite list_struct. destruct (N.eqb _ _); [|done]. intros (ds & H & ->)%sres_map_ok.
    apply seq_yields_struct. by eapply each_de_yields.
  - rewrite list_newtype. destruct (N.eqb _ 0); [done|]. destruct Hl as [|f l Hf Hl]; [done|].
    intros (x & H & H')%sres_bind_ok. destruct (N.eqb _ 1); [|done]. injection H' as <-. apply seq_yields_newtype. by apply Hf.
  - intros _ s Hs. inversion Hs.
  - intros _ s Hs. inversion Hs.
Qed.
Lemma bt_insert_in {V} k (v : V) m k' v' : (k', v') ∈ bt_insert k v m -> v' = v \/ (k', v') ∈ m.
Proof.
  induction m as [|[k0 v0] m IH]; cbn.
  - intros [= _ ->]%elem_of_list_singleton. by left.
  - destruct (str_eqb k k0); [|destruct (str_leb k k0)].
    + intros [[= -> ->]|H]%elem_of_cons; [by left|right; by right].
    + intros [[= -> ->]|H]%elem_of_cons; [by left|by right].
    + intros [[= -> ->]|H]%elem_of_cons; [right; by left|]. apply IH in H as [H|H]; [by left|right; by right].
Qed.
Lemma map_loop_in t ma m m' : map_loop t ma m = SOk m' ->
  forall k d, (k, d) ∈ m' -> (k, d) ∈ m \/ exists k' f, (k', f) ∈ ma /\ f t = SOk d.
Proof.
  revert m. induction ma as [|[k0 f] ma IH]; intros m; cbn; [intros [= ->]; by left|].
  intros (v & Hv & H)%sres_bind_ok k d Hin. destruct (IH _ H _ _ Hin) as [Hi|(k' & g & Hg & Hgd)].
  - apply bt_insert_in in Hi as [->|Hi]; [|by left]. right. exists k0, f. split; [by left|done].
  - right. exists k', g. split; [by right|done].
Qed.
Lemma struct_loop_in fs ma m m' : struct_loop fs ma m = SOk m' ->
  forall k d, (k, d) ∈ m' -> (k, d) ∈ m \/ exists f t, (k, f) ∈ ma /\ hm_get k fs = Some t /\ f t = SOk d.
Proof.
  revert m. induction ma as [|[k0 f] ma IH]; intros m; cbn; [intros [= ->]; by left|].
  destruct (hm_get k0 fs) as [t|] eqn:E.
  - destruct (hm_get k0 m); [done|]. intros (v & Hv & H)%sres_bind_ok k d Hin.
    destruct (IH _ H _ _ Hin) as [Hi|(g & t' & Hg & Hgd)].
    + apply elem_of_cons in Hi as [[= -> ->]|Hi]; [|by left]. right. exists f, t. split; [by left|done].
    + right. exists g, t'. split; [by right|done].
  - intros (v & Hv & H)%sres_bind_ok k d Hin. destruct (IH _ H _ _ Hin) as [Hi|(g & t' & Hg & Hgd)]; [by left|].
    right. exists g, t'. split; [by right|done].
Qed.
Lemma struct_build_in fs m l : struct_build fs m = SOk l ->
  forall k d, (k, d) ∈ l -> exists t, (k, t) ∈ fs /\ (hm_get k m = Some d \/ missing_field t = SOk d).
Proof.
  revert l. induction fs as [|[k0 t] fs IH]; intros l; cbn; [intros [= <-] k d Hin; by apply elem_of_nil in Hin|].
  intros (v & Hv & H)%sres_bind_ok. apply sres_bind_ok in H as (l' & Hl' & [= <-]). intros k d Hin.
  apply elem_of_cons in Hin as [[= -> ->]|Hin].
  - exists t. split; [by left|]. destruct (hm_get k0 m); [left; congruence|by right].
  - destruct (IH _ Hl' _ _ Hin) as (t' & H1 & H2). exists t'. split; [by right|done].
Qed.
Lemma map_yields R ma : Forall (fun kf => de_yields R kf.2) ma -> de_yields R (fun t => visit_map t ma).
Proof.
  intros Hl t d. rewrite Forall_forall in Hl. destruct t as [| | | | | | | | | | | |t|fs| | | |]; try done; cbn [visit_map].
  - intros (m & H & [= <-])%sres_bind_ok s Hs. inversion Hs as [| | | | |? ? k d ? Hin Hb| |]; subst.
    destruct (map_loop_in _ _ _ _ H _ _ Hin) as [Hi|(k' & f & Hf & Hd)]; [by apply elem_of_nil in Hi|].
    by apply (Hl _ Hf _ _ Hd).
  - intros (m & H & H')%sres_bind_ok s Hs. apply sres_bind_ok in H' as (l & Hb & [= <-]).
    inversion Hs as [| | | | | |? ? k t d ? Hn Hf Hin Hbo|]; subst. clear Hs.
    destruct (struct_build_in _ _ _ Hb _ _ Hin) as (t' & Ht' & Hd).
    apply (hm_get_nodup _ _ _ Hn) in Hf, Ht'. assert (t' = t) as -> by congruence.
    destruct Hd as [Hd|Hd].
    + apply hm_get_in in Hd. destruct (struct_loop_in _ _ _ _ H _ _ Hd) as [Hi|(f & t' & Hi & Hft & Hd')];
        [by apply elem_of_nil in Hi|]. assert (t' = t) as -> by congruence. by apply (Hl _ Hi _ _ Hd').
    + destruct t; try done. injection Hd as <-. inversion Hbo.
  - intros _ s Hs. inversion Hs.
  - intros _ s Hs. inversion Hs.
Qed.
Lemma primitive_yields R t x d : visit_primitive t x = SOk d -> yields R t d.
Proof.
  intros H s Hs. destruct x; try done; cbn [visit_primitive] in H; destruct Hs; try done; cbn in H; by try case_match.
Qed.
Lemma value_yields v : distinct_names v -> de_yields (fun s => sub_value (VString s) v) (value_deserialize v).
Proof.
  induction v as [v IH] using value_below_ind. intros Hd.
  assert (forall (R : str -> Prop) u, below u v -> distinct_names u -> (forall s, sub_value (VString s) u -> R s) ->
    de_yields R (value_deserialize u)) as IHd.
  { intros R u Hu Hdu HR t d H s Hs. apply HR. by eapply (IH u Hu Hdu t d). }
  clear IH.
  assert (de_yields (fun s => sub_value (VString s) v) (value_deserialize_any value_deserialize v)
    /\ forall fs d, value_deserialize_struct value_deserialize v (T_struct fs) = SOk d ->
         yields (fun s => sub_value (VString s) v) (T_struct fs) d) as [Ha Hst].
  2:{ intros t. induction t as [| | | | | | | | |t IHt| | | | | | | |]; intros d; rewrite value_deserialize_eq;
        try apply Ha; try apply Hst.
      unfold value_deserialize_option. intros H s Hs. inversion Hs as [| |? d' ? Hb| | | | |]; subst.
      assert (exists x, value_deserialize v t = SOk x /\ D_some d' = D_some x) as (x & Hx & [= ->]).
      { destruct v; try done; cbn [visit_some] in H; by apply sres_map_ok in H. }
      by apply (IHt _ Hx). }
  inversion Hd as [[c l ms] Hn Hms|vs Hvs|? Hsc]; subst.
  - cbn [obj_members] in *. rewrite Forall_forall in Hms.
    assert (de_yields (fun s => sub_value (VString s) (VObject (mkObj c l ms)))
      (fun t => visit_map t (entries value_deserialize ms))) as Hmap.
    { apply map_yields. apply Forall_forall. intros [k f] Hin. apply entries_in in Hin as (u & -> & Hin).
      apply IHd; [by eapply below_member|by apply (Hms (k, u))|]. intros s Hs. by eapply sub_member. }
    split; [|intros fs d H; by eapply Hmap].
    intros t d.
    destruct (object_cases c l ms Hn) as [[_ ->]|[(name & prim & v & _ & _ & _ & _ & ->)|[(items & z & ver & -> & Hc & Hm & ->)|[_ ->]]]];
      [apply Hmap| |..|done].
    + intros (x & _ & H)%sres_bind_ok. by eapply primitive_yields.
    + apply list_yields. apply Forall_forall. intros f (u & -> & Hu)%elem_of_list_fmap.
      apply list_items_in in Hm. apply IHd; [by eapply below_item|..].
      * pose proof (Hms _ Hm) as Hda. inversion Hda as [|? Hf|]; subst; [|done]. rewrite Forall_forall in Hf. by apply Hf.
      * intros s Hs. eapply sub_member; [exact Hm|]. by eapply sub_element.
  - rewrite Forall_forall in Hvs.
    assert (de_yields (fun s => sub_value (VString s) (VArray vs)) (seq_deserialize_any (SA_array (map value_deserialize vs) 0))) as Hs.
    { apply array_yields. apply Forall_forall. intros f (u & -> & Hu)%elem_of_list_fmap.
      apply IHd; [by apply below_element|by apply Hvs|]. intros s Hs. by eapply sub_element. }
    split; [exact Hs|]. intros fs d H. by eapply Hs.
  - split; [|intros fs d H; by destruct v].
    intros t d H s Hs. destruct v; try done; cbn in H;
      try (destruct Hs; try done; cbn in H; by try case_match).
    destruct Hs; try done; cbn in H; injection H as <-; constructor.
Qed.
Theorem C52_borrowed : forall W t d s, from_slice t W = FOk d -> borrowed t d s -> slice_of s W.
Proof.
  intros W t d s H Hs.
  assert (forall u, t <> T_option u) as Ho.
  { intros u ->. apply C45_top_level in H as [_ ->]. inversion Hs. }
  unfold from_slice in H. destruct (deserialize W) as [m| | |] eqn:HW; [|done..].
  assert (message_deserialize m t = SOk d) as Hm by (destruct (message_deserialize m t); congruence).
  destruct m as [| |v]; [done|done|]. apply (C06_strings_borrowed W (MValue v)); [done|].
  right. exists (VString s). split; [|by left]. exists v. split; [by left|].
  cbn [message_deserialize] in Hm. pose proof (value_yields v (parsed_distinct _ _ HW)) as Hy.
  apply (Hy t d); [|done]. rewrite value_deserialize_eq.
  destruct t as [| | | | | | | | |u| | | | | | | |]; try exact Hm. by destruct (Ho u).
Qed.
Example C52_ex : exists d, from_slice (T_struct [(lit "x", T_int U8); (lit "y", T_option T_str)]) ex_struct = FOk d
  /\ borrowed (T_struct [(lit "x", T_int U8); (lit "y", T_option T_str)]) d (lit "s").
Proof.
  eexists. split; [vm_compute; reflexivity|].
  apply (B_struct _ _ (lit "y") (T_option T_str) (D_some (D_str (lit "s")))).
  - apply (bool_decide_unpack _). vm_compute. exact I.
  - right. left.
  - right. left.
  - constructor. constructor.
Qed.

(** ** C53 Characters *)

Lemma single_char_long n s : 1 < n -> length s = n ->
  (forall a r, s = a :: r -> (b2n a < match n with 2%nat => 192 | 3%nat => 224 | 4%nat => 240 | _ => 256 end)%N) -> single_char s = None.
Proof.
  intros Hn Hl H.
  destruct s as [|a [|b [|c [|d [|e s]]]]]; cbn in Hl; subst; try lia; try done; specialize (H _ _ eq_refl);
    cbn [single_char]; destruct (N.leb_spec 192 (b2n a)); destruct (N.leb_spec 224 (b2n a));
    destruct (N.leb_spec 240 (b2n a)); cbn in H; try done; lia.
Qed.
(** The encoding of [c]: its length and its first byte. *)
Lemma enc_char_head c : scalar c -> exists a r, enc_char c = a :: r
  /\ (b2n a < match length (enc_char c) with 1%nat => 128 | 2%nat => 224 | 3%nat => 240 | _ => 256 end)%N
  /\ 1 <= length (enc_char c) <= 4.
Proof.
  intros Hc. unfold scalar in Hc. unfold enc_char.
  destruct (N.ltb_spec c 0x80); [|destruct (N.ltb_spec c 0x800); [|destruct (N.ltb_spec c 0x10000)]];
    eexists _, _; (split; [reflexivity|]); cbn [length]; (split; [|lia]).
  - rewrite b2n_n2b_small; lia.
  - assert (c / 64 < 32)%N by (apply N.div_lt_upper_bound; lia). rewrite b2n_n2b_small; lia.
  - assert (c / 4096 < 16)%N by (apply N.div_lt_upper_bound; lia). rewrite b2n_n2b_small; lia.
  - apply b2n_lt.
Qed.
Lemma single_char_enc c : scalar c -> single_char (enc_char c) = Some c.
Proof.
  intros Hc. unfold scalar in Hc. unfold enc_char.
  destruct (N.ltb_spec c 0x80); [|destruct (N.ltb_spec c 0x800); [|destruct (N.ltb_spec c 0x10000)]]; cbn [single_char].
  - rewrite b2n_n2b_small by lia. by destruct (N.ltb_spec c 128); [|lia].
  - assert (c / 64 < 32)%N by (apply N.div_lt_upper_bound; lia). pose proof (N.mod_lt c 64 ltac:(lia)).
    rewrite !b2n_n2b_small by lia. destruct (N.leb_spec 192 (192 + c / 64)); [|lia]. f_equal.
    pose proof (N.div_mod' c 64). lia.
  - assert (c / 4096 < 16)%N by (apply N.div_lt_upper_bound; lia). pose proof (N.mod_lt c 64 ltac:(lia)).
    pose proof (N.mod_lt (c / 64) 64 ltac:(lia)).
    rewrite !b2n_n2b_small by lia. destruct (N.leb_spec 224 (224 + c / 4096)); [|lia]. f_equal.
    pose proof (N.div_mod' c 64). pose proof (N.div_mod' (c / 64) 64). rewrite N.div_div in * by lia. change (64 * 64)%N with 4096%N in *. lia.
  - assert (c / 262144 < 5)%N by (apply N.div_lt_upper_bound; lia). pose proof (N.mod_lt c 64 ltac:(lia)).
    pose proof (N.mod_lt (c / 64) 64 ltac:(lia)). pose proof (N.mod_lt (c / 4096) 64 ltac:(lia)).
    rewrite !b2n_n2b_small by lia. destruct (N.leb_spec 240 (240 + c / 262144)); [|lia]. f_equal.
    pose proof (N.div_mod' c 64). pose proof (N.div_mod' (c / 64) 64). pose proof (N.div_mod' (c / 4096) 64).
    rewrite !N.div_div in * by lia. change (64 * 64)%N with 4096%N in *. change (4096 * 64)%N with 262144%N in *. lia.
Qed.
(** A string is read as a character exactly if it is the encoding of one. *)
Lemma single_char_iff s c : utf8 s -> single_char s = Some c <-> scalar c /\ s = enc_char c.
Proof.
  intros (cs & Hcs & ->). destruct cs as [|c1 [|c2 cs]]; unfold enc_utf8; cbn [map concat].
  - split; [done|]. intros [Hc H]. destruct (enc_char_head c Hc) as (a & r & E & _). by rewrite E in H.
  - inversion Hcs as [|? ? Hc1 _]; subst. rewrite app_nil_r, single_char_enc by done.
    split; [intros [= ->]; done|]. intros [Hc H]. apply (f_equal single_char) in H. rewrite !single_char_enc in H by done. done.
  - inversion Hcs as [|? ? Hc1 Hcs']; subst. inversion Hcs' as [|? ? Hc2 _]; subst.
    destruct (enc_char_head c1 Hc1) as (a & r & E & Ha & Hl).
    destruct (enc_char_head c2 Hc2) as (a2 & r2 & E2 & Ha2 & Hl2).
    assert (single_char (enc_char c1 ++ enc_char c2 ++ concat (map enc_char cs)) = None) as HN.
    { apply (single_char_long (length (enc_char c1 ++ enc_char c2 ++ concat (map enc_char cs)))); [|done|].
      - rewrite !app_length. lia.
      - intros a' r' H. rewrite E in H. cbn in H. injection H as <- <-.
        rewrite !app_length. generalize (length (concat (map enc_char cs))). intros m. clear E E2.
        destruct (length (enc_char c2)) as [|n2]; [lia|].
        destruct (length (enc_char c1)) as [|[|[|[|[|n]]]]]; try lia; cbn [Nat.add] in *;
          destruct (n2 + m) as [|[|[|n3]]]; lia. }
    rewrite HN. split; [done|]. intros [Hc H]. exfalso.
    change (list byte) with str in H. rewrite H, single_char_enc in HN by done. done.
Qed.
Theorem C53_string_as_char : forall W s d, deserialize W = POk (MValue (VString s)) ->
  from_slice T_char W = FOk d <-> exists c, d = D_char c /\ scalar c /\ s = enc_char c.
Proof.
  intros W s d HW. assert (utf8 s) as Hu.
  { apply (C07_strings_utf8 W (MValue (VString s))); [done|]. right. exists (VString s). split; [|by left].
    exists (VString s). split; [by left|constructor]. }
  rewrite (slice_value T_char _ _ ltac:(done) HW). cbn. 
  destruct (single_char s) as [c|] eqn:E.
  - apply single_char_iff in E as [Hc ->]; [|done]. split.
    + intros [= <-]. by exists c.
    + intros (c' & -> & Hc' & H). apply (f_equal single_char) in H. rewrite !single_char_enc in H by done. congruence.
  - split; [done|]. intros (c & _ & Hc & ->). by rewrite single_char_enc in E.
Qed.
Lemma chars_vec cs t f : (forall c, value_deserialize (VChar c) t = SOk (f c)) ->
  all_de t (map value_deserialize (map VChar cs)) = SOk (map f cs).
Proof. intros H. induction cs as [|c cs IH]; [done|]. cbn [map all_de]. by rewrite H, IH. Qed.
Theorem C53_chars : forall W cs, deserialize W = POk (MValue (VArray (map VChar cs))) ->
  from_slice (T_vec T_char) W = FOk (D_seq (map D_char cs))
  /\ from_slice (T_vec T_string) W = FOk (D_seq (map (fun c => D_str (enc_char c)) cs)).
Proof.
  intros W cs HW. split.
  - apply (slice_value (T_vec T_char) _ _ ltac:(done) HW). rewrite any_type by done.
    rewrite any_array_vec. by rewrite (chars_vec cs T_char D_char).
  - apply (slice_value (T_vec T_string) _ _ ltac:(done) HW). rewrite any_type by done.
    rewrite any_array_vec. by rewrite (chars_vec cs T_string (fun c => D_str (enc_char c))).
Qed.
Definition ex_a_umlaut : bytes := header_bytes 1 (-1) ++ bs_of [6; 1;0;0;0; 2;195;164; 11]%N.
Example C53_ex : deserialize ex_a_umlaut = POk (MValue (VString (bs_of [195; 164]%N)))
  /\ from_slice T_char ex_a_umlaut = FOk (D_char 228).
Proof. split; vm_compute; reflexivity. Qed.
Definition ex_chars : bytes := header_bytes 1 (-1) ++ bs_of [15; 1;0;0;0; 2;0;0;0; 3; 65; 228; 11]%N.
Example C53_ex_chars : deserialize ex_chars = POk (MValue (VArray (map VChar [65; 228]%N)))
  /\ from_slice (T_vec T_string) ex_chars = FOk (D_seq [D_str (bs_of [65]%N); D_str (bs_of [195; 164]%N)]).
Proof. split; vm_compute; reflexivity. Qed.
Example C51_ex : deserialize ex_struct
    = POk (MValue (VObject (mkObj (lit "A") None [(lit "y", VString (lit "s")); (lit "x", VInt32 5)])))
  /\ ordinary (lit "A") None
  /\ from_slice (T_map T_ignored) ex_struct = FOk (D_map [(lit "x", D_ignored); (lit "y", D_ignored)])
  /\ from_slice (T_map T_string) ex_struct = FErr.
Proof.
  split; [vm_compute; reflexivity|]. split; [|split; vm_compute; reflexivity].
  right. split.
  - rewrite wrapper_class_type. intros [t H]. vm_compute in H. discriminate H.
  - intros [H|[r H]]; vm_compute in H; discriminate H.
Qed.
End with_libs.
