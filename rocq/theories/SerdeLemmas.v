(** * SerdeLemmas: closed forms of the loops of Serde.v. *)
From Verif Require Import Base Utf8 Value DataTypes Records Parser Wire BaseLemmas Serde.
From Coq Require Import Lia.

Lemma sres_bind_ok {A B} (r : sres A) (f : A -> sres B) b :
  sres_bind r f = SOk b <-> exists a, r = SOk a /\ f a = SOk b.
Proof.
  destruct r as [a|]; cbn.
  - split; [intros H; by exists a|by intros (a' & [= <-] & H)].
  - split; [done|by intros (a & H & _)].
Qed.
Lemma sres_map_ok {A B} (f : A -> B) r b : sres_map f r = SOk b <-> exists a, r = SOk a /\ b = f a.
Proof.
  unfold sres_map. rewrite sres_bind_ok. split; intros (a & H1 & H2); exists a; split; congruence.
Qed.

(** ** Association lists *)
Lemma hm_get_in {V} k (m : list (str * V)) v : hm_get k m = Some v -> (k, v) ∈ m.
Proof.
  induction m as [|[k' v'] m IH]; cbn; [done|]. unfold str_eqb. case_bool_decide as E.
  - intros [= ->]. subst. by left.
  - intros H. right. by apply IH.
Qed.
Lemma hm_get_none {V} k (m : list (str * V)) : hm_get k m = None <-> k ∉ map fst m.
Proof.
  induction m as [|[k' v'] m IH]; cbn; [split; [intros _; apply not_elem_of_nil|done]|].
  unfold str_eqb. case_bool_decide as E.
  - subst. split; [done|]. intros H. destruct H. by left.
  - rewrite not_elem_of_cons, IH. tauto.
Qed.
Lemma hm_get_nodup {V} k (m : list (str * V)) v : NoDup (map fst m) -> hm_get k m = Some v <-> (k, v) ∈ m.
Proof.
  intros Hn. split; [apply hm_get_in|]. induction m as [|[k' v'] m IH]; cbn; [by intros ?%elem_of_nil|].
  cbn in Hn. apply NoDup_cons in Hn as [Hk Hn]. unfold str_eqb. intros Hin.
  case_bool_decide as E.
  - subst k'. apply elem_of_cons in Hin as [[= ->]|Hin]; [done|]. destruct Hk.
    change k with (fst (k, v)). by apply elem_of_list_fmap_1.
  - apply elem_of_cons in Hin as [[= -> ->]|Hin]; [done|]. by apply IH.
Qed.

Section with_libs.
Context {DL : DecimalLib} {FL : FloatLib}.

(** ** Sequences *)

(** Every deserializer of the list, with the same target. *)
Fixpoint all_de (t : target) (l : list de) : sres (list data) :=
  match l with
  | [] => SOk []
  | d :: l => let# v := d t in let# vs := all_de t l in SOk (v :: vs)
  end.
Lemma all_de_ok t l ds : all_de t l = SOk ds <-> Forall2 (fun d v => d t = SOk v) l ds.
Proof.
  revert ds. induction l as [|d l IH]; intros ds; cbn.
  - split; [intros [= <-]; constructor|by inversion 1].
  - rewrite sres_bind_ok. split.
    + intros (v & Hv & H). rewrite sres_bind_ok in H. destruct H as (vs & Hvs & [= <-]).
      constructor; [done|]. by apply IH.
    + inversion 1 as [|? v ? vs Hv Hvs]; subst. exists v. split; [done|]. rewrite sres_bind_ok.
      exists vs. split; [by apply IH|done].
Qed.

Lemma seq_loop_array t l c n : length l < n ->
  seq_loop n t (SA_array l c) = sres_map (fun ds => (ds, SA_array [] (c + N.of_nat (length l))%N)) (all_de t l).
Proof.
  revert c n. induction l as [|d l IH]; intros c [|n] Hn; [cbn in Hn; lia| |cbn in Hn; lia|].
  - cbn. by rewrite N.add_0_r.
  - cbn [seq_loop next_element array_next all_de]. destruct (d t) as [v|]; [|done]. cbn [sres_bind].
    rewrite IH by (cbn in Hn; lia). destruct (all_de t l) as [vs|]; [|done].
    cbn [sres_map sres_bind]. do 3 f_equal. cbn [length]. lia.
Qed.

Lemma seq_loop_list t l ac c size n : length l < n -> (c <= size)%N ->
  seq_loop n t (SA_list l ac c size)
  = if N.leb (size - c) (N.of_nat (length l))
    then sres_map (fun ds => (ds, SA_list (drop (N.to_nat (size - c)) l) (ac + (size - c)) size size)%N)
           (all_de t (take (N.to_nat (size - c)) l))
    else sres_map (fun ds => (ds, SA_list [] (ac + N.of_nat (length l)) (c + N.of_nat (length l) + 1) size)%N)
           (all_de t l).
Proof.
  revert ac c n. induction l as [|d l IH]; intros ac c [|n] Hn Hc; [cbn in Hn; lia| |cbn in Hn; lia|].
  - cbn [seq_loop next_element array_next all_de length].
    destruct (N.ltb_spec c size) as [Hlt|Hge].
    + destruct (N.leb_spec (size - c) (N.of_nat 0)); [lia|]. cbn [sres_bind sres_map].
      do 3 f_equal; lia.
    + assert (size = c) as -> by lia. rewrite N.sub_diag. cbn. by rewrite N.add_0_r.
  - cbn [seq_loop next_element array_next].
    destruct (N.ltb_spec c size) as [Hlt|Hge].
    + destruct (d t) as [v|] eqn:Ed.
      * cbn [sres_bind]. rewrite IH by (cbn in Hn; lia). cbn [length].
        destruct (N.leb_spec (size - (c + 1)) (N.of_nat (length l))) as [H1|H1];
          destruct (N.leb_spec (size - c) (N.of_nat (S (length l)))) as [H2|H2]; try lia.
        -- replace (N.to_nat (size - c)) with (S (N.to_nat (size - (c + 1)))) by lia.
           cbn [take drop all_de]. rewrite Ed. cbn [sres_bind].
           destruct (all_de t (take _ l)) as [vs|]; [|done]. cbn [sres_map sres_bind].
           do 3 f_equal. lia.
        -- cbn [all_de]. rewrite Ed. cbn [sres_bind]. destruct (all_de t l) as [vs|]; [|done].
           cbn [sres_map sres_bind]. do 3 f_equal; lia.
      * cbn [sres_bind length]. destruct (N.leb_spec (size - c) (N.of_nat (S (length l)))) as [H2|H2].
        -- replace (N.to_nat (size - c)) with (S (N.to_nat (size - (c + 1)))) by lia.
           cbn [take all_de]. by rewrite Ed.
        -- cbn [all_de]. by rewrite Ed.
    + assert (size = c) as -> by lia. rewrite N.sub_diag. cbn. by rewrite N.add_0_r.
Qed.

(** One deserializer for each target. *)
Fixpoint each_de (ts : list target) (l : list de) : sres (list data) :=
  match ts, l with
  | [], _ => SOk []
  | t :: ts, d :: l => let# v := d t in let# vs := each_de ts l in SOk (v :: vs)
  | _ :: _, [] => SErr
  end.
Lemma seq_each_array ts l c :
  seq_each ts (SA_array l c)
  = sres_map (fun ds => (ds, SA_array (drop (length ts) l) (c + N.of_nat (length ts))%N)) (each_de ts l).
Proof.
  revert l c. induction ts as [|t ts IH]; intros l c.
  - cbn. by rewrite N.add_0_r.
  - destruct l as [|d l]; [done|]. cbn [seq_each next_element array_next each_de].
    destruct (d t) as [v|]; [|done]. cbn [sres_bind]. rewrite IH.
    destruct (each_de ts l) as [vs|]; [|done]. cbn [sres_map sres_bind length drop].
    do 3 f_equal. lia.
Qed.
Lemma seq_each_list ts l ac c size : (c <= size)%N ->
  seq_each ts (SA_list l ac c size)
  = if N.leb (N.of_nat (length ts)) (size - c)
    then sres_map (fun ds => (ds, SA_list (drop (length ts) l) (ac + N.of_nat (length ts))
                                   (c + N.of_nat (length ts)) size)%N) (each_de ts l)
    else SErr.
Proof.
  revert l ac c. induction ts as [|t ts IH]; intros l ac c Hc.
  - cbn [seq_each each_de length drop]. destruct (N.leb_spec (N.of_nat 0) (size - c)); [|lia].
    change (N.of_nat 0) with 0%N. rewrite !N.add_0_r. done.
  - cbn [seq_each next_element array_next each_de length].
    destruct (N.ltb_spec c size) as [Hlt|Hge].
    + destruct l as [|d l]; [cbn [array_next sres_bind each_de]; destruct (N.leb _ _); reflexivity|]. cbn [array_next].
      destruct (d t) as [v|]; [|cbn [sres_bind sres_map]; destruct (N.leb _ _); reflexivity]. cbn [sres_bind]. rewrite IH by lia.
      destruct (N.leb_spec (N.of_nat (length ts)) (size - (c + 1)));
        destruct (N.leb_spec (N.of_nat (S (length ts))) (size - c)); try lia; [|done].
      destruct (each_de ts l) as [vs|]; [|done]. cbn [sres_map sres_bind drop].
      do 3 f_equal; lia.
    + destruct (N.leb_spec (N.of_nat (S (length ts))) (size - c)); [lia|done].
Qed.
Lemma each_de_replicate t n l : n = length l -> each_de (replicate n t) l = all_de t l.
Proof.
  intros ->. induction l as [|d l IH]; [done|]. cbn. by rewrite IH.
Qed.
Lemma each_de_length ts l ds : each_de ts l = SOk ds -> length ts <= length l /\ length ds = length ts.
Proof.
  revert l ds. induction ts as [|t ts IH]; intros l ds; cbn; [intros [= <-]; cbn; lia|].
  destruct l as [|d l]; [done|]. rewrite sres_bind_ok. intros (v & _ & H).
  rewrite sres_bind_ok in H. destruct H as (vs & Hvs & [= <-]). apply IH in Hvs. cbn. lia.
Qed.
Lemma each_de_ok ts l ds :
  each_de ts l = SOk ds <-> Forall2 (fun td v => td.2 td.1 = SOk v) (zip ts l) ds /\ length ts <= length l.
Proof.
  revert l ds. induction ts as [|t ts IH]; intros l ds; cbn.
  - split; [intros [= <-]; split; [constructor|lia]|]. intros [H _]. by inversion H.
  - destruct l as [|d l]; cbn; [split; [done|intros [_ ?]; lia]|]. rewrite sres_bind_ok. split.
    + intros (v & Hv & H). rewrite sres_bind_ok in H. destruct H as (vs & Hvs & [= <-]).
      apply IH in Hvs as [H1 H2]. split; [by constructor|lia].
    + intros [H Hl]. inversion H as [|? v ? vs Hv Hvs]; subst. exists v. split; [done|].
      rewrite sres_bind_ok. exists vs. split; [|done]. apply IH. split; [done|lia].
Qed.

(** A type that takes whatever comes reads sequences as a [Vec] and maps as a map of such. *)
Lemma seq_any sa : seq_deserialize_any sa T_any = seq_deserialize_any sa (T_vec T_any).
Proof. reflexivity. Qed.
Lemma map_any ma : visit_map T_any ma = visit_map (T_map T_any) ma.
Proof. reflexivity. Qed.

(** ** Arrays *)
Lemma any_array_vec f vs t :
  value_deserialize_any f (VArray vs) (T_vec t) = sres_map D_seq (all_de t (map f vs)).
Proof.
  cbn [value_deserialize_any]. unfold seq_deserialize_any, visit_seq, seq_fuel.
  rewrite seq_loop_array by lia. by destruct (all_de t (map f vs)).
Qed.
Lemma any_array_ignored f vs :
  value_deserialize_any f (VArray vs) T_ignored = sres_map (fun _ => D_ignored) (all_de T_ignored (map f vs)).
Proof.
  cbn [value_deserialize_any]. unfold seq_deserialize_any, visit_seq, seq_fuel.
  rewrite seq_loop_array by lia. by destruct (all_de T_ignored (map f vs)).
Qed.
Lemma any_array_tuple f vs ts :
  value_deserialize_any f (VArray vs) (T_tuple ts)
  = if Nat.eqb (length vs) (length ts) then sres_map D_seq (each_de ts (map f vs)) else SErr.
Proof.
  cbn [value_deserialize_any]. unfold seq_deserialize_any, visit_seq. rewrite seq_each_array.
  destruct (each_de ts (map f vs)) as [ds|] eqn:E; cbn [sres_map sres_bind]; [|by case_match].
  apply each_de_length in E as [H _]. rewrite map_length in H. unfold seq_end. rewrite drop_length, map_length.
  destruct (Nat.eqb_spec (length vs) (length ts)); destruct (N.eqb_spec (N.of_nat (length vs - length ts)) 0); try lia; done.
Qed.

(** ** Lists *)
Lemma list_vec items size t : 
  seq_deserialize_any (SA_list items 0 0 size) (T_vec t)
  = if N.leb size (N.of_nat (length items)) then sres_map D_seq (all_de t (take (N.to_nat size) items))
    else if N.eqb size (N.of_nat (length items) + 1) then sres_map D_seq (all_de t items)
    else SErr.
Proof.
  unfold seq_deserialize_any, visit_seq, seq_fuel. rewrite seq_loop_list by lia. rewrite N.sub_0_r.
  destruct (N.leb_spec size (N.of_nat (length items))) as [H|H].
  - destruct (all_de t (take (N.to_nat size) items)) as [ds|]; [|done]. cbn. by rewrite N.eqb_refl.
  - destruct (all_de t items) as [ds|]; cbn [sres_map sres_bind seq_end]; [|by case_match].
    destruct (N.eqb_spec (0 + N.of_nat (length items) + 1) size);
      destruct (N.eqb_spec size (N.of_nat (length items) + 1)); try lia; done.
Qed.
Lemma list_ignored items size :
  seq_deserialize_any (SA_list items 0 0 size) T_ignored
  = if N.leb size (N.of_nat (length items))
    then sres_map (fun _ => D_ignored) (all_de T_ignored (take (N.to_nat size) items))
    else if N.eqb size (N.of_nat (length items) + 1) then sres_map (fun _ => D_ignored) (all_de T_ignored items)
    else SErr.
Proof.
  unfold seq_deserialize_any, visit_seq, seq_fuel. rewrite seq_loop_list by lia. rewrite N.sub_0_r.
  destruct (N.leb_spec size (N.of_nat (length items))) as [H|H].
  - destruct (all_de T_ignored (take (N.to_nat size) items)) as [ds|]; [|done]. cbn. by rewrite N.eqb_refl.
  - destruct (all_de T_ignored items) as [ds|]; cbn [sres_map sres_bind seq_end]; [|by case_match].
    destruct (N.eqb_spec (0 + N.of_nat (length items) + 1) size);
      destruct (N.eqb_spec size (N.of_nat (length items) + 1)); try lia; done.
Qed.
Lemma list_tuple items size ts :
  seq_deserialize_any (SA_list items 0 0 size) (T_tuple ts)
  = if N.eqb size (N.of_nat (length ts)) then sres_map D_seq (each_de ts items) else SErr.
Proof.
  unfold seq_deserialize_any, visit_seq. rewrite seq_each_list by lia. rewrite N.sub_0_r.
  destruct (N.leb_spec (N.of_nat (length ts)) size) as [H|H];
    [|destruct (N.eqb_spec size (N.of_nat (length ts))); [lia|done]].
  destruct (each_de ts items) as [ds|] eqn:E; cbn [sres_map sres_bind seq_end]; [|by case_match].
  destruct (N.eqb_spec (0 + N.of_nat (length ts)) size);
    destruct (N.eqb_spec size (N.of_nat (length ts))); try lia; done.
Qed.

End with_libs.
