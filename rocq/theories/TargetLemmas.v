(** * TargetLemmas: the two models of the standard and derived types agree. *)
From Verif Require Import Base Utf8 Value DataTypes Records Parser Wire Serde SerdeSpec SerdeLemmas.
From Verif Require Import Reading PropsG PropsH PropsI PropsL Visitors VisitorSpec VisitorLemmas TargetWorld.
From Coq Require Import Lia.
From Coq Require Strings.String.
Import String.StringSyntax.

Section with_libs.
Context {DL : DecimalLib} {FL : FloatLib} {TL : TextLib} (oops : str).
Notation TW := (target_world oops).

(** ** Results without their texts *)
Definition erase {A} (r : tres A) : sres A := match r with TOk a => SOk a | TErr _ => SErr end.
Lemma erase_say {A} (r : sres A) : erase (say oops r) = r.
Proof. by destruct r. Qed.
Definition whole {A} (left : list A) (r : tres data) : sres data :=
  match left, r with _ :: _, TOk _ => SErr | _, _ => erase r end.
Lemma erase_left {A} what (all left : list A) r : erase (nothing_left what all left r) = whole left r.
Proof. by destruct left, r. Qed.
Definition counted (left : N) (r : tres data) : sres data := if N.eqb left 0 then erase r else SErr.
Lemma erase_answers size left r : erase (all_answers size left r) = counted left r.
Proof. unfold all_answers, counted. destruct r, (N.eqb left 0); done. Qed.
Lemma whole_err {A} (left : list A) e : whole left (TErr e) = SErr.
Proof. by destruct left. Qed.
Lemma counted_err left e : counted left (TErr e) = SErr.
Proof. unfold counted. by destruct (N.eqb left 0). Qed.
Definition agrees (v : value) (t : target) (x : sres data) : Prop :=
  exists r, gets TW v (TT t) r /\ erase r = x.

(** ** Closed forms for structs and newtypes *)
Lemma array_struct l fs :
  seq_deserialize_any (SA_array l 0) (T_struct fs)
  = if Nat.eqb (length l) (length fs)
    then sres_map (fun ds => D_struct (zip (map fst fs) ds)) (each_de (map snd fs) l) else SErr.
Proof.
  unfold seq_deserialize_any, visit_seq. rewrite seq_each_array.
  destruct (each_de (map snd fs) l) as [ds|] eqn:E; cbn [sres_map sres_bind]; [|by case_match].
  apply each_de_length in E as [H _]. rewrite map_length in *. unfold seq_end. rewrite drop_length.
  destruct (Nat.eqb_spec (length l) (length fs)); destruct (N.eqb_spec (N.of_nat (length l - length fs)) 0); try lia; done.
Qed.
Lemma array_tuple l ts :
  seq_deserialize_any (SA_array l 0) (T_tuple ts)
  = if Nat.eqb (length l) (length ts) then sres_map D_seq (each_de ts l) else SErr.
Proof.
  unfold seq_deserialize_any, visit_seq. rewrite seq_each_array.
  destruct (each_de ts l) as [ds|] eqn:E; cbn [sres_map sres_bind]; [|by case_match].
  apply each_de_length in E as [H _]. unfold seq_end. rewrite drop_length.
  destruct (Nat.eqb_spec (length l) (length ts)); destruct (N.eqb_spec (N.of_nat (length l - length ts)) 0); try lia; done.
Qed.
Lemma list_struct l size fs :
  seq_deserialize_any (SA_list l 0 0 size) (T_struct fs)
  = if N.eqb size (N.of_nat (length fs))
    then sres_map (fun ds => D_struct (zip (map fst fs) ds)) (each_de (map snd fs) l) else SErr.
Proof.
  unfold seq_deserialize_any, visit_seq. rewrite seq_each_list by lia. rewrite N.sub_0_r, map_length.
  destruct (N.leb_spec (N.of_nat (length fs)) size) as [H|H];
    [|destruct (N.eqb_spec size (N.of_nat (length fs))); [lia|done]].
  destruct (each_de (map snd fs) l) as [ds|] eqn:E; cbn [sres_map sres_bind seq_end]; [|by case_match].
  destruct (N.eqb_spec (0 + N.of_nat (length fs)) size);
    destruct (N.eqb_spec size (N.of_nat (length fs))); try lia; done.
Qed.

(** ** Sequences *)
Section seq.
Context (f : value -> de).
Notation served vs := (forall v t, v ∈ vs -> agrees v t (f v t)).

Lemma served_cons v vs : served (v :: vs) -> (forall t, agrees v t (f v t)) /\ served vs.
Proof. intros H. split; intros; apply H; by constructor. Qed.

Lemma vec_array t vs acc : served vs ->
  exists r left, one_by_one TW (RS_vec t acc) vs r left
    /\ whole left r = sres_map (fun ds => D_seq (acc ++ ds)) (all_de t (map f vs)).
Proof.
  revert acc. induction vs as [|v vs IH]; intros acc Hs.
  - exists (TOk (D_seq acc)), []. split; [|cbn; by rewrite app_nil_r].
    eapply Q_no_more; [done|]. by apply Q_done.
  - apply served_cons in Hs as [Hv Hs]. cbn [map all_de]. destruct (Hv t) as (x & Hx & <-).
    destruct x as [d|e]; cbn [erase sres_bind].
    + destruct (IH (acc ++ [d]) Hs) as (r & left & H1 & H2). exists r, left.
      split; [by eapply Q_element|]. rewrite H2. destruct (all_de t (map f vs)); cbn; [|done].
      by rewrite <- app_assoc.
    + exists (TErr e), vs. split; [|by rewrite whole_err]. eapply Q_element; [done|exact Hx|]. by apply Q_done.
Qed.
Lemma ignored_array vs : served vs ->
  exists r left, one_by_one TW RS_ignored_seq vs r left
    /\ whole left r = sres_map (fun _ => D_ignored) (all_de T_ignored (map f vs)).
Proof.
  induction vs as [|v vs IH]; intros Hs.
  - exists (TOk D_ignored), []. split; [|done]. eapply Q_no_more; [done|]. by apply Q_done.
  - apply served_cons in Hs as [Hv Hs]. cbn [map all_de]. destruct (Hv T_ignored) as (x & Hx & <-).
    destruct x as [d|e]; cbn [erase sres_bind].
    + destruct (IH Hs) as (r & left & H1 & H2). exists r, left.
      split; [by eapply Q_element|]. rewrite H2. by destruct (all_de T_ignored (map f vs)).
    + exists (TErr e), vs. split; [|by rewrite whole_err]. eapply Q_element; [done|exact Hx|]. by apply Q_done.
Qed.
Definition finish (names : option (list str)) (ds : list data) : data :=
  match names with Some names => D_struct (zip names ds) | None => D_seq ds end.
Lemma each_array names ts vs acc : served vs ->
  exists r left, one_by_one TW (RS_each ts acc names) vs r left
    /\ whole left r
       = if Nat.eqb (length vs) (length ts)
         then sres_map (fun ds => finish names (acc ++ ds)) (each_de ts (map f vs)) else SErr.
Proof.
  revert vs acc. induction ts as [|t ts IH]; intros vs acc Hs.
  - exists (TOk (finish names acc)), vs. split; [by apply Q_done|]. destruct vs; cbn; [by rewrite app_nil_r|done].
  - destruct vs as [|v vs].
    + exists (TErr oops), []. split; [|done]. eapply Q_no_more; [done|]. by apply Q_done.
    + apply served_cons in Hs as [Hv Hs]. cbn [map each_de length Nat.eqb].
      destruct (Hv t) as (x & Hx & <-). destruct x as [d|e]; cbn [erase sres_bind].
      * destruct (IH vs (acc ++ [d]) Hs) as (r & left & H1 & H2). exists r, left.
        split; [by eapply Q_element|]. rewrite H2. destruct (Nat.eqb _ _); [|done].
        destruct (each_de ts (map f vs)); cbn; [|done]. by rewrite <- app_assoc.
      * exists (TErr e), vs. split; [eapply Q_element; [done|exact Hx|]; by apply Q_done|].
        rewrite whole_err. by destruct (Nat.eqb _ _).
Qed.

Lemma vec_list t vs n acc : served vs ->
  exists r left, up_to TW (RS_vec t acc) vs n r left
    /\ counted left r
       = if N.leb n (N.of_nat (length vs))
         then sres_map (fun ds => D_seq (acc ++ ds)) (all_de t (take (N.to_nat n) (map f vs)))
         else if N.eqb n (N.of_nat (length vs) + 1) then sres_map (fun ds => D_seq (acc ++ ds)) (all_de t (map f vs))
         else SErr.
Proof.
  revert n acc. induction vs as [|v vs IH]; intros n acc Hs; destruct (N.eq_0_gt_0_cases n) as [-> | Hn].
  - exists (TOk (D_seq acc)), 0%N. split; [|cbn; by rewrite app_nil_r]. eapply U_no_more; [done|]. by apply U_done.
  - exists (TOk (D_seq acc)), (N.pred n). split.
    { replace n with (N.succ (N.pred n)) at 1 by lia. eapply U_missing; [done|]. by apply U_done. }
    cbn [length map all_de]. unfold counted. destruct (N.leb_spec n (N.of_nat 0)); [lia|].
    destruct (N.eqb_spec n (N.of_nat 0 + 1)); destruct (N.eqb_spec (N.pred n) 0); try lia; cbn; by rewrite ?app_nil_r.
  - exists (TOk (D_seq acc)), 0%N. split; [|cbn; by rewrite app_nil_r]. eapply U_no_more; [done|]. by apply U_done.
  - apply served_cons in Hs as [Hv Hs]. replace n with (N.succ (N.pred n)) by lia. set (m := N.pred n).
    cbn [map length]. rewrite N2Nat.inj_succ. cbn [take all_de].
    destruct (Hv t) as (x & Hx & <-). destruct x as [d|e]; cbn [erase sres_bind].
    + destruct (IH m (acc ++ [d]) Hs) as (r & left & H1 & H2). exists r, left.
      split; [by eapply U_element|].
      rewrite H2.
      destruct (N.leb_spec (N.succ m) (N.of_nat (S (length vs)))), (N.leb_spec m (N.of_nat (length vs))); try lia.
      * destruct (all_de t (take (N.to_nat m) (map f vs))); cbn; [|done]. by rewrite <- app_assoc.
      * destruct (N.eqb_spec (N.succ m) (N.of_nat (S (length vs)) + 1)), (N.eqb_spec m (N.of_nat (length vs) + 1)); try lia.
        { destruct (all_de t (map f vs)); cbn; [|done]. by rewrite <- app_assoc. }
        done.
    + exists (TErr e), (N.succ m). split.
      { eapply U_element_error; [done|exact Hx|by apply U_done]. }
      rewrite counted_err. cbn. repeat case_match; done.
Qed.
Lemma ignored_list vs n : served vs ->
  exists r left, up_to TW RS_ignored_seq vs n r left
    /\ counted left r
       = if N.leb n (N.of_nat (length vs))
         then sres_map (fun _ => D_ignored) (all_de T_ignored (take (N.to_nat n) (map f vs)))
         else if N.eqb n (N.of_nat (length vs) + 1) then sres_map (fun _ => D_ignored) (all_de T_ignored (map f vs))
         else SErr.
Proof.
  revert n. induction vs as [|v vs IH]; intros n Hs; destruct (N.eq_0_gt_0_cases n) as [-> | Hn].
  - exists (TOk D_ignored), 0%N. split; [|done]. eapply U_no_more; [done|]. by apply U_done.
  - exists (TOk D_ignored), (N.pred n). split.
    { replace n with (N.succ (N.pred n)) at 1 by lia. eapply U_missing; [done|]. by apply U_done. }
    cbn [length map all_de]. unfold counted. destruct (N.leb_spec n (N.of_nat 0)); [lia|].
    destruct (N.eqb_spec n (N.of_nat 0 + 1)); destruct (N.eqb_spec (N.pred n) 0); try lia; done.
  - exists (TOk D_ignored), 0%N. split; [|done]. eapply U_no_more; [done|]. by apply U_done.
  - apply served_cons in Hs as [Hv Hs]. replace n with (N.succ (N.pred n)) by lia. set (m := N.pred n).
    cbn [map length]. rewrite N2Nat.inj_succ. cbn [take all_de].
    destruct (Hv T_ignored) as (x & Hx & <-). destruct x as [d|e]; cbn [erase sres_bind].
    + destruct (IH m Hs) as (r & left & H1 & H2). exists r, left.
      split; [by eapply U_element|].
      rewrite H2.
      destruct (N.leb_spec (N.succ m) (N.of_nat (S (length vs)))), (N.leb_spec m (N.of_nat (length vs))); try lia.
      * by destruct (all_de T_ignored (take (N.to_nat m) (map f vs))).
      * destruct (N.eqb_spec (N.succ m) (N.of_nat (S (length vs)) + 1)), (N.eqb_spec m (N.of_nat (length vs) + 1)); try lia.
        { by destruct (all_de T_ignored (map f vs)). }
        done.
    + exists (TErr e), (N.succ m). split.
      { eapply U_element_error; [done|exact Hx|by apply U_done]. }
      rewrite counted_err. cbn. repeat case_match; done.
Qed.
Lemma each_list names ts vs n acc : served vs ->
  exists r left, up_to TW (RS_each ts acc names) vs n r left
    /\ counted left r
       = if N.eqb n (N.of_nat (length ts))
         then sres_map (fun ds => finish names (acc ++ ds)) (each_de ts (map f vs)) else SErr.
Proof.
  revert vs n acc. induction ts as [|t ts IH]; intros vs n acc Hs.
  - exists (TOk (finish names acc)), n. split; [by apply U_done|]. cbn. destruct n; [cbn; by rewrite app_nil_r|done].
  - destruct (N.eq_0_gt_0_cases n) as [-> | Hn].
    { exists (TErr oops), 0%N. split; [|done]. eapply U_no_more; [done|]. by apply U_done. }
    replace n with (N.succ (N.pred n)) by lia. set (m := N.pred n). destruct vs as [|v vs].
    + exists (TErr oops), m. split; [eapply U_missing; [done|]; by apply U_done|]. cbn [map each_de].
      rewrite counted_err. by repeat case_match.
    + apply served_cons in Hs as [Hv Hs]. cbn [map each_de length].
      destruct (Hv t) as (x & Hx & <-). destruct x as [d|e]; cbn [erase sres_bind].
      * destruct (IH vs m (acc ++ [d]) Hs) as (r & left & H1 & H2). exists r, left.
        split; [by eapply U_element|].
        rewrite H2. destruct (N.eqb_spec m (N.of_nat (length ts))), (N.eqb_spec (N.succ m) (N.of_nat (S (length ts)))); try lia; [|done].
        destruct (each_de ts (map f vs)); cbn; [|done]. by rewrite <- app_assoc.
      * exists (TErr e), (N.succ m). split.
        { eapply U_element_error; [done|exact Hx|by apply U_done]. }
        rewrite counted_err. cbn. repeat case_match; done.
Qed.

Lemma seq_array t vs : served vs ->
  exists r left, one_by_one TW (start_seq oops t) vs r left
    /\ whole left r = seq_deserialize_any (SA_array (map f vs) 0) t.
Proof.
  intros Hs.
  assert (forall _ : unit, exists r left, one_by_one TW (RS_return (TErr oops)) vs r left /\ whole left r = SErr)
    as Hno by (intros _; exists (TErr oops), vs; split; [by apply Q_done|apply whole_err]).
  destruct t; try exact (Hno tt); cbn [start_seq].
  - destruct (vec_array t vs [] Hs) as (r & left & H1 & H2). exists r, left. split; [exact H1|]. rewrite H2.
    pose proof (any_array_vec f vs t) as H. cbn [value_deserialize_any] in H. rewrite H. done.
  - destruct (each_array None ts vs [] Hs) as (r & left & H1 & H2). exists r, left. split; [exact H1|].
    rewrite H2. rewrite array_tuple. by rewrite map_length.
  - destruct (each_array (Some (map fst fields)) (map snd fields) vs [] Hs) as (r & left & H1 & H2).
    exists r, left. split; [exact H1|]. rewrite H2, array_struct. by rewrite !map_length.
  - unfold seq_deserialize_any, visit_seq. destruct vs as [|v vs].
    + exists (TErr oops), []. split; [|done]. eapply Q_no_more; [done|]. by apply Q_done.
    + apply served_cons in Hs as [Hv Hs]. cbn [map next_element array_next].
      destruct (Hv t) as (x & Hx & <-). exists (tres_map D_newtype x), vs. split.
      { eapply Q_element; [done|exact Hx|]. destruct x; by apply Q_done. }
      destruct x; cbn; [|by destruct vs]. destruct vs; done.
  - destruct (ignored_array vs Hs) as (r & left & H1 & H2). exists r, left. split; [exact H1|]. rewrite H2.
    pose proof (any_array_ignored f vs) as H. cbn [value_deserialize_any] in H. by rewrite H.
  - destruct (vec_array T_any vs [] Hs) as (r & left & H1 & H2). exists r, left. split; [exact H1|]. rewrite H2.
    pose proof (any_array_vec f vs T_any) as H. cbn [value_deserialize_any] in H. rewrite seq_any, H. done.
Qed.
Lemma seq_list t vs n : served vs ->
  exists r left, up_to TW (start_seq oops t) vs n r left
    /\ counted left r = seq_deserialize_any (SA_list (map f vs) 0 0 n) t.
Proof.
  intros Hs.
  assert (forall _ : unit, exists r left, up_to TW (RS_return (TErr oops)) vs n r left /\ counted left r = SErr)
    as Hno by (intros _; exists (TErr oops), n; split; [by apply U_done|apply counted_err]).
  destruct t; try exact (Hno tt); cbn [start_seq].
  - destruct (vec_list t vs n [] Hs) as (r & left & H1 & H2). exists r, left. split; [exact H1|].
    rewrite H2, list_vec, map_length. done.
  - destruct (each_list None ts vs n [] Hs) as (r & left & H1 & H2). exists r, left. split; [exact H1|].
    rewrite H2, list_tuple. done.
  - destruct (each_list (Some (map fst fields)) (map snd fields) vs n [] Hs) as (r & left & H1 & H2).
    exists r, left. split; [exact H1|]. rewrite H2, list_struct, map_length. done.
  - unfold seq_deserialize_any, visit_seq. cbn [next_element].
    destruct (N.ltb_spec 0 n) as [Hn|Hn].
    2:{ assert (n = 0%N) as -> by lia. exists (TErr oops), 0%N. split; [|done]. eapply U_no_more; [done|]. by apply U_done. }
    replace n with (N.succ (N.pred n)) by lia. set (m := N.pred n). destruct vs as [|v vs].
    + exists (TErr oops), m. split; [|apply counted_err]. eapply U_missing; [done|]. by apply U_done.
    + apply served_cons in Hs as [Hv Hs]. cbn [map array_next].
      destruct (Hv t) as (x & Hx & <-). destruct x as [d|e]; cbn [erase sres_bind].
      * exists (TOk (D_newtype d)), m. split.
        { eapply U_element; [done|exact Hx|by apply U_done]. }
        cbn [seq_end]. unfold counted. destruct (N.eqb_spec m 0), (N.eqb_spec (0 + 1) (N.succ m)); try lia; done.
      * exists (TErr e), (N.succ m). split; [|apply counted_err].
        eapply U_element_error; [done|exact Hx|by apply U_done].
  - destruct (ignored_list vs n Hs) as (r & left & H1 & H2). exists r, left. split; [exact H1|].
    rewrite H2, list_ignored, map_length. done.
  - destruct (vec_list T_any vs n [] Hs) as (r & left & H1 & H2). exists r, left. split; [exact H1|].
    rewrite H2, seq_any, list_vec, map_length. done.
Qed.
End seq.

(** ** Maps *)
Section map.
Context (f : value -> de).
Notation served ms := (forall s v t, (s, v) ∈ ms -> agrees v t (f v t)).

Lemma mserved_cons s v (ms : list (str * value)) :
  served ((s, v) :: ms) -> (forall t, agrees v t (f v t)) /\ served ms.
Proof. intros H. split; intros; eapply H; constructor; eassumption. Qed.

Lemma string_name b s : gets_name TW b s (TT T_string) (TOk (D_str s)).
Proof. pose proof (N_name TW b s (TT T_string) M_any _ _ eq_refl) as H. destruct b; by apply H. Qed.
Lemma ignored_name b s : gets_name TW b s (TT T_ignored) (TOk D_ignored).
Proof. pose proof (N_name TW b s (TT T_ignored) M_any _ _ eq_refl) as H. destruct b; by apply H. Qed.
Lemma field_name fs b s : gets_name TW b s (TT_field fs)
  (TOk (match hm_get s fs with Some _ => D_some (D_str s) | None => D_none end)).
Proof. pose proof (N_name TW b s (TT_field fs) M_any _ _ eq_refl) as H. destruct b; by apply H. Qed.

Lemma map_map b t ms m p : served ms ->
  exists r left, entry_by_entry TW b (RS_map t m) ms p r left
    /\ whole left r = sres_map D_map (map_loop t (entries f ms) m).
Proof.
  revert m. induction ms as [|[s v] ms IH]; intros m Hs.
  - exists (TOk (D_map m)), []. split; [|done]. eapply P_no_entry; [done|]. by apply P_done.
  - apply mserved_cons in Hs as [Hv Hs]. cbn [entries map map_loop fst snd].
    destruct (Hv t) as (x & Hx & <-). destruct x as [d|e]; cbn [erase sres_bind].
    + destruct (IH (bt_insert s d m) Hs) as (r & left & H1 & H2). exists r, left. split; [|exact H2].
      eapply P_both; [done|apply string_name|exact Hx|exact H1].
    + exists (TErr e), ms. split; [|apply whole_err].
      eapply P_both; [done|apply string_name|exact Hx|]. by apply P_done.
Qed.
Lemma map_ignored b ms p : served ms ->
  exists r left, entry_by_entry TW b RS_ignored_map ms p r left
    /\ whole left r = sres_map (fun _ => D_ignored) (ignore_loop (entries f ms)).
Proof.
  induction ms as [|[s v] ms IH]; intros Hs.
  - exists (TOk D_ignored), []. split; [|done]. eapply P_no_entry; [done|]. by apply P_done.
  - apply mserved_cons in Hs as [Hv Hs]. cbn [entries map ignore_loop fst snd].
    destruct (Hv T_ignored) as (x & Hx & <-). destruct x as [d|e]; cbn [erase sres_bind].
    + destruct (IH Hs) as (r & left & H1 & H2). exists r, left. split; [|exact H2].
      eapply P_both; [done|apply ignored_name|exact Hx|exact H1].
    + exists (TErr e), ms. split; [|apply whole_err].
      eapply P_both; [done|apply ignored_name|exact Hx|]. by apply P_done.
Qed.
Definition build (fs : list (str * target)) (r : sres (list (str * data))) : sres data :=
  let# m := r in let# l := struct_build fs m in SOk (D_struct l).
Lemma map_struct b fs ms m p : served ms ->
  exists r left, entry_by_entry TW b (RS_struct fs m) ms p r left
    /\ whole left r = build fs (struct_loop fs (entries f ms) m).
Proof.
  revert m p. induction ms as [|[s v] ms IH]; intros m p Hs.
  - eexists _, []. split; [eapply P_no_name; [done|]; by apply P_done|].
    cbn [whole]. apply erase_say.
  - apply mserved_cons in Hs as [Hv Hs]. cbn [entries map struct_loop fst snd].
    pose proof (field_name fs b s) as Hf. destruct (hm_get s fs) as [t|] eqn:Es.
    + destruct (hm_get s m) as [d|] eqn:Em.
      { exists (TErr oops), ms. split; [|apply whole_err]. eapply P_name; [done|exact Hf|]. cbn. rewrite Es, Em. by apply P_done. }
      destruct (Hv t) as (x & Hx & <-). destruct x as [d|e]; cbn [erase sres_bind].
      * destruct (IH ((s, d) :: m) None Hs) as (r & left & H1 & H2). exists r, left. split; [|exact H2].
        eapply P_name; [done|exact Hf|]. cbn. rewrite Es, Em. eapply P_its_value; [done|exact Hx|exact H1].
      * exists (TErr e), ms. split; [|apply whole_err]. eapply P_name; [done|exact Hf|]. cbn. rewrite Es, Em.
        eapply P_its_value; [done|exact Hx|]. by apply P_done.
    + destruct (Hv T_ignored) as (x & Hx & <-). destruct x as [d|e]; cbn [erase sres_bind].
      * destruct (IH m None Hs) as (r & left & H1 & H2). exists r, left. split; [|exact H2].
        eapply P_name; [done|exact Hf|]. cbn. eapply P_its_value; [done|exact Hx|exact H1].
      * exists (TErr e), ms. split; [|apply whole_err]. eapply P_name; [done|exact Hf|]. cbn.
        eapply P_its_value; [done|exact Hx|]. by apply P_done.
Qed.
Lemma map_start b t ms : served ms ->
  exists r left, entry_by_entry TW b (start_map oops t) ms None r left
    /\ whole left r = map_deserialize_any (entries f ms) t.
Proof.
  intros Hs.
  assert (forall _ : unit, exists r left, entry_by_entry TW b (RS_return (TErr oops)) ms None r left /\ whole left r = SErr)
    as Hno by (intros _; exists (TErr oops), ms; split; [by apply P_done|apply whole_err]).
  destruct t; try exact (Hno tt); cbn [start_map].
  - destruct (map_map b t ms [] None Hs) as (r & left & H1 & H2). exists r, left. split; [exact H1|]. rewrite H2. done.
  - destruct (map_struct b fields ms [] None Hs) as (r & left & H1 & H2). exists r, left. split; [exact H1|]. rewrite H2. done.
  - destruct (map_ignored b ms None Hs) as (r & left & H1 & H2). exists r, left. split; [exact H1|]. rewrite H2. done.
  - destruct (map_map b T_any ms [] None Hs) as (r & left & H1 & H2). exists r, left. split; [exact H1|]. rewrite H2. done.
Qed.
End map.

(** ** Values *)
Section value.
Context (v : value) (Hd : distinct_names v).
Context (Hb : forall w t, below w v -> agrees w t (value_deserialize w t)).

Lemma told_target t d prim : shaped prim d -> told_wrapped (target_visitor oops t) prim d (say oops (visit_primitive t d)).
Proof. destruct prim, d; try done; intros _; constructor. Qed.
Lemma told_scalar t w r : told (target_visitor oops t) w r -> erase r = value_deserialize_any value_deserialize w t.
Proof. destruct 1; cbn [target_visitor on_bool on_int on_f32 on_f64 on_char on_string on_borrowed_str on_unit]; rewrite erase_say; done. Qed.

Lemma visits_any t : exists r, visits TW (target_visitor oops t) v r
  /\ erase r = value_deserialize_any value_deserialize v t.
Proof using Hd Hb.
  destruct v as [[c l ms]|vs| | | | | | | | | | | | | | | | |];
    try (eexists; split; [apply V_scalar; constructor|by eapply told_scalar; constructor]).
  - assert (forall s w t, (s, w) ∈ ms -> agrees w t (value_deserialize w t)) as Hm.
    { intros s w t' Hin. eapply Hb, below_member, Hin. }
    inversion Hd as [o Hn Hds| |]; subst; [|done]. cbn [obj_members] in *.
    destruct (map_start value_deserialize true t ms Hm) as (r & left & H1 & H2).
    cbn [value_deserialize_any object_deserialize_any].
    assert (plain_class c l -> exists r, visits TW (target_visitor oops t) (VObject (mkObj c l ms)) r
      /\ erase r = map_deserialize_any (entries value_deserialize ms) t) as Hmap.
    { intros Hpl. eexists. split; [by eapply V_map|]. rewrite <- H2. apply erase_left. }
    destruct l as [l|]; [apply Hmap; by left|].
    destruct (hm_get (class_name c) wrapper_classes) as [prim|] eqn:E.
    { assert (wrapper_of (class_name c) prim) as Hw by (apply wrapper_of_iff; by apply hm_get_in).
      assert (is_class (class_name c) c) as Hc by apply class_name_cases.
      destruct (wrapper prim (entries value_deserialize ms)) as [d|] eqn:Ew; cbn [sres_bind].
      - apply wrapper_is in Ew as (w & -> & Hw'). eexists. split; [|apply erase_say]. eapply V_wrapper; [done..|].
        apply told_target. eapply prim_shaped; [by eapply wrapper_prim|done].
      - eexists. split; [eapply V_wrapper_bad; [done..|]; by eapply wrapper_error_fault|done]. }
    destruct (str_eqb (class_name c) _) eqn:El.
    + assert (is_list_class c) as Hl.
      { apply str_eqb_eq in El. unfold is_list_class. rewrite <- El. apply class_name_cases. }
      pose proof (fun items size version H => any_list value_deserialize c ms items size version t Hl H) as Hany.
      cbn [value_deserialize_any object_deserialize_any] in Hany. rewrite E, El in Hany.
      destruct (list_members_cases ms Hn) as [(items & size & version & Hlm)|Hno].
      * rewrite (Hany _ _ _ Hlm). clear Hany.
        destruct (seq_list value_deserialize t items (i32_as_usize size)) as (r' & left' & H3 & H4).
        { intros w t' Hin. apply Hb. eapply below_item; [done|]. by eapply list_items_in. }
        rewrite <- H4. rewrite usize_eq in H3. eexists. split; [by eapply V_list|]. apply erase_answers.
      * clear Hany. assert (forall r, r = SErr -> exists r', visits TW (target_visitor oops t) (VObject (mkObj c None ms)) r'
          /\ erase r' = r) as Hbad by (intros r' ->; eexists; split; [by eapply V_list_bad|done]).
        apply Hbad. destruct (N.eqb_spec (N.of_nat (length ms)) 3) as [E3|]; [|done].
        destruct (items_of value_deserialize ms) as [items|] eqn:E1; [|done].
        destruct (int32_of (lit "_size") ms) as [z|] eqn:E2; [|done].
        destruct (int32_of (lit "_version") ms) as [z0|] eqn:E4; [|done].
        exfalso. unfold int32_of in E2, E4.
        assert (exists vs, hm_get (lit "_items") ms = Some (VArray vs)) as [vs E5].
        { clear -E1. induction ms as [|[k w] ms IH]; [done|]. cbn [items_of hm_get] in *.
          destruct (str_eqb (lit "_items") k); [|by apply IH]. destruct w; try done. eauto. }
        destruct (hm_get (lit "_size") ms) as [[]|] eqn:E6; try done. injection E2 as ->.
        destruct (hm_get (lit "_version") ms) as [[]|] eqn:E7; try done. injection E4 as ->.
        destruct (Hno vs z z0). unfold list_members. symmetry. apply hm_get_in in E5, E6, E7.
        apply submseteq_Permutation_length_eq; [cbn [length]; lia|].
        apply NoDup_submseteq.
        { apply (NoDup_fmap_1 fst). cbn. apply (bool_decide_unpack _). vm_compute. exact I. }
        intros x. rewrite !elem_of_cons, elem_of_nil. by intros [-> | [-> | [-> | []]]].
    + apply Hmap. apply plain_class_iff. right. split.
      * rewrite wrapper_class_type. intros [t' Ht]. congruence.
      * intros Hl. apply list_class_get in Hl as [_ Hl]. congruence.
  - destruct (seq_array value_deserialize t vs) as (r & left & H1 & H2).
    { intros w t' Hin. apply Hb. by apply below_element. }
    cbn [value_deserialize_any]. rewrite <- H2. eexists. split; [by eapply V_array|]. apply erase_left.
Qed.
Lemma serves_struct t : exists r, serves TW M_struct (target_visitor oops t) v r
  /\ erase r = value_deserialize_struct value_deserialize v t.
Proof using Hd Hb.
  pose proof (visits_any t) as (ra & Ha & Ea).
  destruct v as [[c l ms]| | | | | | | | | | | | | | | | | |]; try (exists ra; split; [by apply S_struct_other|done]).
  destruct (map_start value_deserialize false t ms) as (r & left & H1 & H2).
  { intros s w t' Hin. eapply Hb, below_member, Hin. }
  cbn [value_deserialize_struct]. unfold object_deserialize_struct. cbn [obj_members]. rewrite <- H2.
  eexists. split; [by eapply (S_struct TW (target_visitor oops t) (mkObj c l ms))|]. apply erase_left.
Qed.
Lemma gets_here t : agrees v t (value_deserialize v t).
Proof using Hd Hb.
  assert (forall m vis r, w_impl TW (TT t) = I_call m vis id -> serves TW m vis v r -> gets TW v (TT t) r) as Hcall
    by (intros m vis r E Hs; by eapply (G_call TW v _ m vis id)).
  revert Hcall. induction t as [| | | | | | | | |t IH| | | | | | | |]; intros Hcall; rewrite value_deserialize_eq.
  all: try (match goal with |- agrees _ ?t _ => destruct (visits_any t) as (r & Hr & Er) end;
    exists r; split; [eapply Hcall; [reflexivity|]; by apply S_any|exact Er]).
  - assert (v = VNull \/ v <> VNull) as [-> | Hv] by (destruct v; auto).
    { exists (TOk D_none). split; [|done]. eapply Hcall; [reflexivity|]. apply (S_none TW (target_visitor oops (T_option t))). }
    destruct IH as (r & Hr & Er).
    { intros m vis r E Hs. by eapply (G_call TW v _ m vis id). }
    exists (tres_map D_some r). split.
    + eapply Hcall; [reflexivity|]. by eapply S_some.
    + replace (value_deserialize_option (value_deserialize v) v (T_option t))
        with (sres_map D_some (value_deserialize v t)) by (by destruct v).
      rewrite <- Er. by destruct r.
  - match goal with |- agrees _ ?t _ => destruct (serves_struct t) as (r & Hr & Er) end.
    exists r. split; [by eapply Hcall|exact Er].
  - match goal with |- agrees _ ?t _ => destruct (visits_any t) as (r & Hr & Er) end.
    exists r. split; [eapply Hcall; [reflexivity|]; by apply S_enum|exact Er].
Qed.
End value.

Lemma target_gets v t : distinct_names v -> agrees v t (value_deserialize v t).
Proof.
  revert t. induction v as [v IH] using value_below_ind. intros t Hd. apply gets_here; [done|].
  intros w t' Hw. apply IH; [done|]. clear -Hw Hd. induction Hw as [w v Hc|]; [|by auto].
  destruct Hc as [k w o Hin|w vs Hin]; inversion Hd as [o' Hn Hds|vs' Hds|]; subst; try done;
    rewrite Forall_forall in Hds.
  - exact (Hds (k, w) Hin).
  - by apply Hds.
Qed.
Lemma target_message m t : (forall v, m = MValue v -> distinct_names v) ->
  exists r, message_gets TW m (TT t) r /\ erase r = message_deserialize m t.
Proof.
  intros Hm.
  assert (exists meth, w_impl TW (TT t) = I_call meth (target_visitor oops t) id) as [meth E] by (by eexists).
  destruct m as [c|c|v].
  - eexists. split; [by eapply MG_call|done].
  - eexists. split; [by eapply MG_return|done].
  - specialize (Hm v eq_refl). clear E.
    assert (forall w t, below w v -> agrees w t (value_deserialize w t)) as Hb.
    { intros w t' Hw. apply target_gets. clear -Hw Hm. induction Hw as [w v Hc|]; [|by auto].
      destruct Hc as [k w o Hin|w vs Hin]; inversion Hm as [o' Hn Hds|vs' Hds|]; subst; try done;
        rewrite Forall_forall in Hds.
      - exact (Hds (k, w) Hin).
      - by apply Hds. }
    destruct (visits_any v Hm Hb t) as (r & Hr & Er). destruct (serves_struct v Hm Hb t) as (r' & Hr' & Er').
    destruct t; cbn [message_deserialize];
      try (exists r; split; [eapply (MG_value TW v _ M_any _ id); [done..|]; by apply S_any|exact Er]).
    + exists r. split; [by eapply (MG_option TW v _ _ id)|exact Er].
    + exists r'. split; [by eapply (MG_value TW v _ M_struct _ id)|exact Er'].
    + exists r. split; [eapply (MG_value TW v _ M_enum _ id); [done..|]; by apply S_enum|exact Er].
Qed.

(** ** The standard types come to an end and are orderly *)
Fixpoint option_depth (t : target) : nat := match t with T_option t => S (option_depth t) | _ => 0 end.
Lemma target_ends : ends TW.
Proof.
  exists (fun t => match t with TT t => option_depth t | _ => 0 end).
  exists (fun st => match st with RS_return _ => 0 | _ => 1 end).
  split_and!.
  - intros [t|fs] vis post t' k H; [|done]. injection H as Hm <- <-. cbn. destruct t; try done.
    intros H. injection H as <- <-. cbn. lia.
  - intros [t|fs] vis post t' k H; [|done]. by injection H as Hm <- <-.
  - intros [] ? ?; cbn; try done; try (intros [= <- <-]; cbn; lia).
    destruct ts; [done|]. intros [= <- <-]; cbn; lia.
  - intros [] ? ?; cbn; try done; try (intros [= <- <-]; cbn; lia).
  - intros [] ? ? ?; cbn; try done; try (intros [= <- <- <-]; cbn; lia).
Qed.
Lemma target_orderly : orderly TW.
Proof.
  exists (fun st => match st with RS_field _ _ _ _ | RS_unknown _ _ => True | _ => False end).
  split_and!.
  - intros [t|fs] m vis post n H; injection H as Hm <- <-; cbn; [|tauto]. by destruct t; cbn; tauto.
  - intros [] ? ?; cbn; done.
  - intros [] ? ?; cbn; try done. intros [= <- <-]. tauto.
  - intros [] ? ? x; cbn; try done; intros [= <- <-]; destruct x; tauto.
  - intros [] ? ? ? x; cbn; try done; intros [= <- <- <-];
      destruct x as [[[u w]|]|]; try tauto. destruct u; tauto.
Qed.
End with_libs.
