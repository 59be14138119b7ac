(** * DeriveLemmas: derived structs read what the attributes promise. *)
From Verif Require Import Base Utf8 Value Wire Serde SerdeSpec Reading Visitors VisitorSpec Derive.
From Coq Require Import Lia.

Section derive.
Context {DL : DecimalLib} {FL : FloatLib} {TL : TextLib}.
Context {U Ty St : Type} (W : world U Ty St) (D : struct_type U Ty).

Lemma field_named_some s fs i : field_named s fs = Some i -> exists f : field U Ty, fs !! i = Some f /\ s ∈ f_names f.
Proof.
  revert i. induction fs as [|f fs IH]; intros i H; [done|]. cbn [field_named] in H. destruct (decide _) as [Hs|Hs].
  - injection H as <-. by exists f.
  - destruct (field_named s fs) as [j|]; [|done]. injection H as <-. destruct (IH j eq_refl) as (g & Hg & Hs'). by exists g.
Qed.
Lemma field_named_none s (fs : list (field U Ty)) : field_named s fs = None <-> forall f, f ∈ fs -> s ∉ f_names f.
Proof.
  induction fs as [|f fs IH]; cbn [field_named].
  { split; [|done]. intros _ f Hf. by apply elem_of_nil in Hf. }
  destruct (decide _) as [Hs|Hs].
  - split; [done|]. intros H. exfalso. by apply (H f); [left|].
  - destruct (field_named s fs); cbn [option_map].
    + split; [done|]. intros H. exfalso. assert (Some n = None) as E; [|done]. apply IH. intros g Hg. apply H. by right.
    + split; [|done]. intros _ g Hg. apply elem_of_cons in Hg as [-> |Hg]; [done|]. by apply IH.
Qed.
Lemma distinct_same fs i j (f g : field U Ty) s : NoDup (concat (map f_names fs)) ->
  fs !! i = Some f -> fs !! j = Some g -> s ∈ f_names f -> s ∈ f_names g -> i = j.
Proof.
  revert i j. induction fs as [|h fs IH]; intros i j Hn Hi Hj Hf Hg; [done|]. cbn [map concat] in Hn.
  apply NoDup_app in Hn as (_ & Hd & Hn).
  assert (forall k (g : field U Ty), fs !! k = Some g -> s ∈ f_names g -> s ∈ concat (map f_names fs)) as Hin.
  { intros k g' Hk Hs. apply elem_of_list_In, in_concat. exists (f_names g').
    split; [|by apply elem_of_list_In]. apply in_map, elem_of_list_In. by eapply elem_of_list_lookup_2. }
  destruct i as [|i], j as [|j]; cbn in Hi, Hj; simplify_eq.
  - done.
  - exfalso. eapply Hd; [exact Hf|]. by eapply Hin.
  - exfalso. eapply Hd; [exact Hg|]. by eapply Hin.
  - f_equal. by apply IH.
Qed.
Lemma named_iff s i : distinct_fields D ->
  field_named s (s_fields D) = Some i <-> exists f, s_fields D !! i = Some f /\ s ∈ f_names f.
Proof.
  intros Hd. split; [apply field_named_some|]. intros (f & Hf & Hs).
  destruct (field_named s (s_fields D)) as [j|] eqn:E.
  - apply field_named_some in E as (g & Hg & Hs'). f_equal. by eapply distinct_same.
  - exfalso. rewrite field_named_none in E. apply (E f); [|done]. by eapply elem_of_list_lookup_2.
Qed.

(** Reading all members. *)
Inductive entries : list (str * value) -> list (nat * U) -> list (nat * U) -> Prop :=
| E_nil got : entries [] got got
| E_field s v ms got i f x got' : field_named s (s_fields D) = Some i -> s_fields D !! i = Some f -> got_field i got = None ->
    gets W v (f_type f) (TOk x) -> entries ms ((i, x) :: got) got' -> entries ((s, v) :: ms) got got'
| E_other s v ms got x got' : field_named s (s_fields D) = None -> s_deny D = false -> gets W v (s_ignored D) (TOk x) ->
    entries ms got got' -> entries ((s, v) :: ms) got got'.

Section program.
Context (G : generated U St).
Hypothesis Hname : exists vis, w_impl W (s_name D) = I_call M_any vis id /\ forall s, on_str vis s = name_result D G s.
Hypothesis Hknown : forall i, g_which G (g_known G i) = Some i.
Hypothesis Hother : g_which G (g_other G) = None.
Hypothesis Hnext : forall got, w_map W (g_next G got) = P_key (s_name D) (after_name D G got).
Hypothesis Hfield : forall got i f, s_fields D !! i = Some f -> w_map W (g_field G got i) = P_value (f_type f) (after_field G got i).
Hypothesis Hskip : forall got, w_map W (g_skip G got) = P_value (s_ignored D) (after_other G got).
Hypothesis Hreturn : forall r, w_map W (g_return G r) = P_return r.

Lemma name_gets s x : gets_name W false s (s_name D) x <-> x = name_result D G s.
Proof using Hname.
  destruct Hname as (vis & Hi & Hs). split.
  - intros H. inversion H; subst; rewrite Hi in *; simplify_eq; try done. by apply Hs.
  - intros ->. rewrite <- Hs. by apply (N_name W false s _ M_any vis id).
Qed.
Lemma return_only r ms p r' left : entry_by_entry W false (g_return G r) ms p r' left <-> r' = r /\ left = ms.
Proof using Hreturn.
  split.
  - intros H. inversion H; subst; match goal with E : w_map _ _ = _ |- _ => rewrite Hreturn in E; simplify_eq end. done.
  - intros [-> ->]. apply P_done. apply Hreturn.
Qed.
Lemma next_nil got p r left :
  entry_by_entry W false (g_next G got) [] p r left
  <-> left = [] /\ r = tres_map (s_make D) (all_fields G got 0 (s_fields D)).
Proof using Hnext Hreturn.
  split.
  - intros H. inversion H; subst; match goal with E : w_map _ _ = _ |- _ => rewrite Hnext in E; simplify_eq end.
    cbn [after_name] in *. match goal with H : entry_by_entry _ _ _ _ _ _ _ |- _ => apply return_only in H as [-> ->] end. done.
  - intros [-> ->]. eapply P_no_name; [apply Hnext|]. cbn [after_name]. by apply return_only.
Qed.
Lemma next_cons got s v ms p r left :
  entry_by_entry W false (g_next G got) ((s, v) :: ms) p r left
  <-> entry_by_entry W false (after_name D G got (tres_map Some (name_result D G s))) ms (Some v) r left.
Proof using Hnext Hname.
  split.
  - intros H. inversion H; subst; match goal with E : w_map _ _ = _ |- _ => rewrite Hnext in E; simplify_eq end.
    match goal with H : gets_name _ _ _ _ _ |- _ => apply name_gets in H; subst end. done.
  - intros H. eapply P_name; [apply Hnext|by apply name_gets|done].
Qed.

Lemma reads_iff ms : forall got p u left,
  entry_by_entry W false (g_next G got) ms p (TOk u) left
  <-> left = [] /\ exists got', entries ms got got' /\ tres_map (s_make D) (all_fields G got' 0 (s_fields D)) = TOk u.
Proof using Hname Hknown Hother Hnext Hfield Hskip Hreturn.
  induction ms as [|[s v] ms IH]; intros got p u left.
  - rewrite next_nil. split.
    + intros [-> H]. split; [done|]. exists got. split; [constructor|done].
    + intros [-> (got' & He & H)]. inversion He; subst. done.
  - rewrite next_cons. unfold name_result. destruct (field_named s (s_fields D)) as [i|] eqn:Ei.
    + cbn [tres_map tres_bind after_name]. rewrite Hknown.
      destruct (field_named_some _ _ _ Ei) as (f & Hf & Hs).
      destruct (got_field i got) as [x|] eqn:Eg.
      { rewrite return_only. split; [by intros [? _]|]. intros [_ (got' & He & _)].
        inversion He; subst; congruence. }
      split.
      * intros H. inversion H; subst; match goal with E : w_map _ _ = _ |- _ => rewrite (Hfield _ _ _ Hf) in E; simplify_eq end.
        match goal with H : gets _ v _ ?x |- _ => destruct x as [x|e]; cbn [after_field] in *; rename H into Hg end.
        -- match goal with H : entry_by_entry _ _ (g_next _ _) _ _ _ _ |- _ => apply IH in H as [-> (got' & He & Hr)] end.
           split; [done|]. exists got'. split; [|done]. by eapply E_field.
        -- match goal with H : entry_by_entry _ _ (g_return _ _) _ _ _ _ |- _ => apply return_only in H as [? _] end. done.
      * intros [-> (got' & He & Hr)]. inversion He as [|s0 v0 ms0 g0 i0 f0 x0 g1 En Ef En2 Hg He'|]; subst; [|congruence].
        assert (i0 = i) as -> by congruence. assert (f0 = f) as -> by congruence.
        eapply P_its_value; [by apply Hfield|exact Hg|]. cbn [after_field]. apply IH. split; [done|]. by exists got'.
    + destruct (s_deny D) eqn:Ed.
      { cbn [tres_map tres_bind after_name]. rewrite return_only. split; [by intros [? _]|]. intros [_ (got' & He & _)].
        inversion He; subst; congruence. }
      cbn [tres_map tres_bind after_name]. rewrite Hother. split.
      * intros H. inversion H; subst; match goal with E : w_map _ _ = _ |- _ => rewrite Hskip in E; simplify_eq end.
        match goal with H : gets _ v _ ?x |- _ => destruct x as [x|e]; cbn [after_other] in *; rename H into Hg end.
        -- match goal with H : entry_by_entry _ _ (g_next _ _) _ _ _ _ |- _ => apply IH in H as [-> (got' & He & Hr)] end.
           split; [done|]. exists got'. split; [|done]. by eapply E_other.
        -- match goal with H : entry_by_entry _ _ (g_return _ _) _ _ _ _ |- _ => apply return_only in H as [? _] end. done.
      * intros [-> (got' & He & Hr)]. inversion He as [|s0 v0 ms0 g0 i0 f0 x0 g1 En|s0 v0 ms0 g0 x0 g1 En Ed' Hg He']; subst; [congruence|].
        eapply P_its_value; [by apply Hskip|exact Hg|]. cbn [after_other]. apply IH. split; [done|]. by exists got'.
Qed.
End program.

(** The fields that have been got, against the promise. *)
Lemma got_field_cons i j x (got : list (nat * U)) : got_field i ((j, x) :: got) = if Nat.eqb i j then Some x else got_field i got.
Proof. done. Qed.
Lemma entries_old ms got got' i x : entries ms got got' -> got_field i got = Some x -> got_field i got' = Some x.
Proof.
  induction 1 as [got|s v ms got j f y got' En Ef Eg Hg _ IH|s v ms got y got' En Ed Hg _ IH]; intros H; [done| |by apply IH].
  apply IH. rewrite got_field_cons. destruct (Nat.eqb_spec i j); [congruence|done].
Qed.
Lemma entries_sound ms got got' : distinct_fields D -> entries ms got got' ->
  (forall i f, s_fields D !! i = Some f -> got_field i got = None ->
     match got_field i got' with
     | Some x => exists s v, (s, v) ∈ ms /\ s ∈ f_names f /\ gets W v (f_type f) (TOk x)
                   /\ forall s' v', (s', v') ∈ ms -> s' ∈ f_names f -> s' = s
     | None => forall s v, (s, v) ∈ ms -> s ∉ f_names f
     end)
  /\ (forall i f, s_fields D !! i = Some f -> got_field i got <> None -> forall s v, (s, v) ∈ ms -> s ∉ f_names f)
  /\ (forall s v, (s, v) ∈ ms -> field_named s (s_fields D) = None -> s_deny D = false /\ exists x, gets W v (s_ignored D) (TOk x)).
Proof.
  intros Hd. induction 1 as [got|s v ms got j g y got' En Eg Eo Hg He IH|s v ms got y got' En Ed Hg He IH].
  - split_and!.
    + intros i f Hf ->. intros s v H. by apply elem_of_nil in H.
    + intros i f Hf Hn s v H. by apply elem_of_nil in H.
    + intros s v H. by apply elem_of_nil in H.
  - destruct IH as (IH1 & IH2 & IH3). destruct (proj1 (named_iff s j Hd) En) as (g' & Eg' & Hs). assert (g' = g) as -> by congruence.
    assert (forall i f, s_fields D !! i = Some f -> i <> j -> s ∉ f_names f) as Hnot.
    { intros i f Hf Hij Hs'. apply Hij. by eapply distinct_same. }
    split_and!.
    + intros i f Hf Hn. destruct (decide (i = j)) as [-> |Hij].
      * assert (f = g) as -> by congruence.
        rewrite (entries_old _ _ _ j y He) by (rewrite got_field_cons, Nat.eqb_refl; done).
        exists s, v. split_and!; [by left|done|done|]. intros s' v' Hin Hs'. apply elem_of_cons in Hin as [[= -> ->]|Hin]; [done|].
        exfalso. eapply IH2; [exact Eg| |exact Hin|exact Hs']. rewrite got_field_cons, Nat.eqb_refl. done.
      * specialize (IH1 i f Hf). rewrite got_field_cons in IH1. destruct (Nat.eqb_spec i j); [done|]. specialize (IH1 Hn).
        destruct (got_field i got') as [x|].
        -- destruct IH1 as (s0 & v0 & Hin & Hs0 & Hx & Hu). exists s0, v0. split_and!; [by right|done|done|].
           intros s' v' Hin' Hs'. apply elem_of_cons in Hin' as [[= -> ->]|Hin']; [|by eapply Hu].
           exfalso. by eapply Hnot.
        -- intros s' v' Hin'. apply elem_of_cons in Hin' as [[= -> ->]|Hin']; [by eapply Hnot|by eapply IH1].
    + intros i f Hf Hn s' v' Hin'. assert (i <> j) by (intros ->; done).
      apply elem_of_cons in Hin' as [[= -> ->]|Hin']; [by eapply Hnot|].
      eapply IH2; [exact Hf| |exact Hin']. rewrite got_field_cons. by destruct (Nat.eqb_spec i j).
    + intros s' v' Hin' Hn. apply elem_of_cons in Hin' as [[= -> ->]|Hin']; [congruence|by eapply IH3].
  - destruct IH as (IH1 & IH2 & IH3).
    assert (forall i f, s_fields D !! i = Some f -> s ∉ f_names f) as Hnot.
    { intros i f Hf. rewrite field_named_none in En. apply En. by eapply elem_of_list_lookup_2. }
    split_and!.
    + intros i f Hf Hn. specialize (IH1 i f Hf Hn). destruct (got_field i got') as [x|].
      * destruct IH1 as (s0 & v0 & Hin & Hs0 & Hx & Hu). exists s0, v0. split_and!; [by right|done|done|].
        intros s' v' Hin' Hs'. apply elem_of_cons in Hin' as [[= -> ->]|Hin']; [|by eapply Hu]. exfalso. by eapply Hnot.
      * intros s' v' Hin'. apply elem_of_cons in Hin' as [[= -> ->]|Hin']; [by eapply Hnot|by eapply IH1].
    + intros i f Hf Hn s' v' Hin'. apply elem_of_cons in Hin' as [[= -> ->]|Hin']; [by eapply Hnot|by eapply IH2].
    + intros s' v' Hin' Hn. apply elem_of_cons in Hin' as [[= -> ->]|Hin']; [eauto|by eapply IH3].
Qed.

Lemma all_fields_iff (G : generated U St) got (fs : list (field U Ty)) us : forall n,
  all_fields G got n fs = TOk us
  <-> length us = length fs
      /\ forall i f u, fs !! i = Some f -> us !! i = Some u ->
           match got_field (n + i) got with Some x => u = x | None => f_absent f = Some u end.
Proof.
  revert us. induction fs as [|f fs IH]; intros us n; cbn [all_fields].
  - split.
    + intros [= <-]. split; [done|]. intros i f u H. done.
    + intros [H _]. by destruct us.
  - destruct us as [|u us].
    { split; [|by intros [? _]]. destruct (got_field n got); [|destruct (f_absent f)]; cbn [tres_bind]; try done;
        destruct (all_fields G got (S n) fs); done. }
    assert (all_fields G got (S n) fs = TOk us <-> length us = length fs /\ forall i f u, fs !! i = Some f -> us !! i = Some u ->
      match got_field (n + S i) got with Some x => u = x | None => f_absent f = Some u end) as IH'.
    { rewrite IH. split; intros [? H]; (split; [done|]); intros i g w Hi Hw; specialize (H i g w Hi Hw);
        by rewrite Nat.add_succ_r in *. }
    clear IH.
    assert (forall x, (let$ us := all_fields G got (S n) fs in TOk (x :: us)) = TOk (u :: us) <-> x = u /\ all_fields G got (S n) fs = TOk us) as Hb.
    { intros x. destruct (all_fields G got (S n) fs) as [us'|e]; cbn [tres_bind]; split; try (by intros [? ?]); intros H; simplify_eq; try done.
      destruct H as [-> [= ->]]. done. }
    assert ((length (u :: us) = length (f :: fs) /\ forall i g w, (f :: fs) !! i = Some g -> (u :: us) !! i = Some w ->
      match got_field (n + i) got with Some x => w = x | None => f_absent g = Some w end)
      <-> match got_field n got with Some x => u = x | None => f_absent f = Some u end /\ all_fields G got (S n) fs = TOk us) as ->.
    { rewrite IH'. split.
      - intros [Hl H]. split; [|split; [by injection Hl|]].
        + specialize (H 0 f u eq_refl eq_refl). by rewrite Nat.add_0_r in H.
        + intros i g w Hi Hw. exact (H (S i) g w Hi Hw).
      - intros (H0 & Hl & H). split; [cbn [length]; by f_equal|]. intros [|i] g w Hi Hw.
        + cbn in Hi, Hw. simplify_eq. by rewrite Nat.add_0_r.
        + by apply (H i). }
    destruct (got_field n got) as [x|]; [|destruct (f_absent f) as [x|]]; cbn [tres_bind].
    + rewrite Hb. split; intros [? ?]; done.
    + rewrite Hb. split; intros [E ?]; split; congruence.
    + split; [done|]. by intros [? _].
Qed.

Definition fits (ms : list (str * value)) (us : list U) : Prop :=
  Forall2 (fun f u => has_field W f ms u) (s_fields D) us
  /\ forall s v, (s, v) ∈ ms -> (forall f, f ∈ s_fields D -> s ∉ f_names f) ->
       s_deny D = false /\ exists x, gets W v (s_ignored D) (TOk x).
Lemma entries_fits ms got' us (G : generated U St) : distinct_fields D -> entries ms [] got' ->
  all_fields G got' 0 (s_fields D) = TOk us -> fits ms us.
Proof.
  intros Hd He Hr. destruct (entries_sound _ _ _ Hd He) as (H1 & _ & H3).
  apply all_fields_iff in Hr as [Hl Hr]. split.
  - apply Forall2_same_length_lookup_2; [done|]. intros i f u Hf Hu. specialize (Hr i f u Hf Hu). cbn [Nat.add] in Hr.
    specialize (H1 i f Hf eq_refl). destruct (got_field i got') as [x|].
    + subst u. destruct H1 as (s & v & Hin & Hs & Hg & Hu'). by eapply HF_present.
    + by apply HF_absent.
  - intros s v Hin Hn. eapply H3; [done|]. by apply field_named_none.
Qed.

(** The other direction: the fields are got one by one. *)
Lemma fits_entries all us : distinct_fields D -> NoDup (map fst all) -> fits all us -> forall ms got,
  (forall s v, (s, v) ∈ ms -> (s, v) ∈ all) -> NoDup (map fst ms) ->
  (forall s v i f, (s, v) ∈ ms -> s_fields D !! i = Some f -> s ∈ f_names f -> got_field i got = None) ->
  exists got', entries ms got got'
    /\ (forall i x, got_field i got' = Some x -> got_field i got = Some x
          \/ (us !! i = Some x /\ exists s v f, (s, v) ∈ ms /\ s_fields D !! i = Some f /\ s ∈ f_names f))
    /\ (forall s v i f, (s, v) ∈ ms -> s_fields D !! i = Some f -> s ∈ f_names f -> got_field i got' <> None).
Proof.
  intros Hd Hnd [Hf Ho]. induction ms as [|[s v] ms IH]; intros got Hin Hn Hgot.
  { exists got. split; [constructor|]. split; [by left|]. intros s v i f H. by apply elem_of_nil in H. }
  cbn [map] in Hn. apply NoDup_cons in Hn as [Hs Hn].
  assert (forall s' v', (s', v') ∈ ms -> s' <> s) as Hdiff.
  { intros s' v' H ->. apply Hs. apply elem_of_list_fmap. by exists (s, v'). }
  destruct (field_named s (s_fields D)) as [i|] eqn:Ei.
  - destruct (proj1 (named_iff s i Hd) Ei) as (f & Ef & Hsf).
    destruct (Forall2_lookup_l _ _ _ _ _ Hf Ef) as (x & Hx & Hh).
    destruct Hh as [s0 v0 Hin0 Hs0 Hu0 Hg0|Hno _].
    2:{ exfalso. apply (Hno s v); [apply Hin; by left|done]. }
    assert (s = s0) as <- by (eapply Hu0; [apply Hin; by left|done]).
    assert (v0 = v) as ->.
    { assert ((s, v) ∈ all) as Hv by (apply Hin; by left). clear -Hnd Hv Hin0.
      induction all as [|[k w] all IH]; [by apply elem_of_nil in Hv|]. cbn [map] in Hnd. apply NoDup_cons in Hnd as [Hk Hnd].
      apply elem_of_cons in Hv, Hin0. destruct Hv as [[= -> ->]|Hv], Hin0 as [[= ->]|Hin0]; try done.
      - exfalso. apply Hk. apply elem_of_list_fmap. by exists (k, v0).
      - subst. exfalso. apply Hk. apply elem_of_list_fmap. by exists (k, v).
      - by apply IH. }
    destruct (IH ((i, x) :: got)) as (got' & He & H1 & H2).
    + intros s' v' H. apply Hin. by right.
    + done.
    + intros s' v' j g H Hg Hs'. rewrite got_field_cons. destruct (Nat.eqb_spec j i) as [-> |Hj].
      * exfalso. assert (g = f) as -> by congruence. apply (Hdiff s' v' H). eapply Hu0; [apply Hin; by right|done].
      * eapply Hgot; [right; exact H|exact Hg|exact Hs'].
    + exists got'. split_and!.
      * eapply E_field; [exact Ei|exact Ef| |exact Hg0|exact He]. eapply Hgot; [left|exact Ef|exact Hsf].
      * intros j y Hy. apply H1 in Hy as [Hy|(Hy & s' & v' & g & Hi & Hg & Hs')].
        -- rewrite got_field_cons in Hy. destruct (Nat.eqb_spec j i) as [-> |Hj]; [|by left].
           injection Hy as <-. right. split; [done|]. exists s, v, f. split_and!; [by left|done|done].
        -- right. split; [done|]. exists s', v', g. split_and!; [by right|done|done].
      * intros s' v' j g Hi Hg Hs'. apply elem_of_cons in Hi as [[= -> ->]|Hi]; [|by eapply H2].
        assert (j = i) as -> by (by eapply distinct_same).
        rewrite (entries_old _ _ _ i x He); [done|]. by rewrite got_field_cons, Nat.eqb_refl.
  - destruct (Ho s v) as [Hden (x & Hx)]; [apply Hin; by left|by apply field_named_none|].
    destruct (IH got) as (got' & He & H1 & H2).
    + intros s' v' H. apply Hin. by right.
    + done.
    + intros s' v' j g H. eapply Hgot. by right.
    + exists got'. split_and!.
      * by eapply E_other.
      * intros j y Hy. apply H1 in Hy as [Hy|(Hy & s' & v' & g & Hi & Hg & Hs')]; [by left|].
        right. split; [done|]. exists s', v', g. split_and!; [by right|done|done].
      * intros s' v' j g Hi Hg Hs'. apply elem_of_cons in Hi as [[= -> ->]|Hi]; [|by eapply H2].
        exfalso. rewrite field_named_none in Ei. apply (Ei g); [|done]. by eapply elem_of_list_lookup_2.
Qed.
Lemma fits_got ms us (G : generated U St) : distinct_fields D -> NoDup (map fst ms) -> fits ms us ->
  exists got', entries ms [] got' /\ all_fields G got' 0 (s_fields D) = TOk us.
Proof.
  intros Hd Hn Hf. destruct (fits_entries ms us Hd Hn Hf ms []) as (got' & He & H1 & H2); [done|done|done|].
  exists got'. split; [done|]. apply all_fields_iff. destruct Hf as [Hf _]. split; [by apply Forall2_length in Hf|].
  intros i f u Hif Hiu. cbn [Nat.add]. destruct (got_field i got') as [x|] eqn:E.
  - apply H1 in E as [E|[E _]]; [done|congruence].
  - destruct (Forall2_lookup_lr _ _ _ _ _ _ Hf Hif Hiu) as [s v Hin Hs _ _|_ Ha]; [|done].
    exfalso. by eapply H2.
Qed.

Lemma struct_iff t ms u : derives W t D -> distinct_fields D -> NoDup (map fst ms) ->
  (exists vis, w_impl W t = I_call M_struct vis id
     /\ forall n left, entry_by_entry W false (on_map vis n) ms None (TOk u) left <-> left = [] /\ struct_value W D ms u).
Proof.
  intros (G & (vis & Hi & Hm) & Hn & Hk & Ho & Hx & Hf & Hs & Hr) Hd Hnd. exists vis. split; [done|].
  intros n left. rewrite Hm. rewrite (reads_iff G Hn Hk Ho Hx Hf Hs Hr). split.
  - intros [-> (got' & He & Hu)]. split; [done|]. destruct (all_fields G got' 0 (s_fields D)) as [us|] eqn:E; [|done].
    injection Hu as <-. apply (entries_fits ms got' us G Hd He) in E as [E1 E2]. split; [|done]. by exists us.
  - intros [-> [(us & -> & E1) E2]]. split; [done|].
    destruct (fits_got ms us G Hd Hnd (conj E1 E2)) as (got' & He & Hu). exists got'. split; [done|]. by rewrite Hu.
Qed.
End derive.
