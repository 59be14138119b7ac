(** * PropsZM: C87, nothing is made up or read twice. *)
From Verif Require Import Base Utf8 Value DataTypes Records Parser Wire Spec PropsA Serde SerdeLemmas SerdeSpec
  Reading Equality EqualitySpec EqualData EqualReads Parts PropsG PropsH PropsI PropsL.
From Coq Require Import Lia.
From Coq Require Strings.String.
Import String.StringSyntax.

Lemma concat_submseteq {A B} (f : A -> list B) l k : l ⊆+ k -> concat (map f l) ⊆+ concat (map f k).
Proof.
  induction 1 as [|x l k _ IH|x y l|x l k _ IH|l k m _ IH1 _ IH2]; cbn [map concat].
  - done.
  - by apply submseteq_app.
  - apply Permutation_submseteq. rewrite !app_assoc. f_equiv. apply Permutation_app_comm.
  - by apply submseteq_inserts_l.
  - by etrans.
Qed.
Lemma facts_zip {A} (ns : list A) ds : length ns = length ds ->
  concat (map (fun kd : A * data => facts kd.2) (zip ns ds)) = concat (map facts ds).
Proof.
  revert ds. induction ns as [|n ns IH]; intros [|d ds]; try done. intros [= H]. cbn. by rewrite IH.
Qed.

Section with_libs.
Context {DL : DecimalLib} {FL : FloatLib}.

Lemma states_scalar v d : states v d -> parts v = [v].
Proof. induction 1 as [v e t d H _|]; [by destruct H|done]. Qed.
Lemma converts_facts e t d : converts e t d -> facts d = [d] \/ facts d = [].
Proof. intros []; cbn; auto. Qed.
Lemma primitive_facts p e : primitive p e -> facts p = [p].
Proof. by intros []. Qed.

Lemma taken_nothing v d : facts d = [] -> taken_from v d.
Proof. intros H. exists []. rewrite H. split; [apply submseteq_nil_l|constructor]. Qed.
(** Items one by one. *)
Lemma taken_items vs ds : Forall2 taken_from vs ds ->
  exists used, used ⊆+ concat (map parts vs) /\ Forall2 states used (concat (map facts ds)).
Proof.
  induction 1 as [|v d vs ds (u & Hu & Hs) _ (us & Hus & Hss)]; cbn [map concat].
  - exists []. by split; constructor.
  - exists (u ++ us). split; [by apply submseteq_app|by apply Forall2_app].
Qed.
Lemma parts_perm (ms ns : list (str * value)) : ms ≡ₚ ns ->
  concat (map (fun kv => VString kv.1 :: parts kv.2) ms) ≡ₚ concat (map (fun kv => VString kv.1 :: parts kv.2) ns).
Proof. intros ->. done. Qed.
Lemma items_parts v vs : any_elements v vs -> concat (map parts vs) ⊆+ parts v.
Proof.
  assert (forall c l ms items size version, list_members items size version ms ->
    concat (map parts items) ⊆+ parts (VObject (mkObj c l ms))) as Hl.
  { intros c l ms items size version H. unfold list_members in H. cbn [parts obj_members]. rewrite (parts_perm _ _ H). cbn [map concat parts fst snd].
    apply submseteq_inserts_r. by apply submseteq_cons. }
  intros []; [destruct H|].
  - done.
  - etrans; [|by eapply Hl]. apply concat_submseteq. apply sublist_submseteq, sublist_take.
  - by eapply Hl.
Qed.
Lemma taken_mono v w ds : concat (map parts v) ⊆+ parts w -> Forall2 taken_from v ds ->
  exists used, used ⊆+ parts w /\ Forall2 states used (concat (map facts ds)).
Proof. intros H Hf. destruct (taken_items _ _ Hf) as (u & Hu & Hs). exists u. split; [by etrans|done]. Qed.

(** Entries. *)
Definition entry_parts (kv : str * value) : list value := VString kv.1 :: parts kv.2.
Lemma map_taken ms ds : Forall2 (fun kv d => taken_from kv.2 d) ms ds ->
  exists used, used ⊆+ concat (map entry_parts ms)
    /\ Forall2 states used (concat (map (fun kd => D_str kd.1 :: facts kd.2) (zip (map fst ms) ds))).
Proof.
  induction 1 as [|[k v] d ms ds (u & Hu & Hs) _ (us & Hus & Hss)]; cbn [map concat zip zip_with].
  - exists []. by split; constructor.
  - exists ((VString k :: u) ++ us). unfold entry_parts at 1. cbn [fst snd] in *. split.
    + apply submseteq_app; [by apply submseteq_skip|done].
    + apply Forall2_app; [|done]. constructor; [|done]. eapply S_content; constructor.
Qed.
Lemma states_perm used l l' : Forall2 states used l -> l ≡ₚ l' -> exists used', used' ≡ₚ used /\ Forall2 states used' l'.
Proof.
  intros H Hp. revert used H. induction Hp as [|x l l' _ IH|x y l|l l' l'' _ IH1 _ IH2]; intros used H.
  - exists used. by split.
  - inversion H as [|u ? us ? Hu Hus]; subst. destruct (IH us Hus) as (us' & Hp & Hs). exists (u :: us').
    split; [by constructor|by constructor].
  - inversion H as [|u ? us ? Hu Hus]; subst. inversion Hus as [|w ? ws ? Hw Hws]; subst. exists (w :: u :: ws).
    split; [apply Permutation_swap|by repeat constructor].
  - destruct (IH1 used H) as (u1 & H1 & H2). destruct (IH2 u1 H2) as (u2 & H3 & H4). exists u2. split; [by rewrite H3|done].
Qed.
Lemma map_facts_perm (m n : list (str * data)) : m ≡ₚ n ->
  concat (map (fun kd => D_str kd.1 :: facts kd.2) m) ≡ₚ concat (map (fun kd => D_str kd.1 :: facts kd.2) n).
Proof. intros ->. done. Qed.
Lemma sorted_map_taken ms ds m c l : Forall2 (fun kv d => taken_from kv.2 d) ms ds -> m ≡ₚ zip (map fst ms) ds ->
  taken_from (VObject (mkObj c l ms)) (D_map m).
Proof.
  intros H Hm. destruct (map_taken ms ds H) as (u & Hu & Hs).
  destruct (states_perm _ _ _ Hs (map_facts_perm _ _ (symmetry Hm))) as (u' & Hp & Hs'). exists u'. split; [|done].
  rewrite Hp. done.
Qed.

(** Fields: the members they are read from are different ones. *)
Definition field_reads (ms : list (str * value)) (f : str * target) (d : data) : Prop :=
  (exists u, (f.1, u) ∈ ms /\ taken_from u d) \/ d = D_none.
Lemma fields_taken ms fs ds : NoDup (map fst fs) -> Forall2 (field_reads ms) fs ds ->
  exists chosen used, NoDup (map fst chosen) /\ (forall kv, kv ∈ chosen -> kv ∈ ms /\ kv.1 ∈ map fst fs)
    /\ used ⊆+ concat (map entry_parts chosen) /\ Forall2 states used (concat (map facts ds)).
Proof.
  intros Hn H. induction H as [|f d fs ds Hf _ IH]; cbn [map concat] in *.
  - exists [], []. split_and!; try constructor; by inversion H.
  - apply NoDup_cons in Hn as [Hfn Hn]. destruct (IH Hn) as (ch & us & H1 & H2 & H3 & H4).
    destruct Hf as [(u & Hu & (w & Hw & Hs))| ->].
    + exists ((f.1, u) :: ch), (w ++ us). split_and!.
      * cbn [map fst]. apply NoDup_cons. split; [|done]. intros Hin. apply Hfn.
        apply elem_of_list_fmap in Hin as (kv & -> & Hkv). apply (H2 _ Hkv).
      * intros kv Hkv. apply elem_of_cons in Hkv as [->|Hkv]; [split; [done|left]|]. destruct (H2 _ Hkv). split; [done|by right].
      * cbn [map concat]. apply submseteq_app; [|done]. unfold entry_parts. cbn. by apply submseteq_cons.
      * by apply Forall2_app.
    + exists ch, us. split_and!; [done| |done|done]. intros kv Hkv. destruct (H2 _ Hkv). split; [done|by right].
Qed.
Lemma struct_taken c l ms fs ds : NoDup (map fst fs) -> Forall2 (field_reads ms) fs ds ->
  taken_from (VObject (mkObj c l ms)) (D_struct (zip (map fst fs) ds)).
Proof.
  intros Hn H. destruct (fields_taken _ _ _ Hn H) as (ch & us & H1 & H2 & H3 & H4). exists us. split.
  - etrans; [exact H3|]. change (parts (VObject (mkObj c l ms))) with (concat (map entry_parts ms)). apply concat_submseteq.
    apply NoDup_submseteq; [by eapply NoDup_fmap_1|]. intros kv Hkv. apply (H2 _ Hkv).
  - cbn [facts]. rewrite facts_zip; [done|]. rewrite map_length. by eapply Forall2_length.
Qed.

Lemma rust_struct fs : rust_type (T_struct fs) -> NoDup (map fst fs) /\ Forall (fun f => rust_type f.2) fs.
Proof. inversion 1; subst; [done|contradiction]. Qed.
Lemma rust_tuple ts : rust_type (T_tuple ts) -> Forall rust_type ts.
Proof. inversion 1; subst; [done|contradiction]. Qed.
Lemma rust_inner t u : rust_type t -> t = T_vec u \/ t = T_map u \/ t = T_newtype u \/ t = T_option u -> rust_type u.
Proof. intros H [->|[->|[->| ->]]]; inversion H; subst; done || contradiction. Qed.
Lemma rust_prim name prim : wrapper_of name prim -> rust_type prim.
Proof. intros []; by apply TT_other. Qed.

Lemma reads_taken v : forall t d, rust_type t -> reads v t d -> taken_from v d.
Proof.
  induction v as [v IH] using value_below_ind.
  assert (forall vs t ds, rust_type t -> (forall u, u ∈ vs -> below u v) -> Forall2 (fun u d => reads u t d) vs ds ->
    Forall2 taken_from vs ds) as Hseq.
  { intros vs t ds Ht Hv Hf. induction Hf as [|u d vs ds Hr _ IHf]; [constructor|]. constructor.
    - by apply (IH u ltac:(apply Hv; left) t).
    - apply IHf. intros x Hx. apply Hv. by right. }
  assert (forall vs ts ds, Forall rust_type ts -> (forall u, u ∈ vs -> below u v) -> length vs = length ts ->
    Forall2 (fun ut d => reads ut.1 ut.2 d) (zip vs ts) ds -> Forall2 taken_from vs ds) as Heach.
  { intros vs. induction vs as [|u vs IHv]; intros [|t ts] ds Ht Hv Hl Hf; try done.
    - inversion Hf; subst. constructor.
    - cbn [zip zip_with] in Hf. inversion Hf as [|? d ? ds' Hr Hf']; subst. inversion Ht; subst. constructor.
      + apply (IH u ltac:(apply Hv; left) t); [done|exact Hr].
      + apply (IHv ts); [done| |by injection Hl|done]. intros x Hx. apply Hv. by right. }
  assert (forall t d, (forall u, t <> T_option u) -> rust_type t -> reads v t d -> taken_from v d) as Hcore.
  { intros t d Ho Ht Hr.
    assert (forall vs, any_elements v vs -> forall u, u ∈ vs -> below u v) as Hin by (intros vs H u Hu; by apply (any_elements_below v vs)).
    destruct Hr as [v e t d Hh Hc|name prim class v p e t d Hw Hcl Hp Hpr Hc| | |t|v t d Hv Hr|v vs t ds He' Hf|v vs He' Hf|v vs ts ds He' Hl Hf
      |v u t d He' Hr|vs fs ds Hl Hf|c l ms fs ds Hf Hi|c l ms t m ds Hpl Hf Hs Hm|c l ms Hpl Hf| |v vs ds He' Hf|c l ms m ds Hpl Hf Hs Hm].
    - destruct (converts_facts _ _ _ Hc) as [E|E]; [|by apply taken_nothing].
      assert (states v d) as Hsv by (by eapply S_content). exists [v]. rewrite E, (states_scalar _ _ Hsv). split; [done|by repeat constructor].
    - destruct (converts_facts _ _ _ Hc) as [E|E]; [|by apply taken_nothing].
      destruct (IH v ltac:(eapply below_member; cbn; by left) prim p (rust_prim _ _ Hw) Hp) as (u & Hu & Hs).
      rewrite (primitive_facts _ _ Hpr) in Hs. inversion Hs as [|w ? ? ? Hwp Hn]; subst. inversion Hn; subst.
      exists [w]. rewrite E. split.
      + cbn [parts obj_members map concat fst snd]. rewrite app_nil_r. by apply submseteq_cons.
      + constructor; [by eapply S_wrapped|constructor].
    - by apply taken_nothing.
    - by apply taken_nothing.
    - by apply taken_nothing.
    - by destruct (Ho t).
    - apply (taken_mono vs); [by apply items_parts|]. apply (Hseq vs t); [by eapply rust_inner; [exact Ht|left]|by apply Hin|done].
    - by apply taken_nothing.
    - apply (taken_mono vs); [apply items_parts; by constructor|]. apply (Heach vs ts); [by apply rust_tuple|apply Hin; by constructor|done|done].
    - apply A_elements in He'. destruct (taken_mono [u] v [d] (items_parts _ _ He')) as (x & Hx & Hs).
      + constructor; [|constructor]. apply (IH u ltac:(eapply Hin; [exact He'|by left]) t); [|done].
        by eapply rust_inner; [exact Ht|right; right; left].
      + exists x. split; [done|]. cbn [map concat] in Hs. by rewrite app_nil_r in Hs.
    - apply rust_struct in Ht as [Hn Ht]. assert (any_elements (VArray vs) vs) as He by (by do 2 constructor).
      destruct (taken_mono vs (VArray vs) ds) as (x & Hx & Hs); [done| |].
      + apply (Heach vs (map snd fs)); [by apply Forall_fmap|by apply Hin|by rewrite map_length|by apply zip_fields].
      + exists x. split; [done|]. cbn [facts]. rewrite facts_zip; [done|]. apply Forall2_length in Hf.
        rewrite map_length, <- Hf, zip_with_length. lia.
    - apply rust_struct in Ht as [Hn Ht]. apply struct_taken; [done|]. rewrite Forall_forall in Ht.
      apply Forall2_same_length_lookup. split; [by eapply Forall2_length|]. intros i f d Hfi Hdi.
      destruct (Forall2_lookup_lr _ _ _ _ _ _ Hf Hfi Hdi) as [(u & Hu & Hr)|(_ & _ & ->)]; [left|by right].
      exists u. split; [done|]. apply (IH u ltac:(by eapply below_member) f.2); [|done]. apply Ht. by eapply elem_of_list_lookup_2.
    - eapply sorted_map_taken; [|exact Hm]. apply Forall2_same_length_lookup. split; [by eapply Forall2_length|].
      intros i [k u] d Hi Hd. pose proof (Forall2_lookup_lr _ _ _ _ _ _ Hf Hi Hd) as Hr. apply elem_of_list_lookup_2 in Hi.
      apply (IH u ltac:(by eapply below_member) t); [|done]. by eapply rust_inner; [exact Ht|right; left].
    - by apply taken_nothing.
    - by apply taken_nothing.
    - apply (taken_mono vs); [by apply items_parts|]. apply (Hseq vs T_any); [by apply TT_other|by apply Hin|done].
    - eapply sorted_map_taken; [|exact Hm]. apply Forall2_same_length_lookup. split; [by eapply Forall2_length|].
      intros i [k u] d Hi Hd. pose proof (Forall2_lookup_lr _ _ _ _ _ _ Hf Hi Hd) as Hr. apply elem_of_list_lookup_2 in Hi.
      apply (IH u ltac:(by eapply below_member) T_any); [by apply TT_other|done]. }
  intros t. induction t; intros d Ht Hr; try (eapply Hcore; [|exact Ht|exact Hr]; discriminate).
  assert ((v = VNull /\ d = D_none) \/ exists d0, d = D_some d0 /\ v <> VNull /\ reads v t d0) as [[-> ->]|(d0 & -> & Hv & Hr0)].
  { inversion Hr; subst; try (by left); try (right; by eauto).
    - match goal with H : converts _ _ _ |- _ => inversion H end.
    - match goal with H : converts _ _ _ |- _ => inversion H end. }
  - by apply taken_nothing.
  - apply (IHt d0); [|done]. by eapply rust_inner; [exact Ht|do 3 right].
Qed.

(** Whatever type is asked for: every scalar and every map key in the result is stated by a scalar
    or member name of the message of its own. *)
Theorem C87_nothing_twice : decimal_text -> forall W t d, rust_type t -> from_slice t W = FOk d ->
  exists v, deserialize W = POk (MValue v) /\ taken_from v d.
Proof.
  intros Hdec W t d Ht H. apply C56_exact in H as (v & HW & Hr); [|done|done]. exists v. split; [done|].
  destruct Hr as [t|v t d _ Hr]; [by apply taken_nothing|by eapply reads_taken].
Qed.
(** So the result has no more of them than the message. *)
Theorem C87_no_more : decimal_text -> forall W t d v, rust_type t -> from_slice t W = FOk d ->
  deserialize W = POk (MValue v) -> length (facts d) <= length (parts v).
Proof.
  intros Hdec W t d v Ht H HW. destruct (C87_nothing_twice Hdec W t d Ht H) as (v' & HW' & (u & Hu & Hs)).
  rewrite HW in HW'. injection HW' as <-. rewrite <- (Forall2_length _ _ _ Hs). by apply submseteq_length.
Qed.
Example C87_ex : exists v d, from_slice T_any ex_struct = FOk d /\ deserialize ex_struct = POk (MValue v)
  /\ facts d = [D_str (lit "x"); D_int 5; D_str (lit "y"); D_str (lit "s")]
  /\ parts v = [VString (lit "y"); VString (lit "s"); VString (lit "x"); VInt32 5] /\ rust_type T_any.
Proof. eexists _, _. split_and!; [vm_compute; reflexivity|vm_compute; reflexivity|vm_compute; reflexivity|vm_compute; reflexivity|by apply TT_other]. Qed.
End with_libs.
