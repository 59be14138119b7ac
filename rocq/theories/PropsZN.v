(** * PropsZN: C87 for all implementations of [Deserialize]. *)
From Verif Require Import Base Utf8 Value DataTypes Records Parser Wire Spec PropsA Serde SerdeLemmas SerdeSpec
  Reading Equality EqualitySpec EqualData EqualReads Parts PropsG PropsH PropsI PropsL PropsR PropsZM.
From Verif Require Import Visitors VisitorSpec VisitorLemmas VisitorComplete VisitorEnds PropsU Frugal.
From Coq Require Import Lia.
From Coq Require Strings.String.
Import String.StringSyntax.

Lemma same_parts v : forall w, same_value v w -> parts v ≡ₚ parts w.
Proof.
  induction v as [[c l ms] IH|vs IH|v Hv] using value_ind'; intros w Hs.
  - inversion Hs as [|?|? ? ? ms' ns Hf Hp]; subst; [done|]. cbn [parts obj_members] in *. rewrite <- (parts_perm _ _ Hp).
    clear Hp Hs ns. rewrite Forall_forall in IH. induction Hf as [|[k v] [k' w] ms ms' [E H] _ IHf]; [done|].
    cbn [map concat fst snd] in *. subst k'. apply Permutation_app; [|apply IHf; intros x Hx; apply IH; by right].
    constructor. apply (IH (k, v)); [by left|done].
  - apply same_array_inv in Hs as (ws & -> & Hs). cbn [parts]. rewrite Forall_forall in IH. induction Hs as [|v w vs ws H _ IHf]; [done|].
    cbn [map concat]. apply Permutation_app; [by apply IH; [left|]|apply IHf; intros x Hx; apply IH; by right].
  - by rewrite (same_scalar _ _ Hs Hv).
Qed.
Lemma same_strings v s : forall w, same_value v w -> sub_value (VString s) w -> sub_value (VString s) v.
Proof.
  induction v as [[c l ms] IH|vs IH|v Hv] using value_ind'; intros w Hs Hu.
  - pose proof Hs as Hs'. apply same_object_inv in Hs' as ([c' l' ns] & ->). cbn in IH. rewrite Forall_forall in IH.
    destruct (same_value_members _ _ _ _ _ _ Hs) as (<- & <- & Hp & H1 & H2).
    inversion Hu as [|? k x Hx Hu'|]; subst. cbn in Hx. destruct (H2 k x Hx) as (y & Hy & Hyx).
    eapply sub_member; [exact Hy|]. by eapply (IH (k, y) Hy).
  - apply same_array_inv in Hs as (ws & -> & Hs). inversion Hu as [| |? x Hx Hu']; subst.
    apply elem_of_list_lookup in Hx as (i & Hi). destruct (Forall2_lookup_r _ _ _ _ _ Hs Hi) as (y & Hy & Hyx).
    apply elem_of_list_lookup_2 in Hy. rewrite Forall_forall in IH. eapply sub_element; [exact Hy|]. by eapply (IH y Hy).
  - apply same_scalar in Hs; [|done]. by subst.
Qed.

Section with_libs.
Context {DL : DecimalLib} {FL : FloatLib} {TL : TextLib}.

Lemma stated_sub ps ps' ds : stated_by ps ds -> ps ⊆+ ps' -> stated_by ps' ds.
Proof. intros (u & Hu & Hs) H. exists u. split; [by etrans|done]. Qed.
Lemma stated_less ps ds ds' : stated_by ps ds -> ds' ⊆+ ds -> stated_by ps ds'.
Proof.
  intros (u & Hu & Hs) H. apply submseteq_Permutation in H as [r Hr].
  destruct (states_perm _ _ _ Hs Hr) as (u' & Hp & Hs'). apply Forall2_app_inv_r in Hs' as (u1 & u2 & H1 & _ & ->).
  exists u1. split; [|done]. etrans; [|exact Hu]. rewrite <- Hp. by apply submseteq_inserts_r.
Qed.
Lemma stated_app ps qs ds es : stated_by ps ds -> stated_by qs es -> stated_by (ps ++ qs) (ds ++ es).
Proof. intros (u & Hu & Hs) (w & Hw & Hx). exists (u ++ w). split; [by apply submseteq_app|by apply Forall2_app]. Qed.
Lemma stated_nil ps : stated_by ps [].
Proof. exists []. split; [apply submseteq_nil_l|constructor]. Qed.
Lemma stated_one v d : states v d -> stated_by [v] [d].
Proof. intros H. exists [v]. split; [done|by repeat constructor]. Qed.
Lemma list_parts items size version ms c l : list_members items size version ms ->
  concat (map parts items) ⊆+ parts (VObject (mkObj c l ms)).
Proof.
  intros H. unfold list_members in H. cbn [parts obj_members]. rewrite (parts_perm _ _ H). cbn [map concat parts fst snd].
  apply submseteq_inserts_r. by apply submseteq_cons.
Qed.

Section world.
Context (Hdec : decimal_text).
Context {U Ty St : Type} (T : world U Ty St) (says : U -> list data) (knows : St -> list data).
Context (F : frugal T says knows).
Notation told := (told says).
Notation frugal_visitor := (frugal_visitor says knows).

Lemma told_left {A} what (all left : list A) r : told (nothing_left what all left r) ⊆+ told r.
Proof. unfold nothing_left. destruct left, r; cbn; done || apply submseteq_nil_l. Qed.
Lemma told_answers n k r : told (all_answers n k r) ⊆+ told r.
Proof. unfold all_answers. destruct r; cbn; [|done]. destruct (N.eqb k 0); [done|apply submseteq_nil_l]. Qed.

Lemma call_frugal t m vis post : w_impl T t = I_call m vis post -> frugal_visitor vis /\ forall x, told (post x) ⊆+ told x.
Proof using F. destruct F as [H _]. specialize (H t). intros E. by rewrite E in H. Qed.

Lemma name_stated b s t r : gets_name T b s t r -> stated_by [VString s] (told r).
Proof using F.
  induction 1 as [t r E|t m vis post E _|t vis post r E Er|t vis post t' k r E Er _ IH].
  - destruct F as [H _]. specialize (H t). rewrite E in H. eapply stated_less; [|exact H]. apply stated_nil.
  - destruct (call_frugal _ _ _ _ E) as [Hv Hp]. eapply stated_less; [|apply Hp].
    assert (stated_by [VString s] [D_str s]) as Hs by (apply stated_one; eapply (S_content _ _ T_any); constructor).
    destruct b; (eapply stated_less; [exact Hs|apply Hv]).
  - destruct (call_frugal _ _ _ _ E) as [Hv Hp]. eapply stated_less; [|apply Hp]. apply fr_enum in Hv. rewrite Er in Hv.
    eapply stated_less; [|exact Hv]. apply stated_nil.
  - destruct (call_frugal _ _ _ _ E) as [Hv Hp]. eapply stated_less; [|apply Hp]. apply fr_enum in Hv. rewrite Er in Hv.
    eapply stated_less; [exact IH|apply Hv].
Qed.

Lemma scalar_stated (vis : visitor U Ty St) v r : frugal_visitor vis -> VisitorSpec.told vis v r -> stated_by (parts v) (told r).
Proof.
  intros Hv H. destruct H; cbn [parts];
    try (eapply stated_less; [|apply Hv]; apply stated_one; eapply (S_content _ _ T_any); constructor).
  eapply stated_less; [|apply Hv]. apply stated_nil.
Qed.
Lemma wrapped_stated (vis : visitor U Ty St) prim p r ps : frugal_visitor vis -> told_wrapped vis prim p r -> stated_by ps [p] -> stated_by ps (told r).
Proof. intros Hv H Hs. destruct H; (eapply stated_less; [exact Hs|apply Hv]). Qed.

Lemma all_stated :
  (forall v t r, gets T v t r -> sound_value v -> stated_by (parts v) (told r))
  /\ (forall m vis v r, serves T m vis v r -> frugal_visitor vis -> sound_value v -> stated_by (parts v) (told r))
  /\ (forall vis v r, visits T vis v r -> frugal_visitor vis -> sound_value v -> stated_by (parts v) (told r))
  /\ (forall st vs r left, one_by_one T st vs r left -> (forall v, v ∈ vs -> sound_value v) ->
        forall ps, stated_by ps (knows st) -> stated_by (ps ++ concat (map parts vs)) (told r))
  /\ (forall st vs n r left, up_to T st vs n r left -> (forall v, v ∈ vs -> sound_value v) ->
        forall ps, stated_by ps (knows st) -> stated_by (ps ++ concat (map parts vs)) (told r))
  /\ (forall b st ms p r left, entry_by_entry T b st ms p r left -> (forall k v, (k, v) ∈ ms -> sound_value v) ->
        (forall v, p = Some v -> sound_value v) ->
        forall ps, stated_by ps (knows st) ->
          stated_by (ps ++ match p with Some v => parts v | None => [] end ++ concat (map entry_parts ms)) (told r)).
Proof using F Hdec.
  destruct F as (Fi & Fs & Fm).
  apply gets_mutind.
  - intros v t r E _. specialize (Fi t). rewrite E in Fi. eapply stated_less; [apply stated_nil|exact Fi].
  - intros v t m vis post r E _ IH Hs. destruct (call_frugal _ _ _ _ E) as [Hv Hp]. eapply stated_less; [|apply Hp]. by apply IH.
  - intros vis Hv _. eapply stated_less; [apply stated_nil|apply Hv].
  - intros vis v r _ E Hv _. apply fr_some in Hv. rewrite E in Hv. eapply stated_less; [apply stated_nil|exact Hv].
  - intros vis v t k r _ E _ IH Hv Hs. apply fr_some in Hv. rewrite E in Hv. eapply stated_less; [by apply IH|apply Hv].
  - intros vis [c l ms] r left _ IH Hv Hs. eapply stated_less; [|apply told_left]. cbn [obj_members] in *.
    apply (IH ltac:(intros k v Hin; by eapply sound_member) ltac:(done) []). rewrite (fr_map _ _ _ Hv). apply stated_nil.
  - intros vis v r _ _ IH Hv Hs. by apply IH.
  - intros vis v r _ IH Hv Hs. by apply IH.
  - intros vis v r _ IH Hv Hs. by apply IH.
  - intros vis v r H Hv _. by eapply scalar_stated.
  - intros vis vs r left _ IH Hv Hs. eapply stated_less; [|apply told_left]. cbn [parts].
    apply (IH ltac:(intros v Hin; by eapply sound_element) []). rewrite (fr_seq _ _ _ Hv). apply stated_nil.
  - intros vis name prim class v p r Hw Hc Hp Ht Hv Hs. assert (sound_value v) as Hsv by (eapply sound_member; [exact Hs|left]).
    apply reads_iff in Hp; [|done|done|by eapply rust_prim].
    apply reads_taken in Hp as (u & Hu & Hst); [|by eapply rust_prim]. eapply wrapped_stated; [exact Hv|exact Ht|].
    assert (facts p = [p]) as E by (by destruct Ht). rewrite E in Hst. exists u. split; [|done].
    cbn [parts obj_members map concat fst snd]. rewrite app_nil_r. by apply submseteq_cons.
  - intros vis name prim class ms e _ _ _ _ _. apply stated_nil.
  - intros vis class ms items size version r left _ Hl _ IH Hv Hs. eapply stated_less; [|apply told_answers].
    eapply stated_sub; [|by eapply list_parts]. apply (IH ltac:(intros v Hin; eapply (sound_element items); [|done]; eapply sound_member; [exact Hs|by eapply list_items_in]) []).
    rewrite (fr_seq _ _ _ Hv). apply stated_nil.
  - intros. apply stated_nil.
  - intros vis class l ms r left _ _ IH Hv Hs. eapply stated_less; [|apply told_left].
    apply (IH ltac:(intros k v Hin; by eapply sound_member) ltac:(done) []). rewrite (fr_map _ _ _ Hv). apply stated_nil.
  - intros st vs r E _ ps Hps. specialize (Fs st). rewrite E in Fs. eapply stated_sub; [|by apply submseteq_inserts_r].
    by eapply stated_less.
  - intros st t k v vs x r left E _ IHv _ IH Hs ps Hps. specialize (Fs st). rewrite E in Fs. destruct Fs as (F1 & _ & F3).
    cbn [map concat]. rewrite app_assoc. apply IH; [intros w Hw; apply Hs; by right|].
    assert (stated_by (ps ++ parts v) (knows st ++ told x)) as H by (apply stated_app; [done|apply IHv, Hs; left]).
    destruct x as [u|e]; cbn [tres_map tres_bind]; [by eapply stated_less; [exact H|apply F1]|].
    eapply stated_less; [exact H|]. cbn. rewrite app_nil_r. apply F3.
  - intros st t k r left E _ IH Hs ps Hps. specialize (Fs st). rewrite E in Fs. destruct Fs as (_ & F2 & _). apply IH; [done|].
    by eapply stated_less.
  - intros st vs n r E _ ps Hps. specialize (Fs st). rewrite E in Fs. eapply stated_sub; [|by apply submseteq_inserts_r].
    by eapply stated_less.
  - intros st t k v vs n u r left E _ IHv _ IH Hs ps Hps. specialize (Fs st). rewrite E in Fs. destruct Fs as (F1 & _ & F3).
    cbn [map concat]. rewrite app_assoc. apply IH; [intros w Hw; apply Hs; by right|].
    eapply stated_less; [|apply F1]. apply stated_app; [done|apply IHv, Hs; left].
  - intros st t k v vs n e r left E _ _ _ IH Hs ps Hps. specialize (Fs st). rewrite E in Fs. destruct Fs as (_ & _ & F3).
    eapply stated_sub; [apply (IH ltac:(intros w Hw; apply Hs; by right) ps)|].
    + eapply stated_less; [exact Hps|apply F3].
    + cbn [map concat]. apply submseteq_app; [done|by apply submseteq_inserts_l].
  - intros st t k n r left E _ IH Hs ps Hps. specialize (Fs st). rewrite E in Fs. destruct Fs as (_ & F2 & _). apply IH; [done|].
    by eapply stated_less.
  - intros st t k vs r left E _ IH Hs ps Hps. specialize (Fs st). rewrite E in Fs. destruct Fs as (_ & F2 & _). apply IH; [done|].
    by eapply stated_less.
  - intros b st ms p r E _ _ ps Hps. specialize (Fm st). rewrite E in Fm. eapply stated_sub; [|by apply submseteq_inserts_r].
    by eapply stated_less.
  - intros b st t k s v ms p x r left E Hn _ IH Hs Hp ps Hps. specialize (Fm st). rewrite E in Fm. destruct Fm as (F1 & _ & F3).
    eapply stated_sub; [apply (IH ltac:(intros k' w Hw; eapply Hs; by right) ltac:(intros w [= <-]; eapply Hs; left) (ps ++ [VString s]))|].
    + apply name_stated in Hn. assert (stated_by (ps ++ [VString s]) (knows st ++ told x)) as H by (by apply stated_app).
      destruct x as [u|e]; cbn [tres_map tres_bind]; [by eapply stated_less; [exact H|apply F1]|].
      eapply stated_less; [exact H|]. cbn. rewrite app_nil_r. apply F3.
    + cbn [map concat]. unfold entry_parts at 2. cbn [fst snd]. rewrite <- app_assoc. apply submseteq_app; [done|].
      apply submseteq_inserts_l. done.
  - intros b st t k p r left E _ IH Hs Hp ps Hps. specialize (Fm st). rewrite E in Fm. destruct Fm as (_ & F2 & _). apply IH; [done|done|].
    by eapply stated_less.
  - intros b st t k v ms x r left E _ IHv _ IH Hs Hp ps Hps. specialize (Fm st). rewrite E in Fm. destruct Fm as (F1 & F3).
    rewrite app_assoc. apply (IH Hs ltac:(done) (ps ++ parts v)).
    assert (stated_by (ps ++ parts v) (knows st ++ told x)) as H by (apply stated_app; [done|by apply IHv, Hp]).
    destruct x as [u|e]; [by eapply stated_less; [exact H|apply F1]|].
    eapply stated_less; [exact H|]. cbn. rewrite app_nil_r. apply F3.
  - intros b st tk tv k s v ms p u x r left E Hn _ IHv _ IH Hs Hp ps Hps. specialize (Fm st). rewrite E in Fm. destruct Fm as (F1 & _ & F3).
    eapply stated_sub; [apply (IH ltac:(intros k' w Hw; eapply Hs; by right) Hp (ps ++ VString s :: parts v))|].
    + apply name_stated in Hn. assert (stated_by (ps ++ VString s :: parts v) (knows st ++ says u ++ told x)) as H.
      { apply stated_app; [done|]. apply (stated_app [VString s]); [exact Hn|]. apply IHv. eapply Hs. left. }
      destruct x as [w|e]; cbn [tres_map tres_bind]; [by eapply stated_less; [exact H|apply F1]|].
      eapply stated_less; [exact H|]. etrans; [apply F3|]. by apply submseteq_inserts_r.
    + cbn [map concat]. unfold entry_parts at 2. cbn [fst snd]. rewrite <- !app_assoc. apply submseteq_app; [done|].
      rewrite app_assoc, (app_assoc _ (VString s :: parts v)). apply submseteq_app; [|done].
      apply Permutation_submseteq, Permutation_app_comm.
  - intros b st tk tv k s v ms p e r left E _ _ IH Hs Hp ps Hps. specialize (Fm st). rewrite E in Fm. destruct Fm as (_ & _ & F3).
    eapply stated_sub; [apply (IH ltac:(intros k' w Hw; eapply Hs; by right) Hp ps)|].
    + by eapply stated_less.
    + apply submseteq_app; [done|]. apply submseteq_app; [done|]. cbn [map concat]. by apply submseteq_inserts_l.
  - intros b st tk tv k p r left E _ IH Hs Hp ps Hps. specialize (Fm st). rewrite E in Fm. destruct Fm as (_ & F2 & _). apply IH; [done|done|].
    by eapply stated_less.
Qed.
End world.

(** An implementation of [Deserialize] that makes nothing up is not made to by the crate. *)
Theorem C87_own_types : decimal_text -> forall (U Ty St : Type) (T : world U Ty St) says knows order,
  (forall v, same_value v (order v)) -> frugal T says knows ->
  forall W m t n u, deserialize W = POk m -> from_slice_run T order n t W = R_returned u ->
  stated_by (message_parts m) (says u).
Proof.
  intros Hdec U Ty St T says knows order Ho F W m t n u HW H.
  assert (message_gets T (enumerated order m) t (TOk u)) as Hg by (apply (C64_rules T order W m t (TOk u) Ho HW); by exists n).
  change (says u) with (told says (TOk u)).
  destruct m as [c|c|v]; cbn [enumerated message_parts] in *.
  - inversion Hg; subst; match goal with H : w_impl T t = _ |- _ => rename H into E end.
    + eapply stated_less; [apply stated_nil|]. destruct F as [F _]. specialize (F t). rewrite E in F. exact F.
    + destruct (call_frugal T says knows F _ _ _ _ E) as [_ Hp].
      match goal with H : post ?a = _ |- _ => specialize (Hp a) end. eapply stated_less; [apply stated_nil|exact Hp].
  - inversion Hg; subst; match goal with H : w_impl T t = _ |- _ => rename H into E end.
    + eapply stated_less; [apply stated_nil|]. destruct F as [F _]. specialize (F t). rewrite E in F. exact F.
    + destruct (call_frugal T says knows F _ _ _ _ E) as [_ Hp].
      match goal with H : post ?a = _ |- _ => specialize (Hp a) end. eapply stated_less; [apply stated_nil|exact Hp].
  - assert (sound_value (order v)) as Hs.
    { destruct (parsed_sound W v HW) as [Hd Hu]. split; [by eapply same_distinct|]. intros s Hin. apply Hu. by eapply same_strings. }
    eapply stated_sub; [|apply Permutation_submseteq; symmetry; by apply same_parts].
    destruct (all_stated Hdec T says knows F) as (_ & Hserves & Hvisits & _).
    inversion Hg; subst; match goal with H : w_impl T t = _ |- _ => rename H into E end.
    + eapply stated_less; [apply stated_nil|]. destruct F as [F _]. specialize (F t). rewrite E in F. exact F.
    + destruct (call_frugal T says knows F _ _ _ _ E) as [Hv Hp]. match goal with H : post ?a = _ |- _ => specialize (Hp a) end.
      eapply stated_less; [|exact Hp]. by eapply Hvisits.
    + destruct (call_frugal T says knows F _ _ _ _ E) as [Hv Hp]. match goal with H : post ?a = _ |- _ => specialize (Hp a) end.
      eapply stated_less; [|exact Hp]. by eapply Hserves.
Qed.

(** A type of one's own: a list of everything there is. *)
Inductive collecting := L_seen (l : list data) | L_end (r : tres (list data)).
Definition collect_visitor : visitor (list data) unit collecting := {|
    expecting := lit "something"; on_bool b := TOk [D_bool b]; on_int _ z := TOk [D_int z]; on_f32 n := TOk [D_f32 n];
    on_f64 n := TOk [D_f64 n]; on_char c := TOk [D_char c]; on_str s := TOk [D_str s]; on_string s := TOk [D_str s];
    on_borrowed_str s := TOk [D_str s]; on_unit := TOk []; on_none := TOk [];
    on_some := O_read tt id; on_enum := O_read tt id; on_seq := L_seen []; on_map _ := L_seen [] |}.
Definition collect_world : world (list data) unit collecting := {|
  w_impl _ := I_call M_any collect_visitor id;
  w_seq st :=
    match st with
    | L_seen l => Q_next tt (fun r => match r with
                                      | TOk (Some m) => L_seen (l ++ m)
                                      | TOk None => L_end (TOk l)
                                      | TErr e => L_end (TErr e)
                                      end)
    | L_end r => Q_return r
    end;
  w_map st :=
    match st with
    | L_seen l => P_entry tt tt (fun r => match r with
                                          | TOk (Some (k, m)) => L_seen (l ++ k ++ m)
                                          | TOk None => L_end (TOk l)
                                          | TErr e => L_end (TErr e)
                                          end)
    | L_end r => P_return r
    end |}.
Example C87_own_types_ex :
  frugal collect_world id (fun st => match st with L_seen l => l | L_end r => told id r end)
  /\ exists v, deserialize ex_struct = POk (MValue v)
    /\ from_slice_run collect_world id 20 tt ex_struct = R_returned [D_str (lit "y"); D_str (lit "s"); D_str (lit "x"); D_int 5]
    /\ parts v = [VString (lit "y"); VString (lit "s"); VString (lit "x"); VInt32 5].
Proof.
  split.
  - assert (forall l : list data, [] ⊆+ l) as Hnil by apply submseteq_nil_l.
    split_and!.
    + intros t. cbn [w_impl collect_world]. split; [|intros x; unfold only; reflexivity]. constructor; intros; unfold only; cbn; done.
    + intros [l|r]; [|cbn; unfold only; reflexivity]. cbn. split_and!; intros; reflexivity || apply Hnil.
    + intros [l|r]; [|cbn; unfold only; reflexivity]. cbn. split_and!; intros; reflexivity || apply Hnil.
  - eexists. split_and!; vm_compute; reflexivity.
Qed.
End with_libs.
