(** * VisitorLemmas: the deserializers of Visitors.v follow the rules of VisitorSpec.v. *)
From Verif Require Import Base Utf8 Value DataTypes Records Parser Serde SerdeSpec SerdeLemmas.
From Verif Require Import Reading PropsG PropsH PropsI PropsL Visitors VisitorSpec.
From Coq Require Import Lia.
From Coq Require Strings.String.
Import String.StringSyntax.

Section with_libs.
Context {DL : DecimalLib} {FL : FloatLib}.

Lemma str_eqb_eq a b : str_eqb a b = true <-> a = b.
Proof. unfold str_eqb. by rewrite bool_decide_eq_true. Qed.

(** ** Wrapper classes *)

Definition shaped (t : target) (d : data) : Prop :=
  match t, d with
  | T_bool, D_bool _ | T_int _, D_int _ | T_f32, D_f32 _ | T_f64, D_f64 _ | T_char, D_char _ => True
  | _, _ => False
  end.
Definition prim_target (t : target) : Prop :=
  match t with T_bool | T_int _ | T_f32 | T_f64 | T_char => True | _ => False end.

Lemma wrapper_prim name prim : wrapper_of name prim -> prim_target prim.
Proof. by intros []. Qed.
Lemma visit_str_shaped t s d : prim_target t -> visit_str t s = SOk d -> shaped t d.
Proof. destruct t; cbn; try done. destruct (single_char s); intros _ [= <-]. done. Qed.
Lemma visit_primitive_shaped t p d : prim_target t -> visit_primitive t p = SOk d -> shaped t d.
Proof.
  intros Ht. destruct t; try done; destruct p; cbn; try done; intros H; try injection H as <-; try done.
  - destruct (int_fits k z); [by injection H as <-|done].
Qed.
Lemma no_seq t sa : prim_target t -> seq_deserialize_any sa t = SErr.
Proof. by destruct t. Qed.
Lemma no_map t ma : prim_target t -> map_deserialize_any ma t = SErr.
Proof. by destruct t. Qed.
Lemma prim_shaped v t d : prim_target t -> value_deserialize v t = SOk d -> shaped t d.
Proof.
  intros Ht. rewrite value_deserialize_eq.
  assert (value_deserialize_any value_deserialize v t = SOk d -> shaped t d) as Ha.
  { destruct v as [[c l ms]|vs| | | | | | | | | | | | | | | | |]; cbn [value_deserialize_any].
    - cbn [object_deserialize_any]. destruct l; [by rewrite no_map|].
      destruct (hm_get (class_name c) wrapper_classes).
      + intros H. apply sres_bind_ok in H as (p & _ & H). by eapply visit_primitive_shaped.
      + destruct (str_eqb (class_name c) (lit "System.Collections.Generic.List")); [|by rewrite no_map].
        destruct (N.eqb (N.of_nat (length ms)) 3); [|done].
        destruct (items_of value_deserialize ms), (int32_of (lit "_size") ms), (int32_of (lit "_version") ms);
          try done. by rewrite no_seq.
    - by rewrite no_seq.
    - intros H. by eapply (visit_primitive_shaped _ (D_bool _)).
    - intros H. by eapply (visit_primitive_shaped _ (D_int _)).
    - intros H. by eapply (visit_primitive_shaped _ (D_char _)).
    - by apply visit_str_shaped.
    - intros H. by eapply (visit_primitive_shaped _ (D_f64 _)).
    - intros H. by eapply (visit_primitive_shaped _ (D_int _)).
    - intros H. by eapply (visit_primitive_shaped _ (D_int _)).
    - intros H. by eapply (visit_primitive_shaped _ (D_int _)).
    - intros H. by eapply (visit_primitive_shaped _ (D_int _)).
    - intros H. by eapply (visit_primitive_shaped _ (D_f32 _)).
    - intros H. by eapply (visit_primitive_shaped _ (D_int _)).
    - intros H. by eapply (visit_primitive_shaped _ (D_int _)).
    - intros H. by eapply (visit_primitive_shaped _ (D_int _)).
    - intros H. by eapply (visit_primitive_shaped _ (D_int _)).
    - intros H. by eapply (visit_primitive_shaped _ (D_int _)).
    - destruct t; try done; apply visit_str_shaped; done.
    - by destruct t. }
  destruct t; done.
Qed.

(** The only layout a wrapper object may have. *)
Lemma wrapper_is prim (f : value -> de) ms d :
  wrapper prim (entries f ms) = SOk d <-> exists v, ms = [(lit "m_value", v)] /\ f v prim = SOk d.
Proof.
  unfold wrapper, entries. split.
  - destruct (N.eqb_spec (N.of_nat (length (map (fun kv : str * value => (kv.1, f kv.2)) ms))) 1) as [E1|]; [|done].
    rewrite map_length in E1. destruct ms as [|[k v] [|]]; [done| |cbn in E1; lia]. cbn [map fst snd].
    intros H. apply sres_bind_ok in H as (n & H1 & H2).
    destruct (str_eqb k (lit "m_value")) eqn:E; [|done]. injection H2 as ->.
    apply str_eqb_eq in E as ->. eauto.
  - intros (v & -> & H). cbn [map fst snd length]. cbn. rewrite H. cbn. done.
Qed.
End with_libs.

Section rules.
Context {DL : DecimalLib} {FL : FloatLib} {TL : TextLib}.
Context {U Ty St : Type} (W : world U Ty St).

Lemma told_prim (vis : visitor U Ty St) t d : shaped t d -> told_wrapped vis t d (primitive_run vis t d).
Proof. destruct t, d; try done; constructor. Qed.
Lemma told_prim_eq (vis : visitor U Ty St) t d r : told_wrapped vis t d r -> r = primitive_run vis t d.
Proof. by intros []. Qed.

(** ** The deserializers obey the rules *)

Lemma key_sound fuel b s t r : key_run W fuel b s t = Done r -> gets_name W b s t r.
Proof.
  revert t r. induction fuel as [|fuel IH]; intros t r; cbn [key_run];
    destruct (w_impl W t) as [r0|m vis post] eqn:E; try (intros [= <-]; by apply N_skip).
  - destruct m; try (intros [= <-]; by eapply N_name).
    destruct (on_enum vis) eqn:Ee; [|done]. intros [= <-]. by eapply N_enum_return.
  - destruct m; try (intros [= <-]; by eapply N_name).
    destruct (on_enum vis) as [r0|t' k] eqn:Ee; [intros [= <-]; by eapply N_enum_return|].
    destruct (key_run W fuel b s t') as [x| |] eqn:Ek; cbn; try done. intros [= <-].
    eapply N_enum; [done..|]. by apply IH.
Qed.

Lemma plural k (what : str) :
  (if N.eqb k 1 then lit "1 element in " ++ what else usize_text k ++ lit " elements in " ++ what)
  = digits k ++ (if N.eqb k 1 then lit " element in " else lit " elements in ") ++ what.
Proof. destruct (N.eqb_spec k 1) as [-> |]; done. Qed.
Lemma array_text n k : invalid_length n (expected_in_array k) = length_error (lit "array") n k.
Proof.
  unfold invalid_length, length_error. rewrite <- plural. unfold expected_in_array. by destruct (N.eqb k 1).
Qed.
Lemma list_text n k : invalid_length n (expected_in_list k) = length_error (lit "list") n k.
Proof.
  unfold invalid_length, length_error. rewrite <- plural. unfold expected_in_list. by destruct (N.eqb k 1).
Qed.
Lemma map_text n k : invalid_length n (expected_in_map k) = length_error (lit "map") n k.
Proof.
  unfold invalid_length, length_error. rewrite <- plural. unfold expected_in_map. by destruct (N.eqb k 1).
Qed.
Lemma left_array (vs l : list value) c (r : tres U) : N.of_nat (length vs) = (c + N.of_nat (length l))%N ->
  (let$ u := r in if N.eqb (N.of_nat (length l)) 0 then TOk u
     else TErr (invalid_length (c + N.of_nat (length l)) (expected_in_array c)))
  = nothing_left (lit "array") vs l r.
Proof.
  intros H. unfold nothing_left. destruct r, l; try done. cbn [tres_bind].
  rewrite H. rewrite array_text.
  replace (c + N.of_nat (length (v :: l)) - N.of_nat (length (v :: l)))%N with c by lia. done.
Qed.
Lemma left_map (ms l : list (str * value)) (r : tres U) : length l <= length ms ->
  (let$ u := r in if N.eqb (N.of_nat (length l)) 0 then TOk u
     else TErr (invalid_length (N.of_nat (length ms) - N.of_nat (length l) + N.of_nat (length l))
                  (expected_in_map (N.of_nat (length ms) - N.of_nat (length l)))))
  = nothing_left (lit "map") ms l r.
Proof.
  intros H. unfold nothing_left. destruct r, l; try done. cbn [tres_bind].
  rewrite map_text. by rewrite N.sub_add by lia.
Qed.
Lemma left_list size c (r : tres U) : (c <= size)%N ->
  (let$ u := r in if N.eqb c size then TOk u else TErr (invalid_length size (expected_in_list c)))
  = all_answers size (size - c) r.
Proof.
  intros H. unfold all_answers. destruct r; [|done]. cbn [tres_bind]. rewrite list_text.
  replace (size - (size - c))%N with c by lia.
  destruct (N.eqb_spec c size), (N.eqb_spec (size - c) 0); try done; lia.
Qed.

Lemma type_name_of name prim : wrapper_of name prim -> type_name prim (wrapper_type_name prim).
Proof. intros [| | | |name' k []]; cbn [wrapper_type_name]; constructor. Qed.
Lemma type_name_eq prim name : type_name prim name -> name = wrapper_type_name prim.
Proof. by intros []. Qed.
Lemma wrapper_error_fault name prim ms : wrapper_of name prim ->
  wrapper prim (entries value_deserialize ms) = SErr -> wrapper_fault prim ms (wrapper_error prim ms).
Proof.
  intros Hw H. apply type_name_of in Hw. unfold wrapper_error.
  destruct ms as [|[k v] [|kv ms]]; [by apply (WF_count prim [] _)| |by apply (WF_count prim (_ :: _ :: _) _)].
  destruct (value_deserialize v prim) as [p|] eqn:E; [|by apply WF_content].
  eapply WF_name; [done| |done]. intros ->.
  assert (wrapper prim (entries value_deserialize [(lit "m_value", v)]) = SOk p) by (apply wrapper_is; eauto).
  congruence.
Qed.
Lemma wrapper_fault_error prim ms e : wrapper_fault prim ms e ->
  wrapper prim (entries value_deserialize ms) = SErr /\ e = wrapper_error prim ms.
Proof.
  intros H. split.
  - destruct (wrapper prim (entries value_deserialize ms)) as [d|] eqn:E; [|done].
    apply wrapper_is in E as (v & -> & Hv). inversion H; subst; first [congruence|done].
  - inversion H as [k v Hv|k v p name Hv Hk Hn|? name Hl Hn]; subst; unfold wrapper_error.
    + by rewrite Hv.
    + rewrite Hv. apply type_name_eq in Hn as ->. done.
    + apply type_name_eq in Hn as ->. by destruct ms as [|[] []].
Qed.

Lemma map_left b st ms p r left : entry_by_entry W b st ms p r left -> length left <= length ms.
Proof.
  revert b st ms p r left.
  apply (entry_by_entry_min _ _ _ _ _ _ W (fun _ _ _ => True) (fun _ _ _ _ => True) (fun _ _ _ => True)
    (fun _ _ _ _ => True) (fun _ _ _ _ _ => True) (fun _ _ ms _ _ left => length left <= length ms));
    try done; intros; cbn [length] in *; lia.
Qed.

Section sound.
Context (rec : value -> Ty -> out (tres U)).
Context (Hrec : forall v t r, distinct_names v -> rec v t = Done r -> gets W v t r).

Lemma array_sound fuel st vs c r left c' : Forall distinct_names vs ->
  array_run W rec fuel st vs c = Done (r, (left, c')) ->
  one_by_one W st vs r left /\ (c' + N.of_nat (length left) = c + N.of_nat (length vs))%N.
Proof using Hrec.
  revert st vs c. induction fuel as [|fuel IH]; intros st vs c Hd; cbn [array_run]; [done|].
  destruct (w_seq W st) as [r0|t k] eqn:E; [intros [= <- <- <-]; split; [by apply Q_done|done]|].
  destruct vs as [|v vs]; [intros H; apply IH in H as [H1 H2]; [|done]; split; [by eapply Q_no_more|done]|].
  apply Forall_cons in Hd as [Hd1 Hd2].
  destruct (rec v t) as [x| |] eqn:Er; cbn [out_bind]; try done. intros H. apply IH in H as [H1 H2]; [|done].
  split; [eapply Q_element; [done|by apply Hrec|done]|]. cbn [length]. lia.
Qed.
Lemma list_sound fuel st vs count size r c : Forall distinct_names vs -> (count <= size)%N ->
  list_run W rec fuel st vs count size = Done (r, c) ->
  (c <= size)%N /\ up_to W st vs (size - count) r (size - c).
Proof using Hrec.
  revert st vs count. induction fuel as [|fuel IH]; intros st vs count Hd Hc; cbn [list_run]; [done|].
  destruct (w_seq W st) as [r0|t k] eqn:E; [intros [= <- <-]; split; [done|]; by apply U_done|].
  destruct (N.ltb_spec count size) as [Hlt|Hge].
  - replace (size - count)%N with (N.succ (size - (count + 1))) by lia.
    destruct vs as [|v vs].
    { intros H. apply IH in H as [H1 H2]; [|done|lia]. split; [done|]. by eapply U_missing. }
    apply Forall_cons in Hd as [Hd1 Hd2].
    destruct (rec v t) as [x| |] eqn:Er; cbn; try done. apply Hrec in Er; [|done].
    destruct x as [u|]; intros H; (apply IH in H as [H1 H2]; [|done|lia]); (split; [done|]).
    + by eapply U_element.
    + eapply U_element_error; [done..|].
      by replace (N.succ (size - (count + 1))) with (size - count)%N by lia.
  - intros H. apply IH in H as [H1 H2]; [|done|lia]. split; [done|].
    replace (size - count)%N with 0%N in * by lia. by eapply U_no_more.
Qed.
Lemma map_sound fuel b st ms p r left : Forall (fun kv => distinct_names kv.2) ms ->
  (forall v, p = Some v -> distinct_names v) ->
  map_run W rec fuel b st ms p = Done (r, left) -> entry_by_entry W b st ms p r left.
Proof using Hrec.
  revert st ms p. induction fuel as [|fuel IH]; intros st ms p Hd Hp; cbn [map_run]; [done|].
  destruct (w_map W st) as [r0|t k|t k|tk tv k] eqn:E; [intros [= <- <-]; by apply P_done|..].
  - destruct ms as [|[s v] ms]; [intros H; eapply P_no_name; [done|]; by apply IH|].
    apply Forall_cons in Hd as [Hd1 Hd2].
    destruct (key_run W fuel b s t) as [x| |] eqn:Er; cbn; try done. intros H. apply key_sound in Er.
    eapply P_name; [done..|]. apply IH; [done| |done]. by intros w [= <-].
  - destruct p as [v|]; [|done]. destruct (rec v t) as [x| |] eqn:Er; cbn; try done. intros H.
    eapply P_its_value; [done|apply Hrec; eauto|]. by apply IH.
  - destruct ms as [|[s v] ms]; [intros H; eapply P_no_entry; [done|]; by apply IH|].
    apply Forall_cons in Hd as [Hd1 Hd2].
    destruct (key_run W fuel b s tk) as [x| |] eqn:Ek; cbn; try done. apply key_sound in Ek.
    destruct x as [u|]; [|intros H; eapply P_bad_name; [done..|]; by apply IH].
    destruct (rec v tv) as [x| |] eqn:Er; cbn; try done. intros H.
    eapply P_both; [done..|by apply Hrec|]. by apply IH.
Qed.
Lemma map_any_sound fuel b vis ms r : Forall (fun kv => distinct_names kv.2) ms ->
  Visitors.map_any W rec fuel b vis ms = Done r ->
  exists r' left, entry_by_entry W b (on_map vis (N.of_nat (length ms))) ms None r' left
    /\ r = nothing_left (lit "map") ms left r'.
Proof using Hrec.
  intros Hd. unfold Visitors.map_any.
  destruct (map_run W rec fuel b _ ms None) as [[r' left]| |] eqn:E; cbn [out_bind]; try done.
  apply map_sound in E; [|done..]. rewrite left_map by (by eapply map_left). intros [= <-]. by exists r', left.
Qed.
Lemma object_sound fuel vis o r : distinct_names (VObject o) ->
  object_any W rec fuel vis o = Done r -> visits W vis (VObject o) r.
Proof using Hrec.
  intros Hd. inversion Hd as [o' Hn Hds| |]; subst; [|done]. destruct o as [c l ms]. cbn [obj_members] in *.
  unfold object_any.
  assert (Visitors.map_any W rec fuel true vis ms = Done r -> plain_class c l ->
    visits W vis (VObject (mkObj c l ms)) r) as Hm.
  { intros H Hpl. apply map_any_sound in H as (r' & left & H & ->); [|done]. by eapply V_map. }
  destruct l as [l|]; [intros H; apply Hm; [done|by left]|].
  destruct (hm_get (class_name c) wrapper_classes) as [prim|] eqn:E.
  { assert (wrapper_of (class_name c) prim) as Hw by (apply wrapper_of_iff; by apply hm_get_in).
    assert (is_class (class_name c) c) as Hc by apply class_name_cases.
    destruct (wrapper prim (entries value_deserialize ms)) as [d|] eqn:Ew; cbn; intros [= <-].
    - apply wrapper_is in Ew as (v & -> & Hv). eapply V_wrapper; [done..|].
      apply told_prim. eapply prim_shaped; [by eapply wrapper_prim|done].
    - eapply V_wrapper_bad; [done..|]. by eapply wrapper_error_fault. }
  destruct (str_eqb (class_name c) _) eqn:El.
  - assert (is_list_class c) as Hl.
    { apply str_eqb_eq in El. unfold is_list_class. rewrite <- El. apply class_name_cases. }
    destruct (list_members_cases ms Hn) as [(items & size & version & Hlm)|Hno].
    + pose proof (list_members_get _ _ _ _ Hlm) as (-> & -> & -> & ->). cbn [N.eqb N.of_nat].
      unfold list_any. destruct (list_run W rec fuel _ items 0 _) as [[r' count]| |] eqn:Er; cbn [out_bind]; try done.
      apply list_sound in Er as [H1 H2]; [| |lia].
      * rewrite left_list by done. intros [= <-]. rewrite N.sub_0_r in H2. rewrite usize_eq in *. by eapply V_list.
      * apply list_items_in in Hlm. rewrite Forall_forall in Hds. specialize (Hds _ Hlm). cbn in Hds.
        by inversion Hds.
    + intros H. apply str_eqb_eq in El. rewrite El in H.
      assert (r = TErr (lit "invalid system class: System.Collections.Generic.List")) as ->; [|by eapply V_list_bad].
      destruct (N.eqb_spec (N.of_nat (length ms)) 3) as [E3|]; [|by injection H].
      destruct (hm_get (lit "_items") ms) as [[]|] eqn:E1; try (by injection H).
      destruct (hm_get (lit "_size") ms) as [[]|] eqn:E2; try (by injection H).
      destruct (hm_get (lit "_version") ms) as [[]|] eqn:E4; try (by injection H).
      destruct (Hno vs z z0). unfold list_members. symmetry. apply hm_get_in in E1, E2, E4.
      apply submseteq_Permutation_length_eq; [cbn [length]; lia|].
      apply NoDup_submseteq.
      * apply (NoDup_fmap_1 fst). cbn. apply (bool_decide_unpack _). vm_compute. exact I.
      * intros x. rewrite !elem_of_cons, elem_of_nil. by intros [-> | [-> | [-> | []]]].
  - intros H. apply Hm; [done|]. apply plain_class_iff. right. split.
    + rewrite wrapper_class_type. intros [t Ht]. congruence.
    + intros Hl. apply list_class_get in Hl as [_ Hl]. congruence.
Qed.
Lemma any_sound fuel vis v r : distinct_names v ->
  value_any W rec fuel vis v = Done r -> visits W vis v r.
Proof using Hrec.
  intros Hd. destruct v; cbn [value_any]; try (intros [= <-]; apply V_scalar; constructor).
  - by apply object_sound.
  - unfold array_any. destruct (array_run W rec fuel _ vs 0) as [[r' [left c]]| |] eqn:E; cbn [out_bind]; try done.
    apply array_sound in E as [H1 H2]; [|by inversion Hd].
    rewrite (left_array vs) by lia. intros [= <-]. by eapply V_array.
Qed.
Lemma struct_sound fuel vis v r : distinct_names v ->
  value_struct W rec fuel vis v = Done r -> serves W M_struct vis v r.
Proof using Hrec.
  intros Hd. destruct v as [o| | | | | | | | | | | | | | | | | |]; cbn [value_struct];
    try (intros H; apply S_struct_other; [done|]; by eapply any_sound).
  intros H. apply map_any_sound in H as (r' & left & H & ->); [by eapply S_struct|]. by inversion Hd.
Qed.
Lemma option_sound vis v r : distinct_names v ->
  value_option rec vis v = Done r -> serves W M_option vis v r.
Proof using Hrec.
  intros Hd. assert (v = VNull \/ v <> VNull) as [-> | Hv] by (destruct v; auto); [intros [= <-]; apply S_none|].
  unfold value_option. intros H.
  assert (match on_some vis with O_return r => Done r | O_read t k => let@ x := rec v t in Done (k x) end = Done r) as H'
    by (by destruct v).
  destruct (on_some vis) as [r0|t k] eqn:E; [injection H' as ->; by apply S_some_return|].
  destruct (rec v t) as [x| |] eqn:Er; try done. injection H' as <-.
  eapply S_some; [done..|]. by apply Hrec.
Qed.
End sound.

Lemma value_sound fuel v t r : distinct_names v -> value_run W fuel v t = Done r -> gets W v t r.
Proof.
  revert v t r. induction fuel as [|fuel IH]; intros v t r Hd; [done|]. cbn [value_run].
  destruct (w_impl W t) as [r0|m vis post] eqn:E; [intros [= <-]; by apply G_skip|].
  intros H. destruct m.
  - destruct (value_any W _ fuel vis v) as [x| |] eqn:Ex; try done. injection H as <-.
    eapply G_call; [done|]. apply S_any. by eapply any_sound.
  - destruct (value_option _ vis v) as [x| |] eqn:Ex; try done. injection H as <-.
    eapply G_call; [done|]. by eapply option_sound.
  - destruct (value_struct W _ fuel vis v) as [x| |] eqn:Ex; try done. injection H as <-.
    eapply G_call; [done|]. by eapply struct_sound.
  - destruct (value_any W _ fuel vis v) as [x| |] eqn:Ex; try done. injection H as <-.
    eapply G_call; [done|]. apply S_enum. by eapply any_sound.
Qed.
Lemma message_sound fuel m t r : (forall v, m = MValue v -> distinct_names v) ->
  message_run W fuel m t = Done r -> message_gets W m t r.
Proof.
  intros Hd. unfold message_run.
  destruct (w_impl W t) as [r0|meth vis post] eqn:E; [intros [= <-]; by apply MG_skip|].
  destruct m as [c|c|v]; [intros [= <-]; by eapply MG_call|intros [= <-]; by eapply MG_return|].
  specialize (Hd v eq_refl). intros H. destruct meth.
  - destruct (value_any W _ fuel vis v) as [x| |] eqn:Ex; try done. injection H as <-.
    eapply MG_value; [done..|]. apply S_any. eapply any_sound; [|done..]. intros; by eapply value_sound.
  - destruct (value_any W _ fuel vis v) as [x| |] eqn:Ex; try done. injection H as <-.
    eapply MG_option; [done..|]. eapply any_sound; [|done..]. intros; by eapply value_sound.
  - destruct (value_struct W _ fuel vis v) as [x| |] eqn:Ex; try done. injection H as <-.
    eapply MG_value; [done..|]. eapply struct_sound; [|done..]. intros; by eapply value_sound.
  - destruct (value_any W _ fuel vis v) as [x| |] eqn:Ex; try done. injection H as <-.
    eapply MG_value; [done..|]. apply S_enum. eapply any_sound; [|done..]. intros; by eapply value_sound.
Qed.
End rules.
