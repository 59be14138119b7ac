(** * TreeLemmas: trees are accepted. *)
From Verif Require Import Base Utf8 Value DataTypes Records Parser Wire BaseLemmas DataTypesLemmas
  RecordsLemmas MethodLemmas SafetyLemmas Safety Grammar Heads Complete Sound Fuel Message Run Spec
  LemmasA LemmasB LemmasC Positions Reach LemmasD Trees.
From Coq Require Import Lia.

(** ** Member maps *)

Lemma hm_insert_new {V} k (v : V) m : k ∉ map fst m -> hm_insert k v m = m ++ [(k, v)].
Proof.
  induction m as [|[k' v'] m IH]; simpl; [done|]. intros H. unfold str_eqb.
  rewrite bool_decide_eq_false_2 by set_solver. rewrite IH by set_solver. done.
Qed.
Lemma hm_from_iter_distinct {V} (l : list (str * V)) : NoDup (map fst l) -> hm_from_iter l = l.
Proof.
  unfold hm_from_iter. assert (forall m, NoDup (map fst (m ++ l)) ->
    fold_left (fun m kv => hm_insert kv.1 kv.2 m) l m = m ++ l) as H; [|exact (H [])].
  induction l as [|[k v] l IH]; intros m Hn; simpl; [by rewrite app_nil_r|].
  rewrite hm_insert_new.
  - rewrite IH; rewrite <- app_assoc; done.
  - rewrite map_app in Hn. simpl in Hn. apply NoDup_app in Hn as (_ & H & _). intros Hk.
    apply (H k Hk). left.
Qed.
Lemma map_fst_zip {A B} (l : list A) (k : list B) : length k = length l -> map fst (zip l k) = l.
Proof. intros H. rewrite <- (fst_zip l k) at 2 by lia. done. Qed.

Lemma hm_insert_elem_iff {V} k (v : V) m k' v' :
  NoDup (map fst m) ->
  (k', v') ∈ hm_insert k v m <-> (k' = k /\ v' = v) \/ (k' <> k /\ (k', v') ∈ m).
Proof.
  induction m as [|[a b] m IH]; intros Hn; cbn [hm_insert].
  - rewrite elem_of_list_singleton. split; [intros [= -> ->]; by left|].
    intros [[-> ->]|[_ H]]; [done|]. by apply elem_of_nil in H.
  - inv Hn. unfold str_eqb. case_bool_decide as Hk; [subst a|].
    + rewrite !elem_of_cons. split.
      * intros [[= -> ->]|Hin]; [by left|]. right. split; [|by right]. intros ->.
        apply H1. apply elem_of_list_fmap. by exists (k, v').
      * intros [[-> ->]|[Hne [[= -> ->]|Hin]]]; [by left|done|by right].
    + rewrite !elem_of_cons, IH by done. split.
      * intros [[= -> ->]|[[-> ->]|[Hne Hin]]]; [right; split; [congruence|by left]|by left|].
        right. split; [done|]. by right.
      * intros [[-> ->]|[Hne [[= -> ->]|Hin]]]; [right; by left|by left|]. right. right. done.
Qed.
Lemma hm_from_iter_snoc {V} (l : list (str * V)) kv :
  hm_from_iter (l ++ [kv]) = hm_insert kv.1 kv.2 (hm_from_iter l).
Proof. unfold hm_from_iter. by rewrite fold_left_app. Qed.
Lemma hm_from_iter_elem_iff {V} (l : list (str * V)) k v :
  (k, v) ∈ hm_from_iter l <->
  exists j, l !! j = Some (k, v) /\ forall j' v', j < j' -> l !! j' <> Some (k, v').
Proof.
  induction l as [|[a b] l IH] using rev_ind.
  - split; [by intros ?%elem_of_nil|]. intros (j & Hj & _). by rewrite lookup_nil in Hj.
  - rewrite hm_from_iter_snoc, hm_insert_elem_iff, IH by apply hm_from_iter_nodup. cbn [fst snd]. split.
    + intros [[-> ->]|(Hne & j & Hj & Hlast)].
      * exists (length l). split; [by rewrite lookup_app_r, Nat.sub_diag by lia|].
        intros j' v' Hj'. rewrite lookup_ge_None_2; [done|]. rewrite app_length. simpl. lia.
      * exists j. split; [by apply lookup_app_l_Some|]. intros j' v' Hlt.
        destruct (Nat.lt_ge_cases j' (length l)) as [Hl|Hl].
        -- rewrite lookup_app_l by done. by apply Hlast.
        -- rewrite lookup_app_r by done. destruct (j' - length l); simpl; [congruence|]. by rewrite lookup_nil.
    + intros (j & Hj & Hlast). destruct (Nat.lt_ge_cases j (length l)) as [Hl|Hl].
      * rewrite lookup_app_l in Hj by done. right. split.
        -- intros ->. apply (Hlast (length l) b Hl). by rewrite lookup_app_r, Nat.sub_diag by lia.
        -- exists j. split; [done|]. intros j' v' Hlt Hj'. apply (Hlast j' v' Hlt). by apply lookup_app_l_Some.
      * rewrite lookup_app_r in Hj by done. left. destruct (j - length l); simpl in Hj; [by injection Hj as -> ->|].
        by rewrite lookup_nil in Hj.
Qed.
Lemma hm_from_iter_last {V} (ks : list str) (vs : list V) k v :
  length ks = length vs ->
  (k, v) ∈ hm_from_iter (zip ks vs) <->
  exists j, ks !! j = Some k /\ vs !! j = Some v /\ forall j', j < j' -> ks !! j' <> Some k.
Proof.
  intros Hl. rewrite hm_from_iter_elem_iff. split.
  - intros (j & Hj & Hlast). apply lookup_zip_with_Some in Hj as (a & b & [= <- <-] & Ha & Hb).
    exists j. split; [done|]. split; [done|]. intros j' Hlt Hk.
    destruct (lookup_lt_is_Some_2 vs j') as [v' Hv']; [rewrite <- Hl; by eapply lookup_lt_Some|].
    apply (Hlast j' v' Hlt). apply lookup_zip_with_Some. by exists k, v'.
  - intros (j & Hk & Hv & Hlast). exists j. split; [apply lookup_zip_with_Some; by exists k, v|].
    intros j' v' Hlt Hj'. apply lookup_zip_with_Some in Hj' as (a & b & [= <- <-] & Ha & Hb).
    by apply (Hlast j' Hlt).
Qed.

Section with_decimal.
Context {DL : DecimalLib}.

Lemma tree_ind_nested L (P : kind -> value -> bytes -> Prop) :
  (forall k v bs, any_kind k -> e_prim_typed v bs -> P k v bs) ->
  (forall p v bs, prim_type_of v = Some p -> e_prim v bs ->
     match bs with x0c :: _ => False | _ => True end -> P (K_Primitive p) v bs) ->
  (forall k id s bs, string_kind k -> e_string_record id s bs -> P k (VString s) bs) ->
  (forall k, nullable_kind L k -> P k VNull [x0a]) ->
  (forall k h lib hb vs mb,
    e_class_header h hb -> NoDup (ch_member_names h) -> library_named L h lib ->
    object_kind L k (ch_name h) lib -> length vs = length (ch_member_names h) ->
    e_list (fun kv bs => tree L kv.1 kv.2 bs /\ P kv.1 kv.2 bs) (zip (kinds_of h) vs) mb ->
    P k (VObject (mkObj (ch_name h) lib (zip (ch_member_names h) vs))) (hb ++ mb)) ->
  forall k v bs, tree L k v bs -> P k v bs.
Proof.
  intros H1 H2 H3 H4 H5. fix IH 4. intros k v bs [ | | | |k' h lib hb vs mb A1 A2 A3 A4 A5 A6]; eauto.
  apply H5; try done. clear -A6 IH. induction A6 as [|kv l b bs Hb _ IHl]; constructor; [|done].
  split; [done|]. by apply IH.
Qed.

(** The item of a tree. *)
Definition tree_item (v : value) : item := match v with VNull => It_Nulls 1 | v => It_Value v end.

Lemma tree_head L k v bs i :
  tree L k v bs -> no_library (bs ++ i).
Proof.
  destruct 1 as [k v bs _ (p & b & _ & _ & ->)|p v bs Hp He Hb|k id s bs _ (b1 & b2 & _ & _ & ->)|k _
    |k h lib hb vs mb Hh _ _ _ _ _].
  - done.
  - destruct bs as [|c bs]; [by apply e_prim_nonempty in He|]. apply no_library_head. simpl. intros Hc.
    apply elem_of_list_singleton in Hc as ->. done.
  - done.
  - done.
  - rewrite <- app_assoc. pose proof (class_header_head h hb (mb ++ i) Hh) as Hhd.
    apply no_library_head. hd.
Qed.

Lemma resolve_trees (vs : list value) e i : g_resolve (map tree_item vs) e i vs e i.
Proof.
  induction vs as [|v vs IH]; [constructor|]. cbn [map].
  destruct v; try (by constructor). simpl. apply (G_res_nulls 1 _ _ _ vs). exact IH.
Qed.

Lemma kinds_length h hb : e_class_header h hb -> length (kinds_of h) = length (ch_member_names h).
Proof.
  intros (b1 & b2 & b3 & b4 & b5 & _ & _ & _ & H4 & _ & _). unfold kinds_of. destruct (ch_types h) as [ks|].
  - by destruct H4 as (? & ? & -> & _).
  - apply replicate_length.
Qed.

Lemma items_trees ks vs mb e i :
  length ks = length vs ->
  e_list (fun kv bs => forall i, g_member kv.1 e (bs ++ i) (tree_item kv.2) e i) (zip ks vs) mb ->
  g_items ks e (mb ++ i) (map tree_item vs) e i.
Proof.
  revert vs mb. induction ks as [|k ks IH]; intros [|v vs] mb Hl H; try done.
  - inv H. constructor.
  - inv H. rewrite <- app_assoc. cbn [map]. eapply G_items_cons; [by apply H2|]. apply IH; [|done].
    done.
Qed.
Lemma e_list_impl {A} (E E' : A -> bytes -> Prop) l bs :
  (forall a b, E a b -> E' a b) -> e_list E l bs -> e_list E' l bs.
Proof. intros HE. induction 1; constructor; auto. Qed.

Lemma tree_member L k v bs :
  tree L k v bs -> forall e i, e_libs e = L -> g_member k e (bs ++ i) (tree_item v) e i.
Proof.
  assert (forall k e bs i, any_kind k -> k <> K_Any -> (forall j, no_library (bs ++ j)) ->
    forall it, g_member K_Any e (bs ++ i) it e i -> g_member k e (bs ++ i) it e i) as Hany.
  { intros k' e bs' i Hk Hn Hl it Hg. eapply G_nested; [destruct k'; simpl in Hk; auto; done|by apply G_lib_none|done]. }
  intros Ht. assert (forall j, no_library (bs ++ j)) as Hnl by (intros j; by eapply tree_head).
  revert Hnl. revert k v bs Ht.
  apply (tree_ind_nested L (fun k v bs => (forall j, no_library (bs ++ j)) ->
    forall e i, e_libs e = L -> g_member k e (bs ++ i) (tree_item v) e i)).
  - intros k v bs Hk Hv Hnl e i He.
    assert (tree_item v = It_Value v) as -> by (destruct Hv as (p & b & Hp & _); by destruct v).
    assert (g_member K_Any e (bs ++ i) (It_Value v) e i) as Hm.
    { eapply G_simple; [by apply G_lib_none|done|]. left. by exists v. }
    destruct k; simpl in Hk; try done; by apply Hany.
  - intros p v bs Hp Hv Hb Hnl e i He. assert (tree_item v = It_Value v) as -> by (by destruct v).
    eapply G_simple; [by apply G_lib_none|done|]. by exists v.
  - intros k id s bs Hk Hs Hnl e i He. cbn [tree_item].
    assert (str_item (It_Value (VString s)) bs) as Hit by (by exists id, s).
    assert (g_member K_Any e (bs ++ i) (It_Value (VString s)) e i) as Hm.
    { eapply G_simple; [by apply G_lib_none|done|]. simpl. tauto. }
    destruct k; simpl in Hk; try done; try (by apply Hany).
    + eapply G_simple; [by apply G_lib_none|done|]. done.
    + eapply G_simple; [by apply G_lib_none|done|]. by left.
  - intros k Hk Hnl e i He. cbn [tree_item].
    assert (null_item (It_Nulls 1) [x0a]) as Hit by (exists 1%N; split; [done|by left]).
    assert (g_member K_Any e ([x0a] ++ i) (It_Nulls 1) e i) as Hm.
    { eapply G_simple; [by apply G_lib_none|done|]. simpl. tauto. }
    destruct k; simpl in Hk; try done; try (by apply Hany).
    + eapply G_simple; [by apply G_lib_none|done|done].
    + eapply G_simple; [by apply G_lib_none|by rewrite <- He in Hk|done].
    + eapply G_simple; [by apply G_lib_none|done|]. simpl. tauto.
  - intros k h lib hb vs mb Hh Hnd Hlib Hok Hlen Hms Hnl e i He. cbn [tree_item].
    assert (g_class e ((hb ++ mb) ++ i) (ch_object_id h)
      (mkObj (ch_name h) lib (zip (ch_member_names h) vs)) e i) as Hc.
    { rewrite <- (hm_from_iter_distinct (zip (ch_member_names h) vs)) by (by rewrite map_fst_zip).
      rewrite <- app_assoc. eapply G_class.
      - apply G_lib_none. rewrite app_assoc. apply Hnl.
      - done.
      - unfold class_library, library_named in *. by rewrite He.
      - apply items_trees.
        { change (member_kinds h) with (kinds_of h). rewrite (kinds_length h hb Hh). done. }
        change (member_kinds h) with (kinds_of h). eapply e_list_impl; [|exact Hms]. intros [k' v'] b [Hb Hm] j. apply Hm; [|done].
        intros j'. by eapply tree_head.
      - apply resolve_trees. }
    assert (g_member K_Any e ((hb ++ mb) ++ i)
      (It_Value (VObject (mkObj (ch_name h) lib (zip (ch_member_names h) vs)))) e i) as Hm.
    { eapply G_inline; [by apply G_lib_none|done|exact Hc]. }
    destruct k; simpl in Hok; try done; try (by apply Hany).
    + eapply G_inline; [by apply G_lib_none| |exact Hc]. by destruct Hok as [-> ->].
    + eapply G_inline; [by apply G_lib_none| |exact Hc]. destruct Hok as [-> (l & Hl & ->)].
      exists l. rewrite He. done.
Qed.

Lemma trees_items ks vs mb e i :
  trees (e_libs e) ks vs mb -> g_items ks e (mb ++ i) (map tree_item vs) e i.
Proof.
  intros [Hl H]. apply items_trees; [done|]. eapply e_list_impl; [|exact H].
  intros [k v] b Hb j. by eapply tree_member.
Qed.

Lemma tree_class e h lib hb vs mb i :
  e_class_header h hb -> NoDup (ch_member_names h) -> library_named (e_libs e) h lib ->
  trees (e_libs e) (kinds_of h) vs mb ->
  g_class e ((hb ++ mb) ++ i) (ch_object_id h)
    (mkObj (ch_name h) lib (zip (ch_member_names h) vs)) e i.
Proof.
  intros Hh Hnd Hlib Ht. pose proof (kinds_length h hb Hh) as Hk.
  rewrite <- (hm_from_iter_distinct (zip (ch_member_names h) vs)).
  2:{ rewrite map_fst_zip; [done|]. destruct Ht as [Hl _]. lia. }
  rewrite <- app_assoc. eapply G_class; [|done|done|by apply trees_items|apply resolve_trees].
  apply G_lib_none. apply no_library_head. pose proof (class_header_head h hb (mb ++ i) Hh). hd.
Qed.

(** ** Steps *)
Lemma g_objects_snoc e i e1 i1 id v e2 i2 :
  g_objects e i e1 i1 -> g_record e1 i1 id v e2 i2 -> g_objects e i (add_obj id v e2) i2.
Proof. induction 1; intros H1; econstructor; eauto using G_objs_nil. Qed.
Lemma after_step W root e i id v e1 i1 :
  after W root e i -> g_record e i id v e1 i1 -> after W root (add_obj id v e1) i1.
Proof.
  intros (hid & body & Hr & Hh & -> & Ho) Hg. exists hid, body. repeat (split; [done|]).
  by eapply g_objects_snoc.
Qed.
Lemma after_start root hid body :
  (root < 2 ^ 31)%N -> fits_int 4 hid -> after (header_bytes root hid ++ body) root empty_env body.
Proof. intros. exists hid, body. repeat (split; [done|]). constructor. Qed.
Lemma after_end W root e t :
  after W root e (x0b :: t) ->
  deserialize W =
  match t with
  | _ :: _ => PErr (mkError t E_TrailingData)
  | [] => if N.eqb root 0 then POk (MValue VNull)
          else match e_objs e !! root with
               | Some v => POk (MValue v)
               | None => PErr (mkError [] E_MissingRootObject)
               end
  end.
Proof.
  intros (ro & hb & body & -> & Hh & -> & Ho)%after_header. rewrite (run_end _ _ _ _ _ Hh Ho).
  destruct t; [|done]. by destruct (N.eqb root 0).
Qed.
(** A last record with the id of the root. *)
Lemma after_root W root e i v e' :
  after W root e i -> (0 < root)%N -> g_record e i root v e' [x0b] -> deserialize W = POk (MValue v).
Proof.
  intros Ha Hr Hg. rewrite (after_end _ _ _ _ (after_step _ _ _ _ _ _ _ _ Ha Hg)).
  destruct (N.eqb_spec root 0); [lia|]. cbn [add_obj e_objs]. by rewrite lookup_insert.
Qed.

Lemma valid_id_pos id : valid_id id -> (0 < id)%N.
Proof. unfold valid_id. lia. Qed.

(** Members without nested records. *)
Lemma simple_no_library it bs i : simple_item K_Any it bs -> no_library (bs ++ i).
Proof.
  intros [(v & _ & p & b & _ & _ & ->)|[(id & _ & b & _ & ->)|[(id & s & _ & b1 & b2 & _ & _ & ->)|(n & _ & H)]]];
    try done.
  by destruct H as [[_ ->]|[[_ ->]|[_ ->]]].
Qed.
Lemma simple_items its bs e i :
  e_list (simple_item K_Any) its bs -> g_items (replicate (length its) K_Any) e (bs ++ i) its e i.
Proof.
  induction 1 as [|it its b bs Hb _ IH]; [constructor|]. rewrite <- app_assoc.
  eapply G_items_cons; [|exact IH]. eapply G_simple; [|done|exact Hb].
  apply G_lib_none. by eapply simple_no_library.
Qed.

End with_decimal.
