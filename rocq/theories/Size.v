(** * Size: how many values a message contains (property C28). *)
From Verif Require Import Base Utf8 Value DataTypes Records Parser Wire BaseLemmas DataTypesLemmas
  RecordsLemmas MethodLemmas SafetyLemmas Safety Grammar Heads Complete Sound Fuel Message Run Spec
  LemmasA LemmasB LemmasC Positions Reach LemmasD Trees TreeLemmas PropsB PropsC PropsD.
From Coq Require Import Lia.

(** The number of values in a value, itself included. *)
Fixpoint size (v : value) : N :=
  match v with
  | VObject o => 1 + fold_right (fun kv n => size kv.2 + n) 0 (obj_members o)
  | VArray vs => 1 + fold_right (fun w n => size w + n) 0 vs
  | _ => 1
  end%N.
Definition sizes (vs : list value) : N := fold_right (fun w n => size w + n)%N 0%N vs.
Definition message_size (m : message) : N := sizes (message_values m).

Lemma sizes_app l1 l2 : sizes (l1 ++ l2) = (sizes l1 + sizes l2)%N.
Proof. induction l1 as [|v l1 IH]; [done|]. unfold sizes in *. cbn [app fold_right]. rewrite IH. lia. Qed.
Lemma sizes_cons v l : sizes (v :: l) = (size v + sizes l)%N.
Proof. done. Qed.
Lemma sizes_nulls n : sizes (replicate n VNull) = N.of_nat n.
Proof. induction n as [|n IH]; [done|]. cbn [replicate]. rewrite sizes_cons, IH. cbn [size]. lia. Qed.
Lemma size_array vs : size (VArray vs) = (1 + sizes vs)%N.
Proof. done. Qed.
Definition msizes (l : list (str * value)) : N := fold_right (fun kv n => size kv.2 + n)%N 0%N l.
Lemma size_object o : size (VObject o) = (1 + msizes (obj_members o))%N.
Proof. done. Qed.
Lemma size_pos v : (1 <= size v)%N.
Proof. destruct v; cbn [size]; lia. Qed.

(** HashMap insertion never makes more of it. *)
Lemma msizes_insert k v m : (msizes (hm_insert k v m) <= size v + msizes m)%N.
Proof.
  induction m as [|[k' v'] m IH]; cbn [hm_insert]; unfold msizes in *; cbn [fold_right snd]; [lia|].
  destruct (str_eqb k k'); cbn [fold_right snd]; lia.
Qed.
Lemma msizes_from_iter l : (msizes (hm_from_iter l) <= msizes l)%N.
Proof.
  unfold hm_from_iter. enough (forall m, (msizes (fold_left (fun m kv => hm_insert kv.1 kv.2 m) l m) <= msizes l + msizes m)%N) as H.
  { specialize (H []). unfold msizes in *. cbn [fold_right] in H. lia. }
  induction l as [|[k v] l IH]; intros m; cbn [fold_left]; [unfold msizes; cbn [fold_right]; lia|].
  etrans; [apply IH|]. cbn [fst snd]. pose proof (msizes_insert k v m).
  assert (msizes ((k, v) :: l) = (size v + msizes l)%N) by done. lia.
Qed.
Lemma msizes_zip names vs : (msizes (zip names vs) <= sizes vs)%N.
Proof.
  revert vs. induction names as [|n names IH]; intros [|v vs]; unfold msizes, sizes; cbn [zip zip_with fold_right]; try lia.
  specialize (IH vs). unfold msizes, sizes in IH. cbn [snd]. lia.
Qed.

(** The number of values in a nested array: at most [rank] arrays per element. *)
Lemma concat_length_pos {A} (ll : list (list A)) n :
  Forall (fun l => n <= length l) ll -> n * length ll <= length (concat ll).
Proof.
  induction 1 as [|l ll Hl _ IH]; [cbn; lia|]. cbn [concat length]. rewrite app_length. lia.
Qed.
Lemma shape_size dims : (0 < product dims)%N -> forall v leaves, has_shape dims v leaves ->
  (size v <= sizes leaves + N.of_nat (length dims) * N.of_nat (length leaves))%N.
Proof.
  induction dims as [|d dims IH]; intros Hp v leaves Hs.
  - inv Hs. unfold sizes. cbn [fold_right length]. lia.
  - pose proof (shape_length _ _ _ Hs) as Hlen.
    inversion Hs as [|d' dims' rows lvs Hd HF E1 E2 E3]. subst d' dims' v leaves. clear Hs.
    assert (0 < product dims)%N as Hp'.
    { unfold product in *. cbn [fold_right] in Hp. lia. }
    assert (sizes rows <= sizes (concat lvs) + N.of_nat (length dims) * N.of_nat (length (concat lvs)))%N as H.
    { clear Hlen Hd. induction HF as [|r l rows lvs Hr _ IH2]; [cbn; lia|]. cbn [concat].
      rewrite sizes_cons, sizes_app, app_length. specialize (IH Hp' _ _ Hr). lia. }
    rewrite size_array. cbn [length]. lia.
Qed.
Lemma shaped_size dims vs out : shaped dims vs out ->
  (sizes out <= sizes vs + N.of_nat (length dims) * N.of_nat (length vs))%N.
Proof.
  intros [[-> ->]|[Hne (leaves & HF & <-)]]; [cbn; lia|].
  assert (0 < product dims)%N as Hp.
  { destruct (N.eq_0_gt_0_cases (product dims)) as [Hz|]; [|done]. destruct Hne.
    clear -HF Hz. induction HF as [|r l rows lvs Hr _ IH]; [done|]. cbn [concat]. rewrite IH.
    apply shape_length in Hr. rewrite Hz in Hr. destruct l; [done|]. simpl in Hr. lia. }
  clear Hne. induction HF as [|r l rows lvs Hr _ IH]; [cbn; lia|]. cbn [concat].
  rewrite sizes_cons, sizes_app, app_length. pose proof (shape_size dims Hp _ _ Hr). lia.
Qed.

(** ** The objects in the table *)
Definition objs_size (m : gmap N value) : N := map_fold (fun _ v n => size v + n)%N 0%N m.
Lemma objs_size_insert m id v : m !! id = None -> objs_size (<[id := v]> m) = (size v + objs_size m)%N.
Proof. intros H. unfold objs_size. rewrite map_fold_insert_L; [done| |done]. intros. lia. Qed.
Lemma objs_size_delete m id v : m !! id = Some v -> (size v + objs_size (delete id m) = objs_size m)%N.
Proof.
  intros H. rewrite <- (insert_delete m id v H) at 2. rewrite objs_size_insert by apply lookup_delete. done.
Qed.
Lemma objs_size_lookup m id v : m !! id = Some v -> (size v <= objs_size m)%N.
Proof. intros H. rewrite <- (objs_size_delete m id v H). lia. Qed.
Lemma objs_size_delete_le m id : (objs_size (delete id m) <= objs_size m)%N.
Proof.
  destruct (m !! id) as [v|] eqn:E; [rewrite <- (objs_size_delete m id v E); lia|].
  by rewrite delete_notin.
Qed.
Lemma objs_size_replace m id v : (objs_size (<[id := v]> m) <= size v + objs_size m)%N.
Proof.
  rewrite <- insert_delete_insert. rewrite objs_size_insert by apply lookup_delete.
  pose proof (objs_size_delete_le m id). lia.
Qed.

(** ** The bound *)
Section bound.
Context {DL : DecimalLib}.
(** [B]: nulls per byte; [R]: dimensions of an array, the first one not counted. *)
Context (B R : N).
Hypothesis HB : (1 <= B)%N.
Let K : N := (B * (1 + R))%N.

Definition runs_within (i : bytes) : Prop :=
  forall p n bs q, i = p ++ bs ++ q -> e_null n bs -> (n <= B * N.of_nat (length bs))%N.
Definition ranks_within (i : bytes) : Prop :=
  forall p id bat lengths bounds k bs q, i = p ++ bs ++ q -> e_binary_array_header id bat lengths bounds k bs ->
    (N.of_nat (length (tail lengths)) <= R)%N.
Definition good (i : bytes) : Prop := ranks_within i /\ runs_within i.
Lemma good_suffix i j : good i -> j ⊑s i -> good j.
Proof.
  intros [H1 H2] [l ->]. split.
  - intros p id bat lengths bounds k bs q -> Hn. apply (H1 (l ++ p) id bat lengths bounds k bs q); [|done]. by rewrite <- app_assoc.
  - intros p n bs q -> Hn. apply (H2 (l ++ p) n bs q); [|done]. by rewrite <- app_assoc.
Qed.
Lemma good_app i j : good (i ++ j) -> good j.
Proof. intros H. eapply good_suffix; [exact H|]. by exists i. Qed.

Definition bill (i : bytes) : N := (K * N.of_nat (length i))%N.
Definition pot (e : env) (i : bytes) : N := (objs_size (e_objs e) + bill i)%N.
Lemma bill_app i j : bill (i ++ j) = (bill i + bill j)%N.
Proof. unfold bill. rewrite app_length. lia. Qed.
Lemma bill_pos i : i <> [] -> (1 + R <= bill i)%N.
Proof.
  intros H. unfold bill. assert (1 <= N.of_nat (length i))%N as H1 by (destruct i; [done|simpl; lia]).
  assert (1 + R <= K)%N as H2 by (unfold K; nia). nia.
Qed.
Lemma bill_count {A} (E : A -> bytes -> Prop) l bs : nonempty_enc E -> e_list E l bs ->
  (N.of_nat (length l) <= bill bs)%N.
Proof.
  intros HE H. apply e_list_length in H; [|done]. unfold bill, K. nia.
Qed.

Definition weight (it : item) : N :=
  match it with It_Value v => size v + R | It_Nulls n => n * (1 + R) | It_Ref _ => R end%N.
Definition weights (its : list item) : N := fold_right (fun it n => weight it + n)%N 0%N its.

Lemma lib_pot e i e' i' : g_lib e i e' i' -> (pot e' i' <= pot e i)%N.
Proof.
  destruct 1 as [id name bs i Hl Hn|]; [|done]. unfold pot. rewrite bill_app. cbn [add_lib e_objs]. lia.
Qed.
Lemma lib_suffix e i e' i' : g_lib e i e' i' -> i' ⊑s i.
Proof. destruct 1 as [id name bs i Hl Hn|]; [by exists bs|done]. Qed.

Lemma simple_weight k it bs i : simple_item k it bs -> good (bs ++ i) -> (weight it <= bill bs)%N.
Proof.
  intros Hs [_ Hg].
  assert (forall it bs, str_item it bs -> (weight it <= bill bs)%N) as Hstr.
  { intros it' bs' (id & s & -> & b1 & b2 & _ & _ & ->). cbn [weight size]. by apply bill_pos. }
  assert (forall it bs, ref_item it bs -> (weight it <= bill bs)%N) as Href.
  { intros it' bs' (id & -> & b1 & _ & ->). cbn [weight]. pose proof (bill_pos (x09 :: b1)). assert (x09 :: b1 <> []) by done. intuition lia. }
  assert (null_item it bs -> (weight it <= bill bs)%N) as Hnull.
  { intros (n & -> & Hn). cbn [weight]. specialize (Hg [] n bs i eq_refl Hn). unfold bill, K. nia. }
  assert (typed_item it bs -> (weight it <= bill bs)%N) as Htyped.
  { intros (v & -> & p & b & Hp & _ & ->). cbn [weight]. etrans; [|by apply bill_pos].
    destruct v; try done; cbn [size]; lia. }
  destruct k; cbn [simple_item] in Hs; try done.
  - destruct Hs as [Hs|[Hs|[Hs|Hs]]]; eauto.
  - destruct Hs as (v & -> & Hp & Hv). cbn [weight]. etrans; [|apply bill_pos; intros ->; by apply e_prim_nonempty in Hv].
    destruct v; try done; cbn [size]; lia.
  - eauto.
  - eauto.
  - eauto.
  - destruct Hs as [Hs|[Hs|Hs]]; eauto.
  - eauto.
Qed.

Lemma binary_rank id bat lengths bounds k bs : e_binary_array_header id bat lengths bounds k bs ->
  length lengths <= length bs.
Proof.
  clear HB.
  intros (b1 & b2 & b3 & b4 & b5 & _ & (b & _ & Hl & ->) & _ & _ & _ & ->).
  apply e_list_length in Hl; [|apply e_len_nonempty]. cbn [length]. rewrite !app_length. cbn [length]. rewrite !app_length. lia.
Qed.

Lemma g_pot :
  (forall e i id o e' i', g_class e i id o e' i' -> good i ->
     (size (VObject o) + R + pot e' i' <= pot e i)%N)
  /\ (forall k e i it e' i', g_member k e i it e' i' -> good i ->
     (weight it + pot e' i' <= pot e i)%N)
  /\ (forall ks e i its e' i', g_items ks e i its e' i' -> good i ->
     (weights its + pot e' i' <= pot e i)%N)
  /\ (forall its e i vs e' i', g_resolve its e i vs e' i' -> good i ->
     (sizes vs + R * N.of_nat (length vs) + pot e' i' <= weights its + pot e i)%N)
  /\ (forall e i id v e' i', g_record e i id v e' i' -> good i ->
     (size v + pot e' i' <= pot e i)%N).
Proof.
  destruct g_suffix as (Sc & Sm & Si & Sr & Srec).
  apply g_mut_ind.
  - intros e i e1 bs i1 h lib its e2 i2 vs e3 i3 Hl Hh _ Hits IH1 Hres IH2 Hg.
    pose proof (good_suffix _ _ Hg (lib_suffix _ _ _ _ Hl)) as Hg1. apply good_app in Hg1.
    specialize (IH1 Hg1). specialize (IH2 (good_suffix _ _ Hg1 (Si _ _ _ _ _ _ Hits))).
    apply lib_pot in Hl. unfold pot in Hl at 1. rewrite bill_app in Hl. fold (pot e1 i1) in Hl.
    assert (1 + R <= bill bs)%N as Hb.
    { apply bill_pos. destruct Hh as (? & ? & ? & ? & ? & _ & _ & _ & _ & _ & ->). done. }
    rewrite size_object. cbn [obj_members].
    pose proof (msizes_from_iter (zip (ch_member_names h) vs)). pose proof (msizes_zip (ch_member_names h) vs).
    unfold pot in *. lia.
  - intros k e i e1 bs i1 it Hl _ Hs Hg.
    pose proof (good_suffix _ _ Hg (lib_suffix _ _ _ _ Hl)) as Hg1.
    pose proof (simple_weight _ _ _ _ Hs Hg1). apply lib_pot in Hl. unfold pot in *. rewrite bill_app in Hl. lia.
  - intros k e i e1 i1 id o e2 i2 Hl _ Hc IH Hg.
    specialize (IH (good_suffix _ _ Hg (lib_suffix _ _ _ _ Hl))). apply lib_pot in Hl. cbn [weight]. lia.
  - intros k e i e1 i1 it e2 i2 _ Hl Hm IH Hg.
    specialize (IH (good_suffix _ _ Hg (lib_suffix _ _ _ _ Hl))). apply lib_pot in Hl. lia.
  - intros e i Hg. cbn. lia.
  - intros k ks e i it e1 i1 its e2 i2 Hm IH1 Hits IH2 Hg. specialize (IH1 Hg).
    specialize (IH2 (good_suffix _ _ Hg (Sm _ _ _ _ _ _ Hm))).
    change (weights (it :: its)) with (weight it + weights its)%N. lia.
  - intros e i Hg. cbn. lia.
  - intros v its e i vs e' i' Hr IH Hg. specialize (IH Hg).
    change (weights (It_Value v :: its)) with (size v + R + weights its)%N.
    rewrite sizes_cons. cbn [length]. lia.
  - intros n its e i vs e' i' Hr IH Hg. specialize (IH Hg).
    change (weights (It_Nulls n :: its)) with (n * (1 + R) + weights its)%N.
    rewrite sizes_app, sizes_nulls, app_length, replicate_length. nia.
  - intros id v its e i vs e' i' Hv Hr IH Hg. specialize (IH Hg).
    change (weights (It_Ref id :: its)) with (R + weights its)%N.
    rewrite sizes_cons. cbn [length]. unfold pot in *. cbn [del_obj e_objs] in IH.
    pose proof (objs_size_delete _ _ _ Hv). lia.
  - intros id v its e i e1 i1 vs e' i' Hn Hrec IH1 Hr IH2 Hg. specialize (IH1 Hg).
    specialize (IH2 (good_suffix _ _ Hg (Srec _ _ _ _ _ _ Hrec))).
    change (weights (It_Ref id :: its)) with (R + weights its)%N.
    rewrite sizes_cons. cbn [length]. unfold pot in *. cbn [del_obj e_objs] in IH2.
    pose proof (objs_size_delete_le (e_objs e1) id). lia.
  - intros e i id o e' i' Hc IH Hg. specialize (IH Hg). lia.
  - intros e i id s bs Hs Hg. unfold pot. rewrite bill_app. cbn [size].
    assert (1 + R <= bill bs)%N as Hb by (apply bill_pos; by destruct Hs as (? & ? & _ & _ & ->)). lia.
  - intros e i id p vs bs (b1 & b2 & Hh & Hp & Hl & ->) Hg. unfold pot. rewrite !bill_app, size_array.
    assert (1 + R <= bill b1)%N as Hb by (apply bill_pos; by destruct Hh as (? & ? & _ & _ & ->)).
    change (n2b (pt_code p) :: b2) with ([n2b (pt_code p)] ++ b2). rewrite bill_app.
    pose proof (bill_count _ _ _ e_prim_nonempty Hl).
    assert (sizes vs = N.of_nat (length vs)) as ->; [|lia].
    clear -Hp. induction Hp as [|v vs Hv _ IH]; [done|]. rewrite sizes_cons, IH.
    destruct v; try done; cbn [size length]; lia.
  - intros e i id len bs its e1 i1 vs e2 i2 Hh Hits IH1 _ Hres IH2 Hg. apply good_app in Hg.
    specialize (IH1 Hg). specialize (IH2 (good_suffix _ _ Hg (Si _ _ _ _ _ _ Hits))).
    assert (1 + R <= bill bs)%N as Hb by (apply bill_pos; by destruct Hh as (? & ? & _ & _ & ->)).
    unfold pot in *. rewrite bill_app, size_array. lia.
  - intros e i id len bs its e1 i1 vs e2 i2 Hh Hits IH1 _ Hres IH2 Hg. apply good_app in Hg.
    specialize (IH1 Hg). specialize (IH2 (good_suffix _ _ Hg (Si _ _ _ _ _ _ Hits))).
    assert (1 + R <= bill bs)%N as Hb by (apply bill_pos; by destruct Hh as (? & ? & _ & _ & ->)).
    unfold pot in *. rewrite bill_app, size_array. lia.
  - intros e i id bat lengths bounds k bs its e1 i1 vs e2 i2 out Hh Hno Hits IH1 Hres IH2 Hsh Hg.
    pose proof Hg as [HR _]. specialize (HR [] _ _ _ _ _ bs i eq_refl Hh). apply good_app in Hg.
    specialize (IH1 Hg). specialize (IH2 (good_suffix _ _ Hg (Si _ _ _ _ _ _ Hits))).
    assert (1 + R <= bill bs)%N as Hb.
    { apply bill_pos. by destruct Hh as (? & ? & ? & ? & ? & _ & _ & _ & _ & _ & ->). }
    apply shaped_size in Hsh.
    assert (N.of_nat (length (tail lengths)) * N.of_nat (length vs) <= R * N.of_nat (length vs))%N by (by apply N.mul_le_mono_r).
    unfold pot in *. rewrite bill_app, size_array. lia.
Qed.

Lemma objects_pot e i e' i' : g_objects e i e' i' -> good i -> (pot e' i' <= pot e i)%N.
Proof.
  induction 1 as [|e i id v e1 i1 e2 i2 Hr Ho IH]; intros Hg; [done|].
  destruct g_pot as (_ & _ & _ & _ & Prec). pose proof (Prec _ _ _ _ _ _ Hr Hg) as H1.
  destruct g_suffix as (_ & _ & _ & _ & Srec).
  specialize (IH (good_suffix _ _ Hg (Srec _ _ _ _ _ _ Hr))).
  etrans; [exact IH|]. unfold pot in *. cbn [add_obj e_objs].
  pose proof (objs_size_replace (e_objs e1) id v). lia.
Qed.

Lemma coded_size v bs : e_value_with_code v bs -> size v = 1%N.
Proof. destruct v; cbn [e_value_with_code size]; try done; by intros (? & ? & ? & _). Qed.
Lemma coded_sizes vs bs : e_list e_value_with_code vs bs -> (sizes vs <= bill bs)%N.
Proof.
  intros H. pose proof (bill_count _ _ _ e_value_with_code_nonempty H) as Hc.
  assert (sizes vs = N.of_nat (length vs)) as ->; [|done]. clear Hc.
  induction H as [|v vs b bs Hv _ IH]; [done|]. rewrite sizes_cons, IH, (coded_size _ _ Hv). cbn [length]. lia.
Qed.
Lemma inline_sizes flags args bs :
  e_flagged flags bit_ArgsInline (e_counted e_value_with_code) args bs -> (sizes (default [] args) <= bill bs)%N.
Proof.
  destruct args as [args|]; cbn [e_flagged default]; [|intros _; cbn; lia].
  intros (_ & b & _ & Hl & ->). apply coded_sizes in Hl. rewrite bill_app. unfold id. lia.
Qed.
Lemma call_array_pot root e i ca e' i' : g_call_array root e i ca e' i' -> good i ->
  (sizes (default [] ca) + pot e' i' <= pot e i)%N.
Proof.
  destruct 1 as [|e1 aid len bs i1 its e2 i2 vs e3 i3 Hl Hh _ Hits _ Hres]; intros Hg; cbn [default]; [cbn; lia|].
  pose proof (good_suffix _ _ Hg (lib_suffix _ _ _ _ Hl)) as Hg1. apply good_app in Hg1.
  destruct g_pot as (_ & _ & Pi & Pr & _). destruct g_suffix as (_ & _ & Si & _ & _).
  pose proof (Pi _ _ _ _ _ _ Hits Hg1). pose proof (Pr _ _ _ _ _ _ Hres (good_suffix _ _ Hg1 (Si _ _ _ _ _ _ Hits))).
  apply lib_pot in Hl. unfold pot in *. rewrite bill_app in Hl. cbn [from_option]; unfold id; lia.
Qed.
Lemma args_size flags ca inline args : args_rule flags ca inline args ->
  (sizes (default [] args) <= sizes (default [] ca) + sizes (default [] inline))%N.
Proof.
  unfold args_rule. destruct (Z.testbit _ _); [intros (a & -> & ->); cbn [default from_option]; unfold id; lia|].
  destruct (Z.testbit _ _); [|intros ->; lia]. intros (a & r & -> & ->). cbn [default from_option]; unfold id.
  rewrite sizes_cons, size_array. lia.
Qed.
Lemma method_pot root e i m e' i' : g_method root e i m e' i' -> good i ->
  (message_size m + pot e' i' <= pot e i)%N.
Proof.
  destruct 1 as [flags name type ctx inline bs i ca args e' i' Hc Hca Ha|flags ret ctx inline bs i ca args e' i' Hc Hca Ha];
    intros Hg; apply good_app in Hg; pose proof (call_array_pot _ _ _ _ _ _ Hca Hg) as H1; apply args_size in Ha.
  - destruct Hc as (b1 & b2 & b3 & b4 & b5 & _ & _ & _ & _ & H5 & ->). apply inline_sizes in H5.
    change (x15 :: b1 ++ b2 ++ b3 ++ b4 ++ b5) with ([x15] ++ b1 ++ b2 ++ b3 ++ b4 ++ b5).
    unfold pot in *. rewrite !bill_app. unfold message_size. cbn [message_values mc_args]. lia.
  - destruct Hc as (b1 & b2 & b3 & b4 & _ & H2 & _ & H4 & ->). apply inline_sizes in H4.
    assert (sizes (opt_list ret) <= bill b2)%N as Hr.
    { destruct ret as [v|]; cbn [e_flagged opt_list] in *; [|cbn; lia]. destruct H2 as [_ H2].
      apply (coded_sizes [v]). rewrite <- (app_nil_r b2). apply e_cons; [done|apply e_nil]. }
    change (x16 :: b1 ++ b2 ++ b3 ++ b4) with ([x16] ++ b1 ++ b2 ++ b3 ++ b4).
    unfold pot in *. rewrite !bill_app. unfold message_size. cbn [message_values mr_args mr_return_value].
    rewrite sizes_app. lia.
Qed.
Lemma message_pot W m : g_message W m -> good W -> (message_size m <= bill W)%N.
Proof.
  assert (forall i, pot empty_env i = bill i) as Hempty by (intros i; unfold pot, objs_size; cbn [empty_env e_objs]; by rewrite map_fold_empty).
  destruct 1 as [root hb i e v Hh Ho Hv|root hb i e1 i1 m e2 i2 e3 Hh Ho Hm Ho2]; intros Hg; rewrite bill_app; apply good_app in Hg.
  - apply objects_pot in Ho; [|done]. rewrite Hempty in Ho. unfold message_size. cbn [message_values].
    rewrite sizes_cons. change (sizes []) with 0%N. destruct root as [r|]; cbn [root_value] in Hv.
    + apply objs_size_lookup in Hv. unfold pot in Ho. lia.
    + subst v. cbn [size]. destruct Hh as (hid & _ & _ & ->).
      pose proof (bill_pos (x00 :: enc_uint 4 (default 0%N None) ++ enc_int 4 hid ++ enc_int 4 1 ++ enc_int 4 0)).
      assert (forall b l, b :: l <> @nil byte) as Hx by done. specialize (H (Hx _ _)). lia.
  - pose proof (good_suffix _ _ Hg (g_objects_suffix _ _ _ _ Ho)) as Hg1.
    apply objects_pot in Ho; [|done]. rewrite Hempty in Ho.
    apply method_pot in Hm; [|done]. unfold pot in *. lia.
Qed.

End bound.

Section C28.
Context {DL : DecimalLib}.

(** [W] can only hold null runs of at most [B] nulls per byte. *)
Definition runs_at_most (B : N) (W : bytes) : Prop :=
  forall p n bs q, W = p ++ bs ++ q -> e_null n bs -> (n <= B * N.of_nat (length bs))%N.

(** No array in [W] has more than [R] dimensions besides the first: wherever something in [W] can be
    read as the header of a BinaryArray. *)
Definition ranks_at_most (R : N) (W : bytes) : Prop :=
  forall p id bat lengths bounds k bs q, W = p ++ bs ++ q -> e_binary_array_header id bat lengths bounds k bs ->
    (N.of_nat (length lengths) <= 1 + R)%N.
Lemma ranks_tail R W : ranks_at_most R W -> ranks_within R W.
Proof.
  intros H p id bat lengths bounds k bs q E Hh. specialize (H p id bat lengths bounds k bs q E Hh).
  destruct lengths; cbn [tail length] in *; lia.
Qed.
(** Every derivation of the grammar (see C39): the number of values is at most proportional to the
    length, to the number of dimensions of an array and to the number of nulls a byte can stand for. *)
Theorem C28_bound_linear_partial : forall B R W m,
  g_message W m -> (1 <= B)%N -> runs_at_most B W -> ranks_at_most R W ->
  (message_size m <= B * (1 + R) * N.of_nat (length W))%N.
Proof.
  intros B R W m Hm HB Hr Hk. pose proof (message_pot B R HB W m Hm) as H.
  unfold bill in H. apply H. split; [by apply ranks_tail|exact Hr].
Qed.
(** As many dimensions as bytes there can be, and one only if the code 7 does not occur. *)
Theorem C28_ranks_always : forall W, ranks_at_most (N.of_nat (length W)) W.
Proof.
  intros W p id bat lengths bounds k bs q -> Hh. apply (binary_rank 0 0) in Hh. rewrite !app_length. lia.
Qed.
Theorem C28_ranks_absent : forall W, x07 ∉ W -> ranks_at_most 0 W.
Proof.
  intros W H p id bat lengths bounds k bs q -> (b1 & b2 & b3 & b4 & b5 & _ & _ & _ & _ & _ & ->). destruct H.
  apply elem_of_app; right; apply elem_of_app; left; left.
Qed.
(** So the bound is quadratic at most. *)
Theorem C28_bound_partial : forall B W m,
  g_message W m -> (1 <= B)%N -> runs_at_most B W ->
  (message_size m <= B * (1 + N.of_nat (length W)) * N.of_nat (length W))%N.
Proof. intros B W m Hm HB Hr. by apply C28_bound_linear_partial; [..|apply C28_ranks_always]. Qed.
(** [B = 2^31] always holds, [B = 1] if the null run codes 13 and 14 do not occur. *)
Theorem C28_runs_always : forall W, runs_at_most (2 ^ 31) W.
Proof.
  intros W p n bs q _ [[-> ->]|[[Hn ->]|[Hn ->]]]; [done| |];
    change (2 ^ 31)%N with 2147483648%N in *; change (2 ^ 8)%N with 256%N in *; cbn [length]; lia.
Qed.
Theorem C28_runs_absent : forall W, x0d ∉ W -> x0e ∉ W -> runs_at_most 1 W.
Proof.
  intros W H1 H2 p n bs q -> [[-> ->]|[[_ ->]|[_ ->]]]; [done|destruct H2|destruct H1];
    apply elem_of_app; right; apply elem_of_app; left; left.
Qed.

(** But no linear bound holds.  A 32-byte message of [n] nulls, for every [n]: *)
Definition nulls_message (n : N) : bytes :=
  header_bytes 1 (-1) ++ (x10 :: enc_uint 4 1 ++ enc_uint 4 n) ++ (x0e :: enc_uint 4 n) ++ [x0b].
Theorem C28_null_run : forall n, (0 < n < 2 ^ 31)%N ->
  length (nulls_message n) = 32
  /\ deserialize (nulls_message n) = POk (MValue (VArray (replicate (N.to_nat n) VNull))).
Proof.
  intros n Hn. split; [done|].
  eapply (C29_positive_count _ 1 empty_env x10 K_Any _ _ n); [| |apply ex_header; [done|destruct Hn; done]| |lia].
  - unfold nulls_message. apply after_start; [done|]. by apply hid_ok.
  - by left.
  - right. by left.
Qed.
Theorem C28_proportional_refuted :
  ~ forall W m, deserialize W = POk m -> (message_size m <= 2 ^ 25 * N.of_nat (length W))%N.
Proof.
  intros H. assert (exists n, n = 2 ^ 31 - 1)%N as [n Hn] by eauto.
  assert (0 < n < 2 ^ 31)%N as Hr by (subst n; split; reflexivity).
  destruct (C28_null_run n Hr) as [Hl Hd].
  specialize (H _ _ Hd). rewrite Hl in H. unfold message_size in H. cbn [message_values] in H.
  rewrite sizes_cons, size_array, sizes_nulls, N2Nat.id in H. subst n. vm_compute in H. congruence.
Qed.

(** A message of [5 n + 34] bytes and more than [n * n] values, none of them null. *)
Definition deep_lengths (n : nat) : list N := N.of_nat n :: replicate n 1%N.
Definition deep_header (n : nat) : bytes :=
  x07 :: enc_uint 4 1 ++ n2b (bat_code BAT_Rectangular)
  :: (enc_uint 4 (N.of_nat (length (deep_lengths n))) ++ concat (map (enc_uint 4) (deep_lengths n))) ++ []
  ++ [x00] ++ [n2b (pt_code PT_Byte)].
Definition deep_message (n : nat) : bytes :=
  header_bytes 1 (-1) ++ deep_header n ++ replicate n x07 ++ [x0b].
Lemma product_ones n : product (replicate n 1%N) = 1%N.
Proof. induction n as [|n IH]; [done|]. cbn [replicate]. unfold product in *. cbn [fold_right]. rewrite IH. lia. Qed.
Lemma take_ones n k : exists m, take k (replicate n 1%N) = replicate m 1%N.
Proof. rewrite take_replicate. by eexists. Qed.
Lemma shape_ones n v leaves : has_shape (replicate n 1%N) v leaves ->
  exists w, leaves = [w] /\ size v = (N.of_nat n + size w)%N.
Proof.
  revert v leaves. induction n as [|n IH]; intros v leaves H; cbn [replicate] in H.
  - inv H. exists v. split; [done|lia].
  - inversion H as [|d dims rows lvs Hd HF E1 E2 E3]. subst.
    destruct rows as [|r [|]]; cbn [length] in Hd; [done| |lia].
    inversion HF as [|r' l rows' lvs' Hr HF' E4 E5]. subst. inversion HF'. subst.
    apply IH in Hr as (w & -> & Hs). exists w. split; [done|]. rewrite size_array, sizes_cons, Hs. cbn; lia.
Qed.
Theorem C28_quadratic : forall n, 0 < n -> (N.of_nat n < 2 ^ 31 - 1)%N ->
  length (deep_message n) = 5 * n + 34
  /\ exists v, deserialize (deep_message n) = POk (MValue v)
       /\ has_shape (deep_lengths n) v (replicate n (VByte 7))
       /\ message_size (MValue v) = (1 + N.of_nat n * (1 + N.of_nat n))%N.
Proof.
  intros n Hpos Hn. split.
  { assert (length (concat (map (enc_uint 4) (replicate n 1%N))) = 4 * n) as E.
    { clear. induction n as [|n IH]; [done|]. cbn [replicate map concat]. rewrite app_length, IH, enc_uint_length. lia. }
    unfold deep_message, deep_header, header_bytes, enc_int, deep_lengths. cbn [map concat].
    repeat (rewrite ?app_length, ?enc_uint_length, ?replicate_length, ?E; cbn [length]). lia. }
  assert (product (deep_lengths n) = N.of_nat n) as Hp.
  { unfold deep_lengths. change (product (?a :: ?l)) with (a * product l)%N. rewrite product_ones. lia. }
  destruct (C26_shape (deep_message n) 1 empty_env BAT_Rectangular (N.of_nat n) (replicate n 1%N) None
    (K_Primitive PT_Byte) (deep_header n) (replicate n (VByte 7)) (replicate n x07)) as (v & Hd & Hs).
  - apply after_start; [done|by apply hid_ok].
  - exists (enc_uint 4 1), (enc_uint 4 (N.of_nat (length (deep_lengths n))) ++ concat (map (enc_uint 4) (deep_lengths n))), [], [x00], [n2b (pt_code PT_Byte)].
    split; [done|]. split; [|done]. apply ex_lens.
    + constructor; [unfold valid_len; lia|]. apply Forall_replicate. done.
    + unfold valid_len, deep_lengths. cbn [length]. rewrite replicate_length. lia.
  - intros k Hk. destruct k as [|k]; [done|]. unfold deep_lengths. cbn [take].
    destruct (take_ones n k) as [j ->]. change (product (?a :: ?l)) with (a * product l)%N. rewrite product_ones.
    change (2 ^ 31 - 1)%N with 2147483647%N in Hn. change (2 ^ 64)%N with 18446744073709551616%N. lia.
  - fold (deep_lengths n). rewrite Hp. lia.
  - fold (deep_lengths n). rewrite Hp, Nat2N.id. split; [by rewrite !replicate_length|].
    clear. induction n as [|n IH]; [apply e_nil|]. cbn [replicate zip zip_with].
    change (x07 :: replicate n x07) with ([x07] ++ replicate n x07). apply e_cons; [|exact IH].
    by apply T_prim.
  - exists v. split; [done|]. split; [done|]. unfold message_size. cbn [message_values]. rewrite sizes_cons.
    change (sizes []) with 0%N.
    inversion Hs as [|d dims rows lvs Hd' HF E1 E2 E3]. subst. rewrite size_array.
    assert (sizes rows = N.of_nat (length rows) * (1 + N.of_nat n))%N as ->; [|lia].
    assert (Forall (fun w => w = VByte 7) (concat lvs)) as Hall by (rewrite E3; by apply Forall_replicate).
    clear -HF Hall. revert Hall. induction HF as [|r l rows lvs Hr _ IH]; intros Hall; [done|].
    cbn [concat] in Hall. apply Forall_app in Hall as [Hl Hall]. rewrite sizes_cons, (IH Hall).
    apply shape_ones in Hr as (w & -> & ->). inv Hl. cbn [size length]. lia.
Qed.
Example C28_ex : exists m, g_message (nulls_message 5) m /\ message_size m = 6%N /\ runs_at_most (2 ^ 31) (nulls_message 5).
Proof.
  exists (MValue (VArray (replicate 5 VNull))). split; [|split; [done|apply C28_runs_always]].
  apply (G_msg_value (Some 1%N) (header_bytes 1 (-1)) _ (add_obj 1 (VArray (replicate 5 VNull)) empty_env)).
  - exists (-1)%Z. split; [done|]. split; [split; vm_compute; congruence|done].
  - eapply G_objs_cons; [|apply G_objs_nil].
    eapply (array_record x10 K_Any _ _ 5 _ [It_Nulls 5]); [by left|by apply ex_header| |right; exists [], (It_Nulls 5); done|].
    + apply (array_items x10 K_Any [It_Nulls 5] (x0e :: enc_uint 4 5)); [by left|].
      rewrite <- (app_nil_r (x0e :: _)). apply e_cons; [|apply e_nil]. right; right; right. exists 5%N. split; [done|]. right; by left.
    + apply (G_res_nulls 5 [] _ _ []). apply G_res_nil.
  - done.
Qed.
End C28.
