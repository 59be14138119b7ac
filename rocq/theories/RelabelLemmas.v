(** * RelabelLemmas: derivations over tokens are closed under relabelling. *)
From Verif Require Import Base Value Wire Grammar Tokens TokenLemmas Relabel.
From Coq Require Import Lia ZifyNat ZifyN.

Section relabelling.
Context (r : relabelling).
Notation rv := (relabel_value r).
Notation rt := (map (relabel r)).

Definition relabel_env (e : env) : env := mkEnv (r_library r <$> e_libs e) (rv <$> e_objs e).
Definition relabel_item (it : item) : item := match it with It_Value v => It_Value (rv v) | _ => it end.
Notation re := relabel_env.
Definition relabel_obj (o : obj value) : obj value :=
  mkObj (r_class r (obj_class o)) (option_map (r_library r) (obj_library o))
    (map (fun kv => (r_member r kv.1, rv kv.2)) (obj_members o)).

Lemma relabel_object o : rv (VObject o) = VObject (relabel_obj o).
Proof. by destruct o. Qed.
Lemma relabel_empty : re empty_env = empty_env.
Proof. unfold relabel_env, empty_env. cbn. by rewrite !fmap_empty. Qed.
Lemma relabel_add_lib id name e : re (add_lib id name e) = add_lib id (r_library r name) (re e).
Proof. unfold relabel_env, add_lib. cbn. by rewrite fmap_insert. Qed.
Lemma relabel_add_obj id v e : re (add_obj id v e) = add_obj id (rv v) (re e).
Proof. unfold relabel_env, add_obj. cbn. by rewrite fmap_insert. Qed.
Lemma relabel_del_obj id e : re (del_obj id e) = del_obj id (re e).
Proof. unfold relabel_env, del_obj. cbn. by rewrite fmap_delete. Qed.
Lemma relabel_libs e id : e_libs (re e) !! id = option_map (r_library r) (e_libs e !! id).
Proof. cbn. rewrite lookup_fmap. by destruct (e_libs e !! id). Qed.
Lemma relabel_objs e id : e_objs (re e) !! id = option_map rv (e_objs e !! id).
Proof. cbn. rewrite lookup_fmap. by destruct (e_objs e !! id). Qed.

Lemma items_size_relabel its : items_size (map relabel_item its) = items_size its.
Proof. induction its as [|[] its IH]; cbn; by rewrite ?IH. Qed.
Lemma fills_relabel len its : fills len its -> fills len (map relabel_item its).
Proof.
  intros [[-> ->]|(init & last & -> & H)]; [by left|]. right.
  exists (map relabel_item init), (relabel_item last). rewrite map_app. split; [done|].
  rewrite <- (items_size_relabel init) in H. rewrite <- (items_size_relabel (init ++ [last])) in H.
  by rewrite map_app in H.
Qed.
Lemma kinds_relabel h : member_kinds (relabel_header r h) = map (relabel_kind r) (member_kinds h).
Proof.
  unfold member_kinds, relabel_header. cbn. destruct (ch_types h); cbn; [done|].
  by rewrite map_replicate, map_length.
Qed.
Lemma class_library_relabel e h lib :
  class_library e h lib -> class_library (re e) (relabel_header r h) (option_map (r_library r) lib).
Proof.
  unfold class_library, relabel_header. cbn [ch_library]. destruct (ch_library h); [|by intros ->].
  intros (l & Hl & ->). exists (r_library r l). rewrite relabel_libs, Hl. done.
Qed.
Lemma kind_ok_relabel e k : kind_ok e k -> kind_ok (re e) (relabel_kind r k).
Proof. destruct k; cbn [kind_ok relabel_kind]; try done. rewrite relabel_libs. intros [x ->]. by eexists. Qed.
Lemma class_kind_relabel e k o : class_kind e k o -> class_kind (re e) (relabel_kind r k) (relabel_obj o).
Proof.
  destruct k; cbn [class_kind relabel_kind]; try done.
  - intros [<- Hl]. cbn. by rewrite Hl.
  - intros (l & Hl & <- & Ho). exists (r_library r l). rewrite relabel_libs, Hl. cbn. by rewrite Ho.
Qed.
Lemma lib_relabel e ts e' ts' : t_lib e ts e' ts' -> t_lib (re e) (rt ts) (re e') (rt ts').
Proof.
  destruct 1 as [id name ts Hid|ts Hn].
  - rewrite relabel_add_lib. cbn [map relabel]. constructor. by rewrite relabel_libs, Hid.
  - constructor. destruct ts as [|[]]; done.
Qed.

Lemma shape_relabel dims v leaves : has_shape dims v leaves -> has_shape dims (rv v) (map rv leaves).
Proof.
  revert v leaves. induction dims as [|d dims IH]; intros v leaves H.
  - inversion H; subst. constructor.
  - inversion H as [|? ? rows ls Hl Hr]; subst. cbn [relabel_value]. rewrite concat_map.
    apply (hs_node _ dims (map rv rows)); [by rewrite map_length|]. clear H.
    induction Hr as [|row l rows ls Hr _ IHr]; cbn; constructor; auto.
Qed.
Lemma shaped_relabel dims vs out : shaped dims vs out -> shaped dims (map rv vs) (map rv out).
Proof.
  intros [[-> ->]|[Hn (ls & Hf & <-)]]; [by left|]. right. split; [by intros ?%map_eq_nil|].
  exists (map (map rv) ls). split; [|by rewrite concat_map].
  clear Hn. induction Hf as [|v l out ls Hs _ IH]; cbn; constructor; [by apply shape_relabel|done].
Qed.
Lemma args_relabel flags ca inline args :
  args_rule flags ca inline args ->
  args_rule flags (option_map (map rv) ca) (option_map (map rv) inline) (option_map (map rv) args).
Proof.
  unfold args_rule. destruct (Z.testbit flags bit_ArgsIsArray); [|destruct (Z.testbit flags bit_ArgsInArray)].
  - intros (a & -> & ->). by eexists.
  - intros (a & l & -> & ->). by eexists _, _.
  - by intros ->.
Qed.

Context (Hr : relabelling_ok r).

Lemma primitive_relabel v p : prim_type_of v = Some p -> prim_type_of (rv v) = Some p.
Proof using Hr. destruct Hr as [_ H]. intros Hv. specialize (H v p Hv). by destruct v. Qed.
Lemma simple_relabel k it t :
  simple_token k it t -> simple_token (relabel_kind r k) (relabel_item it) (relabel r t).
Proof using Hr.
  destruct k, t; cbn; try done; try (intros ->; done). intros [-> ?]. split; [done|]. by apply primitive_relabel.
Qed.
Lemma hm_insert_relabel k v m :
  hm_insert (r_member r k) (rv v) (map (fun kv => (r_member r kv.1, rv kv.2)) m)
  = map (fun kv => (r_member r kv.1, rv kv.2)) (hm_insert k v m).
Proof using Hr.
  destruct Hr as [Hi _]. induction m as [|[k' v'] m IH]; [done|]. cbn.
  destruct (str_eqb k k') eqn:E.
  - unfold str_eqb in *. apply bool_decide_eq_true in E as ->. by rewrite bool_decide_eq_true_2.
  - unfold str_eqb in *. apply bool_decide_eq_false in E. rewrite bool_decide_eq_false_2 by (intros ?%Hi; done).
    cbn. by rewrite IH.
Qed.
Lemma hm_from_iter_relabel names vs :
  hm_from_iter (zip (map (r_member r) names) (map rv vs))
  = map (fun kv => (r_member r kv.1, rv kv.2)) (hm_from_iter (zip names vs)).
Proof using Hr.
  unfold hm_from_iter. change (@nil (str * value)) with (map (fun kv => (r_member r kv.1, rv kv.2)) []) at 1.
  generalize (@nil (str * value)) as m. revert vs.
  induction names as [|n names IH]; intros vs m; [done|]. destruct vs as [|v vs]; [done|].
  cbn. rewrite hm_insert_relabel. apply IH.
Qed.

Lemma mut_relabel :
  (forall e ts id o e' ts', t_class e ts id o e' ts' -> t_class (re e) (rt ts) id (relabel_obj o) (re e') (rt ts'))
  /\ (forall k e ts it e' ts', t_member k e ts it e' ts' ->
        t_member (relabel_kind r k) (re e) (rt ts) (relabel_item it) (re e') (rt ts'))
  /\ (forall ks e ts its e' ts', t_items ks e ts its e' ts' ->
        t_items (map (relabel_kind r) ks) (re e) (rt ts) (map relabel_item its) (re e') (rt ts'))
  /\ (forall its e ts vs e' ts', t_resolve its e ts vs e' ts' ->
        t_resolve (map relabel_item its) (re e) (rt ts) (map rv vs) (re e') (rt ts'))
  /\ (forall e ts id v e' ts', t_record e ts id v e' ts' ->
        t_record (re e) (rt ts) id (rv v) (re e') (rt ts')).
Proof using Hr.
  apply t_mut_ind.
  - intros e ts e1 ts1 h lib its e2 ts2 vs e3 ts3 Hl%lib_relabel Hlib%class_library_relabel _ IHi _ IHr.
    rewrite <- kinds_relabel in IHi. unfold relabel_obj. cbn [obj_class obj_library obj_members].
    rewrite <- hm_from_iter_relabel. exact (T_class _ _ _ _ _ _ _ _ _ _ _ _ Hl Hlib IHi IHr).
  - intros k e ts e1 t ts1 it Hl%lib_relabel Hk%kind_ok_relabel Hs%simple_relabel. by eapply T_simple.
  - intros k e ts e1 ts1 id o e2 ts2 Hl%lib_relabel Hk%class_kind_relabel _ IH. cbn [relabel_item].
    rewrite relabel_object. by eapply (T_inline _ _ _ _ _ id).
  - intros k e ts e1 ts1 it e2 ts2 Hk Hl%lib_relabel _ IH. eapply T_nested; [|exact Hl|exact IH].
    destruct Hk as [-> | ->]; cbn; tauto.
  - intros. constructor.
  - intros. cbn. by eapply T_items_cons.
  - intros. constructor.
  - intros. cbn. by constructor.
  - intros. cbn. rewrite map_app, map_replicate. by constructor.
  - intros id v its e ts vs e' ts' Hv _ IH. cbn. apply T_res_known; [by rewrite relabel_objs, Hv|].
    by rewrite relabel_del_obj in IH.
  - intros id v its e ts e1 ts1 vs e' ts' Hv _ IH1 _ IH2. cbn.
    rewrite relabel_del_obj in IH2. eapply T_res_next; [by rewrite relabel_objs, Hv|done..].
  - intros. rewrite relabel_object. by constructor.
  - intros. cbn. constructor.
  - intros. cbn. constructor.
  - intros e ts id len its e1 ts1 vs e2 ts2 _ IH1 Hf _ IH2. cbn.
    rewrite map_replicate in IH1. eapply T_rec_objects; [|by apply fills_relabel|exact IH2].
    by rewrite map_length.
  - intros e ts id len its e1 ts1 vs e2 ts2 _ IH1 Hf _ IH2. cbn.
    rewrite map_replicate in IH1. eapply T_rec_strings; [|by apply fills_relabel|exact IH2].
    by rewrite map_length.
  - intros e ts id bat lengths bounds k its e1 ts1 vs e2 ts2 out Ho _ IH1 _ IH2 Hs. cbn.
    rewrite map_replicate in IH1. eapply T_rec_array; [done|exact IH1|exact IH2|by apply shaped_relabel].
Qed.
Definition items_relabel := proj1 (proj2 (proj2 mut_relabel)).
Definition resolve_relabel := proj1 (proj2 (proj2 (proj2 mut_relabel))).
Definition record_relabel := proj2 (proj2 (proj2 (proj2 mut_relabel))).

Lemma objects_relabel e ts e' ts' : t_objects e ts e' ts' -> t_objects (re e) (rt ts) (re e') (rt ts').
Proof using Hr.
  induction 1 as [|e ts id v e1 ts1 e2 ts2 H1 _ IH]; [constructor|].
  apply record_relabel in H1. rewrite relabel_add_obj in IH. by econstructor.
Qed.
Lemma call_array_relabel root e ts ca e' ts' :
  t_call_array root e ts ca e' ts' ->
  t_call_array root (re e) (rt ts) (option_map (map rv) ca) (re e') (rt ts').
Proof using Hr.
  destruct 1 as [Hn|e1 id len ts1 its e2 ts2 vs e3 ts3 Hl -> Hi Hf H1].
  - constructor. by destruct ts as [|[]].
  - apply lib_relabel in Hl. apply items_relabel in Hi. apply resolve_relabel in H1.
    rewrite map_replicate in Hi. eapply T_ca_some; [exact Hl|done| |by apply fills_relabel|exact H1].
    by rewrite map_length.
Qed.
Lemma message_relabel root ts m :
  t_message root ts m -> t_message root (rt ts) (relabel_message r m).
Proof using Hr.
  destruct 1 as [ts e v Ho H1|ts e1 ts1 m e2 ts2 e3 Ho Hm Ho'].
  - apply objects_relabel in Ho. rewrite relabel_empty in Ho. econstructor; [exact Ho|].
    destruct root; cbn [root_value] in *; [|by subst]. by rewrite relabel_objs, H1.
  - apply objects_relabel in Ho, Ho'. rewrite relabel_empty in Ho.
    eapply T_msg_method; [exact Ho| |exact Ho'].
    destruct Hm as [? ? ? ? ? ? ? ? ? ? Hc Ha|? ? ? ? ? ? ? ? ? Hc Ha]; apply call_array_relabel in Hc; apply args_relabel in Ha.
    all: by econstructor.
Qed.
End relabelling.
