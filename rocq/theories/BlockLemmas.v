(** * BlockLemmas: what a record reads and changes. *)
From Verif Require Import Base Value Wire Grammar Tokens TokenLemmas Blocks.
From Coq Require Import Permutation.

Section with_decimal.
Context {DL : DecimalLib}.
Implicit Types (e : env) (ts X T : list token).

(** Outside the ids of [X] nothing changes. *)
Definition unch (X : list token) (e e' : env) : Prop :=
  (forall n, n ∉ objects_of X -> e_objs e' !! n = e_objs e !! n)
  /\ (forall n, n ∉ declared_by X -> e_libs e' !! n = e_libs e !! n).
Lemma unch_refl X e : unch X e e.
Proof. done. Qed.
Lemma unch_app X Y e e1 e2 : unch X e e1 -> unch Y e1 e2 -> unch (X ++ Y) e e2.
Proof.
  intros [A1 A2] [B1 B2]. unfold unch, objects_of, declared_by in *. rewrite !flat_map_app. split; intros n Hn.
  - rewrite B1, A1; [done| |]; set_solver.
  - rewrite B2, A2; [done| |]; set_solver.
Qed.
Lemma unch_cons t X e e1 : unch X e e1 -> unch (t :: X) e e1.
Proof. intros H. apply (unch_app [t] X e e e1); [apply unch_refl|done]. Qed.

Section frame.
Context (Io Il : N -> Prop).

Definition eqv (e e' : env) : Prop :=
  (forall n, Io n -> e_objs e' !! n = e_objs e !! n) /\ (forall n, Il n -> e_libs e' !! n = e_libs e !! n).
Definition covers (X : list token) : Prop :=
  (forall n, n ∈ objects_of X -> Io n) /\ (forall n, n ∈ libraries_of X -> Il n).
Lemma covers_app X Y : covers (X ++ Y) -> covers X /\ covers Y.
Proof.
  unfold covers, objects_of, libraries_of. rewrite !flat_map_app. intros [H1 H2].
  split; split; intros n Hn; (apply H1 || apply H2); set_solver.
Qed.
Lemma covers_cons t X : covers (t :: X) -> covers [t] /\ covers X.
Proof. apply (covers_app [t] X). Qed.
Lemma eqv_add_lib id name e e' : eqv e e' -> eqv (add_lib id name e) (add_lib id name e').
Proof.
  intros [H1 H2]. split; [done|]. intros n Hn. cbn.
  destruct (decide (n = id)) as [-> |Hne]; [by rewrite !lookup_insert|]. rewrite !lookup_insert_ne by done. by apply H2.
Qed.
Lemma eqv_add_obj id v e e' : eqv e e' -> eqv (add_obj id v e) (add_obj id v e').
Proof.
  intros [H1 H2]. split; [|done]. intros n Hn. cbn.
  destruct (decide (n = id)) as [-> |Hne]; [by rewrite !lookup_insert|]. rewrite !lookup_insert_ne by done. by apply H1.
Qed.
Lemma eqv_del_obj id e e' : eqv e e' -> eqv (del_obj id e) (del_obj id e').
Proof.
  intros [H1 H2]. split; [|done]. intros n Hn. cbn.
  destruct (decide (n = id)) as [-> |Hne]; [by rewrite !lookup_delete|]. rewrite !lookup_delete_ne by done. by apply H1.
Qed.

Definition kind_in (k : kind) : Prop := match k with K_Class _ lid => Il lid | _ => True end.
Definition ref_in (P : N -> Prop) (it : item) : Prop := match it with It_Ref id => P id | _ => True end.
Definition is_ref (its : list item) (n : N) : Prop := It_Ref n ∈ its.

(** The tokens [X] between [ts] and [ts1] are what is read: the same holds from other tables that
    agree on the ids in question, whatever follows. *)
Definition local (K : Prop) (E : list token -> Prop) (C : list token -> env -> env -> Prop)
    (J : env -> list token -> env -> list token -> Prop)
    (e : env) (ts : list token) (e1 : env) (ts1 : list token) : Prop :=
  exists X, ts = X ++ ts1 /\ E X /\ C X e e1
    /\ forall e' T, K -> covers X -> eqv e e' -> exists e1', J e' (X ++ T) e1' T /\ eqv e1 e1' /\ C X e' e1'.
Definition some (X : list token) : Prop := X <> [].
(** After the references [its] are resolved. *)
Definition unch_refs (its : list item) (X : list token) (e e' : env) : Prop :=
  (forall n, n ∉ objects_of X -> ~ is_ref its n -> e_objs e' !! n = e_objs e !! n)
  /\ (forall n, n ∉ declared_by X -> e_libs e' !! n = e_libs e !! n).

Lemma lib_local e ts e1 t ts1 : t_lib e ts e1 (t :: ts1) ->
  exists L, ts = L ++ t :: ts1 /\ unch L e e1
    /\ forall e' T, covers L -> eqv e e' -> exists e1', t_lib e' (L ++ t :: T) e1' (t :: T) /\ eqv e1 e1' /\ unch L e' e1'.
Proof.
  intros H. inversion H as [id name ts' Hid|ts' Hn]; subst.
  - exists [Tk_library id name]. split; [done|].
    assert (forall e0, unch [Tk_library id name] e0 (add_lib id name e0)) as Hu.
    { intros e0. split; [done|]. cbn. intros n Hn. apply lookup_insert_ne. set_solver. }
    split; [apply Hu|]. intros e' T [_ Hc] He. exists (add_lib id name e'). split.
    + apply T_lib_some. destruct He as [_ He]. rewrite He; [done|]. apply Hc. cbn. set_solver.
    + split; [by apply eqv_add_lib|apply Hu].
  - exists []. split; [done|]. split; [done|]. intros e' T _ He. exists e'. split; [by apply T_lib_none|]. done.
Qed.
Lemma class_library_eqv e e' h lib : covers [Tk_class h] -> eqv e e' -> class_library e h lib -> class_library e' h lib.
Proof.
  intros [_ Hc] [_ He]. unfold class_library. destruct (ch_library h) as [lid|] eqn:E; [|done]. rewrite He; [done|].
  apply Hc. cbn. rewrite E. set_solver.
Qed.
Lemma header_kinds h : covers [Tk_class h] -> Forall kind_in (member_kinds h).
Proof.
  intros [_ Hc]. unfold member_kinds. destruct (ch_types h) as [ks|] eqn:E.
  - apply Forall_forall. intros k Hk. destruct k as [| | | | |name lid| | |]; try done. apply Hc. cbn. rewrite E.
    apply elem_of_app. left. apply elem_of_app. right. apply elem_of_list_In, in_flat_map. exists (K_Class name lid).
    split; [by apply elem_of_list_In|by left].
  - by apply Forall_replicate.
Qed.
Lemma kind_ok_eqv e e' k : kind_in k -> eqv e e' -> kind_ok e k -> kind_ok e' k.
Proof. intros Hk [_ He]. destruct k; try done. cbn in *. by rewrite He. Qed.
Lemma class_kind_eqv e e' k o : kind_in k -> eqv e e' -> class_kind e k o -> class_kind e' k o.
Proof. intros Hk [_ He]. destruct k; try done. cbn in *. by rewrite He. Qed.

Lemma objects_app X Y : objects_of (X ++ Y) = objects_of X ++ objects_of Y.
Proof. apply flat_map_app. Qed.
Lemma ref_in_mono (P Q : N -> Prop) its : (forall n, P n -> Q n) -> Forall (ref_in P) its -> Forall (ref_in Q) its.
Proof. intros H Hi. eapply Forall_impl; [exact Hi|]. intros [] ?; cbn in *; auto. Qed.
Lemma unch_resolved X its e e1 e2 Y : Forall (ref_in (fun n => n ∈ objects_of X)) its ->
  unch X e e1 -> unch_refs its Y e1 e2 -> unch (X ++ Y) e e2.
Proof.
  intros Hr [A1 A2] [B1 B2]. unfold unch, declared_by in *. rewrite objects_app, flat_map_app. split; intros n Hn.
  - rewrite B1, A1; [done| | |]; [set_solver|set_solver|]. intros Hi. rewrite Forall_forall in Hr.
    specialize (Hr _ Hi). cbn in Hr. set_solver.
  - rewrite B2, A2; [done| |]; set_solver.
Qed.
Lemma refs_covered X its : covers X -> Forall (ref_in (fun n => n ∈ objects_of X)) its -> Forall (ref_in Io) its.
Proof. intros [Hc _]. by apply ref_in_mono. Qed.

Lemma mut_local :
  (forall e ts id o e1 ts1, t_class e ts id o e1 ts1 ->
     local True (fun X => some X /\ id ∈ objects_of X) unch (fun e ts e1 ts1 => t_class e ts id o e1 ts1) e ts e1 ts1)
  /\ (forall k e ts it e1 ts1, t_member k e ts it e1 ts1 ->
     local (kind_in k) (fun X => some X /\ ref_in (fun n => n ∈ objects_of X) it) unch
       (fun e ts e1 ts1 => t_member k e ts it e1 ts1) e ts e1 ts1)
  /\ (forall ks e ts its e1 ts1, t_items ks e ts its e1 ts1 ->
     local (Forall kind_in ks) (fun X => Forall (ref_in (fun n => n ∈ objects_of X)) its) unch
       (fun e ts e1 ts1 => t_items ks e ts its e1 ts1) e ts e1 ts1)
  /\ (forall its e ts vs e1 ts1, t_resolve its e ts vs e1 ts1 ->
     local (Forall (ref_in Io) its) (fun _ => True) (unch_refs its)
       (fun e ts e1 ts1 => t_resolve its e ts vs e1 ts1) e ts e1 ts1)
  /\ (forall e ts id v e1 ts1, t_record e ts id v e1 ts1 ->
     local True (fun X => some X /\ id ∈ objects_of X) unch (fun e ts e1 ts1 => t_record e ts id v e1 ts1) e ts e1 ts1).
Proof.
  apply t_mut_ind.
  - intros e ts e1 ts1 h lib its e2 ts2 vs e3 ts3 Hl Hlib _ (Y & -> & EY & CY & JY) _ (Z & -> & _ & CZ & JZ).
    apply lib_local in Hl as (L & -> & CL & JL). exists (L ++ Tk_class h :: Y ++ Z).
    split; [by rewrite <- !app_assoc; cbn; rewrite <- app_assoc|]. split.
    { split; [by destruct L|]. rewrite objects_app. apply elem_of_app. right. by left. }
    assert (forall e e1 e2 e3, unch L e e1 -> unch Y e1 e2 -> unch_refs its Z e2 e3 -> unch (L ++ Tk_class h :: Y ++ Z) e e3) as HC.
    { intros. eapply unch_app; [done|]. apply unch_cons. by eapply unch_resolved. }
    split; [by eapply HC|]. intros e' T _ [HcL [Hch [HcY HcZ]%covers_app]%covers_cons]%covers_app He.
    destruct (JL e' (Y ++ Z ++ T) HcL He) as (e1' & HL & He1 & CL').
    destruct (JY e1' (Z ++ T) (header_kinds _ Hch) HcY He1) as (e2' & HY & He2 & CY').
    destruct (JZ e2' T (refs_covered _ _ HcY EY) HcZ He2) as (e3' & HZ & He3 & CZ').
    exists e3'. split; [|split; [done|by eapply HC]]. rewrite <- !app_assoc. cbn. rewrite <- app_assoc.
    eapply T_class; [exact HL| |exact HY|exact HZ]. by eapply class_library_eqv.
  - intros k e ts e1 t ts1 it Hl Hk Hs. apply lib_local in Hl as (L & -> & CL & JL). exists (L ++ [t]).
    split; [by rewrite <- app_assoc|]. split.
    { split; [by destruct L|]. rewrite objects_app. destruct k, t; cbn in Hs; try done; subst; cbn; try done; set_solver. }
    assert (forall e e1, unch L e e1 -> unch (L ++ [t]) e e1) as HC by (intros; eapply unch_app; [done|apply unch_refl]).
    split; [by apply HC|]. intros e' T HK [HcL _]%covers_app He. destruct (JL e' T HcL He) as (e1' & HL & He1 & CL').
    exists e1'. split; [|split; [done|by apply HC]]. rewrite <- app_assoc. eapply T_simple; [exact HL| |done]. by eapply kind_ok_eqv.
  - intros k e ts e1 ts1 id o e2 ts2 Hl Hk _ (Y & -> & [EY _] & CY & JY). destruct Y as [|t Y]; [done|].
    apply lib_local in Hl as (L & -> & CL & JL). exists (L ++ t :: Y). split; [by rewrite <- app_assoc|].
    split; [by destruct L|].
    assert (forall e e1 e2, unch L e e1 -> unch (t :: Y) e1 e2 -> unch (L ++ t :: Y) e e2) as HC by (intros; by eapply unch_app).
    split; [by eapply HC|]. intros e' T HK [HcL HcY]%covers_app He.
    destruct (JL e' (Y ++ T) HcL He) as (e1' & HL & He1 & CL').
    destruct (JY e1' T I HcY He1) as (e2' & HY & He2 & CY'). exists e2'. split; [|split; [done|by eapply HC]].
    rewrite <- app_assoc. eapply T_inline; [exact HL| |exact HY]. by eapply class_kind_eqv.
  - intros k e ts e1 ts1 it e2 ts2 Hk Hl _ (Y & -> & [EY ER] & CY & JY). destruct Y as [|t Y]; [done|].
    apply lib_local in Hl as (L & -> & CL & JL). exists (L ++ t :: Y). split; [by rewrite <- app_assoc|].
    split; [split; [by destruct L|]; rewrite objects_app; destruct it; try done; cbn [ref_in] in *; apply elem_of_app; by right|].
    assert (forall e e1 e2, unch L e e1 -> unch (t :: Y) e1 e2 -> unch (L ++ t :: Y) e e2) as HC by (intros; by eapply unch_app).
    split; [by eapply HC|]. intros e' T HK [HcL HcY]%covers_app He.
    destruct (JL e' (Y ++ T) HcL He) as (e1' & HL & He1 & CL').
    destruct (JY e1' T I HcY He1) as (e2' & HY & He2 & CY'). exists e2'. split; [|split; [done|by eapply HC]].
    rewrite <- app_assoc. by eapply T_nested.
  - intros e ts. exists []. split; [done|]. split; [done|]. split; [done|]. intros e' T _ _ He. exists e'. split; [constructor|done].
  - intros k ks e ts it e1 ts1 its e2 ts2 _ (Y & -> & [_ EY] & CY & JY) _ (Z & -> & EZ & CZ & JZ).
    exists (Y ++ Z). split; [by rewrite <- app_assoc|]. split.
    { rewrite objects_app. apply Forall_cons_2; [destruct it; try done; cbn [ref_in] in *; apply elem_of_app; by left|].
      eapply ref_in_mono; [|exact EZ]. intros n Hn. apply elem_of_app. by right. }
    split; [by eapply unch_app|]. intros e' T HK [HcY HcZ]%covers_app He. inversion HK as [|? ? HK1 HK2]; subst.
    destruct (JY e' (Z ++ T) HK1 HcY He) as (e1' & HY & He1 & CY').
    destruct (JZ e1' T HK2 HcZ He1) as (e2' & HZ & He2 & CZ').
    exists e2'. split; [|split; [done|by eapply unch_app]]. rewrite <- app_assoc. by eapply T_items_cons.
  - intros e ts. exists []. split; [done|]. split; [done|]. split; [done|]. intros e' T _ _ He. exists e'. split; [constructor|done].
  - intros v its e ts vs e1 ts1 _ (Z & -> & _ & CZ & JZ). exists Z. split; [done|]. split; [done|].
    assert (forall e e1, unch_refs its Z e e1 -> unch_refs (It_Value v :: its) Z e e1) as HC.
    { intros e0 e2 [H1 H2]. split; [|done]. intros n Hn Hr. apply H1; [done|]. intros Hi. apply Hr. by right. }
    split; [by apply HC|]. intros e' T HK Hc He. inversion HK; subst. destruct (JZ e' T) as (e1' & ? & ? & ?); [done..|].
    exists e1'. split; [by constructor|]. split; [done|by apply HC].
  - intros m its e ts vs e1 ts1 _ (Z & -> & _ & CZ & JZ). exists Z. split; [done|]. split; [done|].
    assert (forall e e1, unch_refs its Z e e1 -> unch_refs (It_Nulls m :: its) Z e e1) as HC.
    { intros e0 e2 [H1 H2]. split; [|done]. intros n Hn Hr. apply H1; [done|]. intros Hi. apply Hr. by right. }
    split; [by apply HC|]. intros e' T HK Hc He. inversion HK; subst. destruct (JZ e' T) as (e1' & ? & ? & ?); [done..|].
    exists e1'. split; [by constructor|]. split; [done|by apply HC].
  - intros id v its e ts vs e1 ts1 Hv _ (Z & -> & _ & CZ & JZ). exists Z. split; [done|]. split; [done|].
    assert (forall e e1, unch_refs its Z (del_obj id e) e1 -> unch_refs (It_Ref id :: its) Z e e1) as HC.
    { intros e0 e2 [H1 H2]. split; [|done]. intros n Hn Hr. rewrite H1; [|done|intros Hi; apply Hr; by right].
      apply lookup_delete_ne. intros ->. apply Hr. by left. }
    split; [by apply HC|]. intros e' T HK Hc He. inversion HK as [|? ? Hid HK']; subst.
    destruct (JZ (del_obj id e') T) as (e1' & ? & ? & ?); [done|done|by apply eqv_del_obj|].
    exists e1'. split; [|split; [done|by apply HC]]. apply T_res_known; [|done]. by rewrite (proj1 He).
  - intros id v its e ts e1 ts1 vs e2 ts2 Hv _ (Y & -> & [_ EY] & CY & JY) _ (Z & -> & _ & CZ & JZ).
    exists (Y ++ Z). split; [by rewrite <- app_assoc|]. split; [done|].
    assert (forall e e1 e2, unch Y e e1 -> unch_refs its Z (del_obj id e1) e2 -> unch_refs (It_Ref id :: its) (Y ++ Z) e e2) as HC.
    { intros e0 e3 e4 [A1 A2] [B1 B2]. unfold unch_refs, declared_by in *. rewrite objects_app, flat_map_app. split.
      - intros n Hn Hr. rewrite B1; [|set_solver|intros Hi; apply Hr; by right]. cbn.
        rewrite lookup_delete_ne by (intros ->; apply Hr; by left). apply A1. set_solver.
      - intros n Hn. rewrite B2 by set_solver. apply A2. set_solver. }
    split; [by eapply HC|]. intros e' T HK [HcY HcZ]%covers_app He. inversion HK as [|? ? Hid HK']; subst.
    destruct (JY e' (Z ++ T) I HcY He) as (e1' & HY & He1 & CY').
    destruct (JZ (del_obj id e1') T HK' HcZ (eqv_del_obj _ _ _ He1)) as (e2' & HZ & He2 & CZ').
    exists e2'. split; [|split; [done|by eapply HC]]. rewrite <- app_assoc. eapply T_res_next; [|exact HY|exact HZ].
    by rewrite (proj1 He).
  - intros e ts id o e1 ts1 _ (Z & -> & EZ & CZ & JZ). exists Z. split; [done|]. split; [done|]. split; [done|].
    intros e' T _ Hc He. destruct (JZ e' T I Hc He) as (e1' & ? & ? & ?). exists e1'. split; [by constructor|done].
  - intros e ts id s. exists [Tk_string id s]. split; [done|]. split; [split; [done|by left]|]. split; [done|].
    intros e' T _ _ He. exists e'. split; [constructor|done].
  - intros e ts id p vs. exists [Tk_prims id p vs]. split; [done|]. split; [split; [done|by left]|]. split; [done|].
    intros e' T _ _ He. exists e'. split; [constructor|done].
  - intros e ts id len its e1 ts1 vs e2 ts2 _ (Y & -> & EY & CY & JY) Hf _ (Z & -> & _ & CZ & JZ).
    exists (Tk_objects id len :: Y ++ Z). split; [by cbn; rewrite <- app_assoc|]. split; [split; [done|by left]|].
    assert (forall e e1 e2, unch Y e e1 -> unch_refs its Z e1 e2 -> unch (Tk_objects id len :: Y ++ Z) e e2) as HC
      by (intros; apply unch_cons; by eapply unch_resolved).
    split; [by eapply HC|]. intros e' T _ [_ [HcY HcZ]%covers_app]%covers_cons He.
    destruct (JY e' (Z ++ T)) as (e1' & HY & He1 & CY'); [by apply Forall_replicate|done|done|].
    destruct (JZ e1' T (refs_covered _ _ HcY EY) HcZ He1) as (e2' & HZ & He2 & CZ').
    exists e2'. split; [|split; [done|by eapply HC]]. cbn. rewrite <- app_assoc. by eapply T_rec_objects.
  - intros e ts id len its e1 ts1 vs e2 ts2 _ (Y & -> & EY & CY & JY) Hf _ (Z & -> & _ & CZ & JZ).
    exists (Tk_strings id len :: Y ++ Z). split; [by cbn; rewrite <- app_assoc|]. split; [split; [done|by left]|].
    assert (forall e e1 e2, unch Y e e1 -> unch_refs its Z e1 e2 -> unch (Tk_strings id len :: Y ++ Z) e e2) as HC
      by (intros; apply unch_cons; by eapply unch_resolved).
    split; [by eapply HC|]. intros e' T _ [_ [HcY HcZ]%covers_app]%covers_cons He.
    destruct (JY e' (Z ++ T)) as (e1' & HY & He1 & CY'); [by apply Forall_replicate|done|done|].
    destruct (JZ e1' T (refs_covered _ _ HcY EY) HcZ He1) as (e2' & HZ & He2 & CZ').
    exists e2'. split; [|split; [done|by eapply HC]]. cbn. rewrite <- app_assoc. by eapply T_rec_strings.
  - intros e ts id bat lengths bounds k its e1 ts1 vs e2 ts2 out Ho _ (Y & -> & EY & CY & JY) _ (Z & -> & _ & CZ & JZ) Hs.
    exists (Tk_array id bat lengths bounds k :: Y ++ Z). split; [by cbn; rewrite <- app_assoc|]. split; [split; [done|by left]|].
    assert (forall e e1 e2, unch Y e e1 -> unch_refs its Z e1 e2 -> unch (Tk_array id bat lengths bounds k :: Y ++ Z) e e2) as HC
      by (intros; apply unch_cons; by eapply unch_resolved).
    split; [by eapply HC|]. intros e' T _ [Hca [HcY HcZ]%covers_app]%covers_cons He.
    destruct (JY e' (Z ++ T)) as (e1' & HY & He1 & CY'); [|done|done|].
    { apply Forall_replicate. destruct k; try done. apply Hca. cbn. set_solver. }
    destruct (JZ e1' T (refs_covered _ _ HcY EY) HcZ He1) as (e2' & HZ & He2 & CZ').
    exists e2'. split; [|split; [done|by eapply HC]]. cbn. rewrite <- app_assoc. by eapply T_rec_array.
Qed.
End frame.

Definition on_objects (X : list token) (n : N) : Prop := n ∈ objects_of X.
Definition on_libraries (X : list token) (n : N) : Prop := n ∈ libraries_of X.
Lemma declared_named X n : n ∈ declared_by X -> n ∈ libraries_of X.
Proof.
  unfold declared_by, libraries_of. rewrite !elem_of_list_In, !in_flat_map. intros (t & Ht & Hn). exists t. split; [done|].
  destruct t; try done.
Qed.

(** One block. *)
Definition block_step (e : env) (X : list token) (e2 : env) : Prop :=
  exists id v e1, t_record e X id v e1 [] /\ e2 = add_obj id v e1.
Lemma unch_add X id v e e1 : id ∈ objects_of X -> unch X e e1 -> unch X e (add_obj id v e1).
Proof.
  intros Hid [H1 H2]. split; [|done]. intros n Hn. cbn. rewrite lookup_insert_ne by (intros ->; done). by apply H1.
Qed.
Lemma block_frame e X e2 : block_step e X e2 ->
  unch X e e2 /\ forall e', eqv (on_objects X) (on_libraries X) e e' ->
    exists e2', block_step e' X e2' /\ eqv (on_objects X) (on_libraries X) e2 e2' /\ unch X e' e2'.
Proof.
  intros (id & v & e1 & H & ->).
  pose proof (proj2 (proj2 (proj2 (proj2 (mut_local (on_objects X) (on_libraries X))))) _ _ _ _ _ _ H) as (X' & E & [_ Hid] & HC & HJ).
  rewrite app_nil_r in E. subst X'. split; [by apply unch_add|]. intros e' He.
  destruct (HJ e' [] I ltac:(done) He) as (e1' & H1 & H2 & H3). rewrite app_nil_r in H1.
  exists (add_obj id v e1'). split; [by exists id, v, e1'|]. split; [by apply eqv_add_obj|by apply unch_add].
Qed.
Lemma env_eq e e' : (forall n, e_objs e !! n = e_objs e' !! n) -> (forall n, e_libs e !! n = e_libs e' !! n) -> e = e'.
Proof. intros H1 H2. destruct e, e'. cbn in *. f_equal; by apply map_eq. Qed.

Lemma block_swap e X Y e1 e2 : independent X Y -> block_step e X e1 -> block_step e1 Y e2 ->
  exists e1', block_step e Y e1' /\ block_step e1' X e2.
Proof.
  intros (Ho & Hl & Hl') HX HY. destruct (block_frame _ _ _ HX) as [[UX UX'] FX]. destruct (block_frame _ _ _ HY) as [[UY UY'] FY].
  destruct (FY e) as (e1' & HY' & [EY EY'] & [VY VY']).
  { split; intros n Hn; symmetry; [apply UX|apply UX']; intros Hx; [by apply (Ho n)|by apply (Hl n)]. }
  destruct (FX e1') as (e2' & HX' & [EX EX'] & [VX VX']).
  { split; intros n Hn; [apply VY|apply VY']; intros Hx; [by apply (Ho n)|by apply (Hl' n)]. }
  exists e1'. split; [done|]. replace e2 with e2'; [done|]. apply env_eq; intros n.
  - destruct (decide (n ∈ objects_of X)) as [HnX|HnX].
    + rewrite EX by done. symmetry. apply UY. by apply Ho.
    + rewrite VX by done. destruct (decide (n ∈ objects_of Y)) as [HnY|HnY]; [by apply EY|].
      rewrite VY, UY, UX by done. done.
  - destruct (decide (n ∈ declared_by X)) as [HnX|HnX].
    + rewrite EX' by (by apply declared_named). symmetry. apply UY'. intros HnY. by apply (Hl n HnX), declared_named.
    + rewrite VX' by done. destruct (decide (n ∈ declared_by Y)) as [HnY|HnY]; [by apply EY', declared_named|].
      rewrite VY', UY', UX' by done. done.
Qed.
Lemma blocks_cons e X Xs e2 : t_blocks e (X :: Xs) e2 <-> exists e1, block_step e X e1 /\ t_blocks e1 Xs e2.
Proof.
  split.
  - intros H. inversion H; subst. eexists. split; [by eexists _, _, _|done].
  - intros (e1 & (id & v & e' & H & ->) & H2). by econstructor.
Qed.
Lemma independent_sym X Y : independent X Y -> independent Y X.
Proof. intros (H1 & H2 & H3). split; [|done]. intros n Hn Hx. by apply (H1 n). Qed.
Lemma pairwise_perm {A} (R : A -> A -> Prop) l l' : (forall x y, R x y -> R y x) -> Permutation l l' -> pairwise R l -> pairwise R l'.
Proof.
  intros Hs Hp. induction Hp as [|x l l' Hp IH|x y l|l l' l'' _ IH1 _ IH2]; intros H; auto.
  - inversion H; subst. constructor; [by rewrite <- Hp|auto].
  - inversion H as [|? ? H1 H2]; subst. inversion H2; subst. inversion H1; subst. constructor; [apply Forall_cons_2; auto|by constructor].
Qed.
Lemma blocks_perm Xs Ys : Permutation Xs Ys -> forall e e', pairwise independent Xs -> t_blocks e Xs e' -> t_blocks e Ys e'.
Proof.
  induction 1 as [|X Xs Ys _ IH|X Y Xs|Xs Ys Zs H1 IH1 _ IH2]; intros e e' Hp H; [done| | |].
  - inversion Hp; subst. apply blocks_cons in H as (e1 & ? & ?). apply blocks_cons. exists e1. auto.
  - inversion Hp as [|? ? F _]; subst. inversion F; subst. apply blocks_cons in H as (e1 & HY & H).
    apply blocks_cons in H as (e2 & HX & H). destruct (block_swap e Y X e1 e2) as (e1' & ? & ?); [done..|].
    apply blocks_cons. exists e1'. split; [done|]. apply blocks_cons. by exists e2.
  - apply IH2; [|by apply IH1]. eapply pairwise_perm; [apply independent_sym|done|done].
Qed.

(** ** Bytes, before any rest *)

Section before.
Context (R : bytes).
Definition good_before (ts : list token) (i : bytes) : Prop :=
  (exists b, e_list e_token ts b /\ i = b ++ R) /\ undisturbed_before R ts.
Lemma good_before_cons t ts i :
  good_before (t :: ts) i -> exists b i', e_token t b /\ i = b ++ i' /\ good_before ts i'.
Proof.
  intros [(b & Hl & ->) Hu]. inversion Hl; subst. eexists _, _. split; [done|]. split; [by rewrite <- app_assoc|].
  split; [by eexists|]. intros before v after b -> Hb. by apply (Hu (t :: before) v after b).
Qed.
Lemma class_some e ts id o e1 ts1 : t_class e ts id o e1 ts1 -> ts <> [].
Proof. intros H. inversion H as [? ? ? ? ? ? ? ? ? ? ? ? Hl]; subst. by inversion Hl; subst. Qed.
Lemma member_some k e ts it e1 ts1 : t_member k e ts it e1 ts1 -> ts <> [].
Proof.
  intros H. apply (proj1 (proj2 (mut_local (fun _ => True) (fun _ => True)))) in H as (X & -> & [HX _] & _). by destruct X.
Qed.
Lemma lib_t2g_before e ts e' ts' i : t_lib e ts e' ts' -> ts' <> [] -> good_before ts i ->
  exists i', good_before ts' i' /\ g_lib e i e' i'.
Proof.
  intros H Hne Hg. destruct H as [id name ts Hid|ts Hn].
  - apply good_before_cons in Hg as (b & i' & Ht & -> & Hg). exists i'. split; [done|]. by constructor.
  - exists i. split; [done|]. constructor. destruct ts as [|t ts]; [done|]. destruct (is_value t) eqn:Hv.
    + destruct t as [| |v| | | | | | | | | |]; try done. destruct Hg as [(b & Hl & ->) Hu]. by apply (Hu [] v ts b).
    + apply good_before_cons in Hg as (b & i' & Ht & -> & _).
      apply e_token_code in Ht as (c & r & -> & Hc); [|done]. cbn [app]. apply not_12. intros ->.
      destruct t; cbn in Hc; try done; naive_solver.
Qed.
Lemma mut_t2g_before :
  (forall e ts id o e' ts', t_class e ts id o e' ts' ->
     forall i, good_before ts i -> exists i', good_before ts' i' /\ g_class e i id o e' i')
  /\ (forall k e ts it e' ts', t_member k e ts it e' ts' ->
     forall i, good_before ts i -> exists i', good_before ts' i' /\ g_member k e i it e' i')
  /\ (forall ks e ts its e' ts', t_items ks e ts its e' ts' ->
     forall i, good_before ts i -> exists i', good_before ts' i' /\ g_items ks e i its e' i')
  /\ (forall its e ts vs e' ts', t_resolve its e ts vs e' ts' ->
     forall i, good_before ts i -> exists i', good_before ts' i' /\ g_resolve its e i vs e' i')
  /\ (forall e ts id v e' ts', t_record e ts id v e' ts' ->
     forall i, good_before ts i -> exists i', good_before ts' i' /\ g_record e i id v e' i').
Proof.
  apply t_mut_ind.
  - intros e ts e1 ts1 h lib its e2 ts2 vs e3 ts3 Hl Hlib _ IHi _ IHr i Hg.
    eapply lib_t2g_before in Hl as (i1 & Hg1 & Hl); [|done|done].
    apply good_before_cons in Hg1 as (b & i2 & Ht & -> & Hg2).
    apply IHi in Hg2 as (i3 & Hg3 & Hi). apply IHr in Hg3 as (i4 & Hg4 & Hr).
    exists i4. split; [done|]. by eapply G_class.
  - intros k e ts e1 t ts1 it Hl Hk Hst i Hg.
    eapply lib_t2g_before in Hl as (i1 & Hg1 & Hl); [|done|done].
    apply good_before_cons in Hg1 as (b & i2 & Ht & -> & Hg2). exists i2. split; [done|].
    eapply G_simple; [done..|]. by eapply simple_t2g.
  - intros k e ts e1 ts1 id o e2 ts2 Hl Hk Hd IH i Hg.
    eapply lib_t2g_before in Hl as (i1 & Hg1 & Hl); [|by eapply class_some|done]. apply IH in Hg1 as (i2 & Hg2 & Hc).
    exists i2. split; [done|]. by eapply G_inline.
  - intros k e ts e1 ts1 it e2 ts2 Hk Hl Hd IH i Hg.
    eapply lib_t2g_before in Hl as (i1 & Hg1 & Hl); [|by eapply member_some|done]. apply IH in Hg1 as (i2 & Hg2 & Hc).
    exists i2. split; [done|]. by eapply G_nested.
  - intros e ts i Hg. exists i. split; [done|constructor].
  - intros k ks e ts it e1 ts1 its e2 ts2 _ IH1 _ IH2 i Hg.
    apply IH1 in Hg as (i1 & Hg & H1). apply IH2 in Hg as (i2 & Hg & H2).
    exists i2. split; [done|]. by eapply G_items_cons.
  - intros e ts i Hg. exists i. split; [done|constructor].
  - intros v its e ts vs e' ts' _ IH i Hg. apply IH in Hg as (i1 & Hg & H1).
    exists i1. split; [done|]. by constructor.
  - intros n its e ts vs e' ts' _ IH i Hg. apply IH in Hg as (i1 & Hg & H1).
    exists i1. split; [done|]. by constructor.
  - intros id v its e ts vs e' ts' Hv _ IH i Hg. apply IH in Hg as (i1 & Hg & H1).
    exists i1. split; [done|]. by apply G_res_known.
  - intros id v its e ts e1 ts1 vs e' ts' Hv _ IH1 _ IH2 i Hg.
    apply IH1 in Hg as (i1 & Hg & H1). apply IH2 in Hg as (i2 & Hg & H2).
    exists i2. split; [done|]. by eapply G_res_next.
  - intros e ts id o e' ts' _ IH i Hg. apply IH in Hg as (i1 & Hg & H1).
    exists i1. split; [done|]. by constructor.
  - intros e ts id s i Hg. apply good_before_cons in Hg as (b & i' & Ht & -> & Hg).
    exists i'. split; [done|]. by constructor.
  - intros e ts id p vs i Hg. apply good_before_cons in Hg as (b & i' & Ht & -> & Hg).
    exists i'. split; [done|]. by eapply G_rec_prims.
  - intros e ts id len its e1 ts1 vs e2 ts2 _ IH1 Hf _ IH2 i Hg.
    apply good_before_cons in Hg as (b & i' & Ht & -> & Hg).
    apply IH1 in Hg as (i1 & Hg & H1). apply IH2 in Hg as (i2 & Hg & H2).
    exists i2. split; [done|]. by eapply G_rec_objects.
  - intros e ts id len its e1 ts1 vs e2 ts2 _ IH1 Hf _ IH2 i Hg.
    apply good_before_cons in Hg as (b & i' & Ht & -> & Hg).
    apply IH1 in Hg as (i1 & Hg & H1). apply IH2 in Hg as (i2 & Hg & H2).
    exists i2. split; [done|]. by eapply G_rec_strings.
  - intros e ts id bat lengths bounds k its e1 ts1 vs e2 ts2 out Ho _ IH1 _ IH2 Hs i Hg.
    apply good_before_cons in Hg as (b & i' & Ht & -> & Hg).
    apply IH1 in Hg as (i1 & Hg & H1). apply IH2 in Hg as (i2 & Hg & H2).
    exists i2. split; [done|]. by eapply G_rec_array.
Qed.

Lemma blocks_t2g e Xs e' : t_blocks e Xs e' -> forall i, good_before (concat Xs) i -> g_objects e i e' R.
Proof.
  induction 1 as [e|e X id v e1 Xs e2 Hr _ IH]; intros i Hg; cbn [concat] in *.
  - destruct Hg as [(b & Hb & ->) _]. inversion Hb; subst. constructor.
  - pose proof (proj2 (proj2 (proj2 (proj2 (mut_local (fun _ => True) (fun _ => True))))) _ _ _ _ _ _ Hr) as (X' & E & _ & _ & HJ).
    rewrite app_nil_r in E. subst X'. destruct (HJ e (concat Xs) I ltac:(done) ltac:(done)) as (e1' & H1 & [E1 E2] & _).
    assert (e1' = e1) as -> by (apply env_eq; auto).
    eapply (proj2 (proj2 (proj2 (proj2 mut_t2g_before)))) in H1 as (i1 & Hg1 & H1); [|done].
    econstructor; [exact H1|]. by apply IH.
Qed.
End before.
End with_decimal.
