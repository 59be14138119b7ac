(** * FormLemmas: the record in which an array is written does not matter for what a message means. *)
From Verif Require Import Base Value Wire Grammar Tokens TokenLemmas Untyped UntypedLemmas ArrayForms.
From Coq Require Import Lia.

Section with_decimal.
Context {DL : DecimalLib}.

(** ** What is left is an end of what there was *)
Definition ends (j i : list token) : Prop := exists b, i = b ++ j.
Lemma ends_refl i : ends i i. Proof. by exists []. Qed.
Lemma ends_trans i j k : ends k j -> ends j i -> ends k i.
Proof. intros [b ->] [c ->]. exists (c ++ b). by rewrite app_assoc. Qed.
Lemma ends_cons t j i : ends j i -> ends j (t :: i).
Proof. intros [b ->]. by exists (t :: b). Qed.
Lemma lib_ends e i e1 i1 : t_lib e i e1 i1 -> ends i1 i.
Proof. intros [id name ts H|ts H]; [|apply ends_refl]. by exists [Tk_library id name]. Qed.
Lemma lib_ends1 e i e1 t i1 : t_lib e i e1 (t :: i1) -> ends i1 i.
Proof. intros H%lib_ends. eapply ends_trans; [|exact H]. by exists [t]. Qed.
Lemma mut_ends :
  (forall e i id o e' i', t_class e i id o e' i' -> ends i' i)
  /\ (forall k e i it e' i', t_member k e i it e' i' -> ends i' i)
  /\ (forall ks e i its e' i', t_items ks e i its e' i' -> ends i' i)
  /\ (forall its e i vs e' i', t_resolve its e i vs e' i' -> ends i' i)
  /\ (forall e i id v e' i', t_record e i id v e' i' -> ends i' i).
Proof.
  apply t_mut_ind; intros;
    repeat match goal with H : t_lib _ _ _ (_ :: _) |- _ => apply lib_ends1 in H | H : t_lib _ _ _ _ |- _ => apply lib_ends in H end;
    eauto 6 using ends_trans, ends_refl, ends_cons.
Qed.
Lemma member_ends k e i it e' i' : t_member k e i it e' i' -> ends i' i.
Proof. apply (proj1 (proj2 mut_ends)). Qed.
Lemma items_ends ks e i its e' i' : t_items ks e i its e' i' -> ends i' i.
Proof. apply (proj1 (proj2 (proj2 mut_ends))). Qed.
Lemma resolve_ends its e i vs e' i' : t_resolve its e i vs e' i' -> ends i' i.
Proof. apply (proj1 (proj2 (proj2 (proj2 mut_ends)))). Qed.
Lemma record_ends e i id v e' i' : t_record e i id v e' i' -> ends i' i.
Proof. apply (proj2 (proj2 (proj2 (proj2 mut_ends)))). Qed.
Lemma spaced_ends i j : ends j i -> spaced i -> spaced j.
Proof. intros [b ->] H before t u after ->. apply (H (b ++ before) t u after). by rewrite app_assoc. Qed.
Lemma singles_ends i j : ends j i -> single_nulls i -> single_nulls j.
Proof. intros [b ->] H n Hn. apply H, elem_of_app. by right. Qed.

(** ** Elements without and with kind Object *)
Lemma any_objects k n e i its e' i' : k = K_Object \/ k = K_ObjectArray ->
  t_items (replicate n K_Any) e i its e' i' -> t_items (replicate n k) e i its e' i'.
Proof.
  intros Hk. revert e i its. induction n as [|n IH]; intros e i its H; inversion H; subst; [constructor|].
  eapply T_items_cons; [|by apply IH]. destruct Hk as [->| ->]; [by apply any_object|].
  match goal with H : t_member K_Any _ _ _ _ _ |- _ => apply any_object in H; inversion H; subst; try done end.
  eapply T_nested; [by right|done|done].
Qed.
Lemma object_any k e i it e' i' : k = K_Object \/ k = K_ObjectArray -> spaced i ->
  t_member k e i it e' i' -> t_member K_Any e i it e' i'.
Proof.
  intros Hk Hsp H.
  inversion H as [k0 e0 i0 e1 t i1 it0 Hl Hkk Hs|k0 e0 i0 e1 i1 id o e2 i2 Hl Hc Hcl|k0 e0 i0 e1 i1 it0 e2 i2 _ Hl Hm]; subst.
  - destruct Hk as [->| ->]; by destruct t.
  - by destruct Hk as [->| ->].
  - inversion Hl as [idl name ts Hn|ts Hn]; subst; [|exact Hm].
    assert (forall e' j, t_lib (add_lib idl name e) i1 e' j -> e' = add_lib idl name e /\ j = i1) as Hno.
    { intros e2 j Hl2. inversion Hl2; subst; [|done]. exfalso. eapply (Hsp []); [reflexivity|done|done]. }
    inversion Hm as [k0 e0 i0 e1' t i1' it0 Hl2 Hk0 Hs|k0 e0 i0 e1' i1' id o e2' i2' Hl2 Hk0 Hc|k0 e0 i0 e1' i1' it0 e2' i2' [?|?] Hl2 Hm2]; subst; [..|done|done].
    + apply Hno in Hl2 as [-> <-]. eapply T_simple; [by apply T_lib_some|done|done].
    + apply Hno in Hl2 as [-> ->]. eapply T_inline; [by apply T_lib_some|done|done].
Qed.
Lemma object_anys k n e i its e' i' : k = K_Object \/ k = K_ObjectArray -> spaced i ->
  t_items (replicate n k) e i its e' i' -> t_items (replicate n K_Any) e i its e' i'.
Proof.
  intros Hk. revert e i its. induction n as [|n IH]; intros e i its Hsp H; inversion H as [|? ? ? ? ? ? ? ? ? ? Hm Hi]; subst; [constructor|].
  eapply T_items_cons; [by eapply object_any|]. apply IH; [|done]. eapply spaced_ends; [|exact Hsp]. by eapply member_ends.
Qed.

(** ** Sizes *)
Lemma member_size k e i it e' i' : t_member k e i it e' i' -> single_nulls i -> item_size it = 1%N.
Proof.
  induction 1 as [k e i e1 t i1 it Hl Hk Hs|k e i e1 i1 id o e2 i2 Hl Hk Hc|k e i e1 i1 it e2 i2 Hk Hl Hm IH]; intros Hn.
  - assert (forall n, t = Tk_nulls n -> n = 1%N) as H1.
    { intros n ->. apply Hn. apply lib_ends in Hl as [b ->]. apply elem_of_app. right. by left. }
    destruct k, t; cbn in Hs; try done; repeat match goal with H : _ /\ _ |- _ => destruct H end; subst it; try done; cbn; by apply H1.
  - done.
  - apply IH. eapply singles_ends; [|exact Hn]. by eapply lib_ends.
Qed.
Lemma items_sizes ks e i its e' i' : t_items ks e i its e' i' -> single_nulls i ->
  length its = length ks /\ items_size its = N.of_nat (length its).
Proof.
  induction 1 as [|k ks e i it e1 i1 its e2 i2 Hm _ IH]; intros Hn; [done|].
  destruct IH as [IH1 IH2]; [eapply singles_ends; [by eapply member_ends|done]|].
  cbn [length items_size]. rewrite IH1, IH2, (member_size _ _ _ _ _ _ Hm Hn). lia.
Qed.
Lemma fills_single ks e i its e' i' len : t_items ks e i its e' i' -> single_nulls i ->
  fills len its <-> N.of_nat (length ks) = len.
Proof.
  intros Hi Hn. destruct (items_sizes _ _ _ _ _ _ Hi Hn) as [Hl Hs]. rewrite <- Hl. split.
  - intros [[-> ->]|(init & last & -> & H1 & H2)]; [done|].
    assert (items_size init = N.of_nat (length init)) as E.
    { clear -Hi Hn. revert ks e i Hi Hn. induction init as [|it init IH]; intros ks e i Hi Hn; [done|].
      inversion Hi as [|? ? ? ? ? ? ? ? ? ? Hm Hi']; subst. cbn [items_size length].
      rewrite (member_size _ _ _ _ _ _ Hm Hn), (IH _ _ _ Hi'); [lia|]. eapply singles_ends; [by eapply member_ends|done]. }
    rewrite app_length in *. cbn [length] in *. lia.
  - intros <-. destruct its as [|it its _] using rev_ind; [by left|]. right. exists its, it. split; [done|].
    split; [|lia]. rewrite app_length. cbn [length].
    assert (items_size (its ++ [it]) = (items_size its + item_size it)%N) as E.
    { clear. induction its as [|a its IH]; cbn [app items_size]; [cbn; lia|]. rewrite IH. lia. }
    assert (1 <= item_size it)%N; [|rewrite E in Hs; rewrite app_length in Hs; cbn [length] in Hs; lia].
    enough (item_size it = 1%N) as -> by done.
    clear -Hi Hn. revert ks e i Hi Hn. induction its as [|a its IH]; intros ks e i Hi Hn; inversion Hi as [|? ? ? ? ? ? ? ? ? ? Hm Hi']; subst.
    + by eapply member_size.
    + eapply IH; [exact Hi'|]. eapply singles_ends; [by eapply member_ends|done].
Qed.
Lemma shaped_one vs out : shaped [] vs out <-> out = vs.
Proof.
  split.
  - intros [[-> ->]|(_ & leaves & H & <-)]; [done|]. induction H as [|v l out leaves Hv _ IH]; [done|].
    inversion Hv; subst. cbn. by f_equal.
  - intros ->. destruct vs as [|v vs]; [by left|]. right. split; [done|]. exists (map (fun v => [v]) (v :: vs)). split.
    + generalize (v :: vs). intros l. induction l; constructor; [constructor|done].
    + generalize (v :: vs). intros l. induction l; cbn; congruence.
Qed.
Lemma no_overflow_one len : (len < 2 ^ 31)%N -> no_overflow [len].
Proof. intros H [|[|k]] Hk; cbn in *; lia. Qed.

(** ** Primitive values *)
Lemma prims_items p vs e j : Forall (fun v => prim_type_of v = Some p) vs ->
  t_items (replicate (length vs) (K_Primitive p)) e (map Tk_value vs ++ j) (map It_Value vs) e j.
Proof.
  induction 1 as [|v vs Hv _ IH]; [constructor|]. cbn. eapply T_items_cons; [|exact IH].
  eapply T_simple; [by apply T_lib_none|done|done].
Qed.
Lemma prims_items_inv p vs e j its e' j' :
  t_items (replicate (length vs) (K_Primitive p)) e (map Tk_value vs ++ j) its e' j' ->
  its = map It_Value vs /\ e' = e /\ j' = j.
Proof.
  revert its. induction vs as [|v vs IH]; intros its H; cbn in H; inversion H as [|? ? ? ? it e1 i1 its0 ? ? Hm Hi]; subst; [done|].
  inversion Hm as [k0 e0 i0 e2 t i2 it0 Hl Hkk Hs|k0 e0 i0 e2 i2 id o e3 i3 Hl Hc Hcl|k0 e0 i0 e2 i2 it0 e3 i3 [?|?] Hl Hm2]; subst; try done.
  inversion Hl; subst. destruct Hs as [-> _]. destruct (IH _ Hi) as (-> & -> & ->). done.
Qed.
Lemma values_resolve vs e j : t_resolve (map It_Value vs) e j vs e j.
Proof. induction vs; by constructor. Qed.
Lemma values_resolve_inv vs e j ws e' j' : t_resolve (map It_Value vs) e j ws e' j' -> ws = vs /\ e' = e /\ j' = j.
Proof.
  revert ws. induction vs as [|v vs IH]; intros ws H; cbn in H; inversion H as [|? ? ? ? ws0 ? ? H'| | |]; subst; [done|].
  destruct (IH _ H') as (-> & -> & ->). done.
Qed.

(** ** Arrays *)
Definition is_array (t : token) : Prop :=
  match t with Tk_objects _ _ | Tk_strings _ _ | Tk_prims _ _ _ | Tk_array _ _ _ _ _ => True | _ => False end.
Lemma array_head a a' : same_array a a' ->
  exists t u b b', a = t :: b /\ a' = u :: b' /\ is_array t /\ is_array u.
Proof.
  intros [id len t t' _ H H'|id len t t' _ H H'|id p vs ts ts' _ _ H H'|id ls k t t' H H'].
  - exists t, t', [], []. split; [done|]. split; [done|]. split;
      [destruct H as [->|(?&?&?&->&_)]|destruct H' as [->|(?&?&?&->&_)]]; done.
  - exists t, t', [], []. split; [done|]. split; [done|]. split;
      [destruct H as [->|(?&?&->)]|destruct H' as [->|(?&?&->)]]; done.
  - destruct H as [->|(?&?&->)], H' as [->|(?&?&->)]; eexists _, _, _, _; done.
  - exists t, t', [], []. split; [done|]. split; [done|]. destruct H as (?&?&->), H' as (?&?&->). done.
Qed.
Lemma forms_inv b t i j : array_forms b (t :: i) j ->
  (exists j0, j = t :: j0 /\ array_forms (free_after b t) i j0)
  \/ (b = true /\ is_array t /\ exists a a' i0 j0, t :: i = a ++ i0 /\ j = a' ++ j0 /\ same_array a a' /\ array_forms true i0 j0).
Proof.
  intros H. inversion H as [|? ? ? j0 H1|a a' i0 j0 Ha H1 E1 E2]; subst.
  - left. by exists j0.
  - right. split; [done|]. destruct (array_head _ _ Ha) as (t' & u & c & c' & -> & -> & Ht & _).
    cbn in E2. injection E2 as <- <-. split; [done|]. exists (t' :: c), (u :: c'), i0, j0. done.
Qed.
Lemma forms_nil b j : array_forms b [] j -> j = [].
Proof.
  intros H. inversion H as [| |a a' i0 j0 Ha H1 E1 E2]; subst; [done|]. destruct (array_head _ _ Ha) as (? & ? & ? & ? & -> & _). done.
Qed.
Lemma forms_token b t i j : ~ is_array t -> array_forms b (t :: i) j ->
  exists j0, j = t :: j0 /\ array_forms (free_after b t) i j0.
Proof. intros Ht H. apply forms_inv in H as [H|(_ & H & _)]; [done|by destruct Ht]. Qed.
Lemma forms_false t i j : array_forms false (t :: i) j -> exists j0, j = t :: j0 /\ array_forms (free_after false t) i j0.
Proof. intros H. apply forms_inv in H as [H|(H & _)]; [done|by discriminate H]. Qed.
Lemma forms_head b i j : array_forms b i j ->
  match i with Tk_library _ _ :: _ => False | _ => True end ->
  match j with Tk_library _ _ :: _ => False | _ => True end.
Proof.
  intros [| |a a' i0 j0 Ha _]; try done. intros _. destruct (array_head _ _ Ha) as (t & u & ? & ? & -> & -> & _ & Hu). by destruct u.
Qed.
Lemma spaced_cons t u j : ~ is_library t -> spaced j -> u = t :: j -> spaced u.
Proof.
  intros Ht Hs -> [|x before] y z after E Hy; cbn in E; injection E as E1 E2; subst.
  - done.
  - by eapply Hs.
Qed.
Lemma spaced_tail t j : spaced (t :: j) -> spaced j.
Proof. intros H. eapply spaced_ends; [|exact H]. by exists [t]. Qed.
Lemma spaced_app a j : (forall t, t ∈ a -> ~ is_library t) -> spaced j -> spaced (a ++ j).
Proof.
  intros Ha Hj. induction a as [|t a IH]; [done|]. eapply spaced_cons; [by apply Ha; left| |reflexivity].
  apply IH. intros u Hu. apply Ha. by right.
Qed.
Lemma array_no_library a a' : same_array a a' -> forall t, t ∈ a' -> ~ is_library t.
Proof.
  intros [id len t t' _ H H'|id len t t' _ H H'|id p vs ts ts' _ _ H H'|id ls k t t' H H'] u Hu.
  - apply elem_of_list_singleton in Hu as ->. destruct H' as [->|(?&?&?&->&_)]; intros [].
  - apply elem_of_list_singleton in Hu as ->. destruct H' as [->|(?&?&->)]; intros [].
  - destruct H' as [->|(?&?&->)].
    + apply elem_of_list_singleton in Hu as ->. intros [].
    + apply elem_of_cons in Hu as [->|Hu]; [intros []|]. apply elem_of_list_fmap in Hu as (v & -> & _). intros [].
  - apply elem_of_list_singleton in Hu as ->. destruct H' as (?&?&->). intros [].
Qed.
Lemma spaced_forms b i j : array_forms b i j -> spaced i -> spaced j.
Proof.
  induction 1 as [b|b t i j H IH|a a' i j Ha H IH]; intros Hs; [done| |].
  - specialize (IH (spaced_tail _ _ Hs)). intros [|x before] y z after E Hy; cbn in E; injection E as E1 E2; subst.
    + destruct i as [|u i]; [by apply forms_nil in H|].
      assert (~ is_library u) as Hu by (by eapply (Hs [])).
      apply forms_inv in H as [(? & E & _)|(_ & _ & c & c' & ? & ? & _ & E & Hc & _)]; [by injection E as -> _|].
      destruct (array_head _ _ Hc) as (? & w & ? & ? & -> & -> & _ & Hw). cbn in E. injection E as -> _. intros Hl. by destruct w.
    + by eapply IH.
  - apply spaced_app; [by eapply array_no_library|]. apply IH. eapply spaced_ends; [|exact Hs]. by exists a.
Qed.
Lemma singles_forms b i j : array_forms b i j -> single_nulls i -> single_nulls j.
Proof.
  induction 1 as [b|b t i j H IH|a a' i j Ha H IH]; intros Hs n Hn; [by apply elem_of_nil in Hn| |].
  - apply elem_of_cons in Hn as [<-|Hn]; [apply Hs; by left|]. apply IH; [|done]. intros m Hm. apply Hs. by right.
  - apply elem_of_app in Hn as [Hn|Hn].
    + exfalso. destruct Ha as [id len t t' _ Ha H'|id len t t' _ Ha H'|id p vs ts ts' _ _ Ha H'|id ls k t t' Ha H'].
      * apply elem_of_list_singleton in Hn as <-. by destruct H' as [?|(?&?&?&?&_)].
      * apply elem_of_list_singleton in Hn as <-. by destruct H' as [?|(?&?&?)].
      * destruct H' as [->|(?&?&->)]; [by apply elem_of_list_singleton in Hn|].
        apply elem_of_cons in Hn as [?|Hn]; [done|]. by apply elem_of_list_fmap in Hn as (v & ? & _).
      * apply elem_of_list_singleton in Hn as <-. by destruct H' as (?&?&?).
    + apply IH; [|done]. intros m Hm. apply Hs, elem_of_app. by right.
Qed.

(** ** Meaning *)
Definition ok (i : list token) : Prop := spaced i /\ single_nulls i.
Lemma ok_ends i j : ends j i -> ok i -> ok j.
Proof. intros H [Hs Hn]. split; [by eapply spaced_ends|by eapply singles_ends]. Qed.
Lemma ok_tail t i : ok (t :: i) -> ok i.
Proof. apply ok_ends. by exists [t]. Qed.
Lemma ok_forms b i j : array_forms b i j -> ok i -> ok j.
Proof. intros H [Hs Hn]. split; [by eapply spaced_forms|by eapply singles_forms]. Qed.

Lemma lib_forms e i e1 i1 : t_lib e i e1 i1 -> forall b j, array_forms b i j ->
  exists b1 j1, t_lib e j e1 j1 /\ array_forms b1 i1 j1.
Proof.
  intros [id name ts H|ts H] b j Hj.
  - apply forms_token in Hj as (j0 & -> & Hj); [|by intros []]. eexists _, _. split; [by apply T_lib_some|exact Hj].
  - eexists _, _. split; [apply T_lib_none; by eapply forms_head|exact Hj].
Qed.

(** An array in any of its forms. *)
Lemma objects_array e i id len t vs e2 i2 its e1 i1 : (len < 2 ^ 31)%N -> object_array id len t -> ok i ->
  t_items (replicate (N.to_nat len) K_Any) e i its e1 i1 -> t_resolve its e1 i1 vs e2 i2 ->
  t_record e (t :: i) id (VArray vs) e2 i2.
Proof.
  intros Hlen Ht [_ Hn] Hi Hr. destruct (items_sizes _ _ _ _ _ _ Hi Hn) as [Hl _]. rewrite replicate_length in Hl.
  destruct Ht as [->|(bat & bounds & k & -> & Hk)].
  - eapply T_rec_objects; [rewrite Hl; exact Hi| |exact Hr]. apply (fills_single _ _ _ _ _ _ len Hi Hn). rewrite replicate_length. lia.
  - eapply T_rec_array; [by apply no_overflow_one| |exact Hr|by apply shaped_one].
    cbn [product fold_right]. rewrite N.mul_1_r. by apply any_objects.
Qed.
Lemma strings_array e i id len t vs e2 i2 its e1 i1 : (len < 2 ^ 31)%N -> string_array id len t -> ok i ->
  t_items (replicate (N.to_nat len) K_StringArray) e i its e1 i1 -> t_resolve its e1 i1 vs e2 i2 ->
  t_record e (t :: i) id (VArray vs) e2 i2.
Proof.
  intros Hlen Ht [_ Hn] Hi Hr. destruct (items_sizes _ _ _ _ _ _ Hi Hn) as [Hl _]. rewrite replicate_length in Hl.
  destruct Ht as [->|(bat & bounds & ->)].
  - eapply T_rec_strings; [rewrite Hl; exact Hi| |exact Hr]. apply (fills_single _ _ _ _ _ _ len Hi Hn). rewrite replicate_length. lia.
  - eapply T_rec_array; [by apply no_overflow_one| |exact Hr|by apply shaped_one].
    cbn [product fold_right]. by rewrite N.mul_1_r.
Qed.
Lemma prims_array e id p vs ts i : (N.of_nat (length vs) < 2 ^ 31)%N -> Forall (fun v => prim_type_of v = Some p) vs ->
  primitive_array id p vs ts -> t_record e (ts ++ i) id (VArray vs) e i.
Proof.
  intros Hlen Hp [->|(bat & bounds & ->)]; [apply T_rec_prims|]. cbn [app].
  eapply T_rec_array; [by apply no_overflow_one| |apply values_resolve|by apply shaped_one].
  cbn [product fold_right]. rewrite N.mul_1_r, Nat2N.id. by apply prims_items.
Qed.

Definition keeps (e : env) (i : list token) (e' : env) (i' : list token) (P : list token -> list token -> Prop) : Prop :=
  forall b j, array_forms b i j -> ok i -> exists b' j', P j j' /\ array_forms b' i' j'.

Lemma mut_forms :
  (forall e i id o e' i', t_class e i id o e' i' -> keeps e i e' i' (fun j j' => t_class e j id o e' j'))
  /\ (forall k e i it e' i', t_member k e i it e' i' -> keeps e i e' i' (fun j j' => t_member k e j it e' j'))
  /\ (forall ks e i its e' i', t_items ks e i its e' i' -> keeps e i e' i' (fun j j' => t_items ks e j its e' j'))
  /\ (forall its e i vs e' i', t_resolve its e i vs e' i' -> keeps e i e' i' (fun j j' => t_resolve its e j vs e' j'))
  /\ (forall e i id v e' i', t_record e i id v e' i' -> keeps e i e' i' (fun j j' => t_record e j id v e' j')).
Proof.
  apply t_mut_ind.
  - intros e i e1 i1 h lib its e2 i2 vs e3 i3 Hl Hlib Hi IHi Hr IHr b j Hj Hok.
    pose proof (ok_ends _ _ (lib_ends1 _ _ _ _ _ Hl) Hok) as Hok1. pose proof (ok_ends _ _ (items_ends _ _ _ _ _ _ Hi) Hok1) as Hok2.
    destruct (lib_forms _ _ _ _ Hl _ _ Hj) as (b1 & j1 & Hl' & Hj1).
    apply forms_token in Hj1 as (j2 & -> & Hj2); [|by intros []].
    destruct (IHi _ _ Hj2 Hok1) as (b3 & j3 & Hi' & Hj3). destruct (IHr _ _ Hj3 Hok2) as (b4 & j4 & Hr' & Hj4).
    exists b4, j4. split; [by eapply T_class|done].
  - intros k e i e1 t i1 it Hl Hk Hs b j Hj Hok. destruct (lib_forms _ _ _ _ Hl _ _ Hj) as (b1 & j1 & Hl' & Hj1).
    apply forms_token in Hj1 as (j2 & -> & Hj2); [|intros Ht; destruct k, t; by cbn in Hs].
    eexists _, _. split; [by eapply T_simple|exact Hj2].
  - intros k e i e1 i1 id o e2 i2 Hl Hk _ IH b j Hj Hok. destruct (lib_forms _ _ _ _ Hl _ _ Hj) as (b1 & j1 & Hl' & Hj1).
    destruct (IH _ _ Hj1 (ok_ends _ _ (lib_ends _ _ _ _ Hl) Hok)) as (b2 & j2 & Hc & Hj2).
    exists b2, j2. split; [by eapply T_inline|done].
  - intros k e i e1 i1 it e2 i2 Hk Hl _ IH b j Hj Hok. destruct (lib_forms _ _ _ _ Hl _ _ Hj) as (b1 & j1 & Hl' & Hj1).
    destruct (IH _ _ Hj1 (ok_ends _ _ (lib_ends _ _ _ _ Hl) Hok)) as (b2 & j2 & Hc & Hj2).
    exists b2, j2. split; [by eapply T_nested|done].
  - intros e i b j Hj _. exists b, j. split; [constructor|done].
  - intros k ks e i it e1 i1 its e2 i2 Hm IH1 _ IH2 b j Hj Hok.
    destruct (IH1 _ _ Hj Hok) as (b1 & j1 & Hm' & Hj1).
    destruct (IH2 _ _ Hj1 (ok_ends _ _ (member_ends _ _ _ _ _ _ Hm) Hok)) as (b2 & j2 & Hi' & Hj2).
    exists b2, j2. split; [by eapply T_items_cons|done].
  - intros e i b j Hj _. exists b, j. split; [constructor|done].
  - intros v its e i vs e' i' _ IH b j Hj Hok. destruct (IH _ _ Hj Hok) as (b1 & j1 & H & Hj1). exists b1, j1. split; [by constructor|done].
  - intros n its e i vs e' i' _ IH b j Hj Hok. destruct (IH _ _ Hj Hok) as (b1 & j1 & H & Hj1). exists b1, j1. split; [by constructor|done].
  - intros id v its e i vs e' i' Hv _ IH b j Hj Hok. destruct (IH _ _ Hj Hok) as (b1 & j1 & H & Hj1). exists b1, j1. split; [by apply T_res_known|done].
  - intros id v its e i e1 i1 vs e' i' Hv Hr IH1 _ IH2 b j Hj Hok. destruct (IH1 _ _ Hj Hok) as (b1 & j1 & H1 & Hj1).
    destruct (IH2 _ _ Hj1 (ok_ends _ _ (record_ends _ _ _ _ _ _ Hr) Hok)) as (b2 & j2 & H2 & Hj2).
    exists b2, j2. split; [by eapply T_res_next|done].
  - intros e i id o e' i' _ IH b j Hj Hok. destruct (IH _ _ Hj Hok) as (b1 & j1 & H & Hj1). exists b1, j1. split; [by constructor|done].
  - intros e i id s b j Hj Hok. apply forms_token in Hj as (j0 & -> & Hj); [|by intros []].
    eexists _, _. split; [constructor|exact Hj].
  - (* ArraySinglePrimitive *)
    intros e i id p vs b j Hj Hok. apply forms_inv in Hj as [(j0 & -> & Hj)|(-> & _ & a & a' & i0 & j0 & E & -> & Ha & Hj)].
    { eexists _, _. split; [constructor|exact Hj]. }
    destruct Ha as [id' len t t' Hlen H H'|id' len t t' Hlen H H'|id' p' ws ts ts' Hlen Hp H H'|id' ls k t t' H H'].
    + destruct H as [->|(?&?&?&->&_)]; by cbn in E.
    + destruct H as [->|(?&?&->)]; by cbn in E.
    + destruct H as [->|(?&?&->)]; cbn in E; [|done]. injection E as <- <- <- <-.
      exists true, j0. split; [by eapply prims_array|done].
    + destruct H as (?&?&->); by cbn in E.
  - (* ArraySingleObject *)
    intros e i id len its e1 i1 vs e2 i2 Hi IHi Hf Hr IHr b j Hj Hok. pose proof (ok_tail _ _ Hok) as Hok1.
    pose proof (ok_ends _ _ (items_ends _ _ _ _ _ _ Hi) Hok1) as Hok2.
    apply forms_inv in Hj as [(j0 & -> & Hj)|(-> & _ & a & a' & i0 & j0 & E & -> & Ha & Hj)].
    { destruct (IHi _ _ Hj Hok1) as (b1 & j1 & Hi' & Hj1). destruct (IHr _ _ Hj1 Hok2) as (b2 & j2 & Hr' & Hj2).
      exists b2, j2. split; [by eapply T_rec_objects|done]. }
    destruct Ha as [id' len' t t' Hlen H H'|id' len' t t' Hlen H H'|id' p' ws ts ts' Hlen Hp H H'|id' ls k t t' H H'].
    + destruct H as [->|(?&?&?&->&_)]; cbn in E; [|done]. injection E as <- <- <-.
      destruct (IHi _ _ Hj Hok1) as (b1 & j1 & Hi' & Hj1). destruct (IHr _ _ Hj1 Hok2) as (b2 & j2 & Hr' & Hj2).
      exists b2, j2. split; [|done]. cbn [app]. apply (fills_single _ _ _ _ _ _ len Hi (proj2 Hok1)) in Hf.
      rewrite replicate_length in Hf. eapply objects_array; [done|done|by eapply ok_forms| |exact Hr'].
      assert (N.to_nat len = length its) as -> by lia. exact Hi'.
    + destruct H as [->|(?&?&->)]; by cbn in E.
    + destruct H as [->|(?&?&->)]; by cbn in E.
    + destruct H as (?&?&->); by cbn in E.
  - (* ArraySingleString *)
    intros e i id len its e1 i1 vs e2 i2 Hi IHi Hf Hr IHr b j Hj Hok. pose proof (ok_tail _ _ Hok) as Hok1.
    pose proof (ok_ends _ _ (items_ends _ _ _ _ _ _ Hi) Hok1) as Hok2.
    apply forms_inv in Hj as [(j0 & -> & Hj)|(-> & _ & a & a' & i0 & j0 & E & -> & Ha & Hj)].
    { destruct (IHi _ _ Hj Hok1) as (b1 & j1 & Hi' & Hj1). destruct (IHr _ _ Hj1 Hok2) as (b2 & j2 & Hr' & Hj2).
      exists b2, j2. split; [by eapply T_rec_strings|done]. }
    destruct Ha as [id' len' t t' Hlen H H'|id' len' t t' Hlen H H'|id' p' ws ts ts' Hlen Hp H H'|id' ls k t t' H H'].
    + destruct H as [->|(?&?&?&->&_)]; by cbn in E.
    + destruct H as [->|(?&?&->)]; cbn in E; [|done]. injection E as <- <- <-.
      destruct (IHi _ _ Hj Hok1) as (b1 & j1 & Hi' & Hj1). destruct (IHr _ _ Hj1 Hok2) as (b2 & j2 & Hr' & Hj2).
      exists b2, j2. split; [|done]. cbn [app]. apply (fills_single _ _ _ _ _ _ len Hi (proj2 Hok1)) in Hf.
      rewrite replicate_length in Hf. eapply strings_array; [done|done|by eapply ok_forms| |exact Hr'].
      assert (N.to_nat len = length its) as -> by lia. exact Hi'.
    + destruct H as [->|(?&?&->)]; by cbn in E.
    + destruct H as (?&?&->); by cbn in E.
  - (* BinaryArray *)
    intros e i id bat lengths bounds k its e1 i1 vs e2 i2 out Ho Hi IHi Hr IHr Hs b j Hj Hok. pose proof (ok_tail _ _ Hok) as Hok1.
    pose proof (ok_ends _ _ (items_ends _ _ _ _ _ _ Hi) Hok1) as Hok2.
    apply forms_inv in Hj as [(j0 & -> & Hj)|(-> & _ & a & a' & i0 & j0 & E & -> & Ha & Hj)].
    { destruct (IHi _ _ Hj Hok1) as (b1 & j1 & Hi' & Hj1). destruct (IHr _ _ Hj1 Hok2) as (b2 & j2 & Hr' & Hj2).
      exists b2, j2. split; [by eapply T_rec_array|done]. }
    destruct Ha as [id' len' t t' Hlen H H'|id' len' t t' Hlen H H'|id' p' ws ts ts' Hlen Hp H H'|id' ls k' t t' H H'].
    + destruct H as [->|(?&?&k'&->&Hk)]; cbn in E; [done|]. injection E as <- <- -> <- <- <-.
      destruct (IHi _ _ Hj Hok1) as (b1 & j1 & Hi' & Hj1). destruct (IHr _ _ Hj1 Hok2) as (b2 & j2 & Hr' & Hj2).
      cbn [tail] in Hs. apply shaped_one in Hs as ->. cbn [product fold_right] in Hi'. rewrite N.mul_1_r in Hi'.
      exists b2, j2. split; [|done]. cbn [app]. pose proof (ok_forms _ _ _ Hj Hok1) as Hokj.
      eapply objects_array; [done|done|done| |exact Hr']. eapply object_anys; [exact Hk|apply Hokj|exact Hi'].
    + destruct H as [->|(?&?&->)]; cbn in E; [done|]. injection E as <- <- -> <- -> <-.
      destruct (IHi _ _ Hj Hok1) as (b1 & j1 & Hi' & Hj1). destruct (IHr _ _ Hj1 Hok2) as (b2 & j2 & Hr' & Hj2).
      cbn [tail] in Hs. apply shaped_one in Hs as ->. cbn [product fold_right] in Hi'. rewrite N.mul_1_r in Hi'.
      exists b2, j2. split; [|done]. cbn [app]. eapply strings_array; [done|done|by eapply ok_forms|exact Hi'|exact Hr'].
    + destruct H as [->|(?&?&->)]; cbn in E; [done|]. injection E as <- <- -> <- -> ->.
      cbn [tail] in Hs. apply shaped_one in Hs as ->. cbn [product fold_right] in Hi. rewrite N.mul_1_r, Nat2N.id in Hi.
      apply prims_items_inv in Hi as (-> & -> & ->). apply values_resolve_inv in Hr as (-> & -> & ->).
      exists true, j0. split; [by eapply prims_array|done].
    + destruct H as (?&?&->), H' as (bat'&bounds'&->). cbn in E. injection E as <- <- <- <- <- <-.
      destruct (IHi _ _ Hj Hok1) as (b1 & j1 & Hi' & Hj1). destruct (IHr _ _ Hj1 Hok2) as (b2 & j2 & Hr' & Hj2).
      exists b2, j2. split; [by eapply T_rec_array|done].
Qed.
Lemma objects_forms e i e' i1 : t_objects e i e' i1 -> forall b j, array_forms b i j -> ok i ->
  exists b1 j1, t_objects e j e' j1 /\ array_forms b1 i1 j1 /\ ok i1.
Proof.
  induction 1 as [|e ts id v e1 ts1 e2 ts2 H1 _ IH]; intros b j Hj Hok; [exists b, j; split; [constructor|done]|].
  destruct (proj2 (proj2 (proj2 (proj2 mut_forms))) _ _ _ _ _ _ H1 _ _ Hj Hok) as (b1 & j1 & H2 & Hj1).
  destruct (IH _ _ Hj1 (ok_ends _ _ (record_ends _ _ _ _ _ _ H1) Hok)) as (b2 & j2 & H3 & Hj2 & Hok2).
  exists b2, j2. split; [by econstructor|done].
Qed.
Lemma call_array_forms root e i ca e' i1 : t_call_array root e i ca e' i1 -> forall j, array_forms false i j -> ok i ->
  exists b1 j1, t_call_array root e j ca e' j1 /\ array_forms b1 i1 j1 /\ ok i1.
Proof.
  destruct mut_forms as (_ & _ & Pi & Pr & _).
  intros [Hn|e1 id l ts1 its e2 ts2 vs e3 ts3 Hl -> Hi Hf H1] j Hj Hok.
  - exists false, j. split; [|done]. constructor. destruct i as [|t i]; [by apply forms_nil in Hj as ->|].
    by apply forms_false in Hj as (j0 & -> & _).
  - pose proof (ok_ends _ _ (lib_ends1 _ _ _ _ _ Hl) Hok) as Hok1. pose proof (ok_ends _ _ (items_ends _ _ _ _ _ _ Hi) Hok1) as Hok2.
    assert (exists b0 j0, t_lib e j e1 (Tk_objects id l :: j0) /\ array_forms b0 ts1 j0) as (b0 & j0 & Hl' & Hj0).
    { inversion Hl as [lid name ts Hlid|ts Hnl]; subst.
      - apply forms_false in Hj as (j1 & -> & Hj). apply forms_false in Hj as (j2 & -> & Hj).
        eexists _, _. split; [by apply T_lib_some|exact Hj].
      - apply forms_false in Hj as (j1 & -> & Hj). eexists _, _. split; [by apply T_lib_none|exact Hj]. }
    destruct (Pi _ _ _ _ _ _ Hi _ _ Hj0 Hok1) as (b1 & j1 & Hi' & Hj1).
    destruct (Pr _ _ _ _ _ _ H1 _ _ Hj1 Hok2) as (b2 & j2 & Hr' & Hj2).
    exists b2, j2. split; [by eapply T_ca_some|]. split; [done|]. eapply ok_ends; [|exact Hok2]. by eapply resolve_ends.
Qed.
Lemma message_forms root i m j : t_message root i m -> array_forms true i j -> ok i -> t_message root j m.
Proof.
  intros [ts e v Ho H1|ts e1 ts1 m' e2 ts2 e3 Ho Hm Ho'] Hj Hok.
  - destruct (objects_forms _ _ _ _ Ho _ _ Hj Hok) as (b1 & j1 & Ho1 & Hj1 & _).
    apply forms_nil in Hj1 as ->. by econstructor.
  - destruct (objects_forms _ _ _ _ Ho _ _ Hj Hok) as (b1 & j1 & Ho1 & Hj1 & Hok1).
    destruct Hm as [flags name type ctx inl ts1 ca args e' i' Hc Ha|flags ret ctx inl ts1 ca args e' i' Hc Ha].
    all: apply forms_token in Hj1 as (j2 & -> & Hj2); [|by intros []].
    all: destruct (call_array_forms _ _ _ _ _ _ Hc _ Hj2 (ok_tail _ _ Hok1)) as (b3 & j3 & Hc' & Hj3 & Hok2).
    all: destruct (objects_forms _ _ _ _ Ho' _ _ Hj3 Hok2) as (b4 & j4 & Ho2 & Hj4 & _).
    all: apply forms_nil in Hj4 as ->.
    all: eapply T_msg_method; [exact Ho1| |exact Ho2]; by econstructor.
Qed.
End with_decimal.
