(** * PropsC: properties C20 - C24 (object ids, references, root).

    For [after] and [inside] see Positions.v and PropsB.v. *)
From Verif Require Import Base Utf8 Value DataTypes Records Parser Wire BaseLemmas DataTypesLemmas
  RecordsLemmas MethodLemmas SafetyLemmas Safety Grammar Heads Complete Sound Fuel Message Run Spec
  LemmasA LemmasB LemmasC Positions Reach LemmasD Trees TreeLemmas PropsB.
From Coq Require Import Lia.

Section with_decimal.
Context {DL : DecimalLib}.

Ltac ex_in := apply (bool_decide_unpack _); vm_compute; exact I.

(** String records, one after the other. *)
Definition string_records (l : list (N * str)) (bs : bytes) : Prop :=
  e_list (fun p => e_string_record p.1 p.2) l bs.
(** The last string with the id [id]. *)
Fixpoint last_string (id : N) (l : list (N * str)) : option str :=
  match l with
  | [] => None
  | (id', s) :: l =>
      match last_string id l with
      | Some s' => Some s'
      | None => if N.eqb id' id then Some s else None
      end
  end.

Lemma string_records_after l : forall W root e bs i,
  after W root e (bs ++ i) -> string_records l bs ->
  exists e', after W root e' i /\ e_libs e' = e_libs e /\ forall id,
    e_objs e' !! id = match last_string id l with Some s => Some (VString s) | None => e_objs e !! id end.
Proof.
  induction l as [|[id s] l IH]; intros W root e bs i Ha Hl; inv Hl.
  - exists e. done.
  - rewrite <- app_assoc in Ha. pose proof (after_step _ _ _ _ id (VString s) e (bs0 ++ i) Ha) as Ha2.
    destruct (IH _ _ _ _ _ (Ha2 ltac:(by apply G_rec_string)) H3) as (e' & Ha' & Hlib & Hobj).
    exists e'. split; [done|]. split; [done|]. intros id'. rewrite Hobj. cbn [last_string].
    destruct (last_string id' l); [done|]. cbn [add_obj e_objs].
    destruct (N.eqb_spec id id') as [->|Hne]; [by rewrite lookup_insert|by rewrite lookup_insert_ne].
Qed.

(** ** C20 Duplicate object ids are rejected *)

(** Refuted: a second record with the same id replaces the first one, whatever the records. *)
Theorem C20_later_definition_wins : forall W root e i v old e',
  after W root e i -> (0 < root)%N -> e_objs e !! root = Some old ->
  g_record e i root v e' [x0b] -> deserialize W = POk (MValue v).
Proof. intros W root e i v old e' Ha Hr _ Hg. by eapply after_root. Qed.
Theorem C20_duplicate_ids_refuted : ~ forall W root e id s sb old,
  after W root e (sb ++ [x0b]) -> e_string_record id s sb -> e_objs e !! id = Some old ->
  exists err, deserialize W = PErr err.
Proof.
  intros H. destruct (H (header_bytes 5 (-1) ++ ex_record ++ ex_record ++ [x0b]) 5%N ex_env 5%N (bs_of [104; 105]%N)
    ex_record ex_string) as [err E].
  - by apply ex_after.
  - exists (enc_uint 4 5), (bs_of [2; 104; 105]%N). split; [done|]. split; [|done].
    apply (ex_str [104; 105]%N); [|simpl; lia]. repeat constructor.
  - done.
  - vm_compute in E. discriminate E.
Qed.

(** ** C21 References resolve to the object with that id *)

(** An object array of members [its1], a reference to [id], and members [its2]; none of [its1]
    and [its2] is a reference.  The array is the root. *)
Definition no_refs (its : list item) : Prop := Forall (fun it => forall id, it <> It_Ref id) its.
Definition item_values (it : item) : list value :=
  match it with It_Value v => [v] | It_Nulls n => replicate (N.to_nat n) VNull | It_Ref _ => [] end.

Lemma resolve_no_refs its e i : no_refs its -> g_resolve its e i (concat (map item_values its)) e i.
Proof.
  induction its as [|it its IH]; intros H; [constructor|]. inv H. cbn [map concat].
  destruct it as [v|n|id]; cbn [item_values]; [|constructor; by apply IH|by destruct (H2 id)].
  by constructor; apply IH.
Qed.
Lemma resolve_app its1 its2 e i vs1 e1 i1 vs2 e2 i2 :
  g_resolve its1 e i vs1 e1 i1 -> g_resolve its2 e1 i1 vs2 e2 i2 ->
  g_resolve (its1 ++ its2) e i (vs1 ++ vs2) e2 i2.
Proof.
  revert e i vs1. induction its1 as [|it its1 IH]; intros e i vs1 H1 H2; inv H1; cbn [app].
  - done.
  - constructor. by apply IH.
  - rewrite <- app_assoc. constructor. by apply IH.
  - eapply G_res_known; [done|]. by apply IH.
  - eapply G_res_next; [done|done|]. by apply IH.
Qed.

(** The target came earlier. *)
Theorem C21_earlier_record : forall W root e hb mb its1 id its2 len v,
  after W root e (hb ++ mb ++ [x0b]) -> e_array_header x10 root len hb ->
  e_list (simple_item K_Any) (its1 ++ It_Ref id :: its2) mb ->
  fills len (its1 ++ It_Ref id :: its2) -> no_refs its1 -> no_refs its2 ->
  e_objs e !! id = Some v ->
  deserialize W
  = POk (MValue (VArray (concat (map item_values its1) ++ v :: concat (map item_values its2)))).
Proof.
  intros W root e hb mb its1 id its2 len v Ha Hh Hm Hf H1 H2 Hv.
  assert (valid_id root) as Hr by (by destruct Hh as (? & ? & [? _] & _)).
  eapply after_root; [exact Ha|by apply valid_id_pos|].
  eapply G_rec_objects; [exact Hh|by apply simple_items|done|].
  eapply resolve_app; [by apply resolve_no_refs|]. eapply G_res_known; [done|]. by apply resolve_no_refs.
Qed.
(** The target comes next. *)
Theorem C21_next_record : forall W root e hb mb its1 id its2 len v i e',
  after W root e (hb ++ mb ++ i) -> e_array_header x10 root len hb ->
  e_list (simple_item K_Any) (its1 ++ It_Ref id :: its2) mb ->
  fills len (its1 ++ It_Ref id :: its2) -> no_refs its1 -> no_refs its2 ->
  e_objs e !! id = None -> g_record e i id v e' [x0b] ->
  deserialize W
  = POk (MValue (VArray (concat (map item_values its1) ++ v :: concat (map item_values its2)))).
Proof.
  intros W root e hb mb its1 id its2 len v i e' Ha Hh Hm Hf H1 H2 Hv Hg.
  assert (valid_id root) as Hr by (by destruct Hh as (? & ? & [? _] & _)).
  eapply after_root; [exact Ha|by apply valid_id_pos|].
  eapply G_rec_objects; [exact Hh|by apply simple_items|done|].
  eapply resolve_app; [by apply resolve_no_refs|]. eapply G_res_next; [done|exact Hg|]. by apply resolve_no_refs.
Qed.

(** No record with an object id begins here: the first byte is no code of such a record, nor the
    code of a library. *)
Definition no_record (rest : bytes) : Prop :=
  match rest with
  | x01 :: _ | x02 :: _ | x03 :: _ | x04 :: _ | x05 :: _ | x06 :: _ | x07 :: _ | x0c :: _
  | x0f :: _ | x10 :: _ | x11 :: _ => False
  | _ => True
  end.
Lemma no_record_head rest :
  no_record rest -> ~ head_in [x01; x02; x03; x04; x05; x06; x07; x0c; x0f; x10; x11] rest.
Proof.
  intros Hhd. destruct rest as [|c rest]; [by intros []|]. simpl. intros Hc.
  repeat (apply elem_of_cons in Hc as [->|Hc]; [done|]). by apply elem_of_nil in Hc.
Qed.
Lemma no_record_stops id e rest :
  no_record rest -> site_stops (Site_next id e rest) (st e) (S_Err (mkError rest E_Other)).
Proof.
  intros Hh%no_record_head. apply ev_S, ev_S, ev_const. intros f. unfold verify_referenceable.
  destruct (referenceable_err_head f (st e) rest) as [err2 Herr]; [apply no_library_head; nohead|nohead|].
  pose proof (referenceable_err_other _ _ _ _ _ Herr) as ->. by rewrite Herr.
Qed.

(** Any position, any shape: where a referenced record is expected but no record begins, the
    message is rejected.  The error points to the outermost record, which started at [i].  (The
    position must be reached without a change of the tables, see C48.) *)
Theorem C21_missing_record : forall W root e i b id rest,
  after W root e i -> reach_record b e i (Site_next id e rest) ->
  no_record rest ->
  deserialize W = PErr (mkError i (E_ExpectedRecordType RT_MessageEnd)).
Proof.
  intros W root e i b id rest Ha Hr Hhd.
  eapply (reach_stuck _ _ _ _ _ _ (S_Err (mkError rest E_Other))); [exact Ha|exact Hr| |exact I].
  by apply no_record_stops.
Qed.

(** A following record with another id does not take its place: the message is rejected. *)
Theorem C21_other_record : forall W root e hb mb its1 id its2 len id2 s sb rest,
  after W root e (hb ++ mb ++ sb ++ rest) -> e_array_header x10 root len hb ->
  e_list (simple_item K_Any) (its1 ++ It_Ref id :: its2) mb ->
  fills len (its1 ++ It_Ref id :: its2) -> no_refs its1 -> no_refs its2 ->
  e_objs e !! id = None -> e_string_record id2 s sb -> id2 <> id ->
  deserialize W = PErr (mkError (hb ++ mb ++ sb ++ rest) (E_ExpectedRecordType RT_MessageEnd)).
Proof.
  intros W root e hb mb its1 id its2 len id2 s sb rest Ha Hh Hm Hf H1 H2 Hv Hs Hne.
  assert (forall e', e_objs e' !! id = None -> exists f0, forall f, f0 <= f ->
    parse_referenceable f (st e') (hb ++ mb ++ sb ++ rest)
    = (st (add_obj id2 (VString s) e'), Err (mkError (hb ++ mb ++ sb ++ rest) E_Other))) as Hp.
  { intros e' He'. destruct reach_stops as (_ & _ & _ & HR).
    assert (reach_record false e' (hb ++ mb ++ sb ++ rest) (Site_next id e' (sb ++ rest))) as Hreach.
    { eapply (RR_array_resolve x10 K_Any); [by left|exact Hh|by apply simple_items|exact Hf|by apply resolve_no_refs|done|].
      apply RN_here. }
    destruct (HR _ _ _ _ Hreach (st (add_obj id2 (VString s) e')) (S_Err (mkError (sb ++ rest) E_Other)))
      as (s' & y' & [F Hev] & Hy & Hq).
    { apply ev_S, ev_S, ev_const. intros f. unfold verify_referenceable.
      assert (exists b, sb = x06 :: b) as [b Eb] by (destruct Hs as (? & ? & _ & _ & ->); eauto).
      rewrite ref_string by (rewrite Eb; hd).
      rewrite (exact_ok binary_object_string _ (id2, s) sb rest binary_object_string_exact Hs).
      cbn [ref_finish str_val fst snd]. destruct (N.eqb_spec id2 id); [done|]. reflexivity. }
    destruct Hq as [-> Hq]; [by unfold quiet_at|].
    exists (S (S F)). intros f Hf'. destruct f as [|[|f]]; [lia|lia|].
    pose proof (Hev (S (S f)) ltac:(lia)) as E.
    destruct y' as [er|er|p]; [|done|by destruct (Hy p)]. 
    pose proof (referenceable_err_other _ _ _ _ _ E) as ->. by rewrite E. }
  destruct (Hp e Hv) as [f1 Hp1].
  destruct (Hp (add_obj id2 (VString s) e)) as [f2 Hp2].
  { cbn [add_obj e_objs]. by rewrite lookup_insert_ne. }
  destruct Ha as (hid & body & Hr & Hhid & -> & Ho).
  eapply run_stuck; [by apply header_bytes_header|exact Ho|exact (Hp1 (f1 + f2) ltac:(lia))|exact (Hp2 (f1 + f2) ltac:(lia))|].
  destruct Hh as (? & ? & _ & _ & ->). hd.
Qed.

(** *** Examples *)

(** An object array, id 1, of two elements: a null and a reference to the id 5. *)
Definition ex_items : list item := [It_Nulls 1; It_Ref 5].
Definition ex_items_bytes : bytes := bs_of [10; 9; 5;0;0;0]%N.
Lemma ex_items_ok : e_list (simple_item K_Any) ex_items ex_items_bytes.
Proof.
  change ex_items_bytes with ([x0a] ++ (x09 :: enc_uint 4 5) ++ []).
  apply e_cons; [|apply e_cons; [|apply e_nil]].
  - right; right; right. exists 1%N. split; [done|]. by left.
  - right; left. exists 5%N. split; [done|]. eexists. split; [|reflexivity]. done.
Qed.
Lemma ex_header code id len : valid_id id -> valid_len len ->
  e_array_header code id len (code :: enc_uint 4 id ++ enc_uint 4 len).
Proof. intros Hi Hl. exists (enc_uint 4 id), (enc_uint 4 len). unfold e_id, e_len. done. Qed.
Lemma ex_fills : fills 2 ex_items.
Proof. right. exists [It_Nulls 1], (It_Ref 5). split; [done|]. vm_compute. split; congruence. Qed.

Example C21_ex_earlier :
  deserialize (header_bytes 1 (-1) ++ ex_record ++ (x10 :: enc_uint 4 1 ++ enc_uint 4 2) ++ ex_items_bytes ++ [x0b])
  = POk (MValue (VArray [VNull; ex_string])).
Proof.
  apply (C21_earlier_record _ 1 ex_env (x10 :: enc_uint 4 1 ++ enc_uint 4 2) ex_items_bytes [It_Nulls 1] 5 [] 2 ex_string).
  - apply ex_after. done.
  - by apply ex_header.
  - apply ex_items_ok.
  - apply ex_fills.
  - by constructor.
  - constructor.
  - done.
Qed.
Example C21_ex_next :
  deserialize (header_bytes 1 (-1) ++ (x10 :: enc_uint 4 1 ++ enc_uint 4 2) ++ ex_items_bytes ++ ex_record ++ [x0b])
  = POk (MValue (VArray [VNull; ex_string])).
Proof.
  eapply (C21_next_record _ 1 empty_env (x10 :: enc_uint 4 1 ++ enc_uint 4 2) ex_items_bytes [It_Nulls 1] 5 [] 2 ex_string).
  - apply after_start; [done|apply hid_ok].
  - by apply ex_header.
  - apply ex_items_ok.
  - apply ex_fills.
  - by constructor.
  - constructor.
  - done.
  - apply (G_rec_string _ _ 5 (bs_of [104; 105]%N)). exists (enc_uint 4 5), (bs_of [2; 104; 105]%N).
    split; [done|]. split; [|done]. apply (ex_str [104; 105]%N); [|simpl; lia]. repeat constructor.
Qed.
Example C21_ex_missing :
  deserialize (header_bytes 1 (-1) ++ (x10 :: enc_uint 4 1 ++ enc_uint 4 2) ++ ex_items_bytes ++ [x0b])
  = PErr (mkError ((x10 :: enc_uint 4 1 ++ enc_uint 4 2) ++ ex_items_bytes ++ [x0b]) (E_ExpectedRecordType RT_MessageEnd)).
Proof.
  eapply (C21_missing_record _ 1 empty_env _ false 5 [x0b]); [|  |done].
  - apply after_start; [done|apply hid_ok].
  - eapply (RR_array_resolve x10 K_Any _ _ 1 2 _ _ [It_Nulls 1] 5 []).
    + by left.
    + by apply ex_header.
    + apply (simple_items ex_items). apply ex_items_ok.
    + apply ex_fills.
    + apply resolve_no_refs. by constructor.
    + done.
    + apply RN_here.
Qed.
Example C21_ex_other :
  deserialize (header_bytes 1 (-1) ++ (x10 :: enc_uint 4 1 ++ enc_uint 4 2) ++ ex_items_bytes ++ bs_of [6; 6;0;0;0; 2;104;105]%N ++ [x0b])
  = PErr (mkError ((x10 :: enc_uint 4 1 ++ enc_uint 4 2) ++ ex_items_bytes ++ bs_of [6; 6;0;0;0; 2;104;105]%N ++ [x0b])
          (E_ExpectedRecordType RT_MessageEnd)).
Proof.
  eapply (C21_other_record _ 1 empty_env _ _ [It_Nulls 1] 5 [] 2 6 (bs_of [104; 105]%N)).
  - apply after_start; [done|apply hid_ok].
  - by apply ex_header.
  - apply ex_items_ok.
  - apply ex_fills.
  - by constructor.
  - constructor.
  - done.
  - exists (enc_uint 4 6), (bs_of [2; 104; 105]%N).
    split; [done|]. split; [|done]. apply (ex_str [104; 105]%N); [|simpl; lia]. repeat constructor.
  - done.
Qed.

(** ** C22 An object may be referenced more than once *)

(** The parse of an object array that stops at an unresolved reference. *)
Lemma objects_stop e aid hb mb rest its1 id its2 len vs e2 :
  e_array_header x10 aid len hb -> e_list (simple_item K_Any) (its1 ++ It_Ref id :: its2) mb ->
  fills len (its1 ++ It_Ref id :: its2) -> g_resolve its1 e rest vs e2 rest ->
  e_objs e2 !! id = None -> e_libs e2 = e_libs e -> no_record rest ->
  exists f0, forall f, f0 <= f ->
    parse_referenceable f (st e) (hb ++ mb ++ rest) = (st e2, Err (mkError (hb ++ mb ++ rest) E_Other)).
Proof.
  intros Hh Hm Hf Hr Hn Hlib Hrest. destruct reach_stops as (_ & _ & _ & HR).
  assert (reach_record false e (hb ++ mb ++ rest) (Site_next id e2 rest)) as Hreach.
  { eapply (RR_array_resolve x10 K_Any); [by left|exact Hh|by apply simple_items|exact Hf|exact Hr|done|].
    apply RN_here. }
  destruct (HR _ _ _ _ Hreach (st e2) (S_Err (mkError rest E_Other))) as (s' & y' & [F Hev] & Hy & Hq).
  { by apply no_record_stops. }
  destruct Hq as [-> Hq]; [unfold quiet_at; cbn; by rewrite Hlib|].
  exists (S (S F)). intros f Hf'. destruct f as [|[|f]]; [lia|lia|].
  pose proof (Hev (S (S f)) ltac:(lia)) as E.
  destruct y' as [er|er|p]; [|done|by destruct (Hy p)].
  pose proof (referenceable_err_other _ _ _ _ _ E) as ->. by rewrite E.
Qed.

(** Refuted: with two references to a known object among the elements of an array (any array,
    any other elements around them), the second one finds the object gone. *)
Theorem C22_second_reference_rejected : forall W root e aid len hb mb its1 id its2 its3 v rest,
  after W root e (hb ++ mb ++ rest) -> e_array_header x10 aid len hb ->
  e_list (simple_item K_Any) (its1 ++ It_Ref id :: its2 ++ It_Ref id :: its3) mb ->
  fills len (its1 ++ It_Ref id :: its2 ++ It_Ref id :: its3) -> no_refs its1 -> no_refs its2 ->
  e_objs e !! id = Some v -> no_record rest ->
  deserialize W = PErr (mkError (hb ++ mb ++ rest) (E_ExpectedRecordType RT_MessageEnd)).
Proof.
  intros W root e aid len hb mb its1 id its2 its3 v rest Ha Hh Hm Hf H1 H2 Hv Hrest.
  assert (forall e, g_resolve its1 e rest (concat (map item_values its1)) e rest) as Hr1
    by (intros; by apply resolve_no_refs).
  destruct (objects_stop (del_obj id e) aid hb mb rest its1 id _ len _ (del_obj id e) Hh Hm Hf (Hr1 _)) as [f2 Hp2].
  { cbn [del_obj e_objs]. by rewrite lookup_delete. } { done. } { done. }
  assert (its1 ++ It_Ref id :: its2 ++ It_Ref id :: its3 = (its1 ++ It_Ref id :: its2) ++ It_Ref id :: its3) as Eq
    by (by rewrite <- app_assoc).
  rewrite Eq in Hm, Hf.
  destruct (objects_stop e aid hb mb rest _ id _ len
    (concat (map item_values its1) ++ v :: concat (map item_values its2)) (del_obj id e) Hh Hm Hf) as [f1 Hp1].
  { eapply resolve_app; [apply Hr1|]. eapply G_res_known; [done|]. by apply resolve_no_refs. }
  { cbn [del_obj e_objs]. by rewrite lookup_delete. } { done. } { done. }
  destruct Ha as (hid & body & Hr & Hhid & -> & Ho).
  eapply run_stuck; [by apply header_bytes_header|exact Ho|exact (Hp1 (f1 + f2) ltac:(lia))|exact (Hp2 (f1 + f2) ltac:(lia))|].
  destruct Hh as (? & ? & _ & _ & ->). hd.
Qed.

(** The array of id 1 with two references to the string "hi" of id 5. *)
Definition ex_twice : bytes := bs_of [9; 5;0;0;0; 9; 5;0;0;0]%N.
Lemma ex_twice_ok : e_list (simple_item K_Any) [It_Ref 5; It_Ref 5] ex_twice.
Proof.
  change ex_twice with ((x09 :: enc_uint 4 5) ++ (x09 :: enc_uint 4 5) ++ []).
  apply e_cons; [|apply e_cons; [|apply e_nil]];
    (right; left; exists 5%N; split; [done|]; eexists; split; [|reflexivity]; done).
Qed.
Example C22_ex : exists err,
  deserialize (header_bytes 1 (-1) ++ ex_record ++ (x10 :: enc_uint 4 1 ++ enc_uint 4 2) ++ ex_twice ++ [x0b]) = PErr err.
Proof.
  eexists. eapply (C22_second_reference_rejected _ 1 ex_env 1 2 _ _ [] 5 [] [] ex_string [x0b]).
  - apply ex_after. done.
  - by apply ex_header.
  - apply ex_twice_ok.
  - right. exists [It_Ref 5], (It_Ref 5). split; [done|]. vm_compute. split; congruence.
  - constructor.
  - constructor.
  - done.
  - done.
Qed.
Theorem C22_shared_objects_refuted : ~ forall W root e hb mb id v,
  after W root e (hb ++ mb ++ [x0b]) -> e_array_header x10 root 2 hb ->
  e_list (simple_item K_Any) [It_Ref id; It_Ref id] mb -> e_objs e !! id = Some v ->
  deserialize W = POk (MValue (VArray [v; v])).
Proof.
  intros H. destruct C22_ex as [err Herr].
  erewrite (H _ 1%N ex_env _ _ 5%N ex_string) in Herr; [discriminate Herr| | | |].
  - apply ex_after. done.
  - by apply ex_header.
  - apply ex_twice_ok.
  - done.
Qed.

(** ** C23 Reference cycles are rejected, never looped on *)

(** (That no input makes the parser loop is C01.)  Object arrays of one element each: the first
    refers to the second and so on, the last one to [back]. *)
Fixpoint ref_chain (ids : list N) (back : N) : bytes :=
  match ids with
  | [] => []
  | id :: ids =>
      x10 :: enc_uint 4 id ++ enc_uint 4 1 ++ x09 :: enc_uint 4 (match ids with [] => back | n :: _ => n end)
        ++ ref_chain ids back
  end.

Lemma ref_chain_reach ids back rest : forall id e,
  Forall valid_id (id :: ids) -> valid_id back ->
  (forall x, x ∈ ids -> e_objs e !! x = None) -> e_objs e !! back = None ->
  reach_record false e (ref_chain (id :: ids) back ++ rest) (Site_next back e rest).
Proof.
  induction ids as [|id2 ids IH]; intros id e Hv Hb He Hback; inv Hv.
  - change (reach_record false e ((x10 :: enc_uint 4 id ++ enc_uint 4 1) ++ (x09 :: enc_uint 4 back) ++ rest)
             (Site_next back e rest)).
    eapply (RR_array_resolve x10 K_Any _ _ id 1 _ _ [] back []); [by left|by apply ex_header| | | |exact Hback|apply RN_here].
    + apply (simple_items [It_Ref back]). rewrite <- (app_nil_r (x09 :: _)). apply e_cons; [|apply e_nil].
      right; left. exists back. split; [done|]. eexists. split; [|reflexivity]. done.
    + right. exists [], (It_Ref back). split; [done|]. cbn. lia.
    + constructor.
  - change (ref_chain (id :: id2 :: ids) back) with
      (x10 :: enc_uint 4 id ++ enc_uint 4 1 ++ x09 :: enc_uint 4 id2 ++ ref_chain (id2 :: ids) back).
    assert ((x10 :: enc_uint 4 id ++ enc_uint 4 1 ++ x09 :: enc_uint 4 id2 ++ ref_chain (id2 :: ids) back) ++ rest
            = (x10 :: enc_uint 4 id ++ enc_uint 4 1) ++ (x09 :: enc_uint 4 id2) ++ ref_chain (id2 :: ids) back ++ rest) as ->.
    { cbn [app]. rewrite <- !app_assoc. cbn [app]. by rewrite <- !app_assoc. }
    eapply (RR_array_resolve x10 K_Any _ _ id 1 _ _ [] id2 []); [by left|by apply ex_header| | | | |].
    + apply (simple_items [It_Ref id2]). rewrite <- (app_nil_r (x09 :: _)). apply e_cons; [|apply e_nil].
      right; left. exists id2. split; [done|]. eexists. split; [|reflexivity]. by inv H2.
    + right. exists [], (It_Ref id2). split; [done|]. cbn. lia.
    + constructor.
    + apply He. left.
    + apply RN_record. apply IH; [done|done| |done]. intros x Hx. apply He. by right.
Qed.

(** A cycle of any length, after any records that define none of its ids. *)
Theorem C23_cycle_rejected : forall W root e id ids rest,
  after W root e (ref_chain (id :: ids) id ++ rest) -> Forall valid_id (id :: ids) ->
  (forall x, x ∈ id :: ids -> e_objs e !! x = None) -> no_record rest ->
  deserialize W = PErr (mkError (ref_chain (id :: ids) id ++ rest) (E_ExpectedRecordType RT_MessageEnd)).
Proof.
  intros W root e id ids rest Ha Hv He Hr. eapply C21_missing_record; [exact Ha| |exact Hr].
  apply ref_chain_reach; [done|by inv Hv| |].
  - intros x Hx. apply He. by right.
  - apply He. left.
Qed.
(** A class (any class record, any other members) with a member that refers to the object
    itself. *)
Theorem C23_self_reference_rejected : forall W root e h hb mb its1 its2 rest,
  after W root e (hb ++ mb ++ rest) -> e_class_header h hb -> ch_types h = None -> ch_library h = None ->
  e_list (simple_item K_Any) (its1 ++ It_Ref (ch_object_id h) :: its2) mb ->
  length (ch_member_names h) = length (its1 ++ It_Ref (ch_object_id h) :: its2) -> no_refs its1 ->
  e_objs e !! ch_object_id h = None -> no_record rest ->
  deserialize W = PErr (mkError (hb ++ mb ++ rest) (E_ExpectedRecordType RT_MessageEnd)).
Proof.
  intros W root e h hb mb its1 its2 rest Ha Hh Ht Hl Hm Hlen H1 He Hr.
  assert (exists c, hb = x02 :: c) as [c Ec].
  { destruct Hh as (? & ? & ? & ? & ? & _ & _ & _ & _ & _ & ->). rewrite Ht, Hl. eexists. reflexivity. }
  eapply C21_missing_record; [exact Ha| |exact Hr]. apply RR_class.
  - rewrite Ec. simpl. ex_in.
  - eapply RC_resolve; [apply G_lib_none; by rewrite Ec|exact Hh| | |by apply resolve_no_refs|exact He|apply RN_here].
    + unfold class_library. by rewrite Hl.
    + unfold member_kinds. rewrite Ht, Hlen. by apply simple_items.
Qed.

Example C23_ex_cycle : exists err,
  deserialize (header_bytes 1 (-1) ++ ex_record ++ ref_chain [1; 2; 3]%N 1 ++ [x0b]) = PErr err.
Proof.
  eexists. eapply (C23_cycle_rejected _ 1 ex_env 1 [2; 3]%N [x0b]).
  - apply ex_after. done.
  - repeat constructor.
  - intros x Hx. repeat (apply elem_of_cons in Hx as [->|Hx]; [done|]). by apply elem_of_nil in Hx.
  - done.
Qed.
Example C23_ex_self : exists err,
  deserialize (header_bytes 9 (-1) ++ ex_record ++ ex_inner_bytes ++ (x09 :: enc_uint 4 9) ++ [x0b]) = PErr err.
Proof.
  eexists. eapply (C23_self_reference_rejected _ 9 ex_env ex_inner ex_inner_bytes _ [] [] [x0b]);
    [by apply ex_after|apply ex_inner_header|done|done| |done|constructor|done|done].
  rewrite <- (app_nil_r (x09 :: _)). apply e_cons; [|apply e_nil].
  right; left. eexists. split; [reflexivity|]. eexists. split; [|reflexivity]. done.
Qed.

(** ** C24 The root object is the one named by the header *)

Theorem C24_root_zero : forall W e, after W 0 e [x0b] -> deserialize W = POk (MValue VNull).
Proof. intros W e Ha. by rewrite (after_end _ _ _ _ Ha). Qed.
(** The last record with the root id. *)
Theorem C24_root_record : forall W root e i v e',
  after W root e i -> (0 < root)%N -> g_record e i root v e' [x0b] ->
  deserialize W = POk (MValue v).
Proof. intros. by eapply after_root. Qed.
(** String records (with any ids, in any order, repeated or not). *)
Theorem C24_root_string : forall root hid l bs,
  (0 < root < 2 ^ 31)%N -> fits_int 4 hid -> string_records l bs ->
  deserialize (header_bytes root hid ++ bs ++ [x0b])
  = match last_string root l with
    | Some s => POk (MValue (VString s))
    | None => PErr (mkError [] E_MissingRootObject)
    end.
Proof.
  intros root hid l bs Hr Hh Hl.
  destruct (string_records_after l (header_bytes root hid ++ bs ++ [x0b]) root empty_env bs [x0b]
    ltac:(apply after_start; [lia|done]) Hl) as (e' & Ha & _ & Ho).
  rewrite (after_end _ _ _ _ Ha). destruct (N.eqb_spec root 0); [lia|]. rewrite Ho.
  by destruct (last_string root l).
Qed.
(** Other records do not matter: with string records around any earlier records, the value is
    that of the last string with the root id, or else the earlier object. *)
Theorem C24_root_kept : forall W root e bs l,
  after W root e (bs ++ [x0b]) -> (0 < root)%N -> string_records l bs ->
  deserialize W = match last_string root l with
                  | Some s => POk (MValue (VString s))
                  | None => match e_objs e !! root with
                            | Some v => POk (MValue v)
                            | None => PErr (mkError [] E_MissingRootObject)
                            end
                  end.
Proof.
  intros W root e bs l Ha Hr Hl. destruct (string_records_after l W root e bs [x0b] Ha Hl) as (e' & Ha' & _ & Ho).
  rewrite (after_end _ _ _ _ Ha'). destruct (N.eqb_spec root 0); [lia|]. rewrite Ho.
  by destruct (last_string root l).
Qed.
(** A root object that another record refers to is gone. *)
Theorem C24_referenced_root : forall W root e hb mb its1 its2 len v aid,
  after W root e (hb ++ mb ++ [x0b]) -> (0 < root)%N -> e_array_header x10 aid len hb -> aid <> root ->
  e_list (simple_item K_Any) (its1 ++ It_Ref root :: its2) mb ->
  fills len (its1 ++ It_Ref root :: its2) -> no_refs its1 -> no_refs its2 ->
  e_objs e !! root = Some v ->
  deserialize W = PErr (mkError [] E_MissingRootObject).
Proof.
  intros W root e hb mb its1 its2 len v aid Ha Hr0 Hh Hne Hm Hf H1 H2 Hv.
  rewrite (after_end _ root (add_obj aid (VArray (concat (map item_values its1) ++ v :: concat (map item_values its2)))
     (del_obj root e)) []).
  - destruct (N.eqb_spec root 0); [lia|]. cbn [add_obj del_obj e_objs].
    rewrite lookup_insert_ne by done. by rewrite lookup_delete.
  - eapply after_step; [exact Ha|].
    eapply G_rec_objects; [exact Hh|by apply simple_items|done|].
    eapply resolve_app; [by apply resolve_no_refs|]. eapply G_res_known; [done|]. by apply resolve_no_refs.
Qed.

Example C24_ex_strings :
  deserialize (header_bytes 5 (-1) ++ (ex_record ++ bs_of [6; 6;0;0;0; 1;65]%N ++ bs_of [6; 5;0;0;0; 1;66]%N ++ []) ++ [x0b])
  = POk (MValue (VString (bs_of [66]%N))).
Proof.
  erewrite (C24_root_string 5 (-1) [(5, bs_of [104; 105]); (6, bs_of [65]); (5, bs_of [66])]%N).
  - reflexivity.
  - done.
  - apply hid_ok.
  - apply e_cons; [|apply e_cons; [|apply e_cons; [|apply e_nil]]].
    + exists (enc_uint 4 5), (bs_of [2; 104; 105]%N). split; [done|]. split; [|done].
      apply (ex_str [104; 105]%N); [|simpl; lia]. repeat constructor.
    + exists (enc_uint 4 6), (bs_of [1; 65]%N). split; [done|]. split; [|done].
      apply (ex_str [65]%N); [|simpl; lia]. repeat constructor.
    + exists (enc_uint 4 5), (bs_of [1; 66]%N). split; [done|]. split; [|done].
      apply (ex_str [66]%N); [|simpl; lia]. repeat constructor.
Qed.
Example C24_ex_taken :
  deserialize (header_bytes 5 (-1) ++ ex_record ++ (x10 :: enc_uint 4 1 ++ enc_uint 4 2) ++ ex_items_bytes ++ [x0b])
  = PErr (mkError [] E_MissingRootObject).
Proof.
  apply (C24_referenced_root _ 5 ex_env (x10 :: enc_uint 4 1 ++ enc_uint 4 2) ex_items_bytes [It_Nulls 1] [] 2 ex_string 1).
  - apply ex_after. done.
  - done.
  - by apply ex_header.
  - done.
  - apply ex_items_ok.
  - apply ex_fills.
  - by constructor.
  - constructor.
  - done.
Qed.

End with_decimal.
