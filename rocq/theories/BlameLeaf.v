(** * BlameLeaf: the fixed parts of records fail exactly with the errors of [Blame.v]. *)
From Verif Require Import Base Utf8 Value DataTypes Records Parser Wire BaseLemmas DataTypesLemmas
  RecordsLemmas MethodLemmas SafetyLemmas Safety Grammar Heads Complete Sound Fuel Message Run Spec
  LemmasA LemmasB LemmasC Positions Stops StopsLeaf Quits Blame.
From Coq Require Import Lia.

(** ** Positions *)
Lemma past_iff {A} (E : A -> bytes -> Prop) (G G' : A -> bytes -> Prop) i :
  (forall a r, G a r <-> G' a r) -> past E G i <-> past E G' i.
Proof. intros H. unfold past. split; intros (a & b & r & ? & ? & HG); exists a, b, r; rewrite H in *; done. Qed.
Lemma among_iff {A} (E : A -> bytes -> Prop) n (G G' : bytes -> Prop) i :
  (forall r, G r <-> G' r) -> among E n G i <-> among E n G' i.
Proof. intros H. unfold among. split; intros (a & b & r & ? & ? & ? & HG); exists a, b, r; rewrite H in *; done. Qed.
Lemma behind_iff c (G G' : bytes -> Prop) i : (forall r, G r <-> G' r) -> behind c G i <-> behind c G' i.
Proof. intros H. unfold behind. split; intros (r & ? & HG); exists r; rewrite H in *; done. Qed.
Lemma past_false {A} (E : A -> bytes -> Prop) (G : A -> bytes -> Prop) i : (forall a r, ~ G a r) -> past E G i <-> False.
Proof. intros H. split; [|done]. intros (a & b & r & _ & _ & HG). by eapply H. Qed.
Lemma past_map {A B} (f : A -> B) (E : A -> bytes -> Prop) (G : B -> bytes -> Prop) i :
  past (fun b bs => exists a, E a bs /\ b = f a) G i <-> past E (fun a => G (f a)) i.
Proof.
  unfold past. split.
  - intros (b & bs & r & (a & Ha & ->) & -> & HG). by exists a, bs, r.
  - intros (a & bs & r & Ha & -> & HG). exists (f a), bs, r. eauto.
Qed.

(** ** Combinators *)
Section fail.
Context {Er : Type}.
Lemma fail_ok {I A} i (a : A) (e : Er) : (Ok i a : ires I Er A) = Fail e <-> False.
Proof. done. Qed.
Lemma fail_rmap {I A B} (f : A -> B) (r : ires I Er A) e : rmap f r = Fail e <-> r = Fail e.
Proof. unfold rmap. destruct r; cbn [bind]; naive_solver. Qed.
Lemma fail_alt {I A} (r r' : ires I Er A) e : alt r r' = Fail e <-> r = Fail e \/ (soft r /\ r' = Fail e).
Proof. unfold soft. destruct r; cbn [alt]; naive_solver. Qed.
Lemma fail_bind {A B} (p : bytes -> ires bytes Er A) E (k : bytes -> A -> ires bytes Er B) i e :
  exact p E -> bind (p i) k = Fail e <-> p i = Fail e \/ past E (fun a r => k r a = Fail e) i.
Proof.
  intros HE. split.
  - intros H. destruct (p i) as [r a|e1|e1|q|] eqn:Ep; cbn [bind] in H; try done; [|left; congruence].
    apply HE in Ep as (b & Hb & ->). right. by exists a, b, r.
  - intros [->|(a & b & r & Hb & -> & H)]; [done|]. by rewrite (exact_ok p E a b r HE Hb).
Qed.
Lemma fail_map_err {I Fr A} (f : Er -> Fr) (r : ires I Er A) e :
  map_err f r = Fail e <-> exists e0, r = Fail e0 /\ e = f e0.
Proof. destruct r; cbn [map_err]; naive_solver. Qed.
Lemma fail_into {I A} (r : ires I Er A) e : into_failure r = Fail e <-> r = Err e \/ r = Fail e.
Proof. destruct r; cbn [into_failure]; naive_solver. Qed.
End fail.

Lemma fail_record {A} rt (k : bytes -> res A) i e :
  (let? (i, _rt) := record_type_parse rt i in k i) = Fail e
  <-> behind (n2b (rt_code rt)) (fun r => k r = Fail e) i.
Proof.
  split.
  - intros H. destruct (decide (head_in [n2b (rt_code rt)] i)) as [Hh|Hh].
    + apply head_inv in Hh as [r ->]. rewrite rt_ok in H. by exists r.
    + exfalso. destruct (rt_err rt (fun i _ => k i) i Hh) as [e' He']. congruence.
  - intros (r & -> & H). by rewrite rt_ok.
Qed.
Lemma fail_count {A} (p : bytes -> res A) E n i e :
  exact p E -> nonempty_enc E -> count n p i = Fail e <-> among E n (fun r => p r = Fail e) i.
Proof.
  intros HE Hne. split.
  - unfold count. generalize (S (length i)) as fuel. intros fuel. revert n i.
    induction fuel as [|fuel IH]; intros n i H; cbn [count_loop] in H;
      (destruct (N.eqb_spec n 0); [done|]); [done|].
    apply (fail_bind p E) in H as [H|(a & b & r & Hb & -> & H)]; [| |done].
    + exists [], [], i. split; [constructor|]. split; [cbn [length]; lia|]. done.
    + assert (count_loop fuel (N.pred n) p r = Fail e) as Hc.
      { destruct (count_loop _ _ _ _); cbn [bind] in H; try done. }
      apply IH in Hc as (l & bs & r' & Hl & Hn & -> & Hs). exists (a :: l), (b ++ bs), r'.
      split; [by constructor|]. split; [cbn [length]; lia|]. split; [by rewrite app_assoc|done].
  - intros (l & bs & r & Hl & Hn & -> & He). unfold count.
    pose proof (e_list_length _ _ _ Hne Hl) as Hlen.
    assert (forall fuel n, length l < fuel -> (N.of_nat (length l) < n)%N -> count_loop fuel n p (bs ++ r) = Fail e) as Hc.
    { clear Hn Hlen n. induction Hl as [|a l b bs Ha Hl IH]; intros fuel n Hf Hn.
      - destruct fuel as [|fuel]; [cbn [length] in Hf; lia|]. cbn [count_loop app].
        destruct (N.eqb_spec n 0); [cbn [length] in Hn; lia|]. by rewrite He.
      - cbn [length] in *. destruct fuel as [|fuel]; [lia|]. cbn [count_loop].
        destruct (N.eqb_spec n 0); [lia|]. rewrite <- app_assoc.
        rewrite (exact_ok p E a b _ HE Ha). cbn [bind]. rewrite IH by lia. done. }
    apply Hc; [rewrite app_length; lia|done].
Qed.

(** ** Numbers and codes *)
Lemma le_uint_fail k i e : le_uint k i = Err e \/ le_uint k i = Fail e <-> length i < k /\ e = mkNomError i K_Eof.
Proof. unfold le_uint. destruct (Nat.ltb_spec (length i) k); naive_solver lia. Qed.
Lemma le_int_fail k i e : le_int k i = Err e \/ le_int k i = Fail e <-> length i < k /\ e = mkNomError i K_Eof.
Proof.
  rewrite <- le_uint_fail. unfold le_int, rmap. destruct (le_uint k i); cbn [bind]; naive_solver.
Qed.
Lemma fail_number {A} k n (r : nres A) i er :
  (forall e, r = Err e \/ r = Fail e <-> length i < n /\ e = mkNomError i K_Eof) ->
  prim_number k r = Fail er <-> too_short n k i er.
Proof.
  intros H. unfold prim_number. rewrite fail_map_err. split.
  - intros (e & He & ->). rewrite fail_into, H in He. destruct He as [Hl ->]. done.
  - intros [Hl ->]. exists (mkNomError i K_Eof). rewrite fail_into, H. done.
Qed.
Lemma int32_fail i er : int32_parse i = Fail er <-> too_short 4 PT_Int32 i er.
Proof. apply fail_number. intros e. apply le_int_fail. Qed.
Lemma positive_fail k i er : positive_id k i = Fail er <-> flaw_positive k i er.
Proof.
  unfold positive_id, flaw_positive. rewrite <- int32_fail.
  destruct (int32_parse i) as [r z|e|e|q|] eqn:E.
  - apply int32_exact in E as (b & [Hz ->] & ->). destruct (Z.ltb_spec 0 z) as [Hlt|Hlt].
    + split; [done|]. intros [?|(z' & r' & Hz' & Hle & Heq & _)]; [done|]. exfalso.
      assert (int32_parse (enc_int 4 z ++ r) = Ok r z) as E1 by (apply (exact_ok _ _ z _ r int32_exact); done).
      rewrite Heq, (exact_ok _ _ z' (enc_int 4 z') r' int32_exact) in E1 by done. injection E1 as _ ->. lia.
    + split.
      * intros [= <-]. right. exists z, r. done.
      * intros [?|(z' & r' & _ & _ & _ & ->)]; done.
  - exfalso. assert (~ soft (int32_parse i)) as Hn by apply soft_prim_number. apply Hn. by exists e.
  - split; [intros [= <-]; by left|]. intros [[= <-]|(z' & r' & Hz' & _ & -> & _)]; [done|].
    by rewrite (exact_ok _ _ z' (enc_int 4 z') r' int32_exact) in E by done.
  - unfold int32_parse, prim_number, le_int, le_uint in E. by destruct (Nat.ltb _ _).
  - unfold int32_parse, prim_number, le_int, le_uint in E. by destruct (Nat.ltb _ _).
Qed.
Lemma length_fail i er : length_parse i = Fail er <-> flaw_length i er.
Proof.
  unfold length_parse, flaw_length. rewrite <- int32_fail.
  destruct (int32_parse i) as [r z|e|e|q|] eqn:E.
  - apply int32_exact in E as (b & [Hz ->] & ->). destruct (Z.leb_spec 0 z) as [Hlt|Hlt].
    + split; [done|]. intros [?|(z' & r' & Hz' & Hle & Heq & _)]; [done|]. exfalso.
      assert (int32_parse (enc_int 4 z ++ r) = Ok r z) as E1 by (apply (exact_ok _ _ z _ r int32_exact); done).
      rewrite Heq, (exact_ok _ _ z' (enc_int 4 z') r' int32_exact) in E1 by done. injection E1 as _ ->. lia.
    + split.
      * intros [= <-]. right. exists z, r. done.
      * intros [?|(z' & r' & _ & _ & _ & ->)]; done.
  - exfalso. assert (~ soft (int32_parse i)) as Hn by apply soft_prim_number. apply Hn. by exists e.
  - split; [intros [= <-]; by left|]. intros [[= <-]|(z' & r' & Hz' & _ & -> & _)]; [done|].
    by rewrite (exact_ok _ _ z' (enc_int 4 z') r' int32_exact) in E by done.
  - unfold int32_parse, prim_number, le_int, le_uint in E. by destruct (Nat.ltb _ _).
  - unfold int32_parse, prim_number, le_int, le_uint in E. by destruct (Nat.ltb _ _).
Qed.

(** Codes: the alternatives are tags, the last one reports the position. *)
Lemma tag1_cases n i : (exists r, tag1 n i = Ok r (n2b n)) \/ tag1 n i = Err (mkNomError i K_Tag).
Proof.
  unfold tag1. destruct i as [|b i]; [by right|]. destruct (N.eqb_spec (b2n b) n) as [<-|]; [|by right].
  left. exists i. by rewrite n2b_b2n.
Qed.
(** Either a value or an error at the input. *)
Definition at_input {A} (i : bytes) (r : nres A) : Prop :=
  match r with Ok _ _ => True | Err e => ne_input e = i | _ => False end.
Lemma at_input_tag {A} n i (f : byte -> A) : at_input i (rmap f (tag1 n i)).
Proof. destruct (tag1_cases n i) as [[r ->]| ->]; done. Qed.
Lemma at_input_alt {A} i (r r' : nres A) : at_input i r -> at_input i r' -> at_input i (alt r r').
Proof. by destruct r. Qed.
Lemma code_fail {A} k i (r : nres A) (p : bytes -> res A) E er :
  at_input i r -> p i = map_err (at_err k) (into_failure r) -> exact p E ->
  p i = Fail er <-> ~ starts E i /\ report k i er.
Proof.
  intros Ha Hp HE. split.
  - intros H. split.
    + intros (a & b & r' & Hb & ->). by rewrite (exact_ok p E a b r' HE Hb) in H.
    + rewrite Hp in H. destruct r; try done. cbn in *. subst i. injection H as <-. done.
  - intros [Hn ->]. rewrite Hp. destruct r as [r' a|e|e|q|]; try done; [|cbn in *; by subst i].
    exfalso. apply Hn. cbn in Hp. apply HE in Hp as (b & Hb & ->). by exists a, b, r'.
Qed.
Lemma prim_code_fail i er : primitive_type_parse i = Fail er <-> flaw_prim_code i er.
Proof.
  eapply (code_fail E_ExpectedPrimitiveType i _ primitive_type_parse e_prim_code); [|reflexivity|apply primitive_type_exact].
  repeat (apply at_input_alt; [apply at_input_tag|]). apply at_input_tag.
Qed.
Lemma starts_kind_code i : starts e_kind_code i <-> starts (fun (t : binary_type) bs => bs = [n2b (bt_code t)]) i.
Proof.
  split.
  - intros (k & b & r & Hk & ->). apply e_kind_code_iff in Hk as [_ ->]. by eexists _, _, r.
  - intros (t & b & r & -> & ->). exists (some_kind t), [n2b (bt_code t)], r. split; [|done].
    apply e_kind_code_iff. rewrite some_kind_bt. split; [apply some_kind_any|done].
Qed.
Lemma kind_code_fail i er : binary_type_parse i = Fail er <-> flaw_kind_code i er.
Proof.
  unfold flaw_kind_code. rewrite starts_kind_code.
  eapply (code_fail E_ExpectedBinaryType i _ binary_type_parse); [|reflexivity|apply binary_type_exact].
  repeat (apply at_input_alt; [apply at_input_tag|]). apply at_input_tag.
Qed.
Lemma array_code_fail i er : binary_array_type_parse i = Fail er <-> flaw_array_code i er.
Proof.
  eapply (code_fail E_ExpectedBinaryArrayType i _ binary_array_type_parse e_array_code); [|reflexivity|apply binary_array_type_exact].
  repeat (apply at_input_alt; [apply at_input_tag|]). apply at_input_tag.
Qed.
Lemma lps_fail i er : lps_parse i = Fail er <-> False.
Proof.
  split; [|done]. intros H. destruct (lps_not_ok i) as [e He]; [|congruence]. intros r s Hs. congruence.
Qed.

Section with_decimal.
Context {DL : DecimalLib}.

(** ** Primitives *)
Lemma le_uint1 c i : le_uint 1 (c :: i) = Ok i (b2n c).
Proof. apply le_uint_exact. exists [c]. split; [|done]. split; [apply b2n_lt|]. cbn. by rewrite n2b_b2n. Qed.
Lemma boolean_fail i er : boolean_parse i = Fail er <-> ~ begins [x00; x01] i /\ report (E_ExpectedPrimitive PT_Boolean) i er.
Proof.
  unfold boolean_parse, prim_number, map_res. destruct i as [|c i].
  - cbn. split; [intros [= <-]; split; [intros []|done]|]. intros [_ ->]. done.
  - cbn [begins]. rewrite le_uint1. cbn [bind].
    destruct (N.eqb_spec (b2n c) 0) as [Hc|Hc].
    { cbn [into_failure map_err]. split; [done|]. intros [Hn _]. destruct Hn. rewrite <- (n2b_b2n c), Hc. apply (bool_decide_unpack _). vm_compute. exact I. }
    destruct (N.eqb_spec (b2n c) 1) as [Hc1|Hc1].
    { cbn [into_failure map_err]. split; [done|]. intros [Hn _]. destruct Hn. rewrite <- (n2b_b2n c), Hc1. apply (bool_decide_unpack _). vm_compute. exact I. }
    cbn [into_failure map_err]. split.
    + intros [= <-]. split; [|done]. intros Hin. assert (c = x00 \/ c = x01) as [-> | ->] by set_solver; [by apply Hc|by apply Hc1].
    + intros [_ ->]. done.
Qed.
Lemma prim_fail p i er : member_primitive_untyped i p = Fail er <-> flaw_prim p i er.
Proof.
  destruct p; cbn [member_primitive_untyped flaw_prim prim_size]; rewrite ?fail_rmap.
  - apply boolean_fail.
  - apply fail_number. intros e. apply le_uint_fail.
  - rewrite char_parse_eq. apply fail_number. intros e. apply le_uint_fail.
  - unfold decimal_parse. rewrite (fail_bind _ _ _ _ _ lps_exact), lps_fail. split.
    + intros [[]|(s & b & r & Hb & -> & H)]. destruct (dec_from_str s) eqn:Hd; [done|]. injection H as <-.
      split; [by exists s, b, r|done].
    + intros [(s & b & r & Hb & -> & Hd) ->]. right. exists s, b, r. by rewrite Hd.
  - apply fail_number. intros e. apply le_uint_fail.
  - apply fail_number. intros e. apply le_int_fail.
  - apply fail_number. intros e. apply le_int_fail.
  - apply fail_number. intros e. apply le_int_fail.
  - apply fail_number. intros e. apply le_int_fail.
  - apply fail_number. intros e. apply le_uint_fail.
  - apply fail_number. intros e. apply le_int_fail.
  - unfold datetime_parse. rewrite fail_map_err. unfold int64_parse. split.
    + intros (e & He & ->). apply fail_into in He as [He|He].
      * exfalso. apply (soft_prim_number PT_Int64 (le_int 8 i)). by exists e.
      * apply (fail_number PT_Int64 8 _ i) in He as [Hl ->]; [|intros e'; apply le_int_fail]. done.
    + intros [Hl ->]. exists (mkError i (E_ExpectedPrimitive PT_Int64)). split; [|done]. rewrite fail_into. right.
      apply (fail_number PT_Int64 8 _ i); [intros e'; apply le_int_fail|]. done.
  - apply fail_number. intros e. apply le_uint_fail.
  - apply fail_number. intros e. apply le_uint_fail.
  - apply fail_number. intros e. apply le_uint_fail.
  - unfold report. split; [intros [= <-]; done|intros ->; done].
  - unfold report. split; [intros [= <-]; done|intros ->; done].
Qed.

(** ** Simple members *)
Lemma typed_fail i er : member_primitive_typed i = Fail er <-> flaw_typed i er.
Proof.
  unfold member_primitive_typed, flaw_typed. rewrite (fail_record RT_MemberPrimitiveTyped). apply behind_iff. intros r.
  rewrite (fail_bind _ _ _ _ _ primitive_type_exact), prim_code_fail. apply or_iff_compat_l.
  apply (past_iff e_prim_code). intros p r'. apply prim_fail.
Qed.
Lemma ref_fail i er : parse_ref_member i = Fail er <-> flaw_ref i er.
Proof.
  unfold parse_ref_member, flaw_ref. rewrite fail_rmap. unfold member_reference. rewrite (fail_record RT_MemberReference).
  apply behind_iff. intros r. apply positive_fail.
Qed.
Lemma string_record_fail i er : binary_object_string i = Fail er <-> flaw_string_record i er.
Proof.
  unfold binary_object_string, flaw_string_record. rewrite (fail_record RT_BinaryObjectString).
  apply behind_iff. intros r. rewrite (fail_bind _ _ _ _ _ object_id_exact).
  assert (object_id r = Fail er <-> flaw_object_id r er) as -> by apply positive_fail.
  rewrite past_false; [tauto|]. intros a r'. rewrite (fail_bind _ _ _ _ _ lps_exact), lps_fail.
  intros [[]|(s & b & r2 & _ & _ & H)]. done.
Qed.
Lemma string_member_fail i er : parse_string_member i = Fail er <-> flaw_string_record i er.
Proof. unfold parse_string_member. rewrite fail_rmap. apply string_record_fail. Qed.
Lemma null_fail i er : parse_null_object i = Fail er <-> flaw_null i er.
Proof.
  unfold parse_null_object, flaw_null. rewrite !fail_alt, !soft_rmap, !fail_rmap.
  assert (object_null i = Fail er <-> False) as ->.
  { unfold object_null. rewrite (fail_record RT_ObjectNull). split; [|done]. by intros (r & _ & H). }
  assert (object_null_multiple i = Fail er <-> behind x0e (fun i => flaw_positive E_InvalidNullCount i er) i) as ->.
  { unfold object_null_multiple. rewrite (fail_record RT_ObjectNullMultiple). apply behind_iff. intros r.
    apply positive_fail. }
  assert (object_null_multiple_256 i = Fail er <->
    behind x0d (fun i => too_short 1 PT_Byte i er \/ begins [x00] i /\ report E_InvalidNullCount i er) i) as ->.
  { unfold object_null_multiple_256. rewrite (fail_record RT_ObjectNullMultiple256). apply behind_iff. intros r.
    assert (byte_parse r = Fail er <-> too_short 1 PT_Byte r er) as Hb by (apply fail_number; intros e; apply le_uint_fail).
    destruct r as [|c r].
    - cbn. split; [intros [= <-]; left; split; [cbn; lia|done]|]. intros [[_ ->]|[[] _]]. done.
    - unfold byte_parse, prim_number. rewrite le_uint1. cbn [into_failure map_err begins].
      destruct (N.ltb_spec 0 (b2n c)) as [Hc|Hc].
      + split; [done|]. intros [[Hl _]|[Hin _]]; [cbn [length] in Hl; lia|].
        apply elem_of_list_singleton in Hin as ->. vm_compute in Hc. done.
      + split.
        * intros [= <-]. right. split; [|done]. assert (b2n c = 0%N) as Hc0 by lia.
          rewrite <- (n2b_b2n c), Hc0. apply (bool_decide_unpack _). vm_compute. exact I.
        * intros [[Hl _]|[_ ->]]; [cbn [length] in Hl; lia|]. done. }
  unfold object_null, object_null_multiple. rewrite (soft_record RT_ObjectNull), (soft_record RT_ObjectNullMultiple).
  split.
  - intros [[]|[_ [H|[_ H]]]]; [by left|by right].
  - intros [(r & -> & H)|(r & -> & H)]; right; (split; [left; hd|]).
    + left. exists r. done.
    + right. split; [left; hd|]. exists r. done.
Qed.
Lemma item_fail k i er : leaf k i = Fail er <-> flaw_item k i er.
Proof.
  destruct k as [|p| | |n|n lid| | |p]; cbn [leaf flaw_item].
  - rewrite !fail_alt, fail_rmap, soft_rmap, typed_fail, ref_fail, string_member_fail, null_fail. split.
    + tauto.
    + rewrite soft_typed, soft_ref, soft_string_member.
      intros [H|[(r & -> & H)|[(r & -> & H)|H]]]; [by left|right..].
      * split; [left; hd|]. left. by exists r.
      * split; [left; hd|]. right. split; [hd|]. left. by exists r.
      * destruct H as [(r & -> & H)|(r & -> & H)].
        -- split; [left; hd|]. right. split; [hd|]. right. split; [left; hd|]. left. by exists r.
        -- split; [left; hd|]. right. split; [hd|]. right. split; [left; hd|]. right. by exists r.
  - rewrite fail_rmap. apply prim_fail.
  - apply string_member_fail.
  - done.
  - apply null_fail.
  - apply null_fail.
  - done.
  - rewrite !fail_alt, ref_fail, string_member_fail, null_fail. split.
    + tauto.
    + rewrite soft_ref, soft_string_member.
      intros [H|[(r & -> & H)|H]]; [by left|right..].
      * split; [left; hd|]. left. by exists r.
      * destruct H as [(r & -> & H)|(r & -> & H)].
        -- split; [left; hd|]. right. split; [hd|]. left. by exists r.
        -- split; [left; hd|]. right. split; [hd|]. right. by exists r.
  - apply ref_fail.
Qed.

(** ** Array headers *)
Lemma object_id_fail i er : object_id i = Fail er <-> flaw_object_id i er.
Proof. apply positive_fail. Qed.
Lemma library_id_fail i er : library_id i = Fail er <-> flaw_library_id i er.
Proof. apply positive_fail. Qed.
Lemma array_info_fail i er :
  array_info_parse i = Fail er <-> flaw_object_id i er \/ past e_id (fun _ i => flaw_length i er) i.
Proof.
  unfold array_info_parse. rewrite (fail_bind _ _ _ _ _ object_id_exact), object_id_fail. apply or_iff_compat_l.
  apply past_iff. intros a r. rewrite (fail_bind _ _ _ _ _ length_exact), length_fail.
  rewrite past_false; [tauto|done].
Qed.
Lemma array_object_fail i er : array_single_object i = Fail er <-> flaw_array_header x10 i er.
Proof.
  unfold array_single_object, flaw_array_header. rewrite (fail_record RT_ArraySingleObject).
  apply behind_iff. intros r. apply array_info_fail.
Qed.
Lemma array_string_fail i er : array_single_string i = Fail er <-> flaw_array_header x11 i er.
Proof.
  unfold array_single_string, flaw_array_header. rewrite (fail_record RT_ArraySingleString).
  apply behind_iff. intros r. apply array_info_fail.
Qed.
Lemma prim_array_fail i er : prim_array_parse i = Fail er <-> flaw_prim_array i er.
Proof.
  unfold prim_array_parse, flaw_prim_array.
  assert (array_single_primitive i = Fail er <->
    flaw_array_header x0f i er \/ past (fun il => e_array_header x0f il.1 il.2) (fun _ i => flaw_prim_code i er) i) as Ha.
  { unfold array_single_primitive, flaw_array_header. rewrite (fail_record RT_ArraySinglePrimitive). cbn [rt_code]. change (n2b 15) with x0f.
    split.
    - intros (r & -> & H). apply (fail_bind _ _ _ _ _ array_info_exact) in H as [H|(a & b & r' & Hb & -> & H)].
      + left. exists r. rewrite array_info_fail in H. done.
      + apply (fail_bind _ _ _ _ _ primitive_type_exact) in H as [H|(p & b' & r2 & _ & _ & H)]; [|done].
        rewrite prim_code_fail in H. right. exists (ai_object_id a, ai_length a), (x0f :: b), r'.
        destruct Hb as (b1 & b2 & H1 & H2 & ->). split; [by exists b1, b2|done].
    - intros [(r & -> & H)|(il & b & r & (b1 & b2 & H1 & H2 & ->) & -> & H)].
      + exists r. split; [done|]. rewrite (fail_bind _ _ _ _ _ array_info_exact), array_info_fail. by left.
      + exists ((b1 ++ b2) ++ r). split; [done|]. rewrite (fail_bind _ _ _ _ _ array_info_exact). right.
        exists (mkArrayInfo il.1 il.2), (b1 ++ b2), r. split; [by exists b1, b2|]. split; [done|].
        rewrite (fail_bind _ _ _ _ _ primitive_type_exact), prim_code_fail. by left. }
  rewrite (fail_bind _ _ _ _ _ array_single_primitive_exact), Ha. split.
  - intros [[H|(il & b & r & Hb & -> & H)]|([a p] & b & r & (b1 & Hb & ->) & -> & H)]; [by left|right..].
    + exists il, b, r. split; [done|]. split; [done|]. by left.
    + cbn [fst snd] in *. exists (ai_object_id a, ai_length a), b1, (n2b (pt_code p) :: r).
      split; [done|]. split; [by rewrite <- app_assoc|]. right. exists p, [n2b (pt_code p)], r. split; [done|]. split; [done|].
      apply (fail_bind _ _ _ _ _ (exact_count _ _ _ (member_primitive_untyped_exact p) (prim_nonempty p))) in H
        as [H|(l & b' & r' & _ & _ & H)]; [|done].
      apply (fail_count _ _ _ _ _ (member_primitive_untyped_exact p) (prim_nonempty p)) in H.
      eapply among_iff; [|exact H]. intros r'. by rewrite prim_fail.
  - intros [H|(il & b & r & Hb & -> & [H|(p & b' & r' & -> & -> & H)])].
    + left. by left.
    + left. right. by exists il, b, r.
    + right. exists (mkArrayInfo il.1 il.2, p), (b ++ [n2b (pt_code p)]), r'. split; [by exists b|].
      split; [by rewrite <- app_assoc|]. cbn [fst snd ai_length].
      rewrite (fail_bind _ _ _ _ _ (exact_count _ _ _ (member_primitive_untyped_exact p) (prim_nonempty p))). left.
      apply (fail_count _ _ _ _ _ (member_primitive_untyped_exact p) (prim_nonempty p)).
      eapply among_iff; [|exact H]. intros r. by rewrite prim_fail.
Qed.

(** ** Class headers *)
Lemma type_info_fail k i er :
  k <> K_Any -> additional_type_info_parse i (kind_bt k) = Fail er <-> flaw_kind_info k i er.
Proof.
  intros Hk. destruct k as [|p| | |n|n lid| | |p]; cbn [kind_bt additional_type_info_parse flaw_kind_info]; rewrite ?fail_rmap; try done.
  - apply prim_code_fail.
  - apply lps_fail.
  - unfold class_type_info_parse. rewrite (fail_bind _ _ _ _ _ lps_exact), lps_fail. split.
    + intros [[]|H]. eapply past_iff; [|exact H]. intros a r. cbv beta.
      rewrite (fail_bind _ _ _ _ _ library_id_exact), library_id_fail. rewrite past_false; [tauto|done].
    + intros H. right. eapply past_iff; [|exact H]. intros a r. cbv beta.
      rewrite (fail_bind _ _ _ _ _ library_id_exact), library_id_fail. rewrite past_false; [tauto|done].
  - apply prim_code_fail.
Qed.
Lemma flaw_kind_info_bt k k' i er : k <> K_Any -> k' <> K_Any -> kind_bt k = kind_bt k' ->
  flaw_kind_info k i er <-> flaw_kind_info k' i er.
Proof. intros H1 H2 H. rewrite <- !type_info_fail by done. by rewrite H. Qed.
Lemma type_infos_fail bts i er :
  additional_infos_parse i bts = Fail er
  <-> exists ks1 bt bts2 b r, bts = map kind_bt ks1 ++ bt :: bts2 /\ Forall (fun k => k <> K_Any) ks1
        /\ e_list e_kind_info ks1 b /\ i = b ++ r /\ additional_type_info_parse r bt = Fail er.
Proof.
  revert i. induction bts as [|bt bts IH]; intros i; cbn [additional_infos_parse].
  - split; [done|]. intros (ks1 & bt & bts2 & b & r & H & _). by destruct (map kind_bt ks1).
  - rewrite (fail_bind _ _ _ _ _ (additional_type_info_exact bt)). split.
    + intros [H|(ai & b & r & (k & Hk & Hkb & Hka & Hi) & -> & H)].
      * exists [], bt, bts, [], i. split; [done|]. split; [constructor|]. split; [constructor|]. done.
      * assert (additional_infos_parse r bts = Fail er) as Hs.
        { destruct (additional_infos_parse r bts); cbn [bind] in H; done. }
        apply IH in Hs as (ks1 & bt' & bts2 & b' & r' & -> & Hf & Hl & -> & Hb).
        exists (k :: ks1), bt', bts2, (b ++ b'), r'. subst bt. split; [done|]. split; [by constructor|].
        split; [by constructor|]. split; [by rewrite app_assoc|done].
    + intros (ks1 & bt' & bts2 & b & r & Hbts & Hf & Hl & -> & Hb).
      destruct ks1 as [|k ks1].
      * injection Hbts as -> ->. inv Hl. left. done.
      * injection Hbts as -> ->. inv Hl. inv Hf. right. exists (kind_ai k), b0, (bs ++ r).
        split; [by exists k|]. split; [by rewrite app_assoc|].
        assert (additional_infos_parse (bs ++ r) (map kind_bt ks1 ++ bt' :: bts2) = Fail er) as ->; [|done].
        apply IH. exists ks1, bt', bts2, bs, r. done.
Qed.
Lemma kind_codes_some bts b : e_list (fun (t : binary_type) bs => bs = [n2b (bt_code t)]) bts b ->
  e_list e_kind_code (map some_kind bts) b.
Proof.
  intros H. apply e_list_kind_code. split.
  - apply Forall_forall. intros k Hk. apply elem_of_list_fmap in Hk as (bt' & -> & _). apply some_kind_any.
  - rewrite map_map, (map_ext _ id some_kind_bt), map_id. done.
Qed.
Lemma types_fail ci i er :
  member_type_info_parse i ci = Fail er <-> flaw_types (length (ci_member_names ci)) i er.
Proof.
  unfold member_type_info_parse, flaw_types.
  rewrite (fail_bind _ _ _ _ _ (exact_count _ _ _ binary_type_exact binary_type_nonempty)).
  rewrite (fail_count _ _ _ _ _ binary_type_exact binary_type_nonempty). split.
  - intros [(bts & b & r & Hl & Hn & -> & H)|(bts & b4 & r & [Hn Hl] & -> & H)].
    { left. exists (map some_kind bts), b, r. rewrite map_length. split; [by apply kind_codes_some|].
      split; [done|]. split; [done|]. by apply kind_code_fail. }
    right. apply (fail_bind _ _ _ _ _ (additional_infos_exact bts)) in H as [H|(n' & b'' & r'' & _ & _ & H)]; [|done].
    apply type_infos_fail in H as (ks1 & bt & bts2 & b5 & r' & -> & Hf & Hi & -> & Hb).
    exists ks1, (some_kind bt), (map some_kind bts2), b4, b5, r'.
    rewrite app_length, map_length in Hn. cbn [length] in Hn.
    split; [rewrite app_length; cbn [length]; rewrite map_length; lia|].
    split.
    { apply e_list_kind_code. split.
      - apply Forall_app. split; [done|]. apply Forall_cons_2; [apply some_kind_any|].
        apply Forall_forall. intros k Hk. apply elem_of_list_fmap in Hk as (bt' & -> & _). apply some_kind_any.
      - rewrite map_app. cbn [map]. rewrite some_kind_bt, map_map.
        rewrite (map_ext _ id some_kind_bt), map_id. done. }
    split; [done|]. split; [done|]. rewrite <- type_info_fail by apply some_kind_any. by rewrite some_kind_bt.
  - intros [(ks & b & r & Hl & Hn & -> & H)|(ks1 & k & ks2 & b4 & b5 & r & Hn & Hc & Hi & -> & Hk)].
    { left. apply e_list_kind_code in Hl as [Hf Hl]. exists (map kind_bt ks), b, r. rewrite map_length.
      split; [done|]. split; [done|]. split; [done|]. by apply kind_code_fail. }
    right. apply e_list_kind_code in Hc as [Hf Hc].
    exists (map kind_bt (ks1 ++ k :: ks2)), b4, (b5 ++ r). split; [split; [rewrite map_length; lia|done]|].
    split; [done|]. rewrite (fail_bind _ _ _ _ _ (additional_infos_exact _)). left. apply type_infos_fail.
    exists ks1, (kind_bt k), (map kind_bt ks2), b5, r. rewrite map_app. split; [done|].
    apply Forall_app in Hf as [Hf Hf2]. split; [done|]. split; [done|]. split; [done|].
    rewrite type_info_fail; [done|]. by apply Forall_cons in Hf2 as [? _].
Qed.
(** An id fails with some error at its position exactly if there is no id. *)
Lemma positive_fail_at k i e : positive_id k i = Fail e -> e_input e = i /\ ~ starts e_id i.
Proof.
  intros H. split.
  - apply positive_fail in H as [[_ ->]|(z & r & _ & _ & _ & ->)]; done.
  - intros (a & b & r & Hb & ->). by rewrite (exact_ok _ _ _ _ _ (positive_id_exact k) Hb) in H.
Qed.
Lemma positive_not k i : ~ starts e_id i -> exists e, positive_id k i = Fail e.
Proof.
  intros H. apply (fail_iff _ _ False i (positive_id_exact k) (positive_id_safe k i)).
  - split; [|done]. apply soft_positive_id.
  - split; [done|tauto].
Qed.
Lemma length_fail_at i e : length_parse i = Fail e -> e_input e = i /\ ~ starts e_len i.
Proof.
  intros H. split.
  - apply length_fail in H as [[_ ->]|(z & r & _ & _ & _ & ->)]; done.
  - intros (a & b & r & Hb & ->). by rewrite (exact_ok _ _ _ _ _ length_exact Hb) in H.
Qed.
Lemma length_not i : ~ starts e_len i -> exists e, length_parse i = Fail e.
Proof.
  intros H. apply (fail_iff _ _ False i length_exact (length_safe i)).
  - split; [|done]. apply soft_length.
  - split; [done|tauto].
Qed.
Lemma class_info_fail i er : class_info_parse' i = Fail er <-> flaw_class_info i er.
Proof.
  pose proof (exact_length_count lps_parse e_str lps_exact e_str_nonempty) as Hc.
  unfold class_info_parse', flaw_class_info. rewrite fail_map_err. unfold class_info_parse, report. split.
  - intros (e & H & ->). apply (fail_bind _ _ _ _ _ object_id_exact) in H as [H|(id & b & r & Hb & -> & H)].
    + apply positive_fail_at in H as [<- H]. by left.
    + apply (fail_bind _ _ _ _ _ lps_exact) in H as [H|(name & b2 & r2 & Hb2 & -> & H)]; [by apply lps_fail in H|].
      apply (fail_bind _ _ _ _ _ Hc) in H as [H|(x & b3 & r3 & _ & _ & H)]; [|done].
      unfold length_count in H. apply (fail_bind _ _ _ _ _ length_exact) in H as [H|(n & b3 & r3 & Hlen & -> & H)].
      * apply length_fail_at in H as [<- H]. right. exists id, b, (b2 ++ e_input e). split; [done|]. split; [done|].
        exists name, b2, (e_input e). done.
      * apply (fail_count _ _ _ _ _ lps_exact e_str_nonempty) in H as (? & ? & ? & _ & _ & _ & H). by apply lps_fail in H.
  - intros [[H ->]|(id & b & r & Hb & -> & name & b2 & r2 & Hb2 & -> & H & ->)].
    + destruct (positive_not E_InvalidObjectId i H) as [e He]. exists e.
      destruct (positive_fail_at _ _ _ He) as [<- _]. split; [|done].
      rewrite (fail_bind _ _ _ _ _ object_id_exact). by left.
    + destruct (length_not r2 H) as [e He]. exists e. destruct (length_fail_at _ _ He) as [<- _]. split; [|done].
      rewrite (fail_bind _ _ _ _ _ object_id_exact). right. exists id, b, (b2 ++ e_input e). split; [done|]. split; [done|].
      rewrite (fail_bind _ _ _ _ _ lps_exact). right. exists name, b2, (e_input e). split; [done|]. split; [done|].
      rewrite (fail_bind _ _ _ _ _ Hc). left. unfold length_count. rewrite (fail_bind _ _ _ _ _ length_exact). by left.
Qed.
Lemma past_class_info (G : list str -> bytes -> Prop) (k : bytes -> class_info -> Prop) i :
  (forall r ci, k r ci <-> G (ci_member_names ci) r) ->
  past (fun ci bs => exists b1 b2 b3, e_id (ci_object_id ci) b1 /\ e_str (ci_name ci) b2
          /\ e_counted e_str (ci_member_names ci) b3 /\ bs = b1 ++ b2 ++ b3) (fun ci r => k r ci) i
  <-> past e_id (fun _ => past e_str (fun _ => past (e_counted e_str) G)) i.
Proof.
  intros Hk. unfold past. split.
  - intros (ci & b & r & (b1 & b2 & b3 & H1 & H2 & H3 & ->) & -> & H). apply Hk in H.
    exists (ci_object_id ci), b1, (b2 ++ b3 ++ r). split; [done|]. split; [by rewrite <- !app_assoc|].
    exists (ci_name ci), b2, (b3 ++ r). split; [done|]. split; [done|].
    by exists (ci_member_names ci), b3, r.
  - intros (id & b1 & r1 & H1 & -> & name & b2 & r2 & H2 & -> & names & b3 & r3 & H3 & -> & H).
    exists (mkClassInfo id name names), (b1 ++ b2 ++ b3), r3. split; [by exists b1, b2, b3|].
    split; [by rewrite <- !app_assoc|]. by apply Hk.
Qed.
Lemma class_records_fail i er : class_records i = Fail er <-> flaw_class_header i er.
Proof.
  assert (class_with_members i = Fail er <-> behind x03 (fun r => flaw_class_info r er
     \/ past e_id (fun _ => past e_str (fun _ => past (e_counted e_str) (fun _ i => flaw_library_id i er))) r) i) as H3.
  { unfold class_with_members. rewrite (fail_record RT_ClassWithMembers). apply behind_iff. intros r.
    rewrite (fail_bind _ _ _ _ _ class_info_exact), class_info_fail. apply or_iff_compat_l.
    apply past_class_info. intros r' ci. rewrite (fail_bind _ _ _ _ _ library_id_exact), library_id_fail.
    rewrite past_false; [tauto|done]. }
  assert (system_class_with_members i = Fail er <-> behind x02 (fun r => flaw_class_info r er) i) as H2.
  { unfold system_class_with_members. rewrite (fail_record RT_SystemClassWithMembers). apply behind_iff. intros r.
    rewrite (fail_bind _ _ _ _ _ class_info_exact), class_info_fail. rewrite past_false; [tauto|done]. }
  assert (class_with_members_and_types i = Fail er <-> behind x05 (fun r => flaw_class_info r er
     \/ past e_id (fun _ => past e_str (fun _ => past (e_counted e_str) (fun names i =>
          flaw_types (length names) i er
          \/ past (fun ks => e_types (Some ks) (length names)) (fun _ i => flaw_library_id i er) i))) r) i) as H5.
  { unfold class_with_members_and_types. rewrite (fail_record RT_ClassWithMembersAndTypes). apply behind_iff. intros r.
    rewrite (fail_bind _ _ _ _ _ class_info_exact), class_info_fail. apply or_iff_compat_l.
    apply (past_class_info (fun names i =>
          flaw_types (length names) i er
          \/ past (fun ks => e_types (Some ks) (length names)) (fun _ i => flaw_library_id i er) i)).
    intros r' ci. rewrite (fail_bind _ _ _ _ _ (member_type_info_exact ci)), types_fail.
    apply or_iff_compat_l. unfold past. split.
    - intros (mti & b & r2 & (ks & _ & Hk) & -> & H). exists ks, b, r2. split; [done|]. split; [done|].
      apply (fail_bind _ _ _ _ _ library_id_exact) in H as [H|(? & ? & ? & _ & _ & H)]; [|done].
      by apply library_id_fail.
    - intros (ks & b & r2 & Hk & -> & H). exists (mti_of ks), b, r2. split; [by exists ks|]. split; [done|].
      rewrite (fail_bind _ _ _ _ _ library_id_exact), library_id_fail. by left. }
  assert (system_class_with_members_and_types i = Fail er <-> behind x04 (fun r => flaw_class_info r er
     \/ past e_id (fun _ => past e_str (fun _ => past (e_counted e_str) (fun names i =>
          flaw_types (length names) i er))) r) i) as H4.
  { unfold system_class_with_members_and_types. rewrite (fail_record RT_SystemClassWithMembersAndTypes). apply behind_iff. intros r.
    rewrite (fail_bind _ _ _ _ _ class_info_exact), class_info_fail. apply or_iff_compat_l.
    apply (past_class_info (fun names i => flaw_types (length names) i er)).
    intros r' ci. rewrite (fail_bind _ _ _ _ _ (member_type_info_exact ci)), types_fail.
    rewrite past_false; [tauto|done]. }
  assert (forall c (P : bytes -> Prop) rt A (k : bytes -> res A), n2b (rt_code rt) <> c -> behind c P i -> soft (let? (i, _rt) := record_type_parse rt i in k i)) as Hs.
  { intros c P rt A k Hne (r & -> & _). apply soft_record. left. cbn [head_in]. set_solver. }
  assert (forall (A B C : Prop), (A -> B) -> (C -> B) -> A \/ C -> B) as Hor by tauto.
  unfold class_records. rewrite !fail_alt, H2, H3, H4, H5. unfold flaw_class_header. split.
  - intros [(r & -> & H)|[_ [(r & -> & H)|[_ [(r & -> & H)|[_ (r & -> & H)]]]]]];
      [exists x03, r|exists x05, r|exists x02, r|exists x04, r];
      (split; [apply (bool_decide_unpack _); vm_compute; exact I|split; [reflexivity|]]).
    + destruct H as [H|H]; [by left|]. right.
      destruct H as (id & b1 & r1 & E1 & -> & name & b2 & r2 & E2 & -> & names & b3 & r3 & E3 & -> & H).
      exists id, b1, (b2 ++ b3 ++ r3). split; [done|]. split; [done|]. exists name, b2, (b3 ++ r3). split; [done|]. split; [done|].
      exists names, b3, r3. split; [done|]. split; [done|]. by left.
    + destruct H as [H|H]; [by left|]. right.
      destruct H as (id & b1 & r1 & E1 & -> & name & b2 & r2 & E2 & -> & names & b3 & r3 & E3 & -> & H).
      exists id, b1, (b2 ++ b3 ++ r3). split; [done|]. split; [done|]. exists name, b2, (b3 ++ r3). split; [done|]. split; [done|].
      exists names, b3, r3. split; [done|]. split; [done|]. right. destruct H as [H|H]; [left|right]; auto.
    + by left.
    + destruct H as [H|H]; [by left|]. right.
      destruct H as (id & b1 & r1 & E1 & -> & name & b2 & r2 & E2 & -> & names & b3 & r3 & E3 & -> & H).
      exists id, b1, (b2 ++ b3 ++ r3). split; [done|]. split; [done|]. exists name, b2, (b3 ++ r3). split; [done|]. split; [done|].
      exists names, b3, r3. split; [done|]. split; [done|]. right. left. auto.
  - intros (c & r & Hcc & -> & H).
    assert (c = x02 \/ c = x03 \/ c = x04 \/ c = x05) as [-> |[-> |[-> | ->]]].
    { clear - Hcc. set_solver. }
    + right. split; [eapply (Hs x02 (fun _ => True)); [done|by exists r]|].
      right. split; [eapply (Hs x02 (fun _ => True)); [done|by exists r]|]. left. exists r. split; [done|].
      destruct H as [H|H]; [done|]. exfalso.
      destruct H as (id & b1 & r1 & E1 & -> & name & b2 & r2 & E2 & -> & names & b3 & r3 & E3 & -> & [[? _]|[[[?|?] _]|[? _]]]); done.
    + left. exists r. split; [done|]. destruct H as [H|H]; [by left|]. right.
      destruct H as (id & b1 & r1 & E1 & -> & name & b2 & r2 & E2 & -> & names & b3 & r3 & E3 & -> & H).
      exists id, b1, (b2 ++ b3 ++ r3). split; [done|]. split; [done|]. exists name, b2, (b3 ++ r3). split; [done|]. split; [done|].
      exists names, b3, r3. split; [done|]. split; [done|]. destruct H as [[_ H]|[[[?|?] _]|[? _]]]; done.
    + right. split; [eapply (Hs x04 (fun _ => True)); [done|by exists r]|].
      right. split; [eapply (Hs x04 (fun _ => True)); [done|by exists r]|].
      right. split; [eapply (Hs x04 (fun _ => True)); [done|by exists r]|]. exists r. split; [done|].
      destruct H as [H|H]; [by left|]. right.
      destruct H as (id & b1 & r1 & E1 & -> & name & b2 & r2 & E2 & -> & names & b3 & r3 & E3 & -> & H).
      exists id, b1, (b2 ++ b3 ++ r3). split; [done|]. split; [done|]. exists name, b2, (b3 ++ r3). split; [done|]. split; [done|].
      exists names, b3, r3. split; [done|]. split; [done|]. destruct H as [[? _]|[[_ H]|[? _]]]; done.
    + right. split; [eapply (Hs x05 (fun _ => True)); [done|by exists r]|]. left. exists r. split; [done|].
      destruct H as [H|H]; [by left|]. right.
      destruct H as (id & b1 & r1 & E1 & -> & name & b2 & r2 & E2 & -> & names & b3 & r3 & E3 & -> & H).
      exists id, b1, (b2 ++ b3 ++ r3). split; [done|]. split; [done|]. exists name, b2, (b3 ++ r3). split; [done|]. split; [done|].
      exists names, b3, r3. split; [done|]. split; [done|]. destruct H as [[? _]|[[_ H]|[_ H]]]; [done|by left|by right].
Qed.

(** ** Binary arrays *)
Lemma cond_fail {A} b (p : bytes -> res A) i er : cond b p i = Fail er <-> b = true /\ p i = Fail er.
Proof. unfold cond. destruct b; [rewrite fail_rmap|]; naive_solver. Qed.
Lemma binary_array_fail i er : binary_array_parse i = Fail er <-> flaw_binary_array_header i er.
Proof.
  pose proof (fun n => exact_count n _ _ length_exact e_len_nonempty) as Hc.
  unfold binary_array_parse, flaw_binary_array_header. rewrite (fail_record RT_BinaryArray). apply behind_iff. intros r0. clear i.
  rewrite (fail_bind _ _ _ _ _ object_id_exact), object_id_fail. apply or_iff_compat_l. apply past_iff. intros id r1.
  rewrite (fail_bind _ _ _ _ _ binary_array_type_exact), array_code_fail. apply or_iff_compat_l.
  apply (past_iff e_array_code). intros bat r2.
  rewrite (fail_bind _ _ _ _ _ length_exact), length_fail. apply or_iff_compat_l.
  assert (has_offset bat = (3 <=? bat_code bat)%N) as Hof by (by destruct bat).
  assert (forall rank r4 lengths, N.of_nat (length lengths) = rank ->
    (let? (input, lower_bounds) := cond (has_offset bat) (count rank length_parse) r4 in
     let? (input, bt) := binary_type_parse input in
     let? (input, ai) := additional_type_info_parse input bt in
     Ok input (mkBinaryArray id bat lengths lower_bounds bt ai)) = Fail er <->
    ((3 <= bat_code bat)%N /\ among e_len (N.of_nat (length lengths)) (fun i => flaw_length i er) r4)
    \/ past (fun lb b => if (3 <=? bat_code bat)%N
                         then length lb = length lengths /\ e_list e_len lb b
                         else lb = [] /\ b = [])
         (fun _ i => flaw_kind_code i er
                     \/ past e_kind_code (fun k i => flaw_kind_info k i er) i) r4) as Hrest.
  { intros rank r4 lengths Hr.
    assert (forall lb r5, (let? (input, bt) := binary_type_parse r5 in
       let? (input, ai) := additional_type_info_parse input bt in
       Ok input (mkBinaryArray id bat lengths lb bt ai)) = Fail er <->
       flaw_kind_code r5 er \/ past e_kind_code (fun k i => flaw_kind_info k i er) r5) as Hk.
    { intros lb r5. rewrite (fail_bind _ _ _ _ _ binary_type_exact), kind_code_fail. apply or_iff_compat_l. split.
      - intros (bt & b & r6 & -> & -> & H).
        apply (fail_bind _ _ _ _ _ (additional_type_info_exact bt)) in H as [H|(? & ? & ? & _ & _ & H)]; [|done].
        exists (some_kind bt), [n2b (bt_code bt)], r6. split; [apply e_kind_code_iff; rewrite some_kind_bt; split; [apply some_kind_any|done]|].
        split; [done|]. rewrite <- type_info_fail by apply some_kind_any. by rewrite some_kind_bt.
      - intros (k & b & r6 & Hb & -> & H). apply e_kind_code_iff in Hb as [Hk ->].
        exists (kind_bt k), [n2b (bt_code (kind_bt k))], r6. split; [done|]. split; [done|].
        rewrite (fail_bind _ _ _ _ _ (additional_type_info_exact _)). left. by apply type_info_fail. }
    rewrite Hof. destruct (N.leb_spec 3 (bat_code bat)) as [Hb|Hb]; cbn [cond].
    - rewrite (fail_bind _ _ _ _ _ (exact_map Some _ _ (Hc rank))), fail_rmap, (fail_count _ _ _ _ _ length_exact e_len_nonempty), Hr.
      split.
      + intros [H|(lb & b & r5 & (lb' & [Hl1 Hl2] & ->) & -> & H)].
        * left. split; [done|]. eapply among_iff; [|exact H]. intros. by rewrite length_fail.
        * right. exists lb', b, r5. split; [split; [lia|done]|]. split; [done|]. by apply Hk in H.
      + intros [[_ H]|(lb & b & r5 & [Hl1 Hl2] & -> & H)].
        * left. eapply among_iff; [|exact H]. intros. by rewrite length_fail.
        * right. exists (Some lb), b, r5. split; [exists lb; split; [split; [lia|done]|done]|]. split; [done|]. by apply Hk.
    - cbn [bind]. rewrite Hk. split.
      + intros H. right. exists [], [], r4. done.
      + intros [[? _]|(lb & b & r5 & [-> ->] & -> & H)]; [lia|done]. }
  split.
  - intros (rank & b & r3 & Hrank & -> & H).
    apply (fail_bind _ _ _ _ _ (Hc rank)) in H as [H|(lengths & b' & r4 & [Hr Hl] & -> & H)].
    + left. exists rank, b, r3. split; [done|]. split; [done|].
      apply (fail_count _ _ _ _ _ length_exact e_len_nonempty) in H. eapply among_iff; [|exact H]. intros. by rewrite length_fail.
    + right. apply (Hrest rank r4 lengths Hr) in H. exists lengths, (b ++ b'), r4. split; [|split; [by rewrite <- app_assoc|done]].
      subst rank. destruct Hrank as [Hv ->]. exists b'. done.
  - intros [(rank & b & r3 & Hrank & -> & H)|(lengths & b & r4 & (b' & Hv & Hl & ->) & -> & H)].
    + exists rank, b, r3. split; [done|]. split; [done|]. rewrite (fail_bind _ _ _ _ _ (Hc rank)). left.
      apply (fail_count _ _ _ _ _ length_exact e_len_nonempty). eapply among_iff; [|exact H]. intros. by rewrite length_fail.
    + exists (N.of_nat (length lengths)), (enc_uint 4 (N.of_nat (length lengths))), (b' ++ r4). split; [split; [done|reflexivity]|].
      split; [by rewrite <- app_assoc|]. rewrite (fail_bind _ _ _ _ _ (Hc _)). right.
      exists lengths, b', r4. split; [done|]. split; [done|]. by apply (Hrest _ r4 lengths eq_refl).
Qed.

(** ** Other records *)
Lemma record_type_err rt i e :
  record_type_parse rt i = Err e <-> ~ begins [n2b (rt_code rt)] i /\ e = mkError i (E_ExpectedRecordType rt).
Proof.
  unfold record_type_parse, tag1. destruct i as [|c i].
  - cbn. split; [intros [= <-]; split; [intros []|done]|]. intros [_ ->]. done.
  - cbn [begins]. destruct (N.eqb_spec (b2n c) (rt_code rt)) as [Hc|Hc].
    + split; [done|]. intros [Hn _]. destruct Hn. rewrite <- Hc, n2b_b2n. set_solver.
    + split.
      * intros [= <-]. split; [|done]. intros Hin. apply elem_of_list_singleton in Hin as ->.
        destruct Hc. apply b2n_n2b_small. by destruct rt.
      * intros [_ ->]. done.
Qed.
Lemma int32_past {A} (k : bytes -> Z -> res A) (G : Z -> bytes -> Prop) i er :
  (forall z r, k r z = Fail er <-> G z r) ->
  (let? (input, z) := int32_parse i in k input z) = Fail er <-> too_short 4 PT_Int32 i er \/ past e_int32 G i.
Proof.
  intros H. rewrite (fail_bind _ _ _ _ _ int32_exact), int32_fail. apply or_iff_compat_l.
  apply (past_iff e_int32). intros z r. apply H.
Qed.
Lemma header_fail i er :
  serialization_header_parse i = Err er \/ serialization_header_parse i = Fail er <-> flaw_header i er.
Proof.
  unfold flaw_header.
  assert (serialization_header_parse i = Err er <->
    ~ begins [x00] i /\ report (E_ExpectedRecordType RT_SerializedStreamHeader) i er) as ->.
  { etransitivity; [|exact (record_type_err RT_SerializedStreamHeader i er)]. split.
    - intros H. assert (soft (serialization_header_parse i)) as Hs by (by exists er).
      unfold serialization_header_parse in Hs, H. apply (soft_record RT_SerializedStreamHeader) in Hs as [Hs|(r & -> & Hs)].
      + destruct (record_type_parse RT_SerializedStreamHeader i) eqn:E; cbn [bind] in H; try done; [|congruence].
        apply record_type_exact in E as (b & [-> ->] & ->). exfalso. apply Hs. hd.
      + exfalso. cbv zeta in Hs.
        apply (soft_bind _ _ _ _ int32_exact) in Hs as [Hs|(z & b & r1 & _ & _ & Hs)]; [by apply soft_prim_number in Hs|].
        destruct (Z.ltb z 0); [by apply soft_fail in Hs|].
        apply (soft_bind _ _ _ _ int32_exact) in Hs as [Hs|(z1 & b1 & r2 & _ & _ & Hs)]; [by apply soft_prim_number in Hs|].
        apply (soft_bind _ _ _ _ int32_exact) in Hs as [Hs|(z2 & b2 & r3 & _ & _ & Hs)]; [by apply soft_prim_number in Hs|].
        destruct (negb _); [by apply soft_fail in Hs|].
        apply (soft_bind _ _ _ _ int32_exact) in Hs as [Hs|(z3 & b3 & r4 & _ & _ & Hs)]; [by apply soft_prim_number in Hs|].
        destruct (negb _); [by apply soft_fail in Hs|by apply soft_ok in Hs].
    - intros H. unfold serialization_header_parse. by rewrite H. }
  apply or_iff_compat_l. unfold serialization_header_parse. rewrite (fail_record RT_SerializedStreamHeader).
  apply behind_iff. intros r0. cbv zeta. apply int32_past. intros root r1.
  destruct (Z.ltb_spec root 0) as [Hr|Hr].
  { unfold report. split; [intros [= <-]; by left|]. intros [[_ ->]|[? _]]; [done|lia]. }
  match goal with |- ?P = _ <-> _ => set (X := P) end.
  enough (X = Fail er <-> too_short 4 PT_Int32 r1 er
    \/ past e_int32 (fun _ i => too_short 4 PT_Int32 i er
         \/ past e_int32 (fun major j =>
              (major <> 1%Z /\ report E_InvalidMajorVersion i er)
              \/ (major = 1%Z /\ (too_short 4 PT_Int32 j er
                  \/ past e_int32 (fun minor _ => minor <> 0%Z /\ report E_InvalidMinorVersion j er) j))) i) r1) as ->.
  { split; [intros H; right; split; [lia|done]|]. intros [[? _]|[_ H]]; [lia|done]. }
  subst X. apply int32_past. intros hid r2. apply int32_past. intros major r3.
  destruct (Z.eqb_spec major 1) as [Hm|Hm]; cbn [negb].
  - match goal with |- ?P = _ <-> _ => set (X := P) end.
    enough (X = Fail er <-> too_short 4 PT_Int32 r3 er
      \/ past e_int32 (fun minor _ => minor <> 0%Z /\ report E_InvalidMinorVersion r3 er) r3) as -> by naive_solver.
    subst X. apply int32_past. intros minor r4. unfold report. destruct (Z.eqb_spec minor 0); cbn [negb]; naive_solver.
  - unfold report. naive_solver.
Qed.
Lemma with_id_fail i er :
  (class_with_id i = Fail er \/ (exists r x, class_with_id i = Ok r x) /\ er = mkError i E_MissingMetadataId)
  <-> blame_with_id i er.
Proof.
  unfold class_with_id, blame_with_id. destruct (decide (head_in [x01] i)) as [Hh|Hh].
  - apply head_inv in Hh as [j ->]. change x01 with (n2b (rt_code RT_ClassWithId)). rewrite !rt_ok.
    assert (forall (P : bytes -> Prop), behind (n2b (rt_code RT_ClassWithId)) P (n2b (rt_code RT_ClassWithId) :: j) <-> P j) as ->.
    { intros P. unfold behind. split; [by intros (r & [= <-] & ?)|]. intros H. by exists j. }
    set (i := n2b (rt_code RT_ClassWithId) :: j). rewrite (fail_bind _ _ _ _ _ object_id_exact), object_id_fail.
    split.
    + intros [[H|(id & b & r & Hb & -> & H)]|[(r & x & H) ->]]; [by left|right..].
      * exists id, b, r. split; [done|]. split; [done|].
        apply (fail_bind _ _ _ _ _ object_id_exact) in H as [H|(mid & b' & r' & Hb' & -> & H)].
        -- left. by apply object_id_fail.
        -- right. exists mid, b', r'. split; [done|]. split; [done|]. destruct (N.eqb mid id); [|done].
           injection H as <-. done.
      * apply bind_ok in H as (i1 & id & H1 & H). apply object_id_exact in H1 as (b & Hb & ->).
        apply bind_ok in H as (i2 & mid & H1 & H). apply object_id_exact in H1 as (b' & Hb' & ->).
        exists id, b, (b' ++ i2). split; [done|]. split; [done|]. right. exists mid, b', i2. split; [done|]. split; [done|].
        destruct (N.eqb mid id); done.
    + intros [H|(id & b & r & Hb & -> & [H|(mid & b' & r' & Hb' & -> & H)])].
      * left. by left.
      * left. right. exists id, b, r. split; [done|]. split; [done|].
        rewrite (fail_bind _ _ _ _ _ object_id_exact), object_id_fail. by left.
      * destruct (N.eqb mid id) eqn:E.
        -- left. right. exists id, b, (b' ++ r'). split; [done|]. split; [done|].
           rewrite (fail_bind _ _ _ _ _ object_id_exact). right. exists mid, b', r'. split; [done|]. split; [done|].
           rewrite E. by rewrite H.
        -- right. split; [|done]. exists r', (id, mid). rewrite (exact_ok _ _ _ _ _ object_id_exact Hb). cbn [bind].
           rewrite (exact_ok _ _ _ _ _ object_id_exact Hb'). cbn [bind]. by rewrite E.
  - split.
    + intros [H|[(r & x & H) _]].
      * apply (fail_record RT_ClassWithId) in H as (r & -> & _). exfalso. apply Hh. hd.
      * apply bind_ok in H as (i1 & rt & H1 & _). apply record_type_exact in H1 as (b & [-> ->] & ->). exfalso. apply Hh. hd.
    + intros (r & -> & _). exfalso. apply Hh. hd.
Qed.

(** ** Method records *)
Lemma flags_fail i er : message_flags_parse i = Fail er <-> flaw_flags i er.
Proof.
  rewrite message_flags_eq. unfold flaw_flags.
  assert (exact (fun i => map_err (at_err' E_ExpectedMessageFlags) (int32_parse i)) (e_int 4)) as HE by apply exact_map_err, int32_exact.
  rewrite (fail_bind _ _ _ _ _ HE), fail_map_err. split.
  - intros [(e & H & ->)|(z & b & r & Hb & -> & H)].
    + apply int32_fail in H as [Hl ->]. by left.
    + right. destruct (flags_okb z) eqn:E; [done|]. injection H as <-. split; [|done]. exists z, b, r. split; [done|]. split; [done|].
      rewrite <- flags_okb_iff. by rewrite E.
  - intros [[Hl ->]|[(z & b & r & Hb & -> & H) ->]].
    + left. exists (mkError i (E_ExpectedPrimitive PT_Int32)). split; [|done]. apply int32_fail. done.
    + right. exists z, b, r. split; [done|]. split; [done|]. rewrite <- flags_okb_iff in H.
      destruct (flags_okb z); [by destruct H|done].
Qed.
Lemma string_code_fail i er : string_value_with_code i = Fail er <-> flaw_string_code i er.
Proof.
  unfold string_value_with_code, flaw_string_code, pt_tag, rmap. change (pt_code PT_String) with 18%N.
  destruct (tag1_cases 18 i) as [[r Hr]|Hr]; rewrite Hr; cbn [bind into_failure map_err].
  - rewrite lps_fail. split; [done|]. intros [Hn _]. apply Hn.
    apply (tag1_exact 18) in Hr as (b & [_ ->] & ->); [|done]. apply (bool_decide_unpack _). vm_compute. exact I.
  - split.
    + intros [= <-]. split; [|done]. destruct i as [|c i]; [by intros []|]. cbn [begins]. intros ->%elem_of_list_singleton.
      vm_compute in Hr. done.
    + intros [_ ->]. done.
Qed.
Lemma value_with_code_fail i er : value_with_code i = Fail er <-> flaw_value_with_code i er.
Proof.
  unfold value_with_code, flaw_value_with_code.
  rewrite (fail_bind _ _ _ _ _ primitive_type_exact), prim_code_fail. apply or_iff_compat_l.
  apply (past_iff e_prim_code). intros p r. rewrite <- prim_fail.
  destruct p; cbn [member_primitive_untyped]; rewrite ?fail_rmap; try naive_solver.
  rewrite lps_fail. naive_solver.
Qed.
Lemma bit_intersects flags k (Hk : (0 <= k)%Z) : intersects flags (2 ^ k) = Z.testbit flags k.
Proof. by apply intersects_bit. Qed.
Lemma args_fail flags i er :
  cond (intersects flags MF_ARGS_INLINE) array_of_value_with_code i = Fail er <-> flaw_inline_args flags i er.
Proof.
  rewrite cond_fail. change MF_ARGS_INLINE with (2 ^ 1)%Z. rewrite (bit_intersects _ 1) by lia. apply and_iff_compat_l.
  unfold array_of_value_with_code, length_count. rewrite (fail_bind _ _ _ _ _ length_exact), length_fail. apply or_iff_compat_l.
  apply past_iff. intros n r. rewrite (fail_count _ _ _ _ _ value_with_code_exact e_value_with_code_nonempty).
  apply among_iff. intros. apply value_with_code_fail.
Qed.
Lemma context_fail {A} flags (k : bytes -> option str -> res A) i er :
  (forall r c, k r c = Fail er <-> flaw_inline_args flags r er) ->
  (let? (input, ctx) := cond (intersects flags MF_CONTEXT_INLINE) string_value_with_code i in k input ctx) = Fail er
  <-> flaw_context_args flags i er.
Proof.
  intros Hk. change MF_CONTEXT_INLINE with (2 ^ 5)%Z.
  rewrite (fail_bind _ _ _ _ _ (cond_exact flags 5 _ _ ltac:(lia) string_value_with_code_exact)).
  rewrite cond_fail, (bit_intersects _ 5), string_code_fail by lia. unfold flaw_context_args. apply or_iff_compat_l.
  apply past_iff. intros c r. apply Hk.
Qed.
Lemma method_call_fail i er :
  binary_method_call_parse i = Fail er <->
  behind x15 (fun i => flaw_flags i er \/ past e_flags (fun flags i =>
    flaw_string_code i er \/ past e_string_with_code (fun _ i =>
    flaw_string_code i er \/ past e_string_with_code (fun _ i => flaw_context_args flags i er) i) i) i) i.
Proof.
  unfold binary_method_call_parse. rewrite (fail_record RT_MethodCall). apply behind_iff. intros r0.
  rewrite (fail_bind _ _ _ _ _ message_flags_exact), flags_fail. apply or_iff_compat_l. apply past_iff. intros flags r1.
  rewrite (fail_bind _ _ _ _ _ string_value_with_code_exact), string_code_fail. apply or_iff_compat_l. apply past_iff. intros name r2.
  rewrite (fail_bind _ _ _ _ _ string_value_with_code_exact), string_code_fail. apply or_iff_compat_l. apply past_iff. intros type r3.
  apply context_fail. intros r4 ctx.
  rewrite (fail_bind _ _ _ _ _ (cond_exact flags 1 _ _ ltac:(lia) array_of_value_with_code_exact)), args_fail.
  rewrite past_false; [tauto|done].
Qed.
Lemma method_return_fail i er :
  binary_method_return_parse i = Fail er <->
  behind x16 (fun i => flaw_flags i er \/ past e_flags (fun flags i =>
    (Z.testbit flags bit_ReturnValueInline = true /\ flaw_value_with_code i er)
    \/ past (e_flagged flags bit_ReturnValueInline e_value_with_code) (fun _ i => flaw_context_args flags i er) i) i) i.
Proof.
  unfold binary_method_return_parse. rewrite (fail_record RT_MethodReturn). apply behind_iff. intros r0.
  rewrite (fail_bind _ _ _ _ _ message_flags_exact), flags_fail. apply or_iff_compat_l. apply past_iff. intros flags r1.
  rewrite (fail_bind _ _ _ _ _ (cond_exact flags 11 _ _ ltac:(lia) value_with_code_exact)), cond_fail.
  change MF_RETURN_VALUE_INLINE with (2 ^ 11)%Z. rewrite (bit_intersects _ 11), value_with_code_fail by lia. apply or_iff_compat_l.
  apply past_iff. intros ret r2. apply context_fail. intros r4 ctx.
  rewrite (fail_bind _ _ _ _ _ (cond_exact flags 1 _ _ ltac:(lia) array_of_value_with_code_exact)), args_fail.
  rewrite past_false; [tauto|done].
Qed.
End with_decimal.
