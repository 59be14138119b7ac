(** * LemmasC: records that cannot be read. *)
From Verif Require Import Base Utf8 Value DataTypes Records Parser Wire BaseLemmas DataTypesLemmas
  RecordsLemmas MethodLemmas SafetyLemmas Safety Grammar Heads Complete Sound Fuel Message Run Spec
  LemmasA LemmasB.
From Coq Require Import Lia.

Section with_decimal.
Context {DL : DecimalLib}.

(** The last step of [parse_referenceable]. *)
Definition ref_finish {A} (i : bytes) (f : A -> N * value) (r : sres A) : sres N :=
  match r with
  | (s, Ok i' a) => (set_objects s (<[(f a).1 := (f a).2]> (st_objects s)), Ok i' (f a).1)
  | (s, Err _) => (s, Err (mkError i E_Other))
  | (s, Fail e) => (s, Fail e)
  | (s, Panic p) => (s, Panic p)
  | (s, Diverge) => (s, Diverge)
  end.

Definition arr_val (p : N * list value) : N * value := (p.1, VArray p.2).
Definition str_val (p : N * str) : N * value := (p.1, VString p.2).
Definition obj_val (p : N * obj value) : N * value := (p.1, VObject p.2).

Lemma ref_class_fail f s i s' err :
  parse_classes f s i = (s', Fail err) -> parse_referenceable (S f) s i = (s', Fail err).
Proof. intros H. rewrite parse_referenceable_S. unfold parse_referenceable_body. by rewrite H. Qed.
Lemma ref_class_panic f s i s' p :
  parse_classes f s i = (s', Panic p) -> parse_referenceable (S f) s i = (s', Panic p).
Proof. intros H. rewrite parse_referenceable_S. unfold parse_referenceable_body. by rewrite H. Qed.

Lemma ref_class_err f s i s' err :
  parse_classes (S f) s i = (s', Err err) -> head_in [x01; x02; x03; x04; x05] i ->
  parse_referenceable (S (S f)) s i = (s', Err (mkError i E_Other)).
Proof.
  intros H Hh. rewrite parse_referenceable_S. unfold parse_referenceable_body. rewrite H.
  unfold smap at 1. cbn [fst snd rmap bind alt_mut].
  destruct (parse_arrays_err (parse_classes (S f)) (parse_referenceable (S f)) s' i) as [e2 He2].
  { apply no_library_head. hd. } { hd. }
  rewrite He2. unfold smap. cbn [fst snd rmap bind alt_mut].
  destruct (binary_object_string_err i) as [e3 ->]; [hd|]. done.
Qed.

Lemma ref_string f s i :
  head_in [x06] i ->
  parse_referenceable (S (S f)) s i = ref_finish i str_val (s, binary_object_string i).
Proof.
  intros Hh. rewrite parse_referenceable_S. unfold parse_referenceable_body.
  destruct (classes_err_head f s i) as [e1 ->]; [hd|].
  unfold smap at 1. cbn [fst snd rmap bind alt_mut].
  destruct (parse_arrays_err (parse_classes (S f)) (parse_referenceable (S f)) s i) as [e2 ->].
  { apply no_library_head. hd. } { hd. }
  unfold smap. cbn [fst snd rmap bind alt_mut].
  by destruct (binary_object_string i) as [r [id st]|e|e|p|].
Qed.

Lemma ref_arrays f s i :
  head_in [x07; x0f; x10; x11] i ->
  parse_referenceable (S (S f)) s i =
    ref_finish i arr_val (parse_arrays (parse_classes (S f)) (parse_referenceable (S f)) s i).
Proof.
  intros Hh. rewrite parse_referenceable_S. unfold parse_referenceable_body.
  destruct (classes_err_head f s i) as [e1 ->]; [hd|].
  unfold smap at 1. cbn [fst snd rmap bind alt_mut].
  destruct (parse_arrays (parse_classes (S f)) (parse_referenceable (S f)) s i) as [s' [r [id vs]|e|e|p|]];
    unfold smap; cbn [fst snd rmap bind alt_mut]; try done.
  destruct (binary_object_string_err i) as [e3 ->]; [hd|]. done.
Qed.

Definition or_other {A} (i : bytes) (r : sres A) : sres A :=
  match r with (s, Err _) => (s, Err (mkError i E_Other)) | r => r end.

Lemma arrays_object PC PR s i :
  head_in [x10] i -> parse_arrays PC PR s i = or_other i (parse_array_single_object PC PR s i).
Proof.
  intros Hh. unfold parse_arrays. rewrite parse_binary_library_none.
  2:{ apply no_library_head. hd. }
  cbn [sbind]. destruct (parse_array_single_object PC PR s i) as [s' [r x|e|e|p|]]; cbn [alt_mut or_other]; try done.
  unfold parse_array_single_primitive.
  destruct (array_single_primitive_err i) as [e2 ->]; [hd|]. cbn [alt_mut bind].
  unfold parse_array_single_string, parse_binary_array.
  destruct (array_single_string_err i) as [e3 ->]; [hd|]. cbn [alt_mut].
  destruct (binary_array_err i) as [e4 ->]; [hd|]. done.
Qed.
Lemma arrays_prim PC PR s i :
  head_in [x0f] i -> parse_arrays PC PR s i = or_other i (parse_array_single_primitive s i).
Proof.
  intros Hh. unfold parse_arrays. rewrite parse_binary_library_none.
  2:{ apply no_library_head. hd. }
  cbn [sbind]. unfold parse_array_single_object at 1.
  destruct (array_single_object_err i) as [e1 ->]; [hd|]. cbn [alt_mut].
  destruct (parse_array_single_primitive s i) as [s' [r x|e|e|p|]]; cbn [alt_mut or_other]; try done.
  unfold parse_array_single_string, parse_binary_array.
  destruct (array_single_string_err i) as [e3 ->]; [hd|]. cbn [alt_mut].
  destruct (binary_array_err i) as [e4 ->]; [hd|]. done.
Qed.
Lemma arrays_string PC PR s i :
  head_in [x11] i -> parse_arrays PC PR s i = or_other i (parse_array_single_string PC PR s i).
Proof.
  intros Hh. unfold parse_arrays. rewrite parse_binary_library_none.
  2:{ apply no_library_head. hd. }
  cbn [sbind]. unfold parse_array_single_object at 1, parse_array_single_primitive.
  destruct (array_single_object_err i) as [e1 ->]; [hd|]. cbn [alt_mut].
  destruct (array_single_primitive_err i) as [e2 ->]; [hd|]. cbn [alt_mut bind].
  destruct (parse_array_single_string PC PR s i) as [s' [r x|e|e|p|]]; cbn [alt_mut or_other]; try done.
  unfold parse_binary_array.
  destruct (binary_array_err i) as [e4 ->]; [hd|]. done.
Qed.
Lemma arrays_binary PC PR s i :
  head_in [x07] i -> parse_arrays PC PR s i = or_other i (parse_binary_array PC PR s i).
Proof.
  intros Hh. unfold parse_arrays. rewrite parse_binary_library_none.
  2:{ apply no_library_head. hd. }
  cbn [sbind]. unfold parse_array_single_object at 1, parse_array_single_primitive, parse_array_single_string.
  destruct (array_single_object_err i) as [e1 ->]; [hd|]. cbn [alt_mut].
  destruct (array_single_primitive_err i) as [e2 ->]; [hd|]. cbn [alt_mut bind].
  destruct (array_single_string_err i) as [e3 ->]; [hd|]. cbn [alt_mut].
  by destruct (parse_binary_array PC PR s i) as [s' [r x|e|e|p|]].
Qed.

Lemma ref_finish_other {A} i (f : A -> N * value) r : ref_finish i f (or_other i r) = ref_finish i f r.
Proof. by destruct r as [s [| | | |]]. Qed.

Lemma ref_object_array f s i :
  head_in [x10] i -> parse_referenceable (S (S f)) s i =
  ref_finish i arr_val (parse_array_single_object (parse_classes (S f)) (parse_referenceable (S f)) s i).
Proof. intros H. rewrite ref_arrays by hd. rewrite arrays_object by done. apply ref_finish_other. Qed.
Lemma ref_string_array f s i :
  head_in [x11] i -> parse_referenceable (S (S f)) s i =
  ref_finish i arr_val (parse_array_single_string (parse_classes (S f)) (parse_referenceable (S f)) s i).
Proof. intros H. rewrite ref_arrays by hd. rewrite arrays_string by done. apply ref_finish_other. Qed.
Lemma ref_prim_array f s i :
  head_in [x0f] i -> parse_referenceable (S (S f)) s i =
  ref_finish i arr_val (parse_array_single_primitive s i).
Proof. intros H. rewrite ref_arrays by hd. rewrite arrays_prim by done. apply ref_finish_other. Qed.
Lemma ref_binary_array f s i :
  head_in [x07] i -> parse_referenceable (S (S f)) s i =
  ref_finish i arr_val (parse_binary_array (parse_classes (S f)) (parse_referenceable (S f)) s i).
Proof. intros H. rewrite ref_arrays by hd. rewrite arrays_binary by done. apply ref_finish_other. Qed.

(** The record type byte. *)
Lemma rt_ok {A} rt (k : bytes -> record_type -> res A) i :
  bind (record_type_parse rt (n2b (rt_code rt) :: i)) k = k i rt.
Proof. rewrite record_type_parse_cons. by rewrite bool_decide_eq_true_2. Qed.

(** Numbers out of range. *)
Lemma int32_ok z i : fits_int 4 z -> int32_parse (enc_int 4 z ++ i) = Ok i z.
Proof. intros Hz. apply (exact_ok int32_parse _ z _ _ int32_exact). done. Qed.
Lemma positive_id_bad k z i :
  fits_int 4 z -> (z <= 0)%Z -> positive_id k (enc_int 4 z ++ i) = Fail (mkError (enc_int 4 z ++ i) k).
Proof. intros Hf Hz. unfold positive_id. rewrite int32_ok by done. by destruct (Z.ltb_spec 0 z); [lia|]. Qed.
Lemma length_bad z i :
  fits_int 4 z -> (z < 0)%Z -> length_parse (enc_int 4 z ++ i) = Fail (mkError (enc_int 4 z ++ i) E_InvalidLength).
Proof. intros Hf Hz. unfold length_parse. rewrite int32_ok by done. by destruct (Z.leb_spec 0 z); [lia|]. Qed.
Lemma int32_short i : length i < 4 -> int32_parse i = Fail (mkError i (E_ExpectedPrimitive PT_Int32)).
Proof.
  intros Hl. unfold int32_parse, prim_number, le_int, le_uint.
  destruct (Nat.ltb_spec (length i) 4); [done|lia].
Qed.
Lemma positive_id_short k i : length i < 4 -> positive_id k i = Fail (mkError i (E_ExpectedPrimitive PT_Int32)).
Proof. intros Hl. unfold positive_id. by rewrite int32_short. Qed.
Lemma id_ok id i : valid_id id -> object_id (enc_uint 4 id ++ i) = Ok i id.
Proof. intros H. apply (exact_ok object_id _ id _ _ object_id_exact). done. Qed.
Lemma lid_ok id i : valid_id id -> library_id (enc_uint 4 id ++ i) = Ok i id.
Proof. intros H. apply (exact_ok library_id _ id _ _ library_id_exact). done. Qed.
Lemma len_ok n i : valid_len n -> length_parse (enc_uint 4 n ++ i) = Ok i n.
Proof. intros H. apply (exact_ok length_parse _ n _ _ length_exact). done. Qed.

(** [count] with a failing element. *)
Lemma count_loop_fail {A} (p : bytes -> res A) E l bs i err :
  exact p E -> e_list E l bs -> p i = Fail err -> forall fuel n,
  length l < fuel -> (N.of_nat (length l) < n)%N -> count_loop fuel n p (bs ++ i) = Fail err.
Proof.
  intros HE Hl Hp. induction Hl as [|a l b bs Ha Hl IH]; intros fuel n Hf Hn.
  - destruct fuel as [|fuel]; [simpl in Hf; lia|]. cbn [count_loop app].
    destruct (N.eqb_spec n 0); [simpl in Hn; lia|]. by rewrite Hp.
  - cbn [length] in *. destruct fuel as [|fuel]; [lia|]. cbn [count_loop].
    destruct (N.eqb_spec n 0); [lia|]. rewrite <- app_assoc.
    rewrite (exact_ok p E a b _ HE Ha). cbn [bind]. rewrite IH by lia. done.
Qed.
Lemma count_loop_err {A} (p : bytes -> res A) E l bs i err :
  exact p E -> e_list E l bs -> p i = Err err -> forall fuel n,
  length l < fuel -> (N.of_nat (length l) < n)%N -> count_loop fuel n p (bs ++ i) = Err err.
Proof.
  intros HE Hl Hp. induction Hl as [|a l b bs Ha Hl IH]; intros fuel n Hf Hn.
  - destruct fuel as [|fuel]; [simpl in Hf; lia|]. cbn [count_loop app].
    destruct (N.eqb_spec n 0); [simpl in Hn; lia|]. by rewrite Hp.
  - cbn [length] in *. destruct fuel as [|fuel]; [lia|]. cbn [count_loop].
    destruct (N.eqb_spec n 0); [lia|]. rewrite <- app_assoc.
    rewrite (exact_ok p E a b _ HE Ha). cbn [bind]. rewrite IH by lia. done.
Qed.

(** A primitive array with a bad element. *)
Lemma prim_array_fail s id len p vs bs i err :
  valid_id id -> valid_len len -> Forall (fun v => prim_type_of v = Some p) vs ->
  e_list e_prim vs bs -> (N.of_nat (length vs) < len)%N ->
  member_primitive_untyped i p = Fail err ->
  parse_array_single_primitive s
    (x0f :: enc_uint 4 id ++ enc_uint 4 len ++ n2b (pt_code p) :: bs ++ i) = (s, Fail err).
Proof.
  intros Hid Hlen Ht Hl Hn Hp. unfold parse_array_single_primitive. f_equal.
  unfold array_single_primitive. change x0f with (n2b (rt_code RT_ArraySinglePrimitive)). rewrite rt_ok.
  unfold array_info_parse. rewrite id_ok by done. cbn [bind]. rewrite len_ok by done. cbn [bind].
  change (n2b (pt_code p) :: bs ++ i) with ([n2b (pt_code p)] ++ (bs ++ i)).
  rewrite (exact_ok primitive_type_parse _ p _ _ primitive_type_exact eq_refl).
  cbn [bind fst snd ai_length ai_object_id].
  assert (e_list (fun v bs => prim_type_of v = Some p /\ e_prim v bs) vs bs) as Hl'.
  { clear -Ht Hl. induction Hl; [constructor|]. inv Ht. constructor; auto. }
  unfold count. rewrite (count_loop_fail _ _ vs bs i err (member_primitive_untyped_exact p) Hl' Hp); [done| |done].
  apply e_list_length in Hl'; [|intros v [_ Hv]; by apply e_prim_nonempty in Hv]. rewrite app_length. lia.
Qed.

End with_decimal.
