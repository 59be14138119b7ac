(** C05 and C28, second part: prefix-freeness and size of all accepted messages. *)
From Verif Require Import Base Value Wire BaseLemmas Records DataTypes DataTypesLemmas Parser Spec Grammar Heads Complete Sound Message Run
  LemmasA LemmasB PropsA Calm Size Leftover PropsF.
From Coq Require Import Lia.

Section with_decimal.
Context {DL : DecimalLib}.

(** Without byte 9 in the body, and without a library record that the end of the body cuts off,
    whatever is accepted is rejected as soon as anything is appended, and the error names exactly
    what was appended. *)
Theorem C05_prefix_free_accepted_partial : forall root hid body m t,
  (root < 2 ^ 31)%N -> fits_int 4 hid ->
  deserialize (header_bytes root hid ++ body) = POk m -> x09 ∉ body -> no_cut_library body -> t <> [] ->
  deserialize (header_bytes root hid ++ body ++ t) = PErr (mkError t E_TrailingData).
Proof.
  intros root hid body m t Hr Hh Hd H9 H12 Ht. eapply C05_prefix_free_partial; [done|done| |done|done].
  apply calm_message; [|done]. 
  pose proof (header_bytes_header root hid Hr Hh) as Hl%e_header_length.
  unfold calm. by rewrite drop_app_ge, Hl, Nat.sub_diag, drop_0 by (by rewrite Hl).
Qed.
(** Bodies without byte 12 are of this kind, and so are bodies in which all bytes 12 begin complete
    library records. *)
Theorem C05_no_cut_library : forall body,
  (forall p r, body = p ++ x0c :: r -> exists id name bs r', e_library_record id name bs /\ x0c :: r = bs ++ r') ->
  no_cut_library body.
Proof.
  intros body H p i -> (Hne & id & name & t & Ht & Hl). destruct i as [|c i]; [done|].
  destruct Hl as (b1 & b2 & Hid & Hs & Heq). cbn [app] in Heq. injection Heq as -> Heq.
  destruct (H p i eq_refl) as (id' & name' & bs & r' & (c1 & c2 & Hid' & Hs' & ->) & E).
  cbn [app] in E. injection E as ->. rewrite <- !app_assoc in Heq.
  destruct Hid as [_ ->], Hid' as [_ ->]. apply app_inj_1 in Heq as [_ Heq]; [|by rewrite !enc_uint_length].
  assert (lps_parse (c2 ++ r' ++ t) = Ok (r' ++ t) name') as E1 by (apply lps_exact; eauto).
  assert (lps_parse (b2 ++ []) = Ok [] name) as E2 by (apply lps_exact; eauto).
  rewrite app_nil_r, <- Heq in E2. rewrite E1 in E2. injection E2 as E2 _.
  by apply app_eq_nil in E2 as [_ ->].
Qed.
(** A class with a library; the string in it is eleven bytes long. *)
Definition delimited_body : bytes := bs_of ([12; 2;0;0;0; 1;76]
  ++ [5; 1;0;0;0; 1;65; 2;0;0;0; 1;97; 1;98; 1;0; 8; 2;0;0;0] ++ [6; 3;0;0;0; 11; 104;101;108;108;111;32;119;111;114;108;100]
  ++ [13;0;0;0; 11])%N.
Example C05_accepted_ex : (exists m, deserialize (header_bytes 1 (-1) ++ delimited_body) = POk m)
  /\ x09 ∉ delimited_body /\ no_cut_library delimited_body.
Proof.
  split; [eexists; vm_compute; reflexivity|]. split; [apply (bool_decide_unpack _); vm_compute; exact I|].
  apply C05_no_cut_library. intros p r E.
  exists 2%N, (bs_of [76]%N), (bs_of [12; 2;0;0;0; 1;76]%N), (drop 7 delimited_body). split.
  - exists (bs_of [2;0;0;0]%N), (bs_of [1;76]%N). split; [split; [done|vm_compute; reflexivity]|].
    split; [|vm_compute; reflexivity]. exists [x01]. split; [|split; [vm_compute; reflexivity|]].
    + apply len_prefix_cases. left. by exists x01.
    + exists [76]%N. split; [|vm_compute; reflexivity]. repeat constructor; unfold scalar; lia.
  - unfold delimited_body in E. vm_compute in E. do 60 (destruct p as [|? p]; [cbn in E; first [discriminate E|injection E as <-; vm_compute; reflexivity]|cbn in E; first [discriminate E|injection E as _ E]]).
Qed.

(** Without byte 12 alone the claim fails: a record that is abandoned for lack of bytes leaves its
    objects behind. *)
Definition cut_message : bytes := header_bytes 1 (-1) ++ bs_of ([6; 7;0;0;0; 1;121]
  ++ [4; 1;0;0;0; 1;65; 3;0;0;0; 1;98; 1;99; 1;100; 2; 0; 2; 9]
  ++ [2; 9;0;0;0; 1;66; 1;0;0;0; 1;112] ++ [9; 7;0;0;0] ++ [6; 7;0;0;0; 8; 97;98; 6;8;0;0;0;127]
  ++ [1;2;3;4;5;6;7;8; 10; 11])%N.
Definition cut_tail : bytes := bs_of (replicate 117 97 ++ [11])%N.
Theorem C05_prefix_free_refuted_without_libraries : ~ forall W t m m',
  x0c ∉ W ++ t -> deserialize W = POk m -> deserialize (W ++ t) = POk m' -> t = [].
Proof.
  intros H. assert (cut_tail = []); [|done].
  eapply (H cut_message cut_tail); [apply (bool_decide_unpack _); vm_compute; exact I|vm_compute; reflexivity|vm_compute; reflexivity].
Qed.

(** ** C28 for everything that is accepted *)

(** Including what abandoned records leave behind: at most twice the bound of the grammar. *)
Theorem C28_linear_accepted_partial : forall B R W m,
  deserialize W = POk m -> (1 <= B)%N -> runs_at_most B W -> ranks_at_most R W ->
  (message_size m <= 2 * (B * (1 + R) * N.of_nat (length W)))%N.
Proof.
  intros B R W m Hm HB Hr Hk. pose proof (accepted_size B R HB W m Hm) as H.
  unfold bill in H. apply H. split; [by apply ranks_tail|exact Hr].
Qed.
(** Without null runs and BinaryArray records the number of values is at most twice the number of
    bytes. *)
Theorem C28_linear_partial : forall W m, deserialize W = POk m -> x07 ∉ W -> x0d ∉ W -> x0e ∉ W ->
  (message_size m <= 2 * N.of_nat (length W))%N.
Proof.
  intros W m Hm H7 H1 H2.
  pose proof (C28_linear_accepted_partial 1 0 W m Hm (N.le_refl _) (C28_runs_absent W H1 H2) (C28_ranks_absent W H7)). lia.
Qed.
Theorem C28_bound_accepted_partial : forall B W m,
  deserialize W = POk m -> (1 <= B)%N -> runs_at_most B W ->
  (message_size m <= 2 * (B * (1 + N.of_nat (length W)) * N.of_nat (length W)))%N.
Proof. intros B W m Hm HB Hr. by apply C28_linear_accepted_partial; [..|apply C28_ranks_always]. Qed.
(** Without null run codes nothing else is needed, and with them a run counts 2^31 at most. *)
Theorem C28_bound_quadratic_partial : forall W m, deserialize W = POk m -> x0d ∉ W -> x0e ∉ W ->
  (message_size m <= 2 * ((1 + N.of_nat (length W)) * N.of_nat (length W)))%N.
Proof.
  intros W m Hm H1 H2. pose proof (C28_bound_accepted_partial 1 W m Hm (N.le_refl _) (C28_runs_absent W H1 H2)). lia.
Qed.
Theorem C28_bound_always_partial : forall W m, deserialize W = POk m ->
  (message_size m <= 2 ^ 32 * ((1 + N.of_nat (length W)) * N.of_nat (length W)))%N.
Proof.
  intros W m Hm. pose proof (C28_bound_accepted_partial (2 ^ 31) W m Hm ltac:(done) (C28_runs_always W)).
  change (2 ^ 32)%N with (2 * 2 ^ 31)%N. rewrite <- N.mul_assoc. by rewrite (N.mul_assoc (2 ^ 31)).
Qed.
(** A message outside the grammar. *)
Definition three_items : bytes := header_bytes 1 (-1) ++ bs_of [16; 1;0;0;0; 3;0;0;0; 10; 8;8; 5;0;0;0; 6; 2;0;0;0; 1;120; 11]%N.
Example C28_linear_ex : deserialize three_items = POk (MValue (VArray [VNull; VInt32 5; VString [x78]]))
  /\ x07 ∉ three_items /\ x0d ∉ three_items /\ x0e ∉ three_items
  /\ message_size (MValue (VArray [VNull; VInt32 5; VString [x78]])) = 4%N.
Proof. split; [vm_compute; reflexivity|]. split_and!; try done; apply (bool_decide_unpack _); vm_compute; exact I. Qed.
Example C28_accepted_ex : deserialize leak_message = POk (MValue leak_result)
  /\ x0d ∉ leak_message /\ x0e ∉ leak_message /\ message_size (MValue leak_result) = 8%N.
Proof.
  split; [exact leak_accepted|]. split; [apply (bool_decide_unpack _); vm_compute; exact I|].
  split; [apply (bool_decide_unpack _); vm_compute; exact I|]. vm_compute. reflexivity.
Qed.
End with_decimal.
