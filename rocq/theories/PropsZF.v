(** * PropsZF: C79. *)
From Verif Require Import Base Utf8 Value DataTypes Records Parser Wire Spec PropsA Serde SerdeLemmas SerdeSpec Display
  Reading Tokens Grammar PropsG PropsH PropsW Visitors VisitorSpec VisitorLemmas VisitorComplete VisitorEnds PropsU Derive DeriveLemmas.
From Coq Require Import Lia.
From Coq Require Strings.String.
Import String.StringSyntax.

Section with_libs.
Context {DL : DecimalLib} {FL : FloatLib} {TL : TextLib}.

(** ** C79 Attributes of derived structs *)

Section world.
Context {U Ty St : Type} (T : world U Ty St) (order : value -> value).

(** An object anywhere inside of a message. *)
Theorem C79_inside : forall class library ms t D u,
  derives T t D -> distinct_fields D -> NoDup (map fst ms) ->
  gets T (VObject (mkObj class library ms)) t (TOk u) <-> struct_value T D ms u.
Proof.
  intros class library ms t D u Hd Hf Hn. destruct (struct_iff T D t ms u Hd Hf Hn) as (vis & Hi & H). split.
  - intros Hg. inversion Hg as [? ? ? Hi'|? ? m' vis' post' r' Hi' Hs Hv]; subst; [congruence|].
    rewrite Hi in Hi'. injection Hi' as <- <- <-. cbn [id] in *. subst r'.
    inversion Hs as [| | |? o r left He|? ? ? Hno| |]; subst; [|by edestruct Hno].
    match goal with E : nothing_left _ _ _ _ = TOk _ |- _ => apply nothing_left_ok in E as [-> ->] | E : TOk _ = nothing_left _ _ _ _ |- _ => symmetry in E; apply nothing_left_ok in E as [-> ->] end. cbn [obj_members] in He. by eapply H.
  - intros Hs. pose proof (proj2 (H (N.of_nat (length ms)) []) (conj eq_refl Hs)) as He.
    apply (G_call T _ _ M_struct vis id _ Hi). exact (S_struct T vis (mkObj class library ms) (TOk u) [] He).
Qed.

(** [from_slice] at such a type returns [u] exactly if the attributes say so. *)
Theorem C79_struct : forall W class library ms ns t D u, (forall v, same_value v (order v)) ->
  deserialize W = POk (MValue (VObject (mkObj class library ms))) ->
  order (VObject (mkObj class library ms)) = VObject (mkObj class library ns) ->
  derives T t D -> distinct_fields D ->
  returns T order t W (TOk u) <-> struct_value T D ns u.
Proof.
  intros W class library ms ns t D u Ho H Hns Hd Hf. rewrite (C64_rules T order W _ t (TOk u) Ho H).
  cbn [enumerated]. rewrite Hns.
  assert (NoDup (map fst ns)) as Hn.
  { pose proof (parsed_distinct _ _ H) as Hdn. apply same_distinct with (w := order (VObject (mkObj class library ms))) in Hdn; [|done].
    rewrite Hns in Hdn. inversion Hdn; subst; [done|]. done. }
  rewrite <- (C79_inside class library ns t D u Hd Hf Hn).
  destruct Hd as (G & (vis & Hi & _) & _). split.
  - intros Hg. inversion Hg; subst; try congruence. by eapply G_call.
  - intros Hg. inversion Hg; subst; [congruence|]. eapply MG_value; [done| |done]. congruence.
Qed.
(** Otherwise it returns an error. *)
Theorem C79_otherwise : forall W class library ms ns t D, (forall v, same_value v (order v)) ->
  deserialize W = POk (MValue (VObject (mkObj class library ms))) ->
  order (VObject (mkObj class library ms)) = VObject (mkObj class library ns) ->
  derives T t D -> distinct_fields D -> ends T -> orderly T ->
  (forall u, ~ struct_value T D ns u) -> exists e, returns T order t W (TErr e).
Proof.
  intros W class library ms ns t D Ho H Hns Hd Hf He Hor Hno.
  destruct (C65_answers T order He Hor W t) as (n & [(u & Hu)|[(e & Hu)|(p & Hu)]]).
  - exfalso. apply (Hno u). apply (C79_struct W class library ms ns t D u Ho H Hns Hd Hf). by exists n.
  - exists e. by exists n.
  - exfalso. unfold from_slice_run in Hu. rewrite H in Hu. by destruct (message_run T n (enumerated order _) t) as [[]| |].
Qed.
End world.

(** *** Example *)

(** struct Person { #[serde(rename = "<Id>k")] id: i32, #[serde(alias = "nick", default)] name: String },
    with [deny_unknown_fields]. *)
Inductive xu := X_int (z : Z) | X_str (s : str) | X_known (i : nat) | X_other | X_person (us : list xu).
Inductive xt := XT_person | XT_name | XT_int | XT_str | XT_ignored.
Inductive xs := XS_next (got : list (nat * xu)) | XS_field (got : list (nat * xu)) (i : nat) | XS_skip (got : list (nat * xu))
  | XS_return (r : tres xu).
Definition x_no {A} : tres A := TErr (lit "no").
Definition x_fields : list (field xu xt) :=
  [mkField [lit "<Id>k"] XT_int None; mkField [lit "name"; lit "nick"] XT_str (Some (X_str []))].
Definition x_struct : struct_type xu xt := mkStructType x_fields true X_person XT_name XT_ignored.
Definition x_generated : generated xu xs := {|
  g_known := X_known; g_other := X_other; g_which u := match u with X_known i => Some i | _ => None end;
  g_next := XS_next; g_field := XS_field; g_skip := XS_skip; g_return := XS_return;
  g_unknown _ := lit "unknown field"; g_duplicate _ := lit "duplicate field"; g_missing _ := lit "missing field" |}.
Definition x_visitor (ints : Z -> tres xu) (strs : str -> tres xu) : visitor xu xt xs := {|
  expecting := lit "something"; on_bool _ := x_no; on_int _ := ints; on_f32 _ := x_no; on_f64 _ := x_no; on_char _ := x_no;
  on_str := strs; on_string := strs; on_borrowed_str := strs; on_unit := x_no; on_none := x_no;
  on_some := O_return x_no; on_enum := O_return x_no; on_seq := XS_return x_no; on_map _ := XS_next [] |}.
Definition x_world : world xu xt xs := {|
  w_impl t :=
    match t with
    | XT_person => I_call M_struct (x_visitor (fun _ => x_no) (fun _ => x_no)) id
    | XT_name => I_call M_any (x_visitor (fun _ => x_no) (name_result x_struct x_generated)) id
    | XT_int => I_call M_any (x_visitor (fun z => TOk (X_int z)) (fun _ => x_no)) id
    | XT_str => I_call M_any (x_visitor (fun _ => x_no) (fun s => TOk (X_str s))) id
    | XT_ignored => I_skip (TOk X_other)
    end;
  w_seq st := match st with XS_return r => Q_return r | _ => Q_return x_no end;
  w_map st :=
    match st with
    | XS_next got => P_key XT_name (after_name x_struct x_generated got)
    | XS_field got 0 => P_value XT_int (after_field x_generated got 0)
    | XS_field got 1 => P_value XT_str (after_field x_generated got 1)
    | XS_field got _ => P_return x_no
    | XS_skip got => P_value XT_ignored (after_other x_generated got)
    | XS_return r => P_return r
    end |}.
Lemma x_derives : derives x_world XT_person x_struct.
Proof.
  exists x_generated. split_and!.
  - eexists. by split.
  - eexists. by split.
  - done.
  - done.
  - done.
  - intros got [|[|i]] f Hf; cbn in Hf; simplify_eq; done.
  - done.
  - done.
Qed.
Lemma x_distinct : distinct_fields x_struct.
Proof. apply (bool_decide_unpack _). vm_compute. exact I. Qed.
Lemma x_ends : ends x_world.
Proof.
  exists (fun _ => 0), (fun st => match st with XS_return _ => 0 | _ => 1 end). split_and!.
  - intros [] vis post t' k H; discriminate H.
  - intros [] vis post t' k H; discriminate H.
  - intros [] t k H; discriminate H.
  - intros [|got [|[|i]]| |] t k; try done. intros H. injection H as <- <-. cbn. lia.
  - intros [|got [|[|i]]| |] tk tv k H; discriminate H.
Qed.
Lemma x_orderly : orderly x_world.
Proof.
  exists (fun st => match st with XS_field _ _ | XS_skip _ => True | _ => False end). split_and!.
  - intros [] m vis post n; cbn; intros H; try discriminate; injection H as <- <- <-; cbn; auto.
  - by intros [|got [|[|i]]| |] t k.
  - intros [|got [|[|i]]| |] t k; try discriminate. intros H. injection H as <- <-. cbn. auto.
  - intros [|got [|[|i]]| |] t k x; try discriminate; intros H; injection H as <- <-; destruct x; cbn; auto.
  - by intros [|got [|[|i]]| |] tk tv k x.
Qed.

Definition x_object (names : list str) (ts : list token) : bytes :=
  message_text 1 (Tk_class (mkClassHeader 1 (lit "Person") names (Some (map (fun t => match t with Tk_value _ => K_Primitive PT_Int32 | _ => K_String end) ts)) None) :: ts).
Example C79_ex :
  (* renamed, and under the other name *)
  returns x_world id XT_person (x_object [lit "nick"; lit "<Id>k"] [Tk_string 2 (lit "Bo"); Tk_value (VInt32 7)])
    (TOk (X_person [X_int 7; X_str (lit "Bo")]))
  (* absent *)
  /\ returns x_world id XT_person (x_object [lit "<Id>k"] [Tk_value (VInt32 7)]) (TOk (X_person [X_int 7; X_str []]))
  (* both names, an unknown name, a missing field *)
  /\ returns x_world id XT_person
       (x_object [lit "nick"; lit "<Id>k"; lit "name"] [Tk_string 2 (lit "Bo"); Tk_value (VInt32 7); Tk_string 3 (lit "Al")])
       (TErr (lit "duplicate field"))
  /\ returns x_world id XT_person (x_object [lit "<Id>k"; lit "x"] [Tk_value (VInt32 7); Tk_value (VInt32 8)]) (TErr (lit "unknown field"))
  /\ returns x_world id XT_person (x_object [lit "nick"] [Tk_string 2 (lit "Bo")]) (TErr (lit "missing field")).
Proof. split_and!; exists 20; vm_compute; reflexivity. Qed.
(** The promise for the first of them. *)
Example C79_struct_ex :
  deserialize (x_object [lit "nick"; lit "<Id>k"] [Tk_string 2 (lit "Bo"); Tk_value (VInt32 7)])
    = POk (MValue (VObject (mkObj (lit "Person") None [(lit "nick", VString (lit "Bo")); (lit "<Id>k", VInt32 7)])))
  /\ struct_value x_world x_struct [(lit "nick", VString (lit "Bo")); (lit "<Id>k", VInt32 7)] (X_person [X_int 7; X_str (lit "Bo")]).
Proof.
  split; [vm_compute; reflexivity|].
  assert (deserialize (x_object [lit "nick"; lit "<Id>k"] [Tk_string 2 (lit "Bo"); Tk_value (VInt32 7)])
    = POk (MValue (VObject (mkObj (lit "Person") None [(lit "nick", VString (lit "Bo")); (lit "<Id>k", VInt32 7)])))) as E
    by (vm_compute; reflexivity).
  apply (proj1 (C79_struct x_world id _ _ _ _ _ XT_person x_struct _ (fun v => same_refl v) E eq_refl x_derives x_distinct)).
  exists 20. vm_compute. reflexivity.
Qed.
End with_libs.
