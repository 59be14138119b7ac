(** * Delimited: messages of the grammar without a cut-off library record.

    Specification only: nothing here mentions the parser.  The rules [D_X] are the rules [G_X] of
    Grammar.v, with one difference: where a library record may stand and none does, the remaining
    bytes must not be the beginning of one either, that is, no bytes that could be appended may
    complete a library record there (rule [D_lib_none]). *)
From Verif Require Import Base Value Wire Spec Grammar.

(** Where a library record may stand. *)
Inductive d_lib (e : env) : bytes -> env -> bytes -> Prop :=
| D_lib_some id name bs i :
    e_library_record id name bs -> e_libs e !! id = None ->
    d_lib e (bs ++ i) (add_lib id name e) i
| D_lib_none i : no_library i -> ~ cut_library i -> d_lib e i e i.

Section with_decimal.
Context {DL : DecimalLib}.

(** Class records, members, member lists, resolution of references (in the order of the
    members; a referenced object is taken out of the table, an unknown one must be the next
    record), and records with an object id. *)
Inductive d_class : env -> bytes -> N -> obj value -> env -> bytes -> Prop :=
| D_class e i e1 bs i1 h lib its e2 i2 vs e3 i3 :
    d_lib e i e1 (bs ++ i1) -> e_class_header h bs -> class_library e1 h lib ->
    d_items (member_kinds h) e1 i1 its e2 i2 ->
    d_resolve its e2 i2 vs e3 i3 ->
    d_class e i (ch_object_id h)
      (mkObj (ch_name h) lib (hm_from_iter (zip (ch_member_names h) vs))) e3 i3
with d_member : kind -> env -> bytes -> item -> env -> bytes -> Prop :=
| D_simple k e i e1 bs i1 it :
    d_lib e i e1 (bs ++ i1) -> kind_ok e1 k -> simple_item k it bs -> d_member k e i it e1 i1
| D_inline k e i e1 i1 id o e2 i2 :
    d_lib e i e1 i1 -> class_kind e1 k o -> d_class e1 i1 id o e2 i2 ->
    d_member k e i (It_Value (VObject o)) e2 i2
| D_nested k e i e1 i1 it e2 i2 :
    k = K_Object \/ k = K_ObjectArray ->
    d_lib e i e1 i1 -> d_member K_Any e1 i1 it e2 i2 -> d_member k e i it e2 i2
with d_items : list kind -> env -> bytes -> list item -> env -> bytes -> Prop :=
| D_items_nil e i : d_items [] e i [] e i
| D_items_cons k ks e i it e1 i1 its e2 i2 :
    d_member k e i it e1 i1 -> d_items ks e1 i1 its e2 i2 ->
    d_items (k :: ks) e i (it :: its) e2 i2
with d_resolve : list item -> env -> bytes -> list value -> env -> bytes -> Prop :=
| D_res_nil e i : d_resolve [] e i [] e i
| D_res_value v its e i vs e' i' :
    d_resolve its e i vs e' i' -> d_resolve (It_Value v :: its) e i (v :: vs) e' i'
| D_res_nulls n its e i vs e' i' :
    d_resolve its e i vs e' i' ->
    d_resolve (It_Nulls n :: its) e i (replicate (N.to_nat n) VNull ++ vs) e' i'
| D_res_known id v its e i vs e' i' :
    e_objs e !! id = Some v ->
    d_resolve its (del_obj id e) i vs e' i' -> d_resolve (It_Ref id :: its) e i (v :: vs) e' i'
| D_res_next id v its e i e1 i1 vs e' i' :
    e_objs e !! id = None -> d_record e i id v e1 i1 ->
    d_resolve its (del_obj id e1) i1 vs e' i' -> d_resolve (It_Ref id :: its) e i (v :: vs) e' i'
with d_record : env -> bytes -> N -> value -> env -> bytes -> Prop :=
| D_rec_object e i id o e' i' : d_class e i id o e' i' -> d_record e i id (VObject o) e' i'
| D_rec_string e i id s bs : e_string_record id s bs -> d_record e (bs ++ i) id (VString s) e i
| D_rec_prims e i id p vs bs : e_prim_array id p vs bs -> d_record e (bs ++ i) id (VArray vs) e i
| D_rec_objects e i id len bs its e1 i1 vs e2 i2 :
    e_array_header x10 id len bs ->
    d_items (replicate (length its) K_Any) e i its e1 i1 -> fills len its ->
    d_resolve its e1 i1 vs e2 i2 ->
    d_record e (bs ++ i) id (VArray vs) e2 i2
| D_rec_strings e i id len bs its e1 i1 vs e2 i2 :
    e_array_header x11 id len bs ->
    d_items (replicate (length its) K_StringArray) e i its e1 i1 -> fills len its ->
    d_resolve its e1 i1 vs e2 i2 ->
    d_record e (bs ++ i) id (VArray vs) e2 i2
| D_rec_array e i id bat lengths bounds k bs its e1 i1 vs e2 i2 out :
    e_binary_array_header id bat lengths bounds k bs -> no_overflow lengths ->
    d_items (replicate (N.to_nat (product lengths)) k) e i its e1 i1 ->
    d_resolve its e1 i1 vs e2 i2 ->
    shaped (tail lengths) vs out ->
    d_record e (bs ++ i) id (VArray out) e2 i2.

(** A sequence of records; a later one with the same id replaces the earlier one. *)
Inductive d_objects : env -> bytes -> env -> bytes -> Prop :=
| D_objs_nil e i : d_objects e i e i
| D_objs_cons e i id v e1 i1 e2 i2 :
    d_record e i id v e1 i1 -> d_objects (add_obj id v e1) i1 e2 i2 -> d_objects e i e2 i2.

(** The call array after a method record: an object array whose id is the root id. *)
Inductive d_call_array (root : option N) (e : env) (i : bytes)
  : option (list value) -> env -> bytes -> Prop :=
| D_ca_none :
    match i with x10 :: _ | x0c :: _ => False | _ => True end ->
    d_call_array root e i None e i
| D_ca_some e1 id len bs i1 its e2 i2 vs e3 i3 :
    d_lib e i e1 (bs ++ i1) -> e_array_header x10 id len bs -> root = Some id ->
    d_items (replicate (length its) K_Any) e1 i1 its e2 i2 -> fills len its ->
    d_resolve its e2 i2 vs e3 i3 ->
    d_call_array root e i (Some vs) e3 i3.

(** A method record with its call array. *)
Inductive d_method (root : option N) (e : env) : bytes -> message -> env -> bytes -> Prop :=
| D_call flags name type ctx inline bs i ca args e' i' :
    e_method_call flags name type ctx inline bs ->
    d_call_array root e i ca e' i' -> args_rule flags ca inline args ->
    d_method root e (bs ++ i) (MMethodCall (mkMethodCall name type ctx args)) e' i'
| D_return flags ret ctx inline bs i ca args e' i' :
    e_method_return flags ret ctx inline bs ->
    d_call_array root e i ca e' i' -> args_rule flags ca inline args ->
    d_method root e (bs ++ i) (MMethodReturn (mkMethodReturn ret ctx args)) e' i'.

(** Messages: header, records, possibly a method record followed by more records, and a final
    [MessageEnd]. *)
Inductive d_message : bytes -> message -> Prop :=
| D_msg_value root hb i e v :
    e_header root hb -> d_objects empty_env i e [x0b] -> root_value root e v ->
    d_message (hb ++ i) (MValue v)
| D_msg_method root hb i e1 i1 m e2 i2 e3 :
    e_header root hb -> d_objects empty_env i e1 i1 -> d_method root e1 i1 m e2 i2 ->
    d_objects e2 i2 e3 [x0b] ->
    d_message (hb ++ i) m.

End with_decimal.

Scheme d_class_mind := Minimality for d_class Sort Prop
with d_member_mind := Minimality for d_member Sort Prop
with d_items_mind := Minimality for d_items Sort Prop
with d_resolve_mind := Minimality for d_resolve Sort Prop
with d_record_mind := Minimality for d_record Sort Prop.
Combined Scheme d_mut_ind from d_class_mind, d_member_mind, d_items_mind, d_resolve_mind, d_record_mind.
