(** * Tokens: messages as sequences of records, and the renaming of ids.

    Specification only: nothing here mentions the parser.  A token is a record without the members
    that follow it, or a primitive value that stands for a member.  The rules [T_X] are the rules
    [G_X] of Grammar.v on sequences of tokens instead of bytes. *)
From Verif Require Import Base Value Wire Grammar.

Inductive token :=
| Tk_library (id : N) (name : str)
| Tk_class (h : class_header)
| Tk_value (v : value)                    (* a primitive value without any code *)
| Tk_typed (v : value)                    (* MemberPrimitiveTyped *)
| Tk_reference (id : N)
| Tk_string (id : N) (s : str)
| Tk_nulls (n : N)
| Tk_objects (id len : N)                 (* the header of ArraySingleObject *)
| Tk_strings (id len : N)                 (* the header of ArraySingleString *)
| Tk_prims (id : N) (p : primitive_type) (vs : list value)
| Tk_array (id : N) (bat : binary_array_type) (lengths : list N) (bounds : option (list N)) (k : kind)
| Tk_call (flags : Z) (name type : str) (ctx : option str) (args : option (list value))
| Tk_return (flags : Z) (ret : option value) (ctx : option str) (args : option (list value)).

Section with_decimal.
Context {DL : DecimalLib}.

(** ** Bytes *)

Definition e_token (t : token) (bs : bytes) : Prop :=
  match t with
  | Tk_library id name => e_library_record id name bs
  | Tk_class h => e_class_header h bs
  | Tk_value v => e_prim v bs
  | Tk_typed v => e_prim_typed v bs
  | Tk_reference id => e_member_reference id bs
  | Tk_string id s => e_string_record id s bs
  | Tk_nulls n => e_null n bs
  | Tk_objects id len => e_array_header x10 id len bs
  | Tk_strings id len => e_array_header x11 id len bs
  | Tk_prims id p vs => e_prim_array id p vs bs
  | Tk_array id bat lengths bounds k => e_binary_array_header id bat lengths bounds k bs
  | Tk_call flags name type ctx args => e_method_call flags name type ctx args bs
  | Tk_return flags ret ctx args => e_method_return flags ret ctx args bs
  end.

(** The bytes of a whole message: header, tokens, [MessageEnd]. *)
Definition message_bytes (root : option N) (ts : list token) (W : bytes) : Prop :=
  exists hb b, e_header root hb /\ e_list e_token ts b /\ W = hb ++ b ++ [x0b].

(** No member value looks like a library record (together with what follows it). *)
Definition undisturbed (ts : list token) : Prop :=
  forall before v after b,
    ts = before ++ Tk_value v :: after -> e_list e_token (Tk_value v :: after) b ->
    no_library (b ++ [x0b]).
(** In particular: no member value starts with the byte 12. *)
Definition no_value_12 (ts : list token) : Prop :=
  forall v b, Tk_value v ∈ ts -> e_prim v b -> head b <> Some x0c.

(** ** Renaming *)

(** [f] renames objects, [g] renames libraries. *)
Definition rename_kind (g : N -> N) (k : kind) : kind :=
  match k with K_Class name lid => K_Class name (g lid) | _ => k end.
Definition rename_header (f g : N -> N) (h : class_header) : class_header :=
  mkClassHeader (f (ch_object_id h)) (ch_name h) (ch_member_names h)
    (option_map (map (rename_kind g)) (ch_types h)) (option_map g (ch_library h)).
Definition rename (f g : N -> N) (t : token) : token :=
  match t with
  | Tk_library id name => Tk_library (g id) name
  | Tk_class h => Tk_class (rename_header f g h)
  | Tk_reference id => Tk_reference (f id)
  | Tk_string id s => Tk_string (f id) s
  | Tk_objects id len => Tk_objects (f id) len
  | Tk_strings id len => Tk_strings (f id) len
  | Tk_prims id p vs => Tk_prims (f id) p vs
  | Tk_array id bat lengths bounds k => Tk_array (f id) bat lengths bounds (rename_kind g k)
  | _ => t
  end.

(** ** Meaning *)

(** At a member of kind [k], the token stands for this item. *)
Definition simple_token (k : kind) (it : item) (t : token) : Prop :=
  match k, t with
  | K_Any, Tk_typed v => it = It_Value v
  | (K_Any | K_StringArray | K_PrimitiveArray _), Tk_reference id => it = It_Ref id
  | (K_Any | K_String | K_StringArray), Tk_string _ s => it = It_Value (VString s)
  | (K_Any | K_StringArray | K_SystemClass _ | K_Class _ _), Tk_nulls n => it = It_Nulls n
  | K_Primitive p, Tk_value v => it = It_Value v /\ prim_type_of v = Some p
  | _, _ => False
  end.

(** An optional library record; ids may be declared once. *)
Inductive t_lib (e : env) : list token -> env -> list token -> Prop :=
| T_lib_some id name ts :
    e_libs e !! id = None -> t_lib e (Tk_library id name :: ts) (add_lib id name e) ts
| T_lib_none ts :
    match ts with Tk_library _ _ :: _ => False | _ => True end -> t_lib e ts e ts.

(** Class records, members, member lists, resolution of references (in the order of the
    members; a referenced object is taken out of the table, an unknown one must be the next
    record), and records with an object id. *)
Inductive t_class : env -> list token -> N -> obj value -> env -> list token -> Prop :=
| T_class e i e1 i1 h lib its e2 i2 vs e3 i3 :
    t_lib e i e1 (Tk_class h :: i1) -> class_library e1 h lib ->
    t_items (member_kinds h) e1 i1 its e2 i2 ->
    t_resolve its e2 i2 vs e3 i3 ->
    t_class e i (ch_object_id h)
      (mkObj (ch_name h) lib (hm_from_iter (zip (ch_member_names h) vs))) e3 i3
with t_member : kind -> env -> list token -> item -> env -> list token -> Prop :=
| T_simple k e i e1 t i1 it :
    t_lib e i e1 (t :: i1) -> kind_ok e1 k -> simple_token k it t -> t_member k e i it e1 i1
| T_inline k e i e1 i1 id o e2 i2 :
    t_lib e i e1 i1 -> class_kind e1 k o -> t_class e1 i1 id o e2 i2 ->
    t_member k e i (It_Value (VObject o)) e2 i2
| T_nested k e i e1 i1 it e2 i2 :
    k = K_Object \/ k = K_ObjectArray ->
    t_lib e i e1 i1 -> t_member K_Any e1 i1 it e2 i2 -> t_member k e i it e2 i2
with t_items : list kind -> env -> list token -> list item -> env -> list token -> Prop :=
| T_items_nil e i : t_items [] e i [] e i
| T_items_cons k ks e i it e1 i1 its e2 i2 :
    t_member k e i it e1 i1 -> t_items ks e1 i1 its e2 i2 ->
    t_items (k :: ks) e i (it :: its) e2 i2
with t_resolve : list item -> env -> list token -> list value -> env -> list token -> Prop :=
| T_res_nil e i : t_resolve [] e i [] e i
| T_res_value v its e i vs e' i' :
    t_resolve its e i vs e' i' -> t_resolve (It_Value v :: its) e i (v :: vs) e' i'
| T_res_nulls n its e i vs e' i' :
    t_resolve its e i vs e' i' ->
    t_resolve (It_Nulls n :: its) e i (replicate (N.to_nat n) VNull ++ vs) e' i'
| T_res_known id v its e i vs e' i' :
    e_objs e !! id = Some v ->
    t_resolve its (del_obj id e) i vs e' i' -> t_resolve (It_Ref id :: its) e i (v :: vs) e' i'
| T_res_next id v its e i e1 i1 vs e' i' :
    e_objs e !! id = None -> t_record e i id v e1 i1 ->
    t_resolve its (del_obj id e1) i1 vs e' i' -> t_resolve (It_Ref id :: its) e i (v :: vs) e' i'
with t_record : env -> list token -> N -> value -> env -> list token -> Prop :=
| T_rec_object e i id o e' i' : t_class e i id o e' i' -> t_record e i id (VObject o) e' i'
| T_rec_string e i id s : t_record e (Tk_string id s :: i) id (VString s) e i
| T_rec_prims e i id p vs : t_record e (Tk_prims id p vs :: i) id (VArray vs) e i
| T_rec_objects e i id len its e1 i1 vs e2 i2 :
    t_items (replicate (length its) K_Any) e i its e1 i1 -> fills len its ->
    t_resolve its e1 i1 vs e2 i2 ->
    t_record e (Tk_objects id len :: i) id (VArray vs) e2 i2
| T_rec_strings e i id len its e1 i1 vs e2 i2 :
    t_items (replicate (length its) K_StringArray) e i its e1 i1 -> fills len its ->
    t_resolve its e1 i1 vs e2 i2 ->
    t_record e (Tk_strings id len :: i) id (VArray vs) e2 i2
| T_rec_array e i id bat lengths bounds k its e1 i1 vs e2 i2 out :
    no_overflow lengths ->
    t_items (replicate (N.to_nat (product lengths)) k) e i its e1 i1 ->
    t_resolve its e1 i1 vs e2 i2 ->
    shaped (tail lengths) vs out ->
    t_record e (Tk_array id bat lengths bounds k :: i) id (VArray out) e2 i2.

(** A sequence of records; a later one with the same id replaces the earlier one. *)
Inductive t_objects : env -> list token -> env -> list token -> Prop :=
| T_objs_nil e i : t_objects e i e i
| T_objs_cons e i id v e1 i1 e2 i2 :
    t_record e i id v e1 i1 -> t_objects (add_obj id v e1) i1 e2 i2 -> t_objects e i e2 i2.

(** The call array after a method record: an object array whose id is the root id. *)
Inductive t_call_array (root : option N) (e : env) (i : list token)
  : option (list value) -> env -> list token -> Prop :=
| T_ca_none :
    match i with Tk_objects _ _ :: _ | Tk_library _ _ :: _ => False | _ => True end ->
    t_call_array root e i None e i
| T_ca_some e1 id len i1 its e2 i2 vs e3 i3 :
    t_lib e i e1 (Tk_objects id len :: i1) -> root = Some id ->
    t_items (replicate (length its) K_Any) e1 i1 its e2 i2 -> fills len its ->
    t_resolve its e2 i2 vs e3 i3 ->
    t_call_array root e i (Some vs) e3 i3.

(** A method record with its call array. *)
Inductive t_method (root : option N) (e : env) : list token -> message -> env -> list token -> Prop :=
| T_call flags name type ctx inline i ca args e' i' :
    t_call_array root e i ca e' i' -> args_rule flags ca inline args ->
    t_method root e (Tk_call flags name type ctx inline :: i)
      (MMethodCall (mkMethodCall name type ctx args)) e' i'
| T_return flags ret ctx inline i ca args e' i' :
    t_call_array root e i ca e' i' -> args_rule flags ca inline args ->
    t_method root e (Tk_return flags ret ctx inline :: i)
      (MMethodReturn (mkMethodReturn ret ctx args)) e' i'.

(** Messages: records, possibly a method record followed by more records. *)
Inductive t_message (root : option N) : list token -> message -> Prop :=
| T_msg_value i e v :
    t_objects empty_env i e [] -> root_value root e v -> t_message root i (MValue v)
| T_msg_method i e1 i1 m e2 i2 e3 :
    t_objects empty_env i e1 i1 -> t_method root e1 i1 m e2 i2 -> t_objects e2 i2 e3 [] ->
    t_message root i m.
End with_decimal.

Scheme t_class_mind := Minimality for t_class Sort Prop
with t_member_mind := Minimality for t_member Sort Prop
with t_items_mind := Minimality for t_items Sort Prop
with t_resolve_mind := Minimality for t_resolve Sort Prop
with t_record_mind := Minimality for t_record Sort Prop.
Combined Scheme t_mut_ind from t_class_mind, t_member_mind, t_items_mind, t_resolve_mind, t_record_mind.
