(** * Grammar: a declarative grammar of messages.

    Specification only: nothing here mentions the parser.  [g_X e i ... e' i'] reads "at the
    input position [i] (the bytes still to be read), with the tables [e], there stands an X
    with the given meaning; afterwards the position is [i'] and the tables are [e']". *)
From Verif Require Import Base Value Wire.

(** The declared libraries and the objects that can be referenced. *)
Record env := mkEnv { e_libs : gmap N str; e_objs : gmap N value }.
Definition empty_env : env := mkEnv ∅ ∅.
Definition add_lib (id : N) (name : str) (e : env) : env :=
  mkEnv (<[id := name]> (e_libs e)) (e_objs e).
Definition add_obj (id : N) (v : value) (e : env) : env :=
  mkEnv (e_libs e) (<[id := v]> (e_objs e)).
Definition del_obj (id : N) (e : env) : env := mkEnv (e_libs e) (delete id (e_objs e)).

(** What stands at a member position: a value, a run of nulls, a reference. *)
Inductive item := It_Value (v : value) | It_Nulls (n : N) | It_Ref (id : N).

(** The number of array elements an item stands for. *)
Definition item_size (it : item) : N := match it with It_Nulls n => n | _ => 1%N end.
Fixpoint items_size (l : list item) : N :=
  match l with [] => 0 | it :: l => item_size it + items_size l end%N.

(** The items that make up an array of declared length [len]: the last one reaches [len]. *)
Definition fills (len : N) (its : list item) : Prop :=
  (len = 0%N /\ its = [])
  \/ exists init last, its = init ++ [last] /\ (items_size init < len <= items_size its)%N.

(** No [BinaryLibrary] record stands at [i].  A byte 12 followed by a valid id but by no
    string is not taken for a library; a byte 12 followed by an invalid id is an error. *)
Definition no_library (i : bytes) : Prop :=
  match i with
  | x0c :: r =>
      exists id b r', e_id id b /\ r = b ++ r' /\ ~ exists s bs r'', e_str s bs /\ r' = bs ++ r''
  | _ => True
  end.

(** An optional library record; ids may be declared once. *)
Inductive g_lib (e : env) : bytes -> env -> bytes -> Prop :=
| G_lib_some id name bs i :
    e_library_record id name bs -> e_libs e !! id = None ->
    g_lib e (bs ++ i) (add_lib id name e) i
| G_lib_none i : no_library i -> g_lib e i e i.

(** The library of a class record. *)
Definition class_library (e : env) (h : class_header) (lib : option str) : Prop :=
  match ch_library h with
  | None => lib = None
  | Some lid => exists l, e_libs e !! lid = Some l /\ lib = Some l
  end.

(** The declared kinds of the members of a class. *)
Definition member_kinds (h : class_header) : list kind :=
  match ch_types h with
  | Some ks => ks
  | None => replicate (length (ch_member_names h)) K_Any
  end.

(** A member declared with a library class needs the library. *)
Definition kind_ok (e : env) (k : kind) : Prop :=
  match k with K_Class _ lid => is_Some (e_libs e !! lid) | _ => True end.

(** The inline objects allowed at a member of kind [k]. *)
Definition class_kind (e : env) (k : kind) (o : obj value) : Prop :=
  match k with
  | K_Any => True
  | K_SystemClass n => obj_class o = n /\ obj_library o = None
  | K_Class n lid =>
      exists l, e_libs e !! lid = Some l /\ obj_class o = n /\ obj_library o = Some l
  | _ => False
  end.

(** Multi-dimensional arrays: [has_shape dims v leaves], the nested array [v] has the
    dimensions [dims] and, in row-major order, the elements [leaves]. *)
Inductive has_shape : list N -> value -> list value -> Prop :=
| hs_leaf v : has_shape [] v [v]
| hs_node d dims rows leaves :
    N.of_nat (length rows) = d -> Forall2 (has_shape dims) rows leaves ->
    has_shape (d :: dims) (VArray rows) (concat leaves).

(** The elements of the outermost dimension have the shape of the remaining dimensions [dims].
    An array without elements is empty, whatever its dimensions. *)
Definition shaped (dims : list N) (vs out : list value) : Prop :=
  (vs = [] /\ out = [])
  \/ (vs <> [] /\ exists leaves, Forall2 (has_shape dims) out leaves /\ concat leaves = vs).

Definition product (l : list N) : N := fold_right N.mul 1%N l.
(** No partial product (from the left) exceeds 64 bits. *)
Definition no_overflow (l : list N) : Prop :=
  forall k, k <= length l -> (product (take k l) < 2 ^ 64)%N.

Section with_decimal.
Context {DL : DecimalLib}.

(** Items without nested records. *)
Definition str_item (it : item) (bs : bytes) : Prop :=
  exists id s, it = It_Value (VString s) /\ e_string_record id s bs.
Definition ref_item (it : item) (bs : bytes) : Prop :=
  exists id, it = It_Ref id /\ e_member_reference id bs.
Definition null_item (it : item) (bs : bytes) : Prop :=
  exists n, it = It_Nulls n /\ e_null n bs.
Definition typed_item (it : item) (bs : bytes) : Prop :=
  exists v, it = It_Value v /\ e_prim_typed v bs.

Definition simple_item (k : kind) (it : item) (bs : bytes) : Prop :=
  match k with
  | K_Any => typed_item it bs \/ ref_item it bs \/ str_item it bs \/ null_item it bs
  | K_Primitive p => exists v, it = It_Value v /\ prim_type_of v = Some p /\ e_prim v bs
  | K_String => str_item it bs
  | K_SystemClass _ | K_Class _ _ => null_item it bs
  | K_StringArray => str_item it bs \/ ref_item it bs \/ null_item it bs
  | K_PrimitiveArray _ => ref_item it bs
  | K_Object | K_ObjectArray => False
  end.

(** Class records, members, member lists, resolution of references (in the order of the
    members; a referenced object is taken out of the table, an unknown one must be the next
    record), and records with an object id. *)
Inductive g_class : env -> bytes -> N -> obj value -> env -> bytes -> Prop :=
| G_class e i e1 bs i1 h lib its e2 i2 vs e3 i3 :
    g_lib e i e1 (bs ++ i1) -> e_class_header h bs -> class_library e1 h lib ->
    g_items (member_kinds h) e1 i1 its e2 i2 ->
    g_resolve its e2 i2 vs e3 i3 ->
    g_class e i (ch_object_id h)
      (mkObj (ch_name h) lib (hm_from_iter (zip (ch_member_names h) vs))) e3 i3
with g_member : kind -> env -> bytes -> item -> env -> bytes -> Prop :=
| G_simple k e i e1 bs i1 it :
    g_lib e i e1 (bs ++ i1) -> kind_ok e1 k -> simple_item k it bs -> g_member k e i it e1 i1
| G_inline k e i e1 i1 id o e2 i2 :
    g_lib e i e1 i1 -> class_kind e1 k o -> g_class e1 i1 id o e2 i2 ->
    g_member k e i (It_Value (VObject o)) e2 i2
| G_nested k e i e1 i1 it e2 i2 :
    k = K_Object \/ k = K_ObjectArray ->
    g_lib e i e1 i1 -> g_member K_Any e1 i1 it e2 i2 -> g_member k e i it e2 i2
with g_items : list kind -> env -> bytes -> list item -> env -> bytes -> Prop :=
| G_items_nil e i : g_items [] e i [] e i
| G_items_cons k ks e i it e1 i1 its e2 i2 :
    g_member k e i it e1 i1 -> g_items ks e1 i1 its e2 i2 ->
    g_items (k :: ks) e i (it :: its) e2 i2
with g_resolve : list item -> env -> bytes -> list value -> env -> bytes -> Prop :=
| G_res_nil e i : g_resolve [] e i [] e i
| G_res_value v its e i vs e' i' :
    g_resolve its e i vs e' i' -> g_resolve (It_Value v :: its) e i (v :: vs) e' i'
| G_res_nulls n its e i vs e' i' :
    g_resolve its e i vs e' i' ->
    g_resolve (It_Nulls n :: its) e i (replicate (N.to_nat n) VNull ++ vs) e' i'
| G_res_known id v its e i vs e' i' :
    e_objs e !! id = Some v ->
    g_resolve its (del_obj id e) i vs e' i' -> g_resolve (It_Ref id :: its) e i (v :: vs) e' i'
| G_res_next id v its e i e1 i1 vs e' i' :
    e_objs e !! id = None -> g_record e i id v e1 i1 ->
    g_resolve its (del_obj id e1) i1 vs e' i' -> g_resolve (It_Ref id :: its) e i (v :: vs) e' i'
with g_record : env -> bytes -> N -> value -> env -> bytes -> Prop :=
| G_rec_object e i id o e' i' : g_class e i id o e' i' -> g_record e i id (VObject o) e' i'
| G_rec_string e i id s bs : e_string_record id s bs -> g_record e (bs ++ i) id (VString s) e i
| G_rec_prims e i id p vs bs : e_prim_array id p vs bs -> g_record e (bs ++ i) id (VArray vs) e i
| G_rec_objects e i id len bs its e1 i1 vs e2 i2 :
    e_array_header x10 id len bs ->
    g_items (replicate (length its) K_Any) e i its e1 i1 -> fills len its ->
    g_resolve its e1 i1 vs e2 i2 ->
    g_record e (bs ++ i) id (VArray vs) e2 i2
| G_rec_strings e i id len bs its e1 i1 vs e2 i2 :
    e_array_header x11 id len bs ->
    g_items (replicate (length its) K_StringArray) e i its e1 i1 -> fills len its ->
    g_resolve its e1 i1 vs e2 i2 ->
    g_record e (bs ++ i) id (VArray vs) e2 i2
| G_rec_array e i id bat lengths bounds k bs its e1 i1 vs e2 i2 out :
    e_binary_array_header id bat lengths bounds k bs -> no_overflow lengths ->
    g_items (replicate (N.to_nat (product lengths)) k) e i its e1 i1 ->
    g_resolve its e1 i1 vs e2 i2 ->
    shaped (tail lengths) vs out ->
    g_record e (bs ++ i) id (VArray out) e2 i2.

(** A sequence of records; a later one with the same id replaces the earlier one. *)
Inductive g_objects : env -> bytes -> env -> bytes -> Prop :=
| G_objs_nil e i : g_objects e i e i
| G_objs_cons e i id v e1 i1 e2 i2 :
    g_record e i id v e1 i1 -> g_objects (add_obj id v e1) i1 e2 i2 -> g_objects e i e2 i2.

(** The call array after a method record: an object array whose id is the root id. *)
Inductive g_call_array (root : option N) (e : env) (i : bytes)
  : option (list value) -> env -> bytes -> Prop :=
| G_ca_none :
    match i with x10 :: _ | x0c :: _ => False | _ => True end ->
    g_call_array root e i None e i
| G_ca_some e1 id len bs i1 its e2 i2 vs e3 i3 :
    g_lib e i e1 (bs ++ i1) -> e_array_header x10 id len bs -> root = Some id ->
    g_items (replicate (length its) K_Any) e1 i1 its e2 i2 -> fills len its ->
    g_resolve its e2 i2 vs e3 i3 ->
    g_call_array root e i (Some vs) e3 i3.

(** The arguments of a call or return with the given flags, call array and inline arguments. *)
Definition args_rule (flags : Z) (call_array inline args : option (list value)) : Prop :=
  if Z.testbit flags bit_ArgsIsArray then
    exists a, call_array = Some a /\ args = Some a
  else if Z.testbit flags bit_ArgsInArray then
    exists a r, call_array = Some (VArray a :: r) /\ args = Some a
  else args = inline.

(** A method record with its call array. *)
Inductive g_method (root : option N) (e : env) : bytes -> message -> env -> bytes -> Prop :=
| G_call flags name type ctx inline bs i ca args e' i' :
    e_method_call flags name type ctx inline bs ->
    g_call_array root e i ca e' i' -> args_rule flags ca inline args ->
    g_method root e (bs ++ i) (MMethodCall (mkMethodCall name type ctx args)) e' i'
| G_return flags ret ctx inline bs i ca args e' i' :
    e_method_return flags ret ctx inline bs ->
    g_call_array root e i ca e' i' -> args_rule flags ca inline args ->
    g_method root e (bs ++ i) (MMethodReturn (mkMethodReturn ret ctx args)) e' i'.

(** The value of a message without a method record. *)
Definition root_value (root : option N) (e : env) (v : value) : Prop :=
  match root with
  | Some r => e_objs e !! r = Some v
  | None => v = VNull
  end.

(** Messages: header, records, possibly a method record followed by more records, and a final
    [MessageEnd]. *)
Inductive g_message : bytes -> message -> Prop :=
| G_msg_value root hb i e v :
    e_header root hb -> g_objects empty_env i e [x0b] -> root_value root e v ->
    g_message (hb ++ i) (MValue v)
| G_msg_method root hb i e1 i1 m e2 i2 e3 :
    e_header root hb -> g_objects empty_env i e1 i1 -> g_method root e1 i1 m e2 i2 ->
    g_objects e2 i2 e3 [x0b] ->
    g_message (hb ++ i) m.

End with_decimal.

Scheme g_class_mind := Minimality for g_class Sort Prop
with g_member_mind := Minimality for g_member Sort Prop
with g_items_mind := Minimality for g_items Sort Prop
with g_resolve_mind := Minimality for g_resolve Sort Prop
with g_record_mind := Minimality for g_record Sort Prop.
Combined Scheme g_mut_ind from g_class_mind, g_member_mind, g_items_mind, g_resolve_mind, g_record_mind.
