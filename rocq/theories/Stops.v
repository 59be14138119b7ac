(** * Stops: where reading a record stops, and what it leaves behind.

    Specification only: nothing here mentions the parser.

    A record that is not well-formed is either given up or reported.  Both the place at which
    it stops being well-formed and the tables at this place matter: libraries and objects that
    were entered in the tables before stay there. *)
From Verif Require Import Base Value Wire Grammar Spec Positions.

(** The first byte of [i] is one of [l]. *)
Definition begins (l : list byte) (i : bytes) : Prop :=
  match i with c :: _ => c ∈ l | [] => False end.
(** An encoding stands at [i]. *)
Definition starts {A} (E : A -> bytes -> Prop) (i : bytes) : Prop :=
  exists a b r, E a b /\ i = b ++ r.
(** No string stands at [i]: the length prefix or the characters are malformed or cut off. *)
Definition no_string (i : bytes) : Prop := ~ starts e_str i.

(** ** Well-formed up to a string

    A missing string is the only thing inside the fixed parts of a record after which the record
    is given up instead of reported. *)

(** Class headers: the class name, a member name, the class name of a member type. *)
Inductive cut_class_header : bytes -> Prop :=
| CH_name c id b r :
    c ∈ [x02; x03; x04; x05] -> e_id id b -> no_string r -> cut_class_header (c :: b ++ r)
| CH_member c id b1 name b2 n b3 names b4 r :
    c ∈ [x02; x03; x04; x05] -> e_id id b1 -> e_str name b2 -> e_len n b3 ->
    e_list e_str names b4 -> (N.of_nat (length names) < n)%N -> no_string r ->
    cut_class_header (c :: b1 ++ b2 ++ b3 ++ b4 ++ r)
| CH_type c id b1 name b2 names b3 ks1 k ks2 b4 b5 r :
    c ∈ [x04; x05] -> e_id id b1 -> e_str name b2 -> e_counted e_str names b3 ->
    length (ks1 ++ k :: ks2) = length names -> e_list e_kind_code (ks1 ++ k :: ks2) b4 ->
    e_list e_kind_info ks1 b5 ->
    match k with K_SystemClass _ | K_Class _ _ => True | _ => False end -> no_string r ->
    cut_class_header (c :: b1 ++ b2 ++ b3 ++ b4 ++ b5 ++ r).

Definition cut_string_record (i : bytes) : Prop :=
  exists id b r, e_id id b /\ no_string r /\ i = x06 :: b ++ r.

(** The class name of the element type. *)
Definition cut_binary_array_header (i : bytes) : Prop :=
  exists id b1 bat lengths b2 b3 c r,
    e_id id b1 /\ e_counted e_len lengths b2
    /\ (if (3 <=? bat_code bat)%N then exists lb, length lb = length lengths /\ e_list e_len lb b3
        else b3 = [])
    /\ c ∈ [x03; x04] /\ no_string r
    /\ i = x07 :: b1 ++ n2b (bat_code bat) :: b2 ++ b3 ++ c :: r.

Section with_decimal.
Context {DL : DecimalLib}.

(** Only decimals are written as strings. *)
Definition cut_prim_array (i : bytes) : Prop :=
  exists id len b vs bs r,
    e_array_header x0f id len b /\ Forall (fun v => prim_type_of v = Some PT_Decimal) vs
    /\ e_list e_prim vs bs /\ (N.of_nat (length vs) < len)%N /\ no_string r
    /\ i = b ++ n2b (pt_code PT_Decimal) :: bs ++ r.

Definition cut_item (k : kind) (i : bytes) : Prop :=
  match k with
  | K_Any => cut_string_record i
             \/ exists r, i = x08 :: n2b (pt_code PT_Decimal) :: r /\ no_string r
  | K_Primitive p => p = PT_Decimal /\ no_string i
  | K_String | K_StringArray => cut_string_record i
  | _ => False
  end.

(** The first bytes of the simple items of kind [k]; the primitive members have no record type. *)
Definition item_head (k : kind) (i : bytes) : Prop :=
  match k with
  | K_Any => begins [x06; x08; x09; x0a; x0d; x0e] i
  | K_Primitive _ => True
  | K_String => begins [x06] i
  | K_SystemClass _ | K_Class _ _ => begins [x0a; x0d; x0e] i
  | K_StringArray => begins [x06; x09; x0a; x0d; x0e] i
  | K_PrimitiveArray _ => begins [x09] i
  | K_Object | K_ObjectArray => False
  end.

(** Members declared with a class, and members without a declared kind, can be classes. *)
Definition declared_class (k : kind) : Prop :=
  match k with K_SystemClass _ | K_Class _ _ => True | _ => False end.
Definition may_be_class (k : kind) : Prop := k = K_Any \/ declared_class k.

(** ** Stops

    [stops_X f e i e']: the X at [i], with the tables [e], is not well-formed; when reading it
    stops the tables are [e'].  [f] tells whether this is reported as an error ([true]), or
    whether the X is given up and something else may be tried at its place ([false]). *)

(** A library with an invalid id; a library with a known id, whose name is replaced. *)
Inductive stops_lib (e : env) : bytes -> env -> Prop :=
| SL_id r : ~ starts e_id r -> stops_lib e (x0c :: r) e
| SL_known id name bs i :
    e_library_record id name bs -> is_Some (e_libs e !! id) ->
    stops_lib e (bs ++ i) (add_lib id name e).

Inductive stops_class : bool -> env -> bytes -> env -> Prop :=
| SC_lib e i e' : stops_lib e i e' -> stops_class true e i e'
| SC_none e i e1 i1 :
    g_lib e i e1 i1 -> ~ begins [x01; x02; x03; x04; x05] i1 -> stops_class false e i e1
| SC_with_id e i e1 i1 : g_lib e i e1 i1 -> begins [x01] i1 -> stops_class true e i e1
| SC_cut e i e1 i1 : g_lib e i e1 i1 -> cut_class_header i1 -> stops_class false e i e1
| SC_header e i e1 i1 :
    g_lib e i e1 i1 -> begins [x02; x03; x04; x05] i1 -> ~ cut_class_header i1 ->
    ~ starts e_class_header i1 -> stops_class true e i e1
| SC_library e i e1 bs i1 h :
    g_lib e i e1 (bs ++ i1) -> e_class_header h bs -> ~ (exists lib, class_library e1 h lib) ->
    stops_class true e i e1
| SC_member f e i e1 bs i1 h lib ks1 k ks2 its e2 i2 e' :
    g_lib e i e1 (bs ++ i1) -> e_class_header h bs -> class_library e1 h lib ->
    member_kinds h = ks1 ++ k :: ks2 -> g_items ks1 e1 i1 its e2 i2 ->
    stops_member f k e2 i2 e' -> stops_class f e i e'
| SC_resolve f e i e1 bs i1 h lib its1 id its2 e2 i2 vs e3 i3 e' :
    g_lib e i e1 (bs ++ i1) -> e_class_header h bs -> class_library e1 h lib ->
    g_items (member_kinds h) e1 i1 (its1 ++ It_Ref id :: its2) e2 i2 ->
    g_resolve its1 e2 i2 vs e3 i3 -> e_objs e3 !! id = None ->
    stops_next f id e3 i3 e' -> stops_class f e i e'
with stops_member : bool -> kind -> env -> bytes -> env -> Prop :=
| SM_lib k e i e' : stops_lib e i e' -> stops_member true k e i e'
| SM_library k e i e1 i1 : g_lib e i e1 i1 -> ~ kind_ok e1 k -> stops_member true k e i e1
| SM_cut k e i e1 i1 :
    g_lib e i e1 i1 -> kind_ok e1 k -> cut_item k i1 -> stops_member false k e i e1
| SM_none k e i e1 i1 :
    k <> K_Object -> k <> K_ObjectArray ->
    g_lib e i e1 i1 -> kind_ok e1 k -> ~ item_head k i1 -> ~ (may_be_class k /\ class_start i1) ->
    stops_member false k e i e1
| SM_item k e i e1 i1 :
    g_lib e i e1 i1 -> kind_ok e1 k -> item_head k i1 -> ~ cut_item k i1 ->
    ~ starts (simple_item k) i1 -> stops_member true k e i e1
| SM_inline f e i e1 i1 e' :
    g_lib e i e1 i1 -> class_start i1 -> stops_class f e1 i1 e' -> stops_member f K_Any e i e'
| SM_nested f k e i e1 i1 e' :
    k = K_Object \/ k = K_ObjectArray ->
    g_lib e i e1 i1 -> stops_member f K_Any e1 i1 e' -> stops_member f k e i e'
(* whatever is wrong with an object of a declared class, the member is only given up *)
| SM_declared f k e i e1 i1 e' :
    declared_class k -> g_lib e i e1 i1 -> kind_ok e1 k -> class_start i1 ->
    stops_class f e1 i1 e' -> stops_member false k e i e'
(* except that the class itself is another one *)
| SM_other_class k e i e1 i1 id o e2 i2 :
    declared_class k -> g_lib e i e1 i1 -> kind_ok e1 k -> g_class e1 i1 id o e2 i2 ->
    ~ class_kind e1 k o -> stops_member true k e i e2
with stops_next : bool -> N -> env -> bytes -> env -> Prop :=
| SN_other id e i id2 v e1 i1 :
    g_record e i id2 v e1 i1 -> id2 <> id -> stops_next false id e i (add_obj id2 v e1)
| SN_record f id e i e' : stops_record f e i e' -> stops_next f id e i e'
with stops_record : bool -> env -> bytes -> env -> Prop :=
| SR_none e i :
    no_library i -> ~ begins [x01; x02; x03; x04; x05; x06; x07; x0f; x10; x11] i ->
    stops_record false e i e
| SR_class e i e' : stops_class true e i e' -> stops_record true e i e'
| SR_class_given_up e i e' :
    begins [x01; x02; x03; x04; x05] i -> stops_class false e i e' -> stops_record false e i e'
(* a library in front of a class that is given up is read a second time *)
| SR_library_again e bs i id name e' :
    e_library_record id name bs -> stops_class false e (bs ++ i) e' ->
    stops_record true e (bs ++ i) (add_lib id name e')
| SR_string_cut e i : cut_string_record i -> stops_record false e i e
| SR_string e i :
    begins [x06] i -> ~ cut_string_record i ->
    ~ (exists id s b r, e_string_record id s b /\ i = b ++ r) -> stops_record true e i e
| SR_prims_cut e i : cut_prim_array i -> stops_record false e i e
| SR_prims e i :
    begins [x0f] i -> ~ cut_prim_array i ->
    ~ (exists id p vs b r, e_prim_array id p vs b /\ i = b ++ r) -> stops_record true e i e
| SR_array_header code e i :
    code = x10 \/ code = x11 -> begins [code] i ->
    ~ (exists id len b r, e_array_header code id len b /\ i = b ++ r) -> stops_record true e i e
| SR_array code k f e id len bs i its e1 i1 e' :
    (code = x10 /\ k = K_Any) \/ (code = x11 /\ k = K_StringArray) ->
    e_array_header code id len bs ->
    g_items (replicate (length its) k) e i its e1 i1 -> (items_size its < len)%N ->
    stops_member f k e1 i1 e' -> stops_record f e (bs ++ i) e'
| SR_array_resolve code k f e id len bs i its1 rid its2 e1 i1 vs e2 i2 e' :
    (code = x10 /\ k = K_Any) \/ (code = x11 /\ k = K_StringArray) ->
    e_array_header code id len bs ->
    g_items (replicate (length (its1 ++ It_Ref rid :: its2)) k) e i (its1 ++ It_Ref rid :: its2) e1 i1 ->
    fills len (its1 ++ It_Ref rid :: its2) ->
    g_resolve its1 e1 i1 vs e2 i2 -> e_objs e2 !! rid = None ->
    stops_next f rid e2 i2 e' -> stops_record f e (bs ++ i) e'
| SR_binary_cut e i : cut_binary_array_header i -> stops_record false e i e
| SR_binary_header e i :
    begins [x07] i -> ~ cut_binary_array_header i ->
    ~ (exists id bat lengths bounds k b r,
         e_binary_array_header id bat lengths bounds k b /\ i = b ++ r) -> stops_record true e i e
| SR_binary_overflow e id bat lengths bounds k bs i :
    e_binary_array_header id bat lengths bounds k bs -> ~ no_overflow lengths ->
    stops_record true e (bs ++ i) e
| SR_binary f e id bat lengths bounds k bs i its e1 i1 e' :
    e_binary_array_header id bat lengths bounds k bs -> no_overflow lengths ->
    g_items (replicate (length its) k) e i its e1 i1 ->
    (N.of_nat (length its) < product lengths)%N ->
    stops_member f k e1 i1 e' -> stops_record f e (bs ++ i) e'
| SR_binary_resolve f e id bat lengths bounds k bs i its1 rid its2 e1 i1 vs e2 i2 e' :
    e_binary_array_header id bat lengths bounds k bs -> no_overflow lengths ->
    g_items (replicate (N.to_nat (product lengths)) k) e i (its1 ++ It_Ref rid :: its2) e1 i1 ->
    g_resolve its1 e1 i1 vs e2 i2 -> e_objs e2 !! rid = None ->
    stops_next f rid e2 i2 e' -> stops_record f e (bs ++ i) e'.

(** ** Messages *)

(** The call array after a method record.  An object array that is given up leaves a trace. *)
Inductive call_array_at (root : option N) (e : env) (i : bytes)
  : option (list value) -> env -> bytes -> Prop :=
| CA_read ca e' i' : g_call_array root e i ca e' i' -> call_array_at root e i ca e' i'
| CA_given_up e' : begins [x10] i -> stops_record false e i e' -> call_array_at root e i None e' i.

Inductive method_at (root : option N) (e : env) : bytes -> message -> env -> bytes -> Prop :=
| MA_call flags name type ctx inline bs i ca args e' i' :
    e_method_call flags name type ctx inline bs ->
    call_array_at root e i ca e' i' -> args_rule flags ca inline args ->
    method_at root e (bs ++ i) (MMethodCall (mkMethodCall name type ctx args)) e' i'
| MA_return flags ret ctx inline bs i ca args e' i' :
    e_method_return flags ret ctx inline bs ->
    call_array_at root e i ca e' i' -> args_rule flags ca inline args ->
    method_at root e (bs ++ i) (MMethodReturn (mkMethodReturn ret ctx args)) e' i'.

(** The messages: header, records, possibly a method record followed by more records, and a
    final [MessageEnd].  Without a method record the records are tried a second time from the
    first one that is given up (usually the [MessageEnd]). *)
Inductive accepts : bytes -> message -> Prop :=
| Acc_value root hb i e1 i1 e1' e2 v :
    e_header root hb -> g_objects empty_env i e1 i1 -> stops_record false e1 i1 e1' ->
    g_objects e1' i1 e2 [x0b] -> root_value root e2 v ->
    accepts (hb ++ i) (MValue v)
| Acc_method root hb i e1 i1 m e2 i2 e3 :
    e_header root hb -> g_objects empty_env i e1 i1 -> method_at root e1 i1 m e2 i2 ->
    g_objects e2 i2 e3 [x0b] ->
    accepts (hb ++ i) m.

(** [expects W e i]: while reading [W] a record is expected at [i], with the tables [e]. *)
Inductive expects (W : bytes) : env -> bytes -> Prop :=
| Exp_first root hb i e1 i1 :
    W = hb ++ i -> e_header root hb -> g_objects empty_env i e1 i1 -> expects W e1 i1
| Exp_again root hb i e1 i1 e1' e2 i2 :
    W = hb ++ i -> e_header root hb -> g_objects empty_env i e1 i1 ->
    stops_record false e1 i1 e1' -> ~ begins [x15; x16] i1 -> g_objects e1' i1 e2 i2 ->
    expects W e2 i2
| Exp_call_array root hb i e1 bs i1 e2 i2 :
    W = hb ++ i -> e_header root hb -> g_objects empty_env i e1 (bs ++ i1) ->
    (exists flags name type ctx inline, e_method_call flags name type ctx inline bs)
    \/ (exists flags ret ctx inline, e_method_return flags ret ctx inline bs) ->
    g_lib e1 i1 e2 i2 -> begins [x10] i2 -> expects W e2 i2
| Exp_after_method root hb i e1 i1 m e2 i2 e3 i3 :
    W = hb ++ i -> e_header root hb -> g_objects empty_env i e1 i1 ->
    method_at root e1 i1 m e2 i2 -> g_objects e2 i2 e3 i3 -> expects W e3 i3.

End with_decimal.

Scheme stops_class_mind := Minimality for stops_class Sort Prop
with stops_member_mind := Minimality for stops_member Sort Prop
with stops_next_mind := Minimality for stops_next Sort Prop
with stops_record_mind := Minimality for stops_record Sort Prop.
Combined Scheme stops_mut_ind from stops_class_mind, stops_member_mind, stops_next_mind, stops_record_mind.
