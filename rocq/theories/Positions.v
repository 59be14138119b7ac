(** * Positions: places inside the records of a message.

    Specification only: nothing here mentions the parser. *)
From Verif Require Import Base Value Wire Grammar Spec.

(** A position: where a member of kind [k] is expected; where the record with the id [id] is
    expected because an unresolved reference to it came before; where a class record is expected.
    [e] are the tables at this point, [i] the bytes from there on. *)
Inductive site :=
| Site_member (k : kind) (e : env) (i : bytes)
| Site_next (id : N) (e : env) (i : bytes)
| Site_class (e : env) (i : bytes).

Definition site_env (x : site) : env :=
  match x with Site_member _ e _ | Site_next _ e _ | Site_class e _ => e end.

(** The first byte of a class record, possibly with a library in front. *)
Definition class_start (i : bytes) : Prop :=
  match i with
  | b :: _ => b ∈ [x01; x02; x03; x04; x05; x0c]
  | [] => False
  end.

Section with_decimal.
Context {DL : DecimalLib}.

(** [reach_X b e i x]: the X that starts at [i], with the tables [e], is well-formed up to the
    position [x] inside it.  [b] tells whether [x] lies inside a member that is declared with a
    class. *)
Inductive reach_class : bool -> env -> bytes -> site -> Prop :=
| RC_here e i : reach_class false e i (Site_class e i)
| RC_member b e i e1 bs i1 h lib ks1 k ks2 its e2 i2 x :
    g_lib e i e1 (bs ++ i1) -> e_class_header h bs -> class_library e1 h lib ->
    member_kinds h = ks1 ++ k :: ks2 -> g_items ks1 e1 i1 its e2 i2 ->
    reach_member b k e2 i2 x -> reach_class b e i x
| RC_resolve b e i e1 bs i1 h lib its1 id its2 e2 i2 vs e3 i3 x :
    g_lib e i e1 (bs ++ i1) -> e_class_header h bs -> class_library e1 h lib ->
    g_items (member_kinds h) e1 i1 (its1 ++ It_Ref id :: its2) e2 i2 ->
    g_resolve its1 e2 i2 vs e3 i3 -> e_objs e3 !! id = None ->
    reach_next b id e3 i3 x -> reach_class b e i x
with reach_member : bool -> kind -> env -> bytes -> site -> Prop :=
| RM_here k e i : reach_member false k e i (Site_member k e i)
| RM_inline b e i e1 i1 x :
    g_lib e i e1 i1 -> class_start i1 -> reach_class b e1 i1 x -> reach_member b K_Any e i x
| RM_nested b k e i e1 i1 x :
    k = K_Object \/ k = K_ObjectArray ->
    g_lib e i e1 i1 -> reach_member b K_Any e1 i1 x -> reach_member b k e i x
| RM_declared b k e i e1 i1 x :
    match k with K_SystemClass _ | K_Class _ _ => True | _ => False end ->
    g_lib e i e1 i1 -> kind_ok e1 k -> class_start i1 -> reach_class b e1 i1 x ->
    reach_member true k e i x
with reach_next : bool -> N -> env -> bytes -> site -> Prop :=
| RN_here id e i : reach_next false id e i (Site_next id e i)
| RN_record b id e i x : reach_record b e i x -> reach_next b id e i x
with reach_record : bool -> env -> bytes -> site -> Prop :=
| RR_class b e i x : class_start i -> reach_class b e i x -> reach_record b e i x
| RR_array code k b e id len bs i its e1 i1 x :
    (code = x10 /\ k = K_Any) \/ (code = x11 /\ k = K_StringArray) ->
    e_array_header code id len bs ->
    g_items (replicate (length its) k) e i its e1 i1 -> (items_size its < len)%N ->
    reach_member b k e1 i1 x -> reach_record b e (bs ++ i) x
| RR_array_resolve code k b e id len bs i its1 rid its2 e1 i1 vs e2 i2 x :
    (code = x10 /\ k = K_Any) \/ (code = x11 /\ k = K_StringArray) ->
    e_array_header code id len bs ->
    g_items (replicate (length (its1 ++ It_Ref rid :: its2)) k) e i (its1 ++ It_Ref rid :: its2) e1 i1 ->
    fills len (its1 ++ It_Ref rid :: its2) ->
    g_resolve its1 e1 i1 vs e2 i2 -> e_objs e2 !! rid = None ->
    reach_next b rid e2 i2 x -> reach_record b e (bs ++ i) x
| RR_binary b e id bat lengths bounds k bs i its e1 i1 x :
    e_binary_array_header id bat lengths bounds k bs -> no_overflow lengths ->
    g_items (replicate (length its) k) e i its e1 i1 ->
    (N.of_nat (length its) < product lengths)%N ->
    reach_member b k e1 i1 x -> reach_record b e (bs ++ i) x
| RR_binary_resolve b e id bat lengths bounds k bs i its1 rid its2 e1 i1 vs e2 i2 x :
    e_binary_array_header id bat lengths bounds k bs -> no_overflow lengths ->
    g_items (replicate (N.to_nat (product lengths)) k) e i (its1 ++ It_Ref rid :: its2) e1 i1 ->
    g_resolve its1 e1 i1 vs e2 i2 -> e_objs e2 !! rid = None ->
    reach_next b rid e2 i2 x -> reach_record b e (bs ++ i) x.

(** [after W root e i]: the message [W] has a header with the root id [root] and well-formed
    records that leave the tables [e]; [i] follows them.  [e] ranges over all histories. *)
Definition after (W : bytes) (root : N) (e : env) (i : bytes) : Prop :=
  exists hid body, (root < 2 ^ 31)%N /\ fits_int 4 hid /\ W = header_bytes root hid ++ body
                   /\ g_objects empty_env body e i.

(** [inside b W x]: the message [W] is well-formed up to the position [x] inside a record, at
    any depth. *)
Definition inside (b : bool) (W : bytes) (x : site) : Prop :=
  exists root e i, after W root e i /\ reach_record b e i x.

End with_decimal.

Scheme reach_class_mind := Minimality for reach_class Sort Prop
with reach_member_mind := Minimality for reach_member Sort Prop
with reach_next_mind := Minimality for reach_next Sort Prop
with reach_record_mind := Minimality for reach_record Sort Prop.
Combined Scheme reach_mut_ind from reach_class_mind, reach_member_mind, reach_next_mind, reach_record_mind.
