(** * Trees: records that contain no references, libraries or null runs.

    Specification only: nothing here mentions the parser. *)
From Verif Require Import Base Value Wire.

Section with_decimal.
Context {DL : DecimalLib}.
(** The declared libraries. *)
Context (L : gmap N str).

(** Members that may be any value. *)
Definition any_kind (k : kind) : Prop :=
  match k with K_Any | K_Object | K_ObjectArray => True | _ => False end.
(** Members that may be strings; that may be null. *)
Definition string_kind (k : kind) : Prop :=
  match k with K_Any | K_Object | K_ObjectArray | K_String | K_StringArray => True | _ => False end.
Definition nullable_kind (k : kind) : Prop :=
  match k with
  | K_Any | K_Object | K_ObjectArray | K_StringArray | K_SystemClass _ => True
  | K_Class _ lid => is_Some (L !! lid)
  | _ => False
  end.
(** Members that may be objects of the class [name] of the library [lib]. *)
Definition object_kind (k : kind) (name : str) (lib : option str) : Prop :=
  match k with
  | K_Any | K_Object | K_ObjectArray => True
  | K_SystemClass n => n = name /\ lib = None
  | K_Class n lid => n = name /\ exists l, L !! lid = Some l /\ lib = Some l
  | _ => False
  end.

(** The library of a class. *)
Definition library_named (h : class_header) (lib : option str) : Prop :=
  match ch_library h with
  | None => lib = None
  | Some lid => exists l, L !! lid = Some l /\ lib = Some l
  end.
(** The kinds of the members of a class. *)
Definition kinds_of (h : class_header) : list kind :=
  match ch_types h with
  | Some ks => ks
  | None => replicate (length (ch_member_names h)) K_Any
  end.

(** [tree k v bs]: [bs] encodes the value [v] as a member of kind [k]. *)
Inductive tree : kind -> value -> bytes -> Prop :=
| T_typed k v bs : any_kind k -> e_prim_typed v bs -> tree k v bs
| T_prim p v bs :
    prim_type_of v = Some p -> e_prim v bs -> match bs with x0c :: _ => False | _ => True end ->
    tree (K_Primitive p) v bs
| T_string k id s bs : string_kind k -> e_string_record id s bs -> tree k (VString s) bs
| T_null k : nullable_kind k -> tree k VNull [x0a]
| T_object k h lib hb vs mb :
    e_class_header h hb -> NoDup (ch_member_names h) -> library_named h lib ->
    object_kind k (ch_name h) lib -> length vs = length (ch_member_names h) ->
    e_list (fun kv => tree kv.1 kv.2) (zip (kinds_of h) vs) mb ->
    tree k (VObject (mkObj (ch_name h) lib (zip (ch_member_names h) vs))) (hb ++ mb).

(** The members of a class, or the elements of an array. *)
Definition trees (ks : list kind) (vs : list value) (bs : bytes) : Prop :=
  length ks = length vs /\ e_list (fun kv => tree kv.1 kv.2) (zip ks vs) bs.

End with_decimal.
