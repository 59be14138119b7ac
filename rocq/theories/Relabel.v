(** * Relabel: messages with other names and other values.

    Specification only: nothing here mentions the parser.  A relabelling replaces the names and the
    values in a message (Tokens.v) and leaves its structure as it is: ids, counts, lengths, types,
    flags. *)
From Verif Require Import Base Value Wire Grammar Tokens.

Record relabelling := mkRelabelling {
  r_class : str -> str;       (* class names *)
  r_library : str -> str;     (* library names *)
  r_member : str -> str;      (* member names *)
  r_text : str -> str;        (* string values; names of methods and their types, call contexts *)
  r_primitive : value -> value
}.

(** Different member names stay different, and a primitive value stays one of its type. *)
Definition relabelling_ok (r : relabelling) : Prop :=
  Inj eq eq (r_member r)
  /\ forall v p, prim_type_of v = Some p -> prim_type_of (r_primitive r v) = Some p.

Section relabel.
Context (r : relabelling).

(** What becomes of a result. *)
Fixpoint relabel_value (v : value) : value :=
  match v with
  | VObject (mkObj class library members) =>
      VObject (mkObj (r_class r class) (option_map (r_library r) library)
        (map (fun kv => (r_member r kv.1, relabel_value kv.2)) members))
  | VArray vs => VArray (map relabel_value vs)
  | VString s => VString (r_text r s)
  | VNull => VNull
  | v => r_primitive r v
  end.
Definition relabel_message (m : message) : message :=
  match m with
  | MMethodCall (mkMethodCall name type ctx args) =>
      MMethodCall (mkMethodCall (r_text r name) (r_text r type) (option_map (r_text r) ctx)
        (option_map (map relabel_value) args))
  | MMethodReturn (mkMethodReturn ret ctx args) =>
      MMethodReturn (mkMethodReturn (option_map relabel_value ret) (option_map (r_text r) ctx)
        (option_map (map relabel_value) args))
  | MValue v => MValue (relabel_value v)
  end.

(** What becomes of the records. *)
Definition relabel_kind (k : kind) : kind :=
  match k with
  | K_SystemClass name => K_SystemClass (r_class r name)
  | K_Class name lid => K_Class (r_class r name) lid
  | _ => k
  end.
Definition relabel_header (h : class_header) : class_header :=
  mkClassHeader (ch_object_id h) (r_class r (ch_name h)) (map (r_member r) (ch_member_names h))
    (option_map (map relabel_kind) (ch_types h)) (ch_library h).
Definition relabel (t : token) : token :=
  match t with
  | Tk_library id name => Tk_library id (r_library r name)
  | Tk_class h => Tk_class (relabel_header h)
  | Tk_value v => Tk_value (relabel_value v)
  | Tk_typed v => Tk_typed (relabel_value v)
  | Tk_reference id => Tk_reference id
  | Tk_string id s => Tk_string id (r_text r s)
  | Tk_nulls n => Tk_nulls n
  | Tk_objects id len => Tk_objects id len
  | Tk_strings id len => Tk_strings id len
  | Tk_prims id p vs => Tk_prims id p (map relabel_value vs)
  | Tk_array id bat lengths bounds k => Tk_array id bat lengths bounds (relabel_kind k)
  | Tk_call flags name type ctx args =>
      Tk_call flags (r_text r name) (r_text r type) (option_map (r_text r) ctx)
        (option_map (map relabel_value) args)
  | Tk_return flags ret ctx args =>
      Tk_return flags (option_map relabel_value ret) (option_map (r_text r) ctx)
        (option_map (map relabel_value) args)
  end.
End relabel.
