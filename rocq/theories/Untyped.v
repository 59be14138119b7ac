(** * Untyped: the same message without type information.

    Specification only: nothing here mentions the parser. *)
From Verif Require Import Base Value Wire Grammar Tokens.

(** Members and elements of every type declared as Object; primitive values with their own codes. *)
Definition header_objects (h : class_header) : class_header :=
  mkClassHeader (ch_object_id h) (ch_name h) (ch_member_names h)
    (option_map (map (fun _ => K_Object)) (ch_types h)) (ch_library h).
(** Classes without types (SystemClassWithMembers, ClassWithMembers). *)
Definition header_untyped (h : class_header) : class_header :=
  mkClassHeader (ch_object_id h) (ch_name h) (ch_member_names h) None (ch_library h).

Definition forget (header : class_header -> class_header) (t : token) : token :=
  match t with
  | Tk_class h => Tk_class (header h)
  | Tk_value v => Tk_typed v
  | Tk_array id bat lengths bounds _ => Tk_array id bat lengths bounds K_Object
  | _ => t
  end.
Definition as_objects (ts : list token) : list token := map (forget header_objects) ts.
Definition untyped (ts : list token) : list token := map (forget header_untyped) ts.

(** Nowhere two library records in a row. *)
Definition is_library (t : token) : Prop := match t with Tk_library _ _ => True | _ => False end.
Definition spaced (ts : list token) : Prop :=
  forall before t u after, ts = before ++ t :: u :: after -> is_library t -> ~ is_library u.

(** Every class declares as many types as it has members (as its bytes do). *)
Definition types_complete (ts : list token) : Prop :=
  forall h ks, Tk_class h ∈ ts -> ch_types h = Some ks -> length ks = length (ch_member_names h).
