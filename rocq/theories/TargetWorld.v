(** * TargetWorld: the types of Serde.v as programs against serde's traits.

    Serde.v models the [Deserialize] implementations of the standard types and the derived ones by
    functions.  Here the same implementations are written as visitors for Visitors.v, each asking
    the deserializer for one thing after the other (serde 1.0, from its documentation); TargetLemmas.v
    shows that both models agree.  The errors of these implementations have some text [oops], errors
    they get are passed on as they are. *)
From Verif Require Import Base Utf8 Value Wire Serde Visitors.

Section with_libs.
Context {DL : DecimalLib} {FL : FloatLib} (oops : str).

(** The types: those of Serde.v, and the enum of field names that [derive] generates for a struct. *)
Inductive target_type := TT (t : target) | TT_field (fields : list (str * target)).

(** The visitors while they read. *)
Inductive reading :=
| RS_vec (t : target) (ds : list data)          (* Vec<T>: what has been pushed *)
| RS_ignored_seq
| RS_each (ts : list target) (ds : list data) (names : option (list str))
                                                 (* a tuple, or a struct with these fields *)
| RS_newtype (t : target)
| RS_map (t : target) (m : list (str * data))   (* BTreeMap<String, T> *)
| RS_ignored_map
| RS_struct (fs : list (str * target)) (m : list (str * data))
| RS_field (fs : list (str * target)) (m : list (str * data)) (k : str) (t : target)
| RS_unknown (fs : list (str * target)) (m : list (str * data))
| RS_return (r : tres data).

(** A result of Serde.v. *)
Definition say {A} (r : sres A) : tres A := match r with SOk a => TOk a | SErr => TErr oops end.

(** [visit_seq] and [visit_map], up to the first request. *)
Definition start_seq (t : target) : reading :=
  match t with
  | T_vec t => RS_vec t []
  | T_any => RS_vec T_any []
  | T_tuple ts => RS_each ts [] None
  | T_struct fs => RS_each (map snd fs) [] (Some (map fst fs))
  | T_newtype t => RS_newtype t
  | T_ignored => RS_ignored_seq
  | _ => RS_return (TErr oops)
  end.
Definition start_map (t : target) : reading :=
  match t with
  | T_map t => RS_map t []
  | T_any => RS_map T_any []
  | T_struct fs => RS_struct fs []
  | T_ignored => RS_ignored_map
  | _ => RS_return (TErr oops)
  end.

Definition target_visitor (t : target) : visitor data target_type reading := {|
  expecting := oops;
  on_bool x := say (visit_bool t x);
  on_int _ z := say (visit_int t z);
  on_f32 x := say (visit_f32 t x);
  on_f64 x := say (visit_f64 t x);
  on_char x := say (visit_char t x);
  on_str x := say (visit_str t x);
  on_string x := say (visit_string t x);
  on_borrowed_str x := say (visit_borrowed_str t x);
  on_unit := say (visit_unit t);
  on_none := say (visit_none t);
  on_some := match t with T_option t => O_read (TT t) (tres_map D_some) | _ => O_return (TErr oops) end;
  on_enum := O_return (TErr oops);
  on_seq := start_seq t;
  on_map _ := start_map t;
|}.

(** serde derive: the visitor of field names: a known name, or none. *)
Definition field_visitor (fs : list (str * target)) : visitor data target_type reading :=
  let known s := TOk (match hm_get s fs with Some _ => D_some (D_str s) | None => D_none end) in {|
  expecting := oops;
  on_bool _ := TErr oops;
  on_int _ _ := TErr oops;
  on_f32 _ := TErr oops;
  on_f64 _ := TErr oops;
  on_char c := known (enc_char c);
  on_str := known;
  on_string := known;
  on_borrowed_str := known;
  on_unit := TErr oops;
  on_none := TErr oops;
  on_some := O_return (TErr oops);
  on_enum := O_return (TErr oops);
  on_seq := RS_return (TErr oops);
  on_map _ := RS_return (TErr oops);
|}.

Definition target_impl (t : target_type) : impl data target_type reading :=
  match t with
  | TT t =>
      let m := match t with
               | T_option _ => M_option
               | T_struct _ => M_struct
               | T_enum => M_enum
               | _ => M_any
               end in
      I_call m (target_visitor t) id
  | TT_field fs => I_call M_any (field_visitor fs) id
  end.

(** The operator [?], and what the loops do with the answers. *)
Definition target_seq (st : reading) : seq_action data target_type reading :=
  match st with
  | RS_vec t ds =>
      Q_next (TT t) (fun r => match r with
                              | TErr e => RS_return (TErr e)
                              | TOk (Some d) => RS_vec t (ds ++ [d])
                              | TOk None => RS_return (TOk (D_seq ds))
                              end)
  | RS_ignored_seq =>
      Q_next (TT T_ignored) (fun r => match r with
                                      | TErr e => RS_return (TErr e)
                                      | TOk (Some _) => RS_ignored_seq
                                      | TOk None => RS_return (TOk D_ignored)
                                      end)
  | RS_each [] ds names =>
      Q_return (TOk (match names with Some names => D_struct (zip names ds) | None => D_seq ds end))
  | RS_each (t :: ts) ds names =>
      Q_next (TT t) (fun r => match r with
                              | TOk (Some d) => RS_each ts (ds ++ [d]) names
                              | TErr e => RS_return (TErr e)
                              | TOk _ => RS_return (TErr oops)
                              end)
  | RS_newtype t =>
      Q_next (TT t) (fun r => match r with
                              | TOk (Some d) => RS_return (TOk (D_newtype d))
                              | TErr e => RS_return (TErr e)
                              | TOk _ => RS_return (TErr oops)
                              end)
  | RS_return r => Q_return r
  | _ => Q_return (TErr oops)
  end.

Definition target_map (st : reading) : map_action data target_type reading :=
  match st with
  | RS_map t m =>
      P_entry (TT T_string) (TT t)
        (fun r => match r with
                  | TOk (Some (D_str k, d)) => RS_map t (bt_insert k d m)
                  | TOk None => RS_return (TOk (D_map m))
                  | TErr e => RS_return (TErr e)
                  | TOk _ => RS_return (TErr oops)
                  end)
  | RS_ignored_map =>
      P_entry (TT T_ignored) (TT T_ignored)
        (fun r => match r with
                  | TOk (Some _) => RS_ignored_map
                  | TOk None => RS_return (TOk D_ignored)
                  | TErr e => RS_return (TErr e)
                  end)
  | RS_struct fs m =>
      P_key (TT_field fs)
        (fun r => match r with
                  | TOk (Some (D_some (D_str k))) =>
                      match hm_get k fs, hm_get k m with
                      | Some t, None => RS_field fs m k t
                      | _, _ => RS_return (TErr oops)
                      end
                  | TOk (Some _) => RS_unknown fs m
                  | TOk None => RS_return (say (let# l := struct_build fs m in SOk (D_struct l)))
                  | TErr e => RS_return (TErr e)
                  end)
  | RS_field fs m k t =>
      P_value (TT t) (fun r => match r with TOk d => RS_struct fs ((k, d) :: m) | TErr e => RS_return (TErr e) end)
  | RS_unknown fs m =>
      P_value (TT T_ignored) (fun r => match r with TOk _ => RS_struct fs m | TErr e => RS_return (TErr e) end)
  | RS_return r => P_return r
  | _ => P_return (TErr oops)
  end.

Definition target_world : world data target_type reading :=
  {| w_impl := target_impl; w_seq := target_seq; w_map := target_map |}.
End with_libs.
