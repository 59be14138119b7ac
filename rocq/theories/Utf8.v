(** * Utf8: the validity check of core::str::from_utf8.

    [core::str::from_utf8] is called in data_type/length_prefixed_string.rs 62.  Only the
    accept/reject decision is modelled (the crate drops the [Utf8Error]). *)
From Verif Require Import Base.

Definition in_range (lo hi : N) (b : byte) : bool := N.leb lo (b2n b) && N.leb (b2n b) hi.

(** A continuation byte. *)
Definition is_cont (b : byte) : bool := in_range 128 191 b.

(** core::str::validations::run_utf8_validation: the state machine over the first byte and
    its continuation bytes (the table of well-formed sequences of the Unicode standard). *)
Fixpoint utf8_valid (bs : bytes) : bool :=
  match bs with
  | [] => true
  | b0 :: r0 =>
    if in_range 0 127 b0 then utf8_valid r0
    else if in_range 194 223 b0 then
      match r0 with
      | b1 :: r1 => is_cont b1 && utf8_valid r1
      | _ => false
      end
    else if in_range 224 239 b0 then
      match r0 with
      | b1 :: b2 :: r2 =>
          (if N.eqb (b2n b0) 224 then in_range 160 191 b1
           else if N.eqb (b2n b0) 237 then in_range 128 159 b1
           else is_cont b1) && is_cont b2 && utf8_valid r2
      | _ => false
      end
    else if in_range 240 244 b0 then
      match r0 with
      | b1 :: b2 :: b3 :: r3 =>
          (if N.eqb (b2n b0) 240 then in_range 144 191 b1
           else if N.eqb (b2n b0) 244 then in_range 128 143 b1
           else is_cont b1) && is_cont b2 && is_cont b3 && utf8_valid r3
      | _ => false
      end
    else false
  end.

(** core::str::from_utf8, error dropped. *)
Definition from_utf8 (bs : bytes) : option str := if utf8_valid bs then Some bs else None.

(** core::char::from_u32: [Some] exactly for Unicode scalar values. *)
Definition char_from_u32 (n : N) : option N :=
  if N.ltb n 0xD800 || (N.leb 0xE000 n && N.leb n 0x10FFFF) then Some n else None.
