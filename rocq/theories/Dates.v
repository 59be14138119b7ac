(** * Dates: how a .NET [DateTime] is written (specification for property C74).

    The eight bytes are those of [DateTime.ToBinary] (MS-NRBF 2.1.1.5): the number of ticks since
    the year 1 in the lower 62 bits, the kind in the upper two. *)
From Verif Require Import Base Utf8 Value Wire.

Inductive zone := Unspecified | Utc | Local.
Definition zone_code (z : zone) : N := match z with Unspecified => 0 | Utc => 1 | Local => 2 end.

Definition date_bytes (ticks : N) (z : zone) : bytes := enc_uint 8 (ticks + zone_code z * 2 ^ 62).

(** 9999-12-31T23:59:59.9999999 *)
Definition last_tick : N := 3155378975999999999.

(** The accessors report the date [ticks] of kind [z]. *)
Definition reports (raw : Z) (ticks : N) (z : zone) : Prop :=
  dt_ticks raw = Z.of_N ticks
  /\ dt_kind raw = match z with Unspecified => None | Utc => Some DTK_Utc | Local => Some DTK_Local end.
