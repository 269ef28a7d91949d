(** Specification of compact targets ("bits"): one exponent byte and three
    mantissa bytes whose top bit is a sign. *)
From Verif Require Export Bytes.

Definition c_exponent (b0 : byte) : Z := Z.of_N (b2n b0).
Definition c_mantissa (b1 b2 b3 : byte) : Z := Z.of_N ((b2n b1 mod 128) * 65536 + b2n b2 * 256 + b2n b3).
Definition c_negative (b1 : byte) : Prop := 128 <= b2n b1.

(** floor (mantissa * 256^(exponent - 3)) *)
Definition c_magnitude (b0 b1 b2 b3 : byte) : Z := (c_mantissa b1 b2 b3 * 256 ^ c_exponent b0 / 256 ^ 3)%Z.

Definition c_target (b0 b1 b2 b3 : byte) (z : Z) : Prop :=
  (c_negative b1 /\ z = - c_magnitude b0 b1 b2 b3)%Z \/ (~ c_negative b1 /\ z = c_magnitude b0 b1 b2 b3).

(** the target DifficultyFromBits divides by: all 24 mantissa bits, no sign, and
    no division for exponents below 3 *)
Definition d_target (b0 b1 b2 b3 : byte) : Z :=
  (Z.of_N (b2n b1 * 65536 + b2n b2 * 256 + b2n b3) * 256 ^ Z.max 0 (c_exponent b0 - 3))%Z.
