(** Model of the integer part of block/Difficulty.go (the binary64 part is in
    M_Float.v). *)
From Verif Require Export GoRt.

(** [binary.BigEndian.Uint32]: panics on fewer than 4 bytes, ignores the rest. *)
(** block/Difficulty.go:58 (external). *)
Definition be_uint32 (b : bytes) : res N :=
  if Nat.ltb (length b) 4 then Panic else Ok (be_get (firstn 4 b)).

(** block/Difficulty.go:53-85 (ExpandTargetFromAsInt); big.Int is [Z]. *)
Definition expand_target_from_as_int (bits : bytes) : res Z :=
  binaryBits <- of_hex bits ;;
  compact <- be_uint32 binaryBits ;;
  let mantissa := N.land compact 0x007fffff in
  let isNegative := negb (N.land compact 0x00800000 =? 0) in
  let exponent := N.shiftr compact 24 in
  let bn := if exponent <=? 3
            then Z.of_N (N.shiftr mantissa (8 * (3 - exponent)))
            else Z.shiftl (Z.of_N mantissa) (Z.of_N (8 * (exponent - 3))) in
  let bn := if isNegative then (- bn)%Z else bn in
  Ok bn.

(** number of bytes of [big.Int.Bytes] *)
(** block/Difficulty.go:46. *)
Definition bytes_len (n : N) : nat := N.to_nat ((N.size n + 7) / 8).

(** [big.Int.Bytes]: minimal big-endian bytes of the absolute value. *)
(** block/Difficulty.go:46. *)
Definition bigint_bytes (z : Z) : bytes :=
  let n := Z.to_N (Z.abs z) in be_put (bytes_len n) n.

(** block/Difficulty.go:39-50 (ExpandTargetFrom): [dst[32-len(b):]] panics when
    [len(b) > 32]. *)
Definition expand_target_from (bits : bytes) : res bytes :=
  bn <- expand_target_from_as_int bits ;;
  let b := bigint_bytes bn in
  if Nat.ltb 32 (length b) then Panic
  else Ok (hex_encode (repeat x00 (32 - length b) ++ b)).

(** block/Difficulty.go:105-110 (toCompactSize). [Exp(2, y, nil)] is 1 for
    [y <= 0]. *)
Definition to_compact_size (bits : N) : Z :=
  let t := Z.of_N (bits mod 0x01000000) in
  let y := (8 * (Z.of_N (bits / 0x01000000) - 3))%Z in
  let e := if (y <=? 0)%Z then 1%Z else (2 ^ y)%Z in
  (t * e)%Z.

(** block/Difficulty.go:99-103 (DifficultyFromBits) up to the target it divides
    by; the hex error is dropped. *)
Definition difficulty_target (bits : bytes) : res Z :=
  let b := hex_ignore bits in
  ib <- be_uint32 b ;;
  Ok (to_compact_size ib).
