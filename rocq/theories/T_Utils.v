(** Property theorems C01-C07: compact sizes, reversal, sorting, helpers. *)
From Verif Require Import S_Utils M_Utils P_Utils.

(** C01. DecodeVarInt after VarInt, whatever follows and whatever lies in the
    spare capacity. *)
Theorem C01_varint_roundtrip : forall n rest sp, n < 2 ^ 64 ->
  decode_varint (Sl (varint n ++ rest) sp) = Ok (n, Z.of_nat (length (varint n))).
Proof. exact c01_roundtrip. Qed.
Print Assumptions C01_varint_roundtrip.

Example C01_example :
  decode_varint (Sl (varint 70000 ++ str "tail") []) = Ok (70000, 5%Z) /\ 70000 < 2 ^ 64.
Proof. vm_compute. split; reflexivity. Qed.

(** C02. VarInt(n) is a compact-size form of [n], of the documented size, and no
    slice consumed entirely by DecodeVarInt to yield [n] is shorter. *)
Theorem C02_varint_form : forall n, n < 2 ^ 64 -> compact_min n (varint n).
Proof. exact c02_form. Qed.
Print Assumptions C02_varint_form.

Theorem C02_varint_shortest : forall n b sp,
  decode_varint (Sl b sp) = Ok (n, Z.of_nat (length b)) ->
  (length (varint n) <= length b)%nat /\ (length b = length (varint n) -> b = varint n).
Proof. exact c02_shortest. Qed.
Print Assumptions C02_varint_shortest.

(** what DecodeVarInt accepts entirely: every compact-size form, shortest or not *)
Theorem C02_decode_accepts : forall b n,
  decode_varint (Sl b []) = Ok (n, Z.of_nat (length b)) <-> compact n b.
Proof. exact decode_varint_iff. Qed.
Print Assumptions C02_decode_accepts.

Theorem C02_nonminimal_accepted : forall n, n < 253 ->
  decode_varint (Sl (xfd :: n2b n :: [x00]) []) = Ok (n, 3%Z) /\ length (varint n) = 1%nat.
Proof. exact c02_nonminimal. Qed.
Print Assumptions C02_nonminimal_accepted.

Example C02_boundaries :
  map (fun n => length (varint n)) [0; 252; 253; 65535; 65536; 4294967295; 4294967296; 2 ^ 64 - 1]
  = [1; 1; 3; 3; 5; 5; 9; 9]%nat.
Proof. reflexivity. Qed.

(** C03. Exact behaviour on every slice: the size is announced by the first
    byte; the panic condition is on capacity, not on length. *)
Theorem C03_decode_varint_empty : forall sp, decode_varint (Sl [] sp) = Panic.
Proof. exact decode_varint_nil. Qed.
Print Assumptions C03_decode_varint_empty.

Theorem C03_decode_varint_exact : forall c r sp,
  decode_varint (Sl (c :: r) sp) =
  if Nat.leb (announced c) (length (c :: r ++ sp))
  then Ok (if Nat.eqb (announced c) 1 then b2n c
           else le_get (firstn (announced c - 1) (r ++ sp)), Z.of_nat (announced c))
  else Panic.
Proof. exact decode_varint_eq. Qed.
Print Assumptions C03_decode_varint_exact.

(** A slice that holds all announced bytes decodes independently of later bytes
    and of the capacity. *)
Theorem C03_decode_varint_local : forall c p rest sp rest' sp',
  length (c :: p) = announced c ->
  decode_varint (Sl (c :: p ++ rest) sp) = decode_varint (Sl (c :: p ++ rest') sp') /\
  decode_varint (Sl (c :: p ++ rest) sp) <> Panic.
Proof. exact c03_local. Qed.
Print Assumptions C03_decode_varint_local.

(** A slice shorter than announced whose capacity suffices yields a value built
    from bytes beyond its length (and reports more bytes than the slice has). *)
Theorem C03_decode_varint_overread : forall c r sp,
  (length (c :: r) < announced c)%nat -> (announced c <= length (c :: r ++ sp))%nat ->
  exists n, decode_varint (Sl (c :: r) sp) = Ok (n, Z.of_nat (announced c)).
Proof. exact c03_overread. Qed.
Print Assumptions C03_decode_varint_overread.

Example C03_examples :
  decode_varint (Sl [xfd; x01] []) = Panic /\
  decode_varint (Sl [xfd; x01] [x02]) = Ok (513, 3%Z) /\
  decode_varint (Sl [xfd; x01; x02; xff] []) = Ok (513, 3%Z).
Proof. vm_compute. auto. Qed.

(** C04. *)
Theorem C04_reverse_bytes : forall a, reverse_bytes a = rev a.
Proof. exact reverse_bytes_rev. Qed.
Print Assumptions C04_reverse_bytes.

Theorem C04_reverse_bytes_involution : forall a, reverse_bytes (reverse_bytes a) = a.
Proof. exact c04_invol. Qed.
Print Assumptions C04_reverse_bytes_involution.

Theorem C04_reverse_hex_denotes : forall s b, hex_dec s = Some b ->
  hex_dec (reverse_hex_string s) = Some (rev b).
Proof. exact c04_hex. Qed.
Print Assumptions C04_reverse_hex_denotes.

Theorem C04_reverse_hex_involution : forall s, Nat.even (length s) = true ->
  reverse_hex_string (reverse_hex_string s) = s.
Proof. exact c04_hex_invol. Qed.
Print Assumptions C04_reverse_hex_involution.

(** any even-length string, hex or not: pairs of characters in reverse order *)
Theorem C04_reverse_hex_pairs : forall s, Nat.even (length s) = true ->
  length (reverse_hex_string s) = length s /\
  forall i, (2 * i + 2 <= length s)%nat ->
    firstn 2 (skipn (2 * i) (reverse_hex_string s)) =
    firstn 2 (skipn (length s - 2 * i - 2) s).
Proof. exact c04_hex_pairs. Qed.
Print Assumptions C04_reverse_hex_pairs.

Theorem C04_reverse_hex_odd : forall s, Nat.odd (length s) = true ->
  reverse_hex_string s = reverse_hex_string (str "0" ++ s).
Proof. exact c04_hex_odd. Qed.
Print Assumptions C04_reverse_hex_odd.

Example C04_example :
  reverse_bytes [x01; x02; x03] = [x03; x02; x01] /\
  reverse_hex_string (str "0a1B2c") = str "2c1B0a" /\
  reverse_hex_string (str "a1B2c") = str "2c1B0a".
Proof. vm_compute. auto. Qed.

(** C05. *)
Theorem C05_sort_sorts : forall l,
  Permutation l (sort_byte_arrays l) /\ StronglySorted lex_le (sort_byte_arrays l).
Proof. exact c05_sorts. Qed.
Print Assumptions C05_sort_sorts.

Theorem C05_sort_order_independent : forall l l', Permutation l l' ->
  sort_byte_arrays l = sort_byte_arrays l'.
Proof. exact sort_perm_eq. Qed.
Print Assumptions C05_sort_order_independent.

(** any sorted rearrangement is the one returned, so the choice of algorithm
    inside Go's sort.Sort does not matter *)
Theorem C05_sort_unique : forall l l', Permutation l l' -> StronglySorted lex_le l' ->
  l' = sort_byte_arrays l.
Proof. exact c05_unique. Qed.
Print Assumptions C05_sort_unique.

Theorem C05_lex_le_order :
  (forall a, lex_le a a) /\ (forall a b c, lex_le a b -> lex_le b c -> lex_le a c) /\
  (forall a b, lex_le a b -> lex_le b a -> a = b) /\ (forall a b, lex_le a b \/ lex_le b a).
Proof. exact c05_order. Qed.
Print Assumptions C05_lex_le_order.

Example C05_example :
  sort_byte_arrays [[x02]; [x01; xff]; []; [x01]; [x80]] = [[]; [x01]; [x01; xff]; [x02]; [x80]].
Proof. reflexivity. Qed.

(** C06. *)
Theorem C06_equals : forall a b, equals a b = true <-> a = b.
Proof. exact equals_spec. Qed.
Print Assumptions C06_equals.

Theorem C06_little_endian : forall v l, v < 2 ^ 32 -> 4 <= l ->
  exists b, get_little_endian_bytes v l = Ok b /\ nlen b = l /\ le_get b = v.
Proof. exact c06_le. Qed.
Print Assumptions C06_little_endian.

Theorem C06_little_endian_short : forall v l, l < 4 -> get_little_endian_bytes v l = Panic.
Proof. exact c06_le_short. Qed.
Print Assumptions C06_little_endian_short.

Example C06_example :
  get_little_endian_bytes 0x12345678 6 = Ok [x78; x56; x34; x12; x00; x00].
Proof. reflexivity. Qed.

(** C07. Decode32Byte: the expected behaviour holds on exactly 64 digits ... *)
Theorem C07_decode32_exact : forall slack s b, hex_dec s = Some b -> length b = 32%nat ->
  decode_32_byte slack s = Ok b.
Proof. exact c07_exact. Qed.
Print Assumptions C07_decode32_exact.

(** ... non-hex text is an error ... *)
Theorem C07_decode32_error : forall slack s,
  (exists e, decode_32_byte slack s = Err e) <-> hex_dec s = None.
Proof. exact c07_error. Qed.
Print Assumptions C07_decode32_error.

(** ... longer text is silently truncated ... *)
Theorem C07_decode32_truncates : forall slack s b, hex_dec s = Some b -> (32 <= length b)%nat ->
  decode_32_byte slack s = Ok (firstn 32 b).
Proof. exact c07_long. Qed.
Print Assumptions C07_decode32_truncates.

(** ... and shorter text succeeds from 16 bytes upward, the missing bytes being
    characters of the text (and allocator slack); below, it panics unless the
    allocator rounded the buffer up to 32 bytes. *)
Theorem C07_decode32_short : forall slack s b, hex_dec s = Some b -> (length b < 32)%nat ->
  decode_32_byte slack s =
  if Nat.leb 32 (2 * length b + slack)
  then Ok (b ++ firstn (32 - length b) (skipn (length b) s ++ repeat x00 slack))
  else Panic.
Proof. exact c07_short. Qed.
Print Assumptions C07_decode32_short.

(** The natural claim "success implies the text denotes exactly those 32 bytes"
    is false: 32 digits succeed with 16 ASCII characters in the tail. *)
Theorem C07_decode32_only_32_bytes_refuted : exists slack s b,
  decode_32_byte slack s = Ok b /\ hex_dec s <> Some b.
Proof. exact c07_refuted. Qed.
Print Assumptions C07_decode32_only_32_bytes_refuted.

Example C07_example :
  decode_32_byte 0 (hex_encode (repeat x07 16)) = Ok (repeat x07 16 ++ str "0707070707070707").
Proof. vm_compute. reflexivity. Qed.
