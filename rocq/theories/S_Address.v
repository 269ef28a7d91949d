(** Specification of base58 text, addresses and BIP276 text. *)
From Verif Require Export Bytes.

(** The base58 digits, in order. *)
Definition b58_chars : bytes :=
  str "123456789ABCDEFGHJKLMNPQRSTUVWXYZabcdefghijkmnopqrstuvwxyz".

(** [b58_num s v]: [s] consists of base58 digits and denotes [v]. *)
Inductive b58_num : bytes -> N -> Prop :=
| b58_nil : b58_num [] 0
| b58_snoc s v c d : b58_num s v -> nth_error b58_chars d = Some c ->
    b58_num (s ++ [c]) (58 * v + N.of_nat d).

(** [b58_of s b]: the base58 text of the byte string [b]: one '1' per leading
    zero byte, then the number without leading '1'. *)
Definition b58_of (s b : bytes) : Prop :=
  exists k s' b', s = repeat x31 k ++ s' /\ b = repeat x00 k ++ b' /\
    hd_error s' <> Some x31 /\ hd_error b' <> Some x00 /\ b58_num s' (be_get b').

(** address payload: version, 20-byte hash, 4 checksum bytes *)
Definition addr_version (v : byte) : Prop := v = x00 \/ v = x6f.

(** decimal digit characters *)
Definition dec_digit (c : byte) : Prop := 48 <= b2n c <= 57.
Definition dec2 (c d : byte) : Z := Z.of_N (10 * (b2n c - 48) + (b2n d - 48)).

(** two lower-case hexadecimal digits of a number below 256 *)
Definition hex2 (n : Z) : bytes := hex_encode [n2b (Z.to_N n)].

(** BIP276 text: prefix ':' two decimal digits, two decimal digits, hex data, 8
    hex digits of checksum. *)
Definition bip276_text (text p : bytes) (a b c d : byte) (h k : bytes) : Prop :=
  text = p ++ x3a :: a :: b :: c :: d :: h ++ k /\
  p <> [] /\ ~ In x0a p /\
  dec_digit a /\ dec_digit b /\ dec_digit c /\ dec_digit d /\
  h <> [] /\ length k = 8%nat /\ forallb is_hex (h ++ k) = true.
