(** Specification for C67, C68: hexadecimal text, and what an address says. *)
From Verif Require Export S_Address S_Tx.

(** a hexadecimal digit of either case and its value *)
Definition hex_digit (c : byte) (d : nat) : Prop :=
  nth_error (str "0123456789abcdef") d = Some c \/ nth_error (str "0123456789ABCDEF") d = Some c.

Inductive hex_text : bytes -> bytes -> Prop :=
| hex_text_nil : hex_text [] []
| hex_text_cons c1 d1 c2 d2 s b x : hex_digit c1 d1 -> hex_digit c2 d2 ->
    b2n x = N.of_nat (16 * d1 + d2) -> hex_text s b -> hex_text (c1 :: c2 :: s) (x :: b).

(** [s] is the standard address text of version [w] and hash [h]: base58 of version,
    hash and the first four bytes of the double SHA-256 of both *)
Definition address_text (s : bytes) (w : byte) (h : bytes) : Prop :=
  b58_of s (w :: h ++ firstn 4 (sha256 (sha256 (w :: h)))).

(** equal up to the number of leading '1' characters *)
Definition same_but_ones (s s' : bytes) : Prop :=
  exists k k' t, s = repeat x31 k ++ t /\ s' = repeat x31 k' ++ t /\ hd_error t <> Some x31.
