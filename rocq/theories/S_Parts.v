(** Specification vocabulary for C70. *)
From Verif Require Export M_Parts S_Mem.

(** Where the parts of a script lie. [laid b n o ws ss]: [ws] are the elements of the
    script [b] from offset [o] on; the part of an opcode is a one-byte slice of a new
    array, numbered [n], [n+1], ...; the part of a push is the window of [b] on the
    pushed bytes, with everything behind it in [b]'s capacity. *)
Inductive laid (b : sl) : nat -> nat -> list bytes -> list sl -> Prop :=
| laid_nil n o : laid b n o [] []
| laid_op n o c ws ss : c = x00 \/ 79 <= b2n c -> laid b (S n) (o + 1) ws ss ->
    laid b n o ([c] :: ws) (mk_sl n 0 1 1 :: ss)
| laid_push n o k d ws ss : elem (k ++ d) d -> k <> [] -> laid b n (o + length (k ++ d)) ws ss ->
    laid b n o ((k ++ d) :: ws) (mk_sl (s_arr b) (s_off b + o + length k) (length d) (s_cap b - (o + length k)) :: ss).

(** a part with an array of its own, not older than number [n]; a part that is a window
    of [b], strictly behind offset [lo], ending at or before offset [hi] *)
Definition own (n : nat) (s : sl) : Prop := (n <= s_arr s)%nat /\ s_off s = 0%nat /\ s_len s = 1%nat /\ s_cap s = 1%nat.
Definition window (b : sl) (lo hi : nat) (s : sl) : Prop :=
  s_arr s = s_arr b /\ (s_off b + lo < s_off s)%nat /\ (s_off s + s_len s <= s_off b + hi)%nat /\ (s_off s + s_cap s = s_off b + s_cap b)%nat.
