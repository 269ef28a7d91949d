(** Specification vocabulary for the memory model. *)
From Verif Require Export M_Mem.

(** a slice that lies within its array; Go's arrays are smaller than 2^62 bytes *)
Definition wf_sl (h : heap) (s : sl) : Prop :=
  (s_arr s < length h)%nat /\ (s_len s <= s_cap s)%nat /\
  (s_off s + s_cap s <= length (arr h (s_arr s)))%nat /\ (Z.of_nat (length (arr h (s_arr s))) < 2 ^ 62)%Z.

(** [y] starts at least [gap] bytes after the end of [x] in the same array *)
Definition after (gap : nat) (x y : sl) : Prop :=
  s_arr x = s_arr y /\ (s_off x + s_len x + gap <= s_off y)%nat.

(** [b'] is [b] with the bytes at [i], [i+1], ... replaced by [d] *)
Definition overwritten (b : bytes) (i : nat) (d b' : bytes) : Prop :=
  length b' = length b /\
  (forall k, (k < length d)%nat -> nth_error b' (i + k) = nth_error d k) /\
  (forall k, (k < i \/ i + length d <= k)%nat -> nth_error b' k = nth_error b k).
