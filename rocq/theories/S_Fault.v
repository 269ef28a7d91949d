(** C106: which byte of a base64 text the error names. *)
From Verif Require Export M_Fault S_Encryption.

Definition digit (c : byte) : Prop := exists n, b64_digit n c.
Definition newline (c : byte) : Prop := c = x0a \/ c = x0d.
(** The number of digits in a text made of digits and newlines. *)
Definition digits (l : bytes) : nat := length (no_newlines l).
Definition plain (l : bytes) : Prop := Forall (fun c => digit c \/ newline c) l.
Definition blank (l : bytes) : Prop := Forall newline l.

(** Texts whose digits end in complete padding. *)
Inductive padded : bytes -> Prop :=
| padded_1 l : plain l -> (digits l mod 4 = 3)%nat -> padded (l ++ [x3d])
| padded_2 l nl : plain l -> (digits l mod 4 = 2)%nat -> blank nl -> padded (l ++ x3d :: nl ++ [x3d]).

(** [offends p k]: the error for [p] names byte [k]. *)
Inductive offends : bytes -> N -> Prop :=
| bad_char l c r : plain l -> ~ digit c -> ~ newline c -> c <> x3d -> offends (l ++ c :: r) (nlen l)
| bad_early l r : plain l -> (digits l mod 4 < 2)%nat -> offends (l ++ x3d :: r) (nlen l)
| bad_end l : plain l -> (digits l mod 4 <> 0)%nat -> offends l (nlen l - N.of_nat (digits l mod 4))
| bad_half l nl : plain l -> (digits l mod 4 = 2)%nat -> blank nl -> offends (l ++ x3d :: nl) (nlen l + 1 + nlen nl)
(* the byte before the wrong one *)
| bad_pad l nl c r : plain l -> (digits l mod 4 = 2)%nat -> blank nl -> ~ newline c -> c <> x3d ->
    offends (l ++ x3d :: nl ++ c :: r) (nlen l + nlen nl)
| bad_after w nl c r : padded w -> blank nl -> ~ newline c -> offends (w ++ nl ++ c :: r) (nlen w + nlen nl).
