(** Specifications for the byte helpers: compact sizes, lexicographic order,
    hexadecimal text. Independent of the model functions. *)
From Verif Require Export Bytes.
From Coq Require Export Sorting.Sorted Sorting.Permutation.

(** The Bitcoin "compact size": [n] is written as one byte below 253, or as a
    marker fd / fe / ff followed by 2 / 4 / 8 little-endian bytes. [compact n b]
    holds for every such form, shortest or not. *)
Inductive compact : N -> bytes -> Prop :=
| compact_1 c : b2n c < 253 -> compact (b2n c) [c]
| compact_3 p : length p = 2%nat -> compact (le_get p) (xfd :: p)
| compact_5 p : length p = 4%nat -> compact (le_get p) (xfe :: p)
| compact_9 p : length p = 8%nat -> compact (le_get p) (xff :: p).

(** Size of the shortest form. *)
Definition compact_size (n : N) : nat :=
  if n <=? 252 then 1 else if n <=? 65535 then 3 else if n <=? 4294967295 then 5 else 9.

(** The shortest form. *)
Definition compact_min (n : N) (b : bytes) : Prop := compact n b /\ length b = compact_size n.

(** Size announced by the first byte. *)
Definition announced (c : byte) : nat :=
  match c with xfd => 3 | xfe => 5 | xff => 9 | _ => 1 end.

(** Lexicographic order on byte strings. *)
Inductive lex_le : bytes -> bytes -> Prop :=
| lex_nil b : lex_le [] b
| lex_lt x y a b : b2n x < b2n y -> lex_le (x :: a) (y :: b)
| lex_eq x a b : lex_le a b -> lex_le (x :: a) (x :: b).
