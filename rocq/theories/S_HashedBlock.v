(** C108: how much is hashed for a Merkle tree. *)
From Verif Require Export M_HashedBlock S_Block.

(** The pairs hashed for [n] leaves, level by level: halves rounded up, until one is left. *)
Inductive pairs : nat -> nat -> Prop :=
| pairs_0 : pairs 0 0
| pairs_1 : pairs 1 0
| pairs_even k w : (0 < k)%nat -> pairs k w -> pairs (2 * k) (k + w)
| pairs_odd k w : (0 < k)%nat -> pairs (k + 1) w -> pairs (2 * k + 1) (k + 1 + w).
