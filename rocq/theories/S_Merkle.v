(** Specification for C66: what a merkle root says about the list it was computed
    from. *)
From Verif Require Export S_Block.

(** the messages hashed on one level, and in the whole tree *)
Inductive paired : list bytes -> bytes -> Prop :=
| paired_last a : paired [a] (a ++ a)
| paired_here a b l : paired (a :: b :: l) (a ++ b)
| paired_later a b l m : paired l m -> paired (a :: b :: l) m.

Inductive hashed_in : list bytes -> bytes -> Prop :=
| hashed_here l m : (2 <= length l)%nat -> paired l m -> hashed_in l m
| hashed_up l l' m : (2 <= length l)%nat -> pairing l l' -> hashed_in l' m -> hashed_in l m.

(** [l'] repeats the last 2^k entries of [l], which consists of an odd number, at
    least 3, of blocks of that size. *)
Definition repeats_tail {A} (l l' : list A) : Prop :=
  exists k m, (1 <= m)%nat /\ length l = ((2 * m + 1) * 2 ^ k)%nat /\ l' = l ++ skipn (length l - 2 ^ k) l.

Inductive extends {A} : list A -> list A -> Prop :=
| ext_refl l : extends l l
| ext_step l l1 l2 : repeats_tail l l1 -> extends l1 l2 -> extends l l2.

(** the nodes [k] levels above the leaves *)
Inductive level : nat -> list bytes -> list bytes -> Prop :=
| level_leaves l : level 0 l l
| level_up k l l' l'' : (2 <= length l)%nat -> pairing l l' -> level k l' l'' -> level (S k) l l''.
