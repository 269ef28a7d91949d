(** Goroutines over shared memory: the small machine in which C80-C82 are stated.

    Memory is a function from cells to values. A call is a program that reads and
    writes cells one at a time and finally returns; what it computes in between is
    private. A schedule says which goroutine does its next access, so executions are
    the sequentially consistent interleavings. Go's memory model gives exactly these
    to programs without data races, and these are among the executions of every
    program. *)
From Verif Require Export M_Utils.
From Coq Require Import Eqdep_dec.

Section Conc.
Context {L : Type} (leq : forall a b : L, {a = b} + {a <> b}) (V : L -> Type).

Definition mem := forall l, V l.
Definition upd (m : mem) (l : L) (v : V l) : mem :=
  fun l' => match leq l l' with left e => eq_rect l V v l' e | right _ => m l' end.

Inductive prog (R : Type) : Type :=
| Ret (r : R)
| Rd (l : L) (k : V l -> prog R)
| Wr (l : L) (v : V l) (k : prog R).

(** the call alone: its result and the memory afterwards *)
Fixpoint solo {R} (m : mem) (p : prog R) : R * mem :=
  match p with
  | Ret _ r => (r, m)
  | Rd _ l k => solo m (k (m l))
  | Wr _ l v k => solo (upd m l v) k
  end.

(** goroutine number [i] does its next access (nothing, if it has returned) *)
Definition conf (R : Type) : Type := mem * list (prog R).
Definition step {R} (c : conf R) (i : nat) : conf R :=
  match nth_error (snd c) i with
  | Some (Rd _ l k) => (fst c, set_nth i (k (fst c l)) (snd c))
  | Some (Wr _ l v k) => (upd (fst c) l v, set_nth i k (snd c))
  | _ => c
  end.
Definition run {R} (c : conf R) (schedule : list nat) : conf R := fold_left step schedule c.

(** all have returned, with these results *)
Definition returned {R} (c : conf R) (rs : list R) : Prop := snd c = map (Ret R) rs.

(** the cell of the next access, and whether it is a write *)
Definition next {R} (p : prog R) : option (L * bool) :=
  match p with Ret _ _ => None | Rd _ l _ => Some (l, false) | Wr _ l _ _ => Some (l, true) end.
(** a data race: two goroutines about to access one cell, one of them writing *)
Definition race {R} (c : conf R) : Prop :=
  exists i j p q l w1 w2, i <> j /\ nth_error (snd c) i = Some p /\ nth_error (snd c) j = Some q /\
    next p = Some (l, w1) /\ next q = Some (l, w2) /\ (w1 = true \/ w2 = true).

(** one after the other *)
Fixpoint one_by_one {R} (m : mem) (ps : list (prog R)) : list R * mem :=
  match ps with
  | [] => ([], m)
  | p :: r => let (x, m1) := solo m p in let (xs, m2) := one_by_one m1 r in (x :: xs, m2)
  end.

(** sequencing, for writing programs *)
Fixpoint bindp {A B} (p : prog A) (f : A -> prog B) : prog B :=
  match p with
  | Ret _ r => f r
  | Rd _ l k => Rd B l (fun v => bindp (k v) f)
  | Wr _ l v k => Wr B l v (bindp k f)
  end.
(** sequencing of calls that may fail: an error or a panic ends the call *)
Definition bindr {A B} (p : prog (res A)) (f : A -> prog (res B)) : prog (res B) :=
  bindp p (fun r => match r with Ok a => f a | Err e => Ret _ (Err e) | Panic => Ret _ Panic end).
End Conc.
Arguments Ret {L V R} r.
Arguments Rd {L V R} l k.
Arguments Wr {L V R} l v k.
