(** Memory-level model of the [Inputs] and [Outputs] slices of transactions: which
    program variables see which changes. The elements (pointers to Input or Output)
    have any type [A]. *)
From Verif Require Export M_Tx.

Section Slots.
Context {A : Type}.

(** Arrays of the runtime, and a slice of one: it starts at the array's first
    element and its capacity is the rest of the array (true of every slice AddInput,
    AddOutput, GetInputs and GetOutputs give). [nil] is the element of fresh capacity. *)
(** transaction/Transaction.go:39-40 (Inputs, Outputs). *)
Record slots := mk_slots { k_arr : nat; k_len : nat }.
(** transaction/Transaction.go:39-40 (Inputs, Outputs). *)
Definition store := list (list A).
(** transaction/Transaction.go:39-40 (Inputs, Outputs). *)
Definition array (h : store) (a : nat) : list A := nth a h [].
(** transaction/Transaction.go:39-40 (Inputs, Outputs). *)
Definition shows (h : store) (s : slots) : list A := firstn (k_len s) (array h (k_arr s)).
(** transaction/Transaction.go:39-40 (Inputs, Outputs). *)
Definition room (h : store) (s : slots) : nat := length (array h (k_arr s)) - k_len s.

(** transaction/Transaction.go:118-120 (AddInput), 154-157 (AddOutput): Go's [append] of
    one element: in place if there is room, else into a new array whose spare capacity
    [slack] is up to the runtime. Also a caller's own [append] to a slice it got. *)
Definition k_add (nil : A) (slack : nat) (h : store) (s : slots) (x : A) : store * slots :=
  if Nat.ltb (k_len s) (length (array h (k_arr s)))
  then (set_nth (k_arr s) (set_nth (k_len s) x (array h (k_arr s))) h, mk_slots (k_arr s) (S (k_len s)))
  else (h ++ [shows h s ++ [x] ++ repeat nil slack], mk_slots (length h) (S (k_len s))).

(** What a program does; its variables are numbered.
    - [DoNew]: transaction.New (transaction/Transaction.go:45-52), slice of an empty array;
    - [DoAdd slack i x]: AddInput, From, AddOutput, PayTo on transaction [i], or [append] to
      a slice the program got;
    - [DoGet i]: GetInputs, GetOutputs (transaction/Transaction.go:190-197) or a copy of the
      struct, [u := *t]: a further variable with the same slice;
    - [DoPut i k x]: [ins[k] = x] on a slice the program got. *)
Inductive kact := DoNew | DoAdd (slack i : nat) (x : A) | DoGet (i : nat) | DoPut (i k : nat) (x : A).

(** [None]: no such variable, or the index panics. *)
(** transaction/Transaction.go:45-52, 118-157, 190-197. *)
Definition k_act (nil : A) (st : store * list slots) (a : kact) : option (store * list slots) :=
  let (h, ss) := st in
  match a with
  | DoNew => Some (h ++ [[]], ss ++ [mk_slots (length h) 0])
  | DoAdd slack i x =>
      match nth_error ss i with
      | Some s => let (h', s') := k_add nil slack h s x in Some (h', set_nth i s' ss)
      | None => None
      end
  | DoGet i => match nth_error ss i with Some s => Some (h, ss ++ [s]) | None => None end
  | DoPut i k x =>
      match nth_error ss i with
      | Some s => if Nat.ltb k (k_len s) then Some (set_nth (k_arr s) (set_nth k x (array h (k_arr s))) h, ss) else None
      | None => None
      end
  end.
(** transaction/Transaction.go:45-52, 118-157, 190-197. *)
Fixpoint k_acts (nil : A) (st : store * list slots) (l : list kact) : option (store * list slots) :=
  match l with
  | [] => Some st
  | a :: r => match k_act nil st a with Some st' => k_acts nil st' r | None => None end
  end.
End Slots.
Arguments kact : clear implicits.
Arguments store : clear implicits.
