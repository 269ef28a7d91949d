(** Specification for the counts of C72: how often the body of a loop runs. *)
From Verif Require Export M_Tx.

(** the state after [j] runs of the body, if none fails *)
Fixpoint after {S : Type} (f : S -> res S) (j : nat) (s : S) : res S :=
  match j with
  | O => Ok s
  | Datatypes.S j' => match after f j' s with Ok x => f x | r => r end
  end.
Definition fine {A} (r : res A) : Prop := exists x, r = Ok x.
(** a loop of [n] runs from [s], left at the first failure, runs its body [k] times *)
Definition body_runs {S : Type} (f : S -> res S) (n : nat) (s : S) (k : nat) : Prop :=
  (k <= n)%nat /\ (forall j, (j < k)%nat -> fine (after f j s)) /\ ((k < n)%nat -> ~ fine (after f k s)).

(** NewFromBytes reaches its loop over [n] inputs, or over [n] outputs, in state [s] *)
Definition input_loop (b : slice) (n : nat) (s : Z * list input) : Prop :=
  (10 <= slen b)%Z /\ exists rest c size, sl_from b 4 = Some rest /\ decode_varint rest = Ok (c, size) /\
    n = N.to_nat c /\ s = (wrap_int (4 + size), []).
Definition output_loop (b : slice) (n : nat) (s : Z * list output) : Prop :=
  exists ni si off ins rest c size, input_loop b ni si /\ after (tx_input_step b) ni si = Ok (off, ins) /\
    sl_from b off = Some rest /\ decode_varint rest = Ok (c, size) /\ n = N.to_nat c /\ s = (wrap_int (off + size), []).
