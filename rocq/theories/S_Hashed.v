(** C107: how much is hashed. *)
From Verif Require Export M_Hashed S_Sighash S_Script.

(** An input spending an output of a transaction, with the script of that output. *)
Definition spends (s : bytes) (oi : option input) : Prop :=
  exists i id, oi = Some i /\ hex_dec (prev_txid i) = Some id /\ length id = 32%nat /\ prev_script i = Some s.
(** An input spending an output that may be unknown. *)
Definition known (oi : option input) : Prop :=
  exists i id, oi = Some i /\ hex_dec (prev_txid i) = Some id /\ length id = 32%nat.
(** The bytes of an output. *)
Definition written (oo : option output) (w : bytes) : Prop := exists o, oo = Some o /\ output_to_bytes o = Ok w.

Definition total (ms : list bytes) : nat := length (concat ms).

(** The sizes of the messages hashed for input [n] of a transaction with [ins] inputs and outputs of the bytes [ws], when the
    script spent has the bytes [s]. *)
Definition hashed_sizes (f : N) (n ins : nat) (ws : list bytes) (s : bytes) : list nat :=
  (if any_one_can_pay f then [] else [36 * ins])%nat ++
  (if any_one_can_pay f || negb (is_all f) then [] else [4 * ins])%nat ++
  (if is_none f then [] else
   if is_single f then match nth_error ws n with Some w => [length w] | None => [] end
   else [total ws]) ++
  [156 + length (varint (nlen s)) + length s]%nat.

(** An input whose output is unknown or not a pay-to-public-key-hash output of [h]. *)
Definition foreign (h : bytes) (oi : option input) : Prop :=
  known oi /\ exists i, oi = Some i /\ get_public_key_hash (prev_script i) <> Panic /\ get_public_key_hash (prev_script i) <> Ok h.
(** An input, and whether it spends an output of [h]. *)
Definition belongs (h : bytes) (oi : option input) (mine : bool) : Prop :=
  if mine then spends (p2pkh h) oi else foreign h oi.

Definition sum (l : list nat) : nat := fold_right Nat.add 0%nat l.
(** The bytes hashed for the inputs from number [n] on, where [mine] says which are signed. *)
Fixpoint signing_sizes (f : N) (n ins : nat) (ws : list bytes) (s : bytes) (mine : list bool) : nat :=
  match mine with
  | [] => 0
  | b :: r => (if b then sum (hashed_sizes f n ins ws s) else 0) + signing_sizes f (S n) ins ws s r
  end%nat.
