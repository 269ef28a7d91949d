(** Specification for C76, C77: what is read of a text that is not hexadecimal, and
    which transactions can be written. *)
From Verif Require Export S_Pay.

(** [p] is the part of [s] that is read as hexadecimal, and [b] what it stands for:
    as many pairs of digits as there are before the first pair that is not one. *)
Definition reads (s p b : bytes) : Prop :=
  exists r, s = p ++ r /\ hex_text p b /\
    forall c1 c2 r' x, r = c1 :: c2 :: r' -> ~ hex_text [c1; c2] [x].

(** two texts of which the same is read *)
Definition same_read (s s' : bytes) : Prop := exists p b, reads s p b /\ reads s' p b.

(** two transactions that differ only in what is not read of the references *)
Definition same_refs (t t' : tx) : Prop :=
  version t = version t' /\ locktime t = locktime t' /\ outputs t = outputs t' /\
  Forall2 (fun oi oi' => match oi, oi' with
                         | Some i, Some i' => same_read (prev_txid i) (prev_txid i') /\
                             prev_index i = prev_index i' /\ prev_sats i = prev_sats i' /\
                             prev_script i = prev_script i' /\ unlocking i = unlocking i' /\ sequence i = sequence i'
                         | None, None => True
                         | _, _ => False
                         end) (inputs t) (inputs t').

(** a transaction holds a nil pointer that serialising follows *)
Definition holds_nil (t : tx) : Prop :=
  In None (inputs t) \/ In None (outputs t) \/ exists o, In (Some o) (outputs t) /\ locking o = None.

(** what is written of an input, an output, a transaction: the same layout as on the
    wire ([wire_input], [wire_output], [wire_tx] of S_Tx.v, shortest counts), with the
    bytes read of the reference in reversed order, be they 32 or not *)
Definition writes_input (i : input) (w : bytes) : Prop :=
  exists p ref ix l sq, reads (prev_txid i) p ref /\
    w = rev ref ++ ix ++ l ++ script_bytes (unlocking i) ++ sq /\
    length ix = 4%nat /\ length sq = 4%nat /\ compact_min (nlen (script_bytes (unlocking i))) l /\
    prev_index i = le_get ix /\ sequence i = le_get sq.
Definition writes_tx (t : tx) (w : bytes) : Prop :=
  exists ver nin wi nout wo lt,
    w = ver ++ nin ++ concat wi ++ nout ++ concat wo ++ lt /\
    length ver = 4%nat /\ length lt = 4%nat /\
    version t = le_get ver /\ locktime t = le_get lt /\
    compact_min (nlen (inputs t)) nin /\ compact_min (nlen (outputs t)) nout /\
    Forall2 (fun w oi => exists i, oi = Some i /\ writes_input i w) wi (inputs t) /\
    Forall2 (fun w oo => exists o, oo = Some o /\ wire_output compact_min w o) wo (outputs t).

(** the fields are in the ranges of their Go types *)
Definition ranged (t : tx) : Prop :=
  version t < 2 ^ 32 /\ locktime t < 2 ^ 32 /\ nlen (inputs t) < 2 ^ 63 /\ nlen (outputs t) < 2 ^ 63 /\
  (forall i, In (Some i) (inputs t) -> prev_index i < 2 ^ 32 /\ sequence i < 2 ^ 32 /\ nlen (script_bytes (unlocking i)) < 2 ^ 63) /\
  (forall o, In (Some o) (outputs t) -> satoshis o < 2 ^ 64 /\ nlen (script_bytes (locking o)) < 2 ^ 63).

(** number of bytes of an input whose reference is read as [k] bytes, of an output *)
Definition size_input (i : input) (k : nat) : nat :=
  let s := script_bytes (unlocking i) in (k + 4 + compact_size (nlen s) + length s + 4)%nat.
Definition size_output (o : output) : nat :=
  let s := script_bytes (locking o) in (8 + compact_size (nlen s) + length s)%nat.
