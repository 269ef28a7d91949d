(** Specification for C91: how long transactions are, and the fees they pay. *)
From Verif Require Export S_Chain.

(** a script on the wire: its length in compact form, then the script (nil is written as empty) *)
Definition script_size (o : option bytes) : nat := (compact_size (nlen (script_bytes o)) + length (script_bytes o))%nat.
(** a transaction without unlocking scripts that spends [nin] outputs and pays [nout] key hashes: version,
    lock time and the two counts; per input 32 bytes of reference, index, sequence and an empty script;
    per output the amount and a script of 25 bytes *)
Definition unsigned_size (nin nout : nat) : nat :=
  (8 + compact_size (N.of_nat nin) + compact_size (N.of_nat nout) + 41 * nin + 34 * nout)%nat.
(** a compressed public key, and signatures of [lo] to [hi] bytes *)
Definition key_sizes (k : priv_key) (lo hi : nat) : Prop :=
  length (key_pub k) = 33%nat /\ forall d sg, key_sign k d = Ok sg -> (lo <= length sg <= hi)%nat.
(** how many outputs the calls spend and pay *)
Definition spends (cs : list tx_call) : nat := length (points cs).
Definition pays (cs : list tx_call) : nat := length (filter (fun c => match c with CallPayTo _ _ => true | _ => false end) cs).
(** what is left to the miner, by the outputs that the node knows *)
Definition node_fee (known : list bytes) (b : bytes) (fee : N) : Prop :=
  exists t full, on_wire b t /\ Forall2 (looked_up known) (inputs t) (inputs full) /\
    sum (map amount_out (outputs t)) + fee = sum (map amount_in (inputs full)).
