(** Specification for C101: what signatures with the flags NONE, SINGLE and ANYONECANPAY cover. Written from
    the replay-protected signature hash. *)
From Verif Require Export S_Strict S_Joint.

Definition sequence_of (oi : option input) : N := match oi with Some i => sequence i | None => 0 end.
(** A signature with flag [f] on input [n] of [t] is also one on input [n'] of [t']: the input itself, version and
    lock time are the same; without ANYONECANPAY the same outputs are spent, in the same order (and for ALL the sequence
    numbers are the same); for ALL the outputs are the same, for SINGLE the one with the number of the input. *)
Definition covers (f : N) (t : tx) (n : nat) (t' : tx) (n' : nat) : Prop :=
  version t' = version t /\ locktime t' = locktime t /\
  (exists i, nth_error (inputs t) n = Some (Some i) /\ nth_error (inputs t') n' = Some (Some i)) /\
  (any_one_can_pay f = false -> spent t' = spent t) /\
  (any_one_can_pay f = false -> is_all f = true -> map sequence_of (inputs t') = map sequence_of (inputs t)) /\
  (is_all f = true -> outputs t' = outputs t) /\
  (is_single f = true -> nth_error (outputs t') n' = nth_error (outputs t) n).

(** someone who gives money on condition: his outputs (From calls only), and a key *)
Definition pledge (verify : bytes -> bytes -> bytes -> Prop) (known : list bytes) (p : priv_key * list tx_call) : Prop :=
  honest verify (fst p) /\ Forall (wallet_call known (key_pub (fst p))) (snd p) /\
  Forall (fun c => exists id k s sats, c = CallFrom id k s sats) (snd p).
(** the payments all of them agree on *)
Definition payment (c : tx_call) : Prop :=
  exists h m sats, length h = 20%nat /\ sats < 2 ^ 64 /\ c = CallPayTo (addr_string (addr_from_pkh h m)) sats.

(** Under [pub] nothing verifies except signatures of inputs of [t] made with flag [f]. *)
Definition signed_only_with (f : N) (verify : bytes -> bytes -> bytes -> Prop) (pub : bytes) (t : tx) : Prop :=
  forall d s, verify pub d s -> exists n p, preimage t n f p /\ d = dsha p.
