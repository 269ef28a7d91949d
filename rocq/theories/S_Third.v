(** Specification for C99: what others can do to a transaction that has been signed. *)
From Verif Require Export S_Chain.

(** the same transaction except for the unlocking scripts *)
Definition only_scripts_differ (t t' : tx) : Prop :=
  version t' = version t /\ outputs t' = outputs t /\ locktime t' = locktime t /\
  Forall2 same_signed_input (inputs t) (inputs t').

(** Under the public key [pub] nothing verifies except signatures of inputs of [t], made with the flag that
    the library uses (all inputs and outputs, fork id). *)
Definition signed_only (verify : bytes -> bytes -> bytes -> Prop) (pub : bytes) (t : tx) : Prop :=
  forall d s, verify pub d s -> exists n p, preimage t n 65 p /\ d = dsha p.
