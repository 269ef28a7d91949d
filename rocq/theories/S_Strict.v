(** Specification for C100: the rule about flags that the network follows since the fork of 2017. *)
From Verif Require Export S_Chain S_Demand.

(** The flags a node takes: one of ALL, NONE, SINGLE, with the fork id, with or without ANYONECANPAY.
    (A signature without the fork id is refused, and so is one whose base type is none of the three.) *)
Definition network_flag (f : N) : Prop := In f [0x41; 0x42; 0x43; 0xc1; 0xc2; 0xc3].

(** CHECKSIG of such a node *)
Definition strict_ok (verify : bytes -> bytes -> bytes -> Prop) (t : tx) (n : nat) (sg pub : bytes) : Prop :=
  exists s f p, sg = s ++ [n2b f] /\ network_flag f /\ preimage t n f p /\ verify pub (dsha p) s.

(** It takes input [n] of [t]: the unlocking script leaves a stack that satisfies the spent script. *)
Definition taken (verify : bytes -> bytes -> bytes -> Prop) (t : tx) (n : nat) : Prop :=
  exists i u s st, nth_error (inputs t) n = Some (Some i) /\ unlocking i = Some u /\ prev_script i = Some s /\
    exec (strict_ok verify t n) u [] st /\ satisfied (strict_ok verify t n) s st.

(** the node of C84 with this rule *)
Definition node_takes (verify : bytes -> bytes -> bytes -> Prop) (known : list bytes) (b : bytes) : Prop :=
  exists t full, on_wire b t /\
    version full = version t /\ outputs full = outputs t /\ locktime full = locktime t /\
    Forall2 (looked_up known) (inputs t) (inputs full) /\
    (forall n, (n < length (inputs full))%nat -> taken verify full n) /\
    NoDup (spent t) /\ inputs t <> [] /\ outputs t <> [] /\
    sum (map amount_out (outputs t)) <= sum (map amount_in (inputs full)).
