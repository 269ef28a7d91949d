(** Specification for C103: a node that also follows the rules against changed unlocking scripts
    (BIP 62, "standard" transactions), written from the protocol. *)
From Verif Require Export S_Strict S_Third.

(** The shortest way to put [d] on the stack: the word of the number if there is one, else the
    shortest header and the bytes. *)
Inductive least_push : bytes -> bytes -> Prop :=
| lp_num k : 1 <= k <= 16 -> least_push [n2b (80 + k)] [n2b k]
| lp_minus_one : least_push [x4f] [x81]
| lp_data h d : shortest_header h (nlen d) -> (forall c, d = [c] -> ~ 1 <= b2n c <= 16 /\ c <> x81) ->
    least_push (h ++ d) d.
(** [u] does nothing but push [ds], one after the other, each in the shortest way *)
Inductive least_pushes : bytes -> list bytes -> Prop :=
| lps_none : least_pushes [] []
| lps_one w d u ds : least_push w d -> least_pushes u ds -> least_pushes (w ++ u) (d :: ds).

(** public keys are compressed or uncompressed points *)
Definition key_size (pub : bytes) : Prop := length pub = 33%nat \/ length pub = 65%nat.
Definition careful_ok (verify : bytes -> bytes -> bytes -> Prop) (t : tx) (n : nat) (sg pub : bytes) : Prop :=
  strict_ok verify t n sg pub /\ key_size pub.

(** Input [n] of [t]: shortest pushes only, and true is the only thing left on the stack. *)
Definition carefully_taken (verify : bytes -> bytes -> bytes -> Prop) (t : tx) (n : nat) : Prop :=
  exists i u s ds top, nth_error (inputs t) n = Some (Some i) /\ unlocking i = Some u /\ prev_script i = Some s /\
    least_pushes u ds /\ exec (careful_ok verify t n) s (rev ds) [top] /\ truthy top.

(** The node of C84 and C100 with these rules, which also wants the shortest form of every length on
    the wire; [full] is the transaction with what the node knows of the outputs it spends. *)
Definition careful_node (verify : bytes -> bytes -> bytes -> Prop) (known : list bytes) (b : bytes) (full : tx) : Prop :=
  exists t, wire_tx compact_min b t /\ fresh_tx t /\
    version full = version t /\ outputs full = outputs t /\ locktime full = locktime t /\
    Forall2 (looked_up known) (inputs t) (inputs full) /\
    (forall n, (n < length (inputs full))%nat -> carefully_taken verify full n) /\
    NoDup (spent t) /\ inputs t <> [] /\ outputs t <> [] /\
    sum (map amount_out (outputs t)) <= sum (map amount_in (inputs full)).

(** The unlocking script of input [n] of [full] pushes [x] and a public key. *)
Definition carries (full : tx) (n : nat) (x : bytes) : Prop :=
  exists i u pub, nth_error (inputs full) n = Some (Some i) /\ unlocking i = Some u /\ least_pushes u [x; pub].
(** Whatever signature in [full] verifies under the key's public key is the one that the key makes for an input of [t]
    (all inputs and outputs, fork id): no one else can sign, the holder has signed nothing else, and from one
    signature no second one can be made. *)
Definition only_own (verify : bytes -> bytes -> bytes -> Prop) (k : priv_key) (t full : tx) : Prop :=
  forall n f p s, f < 256 -> preimage full n f p -> carries full n (s ++ [n2b f]) -> verify (key_pub k) (dsha p) s ->
    exists m q, preimage t m 65 q /\ dsha q = dsha p /\ key_sign k (dsha p) = Ok s.

(** Two different messages with the same hash among what [full] and [t] have hashed: public keys,
    preimages of signatures, lists of outpoints, sequence numbers or outputs. *)
Definition clash (pub : bytes) (t full : tx) : Prop :=
  (exists n i u sg pub', nth_error (inputs full) n = Some (Some i) /\ unlocking i = Some u /\ least_pushes u [sg; pub'] /\
     collision hash160 pub' pub) \/
  (exists m n f p p', preimage t m 65 p /\ preimage full n f p' /\ dcollision p p') \/
  (exists a a' s s' o o', all_outpoints t a /\ all_outpoints full a' /\ all_sequences t s /\ all_sequences full s' /\
     all_outputs t o /\ all_outputs full o' /\ (dcollision a a' \/ dcollision s s' \/ dcollision o o')).
