(** Specification for C84: a node that checks transactions against the transactions it knows,
    and a wallet that spends their outputs. Written from the protocol. *)
From Verif Require Export S_Flow.

(** ** The node *)
(** [b] is a transaction on the wire; the fields of [t] that are not on the wire are empty *)
Definition on_wire (b : bytes) (t : tx) : Prop := wire_tx compact b t /\ fresh_tx t.
(** the outputs a transaction spends *)
Definition point_of (oi : option input) : bytes * N :=
  match oi with Some i => (prev_txid i, prev_index i) | None => ([], 0) end.
Definition spent (t : tx) : list (bytes * N) := map point_of (inputs t).
(** output [k] of the transaction with hash [id] is [o] and no known transaction spends it *)
Definition unspent (known : list bytes) (id : bytes) (k : N) (o : output) : Prop :=
  (exists b t, In b known /\ dsha b = id /\ on_wire b t /\ nth_error (outputs t) (N.to_nat k) = Some (Some o)) /\
  (forall b t, In b known -> on_wire b t -> ~ In (hex_encode (rev id), k) (spent t)).
(** an input with the script and amount of the output it spends, as the node knows it *)
Definition looked_up (known : list bytes) (oi of : option input) : Prop :=
  exists i o id, oi = Some i /\ prev_txid i = hex_encode (rev id) /\ unspent known id (prev_index i) o /\
    of = Some (mk_in (prev_txid i) (prev_index i) (satoshis o) (locking o) (unlocking i) (sequence i)).
Definition sum (l : list N) : N := fold_right N.add 0 l.
Definition amount_in (oi : option input) : N := match oi with Some i => prev_sats i | None => 0 end.
Definition amount_out (oo : option output) : N := match oo with Some o => satoshis o | None => 0 end.
(** The node accepts [b]: every output it spends is known and unspent, no output is spent twice,
    every unlocking script satisfies the script of the output that it spends (by the node's own
    knowledge of script and amount), and no more is paid than spent. Maturity of coinbases,
    lock times and limits of size are left out. *)
Definition node_accepts (verify : bytes -> bytes -> bytes -> Prop) (known : list bytes) (b : bytes) : Prop :=
  exists t full, on_wire b t /\
    version full = version t /\ outputs full = outputs t /\ locktime full = locktime t /\
    Forall2 (looked_up known) (inputs t) (inputs full) /\
    (forall n, (n < length (inputs full))%nat -> accepted verify full n) /\
    NoDup (spent t) /\ inputs t <> [] /\ outputs t <> [] /\
    sum (map amount_out (outputs t)) <= sum (map amount_in (inputs full)).

(** ** The wallet *)
(** From with what the library says about an unspent output of a known transaction that pays to
    the wallet's key; PayTo *)
Inductive wallet_call (known : list bytes) (pub : bytes) : tx_call -> Prop :=
| wc_from a b o k id s : wf_tx a -> tx_to_bytes a = Ok b -> In b known -> k < 2 ^ 32 ->
    nth_error (outputs a) (N.to_nat k) = Some (Some o) -> locking o = Some (p2pkh (hash160 pub)) ->
    tx_id a = Ok id -> output_script_hex o = Ok s ->
    (forall b' t', In b' known -> on_wire b' t' -> ~ In (id, k) (spent t')) ->
    wallet_call known pub (CallFrom id k s (satoshis o))
| wc_pay h m sats : length h = 20%nat -> sats < 2 ^ 64 ->
    wallet_call known pub (CallPayTo (addr_string (addr_from_pkh h m)) sats).
Definition points (cs : list tx_call) : list (bytes * N) :=
  flat_map (fun c => match c with CallFrom id k _ _ => [(id, k)] | _ => [] end) cs.
Definition funds (cs : list tx_call) : N := sum (map (fun c => match c with CallFrom _ _ _ sats => sats | _ => 0 end) cs).
Definition payments (cs : list tx_call) : N := sum (map (fun c => match c with CallPayTo _ sats => sats | _ => 0 end) cs).
Definition balanced (cs : list tx_call) : Prop :=
  NoDup (points cs) /\ points cs <> [] /\ (exists a sats, In (CallPayTo a sats) cs) /\ payments cs <= funds cs.

(** different known transactions have different hashes *)
Definition no_collision (known : list bytes) : Prop := forall b b', In b known -> In b' known -> dsha b = dsha b' -> b = b'.
Definition sized (b : bytes) : Prop := (Z.of_nat (length b) < 2 ^ 62)%Z.

(** Transactions that wallets build, sign and send one after the other; each is then known. *)
Inductive grows (verify : bytes -> bytes -> bytes -> Prop) : list bytes -> list bytes -> Prop :=
| grows_none known : grows verify known known
| grows_one known k calls t' s' b known' : honest verify k -> Forall (wallet_call known (key_pub k)) calls ->
    balanced calls -> nlen calls < 2 ^ 31 ->
    tx_sign_auto (tx_run tx_new calls) (mk_signer k 0) = Ok (t', s', None) -> tx_to_bytes t' = Ok b -> sized b ->
    grows verify (known ++ [b]) known' -> grows verify known known'.
