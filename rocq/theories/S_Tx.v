(** Specification of the transaction wire format and of transaction builders. *)
From Verif Require Export S_Utils S_Script M_Tx.

(** A script pointer on the wire: nil is written as the empty script. *)
Definition script_bytes (o : option bytes) : bytes := match o with Some s => s | None => [] end.

(** [cs] is [compact] (any length form) or [compact_min] (shortest form). *)
Definition wire_input (cs : N -> bytes -> Prop) (w : bytes) (i : input) : Prop :=
  exists id ix l sq,
    w = id ++ ix ++ l ++ script_bytes (unlocking i) ++ sq /\
    length id = 32%nat /\ length ix = 4%nat /\ length sq = 4%nat /\
    cs (nlen (script_bytes (unlocking i))) l /\
    hex_dec (prev_txid i) = Some (rev id) /\
    prev_index i = le_get ix /\ sequence i = le_get sq.

Definition wire_output (cs : N -> bytes -> Prop) (w : bytes) (o : output) : Prop :=
  exists v l s, w = v ++ l ++ s /\ length v = 8%nat /\ cs (nlen s) l /\
    satoshis o = le_get v /\ locking o = Some s.

Definition wire_tx (cs : N -> bytes -> Prop) (w : bytes) (t : tx) : Prop :=
  exists ver nin wi nout wo lt,
    w = ver ++ nin ++ concat wi ++ nout ++ concat wo ++ lt /\
    length ver = 4%nat /\ length lt = 4%nat /\
    version t = le_get ver /\ locktime t = le_get lt /\
    cs (nlen (inputs t)) nin /\ cs (nlen (outputs t)) nout /\
    Forall2 (fun w oi => exists i, oi = Some i /\ wire_input cs w i) wi (inputs t) /\
    Forall2 (fun w oo => exists o, oo = Some o /\ wire_output cs w o) wo (outputs t).

(** What the parser leaves in the fields that are not on the wire: lower-case
    txid, a non-nil script, no spent-output data. *)
Definition fresh_input (i : input) : Prop :=
  (exists b, prev_txid i = hex_encode b) /\ prev_sats i = 0 /\ prev_script i = None /\
  unlocking i <> None.

Definition fresh_tx (t : tx) : Prop := Forall (fun oi => exists i, oi = Some i /\ fresh_input i) (inputs t).

(** The part of an input / a transaction that is on the wire. *)
Definition bare_input (i : input) : input :=
  mk_in (prev_txid i) (prev_index i) 0 None (Some (script_bytes (unlocking i))) (sequence i).

Definition bare_tx (t : tx) : tx :=
  mk_tx (version t) (map (option_map bare_input) (inputs t)) (outputs t) (locktime t).

(** Transactions a Go program can hold and serialise meaningfully: fields in
    their machine ranges, txids of 64 lower-case hex digits, no nil pointers. *)
Definition wf_input (i : input) : Prop :=
  (exists id, length id = 32%nat /\ prev_txid i = hex_encode id) /\
  prev_index i < 2 ^ 32 /\ sequence i < 2 ^ 32 /\ nlen (script_bytes (unlocking i)) < 2 ^ 63.

Definition wf_output (o : output) : Prop :=
  satoshis o < 2 ^ 64 /\ exists s, locking o = Some s /\ nlen s < 2 ^ 63.

Definition wf_tx (t : tx) : Prop :=
  version t < 2 ^ 32 /\ locktime t < 2 ^ 32 /\
  nlen (inputs t) < 2 ^ 63 /\ nlen (outputs t) < 2 ^ 63 /\
  Forall (fun oi => exists i, oi = Some i /\ wf_input i) (inputs t) /\
  Forall (fun oo => exists o, oo = Some o /\ wf_output o) (outputs t).

(** A truncated compact size: nothing, or fewer bytes than announced. *)
Definition cs_truncated (b : bytes) : Prop :=
  match b with [] => True | c :: _ => (length b < announced c)%nat end.

(** Where the parser panics (on a slice without spare capacity): *)
Definition input_panics (b : bytes) : Prop :=
  exists h r, b = h ++ r /\ length h = 36%nat /\
    (cs_truncated r \/
     exists n l x, r = l ++ x /\ compact n l /\
       let total := 36 + nlen l + n + 4 in
       2 ^ 63 <= total /\ (total < 2 ^ 64 \/ total - 2 ^ 64 <= nlen b)).

Definition output_panics (b : bytes) : Prop :=
  exists h r, b = h ++ r /\ length h = 8%nat /\
    (cs_truncated r \/
     exists n l x, r = l ++ x /\ compact n l /\ 2 ^ 63 <= 8 + nlen l + n).

Definition some_input w := exists i, wire_input compact w i.
Definition some_output w := exists o, wire_output compact w o.

Inductive tx_panics : bytes -> Prop :=
| panic_count ver r : length ver = 4%nat -> (6 <= length r)%nat -> cs_truncated r -> tx_panics (ver ++ r)
| panic_input ver n nin wi r : length ver = 4%nat -> compact n nin -> Forall some_input wi ->
    nlen wi < n -> input_panics r -> tx_panics (ver ++ nin ++ concat wi ++ r)
| panic_outcount ver n nin wi r : length ver = 4%nat -> compact n nin -> Forall some_input wi ->
    nlen wi = n -> cs_truncated r -> (10 <= length (ver ++ nin ++ concat wi ++ r))%nat ->
    tx_panics (ver ++ nin ++ concat wi ++ r)
| panic_output ver n nin wi m nout wo r : length ver = 4%nat -> compact n nin -> Forall some_input wi ->
    nlen wi = n -> compact m nout -> Forall some_output wo -> nlen wo < m -> output_panics r ->
    tx_panics (ver ++ nin ++ concat wi ++ nout ++ concat wo ++ r).

(** ** Builders *)

(** One call on a transaction under construction. *)
Inductive tx_call :=
| CallFrom (txid : bytes) (vout : N) (script : bytes) (sats : N)
| CallAddInput (i : option input)
| CallAddOutput (o : option output)
| CallPayTo (addr : bytes) (sats : N).

(** Executing a call: the transaction afterwards and the error, if any. *)
Definition tx_do (t : tx) (c : tx_call) : tx * option err :=
  match c with
  | CallFrom txid vout script sats => tx_from_utxo t txid vout script sats
  | CallAddInput i => (tx_add_input t i, None)
  | CallAddOutput o => (tx_add_output t o, None)
  | CallPayTo addr sats => tx_pay_to t addr sats
  end.

Definition tx_run (t : tx) (cs : list tx_call) : tx := fold_left (fun t c => fst (tx_do t c)) cs t.

(** What a call asks for: inputs and outputs it should append ([None]: the call
    cannot be served and must fail). *)
Inductive asks : tx_call -> option (list (option input) * list (option output)) -> Prop :=
| asks_from txid vout script sats s : hex_dec script = Some s ->
    asks (CallFrom txid vout script sats) (Some ([Some (mk_in txid vout sats (Some s) None (2 ^ 32 - 1))], []))
| asks_from_bad txid vout script sats : hex_dec script = None -> asks (CallFrom txid vout script sats) None
| asks_in i : asks (CallAddInput i) (Some ([i], []))
| asks_out o : asks (CallAddOutput o) (Some ([], [o]))
| asks_pay addr sats a h : addr_from_string addr = Ok a -> addr_pkh a = hex_encode h ->
    asks (CallPayTo addr sats) (Some ([], [Some (mk_out sats (Some (p2pkh h)))]))
| asks_pay_bad addr sats : (forall a, addr_from_string addr <> Ok a) -> asks (CallPayTo addr sats) None.

Definition asked_inputs (a : option (list (option input) * list (option output))) := match a with Some (i, _) => i | None => [] end.
Definition asked_outputs (a : option (list (option input) * list (option output))) := match a with Some (_, o) => o | None => [] end.

(** ** Clearing inputs *)

(** the transaction whose serialisation ToBytesWithClearedInputs is expected to
    be: every input script empty, except input [index] which gets [spk] *)
Fixpoint clear_inputs (i index : Z) (spk : bytes) (l : list (option input)) : list (option input) :=
  match l with
  | [] => []
  | oi :: r =>
      option_map (fun x => mk_in (prev_txid x) (prev_index x) (prev_sats x) (prev_script x)
                             (Some (if (i =? index)%Z then spk else [])) (sequence x)) oi
      :: clear_inputs (i + 1) index spk r
  end.

Definition cleared (t : tx) (index : Z) (spk : bytes) : tx :=
  mk_tx (version t) (clear_inputs 0 index spk (inputs t)) (outputs t) (locktime t).
