(** Specification for C73: the transactions a program can obtain through the API. *)
From Verif Require Export S_Tx S_Flow.

(** inputs as the input package's constructors return them *)
Inductive made_input : input -> Prop :=
| mi_new : made_input input_new
| mi_parsed v sp i n : (scap (Sl v sp) < 2 ^ 62)%Z -> input_from_bytes (Sl v sp) = Ok (i, n) -> made_input i
| mi_utxo txid vout sats script nseq i : vout < 2 ^ 32 -> sats < 2 ^ 64 -> nseq < 2 ^ 32 ->
    input_from_utxo txid vout sats script nseq = Ok i -> made_input i.

(** outputs as the output package's constructors return them *)
Inductive made_output : output -> Prop :=
| mo_parsed v sp o n : (scap (Sl v sp) < 2 ^ 62)%Z -> output_from_bytes (Sl v sp) = Ok (o, n) -> made_output o
| mo_pkh pkh sats o : sats < 2 ^ 64 -> output_p2pkh_from_pkh pkh sats = Ok o -> made_output o
| mo_address addr sats o : sats < 2 ^ 64 -> output_p2pkh_from_address addr sats = Ok o -> made_output o
| mo_puzzle secret pkh sats o : sats < 2 ^ 64 -> output_hash_puzzle secret pkh sats = Ok o -> made_output o
| mo_data d o : output_op_return d = Ok o -> made_output o
| mo_parts ds o : output_op_return_parts ds = Ok o -> made_output o.

(** arguments of the Go types; inputs and outputs from the constructors *)
Definition plain_call (c : tx_call) : Prop :=
  match c with
  | CallFrom txid vout script sats => vout < 2 ^ 32 /\ sats < 2 ^ 64
  | CallAddInput oi => exists i, oi = Some i /\ made_input i
  | CallAddOutput oo => exists o, oo = Some o /\ made_output o
  | CallPayTo addr sats => sats < 2 ^ 64
  end.

(** Every way to obtain or change a transaction, failing calls included; also
    assigning the exported fields Version and LockTime. *)
Inductive made : tx -> Prop :=
| made_new : made tx_new
| made_parsed v sp t : (scap (Sl v sp) < 2 ^ 62)%Z -> tx_from_slice (Sl v sp) = Ok t -> made t
| made_text slack s t : (Z.of_nat (length s + slack) < 2 ^ 62)%Z -> tx_from_string slack s = Ok t -> made t
| made_fields t v l : made t -> v < 2 ^ 32 -> l < 2 ^ 32 -> made (mk_tx v (inputs t) (outputs t) l)
| made_call t c : made t -> plain_call c -> made (fst (tx_do t c))
| made_apply t n u t' : made t -> apply_unlocking_script t n u = Ok t' -> made t'
| made_sign t c t' : made t -> sign_do t c = Ok t' -> made t'.

(** the reference to the spent transaction is 64 lower-case hex digits *)
Definition good_ref (i : input) : Prop := exists id, length id = 32%nat /\ prev_txid i = hex_encode id.
(** ... 64 hex digits of either case *)
Definition hex_ref (i : input) : Prop := exists id, length id = 32%nat /\ hex_dec (prev_txid i) = Some id.

(** the same with the reference in lower case *)
Definition lower_ref (i : input) : input :=
  mk_in (match hex_dec (prev_txid i) with Some id => hex_encode id | None => prev_txid i end)
    (prev_index i) (prev_sats i) (prev_script i) (unlocking i) (sequence i).
Definition lower_refs (t : tx) : tx :=
  mk_tx (version t) (map (option_map lower_ref) (inputs t)) (outputs t) (locktime t).

(** Histories that give From and NewFromUTXO such references only (and do not add
    the empty input of input.New) never leave this set. *)
Inductive careful : tx -> Prop :=
| cf_new : careful tx_new
| cf_parsed v sp t : (scap (Sl v sp) < 2 ^ 62)%Z -> tx_from_slice (Sl v sp) = Ok t -> careful t
| cf_fields t v l : careful t -> v < 2 ^ 32 -> l < 2 ^ 32 -> careful (mk_tx v (inputs t) (outputs t) l)
| cf_call t c : careful t -> plain_call c ->
    match c with
    | CallFrom txid _ _ _ => exists id, length id = 32%nat /\ txid = hex_encode id
    | CallAddInput oi => forall i, oi = Some i -> good_ref i
    | _ => True
    end -> careful (fst (tx_do t c))
| cf_apply t n u t' : careful t -> apply_unlocking_script t n u = Ok t' -> careful t'
| cf_sign t c t' : careful t -> sign_do t c = Ok t' -> careful t'.
