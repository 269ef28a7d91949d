(** Model of transaction/input/Input.go, transaction/output/Output.go and
    transaction/Transaction.go. Pointers that may be nil are [option]s. *)
From Verif Require Export M_Script.

(** transaction/input/Input.go:25-32 (Input). *)
Record input := mk_in
  { prev_txid : bytes;               (* PreviousTxID: string *)
    prev_index : N;                  (* PreviousTxOutIndex: uint32 *)
    prev_sats : N;                   (* PreviousTxSatoshis: uint64 *)
    prev_script : option bytes;      (* PreviousTxScript *)
    unlocking : option bytes;        (* UnlockingScript *)
    sequence : N }.                  (* SequenceNumber: uint32 *)

(** transaction/output/Output.go:25-28 (Output). *)
Record output := mk_out { satoshis : N; locking : option bytes }.

(** transaction/Transaction.go:37-42 (Transaction). *)
Record tx := mk_tx
  { version : N; inputs : list (option input); outputs : list (option output); locktime : N }.

(** transaction/input/Input.go:35-43 (New). *)
Definition input_new : input := mk_in [] 0 0 None (Some []) 0xFFFFFFFF.

(** transaction/input/Input.go:46-72 (NewFromBytes). [size] is 1, 3, 5 or 9; the
    [int] additions of lines 61, 67, 69 wrap. *)
Definition input_from_bytes (b : slice) : res (input * Z) :=
  if (slen b <? 36)%Z then Err EInputShort36 else
  h <- or_panic (sl_sub b 0 32) ;;
  let txid := hex_encode (reverse_bytes (vis h)) in
  ix <- or_panic (sl_sub b 32 36) ;;
  index <- or_panic (sl_le 4 ix) ;;
  rest <- or_panic (sl_from b 36) ;;
  '(l, size) <- decode_varint rest ;;
  let offset := (36 + size)%Z in
  let totalLength := wrap_int (wrap_int (offset + int_of_u64 l) + 4) in
  if (slen b <? totalLength)%Z then Err EInputShort else
  s <- or_panic (sl_sub b offset (wrap_int (offset + int_of_u64 l))) ;;
  sq <- or_panic (sl_from b (wrap_int (offset + int_of_u64 l))) ;;
  seq <- or_panic (sl_le 4 sq) ;;
  Ok (mk_in txid index 0 None (Some (vis s)) seq, totalLength).

(** transaction/input/Input.go:75-90 (NewFromUTXO). *)
Definition input_from_utxo (txid : bytes) (index sats : N) (script : bytes) (nSeq : N) : res input :=
  pts <- script_from_hex script ;;
  Ok (mk_in txid index sats (Some pts) None nSeq).

(** transaction/input/Input.go:102-122 (ToBytes); hex errors of the txid are
    dropped (line 105). GetLittleEndianBytes with length 4 is [le_put 4]. *)
Definition input_to_bytes (i : input) (clear : bool) : bytes :=
  let h := [] in
  let pid := hex_ignore (prev_txid i) in
  let h := h ++ reverse_bytes pid in
  let h := h ++ le_put 4 (prev_index i) in
  let h := if clear then h ++ [x00]
           else match unlocking i with
                | None => h ++ varint 0
                | Some u => (h ++ varint (nlen u)) ++ u
                end in
  h ++ le_put 4 (sequence i).

(** transaction/output/Output.go:31-54 (NewFromBytes). *)
Definition output_from_bytes (b : slice) : res (output * Z) :=
  if (slen b <? 8)%Z then Err EOutputShort8 else
  v <- or_panic (sl_sub b 0 8) ;;
  sats <- or_panic (sl_le 8 v) ;;
  rest <- or_panic (sl_from b 8) ;;
  '(l, size) <- decode_varint rest ;;
  let offset := (8 + size)%Z in
  let totalLength := wrap_int (offset + int_of_u64 l) in
  if (slen b <? totalLength)%Z then Err EOutputShort else
  s <- or_panic (sl_sub b offset totalLength) ;;
  Ok (mk_out sats (Some (vis s)), totalLength).

(** transaction/output/Output.go:164-174 (ToBytes): a nil locking script is
    dereferenced. *)
Definition output_to_bytes (o : output) : res bytes :=
  let b := le_put 8 (satoshis o) in
  let h := [] ++ b in
  s <- deref (locking o) ;;
  let h := h ++ varint (nlen s) in
  Ok (h ++ s).

(** transaction/output/Output.go:178-189 (GetBytesForSigHash). *)
Definition output_sighash_bytes (o : output) : res bytes :=
  let buf := [] in
  let buf := buf ++ le_put 8 (satoshis o) in
  s <- deref (locking o) ;;
  let buf := buf ++ varint (nlen s) in
  Ok (buf ++ s).

(** transaction/output/Output.go:152-154 (GetLockingScriptHexString). *)
Definition output_script_hex (o : output) : res bytes :=
  s <- deref (locking o) ;; Ok (hex_encode s).

(** transaction/output/Output.go:57-67 (NewP2PkhFromPubKeyHash). *)
Definition output_p2pkh_from_pkh (pkh : bytes) (sats : N) : res output :=
  s <- p2pkh_from_pkh_str pkh ;; Ok (mk_out sats (Some s)).

(** transaction/output/Output.go:70-80 (NewP2PKHFromAddress). *)
Definition output_p2pkh_from_address (addr : bytes) (sats : N) : res output :=
  s <- p2pkh_from_address addr ;; Ok (mk_out sats (Some s)).

(** the pattern [err = s.M(...); if err != nil { return nil, err }] *)
(** transaction/output/Output.go:96-99, 103-106, 141-144. *)
Definition check (m : meth) : res bytes :=
  match m with (s, None) => Ok s | (_, Some e) => Err e end.

(** transaction/output/Output.go:83-112 (NewHashPuzzle). *)
Definition output_hash_puzzle (secret pkh : bytes) (sats : N) : res output :=
  pkhb <- of_hex pkh ;;
  let s := append_opcode [] OpHASH160 in
  let secretBytesHash := hash160 secret in
  s <- check (append_push_data s secretBytesHash) ;;
  let s := append_opcode s OpEQUALVERIFY in
  let s := append_opcode s OpDUP in
  let s := append_opcode s OpHASH160 in
  s <- check (append_push_data s pkhb) ;;
  let s := append_opcode s OpEQUALVERIFY in
  let s := append_opcode s OpCHECKSIG in
  Ok (mk_out sats (Some s)).

(** transaction/output/Output.go:136-148 (createOpReturnOutput). *)
Definition create_op_return_output (data : list bytes) : res output :=
  let s := append_opcode [] OpFALSE in
  let s := append_opcode s OpRETURN in
  s <- check (append_push_data_array s data) ;;
  Ok (mk_out 0 (Some s)).

(** transaction/output/Output.go:116-123 (NewOpReturn), 127-134 (NewOpReturnParts). *)
Definition output_op_return (data : bytes) : res output := create_op_return_output [data].
(** transaction/output/Output.go:127-134 (NewOpReturnParts). *)
Definition output_op_return_parts (data : list bytes) : res output := create_op_return_output data.

(** transaction/Transaction.go:45-52 (New). *)
Definition tx_new : tx := mk_tx 1 [] [] 0.

(** transaction/Transaction.go:83-91 and 96-103: the loop bodies, on the state
    (offset, parsed so far). *)
Definition tx_input_step (b : slice) (st : Z * list input) : res (Z * list input) :=
  let '(offset, ins) := st in
  rest <- or_panic (sl_from b offset) ;;
  '(i, size) <- input_from_bytes rest ;;
  Ok (wrap_int (offset + size), ins ++ [i]).

(** transaction/Transaction.go:96-103. *)
Definition tx_output_step (b : slice) (st : Z * list output) : res (Z * list output) :=
  let '(offset, outs) := st in
  rest <- or_panic (sl_from b offset) ;;
  '(o, size) <- output_from_bytes rest ;;
  Ok (wrap_int (offset + size), outs ++ [o]).

(** transaction/Transaction.go:66-115 (NewFromBytes). *)
Definition tx_from_slice (b : slice) : res tx :=
  if (slen b <? 10)%Z then Err ETxShort else
  vs <- or_panic (sl_sub b 0 4) ;;
  ver <- or_panic (sl_le 4 vs) ;;
  let offset := 4%Z in
  rest <- or_panic (sl_from b offset) ;;
  '(inputCount, size) <- decode_varint rest ;;
  let offset := wrap_int (offset + size) in
  '(offset, ins) <- n_loop (tx_input_step b) inputCount (offset, []) ;;
  rest <- or_panic (sl_from b offset) ;;
  '(outputCount, size) <- decode_varint rest ;;
  let offset := wrap_int (offset + size) in
  '(offset, outs) <- n_loop (tx_output_step b) outputCount (offset, []) ;;
  nLT <- or_panic (sl_from b offset) ;;
  if negb (slen nLT =? 4)%Z then Err ELockTime else
  ls <- or_panic (sl_from b offset) ;;
  lt <- or_panic (sl_le 4 ls) ;;
  Ok (mk_tx ver (map Some ins) (map Some outs) lt).

(** NewFromBytes on a slice without spare capacity. *)
(** transaction/Transaction.go:66-115 (NewFromBytes). *)
Definition tx_from_bytes (b : bytes) : res tx := tx_from_slice (Sl b []).

(** transaction/Transaction.go:56-63 (NewFromString); the decoded slice has spare
    capacity (see [hex_decode_slice]). *)
Definition tx_from_string (slack : nat) (s : bytes) : res tx :=
  match hex_decode_slice slack s with
  | (_, Some e) => Err (EHex e)
  | (b, None) => tx_from_slice b
  end.

(** transaction/Transaction.go:118-120 (AddInput), 154-157 (AddOutput). *)
Definition tx_add_input (t : tx) (i : option input) : tx :=
  mk_tx (version t) (inputs t ++ [i]) (outputs t) (locktime t).
(** transaction/Transaction.go:154-157 (AddOutput). *)
Definition tx_add_output (t : tx) (o : option output) : tx :=
  mk_tx (version t) (inputs t) (outputs t ++ [o]) (locktime t).

(** transaction/Transaction.go:123-141 (From): new transaction and error. *)
Definition tx_from_utxo (t : tx) (txID : bytes) (vout : N) (scriptSig : bytes) (sats : N)
  : tx * option err :=
  match script_from_hex scriptSig with
  | Ok pts => (tx_add_input t (Some (mk_in txID vout sats (Some pts) None 0xffffffff)), None)
  | Err e => (t, Some e)
  | Panic => (t, None)
  end.

(** transaction/Transaction.go:161-169 (PayTo). *)
Definition tx_pay_to (t : tx) (addr : bytes) (sats : N) : tx * option err :=
  match output_p2pkh_from_address addr sats with
  | Ok o => (tx_add_output t (Some o), None)
  | Err e => (t, Some e)
  | Panic => (t, None)
  end.

(** transaction/Transaction.go:144-146, 149-151 (InputCount, OutputCount). *)
Definition input_count (t : tx) : nat := length (inputs t).
(** transaction/Transaction.go:149-151 (OutputCount). *)
Definition output_count (t : tx) : nat := length (outputs t).

(** transaction/Transaction.go:178. *)
Definition zeros64 : bytes := repeat x30 64.

(** transaction/Transaction.go:173-187 (IsCoinbase). *)
Definition is_coinbase (t : tx) : res bool :=
  match inputs t with
  | [oi] =>
      i <- deref oi ;;
      if negb (equals (prev_txid i) zeros64) then Ok false
      else if (prev_index i =? 0xFFFFFFFF) || (sequence i =? 0xFFFFFFFF) then Ok true
      else Ok false
  | _ => Ok false
  end.

(** transaction/Transaction.go:200-207 (GetTotalOutputSatoshis): uint64 addition. *)
Fixpoint total_loop (total : N) (outs : list (option output)) {struct outs} : res N :=
  match outs with
  | [] => Ok total
  | oo :: r => o <- deref oo ;; total_loop (wrap64 (total + satoshis o)) r
  end.
(** transaction/Transaction.go:200-207 (GetTotalOutputSatoshis). *)
Definition total_output_satoshis (t : tx) : res N := total_loop 0 (outputs t).

(** transaction/Transaction.go:239-247: the input loop of toBytesHelper. *)
Fixpoint helper_inputs (h : bytes) (i index : Z) (spk : option bytes)
         (ins : list (option input)) {struct ins} : res bytes :=
  match ins with
  | [] => Ok h
  | oin :: r =>
      inp <- deref oin ;;
      let s := input_to_bytes inp (match spk with Some _ => true | None => false end) in
      match spk with
      | Some sp =>
          if (i =? index)%Z
          then helper_inputs ((h ++ varint (nlen sp)) ++ sp) (i + 1) index spk r
          else helper_inputs (h ++ s) (i + 1) index spk r
      | None => helper_inputs (h ++ s) (i + 1) index spk r
      end
  end.

(** transaction/Transaction.go:250-252: the output loop. *)
Fixpoint helper_outputs (h : bytes) (outs : list (option output)) {struct outs} : res bytes :=
  match outs with
  | [] => Ok h
  | oo :: r => o <- deref oo ;; b <- output_to_bytes o ;; helper_outputs (h ++ b) r
  end.

(** transaction/Transaction.go:232-259 (toBytesHelper). [spk] is [None] for nil. *)
Definition to_bytes_helper (t : tx) (index : Z) (spk : option bytes) : res bytes :=
  let h := [] ++ le_put 4 (version t) in
  let h := h ++ varint (nlen (inputs t)) in
  h <- helper_inputs h 0 index spk (inputs t) ;;
  let h := h ++ varint (nlen (outputs t)) in
  h <- helper_outputs h (outputs t) ;;
  Ok (h ++ le_put 4 (locktime t)).

(** transaction/Transaction.go:222-224 (ToBytes), 228-230
    (ToBytesWithClearedInputs), 216-218 (ToString), 211-213 (GetTxID). *)
Definition tx_to_bytes (t : tx) : res bytes := to_bytes_helper t 0 None.
(** transaction/Transaction.go:228-230 (ToBytesWithClearedInputs). *)
Definition tx_to_bytes_cleared (t : tx) (index : Z) (spk : option bytes) : res bytes :=
  to_bytes_helper t index spk.
(** transaction/Transaction.go:216-218 (ToString). *)
Definition tx_to_string (t : tx) : res bytes := b <- tx_to_bytes t ;; Ok (hex_encode b).
(** transaction/Transaction.go:211-213 (GetTxID). *)
Definition tx_id (t : tx) : res bytes :=
  b <- tx_to_bytes t ;; Ok (hex_encode (reverse_bytes (sha256d b))).

(** transaction/Transaction.go:290-297 (ApplyUnlockingScript): the index is
    checked by Go, a nil input gives an error. *)
Definition apply_unlocking_script (t : tx) (index : N) (s : option bytes) : res tx :=
  oi <- or_panic (nth_error (inputs t) (N.to_nat index)) ;;
  match oi with
  | Some i =>
      let i' := mk_in (prev_txid i) (prev_index i) (prev_sats i) (prev_script i) s (sequence i) in
      Ok (mk_tx (version t) (set_nth (N.to_nat index) (Some i') (inputs t)) (outputs t) (locktime t))
  | None => Err (ENoInput index)
  end.
