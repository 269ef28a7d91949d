(** Methods called through pointers that may be nil, statement by statement: what is
    checked before the receiver is looked at. [None] is the nil pointer. *)
From Verif Require Export M_Signer M_Redeem S_Tx S_Script.

(** Go's [*p], [p.F]: panics if [p] is nil. *)
(** transaction/Transaction.go:118-297, script/Script.go:129-303. *)
Definition at_ptr {A B} (p : option A) (f : A -> res B) : res B := a <- or_panic p ;; f a.

(** transaction/Transaction.go:118-120 (AddInput). *)
Definition p_add_input (p : option tx) (i : option input) : res (option tx * option err) :=
  at_ptr p (fun t => Ok (Some (tx_add_input t i), None)).
(** transaction/Transaction.go:154-157 (AddOutput). *)
Definition p_add_output (p : option tx) (o : option output) : res (option tx * option err) :=
  at_ptr p (fun t => Ok (Some (tx_add_output t o), None)).
(** transaction/Transaction.go:123-141 (From): the script is decoded first. *)
Definition p_from (p : option tx) (txID : bytes) (vout : N) (scriptSig : bytes) (sats : N) : res (option tx * option err) :=
  match script_from_hex scriptSig with
  | Ok pts => p_add_input p (Some (mk_in txID vout sats (Some pts) None 0xffffffff))
  | Err e => Ok (p, Some e)
  | Panic => Panic
  end.
(** transaction/Transaction.go:161-169 (PayTo): the output is made first. *)
Definition p_pay_to (p : option tx) (addr : bytes) (sats : N) : res (option tx * option err) :=
  match output_p2pkh_from_address addr sats with
  | Ok o => p_add_output p (Some o)
  | Err e => Ok (p, Some e)
  | Panic => Panic
  end.
(** transaction/Transaction.go:118-169. *)
Definition p_do (p : option tx) (c : tx_call) : res (option tx * option err) :=
  match c with
  | CallFrom txid vout s sats => p_from p txid vout s sats
  | CallAddInput i => p_add_input p i
  | CallAddOutput o => p_add_output p o
  | CallPayTo a sats => p_pay_to p a sats
  end.
(** Calls one after the other, errors ignored. *)
(** transaction/Transaction.go:118-169. *)
Fixpoint p_run (p : option tx) (cs : list tx_call) : res (option tx) :=
  match cs with
  | [] => Ok p
  | c :: r => '(p', _) <- p_do p c ;; p_run p' r
  end.

(** transaction/Transaction.go:144-297, transaction/SignatureHash.go:17-125: methods that look at the
    receiver first. *)
Inductive tx_read := RInputCount | ROutputCount | RIsCoinbase | RGetInputs | RGetOutputs | RTotal | RTxID | RToString | RToBytes
  | RCleared (index : Z) (spk : option bytes) | RApply (index : N) (s : option bytes) | RSigHash (index flag : N).
(** transaction/Transaction.go:144-297, transaction/SignatureHash.go:17-125: how they end; the values are
    those of the model of the method, left out here. *)
Definition p_read (p : option tx) (m : tx_read) : res unit :=
  let drop {A} (r : res A) : res unit := _ <- r ;; Ok tt in
  at_ptr p (fun t =>
    match m with
    | RInputCount | ROutputCount | RGetInputs | RGetOutputs => Ok tt
    | RIsCoinbase => drop (is_coinbase t)
    | RTotal => drop (total_output_satoshis t)
    | RTxID => drop (tx_id t)
    | RToString => drop (tx_to_string t)
    | RToBytes => drop (tx_to_bytes t)
    | RCleared i s => drop (tx_to_bytes_cleared t i s)
    | RApply i s => drop (apply_unlocking_script t i s)
    | RSigHash i f => drop (get_input_signature_hash t i f)
    end).

(** transaction/Transaction.go:265-286 and transaction/signature/InternalSigner.go:24-71 (Sign, SignAuto):
    the signer's flag is set first (not shown by a panic), then the transaction is looked at. *)
Definition p_sign (p : option tx) (index : N) (s : signer) : res (option tx * signer * option err) :=
  at_ptr p (fun t => '(t', s', e) <- tx_sign t index s ;; Ok (Some t', s', e)).
(** transaction/Transaction.go:279-286 (SignAuto). *)
Definition p_sign_auto (p : option tx) (s : signer) : res (option tx * signer * option err) :=
  at_ptr p (fun t => '(t', s', e) <- tx_sign_auto t s ;; Ok (Some t', s', e)).

(** script/Script.go:129-137, 155-163 (AppendPushData, AppendPushDataArray): the data is encoded first. *)
Definition p_append_array (p : option bytes) (d : list bytes) : res (option bytes * option err) :=
  match encode_parts d with
  | Ok b => at_ptr p (fun s => Ok (Some (s ++ b), None))
  | Err e => Ok (p, Some e)
  | Panic => Panic
  end.
(** script/Script.go:129-179. *)
Definition p_call (p : option bytes) (c : call) : res (option bytes * option err) :=
  match c with
  | CPush d => p_append_array p [d]
  | CPushHex h =>
      match of_hex h with
      | Ok d => p_append_array p [d]
      | Err e => Ok (p, Some e)
      | Panic => Panic
      end
  | CPushString t => p_append_array p [t]
  | CPushArray l => p_append_array p l
  | CPushStrings l => p_append_array p (fold_left (fun acc t => acc ++ [t]) l [])
  | COpCode o => at_ptr p (fun s => Ok (Some (append_opcode s o), None))
  end.

(** script/Script.go:182-303: methods that read a script. *)
Inductive script_read := SToString | SToASM | SIsP2PKH | SIsP2PK | SIsP2SH | SIsData | SIsMultisig | SPublicKeyHash.
(** script/Script.go:182-303: how they end; GetPublicKeyHash (288-303) asks whether the receiver is nil. *)
Definition p_script_read (p : option bytes) (m : script_read) : res unit :=
  let drop {A} (r : res A) : res unit := _ <- r ;; Ok tt in
  match m with
  | SPublicKeyHash => drop (get_public_key_hash p)
  | _ => at_ptr p (fun s =>
      match m with
      | SToASM => drop (script_to_asm s)
      | SIsP2PK => drop (is_p2pk s)
      | SIsData => drop (is_data s)
      | SIsMultisig => drop (is_multisig_out s)
      | _ => Ok tt
      end)
  end.

(** script/RedeemScript.go:120-149 (AddPublicKey): the key is derived first. *)
Definition p_add_public_key (H : hdlib) (p : option redeem) (pkey : bytes) (path : list N) : res (option redeem * option err) :=
  match path with
  | [i; j] =>
      match hd_derive H pkey i j with
      | Ok k => at_ptr p (fun rs => Ok (Some (mk_rs (sigs_required rs) (public_keys rs ++ [k])), None))
      | Err e => Ok (p, Some e)
      | Panic => Panic
      end
  | _ => Ok (p, Some EPath2)
  end.

(** transaction/signature/InternalSigner.go:17-20: a signer whose key may be nil. Using a nil key (line 34:
    Sign, line 62: PubKey) panics. *)
Record nsigner := mk_nsigner { ns_key : option priv_key; ns_flag : N }.
(** transaction/signature/InternalSigner.go:25-27, 53-55. *)
Definition ns_default (s : nsigner) : nsigner :=
  if ns_flag s =? 0 then mk_nsigner (ns_key s) shAllForkID else s.
(** transaction/signature/InternalSigner.go:24-47 (Sign). *)
Definition n_internal_sign (s : nsigner) (index : N) (t : tx) : res tx :=
  let s := ns_default s in
  sh <- get_input_signature_hash t index (ns_flag s) ;;
  sig <- at_ptr (ns_key s) (fun k => key_sign k (reverse_bytes sh)) ;;
  pub <- at_ptr (ns_key s) (fun k => Ok (key_pub k)) ;;
  let '(us, _) := p2pkh_unlocking_script pub sig (ns_flag s) in
  apply_unlocking_script t index (Some us).
(** transaction/signature/InternalSigner.go:57-68: the public key is taken for every input. *)
Definition n_auto_step (s : nsigner) (i : N) (t : tx) : res tx :=
  oin <- or_panic (nth_error (inputs t) (N.to_nat i)) ;;
  inp <- deref oin ;;
  pkh <- match get_public_key_hash (prev_script inp) with
         | Ok h => Ok h | Err _ => Ok [] | Panic => Panic
         end ;;
  let pubKeyHashStr := hex_encode pkh in
  pub <- at_ptr (ns_key s) (fun k => Ok (key_pub k)) ;;
  let fromPriv := hex_encode (hash160 pub) in
  if equals pubKeyHashStr fromPriv then
    match n_internal_sign s (wrap32 i) t with
    | Ok t' => Ok t'
    | Err _ => Ok t
    | Panic => Panic
    end
  else Ok t.
(** transaction/signature/InternalSigner.go:52-71 (SignAuto). *)
Fixpoint n_auto_loop (s : nsigner) (i : N) (n : nat) (t : tx) {struct n} : res tx :=
  match n with
  | O => Ok t
  | S n' => t' <- n_auto_step s i t ;; n_auto_loop s (i + 1) n' t'
  end.
(** transaction/Transaction.go:265-272 (Sign) with a *InternalSigner that may be nil (line 25 looks at it). *)
Definition n_sign (t : tx) (index : N) (p : option nsigner) : res (tx * nsigner * option err) :=
  at_ptr p (fun s =>
    match n_internal_sign s index t with
    | Ok t' => Ok (t', ns_default s, None)
    | Err e => Ok (t, ns_default s, Some e)
    | Panic => Panic
    end).
(** transaction/Transaction.go:279-286 (SignAuto). *)
Definition n_sign_auto (t : tx) (p : option nsigner) : res (tx * nsigner * option err) :=
  at_ptr p (fun s =>
    match n_auto_loop (ns_default s) 0 (length (inputs t)) t with
    | Ok t' => Ok (t', ns_default s, None)
    | Err e => Ok (t, ns_default s, Some e)
    | Panic => Panic
    end).
