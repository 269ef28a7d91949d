(** Model of transaction/signature/InternalSigner.go, of Transaction.Sign and
    Transaction.SignAuto. *)
From Verif Require Export M_Sighash.

(** A bsvec.PrivateKey as far as the code uses it: the compressed serialisation
    of its public key, and signing a digest with DER serialisation of the
    signature. Both are arbitrary; signing may fail. *)
(** transaction/signature/InternalSigner.go:18, 34, 39, 62. *)
Record priv_key := mk_key { key_pub : bytes; key_sign : bytes -> res bytes }.

(** transaction/signature/InternalSigner.go:17-20 (InternalSigner). *)
Record signer := mk_signer { sg_key : priv_key; sg_flag : N }.

(** transaction/signature/InternalSigner.go:25-27, 53-55: flag 0 is replaced (and stored in the receiver). *)
Definition default_flag (s : signer) : signer :=
  if sg_flag s =? 0 then mk_signer (sg_key s) shAllForkID else s.

(** transaction/signature/InternalSigner.go:24-47 (Sign): outcome for the
    transaction; the receiver's flag afterwards is [default_flag]. The error of
    NewP2PKHUnlockingScript (line 39) is overwritten on line 41. *)
Definition internal_sign (s : signer) (index : N) (t : tx) : res tx :=
  let s := default_flag s in
  sh <- get_input_signature_hash t index (sg_flag s) ;;
  sig <- key_sign (sg_key s) (reverse_bytes sh) ;;
  let '(us, _) := p2pkh_unlocking_script (key_pub (sg_key s)) sig (sg_flag s) in
  apply_unlocking_script t index (Some us).

(** transaction/signature/InternalSigner.go:57-68: one iteration of the loop of
    SignAuto. The inputs are pointers, so [in] sees the current transaction; an
    error of Sign is dropped (line 66) and then the transaction is unchanged. *)
Definition sign_auto_step (s : signer) (i : N) (t : tx) : res tx :=
  oin <- or_panic (nth_error (inputs t) (N.to_nat i)) ;;
  inp <- deref oin ;;
  pkh <- match get_public_key_hash (prev_script inp) with
         | Ok h => Ok h | Err _ => Ok [] | Panic => Panic
         end ;;
  let pubKeyHashStr := hex_encode pkh in
  let fromPriv := hex_encode (hash160 (key_pub (sg_key s))) in
  if equals pubKeyHashStr fromPriv then
    match internal_sign s (wrap32 i) t with
    | Ok t' => Ok t'
    | Err _ => Ok t
    | Panic => Panic
    end
  else Ok t.

(** transaction/signature/InternalSigner.go:52-71 (SignAuto): never returns an
    error. The number of inputs is fixed by [range] at the start. *)
Fixpoint sign_auto_loop (s : signer) (i : N) (n : nat) (t : tx) {struct n} : res tx :=
  match n with
  | O => Ok t
  | S n' => t' <- sign_auto_step s i t ;; sign_auto_loop s (i + 1) n' t'
  end.
(** transaction/signature/InternalSigner.go:52-71 (SignAuto). *)
Definition internal_sign_auto (s : signer) (t : tx) : res tx :=
  sign_auto_loop (default_flag s) 0 (length (inputs t)) t.

(** transaction/Transaction.go:265-272 (Sign), 279-286 (SignAuto) with an
    InternalSigner: the transaction afterwards, the signer's flag afterwards and
    the error. *)
Definition tx_sign (t : tx) (index : N) (s : signer) : res (tx * signer * option err) :=
  match internal_sign s index t with
  | Ok t' => Ok (t', default_flag s, None)
  | Err e => Ok (t, default_flag s, Some e)
  | Panic => Panic
  end.
(** transaction/Transaction.go:279-286 (SignAuto). *)
Definition tx_sign_auto (t : tx) (s : signer) : res (tx * signer * option err) :=
  match internal_sign_auto s t with
  | Ok t' => Ok (t', default_flag s, None)
  | Err e => Ok (t, default_flag s, Some e)
  | Panic => Panic
  end.
