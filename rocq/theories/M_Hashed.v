(** The signing code again, noting what is given to the hash functions. *)
From Verif Require Export M_Signer.

(** A result with the messages hashed (arguments of Sha256d and Hash160) on the way, in order. *)
(** For transaction/SignatureHash.go:17-139 and transaction/signature/InternalSigner.go:24-71. *)
Definition logged (A : Type) : Type := (res A * list bytes)%type.
(** For transaction/SignatureHash.go:17-139. *)
Definition quiet {A} (r : res A) : logged A := (r, []).
(** For transaction/SignatureHash.go:17-139. *)
Definition lbind {A B} (r : logged A) (f : A -> logged B) : logged B :=
  match fst r with
  | Ok a => (fst (f a), snd r ++ snd (f a))
  | Err e => (Err e, snd r)
  | Panic => (Panic, snd r)
  end.
Notation "x <~ r ;; k" := (lbind r (fun x => k))
  (at level 61, r at next level, right associativity).

(** crypto/Hash.go (Sha256d). *)
Definition l_sha256d (b : bytes) : logged bytes := (Ok (sha256d b), [b]).
(** crypto/Hash.go (Hash160). *)
Definition l_hash160 (b : bytes) : logged bytes := (Ok (hash160 b), [b]).

(** transaction/SignatureHash.go:101-113 (getPrevoutHash). *)
Definition l_prevout_hash (t : tx) : logged bytes :=
  buf <~ quiet (prevout_buf [] (inputs t)) ;; l_sha256d buf.
(** transaction/SignatureHash.go:115-125 (getSequenceHash). *)
Definition l_sequence_hash (t : tx) : logged bytes :=
  buf <~ quiet (sequence_buf [] (inputs t)) ;; l_sha256d buf.
(** transaction/SignatureHash.go:127-139 (getOutputsHash). *)
Definition l_outputs_hash (t : tx) (n : Z) : logged bytes :=
  if (n =? -1)%Z then
    buf <~ quiet (outputs_buf [] (outputs t)) ;; l_sha256d buf
  else
    oo <~ quiet (or_panic (if (n <? 0)%Z then None else nth_error (outputs t) (Z.to_nat n))) ;;
    o <~ quiet (deref oo) ;;
    b <~ quiet (output_sighash_bytes o) ;;
    l_sha256d ([] ++ b).

(** transaction/SignatureHash.go:17-99 (GetInputSignatureHash). *)
Definition l_sighash (t : tx) (inputNumber flag : N) : logged bytes :=
  oin <~ quiet (or_panic (nth_error (inputs t) (N.to_nat inputNumber))) ;;
  inp <~ quiet (deref oin) ;;
  if equals (prev_txid inp) [] then quiet (Err ENoPrevTxID) else
  match prev_script inp with
  | None => quiet (Err ENoPrevTxScript)
  | Some pscript =>
      hashPrevouts <~ (if N.land flag shAnyOneCanPay =? 0 then l_prevout_hash t else quiet (Ok zeros32)) ;;
      hashSequence <~ (if (N.land flag shAnyOneCanPay =? 0)
                          && negb (N.land flag 31 =? shSingle)
                          && negb (N.land flag 31 =? shNone)
                       then l_sequence_hash t else quiet (Ok zeros32)) ;;
      hashOutputs <~ (if negb (N.land flag 31 =? shSingle) && negb (N.land flag 31 =? shNone)
                      then l_outputs_hash t (-1)
                      else if (N.land flag 31 =? shSingle)
                              && (inputNumber <? wrap32 (nlen (outputs t)))
                      then l_outputs_hash t (int32_of_u32 inputNumber)
                      else quiet (Ok zeros32)) ;;
      let buf := [] ++ le_put 4 (version t) in
      let buf := buf ++ hashPrevouts in
      let buf := buf ++ hashSequence in
      let txid := hex_ignore (prev_txid inp) in
      let buf := buf ++ reverse_bytes txid in
      let buf := buf ++ le_put 4 (prev_index inp) in
      let buf := buf ++ varint (nlen pscript) in
      let buf := buf ++ pscript in
      let buf := buf ++ le_put 8 (prev_sats inp) in
      let buf := buf ++ le_put 4 (sequence inp) in
      let buf := buf ++ hashOutputs in
      let buf := buf ++ le_put 4 (locktime t) in
      let buf := buf ++ le_put 4 flag in
      ret <~ l_sha256d buf ;;
      quiet (Ok (reverse_bytes ret))
  end.

(** transaction/signature/InternalSigner.go:24-47 (Sign). *)
Definition l_sign (s : signer) (index : N) (t : tx) : logged tx :=
  let s := default_flag s in
  sh <~ l_sighash t index (sg_flag s) ;;
  sig <~ quiet (key_sign (sg_key s) (reverse_bytes sh)) ;;
  let '(us, _) := p2pkh_unlocking_script (key_pub (sg_key s)) sig (sg_flag s) in
  quiet (apply_unlocking_script t index (Some us)).
(** transaction/signature/InternalSigner.go:57-68 (SignAuto, one input). *)
Definition l_auto_step (s : signer) (i : N) (t : tx) : logged tx :=
  oin <~ quiet (or_panic (nth_error (inputs t) (N.to_nat i))) ;;
  inp <~ quiet (deref oin) ;;
  pkh <~ quiet (match get_public_key_hash (prev_script inp) with
                | Ok h => Ok h | Err _ => Ok [] | Panic => Panic
                end) ;;
  let pubKeyHashStr := hex_encode pkh in
  h <~ l_hash160 (key_pub (sg_key s)) ;;
  let fromPriv := hex_encode h in
  if equals pubKeyHashStr fromPriv then
    match l_sign s (wrap32 i) t with
    | (Ok t', l) => (Ok t', l)
    | (Err _, l) => (Ok t, l)
    | (Panic, l) => (Panic, l)
    end
  else quiet (Ok t).
(** transaction/signature/InternalSigner.go:52-71 (SignAuto). *)
Fixpoint l_auto_loop (s : signer) (i : N) (n : nat) (t : tx) {struct n} : logged tx :=
  match n with
  | O => quiet (Ok t)
  | S n' => t' <~ l_auto_step s i t ;; l_auto_loop s (i + 1) n' t'
  end.
(** transaction/signature/InternalSigner.go:52-71 (SignAuto). *)
Definition l_sign_auto (s : signer) (t : tx) : logged tx :=
  l_auto_loop (default_flag s) 0 (length (inputs t)) t.
