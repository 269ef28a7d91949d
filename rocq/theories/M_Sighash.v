(** Model of transaction/SignatureHash.go, transaction/signature/sighash/SigHashFlag.go
    and transaction/signature/InternalSigner.go. *)
From Verif Require Export M_Tx.

(** transaction/signature/sighash/SigHashFlag.go:8-23 (those the code uses; a Flag is
    a uint8). Line 11. *)
Definition shNone : N := 0x2.
(** transaction/signature/sighash/SigHashFlag.go:12. *)
Definition shSingle : N := 0x3.
(** transaction/signature/sighash/SigHashFlag.go:13. *)
Definition shAnyOneCanPay : N := 0x80.
(** transaction/signature/sighash/SigHashFlag.go:16. *)
Definition shAllForkID : N := 0x41.

(** transaction/SignatureHash.go:27-29. *)
Definition zeros32 : bytes := repeat x00 32.

(** transaction/SignatureHash.go:101-113 (getPrevoutHash): the buffer. *)
Fixpoint prevout_buf (buf : bytes) (ins : list (option input)) {struct ins} : res bytes :=
  match ins with
  | [] => Ok buf
  | oi :: r =>
      i <- deref oi ;;
      let txid := hex_ignore (prev_txid i) in
      let buf := buf ++ reverse_bytes txid in
      let buf := buf ++ le_put 4 (prev_index i) in
      prevout_buf buf r
  end.
(** transaction/SignatureHash.go:101-113 (getPrevoutHash). *)
Definition prevout_hash (t : tx) : res bytes :=
  buf <- prevout_buf [] (inputs t) ;; Ok (sha256d buf).

(** transaction/SignatureHash.go:115-125 (getSequenceHash). *)
Fixpoint sequence_buf (buf : bytes) (ins : list (option input)) {struct ins} : res bytes :=
  match ins with
  | [] => Ok buf
  | oi :: r => i <- deref oi ;; sequence_buf (buf ++ le_put 4 (sequence i)) r
  end.
(** transaction/SignatureHash.go:115-125 (getSequenceHash). *)
Definition sequence_hash (t : tx) : res bytes :=
  buf <- sequence_buf [] (inputs t) ;; Ok (sha256d buf).

(** transaction/SignatureHash.go:127-139 (getOutputsHash). *)
Fixpoint outputs_buf (buf : bytes) (outs : list (option output)) {struct outs} : res bytes :=
  match outs with
  | [] => Ok buf
  | oo :: r => o <- deref oo ;; b <- output_sighash_bytes o ;; outputs_buf (buf ++ b) r
  end.
(** transaction/SignatureHash.go:127-139 (getOutputsHash). *)
Definition outputs_hash (t : tx) (n : Z) : res bytes :=
  if (n =? -1)%Z then
    buf <- outputs_buf [] (outputs t) ;; Ok (sha256d buf)
  else
    oo <- or_panic (if (n <? 0)%Z then None else nth_error (outputs t) (Z.to_nat n)) ;;
    o <- deref oo ;;
    b <- output_sighash_bytes o ;;
    Ok (sha256d ([] ++ b)).

(** transaction/SignatureHash.go:48: Go conversion [int32(u)] of a uint32. *)
Definition int32_of_u32 (n : N) : Z :=
  if n <? 0x80000000 then Z.of_N n else (Z.of_N n - 4294967296)%Z.

(** transaction/SignatureHash.go:17-99 up to the hashing: the serialised buffer
    [buf] (lines 51-95). *)
Definition sighash_preimage (t : tx) (inputNumber flag : N) : res bytes :=
  oin <- or_panic (nth_error (inputs t) (N.to_nat inputNumber)) ;;
  inp <- deref oin ;;
  if equals (prev_txid inp) [] then Err ENoPrevTxID else
  match prev_script inp with
  | None => Err ENoPrevTxScript
  | Some pscript =>
      (* lines 31-34 *)
      hashPrevouts <- (if N.land flag shAnyOneCanPay =? 0 then prevout_hash t else Ok zeros32) ;;
      (* lines 36-41 *)
      hashSequence <- (if (N.land flag shAnyOneCanPay =? 0)
                          && negb (N.land flag 31 =? shSingle)
                          && negb (N.land flag 31 =? shNone)
                       then sequence_hash t else Ok zeros32) ;;
      (* lines 43-49 *)
      hashOutputs <- (if negb (N.land flag 31 =? shSingle) && negb (N.land flag 31 =? shNone)
                      then outputs_hash t (-1)
                      else if (N.land flag 31 =? shSingle)
                              && (inputNumber <? wrap32 (nlen (outputs t)))
                      then outputs_hash t (int32_of_u32 inputNumber)
                      else Ok zeros32) ;;
      let buf := [] ++ le_put 4 (version t) in
      let buf := buf ++ hashPrevouts in
      let buf := buf ++ hashSequence in
      let txid := hex_ignore (prev_txid inp) in
      let buf := buf ++ reverse_bytes txid in
      let buf := buf ++ le_put 4 (prev_index inp) in
      let buf := buf ++ varint (nlen pscript) in
      let buf := buf ++ pscript in
      let buf := buf ++ le_put 8 (prev_sats inp) in
      let buf := buf ++ le_put 4 (sequence inp) in
      let buf := buf ++ hashOutputs in
      let buf := buf ++ le_put 4 (locktime t) in
      Ok (buf ++ le_put 4 flag)
  end.

(** transaction/SignatureHash.go:17-99 (GetInputSignatureHash), lines 97-98. *)
Definition get_input_signature_hash (t : tx) (inputNumber flag : N) : res bytes :=
  buf <- sighash_preimage t inputNumber flag ;;
  let ret := sha256d buf in
  Ok (reverse_bytes ret).
