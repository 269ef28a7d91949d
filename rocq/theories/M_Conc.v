(** The methods of a transaction as programs over shared memory (S_Conc.v): which fields
    they read and write, in the order of the code. Functions that only compute are those of
    the other M files.

    Simplifications: a slice of pointers and a script are read in one access with their
    contents, because nothing here writes an element of such a slice or a byte of such a
    script in place; a script that Sign creates is represented by its bytes. *)
From Verif Require Export M_Signer S_Conc.

(** The cells. [t] numbers Transaction structs, [p] Input or Output objects, [s] signers. *)
(** transaction/Transaction.go:37-42, transaction/input/Input.go:25-32, transaction/output/Output.go:25-28, transaction/signature/InternalSigner.go:17-20: the fields. *)
Inductive cell :=
| XVersion (t : nat) | XInputs (t : nat) | XOutputs (t : nat) | XLocktime (t : nat)
                                      (* transaction/Transaction.go:37-42 *)
| ITxid (p : nat) | IIndex (p : nat) | ISats (p : nat) | IPrev (p : nat) | IUnlock (p : nat) | ISeq (p : nat)
                                      (* transaction/input/Input.go:25-32 *)
| OSats (p : nat) | OScript (p : nat) (* transaction/output/Output.go:25-28 *)
| SFlag (s : nat).                    (* transaction/signature/InternalSigner.go:19 *)
Definition cell_eq (a b : cell) : {a = b} + {a <> b}.
Proof. decide equality; apply Nat.eq_dec. Defined.

(** what a cell holds; [option nat] is a pointer, [option bytes] a *Script *)
(** transaction/Transaction.go:37-42, transaction/input/Input.go:25-32, transaction/output/Output.go:25-28: the types of the fields. *)
Definition held (c : cell) : Type :=
  match c with
  | XVersion _ | XLocktime _ | IIndex _ | ISats _ | ISeq _ | OSats _ | SFlag _ => N
  | XInputs _ | XOutputs _ => list (option nat)
  | ITxid _ => bytes
  | IPrev _ | IUnlock _ | OScript _ => option bytes
  end.
Notation memory := (mem held).
Notation call := (prog held).

(** the transaction as a value of the other models *)
(** transaction/input/Input.go:25-32 read from memory. *)
Definition input_at (m : memory) (p : nat) : input :=
  mk_in (m (ITxid p)) (m (IIndex p)) (m (ISats p)) (m (IPrev p)) (m (IUnlock p)) (m (ISeq p)).
(** transaction/output/Output.go:25-28 read from memory. *)
Definition output_at (m : memory) (p : nat) : output := mk_out (m (OSats p)) (m (OScript p)).
(** transaction/Transaction.go:37-42 read from memory. *)
Definition tx_at (m : memory) (t : nat) : tx :=
  mk_tx (m (XVersion t)) (map (option_map (input_at m)) (m (XInputs t)))
        (map (option_map (output_at m)) (m (XOutputs t))) (m (XLocktime t)).

(** transaction/SignatureHash.go:101-113 (getPrevoutHash). *)
Fixpoint c_prevouts (buf : bytes) (ins : list (option nat)) : call (res bytes) :=
  match ins with
  | [] => Ret (Ok (sha256d buf))
  | None :: _ => Ret Panic
  | Some p :: r =>
      Rd (ITxid p) (fun txid => Rd (IIndex p) (fun ix =>
      c_prevouts ((buf ++ reverse_bytes (hex_ignore txid)) ++ le_put 4 ix) r))
  end.
(** transaction/SignatureHash.go:115-125 (getSequenceHash). *)
Fixpoint c_sequences (buf : bytes) (ins : list (option nat)) : call (res bytes) :=
  match ins with
  | [] => Ret (Ok (sha256d buf))
  | None :: _ => Ret Panic
  | Some p :: r => Rd (ISeq p) (fun sq => c_sequences (buf ++ le_put 4 sq) r)
  end.
(** transaction/output/Output.go:164-174 (ToBytes), 178-189 (GetBytesForSigHash): the same
    accesses and the same bytes; LockingScript is read for its length and again for its
    bytes. *)
Definition c_output (p : option nat) : call (res bytes) :=
  match p with
  | None => Ret Panic
  | Some p =>
      Rd (OSats p) (fun sats => Rd (OScript p) (fun s1 =>
      match s1 with
      | None => Ret Panic
      | Some s1 => Rd (OScript p) (fun s2 =>
          match s2 with
          | None => Ret Panic
          | Some s2 => Ret (Ok ((([] ++ le_put 8 sats) ++ varint (nlen s1)) ++ s2))
          end)
      end))
  end.
(** the loops over Outputs: transaction/SignatureHash.go:131-133, Transaction.go:250-252 *)
Fixpoint c_outputs (buf : bytes) (outs : list (option nat)) : call (res bytes) :=
  match outs with
  | [] => Ret (Ok buf)
  | p :: r => bindr held (c_output p) (fun b => c_outputs (buf ++ b) r)
  end.
(** transaction/SignatureHash.go:127-139 (getOutputsHash). *)
Definition c_outputs_hash (t : nat) (n : Z) : call (res bytes) :=
  if (n =? -1)%Z
  then Rd (XOutputs t) (fun outs => bindr held (c_outputs [] outs) (fun buf => Ret (Ok (sha256d buf))))
  else Rd (XOutputs t) (fun outs =>
       match (if (n <? 0)%Z then None else nth_error outs (Z.to_nat n)) with
       | None => Ret Panic
       | Some p => bindr held (c_output p) (fun b => Ret (Ok (sha256d ([] ++ b))))
       end).

(** transaction/SignatureHash.go:17-99 (GetInputSignatureHash). *)
Definition c_sighash (t : nat) (inputNumber flag : N) : call (res bytes) :=
  Rd (XInputs t) (fun ins =>
  match nth_error ins (N.to_nat inputNumber) with
  | None | Some None => Ret Panic
  | Some (Some p) =>
  Rd (ITxid p) (fun txid1 =>
  if equals txid1 [] then Ret (Err ENoPrevTxID) else
  Rd (IPrev p) (fun s1 =>
  match s1 with
  | None => Ret (Err ENoPrevTxScript)
  | Some _ =>
  bindr held (if N.land flag shAnyOneCanPay =? 0
         then Rd (XInputs t) (fun ins => c_prevouts [] ins) else Ret (Ok zeros32)) (fun hashPrevouts =>
  bindr held (if (N.land flag shAnyOneCanPay =? 0) && negb (N.land flag 31 =? shSingle) && negb (N.land flag 31 =? shNone)
         then Rd (XInputs t) (fun ins => c_sequences [] ins) else Ret (Ok zeros32)) (fun hashSequence =>
  bindr held (if negb (N.land flag 31 =? shSingle) && negb (N.land flag 31 =? shNone)
         then c_outputs_hash t (-1)
         else if N.land flag 31 =? shSingle
         then Rd (XOutputs t) (fun outs =>
              if inputNumber <? wrap32 (nlen outs) then c_outputs_hash t (int32_of_u32 inputNumber) else Ret (Ok zeros32))
         else Ret (Ok zeros32)) (fun hashOutputs =>
  Rd (XVersion t) (fun ver => Rd (ITxid p) (fun txid => Rd (IIndex p) (fun ix =>
  Rd (IPrev p) (fun s2 => Rd (IPrev p) (fun s3 =>
  match s2, s3 with
  | Some s2, Some s3 =>
      Rd (ISats p) (fun sats => Rd (ISeq p) (fun sq => Rd (XLocktime t) (fun lt =>
      let buf := [] ++ le_put 4 ver in
      let buf := buf ++ hashPrevouts in
      let buf := buf ++ hashSequence in
      let buf := buf ++ reverse_bytes (hex_ignore txid) in
      let buf := buf ++ le_put 4 ix in
      let buf := buf ++ varint (nlen s2) in
      let buf := buf ++ s3 in
      let buf := buf ++ le_put 8 sats in
      let buf := buf ++ le_put 4 sq in
      let buf := buf ++ hashOutputs in
      let buf := buf ++ le_put 4 lt in
      let buf := buf ++ le_put 4 flag in
      Ret (Ok (reverse_bytes (sha256d buf))))))
  | _, _ => Ret Panic
  end))))))))
  end))
  end).

(** transaction/input/Input.go:102-122 (ToBytes(false)): UnlockingScript is read for the
    nil test, for its length and for its bytes. *)
Definition c_input (p : option nat) : call (res bytes) :=
  match p with
  | None => Ret Panic
  | Some p =>
      Rd (ITxid p) (fun txid => Rd (IIndex p) (fun ix =>
      let h := ([] ++ reverse_bytes (hex_ignore txid)) ++ le_put 4 ix in
      let finish h := Rd (ISeq p) (fun sq => Ret (Ok (h ++ le_put 4 sq))) in
      Rd (IUnlock p) (fun u1 =>
      match u1 with
      | None => finish (h ++ varint 0)
      | Some _ => Rd (IUnlock p) (fun u2 => match u2 with None => Ret Panic | Some u2 =>
                  Rd (IUnlock p) (fun u3 => match u3 with None => Ret Panic | Some u3 =>
                  finish ((h ++ varint (nlen u2)) ++ u3) end) end)
      end)))
  end.
(** transaction/Transaction.go:239-247: the loop of toBytesHelper(0, nil). *)
Fixpoint c_inputs (h : bytes) (ins : list (option nat)) : call (res bytes) :=
  match ins with
  | [] => Ret (Ok h)
  | p :: r => bindr held (c_input p) (fun b => c_inputs (h ++ b) r)
  end.

(** transaction/Transaction.go:222-224, 232-259 (ToBytes, toBytesHelper(0, nil)): Inputs and
    Outputs are read for the count and again for the loop. *)
Definition c_to_bytes (t : nat) : call (res bytes) :=
  Rd (XVersion t) (fun ver => Rd (XInputs t) (fun ins1 => Rd (XInputs t) (fun ins2 =>
  bindr held (c_inputs (([] ++ le_put 4 ver) ++ varint (nlen ins1)) ins2) (fun h =>
  Rd (XOutputs t) (fun outs1 => Rd (XOutputs t) (fun outs2 =>
  bindr held (c_outputs (h ++ varint (nlen outs1)) outs2) (fun h =>
  Rd (XLocktime t) (fun lt => Ret (Ok (h ++ le_put 4 lt)))))))))).

(** transaction/Transaction.go:200-207 (GetTotalOutputSatoshis). *)
Fixpoint c_total_loop (total : N) (outs : list (option nat)) : call (res N) :=
  match outs with
  | [] => Ret (Ok total)
  | None :: _ => Ret Panic
  | Some p :: r => Rd (OSats p) (fun sats => c_total_loop (wrap64 (total + sats)) r)
  end.
(** transaction/Transaction.go:200-207 (GetTotalOutputSatoshis). *)
Definition c_total (t : nat) : call (res N) := Rd (XOutputs t) (fun outs => c_total_loop 0 outs).

(** transaction/Transaction.go:173-187 (IsCoinbase). *)
Definition c_is_coinbase (t : nat) : call (res bool) :=
  Rd (XInputs t) (fun l0 => if negb (Nat.eqb (length l0) 1) then Ret (Ok false) else
  Rd (XInputs t) (fun l1 => match nth_error l1 0 with None | Some None => Ret Panic | Some (Some p) =>
  Rd (ITxid p) (fun txid => if negb (equals txid zeros64) then Ret (Ok false) else
  Rd (XInputs t) (fun l2 => match nth_error l2 0 with None | Some None => Ret Panic | Some (Some p) =>
  Rd (IIndex p) (fun ix => if ix =? 0xFFFFFFFF then Ret (Ok true) else
  Rd (XInputs t) (fun l3 => match nth_error l3 0 with None | Some None => Ret Panic | Some (Some p) =>
  Rd (ISeq p) (fun sq => Ret (Ok (sq =? 0xFFFFFFFF))) end)) end)) end)).

(** transaction/Transaction.go:290-297 (ApplyUnlockingScript). *)
Definition c_apply (t : nat) (index : N) (s : option bytes) : call (res unit) :=
  Rd (XInputs t) (fun l1 =>
  match nth_error l1 (N.to_nat index) with
  | None => Ret Panic
  | Some None => Ret (Err (ENoInput index))
  | Some (Some _) =>
      Rd (XInputs t) (fun l2 =>
      match nth_error l2 (N.to_nat index) with
      | None | Some None => Ret Panic
      | Some (Some p) => Wr (IUnlock p) s (Ret (Ok tt))
      end)
  end).

(** transaction/signature/InternalSigner.go:25-27, 53-55. *)
Definition c_default_flag {A} (s : nat) (k : call A) : call A :=
  Rd (SFlag s) (fun f => if f =? 0 then Wr (SFlag s) shAllForkID k else k).

(** transaction/signature/InternalSigner.go:24-47 (Sign); signing itself (bsvec) is
    [key_sign], which touches no shared memory. *)
Definition c_sign (s : nat) (key : priv_key) (t : nat) (index : N) : call (res unit) :=
  c_default_flag s (
  Rd (SFlag s) (fun f1 =>
  bindr held (c_sighash t index f1) (fun sh =>
  match key_sign key (reverse_bytes sh) with
  | Err e => Ret (Err e)
  | Panic => Ret Panic
  | Ok sig =>
      Rd (SFlag s) (fun f2 =>
      let '(us, _) := p2pkh_unlocking_script (key_pub key) sig f2 in
      c_apply t index (Some us))
  end))).

(** transaction/signature/InternalSigner.go:57-68: the loop of SignAuto; [i] counts the
    inputs, the error of Sign is dropped. *)
Fixpoint c_auto_loop (s : nat) (key : priv_key) (t : nat) (i : N) (ins : list (option nat)) : call (res unit) :=
  match ins with
  | [] => Ret (Ok tt)
  | None :: _ => Ret Panic
  | Some p :: r =>
      Rd (IPrev p) (fun prev =>
      match get_public_key_hash prev with
      | Panic => Ret Panic
      | h =>
        let pkh := match h with Ok h => h | _ => [] end in
        if equals (hex_encode pkh) (hex_encode (hash160 (key_pub key)))
        then bindp held (c_sign s key t (wrap32 i)) (fun r1 =>
             match r1 with Panic => Ret Panic | _ => c_auto_loop s key t (i + 1) r end)
        else c_auto_loop s key t (i + 1) r
      end)
  end.
(** transaction/signature/InternalSigner.go:52-71 (SignAuto). *)
Definition c_sign_auto (s : nat) (key : priv_key) (t : nat) : call (res unit) :=
  c_default_flag s (Rd (XInputs t) (fun ins => c_auto_loop s key t 0 ins)).

(** transaction/Transaction.go:270, 284: [*bt = *signedTx], where signedTx is bt itself: the
    four fields are read and written back. *)
Definition c_copy_struct (t : nat) : call (res unit) :=
  Rd (XVersion t) (fun v => Rd (XInputs t) (fun i => Rd (XOutputs t) (fun o => Rd (XLocktime t) (fun l =>
  Wr (XVersion t) v (Wr (XInputs t) i (Wr (XOutputs t) o (Wr (XLocktime t) l (Ret (Ok tt))))))))).
(** transaction/Transaction.go:265-272 (Sign), 279-286 (SignAuto) with an InternalSigner. *)
Definition c_tx_sign (s : nat) (key : priv_key) (t : nat) (index : N) : call (res unit) :=
  bindr held (c_sign s key t index) (fun _ => c_copy_struct t).
(** transaction/Transaction.go:279-286 (SignAuto). *)
Definition c_tx_sign_auto (s : nat) (key : priv_key) (t : nat) : call (res unit) :=
  bindr held (c_sign_auto s key t) (fun _ => c_copy_struct t).

(** transaction/Transaction.go:118-120 (AddInput), 154-157 (AddOutput). *)
Definition c_add_input (t : nat) (p : option nat) : call (res unit) :=
  Rd (XInputs t) (fun l => Wr (XInputs t) (l ++ [p]) (Ret (Ok tt))).
(** transaction/Transaction.go:154-157 (AddOutput). *)
Definition c_add_output (t : nat) (p : option nat) : call (res unit) :=
  Rd (XOutputs t) (fun l => Wr (XOutputs t) (l ++ [p]) (Ret (Ok tt))).
