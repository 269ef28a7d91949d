(** Specification of spending: a stack machine for the script words that occur
    in pay-to-public-key-hash spends, and histories of signing calls. Written
    from the protocol. *)
From Verif Require Export S_Sighash.

(** [script_run chk b st st']: executing script [b] on stack [st] (top first)
    succeeds and leaves [st']. [chk sig pub]: the signature check. *)
Inductive script_run (chk : bytes -> bytes -> Prop) : bytes -> list bytes -> list bytes -> Prop :=
| run_done st : script_run chk [] st st
| run_push h d r st st' : announces h (nlen d) ->
    script_run chk r (d :: st) st' -> script_run chk (h ++ d ++ r) st st'
| run_dup r x st st' : script_run chk r (x :: x :: st) st' -> script_run chk (x76 :: r) (x :: st) st'
| run_hash160 r x st st' : script_run chk r (hash160 x :: st) st' -> script_run chk (xa9 :: r) (x :: st) st'
| run_equalverify r x st st' : script_run chk r st st' -> script_run chk (x88 :: r) (x :: x :: st) st'
| run_checksig r sg pub st st' : chk sg pub ->
    script_run chk r ([x01] :: st) st' -> script_run chk (xac :: r) (pub :: sg :: st) st'.

(** CHECKSIG for input [n] of [t]: the last byte of the signature is the flag, the
    rest must verify for the digest of that flag's preimage. *)
Definition signature_ok (verify : bytes -> bytes -> bytes -> Prop) (t : tx) (n : nat) (sg pub : bytes) : Prop :=
  exists s f p, sg = s ++ [n2b f] /\ f < 256 /\ preimage t n f p /\ verify pub (dsha p) s.

(** Input [n] of [t] unlocks the output it spends: the unlocking script runs on
    the empty stack, then the spent script, and true is on top. *)
Definition accepted (verify : bytes -> bytes -> bytes -> Prop) (t : tx) (n : nat) : Prop :=
  exists i u s st st', nth_error (inputs t) n = Some (Some i) /\ unlocking i = Some u /\ prev_script i = Some s /\
    script_run (signature_ok verify t n) u [] st /\ script_run (signature_ok verify t n) s st ([x01] :: st').

(** A key whose signatures verify under its public key (of sizes that can be pushed). *)
Definition honest (verify : bytes -> bytes -> bytes -> Prop) (k : priv_key) : Prop :=
  nlen (key_pub k) < 2 ^ 32 /\
  forall d, length d = 32%nat -> exists sg, key_sign k d = Ok sg /\ nlen sg + 1 < 2 ^ 32 /\ verify (key_pub k) d sg.

(** The calls of a wallet that spends outputs of its own key to addresses. *)
Inductive spend_call (pub : bytes) : tx_call -> Prop :=
| sc_from id vout sats : length id = 32%nat -> vout < 2 ^ 32 -> sats < 2 ^ 64 ->
    spend_call pub (CallFrom (hex_encode id) vout (hex_encode (p2pkh (hash160 pub))) sats)
| sc_pay h m sats : length h = 20%nat -> sats < 2 ^ 64 ->
    spend_call pub (CallPayTo (addr_string (addr_from_pkh h m)) sats).

(** ** Histories of signing calls on one transaction, by any signers *)
Inductive sign_call := DoSign (s : signer) (n : N) | DoSignAuto (s : signer).

(** The caller ignores errors; a panic ends the program. *)
Definition sign_do (t : tx) (c : sign_call) : res tx :=
  match c with
  | DoSign s n => match tx_sign t n s with Ok (t', _, _) => Ok t' | Err e => Err e | Panic => Panic end
  | DoSignAuto s => match tx_sign_auto t s with Ok (t', _, _) => Ok t' | Err e => Err e | Panic => Panic end
  end.

Fixpoint sign_run (t : tx) (cs : list sign_call) {struct cs} : res tx :=
  match cs with
  | [] => Ok t
  | c :: r => t' <- sign_do t c ;; sign_run t' r
  end.

Definition call_bounds (c : sign_call) : Prop :=
  match c with DoSign s n => sg_flag s < 256 /\ n < 2 ^ 32 | DoSignAuto s => sg_flag s < 256 end.

(** Call [c], made on [t] alone, signs input [k], which becomes [i']. *)
Definition signs_at (t : tx) (c : sign_call) (k : nat) (i' : input) : Prop :=
  match c with
  | DoSign s n => N.to_nat n = k /\
      exists t1 s1, tx_sign t n s = Ok (t1, s1, None) /\ nth_error (inputs t1) k = Some (Some i')
  | DoSignAuto s => (exists i, nth_error (inputs t) k = Some (Some i) /\ matches (key_pub (sg_key s)) i) /\
      exists t1 s1, tx_sign t (N.of_nat k) s = Ok (t1, s1, None) /\ nth_error (inputs t1) k = Some (Some i')
  end.
