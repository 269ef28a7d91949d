(** Specification for C92: signers who get the transaction as bytes and are told about the outputs
    that it spends. *)
From Verif Require Export S_Chain.

(** for some of the inputs, the amount and the script of the output spent *)
Definition told := list (option (N * bytes)).
(** assigning PreviousTxSatoshis and PreviousTxScript of one input, as callers do after parsing *)
Definition fill_input (oi : option input) (x : option (N * bytes)) : option input :=
  match oi, x with
  | Some i, Some (a, s) => Some (mk_in (prev_txid i) (prev_index i) a (Some s) (unlocking i) (sequence i))
  | _, _ => oi
  end.
Fixpoint fill_inputs (l : list (option input)) (w : told) : list (option input) :=
  match l, w with
  | oi :: l, x :: w => fill_input oi x :: fill_inputs l w
  | _, _ => l
  end.
Definition fill (t : tx) (w : told) : tx := mk_tx (version t) (fill_inputs (inputs t) w) (outputs t) (locktime t).

(** what is told about the inputs of [t] is true *)
Definition truthful (w : told) (t : tx) : Prop := forall n a s, nth_error w n = Some (Some (a, s)) ->
  exists i, nth_error (inputs t) n = Some (Some i) /\ prev_sats i = a /\ prev_script i = Some s.
(** the signer is told about the inputs that the call signs *)
Definition enough (w : told) (t : tx) (c : sign_call) : Prop :=
  match c with
  | DoSign _ n => exists x, nth_error w (N.to_nat n) = Some (Some x)
  | DoSignAuto s => forall n i, nth_error (inputs t) n = Some (Some i) -> matches (key_pub (sg_key s)) i -> exists x, nth_error w n = Some (Some x)
  end.

(** each signer parses, fills in, signs and sends on *)
Fixpoint relay (b : bytes) (ps : list (told * sign_call)) {struct ps} : res bytes :=
  match ps with
  | [] => Ok b
  | (w, c) :: r => t <- tx_from_bytes b ;; t' <- sign_do (fill t w) c ;; b' <- tx_to_bytes t' ;; relay b' r
  end.
