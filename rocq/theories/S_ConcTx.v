(** Specification for C80: calls on one transaction, what they do one at a time (in terms of
    the value models M_Tx, M_Sighash, M_Signer), and which of them get into each other's
    way. *)
From Verif Require Export M_Conc.

(** A call on transaction [t]. [s] says which InternalSigner object is used: several calls
    may use the same one. *)
Inductive job :=
| JSign (s : nat) (k : priv_key) (n : N)   (* s.Sign(n, t), s with private key k *)
| JAuto (s : nat) (k : priv_key)           (* s.SignAuto(t) *)
| JTxSign (s : nat) (k : priv_key) (n : N) (* t.Sign(n, s) *)
| JTxAuto (s : nat) (k : priv_key)         (* t.SignAuto(s) *)
| JHash (n flag : N)                       (* t.GetInputSignatureHash(n, flag) *)
| JTotal                                   (* t.GetTotalOutputSatoshis() *)
| JCoinbase                                (* t.IsCoinbase() *)
| JBytes                                   (* t.ToBytes() *)
| JTxID.                                   (* t.GetTxID() *)
Inductive answer := ADone | ABytes (b : bytes) | ANum (n : N) | ABool (b : bool).

Definition map_res {A B} (f : A -> B) (r : res A) : res B :=
  match r with Ok a => Ok (f a) | Err e => Err e | Panic => Panic end.

(** ** one at a time, on the transaction as a value; [flag s] is SigHashFlag of signer [s] *)
Definition do_job (flag : nat -> N) (x : tx) (j : job) : res answer * tx :=
  match j with
  | JSign s k n | JTxSign s k n => match internal_sign (mk_signer k (flag s)) n x with
                   | Ok x' => (Ok ADone, x') | Err e => (Err e, x) | Panic => (Panic, x) end
  | JAuto s k | JTxAuto s k => match internal_sign_auto (mk_signer k (flag s)) x with
                 | Ok x' => (Ok ADone, x') | Err e => (Err e, x) | Panic => (Panic, x) end
  | JHash n f => (map_res ABytes (get_input_signature_hash x n f), x)
  | JTotal => (map_res ANum (total_output_satoshis x), x)
  | JCoinbase => (map_res ABool (is_coinbase x), x)
  | JBytes => (map_res ABytes (tx_to_bytes x), x)
  | JTxID => (map_res ABytes (tx_id x), x)
  end.
Fixpoint in_turn (flag : nat -> N) (x : tx) (js : list job) : list (res answer) * tx :=
  match js with
  | [] => ([], x)
  | j :: r => let (a, x1) := do_job flag x j in let (l, x2) := in_turn flag x1 r in (a :: l, x2)
  end.

(** ** at the same time: the programs of M_Conc *)
Definition answered {A} (f : A -> answer) (p : call (res A)) : call (res answer) := bindp held p (fun r => Ret (map_res f r)).
Definition started (t : nat) (j : job) : call (res answer) :=
  match j with
  | JSign s k n => answered (fun _ => ADone) (c_sign s k t n)
  | JAuto s k => answered (fun _ => ADone) (c_sign_auto s k t)
  | JTxSign s k n => answered (fun _ => ADone) (c_tx_sign s k t n)
  | JTxAuto s k => answered (fun _ => ADone) (c_tx_sign_auto s k t)
  | JHash n f => answered ABytes (c_sighash t n f)
  | JTotal => answered ANum (c_total t)
  | JCoinbase => answered ABool (c_is_coinbase t)
  | JBytes => answered ABytes (c_to_bytes t)
  | JTxID => answered (fun b => ABytes (hex_encode (reverse_bytes (sha256d b)))) (c_to_bytes t)
                                   (* transaction/Transaction.go:211-213 *)
  end.
Definition together (m : memory) (t : nat) (js : list job) (schedule : list nat) : conf held (res answer) :=
  run cell_eq held (m, map (started t) js) schedule.

(** ** who is in whose way *)
(** the call gives the Input object [p] an unlocking script *)
Definition signs (m : memory) (t : nat) (j : job) (p : nat) : Prop :=
  match j with
  | JSign _ _ n | JTxSign _ _ n => nth_error (m (XInputs t)) (N.to_nat n) = Some (Some p)
  | JAuto _ k | JTxAuto _ k => In (Some p) (m (XInputs t)) /\ get_public_key_hash (m (IPrev p)) = Ok (hash160 (key_pub k))
  | _ => False
  end.
Definition signer_of (j : job) : option nat :=
  match j with JSign s _ _ | JAuto s _ | JTxSign s _ _ | JTxAuto s _ => Some s | _ => None end.
(** Transaction.Sign and Transaction.SignAuto also write the whole struct back *)
Definition rewrites (j : job) : Prop := match j with JTxSign _ _ _ | JTxAuto _ _ => True | _ => False end.
Definition serialises (j : job) : Prop := match j with JBytes | JTxID => True | _ => False end.
(** the call writes this cell *)
Definition writes (m : memory) (t : nat) (j : job) (l : cell) : Prop :=
  match l with
  | IUnlock p => signs m t j p
  | SFlag s => signer_of j = Some s /\ m (SFlag s) = 0
  | _ => False
  end.
(** [i] writes what [j] reads or writes *)
Definition disturbs (m : memory) (t : nat) (i j : job) : Prop :=
  (exists p, signs m t i p /\ (signs m t j p \/ serialises j)) \/
  (exists s, signer_of i = Some s /\ signer_of j = Some s /\ m (SFlag s) = 0).
Definition undisturbed (m : memory) (t : nat) (js : list job) : Prop :=
  forall a b i j, a <> b -> nth_error js a = Some i -> nth_error js b = Some j -> ~ disturbs m t i j.

(** no Input object occurs twice in the transaction *)
Definition own_inputs (m : memory) (t : nat) : Prop :=
  NoDup (filter (fun o => match o with Some _ => true | None => false end) (m (XInputs t))).
