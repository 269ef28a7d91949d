(** The transaction with its pointers: [Inputs] is a slice of pointers to Input,
    so one Input can occur at several positions, or in several transactions.
    M_Tx has values instead of pointers; this file models the operations that
    write through them. *)
From Verif Require Export M_Signer.

(** The Input objects of the program; an address is a position. *)
(** transaction/input/Input.go:25-32. *)
Definition heap := list input.

(** transaction/Transaction.go:37-42 (Transaction) with the pointers of [Inputs].
    Outputs are never written through, so they stay values. *)
Record ptx := mk_ptx
  { p_version : N; p_inputs : list (option nat); p_outputs : list (option output); p_locktime : N }.

(** What the transaction looks like to the operations that only read. *)
(** transaction/Transaction.go:39. *)
Definition load (h : heap) (p : option nat) : option input :=
  match p with Some a => nth_error h a | None => None end.
(** transaction/Transaction.go:37-42. *)
Definition view (h : heap) (t : ptx) : tx :=
  mk_tx (p_version t) (map (load h) (p_inputs t)) (p_outputs t) (p_locktime t).

(** transaction/Transaction.go:290-297 (ApplyUnlockingScript): writes the field of
    the Input that position [index] points to. *)
Definition h_apply (h : heap) (t : ptx) (index : N) (s : option bytes) : res heap :=
  p <- or_panic (nth_error (p_inputs t) (N.to_nat index)) ;;
  match p with
  | Some a =>
      i <- or_panic (nth_error h a) ;;
      Ok (set_nth a (mk_in (prev_txid i) (prev_index i) (prev_sats i) (prev_script i) s (sequence i)) h)
  | None => Err (ENoInput index)
  end.

(** transaction/signature/InternalSigner.go:24-47 (Sign). *)
Definition h_sign (s : signer) (index : N) (h : heap) (t : ptx) : res heap :=
  let s := default_flag s in
  sh <- get_input_signature_hash (view h t) index (sg_flag s) ;;
  sig <- key_sign (sg_key s) (reverse_bytes sh) ;;
  let '(us, _) := p2pkh_unlocking_script (key_pub (sg_key s)) sig (sg_flag s) in
  h_apply h t index (Some us).

(** transaction/signature/InternalSigner.go:57-68: one iteration of SignAuto. *)
Definition h_auto_step (s : signer) (i : N) (h : heap) (t : ptx) : res heap :=
  p <- or_panic (nth_error (p_inputs t) (N.to_nat i)) ;;
  inp <- deref (load h p) ;;
  pkh <- match get_public_key_hash (prev_script inp) with
         | Ok h => Ok h | Err _ => Ok [] | Panic => Panic
         end ;;
  let pubKeyHashStr := hex_encode pkh in
  let fromPriv := hex_encode (hash160 (key_pub (sg_key s))) in
  if equals pubKeyHashStr fromPriv then
    match h_sign s (wrap32 i) h t with
    | Ok h' => Ok h'
    | Err _ => Ok h
    | Panic => Panic
    end
  else Ok h.

(** transaction/signature/InternalSigner.go:52-71 (SignAuto). *)
Fixpoint h_auto_loop (s : signer) (i : N) (n : nat) (h : heap) (t : ptx) {struct n} : res heap :=
  match n with
  | O => Ok h
  | S n' => h' <- h_auto_step s i h t ;; h_auto_loop s (i + 1) n' h' t
  end.
(** transaction/signature/InternalSigner.go:52-71 (SignAuto). *)
Definition h_sign_auto (s : signer) (h : heap) (t : ptx) : res heap :=
  h_auto_loop (default_flag s) 0 (length (p_inputs t)) h t.

(** transaction/Transaction.go:118-120 (AddInput) of an existing pointer, and of a
    newly allocated Input ([&input.Input{...}], as in From, lines 130-137, and in
    NewFromBytes of Input.go). *)
Definition h_add (t : ptx) (p : option nat) : ptx :=
  mk_ptx (p_version t) (p_inputs t ++ [p]) (p_outputs t) (p_locktime t).
(** transaction/Transaction.go:130-139 (From): a new Input. *)
Definition h_add_new (h : heap) (t : ptx) (i : input) : heap * ptx := (h ++ [i], h_add t (Some (length h))).
