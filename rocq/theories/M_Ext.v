(** Model of transaction/Signer.go: Transaction.Sign and Transaction.SignAuto with any
    implementation of the interface. The world is what such an implementation can reach through the
    pointers: the Input objects and the Transaction structs. Slices of pointers are their lists (the
    spare capacity behind them is in M_Slots.v), outputs are values (nothing writes through them). *)
From Verif Require Export M_Heap.

(** transaction/Transaction.go:37-42, transaction/input/Input.go:25-32: the objects. *)
Record world := mk_world { w_ins : heap; w_txs : list ptx }.

(** transaction/Signer.go:7-8: one method of a Signer (the index of Sign and the state of the signer
    are in the function). It is given a pointer, can do anything to the world, returns a pointer and
    an error; [None]: it panics. *)
Definition ext_call := world -> option nat -> option (world * option nat * option err).

(** transaction/Transaction.go:265-272 (Sign) and 279-286 (SignAuto), whose bodies differ in the
    method called only; [None]: a panic. The receiver [bt] may be nil. *)
Definition sign_ext (c : ext_call) (bt : option nat) (w : world) : option (world * option err) :=
  match c w bt with
  | None => None
  | Some (w', _, Some e) => Some (w', Some e)
  | Some (w', signedTx, None) =>
      match bt, signedTx with
      | Some b, Some a =>
          match nth_error (w_txs w') a with
          | Some v => Some (mk_world (w_ins w') (set_nth b v (w_txs w')), None)
          | None => None
          end
      | _, _ => None
      end
  end.

(** transaction/signature/InternalSigner.go:24-47 (Sign) as such a method; nil is dereferenced at
    once (transaction/SignatureHash.go). Simplified: SigHashFlag is not part of the world; what is
    stored in it, [default_flag], gives the same results as the flag before. *)
Definition internal_ext_sign (s : signer) (index : N) : ext_call := fun w unsignedTx =>
  match unsignedTx with
  | None => None
  | Some b =>
      match nth_error (w_txs w) b with
      | None => None
      | Some t =>
          match h_sign s index (w_ins w) t with
          | Ok h => Some (mk_world h (w_txs w), Some b, None)
          | Err e => Some (w, None, Some e)
          | Panic => None
          end
      end
  end.
(** transaction/signature/InternalSigner.go:52-71 (SignAuto) as such a method. *)
Definition internal_ext_auto (s : signer) : ext_call := fun w unsignedTx =>
  match unsignedTx with
  | None => None
  | Some b =>
      match nth_error (w_txs w) b with
      | None => None
      | Some t =>
          match h_sign_auto s (w_ins w) t with
          | Ok h => Some (mk_world h (w_txs w), Some b, None)
          | Err e => Some (w, None, Some e)
          | Panic => None
          end
      end
  end.
