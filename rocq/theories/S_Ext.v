(** Vocabulary for signers of one's own (C89). *)
From Verif Require Export M_Ext S_Heap S_Flow.

(** what the transaction at address [b] looks like *)
Definition tx_at (w : world) (b : nat) : option tx := option_map (view (w_ins w)) (nth_error (w_txs w) b).

(** the same transaction up to unlocking scripts *)
Definition same_but_scripts (t t' : tx) : Prop :=
  version t' = version t /\ outputs t' = outputs t /\ locktime t' = locktime t /\ length (inputs t') = length (inputs t) /\
  forall n, match nth_error (inputs t) n, nth_error (inputs t') n with
            | Some (Some i), Some (Some i') => exists u, i' = set_unlocking i u
            | x, y => x = y
            end.

(** A signer that, whatever it is given, returns that very transaction, and changes nothing but
    unlocking scripts in what was there before (it may make new objects). *)
Definition fills_in (c : ext_call) : Prop := forall w b w' r e, c w b = Some (w', r, e) ->
  (e = None -> r = b) /\
  (forall a t, nth_error (w_txs w) a = Some t -> nth_error (w_txs w') a = Some t) /\
  (forall a i, nth_error (w_ins w) a = Some i -> exists u, nth_error (w_ins w') a = Some (set_unlocking i u)).

(** calls of Sign and SignAuto on any transactions with any signers; the caller ignores the errors, a
    panic ends the program *)
Fixpoint ext_run (cs : list (ext_call * option nat)) (w : world) {struct cs} : option world :=
  match cs with
  | [] => Some w
  | (c, bt) :: r => match sign_ext c bt w with Some (w', _) => ext_run r w' | None => None end
  end.

(** A signer on another machine: it gets the bytes of the transaction, reads them with NewFromBytes,
    puts [u] into input [n] of what it read and sends that back; the client makes objects of it. *)
Definition remote (n : nat) (u : bytes) : ext_call := fun w bt =>
  match bt with
  | None => None
  | Some b =>
      match tx_at w b with
      | None => None
      | Some t =>
          match tx_to_bytes t with
          | Ok raw =>
              match tx_from_slice (Sl raw []) with
              | Ok t2 =>
                  match nth_error (inputs t2) n with
                  | Some (Some _) =>
                      let is := flat_map (fun oi => match oi with Some i => [i] | None => [] end) (inputs t2) in
                      let is := match nth_error is n with Some i => set_nth n (set_unlocking i (Some u)) is | None => is end in
                      let base := length (w_ins w) in
                      Some (mk_world (w_ins w ++ is)
                              (w_txs w ++ [mk_ptx (version t2) (map (fun k => Some (base + k)%nat) (seq 0 (length is))) (outputs t2) (locktime t2)]),
                            Some (length (w_txs w)), None)
                  | _ => Some (w, None, Some (ENoInput (N.of_nat n)))
                  end
              | Err e => Some (w, None, Some e)
              | Panic => None
              end
          | Err e => Some (w, None, Some e)
          | Panic => None
          end
      end
  end.
