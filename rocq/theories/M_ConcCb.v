(** BuildMerkleRootFromCoinbase in several goroutines (block/BuildMerkleRootFromCoinbase.go:11-21).

    A cell is a byte of the array behind the coinbase hash, counted from the start of that
    slice. Simplifications: [append] and the hash access the bytes one at a time in rising
    order; a call without branches is said to return the bytes of its argument (it returns the
    argument). *)
From Verif Require Export M_Block S_Conc.

(** block/BuildMerkleRootFromCoinbase.go:11: a byte of the array behind the hash. *)
Definition bheld (_ : nat) : Type := byte.
Notation bmem := (mem bheld).
Notation bcall := (prog bheld).

(** the copying of [append] *)
(** block/BuildMerkleRootFromCoinbase.go:16. *)
Fixpoint c_put {R} (i : nat) (d : bytes) (k : bcall R) : bcall R :=
  match d with [] => k | b :: r => Wr (V:=bheld) i b (c_put (S i) r k) end.
(** reading [n] bytes *)
(** block/BuildMerkleRootFromCoinbase.go:16-17. *)
Fixpoint c_take {R} (acc : bytes) (i n : nat) (k : bytes -> bcall R) : bcall R :=
  match n with O => k acc | S n' => Rd (V:=bheld) i (fun b => c_take (acc ++ [b]) (S i) n' k) end.

(** block/BuildMerkleRootFromCoinbase.go:11-21: the coinbase hash has length [len] and capacity
    [len + room]. [append] writes behind the hash when the first branch fits there and copies
    otherwise; from then on [acc] is an array of the call's own. *)
Definition c_root (len room : nat) (branches : list bytes) : bcall bytes :=
  match branches with
  | [] => c_take [] 0 len (fun b => Ret b)
  | h :: r =>
      let branch := hex_ignore h in
      if Nat.leb (length branch) room
      then c_put len branch (c_take [] 0 (len + length branch) (fun concat =>
             Ret (build_merkle_root_from_coinbase (sha256d concat) r)))
      else c_take [] 0 len (fun acc =>
             Ret (build_merkle_root_from_coinbase (sha256d (acc ++ branch)) r))
  end.
