(** The Merkle code again, noting what is given to the hash function. *)
From Verif Require Export M_Hashed M_Block.

(** block/GetMerkleBranches.go:39-51 (the loop of walkBranch): the results, and the messages hashed, in order. *)
Fixpoint l_merkle_level (hashes : list bytes) : list bytes * list bytes :=
  match hashes with
  | [] => ([], [])
  | [h] => let a := hex_ignore h in let b := a in ([hex_encode (sha256d (a ++ b))], [a ++ b])
  | h1 :: h2 :: r =>
      let a := hex_ignore h1 in
      let b := hex_ignore h2 in
      let '(results, l) := l_merkle_level r in
      (hex_encode (sha256d (a ++ b)) :: results, (a ++ b) :: l)
  end.
(** block/GetMerkleBranches.go:28-54 (walkBranch). *)
Fixpoint l_walk_branch (fuel : nat) (branches hashes : list bytes) {struct fuel} : list bytes * list bytes :=
  match fuel with
  | O => (branches, [])
  | S f =>
      match hashes with
      | [] => (branches, [])
      | [_] => (branches, [])
      | _ :: h1 :: _ =>
          let '(results, l) := l_merkle_level hashes in
          let '(out, l') := l_walk_branch f (branches ++ [h1]) results in
          (out, l ++ l')
      end
  end.
(** block/GetMerkleBranches.go:22-59 (GetMerkleBranches). *)
Definition l_get_merkle_branches (template : list bytes) : list bytes * list bytes :=
  let hashes := get_hashes template in
  l_walk_branch (length hashes) [] hashes.

(** block/BuildMerkleRootFromCoinbase.go:11-21 (BuildMerkleRootFromCoinbase). *)
Fixpoint l_build_merkle_root (acc : bytes) (branches : list bytes) : bytes * list bytes :=
  match branches with
  | [] => (acc, [])
  | b :: r =>
      let concat := acc ++ hex_ignore b in
      let '(out, l) := l_build_merkle_root (sha256d concat) r in
      (out, concat :: l)
  end.

(** block/GetMerkleBranches.go:71-86 (the loop of MerkleRootFromBranches). *)
Fixpoint l_merkle_proof_loop (hash : bytes) (txIndex : Z) (branches : list bytes) {struct branches} : logged (bytes * Z) :=
  match branches with
  | [] => quiet (Ok (hash, txIndex))
  | b :: r =>
      h <~ quiet (of_hex b) ;;
      let h := reverse_bytes h in
      hash <~ (if (0 <? Z.land txIndex 1)%Z then l_sha256d (h ++ hash) else l_sha256d (hash ++ h)) ;;
      l_merkle_proof_loop hash (Z.shiftr txIndex 1) r
  end.
(** block/GetMerkleBranches.go:63-94 (MerkleRootFromBranches). *)
Definition l_merkle_root_from_branches (txHash : bytes) (txIndex : Z) (branches : list bytes) : logged bytes :=
  hash <~ quiet (of_hex txHash) ;;
  let hash := reverse_bytes hash in
  r <~ l_merkle_proof_loop hash txIndex branches ;;
  let '(hash, txIndex) := r in
  if (0 <? txIndex)%Z then quiet (Err (EIndexRange txIndex (nlen branches)))
  else quiet (Ok (hex_encode (reverse_bytes hash))).
