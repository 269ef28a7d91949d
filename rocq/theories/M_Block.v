(** Model of block/GetMerkleBranches.go, block/BuildMerkleRootFromCoinbase.go and
    block/BuildBlockHeader.go. *)
From Verif Require Export M_Crypto M_Utils.

(** block/GetMerkleBranches.go:11-19 (getHashes). *)
Definition get_hashes (txHashes : list bytes) : list bytes :=
  fold_left (fun hashes t => hashes ++ [reverse_hex_string t]) txHashes [].

(** block/GetMerkleBranches.go:39-51: the loop of walkBranch over pairs; the last
    hash of an odd list is paired with itself. Hex errors are dropped. *)
Fixpoint merkle_level (hashes : list bytes) : list bytes :=
  match hashes with
  | [] => []
  | [h] => let a := hex_ignore h in let b := a in [hex_encode (sha256d (a ++ b))]
  | h1 :: h2 :: r =>
      let a := hex_ignore h1 in
      let b := hex_ignore h2 in
      hex_encode (sha256d (a ++ b)) :: merkle_level r
  end.

(** block/GetMerkleBranches.go:28-54 (walkBranch) with the captured variable
    [branches]. Fuel: the number of hashes (each level is shorter). *)
Fixpoint walk_branch (fuel : nat) (branches hashes : list bytes) {struct fuel} : list bytes :=
  match fuel with
  | O => branches
  | S f =>
      match hashes with
      | [] => branches
      | [_] => branches
      | _ :: h1 :: _ => walk_branch f (branches ++ [h1]) (merkle_level hashes)
      end
  end.

(** block/GetMerkleBranches.go:22-59 (GetMerkleBranches). *)
Definition get_merkle_branches (template : list bytes) : list bytes :=
  let hashes := get_hashes template in
  walk_branch (length hashes) [] hashes.

(** block/BuildMerkleRootFromCoinbase.go:11-21 (BuildMerkleRootFromCoinbase).
    The effect of [append] on the caller's spare capacity is in M_Mem.v. *)
Definition build_merkle_root_from_coinbase (coinbaseHash : bytes) (branches : list bytes) : bytes :=
  fold_left (fun acc b => sha256d (acc ++ hex_ignore b)) branches coinbaseHash.

(** block/GetMerkleBranches.go:71-86: the loop of MerkleRootFromBranches; [&] and
    [>>] on a negative int are two's complement, as Coq's [Z.land], [Z.shiftr]. *)
Fixpoint merkle_proof_loop (hash : bytes) (txIndex : Z) (branches : list bytes) {struct branches}
  : res (bytes * Z) :=
  match branches with
  | [] => Ok (hash, txIndex)
  | b :: r =>
      h <- of_hex b ;;
      let h := reverse_bytes h in
      let hash := if (0 <? Z.land txIndex 1)%Z then sha256d (h ++ hash) else sha256d (hash ++ h) in
      merkle_proof_loop hash (Z.shiftr txIndex 1) r
  end.

(** block/GetMerkleBranches.go:63-94 (MerkleRootFromBranches). *)
Definition merkle_root_from_branches (txHash : bytes) (txIndex : Z) (branches : list bytes) : res bytes :=
  hash <- of_hex txHash ;;
  let hash := reverse_bytes hash in
  '(hash, txIndex) <- merkle_proof_loop hash txIndex branches ;;
  if (0 <? txIndex)%Z then Err (EIndexRange txIndex (nlen branches))
  else Ok (hex_encode (reverse_bytes hash)).

(** block/BuildBlockHeader.go:11-26 (BuildBlockHeader). *)
Definition build_block_header (ver : N) (previousBlockHash merkleRoot time bits nonce : bytes) : bytes :=
  let v := le_put 4 ver in
  let p := hex_ignore previousBlockHash in
  let p := reverse_bytes p in
  let a := [] in
  let a := a ++ v in
  let a := a ++ p in
  let a := a ++ merkleRoot in
  let a := a ++ time in
  let a := a ++ bits in
  a ++ nonce.
