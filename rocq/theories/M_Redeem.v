(** Model of script/RedeemScript.go. *)
From Verif Require Export M_Script.

(** script/RedeemScript.go:16-20 (RedeemScript; Signatures is never used). *)
Record redeem := mk_rs { sigs_required : Z; public_keys : list bytes }.

(** script/RedeemScript.go:23-37 (NewRedeemScript). *)
Definition new_redeem_script (signaturesRequired : Z) : res redeem :=
  if (signaturesRequired <? 2)%Z then Err ESigsMin
  else if (16 <? signaturesRequired)%Z then Err ESigsMax
  else Ok (mk_rs signaturesRequired []).

(** hdkeychain (external): an arbitrary type of extended keys with arbitrary
    parsing, child derivation and public-key serialisation, each fallible. *)
(** script/RedeemScript.go:89-108, 126-144. *)
Record hdlib := mk_hd
  { hd_key : Type;
    hd_parse : bytes -> res hd_key;
    hd_child : hd_key -> N -> res hd_key;
    hd_pub : hd_key -> res bytes }.

(** script/RedeemScript.go:89-108, 126-144: parse, derive twice, serialise. *)
Definition hd_derive (H : hdlib) (xpub : bytes) (i j : N) : res bytes :=
  k <- hd_parse H xpub ;;
  k1 <- hd_child H k i ;;
  k2 <- hd_child H k1 j ;;
  hd_pub H k2.

(** [OpBASE + byte(n)]: uint8 arithmetic. *)
(** script/RedeemScript.go:167, 174. *)
Definition op_base_plus (n : N) : byte := n2b (b2n OpBASE + n).

(** script/RedeemScript.go:78-82: [for len(derivationPath) > 0] reading little-endian pairs. A
    single last byte panics: [derivationPath[0:2]] may succeed through spare
    capacity but [derivationPath[2:]] does not. *)
Fixpoint path_loop (fuel : nat) (s : list N) (p : bytes) {struct fuel} : res (list N) :=
  match fuel with
  | O => Ok s
  | S f =>
      match p with
      | [] => Ok s
      | [a] => Panic
      | a :: b :: r => path_loop f (s ++ [le_get [a; b]]) r
      end
  end.

(** script/RedeemScript.go:69-109: one public key element. [pubkey[0]], [pubkey[1:]],
    [pubkey[0:78]], [pubkey[78:]]. Simplification: the capacity of the element
    beyond its length is not used to make [0:78] succeed, because [pubkey[78:]]
    on a shorter element panics anyway; likewise [derivationPath[2:]] on one byte. *)
Definition electrum_key (H : hdlib) (pubkey : bytes) : res bytes :=
  c <- first_byte pubkey ;;
  if negb (byte_eqb c xff) then Err EElectrumFF else
  let pubkey := skipn 1 pubkey in
  if Nat.ltb (length pubkey) 78 then Panic else
  let xpub := b58_encode_missing_checksum (firstn 78 pubkey) in
  let derivationPath := skipn 78 pubkey in
  s <- path_loop (S (length derivationPath)) [] derivationPath ;;
  match s with
  | [i; j] => hd_derive H xpub i j
  | _ => Err EPath2Items
  end.

(** script/RedeemScript.go:40-117 (NewRedeemScriptFromElectrum). uint8
    subtraction [parts[0][0] - OpBASE] wraps. *)
Definition redeem_from_electrum (H : hdlib) (script : bytes) : res redeem :=
  parts <- decode_string_parts script ;;
  let n := length parts in
  if Nat.eqb n 0 then Err EFiveParts else
  c0 <- first_byte (nth 0 parts []) ;;
  let signaturesRequired := (b2n c0 + 256 - b2n OpBASE) mod 256 in
  if signaturesRequired <? 2 then Err ESigsMin else
  if 15 <? signaturesRequired then Err ESigsMax15 else
  if Nat.ltb n 2 then Panic else (* parts[len(parts)-2] *)
  cn <- first_byte (nth (n - 2) parts []) ;;
  let signatureCount := (b2n cn + 256 - b2n OpBASE) mod 256 in
  cl <- first_byte (nth (n - 1) parts []) ;;
  if negb (byte_eqb cl OpCHECKMULTISIG) then Err ECheckMultisig else
  if Nat.ltb n 3 then Panic else (* parts[1:0] *)
  keys <- mapM (electrum_key H) (firstn (n - 3) (skipn 1 parts)) ;;
  if negb (nlen keys =? signatureCount) then Err EKeyCount
  else Ok (mk_rs (Z.of_N signaturesRequired) keys).

(** script/RedeemScript.go:120-149 (AddPublicKey): the redeem script afterwards
    and the error. *)
Definition add_public_key (H : hdlib) (rs : redeem) (pkey : bytes) (path : list N)
  : res (redeem * option err) :=
  match path with
  | [i; j] =>
      match hd_derive H pkey i j with
      | Ok p => Ok (mk_rs (sigs_required rs) (public_keys rs ++ [p]), None)
      | Err e => Ok (rs, Some e)
      | Panic => Panic
      end
  | _ => Ok (rs, Some EPath2)
  end.

(** script/RedeemScript.go:164-179 (GetRedeemScript): the bytes, and the redeem
    script afterwards (its keys sorted, line 168). *)
Definition get_redeem_script (rs : redeem) : bytes * redeem :=
  let b := [] ++ [n2b (b2n OpBASE + Z.to_N (sigs_required rs mod 256))] in
  let rs := mk_rs (sigs_required rs) (sort_byte_arrays (public_keys rs)) in
  let b := fold_left (fun b pk => (b ++ [n2b (nlen pk)]) ++ pk) (public_keys rs) b in
  let b := b ++ [op_base_plus (nlen (public_keys rs) mod 256)] in
  (b ++ [OpCHECKMULTISIG], rs).

(** script/RedeemScript.go:182-184 (GetRedeemScriptHash). *)
Definition get_redeem_script_hash (rs : redeem) : bytes * redeem :=
  let (s, rs) := get_redeem_script rs in (hash160 s, rs).

(** script/RedeemScript.go:152-157 (GetAddress). *)
Definition redeem_get_address (rs : redeem) : bytes * redeem :=
  let (s, rs) := get_redeem_script rs in
  let hash := hash160 s in
  (b58_check_encode hash x05, rs).

(** script/RedeemScript.go:186-197 (getScriptPubKey). *)
Definition redeem_script_pub_key (rs : redeem) : bytes * redeem :=
  let (h, rs) := get_redeem_script_hash rs in
  let b := [] ++ [OpHASH160] in
  let b := b ++ [n2b (nlen h)] in
  let b := b ++ h in
  (b ++ [OpEQUAL], rs).
