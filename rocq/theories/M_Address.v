(** Model of script/address/Address.go and script/address/AddressValidation.go
    (the BIP276 part is in M_Bip276.v). *)
From Verif Require Export M_Base58.

(** script/address/Address.go:15-18 (Address). *)
Record address := mk_addr { addr_string : bytes; addr_pkh : bytes }.

(** script/address/Address.go:34-56 (addressToPubKeyHashStr). *)
Definition address_to_pkh_str (addr : bytes) : res bytes :=
  let decoded := b58_decode addr in
  if negb (Nat.eqb (length decoded) 25) then Err (EAddrLength addr)
  else match nth 0 decoded x00 with
       | x00 => Ok (hex_encode (firstn 20 (skipn 1 decoded)))
       | x6f => Ok (hex_encode (firstn 20 (skipn 1 decoded)))
       | _ => Err (EAddrUnsupported addr)
       end.

(** script/address/Address.go:22-32 (NewFromString). *)
Definition addr_from_string (addr : bytes) : res address :=
  pkh <- address_to_pkh_str addr ;; Ok (mk_addr addr pkh).

(** script/address/Address.go:126-130 (checksum): [copy] into a [4]byte of the
    first four digest bytes. *)
Definition addr_checksum (input : bytes) : bytes := firstn 4 (sha256d input).

(** script/address/Address.go:118-124 (Base58EncodeMissingChecksum). *)
Definition b58_encode_missing_checksum (input : bytes) : bytes :=
  b58_encode (input ++ addr_checksum input).

(** script/address/Address.go:72-90 (NewFromPublicKeyHash); the error result is
    always nil. *)
Definition addr_from_pkh (hash : bytes) (mainnet : bool) : address :=
  let bb := [if mainnet then x00 else x6f] in
  let bb := bb ++ hash in
  mk_addr (b58_encode_missing_checksum bb) (hex_encode hash).

(** script/address/Address.go:61-67 (NewFromPublicKeyString). *)
Definition addr_from_pubkey_str (pubKey : bytes) (mainnet : bool) : res address :=
  pk <- of_hex pubKey ;; Ok (addr_from_pkh (hash160 pk) mainnet).

(** script/address/Address.go:95-114 (NewFromPublicKey). Simplification: the
    bsvec key is represented by its compressed serialisation. *)
Definition addr_from_pubkey (compressed : bytes) (mainnet : bool) : address :=
  let hash := hash160 compressed in
  let bb := [if mainnet then x00 else x6f] in
  let bb := bb ++ hash in
  mk_addr (b58_encode_missing_checksum bb) (hex_encode hash).

(** script/address/AddressValidation.go:40-44: the inner loop
    [for j := 24; j >= 0; j--] of set58; [k] is [j+1], [c] the carry. *)
Fixpoint set58_inner (k : nat) (a : bytes) (c : N) : bytes * N :=
  match k with
  | O => (a, c)
  | S j =>
      let c := c + 58 * b2n (nth j a x00) in
      set58_inner j (set_nth j (n2b (c mod 256)) a) (c / 256)
  end.

(** script/address/AddressValidation.go:36-47: one iteration of the outer loop
    of set58 (character [s1]). *)
Definition set58_step (a : bytes) (s1 : byte) : res bytes :=
  match index_byte alphabet s1 with
  | None => Err EBadChar
  | Some c =>
      let (a, c) := set58_inner 25 a c in
      if 0 <? c then Err ETooLong else Ok a
  end.

(** script/address/AddressValidation.go:34-50 (set58). *)
Fixpoint set58 (a : bytes) (s : bytes) {struct s} : res bytes :=
  match s with
  | [] => Ok a
  | s1 :: r => a' <- set58_step a s1 ;; set58 a' r
  end.

(** script/address/AddressValidation.go:14-24 (embeddedChecksum, computeChecksum). *)
Definition embedded_checksum (a : bytes) : bytes := firstn 4 (skipn 21 a).
(** script/address/AddressValidation.go:21-24 (computeChecksum). *)
Definition compute_checksum (a : bytes) : bytes := firstn 4 (sha256d (firstn 21 a)).

(** script/address/AddressValidation.go:67-83 (validA58): [Ok tt] is
    [(true, nil)]; an error always comes with [false]. *)
Definition valid_a58 (a58 : bytes) : res unit :=
  a <- set58 (repeat x00 25) a58 ;;
  if negb (byte_eqb (nth 0 a x00) x00) && negb (byte_eqb (nth 0 a x00) x6f)
  then Err EVersion
  else if negb (equals (embedded_checksum a) (compute_checksum a))
  then Err EChecksum
  else Ok tt.
