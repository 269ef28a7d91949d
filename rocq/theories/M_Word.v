(** The functions of the library whose outcome depends on the size of Go's [int],
    with that size (64 or 32 bits, by platform) as a parameter [W]. With [W = 64]
    they are the functions of M_Tx.v, M_Push.v, M_Script.v, M_Redeem.v and
    M_Signer.v (theorem C93_same_code). All other functions use [int] only for
    lengths and indices of slices that exist, for two decimal digits
    (script/address/BIP276.go:62,66), for bytes (script/RedeemScript.go:50,59) or
    for values the caller gives ([MerkleRootFromBranches], [EncodeBIP276],
    [NewRedeemScript], [ToBytesWithClearedInputs]): no arithmetic of theirs leaves
    32 bits. *)
From Verif Require Export M_Tx M_Redeem M_Signer.

(** two's-complement wrap-around of arithmetic on a [W]-bit [int], and the
    conversion of an unsigned value to it *)
Definition wrap_at (W z : Z) : Z := ((z + 2 ^ (W - 1)) mod 2 ^ W - 2 ^ (W - 1))%Z.
(** transaction/input/Input.go:61,67,69, transaction/output/Output.go:44 (int(l)). *)
Definition int_at (W : Z) (n : N) : Z := wrap_at W (Z.of_N n).

(** transaction/input/Input.go:46-72 (NewFromBytes). *)
Definition input_from_at (W : Z) (b : slice) : res (input * Z) :=
  if (slen b <? 36)%Z then Err EInputShort36 else
  h <- or_panic (sl_sub b 0 32) ;;
  let txid := hex_encode (reverse_bytes (vis h)) in
  ix <- or_panic (sl_sub b 32 36) ;;
  index <- or_panic (sl_le 4 ix) ;;
  rest <- or_panic (sl_from b 36) ;;
  '(l, size) <- decode_varint rest ;;
  let offset := (36 + size)%Z in
  let totalLength := wrap_at W (wrap_at W (offset + int_at W l) + 4) in
  if (slen b <? totalLength)%Z then Err EInputShort else
  s <- or_panic (sl_sub b offset (wrap_at W (offset + int_at W l))) ;;
  sq <- or_panic (sl_from b (wrap_at W (offset + int_at W l))) ;;
  seq <- or_panic (sl_le 4 sq) ;;
  Ok (mk_in txid index 0 None (Some (vis s)) seq, totalLength).

(** transaction/output/Output.go:31-54 (NewFromBytes). *)
Definition output_from_at (W : Z) (b : slice) : res (output * Z) :=
  if (slen b <? 8)%Z then Err EOutputShort8 else
  v <- or_panic (sl_sub b 0 8) ;;
  sats <- or_panic (sl_le 8 v) ;;
  rest <- or_panic (sl_from b 8) ;;
  '(l, size) <- decode_varint rest ;;
  let offset := (8 + size)%Z in
  let totalLength := wrap_at W (offset + int_at W l) in
  if (slen b <? totalLength)%Z then Err EOutputShort else
  s <- or_panic (sl_sub b offset totalLength) ;;
  Ok (mk_out sats (Some (vis s)), totalLength).

(** transaction/Transaction.go:83-91. *)
Definition tx_input_step_at (W : Z) (b : slice) (st : Z * list input) : res (Z * list input) :=
  let '(offset, ins) := st in
  rest <- or_panic (sl_from b offset) ;;
  '(i, size) <- input_from_at W rest ;;
  Ok (wrap_at W (offset + size), ins ++ [i]).

(** transaction/Transaction.go:96-103. *)
Definition tx_output_step_at (W : Z) (b : slice) (st : Z * list output) : res (Z * list output) :=
  let '(offset, outs) := st in
  rest <- or_panic (sl_from b offset) ;;
  '(o, size) <- output_from_at W rest ;;
  Ok (wrap_at W (offset + size), outs ++ [o]).

(** transaction/Transaction.go:66-115 (NewFromBytes): the counts are uint64 on
    every platform. *)
Definition tx_from_at (W : Z) (b : slice) : res tx :=
  if (slen b <? 10)%Z then Err ETxShort else
  vs <- or_panic (sl_sub b 0 4) ;;
  ver <- or_panic (sl_le 4 vs) ;;
  let offset := 4%Z in
  rest <- or_panic (sl_from b offset) ;;
  '(inputCount, size) <- decode_varint rest ;;
  let offset := wrap_at W (offset + size) in
  '(offset, ins) <- n_loop (tx_input_step_at W b) inputCount (offset, []) ;;
  rest <- or_panic (sl_from b offset) ;;
  '(outputCount, size) <- decode_varint rest ;;
  let offset := wrap_at W (offset + size) in
  '(offset, outs) <- n_loop (tx_output_step_at W b) outputCount (offset, []) ;;
  nLT <- or_panic (sl_from b offset) ;;
  if negb (slen nLT =? 4)%Z then Err ELockTime else
  ls <- or_panic (sl_from b offset) ;;
  lt <- or_panic (sl_le 4 ls) ;;
  Ok (mk_tx ver (map Some ins) (map Some outs) lt).

(** transaction/Transaction.go:56-63 (NewFromString). *)
Definition tx_from_string_at (W : Z) (slack : nat) (s : bytes) : res tx :=
  match hex_decode_slice slack s with
  | (_, Some e) => Err (EHex e)
  | (b, None) => tx_from_at W b
  end.

(** script/OpPushdata.go:86-139: one iteration of the loop of DecodeParts. The
    uint16 and uint32 additions [3+l], [5+l] wrap at their own size; the
    comparisons of lines 94, 106, 118 and 128 convert to [int]; the slice
    expressions index with the unsigned values. *)
Definition decode_part_at (W : Z) (c : byte) (b : bytes) : res (bytes * bytes) :=
  match c with
  | x4c =>
      if nlen b <? 2 then Err ENotEnough else
      let l := b2n (nth 1 b x00) in
      if (Z.of_N (nlen b) <? int_at W (2 + l))%Z then Err ENotEnough else
      part <- bsub b 2 (2 + l) ;; r <- bfrom b (2 + l) ;; Ok (part, r)
  | x4d =>
      if nlen b <? 3 then Err ENotEnough else
      let l := le_get (firstn 2 (skipn 1 b)) in
      let e := wrap16 (3 + l) in
      if (Z.of_N (nlen b) <? int_at W e)%Z then Err ENotEnough else
      part <- bsub b 3 e ;; r <- bfrom b e ;; Ok (part, r)
  | x4e =>
      if nlen b <? 5 then Err ENotEnough else
      let l := le_get (firstn 4 (skipn 1 b)) in
      let e := wrap32 (5 + l) in
      if (Z.of_N (nlen b) <? int_at W e)%Z then Err ENotEnough else
      part <- bsub b 5 e ;; r <- bfrom b e ;; Ok (part, r)
  | _ =>
      if (0x01 <=? b2n c) && (b2n c <=? 0x4e) then
        let l := b2n c in
        if (Z.of_N (nlen b) <? int_at W (1 + l))%Z then Err ENotEnough else
        part <- bsub b 1 (l + 1) ;; r <- bfrom b (1 + l) ;; Ok (part, r)
      else
        r <- bfrom b 1 ;; Ok ([c], r)
  end.

(** script/OpPushdata.go:84-142 (DecodeParts). Fuel: [length b]. *)
Fixpoint decode_loop_at (W : Z) (fuel : nat) (r : list bytes) (b : bytes) : res (list bytes * option err) :=
  match b with
  | [] => Ok (r, None)
  | c :: _ =>
      match fuel with
      | O => Panic (* never reached *)
      | S fuel' =>
          match decode_part_at W c b with
          | Ok (part, b') => decode_loop_at W fuel' (r ++ [part]) b'
          | Err e => Ok (r, Some e)
          | Panic => Panic
          end
      end
  end.

(** script/OpPushdata.go:84-142 (DecodeParts), for callers that drop the parts on
    error. *)
Definition decode_parts_at (W : Z) (b : bytes) : res (list bytes) :=
  '(r, e) <- decode_loop_at W (length b) [] b ;;
  match e with None => Ok r | Some x => Err x end.

(** script/OpPushdata.go:73-79 (DecodeStringParts). *)
Definition decode_string_parts_at (W : Z) (s : bytes) : res (list bytes) :=
  b <- of_hex s ;; decode_parts_at W b.

(** script/Script.go:187-203 (ToASM). *)
Definition script_to_asm_at (W : Z) (s : bytes) : res bytes :=
  parts <- decode_parts_at W s ;;
  Ok (trim_space (fold_left (fun acc p => (acc ++ str " ") ++ asm_word p) parts [])).

(** script/Script.go:217-237 (IsP2PK). *)
Definition is_p2pk_at (W : Z) (s : bytes) : res bool :=
  match decode_parts_at W s with
  | Panic => Panic
  | Err _ => Ok false
  | Ok parts =>
      match parts with
      | [p0; p1] =>
          if Nat.ltb 0 (length p0) then
            c1 <- first_byte p1 ;;
            if byte_eqb c1 OpCHECKSIG then
              version <- first_byte p0 ;;
              if (byte_eqb version x04 || byte_eqb version x06 || byte_eqb version x07)
                 && Nat.eqb (length p0) 65 then Ok true
              else if (byte_eqb version x03 || byte_eqb version x02)
                      && Nat.eqb (length p0) 33 then Ok true
              else Ok false
            else Ok false
          else Ok false
      | _ => Ok false
      end
  end.

(** script/Script.go:259-281 (IsMultisigOut). *)
Definition is_multisig_out_at (W : Z) (s : bytes) : res bool :=
  match decode_parts_at W s with
  | Panic => Panic
  | Err _ => Ok false
  | Ok parts =>
      let n := length parts in
      if Nat.ltb n 3 then Ok false else
      c0 <- first_byte (nth 0 parts []) ;;
      if negb (is_small_int_op c0) then Ok false else
      if existsb (fun p => Nat.ltb (length p) 1) (firstn (n - 3) (skipn 1 parts)) then Ok false else
      cn <- first_byte (nth (n - 2) parts []) ;;
      if is_small_int_op cn then
        cl <- first_byte (nth (n - 1) parts []) ;; Ok (byte_eqb cl OpCHECKMULTISIG)
      else Ok false
  end.

(** script/Script.go:288-303 (GetPublicKeyHash). *)
Definition get_public_key_hash_at (W : Z) (s : option bytes) : res bytes :=
  match s with
  | None => Err EScriptEmpty
  | Some [] => Err EScriptEmpty
  | Some (b0 :: r) =>
      if negb (byte_eqb b0 x76) then Err ENotP2PKH else
      b1 <- or_panic (nth_error r 0) ;;
      if negb (byte_eqb b1 xa9) then Err ENotP2PKH else
      parts <- decode_parts_at W (skipn 1 r) ;;
      or_panic (nth_error parts 0)
  end.

(** script/RedeemScript.go:40-117 (NewRedeemScriptFromElectrum). *)
Definition redeem_from_electrum_at (W : Z) (H : hdlib) (script : bytes) : res redeem :=
  parts <- decode_string_parts_at W script ;;
  let n := length parts in
  if Nat.eqb n 0 then Err EFiveParts else
  c0 <- first_byte (nth 0 parts []) ;;
  let signaturesRequired := (b2n c0 + 256 - b2n OpBASE) mod 256 in
  if signaturesRequired <? 2 then Err ESigsMin else
  if 15 <? signaturesRequired then Err ESigsMax15 else
  if Nat.ltb n 2 then Panic else
  cn <- first_byte (nth (n - 2) parts []) ;;
  let signatureCount := (b2n cn + 256 - b2n OpBASE) mod 256 in
  cl <- first_byte (nth (n - 1) parts []) ;;
  if negb (byte_eqb cl OpCHECKMULTISIG) then Err ECheckMultisig else
  if Nat.ltb n 3 then Panic else
  keys <- mapM (electrum_key H) (firstn (n - 3) (skipn 1 parts)) ;;
  if negb (nlen keys =? signatureCount) then Err EKeyCount
  else Ok (mk_rs (Z.of_N signaturesRequired) keys).

(** transaction/signature/InternalSigner.go:57-68. *)
Definition sign_auto_step_at (W : Z) (s : signer) (i : N) (t : tx) : res tx :=
  oin <- or_panic (nth_error (inputs t) (N.to_nat i)) ;;
  inp <- deref oin ;;
  pkh <- match get_public_key_hash_at W (prev_script inp) with
         | Ok h => Ok h | Err _ => Ok [] | Panic => Panic
         end ;;
  let pubKeyHashStr := hex_encode pkh in
  let fromPriv := hex_encode (hash160 (key_pub (sg_key s))) in
  if equals pubKeyHashStr fromPriv then
    match internal_sign s (wrap32 i) t with
    | Ok t' => Ok t'
    | Err _ => Ok t
    | Panic => Panic
    end
  else Ok t.

(** transaction/signature/InternalSigner.go:52-71 (SignAuto). *)
Fixpoint sign_auto_loop_at (W : Z) (s : signer) (i : N) (n : nat) (t : tx) {struct n} : res tx :=
  match n with
  | O => Ok t
  | S n' => t' <- sign_auto_step_at W s i t ;; sign_auto_loop_at W s (i + 1) n' t'
  end.

(** transaction/Transaction.go:279-286 (SignAuto),
    transaction/signature/InternalSigner.go:52-71 (SignAuto). *)
Definition tx_sign_auto_at (W : Z) (t : tx) (s : signer) : res (tx * signer * option err) :=
  match sign_auto_loop_at W (default_flag s) 0 (length (inputs t)) t with
  | Ok t' => Ok (t', default_flag s, None)
  | Err e => Ok (t, default_flag s, Some e)
  | Panic => Panic
  end.
