(** The functions that return something beside an error, with both: [Ok (v, None)]
    is [(v, nil)], [Ok (v, Some e)] is [(v, e)]. All other functions return zero values
    (nil, "", 0, 0.0, false) beside an error. script.DecodeParts is in M_Push.v
    ([decode_parts_full]), script.NewP2PKHUnlockingScript in M_Signer.v. *)
From Verif Require Export M_Bip276 M_Coinbase M_Push M_Utils.

(** script/address/BIP276.go:55-81 (DecodeBIP276): the named results hold what was
    assigned so far; hex.DecodeString returns the bytes read before its error. *)
Definition decode_bip276_both (text : bytes) : res ((bytes * Z * Z * bytes) * option err) :=
  match bip276_regex text with
  | None => Panic
  | Some m =>
      let prefix := bm_prefix m in
      let version := atoi (bm_ver m) in
      let network := atoi (bm_net m) in
      match hex_decode (bm_data m) with
      | (data, Some e) => Ok ((prefix, version, network, data), Some (EHex e))
      | (data, None) =>
          let '(_, checksum) := create_bip276 prefix network version data in
          Ok ((prefix, version, network, data),
              if negb (equals (bm_sum m) checksum) then Some EBip276Checksum else None)
      end
  end.

(** block/GetCoinbaseParts.go:64-75 (GetCoinbaseParts): line 65 assigns coinbase1 before
    anything can fail; coinbase2 stays nil. *)
Definition get_coinbase_parts_both (height coinbaseValue : N) (witness coinbaseText wallet minerID : bytes)
  : res ((bytes * bytes) * option err) :=
  let coinbase1 := make_coinbase1 height coinbaseText in
  match make_coinbase_outputs coinbaseValue witness wallet minerID with
  | Ok ot => Ok ((coinbase1, make_coinbase2 ot), None)
  | Err e => Ok ((coinbase1, []), Some e)
  | Panic => Panic
  end.

(** script/OpPushdata.go:73-79 (DecodeStringParts): nil beside a hex error, what
    DecodeParts returns otherwise. *)
Definition decode_string_parts_both (s : bytes) : res (list bytes * option err) :=
  match hex_decode s with
  | (_, Some e) => Ok ([], Some (EHex e))
  | (b, None) => decode_parts_full b
  end.

(** utils/ByteManipulation.go:93-103 (Decode32Byte): an array of zeros beside an error. *)
Definition decode_32_byte_both (slack : nat) (hexStr : bytes) : res (bytes * option err) :=
  match hex_decode_slice slack hexStr with
  | (_, Some e) => Ok (repeat x00 32, Some (EHex e))
  | (b, None) => s <- or_panic (sl_sub b 0 32) ;; Ok (vis s, None)
  end.
