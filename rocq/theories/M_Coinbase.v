(** Model of block/GetCoinbaseParts.go. *)
From Verif Require Export M_Tx.

(** block/GetCoinbaseParts.go:50-60 (BuildCoinbase); hex errors are dropped. *)
Definition build_coinbase (c1 c2 extraNonce1 extraNonce2 : bytes) : bytes :=
  let e1 := hex_ignore extraNonce1 in
  let e2 := hex_ignore extraNonce2 in
  let a := [] in
  let a := a ++ c1 in
  let a := a ++ e1 in
  let a := a ++ e2 in
  a ++ c2.

(** block/GetCoinbaseParts.go:77-84 (makeCoinbaseInputTransaction; not used). *)
Definition make_coinbase_input (coinbaseData : bytes) : bytes :=
  let buf := repeat x00 32 in
  let buf := buf ++ [xff; xff; xff; xff] in
  let buf := buf ++ varint (nlen coinbaseData) in
  let buf := buf ++ coinbaseData in
  buf ++ [xff; xff; xff; xff].

(** block/GetCoinbaseParts.go:86-125 (makeCoinbaseOutputTransactions). *)
Definition make_coinbase_outputs (coinbaseValue : N) (witness wallet minerID : bytes) : res bytes :=
  o <- output_p2pkh_from_address wallet coinbaseValue ;;
  let buf := le_put 8 coinbaseValue in
  s <- deref (locking o) ;;
  let buf := buf ++ varint (nlen s) in
  let buf := buf ++ s in
  let n := 1 in
  (* lines 100-112 *)
  '(buf, n) <- (if negb (equals witness []) then
                  let buf := buf ++ repeat x00 8 in
                  wc <- of_hex witness ;;
                  let buf := buf ++ varint (nlen wc) in
                  Ok (buf ++ wc, n + 1)
                else Ok (buf, n)) ;;
  (* lines 114-121 *)
  let '(buf, n) := (if 0 <? nlen minerID then
                      let buf := buf ++ repeat x00 8 in
                      let buf := buf ++ varint (nlen minerID) in
                      (buf ++ minerID, n + 1)
                    else (buf, n)) in
  Ok (varint n ++ buf).

(** block/GetCoinbaseParts.go:127-154 (makeCoinbase1). *)
Definition make_coinbase1 (height : N) (coinbaseText : bytes) : bytes :=
  let spaceForExtraNonce := 12%nat in
  let blockHeightBytes := le_put 4 height in
  let data := [] ++ [x03] in
  let data := data ++ firstn 3 blockHeightBytes in
  let data := data ++ coinbaseText in
  let data := if Nat.ltb (100 - spaceForExtraNonce) (length data)
              then firstn (100 - spaceForExtraNonce) data else data in
  let buf := le_put 4 1 in
  let buf := buf ++ [x01] in
  let buf := buf ++ repeat x00 32 in
  let buf := buf ++ [xff; xff; xff; xff] in
  let buf := buf ++ varint (nlen data + N.of_nat spaceForExtraNonce) in
  buf ++ data.

(** block/GetCoinbaseParts.go:156-164 (makeCoinbase2). *)
Definition make_coinbase2 (ot : bytes) : bytes :=
  let sq := [xff; xff; xff; xff] in
  let lt := repeat x00 4 in
  (sq ++ ot) ++ lt.

(** block/GetCoinbaseParts.go:64-75 (GetCoinbaseParts). *)
Definition get_coinbase_parts (height coinbaseValue : N) (witness coinbaseText wallet minerID : bytes)
  : res (bytes * bytes) :=
  let coinbase1 := make_coinbase1 height coinbaseText in
  ot <- make_coinbase_outputs coinbaseValue witness wallet minerID ;;
  Ok (coinbase1, make_coinbase2 ot).

(** block/GetCoinbaseParts.go:166-180 (chunk; not used): panics when [limit] is 0
    (division). Only for [limit > 0]; the trailing chunk may be empty. *)
Fixpoint chunk_loop (n i : nat) (msg : bytes) (limit : nat) {struct n} : list bytes :=
  match n with
  | O => []
  | S n' =>
      let s := (i * limit)%nat in
      let e := ((i + 1) * limit)%nat in
      let e := if Nat.ltb (length msg) e then length msg else e in
      firstn (e - s) (skipn s msg) :: chunk_loop n' (S i) msg limit
  end.
(** block/GetCoinbaseParts.go:166-180 (chunk). *)
Definition chunk (msg : bytes) (limit : nat) : res (list bytes) :=
  if Nat.eqb limit 0 then Panic
  else Ok (chunk_loop (length msg / limit + 1)%nat 0 msg limit).
