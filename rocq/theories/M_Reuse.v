(** transaction/Transaction.go:56-63 (NewFromString) on the memory of M_Mem.v: the bytes parsed
    lie in an array that [hex.DecodeString] has made. *)
From Verif Require Export M_Mem.

(** transaction/Transaction.go:56-63 (NewFromString): the array of [hex.DecodeString] (line 57) holds the
    decoded bytes and, behind them, what it left there ([hex_decode_slice], M_Utils.v); then
    NewFromBytes (line 62). *)
Definition h_tx_from_string (slack : nat) (h : heap) (s : bytes) : heap * res mtx :=
  match hex_decode_slice slack s with
  | (_, Some e) => (h, Err (EHex e))
  | (b, None) =>
      let h1 := h ++ [vis b ++ spare b] in
      (h1, h_tx h1 (mk_sl (length h) 0 (length (vis b)) (length (vis b) + length (spare b))))
  end.
