(** Model of the external package github.com/bitcoinsv/bsvutil/base58 (a fork of
    btcutil/base58), written from its published algorithm because its source is
    not in /repo. Used by script/address/Address.go:8,35,123 and
    script/RedeemScript.go:11,156. *)
From Verif Require Export M_Crypto M_Utils.

(** The alphabet (the same text as [tmpl] in
    script/address/AddressValidation.go:28). *)
Definition alphabet : bytes :=
  str "123456789ABCDEFGHJKLMNPQRSTUVWXYZabcdefghijkmnopqrstuvwxyz".

(** base58 (external; used at script/address/Address.go:35,123 and script/RedeemScript.go:156): the first character. *)
Definition idx_zero : byte := x31. (* alphabetIdx0 = '1' *)

(** [bytes.IndexByte]: the first index, or none (Go: -1). *)
(** bytes.IndexByte (external), as at script/address/AddressValidation.go:36. *)
Fixpoint index_byte (l : bytes) (c : byte) : option N :=
  match l with
  | [] => None
  | x :: r => if byte_eqb x c then Some 0
              else match index_byte r c with Some i => Some (i + 1) | None => None end
  end.

(** Digits of [n] in base [base], most significant first, none for 0: the loop
    [for x > 0 { x, mod = x/58, x%58 }] of Encode and [big.Int.Bytes] (base 256).
    Fuel: the bit size of [n]. *)
(** base58 (external; used at script/address/Address.go:35,123 and script/RedeemScript.go:156): the division loop. *)
Fixpoint digits_loop (fuel : nat) (base n : N) (acc : list N) : list N :=
  match fuel with
  | O => acc
  | S f => if n =? 0 then acc else digits_loop f base (n / base) (n mod base :: acc)
  end.

(** base58 (external; used at script/address/Address.go:35,123 and script/RedeemScript.go:156): the digits of a number. *)
Definition digits (base n : N) : list N := digits_loop (N.size_nat n) base n [].

(** number of leading elements equal to [c] *)
(** base58 (external; used at script/address/Address.go:35,123 and script/RedeemScript.go:156): leading zeros. *)
Fixpoint lead (c : byte) (l : bytes) : nat :=
  match l with
  | x :: r => if byte_eqb x c then S (lead c r) else O
  | [] => O
  end.

(** base58.Encode: the base-58 digits of the big-endian value, then one '1' per
    leading zero byte, reversed. *)
(** base58 (external; used at script/address/Address.go:35,123 and script/RedeemScript.go:156): Encode. *)
Definition b58_encode (b : bytes) : bytes :=
  repeat idx_zero (lead x00 b)
  ++ map (fun d => nth (N.to_nat d) alphabet x00) (digits 58 (be_get b)).

(** base58 value of a string; [None] if some character is not in the alphabet. *)
(** base58 (external; used at script/address/Address.go:35,123 and script/RedeemScript.go:156): the loop of Decode. *)
Fixpoint b58_val (acc : N) (s : bytes) : option N :=
  match s with
  | [] => Some acc
  | c :: r => match index_byte alphabet c with
              | Some d => b58_val (58 * acc + d) r
              | None => None
              end
  end.

(** base58.Decode: empty result for an invalid character; otherwise the minimal
    big-endian bytes of the value prefixed by one zero byte per leading '1'. *)
(** base58 (external; used at script/address/Address.go:35,123 and script/RedeemScript.go:156): Decode. *)
Definition b58_decode (s : bytes) : bytes :=
  match b58_val 0 s with
  | None => []
  | Some v => repeat x00 (lead idx_zero s) ++ map n2b (digits 256 v)
  end.

(** script/RedeemScript.go:156: base58.CheckEncode (external): Encode(version ++ input ++ sha256d(version++input)[:4]). *)
Definition b58_check_encode (input : bytes) (version : byte) : bytes :=
  let b := version :: input in
  b58_encode (b ++ firstn 4 (sha256d b)).
