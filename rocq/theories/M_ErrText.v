(** What [Error()] of the errors the library returns says: the texts of the error
    sites, with their arguments.

    Simplifications: the offset that encoding/base64 appends to its text is left open (M_Fault.v has it)
    ([says] allows any), and so is the whole text of errors that come from the key
    library, from a random source or from a caller's signer. *)
From Verif Require Export GoRt.
From Coq Require Import DecimalString DecimalN.

(** fmt's %d on an unsigned and on a signed integer (external), as at
    transaction/Transaction.go:296, script/OpPushdata.go:23 and
    block/GetMerkleBranches.go:89. *)
Definition dec (n : N) : bytes := str (NilEmpty.string_of_uint (N.to_uint n)).
(** block/GetMerkleBranches.go:89: the signed one *)
Definition decz (z : Z) : bytes := if (z <? 0)%Z then str "-" ++ dec (Z.to_N (- z)) else dec (Z.to_N z).

(** fmt's %#U on a byte (external): the code point in four upper-case hexadecimal
    digits and, if it is printable, the character in UTF-8 between quotes. Used by
    the text of encoding/hex (InvalidByteError), which script/Script.go:53,
    transaction/Transaction.go:58 and others return. *)
Definition upper_digit (n : N) : byte := n2b (if n <? 10 then 48 + n else 55 + n).
(** transaction/Transaction.go:58 (hex.InvalidByteError, external): the character in UTF-8 *)
Definition utf8 (c : byte) : bytes :=
  if b2n c <? 128 then [c] else [n2b (192 + b2n c / 64); n2b (128 + b2n c mod 64)].
(** transaction/Transaction.go:58 (hex.InvalidByteError, external): unicode.IsPrint below 256 *)
Definition printable (c : byte) : bool :=
  ((0x20 <=? b2n c) && (b2n c <=? 0x7e)) || ((0xa1 <=? b2n c) && negb (b2n c =? 0xad)).
(** transaction/Transaction.go:58 (hex.InvalidByteError, external): fmt's %#U *)
Definition code_point (c : byte) : bytes :=
  str "U+00" ++ [upper_digit (b2n c / 16); upper_digit (b2n c mod 16)] ++
  if printable c then str " '" ++ utf8 c ++ str "'" else [].

(** The text, as a relation: where nothing is left open it is one text.
    crypto/Encryption.go:28,36; block/GetMerkleBranches.go:89; block/Difficulty.go:114;
    transaction/Transaction.go:68,108,296; transaction/SignatureHash.go:21,24;
    transaction/input/Input.go:48,64; transaction/output/Output.go:33,47;
    script/OpPushdata.go:23,64,91-129; script/Script.go:43,290,294;
    script/RedeemScript.go:25-123; script/address/Address.go:38,54;
    script/address/AddressValidation.go:38-79; script/address/BIP276.go:76. *)
Fixpoint says (e : err) (t : bytes) : Prop :=
  match e with
  | EHex (HexInvalidByte c) => t = str "encoding/hex: invalid byte: " ++ code_point c
  | EHex HexErrLength => t = str "encoding/hex: odd length hex string"
  | ETooBig => t = str "data too big"
  | EPartTooBig i => t = str "part " ++ dec i ++ str " is too big"
  | ENotEnough => t = str "Not enough data"
  | EInvalidOpcodeData => t = str "invalid opcode data"
  | EScriptEmpty => t = str "Script is empty"
  | ENotP2PKH => t = str "Not a P2PKH"
  | EInputShort36 => t = str "input length too short < 36"
  | EInputShort => t = str "input length too short < 36 + script + 4"
  | EOutputShort8 => t = str "output length too short < 8"
  | EOutputShort => t = str "output length too short < 8 + script"
  | ETxShort => t = str "too short to be a tx - even an empty tx has 10 bytes"
  | ELockTime => t = str "nLockTime length must be 4 bytes long"
  | ENoInput i => t = str "no input at index " ++ dec i
  | ENoPrevTxID => t = str "'PreviousTxID' not supplied"
  | ENoPrevTxScript => t = str "'PreviousTxScript' not supplied"
  | EAddrLength a => t = str "invalid address length for '" ++ a ++ str "'"
  | EAddrUnsupported a => t = str "Address " ++ a ++ str " is not supported"
  | EBadChar => t = str "bad char"
  | ETooLong => t = str "too long"
  | EVersion => t = str "not version 0 or 6f"
  | EChecksum => t = str "checksum failed"
  | EBip276Checksum => t = str "Invalid checksum"
  | EBip276Invalid e' => exists t', says e' t' /\ t = str "bitcoin-script invalid [" ++ t' ++ str "]"
  | EIndexRange i n => t = str "index " ++ decz i ++ str " out of range for proof of length " ++ dec n
  | ESigsMin => t = str "Must have 2 or more required signatures for multisig"
  | ESigsMax => t = str "More than 16 signatures is not supported"
  | ESigsMax15 => t = str "More than 15 signatures is not supported"
  | EFiveParts => t = str "There should be 5 parts in this redeemScript"
  | ECheckMultisig => t = str "Script must end with OP_CHECKMULTISIG"
  | EElectrumFF => t = str "All Electrum pubkeys should start with 0xff"
  | EPath2Items => t = str "Derivation path should have exactly 2 items"
  | EPath2 => t = str "We only support derivation paths with exactly 2 levels"
  | EKeyCount => t = str "Number of public keys must equal the required"
  | ECipherShort => t = str "ciphertext too short"
  | EBase64 => exists k, t = str "illegal base64 data at input byte " ++ dec k
  | EParseFloat z => t = str "strconv.ParseFloat: parsing " ++ [x22] ++ decz z ++ [x22] ++ str ": value out of range"
  | EExternal _ => True
  end.
