(** Specification of which error each parser reports, for the texts and byte
    strings it does not accept. *)
From Verif Require Export S_Tx S_Address.

(** ValidateAddress: the characters are read from the left into a 25-byte
    number; the first character that is no base58 digit, or the first one that
    makes the number too large, decides; otherwise the version byte is looked at
    before the checksum. *)
Inductive validate_fails : bytes -> err -> Prop :=
| vf_char p v c r : b58_num p v -> v < 256 ^ 25 -> ~ In c b58_chars -> validate_fails (p ++ c :: r) EBadChar
| vf_long p v r : b58_num p v -> 256 ^ 25 <= v -> validate_fails (p ++ r) ETooLong
| vf_version s w h k : b58_num s (be_get (w :: h ++ k)) -> length h = 20%nat -> length k = 4%nat ->
    ~ addr_version w -> validate_fails s EVersion
| vf_checksum s w h k : b58_num s (be_get (w :: h ++ k)) -> length h = 20%nat -> length k = 4%nat ->
    addr_version w -> k <> firstn 4 (sha256d (w :: h)) -> validate_fails s EChecksum.

(** NewFromString: not the base58 text of 25 bytes, or of 25 bytes with another
    version. *)
Inductive address_fails : bytes -> err -> Prop :=
| af_length s : (forall b, length b = 25%nat -> ~ b58_of s b) -> address_fails s (EAddrLength s)
| af_version s w h k : b58_of s (w :: h ++ k) -> length h = 20%nat -> length k = 4%nat -> ~ addr_version w ->
    address_fails s (EAddrUnsupported s).

(** Hexadecimal text: the first character that is no digit is reported; only if
    there is none, an odd number of digits is. *)
Inductive hex_fails : bytes -> hex_err -> Prop :=
| hf_char p c r : forallb is_hex p = true -> is_hex c = false -> hex_fails (p ++ c :: r) (HexInvalidByte c)
| hf_odd s : forallb is_hex s = true -> Nat.odd (length s) = true -> hex_fails s HexErrLength.

(** MerkleRootFromBranches: the first hash that is no hexadecimal text, the
    transaction hash before the branches; then the index. *)
Inductive proof_fails (s : bytes) (i : Z) (brs : list bytes) : err -> Prop :=
| pf_hex p t r e : s :: brs = p ++ t :: r -> Forall (fun u => hex_dec u <> None) p -> hex_fails t e ->
    proof_fails s i brs (EHex e)
| pf_index : Forall (fun u => hex_dec u <> None) (s :: brs) -> (2 ^ Z.of_nat (length brs) <= i)%Z ->
    proof_fails s i brs (EIndexRange (i / 2 ^ Z.of_nat (length brs)) (nlen brs)).

(** input.NewFromBytes: the announced total is computed in a 64-bit integer. *)
Inductive input_fails : bytes -> err -> Prop :=
| if_head b : (length b < 36)%nat -> input_fails b EInputShort36
| if_short h n l x : length h = 36%nat -> compact n l ->
    (let have := nlen (h ++ l ++ x) in let total := 36 + nlen l + n + 4 in
     (total < 2 ^ 63 /\ have < total) \/ (2 ^ 64 <= total /\ have < total - 2 ^ 64)) ->
    input_fails (h ++ l ++ x) EInputShort.

Inductive output_fails : bytes -> err -> Prop :=
| of_head b : (length b < 8)%nat -> output_fails b EOutputShort8
| of_short h n l x : length h = 8%nat -> compact n l ->
    (let have := nlen (h ++ l ++ x) in let total := 8 + nlen l + n in total < 2 ^ 63 /\ have < total) ->
    output_fails (h ++ l ++ x) EOutputShort.

(** transaction.NewFromBytes: too short; the first input or output that is not
    there; or anything but four bytes after the last output. *)
Inductive tx_fails : bytes -> err -> Prop :=
| tf_short b : (length b < 10)%nat -> tx_fails b ETxShort
| tf_input ver n nin wi r e : length ver = 4%nat -> compact n nin -> Forall some_input wi -> nlen wi < n ->
    (10 <= length (ver ++ nin ++ concat wi ++ r))%nat ->
    input_fails r e -> tx_fails (ver ++ nin ++ concat wi ++ r) e
| tf_output ver n nin wi m nout wo r e : length ver = 4%nat -> compact n nin -> Forall some_input wi ->
    nlen wi = n -> compact m nout -> Forall some_output wo -> nlen wo < m ->
    (10 <= length (ver ++ nin ++ concat wi ++ nout ++ concat wo ++ r))%nat ->
    output_fails r e -> tx_fails (ver ++ nin ++ concat wi ++ nout ++ concat wo ++ r) e
| tf_locktime ver n nin wi m nout wo r : length ver = 4%nat -> compact n nin -> Forall some_input wi ->
    nlen wi = n -> compact m nout -> Forall some_output wo -> nlen wo = m ->
    (10 <= length (ver ++ nin ++ concat wi ++ nout ++ concat wo ++ r))%nat ->
    length r <> 4%nat -> tx_fails (ver ++ nin ++ concat wi ++ nout ++ concat wo ++ r) ELockTime.
