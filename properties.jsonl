{"id": "C01", "title": "VarInt round trip", "statement": "For every uint64 n and whatever bytes follow, DecodeVarInt(VarInt(n) ++ rest) returns n and exactly len(VarInt(n)).", "quantifier": "every n in [0, 2^64), every suffix, every spare capacity behind the slice", "why_tests_cant": "2^64 values and arbitrary suffixes; a boundary slip affects one value in 2^64.", "anchors": ["utils/VarInt.go:VarInt", "utils/VarInt.go:DecodeVarInt"]}
{"id": "C02", "title": "VarInt is the shortest encoding", "statement": "VarInt(n) has length 1, 3, 5 or 9 and no byte slice that DecodeVarInt consumes entirely to yield n is shorter; every shorter-class boundary (0xfc/0xfd, 0xffff/0x10000, 0xffffffff/0x100000000) is exact. DecodeVarInt itself also accepts longer forms.", "quantifier": "every uint64 n and every byte slice that decodes to n", "why_tests_cant": "Minimality compares against all other byte strings.", "anchors": ["utils/VarInt.go:VarInt", "utils/VarInt.go:DecodeVarInt"]}
{"id": "C03", "title": "DecodeVarInt on truncated input", "statement": "DecodeVarInt panics on an empty slice, and on a slice shorter than the size its first byte announces it panics unless the slice's spare capacity covers the missing bytes (then it silently reads bytes beyond len); on any slice of sufficient length it returns the little-endian value of exactly the announced bytes and never depends on later bytes.", "quantifier": "every byte slice with every capacity", "why_tests_cant": "Depends on capacity, which tests with literals do not vary.", "anchors": ["utils/VarInt.go:DecodeVarInt"]}
{"id": "C04", "title": "Byte and hex-string reversal", "statement": "ReverseBytes returns the reversed sequence in a fresh slice and is an involution; ReverseHexString of an even-length hex string denotes the reversed bytes and is an involution there; an odd-length string is treated as if left-padded with '0'.", "quantifier": "every byte slice and every string", "why_tests_cant": "All lengths and contents.", "anchors": ["utils/ByteManipulation.go:ReverseBytes", "utils/ByteManipulation.go:ReverseHexString"]}
{"id": "C05", "title": "SortByteArrays sorts", "statement": "SortByteArrays returns the lexicographically sorted rearrangement of its argument (same multiset), the result does not depend on the argument's order, and the argument itself is left in that order.", "quantifier": "every list of byte slices, every initial order", "why_tests_cant": "All permutations of all lists.", "anchors": ["utils/ByteManipulation.go:SortByteArrays"]}
{"id": "C06", "title": "Small byte helpers", "statement": "Equals(a,b) is true exactly when a and b are the same sequence; GetLittleEndianBytes(v,l) is the l-byte little-endian form of v for every l >= 4 (zero padded) and panics for l < 4.", "quantifier": "every pair of slices; every uint32 v and every l", "why_tests_cant": "All lengths and contents.", "anchors": ["utils/ByteManipulation.go:Equals", "utils/ByteManipulation.go:GetLittleEndianBytes"]}
{"id": "C07", "title": "Decode32Byte only accepts 32 bytes", "statement": "A user expects Decode32Byte to return exactly the 32 bytes the hex string denotes. It does so exactly for strings of 64 hex digits; a longer valid string is silently truncated; a shorter one is NOT rejected: from 16 bytes (32 hex digits) upward it returns success with leftover ASCII characters of the argument in the tail.", "quantifier": "every hex string, every allocator rounding", "why_tests_cant": "The failure depends on the capacity of a buffer returned by hex.DecodeString; no test calls it.", "anchors": ["utils/ByteManipulation.go:Decode32Byte"]}
{"id": "C08", "title": "Push-data round trip", "statement": "DecodeParts(EncodeParts(parts)) = parts whenever every part has a length in 1..65532 or 65536..2^32-6. Outside this domain it does not: an empty part comes back as the one-byte part 00, and a part of length 65533..65535 or 2^32-5..2^32-1 makes DecodeParts panic. EncodeParts fails exactly when some part has 2^32 bytes or more, and its error names the first such part.", "quantifier": "every list of byte slices", "why_tests_cant": "Unbounded lists; the failing lengths are 65533..65535, never tested.", "anchors": ["script/OpPushdata.go:EncodeParts", "script/OpPushdata.go:DecodeParts"]}
{"id": "C09", "title": "Push-data prefix is canonical", "statement": "GetPushDataPrefix(d) succeeds iff len(d) < 2^32; the prefix it yields is a direct push for len<=75 and PUSHDATA1/2/4 with a little-endian length otherwise, always the shortest push opcode that can announce that length.", "quantifier": "every byte slice", "why_tests_cant": "All lengths up to 2^32.", "anchors": ["script/OpPushdata.go:GetPushDataPrefix", "script/OpPushdata.go:EncodeParts"]}
{"id": "C10", "title": "DecodeParts: totality", "statement": "DecodeParts terminates on every slice and returns either success or 'Not enough data', with one exception: it panics iff, after a well-formed prefix, it meets OP_PUSHDATA2 announcing >= 65533 bytes or OP_PUSHDATA4 announcing >= 2^32-5 bytes (with length bytes present and enough data after the wrapped-around check).", "quantifier": "every byte slice", "why_tests_cant": "Adversarial scripts of any length; the wrap-around is at 3 values of 65536.", "anchors": ["script/OpPushdata.go:DecodeParts"]}
{"id": "C11", "title": "DecodeParts: losslessness", "statement": "If DecodeParts(b) succeeds with parts p1..pn then b is exactly the concatenation of n script elements, the i-th being either the single opcode byte pi or a push (direct, PUSHDATA1, PUSHDATA2 or PUSHDATA4) of pi; if it fails, the parts returned beside the error are the elements of the longest decodable prefix.", "quantifier": "every byte slice", "why_tests_cant": "All scripts.", "anchors": ["script/OpPushdata.go:DecodeParts"]}
{"id": "C12", "title": "Script builder histories", "statement": "After any sequence of AppendPushData / AppendPushDataHexString / AppendPushDataString / AppendPushDataArray / AppendPushDataStrings / AppendOpCode calls on an empty script, DecodeParts of the script yields exactly the pushed items and opcodes in call order (items in the round-trip length domain, opcodes 0x00 or >= 0x4f); a failing call leaves the script unchanged. The calls fail exactly for data of 2^32 bytes or more (the error names the first such part) and, for AppendPushDataHexString, for text that is not hexadecimal (the error is the decoder's).", "quantifier": "every sequence of calls of any length", "why_tests_cant": "Histories are unbounded.", "anchors": ["script/Script.go:AppendPushData", "script/Script.go:AppendPushDataHexString", "script/Script.go:AppendPushDataArray", "script/Script.go:AppendPushDataStrings", "script/Script.go:AppendOpCode"]}
{"id": "C13", "title": "P2PKH scripts", "statement": "IsP2PKH(s) holds iff s is 76 a9 14 <20 bytes> 88 ac. Every P2PKH constructor given a 20-byte hash (or any public key, or an address NewFromString accepts) yields such a script for that hash, and GetPublicKeyHash returns that hash.", "quantifier": "every script, public key, hash and address", "why_tests_cant": "All byte contents.", "anchors": ["script/Script.go:IsP2PKH", "script/Script.go:NewP2PKHFromPubKeyBytes", "script/Script.go:NewP2PKHFromPubKeyHashStr", "script/Script.go:NewP2PKHFromAddress", "script/Script.go:GetPublicKeyHash"]}
{"id": "C14", "title": "GetPublicKeyHash only answers for P2PKH", "statement": "A user expects GetPublicKeyHash to return a hash only for P2PKH scripts and an error otherwise. Exact behaviour: error on nil/empty; panic on the 1-byte script 76, on 76a9 alone; for any script starting 76 a9 it returns the first decoded element whatever follows.", "quantifier": "every script", "why_tests_cant": "Adversarial scripts.", "anchors": ["script/Script.go:GetPublicKeyHash"]}
{"id": "C15", "title": "Script template predicates", "statement": "IsP2SH(s) iff s = a9 14 <20 bytes> 87; IsP2PK(s) iff s pushes one well-formed public key (33 bytes 02/03, 65 bytes 04/06/07) followed by an element starting with ac; IsData(s) iff s starts 6a or 00 6a (panics on the empty script and on the single byte 00); IsMultisigOut as documented; the P2PKH, P2SH, P2PK, data and multisig classes are pairwise disjoint except data and multisig (00 6a 51 ae is reported as both).", "quantifier": "every script", "why_tests_cant": "All scripts; disjointness quantifies over all byte strings.", "anchors": ["script/Script.go:IsP2SH", "script/Script.go:IsP2PK", "script/Script.go:IsData", "script/Script.go:IsMultisigOut"]}
{"id": "C16", "title": "Template predicates never crash", "statement": "A user classifying an untrusted locking script expects a boolean. IsP2PKH and IsP2SH never panic; IsP2PK, IsMultisigOut and IsData do panic on some scripts (an empty PUSHDATA1 element; empty script), and the exact panic conditions are known.", "quantifier": "every script", "why_tests_cant": "Adversarial scripts.", "anchors": ["script/Script.go:IsP2PK", "script/Script.go:IsMultisigOut", "script/Script.go:IsData"]}
{"id": "C17", "title": "ASM round trip", "statement": "NewFromASM(ToASM(s)) = s for every non-empty script made of canonical pushes of at least 2 bytes and of opcodes (0x00 or >= 0x4f). It fails for the empty script (becomes 00) and for one-byte pushes (printed as an opcode name).", "quantifier": "every script", "why_tests_cant": "All scripts of any length; opcode table of 256 names.", "anchors": ["script/Script.go:NewFromASM", "script/Script.go:ToASM", "script/Opcodes.go:opCodeStrings", "script/Opcodes.go:opCodeValues"]}
{"id": "C18", "title": "P2PKH unlocking script", "statement": "NewP2PKHUnlockingScript(pub,sig,flag) decodes into exactly two elements: sig followed by the flag byte, and pub. It fails exactly when one of the two has 2^32 bytes or more, and the error says which.", "quantifier": "every public key, signature (in the push domain) and flag", "why_tests_cant": "All contents and lengths.", "anchors": ["script/UnlockingScript.go:NewP2PKHUnlockingScript"]}
{"id": "C19", "title": "Address round trip", "statement": "For every 20-byte hash and network, the address produced by NewFromPublicKeyHash is accepted by NewFromString, which returns the same string and the same public key hash, and by ValidateAddress; mainnet and testnet addresses of any hashes are different strings and different hashes give different addresses.", "quantifier": "every 20-byte hash, both networks", "why_tests_cant": "2^160 hashes; base-58 carries depend on leading zeros.", "anchors": ["script/address/Address.go:NewFromPublicKeyHash", "script/address/Address.go:NewFromString", "script/address/AddressValidation.go:ValidateAddress"]}
{"id": "C20", "title": "ValidateAddress soundness", "statement": "For a string without the bitcoin-script: prefix, ValidateAddress returns true iff all characters are base58, its base58 value v is below 2^200, and the 25-byte big-endian form of v has version 00 or 6f and ends with the first 4 bytes of the double SHA-256 of its first 21 bytes; it never panics. The number of leading '1' characters is not checked, so strings that NewFromString rejects are reported valid. The error of a refused string is determined: the first character that is no base58 digit, unless an earlier prefix already exceeds 25 bytes; else the version, else the checksum.", "quantifier": "every string", "why_tests_cant": "All strings; arithmetic on 200-bit numbers.", "anchors": ["script/address/AddressValidation.go:ValidateAddress", "script/address/AddressValidation.go:set58", "script/address/AddressValidation.go:validA58"]}
{"id": "C21", "title": "NewFromString and checksums", "statement": "A user expects an address with a wrong checksum to be refused before money is sent to it. NewFromString accepts exactly the strings that base58-decode to 25 bytes with version 00 or 6f and returns bytes 1..20; it does not look at the checksum, so a mistyped address yields a script paying to another hash. The error of a refused string is 'length' iff it is not the base58 text of any 25 bytes, else 'unsupported version'.", "quantifier": "every string", "why_tests_cant": "All strings.", "anchors": ["script/address/Address.go:NewFromString", "script/address/Address.go:addressToPubKeyHashStr"]}
{"id": "C22", "title": "Base58Check encoding is injective and decodable", "statement": "base58 decoding of Base58EncodeMissingChecksum(b) is b followed by the first four bytes of its double SHA-256; hence distinct inputs give distinct strings.", "quantifier": "every byte slice", "why_tests_cant": "Unbounded inputs.", "anchors": ["script/address/Address.go:Base58EncodeMissingChecksum", "script/address/Address.go:checksum"]}
{"id": "C23", "title": "BIP276 round trip", "statement": "A user expects DecodeBIP276(EncodeBIP276(prefix,network,version,data)) to give back prefix, version, network and data. It does exactly when network = version and both are in 1..9, data is non-empty and the prefix is non-empty without newline; in particular a testnet (network 2, version 1) string is rejected (unless a 32-bit checksum collision occurs) and network 10 makes the decoder panic.", "quantifier": "every prefix, network, version in 1..255, data", "why_tests_cant": "Tests only use network = version = 1.", "anchors": ["script/address/BIP276.go:EncodeBIP276", "script/address/BIP276.go:DecodeBIP276"]}
{"id": "C24", "title": "DecodeBIP276 acceptance", "statement": "DecodeBIP276 succeeds iff the text is prefix:AABBhex+checksum with decimal AA (version), BB (network), even number of data digits and the checksum the lower-case hex of the first 4 bytes of the double SHA-256 of prefix:<hex BB><hex AA><lower-case data>; it panics iff the text does not have that shape at all, so ValidateAddress panics on such bitcoin-script: strings. On a text of the right shape the error is an odd number of data digits, else the checksum; ValidateAddress wraps it.", "quantifier": "every string", "why_tests_cant": "All strings.", "anchors": ["script/address/BIP276.go:DecodeBIP276", "script/address/AddressValidation.go:ValidateAddress"]}
{"id": "C25", "title": "Input codec", "statement": "input.NewFromBytes(i.ToBytes(false) ++ rest) returns an input with the same previous txid, index, unlocking script and sequence number, and the size of the encoding; conversely whatever it accepts is the wire form of what it returns. For a slice without spare capacity the error is exactly: fewer than 36 bytes, or fewer bytes than the 64-bit total announced. For inputs with any PreviousTxID: it reads back as itself exactly when that is 64 lower-case hexadecimal digits.", "quantifier": "every input with a 64-digit lower-case hex txid, every suffix", "why_tests_cant": "All script lengths (four varint classes) and contents.", "anchors": ["transaction/input/Input.go:NewFromBytes", "transaction/input/Input.go:ToBytes"]}
{"id": "C26", "title": "Output codec", "statement": "output.NewFromBytes(o.ToBytes() ++ rest) returns o and the size of the encoding; conversely whatever it accepts is the wire form of what it returns; GetBytesForSigHash equals ToBytes. For a slice without spare capacity the error is exactly: fewer than 8 bytes, or fewer bytes than the total announced.", "quantifier": "every output, every suffix", "why_tests_cant": "All script lengths and contents.", "anchors": ["transaction/output/Output.go:NewFromBytes", "transaction/output/Output.go:ToBytes", "transaction/output/Output.go:GetBytesForSigHash"]}
{"id": "C27", "title": "Transaction parse after serialise", "statement": "NewFromBytes(t.ToBytes()) gives back version, locktime, the inputs (txid, index, unlocking script, sequence; nil script becomes empty; spent-output metadata is not on the wire) and the outputs, in order; the same through ToString/NewFromString. For transactions with any references: it reads back exactly when every reference is 64 lower-case hexadecimal digits.", "quantifier": "every transaction with well-formed txids, any number of inputs and outputs", "why_tests_cant": "Unbounded counts and scripts.", "anchors": ["transaction/Transaction.go:NewFromBytes", "transaction/Transaction.go:ToBytes", "transaction/Transaction.go:NewFromString", "transaction/Transaction.go:ToString"]}
{"id": "C28", "title": "Transaction serialise after parse", "statement": "NewFromBytes(b) succeeds with t iff b is a wire form of t (version, counts, inputs, outputs, locktime and nothing else, varints not necessarily shortest); then t.ToBytes() is the wire form with shortest varints, so t.ToBytes() = b iff every varint in b was shortest. Non-shortest varints are accepted, so the txid of the parsed transaction may differ from the hash of the received bytes. For a slice without spare capacity, every rejected byte string is rejected with the error of its first missing part (too short, input, output, locktime).", "quantifier": "every byte slice", "why_tests_cant": "All byte strings.", "anchors": ["transaction/Transaction.go:NewFromBytes", "transaction/Transaction.go:ToBytes"]}
{"id": "C29", "title": "Transactions are self-delimiting", "statement": "If NewFromBytes accepts b then it accepts no proper prefix of b and no proper extension of b.", "quantifier": "every accepted byte slice, every truncation point, every extension", "why_tests_cant": "All truncation points of all transactions.", "anchors": ["transaction/Transaction.go:NewFromBytes"]}
{"id": "C30", "title": "Transaction parser on hostile input", "statement": "A user expects NewFromBytes to return an error on malformed bytes. It never loops forever, never succeeds by reading beyond len, and its result on success does not depend on spare capacity; but it does panic on some inputs (truncation right before a varint; script length >= 2^63), e.g. a 10-byte buffer.", "quantifier": "every byte slice with every capacity", "why_tests_cant": "Adversarial inputs; 64-bit wrap-around.", "anchors": ["transaction/Transaction.go:NewFromBytes", "transaction/input/Input.go:NewFromBytes", "transaction/output/Output.go:NewFromBytes"]}
{"id": "C31", "title": "TxID commits to the transaction", "statement": "GetTxID is the byte-reversed hex double SHA-256 of ToBytes; two transactions with the same TxID have the same version, locktime, inputs (outpoint, script, sequence) and outputs, or their two serialisations are an explicit SHA-256 collision; spent-output metadata does not influence it.", "quantifier": "every pair of transactions with well-formed txids", "why_tests_cant": "All pairs.", "anchors": ["transaction/Transaction.go:GetTxID", "transaction/Transaction.go:ToBytes"]}
{"id": "C32", "title": "Total output value", "statement": "GetTotalOutputSatoshis is the sum of the outputs' satoshis reduced modulo 2^64, so it equals the true sum iff that is below 2^64; order of outputs is irrelevant.", "quantifier": "every transaction", "why_tests_cant": "Unbounded number of outputs; overflow.", "anchors": ["transaction/Transaction.go:GetTotalOutputSatoshis"]}
{"id": "C33", "title": "IsCoinbase", "statement": "IsCoinbase holds iff the transaction has exactly one input, whose txid is 64 zeros and whose index is 0xffffffff or whose sequence is 0xffffffff. The protocol's rule (null outpoint) is implied only in one direction: every null-outpoint transaction is reported, but so are some with index 0.", "quantifier": "every transaction", "why_tests_cant": "All transactions.", "anchors": ["transaction/Transaction.go:IsCoinbase"]}
{"id": "C34", "title": "Transaction builder histories", "statement": "After any sequence of From / AddInput / AddOutput / PayTo on New(), the inputs and outputs are exactly those of the successful calls in call order, counts match, version is 1 and locktime 0; a call that returns an error changes nothing.", "quantifier": "every sequence of calls of any length", "why_tests_cant": "Histories are unbounded.", "anchors": ["transaction/Transaction.go:From", "transaction/Transaction.go:AddInput", "transaction/Transaction.go:AddOutput", "transaction/Transaction.go:PayTo", "transaction/Transaction.go:InputCount"]}
{"id": "C35", "title": "ToBytesWithClearedInputs", "statement": "A user expects the serialisation of the transaction with every input script empty except input `index`, whose script is scriptPubKey. The code drops that input's outpoint and sequence number; the output is the expected one iff index is out of range (or scriptPubKey nil means no clearing at all).", "quantifier": "every transaction, index and script", "why_tests_cant": "Never tested.", "anchors": ["transaction/Transaction.go:ToBytesWithClearedInputs", "transaction/Transaction.go:toBytesHelper"]}
{"id": "C36", "title": "Signature hash preimage", "statement": "GetInputSignatureHash(i, flag) is the byte-reversed double SHA-256 of the replay-protected digest preimage (version, hashPrevouts, hashSequence, outpoint, scriptCode, value, sequence, hashOutputs, locktime, flag as uint32) with the zeroing rules of SIGHASH_ANYONECANPAY, NONE and SINGLE; it fails iff the input lacks PreviousTxID or PreviousTxScript and panics iff there is no such input (for up to 2^31 outputs). With SIGHASH_SINGLE this limit matters: an output numbered 2^31 or more makes GetInputSignatureHash panic although the preimage exists, and from 2^32 outputs on the count is taken modulo 2^32 and the output of the same number is left out.", "quantifier": "every transaction, input index and all 256 flags", "why_tests_cant": "Tests cover one flag of 256.", "anchors": ["transaction/SignatureHash.go:GetInputSignatureHash", "transaction/SignatureHash.go:getPrevoutHash", "transaction/SignatureHash.go:getSequenceHash", "transaction/SignatureHash.go:getOutputsHash"]}
{"id": "C37", "title": "SIGHASH_ALL commits to everything", "statement": "If two transactions have the same signature hash for input i (flag without ANYONECANPAY, base not NONE/SINGLE), then they agree on version, locktime, all outpoints, all sequence numbers, all outputs, and on the spent output's script and value, or one of the explicitly listed preimage pairs is a SHA-256 collision. With ANYONECANPAY (base not NONE/SINGLE) they still agree on all outputs, in the same sense.", "quantifier": "every pair of transactions", "why_tests_cant": "Relational property over all pairs.", "anchors": ["transaction/SignatureHash.go:GetInputSignatureHash"]}
{"id": "C38", "title": "Flags leave exactly the promised parts free", "statement": "The signature hash never depends on unlocking scripts (so inputs may be signed in any order); with NONE it does not depend on outputs nor on other inputs' sequences; with SINGLE only on output i; with ANYONECANPAY not on other inputs.", "quantifier": "every pair of transactions that differ only in the freed parts, every flag", "why_tests_cant": "Relational property over all pairs.", "anchors": ["transaction/SignatureHash.go:GetInputSignatureHash"]}
{"id": "C39", "title": "Sign touches only its input", "statement": "Sign(i) with an InternalSigner either returns an error (then the transaction is unchanged) or sets input i's unlocking script to push(sig||flag) push(pubkey), where sig is what the key produces for the digest of that input, and changes nothing else; flag 0 means ALL|FORKID; the digest recomputed from the signed transaction is the one signed. The error is the signature hash's or the key's; Sign panics exactly for an input number that does not exist or when the key does.", "quantifier": "every transaction, index, key and flag", "why_tests_cant": "All transactions; key is arbitrary.", "anchors": ["transaction/Transaction.go:Sign", "transaction/signature/InternalSigner.go:Sign", "transaction/Transaction.go:ApplyUnlockingScript"]}
{"id": "C40", "title": "SignAuto signs exactly the matching inputs", "statement": "SignAuto signs every input whose spent script is P2PKH for the signer's key (and which carries a PreviousTxID) with the same result as calling Sign on each, leaves all other inputs untouched, and is independent of the order; it also signs non-P2PKH scripts that merely start with 76 a9 push(hash).", "quantifier": "every transaction with any number of inputs, every key", "why_tests_cant": "Unbounded inputs.", "anchors": ["transaction/signature/InternalSigner.go:SignAuto", "transaction/Transaction.go:SignAuto"]}
{"id": "C41", "title": "SignAuto reports failure", "statement": "A user expects an error when a matching input could not be signed. SignAuto returns nil error even if a matching input has no PreviousTxID or the key's Sign fails: the input stays unsigned silently.", "quantifier": "every transaction and key", "why_tests_cant": "Needs a failing signer.", "anchors": ["transaction/signature/InternalSigner.go:SignAuto"]}
{"id": "C42", "title": "Merkle root via coinbase branches", "statement": "For every non-empty list of 32-byte txids whose first is the coinbase, BuildMerkleRootFromCoinbase(coinbase hash, GetMerkleBranches(list)) is the Bitcoin merkle root of the list.", "quantifier": "every non-empty list of txids of any length", "why_tests_cant": "Tree shape depends on length (odd levels duplicate).", "anchors": ["block/GetMerkleBranches.go:GetMerkleBranches", "block/BuildMerkleRootFromCoinbase.go:BuildMerkleRootFromCoinbase"]}
{"id": "C43", "title": "Merkle branches do not depend on the coinbase", "statement": "GetMerkleBranches gives the same branches whatever the first txid is, and has ceil(log2 n) entries (none for fewer than 2 transactions).", "quantifier": "every list of txids, any replacement of the first", "why_tests_cant": "All lists.", "anchors": ["block/GetMerkleBranches.go:GetMerkleBranches"]}
{"id": "C44", "title": "Merkle proof completeness", "statement": "For every list of txids and every index i, MerkleRootFromBranches(txid_i, i, path_i) with the sibling path of leaf i is the merkle root; an index with more bits than the path is an error; negative indices are (wrongly) accepted. The error is that of the first text that is not hexadecimal (transaction hash first), else the index.", "quantifier": "every list, every index, every path", "why_tests_cant": "All tree sizes and indices.", "anchors": ["block/GetMerkleBranches.go:MerkleRootFromBranches"]}
{"id": "C45", "title": "Merkle proof soundness", "statement": "If MerkleRootFromBranches accepts two proofs of the same length and index giving the same root, then the txids and all branches agree, or two of the explicitly listed hashed concatenations are a SHA-256 collision; so a proof for the merkle root of a list at the tree's depth proves the txid is the list's i-th leaf (counting duplicates). A proof of the tree's depth shows that the txid is one of the leaves whatever index comes with it, beyond the last leaf or below zero too.", "quantifier": "every pair of proofs", "why_tests_cant": "Relational property over all pairs.", "anchors": ["block/GetMerkleBranches.go:MerkleRootFromBranches"]}
{"id": "C46", "title": "Block header layout", "statement": "With a 64-digit previous block hash, a 32-byte root and 4-byte time, bits and nonce, BuildBlockHeader is 80 bytes holding version (LE), the reversed previous hash, root, time, bits, nonce at offsets 0,4,36,68,72,76, and is injective in all six fields. For arbitrary arguments the result is the plain concatenation of those six parts.", "quantifier": "every field value", "why_tests_cant": "All contents.", "anchors": ["block/BuildBlockHeader.go:BuildBlockHeader"]}
{"id": "C47", "title": "Coinbase parts reassemble into a coinbase transaction", "statement": "For every height, value, text, witness commitment, miner id, accepted wallet address and extra nonces totalling 12 bytes, BuildCoinbase(parts) parses with NewFromBytes into a transaction for which IsCoinbase holds, whose unlocking script is 03 <3-byte LE height> text(truncated) nonce1 nonce2 of at most 100 bytes, whose first output pays value to the address's P2PKH script and whose total output value is value. It fails exactly for a wallet NewFromString refuses (with that error) or, after that, a witness text that is not hexadecimal.", "quantifier": "every argument combination", "why_tests_cant": "Text and miner id of any length; address arithmetic.", "anchors": ["block/GetCoinbaseParts.go:GetCoinbaseParts", "block/GetCoinbaseParts.go:BuildCoinbase", "transaction/Transaction.go:NewFromBytes"]}
{"id": "C48", "title": "Target expansion", "statement": "ExpandTargetFrom(bits) is the 64-digit hex of floor(|mantissa| * 256^(exponent-3)) for every 8-digit bits string whose value fits 256 bits, and panics when it does not fit; ExpandTargetFromAsInt gives the signed value; both fail exactly on non-hex and panic on fewer than 4 bytes. The error is that of the hexadecimal text.", "quantifier": "all 2^32 compact values", "why_tests_cant": "2^32 values.", "anchors": ["block/Difficulty.go:ExpandTargetFrom", "block/Difficulty.go:ExpandTargetFromAsInt"]}
{"id": "C49", "title": "Difficulty agrees with the target", "statement": "The target DifficultyFromBits divides by equals the one ExpandTargetFromAsInt computes exactly when the sign bit is clear and the exponent is at least 3 (or the mantissa loses nothing); elsewhere the two functions disagree. DifficultyFromBits(1d00ffff) is 1 and a larger target never gives a larger difficulty.", "quantifier": "all 2^32 compact values", "why_tests_cant": "2^32 values; binary64 rounding.", "anchors": ["block/Difficulty.go:DifficultyFromBits", "block/Difficulty.go:toCompactSize", "block/Difficulty.go:targetToDifficulty"]}
{"id": "C50", "title": "Redeem script is order independent", "statement": "GetRedeemScript, GetRedeemScriptHash and GetAddress depend only on the threshold and the multiset of public keys, not on the order in which they were added; calling them leaves the keys sorted and does not change later results.", "quantifier": "every list of keys, every permutation", "why_tests_cant": "All permutations.", "anchors": ["script/RedeemScript.go:GetRedeemScript", "script/RedeemScript.go:GetAddress", "script/RedeemScript.go:GetRedeemScriptHash"]}
{"id": "C51", "title": "Redeem script is a decodable m-of-n", "statement": "NewRedeemScript accepts exactly 2..16; with n keys of length 2..75, n in 1..16, the redeem script decodes into OP_m, the sorted keys, OP_n, OP_CHECKMULTISIG and IsMultisigOut holds; there is no check of n: with 17 or more keys the count is not a small-int opcode, and m may exceed n. Thresholds below 2 and above 16 have an error each; AddPublicKey fails exactly for a path of other than two indices or with the error of the first derivation step that fails.", "quantifier": "every threshold and key list", "why_tests_cant": "All key sets.", "anchors": ["script/RedeemScript.go:NewRedeemScript", "script/RedeemScript.go:AddPublicKey", "script/RedeemScript.go:GetRedeemScript"]}
{"id": "C52", "title": "Encrypt/Decrypt round trip", "statement": "For every block cipher with 16-byte blocks, every random IV and every text, Decrypt(Encrypt(text)) = text; the ciphertext is 16 bytes longer than the base64 text; shorter-than-16 input is an error. Decrypt fails exactly for fewer than 16 bytes, or when the decrypted bytes are not base64.", "quantifier": "every cipher, IV and text", "why_tests_cant": "All lengths; no test exists.", "anchors": ["crypto/Encryption.go:Encrypt", "crypto/Encryption.go:Decrypt"]}
{"id": "C53", "title": "Decrypt leaves its argument intact", "statement": "A user expects to be able to decrypt the same slice twice. Decrypt overwrites its argument: afterwards the slice holds the IV followed by the base64 plaintext.", "quantifier": "every cipher and ciphertext", "why_tests_cant": "Aliasing.", "anchors": ["crypto/Encryption.go:Decrypt"]}
{"id": "C54", "title": "Data outputs", "statement": "NewOpReturnParts(parts) yields an output of 0 satoshis whose script starts 00 6a, satisfies IsData, and decodes to 00, 6a and the parts (in the push domain); NewHashPuzzle yields a script decoding to HASH160 push(hash160 secret) EQUALVERIFY DUP HASH160 push(pkh) EQUALVERIFY CHECKSIG. NewOpReturnParts fails exactly when a part has 2^32 bytes or more, naming the first; NewHashPuzzle also when the hash is not hexadecimal.", "quantifier": "every list of parts; every secret and hash", "why_tests_cant": "Unbounded.", "anchors": ["transaction/output/Output.go:NewOpReturn", "transaction/output/Output.go:NewOpReturnParts", "transaction/output/Output.go:NewHashPuzzle"]}
{"id": "C55", "title": "Hash output sizes", "statement": "Sha256 and Sha256d always return 32 bytes, Ripemd160 and Hash160 20 bytes, for every input, and the compositions are the documented ones.", "quantifier": "every byte slice", "why_tests_cant": "All lengths.", "anchors": ["crypto/Hash.go:Sha256", "crypto/Hash.go:Sha256d", "crypto/Hash.go:Ripemd160", "crypto/Hash.go:Hash160"]}
{"id": "C56", "title": "Parsed scripts are independent of one another", "statement": "A user expects that appending to one script of a parsed transaction changes only that script. Scripts returned by NewFromBytes share the caller's buffer with spare capacity reaching into the following bytes, so an append overwrites the bytes that follow (other scripts of the same transaction, and the caller's buffer) whenever it fits in the spare capacity.", "quantifier": "every parsed transaction, every append", "why_tests_cant": "Aliasing between slices.", "anchors": ["transaction/input/Input.go:NewFromBytes", "transaction/output/Output.go:NewFromBytes", "script/Script.go:AppendOpCode", "script/Script.go:AppendPushData"]}
{"id": "C57", "title": "BuildMerkleRootFromCoinbase leaves its argument's buffer intact", "statement": "A user expects hashing not to write. When the coinbase hash slice has spare capacity for the first branch, the call overwrites the caller's bytes after the slice with that branch; with no spare capacity it writes nothing; the returned root is the same in both cases.", "quantifier": "every buffer, slice position and branch list", "why_tests_cant": "Aliasing.", "anchors": ["block/BuildMerkleRootFromCoinbase.go:BuildMerkleRootFromCoinbase"]}
{"id": "C58", "title": "Electrum redeem script import", "statement": "NewRedeemScriptFromElectrum accepts only scripts decoding to OP_m (2<=m<=15), elements of 83 bytes starting ff (78-byte key and two 16-bit LE path indices), OP_n with n the number of keys, and an element starting with CHECKMULTISIG, and then returns threshold m and the derived child keys in order; it panics on several malformed scripts (a single element; two elements). Every script that is refused is refused with the error of the first check it fails.", "quantifier": "every hex string, every HD key derivation behaviour", "why_tests_cant": "All strings.", "anchors": ["script/RedeemScript.go:NewRedeemScriptFromElectrum"]}
{"id": "C59", "title": "Human-readable hash rates", "statement": "HumanHash writes every finite rate as sign, the scaled value to the nearest hundredth (ties to even), a space and a unit H, kH, MH, GH, TH, PH, EH or ZH per second. The unit is monotone in the rate; from 1000 upwards and below the ZH unit the scaled value before rounding to two decimals is in [1,1000). The displayed number may still be 1000.00 (999999 shows as 1000.00 kH/s), and the float64 nearest to 1e24 (which is below 1e24) scales to exactly 1000 ZH.", "quantifier": "every finite float64", "why_tests_cant": "2^64 values; rounding.", "anchors": ["utils/HumanHash.go:HumanHash", "block/Difficulty.go:DifficultyToHashrate"]}
{"id": "C60", "title": "Hash rate from difficulty", "statement": "DifficultyToHashrate(coin, difficulty, seconds) equals difficulty * 2^256 / genesis target / seconds within relative error 2^-50 for every non-zero difficulty and every finite positive period between 2^-800 and 2^800 seconds; it is monotone in the difficulty; the target is the regtest one exactly when the ticker's first letter is R, the rest of the ticker is ignored and an empty ticker panics. For every finite period the result is within relative error 2^-50 as long as the exact rate is between 2^-1021 and 2^1023, within 2^-1071 of a smaller one, and infinite above 2^1024 + 2^976; a longer period never gives a larger rate, a larger difficulty never a smaller one, a negative period gives the negated rate; periods of zero, infinity or NaN and difficulty zero follow IEEE 754.", "quantifier": "every ticker, uint64 difficulty and float64 period", "why_tests_cant": "Floating point rounding over 2^128 inputs.", "anchors": ["block/Difficulty.go:DifficultyToHashrate", "block/Difficulty.go:init"]}
{"id": "C61", "title": "Input.String and Output.String", "statement": "Input.String shows the five lines previous id, index, script length, script and sequence, with index and length in decimal, script in hex behind an ampersand (the %x of a pointer), sequence in hexadecimal and the previous id as the hex of its own hex text; Output.String shows value, script length, script. The text determines every field shown. Both panic exactly when the script is nil: in particular on every input that From creates before it is signed.", "quantifier": "every input and output", "why_tests_cant": "unbounded scripts, ids and numbers; injectivity is about pairs of values", "anchors": ["transaction/input/Input.go:String", "transaction/output/Output.go:String"]}
{"id": "C62", "title": "Inputs are shared objects", "statement": "A transaction holds pointers to inputs. If no object occurs twice in a transaction, Sign, SignAuto and setting an unlocking script act as on values; adding new inputs never introduces sharing. In general a write shows at every position of every transaction that holds the same object and nowhere else, so signing input 0 can change input 1 and another transaction (refutation of independence).", "quantifier": "every heap, every transaction over it, every signer", "why_tests_cant": "aliasing patterns are unbounded", "anchors": ["transaction/Transaction.go:AddInput", "transaction/Transaction.go:ApplyUnlockingScript", "transaction/Transaction.go:Sign", "transaction/Transaction.go:SignAuto"]}
{"id": "C63", "title": "A parsed transaction cannot be signed", "statement": "The wire format does not carry the previous scripts, so for every input of a transaction returned by NewFromBytes the signature hash is an error, Sign returns that error and changes nothing, and SignAuto changes nothing and reports success.", "quantifier": "every byte slice that parses, every input number, every signer", "why_tests_cant": "holds for all byte strings", "anchors": ["transaction/Transaction.go:NewFromBytes", "transaction/SignatureHash.go:GetInputSignatureHash", "transaction/Transaction.go:Sign", "transaction/Transaction.go:SignAuto"]}
{"id": "C64", "title": "Spending workflow", "statement": "After any sequence of From calls (P2PKH outputs of one key) and PayTo calls, SignAuto with a fresh signer succeeds, spends exactly the asked outpoints and pays exactly the asked outputs, every input is accepted by running unlocking then locking script with OP_CHECKSIG against the signature hash of the signed transaction, and the result survives serialization and parsing.", "quantifier": "every key whose signatures verify, every sequence of calls", "why_tests_cant": "unbounded call sequences, arbitrary keys", "anchors": ["transaction/Transaction.go:From", "transaction/Transaction.go:PayTo", "transaction/Transaction.go:SignAuto", "transaction/signature/InternalSigner.go:SignAuto", "transaction/SignatureHash.go:GetInputSignatureHash"]}
{"id": "C65", "title": "Signing histories", "statement": "After any sequence of Sign and SignAuto calls with any signers, every input carries what the last call that signs it would have put there on the original transaction, or is unchanged if no call signs it; everything else is unchanged. A history panics exactly if one of its calls panics on the original transaction. Repeating a call changes nothing, SignAuto calls of keys with different hash commute, as do Sign calls for different inputs.", "quantifier": "every transaction, every finite history of signing calls", "why_tests_cant": "unbounded histories", "anchors": ["transaction/Transaction.go:Sign", "transaction/Transaction.go:SignAuto", "transaction/signature/InternalSigner.go:Sign"]}
{"id": "C66", "title": "Merkle root does not fix the list", "statement": "Repeating the last 2^k ids of a list of an odd number (at least 3) of such blocks gives the same merkle root (CVE-2012-2459); two lists of the same tree depth with the same root have a common extension of that kind or exhibit two explicit colliding hash inputs; with the same number of transactions they are equal or there is such a collision; a proper extension always contains a repeated transaction; and an inner node of the tree is accepted by MerkleRootFromBranches in the place of a transaction id. A proof for a transaction is, with one branch more, a proof for either of two parts of its bytes in the place of a transaction id (CVE-2017-12842 when it has 64 bytes).", "quantifier": "every list of transaction ids, every pair of lists, every tree level", "why_tests_cant": "the tree has unbounded depth and the statement compares all pairs of lists", "anchors": ["block/GetMerkleBranches.go:GetMerkleBranches", "block/GetMerkleBranches.go:MerkleRootFromBranches", "block/BuildMerkleRootFromCoinbase.go:BuildMerkleRootFromCoinbase"]}
{"id": "C67", "title": "Payment after validation", "statement": "A string that passes ValidateAddress and is paid with PayTo is the standard address text of exactly one hash, and the output pays that hash; PayTo alone succeeds exactly on the base58 texts of 25 bytes with a supported version whatever the checksum bytes are; ValidateAddress accepts exactly the standard texts up to the number of leading '1' characters; the P2SH address a RedeemScript prints, and every other version, is refused by PayTo.", "quantifier": "every string, transaction and amount", "why_tests_cant": "ranges over all strings and compares two independently written base58 decoders", "anchors": ["script/address/AddressValidation.go:ValidateAddress", "script/address/Address.go:NewFromString", "transaction/Transaction.go:PayTo", "transaction/output/Output.go:NewP2PKHFromAddress", "script/RedeemScript.go:GetAddress"]}
{"id": "C68", "title": "Hexadecimal constructors", "statement": "Script, output and input constructors that take hexadecimal text accept exactly the texts of an even number of hexadecimal digits (either case) and take the denoted bytes; printing and reading back a script is the identity; the P2PKH outputs made from a public key hash, from an address and from the public key are the same; no constructor panics. A text that is not accepted is reported with its first non-hexadecimal character, or as odd if there is none.", "quantifier": "every string and amount", "why_tests_cant": "ranges over all texts including malformed ones", "anchors": ["script/Script.go:NewFromHexString", "script/Script.go:ToString", "script/OpPushdata.go:DecodeStringParts", "transaction/output/Output.go:NewP2PkhFromPubKeyHash", "transaction/output/Output.go:NewP2PKHFromAddress", "transaction/input/Input.go:NewFromUTXO"]}
{"id": "C69", "title": "Meaning of ASM text", "statement": "NewFromASM accepts exactly the texts whose space-separated words are each an opcode name or an even number of hexadecimal digits, and yields the concatenation of the opcodes and of shortest pushes of the data; anything else is one error and never a panic. Names, hexadecimal words and word divisions are unambiguous. A superfluous space silently pushes an empty element. ToASM writes the words of the elements, dropping empty elements at both ends, so for every decodable script reading the text back gives one-byte elements as opcodes, the other elements as shortest pushes, and loses the empty elements at the ends.", "quantifier": "every text and every script", "why_tests_cant": "ranges over all texts and scripts of any length", "anchors": ["script/Script.go:NewFromASM", "script/Script.go:ToASM", "script/Opcodes.go:opCodeStrings", "script/OpPushdata.go:DecodeParts"]}
{"id": "C70", "title": "Storage of decoded parts", "statement": "DecodeParts changes no existing storage and its result, as values, is that of C10/C11. The part of a bare opcode has its own one-byte storage: writing to it changes neither the script nor any other part. The part of a push is a window of the script's own storage, at the place of the pushed bytes, with the rest of the script's capacity behind it: writing a byte of it rewrites the script at that place only, and appending to it overwrites the script's following bytes. GetPublicKeyHash returns such a window: for a P2PKH script, writing to the returned hash changes whom the script pays, and appending two bytes to it replaces the script's last two opcodes.", "quantifier": "every heap, every slice of any offset and capacity, every content, every part, every write and append", "why_tests_cant": "ranges over all scripts and all storage layouts", "anchors": ["script/OpPushdata.go:DecodeParts", "script/Script.go:GetPublicKeyHash"]}
{"id": "C71", "title": "Independence of scripts under building", "statement": "Any number of scripts built side by side - each method call on one of them, its arguments possibly another script's bytes, new scripts made on the way - behave as independent byte strings: each shows what its own calls appended, in their order, however the calls are interleaved and however the runtime grows the arrays. This holds exactly when no script that is called has spare capacity that another script shows or that another called script could also write. Scripts that come from the constructors (NewFromHexString, NewFromASM, NewP2PKH...) always satisfy it. A second script on the same slice (t := *s, or NewFromBytes on a buffer that is kept) satisfies it while methods are called on one of the two only, or when the slice is full; otherwise a call on the second overwrites what the first had appended.", "quantifier": "every heap and any number of scripts of any offset, length and capacity, every history of method calls in every interleaving, every growth policy of the runtime", "why_tests_cant": "ranges over all call histories, interleavings and storage layouts", "anchors": ["script/Script.go:AppendPushData", "script/Script.go:AppendPushDataArray", "script/Script.go:AppendPushDataStrings", "script/Script.go:AppendPushDataHexString", "script/Script.go:AppendOpCode", "script/Script.go:NewFromBytes"]}
{"id": "C72", "title": "Parsing work is bounded by the input", "statement": "Whatever input and output counts and script lengths the bytes claim, and whether parsing succeeds, fails or panics, the loops of NewFromBytes over inputs and outputs run together at most (length+3)/9 times, and DecodeParts runs at most one iteration per byte. What they return is no larger than what they were given: 10 bytes, 41 per input, 9 per output and all script bytes add up to at most the length, and the parts of a script, also those returned beside an error, are at most as many and as long as its bytes. These numbers are exact: a parsed transaction takes one run for each input and output, a failing one as many as succeed and the one that fails; DecodeParts one for each part, and one more for an error.", "quantifier": "every byte string with any spare capacity (below 2^62 bytes), every outcome", "why_tests_cant": "a hostile message may claim 2^64-1 items; the bound ranges over all messages", "anchors": ["transaction/Transaction.go:NewFromBytes", "script/OpPushdata.go:DecodeParts"]}
{"id": "C73", "title": "Every transaction the API yields can be written, and when it reads back", "statement": "However a transaction was obtained - New, NewFromBytes, NewFromString, any sequence of From, PayTo, AddInput, AddOutput with inputs and outputs from their constructors, Sign, SignAuto, ApplyUnlockingScript and assignments to Version and LockTime, with failing calls in between - ToBytes does not panic. NewFromBytes of these bytes gives the same transaction back (without the spent amounts and scripts, which are not on the wire) exactly when every input's PreviousTxID is 64 lower-case hexadecimal digits; histories that pass only such references keep it so. References in other case come back in lower case and nothing else changes. From checks nothing: with an empty reference the bytes can be a well-formed transaction spending another output with another script.", "quantifier": "every history of API calls with any arguments of their Go types, any signers, any flags", "why_tests_cant": "ranges over all call histories", "anchors": ["transaction/Transaction.go:New", "transaction/Transaction.go:NewFromBytes", "transaction/Transaction.go:NewFromString", "transaction/Transaction.go:From", "transaction/Transaction.go:PayTo", "transaction/Transaction.go:AddInput", "transaction/Transaction.go:AddOutput", "transaction/Transaction.go:Sign", "transaction/Transaction.go:SignAuto", "transaction/Transaction.go:ApplyUnlockingScript", "transaction/Transaction.go:ToBytes", "transaction/input/Input.go:ToBytes"]}
{"id": "C74", "title": "Lists of inputs and outputs are shared exactly as Go slices are", "statement": "While a program only reads the lists GetInputs and GetOutputs gave it (and the transactions it made by copying the struct), every list reads as if it were its own: a list that was got does not change when the transaction grows, and every transaction holds exactly what was added to it. Otherwise, for any capacities the runtime chooses: when xs are added to a transaction and then ys to its copy, the copy holds the old elements and ys; the original holds the old elements and xs if xs did not fit the spare capacity, and else ys in place of as many of xs. An assignment to an element of a list that was got reaches the transaction, and the other way round, exactly as long as what was added since fitted the spare capacity.", "quantifier": "every history of New, AddInput/AddOutput/From/PayTo, GetInputs/GetOutputs, struct copies and element assignments, every growth policy of append", "why_tests_cant": "depends on the runtime's capacities and on histories of any length", "anchors": ["transaction/Transaction.go:New", "transaction/Transaction.go:AddInput", "transaction/Transaction.go:AddOutput", "transaction/Transaction.go:GetInputs", "transaction/Transaction.go:GetOutputs"]}
{"id": "C75", "title": "Bytes behind the end: parsing a slice of a larger buffer, and NewFromString on every text", "statement": "What lies behind the bytes in the same buffer (their spare capacity) never changes a transaction that NewFromBytes returns, nor an error. It matters in one case: where NewFromBytes would panic because the bytes end inside the length of a script (at least one byte of it present), it returns the 'too short' error instead exactly when the bytes behind complete that length and the item, its size computed in 64 bits, is longer than the bytes. The same holds for an Input and an Output alone. NewFromString, whose buffer always has room behind the bytes and zeros or the text's digits in it, therefore gives for every text: a transaction exactly when the text is the hexadecimal of one; an error exactly when the text is not hexadecimal, or its bytes are an error, or end inside a script length; a panic exactly in the remaining cases.", "quantifier": "every byte slice with every spare capacity and contents of it; every text", "why_tests_cant": "all contents and capacities; tests pass exact slices", "anchors": ["transaction/Transaction.go:NewFromBytes", "transaction/Transaction.go:NewFromString", "transaction/input/Input.go:NewFromBytes", "transaction/output/Output.go:NewFromBytes", "utils/VarInt.go:DecodeVarInt"]}
{"id": "C76", "title": "Malformed hexadecimal that is read without complaint", "statement": "Several functions do not report a text that is not hexadecimal: BuildBlockHeader (previous hash), BuildCoinbase (extra nonces), BuildMerkleRootFromCoinbase (branches), GetMerkleBranches (txids), DifficultyFromBits, and every use of an input's PreviousTxID (ToBytes, ToString, GetTxID, ToBytesWithClearedInputs, GetInputSignatureHash). Each goes on with the digit pairs before the first pair that is not two hexadecimal digits, so two texts of which the same is read give the same result; only an empty PreviousTxID is refused, and only by GetInputSignatureHash.", "quantifier": "every text and every pair of texts, every transaction, every other argument", "why_tests_cant": "A test shows one malformed text; the claim is about what every malformed text is taken for, at every place a text is decoded.", "anchors": ["block/BuildBlockHeader.go:BuildBlockHeader", "block/GetCoinbaseParts.go:BuildCoinbase", "block/BuildMerkleRootFromCoinbase.go:BuildMerkleRootFromCoinbase", "block/GetMerkleBranches.go:GetMerkleBranches", "block/Difficulty.go:DifficultyFromBits", "transaction/input/Input.go:ToBytes", "transaction/SignatureHash.go:GetInputSignatureHash"]}
{"id": "C77", "title": "Which transactions can be written, and what is written", "statement": "ToBytes, ToString, GetTxID and ToBytesWithClearedInputs (any index, any script) panic for exactly the same transactions: those that hold a nil input, a nil output or an output with a nil locking script; for all others ToBytes is the wire layout with shortest counts and, for each input, the bytes read of its PreviousTxID in reversed order (32 or not), which also gives the exact number of bytes.", "quantifier": "every transaction value a Go program can hold, with any texts as references", "why_tests_cant": "The set of transactions that panic and the layout for malformed references range over all values of the exported fields.", "anchors": ["transaction/Transaction.go:ToBytes", "transaction/Transaction.go:ToString", "transaction/Transaction.go:GetTxID", "transaction/Transaction.go:ToBytesWithClearedInputs", "transaction/input/Input.go:ToBytes", "transaction/output/Output.go:ToBytes"]}
{"id": "C78", "title": "What outputs made by the library ask of a spender", "statement": "Running the scripts with the protocol's rules: an output of PayTo / NewP2PKHFromAddress / NewP2PKHFromPubKeyBytes is satisfied exactly by a stack with a public key of that hash on top of a signature that checks under it; the unlocking script of Sign leaves exactly those two; NewHashPuzzle asks in addition for the secret (or something with its hash) on top, and can be spent by nobody if the key hash is not 20 bytes; NewOpReturn / NewOpReturnParts outputs can be spent by nobody. A user expects the same of NewP2PKHFromPubKeyHashStr, which does not check the size: with an 18-byte hash anybody can spend the output, with fewer bytes nobody, with 19 the last byte of the key is taken from the script. With more than 20 bytes those behind the 20th are run as program text; with 21, the last being 6a, again anybody can spend it.", "quantifier": "every address, key, secret, hash, data; every initial stack; every signature-check relation", "why_tests_cant": "Both directions quantify over all stacks a spender could present and all signature checks.", "anchors": ["script/Script.go:NewP2PKHFromAddress", "script/Script.go:NewP2PKHFromPubKeyBytes", "script/Script.go:NewP2PKHFromPubKeyHashStr", "script/UnlockingScript.go:NewP2PKHUnlockingScript", "transaction/output/Output.go:NewHashPuzzle", "transaction/output/Output.go:NewOpReturnParts", "transaction/Transaction.go:PayTo"]}
{"id": "C79", "title": "What multisig redeem scripts ask of a spender", "statement": "After NewRedeemScript(m) and any history of calls that adds n <= 16 keys of 1..75 bytes, the redeem script is satisfied exactly by m signatures, valid for m of the keys in the order of the sorted keys, above one ignored item; so any m owners suffice if their signatures come in that order (another order does not), and with fewer than m keys nobody can ever satisfy it. The P2SH locking script asks for the redeem script itself (or one with its hash) on top of a stack that satisfies it. A redeem script without keys can be satisfied by nobody. One imported with NewRedeemScriptFromElectrum demands, after any further calls, as many signatures as the first element of the imported script says, for the imported and the added keys.", "quantifier": "every threshold, key derivation, history of calls, stack and signature-check relation", "why_tests_cant": "Quantifies over all histories and over all stacks a spender could present.", "anchors": ["script/RedeemScript.go:NewRedeemScript", "script/RedeemScript.go:AddPublicKey", "script/RedeemScript.go:GetRedeemScript", "script/RedeemScript.go:getScriptPubKey", "script/RedeemScript.go:GetAddress", "script/RedeemScript.go:NewRedeemScriptFromElectrum"]}
{"id": "C80", "title": "One transaction in several goroutines", "statement": "Goroutines that call InternalSigner.Sign / SignAuto, GetInputSignatureHash, GetTotalOutputSatoshis, IsCoinbase, ToBytes or GetTxID on one transaction, so that no two of them sign the same input, none serialises while another signs, and no two share a signer whose SigHashFlag is 0, never race; in every interleaving each call gives what it gives alone, the transaction ends as if they had been called one after the other in any order, nothing else changes, and every started set of calls can finish. Outside these conditions the expectation fails: two goroutines sharing a signer with flag 0 race; Transaction.Sign (unlike InternalSigner.Sign) writes the whole struct back, so two of them always race, and an output added meanwhile is lost although both calls succeed; ToBytes during Sign can return bytes of neither the unsigned nor the signed transaction. AddInput and AddOutput alone append as in one goroutine; one of each at the same time do not race and both take effect; of any number at the same time all return, and each list ends with the objects of some of its calls, each once and at least one, but a call may be lost although it returned without error.", "quantifier": "every memory, number of goroutines, list of calls and interleaving of their memory accesses", "why_tests_cant": "Race detectors and stress tests see a few interleavings; the claim is about all of them.", "anchors": ["transaction/signature/InternalSigner.go:Sign", "transaction/signature/InternalSigner.go:SignAuto", "transaction/Transaction.go:Sign", "transaction/Transaction.go:SignAuto", "transaction/Transaction.go:ToBytes", "transaction/SignatureHash.go:GetInputSignatureHash", "transaction/Transaction.go:AddInput", "transaction/Transaction.go:AddOutput"]}
{"id": "C81", "title": "One RedeemScript in several goroutines", "statement": "GetRedeemScript, GetRedeemScriptHash and GetAddress look like reads but sort the keys in place. If the keys are in order, every interleaving of any number of calls gives each call the right answer and leaves the keys alone. If they are not, then whatever way sort.Sort sorts by comparing and swapping, there is an interleaving of two calls in which one returns the script (hash, address) of a key list in which one key is replaced by another, which is never the right script; and with Go's insertion sort on two keys there is one in which a key is lost for good: both calls return the script of the other key twice and so does every later call. Go's insertion sort is such a way of sorting and leaves sorted keys alone.", "quantifier": "every key list, way of sorting, number of goroutines and interleaving", "why_tests_cant": "The failing interleavings are rare and depend on the sorting algorithm; the claim covers all of both.", "anchors": ["script/RedeemScript.go:GetRedeemScript", "script/RedeemScript.go:GetRedeemScriptHash", "script/RedeemScript.go:GetAddress", "utils/ByteManipulation.go:SortByteArrays"]}
{"id": "C82", "title": "BuildMerkleRootFromCoinbase in several goroutines with one coinbase hash", "statement": "If no first branch fits into the spare capacity behind the coinbase hash, then no interleaving of any number of calls races, no byte of the array changes and each call returns its merkle root. If all calls have the same first branch, each still returns its root in every interleaving. Otherwise two calls whose first branches fit race at once, and there is an interleaving in which one of them returns the root for the other's first branch, which is its own root only if two given messages collide under double SHA-256.", "quantifier": "every coinbase hash, spare capacity, branches, number of goroutines and interleaving", "why_tests_cant": "Quantifies over all interleavings of byte accesses.", "anchors": ["block/BuildMerkleRootFromCoinbase.go:BuildMerkleRootFromCoinbase", "crypto/Hash.go:Sha256d"]}
{"id": "C83", "title": "From a pool's job to a block header", "statement": "GetCoinbaseParts, BuildCoinbase with 12 bytes of extra nonces, GetMerkleBranches on any placeholder followed by the displayed ids of the other transactions, BuildMerkleRootFromCoinbase on the double SHA-256 of the coinbase and BuildBlockHeader together give an 80-byte header with the given version, previous block, time, target and nonce whose root is the merkle root of the coinbase and the other transactions; the coinbase is a transaction that pays the value to the wallet. Two jobs with the same number of branches that give the same header have the same coinbase, branches and fields, and so pay the same wallet and amount with the same extra nonces, miner data and block height with text (as far as both fit), unless two given messages collide under double SHA-256. ExpandTargetFromAsInt on the displayed target field gives the target of the header. Every transaction of the block has branches of the length of the tree's height with which MerkleRootFromBranches gives the displayed root. Conversely, a transaction whose GetTxID MerkleRootFromBranches leads to the displayed root with any index and as many branches as the tree is high is one of the block's, byte for byte, or two given messages collide.", "quantifier": "every height, value, text, wallet, miner data, witness data, extra nonces, list of transactions, header fields, and every two jobs", "why_tests_cant": "Composition of six functions over all their inputs, and a statement on all pairs of jobs.", "anchors": ["block/GetCoinbaseParts.go:GetCoinbaseParts", "block/GetCoinbaseParts.go:BuildCoinbase", "block/GetMerkleBranches.go:GetMerkleBranches", "block/GetMerkleBranches.go:MerkleRootFromBranches", "block/BuildMerkleRootFromCoinbase.go:BuildMerkleRootFromCoinbase", "block/BuildBlockHeader.go:BuildBlockHeader", "block/Difficulty.go:ExpandTargetFromAsInt"]}
{"id": "C84", "title": "Transactions that spend one another are accepted by a node", "statement": "A node knows some transactions and accepts a transaction if every output it spends is an unspent output of a known one, none is named twice, the unlocking scripts satisfy the spent scripts under the node's own amounts, and no more is paid than spent. A wallet that calls From with what GetTxID, the output and its script in hex say about an unspent output to its key, PayTo, and SignAuto with a new signer, gets no error, and the written transaction is accepted if the calls name no output twice, name one at least, pay at least once and pay no more than they spend; if known transactions do not collide, only then: the library signs a doubled output or an overspending transaction without complaint. Any number of such transactions of any keys, each built on the earlier ones, are accepted in turn, and no output is ever spent twice. An accepted transaction that refers to GetTxID of a transaction refers to bytes the node knows or to a collision; the id taken before SignAuto is that of other bytes. The value of a coinbase made with GetCoinbaseParts and BuildCoinbase for the address of a key, once known to the node, is read back and spent in the same way. The unspent outputs together are never worth more after such a history than before it. If the hashes of the transactions differ and nobody has named an output of the new one beforehand, the unspent outputs together lose exactly what it spends and gain exactly what it pays: a wallet's fee is the sum of its From amounts less the sum of its PayTo amounts.", "quantifier": "every set of known transactions, key, signature scheme, list of calls and chain of transactions of any length", "why_tests_cant": "Quantifies over all ledgers and chains of transactions.", "anchors": ["transaction/Transaction.go:From", "transaction/Transaction.go:PayTo", "transaction/Transaction.go:SignAuto", "transaction/Transaction.go:GetTxID", "transaction/output/Output.go:GetLockingScriptHexString", "block/GetCoinbaseParts.go:GetCoinbaseParts"]}
{"id": "C85", "title": "Several parties build and sign one transaction", "statement": "If outputs of several keys are spent in one transaction with From and PayTo, and each holder then calls SignAuto with a hash flag of his own choice, in any order and any number of times, there is no error or panic and a node accepts the transaction under the conditions of C84; if a key that an input pays to has not signed, the node refuses it. An input that a key has signed by Sign or SignAuto stays spendable after any later From, AddInput, AddOutput, PayTo, Sign and SignAuto calls by anyone that do not sign that input again, as long as only what its flag allows was added: inputs under ANYONECANPAY, outputs under NONE, and under SINGLE outputs elsewhere. If more was added, it can only be spent if the same signature verifies for another digest, or if two given messages collide under double SHA-256, or the output that SINGLE missed hashes to zero.", "quantifier": "every number of keys, signature scheme, list of calls in every order, and hash flag", "why_tests_cant": "Quantifies over all histories of calls by several parties and over all flags.", "anchors": ["transaction/Transaction.go:From", "transaction/Transaction.go:PayTo", "transaction/Transaction.go:Sign", "transaction/Transaction.go:SignAuto", "transaction/SignatureHash.go:GetInputSignatureHash"]}
{"id": "C86", "title": "Cut, changed and repeated ciphertexts", "statement": "Decrypt gives no integrity: any 16+4k consecutive bytes of an Encrypt result that start at a multiple of 16 (16a) decrypt without error to the 3k bytes (fewer at the end) of the text from byte 12a on; the first n bytes of it, n at least 16 and not a multiple of 4, are always the base64 error. What Decrypt leaves at a position depends only on the byte there and on the 16-byte block before it, so one changed byte flips the same bits of the same byte and otherwise alters only the next block. Someone who knows the text can, without the key, turn the ciphertext into one that decrypts to any other text of the same length whose base64 form differs only in the last block. If the same initial 16 random bytes are used twice under one key, the two ciphertexts agree up to a position exactly when the base64 forms of the texts do.", "quantifier": "every 16-byte-block cipher, initial vector, text, cut position and changed byte", "why_tests_cant": "Quantifies over all keys, texts and positions; a test shows one cut of one ciphertext.", "anchors": ["crypto/Encryption.go:Encrypt", "crypto/Encryption.go:Decrypt"]}
{"id": "C87", "title": "Scripts in several goroutines", "statement": "Goroutines that each build scripts of their own with the Append methods, and read these or scripts nobody builds, have no data race and get exactly the results of working alone on byte strings, whatever the schedule, provided the spare capacity behind a built script holds no other script. If several build and read one script, the bytes that were there at the start stay at its beginning, every reading starts with them and every call returns the error it returns alone; but a call that appends something races with any other use, one of two calls can vanish although both return nil, where there is room the bytes of two calls of equal length can mix at any position, and a reader of a script in the spare capacity behind another can see any first part of what is appended to that other one.", "quantifier": "every memory, number of goroutines, sequence of calls, choice of new arrays and capacities, and schedule", "why_tests_cant": "Quantifies over all schedules and slice layouts; a test runs a few, and the race detector sees only those.", "anchors": ["script/Script.go:AppendPushData", "script/Script.go:AppendPushDataHexString", "script/Script.go:AppendPushDataString", "script/Script.go:AppendPushDataArray", "script/Script.go:AppendPushDataStrings", "script/Script.go:AppendOpCode", "script/Script.go:ToString"]}
{"id": "C88", "title": "The hash functions are the standard ones", "statement": "For every message, Sha256 returns its SHA-256 hash as FIPS 180-4 defines it, Ripemd160 its RIPEMD-160 hash as Dobbertin, Bosselaers and Preneel define it, Sha256d the SHA-256 hash of the SHA-256 hash, Hash160 the RIPEMD-160 hash of the SHA-256 hash; the definitions leave no other value possible.", "quantifier": "every message, of any length", "why_tests_cant": "Test vectors fix the value on a handful of messages; a wrong padding at some length, a wrong table entry or carry can leave those right.", "anchors": ["crypto/Hash.go:Sha256", "crypto/Hash.go:Sha256d", "crypto/Hash.go:Ripemd160", "crypto/Hash.go:Hash160"]}
{"id": "C89", "title": "Signing through a Signer of one's own", "statement": "Sign and SignAuto with any implementation of Signer: an error of the signer is returned and the call changes nothing itself; otherwise the receiver gets the fields of the transaction returned, whatever they are (nothing is checked), shares its inputs from then on, and nothing else changes; the call panics exactly if the signer does or returns nil without an error. After any history of calls with signers that return the transaction they were given and write unlocking scripts only, as InternalSigner does, every transaction is the same up to unlocking scripts, every signature hash is what it was and every accepted input that was not written stays accepted. With a signer that works on the serialised transaction, Sign succeeds, but afterwards no input of the transaction can be signed: Sign fails, SignAuto does nothing and returns nil.", "quantifier": "every signer (any function of all reachable objects), every transaction and state of the objects, every history of calls", "why_tests_cant": "Quantifies over all implementations of an interface and all histories; the tests use InternalSigner only.", "anchors": ["transaction/Signer.go:Signer", "transaction/Transaction.go:Sign", "transaction/Transaction.go:SignAuto", "transaction/signature/InternalSigner.go:Sign", "transaction/signature/InternalSigner.go:SignAuto"]}
{"id": "C90", "title": "Encrypt and Decrypt in several goroutines", "statement": "Goroutines that Encrypt and Decrypt slices of one array: if no call decrypts (overwrites) bytes that another uses, there is no data race, every schedule gives every call the result it has alone, decrypted slices hold what Decrypt leaves in them and nothing else changes. If a call decrypts a byte that another uses, a data race is possible. Two Decrypts of one ciphertext one after the other: the second decrypts the clear text of the first. In general, for every choice of byte positions there is a schedule after which both calls decode the text that has clear-text bytes there and ciphertext bytes elsewhere: both may fail, or both may return another text without an error. For a ciphertext of one block, any number of goroutines and any schedule, every call decodes a text of that form.", "quantifier": "every array, every set of slices, every block cipher with 16-byte blocks, any number of goroutines, every schedule", "why_tests_cant": "Interleavings are chosen by the scheduler; tests see one, and the race detector sees only those that happen.", "anchors": ["crypto/Encryption.go:Encrypt", "crypto/Encryption.go:Decrypt"]}
{"id": "C91", "title": "Sizes of transactions and budgets for fees", "statement": "The bytes of a wallet's unsigned transaction number exactly 8 plus the two counts plus 41 per spent output plus 34 per payment; From, PayTo, AddInput and AddOutput make a transaction longer by exactly what they add and by the growth of the count; Sign makes it longer by the pushes of signature and key and shorter by the script it replaces. With signatures of lo to hi bytes and a compressed key, SignAuto adds between 36+lo and 36+hi bytes per input. Hence funds minus payments is the fee that a node computes from the outputs it knows, and a fee that was budgeted for the longest signatures is enough for the bytes that are sent; a fee for the bytes before signing is too low as soon as anything is spent. GetTotalOutputSatoshis of the signed transaction is the sum of the payments modulo 2^64.", "quantifier": "every list of calls, every key and signature sizes up to 74, every fee rate, every set of known transactions", "why_tests_cant": "The numbers of inputs and outputs (and with them the width of the counts), the signature lengths and the rates are unbounded; tests fix a few transactions.", "anchors": ["transaction/Transaction.go:ToBytes", "transaction/Transaction.go:From", "transaction/Transaction.go:PayTo", "transaction/Transaction.go:Sign", "transaction/Transaction.go:SignAuto", "transaction/Transaction.go:GetTotalOutputSatoshis", "transaction/input/Input.go:ToBytes", "transaction/output/Output.go:ToBytes"]}
{"id": "C92", "title": "Signing over the wire", "statement": "Signers who get the transaction as bytes, parse it, fill in PreviousTxSatoshis and PreviousTxScript, sign and send the bytes on, one after the other and in any number, produce exactly the bytes they would have produced together on one transaction, with the same errors, provided each is told the truth about the inputs his call signs; nothing need be known of other inputs. For an input nobody told him about, Sign returns an error and SignAuto returns nil and leaves the input unsigned. What is said about other inputs, true or false, does not change a signature hash. If a signer is told a wrong amount or script for the input that he signs, a node can accept that input only if his signature, made for another message, also verifies for the message of the truth.", "quantifier": "every well-formed transaction, every number and order of signers, keys and flags, everything they may be told", "why_tests_cant": "Tests round-trip one fixed transaction with one signer; the claim ranges over all transactions, relays of any length and any false information.", "anchors": ["transaction/Transaction.go:NewFromBytes", "transaction/Transaction.go:ToBytes", "transaction/Transaction.go:Sign", "transaction/Transaction.go:SignAuto", "transaction/SignatureHash.go:GetInputSignatureHash", "transaction/signature/InternalSigner.go:Sign", "transaction/signature/InternalSigner.go:SignAuto"]}
{"id": "C93", "title": "The same bytes on a 32-bit platform", "statement": "The library gives the same answers on every platform. With a 32-bit int: every transaction a 64-bit build parses out of fewer than 2^31 bytes is parsed to the same transaction, and the two builds never read different transactions out of the same bytes; what ToBytes writes is read back. But a 32-bit build reads script lengths modulo 2^32, so every transaction that has an input or an output has a second byte form, at most 8 bytes longer, which only the 32-bit build accepts; and it panics, where the 64-bit build returns an error, exactly on certain length prefixes. DecodeParts, DecodeStringParts, ToASM, IsP2PK, IsMultisigOut, GetPublicKeyHash, the Electrum redeem script reader and SignAuto agree on the two platforms except that the 32-bit build panics on a PUSHDATA4 announcing between 2^31-5 and 2^32-6 bytes.", "quantifier": "all byte strings shorter than 2^31, all transactions, scripts, texts and signers", "why_tests_cant": "tests run on one platform; the difference shows only on length prefixes near 2^31 and 2^32 in otherwise arbitrary input", "anchors": ["transaction/Transaction.go:NewFromBytes", "transaction/input/Input.go:NewFromBytes", "transaction/output/Output.go:NewFromBytes", "script/OpPushdata.go:DecodeParts", "script/Script.go:GetPublicKeyHash", "transaction/signature/InternalSigner.go:SignAuto"]}
{"id": "C94", "title": "What an error says", "statement": "The text of an error tells its cause: two calls that fail with the same text failed with the same error, with the same index, address or character. An address that is refused by NewFromString, PayTo, NewP2PKHFromAddress or GetCoinbaseParts is quoted in the text; the first character that is no hexadecimal digit is named by its code point; ApplyUnlockingScript names the index it was given; the texts of NewFromBytes and of ValidateAddress are from a fixed list, each for one cause. Two expectations fail: MerkleRootFromBranches names what is left of the index after shifting, never the index the caller gave unless the proof is empty; and the Electrum reader says 'More than 15 signatures' of a script that begins with no number at all.", "quantifier": "all errors with their arguments, all addresses, texts, indices, proofs, byte strings and transactions", "why_tests_cant": "that no two causes share a text is a statement about all arguments quoted in texts; a test compares one text", "anchors": ["script/address/Address.go:NewFromString", "transaction/Transaction.go:ApplyUnlockingScript", "block/GetMerkleBranches.go:MerkleRootFromBranches", "script/address/AddressValidation.go:ValidateAddress", "script/RedeemScript.go:NewRedeemScriptFromElectrum", "transaction/Transaction.go:NewFromBytes"]}
{"id": "C95", "title": "What is returned beside an error", "statement": "Of the functions that return a value beside an error: DecodeBIP276 returns prefix, version, network and data just as the text has them whether the checksum is right or not (of an odd number of data digits, the complete pairs), so a caller who drops the error takes any well-formed text for valid; GetCoinbaseParts returns a complete coinbase1, the same as without the error, and a nil coinbase2; DecodeStringParts returns the elements before the incomplete one and nothing of a text that is not hexadecimal; Decode32Byte returns zeros. A caller who looks at the error first has the functions of the other properties.", "quantifier": "all texts, heights, values, wallets, byte strings", "why_tests_cant": "tests check the error and stop; what stands beside it must be known for every failing input", "anchors": ["script/address/BIP276.go:DecodeBIP276", "block/GetCoinbaseParts.go:GetCoinbaseParts", "script/OpPushdata.go:DecodeStringParts", "utils/ByteManipulation.go:Decode32Byte"]}
{"id": "C96", "title": "Copies of a transaction in several goroutines", "statement": "Goroutines that each AddInput / AddOutput to lists of transactions of their own, and read these or lists nobody adds to, have no data race and get in every schedule what they would get on plain lists, provided nothing else lies in the spare capacity behind the lists; in particular struct copies of one transaction whose lists are full when copied may be extended independently. Struct copies with room behind a list may not: goroutines that each add one element to their own copy race although none touches another's struct, and in every schedule, also one after the other, all these copies end with the same new element, any one of those added, and the others are lost without an error; a goroutine that adds to its copy and reads it back can find the other's element. What was there when the copies were made is never lost: it stays at the beginning of every list and every reading.", "quantifier": "all memories, transactions, copies, numbers of goroutines, sequences of calls, allocators and schedules", "why_tests_cant": "it ranges over all interleavings and all slice capacities; with the capacities a test happens to get (a power of two after repeated append) copies may be full and nothing goes wrong", "anchors": ["transaction/Transaction.go:AddInput", "transaction/Transaction.go:AddOutput", "transaction/Transaction.go:GetInputs", "transaction/Transaction.go:GetOutputs", "transaction/Transaction.go:InputCount", "transaction/Transaction.go:OutputCount"]}
{"id": "C97", "title": "A transaction parsed from a buffer that is used again", "statement": "After NewFromBytes, whatever is later written to the caller's buffer, the transaction keeps the version, lock time, spent outputs, sequence numbers and amounts it was parsed with, and its scripts are the bytes the buffer holds now at the places of the scripts. Together these are the old bytes with the scripts' bytes taken from the new ones: parsing that mixture gives the transaction shown, and ToBytes returns it if the buffer held the shortest encoding. The transaction is unchanged exactly when the bytes of its scripts are; GetTxID changes whenever they do unless SHA256d collides on two explicit messages. A second transaction read into the same buffer with scripts of the same sizes gives the first one the second one's scripts. Parsing itself reads no byte of a script. A transaction from NewFromString has its bytes to itself. The expectation that a parsed transaction is independent of the buffer is refuted: it can become one that nobody has sent.", "quantifier": "all buffers that parse, with any offset and spare capacity, and all later contents of the array behind them; all strings for NewFromString", "why_tests_cant": "a test writes a few bytes to a few buffers; the claim is about every later content of every buffer, and about exactly which bytes matter", "anchors": ["transaction/Transaction.go:NewFromBytes", "transaction/Transaction.go:NewFromString", "transaction/Transaction.go:ToBytes", "transaction/Transaction.go:GetTxID", "transaction/input/Input.go:NewFromBytes", "transaction/output/Output.go:NewFromBytes", "script/Script.go:NewFromBytes"]}
{"id": "C98", "title": "What Decrypt's failures reveal", "statement": "For every ciphertext made by Encrypt with a 16-byte block cipher there is a list of messages, made from the ciphertext alone (255 for each base64 character, each at most 32 bytes, none of them the ciphertext itself), such that knowing only whether Decrypt accepts each of them determines the text, whatever the key and the initial bytes. Whoever may ask whether Decrypt accepts messages can compute the block cipher on any block, and so encrypt and decrypt everything without the key. Refuted expectation: a ciphertext keeps its text from those who only see whether Decrypt fails.", "quantifier": "every block cipher (key), every initial bytes, every text and its ciphertext; every block", "why_tests_cant": "a statement about all keys and texts at once: that the accept/reject answers determine the text needs a proof that no two texts give the same answers", "anchors": ["crypto/Encryption.go:Encrypt", "crypto/Encryption.go:Decrypt"]}
{"id": "C99", "title": "What others can do to a transaction that has been signed", "statement": "Whoever sees a transaction that a node accepts can make any number of others from its bytes, without any key: each is accepted in its place, spends the same outputs, pays the same amounts, and differs only in the unlocking scripts. Once one of them is known the original is accepted no more, and neither is anything signed to spend the original's outputs. Nothing else can be changed: if a key has signed nothing but one transaction (SIGHASH_ALL with fork id, as the library signs by default), then every accepted input that spends an output of that key belongs to a transaction with the same version, lock time, outpoints, sequence numbers and outputs, or a collision of a hash is at hand. Refuted expectation: the TxID of a transaction signed by SignAuto is final.", "quantifier": "every accepted transaction, every set of known transactions, every verification relation and key, every number of variants; every two transactions for the converse", "why_tests_cant": "it speaks about everything an outsider may send and every signature scheme", "anchors": ["transaction/Transaction.go:SignAuto", "transaction/Transaction.go:GetTxID", "transaction/SignatureHash.go:GetInputSignatureHash"]}
{"id": "C100", "title": "Which signature flags the network takes", "statement": "Sign and SignAuto, called with an InternalSigner on inputs that spend outputs of its key, leave an input that the network takes (a signature must carry the fork id and one of the base types ALL, NONE, SINGLE; ANYONECANPAY may be added) exactly if the signer's flag is unset or one of 0x41, 0x42, 0x43, 0xc1, 0xc2, 0xc3. In particular what a wallet builds and signs with a signer that has no flag set is accepted by a node with this rule. Refuted expectation: every flag the sighash package exports can be signed with; with All, None, Single, AnyOneCanPay, ForkID or AnyOneCanPayForkID the library reports success and no node takes the input. The same holds when several key holders sign one transaction, each their own inputs: with network flags the node takes the result, and without them it takes none.", "quantifier": "every transaction, input, key, flag byte, verification relation and sequence of From and PayTo calls", "why_tests_cant": "it speaks about all 256 flags, all transactions and every signature scheme", "anchors": ["transaction/signature/InternalSigner.go:Sign", "transaction/signature/InternalSigner.go:SignAuto", "transaction/signature/sighash/SigHashFlag.go:AnyOneCanPayForkID"]}
{"id": "C101", "title": "Signatures that leave parts of a transaction open", "statement": "An input signed through Sign or SignAuto with one of the network's flags can be moved by whoever holds it into every transaction that its flag covers, and the network takes it there: same input, version and lock time; without ANYONECANPAY the same outpoints (and for ALL the same sequence numbers); for ALL the same outputs, for SINGLE the output of the same number. So a wallet's transaction signed with NoneForkID can be made to pay to anybody, and with NONE and ANYONECANPAY each input can be spent by itself by anyone. Pledges work: any number of people each build a transaction with From for their own outputs and PayTo for the agreed payments and sign it with 0xc1; once the pledges cover the payments, a transaction with all their inputs is accepted by the network; and whatever is accepted that spends an output of a key which has only signed its pledge pays exactly the agreed outputs, or a collision is at hand.", "quantifier": "every transaction, flag, key, verification relation, set of known transactions, number of pledges and list of payments", "why_tests_cant": "it speaks about every transaction an input may be moved into and any number of parties", "anchors": ["transaction/Transaction.go:SignAuto", "transaction/Transaction.go:Sign", "transaction/SignatureHash.go:GetInputSignatureHash", "transaction/signature/sighash/SigHashFlag.go:NoneForkID"]}
{"id": "C102", "title": "Which calls can stop a program", "statement": "Given any texts, bytes, lists and numbers whatever, the following never panic: address NewFromString and NewFromPublicKeyString, script NewFromHexString, NewFromASM, NewP2PKHFromPubKeyStr, NewP2PKHFromPubKeyHashStr, NewP2PKHFromAddress, GetPushDataPrefix, EncodeParts, NewRedeemScript, input NewFromUTXO, output NewP2PkhFromPubKeyHash, NewP2PKHFromAddress, NewHashPuzzle, NewOpReturn, NewOpReturnParts, MerkleRootFromBranches and GetCoinbaseParts. DecodeParts, DecodeStringParts, ToASM, GetPublicKeyHash, IsData, ExpandTargetFromAsInt, Output.ToBytes, GetBytesForSigHash, GetLockingScriptHexString, ApplyUnlockingScript, GetLittleEndianBytes, Encrypt, Decrypt and AddPublicKey panic exactly in the cases listed (a push whose length arithmetic overflows; an opcode with nothing behind it; fewer than four bytes; no locking script; no such input; a length below four; a block size other than 16; a key library that panics). Three bytes (4d fd ff, 4d fe ff, 4d ff ff and no others) are the shortest scripts that stop DecodeParts.", "quantifier": "every argument of every function named", "why_tests_cant": "absence of a panic for all arguments, and the exact set of arguments that panic", "anchors": ["script/OpPushdata.go:DecodeParts", "script/OpPushdata.go:DecodeStringParts", "script/Script.go:ToASM", "script/Script.go:NewFromASM", "transaction/Transaction.go:ApplyUnlockingScript", "transaction/output/Output.go:GetLockingScriptHexString", "transaction/output/Output.go:NewHashPuzzle", "block/Difficulty.go:ExpandTargetFromAsInt", "script/RedeemScript.go:AddPublicKey"]}
{"id": "C103", "title": "When the TxID of a signed transaction is final", "statement": "A node that follows the rules against changed unlocking scripts (shortest pushes only, nothing left on the stack but true, public keys of 33 or 65 bytes, flags of the network, shortest lengths on the wire) takes an input that spends a P2PKH output exactly if its unlocking script is what NewP2PKHUnlockingScript makes of a public key with that hash and a verifying signature. It takes what a wallet builds with From and PayTo and signs with SignAuto. If no signature of the key is about except those it makes for this transaction, whatever such a node takes that spends any of the same outputs is this transaction byte for byte, so the TxID is final, or two messages with the same hash are at hand. Refuted expectation: these rules are enough by themselves; where a second signature can be made from a first, a second transaction is taken too.", "quantifier": "every verification relation and key, every set of known transactions, every history of From and PayTo calls, every byte string another party may send", "why_tests_cant": "it speaks about every transaction anyone could send in the place of the signed one, and every signature scheme", "anchors": ["transaction/Transaction.go:SignAuto", "transaction/Transaction.go:GetTxID", "script/UnlockingScript.go:NewP2PKHUnlockingScript", "script/OpPushdata.go:GetPushDataPrefix"]}
{"id": "C104", "title": "Parts of the lists of inputs and outputs, and elements taken out of them", "statement": "While a program only adds to the lists New made and only reads the lists and parts (ins[a:b], ins[a:b:b]) it got, every variable reads as if it held a list of its own. In any history at all, nothing a program does through slices whose capacity does not reach into a list changes that list. append(ins[:i], ys...) writes ys over the transaction's elements from i on, exactly when i+len(ys) is at most the capacity; append(ins[:i:i], ys...) never does. t.Inputs = append(t.Inputs[:i], t.Inputs[i+1:]...) leaves the transaction all elements but i, in order; a list got before then shows these and the last element a second time, and, after a further AddInput, the added one in its place. Taken out through a fresh list, the earlier list stays what it was, whatever is done to the transaction afterwards.", "quantifier": "every history of New, AddInput/AddOutput/From/PayTo, GetInputs/GetOutputs, re-slicing, append, assignment of slices and elements; every list, index and growth policy", "why_tests_cant": "depends on the runtime's capacities, on positions and on histories of any length", "anchors": ["transaction/Transaction.go:New", "transaction/Transaction.go:AddInput", "transaction/Transaction.go:AddOutput", "transaction/Transaction.go:GetInputs", "transaction/Transaction.go:GetOutputs"]}
{"id": "C105", "title": "Methods called through nil pointers", "statement": "Called through a nil pointer, AddInput, AddOutput, From, PayTo, the script builder methods and RedeemScript.AddPublicKey first look at their arguments: with arguments they would refuse they return exactly the error they return on every live receiver, and otherwise the program stops, even when there is nothing to append. A program that ignores errors and calls through nil ends with nil if every call was refused and stops otherwise. Every method that reads or signs a transaction or reads a script stops the program, except GetPublicKeyHash, which refuses. Signing with a nil signer stops the program; with a signer that has no key an input that cannot be signed is refused with the error every key gives, and otherwise the program stops; SignAuto then returns only for a transaction without inputs. Through a pointer that is not nil the methods do what they do.", "quantifier": "every call with every argument, every sequence of calls, every receiver, every HD-key library", "why_tests_cant": "ranges over all arguments and all sequences of calls", "anchors": ["transaction/Transaction.go:AddInput", "transaction/Transaction.go:From", "transaction/Transaction.go:PayTo", "script/Script.go:AppendPushData", "script/Script.go:AppendPushDataArray", "script/Script.go:GetPublicKeyHash", "script/RedeemScript.go:AddPublicKey", "transaction/signature/InternalSigner.go:Sign", "transaction/signature/InternalSigner.go:SignAuto"]}
{"id": "C106", "title": "Which byte a failed Decrypt names", "statement": "The offset in Decrypt's error is determined by the decrypted text: it is that of the first byte that is neither digit, newline nor padding; of padding that comes too early; of what follows complete padding; the length of the text if the second padding character is missing; the byte before what stands in its place; the length less the digits of an incomplete group of four. There is such an offset exactly if the text is not accepted; it is at most the length, and every byte before it is a digit, a newline or padding. Setting or clearing the highest bit of byte i of a ciphertext made by Encrypt (and changing what follows at will) makes Decrypt name byte i, or i-1 if i is the second padding character, whatever the key. Refuted expectation: the byte named is one that is wrong.", "quantifier": "every block cipher, every text, every ciphertext, every position", "why_tests_cant": "ranges over all texts, keys and positions", "anchors": ["crypto/Encryption.go:Decrypt", "crypto/Encryption.go:Encrypt"]}
{"id": "C107", "title": "How much is hashed while signing", "statement": "Making the signature hash of an input, and so Sign, hashes every outpoint (36 bytes an input), every sequence number (4 bytes an input) and every output, so far as the flag covers them, and then a text of 156 bytes and the script spent with its length. What is hashed of the inputs and outputs is the same text for every input, signing changes none of it, yet nothing is kept for the next input: SignAuto hashes the public key once for every input, and what the flag covers anew for every input it signs: with the default flag, for n inputs, m of them spending outputs to the signer's key and the others anything or unknown outputs, that is m*(40n + w + 182) bytes, w being the bytes of the outputs; with ANYONECANPAY|SINGLE at most 182n + w. An input without previous txid or script is refused before anything is hashed. Refuted expectation: the work of SignAuto grows linearly with the size of the transaction; with n inputs of one key at least 40*n*n bytes are hashed.", "quantifier": "every transaction with at most 2^32 inputs and fewer than 2^31 outputs, every flag, every key", "why_tests_cant": "a count over all transactions of all sizes; tests see results, not work", "anchors": ["transaction/SignatureHash.go:GetInputSignatureHash", "transaction/SignatureHash.go:getPrevoutHash", "transaction/signature/InternalSigner.go:SignAuto", "transaction/signature/InternalSigner.go:Sign"]}
{"id": "C108", "title": "How much is hashed for a Merkle tree", "statement": "GetMerkleBranches of n txids computes one double hash for every pair of every level (levels being halved, rounded up, until one is left), between n-1 and n-1+log2(n) of them, n-1 if n is a power of two, each of 64 bytes if the txids are of 32. BuildMerkleRootFromCoinbase computes one for every branch, of the hash so far and the branch: with the branches of n txids as many as n has levels. MerkleRootFromBranches computes one for every branch before the first that is no hexadecimal text, whatever the index, and none if the txid is no hexadecimal text. Refuted expectation: an index no proof of that length can have is refused before anything is hashed.", "quantifier": "every list of texts, every index, every coinbase hash", "why_tests_cant": "a count over all lists; tests see results, not work", "anchors": ["block/GetMerkleBranches.go:GetMerkleBranches", "block/GetMerkleBranches.go:MerkleRootFromBranches", "block/BuildMerkleRootFromCoinbase.go:BuildMerkleRootFromCoinbase"]}
