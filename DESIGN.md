# Formal model of libsv/libsv in Coq 8.16.1

The code is read as text (it is never run here); every definition of the model
cites the Go file and lines it transcribes. The properties are listed in
`properties.jsonl` (C01, C02, ...), the theorem names in `MANIFEST.json`.

## Layout (rocq/theories)

| files | content |
|---|---|
| `Bytes.v`, `GoRt.v` | bytes, fixed-width integers, Go slices (visible bytes + spare capacity), outcomes `Ok / Err / Panic`, hex and little-endian codecs of the Go standard library |
| `M_*.v` | the model, one file per Go package area, definitions only |
| `S_*.v` | small independent specifications (wire grammar, digest preimage, merkle root, base58 value, ...), definitions only |
| `P_*.v` | proofs |
| `T_*.v` | the property theorems: statement, `exact lemma`, `Print Assumptions`, and a non-vacuity example |
| `X_*.v` | conformance examples: the repo's own unit-test vectors evaluated in the model (tests, not proofs) |

## Modelling conventions

* A Go `byte` is Coq's `Byte.byte` (256 constructors, so no range hypothesis is
  needed); `[]byte` and `string` are `list byte`. `uint32`/`uint64` are `N`
  with the range as an explicit boolean well-formedness predicate where a
  theorem needs it, conversions and additions wrap explicitly; `int` is a
  64-bit two's-complement `Z` (GOARCH with 64-bit int).
* A slice that is *sliced* by the code is a record of visible bytes and spare
  bytes (between len and cap), because Go bounds-checks `b[lo:hi]` against cap.
* `(T, error)` becomes `Ok v | Err e`; a Go run-time panic (index, slice, nil
  dereference, `log.Panic`) is the third outcome `Panic`. Nil pointers are
  `option`.
* Loops become structural recursion or recursion over a binary counter; the
  loops bounded by remaining data use fuel = length and a proved unfolding
  equation that shows that fuel never runs out.
* SHA-256 and RIPEMD-160 are concrete Gallina functions (FIPS 180-4 and the
  RIPEMD-160 paper), so theorems have no hash parameter and the repo's vectors
  can be computed. Because collisions exist, "commits to" theorems name the two
  concrete messages that would collide instead of saying "some collision exists".
* External packages whose source is not here: `bsvutil/base58` is modelled
  concretely (from its published algorithm), `bsvec` keys, `hdkeychain`, AES and
  the random reader are universally quantified functions.
* Aliasing (append into spare capacity, in-place decryption, in-place sort) is
  modelled in `M_Mem.v` with an explicit heap and (array, off, len, cap) slices.

## Plan per property

| id | what is modelled | how it is proved |
|---|---|---|
| C01-C03 | `VarInt`, `DecodeVarInt` on slices with capacity | case split on the 4 classes, LE round-trip lemma; minimality by bounding what each size can decode |
| C04-C07 | byte helpers, hex strings | list induction; sortedness + permutation uniqueness; capacity case analysis for `Decode32Byte` |
| C08-C12 | `EncodeParts`, `DecodeParts`, builder methods | unfolding equation for the decoder, induction over parts / over the call history; inductive grammar of script elements as spec |
| C13-C18 | constructors and predicates of `script` | explicit byte-pattern specs; decoder grammar; 256-entry opcode tables by finite sweep |
| C19-C24 | base58, address, BIP276 | positional-number lemmas (big-endian base 256 / base 58), invariant of the in-place multiply-add loop; regex as an explicit splitting at the last ':' proved equivalent to a declarative match |
| C25-C35 | input/output/transaction codec, builder, txid | wire grammar (relation) as spec; iff theorem for the parser; induction over counts |
| C36-C41 | signature hash, signer | preimage spec; injectivity of concatenation of fixed-size/varint-prefixed fields; key = arbitrary function |
| C42-C46 | merkle, header | strong induction on list length (halving), spec merkle root by levels |
| C47 | coinbase | composition of C25-C33, C19, C21 |
| C48-C49 | difficulty | integer arithmetic; binary64 through Flocq for the quotient |
| C50-C51, C58 | redeem script | permutation uniqueness of sorting; decoder grammar; HD keys as arbitrary functions |
| C52-C53 | AES-CFB + base64 | CFB over an arbitrary block function, base64 round trip by induction in steps of 3/4; heap version for the in-place write |
| C54-C55 | outputs, hashes | unfolding; length lemmas of the compression functions |
| errors of C20, C21, C24-C26, C28, C44, C47, C68 | `S_Errors.v`: one inductive per parser | `P_Errors.v`: both directions, with the acceptance and panic theorems a partition of all outcomes |
| exact bytes of C12, C14, C15, C18, C35, C39, C43, C54 | `S_Builder.v` | `T_Builder.v`, `T_Exact.v` |
| C56-C57, C05 (in place) | `M_Mem.v`: parser, append, merkle root, sort over a heap of arrays and (array, off, len, cap) slices | refinement of the parser model without memory; layout invariant of the parse loops; frame lemmas for writes; witnesses by computation |
| C59, C60 | `HumanHash`, hash rates | threshold case split; binary64 through Flocq |
| C61 | `Input.String`, `Output.String` (`M_Text.v`) | numeral lemmas; injectivity of line-structured text |
| C62 | `M_Heap.v`: heap of `Input` objects, transactions as lists of pointers, signing over it | refinement of the value model through `view`; frame lemmas; witness |
| C63 | composition of parser and signature hash | every parsed input has no previous script |
| C64 | P2PKH script machine in `S_Flow.v`; builder + SignAuto + wire | signature hash does not depend on unlocking scripts; exact pushes |
| C65 | sequences of `Sign`/`SignAuto` | induction over the history with a write-effect description of each call |
| C66 | merkle root of two lists | induction on the tree depth; collision messages named by `hashed_in` |
| C67 | `ValidateAddress` and `PayTo` together | both decoders reduced to the same base58 relation |
| C68 | hexadecimal constructors | `hex_text` relation as spec |
| C69 | `NewFromASM`, `ToASM` on every text and script | words relation as spec; finite sweep over the name tables |
| C71 | histories of builder calls over several scripts in a heap (`M_Share.v`) | invariant: storage stays apart; converse by runs of opcodes that reach the shared byte |
| C72 | the parsing loops with a counter of iterations (`M_Cost.v`), proved to have the result of the loops of C10-C30 | induction over the loops: every iteration but the last consumes an item |
| C73 | inductive sets of transactions reachable through the API (`S_Made.v`) | invariant over the histories, then C27 |
| C74 | arrays of the runtime and slices of them, with append as Go does it (`M_Slots.v`) | simulation by independent lists while got slices are only read; exact result of two interleaved growths and of writes otherwise |
| C75 | the parsers on slices with spare capacity (`M_Tx.v`), the buffer of `hex.DecodeString` | exact characterisation of Err and Panic for every visible and spare content, from the decoder up; NewFromString by the layout of its buffer |
| C76 | the places where the error of hex.DecodeString is dropped | the pairs read (`reads`, S_Lenient.v) determine the decoder's partial result; each function depends on the text through it only |
| C77 | `toBytesHelper` on every transaction value, nil pointers included | loop invariants for panic / layout; independent layout `writes_tx` |
| C78, C79 | stack machine of the protocol for all words in the library's scripts (`S_Demand.v`), signature check arbitrary | inversion of the run of each exact script (C13, C18, C50, C54), both directions |
| C80 | the methods as programs that read and write fields one at a time (`M_Conc.v`), goroutines as interleavings (`S_Conc.v`) | footprints: an invariant over all schedules shows that calls apart from each other behave as alone (`P_Conc.v`); counterexamples by explicit schedules |
| C81 | GetRedeemScript likewise, sort.Sort as an arbitrary strategy of Less and Swap (`M_ConcRs.v`) | footprints with silent writes; induction over the strategy up to the first swap that matters |
| C82 | BuildMerkleRootFromCoinbase likewise, at the level of bytes (`M_ConcCb.v`) | footprints; an invariant "a call reads only what it wrote or what nobody changes"; explicit schedules |
| C83 | the miner's workflow over M_Coinbase, M_Block, M_Difficulty (`S_Mining.v`: job, header fields, climbs) | composition of C33-C38, C76; two climbs of equal length are compared hash by hash from the root, naming the pair that collides |
| C84 | a node with a ledger and wallets that chain transactions (`S_Chain.v`) over M_Tx, M_Signer | C64 gives acceptance of scripts under the transaction's own amounts; amounts and scripts are those the node knows because the id determines the bytes and the bytes the transaction; induction over the chain; exact accounting of fees (`T_ValueEx.v`) |
| C85 | any interleaving of building and signing calls on one transaction (`S_Joint.v`) over M_Tx, M_Signer, M_Sighash | an invariant over the calls (fields signed under the flag only grow), then C38 for survival and C37's commitments for the converse; histories of C65 for the joint spend |
| C86 | Encrypt and Decrypt of M_Encryption over an arbitrary 16-byte-block cipher | the CFB recurrence position by position, base64 of a prefix at a multiple of 4; `xored` says what is computed without the key |
| C87 | the Append methods and ToString as programs over cells (slice headers, bytes of arrays), M_ConcSc | disjoint read/write sets (P_Conc) give any schedule the sequential result; an invariant on the cells of the old bytes for one shared script; explicit schedules for the losses |
| C88 | sha256 and ripemd160 of M_Crypto against S_Hash: bitwise definitions of the operations, constants as root digits of primes, padding and blocks as relations | each operation equal bit by bit, the sliding window of the schedule equal to its recurrence, uniqueness of the root digits, induction over the blocks; iff, so the specification is also shown satisfiable and functional |
| C89 | M_Ext: a Signer is any function of the world of Input objects and Transaction structs; Sign/SignAuto copy the struct returned over the receiver | case analysis for one call; for histories the relation "old objects differ in unlocking scripts only" is transitive and preserves preimages (C38); the remote signer by the wire round trip (C27) and C63 |
| C90 | Encrypt and Decrypt as programs over the bytes of one array (`M_ConcEn.v`), interleavings as in C80 | footprints; cells keep a type (clear-text or ciphertext byte) under all schedules; explicit schedules of two calls in lock step, by induction on blocks and bytes |
| C91 | wallets and nodes as in C84 with the fee a node computes (`S_Fee.v`); the model of C64 and C84 | exact length of the bytes by induction over inputs and outputs; the script of each signed input from C18; the node's amounts as in C84 |
| C92 | programs that parse, assign the two fields, sign and serialise (`S_Offline.v`), over the model of C27, C39, C40 | the filled-in transaction agrees with the original on all that a signature hash reads (`agree` of C38); induction over signers; C37 for false information |
| C93 | the functions whose behaviour depends on the size of `int`, with the width as a parameter (`M_Word.v`); wire format with lengths modulo 2^32 (`S_Word.v`) | equal to the other model at width 64; at width 32 an exact characterisation of acceptance and panics, by induction over lists and scripts |
| C94 | the text of every error, with its arguments (`M_ErrText.v`); the model's errors carry those arguments | the beginnings of the texts form a prefix-free code (computed once for the constants), decimal and code-point texts are injective; then C20-C28, C44, C47, C58 say which call gives which error |
| C95 | the four functions that return something beside an error, with both results (`M_Beside.v`) | equal to the other model for a caller who looks at the error; the parts of a BIP276 text (C24) and what is read of hexadecimal text (C76) for the rest |
| C96 | AddInput/AddOutput and the readers of the lists as programs over cells (slice headers, elements of arrays), `M_ConcLi.v`; copies are equal headers | disjoint read/write sets (P_Conc) for separate lists; an invariant on the cells of the old elements for any family of copies; a stage invariant for copies with room, for any number of goroutines and every schedule |
| C97 | parsing on the memory of C56 (`M_Mem.v`), NewFromString on it (`M_Reuse.v`); a later memory is any heap whose array has kept its size | the parser reads nothing of the scripts (step-wise agreement of two heaps outside the windows), so the mixture parses to the same windows; shortest encodings by comparing lengths |
| C98 | Encrypt/Decrypt with an arbitrary block function (`M_Encryption.v`); the outsider sees only `answers E q`, whether Decrypt returns without error (`S_Oracle.v`) | the changes of one byte that are accepted identify the base64 character (a finite sweep over the alphabet, done by the kernel); quanta in front are made digits, so a 4-byte window can be asked about alone; the cipher is learned four bytes at a time |
| C99 | the node and the script machine of C84 (`S_Chain.v`, `S_Flow.v`); `signed_only` says what a key has signed (`S_Third.v`) | zero-length pushes in front of an unlocking script leave a longer stack (frame lemma for the machine) and the same preimages; the converse from C36, C37 and C78 |
| C100 | the machine of C84 with CHECKSIG restricted to the network's six flags (`S_Strict.v`) | C78 says what the unlocking script leaves; the last byte of the signature is the flag the signer used |
| C101 | the node of C100; `covers` says which inputs of which other transactions a flag covers (`S_Weak.v`) | covering preserves the preimage of C36; the node's checks from what From, PayTo and SignAuto leave (C84, C85); the converse for pledges from C37 and C78 |
| C102 | the functions as modelled; `overflows` says where DecodeParts panics (`S_Crash.v`) | case analysis, C10, C14, C16, C21, C44, C47, C68 |
| C103 | a node with the rules of BIP 62 over the machine of C78 (`S_Final.v`), the wallet of C84 | shortest pushes read in one way only and leave no choice of unlocking script; then C99's argument fixes the signed fields, and the key's own signature fixes each script, so the wire bytes agree |
| C104 | Go slices with offset, length and capacity, re-slicing, append of several elements (`M_Window.v`) | simulation by independent lists while parts are only read; frame theorem for slices that do not overlap; exact results of appending to a part and of taking an element out |
| C105 | methods through pointers that may be nil, in the order of their statements (`M_Nil.v`) | case analysis on the arguments, induction on the calls; agreement with the models of the methods for live pointers |
| C106 | the offset of `encoding/base64`'s error (`M_Fault.v`), and the text of Decrypt's error | decomposition of texts into digits, newlines, padding and the rest; CFB position by position |
| C107 | the signing code once more, noting the arguments of the hash functions (`M_Hashed.v`); the same results | sizes of the messages input by input, an invariant for the loop of SignAuto |
| C108 | the Merkle code once more, noting the arguments of Sha256d (`M_HashedBlock.v`); the same results | induction over levels and branches; the recurrence of halves solved between two bounds |
| C70 | memory-level `DecodeParts`, `GetPublicKeyHash` (`M_Parts.v`, heap of `M_Mem.v`) | layout relation `laid` as spec; simulation of the value-level decoder |

Properties whose natural statement is false of the code are kept in
`properties.jsonl` with the exact true behaviour; the theorem named
`..._refuted` exhibits the witness and the companion theorem gives the exact
domain on which the natural statement holds.

## Trusted base

* Coq 8.16.1 kernel (and `vm_compute` for the finite sweeps and examples).
* The transcription from Go to Gallina (by reading). `COVERAGE.md` lists every
  function of the repository with the definitions that model it.
* Section "Assumptions" below lists what `Print Assumptions` reports.

### What is modelled

All functions of the non-test Go files, exported and not (`COVERAGE.md`).
Where a function behaves differently depending on memory (slices that share an
array, pointers to shared inputs) there is a second, memory-level model
(`M_Mem.v`, `M_Heap.v`, `M_Parts.v`, `M_Share.v`) with a refinement theorem to
the value-level one.

### What is assumed or left out

* Code of other packages. `encoding/hex`, `encoding/binary`, `encoding/base64`,
  `math/big`, `sort`, `strings`, `fmt` verbs that occur, `regexp` for the one
  expression used, `strconv` on the inputs that occur, SHA-256, RIPEMD-160 and
  `bsvutil/base58` are written out in Gallina from their documentation.
  `sort.Sort` is any permutation that leaves no element smaller than its
  predecessor (insertion sort at value level). `bsvec` keys, `hdkeychain`, the
  AES block function and the random reader are arbitrary functions, universally
  quantified in the theorems; signing is a deterministic function of key and
  digest (it is RFC 6979 in bsvec); a signer that fails is an error result.
* Machine: 64-bit `int` (C93 says what changes with a 32-bit one). Slices have capacity below 2^62 (an explicit hypothesis
  of the parser theorems; no process can hold more). Out-of-memory and
  non-termination by size are not modelled.
* Concurrency: the library starts no goroutine and has no global mutable state
  (`init` in block/Difficulty.go writes two constants once), so schedules only
  matter through shared arguments. C80-C82 model those calls that share objects
  as sequentially consistent interleavings of accesses to fields, elements or
  bytes; what Go allows beyond that to programs with data races is not modelled
  (the negative results hold already within it).
* The value-level transaction model treats inputs as values, i.e. it assumes
  that no `*Input` occurs twice; C62 says exactly what changes otherwise.
* The model of the other properties drops values returned beside an error; C95 has
  them. Errors carry the arguments of their texts (C94 has the texts; the offset of a
  base64 error is apart, in C106), except errors of external packages.
* `log`/`fmt.Print` output of a function is not part of its result.

### Findings: natural expectations that are false of the code

Each is shown by a theorem ending in `_refuted` (witness) or by an exact theorem
from which the failure can be read off; companions state what holds instead.

| property | expectation that fails |
|---|---|
| C03, C07 | `DecodeVarInt` and `Decode32Byte` stay within the visible bytes / accept only 32 bytes |
| C08, C10 | every encoded push list decodes back (single small opcodes are ambiguous); decoding never misreads |
| C14, C15, C40 | `GetPublicKeyHash` (and so `SignAuto`) answers only for P2PKH; the template predicates are disjoint and exact |
| C16 | the template predicates never panic |
| C17, C69 | ASM text and scripts are inverse to one another |
| C20, C21, C67 | an address that validates can be paid and vice versa (checksum ignored by `NewFromString`) |
| C23, C24 | BIP276 text round-trips (network and version swapped, hex against decimal); decoder panics |
| C28 | the txid of a parsed transaction is the hash of the received bytes |
| C30 | the transaction parser never panics |
| C33 | `IsCoinbase` holds only for null outpoints |
| C35 | `ToBytesWithClearedInputs` keeps the input it is about |
| C36 | every output can be signed with SIGHASH_SINGLE (from number 2^31 on the conversion to int32 makes the call panic) |
| C41 | `SignAuto` reports signing failures |
| C44, C45, C66 | negative indices are refused; a root fixes the list of leaves |
| C46, C47 | a header has 80 bytes; the coinbase height is BIP34-correct and injective |
| C48, C49 | the sign of a target is kept; difficulty and target expansion agree; non-hex bits are refused |
| C50 | different key lists give different redeem scripts |
| C52 | decryption notices tampering |
| C61 | `String` never panics |
| C51, C58 | a redeem script has the shape m-of-n for every m and number of keys |
| C53, C56, C57, C70, C71 | arguments and parsed scripts do not share storage with results |
| C59 | the shown mantissa is below 1000 |
| C62 | signing one transaction leaves others alone |
| C63 | a parsed transaction can be signed |
| C73 | `From` refuses a transaction reference that is not 32 bytes of hex |
| C74 | a copy of a `Transaction` struct, or a list from `GetInputs`, is independent of the original |
| C76 | text that is not hexadecimal is refused, or at least changes the result |
| C78 | only the owner can spend what `NewP2PKHFromPubKeyHashStr` makes (an 18-byte hash lets anybody) |
| C79 | a redeem script can be satisfied; signatures may come in any order |
| C80 | signing different inputs of one transaction in different goroutines is safe (with `Transaction.Sign` it races and loses outputs; with a shared signer it races) |
| C81 | `GetRedeemScript`/`GetAddress` may be called from several goroutines |
| C82 | `BuildMerkleRootFromCoinbase` may be called from several goroutines with one hash |
| C84 | what `From`, `PayTo` and `SignAuto` make without an error is a valid transaction (an output may be named twice and payments may exceed the funds) |
| C85 | a signature covers the transaction it was made for (under SINGLE an input without an output of its number stays spendable while outputs are added before that position, and under NONE or ANYONECANPAY anyone may add) |
| C86 | a cut or changed ciphertext is refused (a cut at a multiple of 16 and a length that is a multiple of 4 decrypts, and the last block can be rewritten without the key) |
| C87 | two goroutines appending to one script both leave their bytes in it (one can vanish, or the two mix byte by byte); a script only read is not changed by building another (it can lie in that one's spare capacity) |
| C89 | a signed transaction is the one given to the signer, with scripts (nothing checks it); after one input was signed remotely the others can be signed locally (the parsed reply has lost what they spend; SignAuto returns nil without signing) |
| C90 | a ciphertext may be decrypted by two goroutines (Decrypt writes the clear text over it: both may fail or return another text without an error) |
| C91 | the bytes of the unsigned transaction tell the fee it needs (signing adds 36 bytes and the signature per input) |
| C92 | SignAuto reports inputs it could not sign because their spent outputs were not filled in (it returns nil) |
| C93 | 32-bit and 64-bit builds give the same answers (a 32-bit build accepts other byte forms of a transaction and panics on others; `DecodeParts` panics on a huge PUSHDATA4) |
| C94 | MerkleRootFromBranches names the index it was given (it names what is left after shifting); the Electrum reader names the cause (a script that starts with no number has "More than 15 signatures") |
| C95 | nothing usable stands beside an error (DecodeBIP276 returns the data of a text with a wrong checksum) |
| C96 | a struct copy of a transaction can be extended in another goroutine (with room behind the list, all copies end with one and the same new element) |
| C97 | a transaction parsed from a buffer does not depend on it afterwards (its scripts do, its amounts do not: a mixture of two transactions) |
| C98 | a ciphertext keeps its text from those who only see whether Decrypt fails (255 questions for each character give the text; the block cipher itself can be computed from the answers) |
| C99 | the TxID of a transaction signed by SignAuto is final (anyone can change the unlocking scripts: another accepted transaction with another TxID, after which the original and what spends it are refused) |
| C100 | every flag the sighash package exports can be signed with (six of them give signatures that no node takes, and no error) |
| C103 | the rules against changed unlocking scripts alone make a TxID final (where a second signature can be made from a first, the careful node takes a second transaction) |
| C104 | after an input is taken out with `append(ins[:i], ins[i+1:]...)`, a list from an earlier `GetInputs` still shows the old inputs (it shows the last one twice, and then whatever is added next) |
| C105 | whether a method called through nil returns an error or stops the program depends on its arguments: `From` with a bad script returns an error, with a good one it panics |
| C106 | the byte named by a base64 error need not be a wrong one |
| C107 | signing takes quadratic work in the number of inputs |
| C108 | a proof with an impossible index costs as much as any other |

### Assumptions

Every theorem prints "Closed under the global context", except those about
binary64 numbers, which use Coq's `Reals` and Flocq and therefore report
axioms of the standard library only:
`ClassicalDedekindReals.sig_forall_dec`, `ClassicalDedekindReals.sig_not_dec`,
`FunctionalExtensionality.functional_extensionality_dep` and
`Classical_Prop.classic` (all or some of them). These are: C49_* (those that
mention `f64`), C59_*, C60_*, C76_difficulty.
