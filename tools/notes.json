{
 "C03": {
  "note": "Exact equation for every slice and capacity, including the over-read."
 },
 "C05": {
  "note": "Returned list. C05_in_place: the argument's own array ends up in that order (memory model; sort.Sort is external and taken as any permutation that leaves no element smaller than its predecessor)."
 },
 "C07": {
  "note": "The natural claim is refuted with a witness; the exact behaviour for every length is proved."
 },
 "C56": {
  "note": "The expectation is false for every parsed transaction (C56_never_independent); exact effect of every append on every script and on the caller's buffer."
 },
 "C57": {
  "note": "The expectation is refuted; exact set of bytes written, for every layout."
 },
 "C61": {
  "note": "Exact text, injectivity, exact panic domain; printing a fresh unsigned input panics (C61_total_refuted)."
 },
 "C62": {
  "note": "Heap model refines the value model without sharing; independence with sharing is refuted."
 },
 "C64": {
  "note": "Key and verifier are arbitrary functions related by `honest`; the script machine of `accepted` covers the opcodes of P2PKH, and C64_full_machine carries the result to the larger machine of C78."
 },
 "C66": {
  "note": "Equal tree depth is a hypothesis of C66_root_determines (inner nodes and leaves are not told apart, see C66_inner_node_accepted)."
 },
 "C69": {
  "note": "The exact result for every text and every decodable script; C69_same_elements_refuted shows that empty elements at the ends are lost."
 },
 "C70": {
  "note": "C70_value ties the memory-level decoder to the value-level one of C10/C11; slices are any well-formed ones."
 },
 "C71": {
  "note": "C71_independent_iff is an exact characterisation; C12_builder_bytes says what run_call appends. Temporaries of EncodeParts are not in the heap."
 },
 "C12": {},
 "C72": {
  "note": "The counters count loop iterations, not machine steps; copying and hex-encoding inside an iteration are not counted. C72_example shows the bound attained."
 },
 "C73": {
  "note": "Programs that write to the exported fields of inputs and outputs directly are outside the set. C73_reference_unchecked_refuted is the counterexample to an unconditional round trip."
 },
 "C74": {
  "note": "The elements are pointers; what happens to the pointed-to Input or Output is C62/C71. Parts of the lists (ins[1:]) are C104."
 },
 "C75": {
  "note": "Capacities below 2^62, as in C36. hex.DecodeString decodes in place: the spare bytes are the second half of the text plus the allocator slack."
 },
 "C04": {
  "note": "C04_fresh is the statement about memory: the result lies in a new array and every other slice (spare bytes included) reads as before."
 },
 "C78": {
  "note": "The machine S_Demand.v covers the words that occur in the library's scripts (pushes, OP_1..16, DUP, HASH160, EQUAL, EQUALVERIFY, CHECKSIG, CHECKMULTISIG, RETURN after Genesis); the signature check is an arbitrary relation."
 },
 "C79": {
  "note": "At most 16 keys of 1..75 bytes (compressed keys have 33): beyond that the count is not a number opcode (C51)."
 },
 "C80": {
  "note": "Sequentially consistent interleavings of accesses to fields (Go guarantees these for programs without races; for racy programs they are among the executions). A script or a slice of pointers is one cell. In C80_answers .. C80_rest_untouched Transaction.Sign/SignAuto are included although they write back the struct (the same values): a race in Go's sense, shown by C80_transaction_sign_races."
 },
 "C81": {
  "note": "Interleavings as in C80; an element of PublicKeys is one cell. Calls on ordered keys still write PublicKeys back (the same slice header), a benign race in Go's sense. Sorting strategies are arbitrary decision trees of Less and Swap."
 },
 "C82": {
  "note": "Interleavings as in C80; a byte is one cell."
 },
 "C83": {
  "note": "S_Mining.v. The numbers of branches must be equal: with different numbers a 64-byte coinbase could pass for an inner node. The GetMerkleBranches placeholder is not read."
 },
 "C84": {
  "note": "S_Chain.v has the node and the wallet. The node's rules on coinbase maturity, lock times, sizes and fees above zero are left out; scripts run on the machine of C64. Signature schemes are arbitrary relations under which the key's signatures verify."
 },
 "C85": {
  "note": "S_Joint.v has the calls and what a flag allows; the node is that of C84. C85_breaks names the two digests for which the one signature would have to verify, or the colliding messages; unforgeability itself is not assumed. Parties work on one value in one goroutine; concurrent use is C80."
 },
 "C86": {
  "note": "The cipher is an arbitrary function on 16-byte blocks, so nothing is said about its strength; the buffer left behind by Decrypt (its second effect) is what C86_local and C86_one_byte speak of, since base64 may refuse the changed text."
 },
 "C87": {
  "note": "Sequentially consistent interleavings of single accesses; a slice header is read and written in one access (C87_races shows that the other cases are races, of which Go promises nothing)."
 },
 "C47": {
  "note": "C47_input_helper and C47_chunk are about two helpers no exported function calls."
 },
 "C88": {
  "note": "The specification (S_Hash.v) is written from the standards: bitwise functions, constants as digits of roots of primes (C88_primes shows the list is the first 64), padding, blocks. The iff statements say the modelled function is exactly it, for all messages. That Go's crypto/sha256 and x/crypto/ripemd160 compute the modelled function is trusted (libraries outside the repo)."
 },
 "C89": {
  "note": "The signer is universally quantified over functions of the objects it can reach; the remote signer is a program over the library's own ToBytes and NewFromBytes. Slices of pointers are lists here; their spare capacity is the subject of C74."
 },
 "C90": {
  "note": "Interleavings as in C80; a byte is one cell, read and written in rising order (the assembly of xorBytes handles several at once). The one-block theorem has no counterpart for longer texts because a call may feed clear text of the other into its register."
 },
 "C91": {
  "note": "Signature lengths are a hypothesis on the key (ECDSA is a parameter); 74 is the bound up to which the pushes have one-byte headers. Relay policy and dust limits are not modelled."
 },
 "C92": {
  "note": "The assignment of PreviousTxSatoshis and PreviousTxScript is the caller's and is part of the specification. Transactions on the way are taken to be below 2^62 bytes."
 },
 "C93": {
  "note": "The expectation that all platforms agree is refuted in two ways (other byte forms, panics); the theorems say exactly where the platforms differ. The functions that depend on the size of int are written once, with the width as a parameter, and at width 64 are proved to be the ones used everywhere else."
 },
 "C94": {
  "note": "Texts of errors of the key library, the random source and a caller's signer are excluded (own_text); the offset in a base64 error is left open here and given by C106. Two expectations (the index named by MerkleRootFromBranches; the threshold message of the Electrum reader) are refuted."
 },
 "C95": {
  "note": "Removes the simplification that values beside an error are dropped: those functions are modelled with both results and proved to agree with the others. The expectation that the value is unusable is refuted for DecodeBIP276."
 },
 "C96": {
  "note": "Headers and elements are separate cells; the array the runtime takes for append and its spare capacity are arbitrary. Refuted expectation: a struct copy of a transaction may be used in another goroutine. Copies are made before the goroutines start."
 },
 "C97": {
  "note": "Any later contents of the array, including a second transaction. Refuted expectation: a parsed transaction is independent of the buffer it was parsed from."
 },
 "C98": {
  "note": "The block cipher is an arbitrary length-preserving function; the outsider sees only success or failure of Decrypt. Learning the cipher is a computation with up to 2^32 questions for each four bytes; recovering a text takes 255 for each base64 character."
 },
 "C99": {
  "note": "The node is that of C84: consensus rules for scripts, not a relay policy (a policy that asks for shortest pushes or an exact stack refuses the variants made here). verify is any relation."
 },
 "C100": {
  "note": "The rule about flags is the network's, not the library's; the library does not check it. The nodes of C64 and C84 take any flag, this one only six."
 },
 "C101": {
  "note": "The library has no function that merges transactions: the collector puts the Inputs of the pledges into one list, which the theorem says in so many words. C101_pledge_safe assumes that nothing else verifies under the key (unforgeability, and that the holder signs nothing else)."
 },
 "C102": {
  "note": "Panics of the other functions are characterised in C03, C07, C16, C24 to C26, C30, C32, C39, C40, C48, C49, C58, C60, C61, C75 and C77. Running out of memory is not a panic here. Nil receivers are C105."
 },
 "C103": {
  "note": "The node's rules are a specification (S_Final.v), not code of the repository; signature scheme and key are arbitrary. The hypothesis only_own (no forged and no second signature) is shown necessary by C103_one_signature_refuted and satisfiable by C103_own and C103_example. Limits of size, maturity and lock times are left out, as in C84."
 },
 "C104": {
  "note": "M_Window extends M_Slots (C74) by offsets, capacities and re-slicing. The elements are pointers; what happens to the pointed-to Input or Output is C62/C71."
 },
 "C105": {
  "note": "Nil pointers inside lists of inputs and outputs are part of the models of the methods (C30, C39, C102). That a nil private key panics when used is a statement about the key library."
 },
 "C106": {
  "note": "The decoder is the standard library's; its offsets are modelled from its source and agree with its own test table (C106_example)."
 },
 "C107": {
  "note": "Counts the messages given to Sha256d and Hash160 (bytes, not time). What the key's own Sign hashes is outside the code."
 },
 "C108": {
  "note": "Counts the messages given to Sha256d (bytes, not time)."
 }
}