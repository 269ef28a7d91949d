(** Specification for C83: what a miner puts together from a pool's job, and what a block must
    be. Written from the protocol. *)
From Verif Require Export M_Block M_Coinbase S_Block S_Difficulty.

(** ** The workflow: a job is what the pool hands out *)
Record job := mk_job { j_c1 : bytes; j_c2 : bytes; j_branches : list bytes; j_version : N; j_prev : bytes; j_bits : bytes }.
(** the miner's coinbase and header for two extra nonces (hex), a time and a nonce *)
Definition coinbase_of (j : job) (x1 x2 : bytes) : bytes := build_coinbase (j_c1 j) (j_c2 j) x1 x2.
Definition header_of (j : job) (x1 x2 time nonce : bytes) : bytes :=
  build_block_header (j_version j) (j_prev j)
    (build_merkle_root_from_coinbase (sha256d (coinbase_of j x1 x2)) (j_branches j)) time (j_bits j) nonce.

(** ** Blocks *)
(** 80 bytes: version, previous block, merkle root, time, target, nonce *)
Definition header_fields (h : bytes) (version : N) (prev root : bytes) (time nbits nonce : N) : Prop :=
  h = le_put 4 version ++ prev ++ root ++ le_put 4 time ++ le_put 4 nbits ++ le_put 4 nonce /\
  length prev = 32%nat /\ length root = 32%nat /\ length h = 80%nat /\
  version < 2 ^ 32 /\ time < 2 ^ 32 /\ nbits < 2 ^ 32 /\ nonce < 2 ^ 32.
(** the header stands for these transactions (as bytes) *)
Definition commits_to (root : bytes) (txs : list bytes) : Prop := merkle_root (map dsha txs) root.
(** the target of a header's 32-bit field: 8 bits of exponent, a sign, 23 bits of mantissa *)
Definition nbits_target (n : N) : Z :=
  let e := Z.of_N (n / 2 ^ 24) in
  let m := Z.of_N (n mod 2 ^ 23) in
  let v := if (e <=? 3)%Z then (m / 256 ^ (3 - e))%Z else (m * 256 ^ (e - 3))%Z in
  if N.testbit n 23 then (- v)%Z else v.

(** ** Everything that is hashed between a coinbase and the root *)
Fixpoint climbed (m : bytes) (bs : list bytes) : list bytes :=
  m :: match bs with [] => [] | b :: r => climbed (dsha m ++ b) r end.
(** two such climbs hit a collision of the double hash *)
Definition climbs_collide (m m' : bytes) (bs bs' : list bytes) : Prop :=
  exists k a b, nth_error (climbed m bs) k = Some a /\ nth_error (climbed m' bs') k = Some b /\ a <> b /\ dsha a = dsha b.
