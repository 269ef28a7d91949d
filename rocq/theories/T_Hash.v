(** C88: the four hash functions are the standard ones. *)
From Verif Require Import P_Hash.
From Coq Require Import Lia ZifyBool ZifyNat ZifyN Sorting.Sorted.
Open Scope N_scope.

(** for every message, Sha256 returns its SHA-256 hash, and no other value is one *)
Theorem C88_sha256 : forall msg h, is_sha256 msg h <-> h = sha256 msg.
Proof. exact sha_iff. Qed.
(** for every message, Ripemd160 returns its RIPEMD-160 hash, and no other value is one *)
Theorem C88_ripemd160 : forall msg h, is_ripemd160 msg h <-> h = ripemd160 msg.
Proof. exact rmd_iff. Qed.
(** Sha256d hashes twice *)
Theorem C88_sha256d : forall msg h, (exists m, is_sha256 msg m /\ is_sha256 m h) <-> h = sha256d msg.
Proof.
  intros msg h. unfold sha256d. cbv zeta. split.
  - intros (m & H1 & H2). apply sha_iff in H1. apply sha_iff in H2. now rewrite <- H1.
  - intros E. exists (sha256 msg). split; [now apply sha_iff|]. now apply sha_iff.
Qed.
(** Hash160 is RIPEMD-160 of SHA-256 *)
Theorem C88_hash160 : forall msg h, (exists m, is_sha256 msg m /\ is_ripemd160 m h) <-> h = hash160 msg.
Proof.
  intros msg h. unfold hash160. cbv zeta. split.
  - intros (m & H1 & H2). apply sha_iff in H1. apply rmd_iff in H2. now rewrite <- H1.
  - intros E. exists (sha256 msg). split; [now apply sha_iff|]. now apply rmd_iff.
Qed.

(** the list of primes in S_Hash.v: the 64 first ones, in order *)
Definition no_div (p : N) : bool := (2 <=? p) && forallb (fun d => negb (p mod d =? 0)) (map N.of_nat (seq 2 (N.to_nat p - 2))).
Lemma no_div_iff p : no_div p = true <-> prime p.
Proof.
  unfold no_div, prime. rewrite andb_true_iff, N.leb_le, forallb_forall. split; intros (H1 & H2); split; try assumption.
  - intros d D E. specialize (H2 d). rewrite E in H2. cbn in H2. apply Bool.diff_false_true. apply H2. apply in_map_iff. exists (N.to_nat d). split; [apply N2Nat.id|]. apply in_seq. lia.
  - intros d D. apply in_map_iff in D. destruct D as (n & <- & D). apply in_seq in D. specialize (H2 (N.of_nat n) ltac:(lia)). apply negb_true_iff. now apply N.eqb_neq.
Qed.
Theorem C88_primes : length primes = 64%nat /\ Sorted N.lt primes /\ forall p, In p primes <-> prime p /\ p <= 311.
Proof.
  split; [reflexivity|]. split; [repeat constructor|]. intros p.
  assert (E : filter no_div (map N.of_nat (seq 0 312)) = primes) by (vm_compute; reflexivity).
  rewrite <- E, filter_In, no_div_iff, in_map_iff. split.
  - intros ((n & <- & H) & P). apply in_seq in H. split; [assumption|lia].
  - intros (P & H). split; [|assumption]. exists (N.to_nat p). split; [apply N2Nat.id|]. apply in_seq. lia.
Qed.

(** the specification, met by the published test vectors: "abc" and the 56-byte message of FIPS 180
    (two blocks), and "abc" for RIPEMD-160 *)
Definition abc : bytes := [x61; x62; x63].
Definition fips56 : bytes := flat_map (fun i => firstn 4 (skipn i [x61; x62; x63; x64; x65; x66; x67; x68; x69; x6a; x6b; x6c; x6d; x6e; x6f; x70; x71])) (seq 0 14).
Example C88_example :
  is_sha256 abc [xba; x78; x16; xbf; x8f; x01; xcf; xea; x41; x41; x40; xde; x5d; xae; x22; x23; xb0; x03; x61; xa3; x96; x17; x7a; x9c; xb4; x10; xff; x61; xf2; x00; x15; xad] /\
  length fips56 = 56%nat /\
  is_sha256 fips56 [x24; x8d; x6a; x61; xd2; x06; x38; xb8; xe5; xc0; x26; x93; x0c; x3e; x60; x39; xa3; x3c; xe4; x59; x64; xff; x21; x67; xf6; xec; xed; xd4; x19; xdb; x06; xc1] /\
  is_ripemd160 abc [x8e; xb2; x08; xf7; xe0; x5d; x98; x7a; x9b; x04; x4a; x8e; x98; xc6; xb0; x87; xf1; x5a; x0b; xfc] /\
  ~ is_sha256 abc [].
Proof.
  split; [apply sha_iff; vm_compute; reflexivity|]. split; [reflexivity|]. split; [apply sha_iff; vm_compute; reflexivity|].
  split; [apply rmd_iff; vm_compute; reflexivity|]. intros H. apply sha_iff in H. vm_compute in H. discriminate H.
Qed.
Print Assumptions C88_sha256.
Print Assumptions C88_ripemd160.
Print Assumptions C88_sha256d.
Print Assumptions C88_hash160.
Print Assumptions C88_primes.
