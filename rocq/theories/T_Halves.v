(** C66: part of a transaction in the place of a transaction id. *)
From Verif Require Import P_Merkle T_Block T_Tx S_Mining.
From Coq Require Import Lia ZifyBool ZifyNat ZifyN.

Lemma displays_hex x : displays (hex_encode (rev x)) x.
Proof. unfold displays. rewrite hex_dec_encode. reflexivity. Qed.
Lemma displays_fun s x y : displays s x -> displays s y -> x = y.
Proof. unfold displays. intros A B. rewrite A in B. assert (rev x = rev y) as E by congruence. apply (f_equal (@rev byte)) in E. now rewrite !rev_involutive in E. Qed.

(** A proof for a transaction is, one branch longer, a proof for the first and for the second part of its bytes: the
    other part is the additional branch. (CVE-2017-12842: for a transaction of 64 bytes the parts have the size
    of transaction ids.) *)
Theorem C66_parts_accepted : forall t x y id i brs root, tx_to_bytes t = Ok (x ++ y) -> tx_id t = Ok id ->
  merkle_root_from_branches id i brs = Ok root ->
  merkle_root_from_branches (hex_encode (rev x)) (2 * i) (hex_encode (rev y) :: brs) = Ok root /\
  merkle_root_from_branches (hex_encode (rev y)) (2 * i + 1) (hex_encode (rev x) :: brs) = Ok root.
Proof.
  intros t x y id i brs root TB TI H. rewrite (C31_definition _ _ TB) in TI. assert (id = hex_encode (rev (dsha (x ++ y)))) as -> by (unfold dsha; congruence).
  apply C44_accepts_iff in H as (z & bs & ms & r & D & F & L & C & ->). pose proof (displays_fun _ _ _ D (displays_hex _)) as ->.
  set (P := (2 ^ Z.of_nat (length brs))%Z) in *. assert (0 < P)%Z as HP by (apply Z.pow_pos_nonneg; lia).
  assert (2 ^ Z.of_nat (length (hex_encode (rev y) :: brs)) = 2 * P)%Z as E1 by (cbn [length]; rewrite Nat2Z.inj_succ, Z.pow_succ_r by lia; reflexivity).
  assert (2 ^ Z.of_nat (length (hex_encode (rev x) :: brs)) = 2 * P)%Z as E2 by (cbn [length]; rewrite Nat2Z.inj_succ, Z.pow_succ_r by lia; reflexivity).
  assert ((2 * i) mod (2 * P) = 2 * (i mod P))%Z as M1 by (apply Z.mul_mod_distr_l; lia).
  assert ((2 * i + 1) mod (2 * P) = 2 * (i mod P) + 1)%Z as M2.
  { pose proof (Z.mod_pos_bound i P HP). symmetry. apply Z.mod_unique with (i / P)%Z; [left; lia|]. pose proof (Z.div_mod i P). lia. }
  pose proof (Z.mod_pos_bound i P HP) as B. set (m := (i mod P)%Z) in *.
  split; apply C44_accepts_iff.
  - exists x, (y :: bs), ((x ++ y) :: ms), r. split; [apply displays_hex|]. split; [constructor; [apply displays_hex|exact F]|]. rewrite E1, M1.
    split; [lia|]. split; [|reflexivity]. apply climb_cons.
    + replace (N.odd (Z.to_N (2 * m))) with false; [reflexivity|]. replace (Z.to_N (2 * m)) with (2 * Z.to_N m) by lia. now rewrite N.odd_mul, N.odd_2.
    + replace (Z.to_N (2 * m) / 2) with (Z.to_N m); [exact C|]. replace (Z.to_N (2 * m)) with (Z.to_N m * 2) by lia. now rewrite N.div_mul.
  - exists y, (x :: bs), ((x ++ y) :: ms), r. split; [apply displays_hex|]. split; [constructor; [apply displays_hex|exact F]|]. rewrite E2, M2.
    split; [lia|]. split; [|reflexivity]. replace (Z.to_N (2 * m + 1)) with (1 + 2 * Z.to_N m) by lia. apply climb_cons.
    + rewrite N.odd_add_mul_2. reflexivity.
    + replace ((1 + 2 * Z.to_N m) / 2) with (Z.to_N m); [exact C|]. apply (N.div_unique _ _ _ 1); lia.
Qed.
Print Assumptions C66_parts_accepted.

(** a transaction of 64 bytes, alone in its block: both halves are accepted as ids of transactions in it *)
Definition ex66_short : tx := mk_tx 1
  [Some (mk_in (hex_encode (repeat x07 32)) 3 0 None (Some []) 4294967295)] [Some (mk_out 5000 (Some [x51; x52; x53; x54]))] 0.
Example C66_parts_example : exists b id, tx_to_bytes ex66_short = Ok b /\ length b = 64%nat /\ tx_from_bytes b = Ok ex66_short /\
  tx_id ex66_short = Ok id /\ merkle_root_from_branches id 0 [] = Ok id /\
  merkle_root_from_branches (hex_encode (rev (firstn 32 b))) 0 [hex_encode (rev (skipn 32 b))] = Ok id.
Proof.
  eexists. eexists. split; [vm_compute; reflexivity|]. split; [vm_compute; reflexivity|]. split; [vm_compute; reflexivity|]. split; [vm_compute; reflexivity|].
  split; vm_compute; reflexivity.
Qed.
