(** Property theorem C45 (all indices): a proof of the tree's depth shows that the
    hash is one of the leaves, whatever index comes with it: beyond the last leaf
    (where the padded tree repeats leaves) and below zero too. *)
From Verif Require Import P_Merkle T_Block S_Mining M_Tx.
From Coq Require Import Lia ZifyBool ZifyNat ZifyN.

Lemma pairing_children l l' : pairing l l' -> forall y, In y l' -> exists a b, In a l /\ In b l /\ y = dsha (a ++ b).
Proof.
  induction 1 as [|a|a b l l' _ IH]; intros y Y.
  - destruct Y.
  - destruct Y as [<-|[]]. exists a, a. split; [now left|]. split; [now left|reflexivity].
  - destruct Y as [<-|Y].
    + exists a, b. split; [now left|]. split; [right; now left|reflexivity].
    + destruct (IH y Y) as (c & d & C & D & E). exists c, d. split; [now right; right|]. split; [now right; right|exact E].
Qed.

Lemma padded_climb ids root : merkle_root ids root -> forall i, exists y p ms,
  In y ids /\ length p = Nat.log2_up (length ids) /\ climb y i p ms root.
Proof.
  induction 1 as [a|l l' r L P _ IH]; intros i.
  - exists a, [], []. split; [now left|]. split; [reflexivity|constructor].
  - destruct (IH (i / 2)) as (y & p & ms & Y & Lp & C). destruct (pairing_children _ _ P y Y) as (a & b & A & B & ->).
    destruct (N.odd i) eqn:O.
    + exists b, (a :: p), ((a ++ b) :: ms). split; [exact B|].
      split; [cbn [length]; rewrite Lp, (pairing_length _ _ P); symmetry; now apply log2_up_half|].
      econstructor; [now rewrite O|exact C].
    + exists a, (b :: p), ((a ++ b) :: ms). split; [exact A|].
      split; [cbn [length]; rewrite Lp, (pairing_length _ _ P); symmetry; now apply log2_up_half|].
      econstructor; [now rewrite O|exact C].
Qed.

Theorem C45_any_index : forall ids root i s x brs, merkle_root ids root ->
  Forall (fun id => length id = 32%nat) ids -> displays s x -> length x = 32%nat ->
  length brs = Nat.log2_up (length ids) ->
  merkle_root_from_branches s i brs = Ok (hex_encode (rev root)) ->
  exists y bs p ms ms', In y ids /\ Forall2 displays brs bs /\
    climb x (Z.to_N (i mod 2 ^ Z.of_nat (length brs))) bs ms root /\
    climb y (Z.to_N (i mod 2 ^ Z.of_nat (length brs))) p ms' root /\
    ((x = y /\ bs = p) \/
     exists k m m', nth_error ms k = Some m /\ nth_error ms' k = Some m' /\ dcollision m m').
Proof.
  intros ids root i s x brs R A D X L H.
  apply proof_accepts in H. destruct H as (z & bs & ms & r & Dz & F & I & C & E).
  pose proof (displays_fun _ _ _ D Dz) as <-.
  assert (r = root) as ->.
  { apply (f_equal hex_dec) in E. rewrite !hex_dec_encode in E. injection E as E. apply (f_equal (@rev _)) in E. now rewrite !rev_involutive in E. }
  destruct (padded_climb _ _ R (Z.to_N (i mod 2 ^ Z.of_nat (length brs)))) as (y & p & ms' & Y & Lp & C').
  exists y, bs, p, ms, ms'. split; [exact Y|]. split; [exact F|]. split; [exact C|]. split; [exact C'|].
  apply (climb_sound _ _ _ _ _ _ _ _ C C'); [|assumption|].
  - rewrite <- (F2_len F), Lp. exact L.
  - rewrite Forall_forall in A. now apply A.
Qed.
Print Assumptions C45_any_index.

(** three leaves: the third is also accepted at position 3, where the level repeats it, and at position -1 *)
Example C45_any_index_example : length ex_ids = 3%nat /\
  merkle_root_from_branches (shown 3) 3 [shown 3; hex_encode (rev (dsha (leaf 1 ++ leaf 2)))] = Ok (hex_encode (rev ex_root)) /\
  merkle_root_from_branches (shown 3) (-1) [shown 3; hex_encode (rev (dsha (leaf 1 ++ leaf 2)))] = Ok (hex_encode (rev ex_root)).
Proof. split; [reflexivity|]. split; vm_compute; reflexivity. Qed.

(** *** C83: a proof of inclusion shows what it should. Whoever knows a block's root and
    the height of its tree, and gets a transaction with an index and branches that
    MerkleRootFromBranches leads from GetTxID to the displayed root, has a transaction of
    the block, byte for byte, or sees a collision of two given messages: *)
Theorem C83_inclusion_sound root txs t w id i brs : commits_to root txs -> tx_to_bytes t = Ok w -> tx_id t = Ok id ->
  length brs = Nat.log2_up (length txs) -> merkle_root_from_branches id i brs = Ok (hex_encode (rev root)) ->
  In w txs \/
  (exists w', In w' txs /\ dcollision w w') \/
  (exists w' bs p ms ms' k m m', In w' txs /\ Forall2 displays brs bs /\
     climb (dsha w) (Z.to_N (i mod 2 ^ Z.of_nat (length brs))) bs ms root /\
     climb (dsha w') (Z.to_N (i mod 2 ^ Z.of_nat (length brs))) p ms' root /\
     nth_error ms k = Some m /\ nth_error ms' k = Some m' /\ dcollision m m').
Proof.
  intros C W I L H. unfold tx_id in I. rewrite W in I. cbn [bind] in I.
  assert (id = hex_encode (rev (dsha w))) as ->.
  { unfold sha256d in I. rewrite ?reverse_bytes_rev in I. injection I as <-. reflexivity. }
  destruct (C45_any_index (map dsha txs) root i (hex_encode (rev (dsha w))) (dsha w) brs C) as (y & bs & p & ms & ms' & Y & F & C1 & C2 & D).
  - apply Forall_forall. intros x X. apply in_map_iff in X as (z & <- & _). apply sha256_length.
  - apply hex_dec_encode.
  - apply sha256_length.
  - now rewrite map_length.
  - exact H.
  - apply in_map_iff in Y as (w' & <- & Y). destruct D as [[D _]|(k & m & m' & K & K' & D)].
    + destruct (dsha_inj _ _ D) as [->|N]; [now left|]. right. left. exists w'. now split.
    + right. right. exists w', bs, p, ms, ms', k, m, m'. auto 8.
Qed.
Print Assumptions C83_inclusion_sound.

(** an empty transaction as second of two *)
Example C83_inclusion_sound_example : exists w id, tx_to_bytes tx_new = Ok w /\ tx_id tx_new = Ok id /\
  commits_to (dsha (dsha [x00] ++ dsha w)) [[x00]; w] /\
  merkle_root_from_branches id 1 [hex_encode (rev (dsha [x00]))] = Ok (hex_encode (rev (dsha (dsha [x00] ++ dsha w)))).
Proof.
  eexists _, _. split; [vm_compute; reflexivity|]. split; [vm_compute; reflexivity|]. split; [|vm_compute; reflexivity].
  unfold commits_to. cbn [map]. eapply root_up; [cbn; lia|apply pair_two, pair_nil|apply root_one].
Qed.
