(** C83: from a pool's job to a block. *)
From Verif Require Import P_Utils T_Block P_Difficulty T_Difficulty S_Mining.
From Coq Require Import Lia ZifyBool ZifyNat ZifyN.

(** The block: for every extra nonce, time and nonce the coinbase is the canonical encoding of a
    coinbase transaction that pays [value] to the wallet, and the header is an 80-byte header
    whose merkle root is that of the coinbase and the other transactions. The placeholder for
    the coinbase in GetMerkleBranches can be any text. *)
Theorem C83_block height value text wallet miner witness ws a h c1 c2 placeholder txids rest ver prev p bits x1 x2 e1 e2 time nonce :
  value < 2 ^ 64 -> addr_from_string wallet = Ok a -> addr_pkh a = hex_encode h -> witness_data witness ws ->
  Forall (fun d => nlen d < 2 ^ 62) (ws ++ miner_data miner) ->
  get_coinbase_parts height value witness text wallet miner = Ok (c1, c2) ->
  Forall2 displays txids (map dsha rest) ->
  ver < 2 ^ 32 -> displays prev p -> length p = 32%nat -> bits < 2 ^ 32 -> time < 2 ^ 32 -> nonce < 2 ^ 32 ->
  hex_dec x1 = Some e1 -> hex_dec x2 = Some e2 -> length (e1 ++ e2) = 12%nat ->
  let j := mk_job c1 c2 (get_merkle_branches (placeholder :: txids)) ver prev (le_put 4 bits) in
  tx_to_bytes (coinbase_tx height value text (e1 ++ e2) h (ws ++ miner_data miner)) = Ok (coinbase_of j x1 x2) /\
  exists root, header_fields (header_of j x1 x2 (le_put 4 time) (le_put 4 nonce)) ver p root time bits nonce /\
    commits_to root (coinbase_of j x1 x2 :: rest).
Proof.
  intros HV HA HH HW HD G F Hver HP LP Hb Ht Hn X1 X2 L j.
  destruct (C47_round_trip height value text wallet miner witness ws a h x1 x2 e1 e2 HV HA HH HW HD X1 X2 L) as (d1 & d2 & G' & T & _).
  rewrite G in G'. injection G' as <- <-. split; [exact T|]. clear T.
  set (cb := coinbase_of j x1 x2). set (root := build_merkle_root_from_coinbase (sha256d cb) (get_merkle_branches (placeholder :: txids))).
  assert (CM : merkle_root (dsha cb :: map dsha rest) root).
  { unfold root. rewrite (C43_coinbase_irrelevant placeholder (hex_encode (rev (dsha cb)))). apply C42_root. constructor; [|exact F].
    unfold displays. apply hex_dec_encode. }
  assert (LR : length root = 32%nat).
  { clear -CM. revert CM. generalize root. 
    assert (forall l r, merkle_root l r -> Forall (fun x => length x = 32%nat) l -> length r = 32%nat) as A.
    { intros l r H. induction H as [x|l l' r HL HP _ IH]; intros FA; [now inversion FA|]. apply IH. clear -HP.
      induction HP; constructor; auto; apply sha256d_length. }
    intros r H. apply (A _ _ H). constructor; [apply sha256d_length|]. apply Forall_forall. intros x Hx. apply in_map_iff in Hx. destruct Hx as (y & <- & _). apply sha256d_length. }
  exists root. split; [|exact CM].
  assert (B : header_of j x1 x2 (le_put 4 time) (le_put 4 nonce) = le_put 4 ver ++ p ++ root ++ le_put 4 time ++ le_put 4 bits ++ le_put 4 nonce).
  { unfold header_of. fold cb. cbn [j_version j_prev j_branches j_bits j]. fold root. unfold build_block_header. unfold displays in HP.
    rewrite (hex_dec_ignore _ _ HP), reverse_bytes_rev, rev_involutive. cbn [app]. now rewrite <- !app_assoc. }
  unfold header_fields. rewrite B. split; [reflexivity|]. split; [exact LP|]. split; [exact LR|]. split; [rewrite !app_length, !le_put_length, LP, LR; reflexivity|auto].
Qed.

(** The header commits to the whole job and to the extra nonces: equal headers of two jobs with
    the same number of branches come from the same coinbase, branches, version, previous block,
    time, bits and nonce, or two given messages collide. *)
Lemma app_eq_len {A} (a : list A) : forall b x y, length a = length b -> a ++ x = b ++ y -> a = b /\ x = y.
Proof.
  induction a as [|u a IH]; intros [|v b] x y L E; try discriminate; [auto|]. injection L as L. injection E as -> E.
  destruct (IH b x y L E) as [-> ->]. auto.
Qed.
Lemma root_32 m bs : length (build_merkle_root_from_coinbase (sha256d m) bs) = 32%nat.
Proof.
  revert m. induction bs as [|b r IH]; intros m; [apply sha256d_length|]. apply (IH (sha256d m ++ hex_ignore b)).
Qed.
Lemma climb_inj bs : forall m m' bs', length bs = length bs' ->
  build_merkle_root_from_coinbase (sha256d m) bs = build_merkle_root_from_coinbase (sha256d m') bs' ->
  (m = m' /\ map hex_ignore bs = map hex_ignore bs') \/ climbs_collide m m' (map hex_ignore bs) (map hex_ignore bs').
Proof.
  induction bs as [|b r IH]; intros m m' [|b' r'] L E; try discriminate.
  - destruct (list_eq_dec Byte.byte_eq_dec m m') as [->|N]; [left; auto|]. right. exists 0%nat, m, m'. auto.
  - injection L as L. destruct (IH (sha256d m ++ hex_ignore b) (sha256d m' ++ hex_ignore b') r' L E) as [(A & B)|C].
    + apply app_eq_len in A; [|now rewrite !sha256d_length]. destruct A as [A1 A2].
      destruct (list_eq_dec Byte.byte_eq_dec m m') as [->|N]; [left; cbn; split; congruence|].
      right. exists 0%nat, m, m'. auto.
    + right. destruct C as (k & x & y & X & Y & Z). exists (S k), x, y. auto.
Qed.
Theorem C83_commits j j' x1 x2 x1' x2' time time' nonce nonce' p p' :
  j_version j < 2 ^ 32 -> j_version j' < 2 ^ 32 ->
  displays (j_prev j) p -> displays (j_prev j') p' -> length p = 32%nat -> length p' = 32%nat ->
  length time = 4%nat -> length time' = 4%nat -> length (j_bits j) = 4%nat -> length (j_bits j') = 4%nat ->
  length nonce = 4%nat -> length nonce' = 4%nat -> length (j_branches j) = length (j_branches j') ->
  header_of j x1 x2 time nonce = header_of j' x1' x2' time' nonce' ->
  (coinbase_of j x1 x2 = coinbase_of j' x1' x2' /\ map hex_ignore (j_branches j) = map hex_ignore (j_branches j') /\
   j_version j = j_version j' /\ p = p' /\ time = time' /\ j_bits j = j_bits j' /\ nonce = nonce') \/
  climbs_collide (coinbase_of j x1 x2) (coinbase_of j' x1' x2') (map hex_ignore (j_branches j)) (map hex_ignore (j_branches j')).
Proof.
  intros V V' P P' LP LP' T T' B B' N N' LB E. unfold header_of in E.
  apply C46_injective with (p := p) (p' := p') in E; auto using root_32.
  destruct E as (E1 & E2 & E3 & E4 & E5 & E6). apply climb_inj in E3; [|exact LB]. destruct E3 as [(A & C)|C]; [left|right; exact C]. auto 10.
Qed.

Lemma tail_eq {A} (u u' v v' : list A) : length v = length v' -> u ++ v = u' ++ v' -> u = u' /\ v = v'.
Proof.
  intros L E. apply app_eq_len; [|exact E]. apply (f_equal (@length A)) in E. rewrite !app_length in E. lia.
Qed.
Lemma coinbase_tx_inj height value text nonce h data height' value' text' nonce' h' data' : length nonce = length nonce' ->
  Ok (coinbase_tx height' value' text' nonce' h' data') = Ok (coinbase_tx height value text nonce h data) ->
  h = h' /\ value = value' /\ nonce = nonce' /\ data = data' /\
  firstn 88 (x03 :: le_put 3 height ++ text) = firstn 88 (x03 :: le_put 3 height' ++ text').
Proof.
  intros L E. assert (E0 : coinbase_tx height' value' text' nonce' h' data' = coinbase_tx height value text nonce h data) by congruence. clear E.
  pose proof (f_equal (fun t => match inputs t with Some i :: _ => unlocking i | _ => None end) E0) as ES.
  pose proof (f_equal outputs E0) as EO. clear E0. unfold coinbase_tx in ES, EO. cbn [inputs outputs unlocking] in ES, EO.
  assert (ES' : coinbase_script height' text' nonce' = coinbase_script height text nonce) by congruence.
  unfold coinbase_script in ES'. apply tail_eq in ES'; [|congruence]. destruct ES' as [S1 S2].
  pose proof (f_equal (fun l => match l with Some o :: _ => satoshis o | _ => 0 end) EO) as EV.
  pose proof (f_equal (fun l => match l with Some o :: _ => locking o | _ => None end) EO) as EL.
  pose proof (f_equal (fun l => map (fun o => match o with Some o => locking o | None => None end) (tl l)) EO) as ED.
  cbn [tl satoshis locking] in EV, EL, ED. rewrite !map_map in ED. cbn [locking] in ED.
  assert (EP : p2pkh h' = p2pkh h) by congruence.
  assert (EH : h' = h). { unfold p2pkh in EP. apply app_inv_head in EP. now apply app_inv_tail in EP. }
  assert (EDD : data' = data).
  { clear -ED. revert data ED. induction data' as [|x r IH]; intros [|y q] ED; try discriminate ED; [reflexivity|]. injection ED as -> ED. f_equal. now apply IH. }
  auto 10.
Qed.

(** In particular work cannot be claimed for another wallet, amount or extra nonce. *)
Theorem C83_wallet height value text wallet miner witness ws a h c1 c2 height' value' text' wallet' miner' witness' ws' a' h' c1' c2'
    branches branches' x1 x2 x1' x2' e1 e2 e1' e2' : 
  value < 2 ^ 64 -> addr_from_string wallet = Ok a -> addr_pkh a = hex_encode h -> witness_data witness ws ->
  Forall (fun d => nlen d < 2 ^ 62) (ws ++ miner_data miner) -> get_coinbase_parts height value witness text wallet miner = Ok (c1, c2) ->
  value' < 2 ^ 64 -> addr_from_string wallet' = Ok a' -> addr_pkh a' = hex_encode h' -> witness_data witness' ws' ->
  Forall (fun d => nlen d < 2 ^ 62) (ws' ++ miner_data miner') -> get_coinbase_parts height' value' witness' text' wallet' miner' = Ok (c1', c2') ->
  hex_dec x1 = Some e1 -> hex_dec x2 = Some e2 -> length (e1 ++ e2) = 12%nat ->
  hex_dec x1' = Some e1' -> hex_dec x2' = Some e2' -> length (e1' ++ e2') = 12%nat ->
  length branches = length branches' -> (Z.of_nat (length (build_coinbase c1 c2 x1 x2)) < 2 ^ 62)%Z ->
  build_merkle_root_from_coinbase (sha256d (build_coinbase c1 c2 x1 x2)) branches =
  build_merkle_root_from_coinbase (sha256d (build_coinbase c1' c2' x1' x2')) branches' ->
  (h = h' /\ value = value' /\ e1 ++ e2 = e1' ++ e2' /\ ws ++ miner_data miner = ws' ++ miner_data miner' /\
   firstn 88 (x03 :: le_put 3 height ++ text) = firstn 88 (x03 :: le_put 3 height' ++ text')) \/
  climbs_collide (build_coinbase c1 c2 x1 x2) (build_coinbase c1' c2' x1' x2') (map hex_ignore branches) (map hex_ignore branches').
Proof.
  intros HV HA HH HW HD G HV' HA' HH' HW' HD' G' X1 X2 L X1' X2' L' LB SZ E.
  apply climb_inj in E; [|exact LB]. destruct E as [(E & _)|C]; [left|right; exact C].
  destruct (C47_round_trip height value text wallet miner witness ws a h x1 x2 e1 e2 HV HA HH HW HD X1 X2 L) as (d1 & d2 & D & _ & R & _).
  rewrite G in D. injection D as <- <-.
  destruct (C47_round_trip height' value' text' wallet' miner' witness' ws' a' h' x1' x2' e1' e2' HV' HA' HH' HW' HD' X1' X2' L') as (d1' & d2' & D' & _ & R' & _).
  rewrite G' in D'. injection D' as <- <-.
  assert (SC : (scap (Sl (build_coinbase c1 c2 x1 x2) []) < 2 ^ 62)%Z) by (unfold scap; cbn [length vis spare app]; rewrite ?app_nil_r; lia).
  specialize (R [] SC). rewrite E in SC, R. rewrite (R' [] SC) in R.
  apply coinbase_tx_inj in R; [|congruence]. destruct R as (A & B & C & D & F). auto 10.
Qed.

(** The target: the text ExpandTargetFromAsInt reads is the header's field, most significant
    byte first. *)
Theorem C83_target n : n < 2 ^ 32 -> expand_target_from_as_int (hex_encode (rev (le_put 4 n))) = Ok (nbits_target n).
Proof.
  intros H. apply C48_as_int_iff.
  exists (n2b (n / 256 / 256 / 256)), (n2b (n / 256 / 256)), (n2b (n / 256)), (n2b n), []. split; [rewrite hex_dec_encode; reflexivity|].
  unfold c_target, nbits_target, c_negative, c_magnitude, c_mantissa, c_exponent. rewrite !b2n_n2b. cbv zeta.
  change (2 ^ 24) with 16777216. change (2 ^ 23) with 8388608. change (2 ^ 32) with 4294967296 in H.
  replace ((n / 256 / 256 / 256) mod 256) with (n / 16777216) by (zify; Z.to_euclidean_division_equations; lia).
  replace ((n / 256 / 256) mod 256 mod 128 * 65536 + (n / 256) mod 256 * 256 + n mod 256) with (n mod 8388608) by (zify; Z.to_euclidean_division_equations; lia).
  assert (T : N.testbit n 23 = (128 <=? (n / 256 / 256) mod 256)).
  { pose proof (N.testbit_spec' n 23) as S. change (2 ^ 23) with 8388608 in S. destruct (N.testbit n 23); cbn [N.b2n] in S; zify; Z.to_euclidean_division_equations; lia. }
  rewrite T. set (e := Z.of_N (n / 16777216)). set (m := Z.of_N (n mod 8388608)).
  assert (V : (if (e <=? 3)%Z then (m / 256 ^ (3 - e))%Z else (m * 256 ^ (e - 3))%Z) = (m * 256 ^ e / 256 ^ 3)%Z).
  { assert (He : (0 <= e)%Z) by (unfold e; lia). destruct (Z.leb_spec e 3).
    - replace (256 ^ 3)%Z with (256 ^ (3 - e) * 256 ^ e)%Z by (rewrite <- Z.pow_add_r by lia; f_equal; lia).
      rewrite Z.div_mul_cancel_r; [reflexivity| |]; apply Z.pow_nonzero; lia.
    - replace (256 ^ e)%Z with (256 ^ (e - 3) * 256 ^ 3)%Z by (rewrite <- Z.pow_add_r by lia; f_equal; lia).
      rewrite Z.mul_assoc, Z.div_mul; [reflexivity|]. apply Z.pow_nonzero; lia. }
  rewrite V. destruct (N.leb_spec 128 ((n / 256 / 256) mod 256)); [left|right]; split; auto. lia.
Qed.

(** Every transaction of such a block can be proved against the header's root. *)
Theorem C83_inclusion root txs i w : commits_to root txs -> nth_error txs i = Some w ->
  exists brs, length brs = Nat.log2_up (length txs) /\
    merkle_root_from_branches (hex_encode (rev (dsha w))) (Z.of_nat i) brs = Ok (hex_encode (rev root)).
Proof.
  intros C E. assert (Li : (i < length (map dsha txs))%nat) by (rewrite map_length; apply nth_error_Some; congruence).
  destruct (C44_proof_exists _ _ Li) as (p & P & LP). rewrite map_length in LP.
  exists (map (fun b => hex_encode (rev b)) p). split; [now rewrite map_length|].
  apply (C44_completeness (map dsha txs) i (dsha w) _ p); auto.
  - now rewrite nth_error_map, E.
  - apply hex_dec_encode.
  - clear. induction p; constructor; auto. apply hex_dec_encode.
Qed.

(** ** Non-vacuity: a job with two other transactions, a witness commitment and a miner id *)
Definition ex83_parts := get_coinbase_parts 700000 5000000000 ex_witness (repeat x41 200) ex_wallet (repeat x42 300).
Definition ex83_c1 : bytes := match ex83_parts with Ok (c1, _) => c1 | _ => [] end.
Definition ex83_c2 : bytes := match ex83_parts with Ok (_, c2) => c2 | _ => [] end.
Definition ex83_job : job := mk_job ex83_c1 ex83_c2
  (get_merkle_branches (map (fun w => hex_encode (rev (dsha w))) [[x00]; [x01]; [x02]])) 0x20000000 (hex_encode (repeat x11 32)) (le_put 4 0x1d00ffff).
Example C83_example :
  exists root, header_fields (header_of ex83_job (hex_encode (repeat x01 8)) (hex_encode (repeat x02 4)) (le_put 4 1600000000) (le_put 4 42))
      0x20000000 (repeat x11 32) root 1600000000 0x1d00ffff 42 /\
    commits_to root [coinbase_of ex83_job (hex_encode (repeat x01 8)) (hex_encode (repeat x02 4)); [x01]; [x02]] /\
    nbits_target 0x1d00ffff = (65535 * 256 ^ 26)%Z /\ length (j_branches ex83_job) = 2%nat.
Proof.
  destruct ex_wallet_ok as (a & A & H).
  assert (W : witness_data ex_witness [[x6a; x01; x02]]) by (right; split; [discriminate|]; exists [x6a; x01; x02]; split; reflexivity).
  assert (G : get_coinbase_parts 700000 5000000000 ex_witness (repeat x41 200) ex_wallet (repeat x42 300) = Ok (ex83_c1, ex83_c2)).
  { unfold ex83_c1, ex83_c2, ex83_parts. destruct (C47_round_trip 700000 5000000000 (repeat x41 200) ex_wallet (repeat x42 300) ex_witness [[x6a; x01; x02]] a (repeat x2a 20)
      (hex_encode (repeat x01 8)) (hex_encode (repeat x02 4)) (repeat x01 8) (repeat x02 4)) as (c1 & c2 & E & _);
    [reflexivity|exact A|exact H|exact W|repeat constructor|apply hex_dec_encode|apply hex_dec_encode|reflexivity|]. rewrite E. reflexivity. }
  destruct (C83_block 700000 5000000000 (repeat x41 200) ex_wallet (repeat x42 300) ex_witness [[x6a; x01; x02]] a (repeat x2a 20) ex83_c1 ex83_c2
    (hex_encode (rev (dsha [x00]))) (map (fun w => hex_encode (rev (dsha w))) [[x01]; [x02]]) [[x01]; [x02]] 0x20000000 (hex_encode (repeat x11 32)) (repeat x11 32)
    0x1d00ffff (hex_encode (repeat x01 8)) (hex_encode (repeat x02 4)) (repeat x01 8) (repeat x02 4) 1600000000 42) as (_ & root & R1 & R2);
    [reflexivity|exact A|exact H|exact W|repeat constructor|exact G| |reflexivity|apply hex_dec_encode|reflexivity|reflexivity|reflexivity|reflexivity|apply hex_dec_encode|apply hex_dec_encode|reflexivity|].
  - constructor; [apply hex_dec_encode|]. constructor; [apply hex_dec_encode|constructor].
  - exists root. split; [exact R1|]. split; [exact R2|]. split; [reflexivity|]. unfold ex83_job. cbn [j_branches]. rewrite C43_length. reflexivity.
Qed.

Print Assumptions C83_block.
Print Assumptions C83_commits.
Print Assumptions C83_wallet.
Print Assumptions C83_target.
Print Assumptions C83_inclusion.
