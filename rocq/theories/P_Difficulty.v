(** Proofs about compact targets (C48, C49). *)
From Verif Require Export S_Difficulty M_Difficulty.
From Coq Require Import ZifyBool ZifyNat ZifyN.

Definition word (b0 b1 b2 b3 : byte) : N := b2n b0 * 16777216 + b2n b1 * 65536 + b2n b2 * 256 + b2n b3.

Lemma be4 b0 b1 b2 b3 : be_get [b0; b1; b2; b3] = word b0 b1 b2 b3.
Proof. unfold be_get, word. cbn [fold_left]. lia. Qed.

Section Word.
  Context (b0 b1 b2 b3 : byte).
  Local Notation w := (word b0 b1 b2 b3).
  Local Notation mn := ((b2n b1 mod 128) * 65536 + b2n b2 * 256 + b2n b3).

  Lemma word_bounds : b2n b0 < 256 /\ b2n b1 < 256 /\ b2n b2 < 256 /\ b2n b3 < 256.
  Proof. pose proof (b2n_lt b0). pose proof (b2n_lt b1). pose proof (b2n_lt b2). pose proof (b2n_lt b3). auto. Qed.

  Lemma word_top : exists q, q <= 1 /\ b2n b1 = 128 * q + b2n b1 mod 128 /\ b2n b1 mod 128 < 128.
  Proof.
    destruct word_bounds as (_ & H & _). exists (b2n b1 / 128). pose proof (N.div_mod (b2n b1) 128 ltac:(lia)). pose proof (N.mod_lt (b2n b1) 128 ltac:(lia)).
    assert (b2n b1 / 128 < 2) by (apply N.div_lt_upper_bound; lia). lia.
  Qed.

  Lemma word_mantissa : N.land w 0x007fffff = mn.
  Proof.
    change 0x007fffff with (N.ones 23). rewrite N.land_ones. destruct word_bounds as (H0 & H1 & H2 & H3). destruct word_top as (q & Q & E & M).
    symmetry. apply (N.mod_unique _ _ (2 * b2n b0 + q)); [lia|]. unfold word. lia.
  Qed.

  Lemma word_exponent : N.shiftr w 24 = b2n b0.
  Proof.
    rewrite N.shiftr_div_pow2. destruct word_bounds as (H0 & H1 & H2 & H3). symmetry.
    apply (N.div_unique _ _ _ (b2n b1 * 65536 + b2n b2 * 256 + b2n b3)); [lia|]. unfold word. lia.
  Qed.

  Lemma word_sign : negb (N.land w 0x00800000 =? 0) = (128 <=? b2n b1).
  Proof.
    assert (N.land w 0x00800000 = if N.testbit w 23 then 0x00800000 else 0) as ->.
    { apply N.bits_inj. intros k. rewrite N.land_spec. change 0x00800000 with (2 ^ 23). rewrite N.pow2_bits_eqb.
      destruct (N.eqb_spec 23 k) as [<-|K].
      - destruct (N.testbit w 23); [rewrite N.pow2_bits_true|rewrite N.bits_0]; reflexivity.
      - rewrite andb_false_r. destruct (N.testbit w 23); [rewrite N.pow2_bits_false by assumption|rewrite N.bits_0]; reflexivity. }
    rewrite N.testbit_odd, N.shiftr_div_pow2. destruct word_bounds as (H0 & H1 & H2 & H3). destruct word_top as (q & Q & E & M).
    assert (w / 2 ^ 23 = 2 * b2n b0 + q) as ->.
    { symmetry. apply (N.div_unique _ _ _ mn); [lia|]. unfold word. lia. }
    rewrite N.add_comm, N.odd_add_mul_2. assert (q = 0 \/ q = 1) as [-> | ->] by lia; cbn; symmetry; lia.
  Qed.

  Lemma word_rem : w mod 16777216 = b2n b1 * 65536 + b2n b2 * 256 + b2n b3 /\ w / 16777216 = b2n b0.
  Proof.
    destruct word_bounds as (H0 & H1 & H2 & H3). split; symmetry.
    - apply (N.mod_unique _ _ (b2n b0)); unfold word; lia.
    - apply (N.div_unique _ _ _ (b2n b1 * 65536 + b2n b2 * 256 + b2n b3)); unfold word; lia.
  Qed.

  Lemma pow256 k : (0 <= k)%Z -> (2 ^ (8 * k) = 256 ^ k)%Z.
  Proof. intros K. rewrite Z.pow_mul_r by lia. reflexivity. Qed.

  Lemma magnitude_high : 3 <= b2n b0 -> c_magnitude b0 b1 b2 b3 = (c_mantissa b1 b2 b3 * 256 ^ (c_exponent b0 - 3))%Z.
  Proof.
    intros E. unfold c_magnitude. set (e := c_exponent b0) in *. assert (3 <= e)%Z as E' by (unfold e, c_exponent; lia).
    replace e with (e - 3 + 3)%Z at 1 by lia. rewrite Z.pow_add_r by lia. rewrite Z.mul_assoc. now rewrite Z.div_mul by lia.
  Qed.

  Lemma magnitude_low : b2n b0 <= 3 -> c_magnitude b0 b1 b2 b3 = (c_mantissa b1 b2 b3 / 256 ^ (3 - c_exponent b0))%Z.
  Proof.
    intros E. unfold c_magnitude. set (e := c_exponent b0) in *. assert (0 <= e <= 3)%Z as E' by (unfold e, c_exponent; lia).
    replace 3%Z with (e + (3 - e))%Z at 1 by lia. rewrite Z.pow_add_r by lia.
    assert (0 < 256 ^ e)%Z by (apply Z.pow_pos_nonneg; lia). assert (0 < 256 ^ (3 - e))%Z by (apply Z.pow_pos_nonneg; lia).
    rewrite (Z.mul_comm (256 ^ e)). rewrite Z.div_mul_cancel_r by lia. reflexivity.
  Qed.

  Lemma magnitude_nonneg : (0 <= c_magnitude b0 b1 b2 b3)%Z.
  Proof.
    unfold c_magnitude. apply Z.div_pos; [|lia]. unfold c_mantissa, c_exponent. apply Z.mul_nonneg_nonneg; [lia|]. apply Z.pow_nonneg. lia.
  Qed.

  Lemma expand_word bits rest : hex_dec bits = Some ([b0; b1; b2; b3] ++ rest) ->
    expand_target_from_as_int bits = Ok (if 128 <=? b2n b1 then (- c_magnitude b0 b1 b2 b3)%Z else c_magnitude b0 b1 b2 b3).
  Proof.
    intros H. unfold expand_target_from_as_int. apply of_hex_ok in H. rewrite H. cbn [bind]. unfold be_uint32.
    replace (Nat.ltb (length ([b0; b1; b2; b3] ++ rest)) 4) with false by (symmetry; apply Nat.ltb_ge; cbn [length app]; lia).
    cbn [bind]. cbv zeta. change (firstn 4 ([b0; b1; b2; b3] ++ rest)) with [b0; b1; b2; b3]. rewrite be4.
    rewrite word_mantissa, word_sign, word_exponent.
    assert ((if b2n b0 <=? 3 then Z.of_N (N.shiftr mn (8 * (3 - b2n b0))) else Z.shiftl (Z.of_N mn) (Z.of_N (8 * (b2n b0 - 3)))) = c_magnitude b0 b1 b2 b3) as ->; [|reflexivity].
    destruct (N.leb_spec (b2n b0) 3) as [L|L].
    - rewrite magnitude_low by assumption. rewrite N.shiftr_div_pow2, N2Z.inj_div. unfold c_mantissa, c_exponent. f_equal.
      rewrite N2Z.inj_pow. rewrite <- (pow256 (3 - Z.of_N (b2n b0))) by lia. f_equal. lia.
    - rewrite magnitude_high by lia. rewrite Z.shiftl_mul_pow2 by lia. unfold c_mantissa, c_exponent. f_equal.
      rewrite <- (pow256 (Z.of_N (b2n b0) - 3)) by lia. f_equal. lia.
  Qed.

  Lemma compact_word : to_compact_size w =
    (Z.of_N (b2n b1 * 65536 + b2n b2 * 256 + b2n b3) * 256 ^ Z.max 0 (c_exponent b0 - 3))%Z.
  Proof.
    unfold to_compact_size. cbv zeta. change 0x01000000 with 16777216. destruct word_rem as [-> ->]. f_equal. unfold c_exponent.
    destruct (8 * (Z.of_N (b2n b0) - 3) <=? 0)%Z eqn:L.
    - replace (Z.max 0 (Z.of_N (b2n b0) - 3)) with 0%Z by lia. reflexivity.
    - rewrite Z.max_r by lia. now rewrite <- pow256 by lia.
  Qed.

  (** the two readings of a compact target agree exactly here *)
  Lemma compact_agrees : to_compact_size w = (if 128 <=? b2n b1 then (- c_magnitude b0 b1 b2 b3)%Z else c_magnitude b0 b1 b2 b3)
    <-> b2n b1 < 128 /\ (3 <= b2n b0 \/ c_mantissa b1 b2 b3 = 0%Z).
  Proof.
    rewrite compact_word. pose proof magnitude_nonneg as P. destruct word_bounds as (H0 & H1 & H2 & H3).
    destruct (N.leb_spec 128 (b2n b1)) as [S|S].
    - split; [|lia]. intros E. exfalso.
      assert (0 < 256 ^ Z.max 0 (c_exponent b0 - 3))%Z as PP by (apply Z.pow_pos_nonneg; lia). nia.
    - assert (Z.of_N (b2n b1 * 65536 + b2n b2 * 256 + b2n b3) = c_mantissa b1 b2 b3) as ->.
      { unfold c_mantissa. rewrite N.mod_small by assumption. reflexivity. }
      destruct (N.leb_spec 3 (b2n b0)) as [L|L].
      + rewrite magnitude_high by assumption. rewrite Z.max_r by (unfold c_exponent; lia). split; [intros _; auto|reflexivity].
      + rewrite magnitude_low by lia. rewrite Z.max_l by (unfold c_exponent; lia). rewrite Z.pow_0_r, Z.mul_1_r.
        assert (0 <= c_mantissa b1 b2 b3)%Z by (unfold c_mantissa; lia).
        assert (256 <= 256 ^ (3 - c_exponent b0))%Z as B.
        { replace 256%Z with (256 ^ 1)%Z at 1 by reflexivity. apply Z.pow_le_mono_r; unfold c_exponent; lia. }
        split.
        * intros E. split; [assumption|]. right. destruct (Z.eq_dec (c_mantissa b1 b2 b3) 0) as [Z0|NZ]; [assumption|].
          assert (c_mantissa b1 b2 b3 / 256 ^ (3 - c_exponent b0) < c_mantissa b1 b2 b3)%Z by (apply Z.div_lt; lia). lia.
        * intros [_ [X|X]]; [lia|]. rewrite X. now rewrite Z.div_0_l by lia.
  Qed.
End Word.

(** ** big-endian minimal bytes *)

Lemma bytes_len_bound n : n < 256 ^ N.of_nat (bytes_len n).
Proof.
  unfold bytes_len. rewrite N2Nat.id. destruct (N.eq_dec n 0) as [->|Z]; [reflexivity|].
  apply N.lt_le_trans with (2 ^ N.size n); [apply N.size_gt|]. change 256 with (2 ^ 8). rewrite <- N.pow_mul_r. apply N.pow_le_mono_r; [lia|].
  pose proof (N.div_mod (N.size n + 7) 8 ltac:(lia)). pose proof (N.mod_lt (N.size n + 7) 8 ltac:(lia)). lia.
Qed.

Lemma bytes_len_le n k : (bytes_len n <= k)%nat <-> n < 256 ^ N.of_nat k.
Proof.
  split.
  - intros H. apply N.lt_le_trans with (256 ^ N.of_nat (bytes_len n)); [apply bytes_len_bound|]. apply N.pow_le_mono_r; lia.
  - intros H. unfold bytes_len. destruct (N.eq_dec n 0) as [->|Z]; [cbn; lia|].
    assert (N.size n <= 8 * N.of_nat k) as B.
    { rewrite N.size_log2 by assumption. apply N.le_succ_l. apply N.log2_lt_pow2; [lia|]. rewrite N.pow_mul_r. exact H. }
    assert ((N.size n + 7) / 8 < N.of_nat k + 1) by (apply N.div_lt_upper_bound; lia). lia.
Qed.

Lemma expand_hex bits z : expand_target_from_as_int bits = Ok z ->
  expand_target_from bits = (if (Z.abs z <? 2 ^ 256)%Z then Ok (hex_encode (be_put 32 (Z.to_N (Z.abs z)))) else Panic).
Proof.
  intros E. unfold expand_target_from. rewrite E. cbn [bind]. cbv zeta. unfold bigint_bytes. cbv zeta.
  set (n := Z.to_N (Z.abs z)). rewrite be_put_length.
  replace (Nat.ltb 32 (bytes_len n)) with (negb (Z.abs z <? 2 ^ 256)%Z).
  2:{ pose proof (bytes_len_le n 32) as B. change (256 ^ N.of_nat 32) with (2 ^ 256) in B.
      destruct (Z.ltb_spec (Z.abs z) (2 ^ 256)) as [L|L]; cbn [negb]; symmetry.
      - apply Nat.ltb_ge, B. unfold n. lia.
      - apply Nat.ltb_lt. apply Nat.nle_gt. intros C. apply B in C. unfold n in C. lia. }
  destruct (Z.ltb_spec (Z.abs z) (2 ^ 256)) as [L|L]; cbn [negb]; [|reflexivity]. do 2 f_equal.
  assert (n < 256 ^ N.of_nat 32) as Bn by (change (256 ^ N.of_nat 32) with (2 ^ 256); unfold n; lia).
  assert (bytes_len n <= 32)%nat as B by now apply bytes_len_le.
  apply be_get_inj.
  - rewrite app_length, repeat_length, !be_put_length. lia.
  - rewrite be_get_zeros, !be_get_put. rewrite !N.mod_small; [reflexivity|assumption|apply bytes_len_bound].
Qed.

(** ** when the value fits 256 bits *)

Lemma magnitude_fits b0 b1 b2 b3 : (c_magnitude b0 b1 b2 b3 < 2 ^ 256)%Z <->
  (let e := c_exponent b0 in let m := c_mantissa b1 b2 b3 in
   m = 0 \/ e <= 32 \/ (e = 33 /\ m < 65536) \/ (e = 34 /\ m < 256))%Z.
Proof.
  cbv zeta. assert (0 <= c_mantissa b1 b2 b3 < 8388608)%Z as M.
  { unfold c_mantissa. pose proof (N.mod_lt (b2n b1) 128 ltac:(lia)). pose proof (b2n_lt b2). pose proof (b2n_lt b3). lia. }
  destruct (N.leb_spec 3 (b2n b0)) as [L|L].
  - rewrite magnitude_high by assumption. assert (3 <= c_exponent b0)%Z as L' by (unfold c_exponent; lia).
    set (e := c_exponent b0) in *. set (m := c_mantissa b1 b2 b3) in *. clearbody e m. split.
    + intros H. destruct (Z.eq_dec m 0) as [Z|Z]; [auto|]. right.
      destruct (Z.leb_spec e 32) as [|E]; [auto|]. right.
      assert (e < 35)%Z as E35.
      { destruct (Z.ltb_spec e 35) as [|G]; [assumption|exfalso].
        assert (256 ^ 32 <= 256 ^ (e - 3))%Z by (apply Z.pow_le_mono_r; lia). change (2 ^ 256)%Z with (256 ^ 32)%Z in H. nia. }
      assert (e = 33 \/ e = 34)%Z as [-> | ->] by lia; [left|right]; (split; [reflexivity|]).
      * change (256 ^ (33 - 3))%Z with (2 ^ 240)%Z in H. lia.
      * change (256 ^ (34 - 3))%Z with (2 ^ 248)%Z in H. lia.
    + intros [->|[E|[[-> E]|[-> E]]]].
      * rewrite Z.mul_0_l. reflexivity.
      * assert (256 ^ (e - 3) <= 256 ^ 29)%Z by (apply Z.pow_le_mono_r; lia).
        assert (0 < 256 ^ (e - 3))%Z by (apply Z.pow_pos_nonneg; lia).
        apply Z.le_lt_trans with (8388607 * 256 ^ 29)%Z; [nia|reflexivity].
      * change (256 ^ (33 - 3))%Z with (2 ^ 240)%Z. lia.
      * change (256 ^ (34 - 3))%Z with (2 ^ 248)%Z. lia.
  - assert (c_exponent b0 <= 32)%Z by (unfold c_exponent; lia). split; [auto|]. intros _.
    rewrite magnitude_low by lia. apply Z.le_lt_trans with (c_mantissa b1 b2 b3).
    + apply Z.div_le_upper_bound; [apply Z.pow_pos_nonneg; unfold c_exponent; lia|]. assert (1 <= 256 ^ (3 - c_exponent b0))%Z by (assert (0 < 256 ^ (3 - c_exponent b0))%Z by (apply Z.pow_pos_nonneg; unfold c_exponent; lia); lia). nia.
    + lia.
Qed.

Lemma dec4 (b : bytes) : (4 <= length b)%nat -> exists b0 b1 b2 b3 rest, b = [b0; b1; b2; b3] ++ rest.
Proof. destruct b as [|b0 [|b1 [|b2 [|b3 rest]]]]; cbn [length]; try lia. intros _. exists b0, b1, b2, b3, rest. reflexivity. Qed.

Lemma expand_short bits b : hex_dec bits = Some b -> (length b < 4)%nat -> expand_target_from_as_int bits = Panic.
Proof.
  intros H L. unfold expand_target_from_as_int. apply of_hex_ok in H. rewrite H. cbn [bind]. unfold be_uint32.
  apply Nat.ltb_lt in L. rewrite L. reflexivity.
Qed.

Lemma expand_err bits : hex_dec bits = None -> exists e, expand_target_from_as_int bits = Err (EHex e) /\ expand_target_from bits = Err (EHex e).
Proof.
  intros H. unfold expand_target_from, expand_target_from_as_int, of_hex, hex_dec in *. destruct (hex_decode bits) as [b [e|]]; [|discriminate]. cbn [bind]. eauto.
Qed.

Lemma expand_ok_iff bits z : expand_target_from_as_int bits = Ok z <->
  exists b0 b1 b2 b3 rest, hex_dec bits = Some ([b0; b1; b2; b3] ++ rest) /\ c_target b0 b1 b2 b3 z.
Proof.
  split.
  - intros H. destruct (hex_dec bits) as [b|] eqn:D; [|destruct (expand_err _ D) as (e & E & _); congruence].
    destruct (Nat.ltb_spec (length b) 4) as [L|L]; [rewrite (expand_short _ _ D L) in H; discriminate|].
    destruct (dec4 _ L) as (b0 & b1 & b2 & b3 & rest & ->). rewrite (expand_word _ _ _ _ _ _ D) in H. injection H as <-.
    exists b0, b1, b2, b3, rest. split; [reflexivity|]. unfold c_target, c_negative. destruct (N.leb_spec 128 (b2n b1)); [left|right]; split; (reflexivity || lia).
  - intros (b0 & b1 & b2 & b3 & rest & D & T). rewrite (expand_word _ _ _ _ _ _ D). f_equal. unfold c_target, c_negative in T.
    destruct (N.leb_spec 128 (b2n b1)); destruct T as [[? ->]|[? ->]]; (reflexivity || lia).
Qed.
