(** Property theorems C48, C49, C59, C60: compact targets, difficulty, hash rates. *)
From Verif Require Import P_Difficulty P_Float P_Human.
From Flocq Require Import Core IEEE754.BinarySingleNaN.
From Coq Require Import Reals Lra ZifyBool ZifyNat ZifyN.
Local Open Scope N_scope.

Local Lemma ok_inj {A : Type} (a b : A) : Ok a = Ok b -> a = b.
Proof. congruence. Qed.

(** ** C48: target expansion *)

Theorem C48_as_int_iff : forall bits z, expand_target_from_as_int bits = Ok z <->
  exists b0 b1 b2 b3 rest, hex_dec bits = Some ([b0; b1; b2; b3] ++ rest) /\ c_target b0 b1 b2 b3 z.
Proof. exact expand_ok_iff. Qed.
Print Assumptions C48_as_int_iff.

Theorem C48_hex_iff : forall bits s, expand_target_from bits = Ok s <->
  exists b0 b1 b2 b3 rest d, hex_dec bits = Some ([b0; b1; b2; b3] ++ rest) /\
    s = hex_encode d /\ length d = 32%nat /\ Z.of_N (be_get d) = c_magnitude b0 b1 b2 b3.
Proof.
  intros bits s. split.
  - intros H. destruct (expand_target_from_as_int bits) as [z|e|] eqn:E; try (unfold expand_target_from in H; rewrite E in H; discriminate H).
    rewrite (expand_hex _ _ E) in H. destruct (Z.ltb_spec (Z.abs z) (2 ^ 256)) as [L|L]; [|discriminate H]. apply ok_inj in H; subst.
    apply expand_ok_iff in E as (b0 & b1 & b2 & b3 & rest & D & T). exists b0, b1, b2, b3, rest, (be_put 32 (Z.to_N (Z.abs z))).
    split; [assumption|]. split; [reflexivity|]. split; [apply be_put_length|]. rewrite be_get_put.
    rewrite N.mod_small by (change (256 ^ N.of_nat 32) with (2 ^ 256); lia). pose proof (magnitude_nonneg b0 b1 b2 b3).
    destruct T as [[_ ->]|[_ ->]]; lia.
  - intros (b0 & b1 & b2 & b3 & rest & d & D & -> & L & V). pose proof (expand_word _ _ _ _ _ _ D) as E. rewrite (expand_hex _ _ E).
    pose proof (magnitude_nonneg b0 b1 b2 b3) as M.
    assert (Z.abs (if 128 <=? b2n b1 then - c_magnitude b0 b1 b2 b3 else c_magnitude b0 b1 b2 b3) = Z.of_N (be_get d)) as A by (destruct (128 <=? b2n b1); lia).
    rewrite A. pose proof (be_get_bound d) as B. rewrite L in B. change (256 ^ N.of_nat 32) with (2 ^ 256) in B.
    destruct (Z.ltb_spec (Z.of_N (be_get d)) (2 ^ 256)) as [_|X]; [|lia]. rewrite N2Z.id, <- L. now rewrite be_put_get.
Qed.
Print Assumptions C48_hex_iff.

Theorem C48_error_iff : forall bits, ((exists e, expand_target_from bits = Err e) <-> hex_dec bits = None) /\
  ((exists e, expand_target_from_as_int bits = Err e) <-> hex_dec bits = None).
Proof.
  intros bits. destruct (hex_dec bits) as [b|] eqn:D.
  - destruct (Nat.ltb_spec (length b) 4) as [L|L].
    + pose proof (expand_short _ _ D L) as P. unfold expand_target_from. rewrite P. cbn [bind]. split; (split; [intros (e & E); discriminate E|discriminate]).
    + destruct (dec4 _ L) as (b0 & b1 & b2 & b3 & rest & ->). pose proof (expand_word _ _ _ _ _ _ D) as E. rewrite (expand_hex _ _ E), E.
      split; (split; [intros (e & X)|discriminate]); [|discriminate X]. destruct (_ <? _)%Z; discriminate X.
  - destruct (expand_err _ D) as (e & -> & ->). split; (split; [reflexivity|eauto]).
Qed.
Print Assumptions C48_error_iff.

(** panics: fewer than four bytes, or a value of more than 256 bits *)
Theorem C48_panics_iff : forall bits, expand_target_from bits = Panic <->
  (exists b, hex_dec bits = Some b /\ (length b < 4)%nat) \/
  (exists b0 b1 b2 b3 rest, hex_dec bits = Some ([b0; b1; b2; b3] ++ rest) /\ (2 ^ 256 <= c_magnitude b0 b1 b2 b3)%Z).
Proof.
  intros bits. split.
  - intros H. destruct (hex_dec bits) as [b|] eqn:D; [|destruct (expand_err _ D) as (e & _ & E); congruence].
    destruct (Nat.ltb_spec (length b) 4) as [L|L]; [left; eauto|right].
    destruct (dec4 _ L) as (b0 & b1 & b2 & b3 & rest & ->). exists b0, b1, b2, b3, rest. split; [reflexivity|].
    pose proof (expand_word _ _ _ _ _ _ D) as E. rewrite (expand_hex _ _ E) in H. pose proof (magnitude_nonneg b0 b1 b2 b3).
    destruct (Z.ltb_spec (Z.abs (if 128 <=? b2n b1 then - c_magnitude b0 b1 b2 b3 else c_magnitude b0 b1 b2 b3)) (2 ^ 256)) as [X|X]; [discriminate H|].
    destruct (128 <=? b2n b1); lia.
  - intros [(b & D & L)|(b0 & b1 & b2 & b3 & rest & D & M)].
    + unfold expand_target_from. now rewrite (expand_short _ _ D L).
    + pose proof (expand_word _ _ _ _ _ _ D) as E. rewrite (expand_hex _ _ E).
      destruct (Z.ltb_spec (Z.abs (if 128 <=? b2n b1 then - c_magnitude b0 b1 b2 b3 else c_magnitude b0 b1 b2 b3)) (2 ^ 256)) as [X|X]; [|reflexivity].
      destruct (128 <=? b2n b1); lia.
Qed.
Print Assumptions C48_panics_iff.

(** which compact values fit 256 bits *)
Theorem C48_fits_iff : forall b0 b1 b2 b3, (c_magnitude b0 b1 b2 b3 < 2 ^ 256)%Z <->
  (let e := c_exponent b0 in let m := c_mantissa b1 b2 b3 in
   m = 0 \/ e <= 32 \/ (e = 33 /\ m < 65536) \/ (e = 34 /\ m < 256))%Z.
Proof. exact magnitude_fits. Qed.
Print Assumptions C48_fits_iff.

(** the hex form loses the sign *)
Theorem C48_sign_kept_refuted : exists s s' z z', expand_target_from_as_int s = Ok z /\ expand_target_from_as_int s' = Ok z' /\ z <> z' /\
  expand_target_from s = expand_target_from s'.
Proof. exists (str "04000001"), (str "04800001"), 256%Z, (-256)%Z. split; [|split; [|split]]; try (vm_compute; reflexivity). discriminate. Qed.
Print Assumptions C48_sign_kept_refuted.

Example C48_example : expand_target_from_as_int (str "1d00ffff") = Ok (65535 * 2 ^ 208)%Z /\
  expand_target_from (str "1d00ffff") = Ok (str "00000000ffff0000000000000000000000000000000000000000000000000000") /\
  expand_target_from (str "23000100") = Panic /\ expand_target_from (str "1d00ff") = Panic /\
  expand_target_from_as_int (str "02008000") = Ok 128%Z.
Proof. vm_compute. repeat (split; try reflexivity). Qed.

(** ** C49: difficulty *)

(** the target DifficultyFromBits divides by, against ExpandTargetFromAsInt *)
Theorem C49_agrees_iff : forall bits b0 b1 b2 b3 rest t z, hex_dec bits = Some ([b0; b1; b2; b3] ++ rest) ->
  difficulty_target bits = Ok t -> expand_target_from_as_int bits = Ok z ->
  (t = z <-> ~ c_negative b1 /\ (3 <= b2n b0 \/ c_mantissa b1 b2 b3 = 0%Z)).
Proof.
  intros bits b0 b1 b2 b3 rest t z D T Z. rewrite (expand_word _ _ _ _ _ _ D) in Z. apply ok_inj in Z; subst.
  unfold difficulty_target in T. cbv zeta in T. rewrite (hex_dec_ignore _ _ D) in T. unfold be_uint32 in T.
  replace (Nat.ltb (length ([b0; b1; b2; b3] ++ rest)) 4) with false in T by (symmetry; apply Nat.ltb_ge; cbn [length app]; lia).
  cbn [bind] in T. change (firstn 4 ([b0; b1; b2; b3] ++ rest)) with [b0; b1; b2; b3] in T. rewrite be4 in T. apply ok_inj in T; subst.
  rewrite compact_agrees. unfold c_negative. intuition lia.
Qed.
Print Assumptions C49_agrees_iff.

Theorem C49_always_agrees_refuted : exists bits t z, difficulty_target bits = Ok t /\ expand_target_from_as_int bits = Ok z /\ t <> z.
Proof. exists (str "02008000"), 32768%Z, 128%Z. split; [|split]; try (vm_compute; reflexivity). discriminate. Qed.
Print Assumptions C49_always_agrees_refuted.

(** outcome of DifficultyFromBits: the quotient of the targets to binary64 accuracy,
    +Inf for target 0, an error for targets that round to infinity *)
Theorem C49_outcome : forall bits t, difficulty_target bits = Ok t -> (0 <= t)%Z /\
  (t = 0%Z -> difficulty_from_bits bits = Ok (B754_infinity false)) /\
  ((2 ^ 1024 - 2 ^ 970 <= t)%Z -> difficulty_from_bits bits = Err (EParseFloat t)) /\
  ((1 <= t < 2 ^ 1024 - 2 ^ 970)%Z -> exists d, difficulty_from_bits bits = Ok d /\ is_finite d = true /\
     (let exact := IZR (65535 * 2 ^ 208) / IZR t in Rabs (B2R d - exact) <= bpow radix2 (-51) * exact)%R).
Proof.
  intros bits t T. assert (0 <= t)%Z as P.
  { unfold difficulty_target in T. cbv zeta in T. destruct (be_uint32 (hex_ignore bits)); try discriminate T. cbn [bind] in T. apply ok_inj in T; subst. apply compact_nonneg. }
  unfold difficulty_from_bits. rewrite T. cbn [bind]. split; [assumption|]. split; [intros ->; apply diff_zero|].
  destruct (diff_total t P) as [E K]. split; [intros L; apply E; exact L|]. intros [L1 L2]. destruct (K L2) as (d & D). exists d. split; [exact D|].
  destruct (diff_value t d L1 D) as (_ & F & _). split; [exact F|]. cbv zeta. exact (diff_error t d L1 D).
Qed.
Print Assumptions C49_outcome.

(** the value itself, in terms of the first four bytes of the text *)
Theorem C49_value : forall bits b0 b1 b2 b3 rest, hex_ignore bits = [b0; b1; b2; b3] ++ rest ->
  let t := d_target b0 b1 b2 b3 in
  (t = 0%Z -> difficulty_from_bits bits = Ok (B754_infinity false)) /\
  ((2 ^ 1024 - 2 ^ 970 <= t)%Z -> difficulty_from_bits bits = Err (EParseFloat t)) /\
  ((1 <= t < 2 ^ 1024 - 2 ^ 970)%Z -> exists d, difficulty_from_bits bits = Ok d /\ is_finite d = true /\
     (let exact := IZR (65535 * 2 ^ 208) / IZR t in Rabs (B2R d - exact) <= bpow radix2 (-51) * exact)%R).
Proof.
  intros bits b0 b1 b2 b3 rest D t. refine (proj2 (C49_outcome bits t _)).
  unfold difficulty_target. cbv zeta. rewrite D. unfold be_uint32.
  replace (Nat.ltb (length ([b0; b1; b2; b3] ++ rest)) 4) with false by (symmetry; apply Nat.ltb_ge; cbn [length app]; lia).
  cbn [bind]. change (firstn 4 ([b0; b1; b2; b3] ++ rest)) with [b0; b1; b2; b3]. rewrite be4. f_equal. unfold t. apply compact_word.
Qed.
Print Assumptions C49_value.

Theorem C49_monotone : forall bits1 bits2 t1 t2 d1 d2, difficulty_target bits1 = Ok t1 -> difficulty_target bits2 = Ok t2 ->
  difficulty_from_bits bits1 = Ok d1 -> difficulty_from_bits bits2 = Ok d2 -> (1 <= t1 <= t2)%Z -> (B2R d2 <= B2R d1)%R.
Proof.
  intros bits1 bits2 t1 t2 d1 d2 T1 T2 D1 D2 L. unfold difficulty_from_bits in *. rewrite T1 in D1. rewrite T2 in D2. cbn [bind] in *.
  exact (diff_monotone _ _ _ _ L D1 D2).
Qed.
Print Assumptions C49_monotone.

Theorem C49_one : exists d, difficulty_from_bits (str "1d00ffff") = Ok d /\ B2R d = 1%R.
Proof.
  assert (difficulty_from_bits (str "1d00ffff") = target_to_difficulty genesis_target_z) as E.
  { unfold difficulty_from_bits. assert (difficulty_target (str "1d00ffff") = Ok genesis_target_z) as -> by (vm_compute; reflexivity). reflexivity. }
  destruct (diff_total genesis_target_z ltac:(vm_compute; discriminate)) as [_ K]. destruct (K ltac:(vm_compute; reflexivity)) as (d & D).
  exists d. split; [now rewrite E|]. destruct (diff_value genesis_target_z d ltac:(vm_compute; discriminate) D) as (_ & _ & ->).
  rewrite (rnd_id (IZR genesis_target_z)) by apply fmt_gt. fold gt. unfold Rdiv. rewrite Rinv_r by (pose proof gt_pos; lra). apply rnd_id, fmt_1.
Qed.
Print Assumptions C49_one.

(** text that is not hex is read up to the bad digit; fewer than four bytes panic *)
Theorem C49_panics_iff : forall bits, difficulty_from_bits bits = Panic <-> (length (hex_ignore bits) < 4)%nat.
Proof.
  intros bits. unfold difficulty_from_bits, difficulty_target, be_uint32. cbv zeta.
  destruct (Nat.ltb_spec (length (hex_ignore bits)) 4) as [L|L]; cbn [bind]; [tauto|]. split; [|lia].
  unfold target_to_difficulty, parse_float_int. cbv zeta. destruct (is_finite _); discriminate.
Qed.
Print Assumptions C49_panics_iff.

Theorem C49_rejects_non_hex_refuted : exists bits d, hex_dec bits = None /\ difficulty_from_bits bits = Ok d.
Proof.
  exists (str "1d00ffffxx"). destruct C49_one as (d & D & _). exists d. split; [vm_compute; reflexivity|].
  rewrite <- D. unfold difficulty_from_bits. replace (difficulty_target (str "1d00ffffxx")) with (difficulty_target (str "1d00ffff")) by (vm_compute; reflexivity). reflexivity.
Qed.
Print Assumptions C49_rejects_non_hex_refuted.

Example C49_example : difficulty_target (str "1b0404cb") = Ok (263371 * 2 ^ 192)%Z /\ expand_target_from_as_int (str "1b0404cb") = Ok (263371 * 2 ^ 192)%Z /\
  difficulty_from_bits (str "90010000") = Err (EParseFloat (65536 * 2 ^ (8 * 141))) /\ difficulty_from_bits (str "1d00") = Panic.
Proof. vm_compute. auto. Qed.

(** ** C59: human-readable hash rates *)

(** the text of every finite rate: sign, the scaled value to the nearest hundredth
    (ties to even), a space, the unit *)
Theorem C59_text : forall x : f64, is_finite x = true -> exists k un v t n,
  human_hash x = (if Bsign x then [x2d] else []) ++ t ++ [x20] ++ un /\ unit_of (B2R x) k un /\
  (v = match k with O => B2R x | _ => rnd (B2R x / 10 ^ k) end)%R /\
  cents_text t n /\ Z.of_N n = ZnearestE (100 * Rabs v).
Proof.
  intros x F. unfold human_hash. destruct (human_scale x) as [v un] eqn:H. destruct (human_unit x v un F H) as (k & U & V0 & VK).
  assert (is_finite v = true /\ B2R v = (match k with O => B2R x | _ => rnd (B2R x / 10 ^ k) end)%R /\ Bsign v = Bsign x) as (FV & BV & SV).
  { destruct k as [|k].
    - rewrite V0 by reflexivity. auto.
    - specialize (VK ltac:(lia)). assert (1 <= Z.of_nat (S k) <= 22)%Z as K.
      { unfold unit_of in U. destruct U as [(K & _)|[(K & _)|[(K & _)|[(K & _)|[(K & _)|[(K & _)|[(K & _)|(K & _)]]]]]]]; rewrite K; vm_compute; split; congruence. }
      destruct (scaled_value x (Z.of_nat (S k)) K F) as [A B]. rewrite <- VK in A, B. rewrite <- pow_IZR in A. split; [exact B|]. split; [exact A|].
      assert (1000 <= B2R x)%R as P.
      { unfold unit_of in U. tens. destruct U as [(E & _)|[(_ & _ & R)|[(_ & _ & R)|[(_ & _ & R)|[(_ & _ & R)|[(_ & _ & R)|[(_ & _ & R)|(_ & _ & R)]]]]]]]; [discriminate E|lra..]. }
      assert (forall w : f64, (0 < B2R w)%R -> Bsign w = false) as SP.
      { intros w W. destruct w as [s|s| |s m e Hb]; cbn [B2R Bsign] in *; try lra. destruct s; [|reflexivity]. exfalso.
        assert (F2R (Float radix2 (cond_Zopp true (Z.pos m)) e) < 0)%R by (apply F2R_lt_0; reflexivity). lra. }
      rewrite (SP x) by lra. apply SP. rewrite A. apply Rlt_le_trans with (bpow radix2 (-1074)); [apply bpow_gt_0|].
      rewrite <- (rnd_id (bpow radix2 (-1074))) by (apply fmt_bpow; lia). apply rnd_le.
      assert (0 < 10 ^ S k <= IZR (10 ^ 22))%R as [T1 T2].
      { rewrite pow_IZR. split; [apply (IZR_lt 0), Z.pow_pos_nonneg; lia|apply IZR_le, Z.pow_le_mono_r; lia]. }
      apply Rle_trans with (1 / IZR (10 ^ 22))%R.
      + apply Rmult_le_reg_r with (IZR (10 ^ 22)); [apply (IZR_lt 0); vm_compute; reflexivity|]. unfold Rdiv. rewrite Rmult_assoc, Rinv_l by (apply not_0_IZR; discriminate).
        apply Rle_trans with (bpow radix2 (-1074) * bpow radix2 74)%R; [|rewrite <- bpow_plus, Rmult_1_l; change 1%R with (bpow radix2 0); apply bpow_le; lia].
        apply Rmult_le_compat_l; [left; apply bpow_gt_0|]. rewrite <- (IZR_Zpower radix2) by lia. apply IZR_le. vm_compute. discriminate.
      + unfold Rdiv. apply Rmult_le_compat; [lra|left; apply Rinv_0_lt_compat, (IZR_lt 0); vm_compute; reflexivity|lra|]. apply Rinv_le; assumption. }
  destruct (fixed2_spec v FV) as (t & n & TX & C & N). exists k, un, (B2R v), t, n. rewrite TX, SV, <- app_assoc.
  split; [reflexivity|]. split; [exact U|]. split; [exact BV|]. split; [exact C|exact N].
Qed.
Print Assumptions C59_text.

(** unit and number of a rate are determined, and the unit grows with the rate *)
Theorem C59_unit_monotone : forall x y k1 u1 k2 u2, unit_of x k1 u1 -> unit_of y k2 u2 -> (x <= y)%R -> (k1 <= k2)%nat.
Proof. exact unit_mono. Qed.
Print Assumptions C59_unit_monotone.

(** below the largest unit the number before rounding to hundredths is in [1, 1000) *)
Theorem C59_range : forall (x v : f64) un, is_finite x = true -> human_scale x = (v, un) ->
  (1000 <= B2R x)%R -> un <> str "ZH/s" -> (1 <= B2R v < 1000)%R.
Proof. intros x v un F H L U. apply (human_range x v un F H); [tens; lra|exact U]. Qed.
Print Assumptions C59_range.

(** the displayed number itself can be 1000.00 *)
Theorem C59_shows_below_1000_refuted : human_hash (f64_of_Z 999999) = str "1000.00 kH/s".
Proof. vm_compute. reflexivity. Qed.
Print Assumptions C59_shows_below_1000_refuted.

(** and in the largest unit the scaled value of a rate below 10^24 can be 1000: the
    float64 nearest to 10^24 is below it *)
Theorem C59_zeta_range_refuted : exists x : f64, is_finite x = true /\ (B2R x < 10 ^ 24)%R /\ B2SF (fst (human_scale x)) = B2SF (f64_of_Z 1000).
Proof.
  exists (f64_of_Z (7450580596923828 * 2 ^ 27 * 1)). pose proof (of_Z_exact 7450580596923828 27 ltac:(lia) ltac:(lia)) as [A B]. rewrite Z.mul_1_r.
  split; [exact B|]. split; [|vm_compute; reflexivity]. rewrite A, pow_IZR. apply IZR_lt. vm_compute. reflexivity.
Qed.
Print Assumptions C59_zeta_range_refuted.

Theorem C59_not_finite : human_hash (B754_nan : f64) = str "NaN H/s" /\
  human_hash (B754_infinity false : f64) = str "+Inf ZH/s" /\ human_hash (B754_infinity true : f64) = str "-Inf H/s".
Proof. exact human_nonfinite. Qed.
Print Assumptions C59_not_finite.

Example C59_example : human_hash (f64_of_Z 13500000000000) = str "13.50 TH/s" /\ human_hash (f64_of_Z 999) = str "999.00 H/s" /\
  human_hash (f64_of_Z (-5000)) = str "-5000.00 H/s" /\ human_hash (f64_div (f64_of_Z 1) (f64_of_Z 8)) = str "0.12 H/s" /\
  human_hash (f64_of_Z (10 ^ 26)) = str "100000.00 ZH/s".
Proof. split; [|split; [|split; [|split]]]; vm_compute; reflexivity. Qed.

(** ** C60: hash rate from difficulty *)

Theorem C60_accuracy : forall c coin diff (s : f64), 1 <= diff < 2 ^ 64 -> is_finite s = true ->
  (bpow radix2 (-800) <= B2R s <= bpow radix2 800)%R ->
  exists r, difficulty_to_hashrate (c :: coin) diff s = Ok r /\ is_finite r = true /\
    (let t := IZR (if Byte.eqb c x52 then 8388607 * 2 ^ 232 else 65535 * 2 ^ 208) in
     let exact := IZR (Z.of_N diff) * (IZR (2 ^ 256) / t) / B2R s in
     Rabs (B2R r - exact) <= bpow radix2 (-50) * exact)%R.
Proof.
  intros c coin diff s D F S. destruct (rate_value c coin diff s ltac:(lia) F S) as (r & E & RF & _). exists r. split; [exact E|]. split; [exact RF|]. cbv zeta.
  pose proof (rate_error c coin diff s r D F S E) as R. cbv zeta in R.
  assert (scale (c :: coin) = IZR (2 ^ 256) / IZR (if Byte.eqb c x52 then 8388607 * 2 ^ 232 else 65535 * 2 ^ 208))%R as <-; [|exact R].
  unfold scale, reg_target_z, genesis_target_z. destruct c; reflexivity.
Qed.
Print Assumptions C60_accuracy.

Theorem C60_monotone : forall c coin d1 d2 (s : f64) r1 r2, d1 <= d2 -> d2 < 2 ^ 64 -> is_finite s = true ->
  (bpow radix2 (-800) <= B2R s <= bpow radix2 800)%R ->
  difficulty_to_hashrate (c :: coin) d1 s = Ok r1 -> difficulty_to_hashrate (c :: coin) d2 s = Ok r2 -> (B2R r1 <= B2R r2)%R.
Proof. exact rate_monotone. Qed.
Print Assumptions C60_monotone.

(** only the first letter of the ticker is looked at; an empty ticker panics *)
Theorem C60_ticker : (forall diff s, difficulty_to_hashrate [] diff s = Panic) /\
  (forall c coin coin' diff s, difficulty_to_hashrate (c :: coin) diff s = difficulty_to_hashrate (c :: coin') diff s).
Proof. split; reflexivity. Qed.
Print Assumptions C60_ticker.

Example C60_example :
  match difficulty_to_hashrate (str "BSV") 22000 (f64_of_Z 7) with
  | Ok r => is_finite r = true /\ human_hash r = str "13.50 TH/s"
  | _ => False
  end.
Proof. vm_compute. auto. Qed.
