(** C60, every period: the special values, the range of the accuracy, the period. *)
From Verif Require Import P_Float.
From Flocq Require Import Core Relative IEEE754.BinarySingleNaN.
From Coq Require Import Reals Lra ZifyBool ZifyNat ZifyN.

Local Open Scope R_scope.

(** the numerator: finite, not negative, the same for every period *)
Lemma dividend c coin diff : (diff < 2 ^ 64)%N -> exists w : f64,
  (forall s, difficulty_to_hashrate (c :: coin) diff s = Ok (f64_div w s)) /\ is_finite w = true /\ Bsign w = false /\
  B2R w = rnd (rnd (IZR (Z.of_N diff)) * rnd (scale (c :: coin))) /\ B2R w <= bpow radix2 97 /\
  (diff = 0%N -> w = B754_zero false) /\ ((1 <= diff)%N -> 1 <= B2R w).
Proof.
  intros D. destruct (coin_ratio c coin) as (g & G & GF & GV).
  destruct (scale_bounds (c :: coin)) as [C1 C2]. set (k := scale (c :: coin)) in *. clearbody k.
  exists (f64_mul (f64_of_Z (Z.of_N diff)) g).
  assert (0 <= Z.of_N diff < too_big)%Z as DB. { split; [lia|]. apply Z.lt_trans with (2 ^ 64)%Z; [lia|vm_compute; reflexivity]. }
  pose proof (of_Z_value _ DB) as DV. assert (is_finite (f64_of_Z (Z.of_N diff)) = true) as DF by (apply of_Z_finite_iff; lia).
  assert (0 <= rnd (IZR (Z.of_N diff)) <= bpow radix2 64) as [d1 d2].
  { split; [apply rnd_nonneg; apply (IZR_le 0); lia|]. rewrite <- (rnd_id (bpow radix2 64)) by (apply fmt_bpow; lia). apply rnd_le. rewrite bpow_Z by lia. apply IZR_le. lia. }
  change 1 with (bpow radix2 0) in C1. destruct (rnd_bounds k 0 33 ltac:(lia) ltac:(lia) (conj C1 C2)) as [k1 k2].
  assert (0 < bpow radix2 0) as B0 by apply bpow_gt_0.
  assert (0 <= rnd (IZR (Z.of_N diff)) * rnd k <= bpow radix2 97) as [p1 p2].
  { split; [apply Rmult_le_pos; lra|]. change 97%Z with (64 + 33)%Z. rewrite bpow_plus. apply Rmult_le_compat; lra. }
  assert (0 <= rnd (rnd (IZR (Z.of_N diff)) * rnd k) <= bpow radix2 97) as [q1 q2].
  { split; [now apply rnd_nonneg|]. rewrite <- (rnd_id (bpow radix2 97)) by (apply fmt_bpow; lia). now apply rnd_le. }
  assert (Rabs (rnd (B2R (f64_of_Z (Z.of_N diff)) * B2R g)) < bpow radix2 1024) as BD.
  { rewrite DV, GV. rewrite Rabs_pos_eq by assumption. apply Rle_lt_trans with (1 := q2). apply bpow_lt. lia. }
  destruct (mul_fin (f64_of_Z (Z.of_N diff)) g DF GF BD) as [MV MF]. rewrite DV, GV in MV.
  assert (Bsign (f64_of_Z (Z.of_N diff)) = false) as DS.
  { pose proof (binary_normalize_correct 53 1024 f64_prec f64_emax mode_NE (Z.of_N diff) 0 false) as C. cbv zeta in C.
    assert (F2R (Float radix2 (Z.of_N diff) 0) = IZR (Z.of_N diff)) as E by (unfold F2R; cbn; lra). rewrite E in C.
    change (round radix2 (SpecFloat.fexp 53 1024) (round_mode mode_NE) (IZR (Z.of_N diff))) with (rnd (IZR (Z.of_N diff))) in C.
    rewrite Rlt_bool_true in C.
    - destruct C as (_ & _ & C). unfold f64_of_Z. rewrite C. destruct (Rcompare_spec (IZR (Z.of_N diff)) 0) as [L| |]; [|reflexivity|reflexivity].
      apply (lt_IZR _ 0) in L. lia.
    - rewrite Rabs_pos_eq by lra. apply Rle_lt_trans with (1 := d2). apply bpow_lt. lia. }
  assert (Bsign g = false) as GS.
  { destruct g as [b|b| |b m e B]; cbn in GF; try discriminate GF.
    - cbn in GV. rewrite <- GV in k1. lra.
    - destruct b; [|reflexivity]. exfalso. assert (B2R (B754_finite true m e B : f64) < 0) as Q; [|rewrite GV in Q; lra].
      cbn [B2R]. apply F2R_lt_0. reflexivity. }
  assert (Bsign (f64_mul (f64_of_Z (Z.of_N diff)) g) = false) as MS.
  { pose proof (@Bmult_correct 53 1024 f64_prec f64_emax mode_NE (f64_of_Z (Z.of_N diff)) g) as C.
    change (round radix2 (SpecFloat.fexp 53 1024) (round_mode mode_NE) (B2R (f64_of_Z (Z.of_N diff)) * B2R g)) with (rnd (B2R (f64_of_Z (Z.of_N diff)) * B2R g)) in C.
    rewrite Rlt_bool_true in C by assumption. destruct C as (_ & _ & C). unfold f64_mul. rewrite C, DS, GS; [reflexivity|].
    change (is_nan (f64_mul (f64_of_Z (Z.of_N diff)) g) = false). destruct (f64_mul (f64_of_Z (Z.of_N diff)) g); try reflexivity. discriminate MF. }
  split; [intros s; unfold difficulty_to_hashrate; rewrite G; reflexivity|]. split; [exact MF|]. split; [exact MS|]. split; [exact MV|].
  split; [rewrite MV; exact q2|]. split.
  - intros ->. cbn [Z.of_N] in *. assert (rnd 0 = 0) as Z0 by (apply rnd_id, generic_format_0). rewrite Z0, Rmult_0_l, Z0 in MV.
    destruct (f64_mul (f64_of_Z 0) g) as [b|b| |b m e B]; cbn in MF, MS; try discriminate MF; [now subst b|].
    exfalso. subst b. cbn [B2R] in MV. apply eq_0_F2R in MV. discriminate MV.
  - intros P. rewrite MV. rewrite <- (rnd_id 1) by apply fmt_1. apply rnd_le.
    assert (1 <= rnd (IZR (Z.of_N diff))) by (apply rnd_ge1; lia). change (bpow radix2 0) with 1 in k1. nra.
Qed.

(** Periods that are no number, infinite or zero, and difficulty zero. *)
Theorem C60_special : forall c coin diff (s : f64), (diff < 2 ^ 64)%N -> exists r, difficulty_to_hashrate (c :: coin) diff s = Ok r /\
  (s = B754_nan -> r = B754_nan) /\
  (forall b, s = B754_infinity b -> r = B754_zero b) /\
  (forall b, s = B754_zero b -> r = if (diff =? 0)%N then B754_nan else B754_infinity b) /\
  (is_finite s = true -> B2R s <> 0 -> diff = 0%N -> r = B754_zero (Bsign s)).
Proof.
  intros c coin diff s D. destruct (dividend c coin diff D) as (w & W & WF & WS & _ & _ & W0 & W1). exists (f64_div w s). split; [apply W|].
  assert (w = B754_zero false \/ exists m e B, w = B754_finite false m e B) as K.
  { destruct w as [b|b| |b m e B]; cbn in WF, WS; try discriminate WF; subst b; eauto. }
  split; [intros ->; destruct K as [->|(m & e & B & ->)]; reflexivity|].
  split; [intros b ->; destruct K as [->|(m & e & B & ->)]; destruct b; reflexivity|].
  split.
  - intros b ->. destruct (N.eqb_spec diff 0) as [->|N].
    + rewrite W0 by reflexivity. reflexivity.
    + destruct K as [->|(m & e & B & ->)]; [|destruct b; reflexivity]. exfalso. assert (1 <= 0); [|lra]. apply W1. lia.
  - intros F N ->. rewrite W0 by reflexivity. destruct s as [b|b| |b m e B]; try discriminate F; [now elim N|]. destruct b; reflexivity.
Qed.

Lemma div_over (x y : f64) : B2R y <> 0 -> bpow radix2 1024 <= Rabs (rnd (B2R x / B2R y)) -> f64_div x y = B754_infinity (xorb (Bsign x) (Bsign y)).
Proof.
  intros NZ H. pose proof (@Bdiv_correct 53 1024 f64_prec f64_emax mode_NE x y NZ) as C.
  change (round radix2 (SpecFloat.fexp 53 1024) (round_mode mode_NE) (B2R x / B2R y)) with (rnd (B2R x / B2R y)) in C.
  rewrite Rlt_bool_false in C by assumption. unfold f64_div. set (f := Bdiv _ _ _) in *. clearbody f.
  destruct f; cbn in C; try discriminate C. now injection C as ->.
Qed.

Lemma div_sign (x y : f64) : is_finite x = true -> B2R y <> 0 -> Rabs (rnd (B2R x / B2R y)) < bpow radix2 1024 -> Bsign (f64_div x y) = xorb (Bsign x) (Bsign y).
Proof.
  intros F NZ H. destruct (div_fin x y F NZ H) as [_ DF]. pose proof (@Bdiv_correct 53 1024 f64_prec f64_emax mode_NE x y NZ) as C.
  change (round radix2 (SpecFloat.fexp 53 1024) (round_mode mode_NE) (B2R x / B2R y)) with (rnd (B2R x / B2R y)) in C.
  rewrite Rlt_bool_true in C by assumption. destruct C as (_ & _ & C). apply C. change (is_nan (f64_div x y) = false).
  destruct (f64_div x y); try reflexivity. discriminate DF.
Qed.

(** Going back in time: a negative period gives the rate of the positive one, negated. *)
Theorem C60_negative : forall c coin diff (s r : f64), (diff < 2 ^ 64)%N -> difficulty_to_hashrate (c :: coin) diff s = Ok r ->
  difficulty_to_hashrate (c :: coin) diff (Bopp s) = Ok (Bopp r).
Proof.
  intros c coin diff s r D H. destruct (dividend c coin diff D) as (w & W & WF & WS & _). rewrite W in *. injection H as <-. f_equal.
  assert (w = B754_zero false \/ exists m e B, w = B754_finite false m e B) as K.
  { destruct w as [b|b| |b m e B]; cbn in WF, WS; try discriminate WF; subst b; eauto. }
  destruct s as [b|b| |b m e B]; try (destruct K as [->|(m' & e' & B' & ->)]; destruct b; reflexivity); try (destruct K as [->|(m' & e' & B' & ->)]; reflexivity).
  set (s := B754_finite b m e B : f64).
  assert (B2R s <> 0) as NZ. { cbn [s B2R]. intros Q. apply eq_0_F2R in Q. destruct b; discriminate Q. }
  assert (B2R (Bopp s) = - B2R s) as SO by apply B2R_Bopp.
  assert (B2R (Bopp s) <> 0) as NZ' by (rewrite SO; lra).
  assert (forall x, rnd (- x) = - rnd x) as RO. { intros x. apply round_NE_opp. }
  assert (rnd (B2R w / B2R (Bopp s)) = - rnd (B2R w / B2R s)) as Q. { rewrite <- RO, SO. f_equal. field. exact NZ. }
  assert (Bsign (Bopp s) = negb (Bsign s)) as SG by reflexivity.
  destruct (Rlt_or_le (Rabs (rnd (B2R w / B2R s))) (bpow radix2 1024)) as [L|L].
  - assert (Rabs (rnd (B2R w / B2R (Bopp s))) < bpow radix2 1024) as L' by (rewrite Q, Rabs_Ropp; exact L).
    destruct (div_fin w s WF NZ L) as [V F], (div_fin w (Bopp s) WF NZ' L') as [V' F'].
    pose proof (div_sign w s WF NZ L) as S. pose proof (div_sign w (Bopp s) WF NZ' L') as S'.
    apply B2R_Bsign_inj; [exact F'|now rewrite is_finite_Bopp|rewrite B2R_Bopp, V, V'; exact Q|].
    rewrite S', SG. rewrite Bsign_Bopp by (destruct (f64_div w s); try reflexivity; discriminate F). rewrite S, WS. now destruct (Bsign s).
  - rewrite (div_over w s NZ L). rewrite (div_over w (Bopp s) NZ'); [|rewrite Q, Rabs_Ropp; exact L]. rewrite SG, WS. destruct (Bsign s); reflexivity.
Qed.

(** A longer period never gives a larger rate. *)
Theorem C60_period : forall c coin diff (s1 s2 r1 r2 : f64), (diff < 2 ^ 64)%N -> is_finite s2 = true -> 0 < B2R s1 <= B2R s2 ->
  difficulty_to_hashrate (c :: coin) diff s1 = Ok r1 -> difficulty_to_hashrate (c :: coin) diff s2 = Ok r2 ->
  r1 = B754_infinity false \/ (is_finite r1 = true /\ is_finite r2 = true /\ 0 <= B2R r2 <= B2R r1).
Proof.
  intros c coin diff s1 s2 r1 r2 D F [P L] H1 H2. destruct (dividend c coin diff D) as (w & W & WF & WS & WV & _). rewrite W in *.
  injection H1 as <-. injection H2 as <-.
  assert (0 <= B2R w) as WP. { rewrite WV. apply rnd_nonneg, Rmult_le_pos; apply rnd_nonneg; [apply (IZR_le 0); lia|pose proof (scale_bounds (c :: coin)); lra]. }
  assert (Bsign s1 = false) as S1.
  { destruct s1 as [b|b| |b m e B]; cbn in P; try lra. destruct b; [|reflexivity]. exfalso.
    assert (F2R (Float radix2 (Z.neg m) e) < 0) as Q by (apply F2R_lt_0; reflexivity). change (0 < F2R (Float radix2 (Z.neg m) e)) in P. lra. }
  assert (0 <= rnd (B2R w / B2R s1)) as Q1 by (apply rnd_nonneg, Rdiv_nonneg; lra).
  assert (0 <= rnd (B2R w / B2R s2)) as Q2 by (apply rnd_nonneg, Rdiv_nonneg; lra).
  assert (rnd (B2R w / B2R s2) <= rnd (B2R w / B2R s1)) as Q.
  { apply rnd_le. unfold Rdiv. apply Rmult_le_compat_l; [exact WP|]. apply Rinv_le; lra. }
  destruct (Rlt_or_le (rnd (B2R w / B2R s1)) (bpow radix2 1024)) as [K|K].
  - right. destruct (div_fin w s1 WF ltac:(lra)) as [V1 F1]; [rewrite Rabs_pos_eq; lra|].
    destruct (div_fin w s2 WF ltac:(lra)) as [V2 F2]; [rewrite Rabs_pos_eq; lra|]. split; [exact F1|]. split; [exact F2|]. rewrite V1, V2. auto.
  - left. rewrite (div_over w s1 ltac:(lra)); [now rewrite WS, S1|]. rewrite Rabs_pos_eq; lra.
Qed.

(** A larger difficulty never gives a smaller rate, whatever the period. *)
Theorem C60_difficulty : forall c coin d1 d2 (s r1 r2 : f64), (d1 <= d2)%N -> (d2 < 2 ^ 64)%N -> is_finite s = true -> 0 < B2R s ->
  difficulty_to_hashrate (c :: coin) d1 s = Ok r1 -> difficulty_to_hashrate (c :: coin) d2 s = Ok r2 ->
  r2 = B754_infinity false \/ (is_finite r1 = true /\ is_finite r2 = true /\ 0 <= B2R r1 <= B2R r2).
Proof.
  intros c coin d1 d2 s r1 r2 L D F P H1 H2. destruct (dividend c coin d1 ltac:(lia)) as (w & W & WF & WS & WV & _). destruct (dividend c coin d2 D) as (v & V & VF & VS & VV & _).
  rewrite W in H1. rewrite V in H2. injection H1 as <-. injection H2 as <-.
  assert (0 <= rnd (scale (c :: coin))) as KP by (apply rnd_nonneg; pose proof (scale_bounds (c :: coin)); lra).
  assert (0 <= B2R w) as WP. { rewrite WV. apply rnd_nonneg, Rmult_le_pos; [apply rnd_nonneg; apply (IZR_le 0); lia|exact KP]. }
  assert (B2R w <= B2R v) as WL. { rewrite WV, VV. apply rnd_le, Rmult_le_compat_r; [exact KP|]. apply rnd_le, IZR_le. lia. }
  assert (Bsign s = false) as S1.
  { destruct s as [b|b| |b m e B]; cbn in P; try lra. destruct b; [|reflexivity]. exfalso.
    assert (F2R (Float radix2 (Z.neg m) e) < 0) as Q by (apply F2R_lt_0; reflexivity). change (0 < F2R (Float radix2 (Z.neg m) e)) in P. lra. }
  assert (0 <= rnd (B2R w / B2R s)) as Q1 by (apply rnd_nonneg, Rdiv_nonneg; lra).
  assert (0 <= rnd (B2R v / B2R s)) as Q2 by (apply rnd_nonneg, Rdiv_nonneg; lra).
  assert (rnd (B2R w / B2R s) <= rnd (B2R v / B2R s)) as Q.
  { apply rnd_le. unfold Rdiv. apply Rmult_le_compat_r; [|exact WL]. left. now apply Rinv_0_lt_compat. }
  destruct (Rlt_or_le (rnd (B2R v / B2R s)) (bpow radix2 1024)) as [K|K].
  - right. destruct (div_fin w s WF ltac:(lra)) as [V1 F1]; [rewrite Rabs_pos_eq; lra|].
    destruct (div_fin v s VF ltac:(lra)) as [V2 F2]; [rewrite Rabs_pos_eq; lra|]. split; [exact F1|]. split; [exact F2|]. rewrite V1, V2. auto.
  - left. rewrite (div_over v s ltac:(lra)); [now rewrite VS, S1|]. rewrite Rabs_pos_eq; lra.
Qed.

(** ** accuracy for every period *)
Lemma rate_rel c coin diff (w : f64) : (1 <= diff < 2 ^ 64)%N -> B2R w = rnd (rnd (IZR (Z.of_N diff)) * rnd (scale (c :: coin))) ->
  exists e, Rabs e <= 4 * u /\ B2R w = IZR (Z.of_N diff) * scale (c :: coin) * (1 + e).
Proof.
  intros D ->. destruct (scale_bounds (c :: coin)) as [C1 C2]. set (k := scale (c :: coin)) in *. clearbody k.
  set (d := IZR (Z.of_N diff)). assert (1 <= d) as D1 by (apply (IZR_le 1); lia).
  assert (bpow radix2 (-1022) <= 1) as B1 by (change 1 with (bpow radix2 0); apply bpow_le; lia).
  assert (1 <= rnd d) as RD by (rewrite <- (rnd_id 1) by apply fmt_1; now apply rnd_le).
  assert (1 <= rnd k) as RK by (rewrite <- (rnd_id 1) by apply fmt_1; now apply rnd_le).
  destruct (rnd_err d) as (e1 & E1 & V1); [rewrite Rabs_pos_eq; lra|].
  destruct (rnd_err k) as (e2 & E2 & V2); [rewrite Rabs_pos_eq; lra|].
  assert (1 <= rnd d * rnd k) as RP by nra.
  destruct (rnd_err (rnd d * rnd k)) as (e3 & E3 & V3); [rewrite Rabs_pos_eq; lra|].
  fold u in E1, E2, E3. destruct u_val as [U0 U1]. assert (/ 9007199254740992 < / 1000) as Sm by (apply Rinv_lt_contravar; lra).
  exists ((1 + ((1 + e1) * (1 + e2) - 1)) * (1 + e3) - 1). split.
  - pose proof (rel_comb _ _ _ _ E1 E2) as R12. pose proof (rel_comb _ _ _ _ R12 E3) as R. eapply Rle_trans; [exact R|]. nra.
  - rewrite V3, V1, V2. ring.
Qed.

(** the exact rate *)
Definition exact_rate (c : byte) (diff : N) (s : R) : R :=
  IZR (Z.of_N diff) * (IZR (2 ^ 256) / IZR (if Byte.eqb c x52 then 8388607 * 2 ^ 232 else 65535 * 2 ^ 208)) / s.

Theorem C60_accuracy_any_period : forall c coin diff (s : f64), (1 <= diff < 2 ^ 64)%N -> is_finite s = true -> B2R s <> 0 ->
  let x := exact_rate c diff (B2R s) in
  exists r, difficulty_to_hashrate (c :: coin) diff s = Ok r /\
    (Rabs x <= bpow radix2 1023 -> is_finite r = true) /\
    (bpow radix2 (-1021) <= Rabs x <= bpow radix2 1023 -> Rabs (B2R r - x) <= bpow radix2 (-50) * Rabs x) /\
    (Rabs x <= bpow radix2 (-1021) -> Rabs (B2R r - x) <= bpow radix2 (-1071)) /\
    (bpow radix2 1024 + bpow radix2 976 <= Rabs x -> r = B754_infinity (Bsign s)).
Proof.
  intros c coin diff s D F NZ x. destruct (dividend c coin diff ltac:(lia)) as (w & W & WF & WS & WV & _).
  exists (f64_div w s). split; [apply W|]. destruct (rate_rel c coin diff w D WV) as (e & E & V).
  assert (B2R w / B2R s = x * (1 + e)) as X.
  { rewrite V. unfold x, exact_rate. replace (scale (c :: coin)) with (IZR (2 ^ 256) / IZR (if Byte.eqb c x52 then 8388607 * 2 ^ 232 else 65535 * 2 ^ 208)).
    - field. split; [|exact NZ]. apply not_0_IZR. destruct (Byte.eqb c x52); vm_compute; discriminate.
    - unfold scale, reg_target_z, genesis_target_z. destruct c; reflexivity. }
  clearbody x. clear W WV V. destruct u_val as [U0 U1]. assert (/ 9007199254740992 < / 1000) as Sm by (apply Rinv_lt_contravar; lra).
  assert (1 - 4 * u <= 1 + e <= 1 + 4 * u) as E'. { apply Rabs_le_inv in E. lra. }
  assert (Rabs (x * (1 + e)) = Rabs x * (1 + e)) as AX. { rewrite Rabs_mult. f_equal. apply Rabs_pos_eq. lra. }
  assert (forall y, Rabs (rnd y) = rnd (Rabs y)) as RA.
  { intros y. unfold rnd. symmetry. apply round_NE_abs. typeclasses eauto. }
  assert (Rabs x <= bpow radix2 1023 -> Rabs (rnd (B2R w / B2R s)) < bpow radix2 1024) as SM.
  { intros L. rewrite X, RA, AX. apply Rle_lt_trans with (IZR 3 * bpow radix2 1022).
    - rewrite <- (rnd_id (IZR 3 * bpow radix2 1022)).
      + apply rnd_le. apply Rle_trans with (bpow radix2 1023 * (1 + 4 * u)); [apply Rmult_le_compat; try lra; apply Rabs_pos|].
        change 1023%Z with (1 + 1022)%Z. rewrite bpow_plus. change (bpow radix2 1) with 2. pose proof (bpow_gt_0 radix2 1022). nra.
      + rewrite (bpow_Z 1022) by lia. rewrite <- mult_IZR. apply (fmt_int 3 1022); lia.
    - change 1024%Z with (2 + 1022)%Z. rewrite bpow_plus. change (bpow radix2 2) with 4. pose proof (bpow_gt_0 radix2 1022). lra. }
  split; [intros L; now apply div_fin; [| |apply SM]|]. split; [|split].
  - intros [L1 L2]. destruct (div_fin w s WF NZ (SM L2)) as [R _]. rewrite R, X.
    destruct (rnd_err (x * (1 + e))) as (e4 & E4 & V4).
    { rewrite AX. apply Rle_trans with (Rabs x * / 2); [|apply Rmult_le_compat_l; [apply Rabs_pos|lra]].
      change (-1022)%Z with (-1021 + -1)%Z. rewrite bpow_plus. change (bpow radix2 (-1)) with (/ 2). lra. }
    rewrite V4. replace (x * (1 + e) * (1 + e4) - x) with (x * ((1 + e) * (1 + e4) - 1)) by ring. rewrite Rabs_mult, Rmult_comm.
    apply Rmult_le_compat_r; [apply Rabs_pos|]. fold u in E4. pose proof (rel_comb _ _ _ _ E E4) as R2.
    replace (bpow radix2 (-50)) with (8 * u). 2:{ unfold u. change (-50)%Z with (3 + -53)%Z. rewrite bpow_plus. reflexivity. }
    eapply Rle_trans; [exact R2|]. nra.
  - intros L. destruct (div_fin w s WF NZ) as [R _].
    { apply SM. apply Rle_trans with (1 := L). apply bpow_le. lia. }
    rewrite R, X.
    destruct (error_N_FLT radix2 (-1074) 53 eq_refl (fun x => negb (Z.even x)) (x * (1 + e))) as (ep & et & EP & ET & _ & RV).
    change (rnd (x * (1 + e)) = x * (1 + e) * (1 + ep) + et) in RV. rewrite RV.
    replace (x * (1 + e) * (1 + ep) + et - x) with (x * ((1 + e) * (1 + ep) - 1) + et) by ring.
    eapply Rle_trans; [apply Rabs_triang|]. rewrite Rabs_mult.
    assert (Rabs ep <= u) as EP'. { unfold u. replace (bpow radix2 (-53)) with (/ 2 * bpow radix2 (- (53) + 1)); [exact EP|]. change (- (53) + 1)%Z with (-53 + 1)%Z. rewrite bpow_plus. change (bpow radix2 1) with 2. lra. }
    pose proof (rel_comb _ _ _ _ E EP') as R2.
    assert (Rabs ((1 + e) * (1 + ep) - 1) <= 6 * u) as R3 by (eapply Rle_trans; [exact R2|]; nra).
    assert (Rabs x * Rabs ((1 + e) * (1 + ep) - 1) <= bpow radix2 (-1021) * (6 * u)) as R4 by (apply Rmult_le_compat; try apply Rabs_pos; assumption).
    assert (bpow radix2 (-1021) * u = bpow radix2 (-1074)) as R5 by (unfold u; rewrite <- bpow_plus; reflexivity).
    assert (bpow radix2 (-1071) = 8 * bpow radix2 (-1074)) as R6 by (change (-1071)%Z with (3 + -1074)%Z; rewrite bpow_plus; reflexivity).
    pose proof (bpow_gt_0 radix2 (-1074)). rewrite R6. lra.
  - intros L. rewrite (div_over w s NZ); [rewrite WS; now destruct (Bsign s)|]. rewrite X, RA, AX. rewrite <- (rnd_id (bpow radix2 1024)) by (apply fmt_bpow; lia). apply rnd_le.
    apply Rle_trans with ((bpow radix2 1024 + bpow radix2 976) * (1 - 4 * u)).
    + assert (4 * u * (bpow radix2 1024 + bpow radix2 976) <= bpow radix2 976) as Q; [|lra].
      unfold u. replace (4 * bpow radix2 (-53) * (bpow radix2 1024 + bpow radix2 976)) with (bpow radix2 2 * bpow radix2 (-53) * bpow radix2 1024 + bpow radix2 2 * bpow radix2 (-53) * bpow radix2 976) by (change (bpow radix2 2) with 4; ring).
      rewrite <- !bpow_plus. change (2 + -53 + 1024)%Z with 973%Z. change (2 + -53 + 976)%Z with 925%Z.
      assert (bpow radix2 925 <= bpow radix2 973) by (apply bpow_le; lia).
      change 976%Z with (3 + 973)%Z. rewrite (bpow_plus radix2 3). change (bpow radix2 3) with 8. pose proof (bpow_gt_0 radix2 973). lra.
    + apply Rmult_le_compat; [|lra|exact L|lra]. pose proof (bpow_gt_0 radix2 1024). pose proof (bpow_gt_0 radix2 976). lra.
Qed.

Example C60_special_ex :
  difficulty_to_hashrate (str "BSV") 5 (B754_zero true) = Ok (B754_infinity true) /\
  difficulty_to_hashrate (str "BSV") 0 (B754_zero false) = Ok B754_nan /\
  difficulty_to_hashrate (str "BSV") 0 (f64_of_Z (-600)) = Ok (B754_zero true) /\
  difficulty_to_hashrate (str "BSV") 5 (B754_infinity false) = Ok (B754_zero false).
Proof. split; [vm_compute; reflexivity|]. split; [vm_compute; reflexivity|]. split; vm_compute; reflexivity. Qed.

Print Assumptions C60_special.
Print Assumptions C60_negative.
Print Assumptions C60_period.
Print Assumptions C60_accuracy_any_period.
Print Assumptions C60_difficulty.
