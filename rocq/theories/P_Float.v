(** Proofs about the binary64 code (C49, C59, C60). *)
From Verif Require Export S_Float M_Float P_Difficulty.
From Flocq Require Import Core Relative IEEE754.BinarySingleNaN.
From Coq Require Import Reals Lra ZifyBool ZifyNat ZifyN.

Local Open Scope R_scope.

Global Instance prec53 : Prec_gt_0 53 := f64_prec.
Global Instance valid_exp53 : Valid_exp (FLT_exp (-1074) 53) := FLT_exp_valid (-1074) 53.

Lemma rnd_le x y : x <= y -> rnd x <= rnd y.
Proof. apply round_le; typeclasses eauto. Qed.

Definition fmt (x : R) : Prop := generic_format radix2 (FLT_exp (-1074) 53) x.

Lemma rnd_id x : fmt x -> rnd x = x.
Proof. apply round_generic; typeclasses eauto. Qed.

Lemma fmt_int m e : (Z.abs m < 2 ^ 53)%Z -> (0 <= e)%Z -> fmt (IZR (m * 2 ^ e)).
Proof.
  intros M E. apply generic_format_FLT. exists (Float radix2 m e); [|exact M|cbn; lia].
  unfold F2R. cbn. rewrite mult_IZR. f_equal. rewrite <- IZR_Zpower by assumption. reflexivity.
Qed.

Lemma fmt_B2R (x : f64) : fmt (B2R x).
Proof. apply (generic_format_B2R 53 1024). Qed.

(** ** conversions *)

Lemma of_Z_fin z : Rabs (rnd (IZR z)) < bpow radix2 1024 -> B2R (f64_of_Z z) = rnd (IZR z) /\ is_finite (f64_of_Z z) = true.
Proof.
  intros H. pose proof (binary_normalize_correct 53 1024 f64_prec f64_emax mode_NE z 0 false) as C. cbv zeta in C.
  assert (F2R (Float radix2 z 0) = IZR z) as E by (unfold F2R; cbn; lra). rewrite E in C.
  change (round radix2 (SpecFloat.fexp 53 1024) (round_mode mode_NE) (IZR z)) with (rnd (IZR z)) in C.
  rewrite Rlt_bool_true in C by assumption. destruct C as (A & B & _). split; assumption.
Qed.

Lemma of_Z_inf z : bpow radix2 1024 <= Rabs (rnd (IZR z)) -> is_finite (f64_of_Z z) = false.
Proof.
  intros H. pose proof (binary_normalize_correct 53 1024 f64_prec f64_emax mode_NE z 0 false) as C. cbv zeta in C.
  assert (F2R (Float radix2 z 0) = IZR z) as E by (unfold F2R; cbn; lra). rewrite E in C.
  change (round radix2 (SpecFloat.fexp 53 1024) (round_mode mode_NE) (IZR z)) with (rnd (IZR z)) in C.
  rewrite Rlt_bool_false in C by assumption. unfold f64_of_Z. set (f := binary_normalize _ _ _ _ _ _ _ _) in *. clearbody f.
  destruct f; cbn in C; try discriminate C; reflexivity.
Qed.

Definition too_big : Z := (2 ^ 1024 - 2 ^ 970)%Z.

Lemma max_fin : is_finite (f64_of_Z (too_big - 1)) = true.
Proof. vm_compute. reflexivity. Qed.
Lemma min_inf : is_finite (f64_of_Z too_big) = false.
Proof. vm_compute. reflexivity. Qed.

Lemma of_Z_finite_iff z : (0 <= z)%Z -> is_finite (f64_of_Z z) = true <-> (z < too_big)%Z.
Proof.
  intros P. assert (forall w, (0 <= w)%Z -> Rabs (rnd (IZR w)) = rnd (IZR w)) as A.
  { intros w Hw. apply Rabs_pos_eq. rewrite <- (rnd_id 0) by (apply generic_format_0). apply rnd_le. now apply IZR_le. }
  split.
  - intros F. destruct (Z.ltb_spec z too_big) as [|L]; [assumption|exfalso].
    assert (bpow radix2 1024 <= Rabs (rnd (IZR z))) as B.
    { rewrite A by assumption. apply Rle_trans with (rnd (IZR too_big)); [|apply rnd_le; now apply IZR_le].
      rewrite <- A by (vm_compute; discriminate). apply Rnot_lt_le. intros C. apply of_Z_fin in C as [_ C]. rewrite min_inf in C. discriminate. }
    rewrite (of_Z_inf _ B) in F. discriminate.
  - intros L. apply of_Z_fin. rewrite A by assumption. apply Rle_lt_trans with (rnd (IZR (too_big - 1))); [apply rnd_le, IZR_le; lia|].
    rewrite <- A by (vm_compute; discriminate). apply Rnot_le_lt. intros C. apply of_Z_inf in C. rewrite max_fin in C. discriminate.
Qed.

Lemma of_Z_value z : (0 <= z < too_big)%Z -> B2R (f64_of_Z z) = rnd (IZR z).
Proof.
  intros [P L]. apply of_Z_finite_iff in L; [|assumption]. apply of_Z_fin. apply Rnot_le_lt. intros C. apply of_Z_inf in C. congruence.
Qed.

Lemma of_Z_exact m e : (0 <= m < 2 ^ 53)%Z -> (0 <= e <= 900)%Z ->
  B2R (f64_of_Z (m * 2 ^ e)) = IZR (m * 2 ^ e) /\ is_finite (f64_of_Z (m * 2 ^ e)) = true.
Proof.
  intros M E. assert (0 < 2 ^ e)%Z by (apply Z.pow_pos_nonneg; lia).
  assert (2 ^ e <= 2 ^ 900)%Z by (apply Z.pow_le_mono_r; lia).
  assert (0 <= m * 2 ^ e < too_big)%Z as B.
  { split; [nia|]. apply Z.le_lt_trans with (2 ^ 53 * 2 ^ 900)%Z; [nia|vm_compute; reflexivity]. }
  split; [|now apply of_Z_finite_iff]. rewrite of_Z_value by assumption. apply rnd_id, fmt_int; lia.
Qed.

(** ** division *)

Lemma div_fin (x y : f64) : is_finite x = true -> B2R y <> 0 -> Rabs (rnd (B2R x / B2R y)) < bpow radix2 1024 ->
  B2R (f64_div x y) = rnd (B2R x / B2R y) /\ is_finite (f64_div x y) = true.
Proof.
  intros F NZ H. pose proof (@Bdiv_correct 53 1024 f64_prec f64_emax mode_NE x y NZ) as C.
  change (round radix2 (SpecFloat.fexp 53 1024) (round_mode mode_NE) (B2R x / B2R y)) with (rnd (B2R x / B2R y)) in C.
  rewrite Rlt_bool_true in C by assumption. destruct C as (A & B & _). split; [exact A|]. unfold f64_div. rewrite B. exact F.
Qed.

Lemma mul_fin (x y : f64) : is_finite x = true -> is_finite y = true -> Rabs (rnd (B2R x * B2R y)) < bpow radix2 1024 ->
  B2R (f64_mul x y) = rnd (B2R x * B2R y) /\ is_finite (f64_mul x y) = true.
Proof.
  intros F G H. pose proof (@Bmult_correct 53 1024 f64_prec f64_emax mode_NE x y) as C.
  change (round radix2 (SpecFloat.fexp 53 1024) (round_mode mode_NE) (B2R x * B2R y)) with (rnd (B2R x * B2R y)) in C.
  rewrite Rlt_bool_true in C by assumption. destruct C as (A & B & _). split; [exact A|]. unfold f64_mul. rewrite B, F, G. reflexivity.
Qed.

(** relative error of one rounding in the normal range *)
Lemma rnd_err x : bpow radix2 (-1022) <= Rabs x -> exists e, Rabs e <= bpow radix2 (-53) /\ rnd x = x * (1 + e).
Proof.
  intros H. destruct (relative_error_N_FLT_ex radix2 (-1074) 53 eq_refl (fun x => negb (Z.even x)) x) as (e & E & R); [exact H|].
  exists e. split; [|exact R]. replace (bpow radix2 (-53)) with (/ 2 * bpow radix2 (- (53) + 1)); [exact E|].
  change (- (53) + 1)%Z with (-53 + 1)%Z. rewrite bpow_plus. change (bpow radix2 1) with 2. lra.
Qed.

Lemma Rdiv_nonneg a b : 0 <= a -> 0 < b -> 0 <= a / b.
Proof. intros A B. unfold Rdiv. apply Rmult_le_pos; [assumption|]. left. now apply Rinv_0_lt_compat. Qed.

(** ** difficulty *)

Definition gt : R := IZR genesis_target_z.

Lemma gt_float : B2R (f64_of_Z genesis_target_z) = gt /\ is_finite (f64_of_Z genesis_target_z) = true.
Proof. apply (of_Z_exact 65535 208); lia. Qed.

Lemma gt_pos : 1 <= gt.
Proof. apply (IZR_le 1). vm_compute. discriminate. Qed.

Lemma gt_lt : gt < bpow radix2 224.
Proof. unfold gt. rewrite <- (IZR_Zpower radix2) by lia. apply IZR_lt. vm_compute. reflexivity. Qed.

Lemma fmt_1 : fmt 1.
Proof. apply (fmt_int 1 0); lia. Qed.

Lemma fmt_gt : fmt gt.
Proof. apply (fmt_int 65535 208); lia. Qed.

Lemma rnd_ge1 z : (1 <= z)%Z -> 1 <= rnd (IZR z).
Proof. intros H. rewrite <- (rnd_id 1) by apply fmt_1. apply rnd_le. now apply (IZR_le 1). Qed.

Lemma rnd_nonneg x : 0 <= x -> 0 <= rnd x.
Proof. intros H. rewrite <- (rnd_id 0) by apply generic_format_0. now apply rnd_le. Qed.

Lemma diff_value z d : (1 <= z)%Z -> target_to_difficulty z = Ok d ->
  (z < too_big)%Z /\ is_finite d = true /\ B2R d = rnd (gt / rnd (IZR z)).
Proof.
  intros P H. unfold target_to_difficulty, parse_float_int in H. cbv zeta in H.
  destruct (is_finite (f64_of_Z z)) eqn:F; [|discriminate]. cbn [bind] in H. assert (forall (a b : f64), Ok a = Ok b -> a = b) as J by congruence. apply J in H. subst d.
  apply of_Z_finite_iff in F; [|lia]. split; [assumption|].
  destruct gt_float as [G GF]. pose proof (of_Z_value z ltac:(lia)) as V. pose proof (rnd_ge1 z P) as R1.
  destruct (div_fin (f64_of_Z genesis_target_z) (f64_of_Z z)) as [A B].
  - exact GF.
  - rewrite V. lra.
  - rewrite G, V. assert (0 <= gt / rnd (IZR z) <= gt) as [Q1 Q2].
    { pose proof gt_pos. split; [apply Rdiv_nonneg; lra|].
      apply Rmult_le_reg_r with (rnd (IZR z)); [lra|]. unfold Rdiv. rewrite Rmult_assoc, Rinv_l by lra. nra. }
    rewrite Rabs_pos_eq by now apply rnd_nonneg. apply Rle_lt_trans with gt; [apply Rle_trans with (rnd gt); [now apply rnd_le|rewrite rnd_id by apply fmt_gt; lra]|].
    apply Rlt_trans with (1 := gt_lt). apply bpow_lt. lia.
  - rewrite G, V in A. split; [exact B|exact A].
Qed.

Lemma diff_monotone z1 z2 d1 d2 : (1 <= z1 <= z2)%Z -> target_to_difficulty z1 = Ok d1 -> target_to_difficulty z2 = Ok d2 ->
  B2R d2 <= B2R d1.
Proof.
  intros H H1 H2. destruct (diff_value z1 d1 ltac:(lia) H1) as (_ & _ & ->). destruct (diff_value z2 d2 ltac:(lia) H2) as (_ & _ & ->).
  apply rnd_le. pose proof (rnd_ge1 z1 ltac:(lia)). assert (rnd (IZR z1) <= rnd (IZR z2)) by (apply rnd_le, IZR_le; lia). pose proof gt_pos.
  unfold Rdiv. apply Rmult_le_compat_l; [lra|]. apply Rinv_le; lra.
Qed.

Lemma bpow_m53 : bpow radix2 (-53) = / IZR (2 ^ 53).
Proof. change (-53)%Z with (- (53))%Z. rewrite bpow_opp. f_equal. Qed.

Definition u : R := bpow radix2 (-53).
Lemma u_val : 0 < u /\ u <= / 9007199254740992.
Proof. unfold u. rewrite bpow_m53. change (2 ^ 53)%Z with 9007199254740992%Z. split; [|apply Rle_refl]. apply Rinv_0_lt_compat. lra. Qed.

Lemma small_div x e1 e2 : Rabs e1 <= u -> Rabs e2 <= u -> 0 < x -> Rabs (x / (1 + e1) * (1 + e2) - x) <= 4 * u * x.
Proof.
  intros E1 E2 X. destruct u_val as [U0 U1]. apply Rabs_le_inv in E1, E2.
  assert (/ 9007199254740992 < / 1000) as S by (apply Rinv_lt_contravar; lra).
  replace (x / (1 + e1) * (1 + e2) - x) with (x * ((e2 - e1) / (1 + e1))) by (field; lra).
  rewrite Rabs_mult, (Rabs_pos_eq x) by lra. rewrite (Rmult_comm (4 * u) x). apply Rmult_le_compat_l; [lra|].
  unfold Rdiv. rewrite Rabs_mult. rewrite Rabs_inv. rewrite (Rabs_pos_eq (1 + e1)) by lra.
  apply Rmult_le_reg_r with (1 + e1); [lra|]. rewrite Rmult_assoc, Rinv_l by lra.
  assert (Rabs (e2 - e1) <= 2 * u) by (apply Rabs_le; lra). nra.
Qed.

Lemma diff_error z d : (1 <= z)%Z -> target_to_difficulty z = Ok d ->
  Rabs (B2R d - gt / IZR z) <= bpow radix2 (-51) * (gt / IZR z).
Proof.
  intros P H. destruct (diff_value z d P H) as (L & _ & ->). pose proof (rnd_ge1 z P) as R1. pose proof gt_pos as GP.
  assert (1 <= IZR z) as Z1 by now apply (IZR_le 1).
  assert (bpow radix2 (-1022) <= 1) as B1 by (change 1 with (bpow radix2 0); apply bpow_le; lia).
  destruct (rnd_err (IZR z)) as (e1 & E1 & V1); [rewrite Rabs_pos_eq; lra|].
  destruct u_val as [U0 U1]. fold u in E1. pose proof (Rabs_le_inv _ _ E1) as E1'.
  assert (/ 9007199254740992 < / 1000) as S by (apply Rinv_lt_contravar; lra).
  assert (rnd (IZR z) <= bpow radix2 1024) as Big.
  { left. apply of_Z_finite_iff in L; [|lia]. pose proof (of_Z_value z) as V. rewrite <- V.
    - eapply Rle_lt_trans; [apply Rle_abs|]. apply (abs_B2R_lt_emax 53 1024).
    - split; [lia|]. apply of_Z_finite_iff in L; lia. }
  destruct (rnd_err (gt / rnd (IZR z))) as (e2 & E2 & V2).
  { rewrite Rabs_pos_eq by (apply Rdiv_nonneg; lra).
    apply Rle_trans with (1 / bpow radix2 1024 * bpow radix2 2).
    - unfold Rdiv. rewrite Rmult_1_l, <- bpow_opp, <- bpow_plus. apply bpow_le. lia.
    - assert (bpow radix2 2 <= gt) as G4 by (unfold gt; rewrite <- (IZR_Zpower radix2) by lia; apply IZR_le; vm_compute; discriminate).
      assert (/ bpow radix2 1024 <= / rnd (IZR z)) by (apply Rinv_le; lra).
      assert (0 < / bpow radix2 1024) by (apply Rinv_0_lt_compat, bpow_gt_0). unfold Rdiv. rewrite Rmult_1_l.
      pose proof (bpow_gt_0 radix2 2). rewrite Rmult_comm. apply Rmult_le_compat; lra. }
  fold u in E2. rewrite V2. rewrite V1.
  replace (gt / (IZR z * (1 + e1)) * (1 + e2)) with (gt / IZR z / (1 + e1) * (1 + e2)) by (field; lra).
  replace (bpow radix2 (-51)) with (4 * u).
  2:{ unfold u. change (-51)%Z with (2 + -53)%Z. rewrite bpow_plus. reflexivity. }
  apply small_div; [assumption|assumption|]. apply Rdiv_lt_0_compat; lra.
Qed.

Lemma diff_total z : (0 <= z)%Z ->
  (target_to_difficulty z = Err (EParseFloat z) <-> (too_big <= z)%Z) /\
  ((z < too_big)%Z -> exists d, target_to_difficulty z = Ok d).
Proof.
  intros P. unfold target_to_difficulty, parse_float_int. cbv zeta. pose proof (of_Z_finite_iff z P) as F.
  destruct (is_finite (f64_of_Z z)); cbn [bind]; split.
  - split; [discriminate|]. intros L. apply (proj1 F) in L; [contradiction|reflexivity] || (pose proof (proj1 F eq_refl); lia).
  - eauto.
  - split; [|reflexivity]. intros _. destruct (Z.ltb_spec z too_big) as [L|L]; [apply F in L; discriminate|assumption].
  - intros L. apply F in L. discriminate.
Qed.

Lemma diff_zero : target_to_difficulty 0 = Ok (B754_infinity false).
Proof. vm_compute. reflexivity. Qed.

Lemma compact_nonneg w : (0 <= to_compact_size w)%Z.
Proof.
  unfold to_compact_size. cbv zeta. apply Z.mul_nonneg_nonneg; [lia|]. destruct (_ <=? 0)%Z; [lia|]. apply Z.pow_nonneg. lia.
Qed.

(** ** hash rates *)

Definition reg_target_z : Z := (8388607 * 2 ^ 232)%Z.

(** hashes per unit of difficulty *)
Definition scale (coin : bytes) : R :=
  IZR (2 ^ 256) / IZR (match coin with x52 :: _ => reg_target_z | _ => genesis_target_z end).

Lemma pow256_float : B2R (f64_of_Z (2 ^ 256)) = IZR (2 ^ 256) /\ is_finite (f64_of_Z (2 ^ 256)) = true.
Proof. apply (of_Z_exact 1 256); lia. Qed.

Lemma reg_float : B2R (f64_of_Z reg_target_z) = IZR reg_target_z /\ is_finite (f64_of_Z reg_target_z) = true.
Proof. apply (of_Z_exact 8388607 232); lia. Qed.

Lemma bpow_Z e : (0 <= e)%Z -> bpow radix2 e = IZR (2 ^ e).
Proof. intros E. now rewrite <- (IZR_Zpower radix2). Qed.

Lemma ratio_bounds t : (reg_target_z = t \/ genesis_target_z = t) -> 1 <= IZR (2 ^ 256) / IZR t <= bpow radix2 33.
Proof.
  intros T. rewrite bpow_Z by lia. assert (0 < IZR t) as P by (apply (IZR_lt 0); destruct T as [<- | <-]; vm_compute; reflexivity).
  split.
  - apply Rmult_le_reg_r with (IZR t); [assumption|]. unfold Rdiv. rewrite Rmult_assoc, Rinv_l, Rmult_1_l, Rmult_1_r by lra. apply IZR_le.
    destruct T as [<- | <-]; vm_compute; discriminate.
  - apply Rmult_le_reg_r with (IZR t); [assumption|]. unfold Rdiv. rewrite Rmult_assoc, Rinv_l, Rmult_1_r by lra. rewrite <- mult_IZR. apply IZR_le.
    destruct T as [<- | <-]; vm_compute; discriminate.
Qed.

Lemma fmt_bpow e : (-1074 <= e)%Z -> fmt (bpow radix2 e).
Proof. intros E. apply generic_format_FLT_bpow; [apply f64_prec|exact E]. Qed.

Lemma rnd_bounds x lo hi : (-1074 <= lo)%Z -> (-1074 <= hi)%Z -> bpow radix2 lo <= x <= bpow radix2 hi -> bpow radix2 lo <= rnd x <= bpow radix2 hi.
Proof.
  intros L H [A B]. split; [rewrite <- (rnd_id (bpow radix2 lo)) by now apply fmt_bpow|rewrite <- (rnd_id (bpow radix2 hi)) by now apply fmt_bpow]; now apply rnd_le.
Qed.

Lemma init_ratio t : (reg_target_z = t \/ genesis_target_z = t) ->
  B2R (f64_div (f64_of_Z (2 ^ 256)) (f64_of_Z t)) = rnd (IZR (2 ^ 256) / IZR t) /\
  is_finite (f64_div (f64_of_Z (2 ^ 256)) (f64_of_Z t)) = true.
Proof.
  intros T. assert (B2R (f64_of_Z t) = IZR t) as V by (destruct T as [<- | <-]; [apply reg_float|apply gt_float]).
  destruct pow256_float as [P F]. destruct (ratio_bounds t T) as [L H].
  destruct (div_fin (f64_of_Z (2 ^ 256)) (f64_of_Z t)) as [A B].
  - exact F.
  - rewrite V. apply not_0_IZR. destruct T as [<- | <-]; vm_compute; discriminate.
  - rewrite P, V. change 1 with (bpow radix2 0) in L. destruct (rnd_bounds _ 0 33 ltac:(lia) ltac:(lia) (conj L H)) as [R1 R2].
    pose proof (bpow_gt_0 radix2 0). rewrite Rabs_pos_eq by lra. apply Rle_lt_trans with (1 := R2). apply bpow_lt. lia.
  - rewrite P, V in A. split; assumption.
Qed.

Lemma coin_ratio c coin : exists g, (if Byte.eqb c x52 then reg_diff else genesis_diff) = Ok g /\ is_finite g = true /\ B2R g = rnd (scale (c :: coin)).
Proof.
  assert (expand_target_from_as_int (str "207fffff") = Ok reg_target_z) as ER by (vm_compute; reflexivity).
  assert (expand_target_from_as_int (str "1d00ffff") = Ok genesis_target_z) as EG by (vm_compute; reflexivity).
  unfold reg_diff, genesis_diff, init_diff. rewrite ER, EG. cbn [bind].
  destruct (Byte.eqb c x52) eqn:C.
  - apply byte_dec_bl in C. subst c. destruct (init_ratio reg_target_z (or_introl eq_refl)) as [A B]. eexists. split; [reflexivity|]. split; [exact B|exact A].
  - destruct (init_ratio genesis_target_z (or_intror eq_refl)) as [A B]. eexists. split; [reflexivity|]. split; [exact B|]. rewrite A. unfold scale. destruct c; try reflexivity. discriminate C.
Qed.

Lemma scale_bounds coin : 1 <= scale coin <= bpow radix2 33.
Proof.
  unfold scale. apply ratio_bounds. destruct coin as [|c coin]; [now right|]. destruct c; try (now right). now left.
Qed.

Lemma rate_value c coin diff (s : f64) : (diff < 2 ^ 64)%N -> is_finite s = true ->
  bpow radix2 (-800) <= B2R s <= bpow radix2 800 ->
  exists r, difficulty_to_hashrate (c :: coin) diff s = Ok r /\ is_finite r = true /\
    B2R r = rnd (rnd (rnd (IZR (Z.of_N diff)) * rnd (scale (c :: coin))) / B2R s).
Proof.
  intros D F [S1 S2]. unfold difficulty_to_hashrate. destruct (coin_ratio c coin) as (g & -> & GF & GV). cbn [bind].
  destruct (scale_bounds (c :: coin)) as [C1 C2]. set (k := scale (c :: coin)) in *. clearbody k.
  eexists. split; [reflexivity|].
  assert (0 <= Z.of_N diff < too_big)%Z as DB. { split; [lia|]. apply Z.lt_trans with (2 ^ 64)%Z; [lia|vm_compute; reflexivity]. }
  pose proof (of_Z_value _ DB) as DV. assert (is_finite (f64_of_Z (Z.of_N diff)) = true) as DF by (apply of_Z_finite_iff; lia).
  assert (0 <= rnd (IZR (Z.of_N diff)) <= bpow radix2 64) as [d1 d2].
  { split; [apply rnd_nonneg; apply (IZR_le 0); lia|]. rewrite <- (rnd_id (bpow radix2 64)) by (apply fmt_bpow; lia). apply rnd_le. rewrite bpow_Z by lia. apply IZR_le. lia. }
  change 1 with (bpow radix2 0) in C1. destruct (rnd_bounds k 0 33 ltac:(lia) ltac:(lia) (conj C1 C2)) as [k1 k2].
  assert (0 < bpow radix2 0) as B0 by apply bpow_gt_0.
  assert (0 <= rnd (IZR (Z.of_N diff)) * rnd k <= bpow radix2 97) as [p1 p2].
  { split; [apply Rmult_le_pos; lra|]. change 97%Z with (64 + 33)%Z. rewrite bpow_plus. apply Rmult_le_compat; lra. }
  assert (0 <= rnd (rnd (IZR (Z.of_N diff)) * rnd k) <= bpow radix2 97) as [q1 q2].
  { split; [now apply rnd_nonneg|]. rewrite <- (rnd_id (bpow radix2 97)) by (apply fmt_bpow; lia). now apply rnd_le. }
  destruct (mul_fin (f64_of_Z (Z.of_N diff)) g DF GF) as [MV MF].
  { rewrite DV, GV. rewrite Rabs_pos_eq by assumption. apply Rle_lt_trans with (1 := q2). apply bpow_lt. lia. }
  rewrite DV, GV in MV.
  assert (0 < bpow radix2 (-800)) as B8 by apply bpow_gt_0.
  destruct (div_fin (f64_mul (f64_of_Z (Z.of_N diff)) g) s MF) as [RV RF].
  { lra. }
  { rewrite MV. rewrite Rabs_pos_eq by (apply rnd_nonneg, Rdiv_nonneg; lra).
    apply Rle_lt_trans with (bpow radix2 897); [|apply bpow_lt; lia].
    rewrite <- (rnd_id (bpow radix2 897)) by (apply fmt_bpow; lia). apply rnd_le. change 897%Z with (97 + 800)%Z. rewrite bpow_plus.
    unfold Rdiv. apply Rmult_le_compat; [assumption|left; apply Rinv_0_lt_compat; lra|assumption|].
    change 800%Z with (- (-800))%Z. rewrite bpow_opp. apply Rinv_le; lra. }
  rewrite MV in RV. split; [exact RF|exact RV].
Qed.

Lemma rate_monotone c coin d1 d2 (s : f64) r1 r2 : (d1 <= d2)%N -> (d2 < 2 ^ 64)%N -> is_finite s = true ->
  bpow radix2 (-800) <= B2R s <= bpow radix2 800 ->
  difficulty_to_hashrate (c :: coin) d1 s = Ok r1 -> difficulty_to_hashrate (c :: coin) d2 s = Ok r2 -> B2R r1 <= B2R r2.
Proof.
  intros L D F S H1 H2. destruct (rate_value c coin d1 s ltac:(lia) F S) as (x1 & E1 & _ & V1). destruct (rate_value c coin d2 s ltac:(lia) F S) as (x2 & E2 & _ & V2).
  rewrite H1 in E1. rewrite H2 in E2. injection E1 as <-. injection E2 as <-. rewrite V1, V2.
  apply rnd_le. assert (0 < bpow radix2 (-800)) as B8 by apply bpow_gt_0. unfold Rdiv. apply Rmult_le_compat_r; [left; apply Rinv_0_lt_compat; lra|].
  apply rnd_le. apply Rmult_le_compat_r; [apply rnd_nonneg; pose proof (scale_bounds (c :: coin)); lra|]. apply rnd_le. apply IZR_le. lia.
Qed.

Lemma rel_comb a b x y : Rabs a <= x -> Rabs b <= y -> Rabs ((1 + a) * (1 + b) - 1) <= x + y + x * y.
Proof.
  intros A B. replace ((1 + a) * (1 + b) - 1) with (a + b + a * b) by ring.
  pose proof (Rabs_triang (a + b) (a * b)). pose proof (Rabs_triang a b). rewrite Rabs_mult in *.
  pose proof (Rabs_pos a). pose proof (Rabs_pos b). assert (Rabs a * Rabs b <= x * y) by (apply Rmult_le_compat; lra). lra.
Qed.

Lemma rate_error c coin diff (s : f64) r : (1 <= diff < 2 ^ 64)%N -> is_finite s = true ->
  bpow radix2 (-800) <= B2R s <= bpow radix2 800 -> difficulty_to_hashrate (c :: coin) diff s = Ok r ->
  let exact := IZR (Z.of_N diff) * scale (c :: coin) / B2R s in
  Rabs (B2R r - exact) <= bpow radix2 (-50) * exact.
Proof.
  intros D F S H. cbv zeta. destruct (rate_value c coin diff s ltac:(lia) F S) as (x & E & _ & V). rewrite H in E. injection E as <-. rewrite V. clear V H.
  destruct (scale_bounds (c :: coin)) as [C1 C2]. set (k := scale (c :: coin)) in *. clearbody k. set (y := B2R s) in *. clearbody y.
  set (d := IZR (Z.of_N diff)). assert (1 <= d) as D1 by (apply (IZR_le 1); lia).
  assert (bpow radix2 (-1022) <= 1) as B1 by (change 1 with (bpow radix2 0); apply bpow_le; lia).
  assert (0 < bpow radix2 (-800)) as B8 by apply bpow_gt_0.
  assert (1 <= rnd d) as RD by (rewrite <- (rnd_id 1) by apply fmt_1; now apply rnd_le).
  assert (1 <= rnd k) as RK by (rewrite <- (rnd_id 1) by apply fmt_1; now apply rnd_le).
  destruct (rnd_err d) as (e1 & E1 & V1); [rewrite Rabs_pos_eq; lra|].
  destruct (rnd_err k) as (e2 & E2 & V2); [rewrite Rabs_pos_eq; lra|].
  assert (1 <= rnd d * rnd k) as RP by nra.
  assert (1 <= rnd (rnd d * rnd k)) as RQ by (rewrite <- (rnd_id 1) by apply fmt_1; now apply rnd_le).
  destruct (rnd_err (rnd d * rnd k)) as (e3 & E3 & V3); [rewrite Rabs_pos_eq; lra|].
  destruct (rnd_err (rnd (rnd d * rnd k) / y)) as (e4 & E4 & V4).
  { rewrite Rabs_pos_eq by (apply Rdiv_nonneg; lra). apply Rle_trans with (1 * / bpow radix2 800).
    - rewrite Rmult_1_l, <- bpow_opp. apply bpow_le. lia.
    - unfold Rdiv. assert (/ bpow radix2 800 <= / y) by (apply Rinv_le; lra). pose proof (Rinv_0_lt_compat _ (bpow_gt_0 radix2 800)). apply Rmult_le_compat; lra. }
  rewrite V4, V3, V1, V2. fold u in E1, E2, E3, E4. destruct u_val as [U0 U1].
  assert (/ 9007199254740992 < / 1000) as Sm by (apply Rinv_lt_contravar; lra).
  replace (d * (1 + e1) * (k * (1 + e2)) * (1 + e3) / y * (1 + e4) - d * k / y)
    with (d * k / y * ((1 + ((1 + e1) * (1 + e2) - 1)) * (1 + ((1 + e3) * (1 + e4) - 1)) - 1)) by (field; lra).
  assert (0 < d * k / y) as Q by (apply Rdiv_lt_0_compat; nra).
  rewrite Rabs_mult, (Rabs_pos_eq (d * k / y)) by lra. rewrite (Rmult_comm (bpow radix2 (-50))). apply Rmult_le_compat_l; [lra|].
  replace (bpow radix2 (-50)) with (8 * u).
  2:{ unfold u. change (-50)%Z with (3 + -53)%Z. rewrite bpow_plus. reflexivity. }
  pose proof (rel_comb _ _ _ _ E1 E2) as R12. pose proof (rel_comb _ _ _ _ E3 E4) as R34. pose proof (rel_comb _ _ _ _ R12 R34) as R.
  eapply Rle_trans; [exact R|]. nra.
Qed.
