(** Proofs about utils/HumanHash.go (C59). *)
From Verif Require Export P_Float.
From Flocq Require Import Core Relative IEEE754.BinarySingleNaN.
From Coq Require Import Reals Lra ZifyBool ZifyNat ZifyN.

Local Open Scope R_scope.

Lemma ten_float k : (0 <= k <= 22)%Z -> B2R (f64_of_Z (10 ^ k)) = IZR (10 ^ k) /\ is_finite (f64_of_Z (10 ^ k)) = true.
Proof.
  intros K. replace (10 ^ k)%Z with (5 ^ k * 2 ^ k)%Z by (rewrite <- Z.pow_mul_l; reflexivity). apply of_Z_exact; [|lia].
  split; [apply Z.pow_nonneg; lia|]. apply Z.le_lt_trans with (5 ^ 22)%Z; [apply Z.pow_le_mono_r; lia|vm_compute; reflexivity].
Qed.

Lemma ge_iff (x y : f64) : is_finite x = true -> is_finite y = true -> f64_ge x y = true <-> B2R y <= B2R x.
Proof.
  intros F G. unfold f64_ge. rewrite Bcompare_correct by assumption. destruct (Rcompare_spec (B2R x) (B2R y)) as [H|H|H]; split; intros; try lra; try reflexivity; discriminate.
Qed.

Lemma ge_ten (x : f64) k : (0 <= k <= 22)%Z -> is_finite x = true -> f64_ge x (f64_of_Z (10 ^ k)) = true <-> IZR (10 ^ k) <= B2R x.
Proof. intros K F. destruct (ten_float k K) as [V G]. rewrite ge_iff by assumption. now rewrite V. Qed.

Lemma ge_ten_false (x : f64) k : (0 <= k <= 22)%Z -> is_finite x = true -> f64_ge x (f64_of_Z (10 ^ k)) = false -> B2R x < IZR (10 ^ k).
Proof. intros K F H. apply Rnot_le_lt. intros C. apply (ge_ten x k K F) in C. congruence. Qed.

Lemma pow_IZR k : (10 ^ k)%R = IZR (10 ^ Z.of_nat k).
Proof. rewrite <- pow_IZR. reflexivity. Qed.

(** value and unit *)
Lemma human_unit (x v : f64) un : is_finite x = true -> human_scale x = (v, un) ->
  exists k, unit_of (B2R x) k un /\ (k = 0%nat -> v = x) /\ ((k > 0)%nat -> v = f64_div x (f64_of_Z (10 ^ Z.of_nat k))).
Proof.
  intros F H. unfold human_scale in H. unfold unit_of. rewrite !pow_IZR. change (Z.of_nat 3) with 3%Z. change (Z.of_nat 6) with 6%Z. change (Z.of_nat 9) with 9%Z.
  change (Z.of_nat 12) with 12%Z. change (Z.of_nat 15) with 15%Z. change (Z.of_nat 18) with 18%Z. change (Z.of_nat 21) with 21%Z.
  destruct (f64_ge x (f64_of_Z (10 ^ 21))) eqn:E21.
  { apply pair_equal_spec in H as [<- <-]. apply (ge_ten x 21 ltac:(lia) F) in E21. exists 21%nat. split; [|split; [discriminate|reflexivity]]. do 7 right. auto. }
  apply (ge_ten_false x 21 ltac:(lia) F) in E21.
  destruct (f64_ge x (f64_of_Z (10 ^ 18))) eqn:E18.
  { apply pair_equal_spec in H as [<- <-]. apply (ge_ten x 18 ltac:(lia) F) in E18. exists 18%nat. split; [|split; [discriminate|reflexivity]]. do 6 right. left. auto. }
  apply (ge_ten_false x 18 ltac:(lia) F) in E18.
  destruct (f64_ge x (f64_of_Z (10 ^ 15))) eqn:E15.
  { apply pair_equal_spec in H as [<- <-]. apply (ge_ten x 15 ltac:(lia) F) in E15. exists 15%nat. split; [|split; [discriminate|reflexivity]]. do 5 right. left. auto. }
  apply (ge_ten_false x 15 ltac:(lia) F) in E15.
  destruct (f64_ge x (f64_of_Z (10 ^ 12))) eqn:E12.
  { apply pair_equal_spec in H as [<- <-]. apply (ge_ten x 12 ltac:(lia) F) in E12. exists 12%nat. split; [|split; [discriminate|reflexivity]]. do 4 right. left. auto. }
  apply (ge_ten_false x 12 ltac:(lia) F) in E12.
  destruct (f64_ge x (f64_of_Z (10 ^ 9))) eqn:E9.
  { apply pair_equal_spec in H as [<- <-]. apply (ge_ten x 9 ltac:(lia) F) in E9. exists 9%nat. split; [|split; [discriminate|reflexivity]]. do 3 right. left. auto. }
  apply (ge_ten_false x 9 ltac:(lia) F) in E9.
  destruct (f64_ge x (f64_of_Z (10 ^ 6))) eqn:E6.
  { apply pair_equal_spec in H as [<- <-]. apply (ge_ten x 6 ltac:(lia) F) in E6. exists 6%nat. split; [|split; [discriminate|reflexivity]]. do 2 right. left. auto. }
  apply (ge_ten_false x 6 ltac:(lia) F) in E6.
  destruct (f64_ge x (f64_of_Z (10 ^ 3))) eqn:E3.
  { apply pair_equal_spec in H as [<- <-]. apply (ge_ten x 3 ltac:(lia) F) in E3. exists 3%nat. split; [|split; [discriminate|reflexivity]]. right. left. auto. }
  apply (ge_ten_false x 3 ltac:(lia) F) in E3.
  apply pair_equal_spec in H as [<- <-]. exists 0%nat. split; [|split; [reflexivity|lia]]. left. auto.
Qed.

Ltac tens := rewrite !pow_IZR in *; change (IZR (10 ^ Z.of_nat 3)) with 1000 in *; change (IZR (10 ^ Z.of_nat 6)) with 1000000 in *;
  change (IZR (10 ^ Z.of_nat 9)) with 1000000000 in *; change (IZR (10 ^ Z.of_nat 12)) with 1000000000000 in *; change (IZR (10 ^ Z.of_nat 15)) with 1000000000000000 in *;
  change (IZR (10 ^ Z.of_nat 18)) with 1000000000000000000 in *; change (IZR (10 ^ Z.of_nat 21)) with 1000000000000000000000 in *.

Lemma unit_fun x k1 u1 k2 u2 : unit_of x k1 u1 -> unit_of x k2 u2 -> k1 = k2 /\ u1 = u2.
Proof.
  unfold unit_of. tens. intros H1 H2.
  destruct H1 as [(-> & -> & R1)|[(-> & -> & R1)|[(-> & -> & R1)|[(-> & -> & R1)|[(-> & -> & R1)|[(-> & -> & R1)|[(-> & -> & R1)|(-> & -> & R1)]]]]]]];
  destruct H2 as [(-> & -> & R2)|[(-> & -> & R2)|[(-> & -> & R2)|[(-> & -> & R2)|[(-> & -> & R2)|[(-> & -> & R2)|[(-> & -> & R2)|(-> & -> & R2)]]]]]]];
  try (split; reflexivity); exfalso; lra.
Qed.

Lemma unit_mono x y k1 u1 k2 u2 : unit_of x k1 u1 -> unit_of y k2 u2 -> x <= y -> (k1 <= k2)%nat.
Proof.
  unfold unit_of. tens. intros H1 H2 L.
  destruct H1 as [(-> & _ & R1)|[(-> & _ & R1)|[(-> & _ & R1)|[(-> & _ & R1)|[(-> & _ & R1)|[(-> & _ & R1)|[(-> & _ & R1)|(-> & _ & R1)]]]]]]];
  destruct H2 as [(-> & _ & R2)|[(-> & _ & R2)|[(-> & _ & R2)|[(-> & _ & R2)|[(-> & _ & R2)|[(-> & _ & R2)|[(-> & _ & R2)|(-> & _ & R2)]]]]]]];
  try (apply Nat.leb_le; reflexivity); exfalso; lra.
Qed.

(** the scaled value *)
Lemma scaled_value (x : f64) k : (1 <= k <= 22)%Z -> is_finite x = true ->
  B2R (f64_div x (f64_of_Z (10 ^ k))) = rnd (B2R x / IZR (10 ^ k)) /\ is_finite (f64_div x (f64_of_Z (10 ^ k))) = true.
Proof.
  intros K F. destruct (ten_float k ltac:(lia)) as [V G]. assert (1 <= IZR (10 ^ k)) as P by (apply (IZR_le 1); pose proof (Z.pow_pos_nonneg 10 k ltac:(lia) ltac:(lia)); lia).
  destruct (div_fin x (f64_of_Z (10 ^ k)) F) as [A B].
  - rewrite V. lra.
  - rewrite V. pose proof (abs_B2R_lt_emax 53 1024 x) as M.
    assert (Rabs (rnd (B2R x / IZR (10 ^ k))) <= Rabs (B2R x)) as L; [|lra].
    apply abs_round_le_generic; [typeclasses eauto|typeclasses eauto|apply generic_format_abs, fmt_B2R|].
    unfold Rdiv. rewrite Rabs_mult, Rabs_inv, (Rabs_pos_eq (IZR (10 ^ k))) by lra.
    pose proof (Rabs_pos (B2R x)). assert (/ IZR (10 ^ k) <= 1) by (rewrite <- Rinv_1; apply Rinv_le; lra).
    assert (0 < / IZR (10 ^ k)) by (apply Rinv_0_lt_compat; lra). nra.
  - rewrite V in A. split; assumption.
Qed.

Definition f64_pred (x : f64) : f64 := @Bpred 53 1024 f64_prec f64_emax x.

Lemma below (x : f64) k : (3 <= k <= 22)%Z -> B2R x < IZR (10 ^ k) -> B2R x <= B2R (f64_pred (f64_of_Z (10 ^ k))) /\ is_finite (f64_pred (f64_of_Z (10 ^ k))) = true.
Proof.
  intros K L. destruct (ten_float k ltac:(lia)) as [V G].
  pose proof (@Bpred_correct 53 1024 f64_prec f64_emax (f64_of_Z (10 ^ k)) G) as C.
  assert (1 <= IZR (10 ^ k)) as P by (apply (IZR_le 1); pose proof (Z.pow_pos_nonneg 10 k ltac:(lia) ltac:(lia)); lia).
  assert (0 <= pred radix2 (SpecFloat.fexp 53 1024) (B2R (f64_of_Z (10 ^ k)))) as P0.
  { apply pred_ge_0; [typeclasses eauto|rewrite V; lra|apply fmt_B2R]. }
  rewrite Rlt_bool_true in C by (pose proof (bpow_gt_0 radix2 1024); lra). destruct C as (A & B & _).
  split; [|exact B]. unfold f64_pred. rewrite A. apply pred_ge_gt; [typeclasses eauto|apply fmt_B2R|apply fmt_B2R|]. rewrite V. exact L.
Qed.

Lemma scaled_below (x : f64) k j : (1 <= j <= 19)%Z -> (k = j + 3)%Z -> is_finite x = true -> IZR (10 ^ j) <= B2R x -> B2R x < IZR (10 ^ k) ->
  f64_ge (f64_div (f64_pred (f64_of_Z (10 ^ k))) (f64_of_Z (10 ^ j))) (f64_of_Z (10 ^ 3)) = false ->
  1 <= B2R (f64_div x (f64_of_Z (10 ^ j))) < 1000.
Proof.
  intros J K F L H C. destruct (below x k ltac:(lia) H) as [B BF].
  destruct (scaled_value x j ltac:(lia) F) as [V _]. destruct (scaled_value _ j ltac:(lia) BF) as [W WF].
  apply ge_ten_false in C; [|lia|exact WF]. change (IZR (10 ^ 3)) with 1000 in C. rewrite W in C.
  assert (0 < IZR (10 ^ j)) as P by (apply (IZR_lt 0), Z.pow_pos_nonneg; lia). rewrite V. split.
  - rewrite <- (rnd_id 1) by apply fmt_1. apply rnd_le. apply Rmult_le_reg_r with (IZR (10 ^ j)); [assumption|].
    unfold Rdiv. rewrite Rmult_assoc, Rinv_l by lra. lra.
  - eapply Rle_lt_trans; [|exact C]. apply rnd_le. unfold Rdiv. apply Rmult_le_compat_r; [left; now apply Rinv_0_lt_compat|exact B].
Qed.

Lemma human_range (x v : f64) un : is_finite x = true -> human_scale x = (v, un) -> 10 ^ 3 <= B2R x -> un <> str "ZH/s" ->
  1 <= B2R v < 1000.
Proof.
  intros F H L NZ. destruct (human_unit x v un F H) as (k & UN & _ & VK). unfold unit_of in UN. rewrite !pow_IZR in *.
  change (Z.of_nat 3) with 3%Z in *. change (Z.of_nat 6) with 6%Z in *. change (Z.of_nat 9) with 9%Z in *.
  change (Z.of_nat 12) with 12%Z in *. change (Z.of_nat 15) with 15%Z in *. change (Z.of_nat 18) with 18%Z in *. change (Z.of_nat 21) with 21%Z in *.
  destruct UN as [(-> & -> & R)|[(-> & -> & R)|[(-> & -> & R)|[(-> & -> & R)|[(-> & -> & R)|[(-> & -> & R)|[(-> & -> & R)|(-> & -> & R)]]]]]]].
  - lra.
  - rewrite VK by lia. destruct R. apply (scaled_below x 6 3); try assumption; try lia. vm_compute. reflexivity.
  - rewrite VK by lia. destruct R. apply (scaled_below x 9 6); try assumption; try lia. vm_compute. reflexivity.
  - rewrite VK by lia. destruct R. apply (scaled_below x 12 9); try assumption; try lia. vm_compute. reflexivity.
  - rewrite VK by lia. destruct R. apply (scaled_below x 15 12); try assumption; try lia. vm_compute. reflexivity.
  - rewrite VK by lia. destruct R. apply (scaled_below x 18 15); try assumption; try lia. vm_compute. reflexivity.
  - rewrite VK by lia. destruct R. apply (scaled_below x 21 18); try assumption; try lia. vm_compute. reflexivity.
  - congruence.
Qed.

(** ** the text *)

Lemma half_even a b : (0 < b)%N -> Z.of_N (div_half_even a b) = ZnearestE (IZR (Z.of_N a) / IZR (Z.of_N b)).
Proof.
  intros B. unfold div_half_even. cbv zeta.
  pose proof (N.div_mod a b ltac:(lia)) as D. pose proof (N.mod_lt a b ltac:(lia)) as M.
  set (q := (a / b)%N) in *. set (r := (a mod b)%N) in *. clearbody q r.
  assert (0 < IZR (Z.of_N b)) as PB by (apply (IZR_lt 0); lia).
  assert (IZR (Z.of_N a) / IZR (Z.of_N b) = IZR (Z.of_N q) + IZR (Z.of_N r) / IZR (Z.of_N b)) as E.
  { rewrite D, N2Z.inj_add, N2Z.inj_mul, plus_IZR, mult_IZR. field. lra. }
  rewrite E. set (f := IZR (Z.of_N r) / IZR (Z.of_N b)).
  assert (0 <= f < 1) as [F0 F1].
  { unfold f. split; [apply Rdiv_nonneg; [apply (IZR_le 0); lia|lra]|].
    apply Rmult_lt_reg_r with (IZR (Z.of_N b)); [lra|]. unfold Rdiv. rewrite Rmult_assoc, Rinv_l, Rmult_1_r, Rmult_1_l by lra. apply IZR_lt. lia. }
  assert (Zfloor (IZR (Z.of_N q) + f) = Z.of_N q) as FL.
  { apply Zfloor_imp. rewrite plus_IZR. lra. }
  assert (f * IZR (Z.of_N b) = IZR (Z.of_N r)) as FB by (unfold f; field; lra).
  unfold Znearest. rewrite FL. replace (IZR (Z.of_N q) + f - IZR (Z.of_N q)) with f by ring.
  destruct (N.compare_spec (2 * r) b) as [C|C|C].
  - rewrite Rcompare_Eq.
    2:{ apply (f_equal Z.of_N) in C. apply (f_equal IZR) in C. rewrite N2Z.inj_mul, mult_IZR in C. change (IZR (Z.of_N 2)) with 2 in C. nra. }
    assert (0 < f) as FP.
    { apply Rmult_lt_reg_r with (IZR (Z.of_N b)); [lra|]. rewrite Rmult_0_l, FB. apply (IZR_lt 0). lia. }
    rewrite Zceil_floor_neq, FL by (rewrite FL; lra).
    replace (Z.even (Z.of_N q)) with (N.even q) by (destruct q as [|[]]; reflexivity).
    destruct (N.even q); cbn [negb]; lia.
  - assert (f < / 2) as L.
    { apply (f_equal (fun x => x)) in FB. assert (2 * IZR (Z.of_N r) < IZR (Z.of_N b)).
      { change 2 with (IZR (Z.of_N 2)). rewrite <- mult_IZR. apply IZR_lt. lia. }
      apply Rmult_lt_reg_r with (IZR (Z.of_N b)); [lra|]. rewrite FB. lra. }
    rewrite Rcompare_Lt by lra. reflexivity.
  - assert (/ 2 < f) as L.
    { assert (IZR (Z.of_N b) < 2 * IZR (Z.of_N r)).
      { change 2 with (IZR (Z.of_N 2)). rewrite <- mult_IZR. apply IZR_lt. lia. }
      apply Rmult_lt_reg_r with (IZR (Z.of_N b)); [lra|]. rewrite FB. lra. }
    rewrite Rcompare_Gt by lra. rewrite Zceil_floor_neq, FL by (rewrite FL; lra). lia.
Qed.

Lemma hundredths_eq m e : Z.of_N (hundredths m e) = ZnearestE (100 * F2R (Float radix2 (Zpos m) e)).
Proof.
  unfold hundredths, F2R. cbn [Fnum Fexp]. destruct (Z.leb_spec 0 e) as [E|E].
  - rewrite <- (IZR_Zpower radix2) by assumption. change (radix_val radix2) with 2%Z. rewrite <- !mult_IZR, (@Zrnd_IZR ZnearestE (valid_rnd_N _)).
    rewrite !N2Z.inj_mul, N2Z.inj_pow, Z2N.id by assumption. reflexivity.
  - rewrite half_even.
    2:{ apply N.neq_0_lt_0. apply N.pow_nonzero. lia. }
    f_equal. rewrite N2Z.inj_mul, mult_IZR, N2Z.inj_pow, Z2N.id by lia. change (Z.of_N 2) with 2%Z. change (Z.of_N 100) with 100%Z. change (Z.of_N (N.pos m)) with (Z.pos m).
    replace e with (- (- e))%Z at 2 by lia. rewrite bpow_opp, <- (IZR_Zpower radix2) by lia. change (radix_val radix2) with 2%Z. unfold Rdiv. ring.
Qed.

Local Close Scope R_scope.
Local Open Scope N_scope.

Lemma dec_num_zero s n : dec_num s n -> s = [x30] -> n = 0.
Proof.
  intros H E. destruct H as [|s n d D H]; [discriminate|]. apply (app_inj_tail s [] (n2b (48 + d)) x30) in E as [-> E].
  apply (f_equal b2n) in E. rewrite b2n_n2b_small in E by lia. change (b2n x30) with 48 in E. 
  remember [] as s eqn:Q in H. destruct H as [|s n d' D' H]; [lia|]. now apply app_eq_nil in Q as [_ Q].
Qed.

Lemma dec_digits_eq fuel : forall n, n < 10 * 2 ^ N.of_nat fuel -> dec_num (dec_digits fuel n) n /\ dec_digits fuel n <> [] /\
  (forall r, dec_digits fuel n = x30 :: r -> r = []).
Proof.
  assert (forall n, n < 10 -> dec_num [n2b (48 + n mod 10)] n /\ [n2b (48 + n mod 10)] <> [] /\ (forall r, [n2b (48 + n mod 10)] = x30 :: r -> r = [])) as Base.
  { intros n L. rewrite N.mod_small by assumption. split; [|split; [discriminate|intros r E; now injection E]].
    pose proof (dec_snoc [] 0 n L dec_empty) as D. cbn [app] in D. replace (10 * 0 + n) with n in D by lia. exact D. }
  induction fuel as [|f IH]; intros n L.
  - cbn [dec_digits]. apply Base. cbn in L. lia.
  - cbn [dec_digits]. destruct (N.ltb_spec n 10) as [S|S]; [now apply Base|].
    rewrite Nat2N.inj_succ, N.pow_succ_r' in L.
    pose proof (N.div_mod n 10 ltac:(lia)) as D. pose proof (N.mod_lt n 10 ltac:(lia)) as M.
    destruct (IH (n / 10)) as (A & B & C); [apply N.div_lt_upper_bound; lia|].
    split; [|split].
    + pose proof (dec_snoc _ _ _ M A) as Q. rewrite <- D in Q. exact Q.
    + intros X. now apply app_eq_nil in X as [_ X].
    + intros r X. destruct (dec_digits f (n / 10)) as [|x xs] eqn:Y; [congruence|]. cbn [app] in X. injection X as -> X.
      specialize (C xs eq_refl). subst xs.
      exfalso. pose proof (dec_num_zero _ _ A eq_refl) as Z.
      assert (1 <= n / 10) by (apply N.div_le_lower_bound; lia). lia.
Qed.

Lemma dec_text_of n : dec_of (dec_text n) n.
Proof.
  unfold dec_text. destruct (dec_digits_eq (N.to_nat (N.size n)) n) as (A & B & C); [|split; [exact A|split; [exact B|exact C]]].
  rewrite N2Nat.id. pose proof (N.size_gt n). lia.
Qed.

Lemma fixed2_cents n : cents_text (fixed2_text n) n.
Proof.
  exists (dec_text (n / 100)), ((n / 10) mod 10), (n mod 10). split; [reflexivity|].
  split; [apply N.mod_lt; lia|]. split; [apply N.mod_lt; lia|]. exists (n / 100). split; [apply dec_text_of|].
  pose proof (N.div_mod n 10 ltac:(lia)) as D1. pose proof (N.div_mod (n / 10) 10 ltac:(lia)) as D2.
  rewrite N.div_div in D2 by lia. change (10 * 10) with 100 in D2. lia.
Qed.

(** the text of a finite value: sign, then the nearest hundredth (ties to even) *)
Lemma fixed2_spec (v : f64) : is_finite v = true -> exists t n, fixed2 v = (if Bsign v then [x2d] else []) ++ t /\
  cents_text t n /\ Z.of_N n = ZnearestE (100 * Rabs (B2R v)).
Proof.
  intros F. destruct v as [s|s| |s m e B]; try discriminate F.
  - exists (fixed2_text 0), 0. split; [reflexivity|]. split; [apply fixed2_cents|]. cbn [B2R]. rewrite Rabs_R0, Rmult_0_r.
    change 0%R with (IZR 0). now rewrite (@Zrnd_IZR ZnearestE (valid_rnd_N _)).
  - exists (fixed2_text (hundredths m e)), (hundredths m e). split; [reflexivity|]. split; [apply fixed2_cents|].
    rewrite hundredths_eq. f_equal. f_equal. cbn [B2R]. rewrite <- F2R_Zabs. destruct s; reflexivity.
Qed.

Lemma human_nonfinite : human_hash (B754_nan : f64) = str "NaN H/s" /\
  human_hash (B754_infinity false : f64) = str "+Inf ZH/s" /\ human_hash (B754_infinity true : f64) = str "-Inf H/s".
Proof. split; [|split]; vm_compute; reflexivity. Qed.
