(** Proofs for C88: the hash functions of M_Crypto.v are those of S_Hash.v. *)
From Verif Require Export S_Hash M_Crypto.
From Coq Require Import Lia ZifyBool ZifyNat ZifyN.

(** ** bits *)
Lemma bit_high x i : x < 2 ^ 32 -> 32 <= i -> N.testbit x i = false.
Proof.
  intros X I. destruct (N.eq_dec x 0) as [->|NZ]; [apply N.bits_0|]. apply N.bits_above_log2.
  apply N.lt_le_trans with 32; [|assumption]. apply N.log2_lt_pow2; lia.
Qed.
Lemma add_pow a n i : a < 2 ^ n -> N.testbit (a + 2 ^ n) i = if i =? n then true else N.testbit a i.
Proof.
  intros H. assert (E : N.testbit a n = false).
  { destruct (N.eq_dec a 0) as [->|NZ]; [apply N.bits_0|]. apply N.bits_above_log2. apply N.log2_lt_pow2; lia. }
  rewrite N.add_nocarry_lxor.
  - rewrite N.lxor_spec, N.pow2_bits_eqb. rewrite (N.eqb_sym n i). destruct (N.eqb_spec i n) as [->|]; [now rewrite E|]. now destruct (N.testbit a i).
  - apply N.bits_inj_0. intros j. rewrite N.land_spec, N.pow2_bits_eqb. destruct (N.eqb_spec n j) as [->|]; [now rewrite E|]. now rewrite andb_false_r.
Qed.
Definition wsum (f : N -> bool) (n : nat) : N := fold_right N.add 0 (map (fun i => if f (N.of_nat i) then 2 ^ N.of_nat i else 0) (seq 0 n)).
Lemma fold_add_app (l1 l2 : list N) : fold_right N.add 0 (l1 ++ l2) = fold_right N.add 0 l1 + fold_right N.add 0 l2.
Proof. induction l1 as [|x l IH]; cbn [app fold_right]; [lia|]. rewrite IH. lia. Qed.
Lemma wsum_S f n : wsum f (S n) = wsum f n + (if f (N.of_nat n) then 2 ^ N.of_nat n else 0).
Proof. unfold wsum. rewrite seq_S, map_app, fold_add_app. cbn [map fold_right Nat.add]. lia. Qed.
Lemma wsum_bits f n : wsum f n < 2 ^ N.of_nat n /\ forall i, N.testbit (wsum f n) i = (i <? N.of_nat n) && f i.
Proof.
  induction n as [|n (IH1 & IH2)].
  - split; [reflexivity|]. intros i. cbn. destruct i; reflexivity.
  - rewrite wsum_S. split.
    + rewrite Nat2N.inj_succ, N.pow_succ_r'. destruct (f (N.of_nat n)); lia.
    + intros i. destruct (f (N.of_nat n)) eqn:F.
      * rewrite add_pow by assumption. destruct (N.eqb_spec i (N.of_nat n)) as [->|D].
        -- rewrite F. destruct (N.ltb_spec (N.of_nat n) (N.of_nat (S n))); [reflexivity|lia].
        -- rewrite IH2. f_equal. destruct (N.ltb_spec i (N.of_nat n)), (N.ltb_spec i (N.of_nat (S n))); try reflexivity; lia.
      * rewrite N.add_0_r, IH2. destruct (N.eq_dec i (N.of_nat n)) as [->|D]; [rewrite F; now rewrite !andb_false_r|].
        f_equal. destruct (N.ltb_spec i (N.of_nat n)), (N.ltb_spec i (N.of_nat (S n))); try reflexivity; lia.
Qed.
Lemma word_bit f i : N.testbit (word f) i = (i <? 32) && f i. Proof. exact (proj2 (wsum_bits f 32) i). Qed.
Lemma word_lt f : word f < 2 ^ 32. Proof. exact (proj1 (wsum_bits f 32)). Qed.
Lemma word_is f x : x < 2 ^ 32 -> (forall i, i < 32 -> f i = N.testbit x i) -> word f = x.
Proof.
  intros X H. apply N.bits_inj. intros i. rewrite word_bit. destruct (N.ltb_spec i 32) as [L|L]; [now apply H|].
  symmetry. now apply bit_high.
Qed.
Lemma w32_mod n : w32 n = n mod 2 ^ 32. Proof. unfold w32. change 4294967295 with (N.ones 32). apply N.land_ones. Qed.
Lemma w32_lt n : w32 n < 2 ^ 32. Proof. rewrite w32_mod. now apply N.mod_upper_bound. Qed.
Lemma lxor_lt x y : x < 2 ^ 32 -> y < 2 ^ 32 -> N.lxor x y < 2 ^ 32.
Proof.
  intros X Y. destruct (N.eq_dec (N.lxor x y) 0) as [->|NZ]; [lia|]. apply N.log2_lt_pow2; [lia|].
  apply N.le_lt_trans with (1 := N.log2_lxor x y). apply N.max_lub_lt.
  - destruct (N.eq_dec x 0) as [->|]; [now cbn|]. apply N.log2_lt_pow2; lia.
  - destruct (N.eq_dec y 0) as [->|]; [now cbn|]. apply N.log2_lt_pow2; lia.
Qed.
Lemma lor_lt x y : x < 2 ^ 32 -> y < 2 ^ 32 -> N.lor x y < 2 ^ 32.
Proof.
  intros X Y. destruct (N.eq_dec (N.lor x y) 0) as [->|NZ]; [lia|]. apply N.log2_lt_pow2; [lia|]. rewrite N.log2_lor. apply N.max_lub_lt.
  - destruct (N.eq_dec x 0) as [->|]; [now cbn|]. apply N.log2_lt_pow2; lia.
  - destruct (N.eq_dec y 0) as [->|]; [now cbn|]. apply N.log2_lt_pow2; lia.
Qed.
Lemma land_lt x y : x < 2 ^ 32 -> N.land x y < 2 ^ 32.
Proof.
  intros X. apply N.le_lt_trans with x; [|assumption]. rewrite <- (N.lor_ldiff_and x y) at 2. rewrite N.lor_comm.
  assert (H : N.land (N.land x y) (N.ldiff x y) = 0).
  { apply N.bits_inj_0. intros i. rewrite N.land_spec, N.land_spec, N.ldiff_spec. destruct (N.testbit x i), (N.testbit y i); reflexivity. }
  rewrite <- N.lxor_lor by assumption. rewrite <- N.add_nocarry_lxor by assumption. lia.
Qed.
Lemma not32_lt x : x < 2 ^ 32 -> not32 x < 2 ^ 32. Proof. intros X. apply lxor_lt; [assumption|reflexivity]. Qed.
Lemma not32_bit x i : i < 32 -> N.testbit (not32 x) i = negb (N.testbit x i).
Proof.
  intros I. unfold not32. change 4294967295 with (N.ones 32). rewrite N.lxor_spec, N.ones_spec_low by assumption. now destruct (N.testbit x i).
Qed.
Lemma shiftr_lt x k : x < 2 ^ 32 -> N.shiftr x k < 2 ^ 32.
Proof.
  intros X. rewrite N.shiftr_div_pow2. apply N.le_lt_trans with x; [|assumption]. apply N.div_le_upper_bound; [now apply N.pow_nonzero|].
  assert (2 ^ k <> 0) by now apply N.pow_nonzero. nia.
Qed.
Lemma rotr_lt x k : x < 2 ^ 32 -> rotr x k < 2 ^ 32.
Proof. intros X. unfold rotr. apply lor_lt; [now apply shiftr_lt|apply w32_lt]. Qed.
Lemma rotr_bit x k i : x < 2 ^ 32 -> 0 < k < 32 -> i < 32 -> N.testbit (rotr x k) i = N.testbit x ((i + k) mod 32).
Proof.
  intros X K I. unfold rotr. rewrite N.lor_spec, N.shiftr_spec by lia. unfold w32. change 4294967295 with (N.ones 32).
  rewrite N.land_spec, N.ones_spec_low by assumption. rewrite andb_true_r.
  destruct (N.lt_ge_cases (i + k) 32) as [L|L].
  - rewrite N.shiftl_spec_low by lia. rewrite orb_false_r. now rewrite N.mod_small.
  - rewrite (bit_high x (i + k)) by assumption. rewrite N.shiftl_spec_high by lia. cbn [orb]. f_equal.
    apply N.mod_unique with 1; lia.
Qed.
Lemma ROTR_is k x : x < 2 ^ 32 -> 0 < k < 32 -> ROTR k x = rotr x k.
Proof. intros X K. apply word_is; [now apply rotr_lt|]. intros i I. now rewrite rotr_bit. Qed.
Lemma ROTL_is k x : x < 2 ^ 32 -> 0 < k < 32 -> ROTL k x = rotl x k.
Proof. intros X K. apply word_is; [now apply rotr_lt|]. intros i I. unfold rotl. rewrite rotr_bit by lia. reflexivity. Qed.
Lemma SHR_is k x : SHR k x = N.shiftr x k. Proof. unfold SHR. now rewrite N.shiftr_div_pow2. Qed.
Lemma XOR3_is x y z : x < 2 ^ 32 -> y < 2 ^ 32 -> z < 2 ^ 32 -> XOR3 x y z = N.lxor (N.lxor x y) z.
Proof. intros X Y Z. apply word_is; [now repeat apply lxor_lt|]. intros i I. rewrite !N.lxor_spec. unfold bit. now rewrite xorb_assoc. Qed.
Lemma CH_is x y z : x < 2 ^ 32 -> y < 2 ^ 32 -> z < 2 ^ 32 -> CH x y z = N.lxor (N.land x y) (N.land (not32 x) z).
Proof.
  intros X Y Z. apply word_is; [apply lxor_lt; apply land_lt; [assumption|now apply not32_lt]|]. intros i I. rewrite N.lxor_spec, !N.land_spec, not32_bit by assumption.
  unfold bit. now destruct (N.testbit x i), (N.testbit y i), (N.testbit z i).
Qed.
Lemma MAJ_is x y z : x < 2 ^ 32 -> y < 2 ^ 32 -> z < 2 ^ 32 -> MAJ x y z = N.lxor (N.lxor (N.land x y) (N.land x z)) (N.land y z).
Proof.
  intros X Y Z. apply word_is; [repeat apply lxor_lt; now apply land_lt|]. intros i I. rewrite !N.lxor_spec, !N.land_spec.
  unfold bit. now destruct (N.testbit x i), (N.testbit y i), (N.testbit z i).
Qed.
Lemma f_round_is i x y z : x < 2 ^ 32 -> y < 2 ^ 32 -> z < 2 ^ 32 -> f_round i x y z = rmd_f (N.of_nat i) x y z.
Proof.
  intros X Y Z. assert (NX := not32_lt x X). assert (NY := not32_lt y Y). assert (NZ := not32_lt z Z).
  destruct i as [|[|[|[|i]]]].
  1-4: apply word_is; [cbn; auto using lxor_lt, lor_lt, land_lt|]; intros j J; cbn [N.of_nat Pos.of_succ_nat Pos.succ rmd_f]; rewrite ?N.lxor_spec, ?N.lor_spec, ?N.land_spec, ?N.lxor_spec, ?N.lor_spec, ?N.land_spec, ?not32_bit by assumption;
    unfold bit; now destruct (N.testbit x j), (N.testbit y j), (N.testbit z j).
  assert (E : rmd_f (N.of_nat (S (S (S (S i))))) x y z = N.lxor x (N.lor y (not32 z))).
  { unfold rmd_f. destruct (N.of_nat (S (S (S (S i))))) as [|[p|p|]] eqn:E; try lia; destruct p; try reflexivity; lia. }
  rewrite E. apply word_is; [auto using lxor_lt, lor_lt|]. intros j J. rewrite N.lxor_spec, N.lor_spec, not32_bit by assumption.
  unfold bit. now destruct (N.testbit x j), (N.testbit y j), (N.testbit z j).
Qed.

(** ** blocks and words *)
Lemma be_get_lt4 b : be_get (firstn 4 b) < 2 ^ 32.
Proof.
  assert (H := be_get_bound (firstn 4 b)). apply N.lt_le_trans with (1 := H). change (2 ^ 32) with (256 ^ 4). apply N.pow_le_mono_r; [lia|].
  rewrite firstn_length. lia.
Qed.
Lemma le_get_lt4 b : le_get (firstn 4 b) < 2 ^ 32.
Proof.
  assert (H := le_get_bound (firstn 4 b)). apply N.lt_le_trans with (1 := H). change (2 ^ 32) with (256 ^ 4). apply N.pow_le_mono_r; [lia|].
  rewrite firstn_length. lia.
Qed.
Section Words.
Variables (put : N -> bytes) (get4 : bytes -> N) (ws : nat -> bytes -> list N).
Hypothesis put_len : forall x, length (put x) = 4%nat.
Hypothesis get_put : forall x, x < 2 ^ 32 -> get4 (put x) = x.
Hypothesis put_get : forall b, length b = 4%nat -> put (get4 b) = b.
Hypothesis get_lt : forall b, get4 (firstn 4 b) < 2 ^ 32.
Hypothesis ws_S : forall n b, ws (S n) b = get4 (firstn 4 b) :: ws n (skipn 4 b).
Hypothesis ws_0 : forall b, ws 0 b = [].
Lemma ws_props n : forall b, length (ws n b) = n /\ Forall (fun x => x < 2 ^ 32) (ws n b).
Proof.
  induction n as [|n IH]; intros b; [rewrite ws_0; split; [reflexivity|constructor]|].
  rewrite ws_S. destruct (IH (skipn 4 b)) as (I1 & I2). split; [cbn [length]; now rewrite I1|constructor; auto].
Qed.
Lemma ws_concat n : forall b, length b = (4 * n)%nat -> concat (map put (ws n b)) = b.
Proof.
  induction n as [|n IH]; intros b L.
  - rewrite ws_0. destruct b; [reflexivity|discriminate].
  - rewrite ws_S. cbn [map concat]. rewrite IH by (rewrite skipn_length; lia). rewrite put_get by (rewrite firstn_length; lia). apply firstn_skipn.
Qed.
Lemma ws_unique l : Forall (fun x => x < 2 ^ 32) l -> ws (length l) (concat (map put l)) = l.
Proof.
  induction 1 as [|x l X F IH]; cbn [length map concat]; [apply ws_0|]. rewrite ws_S.
  assert (E1 : firstn 4 (put x ++ concat (map put l)) = put x) by (rewrite <- (put_len x); rewrite firstn_app, Nat.sub_diag, firstn_all, firstn_O; apply app_nil_r).
  assert (E2 : skipn 4 (put x ++ concat (map put l)) = concat (map put l)) by (rewrite <- (put_len x); rewrite skipn_app, Nat.sub_diag, skipn_all; reflexivity).
  rewrite E1, E2, get_put, IH by assumption. reflexivity.
Qed.
Lemma words_iff b l : length b = 64%nat -> words_of put b l <-> l = ws 16 b.
Proof.
  intros L. split.
  - intros (L16 & F & ->). rewrite <- L16. symmetry. now apply ws_unique.
  - intros ->. destruct (ws_props 16 b) as (P1 & P2). split; [assumption|]. split; [assumption|]. symmetry. apply ws_concat. now rewrite L.
Qed.
End Words.
Lemma words_be_iff b l : length b = 64%nat -> words_of (be_put 4) b l <-> l = words_be 16 b.
Proof.
  apply (words_iff (be_put 4) be_get words_be); try reflexivity.
  - intros x X. rewrite be_get_put. now apply N.mod_small.
  - intros x X. rewrite <- X. apply be_put_get.
  - apply be_get_lt4.
Qed.
Lemma words_le_iff b l : length b = 64%nat -> words_of (le_put 4) b l <-> l = words_le 16 b.
Proof.
  apply (words_iff (le_put 4) le_get words_le); try reflexivity.
  - intros x X. rewrite le_get_put. now apply N.mod_small.
  - intros x X. rewrite <- X. apply le_put_get.
  - apply le_get_lt4.
Qed.
Lemma words_be_props b : length (words_be 16 b) = 16%nat /\ Forall (fun x => x < 2 ^ 32) (words_be 16 b).
Proof. apply (ws_props be_get words_be); try reflexivity. apply be_get_lt4. Qed.
Lemma words_le_props b : length (words_le 16 b) = 16%nat /\ Forall (fun x => x < 2 ^ 32) (words_le 16 b).
Proof. apply (ws_props le_get words_le); try reflexivity. apply le_get_lt4. Qed.

Lemma pad_iff len8 msg p : (forall n, length (len8 n) = 8%nat) -> padded len8 msg p <-> p = md_pad len8 msg.
Proof.
  intros L8. unfold md_pad. set (k0 := Nat.modulo (119 - Nat.modulo (length msg) 64) 64).
  assert (M := Nat.mod_upper_bound (length msg) 64 ltac:(lia)). assert (D := Nat.div_mod (length msg) 64 ltac:(lia)).
  assert (M0 := Nat.mod_upper_bound (119 - Nat.modulo (length msg) 64) 64 ltac:(lia)). assert (D0 := Nat.div_mod (119 - Nat.modulo (length msg) 64) 64 ltac:(lia)).
  fold k0 in M0, D0. split.
  - intros (k & Hk & -> & HM). f_equal. f_equal. f_equal. f_equal. rewrite !app_length, repeat_length, L8 in HM. cbn [length] in HM.
    assert (D1 := Nat.div_mod (length msg + (1 + (k + 8))) 64 ltac:(lia)). rewrite HM in D1. lia.
  - intros ->. exists k0. split; [exact M0|]. split; [reflexivity|]. rewrite !app_length, repeat_length, L8. cbn [length].
    symmetry. apply Nat.mod_unique with ((length msg + (1 + (k0 + 8))) / 64)%nat; [lia|].
    assert (D1 := Nat.div_mod (length msg + (1 + (k0 + 8))) 64 ltac:(lia)). assert (M1 := Nat.mod_upper_bound (length msg + (1 + (k0 + 8))) 64 ltac:(lia)). lia.
Qed.

Section Blocks.
Context {A B : Type} (comp : A -> bytes -> A -> Prop) (f : B -> bytes -> B) (enc : B -> A) (ok : B -> Prop).
Hypothesis comp_iff : forall s b s', ok s -> length b = 64%nat -> comp (enc s) b s' <-> s' = enc (f s b).
Hypothesis f_ok : forall s b, ok s -> ok (f s b).
Lemma blocks_iff n : forall s p H, ok s -> length p = (64 * n)%nat -> blocks comp (enc s) p H <-> H = enc (md_blocks f n s p).
Proof.
  induction n as [|n IH]; intros s p H O L; cbn [md_blocks].
  - destruct p; [|discriminate]. split.
    + inversion 1 as [|? b ? r ? Lb Cb Br E1 E2]; [reflexivity|]. apply (f_equal (@length byte)) in E2. rewrite app_length, Lb in E2. discriminate E2.
    + intros ->. constructor.
  - assert (L1 : length (firstn 64 p) = 64%nat) by (rewrite firstn_length; lia). assert (L2 : length (skipn 64 p) = (64 * n)%nat) by (rewrite skipn_length; lia). split.
    + inversion 1 as [? E1 E2|? b s1 r ? Lb Cb Br E1 E2]; [rewrite <- E2 in L; cbn in L; lia|].
      assert (F1 : firstn 64 p = b) by (rewrite <- E2, <- Lb, firstn_app, Nat.sub_diag, firstn_all, firstn_O; apply app_nil_r).
      assert (F2 : skipn 64 p = r) by (rewrite <- E2, <- Lb, skipn_app, Nat.sub_diag, skipn_all; reflexivity).
      rewrite E2, F1, F2. apply comp_iff in Cb; [|assumption|assumption]. rewrite Cb in Br. apply IH in Br; [exact Br|auto|]. now rewrite <- F2.
    + intros ->. rewrite <- (firstn_skipn 64 p) at 1. econstructor; [exact L1|apply comp_iff; [assumption|assumption|reflexivity]|]. apply IH; auto.
Qed.
End Blocks.

(** ** SHA-256 *)
Definition lt32 (x : N) : Prop := x < 2 ^ 32.
Definition enc8 (s : st8) : list N := match s with St8 a b c d e f g h => [a; b; c; d; e; f; g; h] end.
Definition ok8 (s : st8) : Prop := Forall lt32 (enc8 s).
Lemma plus32_lt l : plus32 l < 2 ^ 32. Proof. unfold plus32. now apply N.mod_upper_bound. Qed.
Lemma Sigma0_is x : lt32 x -> Sigma0 x = N.lxor (N.lxor (rotr x 2) (rotr x 13)) (rotr x 22).
Proof. intros X. unfold Sigma0. rewrite !ROTR_is by (assumption || lia). apply XOR3_is; now apply rotr_lt. Qed.
Lemma Sigma1_is x : lt32 x -> Sigma1 x = N.lxor (N.lxor (rotr x 6) (rotr x 11)) (rotr x 25).
Proof. intros X. unfold Sigma1. rewrite !ROTR_is by (assumption || lia). apply XOR3_is; now apply rotr_lt. Qed.
Lemma sigma0_is x : lt32 x -> sigma0 x = N.lxor (N.lxor (rotr x 7) (rotr x 18)) (N.shiftr x 3).
Proof. intros X. unfold sigma0. rewrite !ROTR_is, SHR_is by (assumption || lia). apply XOR3_is; auto using rotr_lt, shiftr_lt. Qed.
Lemma sigma1_is x : lt32 x -> sigma1 x = N.lxor (N.lxor (rotr x 17) (rotr x 19)) (N.shiftr x 10).
Proof. intros X. unfold sigma1. rewrite !ROTR_is, SHR_is by (assumption || lia). apply XOR3_is; auto using rotr_lt, shiftr_lt. Qed.
Lemma add_mod2 a b : (a mod 2 ^ 32 + b mod 2 ^ 32) mod 2 ^ 32 = (a + b) mod 2 ^ 32.
Proof. symmetry. now apply N.add_mod. Qed.
Lemma add_modr a b : (a + b mod 2 ^ 32) mod 2 ^ 32 = (a + b) mod 2 ^ 32.
Proof. now apply N.add_mod_idemp_r. Qed.
Lemma ok8_inv a b c d e f g h : ok8 (St8 a b c d e f g h) -> lt32 a /\ lt32 b /\ lt32 c /\ lt32 d /\ lt32 e /\ lt32 f /\ lt32 g /\ lt32 h.
Proof. unfold ok8. cbn [enc8]. rewrite !Forall_cons_iff. tauto. Qed.
Lemma sha_step_is k w s : ok8 s -> sha_step (enc8 s) (k, w) = enc8 (sha_round k w s) /\ ok8 (sha_round k w s).
Proof.
  destruct s as [a b c d e f g h]. intros O. destruct (ok8_inv _ _ _ _ _ _ _ _ O) as (A & B & C & D & E & F & G & H). clear O.
  unfold sha_round. cbn [enc8 sha_step fst snd].
  rewrite Sigma0_is, Sigma1_is, CH_is, MAJ_is by assumption.
  set (s1 := N.lxor (N.lxor (rotr e 6) _) _). set (ch := N.lxor (N.land e f) _). set (s0 := N.lxor (N.lxor (rotr a 2) _) _). set (mj := N.lxor (N.lxor (N.land a b) _) _).
  split.
  - rewrite !w32_mod. unfold plus32. cbn [fold_right]. rewrite !N.add_0_r. rewrite add_mod2, add_modr.
    replace (h + (s1 + (ch + (k + w)))) with (h + s1 + ch + k + w) by lia. set (t := h + s1 + ch + k + w). replace (t + (s0 + mj)) with (t + s0 + mj) by lia. reflexivity.
  - unfold ok8. cbn [enc8]. repeat constructor; try assumption; apply w32_lt.
Qed.
(** the words the rounds use, and the window they come from *)
Fixpoint win (t : nat) (w : list N) : list N := match t with O => w | S t' => win t' (tl w ++ [sha_next w]) end.
Definition used_word (w : list N) (t : nat) : N := hd 0 (win t w).
Lemma sha_rounds_fold ks : forall w s, sha_rounds ks w s = fold_left (fun s kw => sha_round (fst kw) (snd kw) s) (combine ks (map (used_word w) (seq 0 (length ks)))) s.
Proof.
  induction ks as [|k ks IH]; intros w s; [reflexivity|]. cbn [sha_rounds length seq map combine fold_left fst snd]. rewrite IH. unfold used_word at 3. cbn [win].
  rewrite <- seq_shift, map_map. reflexivity.
Qed.
Lemma win_S t : forall w, win (S t) w = tl (win t w) ++ [sha_next (win t w)].
Proof. induction t as [|t IH]; intros w; [reflexivity|]. change (win (S (S t)) w) with (win (S t) (tl w ++ [sha_next w])). rewrite IH. reflexivity. Qed.
Lemma win_props t w : length w = 16%nat -> Forall lt32 w -> length (win t w) = 16%nat /\ Forall lt32 (win t w).
Proof.
  intros L F. induction t as [|t (IH1 & IH2)]; [auto|]. rewrite win_S. set (v := win t w) in *. destruct v as [|x v]; [discriminate IH1|]. cbn [tl].
  split; [rewrite app_length; cbn in *; lia|]. apply Forall_app. inversion IH2; subst. split; [assumption|]. constructor; [apply w32_lt|constructor].
Qed.
Lemma win_nth w : length w = 16%nat -> Forall lt32 w -> forall i t, (i < 16)%nat -> nth i (win t w) 0 = used_word w (t + i).
Proof.
  intros L F. induction i as [|i IH]; intros t Hi.
  - rewrite Nat.add_0_r. unfold used_word. now destruct (win t w).
  - rewrite <- plus_n_Sm. change (S (t + i)) with (S t + i)%nat. rewrite <- IH by lia. rewrite win_S. destruct (win_props t w L F) as (L1 & _).
    destruct (win t w) as [|x v]; [discriminate L1|]. cbn [tl nth]. cbn [length] in L1. rewrite app_nth1 by lia. reflexivity.
Qed.
Lemma used_lt w t : length w = 16%nat -> Forall lt32 w -> used_word w t < 2 ^ 32.
Proof.
  intros L F. destruct (win_props t w L F) as (L1 & F1). unfold used_word. destruct (win t w) as [|x v]; [discriminate L1|]. now inversion F1.
Qed.
Lemma used_next w t : length w = 16%nat -> Forall lt32 w ->
  used_word w (t + 16) = plus32 [sigma1 (used_word w (t + 14)); used_word w (t + 9); sigma0 (used_word w (t + 1)); used_word w t].
Proof.
  intros L F. replace (t + 16)%nat with (S t + 15)%nat by lia. rewrite <- (win_nth w L F 15 (S t)) by lia. rewrite win_S.
  destruct (win_props t w L F) as (L1 & F1). replace (nth 15 (tl (win t w) ++ [sha_next (win t w)]) 0) with (sha_next (win t w)).
  2:{ destruct (win t w) as [|x v]; [discriminate L1|]. cbn [tl]. cbn [length] in L1. rewrite app_nth2 by lia. replace (15 - length v)%nat with 0%nat by lia. reflexivity. }
  unfold sha_next. rewrite !(win_nth w L F) by lia. rewrite Nat.add_0_r. rewrite sigma0_is, sigma1_is by now apply used_lt. rewrite w32_mod.
  set (s1 := N.lxor (N.lxor (rotr (used_word w (t + 14)) 17) _) _). set (s0 := N.lxor (N.lxor (rotr (used_word w (t + 1)) 7) _) _).
  unfold plus32. cbn [fold_right]. f_equal. lia.
Qed.
Lemma schedule_is M : length M = 16%nat -> Forall lt32 M -> forall W, schedule M W <-> W = map (used_word M) (seq 0 64).
Proof.
  intros L F. set (W0 := map (used_word M) (seq 0 64)).
  assert (N0 : forall t, (t < 64)%nat -> nth t W0 0 = used_word M t).
  { intros t T. unfold W0. rewrite nth_indep with (d' := used_word M 0) by (rewrite map_length, seq_length; lia). rewrite map_nth, seq_nth by lia. reflexivity. }
  assert (S0 : schedule M W0).
  { split; [unfold W0; now rewrite map_length, seq_length|]. split.
    - intros t T. rewrite N0 by lia. symmetry. exact (win_nth M L F t 0%nat T).
    - intros t T. rewrite !N0 by lia. replace t with ((t - 16) + 16)%nat at 1 by lia. rewrite used_next by assumption.
      replace (t - 16 + 14)%nat with (t - 2)%nat by lia. replace (t - 16 + 9)%nat with (t - 7)%nat by lia. replace (t - 16 + 1)%nat with (t - 15)%nat by lia. reflexivity. }
  intros W. split; [|intros ->; exact S0]. intros (L1 & A1 & B1). destruct S0 as (L2 & A2 & B2).
  assert (E : forall t, (t < 64)%nat -> nth t W 0 = nth t W0 0).
  { intros t. induction t as [t IH] using (well_founded_induction lt_wf). intros T. destruct (Nat.lt_ge_cases t 16) as [T16|T16].
    - now rewrite A1, A2.
    - rewrite B1, B2 by lia. rewrite !IH by lia. reflexivity. }
  apply nth_ext with (d := 0) (d' := 0); [congruence|]. intros t T. apply E. now rewrite <- L1.
Qed.
Lemma rounds_is l : forall s, ok8 s -> fold_left sha_step l (enc8 s) = enc8 (fold_left (fun s kw => sha_round (fst kw) (snd kw) s) l s) /\ ok8 (fold_left (fun s kw => sha_round (fst kw) (snd kw) s) l s).
Proof.
  induction l as [|[k w] l IH]; intros s O; [auto|]. cbn [fold_left fst snd]. destruct (sha_step_is k w s O) as (E & O'). rewrite E. now apply IH.
Qed.
Lemma sha_comp_iff s b H' : ok8 s -> length b = 64%nat -> sha_comp sha_k (enc8 s) b H' <-> H' = enc8 (sha_block s b).
Proof.
  intros O L. destruct (words_be_props b) as (WL & WF).
  assert (E : map (fun xy => plus32 [fst xy; snd xy]) (combine (enc8 s) (fold_left sha_step (combine sha_k (map (used_word (words_be 16 b)) (seq 0 64))) (enc8 s))) = enc8 (sha_block s b)).
  { unfold sha_block. rewrite sha_rounds_fold. change (length sha_k) with 64%nat. destruct (rounds_is (combine sha_k (map (used_word (words_be 16 b)) (seq 0 64))) s O) as (E & _).
    rewrite E. destruct s as [a b' c d e f g h]. destruct (fold_left _ _ (St8 a b' c d e f g h)) as [a1 b1 c1 d1 e1 f1 g1 h1]. cbn [enc8 combine map fst snd].
    unfold add32. rewrite !w32_mod. unfold plus32. cbn [fold_right]. rewrite !N.add_0_r. reflexivity. }
  split.
  - intros (M & W & HM & HW & ->). apply words_be_iff in HM; [|assumption]. subst M. apply (schedule_is _ WL WF) in HW. subst W. exact E.
  - intros ->. exists (words_be 16 b), (map (used_word (words_be 16 b)) (seq 0 64)). split; [now apply words_be_iff|]. split; [now apply schedule_is|]. now symmetry.
Qed.
Lemma sha_block_ok s b : ok8 (sha_block s b).
Proof.
  unfold sha_block. destruct s as [a b' c d e f g h]. destruct (sha_rounds _ _ _) as [a1 b1 c1 d1 e1 f1 g1 h1]. unfold ok8. cbn [enc8]. unfold add32. repeat constructor; apply w32_lt.
Qed.
(** the constants *)
Lemma pow_le_inv a b e : e <> 0 -> a ^ e < b ^ e -> a < b.
Proof. intros E H. apply N.pow_lt_mono_l_iff with (c := e); assumption. Qed.
Lemma root_unique e p c c' : e <> 0 -> root_digits e p c -> root_digits e p c' -> c = c'.
Proof.
  intros E (L & q & A & B) (L' & q' & A' & B'). assert (X : q * 2 ^ 32 + c < q' * 2 ^ 32 + c' + 1) by (apply pow_le_inv with e; [assumption|lia]).
  assert (Y : q' * 2 ^ 32 + c' < q * 2 ^ 32 + c + 1) by (apply pow_le_inv with e; [assumption|lia]). lia.
Qed.
Lemma root30_unique e p c c' : e <> 0 -> root30 e p c -> root30 e p c' -> c = c'.
Proof.
  intros E (A & B) (A' & B'). assert (X : c < c' + 1) by (apply pow_le_inv with e; [assumption|lia]).
  assert (Y : c' < c + 1) by (apply pow_le_inv with e; [assumption|lia]). lia.
Qed.
Lemma Forall2_unique {A B} (R : A -> B -> Prop) : (forall a b b', R a b -> R a b' -> b = b') -> forall l m m', Forall2 R l m -> Forall2 R l m' -> m = m'.
Proof. intros U l m m' H. revert m'. induction H as [|a b l m X Y IH]; intros m' H'; inversion H'; subst; [reflexivity|]. f_equal; eauto. Qed.
(** digits found by search *)
Definition root_ok (e p c : N) : bool :=
  existsb (fun q => ((q * 2 ^ 32 + c) ^ e <=? p * 2 ^ (32 * e)) && (p * 2 ^ (32 * e) <? (q * 2 ^ 32 + c + 1) ^ e)) (map N.of_nat (seq 0 20)).
Lemma root_ok_ok e p c : (c <? 2 ^ 32) && root_ok e p c = true -> root_digits e p c.
Proof.
  intros H. apply andb_true_iff in H. destruct H as (H1 & H2). apply N.ltb_lt in H1. split; [assumption|].
  apply existsb_exists in H2. destruct H2 as (q & _ & H2). apply andb_true_iff in H2. destruct H2 as (H3 & H4). apply N.leb_le in H3. apply N.ltb_lt in H4. now exists q.
Qed.
Lemma forall2_check (f : N -> N -> bool) (R : N -> N -> Prop) : (forall p c, f p c = true -> R p c) ->
  forall l m, length l = length m -> forallb (fun x => f (fst x) (snd x)) (combine l m) = true -> Forall2 R l m.
Proof.
  intros H. induction l as [|p l IH]; intros [|c m] L E; try discriminate L; constructor.
  - apply H. cbn [combine forallb fst snd] in E. apply andb_true_iff in E. tauto.
  - apply IH; [now injection L|]. cbn [combine forallb] in E. apply andb_true_iff in E. tauto.
Qed.
Lemma sha_k_roots : Forall2 (root_digits 3) primes sha_k.
Proof. apply (forall2_check (fun p c => (c <? 2 ^ 32) && root_ok 3 p c)); [intros; now apply root_ok_ok|reflexivity|vm_compute; reflexivity]. Qed.
Lemma sha_init_roots : Forall2 (root_digits 2) (firstn 8 primes) (enc8 sha_init).
Proof. apply (forall2_check (fun p c => (c <? 2 ^ 32) && root_ok 2 p c)); [intros; now apply root_ok_ok|reflexivity|vm_compute; reflexivity]. Qed.

Lemma md_pad_length len8 msg : (forall n, length (len8 n) = 8%nat) -> length (md_pad len8 msg) = (64 * (length (md_pad len8 msg) / 64))%nat.
Proof.
  intros L8. destruct (proj2 (pad_iff len8 msg _ L8) eq_refl) as (k & _ & _ & M). assert (D := Nat.div_mod (length (md_pad len8 msg)) 64 ltac:(lia)). lia.
Qed.
Lemma sha_iff msg h : is_sha256 msg h <-> h = sha256 msg.
Proof.
  assert (L8 : forall n, length (be_put 8 n) = 8%nat) by (intros; apply be_put_length).
  assert (O : ok8 sha_init) by (unfold ok8; repeat constructor).
  assert (BI := blocks_iff (sha_comp sha_k) sha_block enc8 ok8 sha_comp_iff (fun s b _ => sha_block_ok s b) (length (md_pad (be_put 8) msg) / 64) sha_init (md_pad (be_put 8) msg)).
  assert (E : concat (map (be_put 4) (enc8 (md_blocks sha_block (length (md_pad (be_put 8) msg) / 64) sha_init (md_pad (be_put 8) msg)))) = sha256 msg).
  { unfold sha256. destruct (md_blocks sha_block _ sha_init _) as [a b c d e f g h0]. cbn [enc8 map concat]. now rewrite app_nil_r. }
  split.
  - intros (K & H0 & p & H & HK & HH & HP & HB & ->). apply pad_iff in HP; [|assumption]. subst p.
    assert (K = sha_k) as -> by (eapply Forall2_unique; [intros; eapply (root_unique 3); [discriminate|eassumption|eassumption]|exact HK|exact sha_k_roots]).
    assert (H0 = enc8 sha_init) as -> by (eapply Forall2_unique; [intros; eapply (root_unique 2); [discriminate|eassumption|eassumption]|exact HH|exact sha_init_roots]).
    apply BI in HB; [|assumption|now apply md_pad_length]. now rewrite HB.
  - intros ->. exists sha_k, (enc8 sha_init), (md_pad (be_put 8) msg), (enc8 (md_blocks sha_block (length (md_pad (be_put 8) msg) / 64) sha_init (md_pad (be_put 8) msg))).
    split; [exact sha_k_roots|]. split; [exact sha_init_roots|]. split; [now apply pad_iff|]. split; [apply BI; [assumption|now apply md_pad_length|reflexivity]|]. now symmetry.
Qed.

(** ** RIPEMD-160 *)
Definition enc5 (s : st5) : list N := match s with St5 a b c d e => [a; b; c; d; e] end.
Definition ok5 (s : st5) : Prop := Forall lt32 (enc5 s).
Lemma ok5_inv a b c d e : ok5 (St5 a b c d e) -> lt32 a /\ lt32 b /\ lt32 c /\ lt32 d /\ lt32 e.
Proof. unfold ok5. cbn [enc5]. rewrite !Forall_cons_iff. tauto. Qed.
Lemma rmd_step_is x s f k w sh : ok5 s -> 0 < sh < 32 ->
  rmd_line_step x (enc5 s) f k w sh = enc5 (rmd_step x s (N.of_nat f, k, w, sh)) /\ ok5 (rmd_step x s (N.of_nat f, k, w, sh)).
Proof.
  destruct s as [a b c d e]. intros O SH. destruct (ok5_inv _ _ _ _ _ O) as (A & B & C & D & E). clear O.
  unfold rmd_step. cbn [enc5 rmd_line_step]. split.
  - rewrite f_round_is by assumption. rewrite (ROTL_is 10 c) by (assumption || lia). rewrite (ROTL_is sh) by (apply plus32_lt || lia).
    unfold add32. rewrite !w32_mod. unfold plus32. cbn [fold_right]. rewrite !N.add_0_r. set (r := rmd_f (N.of_nat f) b c d).
    replace (a + (r + (nth w x 0 + k))) with (a + r + nth w x 0 + k) by lia. reflexivity.
  - unfold ok5. cbn [enc5]. unfold add32. repeat constructor; try assumption; [apply w32_lt|now apply rotr_lt].
Qed.
Definition KL : list N := [0; 1518500249; 1859775393; 2400959708; 2840853838].
Definition KR : list N := [1352829926; 1548603684; 1836072691; 2053994217; 0].
Definition line_par (fn : nat -> nat) (K : list N) (first : nat -> nat) (j : nat) : nat * N * nat * N :=
  let i := Nat.div j 16 in let w := Nat.iter i rho (first (Nat.modulo j 16)) in (fn i, nth i K 0, w, nth w (nth i shifts []) 0).
Definition par_N (p : nat * N * nat * N) : N * N * nat * N := let '(f, k, w, s) := p in (N.of_nat f, k, w, s).
Lemma left_is : map par_N (map (line_par (fun i => i) KL (fun w => w)) (seq 0 80)) = rmd_left.
Proof. vm_compute. reflexivity. Qed.
Lemma right_is : map par_N (map (line_par (fun i => 4 - i)%nat KR pi) (seq 0 80)) = rmd_right.
Proof. vm_compute. reflexivity. Qed.
Definition sh_ok (p : nat * N * nat * N) : bool := (0 <? snd p) && (snd p <? 32).
Lemma left_sh : forallb sh_ok (map (line_par (fun i => i) KL (fun w => w)) (seq 0 80)) = true. Proof. vm_compute. reflexivity. Qed.
Lemma right_sh : forallb sh_ok (map (line_par (fun i => 4 - i)%nat KR pi) (seq 0 80)) = true. Proof. vm_compute. reflexivity. Qed.
Lemma line_fold x l : forall s, ok5 s -> forallb sh_ok l = true ->
  fold_left (fun v p => let '(f, k, w, sh) := p in rmd_line_step x v f k w sh) l (enc5 s) = enc5 (fold_left (rmd_step x) (map par_N l) s) /\ ok5 (fold_left (rmd_step x) (map par_N l) s).
Proof.
  induction l as [|[[[f k] w] sh] l IH]; intros s O H; [auto|]. cbn [forallb] in H. apply andb_true_iff in H. destruct H as (H1 & H2).
  unfold sh_ok in H1. cbn [snd] in H1. apply andb_true_iff in H1. destruct H1 as (H3 & H4). apply N.ltb_lt in H3. apply N.ltb_lt in H4.
  cbn [map fold_left par_N]. destruct (rmd_step_is x s f k w sh O (conj H3 H4)) as (E & O'). rewrite E. now apply IH.
Qed.
Lemma fold_map {A B C} (f : A -> B -> A) (g : C -> B) l : forall a, fold_left f (map g l) a = fold_left (fun a c => f a (g c)) l a.
Proof. induction l as [|c l IH]; intros a; [reflexivity|]. cbn [map fold_left]. apply IH. Qed.
Lemma line_is fn K first x s : ok5 s -> forallb sh_ok (map (line_par fn K first) (seq 0 80)) = true ->
  rmd_line fn K first x (enc5 s) = enc5 (fold_left (rmd_step x) (map par_N (map (line_par fn K first) (seq 0 80))) s).
Proof.
  intros O H. destruct (line_fold x _ s O H) as (E & _). rewrite <- E. rewrite fold_map. reflexivity.
Qed.
Lemma rmd_comp_iff s b H' : ok5 s -> length b = 64%nat -> rmd_comp KL KR (enc5 s) b H' <-> H' = enc5 (rmd_block s b).
Proof.
  intros O L. unfold rmd_comp.
  assert (E : rmd_mix (enc5 s) (rmd_line (fun i => i) KL (fun w => w) (words_le 16 b) (enc5 s)) (rmd_line (fun i => 4 - i)%nat KR pi (words_le 16 b) (enc5 s)) = enc5 (rmd_block s b)).
  { rewrite (line_is _ _ _ _ s O left_sh), (line_is _ _ _ _ s O right_sh), left_is, right_is. unfold rmd_block.
    set (l1 := fold_left (rmd_step (words_le 16 b)) rmd_left s). set (l2 := fold_left (rmd_step (words_le 16 b)) rmd_right s). destruct s, l1, l2.
    cbn [enc5 rmd_mix]. rewrite !w32_mod. unfold plus32. cbn [fold_right]. rewrite !N.add_0_r, !N.add_assoc. reflexivity. }
  split.
  - intros (X & HX & ->). apply words_le_iff in HX; [|assumption]. subst X. exact E.
  - intros ->. exists (words_le 16 b). split; [now apply words_le_iff|]. now symmetry.
Qed.
Lemma rmd_block_ok s b : ok5 (rmd_block s b).
Proof.
  unfold rmd_block. set (l1 := fold_left _ rmd_left s). set (l2 := fold_left _ rmd_right s). destruct s, l1, l2. unfold ok5. cbn [enc5]. repeat constructor; apply w32_lt.
Qed.
Lemma root30_check e p c : (c ^ e <=? p * 2 ^ (30 * e)) && (p * 2 ^ (30 * e) <? (c + 1) ^ e) = true -> root30 e p c.
Proof. intros H. apply andb_true_iff in H. destruct H as (H1 & H2). apply N.leb_le in H1. apply N.ltb_lt in H2. now split. Qed.
Lemma KL_roots : Forall2 (root30 2) [0; 2; 3; 5; 7] KL.
Proof. unfold KL. repeat constructor; apply root30_check; vm_compute; reflexivity. Qed.
Lemma KR_roots : Forall2 (root30 3) [2; 3; 5; 7; 0] KR.
Proof. unfold KR. repeat constructor; apply root30_check; vm_compute; reflexivity. Qed.
Definition H0_bytes : bytes := [x01; x23; x45; x67; x89; xab; xcd; xef; xfe; xdc; xba; x98; x76; x54; x32; x10; xf0; xe1; xd2; xc3].
Lemma H0_unique H0 : concat (map (le_put 4) H0) = H0_bytes -> length H0 = 5%nat -> Forall (fun x => x < 2 ^ 32) H0 -> H0 = enc5 rmd_init.
Proof.
  intros E L F.
  assert (U := ws_unique (le_put 4) le_get words_le).
  assert (X : words_le (length H0) (concat (map (le_put 4) H0)) = H0).
  { apply U; try reflexivity; try assumption.
    - intros x X. rewrite le_get_put. now apply N.mod_small. }
  rewrite <- X, E, L. vm_compute. reflexivity.
Qed.
Lemma rmd_iff msg h : is_ripemd160 msg h <-> h = ripemd160 msg.
Proof.
  assert (L8 : forall n, length (le_put 8 n) = 8%nat) by (intros; apply le_put_length).
  assert (O : ok5 rmd_init) by (unfold ok5; repeat constructor).
  assert (BI := blocks_iff (rmd_comp KL KR) rmd_block enc5 ok5 rmd_comp_iff (fun s b _ => rmd_block_ok s b) (length (md_pad (le_put 8) msg) / 64) rmd_init (md_pad (le_put 8) msg)).
  assert (E : concat (map (le_put 4) (enc5 (md_blocks rmd_block (length (md_pad (le_put 8) msg) / 64) rmd_init (md_pad (le_put 8) msg)))) = ripemd160 msg).
  { unfold ripemd160. destruct (md_blocks rmd_block _ rmd_init _) as [a b c d e]. cbn [enc5 map concat]. now rewrite app_nil_r. }
  split.
  - intros (K1 & K2 & H0 & p & H & HK1 & HK2 & HH & HL & HF & HP & HB & ->). apply pad_iff in HP; [|assumption]. subst p.
    assert (K1 = KL) as -> by (eapply Forall2_unique; [intros; eapply (root30_unique 2); [discriminate|eassumption|eassumption]|exact HK1|exact KL_roots]).
    assert (K2 = KR) as -> by (eapply Forall2_unique; [intros; eapply (root30_unique 3); [discriminate|eassumption|eassumption]|exact HK2|exact KR_roots]).
    assert (H0 = enc5 rmd_init) as -> by now apply H0_unique.
    apply BI in HB; [|assumption|now apply md_pad_length]. now rewrite HB.
  - intros ->. exists KL, KR, (enc5 rmd_init), (md_pad (le_put 8) msg), (enc5 (md_blocks rmd_block (length (md_pad (le_put 8) msg) / 64) rmd_init (md_pad (le_put 8) msg))).
    split; [exact KL_roots|]. split; [exact KR_roots|]. split; [vm_compute; reflexivity|]. split; [reflexivity|]. split; [repeat constructor|]. split; [now apply pad_iff|].
    split; [apply BI; [assumption|now apply md_pad_length|reflexivity]|]. now symmetry.
Qed.
