(** Proofs about merkle branches and proofs (C42-C45). *)
From Verif Require Export S_Block M_Block P_Utils P_Crypto P_Sighash.
From Coq Require Import ZifyBool ZifyNat ZifyN.

Lemma get_hashes_eq l : get_hashes l = map reverse_hex_string l.
Proof.
  unfold get_hashes. assert (forall acc, fold_left (fun hashes t => hashes ++ [reverse_hex_string t]) l acc = acc ++ map reverse_hex_string l) as H.
  { induction l as [|x l IH]; intros acc; cbn [fold_left map]; [now rewrite app_nil_r|]. rewrite IH, <- app_assoc. reflexivity. }
  apply H.
Qed.

(** a hash string of the algorithm: hex of the hash in internal order *)
Definition holds (s id : bytes) : Prop := hex_ignore s = id.

Lemma hashes_hold ss ids : Forall2 displays ss ids -> Forall2 holds (get_hashes ss) ids.
Proof.
  rewrite get_hashes_eq. induction 1 as [|s id ss ids H _ IH]; cbn [map]; constructor; [|assumption].
  unfold displays in H. apply c04_hex in H. rewrite rev_involutive in H. now apply hex_dec_ignore.
Qed.

Lemma level_holds ids ids' : pairing ids ids' -> forall ss, Forall2 holds ss ids -> Forall2 holds (merkle_level ss) ids'.
Proof.
  induction 1 as [|a|a b l l' P IH]; intros ss F.
  - inversion F; subst. constructor.
  - inversion F as [|s ? ss' ? Hs F']; subst. inversion F'; subst. cbn [merkle_level]. constructor; [|constructor].
    unfold holds in *. rewrite Hs. now rewrite hex_ignore_encode.
  - inversion F as [|s ? ss' ? Hs F']; subst. inversion F' as [|s2 ? ss2 ? Hs2 F'']; subst. cbn [merkle_level]. constructor; [|auto].
    unfold holds in *. rewrite Hs, Hs2. now rewrite hex_ignore_encode.
Qed.

Lemma pairing_total : forall n l, (length l <= n)%nat -> exists l', pairing l l'.
Proof.
  induction n as [|n IH]; intros [|a [|b l]] L; cbn [length] in L; try lia.
  - exists []. constructor.
  - exists []. constructor.
  - eexists. apply pair_one.
  - destruct (IH l ltac:(lia)) as (l' & P). eexists. apply pair_two. exact P.
Qed.

Lemma pairing_length l l' : pairing l l' -> length l' = ((length l + 1) / 2)%nat.
Proof.
  induction 1 as [|a|a b l l' _ IH]; [reflexivity|reflexivity|]. cbn [length]. rewrite IH.
  replace (S (S (length l)) + 1)%nat with (length l + 1 + 1 * 2)%nat by lia. rewrite Nat.div_add by lia. lia.
Qed.

Lemma half_small n : (2 <= n)%nat -> ((n + 1) / 2 < n)%nat.
Proof. intros H. apply Nat.div_lt_upper_bound; lia. Qed.
Lemma half_pos n : (1 <= n)%nat -> (1 <= (n + 1) / 2)%nat.
Proof. intros H. apply Nat.div_le_lower_bound; lia. Qed.

Lemma pairing_fun l a b : pairing l a -> pairing l b -> a = b.
Proof.
  intros H. revert b. induction H as [|x|x y l l' _ IH]; intros b H'; inversion H'; subst; auto. f_equal. auto.
Qed.

Lemma merkle_root_fun l r r' : merkle_root l r -> merkle_root l r' -> r = r'.
Proof.
  intros H. revert r'. induction H as [a|l l' r L P _ IH]; intros r' H'; inversion H' as [a'|l1 l1' r1 L1 P1 H1]; subst; cbn [length] in *; try lia.
  - reflexivity.
  - apply IH. rewrite (pairing_fun _ _ _ P P1). assumption.
Qed.

Lemma merkle_root_total : forall n l, (length l <= n)%nat -> l <> [] -> exists r, merkle_root l r.
Proof.
  induction n as [|n IH]; intros l L N; [destruct l; cbn in L; [congruence|lia]|].
  destruct l as [|a [|b l]]; [congruence|eexists; constructor|].
  destruct (pairing_total _ (a :: b :: l) (le_n _)) as (l' & P). pose proof (pairing_length _ _ P) as Q.
  assert (2 <= length (a :: b :: l))%nat as B by (cbn [length]; lia). pose proof (half_small _ B). pose proof (half_pos (length (a :: b :: l)) ltac:(lia)).
  destruct (IH l') as (r & R); [lia|intros ->; cbn [length] in *; lia|]. exists r. econstructor; eassumption.
Qed.

(** ** C42 *)

Definition climb_root (acc : bytes) (bs : list bytes) : bytes := fold_left (fun acc b => sha256d (acc ++ hex_ignore b)) bs acc.

Lemma walk_app fuel : forall bs hs, walk_branch fuel bs hs = bs ++ walk_branch fuel [] hs.
Proof.
  induction fuel as [|f IH]; intros bs hs; cbn [walk_branch]; [now rewrite app_nil_r|].
  destruct hs as [|a [|b r]]; [now rewrite app_nil_r|now rewrite app_nil_r|].
  rewrite IH, (IH ([] ++ [b])). cbn [app]. now rewrite <- app_assoc.
Qed.

Lemma walk_root fuel : forall ids ss, (length ids <= fuel)%nat -> ids <> [] -> Forall2 holds ss ids ->
  merkle_root ids (climb_root (hd [] ids) (walk_branch fuel [] ss)).
Proof.
  induction fuel as [|f IH]; intros ids ss L N F; [destruct ids; cbn in L; [congruence|lia]|].
  destruct ids as [|a [|b ids]]; [congruence| |].
  - inversion F as [|s ? ss' ? Hs F']; subst. inversion F'; subst. cbn [walk_branch climb_root fold_left hd]. constructor.
  - destruct (pairing_total _ (a :: b :: ids) (le_n _)) as (l' & P). pose proof (level_holds _ _ P _ F) as FL.
    inversion F as [|s ? ss' ? Hs F']; subst. inversion F' as [|s2 ? ss2 ? Hs2 F'']; subst.
    cbn [walk_branch]. rewrite walk_app. cbn [app]. unfold climb_root. cbn [fold_left hd].
    pose proof (pairing_length _ _ P) as Q. assert (2 <= length (a :: b :: ids))%nat as B by (cbn [length]; lia).
    pose proof (half_small _ B). pose proof (half_pos (length (a :: b :: ids)) ltac:(lia)).
    econstructor; [exact B|exact P|].
    assert (l' <> []) as N' by (intros ->; cbn [length] in *; lia).
    specialize (IH l' (merkle_level (s :: s2 :: ss2)) ltac:(lia) N' FL).
    inversion P as [| |? ? ? l0 P0]; subst. cbn [hd] in IH. unfold holds in *. subst. exact IH.
Qed.

Lemma build_eq c bs : build_merkle_root_from_coinbase c bs = climb_root c bs.
Proof. reflexivity. Qed.

(** ** C43 *)

Lemma level_tail a b l : tl (merkle_level (a :: l)) = tl (merkle_level (b :: l)).
Proof. destruct l; reflexivity. Qed.

Lemma walk_tail fuel : forall acc a b l, length (a :: l) = length (b :: l) -> 
  walk_branch fuel acc (a :: l) = walk_branch fuel acc (b :: l).
Proof.
  induction fuel as [|f IH]; intros acc a b l _; cbn [walk_branch]; [reflexivity|]. destruct l as [|c l]; [reflexivity|].
  cbn [merkle_level]. apply IH. reflexivity.
Qed.

Lemma level_length : forall n l, (length l <= n)%nat -> length (merkle_level l) = ((length l + 1) / 2)%nat.
Proof.
  induction n as [|n IH]; intros [|a [|b l]] L; cbn [length] in L; try lia; try reflexivity.
  cbn [merkle_level length]. rewrite IH by lia.
  replace (S (S (length l)) + 1)%nat with (length l + 1 + 1 * 2)%nat by lia. rewrite Nat.div_add by lia. lia.
Qed.

Lemma log2_up_half n : (2 <= n)%nat -> Nat.log2_up n = S (Nat.log2_up ((n + 1) / 2)).
Proof.
  intros H. apply Nat.log2_up_unique; [lia|]. rewrite Nat.pred_succ.
  pose proof (Nat.div_mod (n + 1) 2 ltac:(lia)) as D. pose proof (Nat.mod_upper_bound (n + 1) 2 ltac:(lia)) as M.
  set (m := ((n + 1) / 2)%nat) in *.
  destruct (Nat.eq_dec m 1) as [E|E].
  - rewrite E in *. change (Nat.log2_up 1) with 0%nat. cbn [Nat.pow]. lia.
  - destruct (Nat.log2_up_spec m) as [A B]; [lia|]. 
    destruct (Nat.log2_up m) as [|k] eqn:K; [cbn [Nat.pow] in B; lia|]. rewrite Nat.pred_succ in A. cbn [Nat.pow] in *. lia.
Qed.

Lemma walk_length fuel : forall hs, (length hs <= fuel)%nat -> length (walk_branch fuel [] hs) = Nat.log2_up (length hs).
Proof.
  induction fuel as [|f IH]; intros hs L; [destruct hs; [reflexivity|cbn in L; lia]|].
  destruct hs as [|a [|b hs]]; [reflexivity|reflexivity|].
  cbn [walk_branch]. rewrite walk_app. cbn [app length].
  pose proof (level_length _ (a :: b :: hs) (le_n _)) as Q. assert (2 <= length (a :: b :: hs))%nat as B by (cbn [length]; lia).
  pose proof (half_small _ B). rewrite IH, Q by (cbn [length] in *; lia). symmetry. now apply log2_up_half.
Qed.

(** ** C44 *)

Lemma path_total : forall n ids i, (length ids <= n)%nat -> (i < length ids)%nat -> exists p, path ids i p.
Proof.
  induction n as [|n IH]; intros ids i L I; [lia|].
  destruct ids as [|a [|b l]]; [cbn in I; lia|cbn in I; assert (i = 0%nat) as -> by lia; eexists; constructor|].
  destruct (pairing_total _ (a :: b :: l) (le_n _)) as (l' & P). pose proof (pairing_length _ _ P) as Q.
  assert (2 <= length (a :: b :: l))%nat as B by (cbn [length]; lia). pose proof (half_small _ B).
  assert (i / 2 < length l')%nat as I2.
  { rewrite Q. apply Nat.div_lt_upper_bound; [lia|]. pose proof (Nat.div_mod (length (a :: b :: l) + 1) 2 ltac:(lia)) as D.
    pose proof (Nat.mod_upper_bound (length (a :: b :: l) + 1) 2 ltac:(lia)). lia. }
  destruct (IH l' (i / 2)%nat ltac:(lia) I2) as (p & H1).
  assert (exists s, sibling (a :: b :: l) i s) as (s & Hs).
  { unfold sibling. destruct (Nat.even i) eqn:E.
    - destruct (nth_error (a :: b :: l) (S i)) as [x|] eqn:X; [now exists x|].
      destruct (nth_error (a :: b :: l) i) as [x|] eqn:Y; [now exists x|]. apply nth_error_None in Y. lia.
    - destruct (nth_error (a :: b :: l) (i - 1)) as [x|] eqn:Y; [now exists x|]. apply nth_error_None in Y. lia. }
  exists (s :: p). econstructor; eassumption.
Qed.

Lemma path_length ids i p : path ids i p -> length p = Nat.log2_up (length ids).
Proof.
  induction 1 as [a|l l' i s p L P _ _ IH]; [reflexivity|]. cbn [length]. rewrite IH, (pairing_length _ _ P). symmetry. now apply log2_up_half.
Qed.

(** node [i] of a level and its sibling hash to node [i/2] of the next *)
Lemma pairing_nth l l' : pairing l l' -> forall i x s, nth_error l i = Some x -> sibling l i s ->
  nth_error l' (i / 2) = Some (dsha (if Nat.odd i then s ++ x else x ++ s)).
Proof.
  induction 1 as [|a|a b l l' P IH]; intros i x s X Hs.
  - now destruct i.
  - destruct i as [|i]; [|now destruct i]. cbn in X. injection X as ->. cbn in Hs. injection Hs as ->. reflexivity.
  - destruct i as [|[|i]].
    + cbn in X, Hs. injection X as ->. subst s. reflexivity.
    + cbn in X, Hs. injection X as ->. injection Hs as ->. reflexivity.
    + replace (S (S i) / 2)%nat with (S (i / 2)).
      2:{ replace (S (S i)) with (i + 1 * 2)%nat by lia. rewrite Nat.div_add by lia. lia. }
      cbn [nth_error]. change (Nat.odd (S (S i))) with (Nat.odd i). apply IH; [exact X|].
      unfold sibling in *. change (Nat.even (S (S i))) with (Nat.even i) in Hs. cbn [nth_error] in Hs.
      destruct (Nat.even i) eqn:E; [exact Hs|].
      destruct i as [|i]; [discriminate|]. cbn [Nat.sub] in *. rewrite Nat.sub_0_r in *. exact Hs.
Qed.

Lemma path_climb ids i p : path ids i p -> forall x, nth_error ids i = Some x ->
  exists ms r, climb x (N.of_nat i) p ms r /\ merkle_root ids r.
Proof.
  induction 1 as [a|l l' i s p L P Hs _ IH]; intros x X.
  - cbn in X. injection X as ->. exists [], x. split; constructor.
  - destruct (IH _ (pairing_nth _ _ P _ _ _ X Hs)) as (ms & r & C & R).
    eexists _, r. split; [|econstructor; eassumption]. econstructor; [reflexivity|].
    replace (N.odd (N.of_nat i)) with (Nat.odd i).
    2:{ clear. apply eq_true_iff_eq. rewrite Nat.odd_spec, N.odd_spec. split; intros (m & E); [exists (N.of_nat m)|exists (N.to_nat m)]; lia. }
    replace (N.of_nat i / 2) with (N.of_nat (i / 2)); [exact C|]. clear. rewrite Nat2N.inj_div. reflexivity.
Qed.

Lemma climb_fun x i bs : forall ms r ms' r', climb x i bs ms r -> climb x i bs ms' r' -> ms = ms' /\ r = r'.
Proof.
  revert x i. induction bs as [|b bs IH]; intros x i ms r ms' r' H H'; inversion H; inversion H'; subst; [auto|].
  match goal with A : climb _ _ bs ms0 r, B : climb _ _ bs _ r' |- _ => destruct (IH _ _ _ _ _ _ A B) end. subst. auto.
Qed.

Lemma climb_total bs : forall x i, exists ms r, climb x i bs ms r.
Proof.
  induction bs as [|b bs IH]; intros x i; [do 2 eexists; constructor|].
  destruct (IH (dsha (if N.odd i then b ++ x else x ++ b)) (i / 2)) as (ms & r & C). do 2 eexists. econstructor; [reflexivity|exact C].
Qed.

Lemma climb_lengths x i bs ms r : climb x i bs ms r -> length ms = length bs.
Proof. induction 1; cbn [length]; congruence. Qed.

Lemma land_odd i : (0 <? Z.land i 1)%Z = Z.odd i.
Proof.
  replace (Z.land i 1) with (i mod 2)%Z by (symmetry; apply (Z.land_ones i 1); lia).
  rewrite Zmod_odd. now destruct (Z.odd i).
Qed.

(** the loop at any [int] index: it sees the index modulo 2^(number of branches) *)
Lemma proof_loop brs bs : Forall2 displays brs bs -> forall x i, exists ms r,
  climb x (Z.to_N (i mod 2 ^ Z.of_nat (length bs))) bs ms r /\
  merkle_proof_loop x i brs = Ok (r, Z.shiftr i (Z.of_nat (length bs))).
Proof.
  induction 1 as [|b id brs bs Hb _ IH]; intros x i.
  - exists [], x. split; [constructor|]. cbn [merkle_proof_loop length]. change (Z.of_nat 0) with 0%Z. now rewrite Z.shiftr_0_r.
  - cbn [merkle_proof_loop]. unfold displays in Hb. apply of_hex_ok in Hb. rewrite Hb. cbn [bind]. cbv zeta.
    rewrite reverse_bytes_rev, rev_involutive, land_odd.
    destruct (IH (if Z.odd i then sha256d (id ++ x) else sha256d (x ++ id)) (Z.shiftr i 1)) as (ms & r & C & E).
    set (k := Z.of_nat (length bs)) in *.
    assert (0 <= k)%Z as K by (unfold k; lia).
    exists ((if Z.odd i then id ++ x else x ++ id) :: ms), r. cbn [length]. rewrite Nat2Z.inj_succ. fold k.
    split.
    + assert (0 < 2 ^ k)%Z as PK by (apply Z.pow_pos_nonneg; lia).
      econstructor.
      2:{ replace (Z.to_N (i mod 2 ^ Z.succ k) / 2) with (Z.to_N (Z.shiftr i 1 mod 2 ^ k)).
          - destruct (Z.odd i); exact C.
          - rewrite Z.shiftr_div_pow2 by lia. change (2 ^ 1)%Z with 2%Z. rewrite Z.pow_succ_r by lia.
            rewrite (Z.rem_mul_r i 2 (2 ^ k)) by lia.
            replace (Z.to_N (i mod 2 + 2 * ((i / 2) mod 2 ^ k)) / 2) with (Z.to_N (i mod 2 + 2 * ((i / 2) mod 2 ^ k)) / Z.to_N 2) by reflexivity. rewrite <- Z2N.inj_div; [|pose proof (Z.mod_pos_bound i 2 ltac:(lia)); pose proof (Z.mod_pos_bound (i / 2) (2 ^ k) PK); lia|lia].
            f_equal. pose proof (Z.mod_pos_bound i 2 ltac:(lia)). rewrite (Z.mul_comm 2 ((i / 2) mod 2 ^ k)), Z.div_add by lia.
            rewrite (Z.div_small (i mod 2)) by lia. lia. }
      replace (N.odd (Z.to_N (i mod 2 ^ Z.succ k))) with (Z.odd i); [reflexivity|].
      rewrite Z.pow_succ_r by lia. rewrite (Z.rem_mul_r i 2 (2 ^ k)) by lia.
      pose proof (Z.mod_pos_bound i 2 ltac:(lia)) as B1. pose proof (Z.mod_pos_bound (i / 2) (2 ^ k) PK) as B2.
      rewrite Zmod_odd in B1 |- *. set (q := ((i / 2) mod 2 ^ k)%Z) in *.
      apply eq_true_iff_eq. rewrite N.odd_spec. destruct (Z.odd i).
      * split; [|reflexivity]. intros _. exists (Z.to_N q). lia.
      * split; [discriminate|]. intros (m & M). lia.
    + rewrite E. f_equal. f_equal. rewrite Z.shiftr_shiftr by lia. f_equal. lia.
Qed.

Lemma F2_len {A B} {R : A -> B -> Prop} {l l'} : Forall2 R l l' -> length l = length l'.
Proof. induction 1; cbn [length]; congruence. Qed.

Lemma loop_ok_hex brs : forall x i out, merkle_proof_loop x i brs = Ok out -> exists bs, Forall2 displays brs bs.
Proof.
  induction brs as [|b brs IH]; intros x i out H; [exists []; constructor|].
  cbn [merkle_proof_loop] in H. destruct (of_hex b) as [h|e|] eqn:E; try discriminate. cbn [bind] in H. cbv zeta in H.
  apply IH in H. destruct H as (bs & F). exists (rev h :: bs). constructor; [|assumption]. unfold displays. rewrite rev_involutive. now apply of_hex_ok.
Qed.

Lemma displays_fun s a b : displays s a -> displays s b -> a = b.
Proof. unfold displays. intros A B. rewrite A in B. injection B as B. rewrite <- (rev_involutive a), B. apply rev_involutive. Qed.

Lemma displays_all_fun ss a b : Forall2 displays ss a -> Forall2 displays ss b -> a = b.
Proof.
  intros H. revert b. induction H as [|s x ss xs H _ IH]; intros b F; inversion F as [|s' y ss' ys Hy F']; subst; [reflexivity|]. f_equal; [now apply (displays_fun s)|auto].
Qed.

Lemma shiftr_pos i k : (0 <= k)%Z -> ((0 <? Z.shiftr i k) = (2 ^ k <=? i))%Z.
Proof.
  intros K. rewrite Z.shiftr_div_pow2 by assumption. assert (0 < 2 ^ k)%Z as P by (apply Z.pow_pos_nonneg; lia).
  apply eq_true_iff_eq. rewrite Z.ltb_lt, Z.leb_le. split; intros H.
  - pose proof (Z.mul_div_le i _ P). nia.
  - apply Z.div_str_pos. lia.
Qed.

Lemma proof_accepts s i brs out : merkle_root_from_branches s i brs = Ok out <->
  exists x bs ms r, displays s x /\ Forall2 displays brs bs /\ (i < 2 ^ Z.of_nat (length brs))%Z /\
    climb x (Z.to_N (i mod 2 ^ Z.of_nat (length brs))) bs ms r /\ out = hex_encode (rev r).
Proof.
  split.
  - intros H. unfold merkle_root_from_branches in H. destruct (of_hex s) as [h|e|] eqn:E; try discriminate. cbn [bind] in H. cbv zeta in H.
    destruct (merkle_proof_loop (reverse_bytes h) i brs) as [o|e|] eqn:L; try discriminate.
    destruct (loop_ok_hex _ _ _ _ L) as (bs & F). destruct (proof_loop _ _ F (reverse_bytes h) i) as (ms & r & C & L').
    rewrite L in L'. injection L' as ->. cbn [bind] in H.
    pose proof (F2_len F) as FL. rewrite <- FL in *. rewrite shiftr_pos in H by lia.
    destruct (2 ^ Z.of_nat (length brs) <=? i)%Z eqn:B; [discriminate|]. injection H as <-.
    exists (rev h), bs, ms, r. rewrite reverse_bytes_rev in *. split; [unfold displays; rewrite rev_involutive; now apply of_hex_ok|].
    split; [assumption|]. split; [lia|]. split; [assumption|reflexivity].
  - intros (x & bs & ms & r & D & F & I & C & ->). unfold merkle_root_from_branches. apply of_hex_ok in D. rewrite D. cbn [bind]. cbv zeta.
    rewrite reverse_bytes_rev, rev_involutive. destruct (proof_loop _ _ F x i) as (ms' & r' & C' & L).
    rewrite L. cbn [bind]. pose proof (F2_len F) as FL. rewrite <- FL in *. rewrite shiftr_pos by lia.
    destruct (climb_fun _ _ _ _ _ _ _ C C') as [_ <-].
    destruct (2 ^ Z.of_nat (length brs) <=? i)%Z eqn:B; [lia|]. now rewrite reverse_bytes_rev.
Qed.

Lemma proof_out_of_range s i brs x bs : displays s x -> Forall2 displays brs bs -> (2 ^ Z.of_nat (length brs) <= i)%Z ->
  merkle_root_from_branches s i brs = Err (EIndexRange (i / 2 ^ Z.of_nat (length brs)) (nlen brs)).
Proof.
  intros D F I. unfold merkle_root_from_branches. apply of_hex_ok in D. rewrite D. cbn [bind]. cbv zeta.
  rewrite reverse_bytes_rev, rev_involutive. destruct (proof_loop _ _ F x i) as (ms' & r' & C' & L).
  rewrite L. cbn [bind]. rewrite <- (F2_len F). rewrite shiftr_pos by lia.
  destruct (2 ^ Z.of_nat (length brs) <=? i)%Z eqn:B; [now rewrite Z.shiftr_div_pow2 by lia|lia].
Qed.

Lemma loop_no_panic brs : forall x i, merkle_proof_loop x i brs <> Panic.
Proof.
  induction brs as [|b brs IH]; intros x i; [discriminate|]. cbn [merkle_proof_loop].
  pose proof (of_hex_no_panic b). destruct (of_hex b); cbn [bind]; [apply IH|discriminate|contradiction].
Qed.

Lemma proof_no_panic s i brs : merkle_root_from_branches s i brs <> Panic.
Proof.
  unfold merkle_root_from_branches. pose proof (of_hex_no_panic s). destruct (of_hex s); cbn [bind]; [|discriminate|contradiction]. cbv zeta.
  pose proof (loop_no_panic brs (reverse_bytes a) i). destruct (merkle_proof_loop _ _ _) as [[? ?]|e|]; cbn [bind]; [|discriminate|contradiction].
  destruct (0 <? z)%Z; discriminate.
Qed.

(** ** C45 *)

Lemma climb_sound bs : forall bs' x x' i ms ms' r, climb x i bs ms r -> climb x' i bs' ms' r ->
  length bs = length bs' -> length x = 32%nat -> length x' = 32%nat ->
  (x = x' /\ bs = bs') \/ exists k m m', nth_error ms k = Some m /\ nth_error ms' k = Some m' /\ dcollision m m'.
Proof.
  induction bs as [|b bs IH]; intros [|b' bs'] x x' i ms ms' r C C' L X X'; cbn [length] in L; try lia.
  - inversion C; inversion C'; subst. auto.
  - inversion C as [|? ? ? ? m ms1 ? M C1]; subst x0 i0 b0 bs0 ms r0. inversion C' as [|? ? ? ? m' ms1' ? M' C1']; subst x0 i0 b0 bs0 ms' r0.
    destruct (IH _ _ _ _ _ _ _ C1 C1') as [[E ->]|(k & n & n' & K)].
    + lia.
    + apply sha256_length.
    + apply sha256_length.
    + destruct (dsha_inj _ _ E) as [E'|Col].
      * left. assert (x = x' /\ b = b') as [-> ->]; [|auto]. subst m m'. destruct (N.odd i).
        -- assert (length b = length b') as LB by (apply (f_equal (@length _)) in E'; rewrite !app_length in E'; lia).
           destruct (cut_uniq _ _ _ _ _ LB eq_refl E'). auto.
        -- destruct (cut_uniq _ _ _ _ _ X X' E'). auto.
      * right. exists 0%nat, m, m'. auto.
    + right. exists (S k), n, n'. exact K.
Qed.

Lemma sibling_zero a b (l : list bytes) s : sibling (a :: b :: l) 0 s <-> s = b.
Proof. reflexivity. Qed.

Lemma walk_path fuel : forall ids ss, (length ids <= fuel)%nat -> ids <> [] -> Forall2 holds ss ids ->
  exists p, path ids 0 p /\ Forall2 holds (walk_branch fuel [] ss) p.
Proof.
  induction fuel as [|f IH]; intros ids ss L N F; [destruct ids; cbn in L; [congruence|lia]|].
  destruct ids as [|a [|b ids]]; [congruence| |].
  - inversion F as [|s ? ss' ? Hs F']; subst. inversion F'; subst. exists []. split; constructor.
  - destruct (pairing_total _ (a :: b :: ids) (le_n _)) as (l' & P). pose proof (level_holds _ _ P _ F) as FL.
    inversion F as [|s ? ss' ? Hs F']; subst. inversion F' as [|s2 ? ss2 ? Hs2 F'']; subst.
    cbn [walk_branch]. rewrite walk_app. cbn [app].
    pose proof (pairing_length _ _ P) as Q. assert (2 <= length (a :: b :: ids))%nat as B by (cbn [length]; lia).
    pose proof (half_small _ B). pose proof (half_pos (length (a :: b :: ids)) ltac:(lia)).
    assert (l' <> []) as N' by (intros ->; cbn [length] in *; lia).
    destruct (IH l' (merkle_level (s :: s2 :: ss2)) ltac:(lia) N' FL) as (p & P1 & F1).
    exists (b :: p). split; [econstructor; [exact B|exact P|reflexivity|exact P1]|]. constructor; [exact Hs2|exact F1].
Qed.

Lemma loop_err brs : forall x x' i i' e, merkle_proof_loop x i brs = Err e -> merkle_proof_loop x' i' brs = Err e.
Proof.
  induction brs as [|b brs IH]; intros x x' i i' e H; [discriminate|]. cbn [merkle_proof_loop] in *.
  destruct (of_hex b); cbn [bind] in *; [|exact H|discriminate]. cbv zeta in *. exact (IH _ _ _ _ _ H).
Qed.

Lemma proof_negative s i brs : (i < 0)%Z ->
  merkle_root_from_branches s i brs = merkle_root_from_branches s (i mod 2 ^ Z.of_nat (length brs)) brs.
Proof.
  intros I. set (k := (2 ^ Z.of_nat (length brs))%Z). assert (0 < k)%Z as K by (apply Z.pow_pos_nonneg; lia).
  destruct (merkle_root_from_branches s i brs) as [out|e|] eqn:E.
  - symmetry. apply proof_accepts in E. apply proof_accepts. destruct E as (x & bs & ms & r & D & F & _ & C & ->).
    exists x, bs, ms, r. fold k in C |- *. rewrite Z.mod_mod by lia. pose proof (Z.mod_pos_bound i k K).
    split; [assumption|]. split; [assumption|]. split; [lia|]. split; [assumption|reflexivity].
  - symmetry. unfold merkle_root_from_branches in E |- *. destruct (of_hex s); cbn [bind] in *; [|assumption|discriminate]. cbv zeta in *.
    destruct (merkle_proof_loop (reverse_bytes a) i brs) as [[h z]|e'|] eqn:L; cbn [bind] in E.
    + destruct (loop_ok_hex _ _ _ _ L) as (bs & F). destruct (proof_loop _ _ F (reverse_bytes a) i) as (ms & r & _ & L').
      rewrite L in L'. injection L' as -> ->. rewrite shiftr_pos in E by lia.
      assert (0 < 2 ^ Z.of_nat (length bs))%Z by (apply Z.pow_pos_nonneg; lia).
      destruct (2 ^ Z.of_nat (length bs) <=? i)%Z eqn:B; [lia|discriminate].
    + rewrite (loop_err _ _ _ _ _ _ L). exact E.
    + exfalso. exact (loop_no_panic _ _ _ L).
  - exfalso. exact (proof_no_panic _ _ _ E).
Qed.
