(** Proofs about what a merkle root determines (C66). *)
From Verif Require Export S_Merkle P_Merkle.
From Coq Require Import ZifyBool ZifyNat ZifyN.

Lemma pairing_app : forall n l1 l1' l2 l2', (length l1 <= n)%nat -> Nat.Even (length l1) -> pairing l1 l1' -> pairing l2 l2' ->
  pairing (l1 ++ l2) (l1' ++ l2').
Proof.
  induction n as [|n IH]; intros l1 l1' l2 l2' L E P Q.
  - destruct l1; cbn [length] in L; [|lia]. inversion P; subst. exact Q.
  - inversion P as [|a|a b l l' P']; subst; cbn [length app] in *.
    + exact Q.
    + destruct E as (x & E). lia.
    + constructor. apply IH; try assumption; try lia. destruct E as (x & E). exists (x - 1)%nat. lia.
Qed.

Lemma paired_app : forall n l1 l2 m, (length l1 <= n)%nat -> Nat.Even (length l1) ->
  (paired (l1 ++ l2) m <-> paired l1 m \/ paired l2 m).
Proof.
  induction n as [|n IH]; intros l1 l2 m L E.
  - destruct l1; cbn [length] in L; [|lia]. cbn [app]. split; [auto|]. intros [H|H]; [inversion H|exact H].
  - destruct l1 as [|a [|b l]]; cbn [length app] in *.
    + split; [auto|]. intros [H|H]; [inversion H|exact H].
    + destruct E as (x & E). lia.
    + assert (Nat.Even (length l)) as E' by (destruct E as (x & E); exists (x - 1)%nat; lia).
      pose proof (IH l l2 m ltac:(lia) E') as I. split.
      * intros H. inversion H as [|? ? ?|? ? ? ? H2]; subst; [left; constructor|]. apply I in H2 as [H2|H2]; [left; now constructor|now right].
      * intros [H|H].
        -- inversion H as [|? ? ?|? ? ? ? H2]; subst; [constructor|]. constructor. apply I. now left.
        -- constructor. apply I. now right.
Qed.

Lemma root_up_iff l l' r : (2 <= length l)%nat -> pairing l l' -> (merkle_root l r <-> merkle_root l' r).
Proof.
  intros L P. split.
  - intros H. inversion H as [a|l1 l1' r1 L1 P1 H1]; subst; [cbn [length] in L; lia|]. now rewrite (pairing_fun _ _ _ P P1).
  - intros H. econstructor; eassumption.
Qed.

Lemma hashed_up_iff l l' m : (2 <= length l)%nat -> pairing l l' -> (hashed_in l m <-> paired l m \/ hashed_in l' m).
Proof.
  intros L P. split.
  - intros H. inversion H as [l1 m1 L1 H1|l1 l1' m1 L1 P1 H1]; subst; [now left|]. right. now rewrite (pairing_fun _ _ _ P P1).
  - intros [H|H]; [now apply hashed_here|]. eapply hashed_up; eassumption.
Qed.

(** ** repeating the tail changes neither the root nor the set of hashed messages *)
Lemma dup k : forall m pre suf, (1 <= m)%nat -> length pre = (2 * m * 2 ^ k)%nat -> length suf = (2 ^ k)%nat ->
  (forall r, merkle_root (pre ++ suf) r <-> merkle_root (pre ++ suf ++ suf) r) /\
  (forall x, hashed_in (pre ++ suf) x <-> hashed_in (pre ++ suf ++ suf) x).
Proof.
  induction k as [|k IH]; intros m pre suf M P S.
  - destruct suf as [|a [|b suf]]; cbn [length] in S; try (change (2 ^ 0)%nat with 1%nat in S; lia). change (2 ^ 0)%nat with 1%nat in P.
    destruct (pairing_total _ pre (le_n _)) as (p & Q). assert (Nat.Even (length pre)) as E by (exists m; lia).
    assert (pairing (pre ++ [a]) (p ++ [dsha (a ++ a)])) as Q1 by (eapply pairing_app; eauto; constructor).
    assert (pairing (pre ++ [a] ++ [a]) (p ++ [dsha (a ++ a)])) as Q2 by (eapply pairing_app; eauto; repeat constructor).
    assert (2 <= length (pre ++ [a]))%nat as L1 by (rewrite app_length; cbn; lia).
    assert (2 <= length (pre ++ [a] ++ [a]))%nat as L2 by (rewrite app_length; cbn; lia).
    split.
    + intros r. now rewrite (root_up_iff _ _ r L1 Q1), (root_up_iff _ _ r L2 Q2).
    + intros x. rewrite (hashed_up_iff _ _ x L1 Q1), (hashed_up_iff _ _ x L2 Q2), !(paired_app _ pre _ x (le_n _) E).
      assert (paired [a] x <-> paired ([a] ++ [a]) x) as ->; [|reflexivity].
      split; intros H; [inversion H; subst; apply paired_here|]. inversion H as [|? ? ?|? ? ? ? H']; subst; [constructor|inversion H'].
  - cbn [Nat.pow] in P, S.
    destruct (pairing_total _ pre (le_n _)) as (p & QP). destruct (pairing_total _ suf (le_n _)) as (s & QS).
    assert (Nat.Even (length pre)) as E by (exists (m * (2 * 2 ^ k))%nat; nia).
    assert (Nat.Even (length suf)) as ES by (exists (2 ^ k)%nat; lia).
    pose proof (pairing_app _ _ _ _ _ (le_n _) E QP QS) as Q1.
    pose proof (pairing_app _ _ _ _ _ (le_n _) E QP (pairing_app _ _ _ _ _ (le_n _) ES QS QS)) as Q2.
    assert (2 ^ k <> 0)%nat as NZ by (apply Nat.pow_nonzero; lia).
    assert (2 <= length (pre ++ suf))%nat as L1 by (rewrite app_length; nia).
    assert (2 <= length (pre ++ suf ++ suf))%nat as L2 by (rewrite !app_length; nia).
    assert (length p = (2 * m * 2 ^ k)%nat) as LP.
    { rewrite (pairing_length _ _ QP), P. replace (2 * m * (2 * 2 ^ k) + 1)%nat with (1 + (2 * m * 2 ^ k) * 2)%nat by lia.
      rewrite Nat.div_add by lia. reflexivity. }
    assert (length s = (2 ^ k)%nat) as LS.
    { rewrite (pairing_length _ _ QS), S. replace (2 * 2 ^ k + 1)%nat with (1 + 2 ^ k * 2)%nat by lia. rewrite Nat.div_add by lia. reflexivity. }
    destruct (IH m p s M LP LS) as (IR & IX). split.
    + intros r. rewrite (root_up_iff _ _ r L1 Q1), (root_up_iff _ _ r L2 Q2). apply IR.
    + intros x. rewrite (hashed_up_iff _ _ x L1 Q1), (hashed_up_iff _ _ x L2 Q2), (IX x), !(paired_app _ pre _ x (le_n _) E), (paired_app _ suf _ x (le_n _) ES).
      tauto.
Qed.

Lemma repeats_split {A} (l l' : list A) : repeats_tail l l' -> exists k m pre suf, (1 <= m)%nat /\ length pre = (2 * m * 2 ^ k)%nat /\
  length suf = (2 ^ k)%nat /\ l = pre ++ suf /\ l' = pre ++ suf ++ suf.
Proof.
  intros (k & m & M & L & ->). exists k, m, (firstn (length l - 2 ^ k) l), (skipn (length l - 2 ^ k) l).
  assert (2 ^ k <= length l)%nat by nia.
  split; [assumption|]. split; [rewrite firstn_length; nia|]. split; [rewrite skipn_length; lia|].
  split; [now rewrite firstn_skipn|]. now rewrite app_assoc, firstn_skipn.
Qed.

Lemma repeats_same l l' : repeats_tail l l' ->
  (forall r, merkle_root l r <-> merkle_root l' r) /\ (forall x, hashed_in l x <-> hashed_in l' x).
Proof. intros H. destruct (repeats_split _ _ H) as (k & m & pre & suf & M & P & S & -> & ->). eapply dup; eassumption. Qed.

Lemma extends_same l l' : extends l l' ->
  (forall r, merkle_root l r <-> merkle_root l' r) /\ (forall x, hashed_in l x <-> hashed_in l' x).
Proof.
  induction 1 as [l|l l1 l2 H _ [IR IX]]; [split; reflexivity|]. destruct (repeats_same _ _ H) as [R X].
  split; [intros r; rewrite (R r); apply IR|intros x; rewrite (X x); apply IX].
Qed.

Lemma repeats_forall {A} (P : A -> Prop) l l' : repeats_tail l l' -> Forall P l -> Forall P l'.
Proof.
  intros H F. destruct (repeats_split _ _ H) as (k & m & pre & suf & _ & _ & _ & -> & ->). apply Forall_app in F as [F1 F2].
  rewrite !Forall_app. auto.
Qed.
Lemma extends_forall {A} (P : A -> Prop) l l' : extends l l' -> Forall P l -> Forall P l'.
Proof. induction 1 as [l|l l1 l2 H _ IH]; [auto|]. intros F. apply IH. eapply repeats_forall; eassumption. Qed.

Lemma odd_part : forall n, (1 <= n)%nat -> exists q k, n = ((2 * q + 1) * 2 ^ k)%nat.
Proof.
  intros n. induction n as [n IH] using lt_wf_ind. intros B. destruct (Nat.Even_or_Odd n) as [(x & E)|(x & E)].
  - destruct (IH x ltac:(lia) ltac:(lia)) as (q & k & K). exists q, (S k). cbn [Nat.pow]. lia.
  - exists x, 0%nat. cbn. lia.
Qed.

(** every list extends to one of the next power of two *)
Lemma extends_full {A} : forall d (l : list A) n, (2 ^ d - length l <= n)%nat -> l <> [] -> d = Nat.log2_up (length l) ->
  exists l', extends l l' /\ length l' = (2 ^ d)%nat.
Proof.
  intros d l n. revert l. induction n as [|n IH]; intros l N NE D.
  - exists l. split; [constructor|].
    assert (length l <= 2 ^ d)%nat; [|lia].
    destruct (Nat.eq_dec (length l) 1) as [E|E]; [rewrite E; pose proof (Nat.pow_nonzero 2 d); lia|].
    destruct l; [congruence|]. cbn [length] in *. subst d. apply Nat.log2_up_spec. lia.
  - assert (1 <= length l)%nat as B by (destruct l; [congruence|cbn; lia]).
    destruct (odd_part _ B) as (q & k & Q). destruct (Nat.eq_dec q 0) as [->|Q0].
    + exists l. split; [constructor|]. cbn in Q. rewrite Nat.add_0_r in Q. rewrite Q in D. rewrite Nat.log2_up_pow2 in D by lia. subst. assumption.
    + assert (repeats_tail l (l ++ skipn (length l - 2 ^ k) l)) as R by (exists k, q; split; [lia|split; [assumption|reflexivity]]).
      assert (2 ^ k <> 0)%nat as NZ by (apply Nat.pow_nonzero; lia).
      assert (length (l ++ skipn (length l - 2 ^ k) l) = (length l + 2 ^ k)%nat) as LL by (rewrite app_length, skipn_length; nia).
      assert (2 ^ Nat.pred d < length l <= 2 ^ d)%nat as S by (subst d; apply Nat.log2_up_spec; nia).
      assert (k < d)%nat as KD by (apply (Nat.pow_lt_mono_r_iff 2); nia).
      assert (length l + 2 ^ k <= 2 ^ d)%nat as BB.
      { assert (2 ^ d = 2 ^ (d - k) * 2 ^ k)%nat as X by (rewrite <- Nat.pow_add_r; f_equal; lia).
        assert (2 * q + 1 <= 2 ^ (d - k))%nat as Y by nia.
        assert (2 ^ (d - k) = 2 * 2 ^ (d - k - 1))%nat as Z by (rewrite <- Nat.pow_succ_r'; f_equal; lia).
        assert (2 * q + 2 <= 2 ^ (d - k))%nat as W by lia. rewrite X, Q. apply (Nat.mul_le_mono_r _ _ (2 ^ k)) in W. lia. }
      destruct (IH (l ++ skipn (length l - 2 ^ k) l)) as (l' & X & L').
      * lia.
      * destruct l; [congruence|discriminate].
      * rewrite LL. symmetry. apply Nat.log2_up_unique; lia.
      * exists l'. split; [econstructor; eassumption|assumption].
Qed.

(** ** the root determines a list of known length *)
Lemma pairing_inj l : forall l' x, pairing l x -> pairing l' x -> length l = length l' ->
  Forall (fun id => length id = 32%nat) l -> Forall (fun id => length id = 32%nat) l' ->
  l = l' \/ exists m m', paired l m /\ paired l' m' /\ dcollision m m'.
Proof.
  assert (forall n l l' x, (length l <= n)%nat -> pairing l x -> pairing l' x -> length l = length l' ->
    Forall (fun id => length id = 32%nat) l -> Forall (fun id => length id = 32%nat) l' ->
    l = l' \/ exists m m', paired l m /\ paired l' m' /\ dcollision m m') as X; [|intros l' x; eapply X, le_n].
  clear l. induction n as [|n IH]; intros l l' x B P P' L F F'.
  - destruct l, l'; cbn [length] in *; try lia. auto.
  - inversion P as [E|a E|a b t t' Q E]; subst.
    + destruct l'; [auto|discriminate].
    + destruct l' as [|a' [|b' l']]; cbn [length] in L; try lia. inversion P' as [|? E1 E2|]. subst.
      destruct (dsha_inj _ _ E2) as [E|C].
      * left. f_equal. inversion F'; subst. inversion F; subst. symmetry. match goal with A : length a' = _, B : length a = _ |- _ => destruct (cut_uniq _ _ _ _ _ A B E) end. congruence.
      * right. exists (a ++ a), (a' ++ a'). split; [constructor|]. split; [constructor|].
        unfold dcollision, collision in *. destruct C as [[C1 C2]|[C1 C2]]; [left|right]; split; congruence.
    + destruct l' as [|a' [|b' l']]; cbn [length] in L; try lia. cbn [length] in B. inversion P' as [| |? ? ? ? Q' E1 E2]; subst.
      inversion F as [|? ? A1 F1]; subst. inversion F1 as [|? ? A2 F2]; subst. inversion F' as [|? ? A1' F1']; subst. inversion F1' as [|? ? A2' F2']; subst.
      destruct (dsha_inj _ _ E2) as [E|C].
      * destruct (IH t l' t' ltac:(lia) Q Q' ltac:(lia) F2 F2') as [->|(m & m' & H1 & H2 & H3)].
        -- left. destruct (cut_uniq _ _ _ _ _ A1' A1 E) as [-> ->]. reflexivity.
        -- right. exists m, m'. split; [now constructor|]. split; [now constructor|assumption].
      * right. exists (a ++ b), (a' ++ b'). split; [constructor|]. split; [constructor|].
        unfold dcollision, collision in *. destruct C as [[C1 C2]|[C1 C2]]; [left|right]; split; congruence.
Qed.

Lemma pairing_32 l l' : pairing l l' -> Forall (fun id => length id = 32%nat) l'.
Proof. induction 1; constructor; try assumption; try constructor; apply sha256_length. Qed.

Lemma root_inj : forall n l l' r, (length l <= n)%nat -> merkle_root l r -> merkle_root l' r -> length l = length l' ->
  Forall (fun id => length id = 32%nat) l -> Forall (fun id => length id = 32%nat) l' ->
  l = l' \/ exists m m', hashed_in l m /\ hashed_in l' m' /\ dcollision m m'.
Proof.
  induction n as [|n IH]; intros l l' r B R R' L F F'.
  - destruct l, l'; cbn [length] in *; try lia. auto.
  - inversion R as [a|l1 l2 r1 L1 P1 R1]; subst.
    + inversion R' as [a'|? ? ? L1]; subst; [auto|cbn [length] in *; lia].
    + inversion R' as [a'|l1' l2' r1' L1' P1' R1']; subst; [cbn [length] in *; lia|].
      pose proof (pairing_length _ _ P1) as Q. pose proof (pairing_length _ _ P1') as Q'. pose proof (half_small _ L1).
      destruct (IH l2 l2' r) as [->|(m & m' & H1 & H2 & H3)]; try assumption; try congruence; try lia.
      * eapply pairing_32, P1.
      * eapply pairing_32, P1'.
      * destruct (pairing_inj _ _ _ P1 P1' L F F') as [->|(m & m' & H1 & H2 & H3)]; [auto|].
        right. exists m, m'. split; [now apply hashed_here|]. split; [now apply hashed_here|assumption].
      * right. exists m, m'. split; [eapply hashed_up; eassumption|]. split; [eapply hashed_up; eassumption|assumption].
Qed.

Lemma root_determines l l' r : merkle_root l r -> merkle_root l' r -> Nat.log2_up (length l) = Nat.log2_up (length l') ->
  Forall (fun id => length id = 32%nat) l -> Forall (fun id => length id = 32%nat) l' ->
  (exists x, extends l x /\ extends l' x) \/ exists m m', hashed_in l m /\ hashed_in l' m' /\ dcollision m m'.
Proof.
  intros R R' D F F'.
  assert (l <> []) as NE by (intros ->; inversion R as [|? ? ? L]; subst; cbn in L; lia).
  assert (l' <> []) as NE' by (intros ->; inversion R' as [|? ? ? L]; subst; cbn in L; lia).
  destruct (extends_full _ l _ (le_n _) NE eq_refl) as (x & X & LX). destruct (extends_full _ l' _ (le_n _) NE' eq_refl) as (y & Y & LY).
  destruct (extends_same _ _ X) as [RX HX]. destruct (extends_same _ _ Y) as [RY HY].
  destruct (root_inj _ x y r (le_n _)) as [->|(m & m' & H1 & H2 & H3)].
  - now apply RX.
  - now apply RY.
  - congruence.
  - eapply extends_forall; eassumption.
  - eapply extends_forall; eassumption.
  - left. eauto.
  - right. exists m, m'. split; [now apply HX|]. split; [now apply HY|assumption].
Qed.

Lemma level_root k l l' r : level k l l' -> merkle_root l r -> merkle_root l' r.
Proof. induction 1 as [|k l l1 l2 L P _ IH]; [auto|]. intros H. apply IH. now apply (root_up_iff _ _ _ L P). Qed.

Lemma repeats_map {A B} (R : A -> B -> Prop) ss l l' : Forall2 R ss l -> repeats_tail l l' ->
  exists ss', repeats_tail ss ss' /\ Forall2 R ss' l'.
Proof.
  intros F (k & m & M & L & ->). pose proof (F2_len F) as Q. exists (ss ++ skipn (length ss - 2 ^ k) ss).
  split; [exists k, m; split; [assumption|]; split; [congruence|reflexivity]|].
  apply Forall2_app; [assumption|]. rewrite Q. clear -F. revert F. generalize (length l - 2 ^ k)%nat as n. intros n F. revert n.
  induction F; intros [|n]; cbn [skipn]; auto.
Qed.
