(** C86: what becomes of ciphertexts that are cut, changed, or made with the same
    initial bytes. *)
From Verif Require Import P_Encryption T_Encryption.
From Coq Require Import Lia ZifyBool ZifyNat ZifyN.

Definition cipher16 (E : bytes -> bytes) : Prop := forall b, length b = 16%nat -> length (E b) = 16%nat.

(** ** CFB, position by position *)
Definition key_at (E : bytes -> bytes) (full : bytes) (i : nat) : N :=
  b2n (nth (i mod 16) (E (firstn 16 (skipn (16 * (i / 16)) full))) x00).

Lemma xored_at a b c : xored a b c -> forall i x, nth_error a i = Some x ->
  exists y, nth_error c i = Some y /\ b2n y = N.lxor (b2n x) (b2n (nth i b x00)).
Proof.
  induction 1 as [|x y z a b c Z _ IH]; intros i u U; [now destruct i|].
  destruct i as [|i]; cbn [nth_error nth] in *; [|now apply IH].
  injection U as ->. eauto.
Qed.

Lemma nth_firstn_lt {A} (l : list A) n i d : (i < n)%nat -> nth i (firstn n l) d = nth i l d.
Proof. revert l i. induction n as [|n IH]; intros l i L; [lia|]. destruct l as [|x l]; [now destruct i|]. destruct i as [|i]; [reflexivity|]. cbn. apply IH. lia. Qed.

Lemma cfb_at E prev p c : cipher16 E -> cfb E prev p c -> length prev = 16%nat -> forall i x, nth_error p i = Some x ->
  exists y, nth_error c i = Some y /\ b2n y = N.lxor (b2n x) (key_at E (prev ++ c) i).
Proof.
  intros HE H. induction H as [prev|prev p c L X|prev p c ps cs L X H IH]; intros P i x Hx.
  - now destruct i.
  - assert (i < length p)%nat as I by (apply nth_error_Some; congruence).
    destruct (xored_at _ _ _ X _ _ Hx) as (y & Y & B). exists y. split; [assumption|]. rewrite B. unfold key_at.
    rewrite (Nat.div_small i 16), (Nat.mod_small i 16) by lia. rewrite Nat.mul_0_r, skipn_O.
    rewrite (firstn_app 16 prev), P, Nat.sub_diag, (firstn_all2 (n:=16) prev), app_nil_r by lia. f_equal. f_equal. apply nth_firstn_lt. exact I.
  - pose proof (xored_len _ _ _ X) as [_ LC].
    destruct (Nat.lt_ge_cases i 16) as [I|I].
    + rewrite nth_error_app1 in Hx by lia. destruct (xored_at _ _ _ X _ _ Hx) as (y & Y & B). exists y. split; [rewrite nth_error_app1 by lia; assumption|].
      rewrite B. unfold key_at. rewrite (Nat.div_small i 16), (Nat.mod_small i 16) by lia. rewrite Nat.mul_0_r, skipn_O.
      rewrite (firstn_app 16 prev), P, Nat.sub_diag, (firstn_all2 (n:=16) prev), app_nil_r by lia. reflexivity.
    + rewrite nth_error_app2 in Hx by lia. rewrite L in Hx. destruct (IH ltac:(lia) _ _ Hx) as (y & Y & B).
      exists y. split; [rewrite nth_error_app2 by lia; replace (i - length c)%nat with (i - 16)%nat by lia; assumption|]. rewrite B. unfold key_at.
      assert (i = (i - 16) + 1 * 16)%nat as Ei by lia. set (j := (i - 16)%nat) in *. rewrite Ei, Nat.div_add, Nat.mod_add by lia.
      f_equal. f_equal. f_equal. f_equal. f_equal. replace (16 * (j / 16 + 1))%nat with (16 + 16 * (j / 16))%nat by lia.
      rewrite (skipn_app (16 + 16 * (j / 16)) prev), (skipn_all2 prev), P by lia. cbn [app]. f_equal. lia.
Qed.

Lemma cfb_at_c E prev p c : cipher16 E -> cfb E prev p c -> length prev = 16%nat -> forall i y, nth_error c i = Some y ->
  exists x, nth_error p i = Some x /\ b2n x = N.lxor (b2n y) (key_at E (prev ++ c) i).
Proof.
  intros HE H P i y Y. pose proof (cfb_len E HE _ _ _ H) as L.
  destruct (nth_error p i) as [x|] eqn:X.
  - destruct (cfb_at E prev p c HE H P i x X) as (y' & Y' & B). assert (y' = y) as -> by congruence. exists x. split; [reflexivity|].
    rewrite B, N.lxor_assoc, N.lxor_nilpotent, N.lxor_0_r. reflexivity.
  - apply nth_error_None in X. assert (i < length c)%nat by (apply nth_error_Some; congruence). lia.
Qed.

Lemma key_same E f f' i : (forall l, (16 * (i / 16) <= l < 16 * (i / 16) + 16)%nat -> nth_error f l = nth_error f' l) -> key_at E f i = key_at E f' i.
Proof.
  intros H. unfold key_at. do 3 f_equal.
  assert (forall (a b : bytes) n, (forall l, (l < n)%nat -> nth_error a l = nth_error b l) -> firstn n a = firstn n b) as G.
  { intros a b n. revert a b. induction n as [|n IH]; intros a b F; [reflexivity|].
    pose proof (F 0%nat ltac:(lia)) as F0. destruct a as [|x a], b as [|y b]; try discriminate F0; [reflexivity|]. injection F0 as ->. cbn. f_equal. apply IH.
    intros l Ll. apply (F (S l)). lia. }
  apply G. intros l Ll. assert (forall (f : bytes) n l, nth_error (skipn n f) l = nth_error f (n + l)) as S.
  { clear. intros f n. revert f. induction n as [|n IH]; intros f l; [reflexivity|]. destruct f; [now destruct l|]. cbn. apply IH. }
  rewrite !S. apply H. lia.
Qed.

Lemma nth_error_skipn' {A} (f : list A) n l : nth_error (skipn n f) l = nth_error f (n + l).
Proof. revert f. induction n as [|n IH]; intros f; [reflexivity|]. destruct f; [now destruct l|]. cbn. apply IH. Qed.
Lemma nth_error_firstn' {A} (f : list A) n l : (l < n)%nat -> nth_error (firstn n f) l = nth_error f l.
Proof. revert f l. induction n as [|n IH]; intros f l L; [lia|]. destruct f; [now destruct l|]. destruct l; [reflexivity|]. cbn. apply IH. lia. Qed.
Lemma nth_error_ext' {A} (a b : list A) : (forall i, nth_error a i = nth_error b i) -> a = b.
Proof.
  revert b. induction a as [|x a IH]; intros b H; [specialize (H 0%nat); now destruct b|].
  destruct b as [|y b]; [specialize (H 0%nat); discriminate|]. pose proof (H 0%nat) as H0. injection H0 as ->. f_equal. apply IH. intros i. exact (H (S i)).
Qed.

(** Decrypt, in terms of CFB *)
Lemma decrypt_parts E c : cipher16 E -> (16 <= length c)%nat -> exists p, cfb E (firstn 16 c) p (skipn 16 c) /\
  decrypt (mk_block 16 E) c = (b64_decode p, firstn 16 c ++ p).
Proof.
  intros HE L. exists (cfb_decrypt (length (skipn 16 c)) E 16 (firstn 16 c) (skipn 16 c)). split.
  - apply (decrypt_cfb E HE); [lia|rewrite firstn_length; lia].
  - unfold decrypt. replace (Nat.ltb (length c) 16) with false by lia. reflexivity.
Qed.

(** ** Windows of a ciphertext are ciphertexts *)

Lemma b64_skip k : forall s, skipn (4 * k) (b64_encode s) = b64_encode (skipn (3 * k) s).
Proof.
  induction k as [|k IH]; intros s; [reflexivity|].
  replace (4 * S k)%nat with (S (S (S (S (4 * k))))) by lia. replace (3 * S k)%nat with (S (S (S (3 * k)))) by lia.
  destruct s as [|x [|y [|z s]]].
  - reflexivity.
  - cbn [b64_encode skipn]. now rewrite !skipn_nil.
  - cbn [b64_encode skipn]. now rewrite !skipn_nil.
  - cbn [b64_encode skipn]. apply IH.
Qed.
Lemma b64_first k : forall s, firstn (4 * k) (b64_encode s) = b64_encode (firstn (3 * k) s).
Proof.
  induction k as [|k IH]; intros s; [reflexivity|].
  replace (4 * S k)%nat with (S (S (S (S (4 * k))))) by lia. replace (3 * S k)%nat with (S (S (S (3 * k)))) by lia.
  destruct s as [|x [|y [|z s]]].
  - reflexivity.
  - cbn [b64_encode firstn]. now rewrite !firstn_nil.
  - cbn [b64_encode firstn]. now rewrite !firstn_nil.
  - cbn [b64_encode firstn]. do 4 f_equal. apply IH.
Qed.

(** what Decrypt computes from a window is the window of what it computes *)
Lemma window_plain E c p a m w q : cipher16 E -> (16 <= length c)%nat -> cfb E (firstn 16 c) p (skipn 16 c) ->
  w = firstn (16 + m) (skipn (16 * a) c) -> (16 * a + 16 + m <= length c)%nat -> cfb E (firstn 16 w) q (skipn 16 w) ->
  q = firstn m (skipn (16 * a) p).
Proof.
  intros HE L C -> M D.
  assert (length (firstn (16 + m) (skipn (16 * a) c)) = (16 + m)%nat) as LW by (rewrite firstn_length, skipn_length; lia).
  set (w := firstn (16 + m) (skipn (16 * a) c)) in *.
  assert (length (firstn 16 c) = 16%nat) as L1 by (rewrite firstn_length; lia).
  assert (length (firstn 16 w) = 16%nat) as L2 by (rewrite firstn_length; lia).
  pose proof (cfb_len E HE _ _ _ D) as LD. rewrite skipn_length, LW in LD.
  pose proof (cfb_len E HE _ _ _ C) as LC. rewrite skipn_length in LC.
  apply nth_error_ext'. intros i. destruct (Nat.lt_ge_cases i m) as [I|I].
  2:{ rewrite (proj2 (nth_error_None q i)) by lia. symmetry. apply nth_error_None. rewrite firstn_length. lia. }
  rewrite nth_error_firstn', nth_error_skipn' by lia.
  destruct (nth_error q i) as [x|] eqn:X; [|apply nth_error_None in X; lia].
  destruct (nth_error p (16 * a + i)) as [x'|] eqn:X'; [|apply nth_error_None in X'; lia].
  destruct (cfb_at E _ _ _ HE D L2 _ _ X) as (y & Y & B). destruct (cfb_at E _ _ _ HE C L1 _ _ X') as (y' & Y' & B').
  rewrite nth_error_skipn' in Y, Y'. unfold w in Y. rewrite nth_error_firstn', nth_error_skipn' in Y by lia.
  assert (y = y') as <- by (replace (16 * a + (16 + i))%nat with (16 + (16 * a + i))%nat in Y by lia; congruence).
  rewrite !firstn_skipn in B, B'.
  assert (key_at E w i = key_at E c (16 * a + i)) as K.
  { unfold key_at. replace (16 * a + i)%nat with (i + a * 16)%nat by lia. rewrite Nat.div_add, Nat.mod_add by lia. do 3 f_equal.
    apply nth_error_ext'. intros l. destruct (Nat.lt_ge_cases l 16) as [Ll|Ll].
    - rewrite !nth_error_firstn', !nth_error_skipn' by lia. unfold w. rewrite nth_error_firstn', nth_error_skipn'.
      + f_equal. lia.
      + pose proof (Nat.div_mod i 16 ltac:(lia)). lia.
    - rewrite !(proj2 (nth_error_None _ _)); [reflexivity|rewrite firstn_length; lia..]. }
  rewrite K in B. rewrite B in B'. f_equal. apply b2n_inj.
  apply (f_equal (fun z => N.lxor z (key_at E c (16 * a + i)))) in B'. rewrite !N.lxor_assoc, !N.lxor_nilpotent, !N.lxor_0_r in B'. exact B'.
Qed.

Lemma encrypt_plain E iv text c : cipher16 E -> length iv = 16%nat -> encrypt (mk_block 16 E) (Ok iv) text = Ok c ->
  (16 <= length c)%nat /\ firstn 16 c = iv /\ cfb E (firstn 16 c) (b64_encode text) (skipn 16 c) /\ length c = (16 + length (b64_encode text))%nat.
Proof.
  intros HE L H. destruct (C52_encrypt E iv text HE L) as (b & body & H' & B & C & LL). assert (c = iv ++ body) as -> by congruence.
  apply text_iff in B. subst b. pose proof (cfb_len E HE _ _ _ C) as LB.
  assert (firstn 16 (iv ++ body) = iv) as -> by (rewrite firstn_app, L, Nat.sub_diag, firstn_all2 by lia; apply app_nil_r).
  assert (skipn 16 (iv ++ body) = body) as -> by (rewrite skipn_app, L, Nat.sub_diag, skipn_all2 by lia; reflexivity).
  split; [rewrite app_length; lia|]. split; [reflexivity|]. split; [assumption|]. rewrite app_length. lia.
Qed.

(** Any 16 + 4k consecutive bytes of a ciphertext, starting at a multiple of 16, are
    themselves accepted: the text is the corresponding part of the text. *)
Theorem C86_window : forall E iv text c a k, cipher16 E -> length iv = 16%nat -> encrypt (mk_block 16 E) (Ok iv) text = Ok c ->
  (16 * a + 16 + 4 * k <= length c)%nat ->
  fst (decrypt (mk_block 16 E) (firstn (16 + 4 * k) (skipn (16 * a) c))) = Ok (firstn (3 * k) (skipn (12 * a) text)).
Proof.
  intros E iv text c a k HE L H M. destruct (encrypt_plain E iv text c HE L H) as (LC & _ & C & _).
  destruct (decrypt_parts E (firstn (16 + 4 * k) (skipn (16 * a) c)) HE) as (q & Q & ->); [rewrite firstn_length, skipn_length; lia|].
  rewrite (window_plain E c (b64_encode text) a (4 * k) _ q HE LC C eq_refl M Q). cbn [fst].
  replace (16 * a)%nat with (4 * (4 * a))%nat by lia. rewrite b64_skip, b64_first. replace (3 * (4 * a))%nat with (12 * a)%nat by lia. apply b64_round.
Qed.
Print Assumptions C86_window.

(** Cut anywhere else, it is refused. *)
Lemma loose_mod4 t s : b64_loose t s -> (length t mod 4 = 0)%nat.
Proof.
  induction 1 as [| | |a b c p q r u cp cq cr cu t s _ _ _ _ _ _ IH]; try reflexivity. cbn [length].
  replace (S (S (S (S (length t))))) with (length t + 1 * 4)%nat by lia. rewrite Nat.mod_add by lia. exact IH.
Qed.

Theorem C86_cut_elsewhere : forall E iv text c n, cipher16 E -> length iv = 16%nat -> encrypt (mk_block 16 E) (Ok iv) text = Ok c ->
  (16 <= n <= length c)%nat -> (n mod 4 <> 0)%nat -> fst (decrypt (mk_block 16 E) (firstn n c)) = Err EBase64.
Proof.
  intros E iv text c n HE L H M M4. destruct (encrypt_plain E iv text c HE L H) as (LC & _ & C & _).
  destruct (decrypt_parts E (firstn n c) HE) as (q & Q & ->); [rewrite firstn_length; lia|].
  assert (q = firstn (n - 16) (b64_encode text)) as ->.
  { change (b64_encode text) with (skipn (16 * 0) (b64_encode text)).
    apply (window_plain E c (b64_encode text) 0 (n - 16) (firstn n c) q HE LC C); [cbn [Nat.mul skipn]; f_equal; lia|lia|exact Q]. }
  pose proof (cfb_len E HE _ _ _ Q) as LQ. rewrite skipn_length, !firstn_length in LQ. cbn [fst].
  destruct (b64_decode _) as [t|e|] eqn:D.
  - exfalso. apply b64_decode_iff in D. apply loose_mod4 in D. apply M4.
    assert (no_newlines (firstn (n - 16) (b64_encode text)) = firstn (n - 16) (b64_encode text)) as N.
    { pose proof (text_no_nl _ _ (encode_text text)) as N. unfold no_newlines in *. apply filter_all. intros x X.
      assert (In x (b64_encode text)) as I by (rewrite <- (firstn_skipn (n - 16)); apply in_or_app; now left).
      rewrite <- N in I. apply filter_In in I. apply I. }
    rewrite N, (firstn_length (n - 16) (b64_encode text)) in D. rewrite LQ in D. replace n with (n - 16 + 4 * 4)%nat by lia. rewrite Nat.mod_add by lia.
    replace (n - 16)%nat with (Nat.min n (length c) - 16)%nat by lia. exact D.
  - f_equal. unfold b64_decode in D. clear -D. revert D. generalize (firstn (n - 16) (b64_encode text)) as s. intros s.
    assert (forall s q e, b64_decode_from q s = Err e -> e = EBase64) as G; [|apply G].
    clear. induction s as [|x s IH]; intros q e; cbn [b64_decode_from].
    + destruct q; congruence.
    + destruct (b64_val x).
      * destruct q as [|? [|? [|? [|? ?]]]]; try apply IH. destruct (b64_decode_from [] s) eqn:D; cbn [bind]; try discriminate. intros [= <-]. now apply (IH []).
      * destruct (is_nl x); [apply IH|]. destruct (byte_eqb x x3d); [|congruence].
        destruct q as [|? [|? [|? [|? ?]]]]; try congruence.
        -- destruct (filter _ s) as [|? [|? ?]]; try congruence. destruct (byte_eqb _ _); congruence.
        -- destruct (filter _ s) as [|? ?]; congruence.
  - now apply b64_decode_no_panic in D.
Qed.
Print Assumptions C86_cut_elsewhere.

(** ** Changed ciphertexts *)

(** What Decrypt leaves in the slice at a position depends on the byte there and on the
    block before: where two ciphertexts (of any lengths) agree on that block, the two
    texts differ exactly as the ciphertexts do. *)
Theorem C86_local : forall E c c' i x x' y y', cipher16 E -> (16 <= length c)%nat -> (16 <= length c')%nat ->
  nth_error c i = Some y -> nth_error c' i = Some y' ->
  nth_error (snd (decrypt (mk_block 16 E) c)) i = Some x -> nth_error (snd (decrypt (mk_block 16 E) c')) i = Some x' ->
  (forall l, (l / 16 + 1 = i / 16)%nat -> nth_error c l = nth_error c' l) ->
  N.lxor (b2n x) (b2n x') = N.lxor (b2n y) (b2n y').
Proof.
  intros E c c' i x x' y y' HE L L' Y Y' X X' S.
  destruct (decrypt_parts E c HE L) as (p & P & D). destruct (decrypt_parts E c' HE L') as (p' & P' & D').
  rewrite D in X. rewrite D' in X'. cbn [snd] in X, X'.
  assert (length (firstn 16 c) = 16%nat) as L1 by (rewrite firstn_length; lia).
  assert (length (firstn 16 c') = 16%nat) as L2 by (rewrite firstn_length; lia).
  destruct (Nat.lt_ge_cases i 16) as [I|I].
  - rewrite nth_error_app1 in X, X' by lia. rewrite nth_error_firstn' in X, X' by lia. congruence.
  - rewrite nth_error_app2 in X, X' by lia. rewrite L1 in X. rewrite L2 in X'.
    destruct (cfb_at E _ _ _ HE P L1 _ _ X) as (z & Z & B). destruct (cfb_at E _ _ _ HE P' L2 _ _ X') as (z' & Z' & B').
    rewrite nth_error_skipn' in Z, Z'. replace (16 + (i - 16))%nat with i in Z, Z' by lia.
    assert (z = y) as -> by congruence. assert (z' = y') as -> by congruence. rewrite !firstn_skipn in B, B'.
    rewrite (key_same E c c') in B.
    + rewrite B, B'. set (k := key_at E c' (i - 16)). rewrite (N.lxor_comm (b2n x') k), N.lxor_assoc, <- (N.lxor_assoc k k), N.lxor_nilpotent, N.lxor_0_l. reflexivity.
    + intros l Ll. apply S. assert (i = (i - 16) + 1 * 16)%nat as E1 by lia. set (j := (i - 16)%nat) in *. rewrite E1, Nat.div_add by lia.
      f_equal. symmetry. apply (Nat.div_unique l 16 (j / 16) (l - 16 * (j / 16))); lia.
Qed.
Print Assumptions C86_local.

(** So one changed byte changes the same byte of the base64 text, in the chosen bits,
    and nothing else but the next block. *)
Theorem C86_one_byte : forall E pre y z post i, cipher16 E -> (16 <= length (pre ++ y :: post))%nat -> (i / 16 <> length pre / 16 + 1)%nat ->
  let p := snd (decrypt (mk_block 16 E) (pre ++ y :: post)) in
  let p' := snd (decrypt (mk_block 16 E) (pre ++ z :: post)) in
  (i <> length pre -> nth_error p' i = nth_error p i) /\
  (i = length pre -> exists x x', nth_error p i = Some x /\ nth_error p' i = Some x' /\ b2n x' = N.lxor (b2n x) (N.lxor (b2n y) (b2n z))).
Proof.
  intros E pre y z post i HE L N p p'.
  assert (16 <= length (pre ++ z :: post))%nat as L' by (rewrite app_length in *; cbn [length] in *; lia).
  assert (forall c, (16 <= length c)%nat -> length (snd (decrypt (mk_block 16 E) c)) = length c) as LP.
  { intros c Lc. destruct (decrypt_parts E c HE Lc) as (q & Q & ->). cbn [snd]. apply (cfb_len E HE) in Q. rewrite skipn_length in Q.
    rewrite app_length, firstn_length. lia. }
  assert (length p = length (pre ++ y :: post)) as L1 by (now apply LP). assert (length p' = length (pre ++ y :: post)) as L2.
  { unfold p'. rewrite LP by assumption. rewrite !app_length. reflexivity. }
  assert (forall l, l <> length pre -> nth_error (pre ++ y :: post) l = nth_error (pre ++ z :: post) l) as S.
  { intros l Ll. destruct (Nat.lt_ge_cases l (length pre)) as [I|I]; [now rewrite !nth_error_app1 by lia|]. rewrite !nth_error_app2 by lia.
    destruct (l - length pre)%nat eqn:D; [lia|reflexivity]. }
  assert (forall l, (l / 16 + 1 = i / 16)%nat -> nth_error (pre ++ y :: post) l = nth_error (pre ++ z :: post) l) as S'.
  { intros l Ll. apply S. intros ->. lia. }
  split.
  - intros Ni. destruct (Nat.lt_ge_cases i (length p)) as [I|I].
    2:{ rewrite !(proj2 (nth_error_None _ _)) by lia. reflexivity. }
    destruct (nth_error p i) as [x|] eqn:X; [|apply nth_error_None in X; lia].
    destruct (nth_error p' i) as [x'|] eqn:X'; [|apply nth_error_None in X'; lia].
    destruct (nth_error (pre ++ y :: post) i) as [u|] eqn:U; [|apply nth_error_None in U; lia].
    assert (nth_error (pre ++ z :: post) i = Some u) as U' by (rewrite <- S; assumption).
    pose proof (C86_local E _ _ i x x' u u HE L L' U U' X X' S') as Q. rewrite N.lxor_nilpotent in Q. apply N.lxor_eq in Q. apply b2n_inj in Q. now subst.
  - intros ->. destruct (nth_error p (length pre)) as [x|] eqn:X; [|apply nth_error_None in X; rewrite app_length in *; cbn [length] in *; lia].
    destruct (nth_error p' (length pre)) as [x'|] eqn:X'; [|apply nth_error_None in X'; rewrite app_length in *; cbn [length] in *; lia].
    exists x, x'. split; [reflexivity|]. split; [reflexivity|].
    assert (forall v, nth_error (pre ++ v :: post) (length pre) = Some v) as V by (intros v; rewrite nth_error_app2, Nat.sub_diag by lia; reflexivity).
    rewrite <- (C86_local E _ _ _ x x' y z HE L L' (V y) (V z) X X' S'). rewrite <- N.lxor_assoc, N.lxor_nilpotent, N.lxor_0_l. reflexivity.
Qed.
Print Assumptions C86_one_byte.

(** Whoever knows the text can turn its ciphertext into that of any other text of the
    same length that differs from it in the last block only (of a text of at most 12
    bytes: any), without the key: by adding the difference of the base64 texts. *)
Theorem C86_forge : forall E iv text text' b b' c body' k, cipher16 E -> length iv = 16%nat ->
  encrypt (mk_block 16 E) (Ok iv) text = Ok c -> b64_text b text -> b64_text b' text' -> length text' = length text ->
  (forall i, (i < 16 * ((length b - 1) / 16))%nat -> nth_error b i = nth_error b' i) ->
  xored (skipn 16 c) b k -> xored k b' body' ->
  fst (decrypt (mk_block 16 E) (firstn 16 c ++ body')) = Ok text'.
Proof.
  intros E iv text text' b b' c body' k HE L H B B' LT S X1 X2.
  destruct (encrypt_plain E iv text c HE L H) as (LC & F & C & LL). rewrite F in C |- *.
  pose proof (text_len _ _ B) as N. pose proof (text_len _ _ B') as N'. rewrite LT in N'.
  apply text_iff in B. subst b. apply text_iff in B'. subst b'.
  set (b := b64_encode text) in *. set (b' := b64_encode text') in *. set (body := skipn 16 c) in *.
  pose proof (xored_len _ _ _ X1) as [LX1 LX1']. pose proof (xored_len _ _ _ X2) as [LX2 LX2'].
  destruct (decrypt_parts E (iv ++ body') HE) as (p & P & D); [rewrite app_length; lia|].
  assert (firstn 16 (iv ++ body') = iv) as F1 by (rewrite firstn_app, L, Nat.sub_diag, firstn_all2 by lia; apply app_nil_r).
  assert (skipn 16 (iv ++ body') = body') as F2 by (rewrite skipn_app, L, Nat.sub_diag, skipn_all2 by lia; reflexivity).
  rewrite F1, F2 in P. rewrite D. cbn [fst]. pose proof (cfb_len E HE _ _ _ P) as LP.
  (* the recovered key stream, and the changed body, position by position *)
  assert (forall i v, nth_error body' i = Some v -> exists u w w', nth_error body i = Some u /\ nth_error b i = Some w /\ nth_error b' i = Some w' /\
    b2n v = N.lxor (N.lxor (b2n u) (b2n w)) (b2n w')) as AT.
  { intros i v V. assert (i < length body')%nat by (apply nth_error_Some; congruence).
    destruct (nth_error body i) as [u|] eqn:U; [|apply nth_error_None in U; lia]. destruct (nth_error b i) as [w|] eqn:W; [|apply nth_error_None in W; lia].
    destruct (nth_error b' i) as [w'|] eqn:W'; [|apply nth_error_None in W'; lia]. exists u, w, w'. repeat (split; [reflexivity|]).
    destruct (xored_at _ _ _ X1 i u U) as (z & Z & ZB). destruct (xored_at _ _ _ X2 i z Z) as (v' & V' & VB). assert (v' = v) as -> by congruence.
    rewrite (nth_error_nth b i x00 W) in ZB. rewrite (nth_error_nth b' i x00 W') in VB. now rewrite VB, ZB. }
  assert (forall l, (l < 16 * ((length b - 1) / 16))%nat -> nth_error body' l = nth_error body l) as SAME.
  { intros l Ll. destruct (nth_error body' l) as [v|] eqn:V.
    - destruct (AT l v V) as (u & w & w' & U & W & W' & VB). rewrite U. rewrite (S l Ll) in W. assert (w = w') as -> by congruence.
      rewrite N.lxor_assoc, N.lxor_nilpotent, N.lxor_0_r in VB. apply b2n_inj in VB. now subst.
    - symmetry. apply nth_error_None. apply nth_error_None in V. lia. }
  assert (p = b') as ->; [|apply b64_round].
  apply nth_error_ext'. intros i. destruct (nth_error p i) as [x|] eqn:X.
  2:{ symmetry. apply nth_error_None. apply nth_error_None in X. lia. }
  destruct (cfb_at E _ _ _ HE P L i x X) as (v & V & VB). destruct (AT i v V) as (u & w & w' & U & W & W' & VB').
  destruct (cfb_at E _ _ _ HE C L i w W) as (u' & U' & UB). assert (u' = u) as -> by congruence.
  assert (key_at E (iv ++ body) i = key_at E (iv ++ body') i) as K.
  { apply key_same. intros l Ll. destruct (Nat.lt_ge_cases l 16) as [I|I]; [now rewrite !nth_error_app1 by lia|]. rewrite !nth_error_app2 by lia. rewrite L.
    symmetry. apply SAME. assert (i < length b)%nat by (apply nth_error_Some; congruence).
    pose proof (Nat.div_le_mono i (length b - 1) 16 ltac:(lia) ltac:(lia)). lia. }
  rewrite W'. f_equal. apply b2n_inj. rewrite UB, K in VB'. rewrite VB' in VB.
  set (q := key_at E (iv ++ body') i) in *. rewrite (N.lxor_comm (b2n w) q), (N.lxor_assoc q), N.lxor_nilpotent, N.lxor_0_r in VB.
  apply (f_equal (fun z => N.lxor z q)) in VB. rewrite (N.lxor_comm q), !N.lxor_assoc, !N.lxor_nilpotent, !N.lxor_0_r in VB. now symmetry.
Qed.
Print Assumptions C86_forge.

(** Two texts encrypted from the same initial bytes: the ciphertexts agree exactly as
    far as the base64 texts do. *)
Theorem C86_same_start : forall E iv text text' b b' c c' n, cipher16 E -> length iv = 16%nat ->
  encrypt (mk_block 16 E) (Ok iv) text = Ok c -> encrypt (mk_block 16 E) (Ok iv) text' = Ok c' -> b64_text b text -> b64_text b' text' ->
  ((forall i, (i < n)%nat -> nth_error c (16 + i) = nth_error c' (16 + i)) <-> (forall i, (i < n)%nat -> nth_error b i = nth_error b' i)).
Proof.
  intros E iv text text' b b' c c' n HE L H H' B B'.
  destruct (encrypt_plain E iv text c HE L H) as (LC & F & C & LL). destruct (encrypt_plain E iv text' c' HE L H') as (LC' & F' & C' & LL').
  apply text_iff in B. subst b. apply text_iff in B'. subst b'. set (b := b64_encode text) in *. set (b' := b64_encode text') in *.
  assert (forall l, (l < 16)%nat -> nth_error c l = nth_error c' l) as S0.
  { intros l Ll. rewrite <- (nth_error_firstn' c 16 l Ll), <- (nth_error_firstn' c' 16 l Ll). congruence. }
  assert (length (firstn 16 c) = 16%nat) as L1 by (rewrite firstn_length; lia).
  assert (length (firstn 16 c') = 16%nat) as L2 by (rewrite firstn_length; lia).
  assert (forall i, (forall l, (l < i)%nat -> nth_error c (16 + l) = nth_error c' (16 + l)) ->
    (nth_error c (16 + i) = nth_error c' (16 + i) <-> nth_error b i = nth_error b' i)) as STEP.
  { intros i HH.
    assert (key_at E c i = key_at E c' i) as K.
    { apply key_same. intros l Ll. destruct (Nat.lt_ge_cases l 16) as [I|I]; [now apply S0|]. replace l with (16 + (l - 16))%nat by lia. apply HH.
      pose proof (Nat.div_mod i 16 ltac:(lia)). lia. }
    destruct (nth_error b i) as [x|] eqn:X, (nth_error b' i) as [x'|] eqn:X'.
    - destruct (cfb_at E _ _ _ HE C L1 i x X) as (y & Y & YB). destruct (cfb_at E _ _ _ HE C' L2 i x' X') as (y' & Y' & YB').
      rewrite firstn_skipn in YB, YB'. rewrite nth_error_skipn' in Y, Y'. rewrite Y, Y', K in *. split; intros Q.
      + assert (y = y') as <- by congruence. rewrite YB in YB'. apply (f_equal (fun z => N.lxor z (key_at E c' i))) in YB'.
        rewrite !N.lxor_assoc, !N.lxor_nilpotent, !N.lxor_0_r in YB'. apply b2n_inj in YB'. now subst.
      + assert (x = x') as <- by congruence. f_equal. apply b2n_inj. congruence.
    - destruct (cfb_at E _ _ _ HE C L1 i x X) as (y & Y & _). rewrite nth_error_skipn' in Y. rewrite Y. apply nth_error_None in X'.
      rewrite (proj2 (nth_error_None c' _)) by lia. split; discriminate.
    - destruct (cfb_at E _ _ _ HE C' L2 i x' X') as (y & Y & _). rewrite nth_error_skipn' in Y. rewrite Y. apply nth_error_None in X.
      rewrite (proj2 (nth_error_None c _)) by lia. split; discriminate.
    - apply nth_error_None in X, X'. rewrite !(proj2 (nth_error_None _ _)) by lia. split; reflexivity. }
  induction n as [|n IH]; [split; intros _ i Hi; lia|]. split; intros Q i Hi.
  - assert (forall l, (l < n)%nat -> nth_error c (16 + l) = nth_error c' (16 + l)) as Q0 by (intros l Ll; apply Q; lia).
    destruct (Nat.eq_dec i n) as [->|Ni]; [|apply (proj1 IH Q0); lia]. apply (proj1 (STEP n Q0)), Q. lia.
  - assert (forall l, (l < n)%nat -> nth_error c (16 + l) = nth_error c' (16 + l)) as Q0 by (apply (proj2 IH); intros l Ll; apply Q; lia).
    destruct (Nat.eq_dec i n) as [->|Ni]; [|apply Q0; lia]. apply (proj2 (STEP n Q0)), Q. lia.
Qed.
Print Assumptions C86_same_start.

(** a toy cipher and 30 bytes of text: the window that skips 12 bytes and stops after 9 more; a
    change of the last group *)
Definition ex86_E : bytes -> bytes := fun b => map (fun c => n2b (3 * b2n c + 7)) b.
Definition ex86_c : bytes := match encrypt (mk_block 16 ex86_E) (Ok (repeat x5a 16)) (str "pay 100 to Alice, not to Mallo") with Ok c => c | _ => [] end.
Example C86_example : cipher16 ex86_E /\ length ex86_c = 56%nat /\
  encrypt (mk_block 16 ex86_E) (Ok (repeat x5a 16)) (str "pay 100 to Alice, not to Mallo") = Ok ex86_c /\
  fst (decrypt (mk_block 16 ex86_E) (firstn 28 (skipn 16 ex86_c))) = Ok (str "lice, not") /\
  fst (decrypt (mk_block 16 ex86_E) (firstn 29 ex86_c)) = Err EBase64 /\
  exists body' k, xored (skipn 16 ex86_c) (b64_encode (str "pay 100 to Alice, not to Mallo")) k /\
    xored k (b64_encode (str "pay 100 to Alice, not to Oscar")) body' /\
    fst (decrypt (mk_block 16 ex86_E) (firstn 16 ex86_c ++ body')) = Ok (str "pay 100 to Alice, not to Oscar").
Proof.
  split; [intros b L; unfold ex86_E; now rewrite map_length|]. split; [vm_compute; reflexivity|]. split; [vm_compute; reflexivity|].
  split; [vm_compute; reflexivity|]. split; [vm_compute; reflexivity|].
  eexists (xor_bytes (xor_bytes (skipn 16 ex86_c) (b64_encode (str "pay 100 to Alice, not to Mallo"))) (b64_encode (str "pay 100 to Alice, not to Oscar"))), _.
  assert (forall a b, length a = length b -> xored a b (xor_bytes a b)) as X.
  { intros a b L. pose proof (xored_xor a b ltac:(lia)) as X. rewrite L, firstn_all in X. exact X. }
  split; [apply X; vm_compute; reflexivity|]. split; [apply X; vm_compute; reflexivity|]. vm_compute. reflexivity.
Qed.
