(** Proofs about addresses (C19-C22). *)
From Verif Require Export P_Base58 P_Utils P_Crypto M_Bip276.
From Coq Require Import ZifyBool ZifyNat ZifyN.

(** ** set58 *)

Lemma set_nth_mid {A} (p : list A) x y q : set_nth (length p) y (p ++ x :: q) = p ++ y :: q.
Proof. induction p as [|a p IH]; cbn [length app set_nth]; [reflexivity|]. now rewrite IH. Qed.

Lemma nth_mid {A} (p : list A) x q d : nth (length p) (p ++ x :: q) d = x.
Proof. rewrite app_nth2, Nat.sub_diag by lia. reflexivity. Qed.

Lemma set58_inner_spec p : forall q c, exists p' c',
  set58_inner (length p) (p ++ q) c = (p' ++ q, c') /\ length p' = length p /\
  58 * be_get p + c = c' * 256 ^ N.of_nat (length p) + be_get p'.
Proof.
  induction p as [|x p IH] using rev_ind; intros q c.
  - exists [], c. cbn. repeat split. lia.
  - rewrite app_length. cbn [length]. rewrite Nat.add_comm. cbn [Nat.add set58_inner].
    rewrite <- app_assoc. cbn [app]. rewrite nth_mid, set_nth_mid.
    set (e := c + 58 * b2n x).
    destruct (IH (n2b (e mod 256) :: q) (e / 256)) as (p' & c' & E & L & V).
    exists (p' ++ [n2b (e mod 256)]), c'. rewrite E, <- app_assoc. cbn [app].
    rewrite app_length. cbn [length]. split; [reflexivity|]. split; [lia|].
    rewrite !be_get_app. cbn [length]. change (256 ^ N.of_nat 1) with 256.
    rewrite Nat2N.inj_succ, N.pow_succ_r'.
    assert (be_get [n2b (e mod 256)] = e mod 256) as ->.
    { unfold be_get. cbn [fold_left]. rewrite b2n_n2b. rewrite N.mod_mod by lia. lia. }
    assert (be_get [x] = b2n x) as -> by (unfold be_get; cbn [fold_left]; lia).
    pose proof (N.div_mod e 256 ltac:(lia)) as D. unfold e in *. nia.
Qed.

Lemma be_put_unique k b : length b = k -> be_put k (be_get b) = b.
Proof. intros <-. apply be_put_get. Qed.

Lemma set58_step_spec v c : v < 256 ^ 25 ->
  set58_step (be_put 25 v) c =
  match index_byte alphabet c with
  | None => Err EBadChar
  | Some d => if 58 * v + d <? 256 ^ 25 then Ok (be_put 25 (58 * v + d)) else Err ETooLong
  end.
Proof.
  intros H. unfold set58_step. destruct (index_byte alphabet c) as [d|]; [|reflexivity].
  destruct (set58_inner_spec (be_put 25 v) [] d) as (p & e & E & L & V).
  rewrite app_nil_r, be_put_length in E. rewrite E, app_nil_r.
  rewrite be_put_length in L, V. rewrite be_get_put in V.
  change (N.of_nat 25) with 25 in V. rewrite N.mod_small in V by assumption.
  pose proof (be_get_bound p) as B. rewrite L in B. change (N.of_nat 25) with 25 in B.
  rewrite V. set (M := 256 ^ 25) in *. destruct (N.ltb_spec 0 e) as [P|P].
  - destruct (N.ltb_spec (e * M + be_get p) M) as [Q|Q]; [nia|reflexivity].
  - assert (e = 0) as -> by lia. rewrite N.mul_0_l, N.add_0_l.
    destruct (N.ltb_spec (be_get p) M) as [Q|Q]; [|lia]. f_equal. symmetry. now apply be_put_unique.
Qed.

Lemma b58_val_le s : forall v w, b58_val v s = Some w -> v <= w.
Proof.
  induction s as [|c s IH]; intros v w; cbn [b58_val]; [intros H; injection H; lia|].
  destruct (index_byte alphabet c); [|discriminate]. intros H. apply IH in H. lia.
Qed.

Lemma set58_spec s : forall v a, v < 256 ^ 25 ->
  (set58 (be_put 25 v) s = Ok a <->
   exists w, b58_val v s = Some w /\ w < 256 ^ 25 /\ a = be_put 25 w).
Proof.
  induction s as [|c s IH]; intros v a H; cbn [set58 b58_val].
  - split; [intros E; injection E as <-; eauto|]. intros (w & E & _ & ->). injection E as <-. reflexivity.
  - rewrite set58_step_spec by assumption. destruct (index_byte alphabet c) as [d|].
    + destruct (N.ltb_spec (58 * v + d) (256 ^ 25)) as [Q|Q]; cbn [bind]; [now apply IH|].
      split; [discriminate|]. intros (w & E & L & _). apply b58_val_le in E. lia.
    + cbn [bind]. split; [discriminate|]. intros (w & E & _). discriminate.
Qed.

Lemma set58_no_panic s : forall a, set58 a s <> Panic.
Proof.
  induction s as [|c s IH]; intros a; cbn [set58]; [discriminate|].
  unfold set58_step. destruct (index_byte alphabet c); [|discriminate].
  destruct (set58_inner 25 a n) as [a' e]. destruct (0 <? e); [discriminate|]. apply IH.
Qed.

Lemma zeros25 : repeat x00 25 = be_put 25 0.
Proof. reflexivity. Qed.

Lemma length25 (b : bytes) : length b = 25%nat ->
  exists w h s, b = w :: h ++ s /\ length h = 20%nat /\ length s = 4%nat.
Proof.
  intros L. destruct b as [|w b]; [discriminate|]. cbn [length] in L.
  exists w, (firstn 20 b), (skipn 20 b). rewrite firstn_skipn, firstn_length, skipn_length. split; [reflexivity|lia].
Qed.

Lemma parts25 (w : byte) (h s : bytes) : length h = 20%nat -> length s = 4%nat ->
  nth 0 (w :: h ++ s) x00 = w /\ firstn 20 (skipn 1 (w :: h ++ s)) = h
  /\ embedded_checksum (w :: h ++ s) = s /\ compute_checksum (w :: h ++ s) = firstn 4 (sha256d (w :: h)).
Proof.
  intros Lh Ls. unfold embedded_checksum, compute_checksum. split; [reflexivity|].
  change (skipn 1 (w :: h ++ s)) with (h ++ s).
  change (skipn 21 (w :: h ++ s)) with (skipn 20 (h ++ s)).
  change (firstn 21 (w :: h ++ s)) with (w :: firstn 20 (h ++ s)).
  rewrite firstn_app, skipn_app, Lh, Nat.sub_diag. rewrite !firstn_O, app_nil_r.
  rewrite (firstn_all2 h) by lia. rewrite (skipn_all2 h) by lia.
  rewrite skipn_O. cbn [app]. rewrite (firstn_all2 s) by lia. auto.
Qed.

(** ** ValidateAddress *)

Lemma has_prefix_iff p s : has_prefix p s = true <-> exists t, s = p ++ t.
Proof.
  revert s; induction p as [|x p IH]; intros s; cbn [has_prefix]; [split; [exists s; reflexivity|reflexivity]|].
  destruct s as [|y s].
  - split; [discriminate|]. intros [t E]. discriminate.
  - rewrite andb_true_iff, byte_eqb_eq, IH. split.
    + intros [-> [t ->]]. exists t. reflexivity.
    + intros [t E]. injection E as -> ->. eauto.
Qed.

Lemma validate_plain s : ~ (exists t, s = str "bitcoin-script:" ++ t) -> validate_address s = valid_a58 s.
Proof.
  intros H. unfold validate_address. destruct (has_prefix (str "bitcoin-script:") s) eqn:E; [|reflexivity].
  apply has_prefix_iff in E. contradiction.
Qed.

Lemma checksum_length b : length (firstn 4 (sha256d b)) = 4%nat.
Proof. rewrite firstn_length, sha256d_length. reflexivity. Qed.

Lemma version_test w : negb (byte_eqb w x00) && negb (byte_eqb w x6f) = false <-> addr_version w.
Proof.
  unfold addr_version. rewrite andb_false_iff, !negb_false_iff, !byte_eqb_eq. reflexivity.
Qed.

Lemma valid_a58_iff s : valid_a58 s = Ok tt <->
  exists w h, addr_version w /\ length h = 20%nat
    /\ b58_num s (be_get (w :: h ++ firstn 4 (sha256d (w :: h)))).
Proof.
  unfold valid_a58. rewrite zeros25. split.
  - destruct (set58 (be_put 25 0) s) as [a|e|] eqn:E; cbn [bind]; try discriminate.
    apply set58_spec in E as (v & E & L & ->); [|lia].
    destruct (length25 (be_put 25 v) (be_put_length 25 v)) as (w & h & k & P & Lh & Lk).
    rewrite P. destruct (parts25 w h k Lh Lk) as (A1 & _ & A3 & A4). rewrite A1, A3, A4.
    destruct (negb (byte_eqb w x00) && negb (byte_eqb w x6f)) eqn:W; [discriminate|].
    apply version_test in W.
    destruct (equals k (firstn 4 (sha256d (w :: h)))) eqn:Q; [|discriminate]. intros _.
    apply equals_spec in Q. exists w, h. split; [assumption|]. split; [assumption|].
    rewrite <- Q, <- P, be_get_put. change (N.of_nat 25) with 25. rewrite N.mod_small by assumption.
    now apply b58_num_iff.
  - intros (w & h & W & Lh & B). apply b58_num_iff in B.
    set (k := firstn 4 (sha256d (w :: h))) in *. set (p := w :: h ++ k) in *.
    assert (length k = 4%nat) as Lk by apply checksum_length.
    assert (length p = 25%nat) as Lp by (unfold p; cbn [length]; rewrite app_length; lia).
    pose proof (be_get_bound p) as Bd. rewrite Lp in Bd. change (N.of_nat 25) with 25 in Bd.
    assert (set58 (be_put 25 0) s = Ok p) as ->.
    { apply set58_spec; [lia|]. exists (be_get p). repeat split; try assumption. symmetry. now apply be_put_unique. }
    cbn [bind]. destruct (parts25 w h k Lh Lk) as (A1 & _ & A3 & A4). fold p in A1, A3, A4.
    rewrite A1, A3, A4. fold k. rewrite equals_refl. apply version_test in W. rewrite W. reflexivity.
Qed.

Lemma valid_a58_no_panic s : valid_a58 s <> Panic.
Proof.
  unfold valid_a58. pose proof (set58_no_panic s (repeat x00 25)).
  destruct (set58 (repeat x00 25) s) as [a|e|]; cbn [bind]; [|discriminate|contradiction].
  destruct (negb (byte_eqb (nth 0 a x00) x00) && negb (byte_eqb (nth 0 a x00) x6f)); [discriminate|].
  destruct (negb (equals (embedded_checksum a) (compute_checksum a))); discriminate.
Qed.

(** ** NewFromString *)

Lemma pkh_str_some s d (w : byte) h k : d = w :: h ++ k -> length h = 20%nat -> length k = 4%nat ->
  (if negb (Nat.eqb (length d) 25) then Err (EAddrLength s)
   else match nth 0 d x00 with
        | x00 => Ok (hex_encode (firstn 20 (skipn 1 d)))
        | x6f => Ok (hex_encode (firstn 20 (skipn 1 d)))
        | _ => Err (EAddrUnsupported s)
        end) = if byte_eqb w x00 || byte_eqb w x6f then Ok (hex_encode h) else Err (EAddrUnsupported s).
Proof.
  intros -> Lh Lk. destruct (parts25 w h k Lh Lk) as (A1 & A2 & _). rewrite A1, A2.
  assert (length (w :: h ++ k) = 25%nat) as -> by (cbn [length]; rewrite app_length; lia).
  change (negb (Nat.eqb 25 25)) with false. cbv iota. destruct w; reflexivity.
Qed.

Lemma addr_from_string_iff s a : addr_from_string s = Ok a <->
  exists w h k, b58_of s (w :: h ++ k) /\ length h = 20%nat /\ length k = 4%nat /\ addr_version w
    /\ a = mk_addr s (hex_encode h).
Proof.
  unfold addr_from_string, address_to_pkh_str. split.
  - destruct (Nat.eqb (length (b58_decode s)) 25) eqn:L; [|discriminate].
    apply Nat.eqb_eq in L. destruct (length25 _ L) as (w & h & k & P & Lh & Lk).
    pose proof (pkh_str_some s (b58_decode s) w h k P Lh Lk) as X. rewrite L in X.
    change (negb (Nat.eqb 25 25)) with false in X. cbv iota in X. cbn [negb]. rewrite X.
    destruct (byte_eqb w x00 || byte_eqb w x6f) eqn:W; [|discriminate].
    cbn [bind]. intros E. injection E as <-. exists w, h, k.
    split; [apply b58_decode_iff; [discriminate|assumption]|]. repeat split; try assumption.
    apply orb_true_iff in W. rewrite !byte_eqb_eq in W. exact W.
  - intros (w & h & k & O & Lh & Lk & W & ->). apply b58_of_decode in O.
    rewrite (pkh_str_some s (b58_decode s) w h k O Lh Lk).
    assert (byte_eqb w x00 || byte_eqb w x6f = true) as ->
      by (apply orb_true_iff; rewrite !byte_eqb_eq; exact W).
    reflexivity.
Qed.

Lemma addr_from_string_no_panic s : addr_from_string s <> Panic.
Proof.
  unfold addr_from_string, address_to_pkh_str.
  destruct (negb (Nat.eqb (length (b58_decode s)) 25)); [discriminate|].
  destruct (nth 0 (b58_decode s) x00); discriminate.
Qed.

(** ** Round trips *)

Lemma missing_checksum_decode b :
  b58_decode (b58_encode_missing_checksum b) = b ++ firstn 4 (sha256d b).
Proof. apply b58_decode_encode. Qed.

Lemma missing_checksum_inj a b :
  b58_encode_missing_checksum a = b58_encode_missing_checksum b -> a = b.
Proof.
  intros E. apply (f_equal b58_decode) in E. rewrite !missing_checksum_decode in E.
  pose proof (checksum_length a) as La. pose proof (checksum_length b) as Lb.
  set (x := firstn 4 (sha256d a)) in *. set (y := firstn 4 (sha256d b)) in *.
  assert (length a = length b) as L by (apply (f_equal (@length byte)) in E; rewrite !app_length in E; lia).
  apply (f_equal (firstn (length a))) in E. rewrite firstn_app, firstn_all, Nat.sub_diag, firstn_O, app_nil_r in E.
  rewrite L, firstn_app, firstn_all, Nat.sub_diag, firstn_O, app_nil_r in E. exact E.
Qed.

(** base58 text contains no '-' *)
Lemma b58_num_no_dash s v : b58_num s v -> ~ In x2d s.
Proof.
  induction 1 as [|s v c d H IH E]; [intros []|]. rewrite in_app_iff. intros [I|[->|[]]]; [auto|].
  apply nth_error_In in E. revert E. unfold b58_chars.
  assert (forallb (fun c => negb (byte_eqb c x2d)) (str "123456789ABCDEFGHJKLMNPQRSTUVWXYZabcdefghijkmnopqrstuvwxyz") = true) as F by reflexivity.
  rewrite forallb_forall in F. intros I. apply F in I. discriminate.
Qed.

Lemma b58_not_script s v : b58_num s v -> ~ (exists t, s = str "bitcoin-script:" ++ t).
Proof.
  intros B [t E]. apply b58_num_no_dash in B. apply B. rewrite E. apply in_or_app. left. cbn. tauto.
Qed.

Lemma addr_round h mn : length h = 20%nat ->
  addr_from_string (addr_string (addr_from_pkh h mn)) = Ok (addr_from_pkh h mn) /\
  validate_address (addr_string (addr_from_pkh h mn)) = Ok tt.
Proof.
  intros L. unfold addr_from_pkh. cbn [addr_string].
  set (w := if mn then x00 else x6f). cbn [app].
  assert (addr_version w) as W by (unfold addr_version, w; destruct mn; auto).
  pose proof (checksum_length (w :: h)) as Lk.
  split.
  - apply addr_from_string_iff. exists w, h, (firstn 4 (sha256d (w :: h))).
    split; [|auto]. unfold b58_encode_missing_checksum, addr_checksum. apply b58_encode_of.
  - pose proof (b58_encode_num (w :: h ++ firstn 4 (sha256d (w :: h)))) as B.
    change (b58_encode_missing_checksum (w :: h)) with (b58_encode (w :: h ++ firstn 4 (sha256d (w :: h)))).
    rewrite validate_plain by (eapply b58_not_script; exact B).
    apply valid_a58_iff. eauto.
Qed.

Lemma addr_inj h1 m1 h2 m2 :
  addr_string (addr_from_pkh h1 m1) = addr_string (addr_from_pkh h2 m2) -> h1 = h2 /\ m1 = m2.
Proof.
  unfold addr_from_pkh. cbn [addr_string app]. intros E. apply missing_checksum_inj in E.
  injection E as E ->. split; [reflexivity|]. destruct m1, m2; congruence.
Qed.
