(** Proofs about the transaction codec (C25-C35). *)
From Verif Require Export S_Tx P_Script P_Crypto P_Address.
From Coq Require Import ZifyBool ZifyNat ZifyN.

Lemma firstn_exact {A} (a b : list A) k : length a = k -> firstn k (a ++ b) = a.
Proof. intros <-. now rewrite firstn_app, firstn_all, Nat.sub_diag, firstn_O, app_nil_r. Qed.

Lemma skipn_exact {A} (a b : list A) k : length a = k -> skipn k (a ++ b) = b.
Proof. intros <-. now rewrite skipn_app, skipn_all, Nat.sub_diag, skipn_O. Qed.

Lemma sl_le_get k (s : slice) : (k <= length (vis s))%nat -> sl_le k s = Some (le_get (firstn k (vis s))).
Proof. intros H. unfold sl_le. now replace (Nat.leb k (length (vis s))) with true by (symmetry; now apply Nat.leb_le). Qed.

Definition two63' : two63 = (2 ^ 63)%Z := eq_refl.
Definition two64' : two64 = (2 ^ 64)%Z := eq_refl.

Lemma wrap_total (o n k : Z) : (0 <= o <= 100 -> 0 <= k <= 100 -> 0 <= n < two64 ->
  wrap_int (wrap_int (o + wrap_int n) + k) =
  (if o + n + k <? two63 then o + n + k
   else if o + n + k <? two63 + two64 then o + n + k - two64 else o + n + k - 2 * two64))%Z.
Proof.
  unfold wrap_int, two63, two64. intros A B C.
  destruct (o + n + k <? 9223372036854775808)%Z eqn:E1.
  - lia.
  - destruct (o + n + k <? 9223372036854775808 + 18446744073709551616)%Z eqn:E2; lia.
Qed.

Lemma wrap_off (o n : Z) : (0 <= o <= 100 -> 0 <= n < two64 ->
  wrap_int (o + wrap_int n) =
  (if o + n <? two63 then o + n else o + n - two64))%Z.
Proof. unfold wrap_int, two63, two64. intros A C. destruct (o + n <? 9223372036854775808)%Z eqn:E; lia. Qed.

(** ** Input parsing, exactly *)

Definition input_outcome (id ix r : bytes) (sp : bytes) : res (input * Z) :=
  match decode_varint (Sl r sp) with
  | Ok (n, k) =>
      let total := (36 + k + Z.of_N n + 4)%Z in
      let len := (36 + Z.of_nat (length r))%Z in
      if (total <? two63)%Z then
        if (len <? total)%Z then Err EInputShort
        else Ok (mk_in (hex_encode (rev id)) (le_get ix) 0 None
                   (Some (firstn (N.to_nat n) (skipn (Z.to_nat k) r)))
                   (le_get (firstn 4 (skipn (N.to_nat n) (skipn (Z.to_nat k) r)))), total)
      else if ((two64 <=? total) && (len <? total - two64))%Z then Err EInputShort else Panic
  | Err e => Err e
  | Panic => Panic
  end.

Lemma skipn_add {A} (a b : nat) (l : list A) : skipn a (skipn b l) = skipn (b + a) l.
Proof.
  revert l; induction b as [|b IH]; intros l; [reflexivity|]. destruct l as [|x l].
  - now rewrite !skipn_nil.
  - cbn [Nat.add skipn]. apply IH.
Qed.

Lemma input_from_eq id ix r sp : length id = 32%nat -> length ix = 4%nat ->
  (scap (Sl (id ++ ix ++ r) sp) < 2 ^ 62)%Z ->
  input_from_bytes (Sl (id ++ ix ++ r) sp) = input_outcome id ix r sp.
Proof.
  intros Li Lx Cap. unfold input_from_bytes, input_outcome.
  set (b := Sl (id ++ ix ++ r) sp) in *.
  assert (slen b = 36 + Z.of_nat (length r))%Z as SL by (unfold slen, b; cbn [vis]; rewrite !app_length; lia).
  unfold scap in Cap. fold (slen b) in Cap.
  replace (slen b <? 36)%Z with false by lia.
  rewrite (sl_sub_vis b 0 32) by lia. cbn [or_panic bind vis].
  change (Z.to_nat (32 - 0)) with 32%nat. change (Z.to_nat 0) with 0%nat. rewrite skipn_O.
  assert (firstn 32 (vis b) = id) as -> by (apply firstn_exact; assumption). rewrite reverse_bytes_rev.
  rewrite (sl_sub_vis b 32 36) by lia. cbn [or_panic bind vis].
  change (Z.to_nat (36 - 32)) with 4%nat. change (Z.to_nat 32) with 32%nat. change (Z.to_nat 36) with 36%nat.
  assert (skipn 32 (vis b) = ix ++ r) as S32 by (apply skipn_exact; assumption).
  assert (skipn 36 (vis b) = r) as S36.
  { unfold b. cbn [vis]. rewrite app_assoc. apply skipn_exact. rewrite app_length. lia. }
  rewrite S32. rewrite (firstn_exact ix) by assumption.
  rewrite sl_le_exact by assumption. cbn [or_panic bind].
  rewrite (sl_from_vis b 36) by lia. cbn [or_panic bind]. change (Z.to_nat 36) with 36%nat. rewrite S36.
  change (spare b) with sp.
  destruct (decode_varint (Sl r sp)) as [[n k]|e|] eqn:D; cbn [bind]; [|reflexivity|reflexivity].
  apply decode_varint_size in D as [K U]. unfold u64 in U.
  assert (0 <= Z.of_N n < two64)%Z as Hn by (unfold two64; lia).
  unfold int_of_u64. rewrite wrap_total, wrap_off by lia. cbv zeta.
  set (z := Z.of_N n) in *.
  destruct (36 + k + z + 4 <? two63)%Z eqn:T.
  - rewrite SL. destruct (36 + Z.of_nat (length r) <? 36 + k + z + 4)%Z eqn:Q; [reflexivity|].
    replace (36 + k + z <? two63)%Z with true by lia.
    rewrite (sl_sub_vis b) by lia. cbn [or_panic bind vis].
    rewrite (sl_from_vis b) by lia. cbn [or_panic bind].
    replace (Z.to_nat (36 + k + z - (36 + k))) with (N.to_nat n) by lia.
    replace (Z.to_nat (36 + k)) with (36 + Z.to_nat k)%nat by lia.
    rewrite <- (skipn_add (Z.to_nat k) 36 (vis b)), S36.
    replace (Z.to_nat (36 + k + z)) with (36 + (Z.to_nat k + N.to_nat n))%nat by lia.
    rewrite <- (skipn_add (Z.to_nat k + N.to_nat n) 36 (vis b)), S36.
    rewrite <- (skipn_add (N.to_nat n) (Z.to_nat k) r).
    rewrite sl_le_get by (cbn [vis]; rewrite !skipn_length; lia). reflexivity.
  - assert (36 + k + z + 4 < two63 + two64)%Z by (unfold two63, two64 in *; lia).
    replace (36 + k + z + 4 <? two63 + two64)%Z with true by (unfold two63, two64 in *; lia).
    assert (36 + k + z + 4 - two64 < two63)%Z by (unfold two63, two64 in *; lia).
    rewrite SL.
    destruct ((two64 <=? 36 + k + z + 4) && (36 + Z.of_nat (length r) <? 36 + k + z + 4 - two64))%Z eqn:Q.
    + replace (36 + Z.of_nat (length r) <? 36 + k + z + 4 - two64)%Z with true by lia. reflexivity.
    + replace (36 + Z.of_nat (length r) <? 36 + k + z + 4 - two64)%Z with false by lia.
      assert (sl_sub b (36 + k) (if (36 + k + z <? two63)%Z then 36 + k + z else 36 + k + z - two64)%Z = None) as ->.
      { unfold sl_sub, scap. fold (slen b). rewrite SL.
        destruct (36 + k + z <? two63)%Z eqn:Q2.
        - replace ((0 <=? 36 + k) && (36 + k <=? 36 + k + z)
            && (36 + k + z <=? 36 + Z.of_nat (length r) + Z.of_nat (length (spare b))))%Z with false; [reflexivity|].
          symmetry. apply andb_false_iff. right. unfold two63 in *. lia.
        - replace (36 + k <=? 36 + k + z - two64)%Z with false by lia. now rewrite andb_false_r. }
      reflexivity.
Qed.

Definition output_outcome (v r : bytes) (sp : bytes) : res (output * Z) :=
  match decode_varint (Sl r sp) with
  | Ok (n, k) =>
      let total := (8 + k + Z.of_N n)%Z in
      let len := (8 + Z.of_nat (length r))%Z in
      if (total <? two63)%Z then
        if (len <? total)%Z then Err EOutputShort
        else Ok (mk_out (le_get v) (Some (firstn (N.to_nat n) (skipn (Z.to_nat k) r))), total)
      else if ((two64 <=? total) && (len <? total - two64))%Z then Err EOutputShort else Panic
  | Err e => Err e
  | Panic => Panic
  end.

Lemma output_from_eq v r sp : length v = 8%nat ->
  (scap (Sl (v ++ r) sp) < 2 ^ 62)%Z ->
  output_from_bytes (Sl (v ++ r) sp) = output_outcome v r sp.
Proof.
  intros Lv Cap. unfold output_from_bytes, output_outcome.
  set (b := Sl (v ++ r) sp) in *.
  assert (slen b = 8 + Z.of_nat (length r))%Z as SL by (unfold slen, b; cbn [vis]; rewrite !app_length; lia).
  unfold scap in Cap. fold (slen b) in Cap.
  replace (slen b <? 8)%Z with false by lia.
  rewrite (sl_sub_vis b 0 8) by lia. cbn [or_panic bind vis].
  change (Z.to_nat (8 - 0)) with 8%nat. change (Z.to_nat 0) with 0%nat. rewrite skipn_O.
  assert (firstn 8 (vis b) = v) as -> by (apply firstn_exact; assumption).
  rewrite sl_le_exact by assumption. cbn [or_panic bind].
  assert (skipn 8 (vis b) = r) as S8 by (apply skipn_exact; assumption).
  rewrite (sl_from_vis b 8) by lia. cbn [or_panic bind]. change (Z.to_nat 8) with 8%nat. rewrite S8.
  change (spare b) with sp.
  destruct (decode_varint (Sl r sp)) as [[n k]|e|] eqn:D; cbn [bind]; [|reflexivity|reflexivity].
  apply decode_varint_size in D as [K U]. unfold u64 in U.
  assert (0 <= Z.of_N n < two64)%Z as Hn by (unfold two64; lia).
  unfold int_of_u64. rewrite wrap_off by lia. cbv zeta.
  set (z := Z.of_N n) in *.
  destruct (8 + k + z <? two63)%Z eqn:T.
  - rewrite SL. destruct (8 + Z.of_nat (length r) <? 8 + k + z)%Z eqn:Q; [reflexivity|].
    rewrite (sl_sub_vis b) by lia. cbn [or_panic bind vis].
    replace (Z.to_nat (8 + k + z - (8 + k))) with (N.to_nat n) by lia.
    replace (Z.to_nat (8 + k)) with (8 + Z.to_nat k)%nat by lia.
    rewrite <- (skipn_add (Z.to_nat k) 8 (vis b)), S8. reflexivity.
  - rewrite SL.
    destruct ((two64 <=? 8 + k + z) && (8 + Z.of_nat (length r) <? 8 + k + z - two64))%Z eqn:Q.
    + replace (8 + Z.of_nat (length r) <? 8 + k + z - two64)%Z with true by lia. reflexivity.
    + replace (8 + Z.of_nat (length r) <? 8 + k + z - two64)%Z with false by lia.
      assert (sl_sub b (8 + k) (8 + k + z - two64)%Z = None) as ->.
      { unfold sl_sub. replace (8 + k <=? 8 + k + z - two64)%Z with false by lia. now rewrite andb_false_r. }
      reflexivity.
Qed.

(** ** Success is exactly the wire form *)

Definition fresh_wire_input (w : bytes) (i : input) : Prop := wire_input compact w i /\ fresh_input i.

Lemma cut36 (v : bytes) : (36 <= length v)%nat ->
  exists id ix r, v = id ++ ix ++ r /\ length id = 32%nat /\ length ix = 4%nat.
Proof.
  intros H. exists (firstn 32 v), (firstn 4 (skipn 32 v)), (skipn 4 (skipn 32 v)).
  rewrite firstn_skipn, firstn_skipn, !firstn_length, skipn_length. repeat split; lia.
Qed.

Lemma cut8 (v : bytes) : (8 <= length v)%nat -> exists a r, v = a ++ r /\ length a = 8%nat.
Proof. intros H. exists (firstn 8 v), (skipn 8 v). rewrite firstn_skipn, firstn_length. split; [reflexivity|lia]. Qed.

Lemma hex_dec_rev_eq t id : (exists b, t = hex_encode b) -> hex_dec t = Some id -> t = hex_encode id.
Proof. intros [b ->]. rewrite hex_dec_encode. congruence. Qed.

Lemma input_from_ok v sp i n : (scap (Sl v sp) < 2 ^ 62)%Z ->
  (input_from_bytes (Sl v sp) = Ok (i, n) <->
   exists w r, v = w ++ r /\ fresh_wire_input w i /\ n = Z.of_nat (length w)).
Proof.
  intros Cap. split.
  - intros E. destruct (Z.ltb_spec (slen (Sl v sp)) 36) as [S|S].
    { unfold input_from_bytes in E. replace (slen (Sl v sp) <? 36)%Z with true in E by lia. discriminate. }
    unfold slen in S. cbn [vis] in S.
    destruct (cut36 v ltac:(lia)) as (id & ix & r & -> & Li & Lx).
    rewrite input_from_eq in E by assumption. unfold input_outcome in E.
    destruct (decode_varint (Sl r sp)) as [[l k]|e|] eqn:D; try discriminate. cbv zeta in E.
    pose proof (decode_varint_size _ _ _ D) as [K U].
    destruct (36 + k + Z.of_N l + 4 <? two63)%Z eqn:T.
    2:{ destruct ((two64 <=? 36 + k + Z.of_N l + 4) && (36 + Z.of_nat (length r) <? 36 + k + Z.of_N l + 4 - two64))%Z; discriminate. }
    destruct (36 + Z.of_nat (length r) <? 36 + k + Z.of_N l + 4)%Z eqn:Q; [discriminate|].
    apply decode_varint_inv in D; [|unfold slen; cbn [vis]; lia].
    destruct D as (lb & x & Er & C & ->). cbn [vis] in Er. subst r. rewrite app_length in Q.
    assert (i = mk_in (hex_encode (rev id)) (le_get ix) 0 None (Some (firstn (N.to_nat l) x)) (le_get (firstn 4 (skipn (N.to_nat l) x)))
      /\ n = (36 + Z.of_nat (length lb) + Z.of_N l + 4)%Z) as [-> ->].
    { rewrite Nat2Z.id, skipn_exact in E by reflexivity. split; congruence. }
    clear E. set (s := firstn (N.to_nat l) x). set (y := skipn (N.to_nat l) x).
    assert (length s = N.to_nat l) as Ls by (unfold s; rewrite firstn_length; lia).
    assert (length (firstn 4 y) = 4%nat) as Lq by (rewrite firstn_length; unfold y; rewrite skipn_length; lia).
    exists (id ++ ix ++ lb ++ s ++ firstn 4 y), (skipn 4 y). split; [|split].
    + rewrite <- !app_assoc. unfold s. rewrite (firstn_skipn 4 y). unfold y. now rewrite firstn_skipn.
    + split.
      * exists id, ix, lb, (firstn 4 y). cbn [unlocking script_bytes prev_txid prev_index sequence].
        rewrite hex_dec_encode. replace (nlen s) with l by (unfold nlen; lia).
        split; [reflexivity|]. split; [assumption|]. split; [assumption|]. split; [assumption|]. auto.
      * unfold fresh_input. cbn [unlocking prev_txid prev_sats prev_script]. split; [eauto|]. repeat split. discriminate.
    + rewrite !app_length. lia.
  - intros (w & r & -> & [(id & ix & l & sq & -> & Li & Lx & Lq & C & H & EI & ES) (Fh & Fs & Fp & Fu)] & ->).
    destruct (unlocking i) as [s|] eqn:U; [|congruence]. cbn [script_bytes] in *.
    rewrite <- !app_assoc in *.
    rewrite input_from_eq by assumption.
    unfold input_outcome. rewrite (decode_varint_compact _ _ _ _ C). cbv zeta.
    unfold scap in Cap. cbn [vis spare] in Cap. rewrite !app_length in Cap.
    rewrite !app_length. rewrite Nat2Z.id, skipn_exact by reflexivity.
    replace (36 + Z.of_nat (length l) + Z.of_N (nlen s) + 4 <? two63)%Z with true by (unfold nlen, two63 in *; lia).
    replace (36 + Z.of_nat (length l + (length s + (length sq + length r))) <? 36 + Z.of_nat (length l) + Z.of_N (nlen s) + 4)%Z
      with false by (unfold nlen; lia).
    assert (N.to_nat (nlen s) = length s) as -> by (unfold nlen; lia).
    rewrite firstn_exact, skipn_exact by reflexivity.
    rewrite firstn_exact by assumption.
    apply hex_dec_rev_eq in H; [|assumption].
    f_equal. f_equal; [|unfold nlen; lia]. destruct i as [a b c d e f].
    cbn [prev_txid prev_index prev_sats prev_script unlocking sequence] in *. subst. reflexivity.
Qed.

Lemma output_from_ok v sp o n : (scap (Sl v sp) < 2 ^ 62)%Z ->
  (output_from_bytes (Sl v sp) = Ok (o, n) <->
   exists w r, v = w ++ r /\ wire_output compact w o /\ n = Z.of_nat (length w)).
Proof.
  intros Cap. split.
  - intros E. destruct (Z.ltb_spec (slen (Sl v sp)) 8) as [S|S].
    { unfold output_from_bytes in E. replace (slen (Sl v sp) <? 8)%Z with true in E by lia. discriminate. }
    unfold slen in S. cbn [vis] in S.
    destruct (cut8 v ltac:(lia)) as (a & r & -> & La).
    rewrite output_from_eq in E by assumption. unfold output_outcome in E.
    destruct (decode_varint (Sl r sp)) as [[l k]|e|] eqn:D; try discriminate. cbv zeta in E.
    pose proof (decode_varint_size _ _ _ D) as [K U].
    destruct (8 + k + Z.of_N l <? two63)%Z eqn:T.
    2:{ destruct ((two64 <=? 8 + k + Z.of_N l) && (8 + Z.of_nat (length r) <? 8 + k + Z.of_N l - two64))%Z; discriminate. }
    destruct (8 + Z.of_nat (length r) <? 8 + k + Z.of_N l)%Z eqn:Q; [discriminate|].
    apply decode_varint_inv in D; [|unfold slen; cbn [vis]; lia].
    destruct D as (lb & x & Er & C & ->). cbn [vis] in Er. subst r. rewrite app_length in Q.
    assert (o = mk_out (le_get a) (Some (firstn (N.to_nat l) x)) /\ n = (8 + Z.of_nat (length lb) + Z.of_N l)%Z) as [-> ->].
    { rewrite Nat2Z.id, skipn_exact in E by reflexivity. split; congruence. }
    clear E. set (s := firstn (N.to_nat l) x).
    assert (length s = N.to_nat l) as Ls by (unfold s; rewrite firstn_length; lia).
    exists (a ++ lb ++ s), (skipn (N.to_nat l) x). split; [|split].
    + rewrite <- !app_assoc. unfold s. now rewrite firstn_skipn.
    + exists a, lb, s. cbn [satoshis locking]. replace (nlen s) with l by (unfold nlen; lia).
      split; [reflexivity|]. split; [assumption|]. auto.
    + rewrite !app_length. lia.
  - intros (w & r & -> & (a & l & s & -> & La & C & ES & EL) & ->).
    rewrite <- !app_assoc in *. rewrite output_from_eq by assumption.
    unfold output_outcome. rewrite (decode_varint_compact _ _ _ _ C). cbv zeta.
    unfold scap in Cap. cbn [vis spare] in Cap. rewrite !app_length in Cap.
    rewrite !app_length. rewrite Nat2Z.id, skipn_exact by reflexivity.
    replace (8 + Z.of_nat (length l) + Z.of_N (nlen s) <? two63)%Z with true by (unfold nlen, two63 in *; lia).
    replace (8 + Z.of_nat (length l + (length s + length r)) <? 8 + Z.of_nat (length l) + Z.of_N (nlen s))%Z
      with false by (unfold nlen; lia).
    assert (N.to_nat (nlen s) = length s) as -> by (unfold nlen; lia).
    rewrite firstn_exact by reflexivity. f_equal. f_equal; [|unfold nlen; lia].
    destruct o as [x y]. cbn [satoshis locking] in *. subst. reflexivity.
Qed.

(** ** Panics on a slice without spare capacity *)

Lemma decode_truncated r : decode_varint (Sl r []) = Panic <-> cs_truncated r.
Proof.
  destruct r as [|c r]; [cbn; tauto|]. rewrite decode_varint_eq, app_nil_r. unfold cs_truncated.
  destruct (Nat.leb (announced c) (length (c :: r))) eqn:E; split; try discriminate; try lia; auto.
Qed.

Lemma decode_dec r : cs_truncated r \/ exists n l x, r = l ++ x /\ compact n l.
Proof.
  destruct (decode_varint (Sl r [])) as [[n k]|e|] eqn:D.
  - right. pose proof (decode_varint_size _ _ _ D) as [K _].
    assert (k <= slen (Sl r []))%Z as L.
    { destruct r as [|c r]; [discriminate|]. rewrite decode_varint_eq, app_nil_r in D.
      destruct (Nat.leb (announced c) (length (c :: r))) eqn:E; [|discriminate]. unfold slen. cbn [vis].
      injection D as _ <-. lia. }
    apply decode_varint_inv in D as (l & x & E & C & _); [|assumption]. cbn [vis] in E. eauto.
  - now apply decode_varint_not_err in D.
  - left. now apply decode_truncated.
Qed.

Lemma input_from_panic v : (Z.of_nat (length v) < 2 ^ 62)%Z ->
  (input_from_bytes (Sl v []) = Panic <-> input_panics v).
Proof.
  intros Cap. assert (scap (Sl v []) < 2 ^ 62)%Z as Cap' by (unfold scap; cbn [vis spare length]; lia).
  destruct (Z.ltb_spec (slen (Sl v [])) 36) as [S|S].
  { unfold input_from_bytes. replace (slen (Sl v []) <? 36)%Z with true by lia. split; [discriminate|].
    intros (h & r & -> & L & _). unfold slen in S. cbn [vis] in S. rewrite app_length in S. lia. }
  unfold slen in S. cbn [vis] in S.
  destruct (cut36 v ltac:(lia)) as (id & ix & r & -> & Li & Lx).
  rewrite input_from_eq by assumption. unfold input_outcome.
  assert (forall h r', id ++ ix ++ r = h ++ r' -> length h = 36%nat -> h = id ++ ix /\ r' = r) as Cut.
  { intros h r' E L. rewrite app_assoc in E. 
    assert (firstn 36 ((id ++ ix) ++ r) = firstn 36 (h ++ r')) as E1 by now rewrite E.
    assert (skipn 36 ((id ++ ix) ++ r) = skipn 36 (h ++ r')) as E2 by now rewrite E.
    rewrite !firstn_exact in E1 by (rewrite ?app_length; lia).
    rewrite !skipn_exact in E2 by (rewrite ?app_length; lia). auto. }
  destruct (decode_dec r) as [Tr|(n & l & x & -> & C)].
  - pose proof (proj2 (decode_truncated r) Tr) as ->. split; [|reflexivity]. intros _.
    exists (id ++ ix), r. rewrite <- app_assoc, app_length. split; [reflexivity|]. split; [lia|]. now left.
  - rewrite (decode_varint_compact _ _ _ _ C). cbv zeta.
    pose proof (compact_bound _ _ C) as U. unfold u64 in U.
    assert (1 <= length l <= 9)%nat as LL.
    { pose proof (decode_varint_compact n l x [] C) as D. apply decode_varint_size in D as [D _]. lia. }
    rewrite app_length.
    assert (input_panics (id ++ ix ++ l ++ x) <->
      2 ^ 63 <= 36 + nlen l + n + 4 /\ (36 + nlen l + n + 4 < 2 ^ 64 \/ 36 + nlen l + n + 4 - 2 ^ 64 <= nlen (id ++ ix ++ l ++ x))) as P.
    { split.
      - intros (h & r' & E & L & H). apply Cut in E as [-> ->]; [|assumption].
        destruct H as [Tr|(n' & l' & x' & E & C' & H)].
        + exfalso. apply decode_truncated in Tr. rewrite (decode_varint_compact _ _ _ _ C) in Tr. discriminate.
        + pose proof (decode_varint_compact n l x [] C) as D. rewrite E, (decode_varint_compact n' l' x' [] C') in D.
          injection D as -> D. apply Nat2Z.inj in D. unfold nlen in *. rewrite D in H. exact H.
      - intros H. exists (id ++ ix), (l ++ x). rewrite <- app_assoc, app_length. split; [reflexivity|]. split; [lia|].
        right. exists n, l, x. auto. }
    rewrite P. unfold nlen. rewrite !app_length.
    destruct (36 + Z.of_nat (length l) + Z.of_N n + 4 <? two63)%Z eqn:T.
    + destruct (36 + Z.of_nat (length l + length x) <? 36 + Z.of_nat (length l) + Z.of_N n + 4)%Z;
        (split; [discriminate|]); intros [H _]; exfalso; unfold two63 in T; lia.
    + destruct ((two64 <=? 36 + Z.of_nat (length l) + Z.of_N n + 4)
        && (36 + Z.of_nat (length l + length x) <? 36 + Z.of_nat (length l) + Z.of_N n + 4 - two64))%Z eqn:Q.
      * split; [discriminate|]. intros [_ H]. exfalso. unfold two64 in Q. lia.
      * split; [|reflexivity]. intros _. unfold two63, two64 in *. lia.
Qed.

Lemma output_from_panic v : (Z.of_nat (length v) < 2 ^ 62)%Z ->
  (output_from_bytes (Sl v []) = Panic <-> output_panics v).
Proof.
  intros Cap. assert (scap (Sl v []) < 2 ^ 62)%Z as Cap' by (unfold scap; cbn [vis spare length]; lia).
  destruct (Z.ltb_spec (slen (Sl v [])) 8) as [S|S].
  { unfold output_from_bytes. replace (slen (Sl v []) <? 8)%Z with true by lia. split; [discriminate|].
    intros (h & r & -> & L & _). unfold slen in S. cbn [vis] in S. rewrite app_length in S. lia. }
  unfold slen in S. cbn [vis] in S.
  destruct (cut8 v ltac:(lia)) as (a & r & -> & La).
  rewrite output_from_eq by assumption. unfold output_outcome.
  assert (forall h r', a ++ r = h ++ r' -> length h = 8%nat -> h = a /\ r' = r) as Cut.
  { intros h r' E L.
    assert (firstn 8 (a ++ r) = firstn 8 (h ++ r')) as E1 by now rewrite E.
    assert (skipn 8 (a ++ r) = skipn 8 (h ++ r')) as E2 by now rewrite E.
    rewrite !firstn_exact in E1 by assumption. rewrite !skipn_exact in E2 by assumption. auto. }
  destruct (decode_dec r) as [Tr|(n & l & x & -> & C)].
  - pose proof (proj2 (decode_truncated r) Tr) as ->. split; [|reflexivity]. intros _.
    exists a, r. split; [reflexivity|]. split; [assumption|]. now left.
  - rewrite (decode_varint_compact _ _ _ _ C). cbv zeta.
    pose proof (compact_bound _ _ C) as U. unfold u64 in U.
    assert (1 <= length l <= 9)%nat as LL.
    { pose proof (decode_varint_compact n l x [] C) as D. apply decode_varint_size in D as [D _]. lia. }
    rewrite app_length.
    assert (output_panics (a ++ l ++ x) <-> 2 ^ 63 <= 8 + nlen l + n) as P.
    { split.
      - intros (h & r' & E & L & H). apply Cut in E as [-> ->]; [|assumption].
        destruct H as [Tr|(n' & l' & x' & E & C' & H)].
        + exfalso. apply decode_truncated in Tr. rewrite (decode_varint_compact _ _ _ _ C) in Tr. discriminate.
        + pose proof (decode_varint_compact n l x [] C) as D. rewrite E, (decode_varint_compact n' l' x' [] C') in D.
          injection D as -> D. apply Nat2Z.inj in D. unfold nlen in *. rewrite D in H. exact H.
      - intros H. exists a, (l ++ x). split; [reflexivity|]. split; [assumption|]. right. exists n, l, x. auto. }
    rewrite P. unfold nlen.
    destruct (8 + Z.of_nat (length l) + Z.of_N n <? two63)%Z eqn:T.
    + destruct (8 + Z.of_nat (length l + length x) <? 8 + Z.of_nat (length l) + Z.of_N n)%Z;
        (split; [discriminate|]); intros H; exfalso; unfold two63 in T; lia.
    + destruct ((two64 <=? 8 + Z.of_nat (length l) + Z.of_N n)
        && (8 + Z.of_nat (length l + length x) <? 8 + Z.of_nat (length l) + Z.of_N n - two64))%Z eqn:Q.
      * exfalso. assert (length l = 9%nat \/ length l < 9)%nat as [L9|L9] by lia.
        { unfold two64 in Q. lia. }
        { unfold two64 in Q. lia. }
      * split; [|reflexivity]. intros _. unfold two63 in *. lia.
Qed.
