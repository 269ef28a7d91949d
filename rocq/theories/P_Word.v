(** Proofs about the parser with a 32-bit [int] (C93). *)
From Verif Require Export P_TxParse S_Word.
From Coq Require Import ZifyBool ZifyNat ZifyN.

Definition two31 : Z := 2147483648%Z.
Definition two32w : Z := 4294967296%Z.

Lemma wrap32_small z : (- two31 <= z < two31)%Z -> wrap_at 32 z = z.
Proof. unfold wrap_at, two31. change (2 ^ (32 - 1))%Z with 2147483648%Z. change (2 ^ 32)%Z with 4294967296%Z. lia. Qed.

Lemma sl_from_len s lo q : sl_from s lo = Some q -> (Z.of_nat (length (vis q)) <= slen s - lo)%Z.
Proof.
  unfold sl_from, sl_sub. destruct ((0 <=? lo) && (lo <=? slen s) && (slen s <=? scap s))%Z eqn:B; [|discriminate].
  intros [= <-]. cbn [vis]. rewrite firstn_length. lia.
Qed.

Lemma sl_from_cap s lo q : sl_from s lo = Some q -> (scap q = scap s - lo)%Z.
Proof.
  unfold sl_from, sl_sub. destruct ((0 <=? lo) && (lo <=? slen s) && (slen s <=? scap s))%Z eqn:B; [|discriminate].
  intros [= <-]. unfold scap, slen in *. cbn [vis spare].
  rewrite firstn_length, !skipn_length, app_length. lia.
Qed.

Lemma decode_varint_cap v sp n k : decode_varint (Sl v sp) = Ok (n, k) -> (k <= scap (Sl v sp))%Z.
Proof.
  destruct v as [|c v]; [discriminate|]. rewrite decode_varint_eq.
  destruct (Nat.leb (announced c) (length (c :: v ++ sp))) eqn:E; [|discriminate].
  intros D. assert (k = Z.of_nat (announced c)) as -> by congruence.
  unfold scap. cbn [vis spare length] in *. rewrite app_length in E. lia.
Qed.

Lemma int_at_32 n : int_at 32 n = wrap_at 32 (Z.of_N (n mod 2 ^ 32)).
Proof.
  unfold int_at, wrap_at. change (2 ^ (32 - 1))%Z with 2147483648%Z. change (2 ^ 32)%Z with 4294967296%Z.
  change (2 ^ 32) with 4294967296. lia.
Qed.


Lemma wrap_total32 (o n k : Z) : (0 <= o <= 100 -> 0 <= k <= 100 -> 0 <= n < two32w ->
  wrap_at 32 (wrap_at 32 (o + wrap_at 32 n) + k) =
  (if o + n + k <? two31 then o + n + k
   else if o + n + k <? two31 + two32w then o + n + k - two32w else o + n + k - 2 * two32w))%Z.
Proof.
  unfold wrap_at, two31, two32w. change (2 ^ (32 - 1))%Z with 2147483648%Z. change (2 ^ 32)%Z with 4294967296%Z. intros A B C.
  destruct (o + n + k <? 2147483648)%Z eqn:E1.
  - lia.
  - destruct (o + n + k <? 2147483648 + 4294967296)%Z eqn:E2; lia.
Qed.

Lemma wrap_off32 (o n : Z) : (0 <= o <= 100 -> 0 <= n < two32w ->
  wrap_at 32 (o + wrap_at 32 n) =
  (if o + n <? two31 then o + n else o + n - two32w))%Z.
Proof. unfold wrap_at, two31, two32w. change (2 ^ (32 - 1))%Z with 2147483648%Z. change (2 ^ 32)%Z with 4294967296%Z. intros A C. destruct (o + n <? 2147483648)%Z eqn:E; lia. Qed.

(** ** Input parsing, exactly *)

Definition input_outcome32 (id ix r : bytes) (sp : bytes) : res (input * Z) :=
  match decode_varint (Sl r sp) with
  | Ok (n0, k) =>
      let n := n0 mod 2 ^ 32 in
      let total := (36 + k + Z.of_N n + 4)%Z in
      let len := (36 + Z.of_nat (length r))%Z in
      if (total <? two31)%Z then
        if (len <? total)%Z then Err EInputShort
        else Ok (mk_in (hex_encode (rev id)) (le_get ix) 0 None
                   (Some (firstn (N.to_nat n) (skipn (Z.to_nat k) r)))
                   (le_get (firstn 4 (skipn (N.to_nat n) (skipn (Z.to_nat k) r)))), total)
      else if ((two32w <=? total) && (len <? total - two32w))%Z then Err EInputShort else Panic
  | Err e => Err e
  | Panic => Panic
  end.



Lemma input_from_eq32 id ix r sp : length id = 32%nat -> length ix = 4%nat ->
  (scap (Sl (id ++ ix ++ r) sp) < 2 ^ 31)%Z ->
  (input_from_at 32) (Sl (id ++ ix ++ r) sp) = input_outcome32 id ix r sp.
Proof.
  intros Li Lx Cap. unfold input_from_at, input_outcome32.
  set (b := Sl (id ++ ix ++ r) sp) in *.
  assert (slen b = 36 + Z.of_nat (length r))%Z as SL by (unfold slen, b; cbn [vis]; rewrite !app_length; lia).
  unfold scap in Cap. fold (slen b) in Cap.
  replace (slen b <? 36)%Z with false by lia.
  rewrite (sl_sub_vis b 0 32) by lia. cbn [or_panic bind vis].
  change (Z.to_nat (32 - 0)) with 32%nat. change (Z.to_nat 0) with 0%nat. rewrite skipn_O.
  assert (firstn 32 (vis b) = id) as -> by (apply firstn_exact; assumption). rewrite reverse_bytes_rev.
  rewrite (sl_sub_vis b 32 36) by lia. cbn [or_panic bind vis].
  change (Z.to_nat (36 - 32)) with 4%nat. change (Z.to_nat 32) with 32%nat. change (Z.to_nat 36) with 36%nat.
  assert (skipn 32 (vis b) = ix ++ r) as S32 by (apply skipn_exact; assumption).
  assert (skipn 36 (vis b) = r) as S36.
  { unfold b. cbn [vis]. rewrite app_assoc. apply skipn_exact. rewrite app_length. lia. }
  rewrite S32. rewrite (firstn_exact ix) by assumption.
  rewrite sl_le_exact by assumption. cbn [or_panic bind].
  rewrite (sl_from_vis b 36) by lia. cbn [or_panic bind]. change (Z.to_nat 36) with 36%nat. rewrite S36.
  change (spare b) with sp.
  destruct (decode_varint (Sl r sp)) as [[n0 k]|e|] eqn:D; cbn [bind]; [|reflexivity|reflexivity].
  apply decode_varint_size in D as [K U]. clear U. rewrite !int_at_32. set (n := n0 mod 2 ^ 32).
  assert (0 <= Z.of_N n < two32w)%Z as Hn
    by (pose proof (N.mod_lt n0 (2 ^ 32) ltac:(discriminate)); change (2 ^ 32) with 4294967296 in *; unfold two32w, n; lia).
  clearbody n. rewrite wrap_total32, wrap_off32 by lia. cbv zeta.
  set (z := Z.of_N n) in *.
  destruct (36 + k + z + 4 <? two31)%Z eqn:T.
  - rewrite SL. destruct (36 + Z.of_nat (length r) <? 36 + k + z + 4)%Z eqn:Q; [reflexivity|].
    replace (36 + k + z <? two31)%Z with true by lia.
    rewrite (sl_sub_vis b) by lia. cbn [or_panic bind vis].
    rewrite (sl_from_vis b) by lia. cbn [or_panic bind].
    replace (Z.to_nat (36 + k + z - (36 + k))) with (N.to_nat n) by lia.
    replace (Z.to_nat (36 + k)) with (36 + Z.to_nat k)%nat by lia.
    rewrite <- (skipn_add (Z.to_nat k) 36 (vis b)), S36.
    replace (Z.to_nat (36 + k + z)) with (36 + (Z.to_nat k + N.to_nat n))%nat by lia.
    rewrite <- (skipn_add (Z.to_nat k + N.to_nat n) 36 (vis b)), S36.
    rewrite <- (skipn_add (N.to_nat n) (Z.to_nat k) r).
    rewrite sl_le_get by (cbn [vis]; rewrite !skipn_length; lia). reflexivity.
  - assert (36 + k + z + 4 < two31 + two32w)%Z by (unfold two31, two32w in *; lia).
    replace (36 + k + z + 4 <? two31 + two32w)%Z with true by (unfold two31, two32w in *; lia).
    assert (36 + k + z + 4 - two32w < two31)%Z by (unfold two31, two32w in *; lia).
    rewrite SL.
    destruct ((two32w <=? 36 + k + z + 4) && (36 + Z.of_nat (length r) <? 36 + k + z + 4 - two32w))%Z eqn:Q.
    + replace (36 + Z.of_nat (length r) <? 36 + k + z + 4 - two32w)%Z with true by lia. reflexivity.
    + replace (36 + Z.of_nat (length r) <? 36 + k + z + 4 - two32w)%Z with false by lia.
      destruct (36 + k + z <? two31)%Z eqn:Q2.
      * destruct (sl_sub b (36 + k) (36 + k + z)) as [s0|]; [|reflexivity]. cbn [or_panic bind].
        destruct (sl_from b (36 + k + z)) as [q|] eqn:F; [|reflexivity]. cbn [or_panic bind].
        assert (sl_le 4 q = None) as ->; [|reflexivity].
        apply sl_from_len in F. unfold sl_le. rewrite (proj2 (Nat.leb_gt _ _)); [reflexivity|]. unfold two31 in *. lia.
      * assert (sl_sub b (36 + k) (36 + k + z - two32w) = None) as ->; [|reflexivity].
        unfold sl_sub. replace (36 + k <=? 36 + k + z - two32w)%Z with false by lia. now rewrite andb_false_r.
Qed.

Definition output_outcome32 (v r : bytes) (sp : bytes) : res (output * Z) :=
  match decode_varint (Sl r sp) with
  | Ok (n0, k) =>
      let n := n0 mod 2 ^ 32 in
      let total := (8 + k + Z.of_N n)%Z in
      let len := (8 + Z.of_nat (length r))%Z in
      if (total <? two31)%Z then
        if (len <? total)%Z then Err EOutputShort
        else Ok (mk_out (le_get v) (Some (firstn (N.to_nat n) (skipn (Z.to_nat k) r))), total)
      else if ((two32w <=? total) && (len <? total - two32w))%Z then Err EOutputShort else Panic
  | Err e => Err e
  | Panic => Panic
  end.

Lemma output_from_eq32 v r sp : length v = 8%nat ->
  (scap (Sl (v ++ r) sp) < 2 ^ 31)%Z ->
  (output_from_at 32) (Sl (v ++ r) sp) = output_outcome32 v r sp.
Proof.
  intros Lv Cap. unfold output_from_at, output_outcome32.
  set (b := Sl (v ++ r) sp) in *.
  assert (slen b = 8 + Z.of_nat (length r))%Z as SL by (unfold slen, b; cbn [vis]; rewrite !app_length; lia).
  unfold scap in Cap. fold (slen b) in Cap.
  replace (slen b <? 8)%Z with false by lia.
  rewrite (sl_sub_vis b 0 8) by lia. cbn [or_panic bind vis].
  change (Z.to_nat (8 - 0)) with 8%nat. change (Z.to_nat 0) with 0%nat. rewrite skipn_O.
  assert (firstn 8 (vis b) = v) as -> by (apply firstn_exact; assumption).
  rewrite sl_le_exact by assumption. cbn [or_panic bind].
  assert (skipn 8 (vis b) = r) as S8 by (apply skipn_exact; assumption).
  rewrite (sl_from_vis b 8) by lia. cbn [or_panic bind]. change (Z.to_nat 8) with 8%nat. rewrite S8.
  change (spare b) with sp.
  destruct (decode_varint (Sl r sp)) as [[n0 k]|e|] eqn:D; cbn [bind]; [|reflexivity|reflexivity].
  apply decode_varint_size in D as [K U]. clear U. rewrite !int_at_32. set (n := n0 mod 2 ^ 32).
  assert (0 <= Z.of_N n < two32w)%Z as Hn
    by (pose proof (N.mod_lt n0 (2 ^ 32) ltac:(discriminate)); change (2 ^ 32) with 4294967296 in *; unfold two32w, n; lia).
  clearbody n. rewrite wrap_off32 by lia. cbv zeta.
  set (z := Z.of_N n) in *.
  destruct (8 + k + z <? two31)%Z eqn:T.
  - rewrite SL. destruct (8 + Z.of_nat (length r) <? 8 + k + z)%Z eqn:Q; [reflexivity|].
    rewrite (sl_sub_vis b) by lia. cbn [or_panic bind vis].
    replace (Z.to_nat (8 + k + z - (8 + k))) with (N.to_nat n) by lia.
    replace (Z.to_nat (8 + k)) with (8 + Z.to_nat k)%nat by lia.
    rewrite <- (skipn_add (Z.to_nat k) 8 (vis b)), S8. reflexivity.
  - rewrite SL.
    destruct ((two32w <=? 8 + k + z) && (8 + Z.of_nat (length r) <? 8 + k + z - two32w))%Z eqn:Q.
    + replace (8 + Z.of_nat (length r) <? 8 + k + z - two32w)%Z with true by lia. reflexivity.
    + replace (8 + Z.of_nat (length r) <? 8 + k + z - two32w)%Z with false by lia.
      assert (sl_sub b (8 + k) (8 + k + z - two32w)%Z = None) as ->.
      { unfold sl_sub. replace (8 + k <=? 8 + k + z - two32w)%Z with false by lia. now rewrite andb_false_r. }
      reflexivity.
Qed.

(** ** Success is exactly the wire form *)

Definition fresh_wire_input32 (w : bytes) (i : input) : Prop := wire_input compact_mod w i /\ fresh_input i.







Lemma input_from_ok32 v sp i n : (scap (Sl v sp) < 2 ^ 31)%Z ->
  ((input_from_at 32) (Sl v sp) = Ok (i, n) <->
   exists w r, v = w ++ r /\ fresh_wire_input32 w i /\ n = Z.of_nat (length w)).
Proof.
  intros Cap. split.
  - intros E. destruct (Z.ltb_spec (slen (Sl v sp)) 36) as [S|S].
    { unfold input_from_at in E. replace (slen (Sl v sp) <? 36)%Z with true in E by lia. discriminate. }
    unfold slen in S. cbn [vis] in S.
    destruct (cut36 v ltac:(lia)) as (id & ix & r & -> & Li & Lx).
    rewrite input_from_eq32 in E by assumption. unfold input_outcome32 in E.
    destruct (decode_varint (Sl r sp)) as [[l0 k]|e|] eqn:D; try discriminate. cbv zeta in E.
    pose proof (decode_varint_size _ _ _ D) as [K U]. clear U. remember (l0 mod 2 ^ 32) as l eqn:El in E.
    destruct (36 + k + Z.of_N l + 4 <? two31)%Z eqn:T.
    2:{ destruct ((two32w <=? 36 + k + Z.of_N l + 4) && (36 + Z.of_nat (length r) <? 36 + k + Z.of_N l + 4 - two32w))%Z; discriminate. }
    destruct (36 + Z.of_nat (length r) <? 36 + k + Z.of_N l + 4)%Z eqn:Q; [discriminate|].
    apply decode_varint_inv in D; [|unfold slen; cbn [vis]; lia].
    destruct D as (lb & x & Er & C0 & ->). cbn [vis] in Er. subst r.
    assert (compact_mod l lb) as C by (exists l0; auto). clear C0 El. rewrite app_length in Q.
    assert (i = mk_in (hex_encode (rev id)) (le_get ix) 0 None (Some (firstn (N.to_nat l) x)) (le_get (firstn 4 (skipn (N.to_nat l) x)))
      /\ n = (36 + Z.of_nat (length lb) + Z.of_N l + 4)%Z) as [-> ->].
    { rewrite Nat2Z.id, skipn_exact in E by reflexivity. split; congruence. }
    clear E. set (s := firstn (N.to_nat l) x). set (y := skipn (N.to_nat l) x).
    assert (length s = N.to_nat l) as Ls by (unfold s; rewrite firstn_length; lia).
    assert (length (firstn 4 y) = 4%nat) as Lq by (rewrite firstn_length; unfold y; rewrite skipn_length; lia).
    exists (id ++ ix ++ lb ++ s ++ firstn 4 y), (skipn 4 y). split; [|split].
    + rewrite <- !app_assoc. unfold s. rewrite (firstn_skipn 4 y). unfold y. now rewrite firstn_skipn.
    + split.
      * exists id, ix, lb, (firstn 4 y). cbn [unlocking script_bytes prev_txid prev_index sequence].
        rewrite hex_dec_encode. replace (nlen s) with l by (unfold nlen; lia).
        split; [reflexivity|]. split; [assumption|]. split; [assumption|]. split; [assumption|]. auto.
      * unfold fresh_input. cbn [unlocking prev_txid prev_sats prev_script]. split; [eauto|]. repeat split. discriminate.
    + rewrite !app_length. lia.
  - intros (w & r & -> & [(id & ix & l & sq & -> & Li & Lx & Lq & C & H & EI & ES) (Fh & Fs & Fp & Fu)] & ->).
    destruct (unlocking i) as [s|] eqn:U; [|congruence]. cbn [script_bytes] in *.
    rewrite <- !app_assoc in *.
    rewrite input_from_eq32 by assumption.
    unfold input_outcome32. destruct C as (m & C & Em). rewrite (decode_varint_compact _ _ _ _ C), Em. cbv zeta.
    unfold scap in Cap. cbn [vis spare] in Cap. rewrite !app_length in Cap.
    rewrite !app_length. rewrite Nat2Z.id, skipn_exact by reflexivity.
    replace (36 + Z.of_nat (length l) + Z.of_N (nlen s) + 4 <? two31)%Z with true by (unfold nlen, two31 in *; lia).
    replace (36 + Z.of_nat (length l + (length s + (length sq + length r))) <? 36 + Z.of_nat (length l) + Z.of_N (nlen s) + 4)%Z
      with false by (unfold nlen; lia).
    assert (N.to_nat (nlen s) = length s) as -> by (unfold nlen; lia).
    rewrite firstn_exact, skipn_exact by reflexivity.
    rewrite firstn_exact by assumption.
    apply hex_dec_rev_eq in H; [|assumption].
    f_equal. f_equal; [|unfold nlen; lia]. destruct i as [a b c d e f].
    cbn [prev_txid prev_index prev_sats prev_script unlocking sequence] in *. subst. reflexivity.
Qed.

Lemma output_from_ok32 v sp o n : (scap (Sl v sp) < 2 ^ 31)%Z ->
  ((output_from_at 32) (Sl v sp) = Ok (o, n) <->
   exists w r, v = w ++ r /\ wire_output compact_mod w o /\ n = Z.of_nat (length w)).
Proof.
  intros Cap. split.
  - intros E. destruct (Z.ltb_spec (slen (Sl v sp)) 8) as [S|S].
    { unfold output_from_at in E. replace (slen (Sl v sp) <? 8)%Z with true in E by lia. discriminate. }
    unfold slen in S. cbn [vis] in S.
    destruct (cut8 v ltac:(lia)) as (a & r & -> & La).
    rewrite output_from_eq32 in E by assumption. unfold output_outcome32 in E.
    destruct (decode_varint (Sl r sp)) as [[l0 k]|e|] eqn:D; try discriminate. cbv zeta in E.
    pose proof (decode_varint_size _ _ _ D) as [K U]. clear U. remember (l0 mod 2 ^ 32) as l eqn:El in E.
    destruct (8 + k + Z.of_N l <? two31)%Z eqn:T.
    2:{ destruct ((two32w <=? 8 + k + Z.of_N l) && (8 + Z.of_nat (length r) <? 8 + k + Z.of_N l - two32w))%Z; discriminate. }
    destruct (8 + Z.of_nat (length r) <? 8 + k + Z.of_N l)%Z eqn:Q; [discriminate|].
    apply decode_varint_inv in D; [|unfold slen; cbn [vis]; lia].
    destruct D as (lb & x & Er & C0 & ->). cbn [vis] in Er. subst r.
    assert (compact_mod l lb) as C by (exists l0; auto). clear C0 El. rewrite app_length in Q.
    assert (o = mk_out (le_get a) (Some (firstn (N.to_nat l) x)) /\ n = (8 + Z.of_nat (length lb) + Z.of_N l)%Z) as [-> ->].
    { rewrite Nat2Z.id, skipn_exact in E by reflexivity. split; congruence. }
    clear E. set (s := firstn (N.to_nat l) x).
    assert (length s = N.to_nat l) as Ls by (unfold s; rewrite firstn_length; lia).
    exists (a ++ lb ++ s), (skipn (N.to_nat l) x). split; [|split].
    + rewrite <- !app_assoc. unfold s. now rewrite firstn_skipn.
    + exists a, lb, s. cbn [satoshis locking]. replace (nlen s) with l by (unfold nlen; lia).
      split; [reflexivity|]. split; [assumption|]. auto.
    + rewrite !app_length. lia.
  - intros (w & r & -> & (a & l & s & -> & La & C & ES & EL) & ->).
    rewrite <- !app_assoc in *. rewrite output_from_eq32 by assumption.
    unfold output_outcome32. destruct C as (m & C & Em). rewrite (decode_varint_compact _ _ _ _ C), Em. cbv zeta.
    unfold scap in Cap. cbn [vis spare] in Cap. rewrite !app_length in Cap.
    rewrite !app_length. rewrite Nat2Z.id, skipn_exact by reflexivity.
    replace (8 + Z.of_nat (length l) + Z.of_N (nlen s) <? two31)%Z with true by (unfold nlen, two31 in *; lia).
    replace (8 + Z.of_nat (length l + (length s + length r)) <? 8 + Z.of_nat (length l) + Z.of_N (nlen s))%Z
      with false by (unfold nlen; lia).
    assert (N.to_nat (nlen s) = length s) as -> by (unfold nlen; lia).
    rewrite firstn_exact by reflexivity. f_equal. f_equal; [|unfold nlen; lia].
    destruct o as [x y]. cbn [satoshis locking] in *. subst. reflexivity.
Qed.

(** ** Panics on a slice without spare capacity *)





Lemma input_from_panic32 v : (Z.of_nat (length v) < 2 ^ 31)%Z ->
  ((input_from_at 32) (Sl v []) = Panic <-> input_panics32 v).
Proof.
  intros Cap. assert (scap (Sl v []) < 2 ^ 31)%Z as Cap' by (unfold scap; cbn [vis spare length]; lia).
  destruct (Z.ltb_spec (slen (Sl v [])) 36) as [S|S].
  { unfold input_from_at. replace (slen (Sl v []) <? 36)%Z with true by lia. split; [discriminate|].
    intros (h & r & -> & L & _). unfold slen in S. cbn [vis] in S. rewrite app_length in S. lia. }
  unfold slen in S. cbn [vis] in S.
  destruct (cut36 v ltac:(lia)) as (id & ix & r & -> & Li & Lx).
  rewrite input_from_eq32 by assumption. unfold input_outcome32.
  assert (forall h r', id ++ ix ++ r = h ++ r' -> length h = 36%nat -> h = id ++ ix /\ r' = r) as Cut.
  { intros h r' E L. rewrite app_assoc in E. 
    assert (firstn 36 ((id ++ ix) ++ r) = firstn 36 (h ++ r')) as E1 by now rewrite E.
    assert (skipn 36 ((id ++ ix) ++ r) = skipn 36 (h ++ r')) as E2 by now rewrite E.
    rewrite !firstn_exact in E1 by (rewrite ?app_length; lia).
    rewrite !skipn_exact in E2 by (rewrite ?app_length; lia). auto. }
  destruct (decode_dec r) as [Tr|(n & l & x & -> & C)].
  - pose proof (proj2 (decode_truncated r) Tr) as ->. split; [|reflexivity]. intros _.
    exists (id ++ ix), r. rewrite <- app_assoc, app_length. split; [reflexivity|]. split; [lia|]. now left.
  - rewrite (decode_varint_compact _ _ _ _ C). cbv zeta.
    pose proof (N.mod_lt n (2 ^ 32) ltac:(discriminate)) as U.
    assert (1 <= length l <= 9)%nat as LL.
    { pose proof (decode_varint_compact n l x [] C) as D. apply decode_varint_size in D as [D _]. lia. }
    rewrite app_length.
    assert (input_panics32 (id ++ ix ++ l ++ x) <->
      2 ^ 31 <= 36 + nlen l + n mod 2 ^ 32 + 4 /\ (36 + nlen l + n mod 2 ^ 32 + 4 < 2 ^ 32 \/ 36 + nlen l + n mod 2 ^ 32 + 4 - 2 ^ 32 <= nlen (id ++ ix ++ l ++ x))) as P.
    { split.
      - intros (h & r' & E & L & H). apply Cut in E as [-> ->]; [|assumption].
        destruct H as [Tr|(n' & l' & x' & E & C' & H)].
        + exfalso. apply decode_truncated in Tr. rewrite (decode_varint_compact _ _ _ _ C) in Tr. discriminate.
        + pose proof (decode_varint_compact n l x [] C) as D. rewrite E, (decode_varint_compact n' l' x' [] C') in D.
          injection D as -> D. apply Nat2Z.inj in D. unfold nlen in *. rewrite D in H. exact H.
      - intros H. exists (id ++ ix), (l ++ x). rewrite <- app_assoc, app_length. split; [reflexivity|]. split; [lia|].
        right. exists n, l, x. auto. }
    rewrite P. clear P. set (z := n mod 2 ^ 32) in *. clearbody z. change (2 ^ 31) with 2147483648. change (2 ^ 32) with 4294967296 in *. unfold nlen. rewrite !app_length.
    destruct (36 + Z.of_nat (length l) + Z.of_N z + 4 <? two31)%Z eqn:T.
    + destruct (36 + Z.of_nat (length l + length x) <? 36 + Z.of_nat (length l) + Z.of_N z + 4)%Z;
        (split; [discriminate|]); intros [H _]; exfalso; unfold two31 in T; lia.
    + destruct ((two32w <=? 36 + Z.of_nat (length l) + Z.of_N z + 4)
        && (36 + Z.of_nat (length l + length x) <? 36 + Z.of_nat (length l) + Z.of_N z + 4 - two32w))%Z eqn:Q.
      * split; [discriminate|]. intros [_ H]. exfalso. unfold two32w in Q. lia.
      * split; [|reflexivity]. intros _. unfold two31, two32w in *. lia.
Qed.

Lemma output_from_panic32 v : (Z.of_nat (length v) < 2 ^ 31)%Z ->
  ((output_from_at 32) (Sl v []) = Panic <-> output_panics32 v).
Proof.
  intros Cap. assert (scap (Sl v []) < 2 ^ 31)%Z as Cap' by (unfold scap; cbn [vis spare length]; lia).
  destruct (Z.ltb_spec (slen (Sl v [])) 8) as [S|S].
  { unfold output_from_at. replace (slen (Sl v []) <? 8)%Z with true by lia. split; [discriminate|].
    intros (h & r & -> & L & _). unfold slen in S. cbn [vis] in S. rewrite app_length in S. lia. }
  unfold slen in S. cbn [vis] in S.
  destruct (cut8 v ltac:(lia)) as (a & r & -> & La).
  rewrite output_from_eq32 by assumption. unfold output_outcome32.
  assert (forall h r', a ++ r = h ++ r' -> length h = 8%nat -> h = a /\ r' = r) as Cut.
  { intros h r' E L.
    assert (firstn 8 (a ++ r) = firstn 8 (h ++ r')) as E1 by now rewrite E.
    assert (skipn 8 (a ++ r) = skipn 8 (h ++ r')) as E2 by now rewrite E.
    rewrite !firstn_exact in E1 by assumption. rewrite !skipn_exact in E2 by assumption. auto. }
  destruct (decode_dec r) as [Tr|(n & l & x & -> & C)].
  - pose proof (proj2 (decode_truncated r) Tr) as ->. split; [|reflexivity]. intros _.
    exists a, r. split; [reflexivity|]. split; [assumption|]. now left.
  - rewrite (decode_varint_compact _ _ _ _ C). cbv zeta.
    pose proof (N.mod_lt n (2 ^ 32) ltac:(discriminate)) as U.
    assert (1 <= length l <= 9)%nat as LL.
    { pose proof (decode_varint_compact n l x [] C) as D. apply decode_varint_size in D as [D _]. lia. }
    rewrite app_length.
    assert (output_panics32 (a ++ l ++ x) <-> 2 ^ 31 <= 8 + nlen l + n mod 2 ^ 32) as P.
    { split.
      - intros (h & r' & E & L & H). apply Cut in E as [-> ->]; [|assumption].
        destruct H as [Tr|(n' & l' & x' & E & C' & H)].
        + exfalso. apply decode_truncated in Tr. rewrite (decode_varint_compact _ _ _ _ C) in Tr. discriminate.
        + pose proof (decode_varint_compact n l x [] C) as D. rewrite E, (decode_varint_compact n' l' x' [] C') in D.
          injection D as -> D. apply Nat2Z.inj in D. unfold nlen in *. rewrite D in H. exact H.
      - intros H. exists a, (l ++ x). split; [reflexivity|]. split; [assumption|]. right. exists n, l, x. auto. }
    rewrite P. clear P. set (z := n mod 2 ^ 32) in *. clearbody z. change (2 ^ 31) with 2147483648. change (2 ^ 32) with 4294967296 in *. unfold nlen.
    destruct (8 + Z.of_nat (length l) + Z.of_N z <? two31)%Z eqn:T.
    + destruct (8 + Z.of_nat (length l + length x) <? 8 + Z.of_nat (length l) + Z.of_N z)%Z;
        (split; [discriminate|]); intros H; exfalso; unfold two31 in T; lia.
    + destruct ((two32w <=? 8 + Z.of_nat (length l) + Z.of_N z)
        && (8 + Z.of_nat (length l + length x) <? 8 + Z.of_nat (length l) + Z.of_N z - two32w))%Z eqn:Q.
      * exfalso. assert (length l = 9%nat \/ length l < 9)%nat as [L9|L9] by lia.
        { unfold two32w in Q. lia. }
        { unfold two32w in Q. lia. }
      * split; [|reflexivity]. intros _. unfold two31 in *. lia.
Qed.

(** ** A loop of item parsers *)
Section Items.
  Variable A : Type.
  Variable f : slice -> res (A * Z).
  Variable W : bytes -> A -> Prop.
  Hypothesis f_ok : forall v sp a n, (scap (Sl v sp) < 2 ^ 31)%Z ->
    (f (Sl v sp) = Ok (a, n) <-> exists w r, v = w ++ r /\ W w a /\ n = Z.of_nat (length w)).

  Definition item_step32 (b : slice) (st : Z * list A) : res (Z * list A) :=
    let '(offset, l) := st in
    rest <- or_panic (sl_from b offset) ;;
    '(i, size) <- f rest ;;
    Ok (wrap_at 32 (offset + size), l ++ [i]).

  Lemma item_step_eq32 pre rest sp l : (scap (Sl (pre ++ rest) sp) < 2 ^ 31)%Z ->
    item_step32 (Sl (pre ++ rest) sp) (Z.of_nat (length pre), l) =
    match f (Sl rest sp) with
    | Ok (a, n) => Ok ((Z.of_nat (length pre) + n)%Z, l ++ [a])
    | Err e => Err e
    | Panic => Panic
    end.
  Proof.
    intros Cap. unfold item_step32. unfold scap in Cap. cbn [vis spare] in Cap. rewrite app_length in Cap.
    rewrite sl_from_vis by (unfold slen; cbn [vis]; rewrite app_length; lia). cbn [or_panic bind vis spare].
    rewrite Nat2Z.id, skipn_exact by reflexivity.
    destruct (f (Sl rest sp)) as [[a n]|e|] eqn:E; cbn [bind]; try reflexivity.
    apply f_ok in E as (w & r & -> & _ & ->); [|unfold scap; cbn [vis spare]; lia].
    rewrite app_length in Cap. rewrite wrap32_small by (unfold two31; lia). reflexivity.
  Qed.

  Lemma items_ok32 n : forall pre rest sp l off l', (scap (Sl (pre ++ rest) sp) < 2 ^ 31)%Z ->
    (nat_loop (item_step32 (Sl (pre ++ rest) sp)) n (Z.of_nat (length pre), l) = Ok (off, l') <->
     exists ws is r, rest = concat ws ++ r /\ Forall2 W ws is /\ length is = n /\
       off = Z.of_nat (length pre + length (concat ws)) /\ l' = l ++ is).
  Proof.
    induction n as [|n IH]; intros pre rest sp l off l' Cap; cbn [nat_loop].
    - split.
      + intros E. injection E as <- <-. exists [], [], rest. cbn [concat app length]. rewrite app_nil_r.
        repeat split; [constructor|lia].
      + intros (ws & is & r & -> & F & L & -> & ->). destruct is; [|discriminate]. inversion F; subst.
        cbn [concat length]. rewrite app_nil_r, Nat.add_0_r. reflexivity.
    - rewrite item_step_eq32 by assumption. split.
      + destruct (f (Sl rest sp)) as [[a k]|e|] eqn:E; try discriminate. cbn [bind].
        apply f_ok in E as (w & r & -> & HW & ->);
          [|unfold scap in *; cbn [vis spare] in *; rewrite !app_length in *; lia].
        rewrite app_assoc in *. rewrite <- Nat2Z.inj_add, <- app_length. intros E.
        apply IH in E as (ws & is & r' & -> & F & L & -> & ->); [|assumption].
        exists (w :: ws), (a :: is), r'. cbn [concat length]. rewrite <- !app_assoc. cbn [app].
        repeat split; [now constructor|lia|]. rewrite !app_length. lia.
      + intros (ws & is & r & -> & F & L & -> & ->). destruct is as [|a is]; [discriminate|].
        inversion F as [|w x ws' ? HW F']; subst. cbn [concat] in *. rewrite <- !app_assoc in *.
        assert (f (Sl (w ++ concat ws' ++ r) sp) = Ok (a, Z.of_nat (length w))) as ->.
        { apply f_ok; [unfold scap in *; cbn [vis spare] in *; rewrite !app_length in *; lia|]. eauto. }
        cbn [bind]. rewrite <- Nat2Z.inj_add, <- app_length. rewrite app_assoc in *.
        apply IH; [assumption|]. exists ws', is, r. cbn [length] in L. rewrite <- app_assoc. cbn [app].
        repeat split; try assumption; [lia|]. rewrite !app_length. lia.
  Qed.

  Lemma items_panic32 n : forall pre rest sp l, (scap (Sl (pre ++ rest) sp) < 2 ^ 31)%Z ->
    (nat_loop (item_step32 (Sl (pre ++ rest) sp)) n (Z.of_nat (length pre), l) = Panic <->
     exists ws is r, rest = concat ws ++ r /\ Forall2 W ws is /\ (length is < n)%nat /\ f (Sl r sp) = Panic).
  Proof.
    induction n as [|n IH]; intros pre rest sp l Cap; cbn [nat_loop].
    - split; [discriminate|]. intros (ws & is & r & _ & _ & L & _). lia.
    - rewrite item_step_eq32 by assumption. split.
      + destruct (f (Sl rest sp)) as [[a k]|e|] eqn:E; try discriminate; cbn [bind].
        * apply f_ok in E as (w & r & -> & HW & ->);
            [|unfold scap in *; cbn [vis spare] in *; rewrite !app_length in *; lia].
          rewrite app_assoc in *. rewrite <- Nat2Z.inj_add, <- app_length. intros E.
          apply IH in E as (ws & is & r' & -> & F & L & P); [|assumption].
          exists (w :: ws), (a :: is), r'. cbn [concat length]. rewrite <- !app_assoc.
          repeat split; [now constructor|lia|assumption].
        * intros _. exists [], [], rest. cbn [concat app length]. repeat split; [constructor|lia|assumption].
      + intros (ws & is & r & -> & F & L & P). destruct is as [|a is].
        * inversion F; subst. cbn [concat app]. rewrite P. reflexivity.
        * inversion F as [|w x ws' ? HW F']; subst. cbn [concat] in *. rewrite <- !app_assoc in *.
          assert (f (Sl (w ++ concat ws' ++ r) sp) = Ok (a, Z.of_nat (length w))) as ->.
          { apply f_ok; [unfold scap in *; cbn [vis spare] in *; rewrite !app_length in *; lia|]. eauto. }
          cbn [bind]. rewrite <- Nat2Z.inj_add, <- app_length. rewrite app_assoc in *.
          apply IH; [assumption|]. exists ws', is, r. cbn [length] in L.
          repeat split; try assumption. lia.
  Qed.
End Items.

Lemma tx_input_items32 b : tx_input_step_at 32 b = item_step32 input (input_from_at 32) b.
Proof. reflexivity. Qed.
Lemma tx_output_items32 b : tx_output_step_at 32 b = item_step32 output (output_from_at 32) b.
Proof. reflexivity. Qed.

(** ** The whole parser, stage by stage *)

Definition parse_outputs32 (ver : N) (ins : list input) (pre : nat) (rest sp : bytes) (b : slice) : res tx :=
  match decode_varint (Sl rest sp) with
  | Ok (m, k) =>
      '(offset, outs) <- nat_loop (item_step32 output (output_from_at 32) b) (N.to_nat m) ((Z.of_nat pre + k)%Z, []) ;;
      nLT <- or_panic (sl_from b offset) ;;
      if negb (slen nLT =? 4)%Z then Err ELockTime else
      ls <- or_panic (sl_from b offset) ;;
      lt <- or_panic (sl_le 4 ls) ;;
      Ok (mk_tx ver (map Some ins) (map Some outs) lt)
  | Err e => Err e
  | Panic => Panic
  end.



Lemma tx_from_eq32 ver r sp : length ver = 4%nat -> (scap (Sl (ver ++ r) sp) < 2 ^ 31)%Z ->
  tx_from_at 32 (Sl (ver ++ r) sp) =
  if (Z.of_nat (length r) <? 6)%Z then Err ETxShort else
  match decode_varint (Sl r sp) with
  | Ok (n, k) =>
     '(offset, ins) <- nat_loop (item_step32 input (input_from_at 32) (Sl (ver ++ r) sp)) (N.to_nat n) ((4 + k)%Z, []) ;;
     match sl_from (Sl (ver ++ r) sp) offset with
     | Some s => parse_outputs32 (le_get ver) ins (Z.to_nat offset) (vis s) (spare s) (Sl (ver ++ r) sp)
     | None => Panic
     end
  | Err e => Err e
  | Panic => Panic
  end.
Proof.
  intros L Cap. unfold tx_from_at. set (b := Sl (ver ++ r) sp) in *.
  assert (slen b = 4 + Z.of_nat (length r))%Z as SL by (unfold slen, b; cbn [vis]; rewrite app_length; lia).
  unfold scap in Cap. fold (slen b) in Cap.
  rewrite SL. destruct (Z.of_nat (length r) <? 6)%Z eqn:S6.
  { replace (4 + Z.of_nat (length r) <? 10)%Z with true by lia. reflexivity. }
  replace (4 + Z.of_nat (length r) <? 10)%Z with false by lia.
  rewrite (sl_sub_vis b 0 4) by lia. cbn [or_panic bind].
  change (Z.to_nat (4 - 0)) with 4%nat. change (Z.to_nat 0) with 0%nat. rewrite skipn_O.
  assert (firstn 4 (vis b) = ver) as -> by (apply firstn_exact; assumption).
  rewrite sl_le_exact by assumption. cbn [or_panic bind].
  rewrite (sl_from_vis b 4) by lia. cbn [or_panic bind]. change (Z.to_nat 4) with 4%nat.
  assert (skipn 4 (vis b) = r) as -> by (apply skipn_exact; assumption). change (spare b) with sp.
  destruct (decode_varint (Sl r sp)) as [[n k]|e|] eqn:D; cbn [bind]; try reflexivity.
  apply decode_varint_size in D as [K _].
  rewrite wrap32_small by (unfold two31; lia). rewrite n_loop_nat, tx_input_items32.
  destruct (nat_loop _ (N.to_nat n) ((4 + k)%Z, [])) as [[off ins]|e|] eqn:E; cbn [bind]; try reflexivity.
  destruct (sl_from b off) as [s|] eqn:F; cbn [or_panic bind]; [|reflexivity].
  unfold parse_outputs32. destruct s as [v sp']. cbn [vis spare].
  destruct (decode_varint (Sl v sp')) as [[m k']|e|] eqn:D'; cbn [bind]; try reflexivity.
  pose proof (decode_varint_cap _ _ _ _ D') as KC. rewrite (sl_from_cap _ _ _ F) in KC.
  apply decode_varint_size in D' as [K' _].
  assert (0 <= off <= slen b)%Z as R.
  { unfold sl_from, sl_sub in F.
    destruct ((0 <=? off) && (off <=? slen b) && (slen b <=? scap b))%Z eqn:Q; [lia|discriminate]. }
  rewrite wrap32_small by (unfold two31, scap in *; fold (slen b) in *; lia). rewrite Z2Nat.id by lia. rewrite n_loop_nat, tx_output_items32. reflexivity.
Qed.

Lemma parse_outputs_ok32 ver ins pre rest sp t : (scap (Sl (pre ++ rest) sp) < 2 ^ 31)%Z ->
  (parse_outputs32 ver ins (length pre) rest sp (Sl (pre ++ rest) sp) = Ok t <->
   exists m nout wo os lt, rest = nout ++ concat wo ++ lt /\ compact m nout /\ N.of_nat (length os) = m /\
     Forall2 (wire_output compact_mod) wo os /\ length lt = 4%nat /\
     t = mk_tx ver (map Some ins) (map Some os) (le_get lt)).
Proof.
  intros Cap. unfold parse_outputs32.
  assert (scap (Sl (pre ++ rest) sp) = Z.of_nat (length pre) + Z.of_nat (length rest) + Z.of_nat (length sp))%Z as SC
    by (unfold scap; cbn [vis spare]; rewrite app_length; lia).
  split.
  - destruct (decode_varint (Sl rest sp)) as [[m k]|e|] eqn:D; try discriminate.
    pose proof (decode_varint_size _ _ _ D) as [K U].
    intros H.
    assert (k <= slen (Sl rest sp))%Z as KL.
    { (* otherwise the first slice b[offset:] is out of range *)
      unfold slen; cbn [vis]. destruct (Z.leb_spec k (Z.of_nat (length rest))) as [|G]; [assumption|]. exfalso.
      assert (forall st : list output, item_step32 output (output_from_at 32) (Sl (pre ++ rest) sp) ((Z.of_nat (length pre) + k)%Z, st) = Panic) as IP.
      { intros st. unfold item_step32. rewrite sl_from_none; [reflexivity|].
        right. unfold slen; cbn [vis]. rewrite app_length. lia. }
      destruct (N.to_nat m) as [|m'] eqn:M; cbn [nat_loop] in H.
      + cbn [bind] in H. rewrite sl_from_none in H; [discriminate|]. right. unfold slen; cbn [vis]. rewrite app_length. lia.
      + rewrite IP in H. discriminate. }
    apply decode_varint_inv in D as (nout & x & E & C & ->); [|assumption]. cbn [vis] in E. subst rest.
    rewrite app_assoc in *. rewrite <- Nat2Z.inj_add, <- app_length in H.
    match type of H with bind ?L _ = _ => destruct L as [[off outs]|e|] eqn:LP; cbn [bind] in H; try discriminate end.
    apply (items_ok32 output (output_from_at 32) (wire_output compact_mod) output_from_ok32) in LP
      as (wo & os & y & -> & F & L & -> & ->); [|assumption].
    rewrite sl_from_vis in H by (unfold slen; cbn [vis]; rewrite !app_length; lia).
    cbn [or_panic bind vis spare] in H.
    rewrite Nat2Z.id in H. rewrite (app_assoc (pre ++ nout)) in H. rewrite skipn_exact in H by (rewrite !app_length; lia).
    unfold slen in H. cbn [vis] in H.
    destruct (Z.of_nat (length y) =? 4)%Z eqn:Y; cbn [negb] in H; [|discriminate].
    rewrite sl_le_exact in H by lia. cbn [or_panic bind] in H. injection H as <-.
    exists m, nout, wo, os, y. repeat split; try assumption; lia.
  - intros (m & nout & wo & os & lt & -> & C & M & F & Ll & ->).
    rewrite (decode_varint_compact _ _ _ _ C).
    rewrite <- Nat2Z.inj_add, <- app_length. rewrite (app_assoc pre nout) in *.
    assert (nat_loop (item_step32 output (output_from_at 32) (Sl ((pre ++ nout) ++ concat wo ++ lt) sp)) (N.to_nat m)
      (Z.of_nat (length (pre ++ nout)), []) = Ok (Z.of_nat (length (pre ++ nout) + length (concat wo)), os)) as ->.
    { apply (items_ok32 output (output_from_at 32) (wire_output compact_mod) output_from_ok32); [assumption|].
      exists wo, os, lt. repeat split; try assumption; lia. }
    cbn [bind].
    rewrite sl_from_vis by (unfold slen; cbn [vis]; rewrite !app_length; lia).
    cbn [or_panic bind vis spare]. rewrite Nat2Z.id. rewrite (app_assoc (pre ++ nout)).
    rewrite skipn_exact by (rewrite !app_length; lia). unfold slen. cbn [vis]. rewrite Ll. cbn [Z.of_nat Z.eqb Pos.eqb negb].
    rewrite sl_le_exact by assumption. reflexivity.
Qed.



Lemma fresh_split32 ws is : Forall2 fresh_wire_input32 ws is <-> Forall2 (wire_input compact_mod) ws is /\ Forall fresh_input is.
Proof.
  split.
  - induction 1 as [|w i ws is [H F] _ [IH1 IH2]]; [auto|]. split; constructor; assumption.
  - intros [H F]. revert F. induction H as [|w i ws is H _ IH]; [constructor|]. intros F. inversion F; subst.
    constructor; [split; assumption|auto].
Qed.

Lemma wire_compact_short32 w i : wire_input compact_mod w i -> (41 <= length w)%nat.
Proof.
  intros (id & ix & l & sq & -> & A & B & C & D & _). rewrite !app_length.
  destruct D as (m & D & _). destruct (compact_announced _ _ D) as (c & p & -> & _). cbn [length]. lia.
Qed.

Lemma tx_from_ok32 v sp t : (scap (Sl v sp) < 2 ^ 31)%Z ->
  (tx_from_at 32 (Sl v sp) = Ok t <-> wire_tx32 v t /\ fresh_tx t).
Proof.
  intros Cap. split.
  - intros H. destruct (Z.ltb_spec (slen (Sl v sp)) 10) as [S|S].
    { unfold tx_from_at in H. replace (slen (Sl v sp) <? 10)%Z with true in H by lia. discriminate. }
    unfold slen in S. cbn [vis] in S. destruct (cut4 v ltac:(lia)) as (ver & r & -> & Lv).
    rewrite app_length in S.
    rewrite tx_from_eq32 in H by assumption. replace (Z.of_nat (length r) <? 6)%Z with false in H by lia.
    destruct (decode_varint (Sl r sp)) as [[n k]|e|] eqn:D; try discriminate.
    pose proof (decode_varint_size _ _ _ D) as [K U].
    assert (k <= slen (Sl r sp))%Z as KL.
    { unfold slen; cbn [vis]. destruct (Z.leb_spec k (Z.of_nat (length r))) as [|G]; [assumption|]. exfalso.
      assert (forall st : list input, item_step32 input (input_from_at 32) (Sl (ver ++ r) sp) ((4 + k)%Z, st) = Panic) as IP.
      { intros st. unfold item_step32. rewrite sl_from_none; [reflexivity|].
        right. unfold slen; cbn [vis]. rewrite app_length. lia. }
      destruct (N.to_nat n) as [|n'] eqn:M; cbn [nat_loop] in H.
      + cbn [bind] in H. rewrite sl_from_none in H; [discriminate|]. right. unfold slen; cbn [vis]. rewrite app_length. lia.
      + rewrite IP in H. discriminate. }
    apply decode_varint_inv in D as (nin & x & E & C & ->); [|assumption]. cbn [vis] in E. subst r.
    rewrite app_assoc in *.
    replace (4 + Z.of_nat (length nin))%Z with (Z.of_nat (length (ver ++ nin))) in H by (rewrite app_length; lia).
    match type of H with bind ?L _ = _ => destruct L as [[off ins]|e|] eqn:LP; cbn [bind] in H; try discriminate end.
    apply (items_ok32 input (input_from_at 32) fresh_wire_input32 input_from_ok32) in LP
      as (wi & is & y & -> & F & L & -> & ->); [|assumption].
    rewrite sl_from_vis in H by (unfold slen; cbn [vis]; rewrite !app_length; lia).
    cbn [vis spare] in H. rewrite Nat2Z.id in H.
    rewrite (app_assoc (ver ++ nin)) in *. rewrite skipn_exact in H by (rewrite !app_length; lia).
    replace (length (ver ++ nin) + length (concat wi))%nat with (length ((ver ++ nin) ++ concat wi)) in H
      by (rewrite !app_length; lia).
    apply parse_outputs_ok32 in H as (m & nout & wo & os & lt & -> & C' & M & F' & Ll & ->); [|assumption].
    apply fresh_split32 in F as [Fw Ff]. split.
    + exists ver, nin, wi, nout, wo, lt. cbn [version inputs outputs locktime app].
      unfold nlen. rewrite !map_length.
      split; [now rewrite <- !app_assoc|]. split; [assumption|]. split; [assumption|]. split; [reflexivity|]. split; [reflexivity|].
      split; [replace (N.of_nat (length is)) with n by lia; assumption|].
      split; [rewrite M; assumption|]. split; now apply Forall2_some.
    + unfold fresh_tx. cbn [inputs]. apply Forall_forall. intros oi I. apply in_map_iff in I as (i & <- & I).
      rewrite Forall_forall in Ff. exists i. auto.
  - intros [(ver & nin & wi & nout & wo & lt & -> & Lv & Ll & EV & EL & Ci & Co & FI & FO) Fr].
    apply Forall2_unsome in FI as (is & Ei & FI). apply Forall2_unsome in FO as (os & Eo & FO).
    assert (Forall fresh_input is) as Ff.
    { unfold fresh_tx in Fr. rewrite Ei in Fr. clear -Fr. induction is as [|i is IH]; [constructor|].
      cbn [map] in Fr. inversion Fr as [|? ? (j & Ej & Fj) Fr']; subst. injection Ej as <-. constructor; auto. }
    rewrite tx_from_eq32 by assumption.
    assert (1 <= length nin)%nat by (destruct (compact_announced _ _ Ci) as (c & p & -> & _); cbn [length]; lia).
    assert (1 <= length nout)%nat by (destruct (compact_announced _ _ Co) as (c & p & -> & _); cbn [length]; lia).
    replace (Z.of_nat (length (nin ++ concat wi ++ nout ++ concat wo ++ lt)) <? 6)%Z with false
      by (rewrite !app_length; lia).
    rewrite (decode_varint_compact _ _ _ _ Ci).
    replace (4 + Z.of_nat (length nin))%Z with (Z.of_nat (length (ver ++ nin))) by (rewrite app_length; lia).
    rewrite (app_assoc ver nin) in *.
    assert (nat_loop (item_step32 input (input_from_at 32) (Sl ((ver ++ nin) ++ concat wi ++ nout ++ concat wo ++ lt) sp))
       (N.to_nat (nlen (inputs t))) (Z.of_nat (length (ver ++ nin)), [])
       = Ok (Z.of_nat (length (ver ++ nin) + length (concat wi)), is)) as ->.
    { apply (items_ok32 input (input_from_at 32) fresh_wire_input32 input_from_ok32); [assumption|].
      exists wi, is, (nout ++ concat wo ++ lt). rewrite fresh_split32. repeat split; try assumption.
      unfold nlen. rewrite Ei, map_length. lia. }
    cbn [bind].
    rewrite sl_from_vis by (unfold slen; cbn [vis]; rewrite !app_length; lia).
    cbn [vis spare]. rewrite Nat2Z.id. rewrite (app_assoc (ver ++ nin)) in *.
    rewrite skipn_exact by (rewrite !app_length; lia).
    replace (length (ver ++ nin) + length (concat wi))%nat with (length ((ver ++ nin) ++ concat wi)) by (rewrite !app_length; lia).
    apply parse_outputs_ok32; [assumption|]. exists (nlen (outputs t)), nout, wo, os, lt.
    repeat split; try assumption.
    + unfold nlen. now rewrite Eo, map_length.
    + destruct t as [a b c d]. cbn [version inputs outputs locktime] in *. subst. reflexivity.
Qed.

(** ** Panics of the whole parser, on a slice without spare capacity *)

Lemma fresh_of32 w : some_input32 w <-> exists i, fresh_wire_input32 w i.
Proof.
  split.
  - intros (i & id & ix & l & sq & -> & A & B & C & D & E & F & G).
    exists (mk_in (hex_encode (rev id)) (le_get ix) 0 None (Some (script_bytes (unlocking i))) (le_get sq)).
    split.
    + exists id, ix, l, sq. cbn [unlocking script_bytes prev_txid prev_index sequence]. rewrite hex_dec_encode.
      split; [reflexivity|]. auto 10.
    + unfold fresh_input. cbn. repeat split; eauto. discriminate.
  - intros (i & H & _). now exists i.
Qed.

Lemma Forall_fresh32 wi : Forall some_input32 wi <-> exists is, Forall2 fresh_wire_input32 wi is.
Proof.
  split.
  - induction 1 as [|w wi H _ (is & IH)]; [exists []; constructor|]. apply fresh_of32 in H as (i & H).
    exists (i :: is). now constructor.
  - intros (is & H). induction H as [|w i ws is H _ IH]; constructor; [|assumption]. apply fresh_of32. eauto.
Qed.

Lemma Forall_outs32 wo : Forall some_output32 wo <-> exists os, Forall2 (wire_output compact_mod) wo os.
Proof.
  split.
  - induction 1 as [|w wi (o & H) _ (is & IH)]; [exists []; constructor|]. exists (o :: is). now constructor.
  - intros (is & H). induction H as [|w i ws is H _ IH]; constructor; [|assumption]. now exists i.
Qed.





Lemma parse_outputs_panic32 ver ins pre rest : (Z.of_nat (length (pre ++ rest)) < 2 ^ 31)%Z ->
  (parse_outputs32 ver ins (length pre) rest [] (Sl (pre ++ rest) []) = Panic <->
   cs_truncated rest \/
   exists m nout wo r, rest = nout ++ concat wo ++ r /\ compact m nout /\ Forall some_output32 wo /\
     nlen wo < m /\ output_panics32 r).
Proof.
  intros Cap. assert (scap (Sl (pre ++ rest) []) < 2 ^ 31)%Z as Cap' by (unfold scap; cbn [vis spare length]; lia).
  unfold parse_outputs32. destruct (decode_dec rest) as [Tr|(m & nout & x & -> & C)].
  - pose proof (proj2 (decode_truncated rest) Tr) as ->. tauto.
  - rewrite (decode_varint_compact _ _ _ _ C). rewrite <- Nat2Z.inj_add, <- app_length.
    rewrite (app_assoc pre nout) in *.
    assert (~ cs_truncated (nout ++ x)) as NT.
    { intros Tr. apply decode_truncated in Tr. rewrite (decode_varint_compact _ _ _ _ C) in Tr. discriminate. }
    assert (forall m' nout' y, nout ++ x = nout' ++ y -> compact m' nout' -> m' = m /\ nout' = nout /\ y = x) as Uniq.
    { intros m' nout' y E C'. pose proof (decode_varint_compact m nout x [] C) as D.
      rewrite E, (decode_varint_compact m' nout' y [] C') in D. injection D as -> D. apply Nat2Z.inj in D.
      split; [reflexivity|]. assert (firstn (length nout) (nout ++ x) = firstn (length nout) (nout' ++ y)) as E1 by now rewrite E.
      assert (skipn (length nout) (nout ++ x) = skipn (length nout) (nout' ++ y)) as E2 by now rewrite E.
      rewrite !firstn_exact in E1 by lia. rewrite !skipn_exact in E2 by lia. auto. }
    match goal with |- bind ?L _ = Panic <-> _ => destruct L as [[off outs]|e|] eqn:LP end; cbn [bind].
    + apply (items_ok32 output (output_from_at 32) (wire_output compact_mod) output_from_ok32) in LP
        as (wo & os & y & -> & F & L & -> & ->); [|assumption].
      rewrite sl_from_vis by (unfold slen; cbn [vis]; rewrite !app_length; lia).
      cbn [or_panic bind]. rewrite Nat2Z.id. cbn [vis]. rewrite (app_assoc (pre ++ nout)), skipn_exact by (rewrite !app_length; lia).
      split.
      * unfold slen. cbn [vis]. destruct (Z.of_nat (length y) =? 4)%Z eqn:Y; cbn [negb]; [|discriminate].
        rewrite sl_le_exact by lia. discriminate.
      * intros [Tr|(m' & nout' & wo' & r & E & C' & FO & Lt & P)]; [contradiction|].
        destruct (Uniq _ _ _ E C') as (-> & -> & E'). clear E. rename E' into E. exfalso.
        apply Forall_outs32 in FO as (os' & FO).
        assert (nat_loop (item_step32 output (output_from_at 32) (Sl ((pre ++ nout) ++ concat wo' ++ r) [])) (N.to_nat m)
          (Z.of_nat (length (pre ++ nout)), []) = Panic) as LP.
        { apply (items_panic32 output (output_from_at 32) (wire_output compact_mod) output_from_ok32); [now rewrite E|].
          exists wo', os', r. repeat split; try assumption.
          - apply Forall2_length in FO. unfold nlen, bytes in *. lia.
          - apply output_from_panic32; [|assumption]. rewrite <- E in Cap. rewrite !app_length in *. lia. }
        assert (nat_loop (item_step32 output (output_from_at 32) (Sl ((pre ++ nout) ++ concat wo ++ y) [])) (N.to_nat m)
          (Z.of_nat (length (pre ++ nout)), []) = Ok (Z.of_nat (length (pre ++ nout) + length (concat wo)), os)) as LP'.
        { apply (items_ok32 output (output_from_at 32) (wire_output compact_mod) output_from_ok32); [assumption|]. exists wo, os, y. auto. }
        rewrite E in LP. congruence.
    + split; [discriminate|]. intros [Tr|(m' & nout' & wo' & r & E & C' & FO & Lt & P)]; [contradiction|].
      destruct (Uniq _ _ _ E C') as (-> & -> & E'). clear E. subst x. exfalso. apply Forall_outs32 in FO as (os' & FO).
      rewrite (proj2 (items_panic32 output (output_from_at 32) (wire_output compact_mod) output_from_ok32 (N.to_nat m) (pre ++ nout) (concat wo' ++ r) [] [] Cap')) in LP; [discriminate|].
      exists wo', os', r. repeat split; try assumption.
      * apply Forall2_length in FO. unfold nlen, bytes in *. lia.
      * apply output_from_panic32; [|assumption]. rewrite !app_length in *. lia.
    + split; [|reflexivity]. intros _. right.
      apply (items_panic32 output (output_from_at 32) (wire_output compact_mod) output_from_ok32) in LP
        as (wo & os & r & -> & F & L & P); [|assumption].
      exists m, nout, wo, r. split; [reflexivity|]. split; [assumption|]. split; [apply Forall_outs32; eauto|].
      split; [apply Forall2_length in F; unfold nlen, bytes in *; lia|].
      apply output_from_panic32; [rewrite !app_length in *; lia|assumption].
Qed.





(** [panics_after32 ver r]: the four ways, with the version cut off *)
Definition panics_after32 (r : bytes) : Prop :=
  ((6 <= length r)%nat /\ cs_truncated r) \/
  exists n nin x, r = nin ++ x /\ compact n nin /\
   ((exists wi y, x = concat wi ++ y /\ Forall some_input32 wi /\ nlen wi < n /\ input_panics32 y) \/
    (exists wi y, x = concat wi ++ y /\ Forall some_input32 wi /\ nlen wi = n /\
       ((cs_truncated y /\ (6 <= length r)%nat) \/
        exists m nout wo z, y = nout ++ concat wo ++ z /\ compact m nout /\ Forall some_output32 wo /\
          nlen wo < m /\ output_panics32 z))).

Lemma tx_panics_after32 ver r : length ver = 4%nat -> (tx_panics32 (ver ++ r) <-> panics_after32 r).
Proof.
  intros Lv. split.
  - intros H. remember (ver ++ r) as b eqn:E. destruct H as
      [ver' r' Lv' L T|ver' n nin wi r' Lv' C F Lt P|ver' n nin wi r' Lv' C F Lt P Lb|ver' n nin wi m nout wo r' Lv' C F Lt Co Fo Lo P];
      symmetry in E; apply (cut_uniq 4) in E as [<- <-]; try assumption.
    + left. auto.
    + right. exists n, nin, (concat wi ++ r'). split; [reflexivity|]. split; [assumption|]. left. eauto 10.
    + right. exists n, nin, (concat wi ++ r'). split; [reflexivity|]. split; [assumption|]. right.
      exists wi, r'. repeat split; try assumption. left. split; [assumption|].
      rewrite app_length in Lb. rewrite !app_length in *. lia.
    + right. exists n, nin, (concat wi ++ nout ++ concat wo ++ r'). split; [reflexivity|]. split; [assumption|]. right.
      exists wi, (nout ++ concat wo ++ r'). repeat split; try assumption. right. eauto 10.
  - intros [[L T]|(n & nin & x & -> & C & [(wi & y & -> & F & Lt & P)|(wi & y & -> & F & Lt & [[T L]|(m & nout & wo & z & -> & Co & Fo & Lo & P)])])].
    + now apply panic32_count.
    + eapply panic32_input; eassumption.
    + eapply panic32_outcount; try eassumption. rewrite app_length. lia.
    + eapply panic32_output; eassumption.
Qed.

Lemma tx_from_panic32 v : (Z.of_nat (length v) < 2 ^ 31)%Z -> (tx_from_at 32 (Sl v []) = Panic <-> tx_panics32 v).
Proof.
  intros Cap. assert (scap (Sl v []) < 2 ^ 31)%Z as Cap' by (unfold scap; cbn [vis spare length]; lia).
  destruct (Z.ltb_spec (slen (Sl v [])) 10) as [S|S].
  { unfold tx_from_at. replace (slen (Sl v []) <? 10)%Z with true by lia. split; [discriminate|].
    unfold slen in S. cbn [vis] in S. intros H. exfalso. destruct H as
      [ver' r' Lv' L T|ver' n nin wi r' Lv' C F Lt P|ver' n nin wi r' Lv' C F Lt P Lb|ver' n nin wi m nout wo r' Lv' C F Lt Co Fo Lo P].
    - rewrite app_length in S. lia.
    - apply compact_len in C. destruct P as (h & r & -> & Lh & _). rewrite !app_length in S. lia.
    - lia.
    - apply compact_len in C, Co. destruct P as (h & r & -> & Lh & _). rewrite !app_length in S. lia. }
  unfold slen in S. cbn [vis] in S. destruct (cut4 v ltac:(lia)) as (ver & r & -> & Lv).
  rewrite app_length in S. rewrite tx_panics_after32 by assumption. rewrite tx_from_eq32 by assumption.
  replace (Z.of_nat (length r) <? 6)%Z with false by lia. unfold panics_after32.
  destruct (decode_dec r) as [Tr|(n & nin & x & -> & C)].
  { pose proof (proj2 (decode_truncated r) Tr) as ->. split; [|reflexivity]. intros _. left. split; [lia|assumption]. }
  assert (~ cs_truncated (nin ++ x)) as NT.
  { intros Tr. apply decode_truncated in Tr. rewrite (decode_varint_compact _ _ _ _ C) in Tr. discriminate. }
  rewrite (decode_varint_compact _ _ _ _ C).
  replace (4 + Z.of_nat (length nin))%Z with (Z.of_nat (length (ver ++ nin))) by (rewrite app_length; lia).
  rewrite (app_assoc ver nin) in *.
  set (P1 := exists wi y, x = concat wi ++ y /\ Forall some_input32 wi /\ nlen wi < n /\ input_panics32 y).
  match goal with |- _ <-> _ \/ ?R =>
    assert (R <-> P1 \/ exists wi y, x = concat wi ++ y /\ Forall some_input32 wi /\ nlen wi = n /\
       ((cs_truncated y /\ (6 <= length (nin ++ x))%nat) \/
        exists m nout wo z, y = nout ++ concat wo ++ z /\ compact m nout /\ Forall some_output32 wo /\
          nlen wo < m /\ output_panics32 z)) as -> end.
  { split.
    - intros (n' & nin' & x' & E & C' & H). destruct (cs_uniq _ _ _ _ _ _ C C' E) as (-> & -> & ->). exact H.
    - intros H. exists n, nin, x. auto. }
  assert (P1 <-> nat_loop (item_step32 input (input_from_at 32) (Sl ((ver ++ nin) ++ x) [])) (N.to_nat n)
          (Z.of_nat (length (ver ++ nin)), []) = Panic) as HP1.
  { unfold P1. rewrite (items_panic32 input (input_from_at 32) fresh_wire_input32 input_from_ok32) by assumption. split.
    - intros (wi & y & -> & F & Lt & P). apply Forall_fresh32 in F as (is & F). exists wi, is, y.
      repeat split; try assumption.
      + apply Forall2_length in F. unfold nlen, bytes in *. lia.
      + apply input_from_panic32; [|assumption]. rewrite !app_length in *. lia.
    - intros (wi & is & y & -> & F & Lt & P). exists wi, y. split; [reflexivity|]. split; [apply Forall_fresh32; eauto|].
      split; [apply Forall2_length in F; unfold nlen, bytes in *; lia|].
      apply input_from_panic32; [|assumption]. rewrite !app_length in *. lia. }
  match goal with |- bind ?L _ = Panic <-> _ => destruct L as [[off ins]|e|] eqn:LP end; cbn [bind].
  - pose proof LP as LP0.
    apply (items_ok32 input (input_from_at 32) fresh_wire_input32 input_from_ok32) in LP
      as (wi & is & y & -> & F & L & -> & ->); [|assumption].
    rewrite sl_from_vis by (unfold slen; cbn [vis]; rewrite !app_length; lia).
    cbn [vis spare]. rewrite Nat2Z.id, (app_assoc (ver ++ nin)), skipn_exact by (rewrite !app_length; lia).
    replace (length (ver ++ nin) + length (concat wi))%nat with (length ((ver ++ nin) ++ concat wi)) by (rewrite !app_length; lia).
    cbn [app]. rewrite parse_outputs_panic32 by (rewrite <- app_assoc; assumption).
    assert (Forall some_input32 wi) as FI by (apply Forall_fresh32; eauto).
    assert (nlen wi = n) as LW by (apply Forall2_length in F; unfold nlen, bytes in *; lia).
    split.
    + intros H. right. right. exists wi, y. repeat split; try assumption.
      destruct H as [T|H]; [left; split; [assumption|lia]|right; assumption].
    + intros [[_ T]|[H|(wi' & y' & E & F' & L' & H)]]; [contradiction| |].
      * apply HP1 in H. congruence.
      * apply Forall_fresh32 in F' as (is' & F').
        assert (nat_loop (item_step32 input (input_from_at 32) (Sl ((ver ++ nin) ++ concat wi ++ y) [])) (N.to_nat n)
          (Z.of_nat (length (ver ++ nin)), []) = Ok (Z.of_nat (length (ver ++ nin) + length (concat wi')), is')) as LP'.
        { apply (items_ok32 input (input_from_at 32) fresh_wire_input32 input_from_ok32); [assumption|].
          exists wi', is', y'. repeat split; try assumption. apply Forall2_length in F'. unfold nlen, bytes in *. lia. }
        rewrite LP0 in LP'. injection LP' as Lc _. assert (length (concat wi) = length (concat wi')) as Lc' by lia.
        destruct (cut_uniq (length (concat wi)) _ _ _ _ eq_refl (eq_sym Lc') E) as [_ ->]. destruct H as [[T _]|H]; auto.
  - split; [discriminate|]. intros [[_ T]|[H|(wi' & y' & E & F' & L' & H)]]; [contradiction| |]; exfalso.
    + apply HP1 in H. congruence.
    + apply Forall_fresh32 in F' as (is' & F'). subst x.
      rewrite (proj2 (items_ok32 input (input_from_at 32) fresh_wire_input32 input_from_ok32 (N.to_nat n) (ver ++ nin) (concat wi' ++ y') [] []
        (Z.of_nat (length (ver ++ nin) + length (concat wi'))) is' Cap')) in LP; [discriminate|].
      exists wi', is', y'. repeat split; try assumption. apply Forall2_length in F'. unfold nlen, bytes in *. lia.
  - split; [|reflexivity]. intros _. right. left. now apply HP1.
Qed.
