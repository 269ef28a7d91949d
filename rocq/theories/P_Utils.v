From Verif Require Import M_Utils S_Utils.
From Coq Require Import ZifyBool ZifyNat ZifyN.

(** ** Compact sizes *)

Lemma varint_length n : length (varint n) = compact_size n.
Proof.
  unfold varint, compact_size.
  destruct (n <? 0xfd) eqn:E1; destruct (n <=? 252) eqn:F1; try lia; [reflexivity|].
  destruct (n <? 0x10000) eqn:E2; destruct (n <=? 65535) eqn:F2; try lia; [reflexivity|].
  destruct (n <? 0x100000000) eqn:E3; destruct (n <=? 4294967295) eqn:F3; try lia; reflexivity.
Qed.

Lemma varint_compact n : u64 n = true -> compact n (varint n).
Proof.
  unfold varint, u64. intros H.
  destruct (n <? 0xfd) eqn:E1.
  { pose proof (compact_1 (n2b n)) as C. rewrite b2n_n2b_small in C by lia. apply C. lia. }
  destruct (n <? 0x10000) eqn:E2.
  { pose proof (compact_3 (le_put 2 n) (le_put_length 2 n)) as C.
    rewrite le_get_put_small in C by (change (256 ^ N.of_nat 2) with 0x10000; lia). exact C. }
  destruct (n <? 0x100000000) eqn:E3.
  { pose proof (compact_5 (le_put 4 n) (le_put_length 4 n)) as C.
    rewrite le_get_put_small in C by (change (256 ^ N.of_nat 4) with 0x100000000; lia). exact C. }
  pose proof (compact_9 (le_put 8 n) (le_put_length 8 n)) as C.
  rewrite le_get_put_small in C by (change (256 ^ N.of_nat 8) with 18446744073709551616; lia).
  exact C.
Qed.

Lemma varint_min n : u64 n = true -> compact_min n (varint n).
Proof. intros H. split; [now apply varint_compact | apply varint_length]. Qed.

Lemma compact_bound n b : compact n b -> u64 n = true.
Proof.
  unfold u64. intros C; destruct C as [c Hc|p Hp|p Hp|p Hp]; [lia| | |];
  pose proof (le_get_bound p) as B; rewrite Hp in B.
  - change (256 ^ N.of_nat 2) with 0x10000 in B. lia.
  - change (256 ^ N.of_nat 4) with 0x100000000 in B. lia.
  - change (256 ^ N.of_nat 8) with 18446744073709551616 in B. lia.
Qed.

Lemma compact_size_le n b : compact n b -> (compact_size n <= length b)%nat.
Proof.
  unfold compact_size. intros C; destruct C as [c Hc|p Hp|p Hp|p Hp].
  - destruct (b2n c <=? 252) eqn:E; [simpl; lia | lia].
  - pose proof (le_get_bound p) as B; rewrite Hp in B.
    change (256 ^ N.of_nat 2) with 0x10000 in B. cbn [length]; rewrite Hp.
    destruct (_ <=? 252); [lia|]. destruct (le_get p <=? 65535) eqn:E; lia.
  - pose proof (le_get_bound p) as B; rewrite Hp in B.
    change (256 ^ N.of_nat 4) with 0x100000000 in B. cbn [length]; rewrite Hp.
    destruct (_ <=? 252); [lia|]. destruct (_ <=? 65535); [lia|].
    destruct (le_get p <=? 4294967295) eqn:E; lia.
  - cbn [length]; rewrite Hp.
    destruct (_ <=? 252); [lia|]. destruct (_ <=? 65535); [lia|].
    destruct (le_get p <=? 4294967295); lia.
Qed.

Lemma compact_min_varint n b : compact_min n b -> b = varint n.
Proof.
  intros [C L]. destruct C as [c Hc|p Hp|p Hp|p Hp].
  - unfold varint. replace (b2n c <? 0xfd) with true by lia. now rewrite n2b_b2n.
  - pose proof (le_get_bound p) as B; rewrite Hp in B.
    change (256 ^ N.of_nat 2) with 0x10000 in B.
    unfold compact_size in L. cbn [length] in L; rewrite Hp in L. unfold varint.
    destruct (le_get p <=? 252) eqn:E1; [lia|].
    replace (le_get p <? 0xfd) with false by lia.
    replace (le_get p <? 0x10000) with true by lia.
    f_equal. rewrite <- Hp. symmetry. apply le_put_get.
  - pose proof (le_get_bound p) as B; rewrite Hp in B.
    change (256 ^ N.of_nat 4) with 0x100000000 in B.
    unfold compact_size in L. cbn [length] in L; rewrite Hp in L. unfold varint.
    destruct (le_get p <=? 252) eqn:E1; [lia|].
    destruct (le_get p <=? 65535) eqn:E2; [lia|].
    replace (le_get p <? 0xfd) with false by lia.
    replace (le_get p <? 0x10000) with false by lia.
    replace (le_get p <? 0x100000000) with true by lia.
    f_equal. rewrite <- Hp. symmetry. apply le_put_get.
  - unfold compact_size in L. cbn [length] in L; rewrite Hp in L. unfold varint.
    destruct (le_get p <=? 252) eqn:E1; [lia|].
    destruct (le_get p <=? 65535) eqn:E2; [lia|].
    destruct (le_get p <=? 4294967295) eqn:E3; [lia|].
    replace (le_get p <? 0xfd) with false by lia.
    replace (le_get p <? 0x10000) with false by lia.
    replace (le_get p <? 0x100000000) with false by lia.
    f_equal. rewrite <- Hp. symmetry. apply le_put_get.
Qed.

(** what decode_varint does with marker of payload size k *)
Lemma decode_sub c r sp k :
  (sl_sub (Sl (c :: r) sp) 1 (1 + Z.of_nat k))%Z =
  if Nat.leb k (length (r ++ sp))
  then Some (Sl (firstn k (r ++ sp)) (skipn (S k) (c :: r ++ sp))) else None.
Proof.
  unfold sl_sub, scap; cbn [vis spare length].
  rewrite app_length.
  destruct (Nat.leb k (length r + length sp)) eqn:E.
  - replace ((0 <=? 1)%Z && (1 <=? 1 + Z.of_nat k)%Z &&
      (1 + Z.of_nat k <=? Z.of_nat (S (length r)) + Z.of_nat (length sp))%Z) with true by lia.
    replace (Z.to_nat (1 + Z.of_nat k - 1)) with k by lia.
    change (Z.to_nat 1) with 1%nat. replace (Z.to_nat (1 + Z.of_nat k)) with (S k) by lia.
    reflexivity.
  - replace ((0 <=? 1)%Z && (1 <=? 1 + Z.of_nat k)%Z &&
      (1 + Z.of_nat k <=? Z.of_nat (S (length r)) + Z.of_nat (length sp))%Z) with false by lia.
    reflexivity.
Qed.

Lemma sl_le_exact k p t : length p = k -> sl_le k (Sl p t) = Some (le_get p).
Proof.
  intros H. unfold sl_le; cbn [vis]. rewrite H, Nat.leb_refl. now rewrite firstn_all2 by lia.
Qed.

Lemma decode_varint_eq c r sp :
  decode_varint (Sl (c :: r) sp) =
  if Nat.leb (announced c) (length (c :: r ++ sp))
  then Ok (if Nat.eqb (announced c) 1 then b2n c
           else le_get (firstn (announced c - 1) (r ++ sp)), Z.of_nat (announced c))
  else Panic.
Proof.
  assert (G : forall k, (1 <= k)%nat ->
    (s <- or_panic (sl_sub (Sl (c :: r) sp) 1 (1 + Z.of_nat k)) ;;
     x <- or_panic (sl_le k s) ;; Ok (x, (1 + Z.of_nat k)%Z)) =
    if Nat.leb (S k) (length (c :: r ++ sp))
    then Ok (le_get (firstn k (r ++ sp)), (1 + Z.of_nat k)%Z) else Panic).
  { intros k Hk. rewrite decode_sub. cbn [length].
    change (Nat.leb (S k) (S (length (r ++ sp)))) with (Nat.leb k (length (r ++ sp))).
    destruct (Nat.leb k (length (r ++ sp))) eqn:E; [|reflexivity].
    cbn [or_panic bind]. rewrite sl_le_exact; [reflexivity|].
    rewrite firstn_length. lia. }
  unfold decode_varint. cbn [sl_idx vis nth_error Z.ltb Z.compare Z.to_nat or_panic bind].
  destruct c; cbn [announced];
    try (cbn [Nat.leb length Nat.eqb]; f_equal; f_equal; vm_compute; reflexivity).
  - exact (G 2%nat ltac:(lia)).
  - exact (G 4%nat ltac:(lia)).
  - exact (G 8%nat ltac:(lia)).
Qed.

Lemma decode_varint_nil sp : decode_varint (Sl [] sp) = Panic.
Proof. reflexivity. Qed.

Lemma compact_announced n b : compact n b ->
  exists c p, b = c :: p /\ announced c = length b /\
              n = (if Nat.eqb (announced c) 1 then b2n c else le_get p).
Proof.
  intros C; destruct C as [c Hc|p Hp|p Hp|p Hp].
  - exists c, []. assert (announced c = 1)%nat as E.
    { destruct c; try reflexivity; vm_compute in Hc; discriminate. }
    rewrite E. auto.
  - exists xfd, p. cbn [length announced]; rewrite Hp; auto.
  - exists xfe, p. cbn [length announced]; rewrite Hp; auto.
  - exists xff, p. cbn [length announced]; rewrite Hp; auto.
Qed.

Lemma announced_compact c p : (length (c :: p) = announced c) ->
  compact (if Nat.eqb (announced c) 1 then b2n c else le_get p) (c :: p).
Proof.
  intros H.
  destruct (Nat.eqb (announced c) 1) eqn:E.
  - assert (p = []) by (destruct p; [reflexivity | cbn [length] in H; lia]). subst p.
    apply compact_1. destruct c; try (vm_compute; reflexivity); cbn in E; discriminate.
  - destruct c; cbn [announced length] in *; try discriminate;
    [apply compact_3 | apply compact_5 | apply compact_9]; lia.
Qed.

Lemma decode_varint_compact n b rest sp :
  compact n b -> decode_varint (Sl (b ++ rest) sp) = Ok (n, Z.of_nat (length b)).
Proof.
  intros C. destruct (compact_announced _ _ C) as (c & p & -> & A & ->).
  cbn [app]. rewrite decode_varint_eq.
  replace (Nat.leb (announced c) (length (c :: (p ++ rest) ++ sp))) with true
    by (rewrite A; cbn [length]; rewrite !app_length; lia).
  rewrite A. cbn [length Nat.sub]. rewrite Nat.sub_0_r, <- app_assoc, firstn_app, Nat.sub_diag, firstn_all.
  cbn [firstn]. rewrite app_nil_r. reflexivity.
Qed.

(** success within the visible bytes *)
Lemma decode_varint_inv s n k :
  decode_varint s = Ok (n, k) -> (k <= slen s)%Z ->
  exists b rest, vis s = b ++ rest /\ compact n b /\ k = Z.of_nat (length b).
Proof.
  destruct s as [v sp]. unfold slen; cbn [vis]. destruct v as [|c r]; [discriminate|].
  rewrite decode_varint_eq. destruct (Nat.leb _ _) eqn:E; [|discriminate].
  intros H; injection H as Hn Hk. intros L. cbn [length] in L.
  exists (c :: firstn (announced c - 1) r), (skipn (announced c - 1) r).
  assert (1 <= announced c)%nat by (destruct c; cbn; lia).
  assert (length (c :: firstn (announced c - 1) r) = announced c) as Len.
  { cbn [length]. rewrite firstn_length. lia. }
  split; [cbn [app]; now rewrite firstn_skipn|].
  split; [|rewrite Len; lia].
  pose proof (announced_compact c (firstn (announced c - 1) r) Len) as C.
  rewrite firstn_app in Hn.
  replace (announced c - 1 - length r)%nat with 0%nat in Hn by lia.
  cbn [firstn] in Hn. rewrite app_nil_r in Hn. now rewrite <- Hn.
Qed.

Lemma decode_varint_iff b n :
  decode_varint (Sl b []) = Ok (n, Z.of_nat (length b)) <-> compact n b.
Proof.
  split.
  - intros H. apply decode_varint_inv in H; [|unfold slen; cbn [vis]; lia].
    cbn [vis] in H. destruct H as (b' & rest & E & C & L).
    assert (rest = []) by (destruct rest; [reflexivity | rewrite E, app_length in L; cbn [length] in L; lia]).
    subst rest. rewrite app_nil_r in E. now subst.
  - intros C. pose proof (decode_varint_compact n b [] [] C) as H. now rewrite app_nil_r in H.
Qed.

Lemma decode_varint_not_err s e : decode_varint s <> Err e.
Proof.
  destruct s as [[|c r] sp]; [discriminate|]. rewrite decode_varint_eq.
  destruct (Nat.leb _ _); discriminate.
Qed.

Lemma decode_varint_size s n k : decode_varint s = Ok (n, k) -> (1 <= k <= 9)%Z /\ u64 n = true.
Proof.
  destruct s as [[|c r] sp]; [discriminate|]. rewrite decode_varint_eq.
  destruct (Nat.leb _ _) eqn:E; [|discriminate]. intros H; injection H as Hn Hk.
  assert (1 <= announced c <= 9)%nat by (destruct c; cbn; lia).
  split; [lia|]. unfold u64. subst n.
  destruct (Nat.eqb (announced c) 1); [pose proof (b2n_lt c); lia|].
  pose proof (le_get_bound (firstn (announced c - 1) (r ++ sp))) as B.
  assert (256 ^ N.of_nat (length (firstn (announced c - 1) (r ++ sp))) <= 256 ^ 8).
  { apply N.pow_le_mono_r; [lia|]. rewrite firstn_length. lia. }
  change (256 ^ 8) with 18446744073709551616 in *. lia.
Qed.

(** ** Reversal *)

Lemma set_nth_length {A} i (x : A) l : length (set_nth i x l) = length l.
Proof. revert i; induction l as [|y l IH]; intros [|i]; simpl; auto. Qed.

Lemma nth_set_nth {A} i j (x : A) l d :
  nth j (set_nth i x l) d = if Nat.eqb j i && Nat.ltb j (length l) then x else nth j l d.
Proof.
  revert i j; induction l as [|y l IH]; intros i j.
  - cbn [length]. replace (Nat.ltb j 0) with false by lia. rewrite Bool.andb_false_r. destruct i; reflexivity.
  - destruct i as [|i], j as [|j]; try reflexivity.
    cbn [set_nth nth length]. rewrite IH. reflexivity.
Qed.

Lemma rev_loop_length fuel i j t : length (rev_loop fuel i j t) = length t.
Proof.
  revert i j t; induction fuel as [|f IH]; intros i j t; [reflexivity|].
  cbn [rev_loop]. destruct (Nat.ltb i j); [|reflexivity]. rewrite IH, !set_nth_length. reflexivity.
Qed.

Lemma rev_loop_nth fuel i j t :
  (i + j = length t - 1)%nat -> (j < length t \/ t = [])%nat -> (j - i <= 2 * fuel)%nat ->
  forall k, (k < length t)%nat ->
  nth k (rev_loop fuel i j t) x00 =
  if Nat.leb i k && Nat.leb k j then nth (length t - 1 - k) t x00 else nth k t x00.
Proof.
  revert i j t; induction fuel as [|f IH]; intros i j t Hij Hj Hf k Hk.
  - cbn [rev_loop]. destruct (Nat.leb i k && Nat.leb k j) eqn:E; [|reflexivity].
    f_equal. lia.
  - cbn [rev_loop]. destruct (Nat.ltb i j) eqn:E.
    + destruct Hj as [Hj| ->]; [|cbn [length] in Hk; lia].
      rewrite IH; rewrite ?set_nth_length; try lia.
      rewrite !nth_set_nth, !set_nth_length.
      destruct (Nat.leb (S i) k && Nat.leb k (j - 1)) eqn:E1.
      * replace (Nat.leb i k && Nat.leb k j) with true by lia.
        replace (Nat.eqb (length t - 1 - k) i) with false by lia.
        replace (Nat.eqb (length t - 1 - k) j) with false by lia.
        reflexivity.
      * destruct (Nat.eqb k i) eqn:E2.
        { replace (Nat.ltb k (length t)) with true by lia. cbn [andb].
          replace (Nat.leb i k && Nat.leb k j) with true by lia. f_equal; lia. }
        destruct (Nat.eqb k j) eqn:E3.
        { replace (Nat.ltb k (length t)) with true by lia. cbn [andb].
          replace (Nat.leb i k && Nat.leb k j) with true by lia. f_equal; lia. }
        cbn [andb]. replace (Nat.leb i k && Nat.leb k j) with false by lia. reflexivity.
    + destruct (Nat.leb i k && Nat.leb k j) eqn:E1; [|reflexivity]. f_equal; lia.
Qed.

Lemma reverse_bytes_rev a : reverse_bytes a = rev a.
Proof.
  apply nth_ext with (d := x00) (d' := x00).
  - unfold reverse_bytes. rewrite rev_loop_length, rev_length. reflexivity.
  - unfold reverse_bytes. rewrite rev_loop_length. intros k Hk.
    rewrite rev_loop_nth by lia.
    replace (Nat.leb 0 k && Nat.leb k (length a - 1)) with true by lia.
    rewrite rev_nth by lia. f_equal; lia.
Qed.

(** pairs of characters reversed *)
Fixpoint rev_pairs (s : bytes) : bytes :=
  match s with
  | a :: b :: r => rev_pairs r ++ [a; b]
  | _ => []
  end.

Lemma rev_pairs_app r s : (length r mod 2 = 0)%nat -> rev_pairs (r ++ s) = rev_pairs s ++ rev_pairs r.
Proof.
  induction r as [|a|a b r IH] using list_ind2; intros H.
  - simpl. now rewrite app_nil_r.
  - cbn in H. lia.
  - cbn [app rev_pairs]. rewrite IH by (cbn [length] in H; lia). now rewrite app_assoc.
Qed.

Lemma rhs_loop_spec fuel hex acc n :
  (n mod 2 = 0)%nat -> (n <= length hex)%nat -> (n <= 2 * fuel)%nat ->
  rhs_loop fuel n hex acc = acc ++ rev_pairs (firstn n hex).
Proof.
  revert acc n; induction fuel as [|f IH]; intros acc n He Hn Hf.
  - assert (n = 0)%nat as -> by lia. simpl. now rewrite app_nil_r.
  - cbn [rhs_loop]. destruct (Nat.leb 2 n) eqn:E.
    + rewrite IH by lia.
      assert (firstn n hex = firstn (n - 2) hex ++ firstn 2 (skipn (n - 2) hex)) as ->.
      { rewrite <- (firstn_skipn (n - 2) (firstn n hex)), firstn_firstn.
        replace (Nat.min (n - 2) n) with (n - 2)%nat by lia. f_equal.
        rewrite firstn_skipn_comm. replace (n - 2 + 2)%nat with n by lia. reflexivity. }
      rewrite rev_pairs_app by (rewrite firstn_length; lia).
      rewrite <- app_assoc. f_equal. f_equal.
      assert (length (firstn 2 (skipn (n - 2) hex)) = 2)%nat by (rewrite firstn_length, skipn_length; lia).
      destruct (firstn 2 (skipn (n - 2) hex)) as [|x [|y [|z t]]]; cbn [length] in *; try lia. reflexivity.
    + assert (n = 0)%nat as -> by lia. simpl. now rewrite app_nil_r.
Qed.

Lemma reverse_hex_even s : (length s mod 2 = 0)%nat -> reverse_hex_string s = rev_pairs s.
Proof.
  intros H. unfold reverse_hex_string. rewrite H. cbn [Nat.eqb negb].
  rewrite rhs_loop_spec by lia. now rewrite firstn_all.
Qed.

Lemma reverse_hex_odd s : (length s mod 2 = 1)%nat ->
  reverse_hex_string s = reverse_hex_string (str "0" ++ s).
Proof.
  intros H. rewrite (reverse_hex_even (str "0" ++ s)) by (rewrite app_length; change (length (str "0")) with 1%nat; lia).
  unfold reverse_hex_string. rewrite H. cbn [Nat.eqb negb].
  rewrite rhs_loop_spec by (rewrite ?app_length; change (length (str "0")) with 1%nat; lia).
  now rewrite firstn_all.
Qed.

Lemma rev_pairs_length s : (length s mod 2 = 0)%nat -> length (rev_pairs s) = length s.
Proof.
  induction s as [|a|a b r IH] using list_ind2; intros H; [reflexivity|cbn in H; lia|].
  cbn [rev_pairs length]. rewrite app_length. cbn [length] in *. rewrite IH by lia. lia.
Qed.

Lemma rev_pairs_invol s : (length s mod 2 = 0)%nat -> rev_pairs (rev_pairs s) = s.
Proof.
  induction s as [|a|a b r IH] using list_ind2; intros H; [reflexivity|cbn in H; lia|].
  cbn [rev_pairs length] in *.
  rewrite rev_pairs_app by (rewrite rev_pairs_length; lia).
  rewrite IH by lia. reflexivity.
Qed.

Lemma hex_decode_pair a b r :
  hex_dec (a :: b :: r) =
  match hexval a, hexval b, hex_dec r with
  | Some x, Some y, Some t => Some (n2b (16 * x + y) :: t)
  | _, _, _ => None
  end.
Proof.
  unfold hex_dec. cbn [hex_decode].
  destruct (hexval a); [|reflexivity]. destruct (hexval b); [|reflexivity].
  destruct (hex_decode r) as [t [e|]]; [reflexivity|]. now rewrite N.mul_comm.
Qed.

Lemma hex_dec_snoc r a b : (length r mod 2 = 0)%nat ->
  hex_dec (r ++ [a; b]) =
  match hex_dec r, hexval a, hexval b with
  | Some t, Some x, Some y => Some (t ++ [n2b (16 * x + y)])
  | _, _, _ => None
  end.
Proof.
  induction r as [|c|c d r IH] using list_ind2; intros H; [|cbn in H; lia|].
  - cbn [app]. rewrite hex_decode_pair. change (hex_dec []) with (Some (@nil byte)).
    destruct (hexval a); [|reflexivity]. destruct (hexval b); reflexivity.
  - cbn [app length] in *. rewrite !hex_decode_pair, IH by lia.
    destruct (hexval c); [|reflexivity]. destruct (hexval d); [|reflexivity].
    destruct (hex_dec r); [|reflexivity]. destruct (hexval a); [|reflexivity].
    destruct (hexval b); reflexivity.
Qed.

Lemma hex_dec_rev_pairs s : (length s mod 2 = 0)%nat ->
  hex_dec (rev_pairs s) = option_map (@rev byte) (hex_dec s).
Proof.
  induction s as [|a|a b r IH] using list_ind2; intros H; [reflexivity|cbn in H; lia|].
  cbn [rev_pairs length] in *. rewrite hex_dec_snoc by (rewrite rev_pairs_length; lia).
  rewrite IH by lia. rewrite hex_decode_pair.
  destruct (hex_dec r), (hexval a), (hexval b); reflexivity.
Qed.

Lemma rev_pairs_encode b : rev_pairs (hex_encode b) = hex_encode (rev b).
Proof.
  induction b as [|x b IH]; [reflexivity|]. cbn [rev hex_encode rev_pairs].
  rewrite hex_encode_app, IH. reflexivity.
Qed.

(** ** Sorting *)

Lemma bytes_compare_refl a : bytes_compare a a = Eq.
Proof. induction a; simpl; [reflexivity|]. now rewrite N.compare_refl. Qed.

Lemma bytes_compare_eq a b : bytes_compare a b = Eq -> a = b.
Proof.
  revert b; induction a as [|x a IH]; intros [|y b]; simpl; try discriminate; [reflexivity|].
  destruct (b2n x ?= b2n y) eqn:E; try discriminate. intros H.
  apply N.compare_eq in E. apply b2n_inj in E. f_equal; auto.
Qed.

Lemma bytes_compare_antisym a b : bytes_compare b a = CompOpp (bytes_compare a b).
Proof.
  revert b; induction a as [|x a IH]; intros [|y b]; simpl; try reflexivity.
  rewrite N.compare_antisym. destruct (b2n x ?= b2n y); simpl; auto.
Qed.

Lemma lex_le_compare a b : lex_le a b <-> bytes_compare a b <> Gt.
Proof.
  split.
  - induction 1; simpl; [destruct b; discriminate| |].
    + rewrite (proj2 (N.compare_lt_iff _ _)) by assumption. discriminate.
    + now rewrite N.compare_refl.
  - revert b; induction a as [|x a IH]; intros [|y b]; simpl; intros H; [apply lex_nil|apply lex_nil|congruence|].
    destruct (b2n x ?= b2n y) eqn:E.
    + apply N.compare_eq in E. apply b2n_inj in E. subst. apply lex_eq; auto.
    + apply lex_lt. now apply N.compare_lt_iff.
    + congruence.
Qed.

Lemma lex_le_trans a b c : lex_le a b -> lex_le b c -> lex_le a c.
Proof.
  intros H; revert c; induction H; intros c Hc; [constructor| |].
  - inversion Hc; subst; [apply lex_lt; lia | apply lex_lt; assumption].
  - inversion Hc; subst; [apply lex_lt; assumption | apply lex_eq; auto].
Qed.

Lemma lex_le_antisym a b : lex_le a b -> lex_le b a -> a = b.
Proof.
  rewrite !lex_le_compare. rewrite (bytes_compare_antisym a b).
  intros H1 H2. apply bytes_compare_eq. destruct (bytes_compare a b); simpl in *; congruence.
Qed.

Lemma lex_le_refl a : lex_le a a.
Proof. induction a; [apply lex_nil|now apply lex_eq]. Qed.

Lemma bytes_less_spec a b : bytes_less a b = true <-> lex_le a b /\ a <> b.
Proof.
  rewrite lex_le_compare. unfold bytes_less. split.
  - destruct (bytes_compare a b) eqn:E; try discriminate. intros _. split; [discriminate|].
    intros ->. rewrite bytes_compare_refl in E. discriminate.
  - intros [H1 H2]. destruct (bytes_compare a b) eqn:E; try congruence.
    now apply bytes_compare_eq in E.
Qed.

Lemma bytes_less_false a b : bytes_less a b = false -> lex_le b a.
Proof.
  rewrite lex_le_compare, (bytes_compare_antisym a b). unfold bytes_less.
  destruct (bytes_compare a b); simpl; congruence.
Qed.

Lemma insert_perm x l : Permutation (x :: l) (insert_bytes x l).
Proof.
  induction l as [|y l IH]; cbn [insert_bytes]; [reflexivity|].
  destruct (bytes_less y x); [|reflexivity].
  rewrite perm_swap. now constructor.
Qed.

Lemma sort_perm l : Permutation l (sort_byte_arrays l).
Proof.
  induction l as [|x l IH]; [constructor|]. cbn [sort_byte_arrays fold_right].
  rewrite <- insert_perm. now constructor.
Qed.

Lemma insert_sorted x l : StronglySorted lex_le l -> StronglySorted lex_le (insert_bytes x l).
Proof.
  induction 1 as [|y l H IH F]; cbn [insert_bytes].
  - constructor; [constructor|constructor].
  - destruct (bytes_less y x) eqn:E.
    + constructor; [assumption|].
      eapply Permutation_Forall; [apply insert_perm|]. constructor; [|assumption].
      now apply bytes_less_spec in E.
    + constructor; [now constructor|]. constructor; [now apply bytes_less_false|].
      eapply Forall_impl; [|exact F]. intros z Hz. eapply lex_le_trans; [|exact Hz].
      now apply bytes_less_false.
Qed.

Lemma sort_sorted l : StronglySorted lex_le (sort_byte_arrays l).
Proof.
  induction l as [|x l IH]; [constructor|]. cbn [sort_byte_arrays fold_right]. now apply insert_sorted.
Qed.

Lemma sorted_unique l1 l2 :
  StronglySorted lex_le l1 -> StronglySorted lex_le l2 -> Permutation l1 l2 -> l1 = l2.
Proof.
  intros H1; revert l2; induction H1 as [|x l1 H1 IH F1]; intros l2 H2 P.
  - now apply Permutation_nil in P.
  - destruct H2 as [|y l2 H2 F2]; [symmetry in P; now apply Permutation_nil in P|].
    assert (x = y) as ->.
    { apply lex_le_antisym.
      - assert (In y (x :: l1)) as [->|I] by (apply (Permutation_in y (Permutation_sym P)); left; reflexivity); [apply lex_le_refl|].
        rewrite Forall_forall in F1; auto.
      - assert (In x (y :: l2)) as [->|I] by (apply (Permutation_in x P); left; reflexivity); [apply lex_le_refl|].
        rewrite Forall_forall in F2; auto. }
    f_equal. apply IH; [assumption|]. now apply Permutation_cons_inv in P.
Qed.

Lemma sort_unique l l' : StronglySorted lex_le l' -> Permutation l l' -> l' = sort_byte_arrays l.
Proof.
  intros S P. apply sorted_unique; [assumption|apply sort_sorted|].
  rewrite <- P. apply sort_perm.
Qed.

Lemma sort_perm_eq l l' : Permutation l l' -> sort_byte_arrays l = sort_byte_arrays l'.
Proof.
  intros P. apply sort_unique; [apply sort_sorted|]. rewrite <- P. apply sort_perm.
Qed.

(** ** Small helpers *)

Lemma equals_spec a b : equals a b = true <-> a = b.
Proof.
  unfold equals. destruct (Nat.eqb (length a) (length b)) eqn:E; cbn [negb].
  - apply Nat.eqb_eq in E. revert b E; induction a as [|x a IH]; intros [|y b] E; cbn [length eq_loop] in *;
      try discriminate; [tauto|].
    destruct (byte_eqb x y) eqn:F.
    + apply byte_eqb_eq in F; subst. rewrite IH by lia. split; congruence.
    + split; [discriminate|]. intros H; injection H as -> _. now rewrite byte_eqb_refl in F.
  - split; [discriminate|]. intros ->. now rewrite Nat.eqb_refl in E.
Qed.

Lemma equals_refl a : equals a a = true.
Proof. now apply equals_spec. Qed.

Lemma equals_neq a b : equals a b = false <-> a <> b.
Proof.
  rewrite <- equals_spec. destruct (equals a b); split; congruence.
Qed.

Lemma le_get_zeros b k : le_get (b ++ repeat x00 k) = le_get b.
Proof.
  induction b as [|x b IH]; cbn [app le_get].
  - induction k; cbn [repeat le_get]; [reflexivity|]. rewrite IHk. reflexivity.
  - now rewrite IH.
Qed.

Lemma glb_spec v l : u32 v = true -> 4 <= l ->
  exists b, get_little_endian_bytes v l = Ok b /\ nlen b = l /\ le_get b = v.
Proof.
  intros Hv Hl. unfold get_little_endian_bytes, u32 in *.
  replace (l <? 4) with false by lia. eexists; split; [reflexivity|]. split.
  - unfold nlen. rewrite app_length, le_put_length, repeat_length. lia.
  - rewrite le_get_zeros. apply le_get_put_small. change (256 ^ N.of_nat 4) with 4294967296. lia.
Qed.

Lemma d32_eq slack s :
  decode_32_byte slack s =
  match hex_decode s with
  | (_, Some e) => Err (EHex e)
  | (b, None) =>
      if Nat.leb 32 (length s + slack)
      then Ok (firstn 32 (b ++ skipn (length b) s ++ repeat x00 slack))
      else Panic
  end.
Proof.
  unfold decode_32_byte, hex_decode_slice.
  destruct (hex_decode s) as [b e] eqn:E. destruct e as [e|]; [reflexivity|].
  assert (length b <= length s)%nat.
  { assert (hex_dec s = Some b) by (unfold hex_dec; now rewrite E).
    apply hex_dec_length in H. lia. }
  unfold sl_sub, scap; cbn [vis spare]. rewrite app_length, skipn_length, repeat_length.
  destruct (Nat.leb 32 (length s + slack)) eqn:F.
  - replace ((0 <=? 0)%Z && (0 <=? 32)%Z &&
     (32 <=? Z.of_nat (length b) + Z.of_nat (length s - length b + slack))%Z) with true by lia.
    reflexivity.
  - replace ((0 <=? 0)%Z && (0 <=? 32)%Z &&
     (32 <=? Z.of_nat (length b) + Z.of_nat (length s - length b + slack))%Z) with false by lia.
    reflexivity.
Qed.

(** ** Statements of T_Utils *)

Lemma c01_roundtrip n rest sp : n < 2 ^ 64 ->
  decode_varint (Sl (varint n ++ rest) sp) = Ok (n, Z.of_nat (length (varint n))).
Proof. intros H. apply decode_varint_compact, varint_compact. unfold u64. now apply N.ltb_lt. Qed.

Lemma c02_form n : n < 2 ^ 64 -> compact_min n (varint n).
Proof. intros H. apply varint_min. unfold u64. now apply N.ltb_lt. Qed.

Lemma c02_shortest n b sp : decode_varint (Sl b sp) = Ok (n, Z.of_nat (length b)) ->
  (length (varint n) <= length b)%nat /\ (length b = length (varint n) -> b = varint n).
Proof.
  intros H. apply decode_varint_inv in H as (b' & rest & E & C & L); [|unfold slen; cbn [vis]; lia].
  cbn [vis] in E. subst b. rewrite app_length in L. destruct rest; [|cbn [length] in L; lia].
  rewrite app_nil_r. rewrite varint_length. split; [now apply compact_size_le|].
  intros E. apply compact_min_varint. now split.
Qed.

Lemma c02_nonminimal n : n < 253 ->
  decode_varint (Sl (xfd :: n2b n :: [x00]) []) = Ok (n, 3%Z) /\ length (varint n) = 1%nat.
Proof.
  intros H. split.
  - assert (compact n (xfd :: n2b n :: [x00])).
    { replace n with (le_get [n2b n; x00]) at 1; [now constructor|].
      cbn [le_get]. rewrite b2n_n2b_small by lia. change (b2n x00) with 0. lia. }
    apply (decode_varint_iff _ _) in H0. exact H0.
  - rewrite varint_length. unfold compact_size. replace (n <=? 252) with true by lia. reflexivity.
Qed.

Lemma c03_local c p rest sp rest' sp' : length (c :: p) = announced c ->
  decode_varint (Sl (c :: p ++ rest) sp) = decode_varint (Sl (c :: p ++ rest') sp') /\
  decode_varint (Sl (c :: p ++ rest) sp) <> Panic.
Proof.
  intros H. pose proof (announced_compact c p H) as C.
  pose proof (decode_varint_compact _ _ rest sp C) as A.
  pose proof (decode_varint_compact _ _ rest' sp' C) as B.
  cbn [app] in A, B. rewrite A, B. split; [reflexivity|discriminate].
Qed.

Lemma c03_overread c r sp :
  (length (c :: r) < announced c)%nat -> (announced c <= length (c :: r ++ sp))%nat ->
  exists n, decode_varint (Sl (c :: r) sp) = Ok (n, Z.of_nat (announced c)).
Proof.
  intros _ H. rewrite decode_varint_eq. apply Nat.leb_le in H. rewrite H. eauto.
Qed.

Lemma c04_invol a : reverse_bytes (reverse_bytes a) = a.
Proof. rewrite !reverse_bytes_rev. apply rev_involutive. Qed.

Lemma even_mod n : Nat.even n = true <-> (n mod 2 = 0)%nat.
Proof.
  rewrite Nat.even_spec. split.
  - intros [k ->]. rewrite Nat.mul_comm. apply Nat.mod_mul. discriminate.
  - intros H. exists (n / 2)%nat. lia.
Qed.

Lemma c04_hex s b : hex_dec s = Some b -> hex_dec (reverse_hex_string s) = Some (rev b).
Proof.
  intros H. pose proof (hex_dec_length _ _ H) as L.
  rewrite reverse_hex_even, hex_dec_rev_pairs, H by lia. reflexivity.
Qed.

Lemma c04_hex_invol s : Nat.even (length s) = true ->
  reverse_hex_string (reverse_hex_string s) = s.
Proof.
  rewrite even_mod. intros H. rewrite (reverse_hex_even s) by assumption.
  rewrite reverse_hex_even by (now rewrite rev_pairs_length). now apply rev_pairs_invol.
Qed.

Lemma c04_hex_pairs s : Nat.even (length s) = true ->
  length (reverse_hex_string s) = length s /\
  forall i, (2 * i + 2 <= length s)%nat ->
    firstn 2 (skipn (2 * i) (reverse_hex_string s)) =
    firstn 2 (skipn (length s - 2 * i - 2) s).
Proof.
  rewrite even_mod. intros H. rewrite reverse_hex_even by assumption.
  split; [now apply rev_pairs_length|].
  induction s as [|a|a b s IH] using list_ind2; intros i Hi; [cbn [length] in Hi; lia|cbn in H; lia|].
  cbn [rev_pairs length] in *.
  rewrite skipn_app, rev_pairs_length by lia.
  destruct (Nat.eq_dec (2 * i) (length s)) as [E|E].
  - rewrite skipn_all2 by (rewrite rev_pairs_length; lia).
    replace (2 * i - length s)%nat with 0%nat by lia.
    replace (S (S (length s)) - 2 * i - 2)%nat with 0%nat by lia. reflexivity.
  - rewrite firstn_app, skipn_length, rev_pairs_length by lia.
    replace (2 - (length s - 2 * i))%nat with 0%nat by lia.
    rewrite firstn_O, app_nil_r, IH by lia.
    replace (S (S (length s)) - 2 * i - 2)%nat with (2 + (length s - 2 * i - 2))%nat by lia.
    reflexivity.
Qed.

Lemma c04_hex_odd s : Nat.odd (length s) = true ->
  reverse_hex_string s = reverse_hex_string (str "0" ++ s).
Proof.
  intros H. apply reverse_hex_odd. apply Nat.odd_spec in H as [k ->]. lia.
Qed.

Lemma c05_sorts l :
  Permutation l (sort_byte_arrays l) /\ StronglySorted lex_le (sort_byte_arrays l).
Proof. split; [apply sort_perm | apply sort_sorted]. Qed.

Lemma c05_unique l l' : Permutation l l' -> StronglySorted lex_le l' -> l' = sort_byte_arrays l.
Proof. intros; now apply sort_unique. Qed.

Lemma c05_order :
  (forall a, lex_le a a) /\ (forall a b c, lex_le a b -> lex_le b c -> lex_le a c) /\
  (forall a b, lex_le a b -> lex_le b a -> a = b) /\ (forall a b, lex_le a b \/ lex_le b a).
Proof.
  repeat split; eauto using lex_le_refl, lex_le_trans, lex_le_antisym.
  intros a b. destruct (bytes_less a b) eqn:E; [left; now apply bytes_less_spec | right; now apply bytes_less_false].
Qed.

Lemma c06_le v l : v < 2 ^ 32 -> 4 <= l ->
  exists b, get_little_endian_bytes v l = Ok b /\ nlen b = l /\ le_get b = v.
Proof. intros H. apply glb_spec. unfold u32. now apply N.ltb_lt. Qed.

Lemma c06_le_short v l : l < 4 -> get_little_endian_bytes v l = Panic.
Proof. intros H. unfold get_little_endian_bytes. replace (l <? 4) with true by lia. reflexivity. Qed.

Lemma d32_some slack s b : hex_dec s = Some b ->
  decode_32_byte slack s =
  if Nat.leb 32 (2 * length b + slack)
  then Ok (firstn 32 (b ++ skipn (length b) s ++ repeat x00 slack)) else Panic.
Proof.
  intros H. pose proof (hex_dec_length _ _ H) as L. rewrite d32_eq. unfold hex_dec in H.
  destruct (hex_decode s) as [t [e|]]; [discriminate|]. injection H as ->. now rewrite L.
Qed.

Lemma c07_long slack s b : hex_dec s = Some b -> (32 <= length b)%nat ->
  decode_32_byte slack s = Ok (firstn 32 b).
Proof.
  intros H L. rewrite (d32_some _ _ _ H).
  replace (Nat.leb 32 (2 * length b + slack)) with true by lia.
  rewrite firstn_app. replace (32 - length b)%nat with 0%nat by lia.
  cbn [firstn]. now rewrite app_nil_r.
Qed.

Lemma c07_exact slack s b : hex_dec s = Some b -> length b = 32%nat ->
  decode_32_byte slack s = Ok b.
Proof.
  intros H L. rewrite (c07_long _ _ _ H) by lia. rewrite <- L. now rewrite firstn_all.
Qed.

Lemma c07_error slack s : (exists e, decode_32_byte slack s = Err e) <-> hex_dec s = None.
Proof.
  rewrite d32_eq. unfold hex_dec. destruct (hex_decode s) as [t [e|]].
  - split; eauto.
  - split; [intros [e H] | discriminate]. destruct (Nat.leb 32 (length s + slack)); discriminate.
Qed.

Lemma c07_short slack s b : hex_dec s = Some b -> (length b < 32)%nat ->
  decode_32_byte slack s =
  if Nat.leb 32 (2 * length b + slack)
  then Ok (b ++ firstn (32 - length b) (skipn (length b) s ++ repeat x00 slack))
  else Panic.
Proof.
  intros H L. rewrite (d32_some _ _ _ H). destruct (Nat.leb 32 (2 * length b + slack)); [|reflexivity].
  rewrite firstn_app. rewrite firstn_all2 by lia. reflexivity.
Qed.

Lemma c07_refuted : exists slack s b,
  decode_32_byte slack s = Ok b /\ hex_dec s <> Some b.
Proof.
  exists 0%nat, (hex_encode (repeat x07 16)), (repeat x07 16 ++ str "0707070707070707").
  split; [vm_compute; reflexivity|]. rewrite hex_dec_encode. intros H. injection H. discriminate.
Qed.
