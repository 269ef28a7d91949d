(** Proofs about the number of iterations (C72). *)
From Verif Require Export M_Cost P_TxParse.
From Coq Require Import ZifyBool ZifyNat ZifyN.

Lemma cbind_fst {A B} (r : counted A) (f : A -> counted B) (g : A -> res B) :
  (forall a, fst (f a) = g a) -> fst (cbind r f) = bind (fst r) g.
Proof. intros H. unfold cbind. destruct (fst r); cbn [fst bind]; [apply H|reflexivity..]. Qed.

Lemma counted_loop_fst {S} (f : S -> res S) n : forall s, fst (counted_loop f n s) = nat_loop f n s.
Proof.
  induction n as [|n IH]; intros s; [reflexivity|]. cbn [counted_loop nat_loop]. now apply cbind_fst.
Qed.

Lemma counted_same b : fst (tx_from_slice_counted b) = tx_from_slice b.
Proof.
  unfold tx_from_slice_counted, tx_from_slice. destruct (slen b <? 10)%Z; [reflexivity|].
  apply cbind_fst; intros vs. apply cbind_fst; intros ver. cbv zeta. apply cbind_fst; intros rest.
  apply cbind_fst; intros [ic size]. rewrite n_loop_nat, <- counted_loop_fst. apply cbind_fst; intros [off ins].
  apply cbind_fst; intros rest'. apply cbind_fst; intros [oc size']. rewrite n_loop_nat, <- counted_loop_fst.
  apply cbind_fst; intros [off' outs]. apply cbind_fst; intros nLT. destruct (negb (slen nLT =? 4)%Z); [reflexivity|].
  apply cbind_fst; intros ls. apply cbind_fst; intros lt. reflexivity.
Qed.

Section Count.
  Variable A : Type.
  Variable f : slice -> res (A * Z).
  Variable W : bytes -> A -> Prop.
  Variable m : nat.
  Hypothesis f_ok : forall v sp a n, (scap (Sl v sp) < 2 ^ 62)%Z ->
    (f (Sl v sp) = Ok (a, n) <-> exists w r, v = w ++ r /\ W w a /\ n = Z.of_nat (length w)).
  Hypothesis W_min : forall w a, W w a -> (m <= length w)%nat.

  (** every iteration but the last consumes [m] bytes *)
  Lemma loop_count n : forall pre rest sp l, (scap (Sl (pre ++ rest) sp) < 2 ^ 62)%Z ->
    let c := counted_loop (item_step A f (Sl (pre ++ rest) sp)) n (Z.of_nat (length pre), l) in
    match fst c with
    | Ok (off, _) => exists k, off = Z.of_nat (length pre + k) /\ (m * snd c <= k <= length rest)%nat
    | _ => (m * snd c <= length rest + m)%nat
    end.
  Proof.
    induction n as [|n IH]; intros pre rest sp l Cap; cbn [counted_loop].
    - cbn. exists 0%nat. rewrite Nat.mul_0_r. lia.
    - unfold cbind. cbn [fst snd]. rewrite (item_step_eq A f W f_ok) by assumption.
      destruct (f (Sl rest sp)) as [[a k]|e|] eqn:E; cbn [fst snd]; [|lia..].
      apply f_ok in E as (w & r & -> & HW & ->);
        [|unfold scap in *; cbn [vis spare] in *; rewrite !app_length in *; lia].
      rewrite app_assoc in *. rewrite <- Nat2Z.inj_add, <- app_length.
      specialize (IH (pre ++ w) r sp (l ++ [a]) Cap). cbv zeta in IH.
      destruct (counted_loop _ n _) as [q c]. cbn [fst snd] in *. apply W_min in HW.
      destruct q as [[off l']|e|].
      + destruct IH as (k & -> & H). exists (length w + k)%nat. rewrite !app_length. nia.
      + rewrite app_length. nia.
      + rewrite app_length. nia.
  Qed.
End Count.

Lemma wire_output_min w o : wire_output compact w o -> (9 <= length w)%nat.
Proof.
  intros (v & l & s & -> & L & C & _). apply compact_len in C. rewrite !app_length. lia.
Qed.

Lemma fresh_wire_min w i : fresh_wire_input w i -> (41 <= length w)%nat.
Proof. intros [H _]. now apply wire_compact_short in H. Qed.

Lemma loop_late {S} (f : S -> res S) n s : f s = Panic -> counted_loop f n s = free (Ok s) \/ counted_loop f n s = (Panic, 1%nat).
Proof. intros H. destruct n; [now left|]. right. cbn [counted_loop]. unfold cbind. cbn [fst snd]. now rewrite H. Qed.

(** a free step *)
Lemma free_bind {A B} (r : res A) (f : A -> counted B) : cbind (free r) f = match r with Ok a => f a | Err e => (Err e, 0%nat) | Panic => (Panic, 0%nat) end.
Proof. unfold cbind, free. cbn [fst snd]. destruct r; [|reflexivity..]. destruct (f a); reflexivity. Qed.

Lemma free_tail b off ver ins outs :
  snd (nLT <~ free (or_panic (sl_from b off)) ;;
       if negb (slen nLT =? 4)%Z then free (Err ELockTime) else
       ls <~ free (or_panic (sl_from b off)) ;;
       lt <~ free (or_panic (sl_le 4 ls)) ;;
       free (Ok (mk_tx ver ins outs lt))) = 0%nat.
Proof.
  rewrite free_bind. destruct (or_panic (sl_from b off)) as [x|e|]; [|reflexivity..].
  destruct (negb (slen x =? 4)%Z); [reflexivity|]. rewrite free_bind. rewrite free_bind.
  destruct (or_panic (sl_le 4 x)); reflexivity.
Qed.

Lemma tx_work v sp : (scap (Sl v sp) < 2 ^ 62)%Z -> (9 * snd (tx_from_slice_counted (Sl v sp)) <= length v + 3)%nat.
Proof.
  intros Cap. unfold tx_from_slice_counted.
  destruct (Z.ltb_spec (slen (Sl v sp)) 10) as [S|S]; [cbn; lia|].
  unfold slen in S. cbn [vis] in S. destruct (cut4 v ltac:(lia)) as (ver & r & -> & Lv). rewrite app_length in S.
  assert (scap (Sl (ver ++ r) sp) = Z.of_nat (length ver + length r + length sp)) as SC
    by (unfold scap; cbn [vis spare]; rewrite app_length; lia).
  assert (slen (Sl (ver ++ r) sp) = Z.of_nat (length ver + length r)) as SL
    by (unfold slen; cbn [vis]; rewrite app_length; lia).
  rewrite free_bind, (sl_sub_vis _ 0 4) by (rewrite ?SL; lia). cbn [or_panic].
  change (Z.to_nat (4 - 0)) with 4%nat. change (Z.to_nat 0) with 0%nat. rewrite skipn_O. cbn [vis].
  rewrite firstn_exact by assumption. rewrite free_bind, sl_le_exact by assumption. cbn [or_panic]. cbv zeta.
  rewrite free_bind, (sl_from_vis _ 4) by (rewrite ?SL; lia). cbn [or_panic]. change (Z.to_nat 4) with 4%nat.
  cbn [vis spare]. rewrite skipn_exact by assumption. rewrite free_bind.
  destruct (decode_varint (Sl r sp)) as [[n k]|e|] eqn:D; [|cbn [snd]; lia..].
  pose proof (decode_varint_size _ _ _ D) as [K U].
  rewrite wrap_int_small by (unfold two63; lia). rewrite tx_input_items.
  destruct (Z.leb_spec k (Z.of_nat (length r))) as [KL|KL].
  2:{ assert (item_step input input_from_bytes (Sl (ver ++ r) sp) ((4 + k)%Z, []) = Panic) as IP.
      { unfold item_step. rewrite sl_from_none; [reflexivity|]. right. rewrite SL. lia. }
      destruct (loop_late _ (N.to_nat n) _ IP) as [-> | ->].
      - rewrite 2 free_bind. rewrite sl_from_none by (right; rewrite SL; lia). cbn [or_panic snd]. lia.
      - unfold cbind at 1. cbn [fst snd]. rewrite app_length; lia. }
  apply decode_varint_inv in D as (nin & x & E & C & ->); [|exact KL]. cbn [vis] in E. subst r.
  pose proof (compact_len _ _ C) as LN. rewrite app_assoc in *. rewrite app_length in *.
  replace (4 + Z.of_nat (length nin))%Z with (Z.of_nat (length (ver ++ nin))) by (rewrite app_length; lia).
  pose proof (loop_count input input_from_bytes fresh_wire_input 41 input_from_ok fresh_wire_min (N.to_nat n) (ver ++ nin) x sp [] Cap) as H.
  cbv zeta in H. unfold cbind at 1. destruct (counted_loop _ (N.to_nat n) _) as [q c]. cbn [fst snd] in *.
  destruct q as [[off ins]|e|]; cbn [snd]; [|rewrite !app_length in *; lia..].
  destruct H as (j & -> & Hj). rewrite free_bind.
  assert (exists a y, x = a ++ y /\ length a = j) as (a & y & -> & La).
  { exists (firstn j x), (skipn j x). rewrite firstn_skipn, firstn_length. split; [reflexivity|lia]. }
  rewrite (app_assoc (ver ++ nin)) in *.
  replace (length (ver ++ nin) + j)%nat with (length ((ver ++ nin) ++ a)) by (rewrite !app_length; lia).
  rewrite sl_from_vis by (unfold slen; cbn [vis]; rewrite !app_length; lia). cbn [or_panic].
  cbn [vis spare]. rewrite Nat2Z.id, skipn_exact by reflexivity. rewrite free_bind.
  set (pre := (ver ++ nin) ++ a) in *.
  assert (length pre = 4 + length nin + j)%nat as LP by (unfold pre; rewrite !app_length; lia).
  rewrite !app_length in *.
  destruct (decode_varint (Sl y sp)) as [[m k]|e|] eqn:D; [|cbn [snd]; lia..].
  pose proof (decode_varint_size _ _ _ D) as [K' U'].
  rewrite wrap_int_small by (unfold two63; lia). rewrite tx_output_items.
  destruct (Z.leb_spec k (Z.of_nat (length y))) as [KL'|KL'].
  2:{ assert (slen (Sl (pre ++ y) sp) = Z.of_nat (length pre + length y)) as SL'
        by (unfold slen; cbn [vis]; rewrite app_length; lia).
      assert (item_step output output_from_bytes (Sl (pre ++ y) sp) ((Z.of_nat (length pre) + k)%Z, []) = Panic) as IP.
      { unfold item_step. rewrite sl_from_none; [reflexivity|]. right. rewrite SL'. lia. }
      destruct (loop_late _ (N.to_nat m) _ IP) as [-> | ->].
      - rewrite free_bind. rewrite free_tail. lia.
      - unfold cbind at 1. cbn [fst snd]. lia. }
  apply decode_varint_inv in D as (nout & z & E & C' & ->); [|exact KL']. cbn [vis] in E. subst y.
  pose proof (compact_len _ _ C') as LN'. rewrite app_length in *. rewrite (app_assoc pre nout) in *.
  replace (Z.of_nat (length pre) + Z.of_nat (length nout))%Z with (Z.of_nat (length (pre ++ nout))) by (rewrite app_length; lia).
  pose proof (loop_count output output_from_bytes (wire_output compact) 9 output_from_ok wire_output_min (N.to_nat m) (pre ++ nout) z sp [] Cap) as H.
  cbv zeta in H. unfold cbind at 1. destruct (counted_loop _ (N.to_nat m) _) as [q c']. cbn [fst snd] in *.
  destruct q as [[off outs]|e|]; cbn [snd]; [|lia..].
  destruct H as (j' & -> & Hj'). rewrite free_tail. lia.
Qed.

(** ** DecodeParts *)

Lemma bsub_len b lo hi x : bsub b lo hi = Ok x -> lo <= hi /\ hi <= nlen b /\ nlen x = hi - lo.
Proof.
  unfold bsub. destruct ((lo <=? hi) && (hi <=? nlen b)) eqn:E; [|discriminate].
  apply andb_true_iff in E as [A B]. apply N.leb_le in A, B. intros [= <-].
  unfold nlen in *. rewrite firstn_length, skipn_length. lia.
Qed.

Lemma part_len (b : bytes) lo hi (p b' : bytes) : (part <- bsub b lo hi ;; r <- bfrom b hi ;; Ok (part, r)) = Ok (p, b') ->
  lo <= hi /\ nlen p + nlen b' + lo = nlen b.
Proof.
  destruct (bsub b lo hi) as [x|e|] eqn:X; cbn [bind]; [|discriminate..].
  unfold bfrom. destruct (bsub b hi (nlen b)) as [y|e|] eqn:Y; cbn [bind]; [|discriminate..].
  intros [= <- <-]. apply bsub_len in X as (? & ? & ?). apply bsub_len in Y as (? & ? & ?). lia.
Qed.

Lemma part_progress c b p b' : (exists t, b = c :: t) -> decode_part c b = Ok (p, b') ->
  (length b' < length b /\ length p + length b' <= length b)%nat.
Proof.
  intros [t Eb]. assert (forall lo hi, 1 <= lo -> (part <- bsub b lo hi ;; r <- bfrom b hi ;; Ok (part, r)) = Ok (p, b') ->
    (length b' < length b /\ length p + length b' <= length b)%nat) as K.
  { intros lo hi L H. apply part_len in H. unfold nlen in H. lia. }
  assert ((r <- bfrom b 1 ;; Ok ([c], r)) = Ok (p, b') -> (length b' < length b /\ length p + length b' <= length b)%nat) as K1.
  { unfold bfrom. destruct (bsub b 1 (nlen b)) as [y|e|] eqn:Y; cbn [bind]; [|discriminate..].
    intros [= <- <-]. apply bsub_len in Y. unfold nlen in Y. cbn [length]. lia. }
  assert (forall l, 1 + l = l + 1) as C by (intros; lia).
  assert (forall q : bool, (if q then if nlen b <? 1 + b2n c then Err ENotEnough
     else part <- bsub b 1 (b2n c + 1) ;; r <- bfrom b (1 + b2n c) ;; Ok (part, r)
     else r <- bfrom b 1 ;; Ok ([c], r)) = Ok (p, b') -> (length b' < length b /\ length p + length b' <= length b)%nat) as KD.
  { intros [|]; [|exact K1]. destruct (nlen b <? 1 + b2n c); [discriminate|]. rewrite C. apply K. lia. }
  destruct (match c with x4c | x4d | x4e => true | _ => false end) eqn:Q.
  - destruct c; try discriminate Q; unfold decode_part; cbv zeta.
    + destruct (nlen b <? 2); [discriminate|]. match goal with |- context [nlen b <? ?x] => destruct (nlen b <? x); [discriminate|] end. apply K. lia.
    + destruct (nlen b <? 3); [discriminate|]. match goal with |- context [nlen b <? ?x] => destruct (nlen b <? x); [discriminate|] end. apply K. lia.
    + destruct (nlen b <? 5); [discriminate|]. match goal with |- context [nlen b <? ?x] => destruct (nlen b <? x); [discriminate|] end. apply K. lia.
  - specialize (KD ((0x01 <=? b2n c) && (b2n c <=? 0x4e))). destruct c; try discriminate Q; exact KD.
Qed.

Lemma decode_counted_eq fuel : forall r b, (length b <= fuel)%nat ->
  fst (decode_counted fuel r b) = decode_loop (length b) r b /\ (snd (decode_counted fuel r b) <= length b)%nat.
Proof.
  assert (forall f g r b, (length b <= f)%nat -> (length b <= g)%nat -> decode_loop f r b = decode_loop g r b) as FU.
  { induction f as [|f IH]; intros g r [|c t] Hf Hg; try (destruct g; reflexivity); [cbn in Hf; lia|].
    destruct g as [|g]; [cbn in Hg; lia|]. cbn [decode_loop].
    destruct (decode_part c (c :: t)) as [[p b']|e|] eqn:D; [|reflexivity..].
    apply part_progress in D; [|eauto]. apply IH; lia. }
  induction fuel as [|fuel IH]; intros r [|c t] H; try (split; [reflexivity|cbn; lia]); [cbn in H; lia|].
  cbn [decode_counted]. change (decode_loop (length (c :: t)) r (c :: t)) with
    (match decode_part c (c :: t) with Ok (part, b') => decode_loop (length t) (r ++ [part]) b' | Err e => Ok (r, Some e) | Panic => Panic end).
  destruct (decode_part c (c :: t)) as [[p b']|e|] eqn:D; [|cbn [fst snd length]; split; [reflexivity|lia]..].
  apply part_progress in D; [|eauto]. destruct (IH (r ++ [p]) b') as [A B]; [lia|]. cbn [fst snd]. split; [|lia].
  rewrite A. apply FU; cbn [length] in D; lia.
Qed.

Lemma decode_loop_sizes fuel : forall r b ps e, decode_loop fuel r b = Ok (ps, e) ->
  (length (concat ps) <= length (concat r) + length b /\ length ps <= length r + length b)%nat.
Proof.
  induction fuel as [|fuel IH]; intros r [|c t] ps e; cbn [decode_loop].
  - intros [= <- <-]. lia.
  - discriminate.
  - intros [= <- <-]. lia.
  - destruct (decode_part c (c :: t)) as [[p b']|e'|] eqn:D; [| |discriminate].
    + apply part_progress in D; [|eauto]. intros H. apply IH in H. rewrite concat_app, !app_length in H. cbn [concat length] in *. rewrite app_nil_r in H. lia.
    + intros [= <- <-]. lia.
Qed.

(** ** Sizes *)

Definition in_script_len (oi : option input) : nat := match oi with Some i => length (script_bytes (unlocking i)) | None => 0 end.
Definition out_script_len (oo : option output) : nat := match oo with Some o => length (script_bytes (locking o)) | None => 0 end.

Lemma ins_size wi l : Forall2 (fun w oi => exists i, oi = Some i /\ wire_input compact w i) wi l ->
  (41 * length l + list_sum (map in_script_len l) <= length (concat wi))%nat.
Proof.
  induction 1 as [|w oi wi l (i & -> & H) F IH]; [cbn; lia|]. cbn [concat length map list_sum fold_right]. rewrite app_length.
  destruct H as (id & ix & c & sq & -> & ? & ? & ? & C & _). apply compact_len in C. rewrite !app_length. cbn [in_script_len].
  unfold list_sum in IH. lia.
Qed.

Lemma outs_size wo l : Forall2 (fun w oo => exists o, oo = Some o /\ wire_output compact w o) wo l ->
  (9 * length l + list_sum (map out_script_len l) <= length (concat wo))%nat.
Proof.
  induction 1 as [|w oo wo l (o & -> & H) F IH]; [cbn; lia|]. cbn [concat length map list_sum fold_right]. rewrite app_length.
  destruct H as (v & c & s & -> & ? & C & _ & E). apply compact_len in C. rewrite !app_length. cbn [out_script_len]. rewrite E. cbn [script_bytes].
  unfold list_sum in IH. lia.
Qed.

Lemma tx_size w t : wire_tx compact w t ->
  (10 + 41 * length (inputs t) + 9 * length (outputs t) + list_sum (map in_script_len (inputs t)) + list_sum (map out_script_len (outputs t)) <= length w)%nat.
Proof.
  intros (ver & nin & wi & nout & wo & lt & -> & ? & ? & _ & _ & C & C' & F & F').
  apply compact_len in C, C'. apply ins_size in F. apply outs_size in F'. rewrite !app_length. lia.
Qed.
