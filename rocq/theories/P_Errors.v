(** Proofs about error reports. *)
From Verif Require Export S_Errors P_TxParse P_Address P_Merkle P_Coinbase.
From Coq Require Import ZifyBool ZifyNat ZifyN.

(** ** Addresses *)

Lemma b58_val_app s : forall v t, b58_val v (s ++ t) = match b58_val v s with Some w => b58_val w t | None => None end.
Proof.
  induction s as [|c s IH]; intros v t; cbn [b58_val app]; [reflexivity|].
  destruct (index_byte alphabet c) as [d|]; [apply IH|reflexivity].
Qed.

Lemma index_absent c : index_byte alphabet c = None <-> ~ In c b58_chars.
Proof.
  rewrite <- alphabet_chars. split; [apply index_byte_none|].
  intros H. destruct (index_byte alphabet c) as [d|] eqn:E; [|reflexivity]. exfalso. apply H.
  clear H. revert d E. generalize alphabet as l. induction l as [|x l IH]; intros d; cbn [index_byte]; [discriminate|].
  destruct (byte_eqb x c) eqn:B; [apply byte_eqb_eq in B; left; exact B|].
  destruct (index_byte l c) as [d'|]; [|discriminate]. intros _. right. now apply (IH d').
Qed.

Lemma set58_app s : forall v w t, v < 256 ^ 25 -> b58_val v s = Some w -> w < 256 ^ 25 ->
  set58 (be_put 25 v) (s ++ t) = set58 (be_put 25 w) t.
Proof.
  induction s as [|c s IH]; intros v w t H E L; cbn [app set58 b58_val] in *; [now injection E as <-|].
  rewrite set58_step_spec by assumption. destruct (index_byte alphabet c) as [d|]; [|discriminate].
  pose proof (b58_val_le _ _ _ E). destruct (N.ltb_spec (58 * v + d) (256 ^ 25)); [|lia]. cbn [bind]. now apply IH.
Qed.

Lemma set58_long s : forall v w t, v < 256 ^ 25 -> b58_val v s = Some w -> 256 ^ 25 <= w ->
  set58 (be_put 25 v) (s ++ t) = Err ETooLong.
Proof.
  induction s as [|c s IH]; intros v w t H E L; cbn [app set58 b58_val] in *; [injection E as <-; lia|].
  rewrite set58_step_spec by assumption. destruct (index_byte alphabet c) as [d|]; [|discriminate].
  destruct (N.ltb_spec (58 * v + d) (256 ^ 25)); cbn [bind]; [|reflexivity]. now apply (IH _ w).
Qed.

Lemma set58_err s : forall v e, v < 256 ^ 25 -> set58 (be_put 25 v) s = Err e ->
  (e = EBadChar /\ exists p w c r, s = p ++ c :: r /\ b58_val v p = Some w /\ w < 256 ^ 25 /\ ~ In c b58_chars) \/
  (e = ETooLong /\ exists p w r, s = p ++ r /\ b58_val v p = Some w /\ 256 ^ 25 <= w).
Proof.
  induction s as [|c s IH]; intros v e H; cbn [set58]; [discriminate|].
  rewrite set58_step_spec by assumption. destruct (index_byte alphabet c) as [d|] eqn:I.
  - destruct (N.ltb_spec (58 * v + d) (256 ^ 25)) as [L|L]; cbn [bind]; intros E.
    + apply IH in E; [|assumption]. destruct E as [(-> & p & w & c' & r & -> & V & W & A)|(-> & p & w & r & -> & V & W)]; [left|right].
      * split; [reflexivity|]. exists (c :: p), w, c', r. cbn [app b58_val]. rewrite I. auto.
      * split; [reflexivity|]. exists (c :: p), w, r. cbn [app b58_val]. rewrite I. auto.
    + injection E as <-. right. split; [reflexivity|]. exists [c], (58 * v + d), s. cbn [app b58_val]. rewrite I. auto.
  - cbn [bind]. intros E. injection E as <-. left. split; [reflexivity|]. exists [], v, c, s. cbn [app b58_val].
    apply index_absent in I. auto.
Qed.

Lemma valid_a58_of s w h k : b58_num s (be_get (w :: h ++ k)) -> length h = 20%nat -> length k = 4%nat ->
  valid_a58 s = if negb (byte_eqb w x00) && negb (byte_eqb w x6f) then Err EVersion
                else if negb (equals k (firstn 4 (sha256d (w :: h)))) then Err EChecksum else Ok tt.
Proof.
  intros B Lh Lk. apply b58_num_iff in B. unfold valid_a58. rewrite zeros25.
  set (p := w :: h ++ k) in *.
  assert (length p = 25%nat) as Lp by (unfold p; cbn [length]; rewrite app_length; lia).
  pose proof (be_get_bound p) as Bd. rewrite Lp in Bd. change (N.of_nat 25) with 25 in Bd.
  assert (set58 (be_put 25 0) s = Ok p) as ->.
  { apply set58_spec; [lia|]. exists (be_get p). repeat split; try assumption. symmetry. now apply be_put_unique. }
  cbn [bind]. destruct (parts25 w h k Lh Lk) as (A1 & _ & A3 & A4). fold p in A1, A3, A4.
  rewrite A1, A3, A4. reflexivity.
Qed.

Lemma valid_a58_err s e : valid_a58 s = Err e <-> validate_fails s e.
Proof.
  split.
  - intros H. unfold valid_a58 in H. rewrite zeros25 in H.
    destruct (set58 (be_put 25 0) s) as [a|e'|] eqn:E; cbn [bind] in H; [| |discriminate].
    + apply set58_spec in E as (v & E & L & ->); [|lia]. apply b58_num_iff in E.
      destruct (length25 (be_put 25 v) (be_put_length 25 v)) as (w & h & k & P & Lh & Lk).
      rewrite P in H. destruct (parts25 w h k Lh Lk) as (A1 & _ & A3 & A4). rewrite A1, A3, A4 in H.
      assert (b58_num s (be_get (w :: h ++ k))) as B.
      { rewrite <- P, be_get_put. change (N.of_nat 25) with 25. rewrite N.mod_small by assumption. exact E. }
      destruct (negb (byte_eqb w x00) && negb (byte_eqb w x6f)) eqn:W.
      * injection H as <-. eapply vf_version; try eassumption. rewrite <- version_test. congruence.
      * apply version_test in W. destruct (equals k (firstn 4 (sha256d (w :: h)))) eqn:Q; cbn [negb] in H; [discriminate|].
        injection H as <-. eapply vf_checksum; try eassumption. intros Eq. apply equals_spec in Eq. congruence.
    + injection H as <-. apply set58_err in E; [|lia].
      destruct E as [(-> & p & w & c & r & -> & V & W & A)|(-> & p & w & r & -> & V & W)]; apply b58_num_iff in V.
      * eapply vf_char; eassumption.
      * eapply vf_long; eassumption.
  - intros [p v c r B L A|p v r B L|s' w h k B Lh Lk W|s' w h k B Lh Lk W K].
    + apply b58_num_iff in B. unfold valid_a58. rewrite zeros25, (set58_app p 0 v) by (assumption || lia).
      cbn [set58]. rewrite set58_step_spec by assumption. apply index_absent in A. rewrite A. reflexivity.
    + apply b58_num_iff in B. unfold valid_a58. rewrite zeros25, (set58_long p 0 v) by (assumption || lia). reflexivity.
    + rewrite (valid_a58_of _ _ _ _ B Lh Lk).
      destruct (negb (byte_eqb w x00) && negb (byte_eqb w x6f)) eqn:T; [reflexivity|]. apply version_test in T. contradiction.
    + rewrite (valid_a58_of _ _ _ _ B Lh Lk). apply version_test in W. rewrite W.
      destruct (equals k (firstn 4 (sha256d (w :: h)))) eqn:Q; [|reflexivity]. apply equals_spec in Q. contradiction.
Qed.

Lemma address_err s e : addr_from_string s = Err e <-> address_fails s e.
Proof.
  unfold addr_from_string, address_to_pkh_str. split.
  - destruct (Nat.eqb (length (b58_decode s)) 25) eqn:L; cbn [negb bind].
    + apply Nat.eqb_eq in L. destruct (length25 _ L) as (w & h & k & P & Lh & Lk).
      pose proof (pkh_str_some s (b58_decode s) w h k P Lh Lk) as X. rewrite L in X.
      change (negb (Nat.eqb 25 25)) with false in X. cbv iota in X. rewrite X.
      destruct (byte_eqb w x00 || byte_eqb w x6f) eqn:W; [discriminate|]. cbn [bind]. intros E. injection E as <-.
      eapply af_version; try eassumption; [apply b58_decode_iff; [discriminate|exact P]|].
      intros V. unfold addr_version in V. rewrite <- !byte_eqb_eq, <- orb_true_iff in V. congruence.
    + intros E. injection E as <-. apply af_length. intros b Lb B. apply b58_decode_iff in B; [|now destruct b].
      rewrite B, Lb in L. discriminate.
  - intros [s' H|s' w h k O Lh Lk W].
    + destruct (Nat.eqb (length (b58_decode s')) 25) eqn:L; [|reflexivity]. apply Nat.eqb_eq in L. exfalso.
      apply (H _ L). apply b58_decode_iff; [|reflexivity]. intros Z. rewrite Z in L. discriminate.
    + apply b58_of_decode in O. rewrite (pkh_str_some s' (b58_decode s') w h k O Lh Lk).
      destruct (byte_eqb w x00 || byte_eqb w x6f) eqn:Q; [|reflexivity].
      apply orb_true_iff in Q. rewrite !byte_eqb_eq in Q. contradiction.
Qed.

(** ** Inputs and outputs *)

Lemma input_err v e : (Z.of_nat (length v) < 2 ^ 62)%Z -> (input_from_bytes (Sl v []) = Err e <-> input_fails v e).
Proof.
  intros Cap. assert (scap (Sl v []) < 2 ^ 62)%Z as Cap' by (unfold scap; cbn [vis spare length]; lia).
  destruct (Z.ltb_spec (slen (Sl v [])) 36) as [S|S].
  { unfold input_from_bytes. replace (slen (Sl v []) <? 36)%Z with true by lia.
    unfold slen in S. cbn [vis] in S. split.
    - intros E. injection E as <-. apply if_head. lia.
    - intros H. inversion H as [b H'|h n l x L C H']; subst; [reflexivity|]. rewrite app_length in S. lia. }
  unfold slen in S. cbn [vis] in S.
  destruct (cut36 v ltac:(lia)) as (id & ix & r & -> & Li & Lx).
  rewrite input_from_eq by assumption. unfold input_outcome.
  destruct (decode_dec r) as [Tr|(n & l & x & -> & C)].
  - pose proof (proj2 (decode_truncated r) Tr) as ->. split; [discriminate|]. intros H.
    remember (id ++ ix ++ r) as b eqn:E. destruct H as [b H|h n l x L C H]; [lia|]. exfalso.
    rewrite (app_assoc id ix) in E. apply (cut_uniq 36) in E as [E1 E2]; [|rewrite ?app_length; lia..]. subst r.
    apply decode_truncated in Tr. rewrite (decode_varint_compact _ _ _ _ C) in Tr. discriminate.
  - rewrite (decode_varint_compact _ _ _ _ C). cbv zeta. rewrite app_length.
    pose proof (compact_bound _ _ C) as U. unfold u64 in U. pose proof (compact_len _ _ C) as LL.
    set (total := (36 + Z.of_nat (length l) + Z.of_N n + 4)%Z).
    assert (input_fails (id ++ ix ++ l ++ x) e <-> e = EInputShort /\
      ((36 + nlen l + n + 4 < 2 ^ 63 /\ nlen (id ++ ix ++ l ++ x) < 36 + nlen l + n + 4) \/
       (2 ^ 64 <= 36 + nlen l + n + 4 /\ nlen (id ++ ix ++ l ++ x) < 36 + nlen l + n + 4 - 2 ^ 64))) as ->.
    { split.
      - intros H. remember (id ++ ix ++ l ++ x) as b eqn:E. destruct H as [b H|h n' l' x' L C' H]; [lia|].
        split; [reflexivity|].
        pose proof E as E0. rewrite (app_assoc id ix) in E0.
        apply (cut_uniq 36) in E0 as [E1 E2]; [|rewrite ?app_length; lia..].
        symmetry in E2. destruct (cs_uniq _ _ _ _ _ _ C C' (eq_sym E2)) as (-> & -> & ->). exact H.
      - intros [-> H]. rewrite app_assoc. apply if_short with n; [rewrite app_length; lia|assumption|].
        cbv zeta. rewrite <- app_assoc. exact H. }
    unfold nlen. rewrite !app_length.
    destruct (total <? two63)%Z eqn:T; unfold total, two63, two64 in *.
    + destruct (36 + Z.of_nat (length l + length x) <? 36 + Z.of_nat (length l) + Z.of_N n + 4)%Z eqn:Q.
      * split; [intros E; injection E as <-; split; [reflexivity|]; left; lia|]. intros [-> _]. reflexivity.
      * split; [discriminate|]. intros [_ H]. exfalso. lia.
    + match goal with |- (if ?c then _ else _) = _ <-> _ => destruct c eqn:Q end.
      * split; [intros E; injection E as <-; split; [reflexivity|]; right; lia|]. intros [-> _]. reflexivity.
      * split; [discriminate|]. intros [_ H]. exfalso. lia.
Qed.

Lemma output_err v e : (Z.of_nat (length v) < 2 ^ 62)%Z -> (output_from_bytes (Sl v []) = Err e <-> output_fails v e).
Proof.
  intros Cap. assert (scap (Sl v []) < 2 ^ 62)%Z as Cap' by (unfold scap; cbn [vis spare length]; lia).
  destruct (Z.ltb_spec (slen (Sl v [])) 8) as [S|S].
  { unfold output_from_bytes. replace (slen (Sl v []) <? 8)%Z with true by lia.
    unfold slen in S. cbn [vis] in S. split.
    - intros E. injection E as <-. apply of_head. lia.
    - intros H. inversion H as [b H'|h n l x L C H']; subst; [reflexivity|]. rewrite app_length in S. lia. }
  unfold slen in S. cbn [vis] in S.
  destruct (cut8 v ltac:(lia)) as (a & r & -> & La).
  rewrite output_from_eq by assumption. unfold output_outcome.
  destruct (decode_dec r) as [Tr|(n & l & x & -> & C)].
  - pose proof (proj2 (decode_truncated r) Tr) as ->. split; [discriminate|]. intros H.
    remember (a ++ r) as b eqn:E. destruct H as [b H|h n l x L C H]; [lia|]. exfalso.
    apply (cut_uniq 8) in E as [E1 E2]; [|lia..]. subst r.
    apply decode_truncated in Tr. rewrite (decode_varint_compact _ _ _ _ C) in Tr. discriminate.
  - rewrite (decode_varint_compact _ _ _ _ C). cbv zeta. rewrite app_length.
    pose proof (compact_bound _ _ C) as U. unfold u64 in U. pose proof (compact_len _ _ C) as LL.
    assert (output_fails (a ++ l ++ x) e <-> e = EOutputShort /\
      (8 + nlen l + n < 2 ^ 63 /\ nlen (a ++ l ++ x) < 8 + nlen l + n)) as ->.
    { split.
      - intros H. remember (a ++ l ++ x) as b eqn:E. destruct H as [b H|h n' l' x' L C' H]; [lia|].
        split; [reflexivity|].
        pose proof E as E0.
        apply (cut_uniq 8) in E0 as [E1 E2]; [|assumption|assumption].
        symmetry in E2. destruct (cs_uniq _ _ _ _ _ _ C C' (eq_sym E2)) as (-> & -> & ->). exact H.
      - intros [-> H]. apply of_short with n; assumption. }
    unfold nlen. rewrite !app_length.
    destruct (8 + Z.of_nat (length l) + Z.of_N n <? two63)%Z eqn:T; unfold two63, two64 in *.
    + destruct (8 + Z.of_nat (length l + length x) <? 8 + Z.of_nat (length l) + Z.of_N n)%Z eqn:Q.
      * split; [intros E; injection E as <-; split; [reflexivity|]; lia|]. intros [-> _]. reflexivity.
      * split; [discriminate|]. intros [_ H]. exfalso. lia.
    + match goal with |- (if ?c then _ else _) = _ <-> _ => destruct c eqn:Q end.
      * exfalso. lia.
      * split; [discriminate|]. intros [_ H]. exfalso. lia.
Qed.

(** ** The whole transaction *)
Section Items.
  Variable A : Type.
  Variable f : slice -> res (A * Z).
  Variable W : bytes -> A -> Prop.
  Hypothesis f_ok : forall v sp a n, (scap (Sl v sp) < 2 ^ 62)%Z ->
    (f (Sl v sp) = Ok (a, n) <-> exists w r, v = w ++ r /\ W w a /\ n = Z.of_nat (length w)).

  Lemma items_err e n : forall pre rest sp l, (scap (Sl (pre ++ rest) sp) < 2 ^ 62)%Z ->
    (nat_loop (item_step A f (Sl (pre ++ rest) sp)) n (Z.of_nat (length pre), l) = Err e <->
     exists ws is r, rest = concat ws ++ r /\ Forall2 W ws is /\ (length is < n)%nat /\ f (Sl r sp) = Err e).
  Proof.
    induction n as [|n IH]; intros pre rest sp l Cap; cbn [nat_loop].
    - split; [discriminate|]. intros (ws & is & r & _ & _ & L & _). lia.
    - rewrite (item_step_eq A f W f_ok) by assumption. split.
      + destruct (f (Sl rest sp)) as [[a k]|e'|] eqn:E; try discriminate; cbn [bind].
        * apply f_ok in E as (w & r & -> & HW & ->);
            [|unfold scap in *; cbn [vis spare] in *; rewrite !app_length in *; lia].
          rewrite app_assoc in *. rewrite <- Nat2Z.inj_add, <- app_length. intros E.
          apply IH in E as (ws & is & r' & -> & F & L & P); [|assumption].
          exists (w :: ws), (a :: is), r'. cbn [concat length]. rewrite <- !app_assoc.
          repeat split; [now constructor|lia|assumption].
        * intros Q. injection Q as ->. exists [], [], rest. cbn [concat app length]. repeat split; [constructor|lia|assumption].
      + intros (ws & is & r & -> & F & L & P). destruct is as [|a is].
        * inversion F; subst. cbn [concat app]. rewrite P. reflexivity.
        * inversion F as [|w x ws' ? HW F']; subst. cbn [concat] in *. rewrite <- !app_assoc in *.
          assert (f (Sl (w ++ concat ws' ++ r) sp) = Ok (a, Z.of_nat (length w))) as ->.
          { apply f_ok; [unfold scap in *; cbn [vis spare] in *; rewrite !app_length in *; lia|]. eauto. }
          cbn [bind]. rewrite <- Nat2Z.inj_add, <- app_length. rewrite app_assoc in *.
          apply IH; [assumption|]. exists ws', is, r. cbn [length] in L.
          repeat split; try assumption. lia.
  Qed.
End Items.

Lemma outputs_err ver ins pre rest e : (Z.of_nat (length (pre ++ rest)) < 2 ^ 62)%Z ->
  (parse_outputs ver ins (length pre) rest [] (Sl (pre ++ rest) []) = Err e <->
   exists m nout wo r, rest = nout ++ concat wo ++ r /\ compact m nout /\ Forall some_output wo /\
     ((nlen wo < m /\ output_fails r e) \/ (nlen wo = m /\ length r <> 4%nat /\ e = ELockTime))).
Proof.
  intros Cap. assert (scap (Sl (pre ++ rest) []) < 2 ^ 62)%Z as Cap' by (unfold scap; cbn [vis spare length]; lia).
  unfold parse_outputs. split.
  - destruct (decode_dec rest) as [Tr|(m & nout & x & -> & C)].
    { pose proof (proj2 (decode_truncated rest) Tr) as ->. discriminate. }
    rewrite (decode_varint_compact _ _ _ _ C). rewrite <- Nat2Z.inj_add, <- app_length. rewrite (app_assoc pre nout) in *.
    match goal with |- bind ?L _ = _ -> _ => destruct L as [[off outs]|e'|] eqn:LP end; cbn [bind]; [| |discriminate].
    + apply (items_ok output output_from_bytes (wire_output compact) output_from_ok) in LP
        as (wo & os & y & -> & F & L & -> & ->); [|assumption].
      rewrite sl_from_vis by (unfold slen; cbn [vis]; rewrite !app_length; lia).
      cbn [or_panic bind]. rewrite Nat2Z.id. cbn [vis]. rewrite (app_assoc (pre ++ nout)), skipn_exact by (rewrite !app_length; lia).
      unfold slen. cbn [vis]. destruct (Z.of_nat (length y) =? 4)%Z eqn:Y; cbn [negb].
      * rewrite sl_le_exact by lia. discriminate.
      * intros E. injection E as <-. exists m, nout, wo, y. split; [reflexivity|]. split; [assumption|].
        split; [apply Forall_outs; eauto|]. right. split; [|split; [lia|reflexivity]].
        apply Forall2_length in F. unfold nlen, bytes in *. lia.
    + intros E. injection E as ->.
      apply (items_err output output_from_bytes (wire_output compact) output_from_ok) in LP
        as (wo & os & r & -> & F & L & P); [|assumption].
      exists m, nout, wo, r. split; [reflexivity|]. split; [assumption|]. split; [apply Forall_outs; eauto|]. left.
      split; [apply Forall2_length in F; unfold nlen, bytes in *; lia|].
      apply output_err; [rewrite !app_length in *; lia|assumption].
  - intros (m & nout & wo & r & -> & C & FO & H). apply Forall_outs in FO as (os & F).
    pose proof (Forall2_length _ _ _ F) as FL.
    rewrite (decode_varint_compact _ _ _ _ C). rewrite <- Nat2Z.inj_add, <- app_length. rewrite (app_assoc pre nout) in *.
    destruct H as [[L P]|(L & R & ->)].
    + rewrite (proj2 (items_err output output_from_bytes (wire_output compact) output_from_ok e (N.to_nat m) (pre ++ nout) (concat wo ++ r) [] [] Cap')); [reflexivity|].
      exists wo, os, r. repeat split; try assumption.
      * unfold nlen, bytes in *. lia.
      * apply output_err; [|assumption]. rewrite !app_length in *. lia.
    + rewrite (proj2 (items_ok output output_from_bytes (wire_output compact) output_from_ok (N.to_nat m) (pre ++ nout) (concat wo ++ r) [] []
        (Z.of_nat (length (pre ++ nout) + length (concat wo))) os Cap')).
      2:{ exists wo, os, r. repeat split; try assumption. unfold nlen, bytes in *. lia. }
      cbn [bind]. rewrite sl_from_vis by (unfold slen; cbn [vis]; rewrite !app_length; lia).
      cbn [or_panic bind]. rewrite Nat2Z.id. cbn [vis]. rewrite (app_assoc (pre ++ nout)), skipn_exact by (rewrite !app_length; lia).
      unfold slen. cbn [vis]. destruct (Z.of_nat (length r) =? 4)%Z eqn:Y; [lia|]. reflexivity.
Qed.

Lemma tx_err v e : (Z.of_nat (length v) < 2 ^ 62)%Z -> (tx_from_slice (Sl v []) = Err e <-> tx_fails v e).
Proof.
  intros Cap. assert (scap (Sl v []) < 2 ^ 62)%Z as Cap' by (unfold scap; cbn [vis spare length]; lia).
  split.
  - destruct (Z.ltb_spec (slen (Sl v [])) 10) as [S|S].
    { unfold tx_from_slice. replace (slen (Sl v []) <? 10)%Z with true by lia. intros E. injection E as <-.
      apply tf_short. unfold slen in S. cbn [vis] in S. lia. }
    unfold slen in S. cbn [vis] in S. destruct (cut4 v ltac:(lia)) as (ver & r & -> & Lv). rewrite app_length in S.
    rewrite tx_from_eq by assumption. replace (Z.of_nat (length r) <? 6)%Z with false by lia.
    destruct (decode_dec r) as [Tr|(n & nin & x & -> & C)].
    { pose proof (proj2 (decode_truncated r) Tr) as ->. discriminate. }
    rewrite (decode_varint_compact _ _ _ _ C).
    replace (4 + Z.of_nat (length nin))%Z with (Z.of_nat (length (ver ++ nin))) by (rewrite app_length; lia).
    rewrite (app_assoc ver nin) in *.
    match goal with |- bind ?L _ = _ -> _ => destruct L as [[off ins]|e'|] eqn:LP end; cbn [bind]; [| |discriminate].
    + apply (items_ok input input_from_bytes fresh_wire_input input_from_ok) in LP
        as (wi & is & y & -> & F & L & -> & ->); [|assumption].
      rewrite sl_from_vis by (unfold slen; cbn [vis]; rewrite !app_length; lia).
      cbn [vis spare]. rewrite Nat2Z.id, (app_assoc (ver ++ nin)), skipn_exact by (rewrite !app_length; lia).
      replace (length (ver ++ nin) + length (concat wi))%nat with (length ((ver ++ nin) ++ concat wi)) by (rewrite !app_length; lia).
      cbn [app]. rewrite outputs_err by (rewrite <- app_assoc; assumption).
      assert (Forall some_input wi) as FI by (apply Forall_fresh; eauto).
      assert (nlen wi = n) as LW by (apply Forall2_length in F; unfold nlen, bytes in *; lia).
      intros (m & nout & wo & r & -> & Co & FO & [[Lt P]|(Lt & R & ->)]); rewrite <- !app_assoc.
      * eapply tf_output; try eassumption. rewrite !app_length in *. lia.
      * eapply tf_locktime; try eassumption. rewrite !app_length in *. lia.
    + intros E. injection E as ->.
      apply (items_err input input_from_bytes fresh_wire_input input_from_ok) in LP
        as (wi & is & r & -> & F & L & P); [|assumption]. rewrite <- app_assoc.
      eapply tf_input; [exact Lv|exact C|apply Forall_fresh; eauto| | |].
      * apply Forall2_length in F; unfold nlen, bytes in *; lia.
      * rewrite !app_length in *. lia.
      * apply input_err; [rewrite !app_length in *; lia|assumption].
  - intros H. destruct H as [b L|ver n nin wi r e Lv C FI Lt L10 P|ver n nin wi m nout wo r e Lv C FI Lt Co FO Lo L10 P|ver n nin wi m nout wo r Lv C FI Lt Co FO Lo L10 P].
    { unfold tx_from_slice, slen. cbn [vis]. replace (Z.of_nat (length b) <? 10)%Z with true by lia. reflexivity. }
    all: apply Forall_fresh in FI as (is & F); pose proof (Forall2_length _ _ _ F) as FL;
      rewrite tx_from_eq by assumption; rewrite app_length in L10;
      match goal with |- (if (Z.of_nat (length ?r) <? 6)%Z then _ else _) = _ => replace (Z.of_nat (length r) <? 6)%Z with false by lia end;
      rewrite (decode_varint_compact _ _ _ _ C);
      replace (4 + Z.of_nat (length nin))%Z with (Z.of_nat (length (ver ++ nin))) by (rewrite app_length; lia);
      rewrite (app_assoc ver nin) in *.
    { rewrite (proj2 (items_err input input_from_bytes fresh_wire_input input_from_ok e (N.to_nat n) (ver ++ nin) (concat wi ++ r) [] [] Cap')); [reflexivity|].
      exists wi, is, r. repeat split; try assumption.
      * unfold nlen, bytes in *. lia.
      * apply input_err; [|assumption]. rewrite !app_length in *. lia. }
    all: set (rest := nout ++ concat wo ++ r) in *;
      rewrite (proj2 (items_ok input input_from_bytes fresh_wire_input input_from_ok (N.to_nat n) (ver ++ nin) (concat wi ++ rest) [] []
        (Z.of_nat (length (ver ++ nin) + length (concat wi))) is Cap'))
      by (exists wi, is, rest; repeat split; try assumption; unfold nlen, bytes in *; lia);
      cbn [bind]; rewrite sl_from_vis by (unfold slen; cbn [vis]; rewrite !app_length; lia);
      cbn [vis spare]; rewrite Nat2Z.id, (app_assoc (ver ++ nin)), skipn_exact by (rewrite !app_length; lia);
      replace (length (ver ++ nin) + length (concat wi))%nat with (length ((ver ++ nin) ++ concat wi)) by (rewrite !app_length; lia);
      apply outputs_err; [rewrite <- app_assoc; assumption|]; exists m, nout, wo, r; (split; [reflexivity|]); auto 10.
Qed.

Lemma all_hex_decode h : forallb is_hex h = true ->
  (Nat.odd (length h) = true /\ exists d, hex_decode h = (d, Some HexErrLength)) \/
  (Nat.odd (length h) = false /\ exists d, hex_decode h = (d, None)).
Proof.
  induction h as [|c|c d r IH] using list_ind2; intros X.
  - right. split; [reflexivity|]. exists []. reflexivity.
  - left. split; [reflexivity|]. cbn [forallb] in X. unfold is_hex in X. exists []. cbn [hex_decode].
    destruct (hexval c); [reflexivity|discriminate].
  - cbn [forallb] in X. unfold is_hex in X at 1 2. cbn [hex_decode].
    destruct (hexval c) as [a|]; [|discriminate]. destruct (hexval d) as [b|]; [|discriminate].
    cbn [andb] in X. apply IH in X. change (Nat.odd (length (c :: d :: r))) with (Nat.odd (length r)).
    destruct X as [(O & x & D)|(O & x & D)]; rewrite D; [left|right]; (split; [exact O|]); eexists; reflexivity.
Qed.

Lemma hex_fails_iff s : forall e, (exists d, hex_decode s = (d, Some e)) <-> hex_fails s e.
Proof.
  induction s as [|c|c d r IH] using list_ind2; intros e.
  - split; [intros (d & H); discriminate|]. intros H. inversion H as [p c r A B E|s A B]; subst; [destruct p; discriminate|discriminate].
  - cbn [hex_decode]. split.
    + intros (d & H). destruct (hexval c) as [x|] eqn:V; injection H as <- <-.
      * apply hf_odd; [|reflexivity]. cbn [forallb]. unfold is_hex. now rewrite V.
      * apply (hf_char [] c []); [reflexivity|]. unfold is_hex. now rewrite V.
    + intros H. inversion H as [p c' r A B E|s A B]; subst.
      * destruct p as [|q p]; [|destruct p; discriminate]. injection E as -> _. unfold is_hex in B.
        destruct (hexval c); [discriminate|]. eauto.
      * cbn [forallb] in A. unfold is_hex in A. destruct (hexval c); [eauto|discriminate].
  - cbn [hex_decode]. destruct (hexval c) as [a|] eqn:C.
    2:{ split.
        - intros (x & H). injection H as <- <-. apply (hf_char [] c (d :: r)); [reflexivity|]. unfold is_hex. now rewrite C.
        - intros H. inversion H as [p c' r' A B E|s A B]; subst.
          + destruct p as [|q p]; [injection E as -> _; eauto|]. injection E as -> _. cbn [forallb] in A. unfold is_hex in A at 1.
            rewrite C in A. discriminate.
          + cbn [forallb] in A. unfold is_hex in A at 1. rewrite C in A. discriminate. }
    destruct (hexval d) as [b|] eqn:D.
    2:{ split.
        - intros (x & H). injection H as <- <-. apply (hf_char [c] d r); [cbn [forallb]; unfold is_hex; now rewrite C|]. unfold is_hex. now rewrite D.
        - intros H. inversion H as [p c' r' A B E|s A B]; subst.
          + destruct p as [|q p]; [injection E as -> _; unfold is_hex in B; rewrite C in B; discriminate|]. injection E as -> E.
            destruct p as [|q' p]; [injection E as -> _; eauto|]. injection E as -> _. cbn [forallb] in A. unfold is_hex in A at 1 2.
            rewrite C, D in A. discriminate.
          + cbn [forallb] in A. unfold is_hex in A at 1 2. rewrite C, D in A. discriminate. }
    transitivity (exists x, hex_decode r = (x, Some e)).
    { destruct (hex_decode r) as [t o]. split; intros (x & H); injection H as <- ->; eauto. }
    rewrite IH. split; intros H.
    + inversion H as [p c' r' A B|s A B]; subst.
      * apply (hf_char (c :: d :: p) c' r'); [|assumption]. cbn [forallb]. unfold is_hex at 1 2. rewrite C, D. exact A.
      * apply hf_odd; [|exact B]. cbn [forallb]. unfold is_hex at 1 2. rewrite C, D. exact A.
    + inversion H as [p c' r' A B E|s A B]; subst.
      * destruct p as [|q p]; [injection E as -> _; unfold is_hex in B; rewrite C in B; discriminate|]. injection E as -> E.
        destruct p as [|q' p]; [injection E as -> _; unfold is_hex in B; rewrite D in B; discriminate|]. injection E as -> E. subst r.
        apply hf_char; [|assumption]. cbn [forallb] in A. apply andb_true_iff in A as [_ A]. apply andb_true_iff in A as [_ A]. exact A.
      * apply hf_odd; [|exact B]. cbn [forallb] in A. apply andb_true_iff in A as [_ A]. apply andb_true_iff in A as [_ A]. exact A.
Qed.

Lemma of_hex_err s e : of_hex s = Err e <-> exists x, e = EHex x /\ hex_fails s x.
Proof.
  unfold of_hex. destruct (hex_decode s) as [d [x|]] eqn:E.
  - assert (hex_fails s x) as F by (apply hex_fails_iff; eauto). split.
    + intros H. injection H as <-. eauto.
    + intros (y & -> & G). apply hex_fails_iff in G as (d' & G). rewrite E in G. injection G as _ ->. reflexivity.
  - split; [discriminate|]. intros (y & _ & G). apply hex_fails_iff in G as (d' & G). rewrite E in G. discriminate.
Qed.

Lemma hex_fails_bad s x : hex_fails s x -> hex_dec s = None.
Proof. intros H. apply hex_fails_iff in H as (d & H). unfold hex_dec. now rewrite H. Qed.

Lemma of_hex_some s : hex_dec s <> None <-> exists d, of_hex s = Ok d.
Proof.
  unfold hex_dec, of_hex. destruct (hex_decode s) as [d [x|]]; split; try congruence; [|eauto].
  intros (y & H). discriminate.
Qed.

Lemma loop_fails brs : forall x i e, merkle_proof_loop x i brs = Err e <->
  exists p t r y, brs = p ++ t :: r /\ Forall (fun u => hex_dec u <> None) p /\ hex_fails t y /\ e = EHex y.
Proof.
  induction brs as [|b brs IH]; intros x i e; cbn [merkle_proof_loop].
  { split; [discriminate|]. intros (p & t & r & y & E & _). destruct p; discriminate. }
  destruct (of_hex b) as [h|e'|] eqn:B; cbn [bind].
  - cbv zeta. rewrite IH. split; intros (p & t & r & y & E & F & H & ->).
    + exists (b :: p), t, r, y. rewrite E. repeat split; [|assumption]. constructor; [|assumption]. apply of_hex_some. eauto.
    + destruct p as [|q p].
      * injection E as -> ->. apply hex_fails_bad in H. exfalso. revert H. apply of_hex_some. eauto.
      * injection E as -> ->. inversion F; subst. exists p, t, r, y. auto.
  - split.
    + intros H. injection H as ->. apply of_hex_err in B as (y & -> & B). exists [], b, brs, y. auto.
    + intros (p & t & r & y & E & F & H & ->). destruct p as [|q p].
      * injection E as -> ->. assert (of_hex t = Err (EHex y)) as B' by (apply of_hex_err; eauto). congruence.
      * injection E as -> ->. inversion F as [|? ? Q]; subst. apply of_hex_some in Q as (d & Q). congruence.
  - exfalso. now apply of_hex_no_panic in B.
Qed.

Lemma proof_err s i brs e : merkle_root_from_branches s i brs = Err e <-> proof_fails s i brs e.
Proof.
  assert (merkle_root_from_branches s i brs = Err e <->
    (of_hex s = Err e \/ ((exists d, of_hex s = Ok d) /\
      (merkle_proof_loop [] 0 brs = Err e \/ (exists bs, Forall2 displays brs bs) /\ (2 ^ Z.of_nat (length brs) <= i)%Z /\ e = EIndexRange (i / 2 ^ Z.of_nat (length brs)) (nlen brs))))) as ->.
  { unfold merkle_root_from_branches. destruct (of_hex s) as [d|e'|] eqn:S; cbn [bind].
    - cbv zeta. destruct (merkle_proof_loop (reverse_bytes d) i brs) as [[h k]|e'|] eqn:L; cbn [bind].
      + destruct (loop_ok_hex _ _ _ _ L) as (bs & F). destruct (proof_loop _ _ F (reverse_bytes d) i) as (ms & r & C & L').
        rewrite L in L'. injection L' as -> ->.
        rewrite shiftr_pos by lia. rewrite <- (F2_len F).
        destruct (proof_loop _ _ F [] 0%Z) as (ms0 & r0 & _ & L0).
        destruct (Z.leb_spec (2 ^ Z.of_nat (length brs)) i) as [I|I]; split.
        * intros H. injection H as <-. right. split; [eauto|]. right. rewrite Z.shiftr_div_pow2 by lia. eauto.
        * rewrite Z.shiftr_div_pow2 by lia. intros [H|(_ & [H|(_ & _ & ->)])]; congruence.
        * discriminate.
        * intros [H|(_ & [H|(_ & H & _)])]; [congruence|congruence|lia].
      + split.
        * intros H. injection H as ->. right. split; [eauto|]. left. eapply loop_err; eassumption.
        * intros [H|(_ & [H|((bs & F) & _)])]; [discriminate| |].
          -- apply (loop_err _ _ (reverse_bytes d) _ i) in H. congruence.
          -- destruct (proof_loop _ _ F (reverse_bytes d) i) as (ms & r & _ & L'). congruence.
      + exfalso. revert L. apply loop_no_panic.
    - split; [intros H; injection H as ->; auto|]. intros [H|((d & H) & _)]; [|discriminate]. injection H as ->. reflexivity.
    - exfalso. now apply of_hex_no_panic in S. }
  assert (forall l, (exists bs, Forall2 displays l bs) <-> Forall (fun u => hex_dec u <> None) l) as D.
  { induction l as [|u l IHl]; split.
    - constructor.
    - intros _. exists []. constructor.
    - intros (bs & F). inversion F as [|? b ? bs' Hb F']; subst. constructor; [unfold displays in Hb; congruence|]. apply IHl. eauto.
    - intros F. inversion F as [|? ? U F']; subst. apply IHl in F' as (bs & F'). destruct (hex_dec u) as [d|] eqn:H; [|congruence].
      exists (rev d :: bs). constructor; [|assumption]. unfold displays. now rewrite rev_involutive. }
  split.
  - intros [H|((d & S) & [H|(B & I & ->)])].
    + apply of_hex_err in H as (y & -> & H). eapply (pf_hex _ _ _ [] s brs); [reflexivity|constructor|assumption].
    + apply loop_fails in H as (p & t & r & y & -> & F & H & ->). eapply (pf_hex _ _ _ (s :: p) t r); [reflexivity| |assumption].
      constructor; [|assumption]. apply of_hex_some. eauto.
    + apply pf_index; [|assumption]. constructor; [apply of_hex_some; eauto|]. now apply D.
  - intros [p t r y E F H|F I].
    + destruct p as [|q p]; injection E as -> ->.
      * left. apply of_hex_err. eauto.
      * right. inversion F as [|? ? Q F']; subst. split; [now apply of_hex_some|]. left. apply loop_fails. exists p, t, r, y. auto.
    + inversion F as [|? ? Q F']; subst. right. split; [now apply of_hex_some|]. right. split; [now apply D|]. auto.
Qed.

Lemma output_address_err s sats e : output_p2pkh_from_address s sats = Err e <-> address_fails s e.
Proof.
  rewrite <- address_err. destruct (addr_from_string s) as [a|e'|] eqn:A.
  - destruct (addr_pkh_20 _ _ A) as (h & L & E & _). rewrite (pay_to_ok _ _ _ _ A E). split; discriminate.
  - unfold output_p2pkh_from_address, p2pkh_from_address. rewrite A. cbn [bind]. split; intros H; injection H as ->; reflexivity.
  - exfalso. revert A. apply addr_from_string_no_panic.
Qed.

Lemma parts_err height value witness text wallet miner e :
  get_coinbase_parts height value witness text wallet miner = Err e <->
  address_fails wallet e \/
  ((exists a, addr_from_string wallet = Ok a) /\ witness <> [] /\ exists x, hex_fails witness x /\ e = EHex x).
Proof.
  pose proof (output_address_err wallet value e) as X.
  destruct (addr_from_string wallet) as [a|e'|] eqn:A.
  - assert (~ address_fails wallet e) as NF by (rewrite <- address_err, A; discriminate).
    destruct (addr_pkh_20 _ _ A) as (h & L & E & _). unfold get_coinbase_parts, make_coinbase_outputs.
    rewrite (pay_to_ok _ _ _ _ A E). cbn [bind locking deref or_panic]. cbv zeta. rewrite equals_nil.
    destruct witness as [|w witness].
    + cbn [negb bind]. split.
      * destruct (0 <? nlen miner); discriminate.
      * intros [H|(_ & H & _)]; congruence.
    + cbn [negb]. destruct (of_hex (w :: witness)) as [d|x|] eqn:O; cbn [bind].
      * split; [destruct (0 <? nlen miner); discriminate|]. intros [H|(_ & _ & y & H & ->)]; [contradiction|].
        assert (of_hex (w :: witness) = Err (EHex y)) by (apply of_hex_err; eauto). congruence.
      * split.
        -- intros H. injection H as ->. right. split; [eauto|]. split; [discriminate|]. apply of_hex_err in O as (y & -> & O). eauto.
        -- intros [H|(_ & _ & y & H & ->)]; [contradiction|].
           assert (of_hex (w :: witness) = Err (EHex y)) by (apply of_hex_err; eauto). congruence.
      * exfalso. now apply of_hex_no_panic in O.
  - assert (output_p2pkh_from_address wallet value = Err e') as W.
    { apply output_address_err, address_err. exact A. }
    unfold get_coinbase_parts, make_coinbase_outputs. rewrite W. cbn [bind]. rewrite <- X, W.
    split; [intros H; left; injection H as ->; reflexivity|]. intros [H|((a & H) & _)]; [|discriminate]. injection H as ->. reflexivity.
  - exfalso. revert A. apply addr_from_string_no_panic.
Qed.
