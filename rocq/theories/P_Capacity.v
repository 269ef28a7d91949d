(** Proofs for C75. *)
From Verif Require Export S_Capacity P_Errors.
From Coq Require Import ZifyBool ZifyNat ZifyN.

Lemma compact_prefix n l t z : compact n l -> t ++ z = l -> (length t < length l)%nat -> t <> [] -> cs_truncated t.
Proof.
  intros C E L N. destruct (compact_announced _ _ C) as (c & p & -> & A & _). destruct t as [|d t]; [congruence|].
  cbn [app] in E. injection E as -> _. unfold cs_truncated. lia.
Qed.

Lemma decode_cap r sp : decode_varint (Sl r sp) = decode_varint (Sl r []) \/
  (cs_truncated r /\ r <> [] /\ exists n x y, sp = x ++ y /\ x <> [] /\ compact n (r ++ x) /\
     decode_varint (Sl r sp) = Ok (n, Z.of_nat (length (r ++ x)))).
Proof.
  destruct (decode_dec r) as [Tr|(n & l & x & -> & C)].
  2:{ left. now rewrite !(decode_varint_compact _ _ _ _ C). }
  destruct r as [|c r]; [left; reflexivity|].
  assert (decode_varint (Sl (c :: r) sp) = decode_varint (Sl ((c :: r) ++ sp) [])) as E.
  { cbn [app]. rewrite !decode_varint_eq, !app_nil_r. reflexivity. }
  destruct (decode_dec ((c :: r) ++ sp)) as [Tr'|(n & l & z & Q & C)].
  - left. rewrite E. rewrite (proj2 (decode_truncated _) Tr'), (proj2 (decode_truncated _) Tr). reflexivity.
  - right. split; [assumption|]. split; [discriminate|]. rewrite E, Q, (decode_varint_compact _ _ _ _ C).
    pose proof (compact_announced _ _ C) as (d & p & -> & A & _). assert (d = c) as -> by (cbn [app] in Q; congruence).
    unfold cs_truncated in Tr. assert (length (c :: r) < length (c :: p))%nat as L by lia.
    assert (c :: p = (c :: r) ++ firstn (length (c :: p) - length (c :: r)) sp) as EP.
    { pose proof (f_equal (firstn (length (c :: p))) Q) as Q'. rewrite (firstn_exact (c :: p) z _ eq_refl) in Q'.
      rewrite firstn_app in Q'. rewrite (firstn_all2 (n := length (c :: p)) (c :: r)) in Q' by lia. symmetry. exact Q'. }
    set (m := (length (c :: p) - length (c :: r))%nat) in *.
    exists n, (firstn m sp), (skipn m sp). split; [now rewrite firstn_skipn|].
    split. { intros X. rewrite X, app_nil_r in EP. rewrite EP in L. lia. }
    rewrite <- EP. auto.
Qed.

Lemma trunc_over r x y n sp : cs_truncated r -> sp = x ++ y -> compact n (r ++ x) -> r <> [] ->
  decode_varint (Sl r sp) = Ok (n, Z.of_nat (length (r ++ x))).
Proof.
  intros Tr -> C N. destruct r as [|c r]; [congruence|]. cbn [app]. rewrite decode_varint_eq.
  rewrite app_assoc. pose proof (decode_varint_compact _ _ y [] C) as D. cbn [app] in D. rewrite decode_varint_eq, app_nil_r in D. exact D.
Qed.

Lemma spare_truncated t x n : compact n (t ++ x) -> t <> [] -> x <> [] -> cs_truncated t.
Proof. intros C T X. apply (compact_prefix _ _ t x C eq_refl); [|assumption]. rewrite app_length. destruct x; [congruence|cbn [length]; lia]. Qed.

Section One.
Variables (A : Type) (f : slice -> res (A * Z)) (head tail : nat) (short hd : err) (fails : bytes -> err -> Prop).
Hypothesis f_short : forall v sp, (length v < head)%nat -> f (Sl v sp) = Err hd.
Hypothesis f_cut : forall h r sp, length h = head -> (scap (Sl (h ++ r) sp) < 2 ^ 62)%Z -> exists mk,
  forall sp, (scap (Sl (h ++ r) sp) < 2 ^ 62)%Z -> f (Sl (h ++ r) sp) =
  match decode_varint (Sl r sp) with
  | Ok (n, k) =>
      let total := (Z.of_nat head + k + Z.of_N n + Z.of_nat tail)%Z in
      let len := (Z.of_nat head + Z.of_nat (length r))%Z in
      if (total <? two63)%Z then if (len <? total)%Z then Err short else Ok (mk n k : A, total)
      else if ((two64 <=? total) && (len <? total - two64))%Z then Err short else Panic
  | Err e => Err e
  | Panic => Panic
  end.
Hypothesis f_err : forall v e, (Z.of_nat (length v) < 2 ^ 62)%Z -> (f (Sl v []) = Err e <-> fails v e).

Lemma one_cap v sp : (scap (Sl v sp) < 2 ^ 62)%Z ->
  (f (Sl v sp) = f (Sl v []) /\ ~ runs_over head tail sp v) \/
  (f (Sl v []) = Panic /\ ((f (Sl v sp) = Err short /\ runs_over head tail sp v) \/ (f (Sl v sp) = Panic /\ ~ runs_over head tail sp v))).
Proof.
  intros Cap. destruct (Nat.lt_ge_cases (length v) head) as [S|S].
  { left. rewrite !f_short by assumption. split; [reflexivity|]. intros (h & t & x & y & n & -> & L & _). rewrite app_length in S. lia. }
  assert (exists h r, v = h ++ r /\ length h = head) as (h & r & -> & L).
  { exists (firstn head v), (skipn head v). rewrite firstn_skipn, firstn_length. split; [reflexivity|lia]. }
  destruct (f_cut h r sp L Cap) as [mk E].
  assert (scap (Sl (h ++ r) []) < 2 ^ 62)%Z as Cap' by (unfold scap in *; cbn [vis spare length] in *; lia).
  rewrite (E sp Cap), (E [] Cap').
  assert (forall h' t, h ++ r = h' ++ t -> length h' = head -> h' = h /\ t = r) as Cut.
  { intros h' t Q L'. exact (cut_uniq head h r h' t L L' Q). }
  destruct (decode_cap r sp) as [D|(Tr & N & n & x & y & Sp & X & C & D)].
  - rewrite D. left. split; [reflexivity|]. intros (h' & t & x & y & n & Q & L' & T & Sp & X & C & _).
    apply Cut in Q as [-> ->]; [|assumption]. pose proof (spare_truncated _ _ _ C T X) as Tr.
    rewrite (trunc_over _ _ _ _ _ Tr Sp C T) in D. rewrite (proj2 (decode_truncated _) Tr) in D. discriminate.
  - right. rewrite (proj2 (decode_truncated _) Tr). split; [reflexivity|]. rewrite D. cbv zeta.
    assert (runs_over head tail sp (h ++ r) <-> (let total := N.of_nat head + nlen (r ++ x) + n + N.of_nat tail in
       total < 2 ^ 63 \/ (2 ^ 64 <= total /\ nlen (h ++ r) < total - 2 ^ 64))) as RO.
    { split.
      - intros (h' & t & x' & y' & n' & Q & L' & T & Sp' & X' & C' & H). apply Cut in Q as [-> ->]; [|assumption].
        rewrite (trunc_over _ _ _ _ _ Tr Sp' C' T) in D. injection D as -> D. unfold nlen in *. rewrite !app_length in *.
        replace (length x') with (length x) in H by lia. exact H.
      - intros H. exists h, r, x, y, n. auto 10. }
    rewrite RO. cbv zeta. unfold nlen. rewrite !app_length. rewrite L.
    assert (1 <= length x)%nat as LX by (destruct x; [congruence|cbn [length]; lia]).
    pose proof (compact_bound _ _ C) as U. unfold u64, two63, two64 in *.
    destruct (Z.of_nat head + Z.of_nat (length r + length x) + Z.of_N n + Z.of_nat tail <? 9223372036854775808)%Z eqn:T.
    + destruct (Z.of_nat head + Z.of_nat (length r) <? Z.of_nat head + Z.of_nat (length r + length x) + Z.of_N n + Z.of_nat tail)%Z eqn:Q; [|lia].
      left. split; [reflexivity|]. left. lia.
    + match goal with |- context [if ?c then Err short else Panic] => destruct c eqn:Q end.
      * left. split; [reflexivity|]. right. lia.
      * right. split; [reflexivity|]. lia.
Qed.

Lemma one_err v sp e : (scap (Sl v sp) < 2 ^ 62)%Z ->
  (f (Sl v sp) = Err e <-> fails v e \/ (e = short /\ runs_over head tail sp v)).
Proof.
  intros Cap. assert (Z.of_nat (length v) < 2 ^ 62)%Z as Cap' by (unfold scap in Cap; cbn [vis spare] in Cap; lia).
  rewrite <- (f_err v e Cap'). destruct (one_cap v sp Cap) as [[E N]|[P [[E R]|[E N]]]].
  - rewrite E. tauto.
  - rewrite E, P. split; [intros Q; injection Q as <-; auto|]. intros [Q|[-> _]]; [discriminate|reflexivity].
  - rewrite E, P. split; [discriminate|]. intros [Q|[_ Q]]; [discriminate|contradiction].
Qed.
End One.

Lemma input_cut h r sp : length h = 36%nat -> (scap (Sl (h ++ r) sp) < 2 ^ 62)%Z -> exists mk,
  forall sp, (scap (Sl (h ++ r) sp) < 2 ^ 62)%Z -> input_from_bytes (Sl (h ++ r) sp) =
  match decode_varint (Sl r sp) with
  | Ok (n, k) =>
      let total := (Z.of_nat 36 + k + Z.of_N n + Z.of_nat 4)%Z in
      let len := (Z.of_nat 36 + Z.of_nat (length r))%Z in
      if (total <? two63)%Z then if (len <? total)%Z then Err EInputShort else Ok (mk n k : input, total)
      else if ((two64 <=? total) && (len <? total - two64))%Z then Err EInputShort else Panic
  | Err e => Err e
  | Panic => Panic
  end.
Proof.
  intros L _. destruct (cut36 (h ++ r)) as (id & ix & r' & E & Li & Lx); [rewrite app_length; lia|].
  assert (r' = r) as ->. { rewrite app_assoc in E. symmetry in E. apply (cut_uniq 36) in E; [|rewrite ?app_length; lia..]. now destruct E. }
  rewrite E. exists (fun n k => mk_in (hex_encode (rev id)) (le_get ix) 0 None (Some (firstn (N.to_nat n) (skipn (Z.to_nat k) r)))
                   (le_get (firstn 4 (skipn (N.to_nat n) (skipn (Z.to_nat k) r))))).
  intros sp' Cap. rewrite input_from_eq by assumption. reflexivity.
Qed.

Lemma output_cut h r sp : length h = 8%nat -> (scap (Sl (h ++ r) sp) < 2 ^ 62)%Z -> exists mk,
  forall sp, (scap (Sl (h ++ r) sp) < 2 ^ 62)%Z -> output_from_bytes (Sl (h ++ r) sp) =
  match decode_varint (Sl r sp) with
  | Ok (n, k) =>
      let total := (Z.of_nat 8 + k + Z.of_N n + Z.of_nat 0)%Z in
      let len := (Z.of_nat 8 + Z.of_nat (length r))%Z in
      if (total <? two63)%Z then if (len <? total)%Z then Err EOutputShort else Ok (mk n k : output, total)
      else if ((two64 <=? total) && (len <? total - two64))%Z then Err EOutputShort else Panic
  | Err e => Err e
  | Panic => Panic
  end.
Proof.
  intros L _. exists (fun n k => mk_out (le_get h) (Some (firstn (N.to_nat n) (skipn (Z.to_nat k) r)))).
  intros sp' Cap. rewrite output_from_eq by assumption. unfold output_outcome.
  destruct (decode_varint (Sl r sp')) as [[n k]| |]; try reflexivity. cbv zeta. rewrite Z.add_0_r. reflexivity.
Qed.

Lemma input_short v sp : (length v < 36)%nat -> input_from_bytes (Sl v sp) = Err EInputShort36.
Proof. intros L. unfold input_from_bytes, slen. cbn [vis]. now replace (Z.of_nat (length v) <? 36)%Z with true by lia. Qed.
Lemma output_short v sp : (length v < 8)%nat -> output_from_bytes (Sl v sp) = Err EOutputShort8.
Proof. intros L. unfold output_from_bytes, slen. cbn [vis]. now replace (Z.of_nat (length v) <? 8)%Z with true by lia. Qed.

Lemma input_err_sp v sp e : (scap (Sl v sp) < 2 ^ 62)%Z ->
  (input_from_bytes (Sl v sp) = Err e <-> input_fails v e \/ (e = EInputShort /\ runs_over 36 4 sp v)).
Proof. exact (one_err input input_from_bytes 36 4 EInputShort EInputShort36 input_fails input_short input_cut input_err v sp e). Qed.
Lemma output_err_sp v sp e : (scap (Sl v sp) < 2 ^ 62)%Z ->
  (output_from_bytes (Sl v sp) = Err e <-> output_fails v e \/ (e = EOutputShort /\ runs_over 8 0 sp v)).
Proof. exact (one_err output output_from_bytes 8 0 EOutputShort EOutputShort8 output_fails output_short output_cut output_err v sp e). Qed.

(** ** the whole transaction *)

Lemma from_over b off : (slen b < off)%Z -> sl_from b off = None.
Proof.
  intros L. unfold sl_from, sl_sub. replace (off <=? slen b)%Z with false by lia. now rewrite andb_false_r.
Qed.

Lemma nat_loop_over A (f : slice -> res (A * Z)) b n off l : (slen b < off)%Z ->
  nat_loop (item_step A f b) n (off, l) = Panic \/ (n = 0%nat /\ nat_loop (item_step A f b) n (off, l) = Ok (off, l)).
Proof.
  intros L. destruct n as [|n]; [right; split; reflexivity|left]. cbn [nat_loop]. unfold item_step at 1. rewrite from_over by assumption. reflexivity.
Qed.

Lemma outputs_err_sp ver ins pre rest sp e : (scap (Sl (pre ++ rest) sp) < 2 ^ 62)%Z ->
  (parse_outputs ver ins (length pre) rest sp (Sl (pre ++ rest) sp) = Err e <->
   exists m nout wo r, rest = nout ++ concat wo ++ r /\ compact m nout /\ Forall some_output wo /\
     ((nlen wo < m /\ (output_fails r e \/ (e = EOutputShort /\ runs_over 8 0 sp r))) \/ (nlen wo = m /\ length r <> 4%nat /\ e = ELockTime))).
Proof.
  intros Cap. pose proof Cap as Cap0. unfold scap in Cap0. cbn [vis spare] in Cap0.
  unfold parse_outputs. split.
  - destruct (decode_dec rest) as [Tr|(m & nout & x & -> & C)].
    { destruct (decode_cap rest sp) as [D|(_ & N & n & x & y & Sp & X & C & D)]; rewrite D.
      { rewrite (proj2 (decode_truncated rest) Tr). discriminate. }
      assert (1 <= length x)%nat as LX by (destruct x; [congruence|cbn [length]; lia]).
      destruct (nat_loop_over output output_from_bytes (Sl (pre ++ rest) sp) (N.to_nat n) (Z.of_nat (length pre) + Z.of_nat (length (rest ++ x)))%Z []) as [E|[_ E]];
        [unfold slen; cbn [vis]; rewrite !app_length; lia|rewrite E; discriminate|rewrite E].
      cbn [bind]. rewrite from_over by (unfold slen; cbn [vis]; rewrite !app_length; lia). discriminate. }
    rewrite (decode_varint_compact _ _ _ _ C). rewrite <- Nat2Z.inj_add, <- app_length. rewrite (app_assoc pre nout) in *.
    match goal with |- bind ?L _ = _ -> _ => destruct L as [[off outs]|e'|] eqn:LP end; cbn [bind]; [| |discriminate].
    + apply (items_ok output output_from_bytes (wire_output compact) output_from_ok) in LP
        as (wo & os & y & -> & F & L & -> & ->); [|assumption].
      rewrite sl_from_vis by (unfold slen; cbn [vis]; rewrite !app_length; lia).
      cbn [or_panic bind]. rewrite Nat2Z.id. cbn [vis]. rewrite (app_assoc (pre ++ nout)), skipn_exact by (rewrite !app_length; lia).
      unfold slen. cbn [vis]. destruct (Z.of_nat (length y) =? 4)%Z eqn:Y; cbn [negb].
      * rewrite sl_le_exact by lia. discriminate.
      * intros E. injection E as <-. exists m, nout, wo, y. split; [reflexivity|]. split; [assumption|].
        split; [apply Forall_outs; eauto|]. right. split; [|split; [lia|reflexivity]].
        apply Forall2_length in F. unfold nlen, bytes in *. lia.
    + intros E. injection E as ->.
      apply (items_err output output_from_bytes (wire_output compact) output_from_ok) in LP
        as (wo & os & r & -> & F & L & P); [|assumption].
      exists m, nout, wo, r. split; [reflexivity|]. split; [assumption|]. split; [apply Forall_outs; eauto|]. left.
      split; [apply Forall2_length in F; unfold nlen, bytes in *; lia|].
      apply output_err_sp; [unfold scap; cbn [vis spare]; rewrite !app_length in *; lia|assumption].
  - intros (m & nout & wo & r & -> & C & FO & H). apply Forall_outs in FO as (os & F).
    pose proof (Forall2_length _ _ _ F) as FL.
    rewrite (decode_varint_compact _ _ _ _ C). rewrite <- Nat2Z.inj_add, <- app_length. rewrite (app_assoc pre nout) in *.
    destruct H as [[L P]|(L & R & ->)].
    + rewrite (proj2 (items_err output output_from_bytes (wire_output compact) output_from_ok e (N.to_nat m) (pre ++ nout) (concat wo ++ r) sp [] Cap)); [reflexivity|].
      exists wo, os, r. repeat split; try assumption.
      * unfold nlen, bytes in *. lia.
      * apply output_err_sp; [|assumption]. unfold scap; cbn [vis spare]. rewrite !app_length in *. lia.
    + rewrite (proj2 (items_ok output output_from_bytes (wire_output compact) output_from_ok (N.to_nat m) (pre ++ nout) (concat wo ++ r) sp []
        (Z.of_nat (length (pre ++ nout) + length (concat wo))) os Cap)).
      2:{ exists wo, os, r. repeat split; try assumption. unfold nlen, bytes in *. lia. }
      cbn [bind]. rewrite sl_from_vis by (unfold slen; cbn [vis]; rewrite !app_length; lia).
      cbn [or_panic bind]. rewrite Nat2Z.id. cbn [vis]. rewrite (app_assoc (pre ++ nout)), skipn_exact by (rewrite !app_length; lia).
      unfold slen. cbn [vis]. destruct (Z.of_nat (length r) =? 4)%Z eqn:Y; [lia|]. reflexivity.
Qed.

Lemma tx_err_sp v sp e : (scap (Sl v sp) < 2 ^ 62)%Z -> (tx_from_slice (Sl v sp) = Err e <-> tx_fails v e \/ tx_runs_over sp v e).
Proof.
  intros Cap. pose proof Cap as Cap0. unfold scap in Cap0. cbn [vis spare] in Cap0.
  split.
  - destruct (Z.ltb_spec (slen (Sl v sp)) 10) as [S|S].
    { unfold tx_from_slice. replace (slen (Sl v sp) <? 10)%Z with true by lia. intros E. injection E as <-.
      left. apply tf_short. unfold slen in S. cbn [vis] in S. lia. }
    unfold slen in S. cbn [vis] in S. destruct (cut4 v ltac:(lia)) as (ver & r & -> & Lv). rewrite app_length in S.
    rewrite tx_from_eq by assumption. replace (Z.of_nat (length r) <? 6)%Z with false by lia.
    destruct (decode_dec r) as [Tr|(n & nin & x & -> & C)].
    { destruct (decode_cap r sp) as [D|(_ & N & n & x & y & Sp & X & C & D)]; rewrite D.
      { rewrite (proj2 (decode_truncated r) Tr). discriminate. }
      assert (1 <= length x)%nat as LX by (destruct x; [congruence|cbn [length]; lia]).
      destruct (nat_loop_over input input_from_bytes (Sl (ver ++ r) sp) (N.to_nat n) (4 + Z.of_nat (length (r ++ x)))%Z []) as [E|[_ E]];
        [unfold slen; cbn [vis]; rewrite !app_length; lia|rewrite E; discriminate|rewrite E].
      cbn [bind]. rewrite from_over by (unfold slen; cbn [vis]; rewrite !app_length; lia). discriminate. }
    rewrite (decode_varint_compact _ _ _ _ C).
    replace (4 + Z.of_nat (length nin))%Z with (Z.of_nat (length (ver ++ nin))) by (rewrite app_length; lia).
    rewrite (app_assoc ver nin) in *.
    match goal with |- bind ?L _ = _ -> _ => destruct L as [[off ins]|e'|] eqn:LP end; cbn [bind]; [| |discriminate].
    + apply (items_ok input input_from_bytes fresh_wire_input input_from_ok) in LP
        as (wi & is & y & -> & F & L & -> & ->); [|assumption].
      rewrite sl_from_vis by (unfold slen; cbn [vis]; rewrite !app_length; lia).
      cbn [vis spare]. rewrite Nat2Z.id, (app_assoc (ver ++ nin)), skipn_exact by (rewrite !app_length; lia).
      replace (length (ver ++ nin) + length (concat wi))%nat with (length ((ver ++ nin) ++ concat wi)) by (rewrite !app_length; lia).
      cbn [app]. rewrite outputs_err_sp by (rewrite <- app_assoc; assumption).
      assert (Forall some_input wi) as FI by (apply Forall_fresh; eauto).
      assert (nlen wi = n) as LW by (apply Forall2_length in F; unfold nlen, bytes in *; lia).
      intros (m & nout & wo & r & -> & Co & FO & [[Lt [P|[-> P]]]|(Lt & R & ->)]); rewrite <- !app_assoc.
      * left. eapply tf_output; try eassumption. rewrite !app_length in *. lia.
      * right. eapply tc_output; eassumption.
      * left. eapply tf_locktime; try eassumption. rewrite !app_length in *. lia.
    + intros E. injection E as ->.
      apply (items_err input input_from_bytes fresh_wire_input input_from_ok) in LP
        as (wi & is & r & -> & F & L & P); [|assumption]. rewrite <- app_assoc.
      apply input_err_sp in P; [|unfold scap; cbn [vis spare]; rewrite !app_length in *; lia].
      assert (nlen wi < n) as LW by (apply Forall2_length in F; unfold nlen, bytes in *; lia).
      destruct P as [P|[-> P]].
      * left. eapply tf_input; [exact Lv|exact C|apply Forall_fresh; eauto|exact LW| |exact P]. rewrite !app_length in *. lia.
      * right. eapply tc_input; [exact Lv|exact C|apply Forall_fresh; eauto|exact LW|exact P].
  - intros H.
    assert (exists ver n nin wi, length ver = 4%nat /\ compact n nin /\ Forall some_input wi /\
      ((exists r, v = ver ++ nin ++ concat wi ++ r /\ nlen wi < n /\ (10 <= length v)%nat /\ (input_fails r e \/ (e = EInputShort /\ runs_over 36 4 sp r))) \/
       (exists rest, v = ver ++ nin ++ concat wi ++ rest /\ nlen wi = n /\ (10 <= length v)%nat /\
          exists m nout wo r, rest = nout ++ concat wo ++ r /\ compact m nout /\ Forall some_output wo /\
     ((nlen wo < m /\ (output_fails r e \/ (e = EOutputShort /\ runs_over 8 0 sp r))) \/ (nlen wo = m /\ length r <> 4%nat /\ e = ELockTime))))
      \/ ((length v < 10)%nat /\ e = ETxShort)) as (ver & n & nin & wi & G).
    { destruct H as [H|H].
      - destruct H as [b L|ver n nin wi r e Lv C FI Lt L10 P|ver n nin wi m nout wo r e Lv C FI Lt Co FO Lo L10 P|ver n nin wi m nout wo r Lv C FI Lt Co FO Lo L10 P].
        + exists [], 0, [], []. right. auto.
        + exists ver, n, nin, wi. left. split; [assumption|]. split; [assumption|]. split; [assumption|]. left. exists r. auto 10.
        + exists ver, n, nin, wi. left. split; [assumption|]. split; [assumption|]. split; [assumption|]. right.
          exists (nout ++ concat wo ++ r). split; [reflexivity|]. split; [assumption|]. split; [assumption|].
          exists m, nout, wo, r. auto 10.
        + exists ver, n, nin, wi. left. split; [assumption|]. split; [assumption|]. split; [assumption|]. right.
          exists (nout ++ concat wo ++ r). split; [reflexivity|]. split; [assumption|]. split; [assumption|].
          exists m, nout, wo, r. auto 10.
      - destruct H as [ver n nin wi r Lv C FI Lt P|ver n nin wi m nout wo r Lv C FI Lt Co FO Lo P]; exists ver, n, nin, wi; left;
          (split; [assumption|]); (split; [assumption|]); (split; [assumption|]).
        + left. exists r. split; [reflexivity|]. split; [assumption|]. split; [|auto].
          destruct P as (h & t & x & y & k & -> & Lh & _). apply compact_len in C. rewrite !app_length. lia.
        + right. exists (nout ++ concat wo ++ r). split; [reflexivity|]. split; [assumption|]. split.
          * destruct P as (h & t & x & y & k & -> & Lh & T & _). apply compact_len in C. rewrite !app_length. lia.
          * exists m, nout, wo, r. auto 10. }
    clear H. destruct G as [(Lv & C & FI & G)|[L ->]].
    2:{ unfold tx_from_slice, slen. cbn [vis]. replace (Z.of_nat (length v) <? 10)%Z with true by lia. reflexivity. }
    apply Forall_fresh in FI as (is & F). pose proof (Forall2_length _ _ _ F) as FL.
    destruct G as [(r & -> & Lt & L10 & P)|(rest & -> & Lt & L10 & G)]; rewrite tx_from_eq by assumption; rewrite app_length in L10;
      match goal with |- (if (Z.of_nat (length ?r) <? 6)%Z then _ else _) = _ => replace (Z.of_nat (length r) <? 6)%Z with false by lia end;
      rewrite (decode_varint_compact _ _ _ _ C);
      replace (4 + Z.of_nat (length nin))%Z with (Z.of_nat (length (ver ++ nin))) by (rewrite app_length; lia);
      rewrite (app_assoc ver nin) in *.
    + rewrite (proj2 (items_err input input_from_bytes fresh_wire_input input_from_ok e (N.to_nat n) (ver ++ nin) (concat wi ++ r) sp [] Cap)); [reflexivity|].
      exists wi, is, r. repeat split; try assumption.
      * unfold nlen, bytes in *. lia.
      * apply input_err_sp; [|assumption]. unfold scap; cbn [vis spare]. rewrite !app_length in *. lia.
    + rewrite (proj2 (items_ok input input_from_bytes fresh_wire_input input_from_ok (N.to_nat n) (ver ++ nin) (concat wi ++ rest) sp []
        (Z.of_nat (length (ver ++ nin) + length (concat wi))) is Cap))
      by (exists wi, is, rest; repeat split; try assumption; unfold nlen, bytes in *; lia).
      cbn [bind]. rewrite sl_from_vis by (unfold slen; cbn [vis]; rewrite !app_length; lia).
      cbn [vis spare]. rewrite Nat2Z.id, (app_assoc (ver ++ nin)), skipn_exact by (rewrite !app_length; lia).
      replace (length (ver ++ nin) + length (concat wi))%nat with (length ((ver ++ nin) ++ concat wi)) by (rewrite !app_length; lia).
      apply outputs_err_sp; [rewrite <- app_assoc; assumption|exact G].
Qed.

Lemma tx_ok_sp v sp t : (scap (Sl v sp) < 2 ^ 62)%Z -> (tx_from_slice (Sl v sp) = Ok t <-> tx_from_slice (Sl v []) = Ok t).
Proof.
  intros Cap. rewrite (tx_from_ok v sp t Cap). rewrite tx_from_ok; [reflexivity|]. unfold scap in *. cbn [vis spare length] in *. lia.
Qed.

Lemma over_panics v sp e : (scap (Sl v sp) < 2 ^ 62)%Z -> tx_runs_over sp v e -> tx_panics v.
Proof.
  intros Cap H. destruct H as [ver n nin wi r Lv C FI Lt P|ver n nin wi m nout wo r Lv C FI Lt Co FO Lo P].
  - destruct P as (h & t & x & y & k & -> & Lh & T & _ & X & K & _). eapply panic_input; try eassumption. exists h, t. split; [reflexivity|]. split; [assumption|].
    left. exact (spare_truncated _ _ _ K T X).
  - destruct P as (h & t & x & y & k & -> & Lh & T & _ & X & K & _). eapply panic_output; try eassumption. exists h, t. split; [reflexivity|]. split; [assumption|].
    left. exact (spare_truncated _ _ _ K T X).
Qed.

Lemma tx_panic_sp v sp : (scap (Sl v sp) < 2 ^ 62)%Z ->
  (tx_from_slice (Sl v sp) = Panic <-> tx_panics v /\ forall e, ~ tx_runs_over sp v e).
Proof.
  intros Cap. assert (Z.of_nat (length v) < 2 ^ 62)%Z as C0 by (unfold scap in Cap; cbn [vis spare] in Cap; lia).
  rewrite <- (tx_from_panic v C0). split.
  - intros P. split.
    + destruct (tx_from_slice (Sl v [])) as [t|e|] eqn:E; [| |reflexivity].
      * apply (tx_ok_sp v sp t Cap) in E. congruence.
      * apply tx_err in E; [|assumption]. rewrite (proj2 (tx_err_sp v sp e Cap)) in P by auto. discriminate.
    + intros e H. rewrite (proj2 (tx_err_sp v sp e Cap)) in P by auto. discriminate.
  - intros [P N]. destruct (tx_from_slice (Sl v sp)) as [t|e|] eqn:E; [| |reflexivity].
    + apply (tx_ok_sp v sp t Cap) in E. congruence.
    + apply tx_err_sp in E as [E|E]; [| |assumption]; [|now apply N in E]. apply tx_err in E; [|assumption]. congruence.
Qed.

(** ** text *)

Lemma digit_small c : is_hex c = true -> b2n c <= 0x66.
Proof. destruct c; vm_compute; try discriminate; intros _; discriminate. Qed.

Lemma get_top p c : le_get (p ++ [c]) = le_get p + 256 ^ nlen p * b2n c.
Proof.
  unfold nlen. induction p as [|x p IH]; cbn [app le_get length].
  - change (256 ^ N.of_nat 0) with 1. lia.
  - rewrite IH. rewrite Nat2N.inj_succ, N.pow_succ_r'. lia.
Qed.

Lemma digits_over head tail d y r : (head <= 36)%nat -> (tail <= 4)%nat -> in_length head r ->
  (9 <= length d)%nat -> forallb is_hex d = true -> runs_over head tail (d ++ y) r.
Proof.
  intros Hh Ht (h & t & -> & Lh & T & Tr) Ld D.
  destruct (decode_cap t (d ++ y)) as [E|(_ & _ & n & x & z & Sp & X & C & E)].
  { exfalso. rewrite (proj2 (decode_truncated _) Tr) in E. destruct t as [|c t]; [congruence|]. rewrite decode_varint_eq in E.
    replace (Nat.leb (announced c) (length (c :: t ++ d ++ y))) with true in E; [discriminate|].
    assert (announced c <= 9)%nat by (destruct c; cbn; lia). cbn [length]. rewrite !app_length. lia. }
  exists h, t, x, z, n. split; [reflexivity|]. split; [assumption|]. split; [assumption|]. split; [assumption|]. split; [assumption|]. split; [assumption|].
  cbv zeta. left. pose proof (compact_len _ _ C) as LC.
  assert (forallb is_hex x = true) as DX.
  { assert (x = firstn (length x) (d ++ y)) as -> by (rewrite Sp; now rewrite firstn_exact).
    rewrite firstn_app. replace (length x - length d)%nat with 0%nat by (rewrite app_length in LC; destruct t; [congruence|cbn [length] in LC; lia]).
    rewrite firstn_O, app_nil_r. clear - D. revert D. generalize (length x). intros k. revert d.
    induction k as [|k IH]; intros [|c d] D; try reflexivity. cbn [firstn forallb] in *. apply andb_prop in D as [D1 D2]. rewrite D1. now apply IH. }
  assert (n < 0x67 * 2 ^ 56) as B.
  { inversion C as [c B EN EL|p Lp EN EL|p Lp EN EL|p Lp EN EL].
    - lia.
    - pose proof (le_get_bound p) as B. rewrite Lp in B. change (256 ^ N.of_nat 2) with 65536 in B. lia.
    - pose proof (le_get_bound p) as B. rewrite Lp in B. change (256 ^ N.of_nat 4) with 4294967296 in B. lia.
    - destruct t as [|c t]; [congruence|]. cbn [app] in EL. injection EL as _ EP.
      destruct (exists_last X) as (x' & q & ->). rewrite forallb_app in DX. apply andb_prop in DX as [_ DX]. cbn [forallb] in DX. rewrite andb_true_r in DX.
      pose proof (digit_small q DX). rewrite EP, app_assoc, get_top. rewrite EP, app_assoc, app_length in Lp. cbn [length] in Lp.
      assert (length (t ++ x') = 7%nat) as L7 by lia. unfold nlen. rewrite L7. pose proof (le_get_bound (t ++ x')) as B. rewrite L7 in B.
      change (256 ^ N.of_nat 7) with (2 ^ 56) in *. lia. }
  unfold nlen. change (2 ^ 56) with 72057594037927936 in B. change (2 ^ 63) with 9223372036854775808. lia.
Qed.

Lemma over_in head tail sp r : runs_over head tail sp r -> in_length head r.
Proof.
  intros (h & t & x & y & n & -> & Lh & T & _ & X & C & _). exists h, t. split; [reflexivity|]. split; [assumption|]. split; [assumption|].
  exact (spare_truncated _ _ _ C T X).
Qed.

Lemma cut_mono (I O I' O' : bytes -> Prop) v e : (forall r, (length r <= length v)%nat -> I r -> I' r) -> (forall r, (length r <= length v)%nat -> O r -> O' r) ->
  tx_cut I O v e -> tx_cut I' O' v e.
Proof.
  intros HI HO H. destruct H as [ver n nin wi r Lv C FI Lt P|ver n nin wi m nout wo r Lv C FI Lt Co FO Lo P].
  - eapply tc_input; try eassumption. apply HI; [|assumption]. rewrite !app_length. lia.
  - eapply tc_output; try eassumption. apply HO; [|assumption]. rewrite !app_length. lia.
Qed.

Lemma text_over s v slack e : hex_dec s = Some v -> (tx_runs_over (skipn (length v) s ++ repeat x00 slack) v e <-> tx_in_length v e).
Proof.
  intros H. pose proof (hex_dec_length s v H) as L.
  assert (forallb is_hex s = true) as D by (apply hex_dec_some_iff; eauto).
  assert (forallb is_hex (skipn (length v) s) = true) as D'.
  { rewrite <- (firstn_skipn (length v) s), forallb_app in D. now apply andb_prop in D as [_ D]. }
  unfold tx_runs_over, tx_in_length. split.
  - apply cut_mono; intros r _; apply over_in.
  - intros Q. assert (9 <= length v)%nat as L9.
    { destruct Q as [ver n nin wi r Lv C FI Lt P|ver n nin wi m nout wo r Lv C FI Lt Co FO Lo P]; destruct P as (h & t & -> & Lh & _); rewrite !app_length; lia. }
    revert Q. apply cut_mono; intros r _ R; (apply digits_over; [lia|lia|assumption|rewrite skipn_length; unfold bytes in *; lia|assumption]).
Qed.
