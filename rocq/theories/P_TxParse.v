(** Proofs about the transaction parser (C27-C30). *)
From Verif Require Export P_Tx.
From Coq Require Import ZifyBool ZifyNat ZifyN.

(** ** A loop of item parsers *)
Section Items.
  Variable A : Type.
  Variable f : slice -> res (A * Z).
  Variable W : bytes -> A -> Prop.
  Hypothesis f_ok : forall v sp a n, (scap (Sl v sp) < 2 ^ 62)%Z ->
    (f (Sl v sp) = Ok (a, n) <-> exists w r, v = w ++ r /\ W w a /\ n = Z.of_nat (length w)).

  Definition item_step (b : slice) (st : Z * list A) : res (Z * list A) :=
    let '(offset, l) := st in
    rest <- or_panic (sl_from b offset) ;;
    '(i, size) <- f rest ;;
    Ok (wrap_int (offset + size), l ++ [i]).

  Lemma item_step_eq pre rest sp l : (scap (Sl (pre ++ rest) sp) < 2 ^ 62)%Z ->
    item_step (Sl (pre ++ rest) sp) (Z.of_nat (length pre), l) =
    match f (Sl rest sp) with
    | Ok (a, n) => Ok ((Z.of_nat (length pre) + n)%Z, l ++ [a])
    | Err e => Err e
    | Panic => Panic
    end.
  Proof.
    intros Cap. unfold item_step. unfold scap in Cap. cbn [vis spare] in Cap. rewrite app_length in Cap.
    rewrite sl_from_vis by (unfold slen; cbn [vis]; rewrite app_length; lia). cbn [or_panic bind vis spare].
    rewrite Nat2Z.id, skipn_exact by reflexivity.
    destruct (f (Sl rest sp)) as [[a n]|e|] eqn:E; cbn [bind]; try reflexivity.
    apply f_ok in E as (w & r & -> & _ & ->); [|unfold scap; cbn [vis spare]; lia].
    rewrite app_length in Cap. rewrite wrap_int_small by (unfold two63; lia). reflexivity.
  Qed.

  Lemma items_ok n : forall pre rest sp l off l', (scap (Sl (pre ++ rest) sp) < 2 ^ 62)%Z ->
    (nat_loop (item_step (Sl (pre ++ rest) sp)) n (Z.of_nat (length pre), l) = Ok (off, l') <->
     exists ws is r, rest = concat ws ++ r /\ Forall2 W ws is /\ length is = n /\
       off = Z.of_nat (length pre + length (concat ws)) /\ l' = l ++ is).
  Proof.
    induction n as [|n IH]; intros pre rest sp l off l' Cap; cbn [nat_loop].
    - split.
      + intros E. injection E as <- <-. exists [], [], rest. cbn [concat app length]. rewrite app_nil_r.
        repeat split; [constructor|lia].
      + intros (ws & is & r & -> & F & L & -> & ->). destruct is; [|discriminate]. inversion F; subst.
        cbn [concat length]. rewrite app_nil_r, Nat.add_0_r. reflexivity.
    - rewrite item_step_eq by assumption. split.
      + destruct (f (Sl rest sp)) as [[a k]|e|] eqn:E; try discriminate. cbn [bind].
        apply f_ok in E as (w & r & -> & HW & ->);
          [|unfold scap in *; cbn [vis spare] in *; rewrite !app_length in *; lia].
        rewrite app_assoc in *. rewrite <- Nat2Z.inj_add, <- app_length. intros E.
        apply IH in E as (ws & is & r' & -> & F & L & -> & ->); [|assumption].
        exists (w :: ws), (a :: is), r'. cbn [concat length]. rewrite <- !app_assoc. cbn [app].
        repeat split; [now constructor|lia|]. rewrite !app_length. lia.
      + intros (ws & is & r & -> & F & L & -> & ->). destruct is as [|a is]; [discriminate|].
        inversion F as [|w x ws' ? HW F']; subst. cbn [concat] in *. rewrite <- !app_assoc in *.
        assert (f (Sl (w ++ concat ws' ++ r) sp) = Ok (a, Z.of_nat (length w))) as ->.
        { apply f_ok; [unfold scap in *; cbn [vis spare] in *; rewrite !app_length in *; lia|]. eauto. }
        cbn [bind]. rewrite <- Nat2Z.inj_add, <- app_length. rewrite app_assoc in *.
        apply IH; [assumption|]. exists ws', is, r. cbn [length] in L. rewrite <- app_assoc. cbn [app].
        repeat split; try assumption; [lia|]. rewrite !app_length. lia.
  Qed.

  Lemma items_panic n : forall pre rest sp l, (scap (Sl (pre ++ rest) sp) < 2 ^ 62)%Z ->
    (nat_loop (item_step (Sl (pre ++ rest) sp)) n (Z.of_nat (length pre), l) = Panic <->
     exists ws is r, rest = concat ws ++ r /\ Forall2 W ws is /\ (length is < n)%nat /\ f (Sl r sp) = Panic).
  Proof.
    induction n as [|n IH]; intros pre rest sp l Cap; cbn [nat_loop].
    - split; [discriminate|]. intros (ws & is & r & _ & _ & L & _). lia.
    - rewrite item_step_eq by assumption. split.
      + destruct (f (Sl rest sp)) as [[a k]|e|] eqn:E; try discriminate; cbn [bind].
        * apply f_ok in E as (w & r & -> & HW & ->);
            [|unfold scap in *; cbn [vis spare] in *; rewrite !app_length in *; lia].
          rewrite app_assoc in *. rewrite <- Nat2Z.inj_add, <- app_length. intros E.
          apply IH in E as (ws & is & r' & -> & F & L & P); [|assumption].
          exists (w :: ws), (a :: is), r'. cbn [concat length]. rewrite <- !app_assoc.
          repeat split; [now constructor|lia|assumption].
        * intros _. exists [], [], rest. cbn [concat app length]. repeat split; [constructor|lia|assumption].
      + intros (ws & is & r & -> & F & L & P). destruct is as [|a is].
        * inversion F; subst. cbn [concat app]. rewrite P. reflexivity.
        * inversion F as [|w x ws' ? HW F']; subst. cbn [concat] in *. rewrite <- !app_assoc in *.
          assert (f (Sl (w ++ concat ws' ++ r) sp) = Ok (a, Z.of_nat (length w))) as ->.
          { apply f_ok; [unfold scap in *; cbn [vis spare] in *; rewrite !app_length in *; lia|]. eauto. }
          cbn [bind]. rewrite <- Nat2Z.inj_add, <- app_length. rewrite app_assoc in *.
          apply IH; [assumption|]. exists ws', is, r. cbn [length] in L.
          repeat split; try assumption. lia.
  Qed.
End Items.

Lemma tx_input_items b : tx_input_step b = item_step input input_from_bytes b.
Proof. reflexivity. Qed.
Lemma tx_output_items b : tx_output_step b = item_step output output_from_bytes b.
Proof. reflexivity. Qed.

(** ** The whole parser, stage by stage *)

Definition parse_outputs (ver : N) (ins : list input) (pre : nat) (rest sp : bytes) (b : slice) : res tx :=
  match decode_varint (Sl rest sp) with
  | Ok (m, k) =>
      '(offset, outs) <- nat_loop (item_step output output_from_bytes b) (N.to_nat m) ((Z.of_nat pre + k)%Z, []) ;;
      nLT <- or_panic (sl_from b offset) ;;
      if negb (slen nLT =? 4)%Z then Err ELockTime else
      ls <- or_panic (sl_from b offset) ;;
      lt <- or_panic (sl_le 4 ls) ;;
      Ok (mk_tx ver (map Some ins) (map Some outs) lt)
  | Err e => Err e
  | Panic => Panic
  end.

Lemma cut4 (v : bytes) : (4 <= length v)%nat -> exists a r, v = a ++ r /\ length a = 4%nat.
Proof. intros H. exists (firstn 4 v), (skipn 4 v). rewrite firstn_skipn, firstn_length. split; [reflexivity|lia]. Qed.

Lemma tx_from_eq ver r sp : length ver = 4%nat -> (scap (Sl (ver ++ r) sp) < 2 ^ 62)%Z ->
  tx_from_slice (Sl (ver ++ r) sp) =
  if (Z.of_nat (length r) <? 6)%Z then Err ETxShort else
  match decode_varint (Sl r sp) with
  | Ok (n, k) =>
     '(offset, ins) <- nat_loop (item_step input input_from_bytes (Sl (ver ++ r) sp)) (N.to_nat n) ((4 + k)%Z, []) ;;
     match sl_from (Sl (ver ++ r) sp) offset with
     | Some s => parse_outputs (le_get ver) ins (Z.to_nat offset) (vis s) (spare s) (Sl (ver ++ r) sp)
     | None => Panic
     end
  | Err e => Err e
  | Panic => Panic
  end.
Proof.
  intros L Cap. unfold tx_from_slice. set (b := Sl (ver ++ r) sp) in *.
  assert (slen b = 4 + Z.of_nat (length r))%Z as SL by (unfold slen, b; cbn [vis]; rewrite app_length; lia).
  unfold scap in Cap. fold (slen b) in Cap.
  rewrite SL. destruct (Z.of_nat (length r) <? 6)%Z eqn:S6.
  { replace (4 + Z.of_nat (length r) <? 10)%Z with true by lia. reflexivity. }
  replace (4 + Z.of_nat (length r) <? 10)%Z with false by lia.
  rewrite (sl_sub_vis b 0 4) by lia. cbn [or_panic bind].
  change (Z.to_nat (4 - 0)) with 4%nat. change (Z.to_nat 0) with 0%nat. rewrite skipn_O.
  assert (firstn 4 (vis b) = ver) as -> by (apply firstn_exact; assumption).
  rewrite sl_le_exact by assumption. cbn [or_panic bind].
  rewrite (sl_from_vis b 4) by lia. cbn [or_panic bind]. change (Z.to_nat 4) with 4%nat.
  assert (skipn 4 (vis b) = r) as -> by (apply skipn_exact; assumption). change (spare b) with sp.
  destruct (decode_varint (Sl r sp)) as [[n k]|e|] eqn:D; cbn [bind]; try reflexivity.
  apply decode_varint_size in D as [K _].
  rewrite wrap_int_small by (unfold two63; lia). rewrite n_loop_nat, tx_input_items.
  destruct (nat_loop _ (N.to_nat n) ((4 + k)%Z, [])) as [[off ins]|e|] eqn:E; cbn [bind]; try reflexivity.
  destruct (sl_from b off) as [s|] eqn:F; cbn [or_panic bind]; [|reflexivity].
  unfold parse_outputs. destruct s as [v sp']. cbn [vis spare].
  destruct (decode_varint (Sl v sp')) as [[m k']|e|] eqn:D'; cbn [bind]; try reflexivity.
  apply decode_varint_size in D' as [K' _].
  assert (0 <= off <= slen b)%Z as R.
  { unfold sl_from, sl_sub in F.
    destruct ((0 <=? off) && (off <=? slen b) && (slen b <=? scap b))%Z eqn:Q; [lia|discriminate]. }
  rewrite wrap_int_small by (unfold two63; lia). rewrite Z2Nat.id by lia. rewrite n_loop_nat, tx_output_items. reflexivity.
Qed.

Lemma parse_outputs_ok ver ins pre rest sp t : (scap (Sl (pre ++ rest) sp) < 2 ^ 62)%Z ->
  (parse_outputs ver ins (length pre) rest sp (Sl (pre ++ rest) sp) = Ok t <->
   exists m nout wo os lt, rest = nout ++ concat wo ++ lt /\ compact m nout /\ N.of_nat (length os) = m /\
     Forall2 (wire_output compact) wo os /\ length lt = 4%nat /\
     t = mk_tx ver (map Some ins) (map Some os) (le_get lt)).
Proof.
  intros Cap. unfold parse_outputs.
  assert (scap (Sl (pre ++ rest) sp) = Z.of_nat (length pre) + Z.of_nat (length rest) + Z.of_nat (length sp))%Z as SC
    by (unfold scap; cbn [vis spare]; rewrite app_length; lia).
  split.
  - destruct (decode_varint (Sl rest sp)) as [[m k]|e|] eqn:D; try discriminate.
    pose proof (decode_varint_size _ _ _ D) as [K U].
    intros H.
    assert (k <= slen (Sl rest sp))%Z as KL.
    { (* otherwise the first slice b[offset:] is out of range *)
      unfold slen; cbn [vis]. destruct (Z.leb_spec k (Z.of_nat (length rest))) as [|G]; [assumption|]. exfalso.
      assert (forall st : list output, item_step output output_from_bytes (Sl (pre ++ rest) sp) ((Z.of_nat (length pre) + k)%Z, st) = Panic) as IP.
      { intros st. unfold item_step. rewrite sl_from_none; [reflexivity|].
        right. unfold slen; cbn [vis]. rewrite app_length. lia. }
      destruct (N.to_nat m) as [|m'] eqn:M; cbn [nat_loop] in H.
      + cbn [bind] in H. rewrite sl_from_none in H; [discriminate|]. right. unfold slen; cbn [vis]. rewrite app_length. lia.
      + rewrite IP in H. discriminate. }
    apply decode_varint_inv in D as (nout & x & E & C & ->); [|assumption]. cbn [vis] in E. subst rest.
    rewrite app_assoc in *. rewrite <- Nat2Z.inj_add, <- app_length in H.
    match type of H with bind ?L _ = _ => destruct L as [[off outs]|e|] eqn:LP; cbn [bind] in H; try discriminate end.
    apply (items_ok output output_from_bytes (wire_output compact) output_from_ok) in LP
      as (wo & os & y & -> & F & L & -> & ->); [|assumption].
    rewrite sl_from_vis in H by (unfold slen; cbn [vis]; rewrite !app_length; lia).
    cbn [or_panic bind vis spare] in H.
    rewrite Nat2Z.id in H. rewrite (app_assoc (pre ++ nout)) in H. rewrite skipn_exact in H by (rewrite !app_length; lia).
    unfold slen in H. cbn [vis] in H.
    destruct (Z.of_nat (length y) =? 4)%Z eqn:Y; cbn [negb] in H; [|discriminate].
    rewrite sl_le_exact in H by lia. cbn [or_panic bind] in H. injection H as <-.
    exists m, nout, wo, os, y. repeat split; try assumption; lia.
  - intros (m & nout & wo & os & lt & -> & C & M & F & Ll & ->).
    rewrite (decode_varint_compact _ _ _ _ C).
    rewrite <- Nat2Z.inj_add, <- app_length. rewrite (app_assoc pre nout) in *.
    assert (nat_loop (item_step output output_from_bytes (Sl ((pre ++ nout) ++ concat wo ++ lt) sp)) (N.to_nat m)
      (Z.of_nat (length (pre ++ nout)), []) = Ok (Z.of_nat (length (pre ++ nout) + length (concat wo)), os)) as ->.
    { apply (items_ok output output_from_bytes (wire_output compact) output_from_ok); [assumption|].
      exists wo, os, lt. repeat split; try assumption; lia. }
    cbn [bind].
    rewrite sl_from_vis by (unfold slen; cbn [vis]; rewrite !app_length; lia).
    cbn [or_panic bind vis spare]. rewrite Nat2Z.id. rewrite (app_assoc (pre ++ nout)).
    rewrite skipn_exact by (rewrite !app_length; lia). unfold slen. cbn [vis]. rewrite Ll. cbn [Z.of_nat Z.eqb Pos.eqb negb].
    rewrite sl_le_exact by assumption. reflexivity.
Qed.

Lemma Forall2_some {A} (W : bytes -> A -> Prop) ws is :
  Forall2 W ws is -> Forall2 (fun w oi => exists i, oi = Some i /\ W w i) ws (map Some is).
Proof. induction 1; constructor; eauto. Qed.

Lemma Forall2_unsome {A} (W : bytes -> A -> Prop) ws ois :
  Forall2 (fun w oi => exists i, oi = Some i /\ W w i) ws ois -> exists is, ois = map Some is /\ Forall2 W ws is.
Proof.
  induction 1 as [|w oi ws ois (i & -> & H) _ (is & -> & IH)]; [exists []; auto|].
  exists (i :: is). split; [reflexivity|now constructor].
Qed.

Lemma fresh_split ws is : Forall2 fresh_wire_input ws is <-> Forall2 (wire_input compact) ws is /\ Forall fresh_input is.
Proof.
  split.
  - induction 1 as [|w i ws is [H F] _ [IH1 IH2]]; [auto|]. split; constructor; assumption.
  - intros [H F]. revert F. induction H as [|w i ws is H _ IH]; [constructor|]. intros F. inversion F; subst.
    constructor; [split; assumption|auto].
Qed.

Lemma wire_compact_short w i : wire_input compact w i -> (41 <= length w)%nat.
Proof.
  intros (id & ix & l & sq & -> & A & B & C & D & _). rewrite !app_length.
  destruct (compact_announced _ _ D) as (c & p & -> & _). cbn [length]. lia.
Qed.

Lemma tx_from_ok v sp t : (scap (Sl v sp) < 2 ^ 62)%Z ->
  (tx_from_slice (Sl v sp) = Ok t <-> wire_tx compact v t /\ fresh_tx t).
Proof.
  intros Cap. split.
  - intros H. destruct (Z.ltb_spec (slen (Sl v sp)) 10) as [S|S].
    { unfold tx_from_slice in H. replace (slen (Sl v sp) <? 10)%Z with true in H by lia. discriminate. }
    unfold slen in S. cbn [vis] in S. destruct (cut4 v ltac:(lia)) as (ver & r & -> & Lv).
    rewrite app_length in S.
    rewrite tx_from_eq in H by assumption. replace (Z.of_nat (length r) <? 6)%Z with false in H by lia.
    destruct (decode_varint (Sl r sp)) as [[n k]|e|] eqn:D; try discriminate.
    pose proof (decode_varint_size _ _ _ D) as [K U].
    assert (k <= slen (Sl r sp))%Z as KL.
    { unfold slen; cbn [vis]. destruct (Z.leb_spec k (Z.of_nat (length r))) as [|G]; [assumption|]. exfalso.
      assert (forall st : list input, item_step input input_from_bytes (Sl (ver ++ r) sp) ((4 + k)%Z, st) = Panic) as IP.
      { intros st. unfold item_step. rewrite sl_from_none; [reflexivity|].
        right. unfold slen; cbn [vis]. rewrite app_length. lia. }
      destruct (N.to_nat n) as [|n'] eqn:M; cbn [nat_loop] in H.
      + cbn [bind] in H. rewrite sl_from_none in H; [discriminate|]. right. unfold slen; cbn [vis]. rewrite app_length. lia.
      + rewrite IP in H. discriminate. }
    apply decode_varint_inv in D as (nin & x & E & C & ->); [|assumption]. cbn [vis] in E. subst r.
    rewrite app_assoc in *.
    replace (4 + Z.of_nat (length nin))%Z with (Z.of_nat (length (ver ++ nin))) in H by (rewrite app_length; lia).
    match type of H with bind ?L _ = _ => destruct L as [[off ins]|e|] eqn:LP; cbn [bind] in H; try discriminate end.
    apply (items_ok input input_from_bytes fresh_wire_input input_from_ok) in LP
      as (wi & is & y & -> & F & L & -> & ->); [|assumption].
    rewrite sl_from_vis in H by (unfold slen; cbn [vis]; rewrite !app_length; lia).
    cbn [vis spare] in H. rewrite Nat2Z.id in H.
    rewrite (app_assoc (ver ++ nin)) in *. rewrite skipn_exact in H by (rewrite !app_length; lia).
    replace (length (ver ++ nin) + length (concat wi))%nat with (length ((ver ++ nin) ++ concat wi)) in H
      by (rewrite !app_length; lia).
    apply parse_outputs_ok in H as (m & nout & wo & os & lt & -> & C' & M & F' & Ll & ->); [|assumption].
    apply fresh_split in F as [Fw Ff]. split.
    + exists ver, nin, wi, nout, wo, lt. cbn [version inputs outputs locktime app].
      unfold nlen. rewrite !map_length.
      split; [now rewrite <- !app_assoc|]. split; [assumption|]. split; [assumption|]. split; [reflexivity|]. split; [reflexivity|].
      split; [replace (N.of_nat (length is)) with n by lia; assumption|].
      split; [rewrite M; assumption|]. split; now apply Forall2_some.
    + unfold fresh_tx. cbn [inputs]. apply Forall_forall. intros oi I. apply in_map_iff in I as (i & <- & I).
      rewrite Forall_forall in Ff. exists i. auto.
  - intros [(ver & nin & wi & nout & wo & lt & -> & Lv & Ll & EV & EL & Ci & Co & FI & FO) Fr].
    apply Forall2_unsome in FI as (is & Ei & FI). apply Forall2_unsome in FO as (os & Eo & FO).
    assert (Forall fresh_input is) as Ff.
    { unfold fresh_tx in Fr. rewrite Ei in Fr. clear -Fr. induction is as [|i is IH]; [constructor|].
      cbn [map] in Fr. inversion Fr as [|? ? (j & Ej & Fj) Fr']; subst. injection Ej as <-. constructor; auto. }
    rewrite tx_from_eq by assumption.
    assert (1 <= length nin)%nat by (destruct (compact_announced _ _ Ci) as (c & p & -> & _); cbn [length]; lia).
    assert (1 <= length nout)%nat by (destruct (compact_announced _ _ Co) as (c & p & -> & _); cbn [length]; lia).
    replace (Z.of_nat (length (nin ++ concat wi ++ nout ++ concat wo ++ lt)) <? 6)%Z with false
      by (rewrite !app_length; lia).
    rewrite (decode_varint_compact _ _ _ _ Ci).
    replace (4 + Z.of_nat (length nin))%Z with (Z.of_nat (length (ver ++ nin))) by (rewrite app_length; lia).
    rewrite (app_assoc ver nin) in *.
    assert (nat_loop (item_step input input_from_bytes (Sl ((ver ++ nin) ++ concat wi ++ nout ++ concat wo ++ lt) sp))
       (N.to_nat (nlen (inputs t))) (Z.of_nat (length (ver ++ nin)), [])
       = Ok (Z.of_nat (length (ver ++ nin) + length (concat wi)), is)) as ->.
    { apply (items_ok input input_from_bytes fresh_wire_input input_from_ok); [assumption|].
      exists wi, is, (nout ++ concat wo ++ lt). rewrite fresh_split. repeat split; try assumption.
      unfold nlen. rewrite Ei, map_length. lia. }
    cbn [bind].
    rewrite sl_from_vis by (unfold slen; cbn [vis]; rewrite !app_length; lia).
    cbn [vis spare]. rewrite Nat2Z.id. rewrite (app_assoc (ver ++ nin)) in *.
    rewrite skipn_exact by (rewrite !app_length; lia).
    replace (length (ver ++ nin) + length (concat wi))%nat with (length ((ver ++ nin) ++ concat wi)) by (rewrite !app_length; lia).
    apply parse_outputs_ok; [assumption|]. exists (nlen (outputs t)), nout, wo, os, lt.
    repeat split; try assumption.
    + unfold nlen. now rewrite Eo, map_length.
    + destruct t as [a b c d]. cbn [version inputs outputs locktime] in *. subst. reflexivity.
Qed.

(** ** Panics of the whole parser, on a slice without spare capacity *)

Lemma fresh_of w : some_input w <-> exists i, fresh_wire_input w i.
Proof.
  split.
  - intros (i & id & ix & l & sq & -> & A & B & C & D & E & F & G).
    exists (mk_in (hex_encode (rev id)) (le_get ix) 0 None (Some (script_bytes (unlocking i))) (le_get sq)).
    split.
    + exists id, ix, l, sq. cbn [unlocking script_bytes prev_txid prev_index sequence]. rewrite hex_dec_encode.
      split; [reflexivity|]. auto 10.
    + unfold fresh_input. cbn. repeat split; eauto. discriminate.
  - intros (i & H & _). now exists i.
Qed.

Lemma Forall_fresh wi : Forall some_input wi <-> exists is, Forall2 fresh_wire_input wi is.
Proof.
  split.
  - induction 1 as [|w wi H _ (is & IH)]; [exists []; constructor|]. apply fresh_of in H as (i & H).
    exists (i :: is). now constructor.
  - intros (is & H). induction H as [|w i ws is H _ IH]; constructor; [|assumption]. apply fresh_of. eauto.
Qed.

Lemma Forall_outs wo : Forall some_output wo <-> exists os, Forall2 (wire_output compact) wo os.
Proof.
  split.
  - induction 1 as [|w wi (o & H) _ (is & IH)]; [exists []; constructor|]. exists (o :: is). now constructor.
  - intros (is & H). induction H as [|w i ws is H _ IH]; constructor; [|assumption]. now exists i.
Qed.

Lemma Forall2_length {A B} (R : A -> B -> Prop) l l' : Forall2 R l l' -> length l = length l'.
Proof. induction 1; cbn [length]; lia. Qed.

Lemma compact_len n l : compact n l -> (1 <= length l <= 9)%nat.
Proof.
  intros C. pose proof (decode_varint_compact n l [] [] C) as D. apply decode_varint_size in D as [D _]. lia.
Qed.

Lemma parse_outputs_panic ver ins pre rest : (Z.of_nat (length (pre ++ rest)) < 2 ^ 62)%Z ->
  (parse_outputs ver ins (length pre) rest [] (Sl (pre ++ rest) []) = Panic <->
   cs_truncated rest \/
   exists m nout wo r, rest = nout ++ concat wo ++ r /\ compact m nout /\ Forall some_output wo /\
     nlen wo < m /\ output_panics r).
Proof.
  intros Cap. assert (scap (Sl (pre ++ rest) []) < 2 ^ 62)%Z as Cap' by (unfold scap; cbn [vis spare length]; lia).
  unfold parse_outputs. destruct (decode_dec rest) as [Tr|(m & nout & x & -> & C)].
  - pose proof (proj2 (decode_truncated rest) Tr) as ->. tauto.
  - rewrite (decode_varint_compact _ _ _ _ C). rewrite <- Nat2Z.inj_add, <- app_length.
    rewrite (app_assoc pre nout) in *.
    assert (~ cs_truncated (nout ++ x)) as NT.
    { intros Tr. apply decode_truncated in Tr. rewrite (decode_varint_compact _ _ _ _ C) in Tr. discriminate. }
    assert (forall m' nout' y, nout ++ x = nout' ++ y -> compact m' nout' -> m' = m /\ nout' = nout /\ y = x) as Uniq.
    { intros m' nout' y E C'. pose proof (decode_varint_compact m nout x [] C) as D.
      rewrite E, (decode_varint_compact m' nout' y [] C') in D. injection D as -> D. apply Nat2Z.inj in D.
      split; [reflexivity|]. assert (firstn (length nout) (nout ++ x) = firstn (length nout) (nout' ++ y)) as E1 by now rewrite E.
      assert (skipn (length nout) (nout ++ x) = skipn (length nout) (nout' ++ y)) as E2 by now rewrite E.
      rewrite !firstn_exact in E1 by lia. rewrite !skipn_exact in E2 by lia. auto. }
    match goal with |- bind ?L _ = Panic <-> _ => destruct L as [[off outs]|e|] eqn:LP end; cbn [bind].
    + apply (items_ok output output_from_bytes (wire_output compact) output_from_ok) in LP
        as (wo & os & y & -> & F & L & -> & ->); [|assumption].
      rewrite sl_from_vis by (unfold slen; cbn [vis]; rewrite !app_length; lia).
      cbn [or_panic bind]. rewrite Nat2Z.id. cbn [vis]. rewrite (app_assoc (pre ++ nout)), skipn_exact by (rewrite !app_length; lia).
      split.
      * unfold slen. cbn [vis]. destruct (Z.of_nat (length y) =? 4)%Z eqn:Y; cbn [negb]; [|discriminate].
        rewrite sl_le_exact by lia. discriminate.
      * intros [Tr|(m' & nout' & wo' & r & E & C' & FO & Lt & P)]; [contradiction|].
        destruct (Uniq _ _ _ E C') as (-> & -> & E'). clear E. rename E' into E. exfalso.
        apply Forall_outs in FO as (os' & FO).
        assert (nat_loop (item_step output output_from_bytes (Sl ((pre ++ nout) ++ concat wo' ++ r) [])) (N.to_nat m)
          (Z.of_nat (length (pre ++ nout)), []) = Panic) as LP.
        { apply (items_panic output output_from_bytes (wire_output compact) output_from_ok); [now rewrite E|].
          exists wo', os', r. repeat split; try assumption.
          - apply Forall2_length in FO. unfold nlen, bytes in *. lia.
          - apply output_from_panic; [|assumption]. rewrite <- E in Cap. rewrite !app_length in *. lia. }
        assert (nat_loop (item_step output output_from_bytes (Sl ((pre ++ nout) ++ concat wo ++ y) [])) (N.to_nat m)
          (Z.of_nat (length (pre ++ nout)), []) = Ok (Z.of_nat (length (pre ++ nout) + length (concat wo)), os)) as LP'.
        { apply (items_ok output output_from_bytes (wire_output compact) output_from_ok); [assumption|]. exists wo, os, y. auto. }
        rewrite E in LP. congruence.
    + split; [discriminate|]. intros [Tr|(m' & nout' & wo' & r & E & C' & FO & Lt & P)]; [contradiction|].
      destruct (Uniq _ _ _ E C') as (-> & -> & E'). clear E. subst x. exfalso. apply Forall_outs in FO as (os' & FO).
      rewrite (proj2 (items_panic output output_from_bytes (wire_output compact) output_from_ok (N.to_nat m) (pre ++ nout) (concat wo' ++ r) [] [] Cap')) in LP; [discriminate|].
      exists wo', os', r. repeat split; try assumption.
      * apply Forall2_length in FO. unfold nlen, bytes in *. lia.
      * apply output_from_panic; [|assumption]. rewrite !app_length in *. lia.
    + split; [|reflexivity]. intros _. right.
      apply (items_panic output output_from_bytes (wire_output compact) output_from_ok) in LP
        as (wo & os & r & -> & F & L & P); [|assumption].
      exists m, nout, wo, r. split; [reflexivity|]. split; [assumption|]. split; [apply Forall_outs; eauto|].
      split; [apply Forall2_length in F; unfold nlen, bytes in *; lia|].
      apply output_from_panic; [rewrite !app_length in *; lia|assumption].
Qed.

Lemma cs_uniq n l x n' l' x' : compact n l -> compact n' l' -> l ++ x = l' ++ x' -> n' = n /\ l' = l /\ x' = x.
Proof.
  intros C C' E. pose proof (decode_varint_compact n l x [] C) as D.
  rewrite E, (decode_varint_compact n' l' x' [] C') in D. injection D as -> D. apply Nat2Z.inj in D.
  assert (firstn (length l) (l ++ x) = firstn (length l) (l' ++ x')) as E1 by now rewrite E.
  assert (skipn (length l) (l ++ x) = skipn (length l) (l' ++ x')) as E2 by now rewrite E.
  rewrite !firstn_exact in E1 by lia. rewrite !skipn_exact in E2 by lia. auto.
Qed.

Lemma cut_uniq k (a b a' b' : bytes) : length a = k -> length a' = k -> a ++ b = a' ++ b' -> a' = a /\ b' = b.
Proof.
  intros L L' E.
  assert (firstn k (a ++ b) = firstn k (a' ++ b')) as E1 by now rewrite E.
  assert (skipn k (a ++ b) = skipn k (a' ++ b')) as E2 by now rewrite E.
  rewrite !firstn_exact in E1 by lia. rewrite !skipn_exact in E2 by lia. auto.
Qed.

(** [panics_after ver r]: the four ways, with the version cut off *)
Definition panics_after (r : bytes) : Prop :=
  ((6 <= length r)%nat /\ cs_truncated r) \/
  exists n nin x, r = nin ++ x /\ compact n nin /\
   ((exists wi y, x = concat wi ++ y /\ Forall some_input wi /\ nlen wi < n /\ input_panics y) \/
    (exists wi y, x = concat wi ++ y /\ Forall some_input wi /\ nlen wi = n /\
       ((cs_truncated y /\ (6 <= length r)%nat) \/
        exists m nout wo z, y = nout ++ concat wo ++ z /\ compact m nout /\ Forall some_output wo /\
          nlen wo < m /\ output_panics z))).

Lemma tx_panics_after ver r : length ver = 4%nat -> (tx_panics (ver ++ r) <-> panics_after r).
Proof.
  intros Lv. split.
  - intros H. remember (ver ++ r) as b eqn:E. destruct H as
      [ver' r' Lv' L T|ver' n nin wi r' Lv' C F Lt P|ver' n nin wi r' Lv' C F Lt P Lb|ver' n nin wi m nout wo r' Lv' C F Lt Co Fo Lo P];
      symmetry in E; apply (cut_uniq 4) in E as [<- <-]; try assumption.
    + left. auto.
    + right. exists n, nin, (concat wi ++ r'). split; [reflexivity|]. split; [assumption|]. left. eauto 10.
    + right. exists n, nin, (concat wi ++ r'). split; [reflexivity|]. split; [assumption|]. right.
      exists wi, r'. repeat split; try assumption. left. split; [assumption|].
      rewrite app_length in Lb. rewrite !app_length in *. lia.
    + right. exists n, nin, (concat wi ++ nout ++ concat wo ++ r'). split; [reflexivity|]. split; [assumption|]. right.
      exists wi, (nout ++ concat wo ++ r'). repeat split; try assumption. right. eauto 10.
  - intros [[L T]|(n & nin & x & -> & C & [(wi & y & -> & F & Lt & P)|(wi & y & -> & F & Lt & [[T L]|(m & nout & wo & z & -> & Co & Fo & Lo & P)])])].
    + now apply panic_count.
    + eapply panic_input; eassumption.
    + eapply panic_outcount; try eassumption. rewrite app_length. lia.
    + eapply panic_output; eassumption.
Qed.

Lemma tx_from_panic v : (Z.of_nat (length v) < 2 ^ 62)%Z -> (tx_from_slice (Sl v []) = Panic <-> tx_panics v).
Proof.
  intros Cap. assert (scap (Sl v []) < 2 ^ 62)%Z as Cap' by (unfold scap; cbn [vis spare length]; lia).
  destruct (Z.ltb_spec (slen (Sl v [])) 10) as [S|S].
  { unfold tx_from_slice. replace (slen (Sl v []) <? 10)%Z with true by lia. split; [discriminate|].
    unfold slen in S. cbn [vis] in S. intros H. exfalso. destruct H as
      [ver' r' Lv' L T|ver' n nin wi r' Lv' C F Lt P|ver' n nin wi r' Lv' C F Lt P Lb|ver' n nin wi m nout wo r' Lv' C F Lt Co Fo Lo P].
    - rewrite app_length in S. lia.
    - apply compact_len in C. destruct P as (h & r & -> & Lh & _). rewrite !app_length in S. lia.
    - lia.
    - apply compact_len in C, Co. destruct P as (h & r & -> & Lh & _). rewrite !app_length in S. lia. }
  unfold slen in S. cbn [vis] in S. destruct (cut4 v ltac:(lia)) as (ver & r & -> & Lv).
  rewrite app_length in S. rewrite tx_panics_after by assumption. rewrite tx_from_eq by assumption.
  replace (Z.of_nat (length r) <? 6)%Z with false by lia. unfold panics_after.
  destruct (decode_dec r) as [Tr|(n & nin & x & -> & C)].
  { pose proof (proj2 (decode_truncated r) Tr) as ->. split; [|reflexivity]. intros _. left. split; [lia|assumption]. }
  assert (~ cs_truncated (nin ++ x)) as NT.
  { intros Tr. apply decode_truncated in Tr. rewrite (decode_varint_compact _ _ _ _ C) in Tr. discriminate. }
  rewrite (decode_varint_compact _ _ _ _ C).
  replace (4 + Z.of_nat (length nin))%Z with (Z.of_nat (length (ver ++ nin))) by (rewrite app_length; lia).
  rewrite (app_assoc ver nin) in *.
  set (P1 := exists wi y, x = concat wi ++ y /\ Forall some_input wi /\ nlen wi < n /\ input_panics y).
  match goal with |- _ <-> _ \/ ?R =>
    assert (R <-> P1 \/ exists wi y, x = concat wi ++ y /\ Forall some_input wi /\ nlen wi = n /\
       ((cs_truncated y /\ (6 <= length (nin ++ x))%nat) \/
        exists m nout wo z, y = nout ++ concat wo ++ z /\ compact m nout /\ Forall some_output wo /\
          nlen wo < m /\ output_panics z)) as -> end.
  { split.
    - intros (n' & nin' & x' & E & C' & H). destruct (cs_uniq _ _ _ _ _ _ C C' E) as (-> & -> & ->). exact H.
    - intros H. exists n, nin, x. auto. }
  assert (P1 <-> nat_loop (item_step input input_from_bytes (Sl ((ver ++ nin) ++ x) [])) (N.to_nat n)
          (Z.of_nat (length (ver ++ nin)), []) = Panic) as HP1.
  { unfold P1. rewrite (items_panic input input_from_bytes fresh_wire_input input_from_ok) by assumption. split.
    - intros (wi & y & -> & F & Lt & P). apply Forall_fresh in F as (is & F). exists wi, is, y.
      repeat split; try assumption.
      + apply Forall2_length in F. unfold nlen, bytes in *. lia.
      + apply input_from_panic; [|assumption]. rewrite !app_length in *. lia.
    - intros (wi & is & y & -> & F & Lt & P). exists wi, y. split; [reflexivity|]. split; [apply Forall_fresh; eauto|].
      split; [apply Forall2_length in F; unfold nlen, bytes in *; lia|].
      apply input_from_panic; [|assumption]. rewrite !app_length in *. lia. }
  match goal with |- bind ?L _ = Panic <-> _ => destruct L as [[off ins]|e|] eqn:LP end; cbn [bind].
  - pose proof LP as LP0.
    apply (items_ok input input_from_bytes fresh_wire_input input_from_ok) in LP
      as (wi & is & y & -> & F & L & -> & ->); [|assumption].
    rewrite sl_from_vis by (unfold slen; cbn [vis]; rewrite !app_length; lia).
    cbn [vis spare]. rewrite Nat2Z.id, (app_assoc (ver ++ nin)), skipn_exact by (rewrite !app_length; lia).
    replace (length (ver ++ nin) + length (concat wi))%nat with (length ((ver ++ nin) ++ concat wi)) by (rewrite !app_length; lia).
    cbn [app]. rewrite parse_outputs_panic by (rewrite <- app_assoc; assumption).
    assert (Forall some_input wi) as FI by (apply Forall_fresh; eauto).
    assert (nlen wi = n) as LW by (apply Forall2_length in F; unfold nlen, bytes in *; lia).
    split.
    + intros H. right. right. exists wi, y. repeat split; try assumption.
      destruct H as [T|H]; [left; split; [assumption|lia]|right; assumption].
    + intros [[_ T]|[H|(wi' & y' & E & F' & L' & H)]]; [contradiction| |].
      * apply HP1 in H. congruence.
      * apply Forall_fresh in F' as (is' & F').
        assert (nat_loop (item_step input input_from_bytes (Sl ((ver ++ nin) ++ concat wi ++ y) [])) (N.to_nat n)
          (Z.of_nat (length (ver ++ nin)), []) = Ok (Z.of_nat (length (ver ++ nin) + length (concat wi')), is')) as LP'.
        { apply (items_ok input input_from_bytes fresh_wire_input input_from_ok); [assumption|].
          exists wi', is', y'. repeat split; try assumption. apply Forall2_length in F'. unfold nlen, bytes in *. lia. }
        rewrite LP0 in LP'. injection LP' as Lc _. assert (length (concat wi) = length (concat wi')) as Lc' by lia.
        destruct (cut_uniq (length (concat wi)) _ _ _ _ eq_refl (eq_sym Lc') E) as [_ ->]. destruct H as [[T _]|H]; auto.
  - split; [discriminate|]. intros [[_ T]|[H|(wi' & y' & E & F' & L' & H)]]; [contradiction| |]; exfalso.
    + apply HP1 in H. congruence.
    + apply Forall_fresh in F' as (is' & F'). subst x.
      rewrite (proj2 (items_ok input input_from_bytes fresh_wire_input input_from_ok (N.to_nat n) (ver ++ nin) (concat wi' ++ y') [] []
        (Z.of_nat (length (ver ++ nin) + length (concat wi'))) is' Cap')) in LP; [discriminate|].
      exists wi', is', y'. repeat split; try assumption. apply Forall2_length in F'. unfold nlen, bytes in *. lia.
  - split; [|reflexivity]. intros _. right. left. now apply HP1.
Qed.
