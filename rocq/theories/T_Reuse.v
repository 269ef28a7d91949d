(** C97: a transaction parsed from a buffer that is written to afterwards. *)
From Verif Require Import P_Reuse P_Tx P_TxParse P_TxSer P_Utils.
From Coq Require Import Lia ZifyBool ZifyNat ZifyN.

(** What a parsed transaction shows once the buffer holds something else: the version, the lock time, the
    spent outputs, the sequence numbers and the amounts that were parsed, and as scripts whatever the buffer
    holds now at the places of the scripts. *)
Theorem C97_shown : forall h h' b m, wf_sl h b -> h_tx h b = Ok m -> later h h' b ->
  same_but_scripts (abs_tx h m) (abs_tx h' m) /\
  script_list (abs_tx h' m) = map (fun s => Some (firstn (s_len s) (skipn (s_off s - s_off b) (get h' b)))) (scripts m).
Proof.
  intros h h' b m W E LT. split.
  - split; [reflexivity|]. split; [reflexivity|]. unfold abs_tx. cbn [inputs outputs]. split.
    + induction (m_ins m) as [|i l IH]; cbn [map]; constructor; [|exact IH]. eexists _, _, _. split; [reflexivity|]. split; reflexivity.
    + induction (m_outs m) as [|i l IH]; cbn [map]; constructor; [|exact IH]. eexists _, _, _. split; [reflexivity|]. split; reflexivity.
  - transitivity (map (fun s => Some (get h' s)) (scripts m)).
    + unfold script_list, abs_tx, scripts. cbn [inputs outputs]. rewrite map_app, !map_map. reflexivity.
    + apply map_ext_in. intros s I. f_equal. destruct (scripts_at h h' b m W E LT s I) as (A & _ & _ & O & L).
      apply nth_error_eq. intros k. rewrite nth_get, nth_firstn, nth_skipn, nth_get, A.
      destruct (Nat.ltb_spec k (s_len s)); [|reflexivity]. destruct (Nat.ltb_spec (s_off s - s_off b + k) (s_len b)); [|lia]. f_equal. lia.
Qed.
Print Assumptions C97_shown.

(** These are the bytes of the old buffer with the scripts' bytes taken from the new one: parsing that mixture
    gives the transaction shown, and if the buffer held the shortest encoding, ToBytes returns the mixture. *)
Theorem C97_mixture : forall h h' b m, wf_sl h b -> h_tx h b = Ok m -> later h h' b ->
  exists out, mixture m b (get h b) (get h' b) out /\ tx_from_bytes out = Ok (abs_tx h' m) /\
    (tx_to_bytes (abs_tx h m) = Ok (get h b) -> tx_to_bytes (abs_tx h' m) = Ok out).
Proof.
  intros h h' b m W E LT. pose proof (mix_parse h h' b m W E LT) as MP. cbv zeta in MP. destruct MP as (W2 & M & P & Q).
  set (h2 := mix_heap h h' b m) in *. exists (get h2 b). split; [exact M|].
  pose proof (h_tx_refines h2 b W2) as R. rewrite P in R. cbn [rmap] in R. rewrite Q in R.
  pose proof W2 as (X1 & X2 & X3 & X4). unfold view in R. apply tx_from_ok in R; [|change (Sl (get h2 b) (get_spare h2 b)) with (view h2 b); rewrite view_scap by assumption; lia].
  split. { apply tx_from_ok; [unfold scap; cbn [vis spare length]; rewrite get_length by assumption; lia|exact R]. }
  intros B. destruct R as [R _]. destruct (wire_tx_min _ _ R) as (w & Mw). pose proof (wire_tx_bytes _ _ Mw) as Bw. rewrite Bw. f_equal.
  apply (tx_vs _ _ _ R Mw). rewrite (len_same h h' b m _ _ W E LT B Bw). destruct M as [M _]. symmetry. exact M.
Qed.
Print Assumptions C97_mixture.

(** It is the transaction that was parsed exactly when the bytes of its scripts are what they were. *)
Theorem C97_unchanged_iff : forall h h' b m, wf_sl h b -> h_tx h b = Ok m -> later h h' b ->
  (abs_tx h' m = abs_tx h m <-> forall k, in_script m k -> nth_error (arr h' (s_arr b)) k = nth_error (arr h (s_arr b)) k).
Proof.
  intros h h' b m W E LT. split.
  - intros Q k (s & I & K). destruct (scripts_at h h' b m W E LT s I) as (A & _). pose proof (abs_inj h h' m Q s I) as G.
    apply (f_equal (fun l => nth_error l (k - s_off s))) in G. rewrite !nth_get, A in G. destruct (Nat.ltb_spec (k - s_off s) (s_len s)); [|lia].
    replace (s_off s + (k - s_off s))%nat with k in G by lia. exact G.
  - intros H. apply abs_same. intros s I. destruct (scripts_at h h' b m W E LT s I) as (A & _). apply nth_error_eq. intros k. rewrite !nth_get, A.
    destruct (Nat.ltb_spec k (s_len s)); [|reflexivity]. apply H. exists s. split; [exact I|lia].
Qed.
Print Assumptions C97_unchanged_iff.

(** GetTxID gives it away: for a transaction in the shortest encoding the id changes with the scripts, unless
    SHA256d collides on the old bytes and the mixture. *)
Theorem C97_txid : forall h h' b m, wf_sl h b -> h_tx h b = Ok m -> later h h' b ->
  tx_to_bytes (abs_tx h m) = Ok (get h b) ->
  tx_id (abs_tx h m) = Ok (hex_encode (rev (sha256d (get h b)))) /\
  (tx_id (abs_tx h' m) = tx_id (abs_tx h m) ->
   abs_tx h' m = abs_tx h m \/
   exists out, mixture m b (get h b) (get h' b) out /\ out <> get h b /\ sha256d out = sha256d (get h b)).
Proof.
  intros h h' b m W E LT B. destruct (C97_mixture h h' b m W E LT) as (out & M & P & T). specialize (T B).
  unfold tx_id. rewrite B, T. cbn [bind]. rewrite !reverse_bytes_rev. split; [reflexivity|]. intros Q. apply (f_equal (fun r => match r with Ok x => x | _ => [] end)) in Q.
  apply hex_encode_inj in Q. apply rev_inj in Q.
  destruct (list_eq_dec byte_eq_dec out (get h b)) as [D|D].
  - left. rewrite D in P. pose proof (h_tx_refines h b W) as R. rewrite E in R. cbn [rmap] in R. pose proof W as (X1 & X2 & X3 & X4).
    assert (tx_from_bytes (get h b) = Ok (abs_tx h m)) as P'.
    { unfold view in R. apply tx_from_ok in R; [|change (Sl (get h b) (get_spare h b)) with (view h b); rewrite view_scap by assumption; lia].
      apply tx_from_ok; [unfold scap; cbn [vis spare length]; rewrite get_length by assumption; lia|exact R]. }
    rewrite P' in P. symmetry. apply (f_equal (fun r => match r with Ok x => x | _ => abs_tx h m end)) in P. exact P.
  - right. exists out. split; [exact M|]. split; [exact D|exact Q].
Qed.
Print Assumptions C97_txid.

(** Parsing looks at no byte of a script: a buffer that is the same everywhere else gives the same slices. *)
Theorem C97_same_layout : forall h h' b m, wf_sl h b -> h_tx h b = Ok m -> later h h' b ->
  (forall k, (s_off b <= k < s_off b + s_len b)%nat -> ~ in_script m k -> nth_error (arr h' (s_arr b)) k = nth_error (arr h (s_arr b)) k) ->
  h_tx h' b = Ok m.
Proof. intros h h' b m W E LT A. exact (h_tx_same h h' b m W LT E A). Qed.
Print Assumptions C97_same_layout.

(** A second transaction read into the same buffer and parsed from there, with its scripts at the same places:
    the first one now has its own amounts and spent outputs and the second one's scripts. *)
Theorem C97_second_read : forall h h' b m m2, wf_sl h b -> h_tx h b = Ok m -> later h h' b -> h_tx h' b = Ok m2 ->
  scripts m2 = scripts m ->
  same_but_scripts (abs_tx h m) (abs_tx h' m) /\ script_list (abs_tx h' m) = script_list (abs_tx h' m2).
Proof.
  intros h h' b m m2 W E LT E2 S. destruct (C97_shown h h' b m W E LT) as [A B]. split; [exact A|]. rewrite B, <- S.
  pose proof (later_wf h h' b b LT W eq_refl) as W'. assert (later h' h' b) as LT' by (split; [apply LT|reflexivity]).
  destruct (C97_shown h' h' b m2 W' E2 LT') as [_ B2]. symmetry. exact B2.
Qed.
Print Assumptions C97_second_read.

(** A transaction parsed from a hex string is its caller's own: NewFromString's bytes are in a new array. *)
Theorem C97_from_string : forall slack h s h1 m, (Z.of_nat (length s + slack) < 2 ^ 62)%Z ->
  h_tx_from_string slack h s = (h1, Ok m) ->
  tx_from_string slack s = Ok (abs_tx h1 m) /\
  (forall a, (a < length h)%nat -> arr h1 a = arr h a) /\
  (forall h', arr h' (length h) = arr h1 (length h) -> abs_tx h' m = abs_tx h1 m).
Proof.
  intros slack h s h1 m B E. unfold h_tx_from_string in E. unfold tx_from_string.
  destruct (hex_decode_slice slack s) as [v oe] eqn:D. destruct oe as [e|]; [discriminate E|].
  set (b := mk_sl (length h) 0 (length (vis v)) (length (vis v) + length (spare v))) in E.
  injection E as E1 E2. rewrite E1 in E2.
  assert (arr h1 (length h) = vis v ++ spare v) as A1.
  { rewrite <- E1. unfold arr. rewrite app_nth2 by lia. now rewrite Nat.sub_diag. }
  assert (length (vis v) + length (spare v) <= length s + slack)%nat as LB.
  { unfold hex_decode_slice in D. destruct (hex_decode s) as [d oe] eqn:HD. injection D as <- ->. cbn [vis spare].
    assert (hex_dec s = Some d) as HX by (unfold hex_dec; now rewrite HD). apply hex_dec_length in HX.
    rewrite app_length, skipn_length, repeat_length. lia. }
  assert (wf_sl h1 b) as W.
  { unfold wf_sl, b. cbn [s_arr s_off s_len s_cap]. rewrite A1, app_length. split; [rewrite <- E1, app_length; cbn [length]; lia|]. lia. }
  pose proof (h_tx_refines h1 b W) as R. rewrite E2 in R. cbn [rmap] in R.
  assert (view h1 b = v) as V.
  { unfold view, get, get_spare, b. cbn [s_arr s_off s_len s_cap]. rewrite A1. cbn [skipn Nat.add].
    rewrite firstn_exact by reflexivity. rewrite skipn_exact by reflexivity. rewrite firstn_all2 by lia. now destruct v. }
  rewrite V in R. split; [exact R|]. split.
  - intros a L. rewrite <- E1. unfold arr. now rewrite app_nth1 by assumption.
  - intros h' A. apply abs_same. intros t I. pose proof (h_tx_place h1 b m W E2) as [F _]. rewrite Forall_forall in F. destruct (F t I) as (_ & Q & _).
    apply get_old. rewrite Q. exact A.
Qed.
Print Assumptions C97_from_string.

(** ** refuted: a parsed transaction does not depend on the buffer *)

(** a payment of 5 and, read into the same buffer, one of 9 that spends something else *)
Definition pay (id c v : byte) : bytes :=
  [x01;x00;x00;x00] ++ [x01] ++ repeat id 32 ++ [x00;x00;x00;x00] ++ [x02;c;c] ++ [xff;xff;xff;xff] ++
  [x01] ++ [v;x00;x00;x00;x00;x00;x00;x00] ++ [x03;c;c;c] ++ [x00;x00;x00;x00].
Definition pay_buf : sl := mk_sl 0 0 (length (pay x11 x51 x05)) (length (pay x11 x51 x05)).

Example C97_example :
  wf_sl [pay x11 x51 x05] pay_buf /\ later [pay x11 x51 x05] [pay x22 x52 x09] pay_buf /\
  exists m m2, h_tx [pay x11 x51 x05] pay_buf = Ok m /\ h_tx [pay x22 x52 x09] pay_buf = Ok m2 /\ scripts m2 = scripts m /\ length (scripts m) = 2%nat /\
    tx_to_bytes (abs_tx [pay x11 x51 x05] m) = Ok (pay x11 x51 x05) /\ tx_to_bytes (abs_tx [pay x22 x52 x09] m) = Ok (pay x11 x52 x05).
Proof.
  split; [vm_compute; repeat split; lia|]. split; [vm_compute; split; [lia|reflexivity]|].
  eexists _, _. split; [vm_compute; reflexivity|]. split; [vm_compute; reflexivity|]. split; [reflexivity|]. split; [reflexivity|]. split; vm_compute; reflexivity.
Qed.

(** The first payment becomes one that nobody has sent: not the one parsed, not the one in the buffer. *)
Theorem C97_independent_refuted :
  ~ (forall h h' b m, wf_sl h b -> h_tx h b = Ok m -> later h h' b -> abs_tx h' m = abs_tx h m) /\
  exists h h' b m m2, wf_sl h b /\ later h h' b /\ h_tx h b = Ok m /\ h_tx h' b = Ok m2 /\ abs_tx h' m <> abs_tx h m /\ abs_tx h' m <> abs_tx h' m2.
Proof.
  destruct C97_example as (W & L & m & m2 & E & E2 & _ & _ & B & B').
  assert (abs_tx [pay x22 x52 x09] m <> abs_tx [pay x11 x51 x05] m) as N.
  { intros Q. rewrite Q, B in B'. apply (f_equal (fun r => match r with Ok x => x | _ => [] end)) in B'. vm_compute in B'. discriminate B'. }
  split; [intros H; exact (N (H _ _ _ _ W E L))|].
  exists [pay x11 x51 x05], [pay x22 x52 x09], pay_buf, m, m2. split; [exact W|]. split; [exact L|]. split; [exact E|]. split; [exact E2|]. split; [exact N|].
  intros Q. rewrite Q in B'. vm_compute in E2. injection E2 as <-. vm_compute in B'. discriminate B'.
Qed.
Print Assumptions C97_independent_refuted.

(** a transaction from a string, and one parsed from bytes beside it *)
Example C97_string_example : exists h1 m, h_tx_from_string 3 [pay x22 x52 x09] (hex_encode (pay x11 x51 x05)) = (h1, Ok m) /\ tx_to_bytes (abs_tx h1 m) = Ok (pay x11 x51 x05).
Proof. eexists _, _. split; [vm_compute; reflexivity|]. vm_compute. reflexivity. Qed.
