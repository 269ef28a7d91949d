(** Proofs for C67, C68. *)
From Verif Require Export S_Pay P_TxMisc P_Address P_Script.
From Coq Require Import ZifyBool ZifyNat ZifyN.

Lemma hexval_lower d : (d < 16)%nat -> forall c, nth_error (str "0123456789abcdef") d = Some c -> hexval c = Some (N.of_nat d).
Proof. intros L c. do 16 (destruct d as [|d]; [cbn; intros E; injection E as <-; reflexivity|]). lia. Qed.
Lemma hexval_upper d : (d < 16)%nat -> forall c, nth_error (str "0123456789ABCDEF") d = Some c -> hexval c = Some (N.of_nat d).
Proof. intros L c. do 16 (destruct d as [|d]; [cbn; intros E; injection E as <-; reflexivity|]). lia. Qed.

Lemma hex_digit_val c d : hex_digit c d -> hexval c = Some (N.of_nat d).
Proof.
  intros [H|H].
  - apply hexval_lower; [|assumption]. assert (d < length (str "0123456789abcdef"))%nat by (apply nth_error_Some; congruence). exact H0.
  - apply hexval_upper; [|assumption]. assert (d < length (str "0123456789ABCDEF"))%nat by (apply nth_error_Some; congruence). exact H0.
Qed.

Lemma hexval_digit c n : hexval c = Some n -> hex_digit c (N.to_nat n).
Proof.
  destruct c; intros E; vm_compute in E; try discriminate; injection E as <-; (left; reflexivity) || (right; reflexivity).
Qed.

Lemma hex_text_iff s : forall b, hex_dec s = Some b <-> hex_text s b.
Proof.
  induction s as [|c|c d r IH] using list_ind2; intros b.
  - split; intros H; [unfold hex_dec in H; cbn in H; injection H as <-; constructor|inversion H; reflexivity].
  - split; intros H; [|inversion H]. unfold hex_dec in H. cbn in H. destruct (hexval c); discriminate.
  - unfold hex_dec in *. cbn [hex_decode]. split.
    + destruct (hexval c) as [v|] eqn:E; [|discriminate]. destruct (hexval d) as [w|] eqn:E2; [|discriminate].
      destruct (hex_decode r) as [t [e|]]; [discriminate|]. intros H. injection H as <-.
      pose proof (hexval_lt _ _ E). pose proof (hexval_lt _ _ E2).
      econstructor; [apply hexval_digit, E|apply hexval_digit, E2| |apply IH; reflexivity]. rewrite b2n_n2b_small by lia. lia.
    + intros H. inversion H as [|c1 d1 c2 d2 s' b' x H1 H2 H3 H4]; subst. rewrite (hex_digit_val _ _ H1), (hex_digit_val _ _ H2).
      apply IH in H4. destruct (hex_decode r) as [t [e|]]; [discriminate|]. injection H4 as ->. do 2 f_equal.
      replace (N.of_nat d1 * 16 + N.of_nat d2) with (b2n x) by lia. apply n2b_b2n.
Qed.

Lemma hex_text_encode b : hex_text (hex_encode b) b.
Proof. apply hex_text_iff, hex_dec_encode. Qed.

Lemma of_hex_text s : (exists b, hex_text s b /\ of_hex s = Ok b) \/ ((forall b, ~ hex_text s b) /\ exists e, of_hex s = Err (EHex e)).
Proof.
  unfold of_hex. pose proof (hex_text_iff s) as I. unfold hex_dec in I. destruct (hex_decode s) as [b [e|]].
  - right. split; [|eauto]. intros b' H. apply I in H. discriminate.
  - left. exists b. split; [now apply I|reflexivity].
Qed.

(** ** addresses *)

Lemma be_get_len_inj a b : length a = length b -> be_get a = be_get b -> a = b.
Proof. intros L E. rewrite <- (be_put_unique _ a eq_refl), <- (be_put_unique _ b eq_refl), E. now rewrite L. Qed.

Lemma b58_of_num s b : b58_of s b -> b58_num s (be_get b).
Proof. intros H. apply b58_of_encode in H as <-. apply b58_encode_num. Qed.

Lemma sum_text s w h : address_text s w h <-> s = b58_encode_missing_checksum (w :: h).
Proof.
  unfold address_text, b58_encode_missing_checksum, addr_checksum. rewrite <- sha256d_eq. split.
  - intros H. apply b58_of_encode in H. now symmetry.
  - intros ->. apply b58_encode_of.
Qed.

Lemma both_accept s a : (addr_from_string s = Ok a /\ validate_address s = Ok tt) <->
  exists h m, length h = 20%nat /\ address_text s (if (m : bool) then x00 else x6f) h /\ a = mk_addr s (hex_encode h).
Proof.
  split.
  - intros (A & V). apply addr_from_string_iff in A as (w & h & k & O & Lh & Lk & W & ->).
    pose proof (b58_of_num _ _ O) as B. rewrite validate_plain in V by (eapply b58_not_script, B).
    apply valid_a58_iff in V as (w' & h' & W' & Lh' & B'). pose proof (b58_num_det _ _ _ B B') as E.
    apply be_get_len_inj in E; [|cbn [length]; rewrite !app_length, checksum_length; lia].
    assert (w = w' /\ h ++ k = h' ++ firstn 4 (sha256d (w' :: h'))) as [-> E1].
    { revert E. generalize (firstn 4 (sha256d (w' :: h'))). intros q E. injection E as -> E. auto. }
    destruct (cut_uniq _ _ _ _ _ Lh Lh' E1) as [EH EK]. subst h'. rewrite <- EK in O.
    exists h, (byte_eqb w' x00). split; [assumption|]. split; [|reflexivity].
    unfold address_text. rewrite <- sha256d_eq. destruct W' as [-> | ->]; exact O.
  - intros (h & m & L & T & ->). apply sum_text in T. subst s.
    pose proof (addr_round h m L) as (R1 & R2). unfold addr_from_pkh in *. cbn [addr_string app] in *. auto.
Qed.

Lemma valid_iff_ones s : ~ (exists t, s = str "bitcoin-script:" ++ t) ->
  (validate_address s = Ok tt <->
   exists h m s', length h = 20%nat /\ address_text s' (if (m : bool) then x00 else x6f) h /\ same_but_ones s s').
Proof.
  intros N. rewrite validate_plain by assumption. rewrite valid_a58_iff. split.
  - intros (w & h & W & L & B). exists h, (byte_eqb w x00), (b58_encode_missing_checksum (w :: h)).
    split; [assumption|]. split; [destruct W as [-> | ->]; now apply sum_text|].
    pose proof (b58_encode_num (w :: h ++ firstn 4 (sha256d (w :: h)))) as B'.
    change (b58_encode (w :: h ++ firstn 4 (sha256d (w :: h)))) with (b58_encode_missing_checksum (w :: h)) in B'.
    destruct (lead_split x31 s) as (t & Es & Ht). destruct (lead_split x31 (b58_encode_missing_checksum (w :: h))) as (t' & Es' & Ht').
    exists (lead x31 s), (lead x31 (b58_encode_missing_checksum (w :: h))), t. split; [assumption|]. split; [|assumption].
    assert (t = t') as ->; [|assumption].
    rewrite Es in B. rewrite Es' in B'. apply b58_num_iff in B, B'. rewrite b58_val_ones in B, B'. apply b58_num_iff in B, B'.
    rewrite <- (text_canon _ _ Ht B), <- (text_canon _ _ Ht' B'). reflexivity.
  - intros (h & m & s' & L & T & (k & k' & t & -> & -> & Ht)). exists (if m then x00 else x6f), h.
    split; [unfold addr_version; destruct m; auto|]. split; [assumption|].
    unfold address_text in T. rewrite <- sha256d_eq in T. apply b58_of_num in T. apply b58_num_iff. apply b58_num_iff in T.
    rewrite b58_val_ones in *. exact T.
Qed.

Lemma other_version s w h : length h = 20%nat -> address_text s w h -> w <> x00 -> w <> x6f ->
  addr_from_string s = Err (EAddrUnsupported s) /\ validate_address s = Err EVersion.
Proof.
  intros L T N0 N6. unfold address_text in T. rewrite <- sha256d_eq in T.
  pose proof (checksum_length (w :: h)) as Lk. set (k := firstn 4 (sha256d (w :: h))) in *. split.
  - unfold addr_from_string, address_to_pkh_str. rewrite (b58_of_decode _ _ T).
    rewrite (pkh_str_some _ _ w h k eq_refl L Lk). 
    assert (byte_eqb w x00 || byte_eqb w x6f = false) as ->; [|reflexivity].
    apply orb_false_iff. split; [destruct (byte_eqb_spec w x00)|destruct (byte_eqb_spec w x6f)]; congruence.
  - pose proof (b58_of_num _ _ T) as B. rewrite validate_plain by (eapply b58_not_script, B).
    unfold valid_a58. apply b58_num_iff in B.
    assert (length (w :: h ++ k) = 25%nat) as L25 by (cbn [length]; rewrite app_length; lia).
    assert (set58 (repeat x00 25) s = Ok (w :: h ++ k)) as ->.
    { rewrite zeros25. apply set58_spec; [reflexivity|]. exists (be_get (w :: h ++ k)). split; [assumption|].
      split; [|now rewrite be_put_unique]. pose proof (be_get_bound (w :: h ++ k)) as X. rewrite L25 in X. exact X. }
    cbn [bind]. cbn [nth].
    assert (negb (byte_eqb w x00) && negb (byte_eqb w x6f) = true) as ->; [|reflexivity].
    apply andb_true_iff. rewrite !negb_true_iff. split; [destruct (byte_eqb_spec w x00)|destruct (byte_eqb_spec w x6f)]; congruence.
Qed.
