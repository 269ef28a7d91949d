(** Property theorems C67, C68: payments to addresses, hexadecimal constructors. *)
From Verif Require Import P_Pay P_Redeem P_Push.
From Coq Require Import ZifyBool ZifyNat ZifyN.

(** ** C67: which payment a string asks for *)

(** A string that passes both ValidateAddress and NewFromString is the standard text
    of a hash and a network, and that hash is the one returned. *)
Theorem C67_checked_address : forall s a, (validate_address s = Ok tt /\ addr_from_string s = Ok a) <->
  exists h mainnet, length h = 20%nat /\ address_text s (if (mainnet : bool) then x00 else x6f) h /\ a = mk_addr s (hex_encode h).
Proof. intros s a. rewrite <- both_accept. tauto. Qed.
Print Assumptions C67_checked_address.

(** ... and there is only one such text: the one NewFromPublicKeyHash makes *)
Theorem C67_text_unique : forall s h mainnet, length h = 20%nat ->
  (address_text s (if (mainnet : bool) then x00 else x6f) h <-> s = addr_string (addr_from_pkh h mainnet)).
Proof. intros s h m L. rewrite sum_text. unfold addr_from_pkh. reflexivity. Qed.
Print Assumptions C67_text_unique.

(** So a payment after both checks goes to the hash whose address the string is. *)
Theorem C67_checked_payment : forall t s sats t', validate_address s = Ok tt -> tx_pay_to t s sats = (t', None) ->
  exists h mainnet, length h = 20%nat /\ s = addr_string (addr_from_pkh h mainnet) /\
    t' = tx_add_output t (Some (mk_out sats (Some (p2pkh h)))).
Proof.
  intros t s sats t' V P. destruct (addr_from_string s) as [a|e|] eqn:A.
  - assert (validate_address s = Ok tt /\ addr_from_string s = Ok a) as B by auto.
    apply C67_checked_address in B as (h & m & L & T & ->). exists h, m. split; [assumption|]. split; [now apply C67_text_unique|].
    unfold tx_pay_to in P. rewrite (pay_to_ok _ _ _ h A eq_refl) in P. injection P as <-. reflexivity.
  - exfalso. destruct (p2pkh_address_err s) as [e' E]; [intros a; rewrite A; discriminate|].
    unfold tx_pay_to, output_p2pkh_from_address in P. rewrite E in P. discriminate.
  - now apply addr_from_string_no_panic in A.
Qed.
Print Assumptions C67_checked_payment.

(** PayTo alone, exactly: any 4 bytes in the place of the checksum do *)
Theorem C67_payment_iff : forall t s sats t', tx_pay_to t s sats = (t', None) <->
  exists w h k, b58_of s (w :: h ++ k) /\ length h = 20%nat /\ length k = 4%nat /\ addr_version w /\
    t' = tx_add_output t (Some (mk_out sats (Some (p2pkh h)))).
Proof.
  intros t s sats t'. split.
  - intros P. destruct (addr_from_string s) as [a|e|] eqn:A.
    + pose proof A as A'. apply addr_from_string_iff in A' as (w & h & k & O & Lh & Lk & W & ->).
      exists w, h, k. unfold tx_pay_to in P. rewrite (pay_to_ok _ _ _ h A eq_refl) in P. injection P as <-. auto.
    + exfalso. destruct (p2pkh_address_err s) as [e' E]; [intros a; rewrite A; discriminate|].
      unfold tx_pay_to, output_p2pkh_from_address in P. rewrite E in P. discriminate.
    + now apply addr_from_string_no_panic in A.
  - intros (w & h & k & O & Lh & Lk & W & ->).
    assert (addr_from_string s = Ok (mk_addr s (hex_encode h))) as A by (apply addr_from_string_iff; exists w, h, k; auto).
    unfold tx_pay_to. now rewrite (pay_to_ok _ _ _ h A eq_refl).
Qed.
Print Assumptions C67_payment_iff.

(** ValidateAddress accepts exactly the standard texts with any number of leading '1's *)
Theorem C67_validate_iff_ones : forall s, ~ (exists t, s = str "bitcoin-script:" ++ t) ->
  (validate_address s = Ok tt <->
   exists h mainnet, length h = 20%nat /\ same_but_ones s (addr_string (addr_from_pkh h mainnet))).
Proof.
  intros s N. rewrite (valid_iff_ones s N). split.
  - intros (h & m & s' & L & T & O). exists h, m. split; [assumption|]. apply C67_text_unique in T; [|assumption]. now subst s'.
  - intros (h & m & L & O). exists h, m, (addr_string (addr_from_pkh h m)). split; [assumption|]. split; [|assumption]. now apply C67_text_unique.
Qed.
Print Assumptions C67_validate_iff_ones.

(** The address text of a redeem script (version 05) is refused by the library itself:
    it cannot be parsed, validated or paid to. *)
Theorem C67_script_address_refused : forall rs t sats, let s := fst (redeem_get_address rs) in
  address_text s x05 (hash160 (fst (get_redeem_script rs))) /\
  addr_from_string s = Err (EAddrUnsupported s) /\ validate_address s = Err EVersion /\
  tx_pay_to t s sats = (t, Some (EAddrUnsupported s)).
Proof.
  intros rs t sats s.
  assert (address_text s x05 (hash160 (fst (get_redeem_script rs)))) as T.
  { unfold s, redeem_get_address, address_text. destruct (get_redeem_script rs) as [b r]. cbn [fst]. rewrite <- sha256d_eq. apply b58_encode_of. }
  assert (addr_from_string s = Err (EAddrUnsupported s) /\ validate_address s = Err EVersion) as [A V].
  { eapply other_version; [apply hash160_length|exact T|discriminate|discriminate]. }
  split; [exact T|]. split; [exact A|]. split; [exact V|].
  unfold tx_pay_to, output_p2pkh_from_address, p2pkh_from_address. rewrite A. reflexivity.
Qed.
Print Assumptions C67_script_address_refused.

(** other versions likewise *)
Theorem C67_other_versions_refused : forall s w h, length h = 20%nat -> address_text s w h -> ~ addr_version w ->
  addr_from_string s = Err (EAddrUnsupported s) /\ validate_address s = Err EVersion.
Proof. intros s w h L T N. eapply other_version; try eassumption; intros ->; apply N; unfold addr_version; auto. Qed.
Print Assumptions C67_other_versions_refused.

Example C67_example :
  let s := addr_string (addr_from_pkh (repeat x07 20) true) in
  (exists a, validate_address s = Ok tt /\ addr_from_string s = Ok a) /\
  fst (redeem_get_address (mk_rs 2 [[x02; x01]; [x03; x01]])) = str "3GPs7dPiRxAnbFJNxNP3ZXgepuFkNsrFhq" /\
  same_but_ones (str "11" ++ s) s.
Proof.
  cbv zeta. split; [|split].
  - eexists. split; vm_compute; reflexivity.
  - vm_compute. reflexivity.
  - exists 3%nat, 1%nat. eexists. split; [vm_compute; reflexivity|]. split; [vm_compute; reflexivity|]. cbn. discriminate.
Qed.

(** ** C68: hexadecimal constructors *)

(** script.NewFromHexString accepts exactly hexadecimal text; ToString writes it *)
Theorem C68_script_from_hex : forall s b, script_from_hex s = Ok b <-> hex_text s b.
Proof. intros s b. unfold script_from_hex. rewrite of_hex_ok. apply hex_text_iff. Qed.
Print Assumptions C68_script_from_hex.

Theorem C68_script_round_trip : forall b, script_from_hex (script_to_string b) = Ok b /\ hex_text (script_to_string b) b.
Proof. intros b. unfold script_to_string. split; [apply C68_script_from_hex, hex_text_encode|apply hex_text_encode]. Qed.
Print Assumptions C68_script_round_trip.

Theorem C68_hex_unique : forall s s' b b', hex_text s b -> hex_text s b' -> b = b' /\ (hex_text s' b -> length s' = length s).
Proof.
  intros s s' b b' H H'. apply hex_text_iff in H, H'. split; [congruence|]. intros H2. apply hex_text_iff in H2.
  apply hex_dec_length in H, H2. congruence.
Qed.
Print Assumptions C68_hex_unique.

(** DecodeStringParts *)
Theorem C68_decode_string_parts : forall s,
  (forall b, hex_text s b -> decode_string_parts s = decode_parts b) /\
  ((forall b, ~ hex_text s b) -> exists e, decode_string_parts s = Err (EHex e)).
Proof.
  intros s. unfold decode_string_parts. split.
  - intros b H. apply hex_text_iff, of_hex_ok in H. now rewrite H.
  - intros N. destruct (of_hex_text s) as [(b & H & _)|(_ & e & ->)]; [now apply N in H|]. exists e. reflexivity.
Qed.
Print Assumptions C68_decode_string_parts.

(** The output constructors: what they make and when they fail. The hash is not
    checked for its length: with another length the output is not P2PKH. *)
Theorem C68_output_from_pkh : forall s sats o, output_p2pkh_from_pkh s sats = Ok o <->
  exists h, hex_text s h /\ o = mk_out sats (Some (p2pkh h)).
Proof.
  intros s sats o. unfold output_p2pkh_from_pkh. split.
  - intros H. destruct (hex_dec s) as [h|] eqn:E.
    + rewrite (p2pkh_pkh_str _ _ E) in H. cbn [bind] in H. injection H as <-. exists h. split; [now apply hex_text_iff|reflexivity].
    + unfold p2pkh_from_pkh_str in H. destruct (of_hex s) as [h|e|] eqn:Q; [|discriminate|discriminate]. apply of_hex_ok in Q. congruence.
  - intros (h & H & ->). apply hex_text_iff in H. now rewrite (p2pkh_pkh_str _ _ H).
Qed.
Print Assumptions C68_output_from_pkh.

Theorem C68_output_from_address : forall s sats o, output_p2pkh_from_address s sats = Ok o <->
  exists w h k, b58_of s (w :: h ++ k) /\ length h = 20%nat /\ length k = 4%nat /\ addr_version w /\ o = mk_out sats (Some (p2pkh h)).
Proof.
  intros s sats o. pose proof (C67_payment_iff tx_new s sats) as P. unfold tx_pay_to in P.
  destruct (output_p2pkh_from_address s sats) as [o'|e|] eqn:E.
  - split.
    + intros H. injection H as <-. destruct (proj1 (P _) eq_refl) as (w & h & k & O & Lh & Lk & W & T). exists w, h, k.
      unfold tx_add_output in T. cbn in T. injection T as ->. auto.
    + intros (w & h & k & O & Lh & Lk & W & ->).
      assert ((tx_add_output tx_new (Some o'), @None err) = (tx_add_output tx_new (Some (mk_out sats (Some (p2pkh h)))), None)) as X.
      { apply P. exists w, h, k. auto. }
      injection X as ->. reflexivity.
  - split; [discriminate|]. intros (w & h & k & O & Lh & Lk & W & ->).
    assert ((tx_new, Some e) = (tx_add_output tx_new (Some (mk_out sats (Some (p2pkh h)))), None)) as X by (apply P; exists w, h, k; auto). discriminate.
  - split; [discriminate|]. intros (w & h & k & O & Lh & Lk & W & ->). exfalso.
    assert (addr_from_string s = Ok (mk_addr s (hex_encode h))) as A by (apply addr_from_string_iff; exists w, h, k; auto).
    rewrite (pay_to_ok _ _ _ h A eq_refl) in E. discriminate.
Qed.
Print Assumptions C68_output_from_address.

(** the three ways to name a recipient agree *)
Theorem C68_same_output : forall pub sats mainnet,
  let o := mk_out sats (Some (p2pkh (hash160 pub))) in
  output_p2pkh_from_pkh (hex_encode (hash160 pub)) sats = Ok o /\
  output_p2pkh_from_address (addr_string (addr_from_pubkey pub mainnet)) sats = Ok o /\
  p2pkh_from_pubkey_bytes pub = p2pkh (hash160 pub) /\
  p2pkh_from_pubkey_str (hex_encode pub) = Ok (p2pkh (hash160 pub)) /\
  output_script_hex o = Ok (hex_encode (p2pkh (hash160 pub))) /\
  get_public_key_hash (locking o) = Ok (hash160 pub).
Proof.
  intros pub sats m o. split; [|split; [|split; [|split; [|split]]]].
  - apply C68_output_from_pkh. exists (hash160 pub). split; [apply hex_text_encode|reflexivity].
  - destruct (addr_round (hash160 pub) m (hash160_length pub)) as [A _].
    change (addr_from_pubkey pub m) with (addr_from_pkh (hash160 pub) m). eapply pay_to_ok; [exact A|reflexivity].
  - apply p2pkh_pubkey_bytes.
  - apply p2pkh_pubkey_str. exists pub. split; [apply hex_dec_encode|reflexivity].
  - reflexivity.
  - apply gpkh_p2pkh, hash160_length.
Qed.
Print Assumptions C68_same_output.

(** input.NewFromUTXO and the defaults of input.New *)
Theorem C68_input_from_utxo : forall txid index sats script seq i, input_from_utxo txid index sats script seq = Ok i <->
  exists b, hex_text script b /\ i = mk_in txid index sats (Some b) None seq.
Proof.
  intros txid index sats script seq i. unfold input_from_utxo, script_from_hex. split.
  - destruct (of_hex script) as [b|e|] eqn:E; try discriminate. cbn [bind]. intros H. injection H as <-.
    exists b. split; [apply hex_text_iff, of_hex_ok, E|reflexivity].
  - intros (b & H & ->). apply hex_text_iff, of_hex_ok in H. now rewrite H.
Qed.
Print Assumptions C68_input_from_utxo.

Theorem C68_no_panic : forall s sats txid index seq,
  script_from_hex s <> Panic /\ output_p2pkh_from_pkh s sats <> Panic /\ output_p2pkh_from_address s sats <> Panic /\
  input_from_utxo txid index sats s seq <> Panic.
Proof.
  intros s sats txid index seq. split; [apply of_hex_no_panic|]. split; [|split].
  - unfold output_p2pkh_from_pkh, p2pkh_from_pkh_str. pose proof (of_hex_no_panic s). destruct (of_hex s); [discriminate|discriminate|contradiction].
  - intros E. destruct (addr_from_string s) as [a|e|] eqn:A.
    + pose proof A as A'. apply addr_from_string_iff in A' as (w & h & k & _ & _ & _ & _ & ->).
      rewrite (pay_to_ok _ _ _ h A eq_refl) in E. discriminate.
    + destruct (p2pkh_address_err s) as [e' Q]; [intros a; rewrite A; discriminate|]. unfold output_p2pkh_from_address in E. rewrite Q in E. discriminate.
    + now apply addr_from_string_no_panic in A.
  - unfold input_from_utxo, script_from_hex. pose proof (of_hex_no_panic s). destruct (of_hex s); [discriminate|discriminate|contradiction].
Qed.
Print Assumptions C68_no_panic.

Example C68_example :
  hex_text (str "76A9fF") [x76; xa9; xff] /\
  script_from_hex (str "76A9fF") = Ok [x76; xa9; xff] /\ script_to_string [x76; xa9; xff] = str "76a9ff" /\
  output_p2pkh_from_pkh (str "0102") 7 = Ok (mk_out 7 (Some (map n2b [0x76; 0xa9; 0x14; 1; 2; 0x88; 0xac]))) /\
  decode_string_parts (str "02ab") = Err ENotEnough.
Proof. split; [apply hex_text_iff; reflexivity|]. split; [reflexivity|]. split; [reflexivity|]. split; vm_compute; reflexivity. Qed.
