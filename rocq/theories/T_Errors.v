(** Error reports, exactly (C20, C21, C24, C25, C26, C28). *)
From Verif Require Export P_Errors P_Bip276 P_Pay S_Pay.
From Coq Require Import ZifyBool ZifyNat ZifyN.

(** *** C20: which error ValidateAddress reports for each text it refuses *)
Theorem C20_error_iff : forall s e, ~ (exists t, s = str "bitcoin-script:" ++ t) ->
  (validate_address s = Err e <-> validate_fails s e).
Proof. intros s e H. rewrite validate_plain by assumption. apply valid_a58_err. Qed.

Example C20_error_example :
  validate_fails (str "114ZWApV4EEU8frr7zygqQcB1V2BodGZu0") EBadChar /\
  validate_fails (repeat x7a 40) ETooLong /\ validate_fails (str "2") EChecksum.
Proof.
  split; [|split]; apply valid_a58_err; vm_compute; reflexivity.
Qed.

(** *** C21: which error NewFromString reports for each text it refuses *)
Theorem C21_error_iff : forall s e, addr_from_string s = Err e <-> address_fails s e.
Proof. exact address_err. Qed.

Example C21_error_example : address_fails (str "ADD8E55") (EAddrLength (str "ADD8E55")) /\
  address_fails (repeat x7a 34) (EAddrUnsupported (repeat x7a 34)).
Proof. split; apply address_err; vm_compute; reflexivity. Qed.

(** *** C24: which error DecodeBIP276 reports *)
Theorem C24_error_iff : forall text e, decode_bip276 text = Err e <->
  exists p a b c d h k, bip276_text text p a b c d h k /\
    ((Nat.odd (length h) = true /\ e = EHex HexErrLength) \/
     (exists data, hex_dec h = Some data /\ e = EBip276Checksum /\
        k <> hex_encode (firstn 4 (sha256d (p ++ x3a :: hex2 (dec2 c d) ++ hex2 (dec2 a b) ++ hex_encode data))))).
Proof.
  intros text e. split.
  - intros E. destruct (text_dec text) as [(p & a & b & c & d & h & k & T)|N].
    2:{ rewrite (decode_no_text _ N) in E. discriminate. }
    exists p, a, b, c, d, h, k. split; [exact T|]. rewrite (decode_text _ _ _ _ _ _ _ _ T) in E.
    assert (forallb is_hex h = true) as X.
    { destruct T as (_ & _ & _ & _ & _ & _ & _ & _ & _ & X). rewrite forallb_app in X. apply andb_true_iff in X. tauto. }
    destruct (all_hex_decode h X) as [(O & dd & D)|(O & data & D)]; rewrite D in E.
    + left. injection E as <-. auto.
    + right. exists data. unfold hex_dec. rewrite D. split; [reflexivity|].
      match type of E with (if bytes_eqb k ?y then _ else _) = _ => set (z := y) in * end.
      destruct (bytes_eqb k z) eqn:Q; [discriminate|]. injection E as <-. split; [reflexivity|].
      intros K. change (k = z) in K. subst k. rewrite bytes_eqb_refl in Q. discriminate.
  - intros (p & a & b & c & d & h & k & T & H). rewrite (decode_text _ _ _ _ _ _ _ _ T).
    assert (forallb is_hex h = true) as X.
    { destruct T as (_ & _ & _ & _ & _ & _ & _ & _ & _ & X). rewrite forallb_app in X. apply andb_true_iff in X. tauto. }
    destruct (all_hex_decode h X) as [(O & dd & D)|(O & data & D)]; rewrite D.
    + destruct H as [(_ & ->)|(data' & D' & _)]; [reflexivity|]. unfold hex_dec in D'. rewrite D in D'. discriminate.
    + destruct H as [(O' & _)|(data' & D' & -> & K)]; [congruence|].
      unfold hex_dec in D'. rewrite D in D'. injection D' as <-.
      match goal with |- (if bytes_eqb k ?y then _ else _) = _ => set (z := y) in * end.
      destruct (bytes_eqb k z) eqn:Q; [|reflexivity]. apply bytes_eqb_eq in Q. exfalso. apply K. exact Q.
Qed.

(** ... and ValidateAddress on a text with the BIP276 prefix wraps it *)
Theorem C24_validate_error : forall t e, let s := str "bitcoin-script:" ++ t in
  (validate_address s = Err e <-> exists e', decode_bip276 s = Err e' /\ e = EBip276Invalid e').
Proof.
  intros t e s. unfold validate_address.
  assert (has_prefix (str "bitcoin-script:") s = true) as -> by (apply has_prefix_iff; exists t; reflexivity).
  destruct (decode_bip276 s) as [r|e'|]; split; try discriminate.
  - intros (e' & H & _). discriminate.
  - intros H. injection H as <-. eauto.
  - intros (e2 & H & ->). injection H as ->. reflexivity.
  - intros (e' & H & _). discriminate.
Qed.

(** *** C25, C26, C28: which error the transaction parsers report *)
Theorem C25_error_iff : forall v e, (Z.of_nat (length v) < 2 ^ 62)%Z ->
  (input_from_bytes (Sl v []) = Err e <-> input_fails v e).
Proof. exact input_err. Qed.

Theorem C26_error_iff : forall v e, (Z.of_nat (length v) < 2 ^ 62)%Z ->
  (output_from_bytes (Sl v []) = Err e <-> output_fails v e).
Proof. exact output_err. Qed.

Theorem C28_error_iff : forall v e, (Z.of_nat (length v) < 2 ^ 62)%Z ->
  (tx_from_bytes v = Err e <-> tx_fails v e).
Proof. exact tx_err. Qed.

Example C28_error_example :
  input_fails [x01] EInputShort36 /\ output_fails (repeat x00 8 ++ [x02; x51]) EOutputShort /\
  tx_fails (repeat x00 9) ETxShort /\
  tx_fails (map n2b [1;0;0;0; 1; 0;0;0;0;0;0]) EInputShort36 /\
  tx_fails (map n2b [1;0;0;0; 0; 1; 0;0;0;0;0;0;0;0; 3; 81]) EOutputShort /\
  tx_fails (map n2b [1;0;0;0; 0; 0; 0;0;0;0;0]) ELockTime.
Proof.
  split; [apply input_err; vm_compute; reflexivity|]. split; [apply output_err; vm_compute; reflexivity|].
  split; [apply tx_err; vm_compute; reflexivity|]. split; [apply tx_err; vm_compute; reflexivity|].
  split; apply tx_err; vm_compute; reflexivity.
Qed.

(** *** C44: which error MerkleRootFromBranches reports *)
Theorem C44_error_iff : forall s i brs e, merkle_root_from_branches s i brs = Err e <-> proof_fails s i brs e.
Proof. exact proof_err. Qed.

Example C44_error_example : proof_fails (str "00") 0 [str "01"; str "0g"; str "h"] (EHex (HexInvalidByte x67)) /\
  proof_fails (str "00") 2 [str "01"] (EIndexRange 1 1).
Proof.
  split.
  - apply (pf_hex _ _ _ [str "00"; str "01"] (str "0g") [str "h"]); [reflexivity|repeat constructor; discriminate|].
    apply (hf_char [x30] x67 []); reflexivity.
  - apply pf_index; [repeat constructor; discriminate|cbn; lia].
Qed.

(** *** C46: the header, for any arguments: the version as 4 little-endian
    bytes, the reversed bytes of what can be read of the previous hash (all of
    it if it is hexadecimal, else the digit pairs before the first problem), and
    the four other arguments as they are *)
Theorem C46_bytes : forall ver prev root time bits nonce,
  exists v p, build_block_header ver prev root time bits nonce = v ++ rev p ++ root ++ time ++ bits ++ nonce /\
    length v = 4%nat /\ le_get v = ver mod 2 ^ 32 /\ hex_ignore prev = p /\
    (forall d, hex_dec prev = Some d -> p = d).
Proof.
  intros ver prev root time bits nonce. exists (le_put 4 ver), (hex_ignore prev).
  unfold build_block_header. rewrite reverse_bytes_rev. cbn [app]. rewrite <- !app_assoc. split; [reflexivity|].
  split; [apply le_put_length|]. split; [rewrite le_get_put; reflexivity|]. split; [reflexivity|].
  intros d H. now apply hex_dec_ignore.
Qed.

Example C46_bytes_example :
  build_block_header (2 ^ 32 + 5) (str "0102zz") [x09] [] [x08] [] = map n2b [5; 0; 0; 0; 2; 1; 9; 8].
Proof. reflexivity. Qed.

(** *** C47: GetCoinbaseParts fails exactly for a wallet NewFromString refuses or
    a witness text that is not hexadecimal; the wallet is looked at first *)
Theorem C47_error_iff : forall height value witness text wallet miner e,
  get_coinbase_parts height value witness text wallet miner = Err e <->
  address_fails wallet e \/
  ((exists a, addr_from_string wallet = Ok a) /\ witness <> [] /\ exists x, hex_fails witness x /\ e = EHex x).
Proof. exact parts_err. Qed.

(** *** C68: which error the hexadecimal and address constructors report *)
Theorem C68_error_iff : forall s sats e,
  (script_from_hex s = Err e <-> exists x, hex_fails s x /\ e = EHex x) /\
  (output_p2pkh_from_pkh s sats = Err e <-> exists x, hex_fails s x /\ e = EHex x) /\
  (output_p2pkh_from_address s sats = Err e <-> address_fails s e).
Proof.
  intros s sats e. split; [|split].
  - unfold script_from_hex. rewrite of_hex_err. split; intros (x & A & B); eauto.
  - assert (output_p2pkh_from_pkh s sats = Err e <-> of_hex s = Err e) as ->.
    { unfold output_p2pkh_from_pkh, p2pkh_from_pkh_str. destruct (of_hex s) as [b|e'|]; cbn [bind].
      - split; discriminate.
      - split; intros H; injection H as ->; reflexivity.
      - split; discriminate. }
    rewrite of_hex_err. split; intros (x & A & B); eauto.
  - apply output_address_err.
Qed.

(** hexadecimal text is decoded or has exactly one of the two defects *)
Theorem C68_hex_outcome : forall s, (exists b, hex_text s b /\ forall e, ~ hex_fails s e) \/
  (exists e, hex_fails s e /\ (forall e', hex_fails s e' -> e' = e) /\ forall b, ~ hex_text s b).
Proof.
  intros s. destruct (hex_decode s) as [d [e|]] eqn:D.
  - right. exists e. assert (hex_fails s e) as F by (apply hex_fails_iff; eauto). split; [assumption|]. split.
    + intros e' H. apply hex_fails_iff in H as (d' & H). congruence.
    + intros b H. apply hex_text_iff in H. unfold hex_dec in H. rewrite D in H. discriminate.
  - left. exists d. split; [apply hex_text_iff; unfold hex_dec; now rewrite D|].
    intros e H. apply hex_fails_iff in H as (d' & H). congruence.
Qed.

Example C68_error_example : hex_fails (str "0g1") (HexInvalidByte x67) /\ hex_fails (str "012") HexErrLength /\
  script_from_hex (str "0g1") = Err (EHex (HexInvalidByte x67)).
Proof.
  split; [apply (hf_char [x30] x67 [x31]); reflexivity|]. split; [apply hf_odd; reflexivity|reflexivity].
Qed.

Example C47_error_example : address_fails (str "1") (EAddrLength (str "1")) /\
  get_coinbase_parts 1 2 (str "0") [] (str "1") [] = Err (EAddrLength (str "1")) /\
  get_coinbase_parts 1 2 (str "0") [] (str "114ZWApV4EEU8frr7zygqQcB1V2BodGZuS") [] = Err (EHex HexErrLength).
Proof.
  split; [apply address_err; vm_compute; reflexivity|]. split; vm_compute; reflexivity.
Qed.

Print Assumptions C20_error_iff.
Print Assumptions C21_error_iff.
Print Assumptions C24_error_iff.
Print Assumptions C24_validate_error.
Print Assumptions C25_error_iff.
Print Assumptions C26_error_iff.
Print Assumptions C28_error_iff.
Print Assumptions C44_error_iff.
Print Assumptions C46_bytes.
Print Assumptions C47_error_iff.
Print Assumptions C68_error_iff.
Print Assumptions C68_hex_outcome.
