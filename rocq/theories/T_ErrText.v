(** C94: What an error says. *)
From Verif Require Import M_Redeem S_Electrum T_Errors T_Tight3 T_Pay P_ErrText.

(** *** The text tells the error: no two errors have a text in common *)
Theorem C94_tells_cause : forall e e' t, own_text e -> own_text e' -> says e t -> says e' t -> e = e'.
Proof. intros. eapply says_inj; eassumption. Qed.
Print Assumptions C94_tells_cause.

(** every error has a text, never empty, and (but for the offset of a base64 error) just one *)
Theorem C94_has_text : forall e, own_text e -> (exists t, says e t) /\ (forall t, says e t -> t <> []) /\
  (e <> EBase64 -> e <> EBip276Invalid EBase64 -> (forall e', e <> EBip276Invalid (EBip276Invalid e')) ->
   forall t t', says e t -> says e t' -> t = t').
Proof.
  assert (forall e, own_text e -> exists t, says e t) as X.
  { intros e. induction e as [[|]| | | | | | | | | | | | | | | | | | | | | | | | | | | | | | | | | | | | |]; cbn [own_text says]; intros O; try contradiction;
      try (eexists; reflexivity).
    - destruct (IHe O) as (t & S). eexists. exists t. split; [exact S|reflexivity].
    - eexists. exists 0. reflexivity. }
  intros e O. split; [exact (X e O)|]. split.
  - intros t S ->. destruct (says_head _ _ O S) as (r & R). cbn [app] in R. destruct (tag_small _ O).
    all: revert R; destruct e as [[|]| | | | | | | | | | | | | | | | | | | | | | | | | | | | | | | | | | | | |]; cbn; intros R; try discriminate R; contradiction.
  - assert (forall e t t', own_text e -> e <> EBase64 -> (forall e', e <> EBip276Invalid e') -> says e t -> says e t' -> t = t') as U.
    { intros e1 t t' O1 N1 N2. destruct e1 as [[|]| | | | | | | | | | | | | | | | | | | | | | | | | | | | | | | | | | | | |]; cbn [own_text says] in *; try (now intros -> ->); try contradiction.
      exfalso. exact (N2 _ eq_refl). }
    intros N1 N2 N3 t t' S S'. destruct e; try (eapply U; try eassumption; intros ? H; discriminate H).
    destruct S as (s & S & ->), S' as (s' & S' & ->). do 2 f_equal. eapply (U e); try eassumption.
    + intros ->. now apply N2.
    + intros e' ->. now apply (N3 e').
Qed.
Print Assumptions C94_has_text.

(** *** An address that is refused is quoted, so that the caller of a batch of payments can tell
    which one it was *)
Theorem C94_quotes_address : forall s e x, says e x ->
  let said := x = str "invalid address length for '" ++ s ++ str "'" \/ x = str "Address " ++ s ++ str " is not supported" in
  (addr_from_string s = Err e -> said) /\
  (forall sats, output_p2pkh_from_address s sats = Err e -> said) /\
  (forall t sats, tx_pay_to t s sats = (t, Some e) -> said) /\
  (forall height value text miner, get_coinbase_parts height value [] text s miner = Err e -> said).
Proof.
  intros s e x S said. assert (address_fails s e -> said) as A.
  { intros F. destruct F; cbn [says] in S; [now left|now right]. }
  split; [intros H; apply A, C21_error_iff, H|]. split; [intros sats H; apply A; now apply (C68_error_iff s sats e)|]. split.
  - intros t sats H. apply A. apply (C68_error_iff s sats e). unfold tx_pay_to in H.
    destruct (output_p2pkh_from_address s sats); try discriminate H; injection H as H; try discriminate H. now subst.
  - intros height value text miner H. apply C47_error_iff in H as [H|(_ & N & _)]; [now apply A|now contradiction N].
Qed.
Print Assumptions C94_quotes_address.

(** so that two addresses refused with the same text are the same *)
Theorem C94_address_known : forall s s' e e' x, addr_from_string s = Err e -> addr_from_string s' = Err e' ->
  says e x -> says e' x -> s = s'.
Proof.
  intros s s' e e' x H H' S S'. apply C21_error_iff in H, H'.
  assert (e = e') as <- by (eapply C94_tells_cause; try eassumption; [destruct H|destruct H']; exact I).
  destruct H; inversion H'; reflexivity.
Qed.
Print Assumptions C94_address_known.

(** *** Hexadecimal text: the first character that is no digit is named *)
Theorem C94_names_character : forall p c r x, forallb is_hex p = true -> is_hex c = false ->
  (forall e, (script_from_hex (p ++ c :: r) = Err e \/
              (exists slack, tx_from_string slack (p ++ c :: r) = Err e) \/
              (exists sats, output_p2pkh_from_pkh (p ++ c :: r) sats = Err e)) -> says e x ->
     x = str "encoding/hex: invalid byte: " ++ code_point c) /\
  (exists e, script_from_hex (p ++ c :: r) = Err e /\ forall slack sats,
     tx_from_string slack (p ++ c :: r) = Err e /\ output_p2pkh_from_pkh (p ++ c :: r) sats = Err e).
Proof.
  intros p c r x P C. pose proof (hf_char p c r P C) as F.
  assert (forall y, hex_fails (p ++ c :: r) y -> y = HexInvalidByte c) as Q.
  { intros y Y. destruct (C68_hex_outcome (p ++ c :: r)) as [(b & _ & N)|(e0 & _ & U & _)]; [now apply N in F|].
    rewrite (U _ F). exact (U _ Y). }
  assert (script_from_hex (p ++ c :: r) = Err (EHex (HexInvalidByte c))) as SH.
  { apply (C68_error_iff _ 0). eauto. }
  assert (forall slack, tx_from_string slack (p ++ c :: r) = Err (EHex (HexInvalidByte c))) as ST.
  { intros slack. unfold script_from_hex, of_hex in SH. unfold tx_from_string, hex_decode_slice.
    destruct (hex_decode (p ++ c :: r)) as [b [y|]]; [|discriminate SH]. now injection SH as ->. }
  assert (forall sats, output_p2pkh_from_pkh (p ++ c :: r) sats = Err (EHex (HexInvalidByte c))) as SO.
  { intros sats. apply C68_error_iff. eauto. }
  split.
  - intros e H S. assert (e = EHex (HexInvalidByte c)) as ->; [|exact S].
    destruct H as [H|[(slack & H)|(sats & H)]]; [rewrite SH in H|rewrite ST in H|rewrite SO in H]; now injection H.
  - exists (EHex (HexInvalidByte c)). auto.
Qed.
Print Assumptions C94_names_character.

(** and the text tells the character *)
Theorem C94_character_known : forall c c', code_point c = code_point c' -> c = c'.
Proof. exact code_point_inj. Qed.
Print Assumptions C94_character_known.

(** How a character is written: its number in two upper-case hexadecimal digits, followed by the character in
    UTF-8 between quotes unless it is a control character, a space other than the ordinary one, or the soft hyphen. *)
Theorem C94_character_text : forall c, exists hi lo rest,
  code_point c = str "U+00" ++ [hi; lo] ++ rest /\
  hex_dec [hi; lo] = Some [c] /\ b2n hi < b2n x61 /\ b2n lo < b2n x61 /\
  (b2n c < 32 \/ (127 <= b2n c <= 160) \/ b2n c = 173 -> rest = []) /\
  (32 <= b2n c < 127 -> rest = str " '" ++ [c] ++ str "'") /\
  (160 < b2n c -> b2n c <> 173 -> exists x y, rest = str " '" ++ [x; y] ++ str "'" /\
     192 < b2n x < 224 /\ 128 <= b2n y < 192 /\ b2n c = 64 * (b2n x - 192) + (b2n y - 128)).
Proof.
  intros c. exists (upper_digit (b2n c / 16)), (upper_digit (b2n c mod 16)), (if printable c then str " '" ++ utf8 c ++ str "'" else []).
  split; [reflexivity|].
  split; [destruct c; vm_compute; reflexivity|]. split; [destruct c; vm_compute; reflexivity|]. split; [destruct c; vm_compute; reflexivity|].
  pose proof (b2n_lt c). unfold printable. split; [|split].
  - intros H1. replace (_ || _) with false by lia. reflexivity.
  - intros H1. replace (_ || _) with true by lia. unfold utf8. replace (b2n c <? 128) with true by lia. reflexivity.
  - intros H1 H2. replace (_ || _) with true by lia. unfold utf8. replace (b2n c <? 128) with false by lia.
    assert (b2n c / 64 < 4 /\ 2 <= b2n c / 64 /\ b2n c mod 64 < 64 /\ b2n c = 64 * (b2n c / 64) + b2n c mod 64) as (A & B & C & D).
    { split; [apply N.div_lt_upper_bound; lia|]. split; [apply N.div_le_lower_bound; lia|]. split; [apply N.mod_lt; lia|]. apply N.div_mod. lia. }
    exists (n2b (192 + b2n c / 64)), (n2b (128 + b2n c mod 64)). split; [reflexivity|]. rewrite !b2n_n2b_small by lia. lia.
Qed.
Print Assumptions C94_character_text.


(** *** ApplyUnlockingScript names the index it was given *)
Theorem C94_names_input : forall t n u e x, apply_unlocking_script t n u = Err e -> says e x ->
  x = str "no input at index " ++ dec n.
Proof.
  intros t n u e x H S. unfold apply_unlocking_script in H. destruct (nth_error (inputs t) (N.to_nat n)) as [[i|]|]; cbn [or_panic bind] in H; try discriminate H.
  injection H as <-. exact S.
Qed.
Print Assumptions C94_names_input.

(** *** MerkleRootFromBranches names what is left of the index, not the index *)
Theorem C94_proof_index : forall s i brs x, Forall (fun h => hex_dec h <> None) (s :: brs) -> (2 ^ Z.of_nat (length brs) <= i)%Z ->
  exists e, merkle_root_from_branches s i brs = Err e /\
    (says e x <-> x = str "index " ++ decz (i / 2 ^ Z.of_nat (length brs)) ++ str " out of range for proof of length " ++ dec (nlen brs)).
Proof. intros s i brs x F I. eexists. split; [apply C44_error_iff, pf_index; assumption|]. reflexivity. Qed.
Print Assumptions C94_proof_index.

(** the index the caller gave is in the text only if the proof is empty *)
Theorem C94_names_index_refuted : forall s i brs e x, brs <> [] -> merkle_root_from_branches s i brs = Err e -> says e x ->
  x <> str "index " ++ decz i ++ str " out of range for proof of length " ++ dec (nlen brs).
Proof.
  intros s i brs e x N H S E. assert (says (EIndexRange i (nlen brs)) x) as S' by exact E.
  apply C44_error_iff in H. assert (own_text e) as O by (destruct H; exact I).
  pose proof (C94_tells_cause e (EIndexRange i (nlen brs)) x O I S S') as ->. inversion H as [|F L Q]. rewrite Q in L.
  assert (1 <= length brs)%nat as P by (destruct brs; [contradiction|cbn [length]; lia]).
  assert (2 <= 2 ^ Z.of_nat (length brs))%Z as B by (change 2%Z with (2 ^ 1)%Z at 1; apply Z.pow_le_mono_r; lia).
  pose proof (Z.div_lt i (2 ^ Z.of_nat (length brs))) as D. lia.
Qed.
Print Assumptions C94_names_index_refuted.

(** *** Transactions: the text says what is missing *)
Theorem C94_tx_texts : forall v e x, (Z.of_nat (length v) < 2 ^ 62)%Z -> tx_from_bytes v = Err e -> says e x ->
  In x [str "too short to be a tx - even an empty tx has 10 bytes"; str "input length too short < 36"; str "input length too short < 36 + script + 4";
        str "output length too short < 8"; str "output length too short < 8 + script"; str "nLockTime length must be 4 bytes long"].
Proof.
  intros v e x L H S. apply C28_error_iff in H; [|exact L]. destruct H as [? ?| ? ? ? ? ? e ? ? ? ? ? F| ? ? ? ? ? ? ? ? e ? ? ? ? ? ? ? ? F|];
    try (destruct F); cbn [says] in S; subst x; cbn [In]; tauto.
Qed.
Print Assumptions C94_tx_texts.
Theorem C94_tx_text_iff : forall v e x, (Z.of_nat (length v) < 2 ^ 62)%Z -> own_text e -> says e x ->
  ((exists e', tx_from_bytes v = Err e' /\ says e' x) <-> tx_fails v e).
Proof.
  intros v e x L O S. split.
  - intros (e' & H & S'). apply C28_error_iff in H; [|exact L].
    assert (own_text e') as O'. { destruct H as [? ?| ? ? ? ? ? e' ? ? ? ? ? F| ? ? ? ? ? ? ? ? e' ? ? ? ? ? ? ? ? F|]; try (destruct F); exact I. }
    now rewrite (C94_tells_cause _ _ _ O O' S S').
  - intros F. exists e. split; [apply C28_error_iff; assumption|exact S].
Qed.
Print Assumptions C94_tx_text_iff.

(** *** Addresses: the text of ValidateAddress *)
Theorem C94_validate_texts : forall s e x, validate_address s = Err e -> says e x ->
  In x [str "bad char"; str "too long"; str "not version 0 or 6f"; str "checksum failed";
        str "bitcoin-script invalid [Invalid checksum]"; str "bitcoin-script invalid [encoding/hex: odd length hex string]"].
Proof.
  intros s e x H S.
  assert ((exists t, s = str "bitcoin-script:" ++ t) \/ ~ exists t, s = str "bitcoin-script:" ++ t) as [(t & ->)|N].
  { assert (forall p s : bytes, (exists t, s = p ++ t) \/ ~ exists t, s = p ++ t) as D; [|apply D].
    intros p. induction p as [|b p IH]; intros s0; [left; exists s0; reflexivity|]. destruct s0 as [|b' s0]; [right; intros (t & T); discriminate T|].
    destruct (byte_eqb_spec b b') as [->|N]; [|right; intros (t & T); injection T as -> _; now apply N].
    destruct (IH s0) as [(t & ->)|M]; [left; now exists t|right; intros (t & T); injection T as ->; apply M; now exists t]. }
  - apply C24_validate_error in H as (e' & D & ->). apply C24_error_iff in D as (? & ? & ? & ? & ? & ? & ? & _ & [[_ ->]|(? & _ & -> & _)]);
      destruct S as (t' & S & ->); cbn [says] in S; subst t'; cbn [In]; tauto.
  - apply C20_error_iff in H; [|exact N]. destruct H; cbn [says] in S; subst x; cbn [In]; tauto.
Qed.
Print Assumptions C94_validate_texts.

(** *** A script whose first element is no number at all is refused with "More than 15 signatures" *)
Theorem C94_threshold_refuted : forall H s bs c t r, hex_dec s = Some bs -> safe_elems bs ((c :: t) :: r) -> b2n c < 80 ->
  exists e, redeem_from_electrum H s = Err e /\ says e (str "More than 15 signatures is not supported").
Proof.
  intros H s bs c t r D E C. exists ESigsMax15. split; [|reflexivity]. apply C58_error_iff. right. exists bs, ((c :: t) :: r).
  split; [exact D|]. split; [exact E|]. apply ef_max. now left.
Qed.
Print Assumptions C94_threshold_refuted.

Example C94_example :
  says (EHex (HexInvalidByte x67)) (str "encoding/hex: invalid byte: U+0067 'g'") /\
  says (EHex (HexInvalidByte x0a)) (str "encoding/hex: invalid byte: U+000A") /\
  says (EHex (HexInvalidByte xe9)) (str "encoding/hex: invalid byte: U+00E9 'é'") /\
  says (EAddrLength (str "ADD8E55")) (str "invalid address length for 'ADD8E55'") /\
  says (EBip276Invalid EBip276Checksum) (str "bitcoin-script invalid [Invalid checksum]") /\
  (exists e, merkle_root_from_branches (str "00") 1000 [str "01"; str "02"] = Err e /\
     says e (str "index 250 out of range for proof of length 2")) /\
  (exists e, redeem_from_electrum no_hd (str "0051ae") = Err e /\ says e (str "More than 15 signatures is not supported")).
Proof.
  split; [reflexivity|]. split; [reflexivity|]. split; [reflexivity|]. split; [reflexivity|]. split; [eexists; split; reflexivity|]. split.
  - eexists. split; [vm_compute; reflexivity|]. reflexivity.
  - eexists. split; [vm_compute; reflexivity|]. reflexivity.
Qed.
Print Assumptions C94_example.
