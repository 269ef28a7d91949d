(** Proofs for C94. *)
From Verif Require Export S_ErrText.
From Coq Require Import DecimalString DecimalN DecimalPos DecimalFacts Ascii.

(** ** decimal text *)
Definition is_digit (c : byte) : bool := (48 <=? b2n c) && (b2n c <=? 57).
Lemma str_cons c s : str (String.String c s) = byte_of_ascii c :: str s.
Proof. reflexivity. Qed.
Lemma str_inj a b : str a = str b -> a = b.
Proof.
  revert b. induction a as [|c a IH]; intros [|c' b]; rewrite ?str_cons; try discriminate; [reflexivity|].
  intros H. injection H as H1 H2. apply IH in H2 as ->. f_equal.
  rewrite <- (ascii_of_byte_of_ascii c), <- (ascii_of_byte_of_ascii c'). now rewrite H1.
Qed.
Lemma dec_inj a b : dec a = dec b -> a = b.
Proof.
  unfold dec. intros H. apply str_inj in H. apply (f_equal NilEmpty.uint_of_string) in H.
  rewrite !NilEmpty.usu in H. injection H as H. now apply DecimalN.Unsigned.to_uint_inj.
Qed.
Lemma uint_digits d : forallb is_digit (str (NilEmpty.string_of_uint d)) = true.
Proof. induction d; cbn [NilEmpty.string_of_uint]; rewrite ?str_cons; cbn [forallb]; try reflexivity; rewrite IHd; reflexivity. Qed.
Lemma dec_digits n : forallb is_digit (dec n) = true.
Proof. apply uint_digits. Qed.
Lemma decz_inj a b : decz a = decz b -> a = b.
Proof.
  unfold decz. destruct (Z.ltb_spec a 0), (Z.ltb_spec b 0); intros E.
  - apply app_inv_head in E. apply dec_inj in E. lia.
  - pose proof (dec_digits (Z.to_N b)) as D. rewrite <- E in D. discriminate D.
  - pose proof (dec_digits (Z.to_N a)) as D. rewrite E in D. discriminate D.
  - apply dec_inj in E. lia.
Qed.
Lemma decz_no_space z : ~ In x20 (decz z).
Proof.
  unfold decz. assert (forall n, ~ In x20 (dec n)) as D.
  { intros n I. pose proof (dec_digits n) as D. rewrite forallb_forall in D. apply D in I. discriminate I. }
  destruct (_ <? _)%Z; [|apply D]. intros [H|H]; [discriminate H|exact (D _ H)].
Qed.
Lemma cut_at (c : byte) a b r s : ~ In c a -> ~ In c b -> a ++ c :: r = b ++ c :: s -> a = b /\ r = s.
Proof.
  revert b. induction a as [|x a IH]; intros [|y b] A B E; cbn [app] in E.
  - injection E as ->. auto.
  - injection E as -> _. exfalso. apply B. now left.
  - injection E as <- _. exfalso. apply A. now left.
  - injection E as -> E. apply IH in E as [-> ->]; [auto| |]; intros I; [apply A|apply B]; now right.
Qed.

(** ** code points *)
Lemma code_point_inj a b : code_point a = code_point b -> a = b.
Proof.
  assert (forall c, firstn 6 (code_point c) = str "U+00" ++ [upper_digit (b2n c / 16); upper_digit (b2n c mod 16)]) as F.
  { intros c. unfold code_point. destruct (printable c); reflexivity. }
  intros H. apply (f_equal (firstn 6)) in H. rewrite !F in H. apply app_inv_head in H.
  revert H. apply (fun P => P a b).
  assert (forall a b : N, a < 16 -> b < 16 -> upper_digit a = upper_digit b -> a = b) as U.
  { intros x y X Y H. apply (f_equal b2n) in H. unfold upper_digit in H.
    destruct (N.ltb_spec x 10), (N.ltb_spec y 10); rewrite !b2n_n2b_small in H by lia; lia. }
  clear a b. intros a b H. injection H as H1 H2.
  pose proof (b2n_lt a). pose proof (b2n_lt b).
  apply U in H1; [|apply N.div_lt_upper_bound; lia|apply N.div_lt_upper_bound; lia].
  apply U in H2; [|apply N.mod_lt; lia|apply N.mod_lt; lia].
  rewrite <- (n2b_b2n a), <- (n2b_b2n b). f_equal.
  rewrite (N.div_mod (b2n a) 16), (N.div_mod (b2n b) 16) by lia. now rewrite H1, H2.
Qed.

(** ** heads: none is a prefix of another *)
Definition tag (e : err) : nat :=
  match e with
  | EHex (HexInvalidByte _) => 0 | EHex HexErrLength => 1 | ETooBig => 2 | EPartTooBig _ => 3 | ENotEnough => 4
  | EInvalidOpcodeData => 5 | EScriptEmpty => 6 | ENotP2PKH => 7 | EInputShort36 => 8 | EInputShort => 9
  | EOutputShort8 => 10 | EOutputShort => 11 | ETxShort => 12 | ELockTime => 13 | ENoInput _ => 14 | ENoPrevTxID => 15
  | ENoPrevTxScript => 16 | EAddrLength _ => 17 | EAddrUnsupported _ => 18 | EBadChar => 19 | ETooLong => 20
  | EVersion => 21 | EChecksum => 22 | EBip276Checksum => 23 | EBip276Invalid _ => 24 | EIndexRange _ _ => 25
  | ESigsMin => 26 | ESigsMax => 27 | ESigsMax15 => 28 | EFiveParts => 29 | ECheckMultisig => 30 | EElectrumFF => 31
  | EPath2Items => 32 | EPath2 => 33 | EKeyCount => 34 | ECipherShort => 35 | EBase64 => 36 | EParseFloat _ => 37
  | EExternal _ => 38
  end%nat.
Definition heads : list bytes :=
  [ str "encoding/hex: invalid byte: "; (str "encoding/hex: odd length hex string" ++ [x00]); (str "data too big" ++ [x00]); str "part "; (str "Not enough data" ++ [x00]);
    (str "invalid opcode data" ++ [x00]); (str "Script is empty" ++ [x00]); (str "Not a P2PKH" ++ [x00]); (str "input length too short < 36" ++ [x00]); (str "input length too short < 36 + script + 4" ++ [x00]);
    (str "output length too short < 8" ++ [x00]); (str "output length too short < 8 + script" ++ [x00]); (str "too short to be a tx - even an empty tx has 10 bytes" ++ [x00]);
    (str "nLockTime length must be 4 bytes long" ++ [x00]); str "no input at index "; (str "'PreviousTxID' not supplied" ++ [x00]); (str "'PreviousTxScript' not supplied" ++ [x00]);
    str "invalid address length for '"; str "Address "; (str "bad char" ++ [x00]); (str "too long" ++ [x00]); (str "not version 0 or 6f" ++ [x00]); (str "checksum failed" ++ [x00]);
    (str "Invalid checksum" ++ [x00]); str "bitcoin-script invalid ["; str "index "; (str "Must have 2 or more required signatures for multisig" ++ [x00]);
    (str "More than 16 signatures is not supported" ++ [x00]); (str "More than 15 signatures is not supported" ++ [x00]); (str "There should be 5 parts in this redeemScript" ++ [x00]);
    (str "Script must end with OP_CHECKMULTISIG" ++ [x00]); (str "All Electrum pubkeys should start with 0xff" ++ [x00]); (str "Derivation path should have exactly 2 items" ++ [x00]);
    (str "We only support derivation paths with exactly 2 levels" ++ [x00]); (str "Number of public keys must equal the required" ++ [x00]); (str "ciphertext too short" ++ [x00]);
    str "illegal base64 data at input byte "; str "strconv.ParseFloat: parsing " ].
Fixpoint is_prefix (p s : bytes) : bool :=
  match p, s with [], _ => true | x :: p', y :: s' => byte_eqb x y && is_prefix p' s' | _ :: _, [] => false end.
Lemma prefix_either p q : forall r s, p ++ r = q ++ s -> is_prefix p q || is_prefix q p = true.
Proof.
  revert q. induction p as [|x p IH]; intros [|y q] r s E; cbn [is_prefix]; try reflexivity.
  injection E as <- E. rewrite byte_eqb_refl. cbn [andb]. exact (IH _ _ _ E).
Qed.
Lemma heads_free : forallb (fun i => forallb (fun j => Nat.eqb i j || negb (is_prefix (nth i heads []) (nth j heads [])))
  (seq 0 38)) (seq 0 38) = true.
Proof. vm_compute. reflexivity. Qed.
Lemma heads_same i j r s : (i < 38)%nat -> (j < 38)%nat -> nth i heads [] ++ r = nth j heads [] ++ s -> i = j.
Proof.
  intros I J E. pose proof heads_free as F. rewrite forallb_forall in F.
  pose proof (F i) as Fi. rewrite in_seq in Fi. specialize (Fi ltac:(lia)). rewrite forallb_forall in Fi. specialize (Fi j). rewrite in_seq in Fi. specialize (Fi ltac:(lia)).
  pose proof (F j) as Fj. rewrite in_seq in Fj. specialize (Fj ltac:(lia)). rewrite forallb_forall in Fj. specialize (Fj i). rewrite in_seq in Fj. specialize (Fj ltac:(lia)).
  destruct (Nat.eqb_spec i j) as [->|N]; [reflexivity|]. cbn [orb] in Fi. destruct (Nat.eqb_spec j i) as [->|N']; [reflexivity|]. cbn [orb] in Fj.
  apply prefix_either in E. destruct (is_prefix (nth i heads []) _); [discriminate Fi|]. destruct (is_prefix (nth j heads []) _); [discriminate Fj|]. discriminate E.
Qed.

Lemma tag_small e : own_text e -> (tag e < 38)%nat.
Proof. destruct e as [[|]| | | | | | | | | | | | | | | | | | | | | | | | | | | | | | | | | | | | |]; cbn; intros O; try lia; contradiction. Qed.
Lemma says_head e t : own_text e -> says e t -> exists r, t ++ [x00] = nth (tag e) heads [] ++ r.
Proof.
  destruct e as [[|]| | | | | | | | | | | | | | | | | | | | | | | | | | | | | | | | | | | | |]; cbn [says tag nth heads own_text]; intros O S;
    try contradiction; try (destruct S as (? & ?)); try (match goal with H : _ /\ _ |- _ => destruct H end); subst t; rewrite <- ?app_assoc;
    first [exists []; rewrite app_nil_r; reflexivity | eexists; reflexivity].
Qed.

Lemma says_inj e : forall e' t, own_text e -> own_text e' -> says e t -> says e' t -> e = e'.
Proof.
  induction e; intros e' t O O' S S';
    (assert (tag e' = tag _) as T by
      (pose proof (says_head _ _ O S) as (r & R); pose proof (says_head _ _ O' S') as (r' & R'); rewrite R in R'; symmetry;
       eapply heads_same; [apply tag_small; exact O|apply tag_small; exact O'|exact R'])).
  all: try contradiction.
  all: try (destruct e as [c|]); destruct e' as [[c'|]| | | | | | | | | | | | | | | | | | | | | | | | | | | | | | | | | | | | |]; cbn [tag] in T; try discriminate T; try reflexivity; try contradiction; cbn [says own_text] in S, S', O, O'.
  - subst t. apply app_inv_head, code_point_inj in S' as ->. reflexivity.
  - subst t. apply app_inv_head, app_inv_tail, dec_inj in S' as ->. reflexivity.
  - subst t. apply app_inv_head, dec_inj in S' as ->. reflexivity.
  - subst t. apply app_inv_head, app_inv_tail in S' as ->. reflexivity.
  - subst t. apply app_inv_head, app_inv_tail in S' as ->. reflexivity.
  - destruct S as (t1 & S & ->), S' as (t2 & S' & E). apply app_inv_head, app_inv_tail in E as <-. f_equal. eapply IHe; eassumption.
  - subst t. apply app_inv_head in S'. change (str " out of range for proof of length ") with (x20 :: str "out of range for proof of length ") in S'.
    cbn [app] in S'. apply cut_at in S' as [A B]; try apply decz_no_space. apply decz_inj in A as ->. apply app_inv_head, dec_inj in B as ->. reflexivity.
  - subst t. apply app_inv_head, app_inv_head, app_inv_tail, decz_inj in S' as ->. reflexivity.
Qed.
