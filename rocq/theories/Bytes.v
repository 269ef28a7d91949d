(** Bytes, little/big-endian integers and hexadecimal text.

    Models the parts of Go's language and standard library that libsv uses on
    byte slices: conversions [byte(n)], [encoding/binary], [encoding/hex].
    Definitions only, plus their characterising lemmas. *)
From Coq Require Export List NArith ZArith Lia Bool.
From Coq Require Export Strings.Byte.
From Coq Require Strings.String.
Export Strings.String.StringSyntax.
From Coq Require Import ZifyBool ZifyNat ZifyN.
Export ListNotations.
Global Open Scope list_scope.
Global Open Scope N_scope.

Ltac Zify.zify_post_hook ::= Z.div_mod_to_equations.

(** A Go [[]byte] or [string]: a finite sequence of bytes. *)
Definition bytes := list byte.

(** Source text literal, as a Go string constant. *)
Definition str (s : String.string) : bytes := String.list_byte_of_string s.
Arguments str s%string_scope.

(** [uint64(b)] and friends: the value of a byte. *)
Definition b2n (b : byte) : N := Byte.to_N b.

(** Go conversion [byte(n)]: keeps the low 8 bits. *)
Definition n2b (n : N) : byte :=
  match Byte.of_N (n mod 256) with Some b => b | None => x00 end.

Definition byte_eqb : byte -> byte -> bool := Byte.eqb.

Lemma byte_eqb_spec a b : reflect (a = b) (byte_eqb a b).
Proof.
  unfold byte_eqb. destruct (Byte.eqb a b) eqn:E; constructor.
  - apply Byte.byte_dec_bl; exact E.
  - intros ->. rewrite Byte.byte_dec_lb in E; [discriminate | reflexivity].
Qed.

Lemma byte_eqb_eq a b : byte_eqb a b = true <-> a = b.
Proof. destruct (byte_eqb_spec a b); split; congruence. Qed.

Lemma byte_eqb_refl a : byte_eqb a a = true.
Proof. apply byte_eqb_eq; reflexivity. Qed.

Lemma byte_eq_dec (a b : byte) : {a = b} + {a <> b}.
Proof. destruct (byte_eqb_spec a b); [left | right]; assumption. Qed.

Lemma bytes_eq_dec (a b : bytes) : {a = b} + {a <> b}.
Proof. apply list_eq_dec, byte_eq_dec. Qed.

Fixpoint bytes_eqb (a b : bytes) : bool :=
  match a, b with
  | [], [] => true
  | x :: r, y :: t => byte_eqb x y && bytes_eqb r t
  | _, _ => false
  end.

Lemma bytes_eqb_eq a b : bytes_eqb a b = true <-> a = b.
Proof.
  revert b; induction a as [|x a IH]; intros [|y b]; cbn [bytes_eqb]; try (split; congruence).
  rewrite Bool.andb_true_iff, byte_eqb_eq, IH. split; [intros []; congruence|].
  intros E; injection E; auto.
Qed.

Lemma bytes_eqb_refl a : bytes_eqb a a = true.
Proof. apply bytes_eqb_eq; reflexivity. Qed.

Lemma b2n_lt b : b2n b < 256.
Proof. unfold b2n. pose proof (Byte.to_N_bounded b). lia. Qed.

Lemma n2b_b2n b : n2b (b2n b) = b.
Proof.
  unfold n2b. rewrite N.mod_small by apply b2n_lt.
  unfold b2n. rewrite Byte.of_to_N. reflexivity.
Qed.

Lemma b2n_n2b n : b2n (n2b n) = n mod 256.
Proof.
  unfold n2b. destruct (Byte.of_N (n mod 256)) as [b|] eqn:E.
  - apply Byte.to_of_N_iff in E. exact E.
  - apply Byte.of_N_None_iff in E.
    assert (n mod 256 < 256) by (apply N.mod_lt; discriminate). lia.
Qed.

Lemma b2n_n2b_small n : n < 256 -> b2n (n2b n) = n.
Proof. intros H. rewrite b2n_n2b. apply N.mod_small, H. Qed.

Lemma b2n_inj a b : b2n a = b2n b -> a = b.
Proof. intros H. rewrite <- (n2b_b2n a), <- (n2b_b2n b), H. reflexivity. Qed.

Lemma n2b_mod n : n2b (n mod 256) = n2b n.
Proof. apply b2n_inj. rewrite !b2n_n2b. apply N.mod_mod. discriminate. Qed.

(** ** Little-endian integers ([binary.LittleEndian.PutUintXX] / [UintXX]) *)

(** [binary.LittleEndian.PutUint16/32/64]: the [k] low bytes of [n]. *)
Fixpoint le_put (k : nat) (n : N) : bytes :=
  match k with
  | O => []
  | S k' => n2b n :: le_put k' (n / 256)
  end.

(** [binary.LittleEndian.Uint16/32/64] on a slice of exactly that size. *)
Fixpoint le_get (b : bytes) : N :=
  match b with
  | [] => 0
  | x :: r => b2n x + 256 * le_get r
  end.

Lemma le_put_length k n : length (le_put k n) = k.
Proof. revert n; induction k as [|k IH]; intros n; simpl; [reflexivity|]. now rewrite IH. Qed.

Lemma le_get_bound b : le_get b < 256 ^ N.of_nat (length b).
Proof.
  induction b as [|x r IH]; cbn [le_get length]; [reflexivity|].
  rewrite Nat2N.inj_succ, N.pow_succ_r'. pose proof (b2n_lt x). nia.
Qed.

Lemma le_get_put k n : le_get (le_put k n) = n mod 256 ^ N.of_nat k.
Proof.
  revert n; induction k as [|k IH]; intros n; cbn [le_put le_get].
  - simpl. now rewrite N.mod_1_r.
  - rewrite IH, b2n_n2b, Nat2N.inj_succ, N.pow_succ_r'.
    rewrite N.mod_mul_r; try discriminate.
    + reflexivity.
    + apply N.pow_nonzero. discriminate.
Qed.

Lemma le_get_put_small k n : n < 256 ^ N.of_nat k -> le_get (le_put k n) = n.
Proof. intros H. rewrite le_get_put. apply N.mod_small, H. Qed.

Lemma le_put_get b : le_put (length b) (le_get b) = b.
Proof.
  induction b as [|x r IH]; cbn [le_get le_put length]; [reflexivity|].
  f_equal.
  - apply b2n_inj. rewrite b2n_n2b.
    rewrite N.mul_comm, N.mod_add by discriminate. apply N.mod_small, b2n_lt.
  - rewrite (N.mul_comm 256), N.div_add by discriminate.
    rewrite N.div_small by apply b2n_lt. exact IH.
Qed.

Lemma le_put_inj k n m : n < 256 ^ N.of_nat k -> m < 256 ^ N.of_nat k ->
  le_put k n = le_put k m -> n = m.
Proof.
  intros Hn Hm E. rewrite <- (le_get_put_small k n Hn), <- (le_get_put_small k m Hm).
  now rewrite E.
Qed.

Lemma le_get_inj a b : length a = length b -> le_get a = le_get b -> a = b.
Proof. intros L E. rewrite <- (le_put_get a), <- (le_put_get b), L, E. reflexivity. Qed.

(** ** Big-endian integers *)

(** Value of a byte string read most significant byte first
    ([binary.BigEndian.Uint32], [big.Int.SetBytes]). *)
Definition be_get (b : bytes) : N := fold_left (fun acc x => 256 * acc + b2n x) b 0.

Lemma be_get_fold acc b :
  fold_left (fun acc x => 256 * acc + b2n x) b acc
  = 256 ^ N.of_nat (length b) * acc + be_get b.
Proof.
  unfold be_get. revert acc; induction b as [|x r IH]; intros acc; cbn [fold_left length].
  - simpl N.of_nat. rewrite N.pow_0_r. lia.
  - rewrite IH, (IH (256 * 0 + b2n x)), Nat2N.inj_succ, N.pow_succ_r'. ring.
Qed.

Lemma be_get_app a b : be_get (a ++ b) = 256 ^ N.of_nat (length b) * be_get a + be_get b.
Proof. unfold be_get at 1. rewrite fold_left_app. fold (be_get a). apply be_get_fold. Qed.

Lemma be_get_cons x b : be_get (x :: b) = 256 ^ N.of_nat (length b) * b2n x + be_get b.
Proof. change (x :: b) with ([x] ++ b). rewrite be_get_app. unfold be_get at 1. cbn [fold_left]. lia. Qed.

Lemma be_get_bound b : be_get b < 256 ^ N.of_nat (length b).
Proof.
  induction b as [|x r IH]; [reflexivity|].
  rewrite be_get_cons. cbn [length]. rewrite Nat2N.inj_succ, N.pow_succ_r'.
  pose proof (b2n_lt x).
  set (p := 256 ^ N.of_nat (length r)) in *. nia.
Qed.

Lemma be_get_rev b : be_get (rev b) = le_get b.
Proof.
  induction b as [|x r IH]; [reflexivity|].
  cbn [rev le_get]. rewrite be_get_app, IH. cbn [length].
  change (256 ^ N.of_nat 1) with 256. unfold be_get; simpl fold_left. lia.
Qed.

Lemma be_get_zeros k b : be_get (repeat x00 k ++ b) = be_get b.
Proof.
  induction k as [|k IH]; [reflexivity|].
  cbn [repeat app]. rewrite be_get_cons, IH. change (b2n x00) with 0. lia.
Qed.

(** Big-endian encoding on exactly [k] bytes. *)
Definition be_put (k : nat) (n : N) : bytes := rev (le_put k n).

Lemma be_put_length k n : length (be_put k n) = k.
Proof. unfold be_put. now rewrite rev_length, le_put_length. Qed.

Lemma be_get_put k n : be_get (be_put k n) = n mod 256 ^ N.of_nat k.
Proof. unfold be_put. now rewrite be_get_rev, le_get_put. Qed.

Lemma be_put_get b : be_put (length b) (be_get b) = b.
Proof.
  unfold be_put. rewrite <- (rev_involutive b) at 2. rewrite be_get_rev.
  rewrite <- (rev_length b), le_put_get. apply rev_involutive.
Qed.

Lemma be_get_inj a b : length a = length b -> be_get a = be_get b -> a = b.
Proof. intros L E. rewrite <- (be_put_get a), <- (be_put_get b), L, E. reflexivity. Qed.

(** ** Hexadecimal text ([encoding/hex]) *)

(** hex digits, lower case: hextable of encoding/hex. *)
Definition hexdig (n : N) : byte :=
  if n <? 10 then n2b (48 + n) else n2b (87 + n).

(** [hex.EncodeToString]. *)
Fixpoint hex_encode (b : bytes) : bytes :=
  match b with
  | [] => []
  | x :: r => hexdig (b2n x / 16) :: hexdig (b2n x mod 16) :: hex_encode r
  end.

(** fromHexChar of encoding/hex. *)
Definition hexval (c : byte) : option N :=
  let n := b2n c in
  if (48 <=? n) && (n <=? 57) then Some (n - 48)
  else if (97 <=? n) && (n <=? 102) then Some (n - 87)
  else if (65 <=? n) && (n <=? 70) then Some (n - 55)
  else None.

Inductive hex_err := HexInvalidByte (c : byte) | HexErrLength.

(** [hex.Decode] as used by [hex.DecodeString]: returns the bytes decoded before
    the first problem together with the error, if any (Go returns both; several
    callers in libsv ignore the error). *)
Fixpoint hex_decode (s : bytes) : bytes * option hex_err :=
  match s with
  | [] => ([], None)
  | [c] => match hexval c with
           | None => ([], Some (HexInvalidByte c))
           | Some _ => ([], Some HexErrLength)
           end
  | c :: d :: r =>
      match hexval c with
      | None => ([], Some (HexInvalidByte c))
      | Some a =>
          match hexval d with
          | None => ([], Some (HexInvalidByte d))
          | Some b => let (t, e) := hex_decode r in (n2b (a * 16 + b) :: t, e)
          end
      end
  end.

(** [hex.DecodeString] seen as [(value, error)]: [Some] iff no error. *)
Definition hex_dec (s : bytes) : option bytes :=
  match hex_decode s with (b, None) => Some b | (_, Some _) => None end.

Lemma hexdig_val n : n < 16 -> hexval (hexdig n) = Some n.
Proof.
  intros H. unfold hexdig, hexval.
  destruct (N.ltb_spec n 10).
  - rewrite b2n_n2b_small by lia.
    replace ((48 <=? 48 + n) && (48 + n <=? 57))%bool with true by (symmetry; apply andb_true_iff; split; apply N.leb_le; lia).
    f_equal; lia.
  - rewrite b2n_n2b_small by lia.
    replace ((48 <=? 87 + n) && (87 + n <=? 57))%bool with false by (symmetry; apply andb_false_iff; right; apply N.leb_gt; lia).
    replace ((97 <=? 87 + n) && (87 + n <=? 102))%bool with true by (symmetry; apply andb_true_iff; split; apply N.leb_le; lia).
    f_equal; lia.
Qed.

Lemma hexval_lt c n : hexval c = Some n -> n < 16.
Proof.
  unfold hexval. intros H.
  destruct ((48 <=? b2n c) && (b2n c <=? 57))%bool eqn:E1.
  { apply andb_true_iff in E1 as [A B]. apply N.leb_le in A, B. injection H as <-. lia. }
  destruct ((97 <=? b2n c) && (b2n c <=? 102))%bool eqn:E2.
  { apply andb_true_iff in E2 as [A B]. apply N.leb_le in A, B. injection H as <-. lia. }
  destruct ((65 <=? b2n c) && (b2n c <=? 70))%bool eqn:E3; [|discriminate].
  apply andb_true_iff in E3 as [A B]. apply N.leb_le in A, B. injection H as <-. lia.
Qed.

Lemma hex_decode_encode b : hex_decode (hex_encode b) = (b, None).
Proof.
  induction b as [|x r IH]; [reflexivity|].
  cbn [hex_encode hex_decode]. pose proof (b2n_lt x).
  rewrite !hexdig_val by (try apply N.mod_lt; try apply N.div_lt_upper_bound; lia).
  rewrite IH. do 2 f_equal. rewrite <- (n2b_b2n x) at 3. f_equal.
  rewrite N.mul_comm. symmetry. apply N.div_mod. discriminate.
Qed.

Lemma hex_dec_encode b : hex_dec (hex_encode b) = Some b.
Proof. unfold hex_dec. now rewrite hex_decode_encode. Qed.

Lemma hex_encode_length b : length (hex_encode b) = (2 * length b)%nat.
Proof. induction b as [|x r IH]; [reflexivity|]. cbn [hex_encode length]. lia. Qed.

Lemma hex_encode_inj a b : hex_encode a = hex_encode b -> a = b.
Proof. intros E. apply (f_equal hex_dec) in E. rewrite !hex_dec_encode in E. congruence. Qed.

Lemma hex_encode_app a b : hex_encode (a ++ b) = hex_encode a ++ hex_encode b.
Proof. induction a as [|x r IH]; [reflexivity|]. cbn [hex_encode app]. now rewrite IH. Qed.

(** strong induction two elements at a time *)
Lemma list_ind2 {A} (P : list A -> Prop) :
  P [] -> (forall a, P [a]) -> (forall a b l, P l -> P (a :: b :: l)) -> forall l, P l.
Proof.
  intros H0 H1 H2. assert (forall l, P l /\ forall a, P (a :: l)) as H.
  { induction l as [|x l [IH IH']]; split; auto. }
  intros l. apply H.
Qed.

Lemma hex_dec_length s b : hex_dec s = Some b -> length s = (2 * length b)%nat.
Proof.
  revert b. induction s as [|c|c d r IH] using list_ind2; intros b; unfold hex_dec; simpl.
  - injection 1 as <-. reflexivity.
  - destruct (hexval c); discriminate.
  - destruct (hexval c); [|discriminate]. destruct (hexval d); [|discriminate].
    unfold hex_dec in IH. destruct (hex_decode r) as [t [e|]]; [discriminate|].
    injection 1 as <-. simpl. specialize (IH t eq_refl). lia.
Qed.

Definition is_hex (c : byte) : bool := match hexval c with Some _ => true | None => false end.

Lemma hex_dec_some_iff s :
  (exists b, hex_dec s = Some b) <-> (Nat.even (length s) = true /\ forallb is_hex s = true).
Proof.
  induction s as [|c|c d r IH] using list_ind2; unfold hex_dec; cbn [hex_decode length forallb].
  - split; [auto | eauto].
  - split.
    + intros [b H]. destruct (hexval c); discriminate.
    + intros [H _]. discriminate.
  - unfold hex_dec in IH. unfold is_hex at 1 2.
    destruct (hexval c) as [a|]; [|split; [intros [b H]; discriminate | intros [_ H]; discriminate]].
    destruct (hexval d) as [a'|]; [|split; [intros [b H]; discriminate | intros [_ H]; discriminate]].
    change (Nat.even (S (S (length r)))) with (Nat.even (length r)). simpl andb.
    rewrite <- IH. destruct (hex_decode r) as [t [e|]].
    + split; intros [b H]; discriminate.
    + split; intros [b H]; eauto.
Qed.

(** Number of bytes as [N]. *)
Definition nlen {A} (l : list A) : N := N.of_nat (length l).

Lemma nlen_app {A} (a b : list A) : nlen (a ++ b) = nlen a + nlen b.
Proof. unfold nlen. rewrite app_length. lia. Qed.
