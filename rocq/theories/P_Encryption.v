(** Proofs about Encrypt and Decrypt (C52, C53). *)
From Verif Require Export S_Encryption M_Encryption.
From Coq Require Import ZifyBool ZifyNat ZifyN.

(** ** xor *)

Lemma lxor_lt a b : a < 256 -> b < 256 -> N.lxor a b < 256.
Proof.
  intros A B. destruct (N.eq_dec (N.lxor a b) 0) as [->|Z]; [lia|]. change 256 with (2 ^ 8). apply N.log2_lt_pow2; [lia|].
  apply N.le_lt_trans with (N.max (N.log2 a) (N.log2 b)); [apply N.log2_lxor|].
  assert (forall x, x < 256 -> N.log2 x < 8) as L.
  { intros x X. destruct (N.eq_dec x 0) as [->|]; [cbn; lia|]. apply N.log2_lt_pow2; [lia|exact X]. }
  apply N.max_lub_lt; now apply L.
Qed.

Lemma xor_byte x y : b2n (n2b (N.lxor (b2n x) (b2n y))) = N.lxor (b2n x) (b2n y).
Proof. apply b2n_n2b_small, lxor_lt; apply b2n_lt. Qed.

Lemma xored_xor a : forall b, (length a <= length b)%nat -> xored a (firstn (length a) b) (xor_bytes a b).
Proof.
  induction a as [|x a IH]; intros [|y b] L; cbn [length firstn xor_bytes] in *; try (constructor); try lia.
  - apply xor_byte.
  - apply IH. lia.
Qed.

Lemma xored_len a b c : xored a b c -> length a = length b /\ length a = length c.
Proof. induction 1; cbn [length]; lia. Qed.

Lemma xored_fun a b c c' : xored a b c -> xored a b c' -> c = c'.
Proof.
  intros X. revert c'. induction X as [|x y z a b c E X IH]; intros c' Y; inversion Y as [|x' y' z' a' b' c'' E' Y']; subst; [reflexivity|].
  f_equal; [apply b2n_inj; congruence|now apply IH].
Qed.

Lemma xored_sym a b c : xored a b c -> xored c b a.
Proof.
  induction 1 as [|x y z a b c E X IH]; constructor; [|exact IH]. rewrite E, N.lxor_assoc, N.lxor_nilpotent, N.lxor_0_r. reflexivity.
Qed.

(** ** CFB mode against its specification *)

Section Cfb.
Context (E : bytes -> bytes) (HE : forall b, length b = 16%nat -> length (E b) = 16%nat).

Lemma firstn_skipn_16 (t : bytes) : t <> [] ->
  ((length t <= 16)%nat /\ firstn 16 t = t /\ skipn 16 t = []) \/
  ((16 < length t)%nat /\ length (firstn 16 t) = 16%nat).
Proof.
  intros _. destruct (Nat.le_gt_cases (length t) 16) as [L|L]; [left|right].
  - split; [exact L|]. split; [now apply firstn_all2|now apply skipn_all2].
  - split; [exact L|]. rewrite firstn_length. lia.
Qed.

Lemma encrypt_nil fuel prev : cfb_encrypt fuel E 16 prev [] = [].
Proof. now destruct fuel. Qed.
Lemma decrypt_nil fuel prev : cfb_decrypt fuel E 16 prev [] = [].
Proof. now destruct fuel. Qed.

Lemma encrypt_cfb fuel : forall prev t, (length t <= fuel)%nat -> length prev = 16%nat ->
  cfb E prev t (cfb_encrypt fuel E 16 prev t).
Proof.
  induction fuel as [|fuel IH]; intros prev t F P.
  - destruct t; [constructor|cbn [length] in F; lia].
  - destruct t as [|x t]; [constructor|]. cbn [cfb_encrypt]. set (u := x :: t) in *.
    destruct (firstn_skipn_16 u ltac:(discriminate)) as [(L & A & B)|(L & A)].
    + rewrite A, B, encrypt_nil, app_nil_r. apply cfb_last; [unfold u in *; cbn [length] in *; lia|]. apply xored_xor. rewrite HE by assumption. exact L.
    + pose proof (xored_xor (firstn 16 u) (E prev)) as X. rewrite A, HE in X by assumption. specialize (X ltac:(lia)).
      rewrite (firstn_all2 (E prev)) in X by (rewrite HE by assumption; lia). rewrite <- (firstn_skipn 16 u) at 1. apply cfb_more; [exact A|exact X|].
      apply IH; [rewrite skipn_length; unfold u in *; cbn [length] in *; lia|]. apply xored_len in X. lia.
Qed.

Lemma decrypt_cfb fuel : forall prev t, (length t <= fuel)%nat -> length prev = 16%nat ->
  cfb E prev (cfb_decrypt fuel E 16 prev t) t.
Proof.
  induction fuel as [|fuel IH]; intros prev t F P.
  - destruct t; [constructor|cbn [length] in F; lia].
  - destruct t as [|x t]; [constructor|]. cbn [cfb_decrypt]. set (u := x :: t) in *.
    destruct (firstn_skipn_16 u ltac:(discriminate)) as [(L & A & B)|(L & A)].
    + rewrite A, B, decrypt_nil, app_nil_r. pose proof (xored_xor u (E prev)) as X. rewrite HE in X by assumption. specialize (X L).
      pose proof (xored_len _ _ _ X) as [_ XL]. apply cfb_last; [rewrite <- XL; unfold u in *; cbn [length] in *; lia|].
      rewrite <- XL. now apply xored_sym.
    + pose proof (xored_xor (firstn 16 u) (E prev)) as X. rewrite A, HE in X by assumption. specialize (X ltac:(lia)).
      rewrite (firstn_all2 (E prev)) in X by (rewrite HE by assumption; lia). pose proof (xored_len _ _ _ X) as [_ XL].
      enough (cfb E prev (xor_bytes (firstn 16 u) (E prev) ++ cfb_decrypt fuel E 16 (firstn 16 u) (skipn 16 u)) (firstn 16 u ++ skipn 16 u)) as G by (rewrite firstn_skipn in G; exact G). apply cfb_more; [lia|now apply xored_sym|].
      apply IH; [rewrite skipn_length; unfold u in *; cbn [length] in *; lia|exact A].
Qed.

Lemma cfb_len prev p c : cfb E prev p c -> length p = length c.
Proof.
  induction 1 as [|prev p c L X|prev p c ps cs L X H IH]; [reflexivity|now apply xored_len in X|].
  apply xored_len in X. rewrite !app_length. lia.
Qed.

Lemma app_len_inj {A} (a : list A) : forall b x y, length a = length b -> a ++ x = b ++ y -> a = b /\ x = y.
Proof.
  induction a as [|u a IH]; intros [|v b] x y L Q; try discriminate L; [auto|]. cbn [app] in Q. injection Q as -> Q.
  destruct (IH b x y ltac:(now injection L) Q) as [-> ->]. auto.
Qed.

(** the plaintext determines the ciphertext and conversely *)
Lemma cfb_fun prev p c : length prev = 16%nat -> cfb E prev p c -> forall c', cfb E prev p c' -> c = c'.
Proof.
  intros P H. revert P. induction H as [prev|prev p c L X|prev p c ps cs L X H IH]; intros P c' H'.
  - apply cfb_len in H'. now destruct c'.
  - inversion H' as [|prev' p' c'' L' X'|prev' p' c'' ps' cs' L' X' H'']; subst; [cbn [length] in L; lia|now apply (xored_fun _ _ _ _ X)|].
    rewrite app_length in *. assert (ps' = []) as -> by (destruct ps'; [reflexivity|cbn [length] in L; lia]).
    apply cfb_len in H''. destruct cs'; [|discriminate H'']. rewrite !app_nil_r in *. rewrite L' in X. cbn [length Nat.add] in X. rewrite (firstn_all2 (E prev)) in X by (rewrite HE by assumption; lia).
    now apply (xored_fun _ _ _ _ X).
  - assert (length c = 16%nat) as LC by (apply xored_len in X; lia).
    inversion H' as [prev' A B C|prev' p' c'' L' X' A B C|prev' p' c'' ps' cs' L' X' H'' A B C]; subst.
    + destruct p; [discriminate L|discriminate].
    + rewrite app_length in *. assert (ps = []) as -> by (destruct ps; [reflexivity|cbn [length] in L'; lia]).
      apply cfb_len in H. destruct cs; [|discriminate H]. rewrite !app_nil_r in *. rewrite L in X'. cbn [length Nat.add] in X'. rewrite (firstn_all2 (E prev)) in X' by (rewrite HE by assumption; lia).
      now apply (xored_fun _ _ _ _ X).
    + apply app_len_inj in B; [|lia]. destruct B as [-> ->]. assert (c = c'') as <- by now apply (xored_fun _ _ _ _ X). f_equal. now apply IH.
Qed.

Lemma cfb_inv prev p c : length prev = 16%nat -> cfb E prev p c -> forall p', cfb E prev p' c -> p = p'.
Proof.
  intros P H. revert P. induction H as [prev|prev p c L X|prev p c ps cs L X H IH]; intros P p' H'.
  - apply cfb_len in H'. now destruct p'.
  - pose proof (xored_len _ _ _ X) as [_ XL].
    inversion H' as [|prev' q c'' L' X'|prev' q c'' ps' cs' L' X' H'']; subst; [cbn [length] in XL; lia| |].
    + pose proof (xored_len _ _ _ X') as [_ XL']. apply xored_sym in X, X'. replace (length p') with (length p) in X' by lia. now apply (xored_fun _ _ _ _ X).
    + pose proof (xored_len _ _ _ X') as [_ XL']. rewrite app_length in *. assert (cs' = []) as -> by (destruct cs'; [reflexivity|cbn [length] in XL; lia]).
      apply cfb_len in H''. destruct ps'; [|discriminate H'']. rewrite !app_nil_r in *. replace (length p) with 16%nat in X by (cbn [length] in XL; lia). rewrite (firstn_all2 (E prev)) in X by (rewrite HE by assumption; lia).
      apply xored_sym in X, X'. now apply (xored_fun _ _ _ _ X).
  - pose proof (xored_len _ _ _ X) as [_ XL].
    inversion H' as [prev' A B C|prev' q c'' L' X' A B C|prev' q c'' ps' cs' L' X' H'' A B C]; subst.
    + destruct c; [cbn [length] in XL; lia|discriminate].
    + pose proof (xored_len _ _ _ X') as [_ XL']. rewrite app_length in *. assert (cs = []) as -> by (destruct cs; [reflexivity|cbn [length] in XL'; lia]).
      apply cfb_len in H. destruct ps; [|discriminate H]. rewrite !app_nil_r in *. replace (length p') with 16%nat in X' by (cbn [length] in XL'; lia). rewrite (firstn_all2 (E prev)) in X' by (rewrite HE by assumption; lia).
      apply xored_sym in X, X'. now apply (xored_fun _ _ _ _ X).
    + pose proof (xored_len _ _ _ X') as [_ XL']. apply app_len_inj in C; [|lia]. destruct C as [-> ->].
      apply xored_sym in X, X'. assert (p = q) as <- by now apply (xored_fun _ _ _ _ X). f_equal. apply IH; [lia|exact H''].
Qed.

End Cfb.

(** ** base64 *)

Lemma digit_char n : n < 64 -> b64_digit n (b64_char n).
Proof.
  intros L. unfold b64_digit, b64_char. rewrite <- nth_error_nth' with (d := x00); [reflexivity|].
  change (length b64_alphabet) with 64%nat. lia.
Qed.

Lemma digit_bound n c : b64_digit n c -> n < 64.
Proof. intros H. assert (nth_error b64_alphabet (N.to_nat n) <> None) as Q by (unfold b64_digit in H; fold b64_alphabet in H; congruence). apply nth_error_Some in Q. change (length b64_alphabet) with 64%nat in Q. lia. Qed.

Definition digits_ok : bool :=
  forallb (fun k => match b64_val (nth k b64_alphabet x00) with Some n => n =? N.of_nat k | None => false end) (seq 0 64).
Lemma digits_sweep : digits_ok = true.
Proof. vm_compute. reflexivity. Qed.
Definition vals_ok (c : byte) : bool :=
  match b64_val c with Some n => (n <? 64) && byte_eqb (nth (N.to_nat n) b64_alphabet x00) c | None => true end.
Lemma vals_sweep c : vals_ok c = true.
Proof. destruct c; vm_compute; reflexivity. Qed.

Lemma val_digit n c : b64_val c = Some n <-> b64_digit n c.
Proof.
  split.
  - intros H. pose proof (vals_sweep c) as V. unfold vals_ok in V. rewrite H in V. apply andb_true_iff in V as [V1 V2]. apply byte_eqb_eq in V2.
    rewrite <- V2. apply digit_char. lia.
  - intros H. pose proof (digit_bound _ _ H) as B. unfold b64_digit in H. fold b64_alphabet in H.
    pose proof digits_sweep as D. unfold digits_ok in D. rewrite forallb_forall in D. specialize (D (N.to_nat n)).
    rewrite (nth_error_nth _ _ x00 H) in D. specialize (D ltac:(apply in_seq; lia)). destruct (b64_val c); [|discriminate D].
    f_equal. lia.
Qed.

Lemma digit_fun n c d : b64_digit n c -> b64_digit n d -> c = d.
Proof. unfold b64_digit. congruence. Qed.
Lemma digit_inj n m c : b64_digit n c -> b64_digit m c -> n = m.
Proof. rewrite <- !val_digit. congruence. Qed.

Ltac dm n k := pose proof (N.div_mod n k ltac:(discriminate)); pose proof (N.mod_lt n k ltac:(discriminate)).

Lemma encode_text s : b64_text (b64_encode s) s.
Proof.
  enough (forall n s, (length s <= n)%nat -> b64_text (b64_encode s) s) as G by now apply (G (length s)).
  clear s. induction n as [|n IH]; intros s L; [destruct s; [constructor|cbn [length] in L; lia]|].
  destruct s as [|a [|b [|c s]]]; [constructor|..]; cbn [b64_encode]; cbv zeta.
  - pose proof (b2n_lt a). set (v := b2n a * 65536) in *. dm v 262144. dm v 4096. dm (v / 4096) 64.
    apply b64_1 with (p := v / 262144) (q := v / 4096 mod 64); [apply digit_char; unfold v in *; lia|apply digit_char; lia|].
    unfold v in *. lia.
  - pose proof (b2n_lt a). pose proof (b2n_lt b). set (v := b2n a * 65536 + b2n b * 256) in *. dm v 262144. dm v 4096. dm v 64. dm (v / 4096) 64. dm (v / 64) 64.
    apply b64_2 with (p := v / 262144) (q := v / 4096 mod 64) (r := v / 64 mod 64); [apply digit_char; unfold v in *; lia|apply digit_char; lia|apply digit_char; lia|].
    unfold v in *. lia.
  - pose proof (b2n_lt a). pose proof (b2n_lt b). pose proof (b2n_lt c). set (v := b2n a * 65536 + b2n b * 256 + b2n c) in *.
    dm v 262144. dm v 4096. dm v 64. dm (v / 4096) 64. dm (v / 64) 64.
    apply b64_3 with (p := v / 262144) (q := v / 4096 mod 64) (r := v / 64 mod 64) (u := v mod 64); [apply digit_char; unfold v in *; lia|apply digit_char; lia|apply digit_char; lia|apply digit_char; lia| |].
    + unfold v in *. lia.
    + apply IH. cbn [length] in L. lia.
Qed.

Lemma text_fun s : forall t t', b64_text t s -> b64_text t' s -> t = t'.
Proof.
  intros t t' H. revert t'. induction H as [|a p q cp cq Dp Dq V|a b p q r cp cq cr Dp Dq Dr V|a b c p q r u cp cq cr cu t s Dp Dq Dr Du V H IH]; intros t' H'; inversion H' as [|a' p' q' cp' cq' Dp' Dq' V'|a' b' p' q' r' cp' cq' cr' Dp' Dq' Dr' V'|a' b' c' p' q' r' u' cp' cq' cr' cu' t'' s' Dp' Dq' Dr' Du' V' H'']; subst; [reflexivity|..];
    repeat match goal with H : b64_digit ?n _ |- _ => let B := fresh in pose proof (digit_bound _ _ H) as B; revert H end; intros.
  - assert (p = p' /\ q = q') as [<- <-] by lia. repeat f_equal; eauto using digit_fun.
  - assert (p = p' /\ q = q' /\ r = r') as (<- & <- & <-) by lia. repeat f_equal; eauto using digit_fun.
  - assert (p = p' /\ q = q' /\ r = r' /\ u = u') as (<- & <- & <- & <-) by lia.
    assert (t = t'') as <- by now apply IH. repeat f_equal; eauto using digit_fun.
Qed.

Lemma text_iff t s : b64_text t s <-> t = b64_encode s.
Proof. split; [intros H; apply (text_fun s); [exact H|apply encode_text]|intros ->; apply encode_text]. Qed.

(** decoding *)

Lemma no_nl_eq s : no_newlines s = filter (fun c => negb (is_nl c)) s.
Proof. unfold no_newlines. apply filter_ext. now intros []. Qed.

Lemma nl_val c : is_nl c = true -> b64_val c = None.
Proof. destruct c; try discriminate; reflexivity. Qed.

Lemma filter_idem {A} (f : A -> bool) l : filter f (filter f l) = filter f l.
Proof.
  induction l as [|x l IH]; [reflexivity|]. cbn [filter]. destruct (f x) eqn:F; [|exact IH]. cbn [filter]. rewrite F. now f_equal.
Qed.

Lemma decode_no_nl s : forall q, b64_decode_from q s = b64_decode_from q (no_newlines s).
Proof.
  rewrite no_nl_eq. induction s as [|c s IH]; intros q; [reflexivity|]. cbn [filter]. destruct (is_nl c) eqn:L; cbn [negb].
  - cbn [b64_decode_from]. rewrite (nl_val _ L), L. apply IH.
  - cbn [b64_decode_from]. rewrite L, filter_idem. destruct (b64_val c) as [v|]; [|reflexivity].
    destruct q as [|x [|y [|z [|w q]]]]; rewrite IH; reflexivity.
Qed.

Lemma pad_val : b64_val x3d = None.
Proof. reflexivity. Qed.

Lemma byte_of n m : n < 256 -> m = n -> b2n (n2b m) = n.
Proof. intros L ->. now apply b2n_n2b_small. Qed.

Lemma filter_all {A} (f : A -> bool) l : (forall x, In x l -> f x = true) -> filter f l = l.
Proof.
  induction l as [|x l IH]; intros F; [reflexivity|]. cbn [filter]. rewrite (F x) by now left. f_equal. apply IH. intros y I. apply F. now right.
Qed.

Lemma decode_loose_1 t : forall s, (forall c, In c t -> is_nl c = false) -> b64_loose t s -> b64_decode_from [] t = Ok s.
Proof.
  intros s NL H. induction H as [|a p q cp cq e Dp Dq LE V|a b p q r cp cq cr e Dp Dq Dr LE V|a b c p q r u cp cq cr cu t s Dp Dq Dr Du V H IH]; [reflexivity|..];
    repeat match goal with H : b64_digit ?n _ |- _ => let B := fresh in pose proof (digit_bound _ _ H) as B; apply val_digit in H end.
  - cbn [b64_decode_from app]. rewrite Dp, Dq. cbn [b64_decode_from app]. rewrite pad_val. cbn [is_nl filter negb].
    change (byte_eqb x3d x3d) with true. cbv iota. do 2 f_equal. apply b2n_inj. dm q 16. pose proof (b2n_lt a). apply byte_of; lia.
  - cbn [b64_decode_from app]. rewrite Dp, Dq, Dr. cbn [b64_decode_from app]. rewrite pad_val. cbn [is_nl filter negb].
    change (byte_eqb x3d x3d) with true. cbv iota. dm q 16. dm r 4. pose proof (b2n_lt a). pose proof (b2n_lt b). f_equal. f_equal; [|f_equal].
    + apply b2n_inj. apply byte_of; lia.
    + apply b2n_inj. rewrite b2n_n2b. dm (q * 16 + r / 4) 256. lia.
  - cbn [b64_decode_from app]. rewrite Dp, Dq, Dr, Du. cbn [b64_decode_from app]. rewrite IH by (intros x I; apply NL; do 4 right; exact I). cbn [bind].
    dm q 16. dm r 4. pose proof (b2n_lt a). pose proof (b2n_lt b). pose proof (b2n_lt c). f_equal. f_equal; [|f_equal; [|f_equal]]; apply b2n_inj; rewrite b2n_n2b.
    + dm (p * 4 + q / 16) 256. lia.
    + dm (q * 16 + r / 4) 256. lia.
    + dm (r * 64 + u) 256. lia.
Qed.

Lemma decode_loose_2 n : forall t s, (length t <= n)%nat -> (forall c, In c t -> is_nl c = false) -> b64_decode_from [] t = Ok s -> b64_loose t s.
Proof.
  induction n as [|n IH]; intros t s L NL D.
  { destruct t; [|cbn [length] in L; lia]. cbn [b64_decode_from] in D. injection D as <-. constructor. }
  destruct t as [|c1 t]; [cbn [b64_decode_from] in D; injection D as <-; constructor|].
  assert (is_nl c1 = false) as N1 by (apply NL; now left).
  cbn [b64_decode_from app] in D. rewrite N1 in D. destruct (b64_val c1) as [p|] eqn:V1; [|destruct (byte_eqb c1 x3d); discriminate D].
  destruct t as [|c2 t]; [discriminate D|]. assert (is_nl c2 = false) as N2 by (apply NL; right; now left).
  cbn [b64_decode_from app] in D. rewrite N2 in D. destruct (b64_val c2) as [q|] eqn:V2; [|destruct (byte_eqb c2 x3d); discriminate D].
  destruct t as [|c3 t]; [discriminate D|]. assert (is_nl c3 = false) as N3 by (apply NL; right; right; now left).
  cbn [b64_decode_from app] in D. rewrite N3 in D. apply val_digit in V1, V2. pose proof (digit_bound _ _ V1). pose proof (digit_bound _ _ V2).
  destruct (b64_val c3) as [r|] eqn:V3.
  2:{ destruct (byte_eqb c3 x3d) eqn:P; [|discriminate D]. apply byte_eqb_eq in P. subst c3.
      rewrite filter_all in D by (intros x I; rewrite (NL x) by (do 3 right; exact I); reflexivity).
      destruct t as [|c4 [|]]; try discriminate D. destruct (byte_eqb c4 x3d) eqn:P; [|discriminate D]. apply byte_eqb_eq in P. subst c4.
      assert ([n2b (p * 4 + q / 16)] = s) as <- by congruence. dm q 16.
      apply loose_1 with (p := p) (q := q) (e := q mod 16); [assumption|assumption|assumption|]. rewrite b2n_n2b_small by lia. lia. }
  destruct t as [|c4 t]; [discriminate D|]. assert (is_nl c4 = false) as N4 by (apply NL; right; right; right; now left).
  cbn [b64_decode_from app] in D. rewrite N4 in D. apply val_digit in V3. pose proof (digit_bound _ _ V3).
  destruct (b64_val c4) as [u|] eqn:V4.
  - apply val_digit in V4. pose proof (digit_bound _ _ V4). destruct (b64_decode_from [] t) as [rest|e|] eqn:R; try discriminate D. cbn [bind] in D.
    assert (n2b (p * 4 + q / 16) :: n2b (q * 16 + r / 4) :: n2b (r * 64 + u) :: rest = s) as <- by congruence.
    dm q 16. dm r 4. dm (q * 16 + r / 4) 256. dm (r * 64 + u) 256.
    apply loose_3 with (p := p) (q := q) (r := r) (u := u); try assumption.
    + rewrite (b2n_n2b_small (p * 4 + q / 16)) by lia. rewrite !b2n_n2b. lia.
    + apply IH; [cbn [length] in L; lia|intros x I; apply NL; do 4 right; exact I|exact R].
  - destruct (byte_eqb c4 x3d) eqn:P; [|discriminate D]. apply byte_eqb_eq in P. subst c4.
    rewrite filter_all in D by (intros x I; rewrite (NL x) by (do 4 right; exact I); reflexivity).
    destruct t; [|discriminate D]. assert ([n2b (p * 4 + q / 16); n2b (q * 16 + r / 4)] = s) as <- by congruence. dm q 16. dm r 4. dm (q * 16 + r / 4) 256.
    apply loose_2 with (p := p) (q := q) (r := r) (e := r mod 4); try assumption. rewrite (b2n_n2b_small (p * 4 + q / 16)) by lia. rewrite !b2n_n2b. lia.
Qed.

Lemma no_nl_in s c : In c (no_newlines s) -> is_nl c = false.
Proof. rewrite no_nl_eq. intros I. apply filter_In in I as [_ I]. now destruct (is_nl c). Qed.

Lemma b64_decode_iff t s : b64_decode t = Ok s <-> b64_loose (no_newlines t) s.
Proof.
  unfold b64_decode. rewrite decode_no_nl. split.
  - apply decode_loose_2 with (n := length (no_newlines t)); [lia|apply no_nl_in].
  - apply decode_loose_1. apply no_nl_in.
Qed.

Lemma b64_decode_no_panic t : b64_decode t <> Panic.
Proof.
  unfold b64_decode. enough (forall t q, b64_decode_from q t <> Panic) by auto. clear t.
  induction t as [|c t IH]; intros q; [destruct q; discriminate|]. cbn [b64_decode_from].
  destruct (b64_val c) as [v|].
  - destruct q as [|x [|y [|z [|w q]]]]; try apply IH. specialize (IH []). destruct (b64_decode_from [] t); cbn [bind]; [discriminate|discriminate|exact IH].
  - destruct (is_nl c); [apply IH|]. destruct (byte_eqb c x3d); [|discriminate].
    destruct q as [|x [|y [|z [|w q]]]]; try discriminate; destruct (filter _ t) as [|p [|]]; try discriminate. destruct (byte_eqb p x3d); discriminate.
Qed.

Lemma text_loose t s : b64_text t s -> b64_loose t s.
Proof.
  induction 1 as [|a p q cp cq Dp Dq V|a b p q r cp cq cr Dp Dq Dr V|a b c p q r u cp cq cr cu t s Dp Dq Dr Du V H IH]; [constructor|..].
  - apply loose_1 with (p := p) (q := q) (e := 0); try assumption; lia.
  - apply loose_2 with (p := p) (q := q) (r := r) (e := 0); try assumption; lia.
  - now apply loose_3 with (p := p) (q := q) (r := r) (u := u).
Qed.

Lemma text_no_nl t s : b64_text t s -> no_newlines t = t.
Proof.
  intros H. rewrite no_nl_eq. apply filter_all. intros x I. enough (is_nl x = false) as -> by reflexivity.
  assert (forall n c, b64_digit n c -> is_nl c = false) as G.
  { intros n c D. apply val_digit in D. destruct (is_nl c) eqn:Z; [|reflexivity]. rewrite (nl_val _ Z) in D. discriminate D. }
  induction H; cbn [In] in I; repeat match goal with I : _ \/ _ |- _ => destruct I as [<-|I] end; eauto; try contradiction; reflexivity.
Qed.

Lemma b64_round s : b64_decode (b64_encode s) = Ok s.
Proof. apply b64_decode_iff. pose proof (encode_text s) as H. rewrite (text_no_nl _ _ H). now apply text_loose. Qed.

Lemma text_len t s : b64_text t s -> length t = (4 * ((length s + 2) / 3))%nat.
Proof.
  induction 1; [reflexivity..|]. cbn [length]. rewrite IHb64_text.
  replace (S (S (S (length s))) + 2)%nat with ((length s + 2) + 1 * 3)%nat by lia. rewrite Nat.div_add by discriminate. lia.
Qed.
