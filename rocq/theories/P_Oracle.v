(** Lemmas: the outsider's program. *)
From Verif Require Export S_Oracle P_Encryption.
From Verif Require Import T_Encryption T_Cut.
From Coq Require Import Lia ZifyBool ZifyNat ZifyN.

Definition bxor (a b : byte) : byte := n2b (N.lxor (b2n a) (b2n b)).
Lemma b2n_bxor a b : b2n (bxor a b) = N.lxor (b2n a) (b2n b).
Proof. apply xor_byte. Qed.
Lemma bxor_assoc a b c : bxor (bxor a b) c = bxor a (bxor b c).
Proof. apply b2n_inj. rewrite !b2n_bxor. apply N.lxor_assoc. Qed.
Lemma bxor_comm a b : bxor a b = bxor b a.
Proof. apply b2n_inj. rewrite !b2n_bxor. apply N.lxor_comm. Qed.
Lemma bxor_self a : bxor a a = x00.
Proof. apply b2n_inj. rewrite b2n_bxor. apply N.lxor_nilpotent. Qed.
Lemma bxor_0 a : bxor a x00 = a.
Proof. apply b2n_inj. rewrite b2n_bxor. apply N.lxor_0_r. Qed.
Lemma bxor_cancel a b : bxor (bxor a b) b = a.
Proof. rewrite bxor_assoc, bxor_self. apply bxor_0. Qed.

(** ** guessing one character from the changes that are accepted *)
Definition deltas : bytes := map n2b (map N.of_nat (seq 1 255)).
Definition isd (c : byte) : bool := match b64_val c with Some _ => true | None => false end.
Definition isp (c : byte) : bool := byte_eqb c x3d.
Definition isdp (c : byte) : bool := isd c || isp c.
Definition expected (S : byte -> bool) (ch : byte) : list bool := map (fun d => S (bxor ch d)) deltas.
Fixpoint beqs (a b : list bool) : bool :=
  match a, b with [], [] => true | x :: r, y :: s => Bool.eqb x y && beqs r s | _, _ => false end.
Definition guess (bs : list bool) : byte :=
  match find (fun ch => (isd ch && beqs (expected isd ch) bs) || (isdp ch && beqs (expected isdp ch) bs) || (isp ch && beqs (expected isp ch) bs)) (x3d :: b64_alphabet) with
  | Some ch => ch | None => x00 end.

Definition sweep : bool :=
  forallb (fun ch => (negb (isd ch) || byte_eqb (guess (expected isd ch)) ch) && (negb (isdp ch) || byte_eqb (guess (expected isdp ch)) ch) &&
    (negb (isp ch) || byte_eqb (guess (expected isp ch)) ch)) (x3d :: b64_alphabet).
Lemma sweep_ok : sweep = true.
Proof. vm_compute. reflexivity. Qed.

Lemma isd_in ch : isd ch = true -> In ch b64_alphabet.
Proof.
  unfold isd. destruct (b64_val ch) as [n|] eqn:V; [|discriminate]. intros _. apply val_digit in V. unfold b64_digit in V. now apply nth_error_In in V.
Qed.
Lemma isp_eq ch : isp ch = true <-> ch = x3d.
Proof. unfold isp. split; intros H; [now apply byte_eqb_eq in H|subst; reflexivity]. Qed.
Lemma cand ch : isdp ch = true -> In ch (x3d :: b64_alphabet).
Proof. unfold isdp. intros H. apply orb_true_iff in H as [H|H]; [right; now apply isd_in|left; symmetry; now apply isp_eq]. Qed.
Lemma guess_ok S ch : S = isd \/ S = isdp \/ S = isp -> S ch = true -> guess (expected S ch) = ch.
Proof.
  intros HS H. pose proof sweep_ok as W. unfold sweep in W. rewrite forallb_forall in W.
  assert (isdp ch = true) as D by (unfold isdp; destruct HS as [-> | [-> | ->] ]; rewrite H || (unfold isdp in H; rewrite H) ; try reflexivity; apply orb_true_r).
  specialize (W ch (cand ch D)). apply andb_true_iff in W as [W W3]. apply andb_true_iff in W as [W1 W2].
  destruct HS as [-> | [-> | ->] ]; rewrite H in *; cbn [negb orb] in *; apply byte_eqb_eq; assumption.
Qed.

(** ** what four characters of base64 are accepted *)
Definition succ (r : res bytes) : bool := match r with Ok _ => true | _ => false end.
Definition quad_valid (a b c d : byte) : bool := isd a && isd b && ((isd c && isdp d) || (isp c && isp d)).
Definition all_nl (l : bytes) : bool := forallb is_nl l.

Lemma isd_nl c : is_nl c = true -> isd c = false.
Proof. unfold isd. intros H. now rewrite (nl_val _ H). Qed.
Lemma isp_nl c : is_nl c = true -> isp c = false.
Proof. destruct c; try discriminate; reflexivity. Qed.
Lemma isd_isp c : isp c = true -> isd c = false.
Proof. intros H. apply isp_eq in H. subst. reflexivity. Qed.
Lemma isdp_nl c : isdp c = true -> is_nl c = false.
Proof. destruct (is_nl c) eqn:N; [|reflexivity]. unfold isdp. rewrite (isd_nl _ N), (isp_nl _ N). discriminate. Qed.

Lemma succ_len t : succ (b64_decode t) = true -> (length (no_newlines t) mod 4 = 0)%nat.
Proof.
  unfold succ. destruct (b64_decode t) as [s|e|] eqn:D; [|discriminate..]. intros _. apply b64_decode_iff in D. now apply loose_mod4 in D.
Qed.
Lemma nl_decode t : all_nl t = true -> b64_decode t = Ok [].
Proof.
  unfold b64_decode. induction t as [|c t IH]; [reflexivity|]. cbn [all_nl forallb]. intros H. apply andb_true_iff in H as [H1 H2].
  cbn [b64_decode_from]. rewrite (nl_val _ H1), H1. now apply IH.
Qed.
Lemma no_nl_cons c t : no_newlines (c :: t) = if is_nl c then no_newlines t else c :: no_newlines t.
Proof. rewrite !no_nl_eq. cbn [filter]. destruct (is_nl c); reflexivity. Qed.

Lemma quad_ok a b c d : succ (b64_decode [a; b; c; d]) = all_nl [a; b; c; d] || quad_valid a b c d.
Proof.
  destruct (existsb is_nl [a; b; c; d]) eqn:X.
  - destruct (all_nl [a; b; c; d]) eqn:A; [now rewrite nl_decode|].
    assert (quad_valid a b c d = false) as ->.
    { cbn [existsb] in X. unfold quad_valid, isdp.
      destruct (is_nl a) eqn:Na; [now rewrite (isd_nl _ Na)|]. destruct (is_nl b) eqn:Nb; [rewrite (isd_nl _ Nb); now rewrite andb_false_r|].
      destruct (is_nl c) eqn:Nc; [rewrite (isd_nl _ Nc), (isp_nl _ Nc); now rewrite andb_false_r|]. destruct (is_nl d) eqn:Nd; [|discriminate X].
      rewrite (isd_nl _ Nd), (isp_nl _ Nd). rewrite !andb_false_r. reflexivity. }
    cbn [orb]. destruct (succ (b64_decode [a; b; c; d])) eqn:S; [exfalso|reflexivity]. apply succ_len in S. revert S A X. cbn [all_nl forallb existsb]. rewrite !no_nl_cons.
    destruct (is_nl a), (is_nl b), (is_nl c), (is_nl d); cbn; discriminate.
  - assert (all_nl [a; b; c; d] = false) as -> by (cbn [all_nl forallb existsb] in *; destruct (is_nl a); [discriminate X|reflexivity]). cbn [orb].
    cbn [existsb] in X. apply orb_false_iff in X as [Na X]. apply orb_false_iff in X as [Nb X]. apply orb_false_iff in X as [Nc X]. apply orb_false_iff in X as [Nd _].
    unfold b64_decode, quad_valid, isdp, isd, isp. cbn [b64_decode_from app].
    destruct (b64_val a) as [va|]; cbn [andb]; [|rewrite Na; destruct (byte_eqb a x3d); reflexivity].
    destruct (b64_val b) as [vb|]; cbn [andb]; [|rewrite Nb; destruct (byte_eqb b x3d); reflexivity].
    destruct (b64_val c) as [vc|] eqn:Vc; cbn [andb orb].
    + destruct (b64_val d) as [vd|]; cbn [bind orb succ]; [reflexivity|]. rewrite Nd. cbn [filter].
      destruct (byte_eqb d x3d); cbn [orb]; [reflexivity|]. now rewrite andb_false_r.
    + rewrite Nc. cbn [filter]. rewrite Nd. cbn [negb]. destruct (byte_eqb c x3d); cbn [andb]; [|reflexivity]. destruct (byte_eqb d x3d); reflexivity.
Qed.

Lemma digits_prefix r : forall pre z, length pre = (4 * r)%nat -> forallb isd pre = true -> succ (b64_decode (pre ++ z)) = succ (b64_decode z).
Proof.
  induction r as [|r IH]; intros pre z L D; [destruct pre; [reflexivity|cbn in L; lia]|].
  destruct pre as [|a [|b [|c [|d pre]]]]; try (cbn in L; lia). cbn [forallb] in D. cbn [length] in L.
  apply andb_true_iff in D as [Da D]. apply andb_true_iff in D as [Db D]. apply andb_true_iff in D as [Dc D]. apply andb_true_iff in D as [Dd D].
  unfold isd in Da, Db, Dc, Dd. unfold b64_decode in *. cbn [app b64_decode_from].
  destruct (b64_val a); [|discriminate Da]. destruct (b64_val b); [|discriminate Db]. destruct (b64_val c); [|discriminate Dc]. destruct (b64_val d); [|discriminate Dd].
  cbn [app]. rewrite <- (IH pre z ltac:(lia) D). destruct (b64_decode_from [] (pre ++ z)); reflexivity.
Qed.

(** one character of a valid quantum changed *)
Lemma quad_at (a b c d : byte) : quad_valid a b c d = true -> exists S0 S1 S2 S3 : byte -> bool,
  (S0 = isd \/ S0 = isdp \/ S0 = isp) /\ (S1 = isd \/ S1 = isdp \/ S1 = isp) /\ (S2 = isd \/ S2 = isdp \/ S2 = isp) /\ (S3 = isd \/ S3 = isdp \/ S3 = isp) /\
  S0 a = true /\ S1 b = true /\ S2 c = true /\ S3 d = true /\
  forall e, succ (b64_decode [e; b; c; d]) = S0 e /\ succ (b64_decode [a; e; c; d]) = S1 e /\
            succ (b64_decode [a; b; e; d]) = S2 e /\ succ (b64_decode [a; b; c; e]) = S3 e.
Proof.
  intros V. unfold quad_valid in V. apply andb_true_iff in V as [V Vc]. apply andb_true_iff in V as [Va Vb].
  assert (forall x, isd x = true -> is_nl x = false) as DN by (intros x Hx; apply isdp_nl; unfold isdp; now rewrite Hx).
  assert (isdp c = true /\ isdp d = true) as [Pc Pd].
  { unfold isdp in *. apply orb_true_iff in Vc as [Vc|Vc]; apply andb_true_iff in Vc as [V1 V2]; rewrite V1, V2; split; rewrite ?orb_true_r; reflexivity. }
  assert (forall e, succ (b64_decode [e; b; c; d]) = isd e) as G0.
  { intros e. rewrite quad_ok. cbn [all_nl forallb]. rewrite (DN b Vb), andb_false_r. cbn [orb]. unfold quad_valid. rewrite Vb, Vc. now rewrite !andb_true_r. }
  assert (forall e, succ (b64_decode [a; e; c; d]) = isd e) as G1.
  { intros e. rewrite quad_ok. cbn [all_nl forallb]. rewrite (DN a Va). cbn [andb orb]. unfold quad_valid. rewrite Va, Vc. cbn [andb]. now rewrite andb_true_r. }
  exists isd, isd. apply orb_true_iff in Vc as [Vc|Vc]; apply andb_true_iff in Vc as [V1 V2].
  - assert (exists S2, (S2 = isd \/ S2 = isdp \/ S2 = isp) /\ S2 c = true /\ forall e, succ (b64_decode [a; b; e; d]) = S2 e) as (S2 & I2 & C2 & G2).
    { destruct (isp d) eqn:Pp.
      - exists isdp. split; [tauto|]. split; [exact Pc|]. intros e. rewrite quad_ok. cbn [all_nl forallb]. rewrite (DN a Va). cbn [andb orb]. unfold quad_valid. rewrite Va, Vb, Pp. cbn [andb]. unfold isdp. rewrite Pp, orb_true_r, !andb_true_r. reflexivity.
      - exists isd. split; [tauto|]. split; [exact V1|]. intros e. rewrite quad_ok. cbn [all_nl forallb]. rewrite (DN a Va). cbn [andb orb]. unfold quad_valid. rewrite Va, Vb, Pp, Pd. cbn [andb]. now rewrite andb_false_r, orb_false_r, andb_true_r. }
    exists S2, isdp. split; [tauto|]. split; [tauto|]. split; [exact I2|]. split; [tauto|]. split; [exact Va|]. split; [exact Vb|]. split; [exact C2|]. split; [exact V2|].
    intros e. split; [apply G0|]. split; [apply G1|]. split; [apply G2|].
    rewrite quad_ok. cbn [all_nl forallb]. rewrite (DN a Va). cbn [andb orb]. unfold quad_valid. rewrite Va, Vb, V1. cbn [andb].
    assert (isp c = false) as -> by (destruct (isp c) eqn:Q; [apply isd_isp in Q; congruence|reflexivity]). cbn [andb]. now rewrite orb_false_r.
  - exists isdp, isp. split; [tauto|]. split; [tauto|]. split; [tauto|]. split; [tauto|]. split; [exact Va|]. split; [exact Vb|]. split; [exact Pc|]. split; [exact V2|].
    intros e. split; [apply G0|]. split; [apply G1|]. split.
    + rewrite quad_ok. cbn [all_nl forallb]. rewrite (DN a Va). cbn [andb orb]. unfold quad_valid. rewrite Va, Vb, V2. cbn [andb]. unfold isdp. rewrite V2, orb_true_r, !andb_true_r. reflexivity.
    + rewrite quad_ok. cbn [all_nl forallb]. rewrite (DN a Va). cbn [andb orb]. unfold quad_valid. rewrite Va, Vb, (isd_isp _ V1), V1. reflexivity.
Qed.

(** ** one block *)
Lemma xor_app a : forall b k, xor_bytes (a ++ b) k = xor_bytes a k ++ xor_bytes b (skipn (length a) k).
Proof.
  induction a as [|x a IH]; intros b k; [reflexivity|]. destruct k as [|y k]; [now destruct b|]. cbn [app xor_bytes length skipn]. now rewrite IH.
Qed.
Lemma xor_length a : forall k, (length a <= length k)%nat -> length (xor_bytes a k) = length a.
Proof. induction a as [|x a IH]; intros k L; [reflexivity|]. destruct k as [|y k]; cbn [length] in *; [lia|]. cbn [xor_bytes length]. rewrite IH by lia. reflexivity. Qed.

Lemma decrypt_block E P body : length P = 16%nat -> (0 < length body <= 16)%nat ->
  decrypt (mk_block 16 E) (P ++ body) = (b64_decode (xor_bytes body (E P)), P ++ xor_bytes body (E P)).
Proof.
  intros LP LB. unfold decrypt. rewrite app_length. replace (Nat.ltb (length P + length body) 16) with false by lia.
  assert (firstn 16 (P ++ body) = P) as -> by (rewrite firstn_app, LP, Nat.sub_diag, firstn_all2 by lia; apply app_nil_r).
  assert (skipn 16 (P ++ body) = body) as -> by (rewrite skipn_app, LP, Nat.sub_diag, skipn_all2 by lia; reflexivity).
  change (Nat.eqb 16 (blk_size (mk_block 16 E))) with true. cbn [negb blk_enc blk_size].
  assert (cfb_decrypt (length body) E 16 P body = xor_bytes body (E P)) as ->; [|reflexivity].
  destruct body as [|x r]; [cbn in LB; lia|]. change (length (x :: r)) with (S (length r)). cbn [cfb_decrypt].
  rewrite (firstn_all2 (n:=16)), (skipn_all2 (n:=16)) by (cbn [length] in *; lia). rewrite decrypt_nil. apply app_nil_r.
Qed.
Lemma answers_block E P body : length P = 16%nat -> (0 < length body <= 16)%nat -> answers E (P ++ body) = succ (b64_decode (xor_bytes body (E P))).
Proof. intros LP LB. unfold answers. rewrite decrypt_block by assumption. reflexivity. Qed.

Definition alter (s : nat) (d : byte) (y : bytes) : bytes := firstn s y ++ bxor (nth s y x00) d :: skipn (S s) y.
Definition quad_guess (o : bytes -> bool) (base y : bytes) : bytes :=
  map (fun s => guess (map (fun d => o (base ++ alter s d y)) deltas)) (seq 0 4).

Lemma quad_answer E P z a b c d r : length (E P) = 16%nat -> length P = 16%nat -> length z = (4 * r)%nat -> (r < 4)%nat ->
  forallb isd (xor_bytes z (E P)) = true ->
  answers E (P ++ z ++ [a; b; c; d]) = succ (b64_decode (xor_bytes [a; b; c; d] (skipn (4 * r) (E P)))).
Proof.
  intros LE LP LZ R D. rewrite answers_block by (rewrite ?app_length; cbn [length]; lia). rewrite xor_app, LZ. apply (digits_prefix r); [|exact D].
  rewrite xor_length by lia. exact LZ.
Qed.

Lemma four {A} (l : list A) : (4 <= length l)%nat -> exists a b c d r, l = a :: b :: c :: d :: r.
Proof. destruct l as [|a [|b [|c [|d r]]]]; cbn [length]; intros; try lia. eauto 6. Qed.

Lemma quad_guess_ok E P z y r a b c d : length (E P) = 16%nat -> length P = 16%nat -> length z = (4 * r)%nat -> (r < 4)%nat -> length y = 4%nat ->
  forallb isd (xor_bytes z (E P)) = true -> xor_bytes y (skipn (4 * r) (E P)) = [a; b; c; d] -> quad_valid a b c d = true ->
  quad_guess (answers E) (P ++ z) y = [a; b; c; d].
Proof.
  intros LE LP LZ R LY D X V.
  destruct (four (skipn (4 * r) (E P))) as (k0 & k1 & k2 & k3 & kr & K); [rewrite skipn_length; lia|]. rewrite K in X.
  destruct y as [|y0 [|y1 [|y2 [|y3 [|y4 yr]]]]]; try (cbn [length] in LY; lia). cbn [xor_bytes] in X.
  fold (bxor y0 k0) (bxor y1 k1) (bxor y2 k2) (bxor y3 k3) in X. injection X as <- <- <- <-.
  destruct (quad_at _ _ _ _ V) as (S0 & S1 & S2 & S3 & I0 & I1 & I2 & I3 & C0 & C1 & C2 & C3 & G).
  assert (forall y k e, bxor (bxor y e) k = bxor (bxor y k) e) as SW by (intros; rewrite !bxor_assoc, (bxor_comm e k); reflexivity).
  unfold quad_guess. cbn [seq map]. unfold alter. cbn [firstn skipn nth app].
  assert (forall l l', l = l' -> guess l = guess l') as GE by (intros; congruence).
  f_equal; [|f_equal; [|f_equal; [|f_equal]]].
  - rewrite <- (guess_ok S0 (bxor y0 k0) I0 C0) at 1. apply GE. unfold expected. apply map_ext. intros e. rewrite <- app_assoc, (quad_answer E P z _ _ _ _ r) by assumption. rewrite K. cbn [xor_bytes].
    fold (bxor (bxor y0 e) k0) (bxor y1 k1) (bxor y2 k2) (bxor y3 k3). rewrite SW. apply G.
  - rewrite <- (guess_ok S1 (bxor y1 k1) I1 C1) at 1. apply GE. unfold expected. apply map_ext. intros e. rewrite <- app_assoc, (quad_answer E P z _ _ _ _ r) by assumption. rewrite K. cbn [xor_bytes].
    fold (bxor (bxor y1 e) k1) (bxor y0 k0) (bxor y2 k2) (bxor y3 k3). rewrite SW. apply G.
  - rewrite <- (guess_ok S2 (bxor y2 k2) I2 C2) at 1. apply GE. unfold expected. apply map_ext. intros e. rewrite <- app_assoc, (quad_answer E P z _ _ _ _ r) by assumption. rewrite K. cbn [xor_bytes].
    fold (bxor (bxor y2 e) k2) (bxor y0 k0) (bxor y1 k1) (bxor y3 k3). rewrite SW. apply G.
  - rewrite <- (guess_ok S3 (bxor y3 k3) I3 C3) at 1. apply GE. unfold expected. apply map_ext. intros e. rewrite <- app_assoc, (quad_answer E P z _ _ _ _ r) by assumption. rewrite K. cbn [xor_bytes].
    fold (bxor (bxor y3 e) k3) (bxor y0 k0) (bxor y1 k1) (bxor y2 k2). rewrite SW. apply G.
Qed.

(** ** the characters of a ciphertext, one after the other *)
Definition q_base (c : bytes) (k : nat) : bytes := firstn 16 (skipn (16 * (k / 16)) c) ++ firstn (4 * (k mod 16 / 4)) (skipn (16 * (k / 16) + 16) c).
Definition q_quad (c : bytes) (k : nat) : bytes := firstn 4 (skipn (16 + 4 * (k / 4)) c).
Definition question (c : bytes) (k : nat) (d : byte) : bytes := q_base c k ++ alter (k mod 4) d (q_quad c k).

Lemma encode_quad x : (0 < length x <= 3)%nat -> exists a b c d, b64_encode x = [a; b; c; d] /\ quad_valid a b c d = true.
Proof.
  intros L. pose proof (b64_round x) as R. pose proof (text_len _ _ (encode_text x)) as LL.
  assert (length (b64_encode x) = 4)%nat as L4.
  { rewrite LL. assert (length x = 1 \/ length x = 2 \/ length x = 3)%nat as [-> | [-> | ->] ] by lia; reflexivity. }
  destruct (b64_encode x) as [|a [|b [|c [|d [|e r]]]]]; try discriminate L4. exists a, b, c, d. split; [reflexivity|].
  pose proof (quad_ok a b c d) as Q. rewrite R in Q. cbn [succ] in Q. destruct (all_nl [a; b; c; d]) eqn:A; [|symmetry; exact Q].
  rewrite (nl_decode _ A) in R. injection R as R. subst x. cbn in L. lia.
Qed.
Lemma char_isd n : n < 64 -> isd (b64_char n) = true.
Proof. intros L. unfold isd. apply digit_char, val_digit in L. now rewrite L. Qed.
Lemma encode_digits r : forall x, length x = (3 * r)%nat -> forallb isd (b64_encode x) = true /\ length (b64_encode x) = (4 * r)%nat.
Proof.
  induction r as [|r IH]; intros x L; [destruct x; [split; reflexivity|cbn in L; lia]|].
  destruct x as [|a [|b [|c x]]]; try (cbn [length] in L; lia). cbn [length] in L. destruct (IH x ltac:(lia)) as [I1 I2].
  cbn [b64_encode]. cbv zeta. cbn [forallb length]. rewrite I1, I2.
  pose proof (b2n_lt a). pose proof (b2n_lt b). pose proof (b2n_lt c).
  set (v := b2n a * 65536 + b2n b * 256 + b2n c).
  rewrite !char_isd; [split; [reflexivity|lia]|apply N.mod_lt; discriminate|apply N.mod_lt; discriminate|apply N.mod_lt; discriminate|].
  apply N.div_lt_upper_bound; [discriminate|]. unfold v. lia.
Qed.

Lemma skip_skip {A} n m (l : list A) : skipn n (skipn m l) = skipn (m + n) l.
Proof. revert l. induction m as [|m IH]; intros l; [reflexivity|]. destruct l; [now destruct n|]. apply IH. Qed.

Lemma block_plain E c p a m : cipher16 E -> (16 <= length c)%nat -> cfb E (firstn 16 c) p (skipn 16 c) -> (0 < m <= 16)%nat -> (16 * a + 16 + m <= length c)%nat ->
  xor_bytes (firstn m (skipn (16 * a + 16) c)) (E (firstn 16 (skipn (16 * a) c))) = firstn m (skipn (16 * a) p).
Proof.
  intros HE L C M LM. set (w := firstn (16 + m) (skipn (16 * a) c)).
  assert (length w = (16 + m)%nat) as LW by (unfold w; rewrite firstn_length, skipn_length; lia).
  destruct (decrypt_parts E w HE ltac:(lia)) as (q & Q & D).
  rewrite <- (window_plain E c p a m w q HE L C eq_refl LM Q).
  assert (w = firstn 16 (skipn (16 * a) c) ++ firstn m (skipn (16 * a + 16) c)) as W.
  { unfold w. replace (skipn (16 * a + 16) c) with (skipn 16 (skipn (16 * a) c)) by (rewrite skip_skip; f_equal; lia).
    generalize (skipn (16 * a) c). intros l. rewrite <- (firstn_skipn 16 (firstn (16 + m) l)). rewrite firstn_firstn. f_equal.
    rewrite skipn_firstn_comm. f_equal. lia. }
  assert (length (firstn 16 (skipn (16 * a) c)) = 16%nat) as L1 by (rewrite firstn_length, skipn_length; lia).
  assert (length (firstn m (skipn (16 * a + 16) c)) = m) as L2 by (rewrite firstn_length, skipn_length; lia).
  pose proof (decrypt_block E (firstn 16 (skipn (16 * a) c)) (firstn m (skipn (16 * a + 16) c)) L1 ltac:(lia)) as DB. rewrite <- W, D in DB.
  apply (f_equal snd) in DB. cbn [snd] in DB. rewrite W in DB at 1. rewrite firstn_app, L1, Nat.sub_diag, (firstn_all2 (n:=16) (firstn 16 _)), app_nil_r in DB by lia.
  apply app_inv_head in DB. symmetry. exact DB.
Qed.

Lemma nth_map_seq {A} (f : nat -> A) n s d : (s < n)%nat -> nth s (map f (seq 0 n)) d = f s.
Proof. intros L. rewrite (nth_indep _ d (f 0%nat)) by (rewrite map_length, seq_length; exact L). rewrite map_nth, seq_nth by exact L. reflexivity. Qed.
Lemma nth_skip {A} (l : list A) n i d : nth i (skipn n l) d = nth (n + i) l d.
Proof. revert l. induction n as [|n IH]; intros l; [reflexivity|]. destruct l; [now destruct i|]. apply IH. Qed.

Lemma char_ok E iv text c k : cipher16 E -> length iv = 16%nat -> encrypt (mk_block 16 E) (Ok iv) text = Ok c -> (k < length (b64_encode text))%nat ->
  guess (map (fun d => answers E (question c k d)) deltas) = nth k (b64_encode text) x00.
Proof.
  intros HE LI H K. destruct (encrypt_plain E iv text c HE LI H) as (LC & _ & C & LL).
  pose proof (text_len _ _ (encode_text text)) as LT.
  set (a := (k / 16)%nat). set (r := (k mod 16 / 4)%nat). set (s := (k mod 4)%nat).
  assert (k / 4 = 4 * a + r)%nat as K4. { unfold a, r. pose proof (Nat.div_mod k 16). pose proof (Nat.div_mod k 4). pose proof (Nat.div_mod (k mod 16) 4). pose proof (Nat.mod_upper_bound k 16). pose proof (Nat.mod_upper_bound k 4). pose proof (Nat.mod_upper_bound (k mod 16) 4). lia. }
  assert (k = 16 * a + 4 * r + s /\ s < 4 /\ r < 4)%nat as (EK & S4 & R4).
  { pose proof (Nat.div_mod k 4 ltac:(lia)) as DM. rewrite K4 in DM. fold s in DM. split; [lia|]. split; [apply Nat.mod_upper_bound; lia|]. unfold r. pose proof (Nat.mod_upper_bound k 16 ltac:(lia)).
    apply Nat.div_lt_upper_bound; lia. }
  set (N4 := ((length text + 2) / 3)%nat) in *.
  assert (16 * a + 4 * r + 4 <= length (b64_encode text))%nat as Q by lia.
  assert (12 * a + 3 * r < length text)%nat as LTX. { assert (4 * a + r < N4)%nat as X by lia. unfold N4 in X. pose proof (Nat.div_mod (length text + 2) 3 ltac:(lia)). pose proof (Nat.mod_upper_bound (length text + 2) 3 ltac:(lia)). lia. }
  set (P := firstn 16 (skipn (16 * a) c)). set (z := firstn (4 * r) (skipn (16 * a + 16) c)). set (y := firstn 4 (skipn (16 + 4 * (k / 4)) c)).
  assert (length P = 16%nat) as LP by (unfold P; rewrite firstn_length, skipn_length; lia).
  assert (length z = (4 * r)%nat) as LZ by (unfold z; rewrite firstn_length, skipn_length; lia).
  assert (length y = 4%nat) as LY by (unfold y; rewrite firstn_length, skipn_length; lia).
  pose proof (HE P LP) as LE.
  assert (z ++ y = firstn (4 * r + 4) (skipn (16 * a + 16) c)) as ZY.
  { unfold z, y. rewrite K4. replace (16 + 4 * (4 * a + r))%nat with (16 * a + 16 + 4 * r)%nat by lia.
    replace (skipn (16 * a + 16 + 4 * r) c) with (skipn (4 * r) (skipn (16 * a + 16) c)) by (rewrite skip_skip; f_equal; lia).
    generalize (skipn (16 * a + 16) c). intros l. rewrite <- (firstn_skipn (4 * r) (firstn (4 * r + 4) l)). rewrite firstn_firstn, skipn_firstn_comm. f_equal; f_equal; lia. }
  pose proof (block_plain E c _ a (4 * r + 4) HE LC C ltac:(lia) ltac:(lia)) as BP. fold P in BP. rewrite <- ZY, xor_app, LZ in BP.
  set (t := skipn (12 * a) text) in *.
  assert (skipn (16 * a) (b64_encode text) = b64_encode t) as SK by (replace (16 * a)%nat with (4 * (4 * a))%nat by lia; rewrite b64_skip; unfold t; do 2 f_equal; lia).
  rewrite SK in BP. rewrite <- (firstn_skipn (4 * r) (firstn (4 * r + 4) (b64_encode t))) in BP. rewrite firstn_firstn, skipn_firstn_comm in BP.
  replace (Nat.min (4 * r) (4 * r + 4)) with (4 * r)%nat in BP by lia. replace (4 * r + 4 - 4 * r)%nat with (4 * 1)%nat in BP by lia.
  rewrite b64_skip, !b64_first in BP.
  assert (length t = length text - 12 * a)%nat as Lt by (unfold t; apply skipn_length).
  destruct (encode_digits r (firstn (3 * r) t)) as [DG DL]; [rewrite firstn_length; lia|].
  apply app_len_inj in BP; [|rewrite DL, xor_length by lia; exact LZ]. destruct BP as [B1 B2].
  destruct (encode_quad (firstn (3 * 1) (skipn (3 * r) t))) as (q0 & q1 & q2 & q3 & EQ & V); [rewrite firstn_length, skipn_length; lia|].
  rewrite EQ in B2. rewrite <- B1 in DG.
  pose proof (quad_guess_ok E P z y r q0 q1 q2 q3 LE LP LZ R4 LY DG B2 V) as G.
  assert (nth s (quad_guess (answers E) (P ++ z) y) x00 = guess (map (fun d => answers E (question c k d)) deltas)) as NG.
  { unfold quad_guess. rewrite (nth_map_seq (fun s => guess (map (fun d => answers E ((P ++ z) ++ alter s d y)) deltas)) 4 s) by exact S4. reflexivity. }
  rewrite <- NG, G, <- EQ.
  rewrite <- (b64_first 1), <- b64_skip, <- SK, nth_firstn_lt by lia. rewrite !nth_skip. f_equal. lia.
Qed.
