(** C106: the byte named by the error of a failed base64 decoding. *)
From Verif Require Import S_Fault P_Fault P_Encryption T_Encryption T_Cut.
From Coq Require Import Lia ZifyBool ZifyNat ZifyN.

(** The offset is determined by the text as specified; there is one exactly if the text is not accepted. *)
Theorem C106_offset : forall p,
  (forall k, b64_fault p = Some k <-> offends p k) /\
  (forall k k', offends p k -> offends p k' -> k = k') /\
  ((exists k, offends p k) <-> b64_decode p = Err EBase64) /\
  (b64_fault p = None <-> exists s, b64_loose (no_newlines p) s) /\
  (b64_fault p = None <-> (plain p /\ (digits p mod 4 = 0)%nat) \/ exists w nl, p = w ++ nl /\ padded w /\ blank nl).
Proof.
  intros p. split; [intros k; apply fault_iff|]. split; [|split; [|split] ].
  - intros k k' O O'. apply offends_fault in O, O'. rewrite O in O'. now injection O'.
  - pose proof (fault_decode p 0 [] ltac:(cbn [length]; lia)) as F. cbn [length] in F. unfold b64_decode.
    destruct (cases p) as [R|(k & O)].
    + pose proof (right_fault p R) as E. split.
      * intros (k & O). apply offends_fault in O. rewrite O in E. discriminate E.
      * intros H. apply F in E as (t & E). rewrite E in H. discriminate H.
    + split; [intros _|intros _; now exists k]. destruct (b64_decode_from [] p) as [t|e|] eqn:E.
      * assert (b64_fault_from 0 0 p = None) as Q by (apply F; now exists t). apply offends_fault in O. unfold b64_fault in O. rewrite O in Q. discriminate Q.
      * f_equal. now apply decode_err_only in E.
      * now apply b64_decode_no_panic in E.
  - pose proof (fault_decode p 0 [] ltac:(cbn [length]; lia)) as F. cbn [length] in F. unfold b64_fault. rewrite F.
    split; intros (t & H); exists t; now apply b64_decode_iff.
  - split; [|apply right_fault]. intros H. destruct (cases p) as [R|(k & O)]; [exact R|]. apply offends_fault in O. rewrite O in H. discriminate H.
Qed.
Print Assumptions C106_offset.

Lemma plain_firstn l n : plain l -> plain (firstn n l).
Proof. intros P. revert n. induction P as [|c l D P IH]; intros [|n]; cbn [firstn]; constructor; [exact D|apply IH]. Qed.

(** An offset is no larger than the text, and everything before it is a digit, a newline or padding. *)
Theorem C106_before : forall p k, offends p k -> k <= nlen p /\
  forall i c, N.of_nat i < k -> nth_error p i = Some c -> digit c \/ newline c \/ c = x3d.
Proof.
  assert (forall l i c, plain l -> nth_error l i = Some c -> digit c \/ newline c \/ c = x3d) as A.
  { intros l i c P H. apply nth_error_In in H. unfold plain in P. rewrite Forall_forall in P. destruct (P c H); auto. }
  assert (forall l i c, blank l -> nth_error l i = Some c -> digit c \/ newline c \/ c = x3d) as B.
  { intros l i c P H. apply nth_error_In in H. unfold blank in P. rewrite Forall_forall in P. auto. }
  assert (forall a b i (c : byte), nth_error (a ++ b) i = Some c -> (nth_error a i = Some c /\ (i < length a)%nat) \/
            ((length a <= i)%nat /\ nth_error b (i - length a) = Some c)) as S.
  { intros a b i c H. destruct (Nat.lt_ge_cases i (length a)) as [L|L]; [left|right]; split; try exact L.
    - now rewrite nth_error_app1 in H by exact L.
    - now rewrite nth_error_app2 in H by exact L. }
  intros p k [l c r P D N Q|l r P D|l P D|l nl P D Bl|l nl c r P D Bl N Q|w nl c r W Bl N]; unfold nlen in *.
  - split; [rewrite app_length; lia|]. intros i x L H. apply S in H as [(H & _)|(H & _)]; [eapply A; eassumption|lia].
  - split; [rewrite app_length; lia|]. intros i x L H. apply S in H as [(H & _)|(H & _)]; [eapply A; eassumption|lia].
  - split; [lia|]. intros i x L H. eapply A; eassumption.
  - split; [rewrite app_length; cbn [length]; lia|]. intros i x L H. apply S in H as [(H & _)|(H & H')]; [eapply A; eassumption|].
    destruct (i - length l)%nat as [|j]; cbn [nth_error] in H'; [injection H' as <-; auto|eapply B; eassumption].
  - split; [rewrite app_length; cbn [length]; rewrite app_length; lia|]. intros i x L H. apply S in H as [(H & _)|(H & H')]; [eapply A; eassumption|].
    destruct (i - length l)%nat as [|j] eqn:J; cbn [nth_error] in H'; [injection H' as <-; auto|].
    apply S in H' as [(H' & _)|(H' & _)]; [eapply B; eassumption|lia].
  - split; [rewrite !app_length; lia|]. intros i x L H. apply S in H as [(H & _)|(H & H')].
    + destruct W as [l P D|l nl' P D B'].
      * apply S in H as [(H & _)|(_ & H)]; [eapply A; eassumption|]. destruct (i - length l)%nat as [|[|j] ]; cbn [nth_error] in H; [injection H as <-; auto|discriminate H|discriminate H].
      * apply S in H as [(H & _)|(_ & H)]; [eapply A; eassumption|]. destruct (i - length l)%nat as [|j]; cbn [nth_error] in H; [injection H as <-; auto|].
        apply S in H as [(H & _)|(_ & H)]; [exact (B _ _ _ B' H)|]. destruct (j - length nl')%nat as [|[|j'] ]; cbn [nth_error] in H; [injection H as <-; auto|discriminate H|discriminate H].
    + apply S in H' as [(H' & _)|(H' & _)]; [eapply B; eassumption|lia].
Qed.
Print Assumptions C106_before.

(** Decrypt's message: the offset counts bytes of the decrypted text. *)
Theorem C106_decrypt : forall E iv body p, (forall b, length b = 16%nat -> length (E b) = 16%nat) -> length iv = 16%nat -> cfb E iv p body ->
  (forall t, decrypt_says (mk_block 16 E) (iv ++ body) = Some t <-> exists k, offends p k /\ t = str "illegal base64 data at input byte " ++ dec k) /\
  (decrypt_says (mk_block 16 E) (iv ++ body) = None <-> exists s, fst (decrypt (mk_block 16 E) (iv ++ body)) = Ok s) /\
  (forall c, (length c < 16)%nat -> decrypt_says (mk_block 16 E) c = Some (str "ciphertext too short")).
Proof.
  intros E iv body p LE Li C.
  assert (decrypt (mk_block 16 E) (iv ++ body) = (b64_decode p, iv ++ p)) as D.
  { unfold decrypt. cbn [blk_size blk_enc]. assert ((length (iv ++ body) <? 16)%nat = false) as -> by (apply Nat.ltb_ge; rewrite app_length; lia).
    change (negb (Nat.eqb 16 16)) with false. cbv iota zeta. rewrite firstn_app, skipn_app, Li, Nat.sub_diag, firstn_all2, skipn_all2 by lia. cbn [firstn skipn app]. rewrite app_nil_r.
    assert (cfb_decrypt (length body) E 16 iv body = p) as ->; [|reflexivity].
    symmetry. apply (cfb_inv E LE iv p body Li C). apply (decrypt_cfb E LE); [lia|exact Li]. }
  unfold decrypt_says. rewrite D. cbn [fst].
  assert (skipn 16 (iv ++ p) = p) as -> by (rewrite skipn_app, Li, Nat.sub_diag, skipn_all2 by lia; reflexivity).
  destruct (C106_offset p) as (F1 & _ & F3 & F4 & _). split; [|split].
  - intros t. destruct (b64_decode p) as [s|e|] eqn:B.
    + split; [discriminate|]. intros (k & O & _). assert (Ok s = Err EBase64) as Q by (apply F3; now exists k). discriminate Q.
    + assert (e = EBase64) as -> by (unfold b64_decode in B; now apply decode_err_only in B).
      destruct (b64_fault p) as [k|] eqn:Fk.
      * split; [intros H; injection H as <-; exists k; split; [now apply F1|reflexivity]|].
        intros (k' & O & ->). apply F1 in O. injection O as <-. reflexivity.
      * split; [discriminate|]. intros (k & O & _). apply F1 in O. discriminate O.
    + now apply b64_decode_no_panic in B.
  - destruct (b64_decode p) as [s|e|] eqn:B.
    + split; [intros _; now exists s|reflexivity].
    + assert (e = EBase64) as -> by (unfold b64_decode in B; now apply decode_err_only in B).
      split; [|intros (s & Q); discriminate Q]. destruct (b64_fault p) as [k|] eqn:Fk; [discriminate|].
      intros _. destruct (proj1 F4 eq_refl) as (s & Q). apply b64_decode_iff in Q. rewrite B in Q. discriminate Q.
    + now apply b64_decode_no_panic in B.
  - intros c L. destruct (C52_too_short (mk_block 16 E) c L) as (e & Q). unfold decrypt. apply Nat.ltb_lt in L. rewrite L. reflexivity.
Qed.
Print Assumptions C106_decrypt.

Lemma b64_shape b s : b64_text b s -> exists l, Forall digit l /\
  ((b = l /\ (length l mod 4 = 0)%nat) \/ (b = l ++ [x3d] /\ (length l mod 4 = 3)%nat) \/ (b = l ++ [x3d; x3d] /\ (length l mod 4 = 2)%nat)).
Proof.
  induction 1 as [|a p q cp cq P Q _|a b p q r cp cq cr P Q R _|a b c p q r u cp cq cr cu t s P Q R U _ _ (l & F & H)].
  - exists []. split; [constructor|]. left. split; reflexivity.
  - exists [cp; cq]. split; [repeat constructor; eexists; eassumption|]. right. right. split; reflexivity.
  - exists [cp; cq; cr]. split; [repeat constructor; eexists; eassumption|]. right. left. split; reflexivity.
  - exists (cp :: cq :: cr :: cu :: l). split; [repeat constructor; try exact F; eexists; eassumption|].
    assert (length (cp :: cq :: cr :: cu :: l) mod 4 = length l mod 4)%nat as E.
    { replace (length (cp :: cq :: cr :: cu :: l)) with (length l + 1 * 4)%nat by (cbn [length]; lia). apply Nat.mod_add. discriminate. }
    rewrite E. destruct H as [(-> & M)|[(-> & M)|(-> & M)] ]; [left|right; left|right; right]; split; try exact M; reflexivity.
Qed.
Lemma digits_all l : Forall digit l -> digits l = length l /\ plain l.
Proof.
  induction 1 as [|c l D F (IH & P)]; [split; [reflexivity|constructor]|]. split; [|constructor; [now left|exact P] ].
  change (c :: l) with ([c] ++ l). rewrite digits_app, (digits_digit c D), IH. reflexivity.
Qed.
Lemma high c : 128 <= b2n c -> ~ digit c /\ ~ newline c /\ c <> x3d.
Proof.
  intros H. split; [|split].
  - apply not_digit. unfold b64_val.
    repeat match goal with |- context [if ?x then _ else _] => destruct x eqn:?; [exfalso; lia|] end. reflexivity.
  - intros [-> | ->]; change (b2n x0a) with 10 in *; change (b2n x0d) with 13 in *; lia.
  - intros ->. change (b2n x3d) with 61 in H. lia.
Qed.
Lemma split_at {A} (l : list A) i x : nth_error l i = Some x -> l = firstn i l ++ x :: skipn (S i) l.
Proof. revert i. induction l as [|y l IH]; intros [|i] H; cbn [nth_error firstn skipn app] in *; [discriminate H|discriminate H|now injection H as ->|]. f_equal. now apply IH. Qed.

(** Changing the highest bit of a byte of a ciphertext (and anything at all in the bytes after it) makes Decrypt name that byte,
    whatever the key, unless it is the second of two padding characters: then the byte before is named. *)
Theorem C106_tamper : forall E iv text c, cipher16 E -> length iv = 16%nat -> encrypt (mk_block 16 E) (Ok iv) text = Ok c ->
  exists b, b64_text b text /\ length c = (16 + length b)%nat /\
  forall i x x' c', nth_error c (16 + i) = Some x -> nth_error c' (16 + i) = Some x' -> firstn (16 + i) c' = firstn (16 + i) c ->
    (128 <= b2n x <-> b2n x' < 128) ->
    decrypt_says (mk_block 16 E) c' = Some (str "illegal base64 data at input byte " ++
      dec (if existsb (byte_eqb x3d) (firstn i b) then N.of_nat i - 1 else N.of_nat i)).
Proof.
  intros E iv text c HE Li En. destruct (C52_encrypt E iv text HE Li) as (b & body & En' & T & C & _). rewrite En in En'. injection En' as ->.
  pose proof (cfb_len E HE _ _ _ C) as Lb. exists b. split; [exact T|]. split; [rewrite app_length, Li, Lb; reflexivity|].
  intros i x x' c' X X' F Hi.
  assert (16 + i < length c')%nat as Lc by (apply nth_error_Some; rewrite X'; discriminate).
  destruct (decrypt_parts E c' HE ltac:(lia)) as (p & Cp & _).
  assert (firstn 16 c' = iv) as Fi.
  { replace 16%nat with (Nat.min 16 (16 + i)) at 1 by lia. rewrite <- firstn_firstn, F, firstn_firstn.
    replace (Nat.min 16 (16 + i)) with 16%nat by lia. rewrite firstn_app, Li, Nat.sub_diag, firstn_all2 by lia. cbn [firstn]. apply app_nil_r. }
  rewrite Fi in Cp. rewrite <- (firstn_skipn 16 c'), Fi. set (body' := skipn 16 c') in *.
  assert (c' = iv ++ body') as Ec by (rewrite <- Fi; symmetry; apply firstn_skipn).
  assert (forall l, (l < 16 + i)%nat -> nth_error (iv ++ body') l = nth_error (iv ++ body) l) as Sm.
  { intros l Ll. rewrite <- Ec. rewrite <- (nth_error_firstn' c' (16 + i) l Ll), F. now apply nth_error_firstn'. }
  assert (forall j, (j <= i)%nat -> key_at E (iv ++ body') j = key_at E (iv ++ body) j) as Ky.
  { intros j J. apply key_same. intros l (L1 & L2). apply Sm. pose proof (Nat.mul_div_le j 16 ltac:(discriminate)). lia. }
  assert (forall j, nth_error (iv ++ body') (16 + j) = nth_error body' j) as N1 by (intros j; rewrite nth_error_app2 by lia; f_equal; lia).
  assert (forall j, nth_error (iv ++ body) (16 + j) = nth_error body j) as N2 by (intros j; rewrite nth_error_app2 by lia; f_equal; lia).
  assert (length p = length body') as Lp by (apply (cfb_len E HE _ _ _ Cp)).
  assert (length body' = length c' - 16)%nat as Lb' by (unfold body'; apply skipn_length).
  (* before byte i nothing changes *)
  assert (firstn i p = firstn i b) as Fp.
  { apply nth_error_ext'. intros j. destruct (Nat.lt_ge_cases j i) as [J|J].
    - rewrite !nth_error_firstn' by exact J.
      assert (exists y, nth_error body' j = Some y) as (y & Y).
      { destruct (nth_error body' j) as [y|] eqn:Y; [now exists y|]. apply nth_error_None in Y. lia. }
      destruct (cfb_at_c E iv p body' HE Cp Li j y Y) as (z & Z & Bz). rewrite (Ky j ltac:(lia)) in Bz.
      rewrite <- N1, Sm, N2 in Y by lia.
      destruct (cfb_at_c E iv b body HE C Li j y Y) as (z' & Z' & Bz'). rewrite <- Bz' in Bz. apply b2n_inj in Bz. rewrite Z, Z', Bz. reflexivity.
    - rewrite (proj2 (nth_error_None (firstn i p) j)), (proj2 (nth_error_None (firstn i b) j)); [reflexivity| |]; rewrite firstn_length; lia. }
  rewrite Ec, N1 in X'. rewrite N2 in X.
  destruct (cfb_at_c E iv p body' HE Cp Li i x' X') as (z & Z & Bz). destruct (cfb_at_c E iv b body HE C Li i x X) as (w & W & Bw).
  rewrite (Ky i ltac:(lia)) in Bz.
  destruct (b64_shape b text T) as (l & Dl & Sh). destruct (digits_all l Dl) as (Nl & Pl).
  assert (forall q, In q b -> b2n q < 128) as Lo.
  { intros q I. assert (digit q \/ q = x3d) as [D| ->]; [|destruct (N.lt_ge_cases (b2n q) 128) as [H|H]; [exact H|now apply high in H as (H & _)]|reflexivity].
    assert (In q l -> digit q) as Q by (intros I'; rewrite Forall_forall in Dl; now apply Dl).
    destruct Sh as [(-> & _)|[(-> & _)|(-> & _)] ]; [left; now apply Q| |]; apply in_app_iff in I as [I|I]; try (left; now apply Q); right; cbn [In] in I; intuition. }
  assert (128 <= b2n z) as Hz.
  { pose proof (Lo w (nth_error_In _ _ W)) as Hw. pose proof (b2n_lt x) as Bx. pose proof (b2n_lt x') as Bx'.
    assert (forall n, n < 256 -> (N.testbit n 7 = true <-> 128 <= n)) as T7.
    { intros n H. rewrite N.testbit_eqb. change (2 ^ 7) with 128. split; intros Q.
      - apply N.eqb_eq in Q. destruct (N.lt_ge_cases n 128) as [L|L]; [rewrite N.div_small in Q by exact L; discriminate Q|exact L].
      - assert (n / 128 = 1) as ->; [|reflexivity]. symmetry. apply (N.div_unique n 128 1 (n - 128)); lia. }
    apply (T7 (b2n z)); [apply b2n_lt|]. rewrite Bz, N.lxor_spec.
    assert (N.testbit (b2n w) 7 = false) as Tw by (destruct (N.testbit (b2n w) 7) eqn:Q; [apply T7 in Q; [lia|apply b2n_lt]|reflexivity]).
    rewrite Bw, N.lxor_spec in Tw. pose proof (T7 (b2n x) Bx) as Tx. pose proof (T7 (b2n x') Bx') as Tx'.
    destruct (N.testbit (b2n x) 7), (N.testbit (b2n x') 7), (N.testbit (key_at E (iv ++ body) i) 7); cbn [xorb] in *; try reflexivity; try discriminate Tw.
    - assert (128 <= b2n x') by (apply Tx'; reflexivity). assert (128 <= b2n x) by (apply Tx; reflexivity). lia.
    - assert (~ 128 <= b2n x') by (intros Q; apply Tx' in Q; discriminate Q). assert (~ 128 <= b2n x) by (intros Q; apply Tx in Q; discriminate Q). lia. }
  apply high in Hz as (Hd & Hn & He).
  destruct (C106_decrypt E iv body' p HE Li Cp) as (Says & _). apply Says. eexists. split; [|reflexivity].
  rewrite (split_at p i z Z), Fp.
  assert (i < length b)%nat as Ib by (apply nth_error_Some; rewrite W; discriminate).
  assert (forall m, existsb (byte_eqb x3d) (firstn m l) = false) as Ex.
  { intros m. destruct (existsb (byte_eqb x3d) (firstn m l)) eqn:Q; [|reflexivity]. apply existsb_exists in Q as (q & I & Q).
    rewrite Forall_forall in Dl. assert (In q l) as I' by (rewrite <- (firstn_skipn m l); apply in_or_app; now left).
    assert (q = x3d) as -> by (destruct q; first [discriminate Q|reflexivity]). destruct (Dl x3d I') as (n & H). apply val_digit in H. discriminate H. }
  destruct (Nat.le_gt_cases i (length l)) as [I|I].
  - assert (firstn i b = firstn i l) as ->.
    { destruct Sh as [(-> & _)|[(-> & _)|(-> & _)] ]; [reflexivity| |]; rewrite firstn_app; replace (i - length l)%nat with 0%nat by lia; cbn [firstn]; apply app_nil_r. }
    rewrite Ex. replace (N.of_nat i) with (nlen (firstn i l)) by (unfold nlen; rewrite firstn_length; lia).
    apply bad_char; [now apply plain_firstn|exact Hd|exact Hn|exact He].
  - destruct Sh as [(-> & M)|[(-> & M)|(-> & M)] ]; [lia|rewrite app_length in Ib; cbn [length] in Ib; lia|].
    rewrite app_length in Ib. cbn [length] in Ib. assert (i = S (length l)) as -> by lia.
    assert (firstn (S (length l)) (l ++ [x3d; x3d]) = l ++ [x3d]) as ->.
    { rewrite firstn_app, firstn_all2 by lia. replace (S (length l) - length l)%nat with 1%nat by lia. reflexivity. }
    rewrite existsb_app. cbn [existsb]. change (byte_eqb x3d x3d) with true. rewrite orb_true_r.
    replace (N.of_nat (S (length l)) - 1) with (nlen l + nlen (@nil byte)) by (unfold nlen; cbn [length]; lia).
    rewrite <- app_assoc. cbn [app]. apply (bad_pad l [] z); [exact Pl|rewrite Nl; exact M|constructor|exact Hn|exact He].
Qed.
Print Assumptions C106_tamper.

(** Not the byte that is wrong: a character in the place of the second padding character, and a text that stops too early, name
    a byte that is in order. *)
Theorem C106_named_refuted : exists p q, b64_fault p = Some 2 /\ nth_error p 2 = Some x3d /\
  (exists s, b64_decode (firstn 3 p ++ [x3d]) = Ok s) /\
  b64_fault q = Some 4 /\ (exists c, nth_error q 4 = Some c /\ digit c) /\ exists s r, b64_decode (q ++ r) = Ok s.
Proof.
  exists (str "AA=A"), (str "AAAAAA"). split; [vm_compute; reflexivity|]. split; [reflexivity|].
  split; [eexists; vm_compute; reflexivity|]. split; [vm_compute; reflexivity|].
  split; [exists x41; split; [reflexivity|exists 0; reflexivity]|]. exists [x00; x00; x00; x00], (str "=="). vm_compute. reflexivity.
Qed.
Print Assumptions C106_named_refuted.

(** The offsets of encoding/base64's own test table. *)
Example C106_example :
  [b64_fault (str "!!!!"); b64_fault (str "===="); b64_fault (str "x==="); b64_fault (str "=AAA"); b64_fault (str "A=AA"); b64_fault (str "AA=A"); b64_fault (str "AA==A"); b64_fault (str "AAA=AAAA"); b64_fault (str "AAAAA"); b64_fault (str "AAAAAA"); b64_fault (str "A="); b64_fault (str "A=="); b64_fault (str "AA="); b64_fault (str "AA=="); b64_fault (str "AAA="); b64_fault (str "AAAA"); b64_fault (str "AAAAAA="); b64_fault (str "YWJjZA=====")]
  = [Some 0; Some 0; Some 1; Some 0; Some 1; Some 2; Some 4; Some 4; Some 4; Some 4; Some 1; Some 1; Some 3; None; None; None; Some 7; Some 8] /\
  b64_fault (str "A!" ++ [x0a]) = Some 1 /\ b64_fault (str "AAA=" ++ [x0a]) = None /\ b64_fault (str "A" ++ [x0a] ++ str "A") = Some 1 /\
  (let E := fun b : bytes => rev b in let iv := map n2b [0;1;2;3;4;5;6;7;8;9;10;11;12;13;14;15] in
   exists c, encrypt (mk_block 16 E) (Ok iv) (str "a") = Ok c /\ decrypt_says (mk_block 16 E) c = None /\
     decrypt_says (mk_block 16 E) (firstn 17 c ++ n2b (N.lxor (b2n (nth 17 c x00)) 128) :: skipn 18 c) = Some (str "illegal base64 data at input byte 1") /\
     decrypt_says (mk_block 16 E) (firstn 19 c ++ n2b (N.lxor (b2n (nth 19 c x00)) 128) :: skipn 20 c) = Some (str "illegal base64 data at input byte 2") /\
     decrypt_says (mk_block 16 E) (firstn 18 c) = Some (str "illegal base64 data at input byte 0")).
Proof.
  split; [vm_compute; reflexivity|]. split; [vm_compute; reflexivity|]. split; [vm_compute; reflexivity|]. split; [vm_compute; reflexivity|].
  eexists. split; [vm_compute; reflexivity|]. split; [vm_compute; reflexivity|]. split; [vm_compute; reflexivity|]. split; vm_compute; reflexivity.
Qed.
