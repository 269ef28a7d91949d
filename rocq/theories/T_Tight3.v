(** Which error: the statements of C39, C48, C51, C52, C54, C58, C68 made exact. *)
From Verif Require Import P_Pay.
From Verif Require Import S_Electrum P_Redeem P_Errors T_Tight2 M_Difficulty P_Encryption T_Encryption M_Tx.
From Coq Require Import ZifyBool ZifyNat ZifyN.

Lemma of_hex_no_panic s : of_hex s <> Panic.
Proof. unfold of_hex. destruct (hex_decode s) as [b [x|]]; discriminate. Qed.

(** C48: both functions fail with the error of the hexadecimal text. *)
Theorem C48_error_value : forall bits e,
  (expand_target_from bits = Err e <-> exists x, hex_fails bits x /\ e = EHex x) /\
  (expand_target_from_as_int bits = Err e <-> exists x, hex_fails bits x /\ e = EHex x).
Proof.
  intros bits e. unfold expand_target_from, expand_target_from_as_int.
  destruct (of_hex bits) as [b|e'|] eqn:O; cbn [bind]; [| |now apply of_hex_no_panic in O].
  - assert (~ exists x, hex_fails bits x /\ e = EHex x) as NF.
    { intros (x & F & _). assert (of_hex bits = Err (EHex x)) as Q by (apply of_hex_err; eauto). congruence. }
    assert (forall e', be_uint32 b <> Err e') as NE.
    { intros e'. unfold be_uint32. destruct b as [|? [|? [|? [|? ?]]]]; discriminate. }
    destruct (be_uint32 b) as [c|e'|] eqn:B; cbn [bind]; [|now elim (NE e')|split; split; try discriminate; tauto].
    split; (split; [|tauto]); [|discriminate].
    match goal with |- context[Nat.ltb ?a ?b] => destruct (Nat.ltb a b) end; discriminate.
  - apply of_hex_err in O as (x & -> & F).
    assert (forall e, Err (A := Z) (EHex x) = Err e <-> exists y, hex_fails bits y /\ e = EHex y) as Q.
    { intros e0. split; [intros E; injection E as <-; eauto|]. intros (y & F' & ->).
      apply hex_fails_iff in F as (d1 & F), F' as (d2 & F'). congruence. }
    split; [|apply Q]. rewrite <- Q. split; intros E; injection E as <-; reflexivity.
Qed.

(** C51: the thresholds below 2 and above 16 have an error each. *)
Theorem C51_error_iff : forall m e, new_redeem_script m = Err e <-> ((m < 2)%Z /\ e = ESigsMin) \/ ((16 < m)%Z /\ e = ESigsMax).
Proof.
  intros m e. unfold new_redeem_script. destruct (Z.ltb_spec m 2) as [L|L].
  - split; [intros E; injection E as <-; auto|]. intros [[_ ->]|[L' _]]; [reflexivity|lia].
  - destruct (Z.ltb_spec 16 m) as [L'|L'].
    + split; [intros E; injection E as <-; auto|]. intros [[L'' _]|[_ ->]]; [lia|reflexivity].
    + split; [discriminate|]. intros [[X _]|[X _]]; lia.
Qed.

Lemma derive_err H txt i j e : hd_derive H txt i j = Err e <-> derive_fails H txt i j e.
Proof.
  unfold hd_derive, derive_fails. destruct (hd_parse H txt) as [k|x|] eqn:P; cbn [bind].
  - destruct (hd_child H k i) as [k1|x|] eqn:C1; cbn [bind].
    + destruct (hd_child H k1 j) as [k2|x|] eqn:C2; cbn [bind].
      * split; [intros E; do 3 right; exists k, k1, k2; auto|].
        intros [E|[(k' & E & F)|[(k' & k1' & E & F & G)|(k' & k1' & k2' & E & F & G & Q)]]]; congruence.
      * split; [intros E; injection E as ->; do 2 right; left; exists k, k1; auto|].
        intros [E|[(k' & E & F)|[(k' & k1' & E & F & G)|(k' & k1' & k2' & E & F & G & Q)]]]; congruence.
      * split; [discriminate|]. intros [E|[(k' & E & F)|[(k' & k1' & E & F & G)|(k' & k1' & k2' & E & F & G & Q)]]]; congruence.
    + split; [intros E; injection E as ->; right; left; exists k; auto|].
      intros [E|[(k' & E & F)|[(k' & k1' & E & F & G)|(k' & k1' & k2' & E & F & G & Q)]]]; congruence.
    + split; [discriminate|]. intros [E|[(k' & E & F)|[(k' & k1' & E & F & G)|(k' & k1' & k2' & E & F & G & Q)]]]; congruence.
  - split; [intros E; injection E as ->; now left|].
    intros [E|[(k' & E & F)|[(k' & k1' & E & F & G)|(k' & k1' & k2' & E & F & G & Q)]]]; congruence.
  - split; [discriminate|]. intros [E|[(k' & E & F)|[(k' & k1' & E & F & G)|(k' & k1' & k2' & E & F & G & Q)]]]; congruence.
Qed.

(** AddPublicKey: a path that is not two indices, or the first step of the derivation that fails. *)
Theorem C51_add_error_iff : forall H rs k path rs' e, add_public_key H rs k path = Ok (rs', Some e) <->
  rs' = rs /\ ((length path <> 2%nat /\ e = EPath2) \/ exists i j, path = [i; j] /\ derive_fails H k i j e).
Proof.
  intros H rs k path rs' e.
  assert (forall p : list N, length p <> 2%nat -> (Ok (rs, Some EPath2) = Ok (rs', Some e) <->
    rs' = rs /\ ((length p <> 2%nat /\ e = EPath2) \/ exists i j, p = [i; j] /\ derive_fails H k i j e))) as W.
  { intros p L. split; [intros E; injection E as <- <-; auto|]. intros [-> [[_ ->]|(i & j & -> & _)]]; [reflexivity|now cbn in L]. }
  unfold add_public_key. destruct path as [|i [|j [|x r]]]; try (apply W; discriminate).
  pose proof (derive_err H k i j e) as D. destruct (hd_derive H k i j) as [p|x|] eqn:E.
  - split; [intros Q; injection Q as _ Q; discriminate|]. intros [_ [[L _]|(i' & j' & P & F)]]; [now cbn in L|].
    injection P as <- <-. apply D in F. discriminate F.
  - split.
    + intros Q. injection Q as <- ->. split; [reflexivity|]. right. exists i, j. split; [reflexivity|now apply D].
    + intros [-> [[L _]|(i' & j' & P & F)]]; [now cbn in L|]. injection P as <- <-. apply D in F. injection F as ->. reflexivity.
  - split; [discriminate|]. intros [_ [[L _]|(i' & j' & P & F)]]; [now cbn in L|].
    injection P as <- <-. apply D in F. discriminate F.
Qed.

(** C52: Decrypt fails exactly for fewer than 16 bytes, or when the decrypted text is not base64. *)
Lemma b64_err q s e : b64_decode_from q s = Err e -> e = EBase64.
Proof.
  revert q. induction s as [|c r IH]; intros q; cbn [b64_decode_from].
  - destruct q; [discriminate|]. intros E. now injection E.
  - destruct (b64_val c) as [v|].
    + destruct q as [|x [|y [|z [|w q]]]]; try apply IH. destruct (b64_decode_from [] r) as [t|x'|] eqn:D; cbn [bind]; [discriminate| |discriminate].
      intros E. injection E as <-. now apply (IH []).
    + destruct (is_nl c); [apply IH|]. destruct (byte_eqb c x3d); [|intros E; now injection E].
      destruct q as [|x [|y [|z [|w q]]]]; try (intros E; now injection E).
      * destruct (filter _ r) as [|p [|]]; try (intros E; now injection E). destruct (byte_eqb p x3d); [discriminate|intros E; now injection E].
      * destruct (filter _ r); [discriminate|intros E; now injection E].
Qed.

Theorem C52_error_iff : forall E c e, (forall b, length b = 16%nat -> length (E b) = 16%nat) ->
  (fst (decrypt (mk_block 16 E) c) = Err e <->
   ((length c < 16)%nat /\ e = ECipherShort) \/
   (exists iv body, c = iv ++ body /\ length iv = 16%nat /\ (forall p t, cfb E iv p body -> ~ b64_loose (no_newlines p) t) /\ e = EBase64)).
Proof.
  intros E c e HE. destruct (Nat.lt_ge_cases (length c) 16) as [L|L].
  - unfold decrypt. replace (Nat.ltb (length c) 16) with true by lia. cbn [fst]. split; [intros Q; injection Q as <-; auto|].
    intros [[_ ->]|(iv & body & -> & L' & _)]; [reflexivity|]. rewrite app_length in L. lia.
  - assert (exists iv body, c = iv ++ body /\ length iv = 16%nat) as (iv & body & -> & LI).
    { exists (firstn 16 c), (skipn 16 c). rewrite firstn_skipn, firstn_length. split; [reflexivity|lia]. }
    assert (forall e, fst (decrypt (mk_block 16 E) (iv ++ body)) = Err e -> e = EBase64) as V.
    { intros e0. unfold decrypt. cbv zeta. rewrite app_length, LI. replace (Nat.ltb (16 + length body) 16) with false by lia.
      cbn [blk_size blk_enc]. change (Nat.eqb 16 16) with true. cbn [negb fst]. apply b64_err. }
    pose proof (fun t => C52_decrypt_iff E iv body t HE LI) as I. split.
    + intros Q. right. exists iv, body. split; [reflexivity|]. split; [exact LI|]. split; [|now apply V].
      intros p t C B. destruct (I t) as [[_ J] _]. rewrite J in Q by eauto. discriminate Q.
    + intros [[L' _]|(iv' & body' & Q & LI' & F & ->)]; [lia|].
      apply app_eq_len in Q as [<- <-]; [|lia]. destruct (fst (decrypt (mk_block 16 E) (iv ++ body))) as [t|e'|] eqn:D.
      * exfalso. destruct (I t) as [[J _] _]. destruct (J eq_refl) as (p & C & B). now apply (F p t).
      * f_equal. now apply V.
      * destruct (I []) as [_ N]. now elim N.
Qed.

(** C54: the error names the first part that is too big; a hash puzzle fails for a hash that is not hexadecimal, or too long. *)
Theorem C54_error_iff : forall parts d secret pkh sats e,
  (output_op_return_parts parts = Err e <-> first_too_big parts e) /\
  (output_op_return d = Err e <-> 2 ^ 32 <= nlen d /\ e = EPartTooBig 0) /\
  (output_hash_puzzle secret pkh sats = Err e <->
     (exists x, hex_fails pkh x /\ e = EHex x) \/ (exists h, hex_dec pkh = Some h /\ 2 ^ 32 <= nlen h /\ e = EPartTooBig 0)).
Proof.
  intros parts d secret pkh sats e.
  assert (forall parts, output_op_return_parts parts = Err e <-> first_too_big parts e) as OP.
  { intros l. unfold output_op_return_parts, create_op_return_output. cbv zeta.
    match goal with |- context[append_push_data_array ?s l] => pose proof (array_error s l e) as A; destruct (append_push_data_array s l) as [x [e'|]] end;
      cbn [check bind snd] in *; rewrite <- A; split; try discriminate; intros Q; injection Q as <-; reflexivity. }
  split; [apply OP|]. split; [rewrite <- one_too_big, <- OP; reflexivity|].
  unfold output_hash_puzzle. destruct (of_hex pkh) as [h|e'|] eqn:O; cbn [bind]; [| |now apply of_hex_no_panic in O].
  - assert (hex_dec pkh = Some h) as HX by now apply of_hex_ok. cbv zeta.
    assert (~ exists x, hex_fails pkh x /\ e = EHex x) as NF.
    { intros (x & F & _). now rewrite (hex_fails_bad _ _ F) in HX. }
    assert (forall s d e, check (append_push_data s d) = Err e <-> 2 ^ 32 <= nlen d /\ e = EPartTooBig 0) as AE.
    { intros s d0 e0. rewrite <- one_too_big, <- (array_error s), <- push_array. destruct (append_push_data s d0) as [x [e'|]]; cbn [check snd];
        split; try discriminate; intros Q; injection Q as <-; reflexivity. }
    assert (forall s d, check (append_push_data s d) <> Panic) as AP.
    { intros s d0. destruct (append_push_data s d0) as [x [e'|]]; discriminate. }
    destruct (check (append_push_data (append_opcode [] OpHASH160) (hash160 secret))) as [s1|e1|] eqn:S1; cbn [bind]; [| |now apply AP in S1].
    2:{ apply AE in S1 as [B _]. exfalso. unfold nlen in B. rewrite hash160_length in B. now apply B. }
    match goal with |- context[check (append_push_data ?s h)] => pose proof (AE s h) as A; destruct (check (append_push_data s h)) as [s2|e2|] eqn:S2 end;
      cbn [bind]; [| |now apply AP in S2].
    + split; [discriminate|]. intros [N|(h' & HX' & B & ->)]; [tauto|]. assert (h' = h) as -> by congruence.
      assert (Ok s2 = Err (EPartTooBig 0)) as Q by now apply A. discriminate Q.
    + split; [intros Q; injection Q as <-; right; exists h; split; [exact HX|]; now apply A|].
      intros [N|(h' & HX' & B & ->)]; [tauto|]. assert (h' = h) as -> by congruence.
      assert (Err (A := bytes) e2 = Err (EPartTooBig 0)) as Q by (apply A; auto). injection Q as ->. reflexivity.
  - apply of_hex_err in O as (x & -> & F). split; [intros Q; injection Q as <-; left; eauto|].
    intros [(y & F' & ->)|(h & HX & _)]; [|now rewrite (hex_fails_bad _ _ F) in HX].
    apply hex_fails_iff in F as (d1 & F), F' as (d2 & F'). congruence.
Qed.

(** C58: which error the import reports: the first check that fails. *)
Lemma mapM_err {A B} (f : A -> res B) l e : mapM f l = Err e <->
  exists l1 x l2, l = l1 ++ x :: l2 /\ (forall y, In y l1 -> exists z, f y = Ok z) /\ f x = Err e.
Proof.
  induction l as [|x l IH]; cbn [mapM].
  - split; [discriminate|]. intros (l1 & y & l2 & E & _). destruct l1; discriminate.
  - split.
    + intros E. destruct (f x) as [y|e'|] eqn:X; cbn [bind] in E; [| |discriminate E].
      * destruct (mapM f l) as [zs|e'|]; try discriminate E. injection E as ->. destruct (proj1 IH eq_refl) as (l1 & w & l2 & -> & A1 & P).
        exists (x :: l1), w, l2. split; [reflexivity|]. split; [|exact P]. intros v [<-|I]; eauto.
      * injection E as ->. exists [], x, l. split; [reflexivity|]. split; [intros y []|exact X].
    + intros (l1 & w & l2 & E & A1 & P). destruct l1 as [|v l1]; cbn [app] in E.
      * injection E as -> ->. now rewrite P.
      * injection E as -> ->. destruct (A1 v ltac:(now left)) as (z & ->). cbn [bind].
        rewrite (proj2 IH); [reflexivity|]. exists l1, w, l2. split; [reflexivity|]. split; [intros y I; apply A1; now right|exact P].
Qed.

Lemma key_err H p e : electrum_key H p = Err e <-> key_fails H p e.
Proof.
  pose proof (electrum_key_cases H p) as C. destruct p as [|c t].
  - rewrite C. split; [discriminate|]. intros F. inversion F as [| |? ? ? ? ? ? (a & b & c & d & E & _)]; subst. destruct xpub; discriminate E.
  - destruct (byte_eqb c xff) eqn:X.
    + apply byte_eqb_eq in X. subst c. destruct (Nat.ltb (length t) 78 || Nat.odd (length t)) eqn:Y.
      * rewrite C. split; [discriminate|]. intros F. exfalso. apply orb_true_iff in Y. rewrite <- Nat.negb_even in Y.
        inversion F as [c' t' N|t' L1 L2 L3|p' xpub i j txt e' EL]; subst; [congruence|destruct Y as [Y|Y]; [lia|now rewrite L2 in Y]|].
        destruct EL as (a & b & c & d & Q & L & _). injection Q as Q. subst t. rewrite app_length, L in Y. cbn in Y. destruct Y; discriminate.
      * apply orb_false_iff in Y as [Y1 Y2]. destruct (Nat.eqb_spec (length t) 82) as [L|L].
        -- destruct C as (xpub & i & j & EL & ->). rewrite derive_err. split.
           ++ intros F. apply (kf_derive H _ xpub i j (b58_encode_missing_checksum xpub) e EL); [|exact F]. apply b58_of_iff. reflexivity.
           ++ intros F. inversion F as [c' t' N|t' L1 L2 L3|p' xpub' i' j' txt e' EL' B D]; subst; [congruence|congruence|].
              destruct (electrum_elem_inj _ _ _ _ _ _ _ EL EL') as (<- & <- & <-). apply b58_of_iff in B. subst txt. exact D.
        -- rewrite C. split.
           ++ intros E. injection E as <-. apply kf_path; [lia| |exact L]. rewrite <- Nat.negb_odd. now rewrite Y2.
           ++ intros F. inversion F as [c' t' N|t' L1 L2 L3|p' xpub' i' j' txt e' EL' B D]; subst; [congruence|reflexivity|]. exfalso.
              destruct EL' as (a & b & c & d & Q & L' & _). injection Q as Q. subst t. rewrite app_length, L' in L. now apply L.
    + rewrite C. assert (c <> xff) as N by (intros ->; discriminate X). split.
      * intros E. injection E as <-. now constructor.
      * intros F. inversion F as [c' t' N'|t' L1 L2 L3|p' xpub' i' j' txt e' EL' B D]; subst; [reflexivity|congruence|].
        destruct EL' as (a & b & c' & d & Q & _). congruence.
Qed.

Lemma keys_ok H m pubs : Forall2 (derived_key H) m pubs <-> mapM (electrum_key H) m = Ok pubs.
Proof. rewrite mapM_ok. split; intros F; induction F; constructor; try assumption; now apply electrum_key_ok. Qed.

Theorem C58_error_iff : forall H s e, redeem_from_electrum H s = Err e <->
  decode_string_parts s = Err e \/ exists bs ps, hex_dec s = Some bs /\ safe_elems bs ps /\ electrum_fails H ps e.
Proof.
  intros H s e. destruct (decode_string_parts s) as [ps|e'|] eqn:D.
  2:{ unfold redeem_from_electrum. rewrite D. cbn [bind]. split; [intros E; injection E as ->; now left|].
      intros [E|(bs & ps & HX & S & _)]; [now injection E as ->|]. unfold decode_string_parts in D. apply of_hex_ok in HX. rewrite HX in D. cbn [bind] in D.
      apply decode_ok_iff in S. congruence. }
  2:{ unfold redeem_from_electrum. rewrite D. cbn [bind]. split; [discriminate|].
      intros [E|(bs & ps & HX & S & _)]; [discriminate E|]. unfold decode_string_parts in D. apply of_hex_ok in HX. rewrite HX in D. cbn [bind] in D.
      apply decode_ok_iff in S. congruence. }
  assert (exists bs, hex_dec s = Some bs /\ decode_parts bs = Ok ps) as (bs & HX & DP).
  { unfold decode_string_parts in D. destruct (of_hex s) as [b|x|] eqn:O; cbn [bind] in D; try discriminate D. apply of_hex_ok in O. eauto. }
  assert ((Ok ps = Err e \/ (exists bs ps, hex_dec s = Some bs /\ safe_elems bs ps /\ electrum_fails H ps e)) <-> electrum_fails H ps e) as ->.
  { split.
    - intros [Q|(bs' & ps' & HX' & S & F)]; [discriminate Q|]. assert (bs' = bs) as -> by congruence. apply decode_ok_iff in S.
      assert (ps' = ps) as -> by congruence. exact F.
    - intros F. right. exists bs, ps. split; [exact HX|]. split; [now apply decode_ok_iff|exact F]. }
  assert (forall c0, (b2n c0 <? 82) || (95 <? b2n c0) = true -> Err (A := redeem) (if (b2n c0 + 256 - 80) mod 256 <? 2 then ESigsMin else ESigsMax15) = Err e ->
    (80 <= b2n c0 <= 81 /\ e = ESigsMin) \/ ((b2n c0 < 80 \/ 95 < b2n c0) /\ e = ESigsMax15)) as THR.
  { intros c0 R E. pose proof (b2n_lt c0). destruct (N.ltb_spec ((b2n c0 + 256 - 80) mod 256) 2) as [L|L]; injection E as <-; [left|right]; (split; [|reflexivity]).
    - destruct (N.lt_ge_cases (b2n c0) 80); [rewrite N.mod_small in L by lia; lia|]. replace (b2n c0 + 256 - 80) with (b2n c0 - 80 + 1 * 256) in L by lia.
      rewrite N.mod_add, N.mod_small in L by lia. lia.
    - destruct (N.lt_ge_cases (b2n c0) 80); [now left|]. replace (b2n c0 + 256 - 80) with (b2n c0 - 80 + 1 * 256) in L by lia.
      rewrite N.mod_add, N.mod_small in L by lia. lia. }
  assert (forall c0, 80 <= b2n c0 <= 81 -> (if (b2n c0 + 256 - 80) mod 256 <? 2 then ESigsMin else ESigsMax15) = ESigsMin) as TMIN.
  { intros c0 B. replace (b2n c0 + 256 - 80) with (b2n c0 - 80 + 1 * 256) by lia. rewrite N.mod_add, N.mod_small by lia.
    now replace (b2n c0 - 80 <? 2) with true by lia. }
  assert (forall c0, b2n c0 < 80 \/ 95 < b2n c0 -> (if (b2n c0 + 256 - 80) mod 256 <? 2 then ESigsMin else ESigsMax15) = ESigsMax15) as TMAX.
  { intros c0 B. pose proof (b2n_lt c0). destruct (N.lt_ge_cases (b2n c0) 80).
    - rewrite N.mod_small by lia. now replace (b2n c0 + 256 - 80 <? 2) with false by lia.
    - replace (b2n c0 + 256 - 80) with (b2n c0 - 80 + 1 * 256) by lia. rewrite N.mod_add, N.mod_small by lia.
      now replace (b2n c0 - 80 <? 2) with false by lia. }
  assert (forall A (l : list A) x b c, [x] = l ++ [b; c] -> False) as NO1.
  { intros A l x b c Q. apply (f_equal (@length _)) in Q. rewrite app_length in Q. cbn [length] in Q. lia. }
  destruct (Nat.lt_ge_cases (length ps) 3) as [L|L].
  - rewrite (electrum_short _ _ _ _ HX DP L). destruct ps as [|a r].
    { split; [intros E; injection E as <-; constructor|]. intros F. inversion F; subst. reflexivity. }
    destruct a as [|c0 a]; [split; [discriminate|intros F; inversion F]|].
    destruct ((b2n c0 <? 82) || (95 <? b2n c0)) eqn:R.
    { split; [intros E; destruct (THR c0 R E) as [[B ->]|[B ->]]; now constructor|].
      intros F. inversion F; subst; try lia; f_equal; [now apply TMIN|now apply TMAX]. }
    destruct r as [|q r].
    { split; [discriminate|]. intros F. exfalso. inversion F; subst; try lia;
      match goal with Q : _ ++ _ = [] |- _ => apply (f_equal (@length _)) in Q; rewrite app_length in Q; cbn [length] in Q; lia | _ => idtac end. }
    destruct r; [|cbn [length] in L; lia]. destruct q as [|cl q].
    { split; [discriminate|]. intros F. exfalso. inversion F; subst; try lia;
      match goal with Q : _ ++ _ = [_] |- _ => symmetry in Q; now apply NO1 in Q end. }
    destruct (byte_eqb cl xae) eqn:CL.
    + apply byte_eqb_eq in CL. subst cl. split; [discriminate|]. intros F. exfalso. inversion F; subst; try lia; try congruence;
      match goal with Q : _ ++ _ = [_] |- _ => symmetry in Q; now apply NO1 in Q end.
    + assert (cl <> xae) as N by (intros ->; discriminate CL). split; [intros E; injection E as <-; constructor; [lia|exact N]|].
      intros F. inversion F; subst; try lia; try reflexivity;
      match goal with Q : _ ++ _ = [_] |- _ => symmetry in Q; now apply NO1 in Q end.
  - destruct (three_split ps L) as (a & m & b & c & ->). rewrite (electrum_eq _ _ _ _ _ _ _ HX DP). unfold electrum_parts.
    destruct a as [|c0 a]; [split; [discriminate|intros F; inversion F]|].
    destruct ((b2n c0 <? 82) || (95 <? b2n c0)) eqn:R.
    { split; [intros E; destruct (THR c0 R E) as [[B ->]|[B ->]]; now constructor|].
      intros F. inversion F; subst; try lia; f_equal; [now apply TMIN|now apply TMAX]. }
    assert (forall q, m ++ [b; c] = [q] -> False) as NO2.
    { intros q Q. symmetry in Q. now apply NO1 in Q. }
    destruct b as [|cn b].
    { split; [discriminate|]. intros F. exfalso. inversion F; subst; try lia;
      match goal with Q : _ ++ _ = _ ++ _ |- _ => apply two_tail in Q as (_ & Q & _); discriminate Q | Q : _ ++ _ = [_] |- _ => now apply NO2 in Q
      | Q : [_] = _ ++ _ |- _ => symmetry in Q; now apply NO2 in Q end. }
    destruct c as [|cl c].
    { split; [discriminate|]. intros F. exfalso. inversion F; subst; try lia;
      match goal with Q : _ ++ _ = _ ++ _ |- _ => apply two_tail in Q as (_ & _ & Q); discriminate Q | Q : _ ++ _ = [_] |- _ => now apply NO2 in Q
      | Q : [_] = _ ++ _ |- _ => symmetry in Q; now apply NO2 in Q end. }
    destruct (byte_eqb cl xae) eqn:CL.
    2:{ assert (cl <> xae) as N by (intros ->; discriminate CL). split; [intros E; injection E as <-; constructor; [lia|exact N]|].
        intros F. inversion F; subst; try lia; try reflexivity;
        match goal with Q : _ ++ _ = _ ++ _ |- _ => apply two_tail in Q as (_ & _ & Q); congruence | Q : _ ++ _ = [_] |- _ => now apply NO2 in Q end. }
    apply byte_eqb_eq in CL. subst cl.
    pose proof (keys_ok H m) as FM.
    assert (forall k, k = (b2n cn + 176) mod 256 <-> k < 256 /\ b2n cn = (80 + k) mod 256) as CN.
    { intros k. pose proof (b2n_lt cn). pose proof (N.div_mod (b2n cn + 176) 256). pose proof (N.mod_lt (b2n cn + 176) 256).
      pose proof (N.div_mod (80 + k) 256). pose proof (N.mod_lt (80 + k) 256). split; intros; nia. }
    destruct (mapM (electrum_key H) m) as [keys|e'|] eqn:M; cbn [bind].
    + pose proof (proj2 (FM keys) eq_refl) as FK. assert (nlen m = nlen keys) as LM by (unfold nlen; f_equal; now apply F2_length in FK).
      destruct (N.eqb_spec (nlen keys) ((b2n cn + 176) mod 256)) as [K|K].
      * split; [discriminate|]. intros F. exfalso. apply CN in K as [K1 K2]. rewrite <- LM in *.
        inversion F; subst; try lia; try (match goal with Q : [_] = _ ++ _ |- _ => symmetry in Q; now apply NO2 in Q | Q : _ ++ _ = [_] |- _ => now apply NO2 in Q end).
        -- match goal with Q : _ ++ _ = _ ++ _ |- _ => apply two_tail in Q as (_ & _ & Q); congruence end.
        -- match goal with Q : _ ++ _ = _ ++ _ |- _ => apply two_tail in Q as (Q & _ & _) end. subst m.
           match goal with Q : key_fails H _ _ |- _ => apply key_err in Q end.
           apply (mapM_ok (electrum_key H)) in M. apply Forall2_app_inv_l in M as (k1 & k2 & _ & M & _). inversion M; subst. congruence.
        -- match goal with Q : _ ++ _ = _ ++ _ |- _ => apply two_tail in Q as (Q & Q2 & _) end. subst. injection Q2 as <- <-. lia.
      * split.
        -- intros E. injection E as <-. apply (ef_count H c0 a m keys cn b c); [lia|exact FK|]. destruct (N.lt_ge_cases (nlen m) 256); [left|now right].
           intros K2. apply K. apply CN. rewrite <- LM. auto.
        -- intros F. inversion F; subst; try lia; try (match goal with Q : [_] = _ ++ _ |- _ => symmetry in Q; now apply NO2 in Q | Q : _ ++ _ = [_] |- _ => now apply NO2 in Q end); try reflexivity.
           ++ match goal with Q : _ ++ _ = _ ++ _ |- _ => apply two_tail in Q as (_ & _ & Q); congruence end.
           ++ match goal with Q : _ ++ _ = _ ++ _ |- _ => apply two_tail in Q as (Q & _ & _) end. subst m.
              match goal with Q : key_fails H _ _ |- _ => apply key_err in Q end.
              apply (mapM_ok (electrum_key H)) in M. apply Forall2_app_inv_l in M as (k1 & k2 & _ & M & _). inversion M; subst. congruence.
    + split.
      * intros E. injection E as ->. apply mapM_err in M as (l1 & x & l2 & -> & A & P). apply ef_key; [lia| |now apply key_err].
        intros q I. destruct (A q I) as (z & Z). exists z. now apply electrum_key_ok.
      * intros F. inversion F; subst; try lia; try (match goal with Q : [_] = _ ++ _ |- _ => symmetry in Q; now apply NO2 in Q | Q : _ ++ _ = [_] |- _ => now apply NO2 in Q end).
        -- match goal with Q : _ ++ _ = _ ++ _ |- _ => apply two_tail in Q as (_ & _ & Q); congruence end.
        -- match goal with Q : _ ++ _ = _ ++ _ |- _ => apply two_tail in Q as (Q & _ & _) end. subst m.
           match goal with |- Err e' = Err ?z => assert (mapM (electrum_key H) (l1 ++ p :: l2) = Err z) as QQ; [|rewrite M in QQ; injection QQ as ->; reflexivity] end.
           apply mapM_err. do 3 eexists. split; [reflexivity|]. split; [|now apply key_err].
           intros y I. match goal with Q : forall q, In q _ -> _ |- _ => destruct (Q y I) as (z & Z) end. exists z. now apply electrum_key_ok.
        -- match goal with Q : _ ++ _ = _ ++ _ |- _ => apply two_tail in Q as (Q & _ & _) end. subst m.
           match goal with Q : Forall2 _ _ _ |- _ => apply FM in Q; discriminate Q end.
    + split; [discriminate|]. intros F. exfalso. inversion F; subst; try lia; try (match goal with Q : [_] = _ ++ _ |- _ => symmetry in Q; now apply NO2 in Q | Q : _ ++ _ = [_] |- _ => now apply NO2 in Q end).
      * match goal with Q : _ ++ _ = _ ++ _ |- _ => apply two_tail in Q as (_ & _ & Q); congruence end.
      * match goal with Q : _ ++ _ = _ ++ _ |- _ => apply two_tail in Q as (Q & _ & _) end. subst m.
        assert (mapM (electrum_key H) (l1 ++ p :: l2) = Err e) as Q; [|rewrite M in Q; discriminate Q].
        apply mapM_err. do 3 eexists. split; [reflexivity|]. split; [|now apply key_err].
        intros y I. match goal with Q : forall q, In q _ -> _ |- _ => destruct (Q y I) as (z & Z) end. exists z. now apply electrum_key_ok.
      * match goal with Q : _ ++ _ = _ ++ _ |- _ => apply two_tail in Q as (Q & _ & _) end. subst m.
        match goal with Q : Forall2 _ _ _ |- _ => apply FM in Q; discriminate Q end.
Qed.

(** C68: DecodeStringParts and NewFromUTXO. *)
Theorem C68_error_more : forall s txid index sats seq e,
  (decode_string_parts s = Err e <-> (exists x, hex_fails s x /\ e = EHex x) \/ exists b, hex_text s b /\ decode_parts b = Err e) /\
  (input_from_utxo txid index sats s seq = Err e <-> exists x, hex_fails s x /\ e = EHex x).
Proof.
  intros s txid index sats seq e. unfold decode_string_parts, input_from_utxo, script_from_hex.
  destruct (of_hex s) as [b|e'|] eqn:O; cbn [bind]; [| |now apply of_hex_no_panic in O].
  - assert (hex_dec s = Some b) as HX by now apply of_hex_ok.
    assert (~ exists x, hex_fails s x /\ e = EHex x) as NF. { intros (x & F & _). now rewrite (hex_fails_bad _ _ F) in HX. }
    split; [|split; [discriminate|tauto]]. apply hex_text_iff in HX. split.
    + intros D. right. eauto.
    + intros [N|(b' & T & D)]; [tauto|]. assert (b' = b) as ->; [|exact D].
      apply hex_text_iff in T, HX. congruence.
  - apply of_hex_err in O as (x & -> & F).
    assert (forall A, Err (A := A) (EHex x) = Err e <-> exists y, hex_fails s y /\ e = EHex y) as Q.
    { intros A. split; [intros E; injection E as <-; eauto|]. intros (y & F' & ->).
      apply hex_fails_iff in F as (d1 & F), F' as (d2 & F'). congruence. }
    split; [|apply Q]. rewrite <- (Q (list bytes)). split; [now left|]. intros [E|(b & T & _)]; [exact E|].
    apply hex_text_iff in T. now rewrite (hex_fails_bad _ _ F) in T.
Qed.

Definition no_hd : hdlib := mk_hd unit (fun _ => Err (EExternal 7)) (fun k _ => Ok k) (fun _ => Ok []).
Example C58_error_ex :
  redeem_from_electrum no_hd (str "525") = Err (EHex HexErrLength) /\
  redeem_from_electrum no_hd (str "4cff") = Err ENotEnough /\
  redeem_from_electrum no_hd [] = Err EFiveParts /\
  redeem_from_electrum no_hd (str "5151ae") = Err ESigsMin /\
  redeem_from_electrum no_hd (str "6051ae") = Err ESigsMax15 /\
  redeem_from_electrum no_hd (str "5251ac") = Err ECheckMultisig /\
  redeem_from_electrum no_hd (str "5202ff00") = Err ECheckMultisig /\
  redeem_from_electrum no_hd (str "52515152ae") = Err EElectrumFF /\
  redeem_from_electrum no_hd (str "5251ae") = Err EKeyCount /\
  redeem_from_electrum no_hd (str "52" ++ hex_encode (x4c :: n2b 79 :: xff :: repeat x01 78) ++ str "51ae") = Err EPath2Items /\
  redeem_from_electrum no_hd (str "52" ++ hex_encode (x4c :: n2b 83 :: xff :: repeat x01 82) ++ str "51ae") = Err (EExternal 7).
Proof.
  split; [vm_compute; reflexivity|]. split; [vm_compute; reflexivity|]. split; [vm_compute; reflexivity|]. split; [vm_compute; reflexivity|].
  split; [vm_compute; reflexivity|]. split; [vm_compute; reflexivity|]. split; [vm_compute; reflexivity|]. split; [vm_compute; reflexivity|].
  split; [vm_compute; reflexivity|]. split; vm_compute; reflexivity.
Qed.

Print Assumptions C48_error_value.
Print Assumptions C51_error_iff.
Print Assumptions C51_add_error_iff.
Print Assumptions C52_error_iff.
Print Assumptions C54_error_iff.
Print Assumptions C58_error_iff.
Print Assumptions C68_error_more.
