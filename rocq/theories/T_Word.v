(** C93: the same bytes on a 32-bit platform. *)
From Verif Require Import S_Word S_Errors P_Word P_WordParts T_Errors T_Tx.
From Coq Require Import ZifyBool ZifyNat ZifyN.

(** The functions with the size of [int] as a parameter are, for 64 bits, the
    functions all other properties are about. *)
Lemma cmp64 n e : (e <? 4294967296) = true -> (Z.of_N n <? int_at 64 e)%Z = (n <? e).
Proof.
  intros H. unfold int_at, wrap_at. change (2 ^ (64 - 1))%Z with 9223372036854775808%Z.
  change (2 ^ 64)%Z with 18446744073709551616%Z. lia.
Qed.

Lemma part64 c b : decode_part_at 64 c b = decode_part c b.
Proof.
  destruct c; unfold decode_part_at, decode_part; cbv zeta;
    try (rewrite cmp64 by reflexivity; reflexivity); try reflexivity.
  - rewrite cmp64; [reflexivity|]. pose proof (b2n_lt (nth 1 b x00)). lia.
  - rewrite cmp64; [reflexivity|]. unfold wrap16. pose proof (N.mod_lt (3 + le_get (firstn 2 (skipn 1 b))) 65536). lia.
  - rewrite cmp64; [reflexivity|]. unfold wrap32. pose proof (N.mod_lt (5 + le_get (firstn 4 (skipn 1 b))) 4294967296). lia.
Qed.

Lemma loop64 fuel : forall r b, decode_loop_at 64 fuel r b = decode_loop fuel r b.
Proof.
  induction fuel as [|f IH]; intros r b; destruct b as [|c b]; try reflexivity.
  cbn [decode_loop_at decode_loop]. rewrite part64. destruct (decode_part c (c :: b)) as [[p b']|e|]; auto.
Qed.

Lemma parts64 b : decode_parts_at 64 b = decode_parts b.
Proof. unfold decode_parts_at, decode_parts, decode_parts_full. now rewrite loop64. Qed.

Lemma sign_step64 s i t : sign_auto_step_at 64 s i t = sign_auto_step s i t.
Proof.
  unfold sign_auto_step_at, sign_auto_step. destruct (or_panic (nth_error (inputs t) (N.to_nat i))) as [oin| |]; try reflexivity.
  cbn [bind]. destruct (deref oin) as [inp| |]; try reflexivity. cbn [bind].
  assert (get_public_key_hash_at 64 (prev_script inp) = get_public_key_hash (prev_script inp)) as ->; [|reflexivity].
  unfold get_public_key_hash_at, get_public_key_hash. destruct (prev_script inp) as [[|b0 r]|]; try reflexivity. now rewrite parts64.
Qed.

Lemma sign_loop64 s n : forall i t, sign_auto_loop_at 64 s i n t = sign_auto_loop s i n t.
Proof.
  induction n as [|n IH]; intros i t; [reflexivity|]. cbn [sign_auto_loop_at sign_auto_loop]. rewrite sign_step64.
  destruct (sign_auto_step s i t); try reflexivity. cbn [bind]. apply IH.
Qed.

Theorem C93_same_code : forall b slack s o H t k,
  tx_from_at 64 b = tx_from_slice b /\ tx_from_string_at 64 slack s = tx_from_string slack s /\
  input_from_at 64 b = input_from_bytes b /\ output_from_at 64 b = output_from_bytes b /\
  decode_parts_at 64 s = decode_parts s /\ decode_string_parts_at 64 s = decode_string_parts s /\
  script_to_asm_at 64 s = script_to_asm s /\ is_p2pk_at 64 s = is_p2pk s /\
  is_multisig_out_at 64 s = is_multisig_out s /\ get_public_key_hash_at 64 o = get_public_key_hash o /\
  redeem_from_electrum_at 64 H s = redeem_from_electrum H s /\ tx_sign_auto_at 64 t k = tx_sign_auto t k.
Proof.
  intros b slack s o H t k.
  split; [reflexivity|]. split; [reflexivity|]. split; [reflexivity|]. split; [reflexivity|].
  split; [apply parts64|].
  assert (decode_string_parts_at 64 s = decode_string_parts s) as DS.
  { unfold decode_string_parts_at, decode_string_parts. destruct (of_hex s); try reflexivity. cbn [bind]. apply parts64. }
  split; [exact DS|].
  split; [unfold script_to_asm_at, script_to_asm; now rewrite parts64|].
  split; [unfold is_p2pk_at, is_p2pk; now rewrite parts64|].
  split; [unfold is_multisig_out_at, is_multisig_out; now rewrite parts64|].
  split; [unfold get_public_key_hash_at, get_public_key_hash; destruct o as [[|b0 r]|]; try reflexivity; now rewrite parts64|].
  split; [unfold redeem_from_electrum_at, redeem_from_electrum; now rewrite DS|].
  unfold tx_sign_auto_at, tx_sign_auto, internal_sign_auto. now rewrite sign_loop64.
Qed.

(** ** Transactions *)

(** exactly what a 32-bit parser accepts: script lengths are read modulo 2^32 *)
Theorem C93_tx_accepts_iff : forall v sp t, (scap (Sl v sp) < 2 ^ 31)%Z ->
  (tx_from_at 32 (Sl v sp) = Ok t <-> wire_tx32 v t /\ fresh_tx t).
Proof. exact tx_from_ok32. Qed.

Lemma concat_len {A} (l : list (list A)) x : In x l -> (length x <= length (concat l))%nat.
Proof.
  induction l as [|y l IH]; [intros []|]. cbn [concat]. rewrite app_length. intros [->|H]; [lia|]. specialize (IH H). lia.
Qed.

Lemma wire_tx_32 v t : (Z.of_nat (length v) < 2 ^ 31)%Z -> wire_tx compact v t -> wire_tx32 v t.
Proof.
  intros L (ver & nin & wi & nout & wo & lt & E & A). exists ver, nin, wi, nout, wo, lt. split; [assumption|].
  destruct A as (A1 & A2 & A3 & A4 & A5 & A6 & FI & FO).
  split; [assumption|]. split; [assumption|]. split; [assumption|]. split; [assumption|]. split; [assumption|]. split; [assumption|].
  assert (forall w : bytes, In w wi \/ In w wo -> (Z.of_nat (length w) < 2 ^ 31)%Z) as B.
  { intros w H. subst v. rewrite !app_length in L.
    destruct H as [H|H]; apply concat_len in H; lia. }
  assert (forall n l (w : bytes), compact n l -> n <= nlen w -> (Z.of_nat (length w) < 2 ^ 31)%Z -> compact_mod n l) as M.
  { intros n l w C Ln Lw. exists n. split; [assumption|]. apply N.mod_small. unfold nlen in Ln.
    change (2 ^ 31)%Z with 2147483648%Z in Lw. change (2 ^ 32) with 4294967296. lia. }
  split.
  - clear FO A5. assert (forall w : bytes, In w wi -> (Z.of_nat (length w) < 2 ^ 31)%Z) as B' by auto. clear B E.
    induction FI as [|w oi wi ois (i & -> & id & ix & l & sq & -> & X1 & X2 & X3 & C & X) _ IH]; constructor; [|apply IH; intros; apply B'; now right].
    exists i. split; [reflexivity|]. exists id, ix, l, sq. split; [reflexivity|]. repeat (split; [assumption|]).
    split; [|assumption]. eapply M; [exact C| |apply (B' _ (or_introl eq_refl))]. unfold nlen. rewrite !app_length. lia.
  - clear FI A6. assert (forall w : bytes, In w wo -> (Z.of_nat (length w) < 2 ^ 31)%Z) as B' by auto. clear B E.
    induction FO as [|w oi wo oos (o & -> & a & l & s & -> & X1 & C & X) _ IH]; constructor; [|apply IH; intros; apply B'; now right].
    exists o. split; [reflexivity|]. exists a, l, s. split; [reflexivity|]. split; [assumption|].
    split; [|assumption]. eapply M; [exact C| |apply (B' _ (or_introl eq_refl))]. unfold nlen. rewrite !app_length. lia.
Qed.

(** whatever a 64-bit program reads, a 32-bit program reads alike *)
Theorem C93_tx_agrees : forall v sp t, (scap (Sl v sp) < 2 ^ 31)%Z ->
  tx_from_slice (Sl v sp) = Ok t -> tx_from_at 32 (Sl v sp) = Ok t.
Proof.
  intros v sp t Cap E. apply tx_from_ok in E as [W F]; [|lia]. apply tx_from_ok32; [assumption|]. split; [|assumption].
  apply wire_tx_32; [|assumption]. unfold scap in Cap. cbn [vis spare] in Cap. lia.
Qed.

(** so two platforms never read two different transactions from the same bytes *)
Theorem C93_tx_never_differ : forall v sp t t', (scap (Sl v sp) < 2 ^ 31)%Z ->
  tx_from_slice (Sl v sp) = Ok t -> tx_from_at 32 (Sl v sp) = Ok t' -> t = t'.
Proof. intros v sp t t' Cap E E'. apply C93_tx_agrees in E; [|assumption]. congruence. Qed.

(** what the library itself writes is read back alike *)
Theorem C93_tx_round_trip : forall t, wf_tx t -> exists b, tx_to_bytes t = Ok b /\
  forall sp, (scap (Sl b sp) < 2 ^ 31)%Z -> tx_from_at 32 (Sl b sp) = Ok (bare_tx t).
Proof.
  intros t W. destruct (C27_round_trip t W) as (b & E & R). exists b. split; [assumption|].
  intros sp Cap. apply C93_tx_agrees; [assumption|]. apply R. lia.
Qed.

(** exactly when a 32-bit parser panics (on a slice without spare capacity) *)
Theorem C93_tx_panics_iff : forall v, (Z.of_nat (length v) < 2 ^ 31)%Z ->
  (tx_from_at 32 (Sl v []) = Panic <-> tx_panics32 v).
Proof. exact tx_from_panic32. Qed.

Lemma long_form n : n < 2 ^ 32 -> compact (2 ^ 32 + n) (xff :: le_put 8 (2 ^ 32 + n)).
Proof.
  intros H. change (2 ^ 32) with 4294967296 in *.
  assert (4294967296 + n = le_get (le_put 8 (4294967296 + n))) as E.
  { rewrite le_get_put. symmetry. apply N.mod_small. change (256 ^ N.of_nat 8) with 18446744073709551616. lia. }
  rewrite E at 1. apply compact_9. apply le_put_length.
Qed.

(** The natural claim that both accept the same bytes is false: every transaction with an input or an output has a second
    form which a 32-bit program reads as that transaction and a 64-bit program refuses. *)
Theorem C93_tx_other_form : forall v t, (Z.of_nat (length v) + 8 < 2 ^ 31)%Z -> inputs t <> [] \/ outputs t <> [] ->
  tx_from_at 32 (Sl v []) = Ok t ->
  exists v' e, (length v' <= length v + 8)%nat /\ tx_from_at 32 (Sl v' []) = Ok t /\ tx_from_slice (Sl v' []) = Err e.
Proof.
  intros v t L NE E. apply tx_from_ok32 in E as [W F]; [|unfold scap; cbn [vis spare length]; lia].
  destruct W as (ver & nin & wi & nout & wo & lt & Ev & A1 & A2 & A3 & A4 & A5 & A6 & FI & FO).
  remember (inputs t) as ts eqn:Et. remember (outputs t) as os eqn:Eo.
  destruct FI as [|w oi wi ois (i & -> & id & ix & l & sq & -> & X1 & X2 & X3 & (m & C & Em) & X4 & X5 & X6) FI].
  - destruct FO as [|w oo wo oos (o & -> & a & l & s & -> & X1 & (m & C & Em) & X2 & X3) FO]; [destruct NE; congruence|].
    clear NE. assert (1 <= length l)%nat as Ll by (apply compact_len in C; lia).
    assert (nlen s < 2 ^ 32) as Ls by (rewrite <- Em; apply N.mod_lt; discriminate).
    pose proof (long_form _ Ls) as C'. set (l' := xff :: le_put 8 (2 ^ 32 + nlen s)) in *.
    assert (length l' = 9%nat) as Ll' by (unfold l'; cbn [length]; now rewrite le_put_length).
    cbn [concat app] in Ev. set (v' := ver ++ nin ++ nout ++ (a ++ l' ++ s) ++ concat wo ++ lt).
    assert (length v' <= length v + 8)%nat as Lv.
    { unfold v'. subst v. rewrite !app_length. lia. }
    exists v', EOutputShort. split; [assumption|]. split.
    + apply tx_from_ok32; [unfold scap; cbn [vis spare length]; lia|]. split; [|assumption].
      exists ver, nin, [], nout, ((a ++ l' ++ s) :: wo), lt. cbn [concat app]. unfold v'. rewrite <- !app_assoc.
      split; [reflexivity|]. rewrite <- Et, <- Eo. repeat (split; [assumption|]). split; [constructor|]. constructor; [|assumption].
      exists o. split; [reflexivity|]. exists a, l', s. split; [now rewrite <- ?app_assoc|]. split; [assumption|].
      split; [|auto]. exists (2 ^ 32 + nlen s). split; [assumption|].
      change (2 ^ 32) with 4294967296 in *. rewrite N.add_mod, N.mod_same, N.add_0_l, N.mod_mod by discriminate.
      now apply N.mod_small.
    + apply C28_error_iff; [lia|].
      replace v' with (ver ++ nin ++ concat (@nil bytes) ++ nout ++ concat (@nil bytes) ++ (a ++ l' ++ s ++ concat wo ++ lt))
        by (unfold v'; cbn [concat app]; now rewrite <- !app_assoc).
      apply (tf_output ver 0 nin [] (nlen (Some o :: oos)) nout []); [assumption|assumption|constructor|reflexivity|assumption|constructor| | |].
      * unfold nlen. cbn [length]. lia.
      * cbn [concat app]. apply compact_len in A5, A6. rewrite !app_length. lia.
      * apply of_short with (n := 2 ^ 32 + nlen s); try assumption. cbv zeta. change (2 ^ 63) with 9223372036854775808.
        unfold v' in Lv; rewrite !app_length in Lv; change (2 ^ 32) with 4294967296 in *;
          unfold nlen in *; rewrite ?app_length; lia.
  - clear NE. assert (1 <= length l)%nat as Ll by (apply compact_len in C; lia).
    set (s := script_bytes (unlocking i)) in *.
    assert (nlen s < 2 ^ 32) as Ls by (rewrite <- Em; apply N.mod_lt; discriminate).
    pose proof (long_form _ Ls) as C'. set (l' := xff :: le_put 8 (2 ^ 32 + nlen s)) in *.
    assert (length l' = 9%nat) as Ll' by (unfold l'; cbn [length]; now rewrite le_put_length).
    cbn [concat app] in Ev. set (v' := ver ++ nin ++ (id ++ ix ++ l' ++ s ++ sq) ++ concat wi ++ nout ++ concat wo ++ lt).
    assert (length v' <= length v + 8)%nat as Lv.
    { unfold v'. subst v. rewrite !app_length. lia. }
    exists v', EInputShort. split; [assumption|]. split.
    + apply tx_from_ok32; [unfold scap; cbn [vis spare length]; lia|]. split; [|assumption].
      exists ver, nin, ((id ++ ix ++ l' ++ s ++ sq) :: wi), nout, wo, lt. cbn [concat app]. unfold v'. rewrite <- !app_assoc.
      split; [reflexivity|]. rewrite <- Et, <- Eo. repeat (split; [assumption|]). split; [|assumption]. constructor; [|assumption].
      exists i. split; [reflexivity|]. exists id, ix, l', sq. split; [reflexivity|]. repeat (split; [assumption|]).
      split; [|auto]. exists (2 ^ 32 + nlen s). split; [assumption|].
      change (2 ^ 32) with 4294967296 in *. rewrite N.add_mod, N.mod_same, N.add_0_l, N.mod_mod by discriminate.
      now apply N.mod_small.
    + apply C28_error_iff; [lia|].
      replace v' with (ver ++ nin ++ concat (@nil bytes) ++ ((id ++ ix) ++ l' ++ s ++ sq ++ concat wi ++ nout ++ concat wo ++ lt))
        by (unfold v'; cbn [concat app]; now rewrite <- !app_assoc).
      apply (tf_input ver (nlen (Some i :: ois)) nin []); [assumption|assumption|constructor| | |].
      * unfold nlen. cbn [length]. lia.
      * cbn [concat app]. rewrite !app_length. lia.
      * apply if_short with (n := 2 ^ 32 + nlen s); [rewrite app_length; lia|assumption|]. cbv zeta. left.
        change (2 ^ 63) with 9223372036854775808.
        unfold v' in Lv; rewrite !app_length in Lv; change (2 ^ 32) with 4294967296 in *;
          unfold nlen in *; rewrite ?app_length; lia.
Qed.

(** ** Scripts *)

(** DecodeParts: the same outcome, except that a push announcing between 2^31 - 5 and 2^32 - 6 bytes panics instead of giving
    "Not enough data". *)
Theorem C93_parts : forall b, nlen b < 2 ^ 31 ->
  (has_huge b -> decode_parts_at 32 b = Panic /\ decode_parts b = Err ENotEnough) /\
  (~ has_huge b -> decode_parts_at 32 b = decode_parts b).
Proof. intros b L. split; [now apply parts32_huge|now apply parts32_same]. Qed.

Theorem C93_parts_same_iff : forall b, nlen b < 2 ^ 31 -> (decode_parts_at 32 b = decode_parts b <-> ~ has_huge b).
Proof.
  intros b L. split; [|now apply parts32_same]. intros E H. apply parts32_huge in H as [H H']; [|assumption]. congruence.
Qed.

(** the template predicates and ToASM *)
Theorem C93_predicates : forall s, nlen s < 2 ^ 31 ->
  (has_huge s ->
     is_p2pk_at 32 s = Panic /\ is_p2pk s = Ok false /\
     is_multisig_out_at 32 s = Panic /\ is_multisig_out s = Ok false /\
     script_to_asm_at 32 s = Panic /\ script_to_asm s = Err ENotEnough) /\
  (~ has_huge s ->
     is_p2pk_at 32 s = is_p2pk s /\ is_multisig_out_at 32 s = is_multisig_out s /\ script_to_asm_at 32 s = script_to_asm s).
Proof.
  intros s L. split; intros H.
  - apply parts32_huge in H as [H H']; [|assumption].
    unfold is_p2pk_at, is_p2pk, is_multisig_out_at, is_multisig_out, script_to_asm_at, script_to_asm. rewrite H, H'. auto 10.
  - apply parts32_same in H; [|assumption].
    unfold is_p2pk_at, is_p2pk, is_multisig_out_at, is_multisig_out, script_to_asm_at, script_to_asm. rewrite H. auto.
Qed.

(** GetPublicKeyHash, on every script *)
Theorem C93_public_key_hash : forall o,
  (forall r, o = Some (x76 :: xa9 :: r) -> nlen r < 2 ^ 31 -> has_huge r ->
     get_public_key_hash_at 32 o = Panic /\ get_public_key_hash o = Err ENotEnough) /\
  ((forall r, o = Some (x76 :: xa9 :: r) -> nlen r < 2 ^ 31 /\ ~ has_huge r) ->
     get_public_key_hash_at 32 o = get_public_key_hash o).
Proof.
  intros o. split.
  - intros r -> L H. apply parts32_huge in H as [H H']; [|assumption].
    unfold get_public_key_hash_at, get_public_key_hash. cbn [byte_eqb negb nth_error or_panic bind skipn].
    rewrite H, H'. auto.
  - intros H. unfold get_public_key_hash_at, get_public_key_hash. destruct o as [[|b0 r]|]; try reflexivity.
    destruct (byte_eqb b0 x76) eqn:E0; [|reflexivity]. cbn [negb].
    destruct r as [|b1 r]; [reflexivity|]. cbn [nth_error or_panic bind skipn].
    destruct (byte_eqb b1 xa9) eqn:E1; [|reflexivity]. cbn [negb].
    apply byte_eqb_eq in E0, E1. subst. destruct (H r eq_refl) as [L N]. now rewrite parts32_same.
Qed.

(** NewRedeemScriptFromElectrum *)
Theorem C93_electrum : forall H txt b, hex_dec txt = Some b -> nlen b < 2 ^ 31 ->
  (has_huge b -> redeem_from_electrum_at 32 H txt = Panic /\ redeem_from_electrum H txt = Err ENotEnough) /\
  (~ has_huge b -> redeem_from_electrum_at 32 H txt = redeem_from_electrum H txt).
Proof.
  intros H txt b D L. apply of_hex_ok in D.
  unfold redeem_from_electrum_at, redeem_from_electrum, decode_string_parts_at, decode_string_parts. rewrite D. cbn [bind].
  split; intros G.
  - apply parts32_huge in G as [-> ->]; auto.
  - now rewrite parts32_same.
Qed.

(** ** SignAuto *)

Definition prevs (t : tx) := map (option_map prev_script) (inputs t).

Lemma prevs_apply t n u t' : apply_unlocking_script t n u = Ok t' -> prevs t' = prevs t.
Proof.
  unfold apply_unlocking_script, prevs. destruct (nth_error (inputs t) (N.to_nat n)) as [[i|]|] eqn:E; try discriminate.
  cbn [or_panic bind]. intros [= <-]. cbn [inputs]. revert E. generalize (N.to_nat n). generalize (inputs t).
  induction l as [|x l IH]; intros [|k]; cbn [nth_error set_nth map]; try discriminate.
  - intros [= ->]. reflexivity.
  - intros E. f_equal. now apply IH.
Qed.

Lemma prevs_sign s n t t' : internal_sign s n t = Ok t' -> prevs t' = prevs t.
Proof.
  unfold internal_sign. destruct (get_input_signature_hash t n (sg_flag (default_flag s))); try discriminate. cbn [bind].
  destruct (key_sign (sg_key (default_flag s)) (reverse_bytes a)); try discriminate. cbn [bind].
  destruct (p2pkh_unlocking_script _ _ _) as [u e]. apply prevs_apply.
Qed.

Lemma step_prevs W s i t t' : sign_auto_step_at W s i t = Ok t' -> prevs t' = prevs t.
Proof.
  unfold sign_auto_step_at. destruct (nth_error (inputs t) (N.to_nat i)) as [[inp|]|]; try discriminate.
  cbn [or_panic bind deref]. destruct (get_public_key_hash_at W (prev_script inp)); try discriminate; cbn [bind].
  all: match goal with |- (if ?c then _ else _) = _ -> _ => destruct c end; try congruence.
  all: destruct (internal_sign s (wrap32 i) t) eqn:E; try discriminate; try congruence.
  all: intros [= <-]; eapply prevs_sign; eassumption.
Qed.

Lemma step_no_err W s i t e : sign_auto_step_at W s i t <> Err e.
Proof.
  unfold sign_auto_step_at. destruct (nth_error (inputs t) (N.to_nat i)) as [[inp|]|]; try discriminate.
  cbn [or_panic bind deref]. destruct (get_public_key_hash_at W (prev_script inp)); try discriminate; cbn [bind].
  all: match goal with |- (if ?c then _ else _) <> _ => destruct c end; try discriminate.
  all: destruct (internal_sign s (wrap32 i) t); discriminate.
Qed.

Definition bad_script (o : option bytes) : Prop := exists r, o = Some (x76 :: xa9 :: r) /\ nlen r < 2 ^ 31 /\ has_huge r.
Definition good_script (o : option bytes) : Prop := forall r, o = Some (x76 :: xa9 :: r) -> nlen r < 2 ^ 31 /\ ~ has_huge r.

Lemma loop_bad s n : forall i t j o, (N.to_nat i <= j < N.to_nat i + n)%nat -> nth_error (prevs t) j = Some (Some o) -> bad_script o ->
  sign_auto_loop_at 32 s i n t = Panic.
Proof.
  induction n as [|n IH]; intros i t j o L P B; [lia|]. cbn [sign_auto_loop_at].
  destruct (Nat.eq_dec j (N.to_nat i)) as [->|NE].
  - unfold prevs in P. rewrite nth_error_map in P. unfold sign_auto_step_at.
    destruct (nth_error (inputs t) (N.to_nat i)) as [[inp|]|]; try discriminate. cbn [option_map] in P.
    assert (o = prev_script inp) by congruence. subst o. cbn [or_panic bind deref].
    destruct B as (r & E & Lr & H). rewrite E.
    rewrite (proj1 (proj1 (C93_public_key_hash _) r eq_refl Lr H)). reflexivity.
  - destruct (sign_auto_step_at 32 s i t) as [t'|e|] eqn:S; cbn [bind]; [|now apply step_no_err in S|reflexivity].
    apply (IH (i + 1) t' j o); [lia| |assumption]. now rewrite (step_prevs _ _ _ _ _ S).
Qed.

Lemma loop_good s n : forall i t, (forall o, In (Some o) (prevs t) -> good_script o) ->
  sign_auto_loop_at 32 s i n t = sign_auto_loop s i n t.
Proof.
  induction n as [|n IH]; intros i t G; [reflexivity|]. cbn [sign_auto_loop_at sign_auto_loop].
  assert (sign_auto_step_at 32 s i t = sign_auto_step s i t) as E.
  { unfold sign_auto_step_at, sign_auto_step.
    destruct (nth_error (inputs t) (N.to_nat i)) as [[inp|]|] eqn:N; try reflexivity. cbn [or_panic bind deref].
    rewrite (proj2 (C93_public_key_hash (prev_script inp))); [reflexivity|].
    apply G. unfold prevs. change (Some (prev_script inp)) with (option_map prev_script (Some inp)).
    apply in_map. eapply nth_error_In; eassumption. }
  rewrite <- E. destruct (sign_auto_step_at 32 s i t) as [t'|e|] eqn:S; cbn [bind]; try reflexivity.
  apply IH. now rewrite (step_prevs _ _ _ _ _ S).
Qed.

(** one hostile input makes SignAuto panic on a 32-bit platform, whatever the key and the other inputs; without one there is
    no difference *)
Theorem C93_sign_auto : forall t k,
  (forall i s, In (Some i) (inputs t) -> prev_script i = Some s -> nlen s < 2 ^ 31) ->
  ((exists i, In (Some i) (inputs t) /\ bad_prev i) -> tx_sign_auto_at 32 t k = Panic) /\
  ((forall i, In (Some i) (inputs t) -> ~ bad_prev i) -> tx_sign_auto_at 32 t k = tx_sign_auto t k).
Proof.
  intros t k L.
  assert (forall i r, In (Some i) (inputs t) -> prev_script i = Some (x76 :: xa9 :: r) -> nlen r < 2 ^ 31) as L'.
  { intros i r I E. specialize (L i _ I E). unfold nlen in *. cbn [length] in L. lia. }
  unfold tx_sign_auto_at, tx_sign_auto, internal_sign_auto. split.
  - intros (i & I & r & E & H). destruct (In_nth_error _ _ I) as (j & J).
    rewrite (loop_bad _ _ _ _ j (prev_script i)); [reflexivity| | |].
    + assert (j < length (inputs t))%nat by (apply nth_error_Some; congruence). lia.
    + unfold prevs. rewrite nth_error_map, J. reflexivity.
    + exists r. split; [assumption|]. split; [eapply L'; eassumption|assumption].
  - intros G. rewrite loop_good; [reflexivity|]. intros o I r E. unfold prevs in I. apply in_map_iff in I as ([i|] & E' & I); [|discriminate].
    cbn [option_map] in E'. injection E' as E'. rewrite <- E' in E. split; [eapply L'; eassumption|]. intros H. apply (G i I). exists r. auto.
Qed.

(** ** Concrete cases *)

(** one output, its script length written as 2^32 + 1: one byte of script on a 32-bit platform *)
Definition ex_split : bytes := map n2b [1;0;0;0; 0; 1; 7;0;0;0;0;0;0;0; 255;1;0;0;0;1;0;0;0; 81; 0;0;0;0].
(** the same with length 2^31 *)
Definition ex_crash : bytes := map n2b [1;0;0;0; 0; 1; 7;0;0;0;0;0;0;0; 254;0;0;0;128; 81; 0;0;0;0].
(** five bytes of script: PUSHDATA4 announcing 2^31 - 1 bytes *)
Definition ex_huge : bytes := map n2b [78;255;255;255;127].

Theorem C93_same_everywhere_refuted :
  (exists t, tx_from_at 32 (Sl ex_split []) = Ok t /\ tx_from_slice (Sl ex_split []) = Err EOutputShort) /\
  (tx_from_at 32 (Sl ex_crash []) = Panic /\ tx_from_slice (Sl ex_crash []) = Err EOutputShort) /\
  (decode_parts_at 32 ex_huge = Panic /\ decode_parts ex_huge = Err ENotEnough).
Proof.
  split; [eexists; split; vm_compute; reflexivity|]. split; split; vm_compute; reflexivity.
Qed.

Example C93_example :
  tx_from_at 32 (Sl ex_split []) = Ok (mk_tx 1 [] [Some (mk_out 7 (Some [x51]))] 0) /\
  has_huge ex_huge /\ has_huge (x51 :: ex_huge) /\ ~ has_huge [x51; x4e; x00; x00; x00; x70].
Proof.
  split; [vm_compute; reflexivity|].
  assert (huge ex_huge) as H.
  { change ex_huge with (x4e :: [xff; xff; xff; x7f] ++ []). constructor; [reflexivity|]. split; vm_compute; congruence. }
  split; [exists [], [], ex_huge; split; [reflexivity|]; split; [constructor|assumption]|].
  split.
  - exists [x51], [[x51]], ex_huge. split; [reflexivity|]. split; [|assumption].
    change [x51] with ([x51] ++ []) at 1. constructor; [|intros W; inversion W|constructor].
    constructor. right. vm_compute. congruence.
  - intros G. apply parts32_huge in G as [G _]; vm_compute in G; try reflexivity. discriminate G.
Qed.

(** on a 64-bit platform SignAuto just skips the hostile input *)
Definition ex_key32 : priv_key := mk_key [x02] (fun _ => Ok [x30]).
Definition ex_prev : input := mk_in [] 0 0 (Some (x76 :: xa9 :: ex_huge)) None 0.
Example C93_sign_auto_example :
  let t := mk_tx 1 [Some ex_prev] [] 0 in
  tx_sign_auto_at 32 t (mk_signer ex_key32 0) = Panic /\
  tx_sign_auto t (mk_signer ex_key32 0) = Ok (t, mk_signer ex_key32 0x41, None).
Proof. cbv zeta. split; vm_compute; reflexivity. Qed.

Print Assumptions C93_same_code.
Print Assumptions C93_tx_accepts_iff.
Print Assumptions C93_tx_agrees.
Print Assumptions C93_tx_never_differ.
Print Assumptions C93_tx_round_trip.
Print Assumptions C93_tx_panics_iff.
Print Assumptions C93_tx_other_form.
Print Assumptions C93_parts.
Print Assumptions C93_parts_same_iff.
Print Assumptions C93_predicates.
Print Assumptions C93_public_key_hash.
Print Assumptions C93_electrum.
Print Assumptions C93_sign_auto.
Print Assumptions C93_same_everywhere_refuted.
