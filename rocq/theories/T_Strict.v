(** C100: flags that the network takes. *)
From Verif Require Import S_Strict P_Flow T_Flow T_Demand T_Script T_Chain T_Tx T_Sighash T_Exact.
From Coq Require Import Lia ZifyBool ZifyNat ZifyN.

Lemma network_small f : network_flag f -> f < 256.
Proof. intros H. cbn [network_flag In] in H. destruct H as [<-|[<-|[<-|[<-|[<-|[<-|[]]]]]]]; reflexivity. Qed.
Lemma flag_byte f g : f < 256 -> g < 256 -> n2b f = n2b g -> f = g.
Proof. intros F G E. apply (f_equal b2n) in E. now rewrite !b2n_n2b_small in E. Qed.

Lemma signed_taken verify t t' n i s h sg : sig_tx t -> (N.of_nat n < 2 ^ 32) -> sg_flag s < 256 -> honest verify (sg_key s) ->
  nth_error (inputs t) n = Some (Some i) -> prev_script i = Some (p2pkh (hash160 (key_pub (sg_key s)))) ->
  get_input_signature_hash t (N.of_nat n) (used_flag s) = Ok h -> key_sign (sg_key s) (rev h) = Ok sg ->
  resigned t t' ->
  nth_error (inputs t') n = Some (Some (with_script i (fst (p2pkh_unlocking_script (key_pub (sg_key s)) sg (used_flag s))))) ->
  (taken verify t' n <-> network_flag (used_flag s)).
Proof.
  intros W Bn Bf (LP & HK) E S H K R E'. pose proof (used_flag_small s Bf) as Bu.
  apply sighash_ok_iff in H as (i0 & p & E0 & _ & P & ->); try assumption. rewrite Nat2N.id in *. rewrite rev_involutive in K.
  destruct (HK (dsha p)) as (sg' & K' & L & V); [unfold dsha; apply sha256_length|]. unfold dsha in *.
  assert (sg' = sg) as -> by congruence. clear K'.
  set (pub := key_pub (sg_key s)) in *. set (f := used_flag s) in *.
  assert (p2pkh_unlocking_script pub sg f = (fst (p2pkh_unlocking_script pub sg f), None)) as U.
  { destruct (C18_bytes pub sg f) as (a & b & X & _); [unfold nlen in *; rewrite app_length; cbn [length]; lia|exact LP|]. rewrite X. reflexivity. }
  set (u := fst (p2pkh_unlocking_script pub sg f)) in *. pose proof (C78_unlocking_script _ _ _ _ U) as C78.
  destruct (C13_from_pubkey_bytes pub) as [PK _]. split.
  - intros (j & u' & s' & st & N' & U' & S' & X1 & X2). rewrite E' in N'. assert (j = with_script i u) as -> by congruence.
    cbn [with_script unlocking prev_script] in U', S'. assert (u' = u) as -> by congruence. assert (s' = p2pkh (hash160 pub)) as -> by congruence.
    apply C78 in X1. subst st. rewrite <- PK in X2. apply (C78 (strict_ok verify t' n) []) in X2. destruct X2 as (s0 & f0 & p0 & EQ & NF & _).
    apply app_inj_tail in EQ as [_ EQ]. apply flag_byte in EQ; [now rewrite EQ|exact Bu|now apply network_small].
  - intros NF. exists (with_script i u), u, (p2pkh (hash160 pub)), [pub; sg ++ [n2b f]]. split; [exact E'|]. split; [reflexivity|]. split; [exact S|]. split.
    + apply (proj2 (proj1 (C78 (strict_ok verify t' n) [pub; sg ++ [n2b f]]))). reflexivity.
    + rewrite <- PK. apply (C78 (strict_ok verify t' n) []). exists sg, f, p. split; [reflexivity|]. split; [exact NF|]. split; [eapply preimage_resigned; eassumption|exact V].
Qed.

Lemma used_network s : network_flag (used_flag s) <-> sg_flag s = 0 \/ network_flag (sg_flag s).
Proof.
  unfold used_flag. destruct (N.eqb_spec (sg_flag s) 0) as [->|NE].
  - split; [now left|]. intros _. now left.
  - split; [now right|]. intros [H|H]; [contradiction|exact H].
Qed.

(** Sign on an input that spends an output of the key: what comes out is taken by the network exactly if the signer's
    flag is unset or one of the six. *)
Theorem C100_sign_iff : forall verify t s n i t' s', sig_tx t -> sg_flag s < 256 -> n < 2 ^ 32 -> honest verify (sg_key s) ->
  nth_error (inputs t) (N.to_nat n) = Some (Some i) -> prev_script i = Some (p2pkh (hash160 (key_pub (sg_key s)))) ->
  tx_sign t n s = Ok (t', s', None) ->
  (taken verify t' (N.to_nat n) <-> sg_flag s = 0 \/ network_flag (sg_flag s)).
Proof.
  intros verify t s n i t' s' W Bf Bn HK E S H. rewrite <- used_network. unfold tx_sign in H. rewrite internal_sign_eq in H. unfold sig_script in H.
  pose proof (used_flag_small s Bf) as Bu.
  destruct (get_input_signature_hash t n (used_flag s)) as [h|e|] eqn:G; cbn [bind] in H; [|discriminate H|discriminate H].
  destruct (key_sign (sg_key s) (rev h)) as [sg|e|] eqn:K; cbn [bind] in H; [|discriminate H|discriminate H]. rewrite E in H.
  injection H as <- _. apply (signed_taken verify t _ (N.to_nat n) i s h sg); try assumption.
  - now rewrite N2Nat.id.
  - now rewrite N2Nat.id.
  - now apply set_script_resigned.
  - unfold set_script. cbn [inputs]. eapply nth_error_set_eq, E.
Qed.
Print Assumptions C100_sign_iff.

(** SignAuto likewise, for every such input. *)
Theorem C100_sign_auto_iff : forall verify t s t' s' oe n i, sig_tx t -> sg_flag s < 256 -> nlen (inputs t) <= 2 ^ 32 ->
  honest verify (sg_key s) -> tx_sign_auto t s = Ok (t', s', oe) ->
  nth_error (inputs t) n = Some (Some i) -> prev_txid i <> [] -> prev_script i = Some (p2pkh (hash160 (key_pub (sg_key s)))) ->
  (taken verify t' n <-> sg_flag s = 0 \/ network_flag (sg_flag s)).
Proof.
  intros verify t s t' s' oe n i W Bf B HK H E X S. rewrite <- used_network. pose proof (auto_resigned _ _ _ _ _ Bf B H) as R.
  assert (N.of_nat n < 2 ^ 32) as Bn.
  { assert (n < length (inputs t))%nat by (apply nth_error_Some; congruence). unfold nlen in B. lia. }
  unfold tx_sign_auto in H. rewrite sign_auto_eq in H by assumption.
  destruct (outcomes s t 0 (inputs t)) as [l|e|] eqn:O; [|now apply outcomes_not_err in O|discriminate].
  injection H as <- <- <-. destruct (outcomes_ok_nth _ _ _ _ _ O) as [L Q].
  destruct (Q _ _ E) as (oi' & E' & OC). cbn [N.add outcome] in OC.
  assert (hit (key_pub (sg_key s)) i = Ok true) as Hh.
  { apply hit_matches, gpkh_ok_iff. rewrite S. apply gpkh_p2pkh, hash160_length. }
  rewrite Hh in OC. cbn [bind] in OC. unfold sig_script in OC. pose proof (used_flag_small s Bf) as Bu.
  destruct (get_input_signature_hash t (N.of_nat n) (used_flag s)) as [h|e|] eqn:G; cbn [bind] in OC.
  - pose proof (sighash_len _ _ _ _ W Bn Bu G) as L32. destruct (proj2 HK _ L32) as (sg & K & _). rewrite K in OC. cbn [bind] in OC.
    assert (oi' = Some (with_script i (fst (p2pkh_unlocking_script (key_pub (sg_key s)) sg (used_flag s))))) as -> by congruence.
    eapply signed_taken; eassumption.
  - apply sighash_err_iff in G as (i0 & E0 & D); try assumption. rewrite Nat2N.id in E0.
    assert (i0 = i) as -> by congruence. destruct D as [[D _]|(_ & D & _)]; congruence.
  - apply sighash_panic_iff in G; try assumption. rewrite Nat2N.id in G. exfalso.
    assert (n < length (inputs t))%nat by (apply nth_error_Some; congruence). lia.
Qed.
Print Assumptions C100_sign_auto_iff.

(** refuted: every flag the library exports can be signed with. sighash.All, None, Single, AnyOneCanPay, ForkID and
    AnyOneCanPayForkID (which names no base type) give signatures that no node takes, and no error. *)
Theorem C100_every_flag_refuted : forall verify t s n i t' s', In (sg_flag s) [0x01; 0x02; 0x03; 0x80; 0x40; 0xc0] ->
  sig_tx t -> n < 2 ^ 32 -> honest verify (sg_key s) ->
  nth_error (inputs t) (N.to_nat n) = Some (Some i) -> prev_script i = Some (p2pkh (hash160 (key_pub (sg_key s)))) -> prev_txid i <> [] ->
  (exists t' s', tx_sign t n s = Ok (t', s', None)) /\
  (tx_sign t n s = Ok (t', s', None) -> ~ taken verify t' (N.to_nat n)).
Proof.
  intros verify t s n i t' s' F W Bn HK E S X.
  assert (sg_flag s < 256) as Bf by (cbn [In] in F; lia).
  split.
  - destruct (C64_sign_unlocks verify t s n i W Bf Bn HK E X S) as (t1 & s1 & H & _). now exists t1, s1.
  - intros H T. apply (C100_sign_iff verify t s n i t' s' W Bf Bn HK E S H) in T. cbn [network_flag In] in T, F. lia.
Qed.
Print Assumptions C100_every_flag_refuted.

Lemma spend_facts k calls asked : Forall (spend_call (key_pub k)) calls -> Forall2 asks calls asked -> nlen calls < 2 ^ 31 ->
  sig_tx (tx_run tx_new calls) /\ nlen (inputs (tx_run tx_new calls)) <= 2 ^ 32 /\
  Forall (fun oi => exists i, oi = Some i /\ prev_txid i <> [] /\ prev_script i = Some (p2pkh (hash160 (key_pub k)))) (inputs (tx_run tx_new calls)) /\
  inputs (tx_run tx_new calls) = concat (map asked_inputs asked).
Proof.
  intros F A0 B. destruct (spends_asked _ _ F) as (asked1 & A & L & FI & FO).
  pose proof (tx_run_eq calls tx_new asked1 A) as RE. pose proof (tx_run_eq calls tx_new asked A0) as RE0.
  change (tx_run tx_new calls = mk_tx 1 (concat (map asked_inputs asked1)) (concat (map asked_outputs asked1)) 0) in RE.
  change (tx_run tx_new calls = mk_tx 1 (concat (map asked_inputs asked)) (concat (map asked_outputs asked)) 0) in RE0.
  split; [|split; [|split]].
  - rewrite RE. split; [|split]; cbn [inputs outputs].
    + eapply Forall_impl; [|exact FI]. intros oi (id & vout & sats & -> & _). eexists. split; [reflexivity|]. cbn [prev_txid prev_script]. split.
      * exists id. apply hex_dec_encode.
      * intros x Ex. assert (x = p2pkh (hash160 (key_pub k))) as -> by congruence. apply p2pkh_small, hash160_length.
    + eapply Forall_impl; [|exact FO]. intros oo (h & sats & -> & Lh & Bs). eexists. split; [reflexivity|]. split; [exact Bs|].
      eexists. split; [reflexivity|]. now apply p2pkh_small.
    + unfold nlen in *. lia.
  - rewrite RE; cbn [inputs]; unfold nlen in *; lia.
  - rewrite RE. cbn [inputs]. eapply Forall_impl; [|exact FI]. intros oi (id & vout & sats & -> & Li & _). eexists. split; [reflexivity|].
    cbn [prev_txid prev_script]. split; [now apply hex32_nonempty|reflexivity].
  - rewrite RE0. reflexivity.
Qed.

(** The wallet of C84, whose signer has no flag set: what it builds and signs is taken by a node with this rule. *)
Theorem C100_wallet : forall verify known k calls, honest verify k -> Forall (wallet_call known (key_pub k)) calls -> nlen calls < 2 ^ 31 ->
  exists t' b, tx_sign_auto (tx_run tx_new calls) (mk_signer k 0) = Ok (t', mk_signer k 65, None) /\ tx_to_bytes t' = Ok b /\
    (sized b -> balanced calls -> node_takes verify known b).
Proof.
  intros verify known k calls HK F B.
  assert (Forall (spend_call (key_pub k)) calls) as FS by (eapply Forall_impl; [|exact F]; intros c; apply wallet_spends).
  destruct (C64_workflow verify k calls HK FS B) as (asked & t' & b & A & SA & V & LT & FI & FO & AC & TB & RT).
  destruct (wallet_asked known (key_pub k) calls asked F A) as (I1 & I2 & I3 & I4 & I5).
  destruct (signed_points _ _ FI) as (P1 & P2 & P3).
  exists t', b. split; [exact SA|]. split; [exact TB|]. intros S.
  assert (on_wire b (bare_tx t')) as OW by (apply on_wire_parses; [exact S|]; apply RT, S).
  intros (D & NE & PAY & BAL). exists (bare_tx t'), t'. split; [exact OW|]. split; [reflexivity|]. split; [reflexivity|]. split; [reflexivity|].
  unfold spent. cbn [bare_tx inputs outputs]. split; [|split].
  - apply F2_build. intros n oi N.
    destruct (F2_nth _ _ _ FI _ _ N) as (oj & NJ & SS). rewrite Forall_forall in I1.
    destruct (I1 _ (nth_error_In _ _ NJ)) as (id & ix & o & UN & LO & LEN & ->).
    destruct (AC n) as (i & u & s & st & st' & N' & U & _); [apply nth_error_Some; congruence|].
    assert (oi = Some i) as -> by congruence. cbn [same_signed_input prev_txid prev_index prev_sats prev_script sequence] in SS.
    destruct SS as (S1 & S2 & S3 & S4 & S5). exists (bare_input i), o, id. split; [reflexivity|]. unfold bare_input. cbn [prev_txid prev_index unlocking sequence].
    split; [now symmetry|]. split; [rewrite <- S2; exact UN|]. rewrite U. cbn [script_bytes].
    destruct i as [a1 a2 a3 a4 a5 a6]. cbn in *. subst. rewrite LO. reflexivity.
  - intros n Ln. destruct (spend_facts k calls asked FS A B) as (W & BI & FX & EI).
    assert (n < length (inputs (tx_run tx_new calls)))%nat as L1 by (rewrite EI; pose proof (Forall2_length _ _ _ FI) as LL; lia).
    destruct (nth_error (inputs (tx_run tx_new calls)) n) as [oi|] eqn:N; [|apply nth_error_None in N; lia].
    rewrite Forall_forall in FX. destruct (FX _ (nth_error_In _ _ N)) as (i & -> & X & S1).
    apply (C100_sign_auto_iff verify _ (mk_signer k 0) t' _ _ n i W eq_refl BI HK SA N X S1). now left.
  - rewrite P3, I2. split; [exact D|]. split.
    { intros E. apply (f_equal (map point_of)) in E. rewrite P3, I2 in E. now apply NE. }
    split; [rewrite FO; now apply I5|]. rewrite FO, I4, P2, I3. exact BAL.
Qed.
Print Assumptions C100_wallet.

(** the wallet of C64: with no flag set its first input is taken, with sighash.All it is signed and not taken *)
Definition ex100_verify (pub d sg : bytes) : Prop := pub = ex63_pub /\ sg = x30 :: firstn 8 d.
Example C100_example :
  honest ex100_verify ex63_key /\
  (exists t' s', tx_sign (tx_run tx_new ex63_calls) 0 (mk_signer ex63_key 0) = Ok (t', s', None) /\ taken ex100_verify t' 0) /\
  (exists t' s', tx_sign (tx_run tx_new ex63_calls) 0 (mk_signer ex63_key 0x01) = Ok (t', s', None) /\ ~ taken ex100_verify t' 0).
Proof.
  assert (honest ex100_verify ex63_key) as HK 
    by (split; [reflexivity|]; intros d L; exists (x30 :: firstn 8 d); split; [reflexivity|]; split; [|split; reflexivity];
        unfold nlen; cbn [length]; rewrite firstn_length; lia).
  assert (Forall (spend_call (key_pub ex63_key)) ex63_calls) as FS by (unfold ex63_calls, ex63_key; cbn [key_pub]; repeat constructor).
  destruct (spends_asked _ _ FS) as (asked & A & _).
  assert (nlen ex63_calls < 2 ^ 31) as B by (vm_compute; reflexivity).
  destruct (spend_facts ex63_key ex63_calls asked FS A B) as (W & BI & FX & _).
  assert (length (inputs (tx_run tx_new ex63_calls)) = 2%nat) as L by (vm_compute; reflexivity).
  destruct (nth_error (inputs (tx_run tx_new ex63_calls)) 0) as [oi|] eqn:N; [|apply nth_error_None in N; rewrite L in N; inversion N].
  rewrite Forall_forall in FX. destruct (FX _ (nth_error_In _ _ N)) as (i & -> & X & S1).
  split; [exact HK|]. split.
  - destruct (C64_sign_unlocks ex100_verify _ (mk_signer ex63_key 0) 0 i W eq_refl eq_refl HK N X S1) as (t1 & s1 & H & _).
    exists t1, s1. split; [exact H|]. apply (C100_sign_iff ex100_verify _ (mk_signer ex63_key 0) 0 i t1 s1 W eq_refl eq_refl HK N S1 H). now left.
  - destruct (C64_sign_unlocks ex100_verify _ (mk_signer ex63_key 1) 0 i W eq_refl eq_refl HK N X S1) as (t1 & s1 & H & _).
    exists t1, s1. split; [exact H|]. apply (C100_every_flag_refuted ex100_verify _ (mk_signer ex63_key 1) 0 i t1 s1 (or_introl eq_refl) W eq_refl HK N S1 X). exact H.
Qed.
