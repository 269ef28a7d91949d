(** C100 for several holders. *)
From Verif Require Import S_Weak P_Flow T_Flow T_Demand T_Script T_Chain T_Tx T_Sighash T_Exact T_Joint T_Strict T_Weak.
From Coq Require Import Lia ZifyBool ZifyNat ZifyN.

Lemma last_signer verify keys signers t t' : sig_tx t -> nlen (inputs t) <= 2 ^ 32 -> Forall (keyed keys) (inputs t) -> Forall (honest verify) keys ->
  all_sign keys signers -> sign_run t (map DoSignAuto signers) = Ok t' ->
  forall n, (n < length (inputs t'))%nat -> exists s, In s signers /\ (taken verify t' n <-> network_flag (used_flag s)).
Proof.
  intros W B FK FH (FS & CV) R n Ln. rewrite Forall_forall in FK, FH, FS.
  assert (Forall call_bounds (map DoSignAuto signers)) as BC.
  { apply Forall_forall. intros c I. apply in_map_iff in I as (s & <- & I). apply (FS _ I). }
  destruct (history t _ t' BC B R) as (RS & HI). rewrite (resigned_count _ _ RS) in Ln.
  destruct (nth_error (inputs t) n) as [oi|] eqn:N; [|apply nth_error_None in N; lia].
  destruct (FK _ (nth_error_In _ _ N)) as (i & k & -> & Ik & X & S & U).
  destruct (HI _ _ N) as [(c1 & c & c2 & u & EC & WR & _ & N')|(NW & _)].
  - assert (In c (map DoSignAuto signers)) as IC by (rewrite EC; apply in_elt). apply in_map_iff in IC as (s & <- & Is).
    destruct (FS _ Is) as (Ks & Bf). cbn [writes] in WR. rewrite N in WR.
    destruct (hit (key_pub (sg_key s)) i) as [[]|e|] eqn:Hh; try discriminate.
    destruct (sig_script_honest verify t s n i _ W Bf B (FH _ Ks) N X S) as (h & sg & G & K & L & SS). rewrite SS in WR.
    assert (u = fst (p2pkh_unlocking_script (key_pub (sg_key s)) sg (used_flag s))) as -> by congruence.
    assert (hash160 (key_pub (sg_key s)) = hash160 (key_pub k)) as HH.
    { unfold hit in Hh. rewrite S in Hh. rewrite gpkh_p2pkh in Hh by apply hash160_length.
      assert (equals (hex_encode (hash160 (key_pub k))) (hex_encode (hash160 (key_pub (sg_key s)))) = true) as Q by congruence.
      apply equals_spec, hex_encode_inj in Q. now symmetry. }
    exists s. split; [exact Is|]. apply (signed_taken verify t t' n i s h sg); auto; [unfold nlen in B; lia|rewrite S, HH; reflexivity].
  - exfalso. destruct (CV _ Ik) as (s & Is & <-). destruct (FS _ Is) as (Ks & Bf).
    specialize (NW (DoSignAuto s) (in_map _ _ _ Is)). cbn [writes] in NW. rewrite N in NW.
    assert (hit (key_pub (sg_key s)) i = Ok true) as Hh by (apply hit_matches, gpkh_ok_iff; rewrite S; apply gpkh_p2pkh, hash160_length). rewrite Hh in NW.
    destruct (sig_script_honest verify t s n i _ W Bf B (FH _ Ks) N X S) as (h & sg & _ & _ & _ & SS). rewrite SS in NW. discriminate.
Qed.

(** Outputs of several keys are spent in one transaction and each holder calls SignAuto with a flag the network takes (or
    with none set): any order, any number of times. The network takes the transaction. If no signer's flag is taken, it
    does not. *)
Theorem C100_joint : forall verify known keys calls signers, Forall (honest verify) keys -> Forall (shared_call known keys) calls -> nlen calls < 2 ^ 31 ->
  all_sign keys signers ->
  exists t' b, sign_run (tx_run tx_new calls) (map DoSignAuto signers) = Ok t' /\ tx_to_bytes t' = Ok b /\
    (Forall (fun s => sg_flag s = 0 \/ network_flag (sg_flag s)) signers -> sized b -> balanced calls -> node_takes verify known b) /\
    (Forall (fun s => sg_flag s <> 0 /\ ~ network_flag (sg_flag s)) signers -> forall n, ~ taken verify t' n).
Proof.
  intros verify known keys calls signers FH F B AS. destruct (asked_total calls) as (asked & A).
  destruct (shared_asked known keys calls asked F A) as (I1 & I2 & L & I3 & I4 & I5 & I6).
  pose proof (tx_run_eq calls tx_new asked A) as RE.
  change (tx_run tx_new calls = mk_tx 1 (concat (map asked_inputs asked)) (concat (map asked_outputs asked)) 0) in RE.
  set (is := concat (map asked_inputs asked)) in *. set (os := concat (map asked_outputs asked)) in *. rewrite RE. clear RE.
  assert (nlen is + nlen os < 2 ^ 31) as LB0 by (unfold nlen in *; lia).
  assert (nlen (inputs (mk_tx 1 is os 0)) <= 2 ^ 32) as BI by (cbn [inputs]; lia).
  destruct (shared_sig known keys is os I1 I2 LB0) as (W & FK).
  destruct (all_signed verify keys signers (mk_tx 1 is os 0) W BI FK FH AS) as (t' & SR & R & AC).
  pose proof (last_signer verify keys signers _ t' W BI FK FH AS SR) as LS.
  destruct (resigned_lists _ _ _ R) as (ET & P1 & P2 & LL). pose proof R as (_ & _ & _ & RI). cbn [inputs] in RI.
  assert (Forall (signed_coin known) (inputs t')) as C.
  { apply Forall_forall. intros oi I. apply In_nth_error in I as (n & N). destruct (F2_nth _ _ _ RI _ _ N) as (oj & NJ & SS). rewrite Forall_forall in I1.
    destruct (I1 _ (nth_error_In _ _ NJ)) as (k & Ik & (id & ix & o & UN & LO & LN & ->) & BX).
    destruct (AC n) as ((i & u & s & st & st' & N' & U & _) & (i1 & N1 & SM)); [apply nth_error_Some; congruence|].
    assert (oi = Some i) as -> by congruence. assert (i1 = i) as -> by congruence. rewrite U in SM. cbn [script_bytes] in SM.
    cbn [same_signed_input prev_txid prev_index prev_sats prev_script sequence] in SS. destruct SS as (S1 & S2 & S3 & S4 & S5). cbn [snd point_of prev_index] in BX.
    exists i, u, id, o, (hash160 (key_pub k)). split; [reflexivity|]. split; [exact U|]. split; [exact SM|]. split; [now symmetry|]. split; [exact LN|]. rewrite <- S2. split; [exact UN|].
    split; [exact BX|]. split; [now symmetry|]. split; [now symmetry|]. split; [now rewrite <- S4, LO|]. split; [exact LO|apply hash160_length]. }
  assert (Forall (fun oo => exists o, oo = Some o /\ wf_output o) os) as O.
  { eapply Forall_impl; [|exact I2]. intros oo (h & sats & -> & Lh & Bs). eexists. split; [reflexivity|]. split; [exact Bs|]. eexists. split; [reflexivity|]. now apply p2pkh_small. }
  assert (nlen (inputs t') + nlen os < 2 ^ 31) as LB by (unfold nlen in *; lia).
  destruct (coins_tx known (inputs t') os C O LB) as (WT & _). destruct (wf_wire _ WT) as (b & Hb). pose proof (wire_tx_bytes _ _ Hb) as EB. rewrite <- ET in EB.
  exists t', b. split; [exact SR|]. split; [exact EB|]. split.
  - intros NF S (D & NE & PAY & BAL). rewrite Forall_forall in NF. rewrite ET in EB. apply (takes_of verify known (inputs t') os b C O LB EB S).
    + intros n Ln. rewrite <- ET. destruct (LS n Ln) as (s & Is & Q). apply Q, used_network, NF, Is.
    + now rewrite P1, I3.
    + intros X. rewrite X in P1. cbn in P1. rewrite I3 in P1. congruence.
    + now apply I6.
    + rewrite P2, I4, I5. exact BAL.
  - intros NF n T. rewrite Forall_forall in NF. assert (n < length (inputs t'))%nat as Ln.
    { destruct T as (i & _ & _ & _ & N & _). apply nth_error_Some. congruence. }
    destruct (LS n Ln) as (s & Is & Q). apply Q, used_network in T. destruct (NF _ Is). tauto.
Qed.
Print Assumptions C100_joint.
