(** Property theorems C63, C64, C65: workflows around signing. *)
From Verif Require Import P_Flow.
From Coq Require Import ZifyBool ZifyNat ZifyN.

(** ** C63: a transaction that was parsed cannot be signed *)

Theorem C63_no_signature_hash : forall v sp t n f, (scap (Sl v sp) < 2 ^ 62)%Z -> tx_from_slice (Sl v sp) = Ok t ->
  (N.to_nat n < length (inputs t))%nat -> get_input_signature_hash t n f = Err ENoPrevTxScript.
Proof.
  intros v sp t n f C E L. destruct (nth_error (inputs t) (N.to_nat n)) as [oi|] eqn:N.
  - destruct (parsed_input _ _ _ _ _ C E N) as (i & -> & X & S). eapply sighash_no_script; eassumption.
  - apply nth_error_None in N. lia.
Qed.
Print Assumptions C63_no_signature_hash.

Theorem C63_sign_fails : forall v sp t n s, (scap (Sl v sp) < 2 ^ 62)%Z -> tx_from_slice (Sl v sp) = Ok t ->
  (N.to_nat n < length (inputs t))%nat -> exists s', tx_sign t n s = Ok (t, s', Some ENoPrevTxScript).
Proof.
  intros v sp t n s C E L. exists (default_flag s). unfold tx_sign. rewrite internal_sign_eq. unfold sig_script.
  rewrite (C63_no_signature_hash _ _ _ _ _ C E L). reflexivity.
Qed.
Print Assumptions C63_sign_fails.

(** SignAuto leaves it unchanged and reports success *)
Theorem C63_sign_auto_silent : forall v sp t s, (scap (Sl v sp) < 2 ^ 62)%Z -> tx_from_slice (Sl v sp) = Ok t ->
  sg_flag s < 256 -> nlen (inputs t) <= 2 ^ 32 -> exists s', tx_sign_auto t s = Ok (t, s', None).
Proof.
  intros v sp t s C E Bf B. exists (default_flag s). unfold tx_sign_auto. rewrite sign_auto_eq by assumption.
  rewrite outcomes_misses; [now rewrite tx_eta|]. apply Forall_forall. intros oi I. apply In_nth_error in I as (k & N).
  destruct (parsed_input _ _ _ _ _ C E N) as (i & -> & _ & S). exists i. split; [reflexivity|]. unfold hit. rewrite S. reflexivity.
Qed.
Print Assumptions C63_sign_auto_silent.

Definition ex63_id : bytes := map n2b [1;2;3;4;5;6;7;8;9;10;11;12;13;14;15;16;17;18;19;20;21;22;23;24;25;26;27;28;29;30;31;32].
Definition ex63_pub : bytes := x02 :: repeat x11 32.
Definition ex63_key : priv_key := mk_key ex63_pub (fun d => Ok (x30 :: firstn 8 d)).
Definition ex63_calls : list tx_call :=
  [CallFrom (hex_encode ex63_id) 0 (hex_encode (p2pkh (hash160 ex63_pub))) 1000;
   CallPayTo (addr_string (addr_from_pkh (repeat x07 20) true)) 600;
   CallFrom (hex_encode ex63_id) 1 (hex_encode (p2pkh (hash160 ex63_pub))) 2000;
   CallPayTo (addr_string (addr_from_pkh (repeat x09 20) false)) 2300].

(** a P2PKH spend can be signed before, but not after, a trip over the wire *)
Example C63_example : let t := tx_run tx_new ex63_calls in
  exists b t2 t1 s1, tx_to_bytes t = Ok b /\ tx_from_bytes b = Ok t2 /\ (scap (Sl b []) < 2 ^ 62)%Z /\ length (inputs t2) = 2%nat /\
    tx_sign t 0 (mk_signer ex63_key 0) = Ok (t1, s1, None) /\
    tx_sign t2 0 (mk_signer ex63_key 0) = Ok (t2, s1, Some ENoPrevTxScript).
Proof.
  intros t. eexists _, _, _, _. split; [vm_compute; reflexivity|]. split; [vm_compute; reflexivity|]. split; [vm_compute; reflexivity|].
  split; [vm_compute; reflexivity|]. split; vm_compute; reflexivity.
Qed.

(** ** C64: the P2PKH inputs of the key are spendable after SignAuto *)

Theorem C64_sign_auto_unlocks : forall verify t s t' s' oe n i, sig_tx t -> sg_flag s < 256 -> nlen (inputs t) <= 2 ^ 32 ->
  honest verify (sg_key s) -> tx_sign_auto t s = Ok (t', s', oe) ->
  nth_error (inputs t) n = Some (Some i) -> prev_txid i <> [] ->
  prev_script i = Some (p2pkh (hash160 (key_pub (sg_key s)))) ->
  accepted verify t' n.
Proof. exact auto_accepts. Qed.
Print Assumptions C64_sign_auto_unlocks.

(** Sign does the same for one input *)
Theorem C64_sign_unlocks : forall verify t s n i, sig_tx t -> sg_flag s < 256 -> n < 2 ^ 32 -> honest verify (sg_key s) ->
  nth_error (inputs t) (N.to_nat n) = Some (Some i) -> prev_txid i <> [] ->
  prev_script i = Some (p2pkh (hash160 (key_pub (sg_key s)))) ->
  exists t' s', tx_sign t n s = Ok (t', s', None) /\ accepted verify t' (N.to_nat n).
Proof.
  intros verify t s n i W Bf Bn HK E X S. pose proof (used_flag_small s Bf) as Bu.
  destruct (get_input_signature_hash t n (used_flag s)) as [h|e|] eqn:G.
  - pose proof (sighash_len _ _ _ _ W Bn Bu G) as L32. destruct (proj2 HK _ L32) as (sg & K & _).
    unfold tx_sign. rewrite internal_sign_eq. unfold sig_script. rewrite G. cbn [bind]. rewrite K. cbn [bind]. rewrite E.
    eexists _, _. split; [reflexivity|].
    apply (signed_accepted verify t _ (N.to_nat n) i s h sg); try assumption.
    + now rewrite N2Nat.id.
    + now rewrite N2Nat.id.
    + now apply set_script_resigned.
    + unfold set_script. cbn [inputs]. eapply nth_error_set_eq, E.
  - apply sighash_err_iff in G as (i0 & E0 & D); try assumption.
    assert (i0 = i) as -> by congruence. destruct D as [[D _]|(_ & D & _)]; congruence.
  - apply sighash_panic_iff in G; try assumption. exfalso.
    assert (N.to_nat n < length (inputs t))%nat by (apply nth_error_Some; congruence). lia.
Qed.
Print Assumptions C64_sign_unlocks.

(** the whole workflow: From and PayTo calls in any number and order, then
    SignAuto with a fresh signer *)
Theorem C64_workflow : forall verify k calls, honest verify k -> Forall (spend_call (key_pub k)) calls -> nlen calls < 2 ^ 31 ->
  exists asked t' b,
    Forall2 asks calls asked /\
    tx_sign_auto (tx_run tx_new calls) (mk_signer k 0) = Ok (t', mk_signer k 65, None) /\
    (* what was asked for: these outpoints are spent, these outputs are paid *)
    version t' = 1 /\ locktime t' = 0 /\
    Forall2 same_signed_input (concat (map asked_inputs asked)) (inputs t') /\
    outputs t' = concat (map asked_outputs asked) /\
    (* every input can be spent *)
    (forall n, (n < length (inputs t'))%nat -> accepted verify t' n) /\
    (* and this survives the wire *)
    tx_to_bytes t' = Ok b /\ ((Z.of_nat (length b) < 2 ^ 62)%Z -> tx_from_bytes b = Ok (bare_tx t')).
Proof.
  intros verify k calls HK F B. destruct (spends_asked _ _ F) as (asked & A & L & FI & FO).
  pose proof (tx_run_eq calls tx_new asked A) as RE.
  change (tx_run tx_new calls = mk_tx 1 (concat (map asked_inputs asked)) (concat (map asked_outputs asked)) 0) in RE.
  set (is := concat (map asked_inputs asked)) in *. set (os := concat (map asked_outputs asked)) in *.
  set (t := tx_run tx_new calls) in *. set (s := mk_signer k 0).
  assert (Forall (fun oi => exists i, oi = Some i /\ prev_script i = Some (p2pkh (hash160 (key_pub k)))) (inputs t)) as FS.
  { rewrite RE. cbn [inputs]. eapply Forall_impl; [|exact FI]. intros oi (id & vout & sats & -> & _). eexists. split; reflexivity. }
  assert (sig_tx t) as W.
  { rewrite RE. split; [|split]; cbn [inputs outputs].
    - eapply Forall_impl; [|exact FI]. intros oi (id & vout & sats & -> & _). eexists. split; [reflexivity|]. cbn [prev_txid prev_script]. split.
      + exists id. apply hex_dec_encode.
      + intros x Ex. assert (x = p2pkh (hash160 (key_pub k))) as -> by congruence. apply p2pkh_small, hash160_length.
    - eapply Forall_impl; [|exact FO]. intros oo (h & sats & -> & Lh & Bs). eexists. split; [reflexivity|]. split; [exact Bs|].
      eexists. split; [reflexivity|]. now apply p2pkh_small.
    - unfold nlen in *. lia. }
  assert (nlen (inputs t) <= 2 ^ 32) as BI by (rewrite RE; cbn [inputs]; unfold nlen in *; lia).
  assert (sg_flag s < 256) as Bf by reflexivity.
  destruct (auto_total verify t s W Bf BI HK FS) as (t' & E).
  pose proof (auto_resigned _ _ _ _ _ Bf BI E) as R. pose proof R as (RV & RO & RL & RI).
  assert (wf_tx t') as WT.
  { rewrite RE in RV, RO, RL, RI. cbn in RV, RO, RL, RI. assert (length is = length (inputs t')) as LI by (eapply Forall2_length, RI).
    split; [rewrite <- RV; reflexivity|]. split; [rewrite <- RL; reflexivity|].
    split; [unfold nlen in *; lia|]. split; [rewrite <- RO; unfold nlen in *; lia|]. split.
    - (* inputs: lengths of the scripts that were written *)
      apply Forall_forall. intros oi I. apply In_nth_error in I as (n & N).
      pose proof (Forall2_nth _ _ _ RI n) as Q. rewrite N in Q. destruct (nth_error is n) as [oj|] eqn:NJ; [|contradiction].
      rewrite Forall_forall in FI. destruct (FI _ (nth_error_In _ _ NJ)) as (id & vout & sats & -> & Li & Bv & Bs).
      destruct oi as [i|]; [|contradiction]. destruct Q as (Q1 & Q2 & Q3 & Q4 & Q5). cbn in Q1, Q2, Q3, Q4, Q5.
      exists i. split; [reflexivity|]. split; [exists id; split; [assumption|now symmetry]|].
      split; [rewrite <- Q2; assumption|]. split; [rewrite <- Q5; reflexivity|].
      assert (nth_error (inputs t) n = Some (Some (mk_in (hex_encode id) vout sats (Some (p2pkh (hash160 (key_pub k)))) None (2 ^ 32 - 1)))) as NT by (rewrite RE; exact NJ).
      clear -E NT HK W BI N Bf. unfold tx_sign_auto in E. rewrite sign_auto_eq in E by assumption.
      destruct (outcomes s t 0 (inputs t)) as [l|e|] eqn:O; [|now apply outcomes_not_err in O|discriminate].
      assert (t' = mk_tx (version t) l (outputs t) (locktime t)) as -> by congruence. cbn [inputs] in N.
      destruct (outcomes_ok_nth _ _ _ _ _ O) as [L Q]. destruct (Q _ _ NT) as (oi' & E' & OC). cbn [N.add outcome] in OC.
      assert (oi' = Some i) as -> by congruence. clear E' N.
      match type of OC with (_ <- ?h ;; _) = _ => destruct h as [[]|e|] end; cbn [bind] in OC; try discriminate.
      + unfold sig_script in OC.
        assert (N.of_nat n < 2 ^ 32) as Bn. { assert (n < length (inputs t))%nat by (apply nth_error_Some; congruence). unfold nlen in BI. lia. }
        pose proof (used_flag_small s Bf) as Bu.
        destruct (get_input_signature_hash t (N.of_nat n) (used_flag s)) as [h|e|] eqn:G; cbn [bind] in OC.
        * pose proof (sighash_len _ _ _ _ W Bn Bu G) as L32. destruct (proj2 HK _ L32) as (sg & K & Lsg & _).
          cbn [sg_key s] in OC. rewrite K in OC. cbn [bind] in OC. assert (i = with_script (mk_in (hex_encode id) vout sats (Some (p2pkh (hash160 (key_pub k)))) None (2 ^ 32 - 1))
             (fst (p2pkh_unlocking_script (key_pub k) sg (used_flag s)))) as -> by congruence.
          cbn [unlocking with_script script_bytes]. unfold p2pkh_unlocking_script. cbn [app].
          destruct HK as (Lp & _).
          assert (nlen (sg ++ [n2b (used_flag s)]) < 4294967296) as L3 by (unfold nlen in *; rewrite app_length; cbn [length]; lia).
          rewrite append_array_ok by (intros p [<- | [<- | []]]; assumption). cbn [fst app map concat].
          clear -Lp L3. revert L3 Lp. generalize (sg ++ [n2b (used_flag s)]) (key_pub k). intros a b La Lb.
          unfold push_wire. destruct (push_prefix_ok a La) as [pa Ea]. destruct (push_prefix_ok b Lb) as [pb Eb]. rewrite Ea, Eb.
          apply push_prefix_length in Ea, Eb. unfold nlen in *. rewrite !app_length. cbn [length].
          clear -Ea Eb La Lb. repeat match goal with H : context [if ?c then _ else _] |- _ => destruct c end; lia.
        * assert (i = mk_in (hex_encode id) vout sats (Some (p2pkh (hash160 (key_pub k)))) None (2 ^ 32 - 1)) as -> by congruence. reflexivity.
        * discriminate.
      + assert (i = mk_in (hex_encode id) vout sats (Some (p2pkh (hash160 (key_pub k)))) None (2 ^ 32 - 1)) as -> by congruence. reflexivity.
    - rewrite <- RO. eapply Forall_impl; [|exact FO]. intros oo (h & sats & -> & Lh & Bs). eexists. split; [reflexivity|]. split; [exact Bs|].
      eexists. split; [reflexivity|]. now apply p2pkh_small. }
  destruct (wf_wire t' WT) as (b & Hb). exists asked, t', b. split; [assumption|]. split; [exact E|].
  rewrite RE in RV, RO, RL, RI. cbn in RV, RO, RL, RI.
  split; [now symmetry|]. split; [now symmetry|]. split; [assumption|]. split; [now symmetry|]. split.
  - intros n Ln. assert (length is = length (inputs t')) as LI by (eapply Forall2_length, RI); rewrite <- LI in Ln. destruct (nth_error is n) as [oi|] eqn:N; [|apply nth_error_None in N; lia].
    rewrite Forall_forall in FI. destruct (FI _ (nth_error_In _ _ N)) as (id & vout & sats & -> & Li & _).
    eapply auto_accepts; try eassumption.
    + rewrite RE. exact N.
    + cbn [prev_txid]. now apply hex32_nonempty.
    + reflexivity.
  - pose proof (wire_tx_bytes _ _ Hb) as EB. split; [assumption|]. intros C. unfold tx_from_bytes.
    apply tx_round; try assumption. unfold scap. cbn [vis spare length]. lia.
Qed.
Print Assumptions C64_workflow.

(** a (toy) signature scheme with an honest key, and a wallet history *)
Example C64_example :
  honest (fun pub d sg => pub = ex63_pub /\ sg = x30 :: firstn 8 d) ex63_key /\
  Forall (spend_call (key_pub ex63_key)) ex63_calls /\
  match tx_sign_auto (tx_run tx_new ex63_calls) (mk_signer ex63_key 0) with
  | Ok (t', _, _) => length (inputs t') = 2%nat /\ length (outputs t') = 2%nat
  | _ => False
  end.
Proof.
  split; [|split].
  - split; [reflexivity|]. intros d L. exists (x30 :: firstn 8 d). split; [reflexivity|]. split; [|auto].
    unfold nlen. cbn [length]. rewrite firstn_length. lia.
  - unfold ex63_calls, ex63_key. cbn [key_pub]. repeat constructor.
  - vm_compute. auto.
Qed.

(** ** C65: histories of signing calls *)

(** Whatever sequence of Sign and SignAuto calls is made, by whatever signers: an
    input carries what the last call that signs it would have put there on the
    unsigned transaction, or is unchanged if no call signs it; everything else
    is unchanged. *)
Theorem C65_last_signature_wins : forall t cs t', Forall call_bounds cs -> nlen (inputs t) <= 2 ^ 32 -> sign_run t cs = Ok t' ->
  version t' = version t /\ outputs t' = outputs t /\ locktime t' = locktime t /\ length (inputs t') = length (inputs t) /\
  forall k i, nth_error (inputs t) k = Some (Some i) ->
    (exists c1 c c2 i', cs = c1 ++ c :: c2 /\ signs_at t c k i' /\
       (forall c', In c' c2 -> ~ exists i'', signs_at t c' k i'') /\
       nth_error (inputs t') k = Some (Some i')) \/
    ((forall c, In c cs -> ~ exists i', signs_at t c k i') /\ nth_error (inputs t') k = Some (Some i)).
Proof.
  intros t cs t' F B H. destruct (history t cs t' F B H) as (R & HK). pose proof (resigned_count _ _ R) as LC.
  destruct R as (RV & RO & RL & _). split; [now symmetry|]. split; [now symmetry|]. split; [now symmetry|]. split; [assumption|].
  intros k i E. assert (forall c, writes t c k = None -> ~ exists i', signs_at t c k i') as NS.
  { intros c N (i' & Q). apply (writes_signs t c k i E) in Q as (u & Q & _). congruence. }
  destruct (HK _ _ E) as [(c1 & c & c2 & u & -> & W & N & E')|(N & E')].
  - left. exists c1, c, c2, (with_script i u). split; [reflexivity|]. split; [apply (writes_signs t c k i E); eauto|].
    split; [|assumption]. intros c' I. apply NS, N, I.
  - right. split; [|assumption]. intros c I. apply NS, N, I.
Qed.
Print Assumptions C65_last_signature_wins.

Theorem C65_panics_iff : forall t cs, Forall call_bounds cs -> nlen (inputs t) <= 2 ^ 32 ->
  (sign_run t cs = Panic <-> exists c, In c cs /\ sign_do t c = Panic).
Proof. exact history_panics. Qed.
Print Assumptions C65_panics_iff.

(** repeating a call changes nothing *)
Theorem C65_again : forall t c t1, call_bounds c -> nlen (inputs t) <= 2 ^ 32 -> sign_do t c = Ok t1 -> sign_do t1 c = Ok t1.
Proof. exact call_again. Qed.
Print Assumptions C65_again.

(** SignAuto with keys of different hash commutes, and Sign of different inputs *)
Theorem C65_auto_commutes : forall t s1 s2, sg_flag s1 < 256 -> sg_flag s2 < 256 -> nlen (inputs t) <= 2 ^ 32 ->
  hash160 (key_pub (sg_key s1)) <> hash160 (key_pub (sg_key s2)) ->
  sign_run t [DoSignAuto s1; DoSignAuto s2] = sign_run t [DoSignAuto s2; DoSignAuto s1].
Proof.
  intros t s1 s2 B1 B2 B N. apply commute; try assumption. intros k. cbn [writes].
  destruct (nth_error (inputs t) k) as [[i|]|]; auto.
  destruct (hit (key_pub (sg_key s1)) i) as [[]|e|] eqn:H1; auto.
  destruct (hit (key_pub (sg_key s2)) i) as [[]|e|] eqn:H2; auto. exfalso. apply N.
  unfold hit in *. destruct (get_public_key_hash (prev_script i)) as [h|e|]; try discriminate.
  injection H1 as H1. injection H2 as H2. apply equals_spec, hex_encode_inj in H1, H2. congruence.
Qed.
Print Assumptions C65_auto_commutes.

Theorem C65_sign_commutes : forall t s1 n1 s2 n2, sg_flag s1 < 256 -> sg_flag s2 < 256 -> n1 < 2 ^ 32 -> n2 < 2 ^ 32 ->
  nlen (inputs t) <= 2 ^ 32 -> n1 <> n2 ->
  sign_run t [DoSign s1 n1; DoSign s2 n2] = sign_run t [DoSign s2 n2; DoSign s1 n1].
Proof.
  intros t s1 n1 s2 n2 B1 B2 Bn1 Bn2 B N. apply commute; try assumption; [split; assumption|split; assumption|].
  intros k. cbn [writes]. destruct (Nat.eqb_spec (N.to_nat n1) k) as [Q1|Q1]; auto.
  destruct (Nat.eqb_spec (N.to_nat n2) k) as [Q2|Q2]; auto. exfalso. lia.
Qed.
Print Assumptions C65_sign_commutes.

Definition ex65_key2 : priv_key := mk_key (x03 :: repeat x12 32) (fun d => Ok (x30 :: firstn 9 d)).
Example C65_example : let t := tx_run tx_new ex63_calls in
  let cs := [DoSignAuto (mk_signer ex63_key 0); DoSign (mk_signer ex65_key2 0x43) 1; DoSignAuto (mk_signer ex65_key2 0)] in
  Forall call_bounds cs /\
  match sign_run t cs with
  | Ok t' => map (fun oi => match oi with Some i => match unlocking i with Some u => length u | None => 0%nat end | None => 0%nat end) (inputs t')
             = [45; 46]%nat
  | _ => False
  end.
Proof. split; [repeat constructor|]. vm_compute. reflexivity. Qed.
