(** Property theorems C36-C41: signature hash and signing. *)
From Verif Require Import P_Signer.
From Coq Require Import ZifyBool ZifyNat ZifyN.

(** ** C36: the digest *)

Theorem C36_digest_iff : forall t n f h, sig_tx t -> n < 2 ^ 32 -> f < 256 ->
  (get_input_signature_hash t n f = Ok h <->
   exists i p, nth_error (inputs t) (N.to_nat n) = Some (Some i) /\ prev_txid i <> [] /\
     preimage t (N.to_nat n) f p /\ h = rev (sha256 (sha256 p))).
Proof. exact sighash_ok_iff. Qed.
Print Assumptions C36_digest_iff.

(** the preimage is unique, and exists as soon as the input names its txid and script *)
Theorem C36_preimage_unique : forall t n f p p', preimage t n f p -> preimage t n f p' -> p = p'.
Proof. exact preimage_fun. Qed.
Print Assumptions C36_preimage_unique.

Theorem C36_preimage_exists : forall t n f i s, sig_tx t -> n < 2 ^ 32 -> f < 256 ->
  nth_error (inputs t) (N.to_nat n) = Some (Some i) -> prev_txid i <> [] -> prev_script i = Some s ->
  exists p, preimage t (N.to_nat n) f p.
Proof.
  intros t n f i s W Bn Bf E X S. destruct (preimage_code t n f i s W Bn Bf E X S) as (p & _ & P). eauto.
Qed.
Print Assumptions C36_preimage_exists.

Theorem C36_error_iff : forall t n f e, sig_tx t -> n < 2 ^ 32 -> f < 256 ->
  (get_input_signature_hash t n f = Err e <->
   exists i, nth_error (inputs t) (N.to_nat n) = Some (Some i) /\
     ((prev_txid i = [] /\ e = ENoPrevTxID) \/ (prev_txid i <> [] /\ prev_script i = None /\ e = ENoPrevTxScript))).
Proof. exact sighash_err_iff. Qed.
Print Assumptions C36_error_iff.

Theorem C36_panic_iff : forall t n f, sig_tx t -> n < 2 ^ 32 -> f < 256 ->
  (get_input_signature_hash t n f = Panic <-> (length (inputs t) <= N.to_nat n)%nat).
Proof. exact sighash_panic_iff. Qed.
Print Assumptions C36_panic_iff.

Definition ex_id1 : bytes := map n2b [1;2;3;4;5;6;7;8;9;10;11;12;13;14;15;16;17;18;19;20;21;22;23;24;25;26;27;28;29;30;31;32].
Definition ex_pub : bytes := x02 :: repeat x11 32.
Definition ex_key : priv_key := mk_key ex_pub (fun d => Ok (x30 :: firstn 8 d)).
Definition ex_i1 : input := mk_in (hex_encode ex_id1) 7 5000 (Some (p2pkh (hash160 ex_pub))) None 4294967294.
Definition ex_i2 : input := mk_in (hex_encode (rev ex_id1)) 0 900 (Some [x51]) (Some [x00]) 5.
Definition ex_o : output := mk_out 4000 (Some [x76; xa9; x00; x88; xac]).
Definition ex_t : tx := mk_tx 2 [Some ex_i1; Some ex_i2] [Some ex_o] 500000.

Lemma ex_full : full_tx ex_t.
Proof.
  split; [reflexivity|]. split; [reflexivity|]. split; [|split; [|reflexivity]].
  - repeat constructor; eexists; (split; [reflexivity|]).
    + split; [exists ex_id1; split; [reflexivity|apply hex_dec_encode]|]. split; [reflexivity|]. split; [reflexivity|]. split; [reflexivity|].
      cbn [prev_script ex_i1]. intros s E. assert (s = p2pkh (hash160 ex_pub)) as -> by congruence.
      unfold nlen, p2pkh. rewrite !app_length, hash160_length. reflexivity.
    + split; [exists (rev ex_id1); split; [reflexivity|apply hex_dec_encode]|]. split; [reflexivity|]. split; [reflexivity|]. split; [reflexivity|].
      cbn [prev_script ex_i2]. intros s E. assert (s = [x51]) as -> by congruence. reflexivity.
  - repeat constructor. eexists. split; [reflexivity|]. split; [reflexivity|]. eexists. split; reflexivity.
Qed.

Example C36_example : sig_tx ex_t /\
  (exists h, get_input_signature_hash ex_t 0 0x41 = Ok h /\ length h = 32%nat) /\
  (exists h, get_input_signature_hash ex_t 1 0xc3 = Ok h /\ length h = 32%nat) /\
  get_input_signature_hash ex_t 2 0x41 = Panic /\
  get_input_signature_hash (mk_tx 1 [Some input_new] [] 0) 0 0x41 = Err ENoPrevTxID.
Proof.
  split; [apply full_sig, ex_full|]. split; [eexists; split; vm_compute; reflexivity|].
  split; [eexists; split; vm_compute; reflexivity|]. split; vm_compute; reflexivity.
Qed.

(** ** C37: what the hash commits to *)

(** every flag: the flag itself, version, locktime, and the signed input with the
    script and value it spends *)
Theorem C37_every_flag : forall t1 n1 f1 t2 n2 f2 h, full_tx t1 -> full_tx t2 -> n1 < 2 ^ 32 -> n2 < 2 ^ 32 -> f1 < 256 -> f2 < 256 ->
  get_input_signature_hash t1 n1 f1 = Ok h -> get_input_signature_hash t2 n2 f2 = Ok h ->
  exists p1 p2, preimage t1 (N.to_nat n1) f1 p1 /\ preimage t2 (N.to_nat n2) f2 p2 /\
    (dcollision p1 p2 \/
     (f1 = f2 /\ version t1 = version t2 /\ locktime t1 = locktime t2 /\ own_eq t1 (N.to_nat n1) t2 (N.to_nat n2))).
Proof.
  intros t1 n1 f1 t2 n2 f2 h W1 W2 Bn1 Bn2 Bf1 Bf2 H1 H2.
  destruct (sighash_preimages _ _ _ _ _ _ _ W1 W2 Bn1 Bn2 Bf1 Bf2 H1 H2) as (p1 & p2 & P1 & P2 & [->|C]); exists p1, p2 || exists p2, p2;
    (split; [assumption|]; split; [assumption|]).
  - right. destruct (preimage_commits _ _ _ _ _ _ _ W1 W2 Bf1 Bf2 P1 P2) as (A & B & C & D & _). auto.
  - now left.
Qed.
Print Assumptions C37_every_flag.

(** without ANYONECANPAY: all outpoints *)
Theorem C37_outpoints : forall t1 n1 t2 n2 f h, full_tx t1 -> full_tx t2 -> n1 < 2 ^ 32 -> n2 < 2 ^ 32 -> f < 256 ->
  any_one_can_pay f = false ->
  get_input_signature_hash t1 n1 f = Ok h -> get_input_signature_hash t2 n2 f = Ok h ->
  exists p1 p2 a1 a2, preimage t1 (N.to_nat n1) f p1 /\ preimage t2 (N.to_nat n2) f p2 /\
    all_outpoints t1 a1 /\ all_outpoints t2 a2 /\
    (dcollision p1 p2 \/ dcollision a1 a2 \/ Forall2 point_eq (inputs t1) (inputs t2)).
Proof.
  intros t1 n1 t2 n2 f h W1 W2 Bn1 Bn2 Bf A H1 H2.
  destruct (sighash_preimages _ _ _ _ _ _ _ W1 W2 Bn1 Bn2 Bf Bf H1 H2) as (p1 & p2 & P1 & P2 & D).
  exists p1, p2.
  assert (exists a, all_outpoints t1 a) as (a1 & HA1).
  { destruct P1 as (is & os & i & s & hp & hs & ho & op & len & EI & _ & _ & _ & HP & _). unfold hash_prevouts in HP. rewrite A in HP.
    destruct HP as (ws & Hw & _). exists (concat ws), is, ws. auto. }
  assert (exists a, all_outpoints t2 a) as (a2 & HA2).
  { destruct P2 as (is & os & i & s & hp & hs & ho & op & len & EI & _ & _ & _ & HP & _). unfold hash_prevouts in HP. rewrite A in HP.
    destruct HP as (ws & Hw & _). exists (concat ws), is, ws. auto. }
  exists a1, a2. split; [assumption|]. split; [assumption|]. split; [assumption|]. split; [assumption|].
  destruct D as [->|D]; [right|now left].
  destruct (preimage_commits _ _ _ _ _ _ _ W1 W2 Bf Bf P1 P2) as (_ & _ & _ & _ & is1 & is2 & os1 & os2 & hp & hs & ho & E1 & E2 & _ & _ & Q1 & Q2 & _).
  destruct (prevouts_commit f is1 is2 hp A (full_parts _ _ W1 E1) (full_parts _ _ W2 E2) Q1 Q2) as (ws1 & ws2 & X1 & X2 & K).
  destruct HA1 as (is1' & ws1' & E1' & X1' & ->). destruct HA2 as (is2' & ws2' & E2' & X2' & ->).
  assert (is1' = is1) as -> by (apply map_some_inj; congruence). assert (is2' = is2) as -> by (apply map_some_inj; congruence).
  rewrite (outpoints_op _ _ X1'), (outpoints_op _ _ X2'). rewrite (outpoints_op _ _ X1), (outpoints_op _ _ X2) in K. rewrite E1, E2.
  destruct K; auto.
Qed.
Print Assumptions C37_outpoints.

(** without ANYONECANPAY, base not NONE or SINGLE: everything *)
Theorem C37_all : forall t1 n1 t2 n2 f h, full_tx t1 -> full_tx t2 -> n1 < 2 ^ 32 -> n2 < 2 ^ 32 -> f < 256 ->
  any_one_can_pay f = false -> is_all f = true ->
  get_input_signature_hash t1 n1 f = Ok h -> get_input_signature_hash t2 n2 f = Ok h ->
  exists p1 p2 a1 a2 s1 s2 o1 o2,
    preimage t1 (N.to_nat n1) f p1 /\ preimage t2 (N.to_nat n2) f p2 /\
    all_outpoints t1 a1 /\ all_outpoints t2 a2 /\ all_sequences t1 s1 /\ all_sequences t2 s2 /\
    all_outputs t1 o1 /\ all_outputs t2 o2 /\
    (dcollision p1 p2 \/ dcollision a1 a2 \/ dcollision s1 s2 \/ dcollision o1 o2 \/
     (version t1 = version t2 /\ locktime t1 = locktime t2 /\ own_eq t1 (N.to_nat n1) t2 (N.to_nat n2) /\
      Forall2 point_eq (inputs t1) (inputs t2) /\ Forall2 same_sequence (inputs t1) (inputs t2) /\ outputs t1 = outputs t2)).
Proof.
  intros t1 n1 t2 n2 f h W1 W2 Bn1 Bn2 Bf A B H1 H2.
  destruct (C37_outpoints _ _ _ _ _ _ W1 W2 Bn1 Bn2 Bf A H1 H2) as (p1 & p2 & a1 & a2 & P1 & P2 & A1 & A2 & K).
  assert (forall t n p, full_tx t -> preimage t n f p -> exists s o, all_sequences t s /\ all_outputs t o) as X.
  { clear -B. intros t n p W (is & os & i & s & hp & hs & ho & op & len & EI & EO & _ & _ & _ & _ & HO & _).
    unfold hash_outputs in HO. unfold is_all in B. apply andb_true_iff in B as [B1 B2]. apply negb_true_iff in B1, B2.
    rewrite B1, B2 in HO. destruct HO as (ws & Hw & _).
    exists (concat (map (fun i => le_put 4 (sequence i)) is)), (concat ws). split; [exists is; auto|exists os, ws; auto]. }
  destruct (X _ _ _ W1 P1) as (s1 & o1 & S1 & O1). destruct (X _ _ _ W2 P2) as (s2 & o2 & S2 & O2). clear X.
  exists p1, p2, a1, a2, s1, s2, o1, o2. repeat (split; [assumption|]).
  destruct K as [K|[K|K]]; [now left|right; now left|]. 
  destruct (sighash_preimages _ _ _ _ _ _ _ W1 W2 Bn1 Bn2 Bf Bf H1 H2) as (p1' & p2' & P1' & P2' & D).
  rewrite <- (preimage_fun _ _ _ _ _ P1 P1'), <- (preimage_fun _ _ _ _ _ P2 P2') in D.
  destruct D as [->|D]; [|now left].
  destruct (preimage_commits _ _ _ _ _ _ _ W1 W2 Bf Bf P1 P2)
    as (_ & EV & EL & OW & is1 & is2 & os1 & os2 & hp & hs & ho & E1 & E2 & EO1 & EO2 & _ & _ & Q1 & Q2 & R1 & R2).
  destruct (sequences_commit f is1 is2 hs A B (full_parts _ _ W1 E1) (full_parts _ _ W2 E2) Q1 Q2) as [KS|KS].
  2:{ destruct S1 as (is1' & E1' & ->). destruct S2 as (is2' & E2' & ->).
      assert (is1' = is1) as -> by (apply map_some_inj; congruence). assert (is2' = is2) as -> by (apply map_some_inj; congruence). auto 6. }
  destruct (outputs_commit f _ _ os1 os2 ho B R1 R2) as (ws1 & ws2 & X1 & X2 & [KO|KO]).
  2:{ destruct O1 as (os1' & ws1' & E1' & X1' & ->). destruct O2 as (os2' & ws2' & E2' & X2' & ->).
      assert (os1' = os1) as -> by (apply map_some_inj; congruence). assert (os2' = os2) as -> by (apply map_some_inj; congruence).
      rewrite (wire_outputs_fun _ _ _ X1' X1), (wire_outputs_fun _ _ _ X2' X2). auto 6. }
  do 4 right. split; [assumption|]. split; [assumption|]. split; [assumption|]. split; [assumption|]. split; [|congruence].
  rewrite E1, E2. clear -KS. revert is2 KS. induction is1 as [|x is1 IH]; intros [|y is2] E; try discriminate; cbn [map]; constructor.
  - cbn. cbn in E. congruence.
  - apply IH. cbn in E. congruence.
Qed.
Print Assumptions C37_all.

(** SINGLE: the output with the input's number *)
Theorem C37_single : forall t1 n1 t2 n2 f h o1 o2, full_tx t1 -> full_tx t2 -> n1 < 2 ^ 32 -> n2 < 2 ^ 32 -> f < 256 ->
  is_single f = true -> nth_error (outputs t1) (N.to_nat n1) = Some (Some o1) -> nth_error (outputs t2) (N.to_nat n2) = Some (Some o2) ->
  get_input_signature_hash t1 n1 f = Ok h -> get_input_signature_hash t2 n2 f = Ok h ->
  exists p1 p2 w1 w2, preimage t1 (N.to_nat n1) f p1 /\ preimage t2 (N.to_nat n2) f p2 /\
    output_to_bytes o1 = Ok w1 /\ output_to_bytes o2 = Ok w2 /\ (dcollision p1 p2 \/ dcollision w1 w2 \/ o1 = o2).
Proof.
  intros t1 n1 t2 n2 f h o1 o2 W1 W2 Bn1 Bn2 Bf A N1 N2 H1 H2.
  destruct (sighash_preimages _ _ _ _ _ _ _ W1 W2 Bn1 Bn2 Bf Bf H1 H2) as (p1 & p2 & P1 & P2 & D).
  assert (forall t n o, full_tx t -> nth_error (outputs t) n = Some (Some o) -> exists w, output_to_bytes o = Ok w) as X.
  { clear. intros t n o (_ & _ & _ & F & _) E. apply nth_error_In in E. rewrite Forall_forall in F. destruct (F _ E) as (o' & Q & W).
    assert (o' = o) as -> by congruence. destruct (wf_output_wire _ W) as (w & Ew & _). eauto. }
  destruct (X _ _ _ W1 N1) as (w1 & X1). destruct (X _ _ _ W2 N2) as (w2 & X2). clear X.
  exists p1, p2, w1, w2. repeat (split; [assumption|]). destruct D as [->|D]; [right|now left].
  destruct (preimage_commits _ _ _ _ _ _ _ W1 W2 Bf Bf P1 P2)
    as (_ & EV & EL & OW & is1 & is2 & os1 & os2 & hp & hs & ho & E1 & E2 & EO1 & EO2 & _ & _ & Q1 & Q2 & R1 & R2).
  rewrite EO1, nth_map_some in N1. rewrite EO2, nth_map_some in N2.
  destruct (nth_error os1 (N.to_nat n1)) as [o1'|] eqn:K1; [|discriminate]. destruct (nth_error os2 (N.to_nat n2)) as [o2'|] eqn:K2; [|discriminate].
  cbn in N1, N2. injection N1 as ->. injection N2 as ->.
  destruct (single_commit f _ _ os1 os2 ho o1 o2 A R1 R2 K1 K2) as (v1 & v2 & Y1 & Y2 & Z).
  apply wire_output_bytes in Y1, Y2. rewrite X1 in Y1. rewrite X2 in Y2. injection Y1 as <-. injection Y2 as <-. tauto.
Qed.
Print Assumptions C37_single.

Example C37_example : full_tx ex_t /\ any_one_can_pay 0x41 = false /\ is_all 0x41 = true /\ is_all 0x42 = false /\ is_single 0xc3 = true /\
  match get_input_signature_hash ex_t 0 0x41, get_input_signature_hash (mk_tx 2 (inputs ex_t) [] 500000) 0 0x41 with
  | Ok a, Ok b => bytes_eqb a b = false | _, _ => False end.
Proof. split; [apply ex_full|]. repeat (split; [reflexivity|]). vm_compute. reflexivity. Qed.

(** ** C38: what the hash leaves free *)

Theorem C38_depends_only_on : forall t1 t2 n f, n < 2 ^ 32 -> f < 256 -> agree f (N.to_nat n) t1 t2 ->
  get_input_signature_hash t1 n f = get_input_signature_hash t2 n f.
Proof. exact sighash_agree. Qed.
Print Assumptions C38_depends_only_on.

(** unlocking scripts are never covered *)
Theorem C38_unlocking_scripts_free : forall t n f k u t', n < 2 ^ 32 -> f < 256 -> unlocked t k u t' ->
  get_input_signature_hash t' n f = get_input_signature_hash t n f.
Proof.
  intros t n f k u t' Bn Bf (EV & EO & EL & LE & FR & i & E & E'). symmetry. apply resigned_sighash; try assumption.
  split; [now symmetry|]. split; [now symmetry|]. split; [now symmetry|].
  assert (forall l1 l2, length l1 = length l2 -> (forall j, match nth_error l1 j, nth_error l2 j with Some a, Some b => same_signed_input a b | _, _ => True end) ->
          Forall2 same_signed_input l1 l2) as X.
  { clear. induction l1 as [|a l1 IH]; intros [|b l2] L H; cbn in L; try discriminate; constructor.
    - exact (H 0%nat).
    - apply IH; [congruence|]. intros j. exact (H (S j)). }
  apply X; [congruence|]. intros j. destruct (Nat.eq_dec j k) as [->|Q].
  - rewrite E, E'. cbn. auto.
  - rewrite (FR _ Q). destruct (nth_error (inputs t) j); [apply same_signed_refl|trivial].
Qed.
Print Assumptions C38_unlocking_scripts_free.

(** two different transactions that agree under SINGLE|ANYONECANPAY for input 0 *)
Example C38_example :
  let t' := mk_tx 2 [Some ex_i1] [Some ex_o; Some ex_o] 500000 in
  agree 0xc3 0 ex_t t' /\ get_input_signature_hash ex_t 0 0xc3 = get_input_signature_hash t' 0 0xc3.
Proof.
  split.
  - constructor; try reflexivity; try discriminate.
    + right. split; reflexivity.
    + cbn. auto.
  - vm_compute. reflexivity.
Qed.

(** ** C39: Sign *)

Theorem C39_success : forall t n s t' s', sg_flag s < 256 -> n < 2 ^ 32 -> tx_sign t n s = Ok (t', s', None) ->
  let f := if sg_flag s =? 0 then 65 else sg_flag s in
  let pub := key_pub (sg_key s) in
  s' = mk_signer (sg_key s) f /\
  exists h sg u, get_input_signature_hash t n f = Ok h /\ key_sign (sg_key s) (rev h) = Ok sg /\
    unlocked t (N.to_nat n) u t' /\ get_input_signature_hash t' n f = Ok h /\
    (push_domain (sg ++ [n2b f]) -> push_domain pub -> decode_parts u = Ok [sg ++ [n2b f]; pub]).
Proof.
  intros t n s t' s' Bf Bn H f pub. pose proof (sign_spec t n s _ H Bf Bn) as (E & h & sg & H1 & H2 & H3 & H4).
  split; [assumption|]. exists h, sg, (fst (p2pkh_unlocking_script pub sg f)).
  split; [assumption|]. split; [assumption|]. split; [assumption|]. split; [assumption|].
  intros D1 D2. destruct (unlocking_safe pub sg f D1 D2) as (u & U & Q). rewrite U. assumption.
Qed.
Print Assumptions C39_success.

Theorem C39_error_changes_nothing : forall t n s t' s' e, sg_flag s < 256 -> n < 2 ^ 32 -> tx_sign t n s = Ok (t', s', Some e) ->
  t' = t /\ let f := if sg_flag s =? 0 then 65 else sg_flag s in
  (get_input_signature_hash t n f = Err e \/
   exists h, get_input_signature_hash t n f = Ok h /\ key_sign (sg_key s) (rev h) = Err e).
Proof. intros t n s t' s' e Bf Bn H. pose proof (sign_spec t n s _ H Bf Bn) as (_ & E & Q). auto. Qed.
Print Assumptions C39_error_changes_nothing.

Theorem C39_succeeds_when_possible : forall t n s h sg, sg_flag s < 256 -> n < 2 ^ 32 ->
  let f := if sg_flag s =? 0 then 65 else sg_flag s in
  get_input_signature_hash t n f = Ok h -> key_sign (sg_key s) (rev h) = Ok sg ->
  exists t', tx_sign t n s = Ok (t', mk_signer (sg_key s) f, None).
Proof.
  intros t n s h sg Bf Bn f H K. pose proof (sign_spec t n s _ eq_refl Bf Bn) as S. change (used_flag s) with f in S.
  destruct (tx_sign t n s) as [[[t' s'] [e|]]|e|].
  - destruct S as (_ & _ & [Q|(h' & Q & Q')]); [congruence|]. assert (h' = h) as -> by congruence. congruence.
  - destruct S as (-> & _). eauto.
  - contradiction.
  - destruct S as [Q|(h' & Q & Q')]; [congruence|]. assert (h' = h) as -> by congruence. congruence.
Qed.
Print Assumptions C39_succeeds_when_possible.

Example C39_example : exists t', tx_sign ex_t 0 (mk_signer ex_key 0) = Ok (t', mk_signer ex_key 0x41, None) /\
  match nth_error (inputs t') 0 with
  | Some (Some i) => match unlocking i with Some u => length u = 45%nat | None => False end
  | _ => False end /\
  nth_error (inputs t') 1 = Some (Some ex_i2).
Proof. eexists. split; [vm_compute; reflexivity|]. vm_compute. auto. Qed.

(** ** C40: SignAuto *)

Theorem C40_exact : forall t s t' s' oe, sg_flag s < 256 -> nlen (inputs t) <= 2 ^ 32 -> tx_sign_auto t s = Ok (t', s', oe) ->
  version t' = version t /\ outputs t' = outputs t /\ locktime t' = locktime t /\ length (inputs t') = length (inputs t) /\
  s' = mk_signer (sg_key s) (if sg_flag s =? 0 then 65 else sg_flag s) /\
  forall k i, nth_error (inputs t) k = Some (Some i) ->
    (matches (key_pub (sg_key s)) i ->
       (exists t1, tx_sign t (N.of_nat k) s = Ok (t1, s', None) /\ nth_error (inputs t') k = nth_error (inputs t1) k) \/
       (exists e, tx_sign t (N.of_nat k) s = Ok (t, s', Some e) /\ nth_error (inputs t') k = Some (Some i))) /\
    (~ matches (key_pub (sg_key s)) i -> nth_error (inputs t') k = Some (Some i)).
Proof.
  intros t s t' s' oe Bf B H. unfold tx_sign_auto in H. rewrite sign_auto_eq in H by assumption.
  destruct (outcomes s t 0 (inputs t)) as [l|e|] eqn:O; [|now apply outcomes_not_err in O|discriminate].
  injection H as <- <- <-. cbn [version inputs outputs locktime]. destruct (outcomes_ok_nth _ _ _ _ _ O) as [L Q].
  split; [reflexivity|]. split; [reflexivity|]. split; [reflexivity|]. split; [assumption|].
  split; [apply default_flag_eq|]. intros k i E.
  destruct (Q _ _ E) as (oi' & E' & OC). cbn [N.add] in OC. cbn [outcome] in OC. split.
  - intros M. apply hit_matches in M. rewrite M in OC. cbn [bind] in OC.
    unfold tx_sign. rewrite internal_sign_eq, Nat2N.id, E.
    destruct (sig_script s (N.of_nat k) t) as [u|e|]; [left|right|discriminate]; injection OC as <-.
    + eexists. split; [reflexivity|]. unfold set_script. cbn [inputs]. rewrite E'. symmetry. eapply nth_error_set_eq, E.
    + exists e. split; [reflexivity|assumption].
  - intros M. destruct (hit (key_pub (sg_key s)) i) as [[]|e|] eqn:Hh.
    + exfalso. apply M. now apply hit_matches.
    + cbn [bind] in OC. congruence.
    + now apply hit_not_err in Hh.
    + discriminate.
Qed.
Print Assumptions C40_exact.

(** a spent script that is P2PKH for the key matches *)
Theorem C40_p2pkh_matches : forall pub i, prev_script i = Some (p2pkh (hash160 pub)) -> matches pub i.
Proof.
  intros pub i E. apply gpkh_ok_iff. rewrite E. apply gpkh_p2pkh, hash160_length.
Qed.
Print Assumptions C40_p2pkh_matches.

(** when it panics: a nil input, an undecodable spent script, or a matching input
    on which Sign panics *)
Theorem C40_panics_iff : forall t s, sg_flag s < 256 -> nlen (inputs t) <= 2 ^ 32 ->
  (tx_sign_auto t s = Panic <->
   exists k oi, nth_error (inputs t) k = Some oi /\
     (oi = None \/ exists i, oi = Some i /\
        (get_public_key_hash (prev_script i) = Panic \/
         (matches (key_pub (sg_key s)) i /\ tx_sign t (N.of_nat k) s = Panic)))).
Proof.
  intros t s Bf B. unfold tx_sign_auto. rewrite sign_auto_eq by assumption.
  transitivity (outcomes s t 0 (inputs t) = Panic).
  { destruct (outcomes s t 0 (inputs t)); split; congruence. }
  rewrite outcomes_panic. cbn [N.add]. 
  assert (forall k oi, nth_error (inputs t) k = Some oi -> (outcome s t (N.of_nat k) oi = Panic <->
     (oi = None \/ exists i, oi = Some i /\
        (get_public_key_hash (prev_script i) = Panic \/
         (matches (key_pub (sg_key s)) i /\ tx_sign t (N.of_nat k) s = Panic))))) as X.
  { intros k oi E. destruct oi as [i|]; cbn [outcome]; [|split; [now left|reflexivity]].
    unfold tx_sign. rewrite internal_sign_eq, Nat2N.id, E.
    destruct (hit (key_pub (sg_key s)) i) as [[]|e|] eqn:Hh; cbn [bind].
    - assert (matches (key_pub (sg_key s)) i) as M by now apply hit_matches.
      destruct (sig_script s (N.of_nat k) t) as [u|e|].
      + split; [discriminate|]. intros [Q|(i' & Q & [P|[_ P]])]; try discriminate. injection Q as <-.
        apply (hit_panic (key_pub (sg_key s))) in P. congruence.
      + split; [discriminate|]. intros [Q|(i' & Q & [P|[_ P]])]; try discriminate. injection Q as <-.
        apply (hit_panic (key_pub (sg_key s))) in P. congruence.
      + split; [|reflexivity]. intros _. right. eauto.
    - split; [discriminate|]. intros [Q|(i' & Q & [P|[M P]])]; try discriminate; injection Q as <-.
      + apply (hit_panic (key_pub (sg_key s))) in P. congruence.
      + apply hit_matches in M. congruence.
    - now apply hit_not_err in Hh.
    - split; [|reflexivity]. intros _. right. exists i. split; [reflexivity|]. left. now apply hit_panic in Hh. }
  split; intros (k & oi & E & P); exists k, oi; (split; [assumption|]); now apply (X k oi E).
Qed.
Print Assumptions C40_panics_iff.

(** signing a list of inputs one after the other: the order does not matter *)
Theorem C40_any_order : forall s ns ns' t, sg_flag s < 256 -> Permutation ns ns' -> Forall (fun n => n < 2 ^ 32) ns ->
  let sign_one t n := match tx_sign t n s with Ok (t', _, _) => t' | _ => t end in
  fold_left sign_one ns t = fold_left sign_one ns' t.
Proof.
  intros s ns ns' t Bf P F sign_one.
  assert (forall l t, fold_left sign_one l t = fold_left (sign_keep s) l t) as X.
  { induction l as [|n l IH]; intros x; cbn [fold_left]; [reflexivity|]. rewrite IH. f_equal.
    unfold sign_one, sign_keep, tx_sign. destruct (internal_sign s n x); reflexivity. }
  rewrite !X. now apply fold_perm.
Qed.
Print Assumptions C40_any_order.

(** the documented claim "signs the P2PKH inputs" is false in one direction: a
    script that only starts like P2PKH is signed too *)
Theorem C40_only_p2pkh_refuted : exists t s t' s' i u, tx_sign_auto t s = Ok (t', s', None) /\
  nth_error (inputs t) 0 = Some (Some i) /\ unlocking i = None /\
  match prev_script i with Some p => is_p2pkh p = false | None => False end /\
  match nth_error (inputs t') 0 with Some (Some i') => unlocking i' = Some u | _ => False end.
Proof.
  set (p := [x76; xa9; x14] ++ hash160 ex_pub ++ [x75; x51]).
  set (i := mk_in (hex_encode ex_id1) 0 1 (Some p) None 0).
  exists (mk_tx 1 [Some i] [Some ex_o] 0), (mk_signer ex_key 0). eexists _, _, i, _.
  split; [vm_compute; reflexivity|]. split; [reflexivity|]. split; [reflexivity|]. split; vm_compute; reflexivity.
Qed.
Print Assumptions C40_only_p2pkh_refuted.

Example C40_example : exists t', tx_sign_auto ex_t (mk_signer ex_key 0) = Ok (t', mk_signer ex_key 0x41, None) /\
  tx_sign ex_t 0 (mk_signer ex_key 0) = Ok (t', mk_signer ex_key 0x41, None) /\ matches ex_pub ex_i1.
Proof.
  eexists. split; [vm_compute; reflexivity|]. split; [vm_compute; reflexivity|]. now apply C40_p2pkh_matches.
Qed.

(** ** C41: SignAuto reports failure *)

(** it never does *)
Theorem C41_never_reports : forall t s t' s' oe, tx_sign_auto t s = Ok (t', s', oe) -> sg_flag s < 256 -> nlen (inputs t) <= 2 ^ 32 ->
  oe = None.
Proof.
  intros t s t' s' oe H Bf B. unfold tx_sign_auto in H. rewrite sign_auto_eq in H by assumption.
  destruct (outcomes s t 0 (inputs t)) as [l|e|] eqn:O; [|now apply outcomes_not_err in O|discriminate]. congruence.
Qed.
Print Assumptions C41_never_reports.

(** although a matching input was left unsigned: no previous txid, or the key failed *)
Theorem C41_reports_failure_refuted :
  (exists t s t' s' i e, tx_sign_auto t s = Ok (t', s', None) /\ t' = t /\
     nth_error (inputs t) 0 = Some (Some i) /\ prev_script i = Some (p2pkh (hash160 (key_pub (sg_key s)))) /\ unlocking i = None /\
     tx_sign t 0 s = Ok (t, s', Some e)) /\
  (exists t s t' s' i e, tx_sign_auto t s = Ok (t', s', None) /\ t' = t /\
     nth_error (inputs t) 0 = Some (Some i) /\ prev_script i = Some (p2pkh (hash160 (key_pub (sg_key s)))) /\ unlocking i = None /\
     prev_txid i = hex_encode ex_id1 /\ tx_sign t 0 s = Ok (t, s', Some e)).
Proof.
  split.
  - set (i := mk_in [] 0 1 (Some (p2pkh (hash160 ex_pub))) None 0).
    exists (mk_tx 1 [Some i] [Some ex_o] 0), (mk_signer ex_key 0). eexists _, _, i, _.
    split; [vm_compute; reflexivity|]. split; [vm_compute; reflexivity|]. split; [reflexivity|]. split; [reflexivity|]. split; [reflexivity|].
    vm_compute; reflexivity.
  - set (i := mk_in (hex_encode ex_id1) 0 1 (Some (p2pkh (hash160 ex_pub))) None 0).
    exists (mk_tx 1 [Some i] [Some ex_o] 0), (mk_signer (mk_key ex_pub (fun _ => Err (ENoInput 0))) 0). eexists _, _, i, _.
    split; [vm_compute; reflexivity|]. split; [vm_compute; reflexivity|]. split; [reflexivity|]. split; [reflexivity|]. split; [reflexivity|].
    split; [reflexivity|]. vm_compute; reflexivity.
Qed.
Print Assumptions C41_reports_failure_refuted.
