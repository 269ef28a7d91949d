(** Proofs about spending workflows and signing histories (C63, C64, C65). *)
From Verif Require Export P_TxMisc P_TxParse S_Flow P_Signer.
From Coq Require Import ZifyBool ZifyNat ZifyN.

(** ** The preimage does not see unlocking scripts *)

Lemma signed_parts is l' : Forall2 same_signed_input (map Some is) l' ->
  exists is', l' = map Some is' /\ Forall2 (fun a b => same_signed_input (Some a) (Some b)) is is'.
Proof.
  revert l'. induction is as [|i is IH]; intros l' F; inversion F as [|a b l1 l2 H F' E1 E2]; subst.
  - exists []. split; [reflexivity|constructor].
  - destruct (IH _ F') as (is' & -> & G). destruct b as [b|]; [|contradiction].
    exists (b :: is'). split; [reflexivity|now constructor].
Qed.

Lemma outpoint_signed a b w : same_signed_input (Some a) (Some b) -> outpoint a w -> outpoint b w.
Proof. intros (E1 & E2 & _) (id & H & ->). exists id. now rewrite <- E1, <- E2. Qed.

Lemma preimage_resigned t t' n f p : resigned t t' -> preimage t n f p -> preimage t' n f p.
Proof.
  intros (EV & EO & EL & F) (is & os & i & s & hp & hs & ho & op & len & EI & EOs & EN & ES & HP & HS & HO & OP & CL & EP).
  rewrite EI in F. destruct (signed_parts _ _ F) as (is' & EI' & G).
  pose proof (Forall2_nth _ _ _ G n) as Q. rewrite EN in Q. destruct (nth_error is' n) as [i'|] eqn:EN'; [|contradiction].
  pose proof Q as (Q1 & Q2 & Q3 & Q4 & Q5).
  exists is', os, i', s, hp, hs, ho, op, len. split; [assumption|]. split; [congruence|]. split; [assumption|].
  split; [congruence|]. split.
  { unfold hash_prevouts in *. destruct (any_one_can_pay f); [assumption|]. destruct HP as (ws & W & E).
    exists ws. split; [|assumption]. clear -G W. revert is' G. induction W as [|a w is ws H W IH]; intros is' G; inversion G; subst; constructor.
    - eapply outpoint_signed; eassumption.
    - now apply IH. }
  split.
  { unfold hash_sequence in *. rewrite HS. destruct (_ || _); [reflexivity|]. do 2 f_equal. clear -G.
    induction G as [|a b is is' H G IH]; [reflexivity|]. cbn [map]. rewrite IH. f_equal. destruct H as (_ & _ & _ & _ & ->). reflexivity. }
  split; [assumption|]. split; [eapply outpoint_signed; eassumption|]. split; [assumption|].
  rewrite EP, EV, EL, Q3, Q5. reflexivity.
Qed.

(** ** SignAuto as a re-signing *)

Lemma outcomes_signed s t l : forall k l', outcomes s t k l = Ok l' -> Forall2 same_signed_input l l'.
Proof.
  induction l as [|x l IH]; intros k l' E; cbn [outcomes] in E.
  - injection E as <-. constructor.
  - destruct (outcome s t k x) as [x'|e|] eqn:O; cbn [bind] in E; try discriminate.
    destruct (outcomes s t (k + 1) l) as [y|e|] eqn:Q; cbn [bind] in E; try discriminate. injection E as <-.
    constructor; [eapply outcome_signed, O|eapply IH, Q].
Qed.

Lemma auto_resigned t s t' s' oe : sg_flag s < 256 -> nlen (inputs t) <= 2 ^ 32 -> tx_sign_auto t s = Ok (t', s', oe) -> resigned t t'.
Proof.
  intros Bf B H. unfold tx_sign_auto in H. rewrite sign_auto_eq in H by assumption.
  destruct (outcomes s t 0 (inputs t)) as [l|e|] eqn:O; [|now apply outcomes_not_err in O|discriminate].
  injection H as <- <- <-. repeat split. cbn [inputs]. eapply outcomes_signed, O.
Qed.

Lemma resigned_trans a b c : resigned a b -> resigned b c -> resigned a c.
Proof.
  intros (A1 & A2 & A3 & A4) (B1 & B2 & B3 & B4). repeat split; try congruence.
  clear -A4 B4. revert B4. generalize (inputs c). induction A4 as [|x y l1 l2 H F IH]; intros l3 G; inversion G; subst; constructor.
  - eapply same_signed_trans; eassumption.
  - now apply IH.
Qed.

(** ** Running a P2PKH spend *)

Lemma push_wire_announces d : nlen d < 4294967296 -> exists h, push_wire d = h ++ d /\ announces h (nlen d).
Proof.
  intros L. unfold push_wire. destruct (push_prefix_ok d L) as [p E]. rewrite E. exists p. split; [reflexivity|].
  now apply push_prefix_announces.
Qed.

Lemma unlocking_run chk pub sg f : nlen sg + 1 < 4294967296 -> nlen pub < 4294967296 ->
  script_run chk (fst (p2pkh_unlocking_script pub sg f)) [] [pub; sg ++ [n2b f]].
Proof.
  intros L1 L2. unfold p2pkh_unlocking_script. cbn [app].
  assert (nlen (sg ++ [n2b f]) < 4294967296) as L3 by (unfold nlen in *; rewrite app_length; cbn [length]; lia).
  rewrite append_array_ok by (intros p [<- | [<- | []]]; assumption). cbn [fst app map concat].
  destruct (push_wire_announces _ L3) as (h1 & -> & A1). destruct (push_wire_announces _ L2) as (h2 & -> & A2).
  rewrite <- (app_assoc h1 (sg ++ [n2b f])), <- (app_assoc h2 pub). apply run_push; [assumption|]. apply run_push; [assumption|]. apply run_done.
Qed.

Lemma p2pkh_run (chk : bytes -> bytes -> Prop) pub sg : chk sg pub -> script_run chk (p2pkh (hash160 pub)) [pub; sg] [[x01]].
Proof.
  intros C. unfold p2pkh. cbn [app]. apply run_dup, run_hash160.
  change (x14 :: hash160 pub ++ [x88; xac]) with ([x14] ++ hash160 pub ++ [x88; xac]). apply run_push.
  - unfold nlen. rewrite hash160_length. apply (an_direct x14). discriminate.
  - apply run_equalverify, run_checksig; [assumption|]. apply run_done.
Qed.

Lemma signed_accepted verify t t' n i s h sg : sig_tx t -> (N.of_nat n < 2 ^ 32) -> sg_flag s < 256 -> honest verify (sg_key s) ->
  nth_error (inputs t) n = Some (Some i) -> prev_txid i <> [] -> prev_script i = Some (p2pkh (hash160 (key_pub (sg_key s)))) ->
  get_input_signature_hash t (N.of_nat n) (used_flag s) = Ok h -> key_sign (sg_key s) (rev h) = Ok sg ->
  resigned t t' ->
  nth_error (inputs t') n = Some (Some (with_script i (fst (p2pkh_unlocking_script (key_pub (sg_key s)) sg (used_flag s))))) ->
  accepted verify t' n.
Proof.
  intros W Bn Bf (LP & HK) E X S H K R E'. pose proof (used_flag_small s Bf) as Bu.
  apply sighash_ok_iff in H as (i0 & p & E0 & _ & P & ->); try assumption. rewrite Nat2N.id in *. rewrite rev_involutive in K.
  destruct (HK (dsha p)) as (sg' & K' & L & V); [unfold dsha; apply sha256_length|]. unfold dsha in *.
  assert (sg' = sg) as -> by congruence. clear K'.
  set (pub := key_pub (sg_key s)) in *. set (u := fst (p2pkh_unlocking_script pub sg (used_flag s))) in *.
  exists (with_script i u), u, (p2pkh (hash160 pub)), [pub; sg ++ [n2b (used_flag s)]], [].
  split; [assumption|]. split; [reflexivity|]. split; [assumption|].
  split; [apply unlocking_run; [exact L|exact LP]|]. apply p2pkh_run.
  exists sg, (used_flag s), p. split; [reflexivity|]. split; [assumption|]. split; [eapply preimage_resigned; eassumption|exact V].
Qed.

Lemma sighash_len t n f h : sig_tx t -> n < 2 ^ 32 -> f < 256 -> get_input_signature_hash t n f = Ok h -> length (rev h) = 32%nat.
Proof.
  intros W Bn Bf H. apply sighash_ok_iff in H as (i & p & _ & _ & _ & ->); try assumption. rewrite rev_involutive. apply sha256_length.
Qed.

(** what SignAuto does to one P2PKH input of an honest key *)
Lemma auto_accepts verify t s t' s' oe n i : sig_tx t -> sg_flag s < 256 -> nlen (inputs t) <= 2 ^ 32 -> honest verify (sg_key s) ->
  tx_sign_auto t s = Ok (t', s', oe) -> nth_error (inputs t) n = Some (Some i) -> prev_txid i <> [] ->
  prev_script i = Some (p2pkh (hash160 (key_pub (sg_key s)))) -> accepted verify t' n.
Proof.
  intros W Bf B HK H E X S. pose proof (auto_resigned _ _ _ _ _ Bf B H) as R.
  assert (N.of_nat n < 2 ^ 32) as Bn.
  { assert (n < length (inputs t))%nat by (apply nth_error_Some; congruence). unfold nlen in B. lia. }
  unfold tx_sign_auto in H. rewrite sign_auto_eq in H by assumption.
  destruct (outcomes s t 0 (inputs t)) as [l|e|] eqn:O; [|now apply outcomes_not_err in O|discriminate].
  injection H as <- <- <-. destruct (outcomes_ok_nth _ _ _ _ _ O) as [L Q].
  destruct (Q _ _ E) as (oi' & E' & OC). cbn [N.add outcome] in OC.
  assert (hit (key_pub (sg_key s)) i = Ok true) as Hh.
  { apply hit_matches, gpkh_ok_iff. rewrite S. apply gpkh_p2pkh, hash160_length. }
  rewrite Hh in OC. cbn [bind] in OC. unfold sig_script in OC.
  pose proof (used_flag_small s Bf) as Bu.
  destruct (get_input_signature_hash t (N.of_nat n) (used_flag s)) as [h|e|] eqn:G; cbn [bind] in OC.
  - pose proof (sighash_len _ _ _ _ W Bn Bu G) as L32. destruct (proj2 HK _ L32) as (sg & K & _). rewrite K in OC. cbn [bind] in OC.
    assert (oi' = Some (with_script i (fst (p2pkh_unlocking_script (key_pub (sg_key s)) sg (used_flag s))))) as -> by congruence.
    eapply signed_accepted; eassumption.
  - apply sighash_err_iff in G as (i0 & E0 & D); try assumption. rewrite Nat2N.id in E0.
    assert (i0 = i) as -> by congruence. destruct D as [[D _]|(_ & D & _)]; congruence.
  - apply sighash_panic_iff in G; try assumption. rewrite Nat2N.id in G. exfalso.
    assert (n < length (inputs t))%nat by (apply nth_error_Some; congruence). lia.
Qed.

(** SignAuto on such a transaction does not panic *)
Lemma auto_total verify t s : sig_tx t -> sg_flag s < 256 -> nlen (inputs t) <= 2 ^ 32 -> honest verify (sg_key s) ->
  Forall (fun oi => exists i, oi = Some i /\ prev_script i = Some (p2pkh (hash160 (key_pub (sg_key s))))) (inputs t) ->
  exists t', tx_sign_auto t s = Ok (t', mk_signer (sg_key s) (used_flag s), None).
Proof.
  intros W Bf B HK F. unfold tx_sign_auto. rewrite sign_auto_eq by assumption. rewrite default_flag_eq.
  destruct (outcomes s t 0 (inputs t)) as [l|e|] eqn:O; [eauto|now apply outcomes_not_err in O|]. exfalso.
  apply outcomes_panic in O as (j & oi & E & P). cbn [N.add] in P.
  assert (j < length (inputs t))%nat as Lj by (apply nth_error_Some; congruence).
  rewrite Forall_forall in F. destruct (F _ (nth_error_In _ _ E)) as (i & -> & S). cbn [outcome] in P.
  assert (hit (key_pub (sg_key s)) i = Ok true) as Hh.
  { apply hit_matches, gpkh_ok_iff. rewrite S. apply gpkh_p2pkh, hash160_length. }
  rewrite Hh in P. cbn [bind] in P. unfold sig_script in P.
  assert (N.of_nat j < 2 ^ 32) as Bn by (unfold nlen in B; lia). pose proof (used_flag_small s Bf) as Bu.
  destruct (get_input_signature_hash t (N.of_nat j) (used_flag s)) as [h|e|] eqn:G; cbn [bind] in P.
  - pose proof (sighash_len _ _ _ _ W Bn Bu G) as L32. destruct (proj2 HK _ L32) as (sg & K & _). rewrite K in P. discriminate.
  - discriminate.
  - apply sighash_panic_iff in G; try assumption. lia.
Qed.

(** ** The wallet's calls *)

Lemma spend_asks pub c : spend_call pub c -> exists a, asks c (Some a) /\
  (length (fst a) + length (snd a) = 1)%nat /\
  Forall (fun oi => exists id vout sats, oi = Some (mk_in (hex_encode id) vout sats (Some (p2pkh (hash160 pub))) None (2 ^ 32 - 1)) /\
            length id = 32%nat /\ vout < 2 ^ 32 /\ sats < 2 ^ 64) (fst a) /\
  Forall (fun oo => exists h sats, oo = Some (mk_out sats (Some (p2pkh h))) /\ length h = 20%nat /\ sats < 2 ^ 64) (snd a).
Proof.
  intros [id vout sats L B1 B2|h m sats L B].
  - eexists ([_], []). split; [apply asks_from; apply hex_dec_encode|]. split; [reflexivity|]. split; [|constructor].
    constructor; [|constructor]. exists id, vout, sats. auto.
  - destruct (addr_round h m L) as [A _]. eexists ([], [_]). split; [eapply asks_pay; [exact A|reflexivity]|].
    split; [reflexivity|]. split; [constructor|]. constructor; [|constructor]. exists h, sats. auto.
Qed.

Lemma spends_asked pub cs : Forall (spend_call pub) cs -> exists asked, Forall2 asks cs asked /\
  (length (concat (map asked_inputs asked)) + length (concat (map asked_outputs asked)) = length cs)%nat /\
  Forall (fun oi => exists id vout sats, oi = Some (mk_in (hex_encode id) vout sats (Some (p2pkh (hash160 pub))) None (2 ^ 32 - 1)) /\
            length id = 32%nat /\ vout < 2 ^ 32 /\ sats < 2 ^ 64) (concat (map asked_inputs asked)) /\
  Forall (fun oo => exists h sats, oo = Some (mk_out sats (Some (p2pkh h))) /\ length h = 20%nat /\ sats < 2 ^ 64) (concat (map asked_outputs asked)).
Proof.
  induction 1 as [|c cs H _ (asked & A & L & F1 & F2)].
  - exists []. repeat split; constructor.
  - destruct (spend_asks _ _ H) as ([ai ao] & A' & L' & G1 & G2). cbn [fst snd] in *. exists (Some (ai, ao) :: asked).
    split; [now constructor|]. cbn [map concat asked_inputs asked_outputs]. rewrite !app_length. cbn [length].
    split; [lia|]. split; apply Forall_app; auto.
Qed.

Lemma asks_unique c a a' : asks c a -> asks c a' -> a = a'.
Proof.
  intros H H'. destruct H; inversion H'; subst; try reflexivity; try congruence.
  - do 5 f_equal. assert (a0 = a) as -> by congruence.
    match goal with H1 : addr_pkh a = hex_encode h, H2 : addr_pkh a = hex_encode ?x |- _ => assert (h = x) as -> by (apply hex_encode_inj; congruence) end.
    reflexivity.
Qed.

Lemma all_asks_unique cs a a' : Forall2 asks cs a -> Forall2 asks cs a' -> a = a'.
Proof.
  intros F. revert a'. induction F as [|c a cs l H F IH]; intros a' G; inversion G; subst; [reflexivity|].
  f_equal; [eapply asks_unique; eassumption|now apply IH].
Qed.

Lemma hex32_nonempty id : length id = 32%nat -> hex_encode id <> [].
Proof. intros L E. apply (f_equal (@length byte)) in E. rewrite hex_encode_length, L in E. discriminate. Qed.

Lemma p2pkh_length h : length h = 20%nat -> nlen (p2pkh h) = 25.
Proof. intros L. unfold nlen, p2pkh. rewrite !app_length, L. reflexivity. Qed.

Lemma p2pkh_small h : length h = 20%nat -> nlen (p2pkh h) < 2 ^ 63.
Proof. intros L. rewrite p2pkh_length by assumption. reflexivity. Qed.

(** ** Parsed transactions *)

Lemma parsed_input v sp t k oi : (scap (Sl v sp) < 2 ^ 62)%Z -> tx_from_slice (Sl v sp) = Ok t ->
  nth_error (inputs t) k = Some oi -> exists i, oi = Some i /\ prev_txid i <> [] /\ prev_script i = None.
Proof.
  intros C E N. apply tx_from_ok in E as [(ver & nin & wi & nout & wo & lt & _ & _ & _ & _ & _ & _ & _ & FI & _) F]; [|assumption].
  unfold fresh_tx in F. rewrite Forall_forall in F. destruct (F _ (nth_error_In _ _ N)) as (i & -> & (b & B) & _ & S & _).
  exists i. split; [reflexivity|]. split; [|assumption]. intros Z.
  apply nth_error_In in N. clear -FI N Z. induction FI as [|w oi wi is (i' & -> & H) _ IH]; [contradiction|].
  destruct N as [N|N]; [|now apply IH]. injection N as ->. destruct H as (id & ix & l & sq & _ & L & _ & _ & _ & D & _).
  rewrite Z in D. cbn in D. injection D as D. apply (f_equal (@length byte)) in D. rewrite rev_length, L in D. discriminate.
Qed.

Lemma sighash_no_script t n f i : nth_error (inputs t) (N.to_nat n) = Some (Some i) -> prev_txid i <> [] -> prev_script i = None ->
  get_input_signature_hash t n f = Err ENoPrevTxScript.
Proof.
  intros E X S. unfold get_input_signature_hash, sighash_preimage. rewrite E. cbn [or_panic deref bind].
  rewrite (proj2 (equals_neq _ _) X). rewrite S. reflexivity.
Qed.

Lemma outcomes_misses s t l : forall k, Forall (fun oi => exists i, oi = Some i /\ hit (key_pub (sg_key s)) i = Ok false) l ->
  outcomes s t k l = Ok l.
Proof.
  induction l as [|oi l IH]; intros k F; cbn [outcomes]; [reflexivity|]. inversion F as [|? ? (i & -> & H) F']; subst.
  cbn [outcome]. rewrite H. cbn [bind]. rewrite IH by assumption. reflexivity.
Qed.

(** ** Histories *)

Lemma with_script_signed_eq i j u : same_signed_input (Some i) (Some j) -> with_script i u = with_script j u.
Proof. intros (A & B & C & D & E). unfold with_script. now rewrite A, B, C, D, E. Qed.

Lemma matches_signed pub i j : same_signed_input (Some i) (Some j) -> matches pub i -> matches pub j.
Proof. intros (A & B & C & D & E) (r & ps & M & H). exists r, ps. split; [congruence|assumption]. Qed.

Lemma hit_signed pub i j : same_signed_input (Some i) (Some j) -> hit pub i = hit pub j.
Proof. intros (A & B & C & D & E). unfold hit. now rewrite D. Qed.

(** the unlocking script a call puts on input [k] *)
Definition writes (t : tx) (c : sign_call) (k : nat) : option bytes :=
  match c with
  | DoSign s n => if Nat.eqb (N.to_nat n) k then match sig_script s n t with Ok u => Some u | _ => None end else None
  | DoSignAuto s =>
      match nth_error (inputs t) k with
      | Some (Some i) =>
          match hit (key_pub (sg_key s)) i with
          | Ok true => match sig_script s (N.of_nat k) t with Ok u => Some u | _ => None end
          | _ => None
          end
      | _ => None
      end
  end.

Lemma writes_resigned t1 t2 c k : call_bounds c -> (k < length (inputs t1))%nat -> nlen (inputs t1) <= 2 ^ 32 -> resigned t1 t2 -> writes t1 c k = writes t2 c k.
Proof.
  intros Bc Lk B R. destruct c as [s n|s]; cbn [writes call_bounds] in *.
  - destruct Bc as [Bf Bn]. now rewrite (sig_script_resigned s n t1 t2).
  - pose proof R as (_ & _ & _ & F). pose proof (Forall2_nth _ _ _ F k) as Q.
    destruct (nth_error (inputs t1) k) as [[i|]|], (nth_error (inputs t2) k) as [[j|]|]; try contradiction; try reflexivity.
    rewrite (hit_signed _ i j) by assumption. rewrite (sig_script_resigned s (N.of_nat k) t1 t2); [reflexivity| |assumption|assumption].
    unfold nlen in B. lia.
Qed.

Lemma sign_do_writes t c t' : call_bounds c -> nlen (inputs t) <= 2 ^ 32 -> sign_do t c = Ok t' ->
  resigned t t' /\
  forall k i, nth_error (inputs t) k = Some (Some i) ->
    nth_error (inputs t') k = Some (Some (match writes t c k with Some u => with_script i u | None => i end)).
Proof.
  intros Bc B H. destruct c as [s n|s]; cbn [sign_do call_bounds] in *.
  - unfold tx_sign in H. rewrite internal_sign_eq in H.
    assert (resigned t t /\ forall k i, nth_error (inputs t) k = Some (Some i) -> nth_error (inputs t) k = Some (Some i)) as X by (split; [apply resigned_refl|auto]).
    destruct (sig_script s n t) as [u|e|] eqn:G.
    + destruct (sig_script_input _ _ _ _ G) as (i0 & E0). rewrite E0 in H. injection H as <-.
      split; [now apply set_script_resigned|]. intros k i E. cbn [writes]. rewrite G. unfold set_script. cbn [inputs].
      destruct (Nat.eqb_spec (N.to_nat n) k) as [<-|Q].
      * assert (i0 = i) as -> by congruence. eapply nth_error_set_eq, E.
      * rewrite nth_error_set_neq by congruence. assumption.
    + injection H as <-. split; [apply resigned_refl|]. intros k i E. cbn [writes]. rewrite G. now destruct (Nat.eqb _ _).
    + discriminate.
  - destruct (tx_sign_auto t s) as [[[t1 s1] oe]|e|] eqn:A; [|discriminate|discriminate]. injection H as <-.
    split; [eapply auto_resigned; eassumption|]. unfold tx_sign_auto in A. rewrite sign_auto_eq in A by assumption.
    destruct (outcomes s t 0 (inputs t)) as [l|e|] eqn:O; [|now apply outcomes_not_err in O|discriminate].
    injection A as <- <- <-. destruct (outcomes_ok_nth _ _ _ _ _ O) as [L Q]. intros k i E. cbn [inputs writes]. rewrite E.
    destruct (Q _ _ E) as (oi' & E' & OC). rewrite E'. cbn [N.add outcome] in OC.
    destruct (hit (key_pub (sg_key s)) i) as [[]|e|] eqn:Hh; cbn [bind] in OC; try discriminate.
    + destruct (sig_script s (N.of_nat k) t) as [u|e|]; [|congruence|discriminate]. congruence.
    + congruence.
Qed.

Lemma writes_signs t c k i : nth_error (inputs t) k = Some (Some i) ->
  forall i', signs_at t c k i' <-> exists u, writes t c k = Some u /\ i' = with_script i u.
Proof.
  intros E i'.
  assert (forall s n, N.to_nat n = k -> ((exists t1 s1, tx_sign t n s = Ok (t1, s1, None) /\ nth_error (inputs t1) k = Some (Some i')) <->
     exists u, match sig_script s n t with Ok u => Some u | _ => None end = Some u /\ i' = with_script i u)) as X.
  { intros s n <-. unfold tx_sign. rewrite internal_sign_eq, E. destruct (sig_script s n t) as [u|e|].
    - split.
      + intros (t1 & s1 & Q & N). injection Q as <- <-. unfold set_script in N. cbn [inputs] in N.
        rewrite (nth_error_set_eq _ _ _ _ E) in N. injection N as <-. eauto.
      + intros (u' & Q & ->). injection Q as <-. eexists _, _. split; [reflexivity|]. unfold set_script. cbn [inputs].
        eapply nth_error_set_eq, E.
    - split; [intros (t1 & s1 & Q & _); discriminate|intros (u & Q & _); discriminate].
    - split; [intros (t1 & s1 & Q & _); discriminate|intros (u & Q & _); discriminate]. }
  destruct c as [s n|s]; cbn [signs_at writes].
  - destruct (Nat.eqb_spec (N.to_nat n) k) as [Q|Q].
    + rewrite <- (X s n Q). tauto.
    + split; [tauto|]. intros (u & D & _). discriminate.
  - rewrite E. rewrite (X s (N.of_nat k) (Nat2N.id k)). split.
    + intros ((i0 & E0 & M) & u & G & ->). assert (i0 = i) as -> by congruence. apply hit_matches in M. rewrite M. eauto.
    + intros (u & G & ->). destruct (hit (key_pub (sg_key s)) i) as [[]|e|] eqn:Hh; try discriminate.
      split; [|eauto]. exists i. split; [reflexivity|]. now apply hit_matches.
Qed.

Lemma with_script_twice i u v : with_script (with_script i u) v = with_script i v.
Proof. reflexivity. Qed.

Lemma sign_run_app t a b : sign_run t (a ++ b) = (t' <- sign_run t a ;; sign_run t' b).
Proof.
  revert t. induction a as [|c a IH]; intros t; cbn [app sign_run bind]; [reflexivity|].
  destruct (sign_do t c) as [t1|e|]; cbn [bind]; auto.
Qed.

Lemma resigned_count t t' : resigned t t' -> length (inputs t') = length (inputs t).
Proof. intros (_ & _ & _ & F). symmetry. eapply Forall2_length, F. Qed.

Lemma history t cs t' : Forall call_bounds cs -> nlen (inputs t) <= 2 ^ 32 -> sign_run t cs = Ok t' ->
  resigned t t' /\
  forall k i, nth_error (inputs t) k = Some (Some i) ->
    (exists c1 c c2 u, cs = c1 ++ c :: c2 /\ writes t c k = Some u /\ (forall c', In c' c2 -> writes t c' k = None) /\
       nth_error (inputs t') k = Some (Some (with_script i u))) \/
    ((forall c, In c cs -> writes t c k = None) /\ nth_error (inputs t') k = Some (Some i)).
Proof.
  revert t'. induction cs as [|c cs IH] using rev_ind; intros t' F B H.
  - cbn in H. injection H as <-. split; [apply resigned_refl|]. intros k i E. right. split; [intros c []|assumption].
  - rewrite sign_run_app in H. destruct (sign_run t cs) as [t1|e|] eqn:R1; cbn [bind] in H; try discriminate.
    apply Forall_app in F as [F Fc]. inversion Fc as [|? ? Bc _]; subst.
    destruct (IH _ F B eq_refl) as (RS & HK). cbn [sign_run] in H. destruct (sign_do t1 c) as [t2|e|] eqn:D; cbn [bind] in H; try discriminate.
    injection H as ->. pose proof (resigned_count _ _ RS) as LC.
    assert (nlen (inputs t1) <= 2 ^ 32) as B1 by (unfold nlen in *; now rewrite LC).
    destruct (sign_do_writes _ _ _ Bc B1 D) as (RS2 & W). split; [eapply resigned_trans; eassumption|].
    intros k i E. assert (k < length (inputs t))%nat as Lk by (apply nth_error_Some; congruence).
    pose proof (writes_resigned t t1 c k Bc Lk B RS) as WE.
    assert (exists j, nth_error (inputs t1) k = Some (Some j) /\ forall u, with_script j u = with_script i u) as (j & Ej & Wj).
    { destruct (HK _ _ E) as [(c1 & c0 & c2 & u & _ & _ & _ & N)|(_ & N)]; eexists; (split; [exact N|]); intros v; reflexivity. }
    pose proof (W _ _ Ej) as N2. rewrite <- WE in N2. destruct (writes t c k) as [u|] eqn:WC.
    + left. exists cs, c, [], u. split; [reflexivity|]. split; [assumption|]. split; [intros c' []|]. now rewrite <- Wj.
    + destruct (HK _ _ E) as [(c1 & c0 & c2 & u & -> & G & NW & N)|(NW & N)].
      * left. exists c1, c0, (c2 ++ [c]), u. split; [now rewrite <- app_assoc|]. split; [assumption|]. split.
        -- intros c' I. apply in_app_or in I as [I|[<-|[]]]; auto.
        -- rewrite N2. congruence.
      * right. split; [|rewrite N2; congruence]. intros c' I. apply in_app_or in I as [I|[<-|[]]]; auto.
Qed.

(** ** Order of calls *)

Lemma sign_do_not_err t c e : call_bounds c -> nlen (inputs t) <= 2 ^ 32 -> sign_do t c <> Err e.
Proof.
  intros Bc B. destruct c as [s n|s]; cbn [sign_do call_bounds] in *.
  - unfold tx_sign. destruct (internal_sign s n t); discriminate.
  - unfold tx_sign_auto. rewrite sign_auto_eq by assumption. destruct (outcomes s t 0 (inputs t)) eqn:O; try discriminate.
Qed.

Lemma outcome_panic_signed s t k a b : same_signed_input a b -> outcome s t k a = Panic <-> outcome s t k b = Panic.
Proof.
  intros H. destruct a as [a|], b as [b|]; try contradiction; cbn [outcome]; [|tauto].
  rewrite (hit_signed _ a b H). destruct (hit (key_pub (sg_key s)) b) as [[]|e|]; cbn [bind]; try (split; congruence).
  destruct (sig_script s k t); split; congruence.
Qed.

Lemma sign_do_panic_resigned t1 t2 c : call_bounds c -> nlen (inputs t1) <= 2 ^ 32 -> resigned t1 t2 ->
  sign_do t1 c = Panic <-> sign_do t2 c = Panic.
Proof.
  intros Bc B R. destruct c as [s n|s]; cbn [sign_do call_bounds] in *.
  - destruct Bc as [Bf Bn]. unfold tx_sign. rewrite !internal_sign_eq. rewrite <- (sig_script_resigned s n t1 t2) by assumption.
    destruct (sig_script s n t1) as [u|e|] eqn:G; [|split; discriminate|tauto].
    destruct (sig_script_input _ _ _ _ G) as (i & E). rewrite E.
    rewrite (sig_script_resigned s n t1 t2) in G by assumption. destruct (sig_script_input _ _ _ _ G) as (j & E'). rewrite E'.
    split; discriminate.
  - pose proof (resigned_count _ _ R) as LC.
    assert (nlen (inputs t2) <= 2 ^ 32) as B2 by (unfold nlen in *; now rewrite LC).
    unfold tx_sign_auto. rewrite !sign_auto_eq by assumption.
    assert (outcomes s t1 0 (inputs t1) = Panic <-> outcomes s t2 0 (inputs t2) = Panic) as X.
    { rewrite (outcomes_resigned s t1 t2) by (try assumption; lia). rewrite !outcomes_panic.
      destruct R as (_ & _ & _ & F). pose proof (Forall2_nth _ _ _ F) as Q.
      split; intros (j & oi & E & P); specialize (Q j); rewrite E in Q.
      - destruct (nth_error (inputs t2) j) as [oj|] eqn:E2; [|contradiction]. exists j, oj. split; [assumption|].
        now apply (outcome_panic_signed s t2 _ oi oj Q).
      - destruct (nth_error (inputs t1) j) as [oj|] eqn:E2; [|contradiction]. exists j, oj. split; [assumption|].
        now apply (outcome_panic_signed s t2 _ oj oi Q). }
    destruct (outcomes s t1 0 (inputs t1)) eqn:O1; [|now apply outcomes_not_err in O1|];
      (destruct (outcomes s t2 0 (inputs t2)) eqn:O2; [|now apply outcomes_not_err in O2|]);
      split; intros H; try discriminate; try reflexivity.
    + exfalso. destruct X as [_ X]. specialize (X eq_refl). discriminate.
    + exfalso. destruct X as [X _]. specialize (X eq_refl). discriminate.
Qed.

Lemma list_ext {A} (l1 l2 : list A) : (forall k, nth_error l1 k = nth_error l2 k) -> l1 = l2.
Proof.
  revert l2. induction l1 as [|a l1 IH]; intros [|b l2] H.
  - reflexivity.
  - specialize (H 0%nat). discriminate.
  - specialize (H 0%nat). discriminate.
  - f_equal; [specialize (H 0%nat); cbn in H; congruence|]. apply IH. intros k. exact (H (S k)).
Qed.

Lemma tx_ext t t1 t2 : resigned t t1 -> resigned t t2 ->
  (forall k i, nth_error (inputs t) k = Some (Some i) -> nth_error (inputs t1) k = nth_error (inputs t2) k) -> t1 = t2.
Proof.
  intros (A1 & A2 & A3 & A4) (B1 & B2 & B3 & B4) H. destruct t1 as [v1 i1 o1 l1], t2 as [v2 i2 o2 l2]. cbn in *.
  assert (i1 = i2) as ->; [|congruence]. apply list_ext. intros k. specialize (H k).
  pose proof (Forall2_nth _ _ _ A4 k) as Q1. pose proof (Forall2_nth _ _ _ B4 k) as Q2.
  destruct (nth_error (inputs t) k) as [[i|]|].
  - now apply (H i).
  - destruct (nth_error i1 k) as [[x|]|], (nth_error i2 k) as [[y|]|]; cbn in *; try contradiction; reflexivity.
  - destruct (nth_error i1 k), (nth_error i2 k); cbn in *; try contradiction; reflexivity.
Qed.

Lemma history_panics t cs : Forall call_bounds cs -> nlen (inputs t) <= 2 ^ 32 ->
  sign_run t cs = Panic <-> exists c, In c cs /\ sign_do t c = Panic.
Proof.
  intros F B. assert (forall cs t1, Forall call_bounds cs -> resigned t t1 -> sign_run t1 cs = Panic <-> exists c, In c cs /\ sign_do t c = Panic) as X;
    [|apply X; [assumption|apply resigned_refl]]. clear cs F.
  induction cs as [|c cs IH]; intros t1 F R; cbn [sign_run].
  - split; [discriminate|]. intros (c & [] & _).
  - inversion F as [|? ? Bc F']; subst. pose proof (sign_do_panic_resigned t t1 c Bc B R) as P.
    pose proof (resigned_count _ _ R) as LC. assert (nlen (inputs t1) <= 2 ^ 32) as B1 by (unfold nlen in *; now rewrite LC).
    destruct (sign_do t1 c) as [t2|e|] eqn:D; cbn [bind].
    + destruct (sign_do_writes _ _ _ Bc B1 D) as (R2 & _).
      rewrite (IH t2 F' (resigned_trans _ _ _ R R2)). split.
      * intros (c' & I & H). exists c'. split; [now right|assumption].
      * intros (c' & [<- |I] & H); [|eauto]. apply P in H. congruence.
    + now apply sign_do_not_err in D.
    + split; [|reflexivity]. intros _. exists c. split; [now left|]. now apply P.
Qed.

Lemma two_calls t a b t' : call_bounds a -> call_bounds b -> nlen (inputs t) <= 2 ^ 32 -> sign_run t [a; b] = Ok t' ->
  resigned t t' /\
  forall k i, nth_error (inputs t) k = Some (Some i) -> nth_error (inputs t') k =
    Some (Some (match writes t b k with Some u => with_script i u | None =>
                match writes t a k with Some u => with_script i u | None => i end end)).
Proof.
  intros Ba Bb B H. cbn [sign_run] in H. destruct (sign_do t a) as [t1|e|] eqn:D1; cbn [bind] in H; try discriminate.
  destruct (sign_do t1 b) as [t2|e|] eqn:D2; cbn [bind] in H; try discriminate. injection H as ->.
  destruct (sign_do_writes _ _ _ Ba B D1) as (R1 & W1). pose proof (resigned_count _ _ R1) as LC.
  assert (nlen (inputs t1) <= 2 ^ 32) as B1 by (unfold nlen in *; now rewrite LC).
  destruct (sign_do_writes _ _ _ Bb B1 D2) as (R2 & W2). split; [eapply resigned_trans; eassumption|].
  intros k i E. assert (k < length (inputs t))%nat as Lk by (apply nth_error_Some; congruence).
  rewrite (W2 _ _ (W1 _ _ E)). rewrite (writes_resigned t t1 b k) by assumption.
  destruct (writes t1 b k); [|reflexivity]. destruct (writes t a k); reflexivity.
Qed.

Lemma commute t c1 c2 : call_bounds c1 -> call_bounds c2 -> nlen (inputs t) <= 2 ^ 32 ->
  (forall k, writes t c1 k = None \/ writes t c2 k = None) ->
  sign_run t [c1; c2] = sign_run t [c2; c1].
Proof.
  intros B1 B2 B W.
  assert (Forall call_bounds [c1; c2]) as F12 by (repeat constructor; assumption).
  assert (Forall call_bounds [c2; c1]) as F21 by (repeat constructor; assumption).
  pose proof (history_panics t _ F12 B) as P12. pose proof (history_panics t _ F21 B) as P21.
  assert (forall cs e, Forall call_bounds cs -> sign_run t cs <> Err e) as NE.
  { clear -B. intros cs e F. assert (forall cs t1, nlen (inputs t1) <= 2 ^ 32 -> Forall call_bounds cs -> sign_run t1 cs <> Err e) as X;
      [|now apply X]. clear. induction cs as [|c cs IH]; intros t1 B F; cbn [sign_run]; [discriminate|]. inversion F; subst.
    destruct (sign_do t1 c) as [t2|e'|] eqn:D; cbn [bind]; [|now apply sign_do_not_err in D|discriminate].
    apply IH; [|assumption]. destruct (sign_do_writes _ _ _ ltac:(eassumption) B D) as (R & _).
    apply resigned_count in R. unfold nlen in *. now rewrite R. }
  assert (sign_run t [c1; c2] = Panic <-> sign_run t [c2; c1] = Panic) as PP.
  { rewrite P12, P21. split; intros (c & I & H); exists c; (split; [|assumption]); cbn in *; tauto. }
  destruct (sign_run t [c1; c2]) as [t1|e|] eqn:D1; [|now apply NE in D1|symmetry; now apply PP].
  destruct (sign_run t [c2; c1]) as [t2|e|] eqn:D2; [|now apply NE in D2|symmetry in PP; now apply PP].
  f_equal. destruct (two_calls _ _ _ _ B1 B2 B D1) as (R1 & W1). destruct (two_calls _ _ _ _ B2 B1 B D2) as (R2 & W2).
  apply (tx_ext t); try assumption. intros k i E. rewrite (W1 _ _ E), (W2 _ _ E).
  destruct (W k) as [-> | ->]; [destruct (writes t c2 k)|destruct (writes t c1 k)]; reflexivity.
Qed.

Lemma call_again t c t1 : call_bounds c -> nlen (inputs t) <= 2 ^ 32 -> sign_do t c = Ok t1 -> sign_do t1 c = Ok t1.
Proof.
  intros Bc B D. destruct (sign_do_writes _ _ _ Bc B D) as (R & W). pose proof (resigned_count _ _ R) as LC.
  assert (nlen (inputs t1) <= 2 ^ 32) as B1 by (unfold nlen in *; now rewrite LC).
  destruct (sign_do t1 c) as [t2|e|] eqn:D2; [|now apply sign_do_not_err in D2|].
  - f_equal. destruct (sign_do_writes _ _ _ Bc B1 D2) as (R2 & W2). apply (tx_ext t).
    + eapply resigned_trans; eassumption.
    + assumption.
    + intros k i E. assert (k < length (inputs t))%nat as Lk by (apply nth_error_Some; congruence).
      rewrite (W2 _ _ (W _ _ E)), (W _ _ E). rewrite <- (writes_resigned t t1 c k) by assumption.
      destruct (writes t c k); reflexivity.
  - apply (sign_do_panic_resigned t t1 c Bc B R) in D2. congruence.
Qed.
