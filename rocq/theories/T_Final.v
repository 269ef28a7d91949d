(** C103: when the TxID of a signed transaction is final. *)
From Verif Require Import S_Final P_Demand P_Flow T_Flow T_Demand T_Script T_Chain T_Tx T_Push T_Sighash T_Exact T_Strict T_Third T_Cut.
From Coq Require Import Lia ZifyBool ZifyNat ZifyN.

Lemma p2pkh_clean chk (h : bytes) st : length h = 20%nat ->
  ((exists top, exec chk (p2pkh h) st [top] /\ truthy top) <-> exists pub sg, st = [pub; sg] /\ ripemd160 (sha256 pub) = h /\ chk sg pub).
Proof.
  intros L. pose proof (announces_20 h L) as A. split.
  - intros (top & H & T). change (p2pkh h) with (x76 :: xa9 :: ([x14] ++ h ++ [x88; xac])) in H.
    apply exec_word_inv in H as (s1 & W & H); [|vm_compute; discriminate|discriminate]. apply dup_iff in W as (x & r & -> & ->).
    apply exec_word_inv in H as (s2 & W & H); [|vm_compute; discriminate|discriminate]. apply hash_iff in W as (y & q & E & ->). injection E as <- <-.
    apply exec_push_inv in H; [|exact A].
    apply exec_word_inv in H as (s1 & W & H); [|vm_compute; discriminate|discriminate]. apply eqv_iff in W as (z & W). injection W as -> E <-.
    apply exec_word_inv in H as (s2 & W & H); [|vm_compute; discriminate|discriminate]. apply exec_nil_inv in H. subst s2.
    apply sig_iff in W as (pub & sg & r' & W & [(C & E')|(C & E')]); injection E' as -> <-; [|now apply falsy_nil in T].
    injection W as -> ->. exists pub, sg. split; [reflexivity|]. split; [exact E|exact C].
  - intros (pub & sg & -> & E & C). exists [x01]. split; [|apply truthy_one].
    change (p2pkh h) with (x76 :: xa9 :: ([x14] ++ h ++ [x88; xac])).
    eapply ex_word; [constructor|]. eapply ex_word; [constructor|]. apply ex_push; [exact A|]. rewrite <- E.
    eapply ex_word; [constructor|]. eapply ex_word; [now constructor|]. constructor.
Qed.

Lemma announces_bound h n : announces h n -> n < 2 ^ 32.
Proof.
  intros [c L|c|l L|l L].
  - eapply N.le_lt_trans; [exact L|reflexivity].
  - pose proof (le_get_bound [c]) as H. cbn [length le_get] in H. rewrite N.mul_0_r, N.add_0_r in H. eapply N.lt_trans; [exact H|reflexivity].
  - pose proof (le_get_bound l) as H. rewrite L in H. eapply N.lt_trans; [exact H|reflexivity].
  - pose proof (le_get_bound l) as H. now rewrite L in H.
Qed.
Lemma shortest_small h n : shortest_header h n -> n < 2 ^ 32.
Proof. intros [A _]. eapply announces_bound, A. Qed.

Lemma sig_push w s f : network_flag f -> least_push w (s ++ [n2b f]) -> exists h, w = h ++ (s ++ [n2b f]) /\ shortest_header h (nlen (s ++ [n2b f])).
Proof.
  intros NF H. pose proof (network_small f NF) as Bf. inversion H as [k K E1 E2|E1 E2|h d S N E1 E2].
  - exfalso. apply (app_inj_tail [] s) in E2 as [_ E2]. apply flag_byte in E2; [|lia|exact Bf]. subst k. cbn [network_flag In] in NF. lia.
  - exfalso. apply (app_inj_tail [] s) in E2 as [_ E2]. apply (flag_byte 129 f) in E2; [|lia|exact Bf]. subst f. cbn [network_flag In] in NF. lia.
  - exists h. split; [reflexivity|exact S].
Qed.
Lemma key_push w pub : key_size pub -> least_push w pub -> exists h, w = h ++ pub /\ shortest_header h (nlen pub).
Proof.
  intros K H. inversion H as [k B E1 E2|E1 E2|h d S N E1 E2].
  - subst pub. destruct K as [K|K]; discriminate K.
  - subst pub. destruct K as [K|K]; discriminate K.
  - exists h. split; [reflexivity|exact S].
Qed.
Lemma two_pushes u a b : least_pushes u [a; b] <-> exists v w, u = v ++ w /\ least_push v a /\ least_push w b.
Proof.
  split.
  - intros H. inversion H as [|v d u' ds P H' E1 [E2 E3] ]; subst. inversion H' as [|w d u2 ds P2 H2 E1 [E2 E3] ]; subst. inversion H2; subst.
    exists v, w. rewrite app_nil_r. split; [reflexivity|]. split; assumption.
  - intros (v & w & -> & P & Q). apply lps_one; [exact P|]. rewrite <- (app_nil_r w). apply lps_one; [exact Q|constructor].
Qed.
Lemma data_push h d : (2 <= length d)%nat -> shortest_header h (nlen d) -> least_push (h ++ d) d.
Proof. intros L S. apply lp_data; [exact S|]. intros c ->. cbn [length] in L. lia. Qed.
Lemma sig_pushed h s f : network_flag f -> shortest_header h (nlen (s ++ [n2b f])) -> least_push (h ++ (s ++ [n2b f])) (s ++ [n2b f]).
Proof.
  intros NF S. apply lp_data; [exact S|]. intros c E. apply (app_inj_tail s []) in E as [_ <-]. pose proof (network_small f NF) as Bf. split.
  - rewrite b2n_n2b_small by exact Bf. cbn [network_flag In] in NF. lia.
  - intros E. apply (flag_byte f 129) in E; [|exact Bf|lia]. subst f. cbn [network_flag In] in NF. lia.
Qed.

Lemma unlocking_iff u pub sg f : network_flag f -> key_size pub ->
  (least_pushes u [sg ++ [n2b f]; pub] <-> p2pkh_unlocking_script pub sg f = (u, None) /\ nlen sg + 1 < 2 ^ 32).
Proof.
  intros NF K.
  assert (nlen pub < 2 ^ 32) as LP by (unfold nlen; destruct K as [-> | ->]; reflexivity).
  assert (nlen (sg ++ [n2b f]) = nlen sg + 1) as LS by (unfold nlen; rewrite app_length; cbn [length]; lia).
  split.
  - intros H. apply two_pushes in H as (v & w & -> & P & Q).
    apply sig_push in P as (h & -> & S1); [|exact NF]. apply key_push in Q as (g & -> & S2); [|exact K].
    pose proof (shortest_small _ _ S1) as L1. split; [|now rewrite <- LS].
    destruct (C18_bytes pub sg f L1 LP) as (h' & g' & E & S1' & S2'). rewrite E.
    pose proof (C09_prefix_unique _ _ L1 S1) as X1. pose proof (C09_prefix_unique _ _ L1 S1') as Y1.
    pose proof (C09_prefix_unique _ _ LP S2) as X2. pose proof (C09_prefix_unique _ _ LP S2') as Y2.
    assert (h' = h) as -> by congruence. assert (g' = g) as -> by congruence. now rewrite <- (app_assoc h).
  - intros [E L]. rewrite <- LS in L. destruct (C18_bytes pub sg f L LP) as (h & g & E' & S1 & S2). rewrite E' in E.
    assert (u = h ++ (sg ++ [n2b f]) ++ g ++ pub) as -> by congruence. apply two_pushes.
    exists (h ++ (sg ++ [n2b f])), (g ++ pub). split; [now rewrite <- (app_assoc h)|]. split; [now apply sig_pushed|].
    apply data_push; [destruct K as [-> | ->]; lia|exact S2].
Qed.

(** Such a node takes an input that spends a P2PKH output exactly if its unlocking script is what
    NewP2PKHUnlockingScript makes of a public key with that hash and a signature that verifies for a flag of the
    network: no other unlocking script with the same signature is taken. *)
Theorem C103_shape : forall verify t n i h, nth_error (inputs t) n = Some (Some i) -> prev_script i = Some (p2pkh h) -> length h = 20%nat ->
  (carefully_taken verify t n <->
   exists u pub sg f p, unlocking i = Some u /\ p2pkh_unlocking_script pub sg f = (u, None) /\ nlen sg + 1 < 2 ^ 32 /\
     key_size pub /\ ripemd160 (sha256 pub) = h /\ network_flag f /\ preimage t n f p /\ verify pub (dsha p) sg).
Proof.
  intros verify t n i h N S L. split.
  - intros (i0 & u & s & ds & top & N0 & U & S0 & LP & X & T). assert (i0 = i) as -> by congruence. assert (s = p2pkh h) as -> by congruence.
    destruct (proj1 (p2pkh_clean (careful_ok verify t n) h (rev ds) L)) as (pub & sg & E & EH & ((s0 & f & p & -> & NF & P & V) & K)); [now exists top|].
    apply (f_equal (@rev bytes)) in E. rewrite rev_involutive in E. cbn [rev app] in E. subst ds.
    apply unlocking_iff in LP as [LP LL]; [|exact NF|exact K]. exists u, pub, s0, f, p. tauto.
  - intros (u & pub & sg & f & p & U & E & LL & K & EH & NF & P & V).
    destruct (proj2 (p2pkh_clean (careful_ok verify t n) h [pub; sg ++ [n2b f]] L)) as (top & X & T).
    { exists pub, (sg ++ [n2b f]). split; [reflexivity|]. split; [exact EH|]. split; [|exact K]. exists sg, f, p. tauto. }
    exists i, u, (p2pkh h), [sg ++ [n2b f]; pub], top. split; [exact N|]. split; [exact U|]. split; [exact S|]. split; [|split; [exact X|exact T] ].
    apply unlocking_iff; [exact NF|exact K|]. split; [exact E|exact LL].
Qed.
Print Assumptions C103_shape.

Lemma auto_at verify t s t' s' oe n i : sig_tx t -> sg_flag s < 256 -> nlen (inputs t) <= 2 ^ 32 -> honest verify (sg_key s) ->
  tx_sign_auto t s = Ok (t', s', oe) -> nth_error (inputs t) n = Some (Some i) -> prev_txid i <> [] ->
  prev_script i = Some (p2pkh (hash160 (key_pub (sg_key s)))) ->
  exists p sg u, preimage t n (used_flag s) p /\ key_sign (sg_key s) (dsha p) = Ok sg /\ nlen sg + 1 < 2 ^ 32 /\ verify (key_pub (sg_key s)) (dsha p) sg /\
    p2pkh_unlocking_script (key_pub (sg_key s)) sg (used_flag s) = (u, None) /\
    nth_error (inputs t') n = Some (Some (with_script i u)).
Proof.
  intros W Bf B HK H E X S.
  assert (N.of_nat n < 2 ^ 32) as Bn.
  { assert (n < length (inputs t))%nat by (apply nth_error_Some; congruence). unfold nlen in B. lia. }
  unfold tx_sign_auto in H. rewrite sign_auto_eq in H by assumption.
  destruct (outcomes s t 0 (inputs t)) as [l|e|] eqn:O; [|now apply outcomes_not_err in O|discriminate].
  injection H as <- <- <-. destruct (outcomes_ok_nth _ _ _ _ _ O) as [L Q].
  destruct (Q _ _ E) as (oi' & E' & OC). cbn [N.add outcome] in OC.
  assert (hit (key_pub (sg_key s)) i = Ok true) as Hh.
  { apply hit_matches, gpkh_ok_iff. rewrite S. apply gpkh_p2pkh, hash160_length. }
  rewrite Hh in OC. cbn [bind] in OC. unfold sig_script in OC. pose proof (used_flag_small s Bf) as Bu.
  destruct (get_input_signature_hash t (N.of_nat n) (used_flag s)) as [h|e|] eqn:G; cbn [bind] in OC.
  - pose proof (sighash_len _ _ _ _ W Bn Bu G) as L32. destruct (proj2 HK _ L32) as (sg & K & LG & V). rewrite K in OC. cbn [bind] in OC.
    apply sighash_ok_iff in G as (i0 & p & _ & _ & P & ->); try assumption. rewrite Nat2N.id in P. rewrite rev_involutive in K, V.
    exists p, sg, (fst (p2pkh_unlocking_script (key_pub (sg_key s)) sg (used_flag s))). split; [exact P|]. split; [exact K|]. split; [exact LG|]. split; [exact V|]. split.
    + destruct (C18_bytes (key_pub (sg_key s)) sg (used_flag s)) as (a & b & Z & _); [unfold nlen in *; rewrite app_length; cbn [length]; lia|exact (proj1 HK)|]. rewrite Z. reflexivity.
    + cbn [inputs]. rewrite E'. congruence.
  - apply sighash_err_iff in G as (i0 & E0 & D); try assumption. rewrite Nat2N.id in E0.
    assert (i0 = i) as -> by congruence. destruct D as [[D _]|(_ & D & _)]; congruence.
  - apply sighash_panic_iff in G; try assumption. rewrite Nat2N.id in G. exfalso.
    assert (n < length (inputs t))%nat by (apply nth_error_Some; congruence). lia.
Qed.

(** The wallet of C84, with a key of the usual size: what it builds and signs is taken by such a node. *)
Theorem C103_wallet : forall verify known k calls, honest verify k -> key_size (key_pub k) -> Forall (wallet_call known (key_pub k)) calls ->
  nlen calls < 2 ^ 31 ->
  exists t' b, tx_sign_auto (tx_run tx_new calls) (mk_signer k 0) = Ok (t', mk_signer k 65, None) /\ tx_to_bytes t' = Ok b /\
    (sized b -> balanced calls -> careful_node verify known b t').
Proof.
  intros verify known k calls HK KS F B.
  assert (Forall (spend_call (key_pub k)) calls) as FS by (eapply Forall_impl; [|exact F]; intros c; apply wallet_spends).
  destruct (C64_workflow verify k calls HK FS B) as (asked & t' & b & A & SA & V & LT & FI & FO & AC & TB & RT).
  destruct (wallet_asked known (key_pub k) calls asked F A) as (I1 & I2 & I3 & I4 & I5).
  destruct (signed_points _ _ FI) as (P1 & P2 & P3).
  exists t', b. split; [exact SA|]. split; [exact TB|]. intros S (D & NE & PAY & BAL).
  destruct (C84_accepted verify known k calls HK F B) as (t1 & b1 & S1 & B1 & R). assert (t1 = t') as -> by congruence. assert (b1 = b) as -> by congruence.
  destruct (R S) as (WF & _). clear R S1 B1.
  destruct (wf_wire t' WF) as (w & HW). pose proof (wire_tx_bytes _ _ HW) as TW. assert (w = b) as -> by congruence. clear TW.
  exists (bare_tx t'). split; [now apply wire_bare|]. split; [now apply wf_fresh_bare|]. split; [reflexivity|]. split; [reflexivity|]. split; [reflexivity|].
  unfold spent. cbn [bare_tx inputs outputs]. split; [|split].
  - apply F2_build. intros n oi N.
    destruct (F2_nth _ _ _ FI _ _ N) as (oj & NJ & SS). rewrite Forall_forall in I1.
    destruct (I1 _ (nth_error_In _ _ NJ)) as (id & ix & o & UN & LO & LEN & ->).
    destruct (AC n) as (i & u & s & st & st' & N' & U & _); [apply nth_error_Some; congruence|].
    assert (oi = Some i) as -> by congruence. cbn [same_signed_input prev_txid prev_index prev_sats prev_script sequence] in SS.
    destruct SS as (S1 & S2 & S3 & S4 & S5). exists (bare_input i), o, id. split; [reflexivity|]. unfold bare_input. cbn [prev_txid prev_index unlocking sequence].
    split; [now symmetry|]. split; [rewrite <- S2; exact UN|]. rewrite U. cbn [script_bytes].
    destruct i as [a1 a2 a3 a4 a5 a6]. cbn in *. subst. rewrite LO. reflexivity.
  - intros n Ln. destruct (spend_facts k calls asked FS A B) as (W & BI & FX & EI).
    assert (n < length (inputs (tx_run tx_new calls)))%nat as L1 by (rewrite EI; pose proof (Forall2_length _ _ _ FI) as LL; lia).
    destruct (nth_error (inputs (tx_run tx_new calls)) n) as [oi|] eqn:N; [|apply nth_error_None in N; lia].
    rewrite Forall_forall in FX. destruct (FX _ (nth_error_In _ _ N)) as (i & -> & X & S1).
    destruct (auto_at verify _ (mk_signer k 0) t' _ _ n i W eq_refl BI HK SA N X S1) as (p & sg & u & PP & _ & LG & VV & UU & NN).
    pose proof (auto_resigned _ (mk_signer k 0) _ _ _ eq_refl BI SA) as RR.
    apply (C103_shape verify t' n (with_script i u) (hash160 (key_pub k)) NN S1 (hash160_length _)).
    exists u, (key_pub k), sg, 65, p. split; [reflexivity|]. split; [exact UU|]. split; [exact LG|]. split; [exact KS|]. split; [reflexivity|].
    split; [now left|]. split; [exact (preimage_resigned _ _ _ _ _ RR PP)|exact VV].
  - rewrite P3, I2. split; [exact D|]. split.
    { intros E. apply (f_equal (map point_of)) in E. rewrite P3, I2 in E. now apply NE. }
    split; [rewrite FO; now apply I5|]. rewrite FO, I4, P2, I3. exact BAL.
Qed.
Print Assumptions C103_wallet.

Lemma all_or (A : Prop) (P : nat -> Prop) N : (forall n, (n < N)%nat -> A \/ P n) -> A \/ forall n, (n < N)%nat -> P n.
Proof.
  induction N as [|N IH]; intros H; [right; intros n L; lia|]. destruct IH as [a|IH]; [intros n L; apply H; lia|now left|].
  destruct (H N) as [a|p]; [lia|now left|]. right. intros n L. destruct (Nat.eq_dec n N) as [-> |NE]; [exact p|apply IH; lia].
Qed.
Lemma unspent_same known id k o o' : no_collision known -> Forall sized known -> unspent known id k o -> unspent known id k o' -> o = o'.
Proof.
  intros NC SZ ((b & t & I & D & W & N) & _) ((b' & t' & I' & D' & W' & N') & _).
  assert (b' = b) as -> by (apply NC; [exact I'|exact I|congruence]). rewrite Forall_forall in SZ.
  assert (t' = t) as -> by exact (on_wire_unique b _ _ (SZ _ I) W' W). congruence.
Qed.
Lemma unspent_wf known id k o : Forall sized known -> unspent known id k o -> wf_output o.
Proof.
  intros SZ ((b & t & I & D & W & N) & _). rewrite Forall_forall in SZ. destruct (on_wire_wf b t (SZ _ I) W) as (_ & _ & _ & _ & _ & F).
  rewrite Forall_forall in F. destruct (F _ (nth_error_In _ _ N)) as (o' & E & Q). now assert (o' = o) as -> by congruence.
Qed.
Lemma wire_counts b t : wire_tx compact b t -> (length (inputs t) <= length b)%nat /\ (length (outputs t) <= length b)%nat.
Proof.
  intros (ver & nin & wi & nout & wo & lt & -> & Lv & Ll & EV & EL & Ci & Co & FI & FO). rewrite !app_length.
  assert (length (inputs t) <= length (concat wi))%nat as LI.
  { clear -FI. induction FI as [|w oi ws ois (i & _ & (id & ix & l & sq & -> & L & _)) _ IH]; cbn [concat length] in *; [lia|]. rewrite !app_length in *. unfold bytes in *. lia. }
  assert (length (outputs t) <= length (concat wo))%nat as LO.
  { clear -FO. induction FO as [|w oi ws ois (i & _ & (v & l & s & -> & L & _)) _ IH]; cbn [concat length] in *; [lia|]. rewrite !app_length in *. unfold bytes in *. lia. }
  unfold bytes in *. lia.
Qed.
Lemma careful_full verify known b full : careful_node verify known b full -> Forall sized known -> nlen b < 2 ^ 31 ->
  full_tx full /\ nlen (inputs full) <= 2 ^ 32.
Proof.
  intros (t & W & F & EV & EO & EL & LU & _) SZ LB.
  assert (sized b) as SB by (unfold sized, nlen in *; lia). assert (on_wire b t) as OW by (split; [now apply wire_tx_weaken|exact F]).
  destruct (on_wire_wf b t SB OW) as (W1 & W2 & _ & _ & W5 & W6). destruct (wire_counts b t (proj1 OW)) as (C1 & C2).
  pose proof (Forall2_length _ _ _ LU) as LL. split; [|unfold nlen in *; lia].
  split; [now rewrite EV|]. split; [now rewrite EL|]. split; [|split; [now rewrite EO|rewrite EO; unfold nlen in *; lia] ].
  apply Forall_forall. intros oi I. apply In_nth_error in I as (n & N). destruct (F2_nth _ _ _ LU _ _ N) as (oj & NJ & (j & o & id & -> & P & U & ->)).
  rewrite Forall_forall in W5. destruct (W5 _ (nth_error_In _ _ NJ)) as (j' & E & ((x & Lx & Ex) & B1 & B2 & _)). assert (j' = j) as -> by congruence.
  destruct (unspent_wf known id _ o SZ U) as (BS & s & LS & BL). eexists. split; [reflexivity|]. cbn [prev_txid prev_index sequence prev_sats prev_script].
  split; [exists x; rewrite Ex; split; [exact Lx|apply hex_dec_encode]|]. split; [exact B1|]. split; [exact B2|]. split; [exact BS|].
  intros s' E'. cbn in E'. rewrite LS in E'. now assert (s' = s) as -> by congruence.
Qed.
Lemma spend_full k calls : Forall (spend_call (key_pub k)) calls -> nlen calls < 2 ^ 31 -> full_tx (tx_run tx_new calls) /\ nlen (inputs (tx_run tx_new calls)) <= 2 ^ 32.
Proof.
  intros F B. destruct (spends_asked _ _ F) as (asked & A & L & FI & FO). pose proof (tx_run_eq calls tx_new asked A) as RE.
  change (tx_run tx_new calls = mk_tx 1 (concat (map asked_inputs asked)) (concat (map asked_outputs asked)) 0) in RE. rewrite RE. cbn [inputs].
  split; [|unfold nlen in *; lia]. split; [reflexivity|]. split; [reflexivity|]. cbn [inputs outputs]. split; [|split].
  - eapply Forall_impl; [|exact FI]. intros oi (id & vout & sats & -> & Li & Bv & Bs). eexists. split; [reflexivity|]. cbn [prev_txid prev_index sequence prev_sats prev_script].
    split; [exists id; split; [exact Li|apply hex_dec_encode]|]. split; [exact Bv|]. split; [reflexivity|]. split; [exact Bs|].
    intros s E. cbn [prev_script] in E. assert (s = p2pkh (hash160 (key_pub k))) as -> by congruence. apply p2pkh_small, hash160_length.
  - eapply Forall_impl; [|exact FO]. intros oo (h & sats & -> & Lh & Bs). eexists. split; [reflexivity|]. split; [exact Bs|]. eexists. split; [reflexivity|]. now apply p2pkh_small.
  - unfold nlen in *. lia.
Qed.

(** an input as the node knows it and an input of the wallet with the same outpoint agree *)
Lemma same_coin known pub oi of j : no_collision known -> Forall sized known -> looked_up known oi (Some of) -> coin known pub (Some j) ->
  hex_dec (prev_txid of) = hex_dec (prev_txid j) -> prev_index of = prev_index j ->
  prev_txid of = prev_txid j /\ prev_sats of = prev_sats j /\ prev_script of = prev_script j /\ prev_script of = Some (p2pkh (hash160 pub)).
Proof.
  intros NC SZ (i & o & id & -> & P & U & E) (id' & k & o' & U' & LO & LI & E') HX HI.
  assert (of = mk_in (prev_txid i) (prev_index i) (satoshis o) (locking o) (unlocking i) (sequence i)) as -> by congruence.
  assert (j = mk_in (hex_encode (rev id')) k (satoshis o') (Some (p2pkh (hash160 pub))) None (2 ^ 32 - 1)) as -> by congruence. clear E E'.
  cbn [prev_txid prev_index prev_sats prev_script] in *. subst k. rewrite P, !hex_dec_encode in HX.
  assert (rev id = rev id') as R by congruence. apply (f_equal (@rev byte)) in R. rewrite !rev_involutive in R. subst id'.
  assert (o' = o) as -> by exact (unspent_same known id _ _ _ NC SZ U' U). split; [exact P|]. split; [reflexivity|]. split; [exact LO|exact LO].
Qed.

(** Where no signature of the key is about but those that it makes for this transaction, whatever such a node takes that spends one of the outputs of a wallet's transaction is
    that transaction, byte for byte, or two messages with the same hash are at hand. *)
Theorem C103_final : forall verify known k calls t s b b' full, honest verify k -> key_size (key_pub k) ->
  Forall (wallet_call known (key_pub k)) calls -> nlen calls < 2 ^ 31 ->
  tx_sign_auto (tx_run tx_new calls) (mk_signer k 0) = Ok (t, s, None) -> tx_to_bytes t = Ok b -> sized b ->
  only_own verify k (tx_run tx_new calls) full -> no_collision known -> Forall sized known ->
  careful_node verify known b' full -> nlen b' < 2 ^ 31 -> (exists pt, In pt (spent full) /\ In pt (points calls)) ->
  b' = b \/ clash (key_pub k) (tx_run tx_new calls) full.
Proof.
  intros verify known k calls t s b b' full HK KS F B SA TB SB SO NC SZ CN LB (pt & PI & PJ).
  assert (Forall (spend_call (key_pub k)) calls) as FS by (eapply Forall_impl; [|exact F]; intros c; apply wallet_spends).
  destruct (spends_asked _ _ FS) as (asked & A & _). destruct (wallet_asked known (key_pub k) calls asked F A) as (I1 & I2 & _).
  destruct (spend_facts k calls asked FS A B) as (W & BI & FX & EI). rewrite <- EI in I1, I2.
  destruct (spend_full k calls FS B) as (FR & LR). destruct (careful_full verify known b' full CN SZ LB) as (FF & LF).
  destruct (C84_accepted verify known k calls HK F B) as (t1 & b1 & S1 & B1 & R). rewrite S1 in SA. assert (t1 = t) as -> by congruence. assert (b1 = b) as -> by congruence.
  destruct (R SB) as (WF & _). clear R B1 SA.
  pose proof (auto_resigned _ (mk_signer k 0) _ _ _ eq_refl BI S1) as RR.
  destruct CN as (t' & WT & FT & EV & EO & EL & LU & CT & ND & NI & NO & SU).
  set (run := tx_run tx_new calls) in *. set (pub := key_pub k) in *.
  (* what every input that spends an output of the key carries *)
  assert (forall n i, nth_error (inputs full) n = Some (Some i) -> prev_script i = Some (p2pkh (hash160 pub)) -> clash pub run full \/
            exists u sg p, unlocking i = Some u /\ p2pkh_unlocking_script pub sg 65 = (u, None) /\ nlen sg + 1 < 2 ^ 32 /\
              preimage full n 65 p /\ verify pub (dsha p) sg /\ key_sign k (dsha p) = Ok sg /\ exists m, preimage run m 65 p) as CL.
  { intros n i N PS. assert (n < length (inputs full))%nat as Ln by (apply nth_error_Some; rewrite N; discriminate).
    destruct (proj1 (C103_shape verify full n i _ N PS (hash160_length _)) (CT n Ln)) as (u & pub' & sg & f & p & U & E & LS & K & EH & NF & P & V).
    destruct (list_eq_dec Byte.byte_eq_dec pub' pub) as [-> |NE].
    2:{ left. left. exists n, i, u, (sg ++ [n2b f]), pub'. split; [exact N|]. split; [exact U|]. split; [apply unlocking_iff; [exact NF|exact K|]; split; [exact E|exact LS]|]. split; [exact NE|exact EH]. }
    pose proof (proj2 (unlocking_iff u pub sg f NF K) (conj E LS)) as LPS.
    destruct (SO n f p sg (network_small f NF) P) as (m & p0 & P0 & D & KS0); [|exact V|].
    { exists i, u, pub. split; [exact N|]. split; [exact U|exact LPS]. }
    destruct (list_eq_dec Byte.byte_eq_dec p0 p) as [-> |NE].
    2:{ left. right. left. exists m, n, f, p0, p. split; [exact P0|]. split; [exact P|]. apply other_dsha; [exact D|exact NE]. }
    assert (65 = f) as <- by (apply (preimage_flag _ _ _ _ _ _ _ P0 P); [reflexivity|now apply network_small]).
    right. exists u, sg, p. split; [exact U|]. split; [exact E|]. split; [exact LS|]. split; [exact P|]. split; [exact V|]. split; [exact KS0|now exists m]. }
  (* the shared output *)
  unfold spent in PI. apply in_map_iff in PI as (oi & EP & PI). apply In_nth_error in PI as (n & N).
  rewrite <- I2 in PJ. apply in_map_iff in PJ as (oj & EQ & PJ).
  rewrite Forall_forall in I1, FX. destruct (FX _ PJ) as (j & -> & XJ & SJ). pose proof (I1 _ PJ) as CJ.
  destruct (F2_nth _ _ _ LU _ _ N) as (o0 & N0 & LK). assert (exists i, oi = Some i) as (i & ->) by (destruct LK as (x & o & id & _ & _ & _ & ->); eexists; reflexivity).
  cbn [point_of] in EP, EQ.
  destruct (same_coin known pub o0 i j NC SZ LK CJ) as (_ & _ & _ & PS); [congruence|congruence|].
  destruct (CL n i N PS) as [C|(u & sg & p & U & E & LS & P & V & KG & PR)]; [now right|].
  (* no signature counts but those for this transaction *)
  set (verify' := fun (a d x : bytes) => verify a d x /\ (a = pub -> exists m q, preimage run m 65 q /\ d = dsha q)).
  assert (accepted verify' full n) as AC.
  { exists i, u, (p2pkh (hash160 pub)), [pub; sg ++ [n2b 65] ], []. split; [exact N|]. split; [exact U|]. split; [exact PS|]. split.
    - replace u with (fst (p2pkh_unlocking_script pub sg 65)) by (now rewrite E). apply unlocking_run; [exact LS|exact (proj1 HK)].
    - apply p2pkh_run. exists sg, 65, p. split; [reflexivity|]. split; [reflexivity|]. split; [exact P|]. split; [exact V|]. intros _. destruct PR as (m & PR). now exists m, p. }
  assert (signed_only verify' pub run) as SON by (intros d x [_ Vx]; now apply Vx).
  destruct (C99_nothing_else verify' pub run full n i FR FF LR LF SON N PS AC) as [C|[C|[C|C] ] ].
  { exfalso. destruct C as (u' & pub' & st & U' & X & NE & _). assert (u' = u) as -> by congruence.
    apply (proj1 (C78_unlocking_script _ _ _ _ E _ _)) in X. apply NE. congruence. }
  { right. right. left. destruct C as (m & f & q & q' & Q1 & Q2 & Q3). exists m, n, f, q, q'. split; [exact Q1|]. split; [exact Q2|exact Q3]. }
  { right. right. right. exact C. }
  destruct C as (C1 & C2 & C3 & C4 & C5).
  (* the two transactions have the same signed fields *)
  assert (forall m of, nth_error (inputs full) m = Some of -> exists i j o0, of = Some i /\ nth_error (inputs run) m = Some (Some j) /\
            nth_error (inputs t') m = Some o0 /\ looked_up known o0 (Some i) /\
            prev_txid i = prev_txid j /\ prev_index i = prev_index j /\ prev_sats i = prev_sats j /\ prev_script i = prev_script j /\ sequence i = sequence j /\
            prev_script i = Some (p2pkh (hash160 pub)) /\ prev_txid j <> []) as EACH.
  { intros m of Nm. destruct (F2_nth _ _ _ C3 _ _ Nm) as (om & Nj & (x & y & -> & -> & HX & HI)).
    destruct (F2_nth _ _ _ C4 _ _ Nm) as (om' & Nj' & SQ). assert (om' = Some x) as -> by congruence. cbn [same_sequence] in SQ.
    destruct (F2_nth _ _ _ LU _ _ Nm) as (o1 & N1 & LK1). pose proof (nth_error_In _ _ Nj) as IJ. destruct (FX _ IJ) as (x' & EX & XJ' & _).
    assert (x' = x) as -> by congruence.
    destruct (same_coin known pub o1 y x NC SZ LK1 (I1 _ IJ)) as (T1 & T2 & T3 & T4); [now symmetry|now symmetry|].
    exists y, x, o1. split; [reflexivity|]. split; [exact Nj|]. split; [exact N1|]. split; [exact LK1|]. split; [exact T1|]. split; [now symmetry|].
    split; [exact T2|]. split; [exact T3|]. split; [now symmetry|]. split; [exact T4|exact XJ']. }
  pose proof (Forall2_length _ _ _ C3) as LEN. pose proof (Forall2_length _ _ _ LU) as LEN'.
  assert (resigned full run) as RF.
  { split; [now symmetry|]. split; [now symmetry|]. split; [now symmetry|].
    assert (forall (l l' : list (option input)), length l = length l' -> (forall m a c, nth_error l m = Some a -> nth_error l' m = Some c -> same_signed_input a c) -> Forall2 same_signed_input l l') as Q.
    { clear. induction l as [|a l IH]; intros [|c l'] L H; try discriminate L; constructor; [now apply (H 0%nat)|]. apply IH; [now injection L|]. intros m x y X Y. now apply (H (S m)). }
    apply Q; [now symmetry|]. intros m a c Na Nc. destruct (EACH m a Na) as (x & y & o1 & -> & Ny & _ & _ & T1 & T2 & T3 & T4 & T5 & _).
    rewrite Ny in Nc. assert (c = Some y) as -> by congruence. cbn [same_signed_input]. tauto. }
  (* hence every unlocking script is the wallet's *)
  destruct (all_or (clash pub run full) (fun m => exists i j u, nth_error (inputs full) m = Some (Some i) /\ nth_error (inputs t) m = Some (Some (with_script j u)) /\
      nth_error (inputs run) m = Some (Some j) /\ unlocking i = Some u) (length (inputs full))) as [C|ALL]; [|now right|left].
  { intros m Lm. destruct (nth_error (inputs full) m) as [of|] eqn:Nm; [|apply nth_error_None in Nm; lia].
    destruct (EACH m of Nm) as (x & y & o1 & -> & Ny & _ & _ & _ & _ & _ & TS & _ & PX & XX).
    destruct (CL m x Nm PX) as [C|(u1 & sg1 & p1 & U1 & E1 & _ & P1 & _ & K1 & _)]; [now left|]. right.
    assert (prev_script y = Some (p2pkh (hash160 pub))) as PY by congruence.
    destruct (auto_at verify run (mk_signer k 0) t _ _ m y W eq_refl BI HK S1 Ny XX PY) as (p2 & sg2 & u2 & P2 & K2 & _ & _ & E2 & N2).
    change (used_flag (mk_signer k 0)) with 65 in P2, E2. cbn [sg_key] in K2, E2.
    pose proof (C36_preimage_unique _ _ _ _ _ (preimage_resigned _ _ _ _ _ RF P1) P2) as EPP. subst p2.
    assert (sg2 = sg1) as -> by congruence. fold pub in E2. assert (u2 = u1) as -> by congruence.
    exists x, y, u1. split; [reflexivity|]. split; [exact N2|]. split; [exact Ny|exact U1]. }
  assert (t' = bare_tx t) as ET.
  { destruct RR as (R1 & R2 & R3 & R4). destruct t' as [v' l' o' k']. unfold bare_tx. cbn [version inputs outputs locktime] in *. f_equal; [congruence| |congruence|congruence].
    pose proof (Forall2_length _ _ _ R4) as LT. apply nth_error_ext'. intros m. rewrite nth_error_map.
    destruct (Nat.lt_ge_cases m (length (inputs full))) as [Lm|Lm].
    - destruct (ALL m Lm) as (x & y & u1 & Nx & Nt & Ny & Ux). rewrite Nt. cbn [option_map].
      destruct (EACH m _ Nx) as (x0 & y0 & o1 & EX & Ny' & N1 & LK1 & T1 & T2 & _ & _ & T5 & _). assert (x0 = x) as -> by congruence. assert (y0 = y) as -> by congruence.
      cbn [inputs] in N1. rewrite N1. f_equal. unfold fresh_tx in FT. cbn [inputs] in FT. rewrite Forall_forall in FT. destruct (FT _ (nth_error_In _ _ N1)) as (z & -> & (_ & Z1 & Z2 & Z3)).
      destruct LK1 as (z' & o & id & EZ & _ & _ & EX'). assert (z' = z) as -> by congruence. clear EZ EX.
      assert (x = mk_in (prev_txid z) (prev_index z) (satoshis o) (locking o) (unlocking z) (sequence z)) as -> by congruence. clear EX'.
      cbn [prev_txid prev_index sequence unlocking] in T1, T2, T5, Ux. destruct z as [z1 z2 z3 z4 z5 z6]. cbn in Z1, Z2, T1, T2, T5, Ux. subst.
      unfold bare_input, with_script. cbn. reflexivity.
    - rewrite (proj2 (nth_error_None l' m)) by lia. rewrite (proj2 (nth_error_None (inputs t) m)) by lia. reflexivity. }
  destruct (wf_wire t WF) as (w & HW). pose proof (wire_tx_bytes _ _ HW) as TW. assert (w = b) as -> by congruence.
  apply wire_bare in HW. apply wire_tx_bytes in HW, WT. rewrite ET in WT. congruence.
Qed.
Print Assumptions C103_final.

(** how [u] is read as pushes is determined *)
Lemma least_push_first w d r w' d' r' : least_push w d -> least_push w' d' -> w ++ r = w' ++ r' -> d = d' /\ r = r'.
Proof.
  assert (forall k, 1 <= k <= 16 -> forall h n q q', announces h n -> n2b (80 + k) :: q <> h ++ q') as NK.
  { intros k K h n q q' A E. apply announces_low in A as (c & x & -> & L). cbn [app] in E. assert (c = n2b (80 + k)) as -> by congruence.
    assert (b2n (n2b (80 + k)) = 80 + k) as Q by (apply b2n_n2b_small; lia). rewrite Q in L. lia. }
  assert (forall h n q q', announces h n -> x4f :: q <> h ++ q') as NM.
  { intros h n q q' A E. apply announces_low in A as (c & x & -> & L). cbn [app] in E. injection E as <- _. vm_compute in L. now apply L. }
  intros P P' E. destruct P as [k K| |h d S _], P' as [k' K'| |h' d' S' _].
  - cbn [app] in E. assert (n2b (80 + k) = n2b (80 + k')) as E1 by congruence. assert (r = r') as E2 by congruence. apply (flag_byte (80 + k) (80 + k')) in E1; [|lia|lia]. assert (k = k') as -> by lia. split; [reflexivity|exact E2].
  - exfalso. cbn [app] in E. assert (n2b (80 + k) = n2b 79) as E1 by (change (n2b 79) with x4f; congruence). apply (flag_byte (80 + k) 79) in E1; lia.
  - exfalso. rewrite <- app_assoc in E. exact (NK k K h' _ _ _ (proj1 S') E).
  - exfalso. cbn [app] in E. assert (n2b 79 = n2b (80 + k')) as E1 by (change (n2b 79) with x4f; congruence). apply (flag_byte 79 (80 + k')) in E1; lia.
  - cbn [app] in E. injection E as E. split; [reflexivity|exact E].
  - exfalso. rewrite <- app_assoc in E. exact (NM h' _ _ _ (proj1 S') E).
  - exfalso. symmetry in E. rewrite <- app_assoc in E. exact (NK k' K' h _ _ _ (proj1 S) E).
  - exfalso. symmetry in E. rewrite <- app_assoc in E. exact (NM h _ _ _ (proj1 S) E).
  - rewrite <- !app_assoc in E. destruct (announces_prefix _ _ _ _ _ _ (proj1 S) (proj1 S') E) as (_ & EN & E').
    apply app_same in E' as [-> ->]; [split; reflexivity|unfold nlen in EN; unfold bytes in *; lia].
Qed.
Lemma least_push_nonempty w d : least_push w d -> w <> [].
Proof. intros [k K| |h d' S _]; [discriminate|discriminate|]. destruct S as [A _]. apply announces_low in A as (c & x & -> & _). discriminate. Qed.
Lemma least_pushes_fun u ds : least_pushes u ds -> forall ds', least_pushes u ds' -> ds = ds'.
Proof.
  induction 1 as [|w d u ds P _ IH]; intros ds' H.
  - inversion H as [|w d u ds P _ E1 E2]; [reflexivity|]. apply least_push_nonempty in P. destruct w; [now elim P|discriminate E1].
  - inversion H as [E1 E2|w' d' u' ds2 P' H' E1 E2].
    + apply least_push_nonempty in P. destruct w; [now elim P|discriminate E1].
    + destruct (least_push_first _ _ _ _ _ _ P' P E1) as (-> & ->). f_equal. now apply IH.
Qed.

(** If the key's signatures are the only ones that verify for what it signs, the signed transaction carries no other. *)
Theorem C103_own : forall verify known k calls t s, honest verify k -> key_size (key_pub k) -> Forall (wallet_call known (key_pub k)) calls ->
  nlen calls < 2 ^ 31 -> tx_sign_auto (tx_run tx_new calls) (mk_signer k 0) = Ok (t, s, None) ->
  (forall d sg, length d = 32%nat -> verify (key_pub k) d sg -> key_sign k d = Ok sg) ->
  only_own verify k (tx_run tx_new calls) t.
Proof.
  intros verify known k calls t s HK KS F B SA UQ n f p sg Bf P (i & u & pub' & N & U & LP) V.
  assert (Forall (spend_call (key_pub k)) calls) as FS by (eapply Forall_impl; [|exact F]; intros c; apply wallet_spends).
  destruct (spends_asked _ _ FS) as (asked & A & _). destruct (spend_facts k calls asked FS A B) as (W & BI & FX & EI).
  pose proof (auto_resigned _ (mk_signer k 0) _ _ _ eq_refl BI SA) as RR. pose proof RR as (_ & _ & _ & R4).
  destruct (F2_nth _ _ _ R4 _ _ N) as (oj & NJ & _). rewrite Forall_forall in FX. destruct (FX _ (nth_error_In _ _ NJ)) as (j & -> & XJ & SJ).
  destruct (auto_at verify _ (mk_signer k 0) t _ _ n j W eq_refl BI HK SA NJ XJ SJ) as (q & sg1 & u1 & Q & K1 & L1 & V1 & E1 & N1).
  change (used_flag (mk_signer k 0)) with 65 in Q, E1. cbn [sg_key] in K1, E1. assert (i = with_script j u1) as -> by congruence.
  cbn [with_script unlocking] in U. assert (u1 = u) as -> by congruence.
  assert (least_pushes u [sg1 ++ [n2b 65]; key_pub k]) as LP' by (apply unlocking_iff; [now left|exact KS|split; [exact E1|exact L1] ]).
  pose proof (least_pushes_fun _ _ LP _ LP') as EQ. assert (sg ++ [n2b f] = sg1 ++ [n2b 65]) as EE by congruence.
  apply app_inj_tail in EE as [-> EF]. apply flag_byte in EF; [|exact Bf|reflexivity]. subst f.
  pose proof (C36_preimage_unique _ _ _ _ _ P (preimage_resigned _ _ _ _ _ RR Q)) as ->.
  exists n, q. split; [exact Q|]. split; [reflexivity|exact K1].
Qed.
Print Assumptions C103_own.

Lemma word_ext (chk chk' : bytes -> bytes -> Prop) c st st' : (forall a b, chk a b <-> chk' a b) -> word chk c st st' -> word chk' c st st'.
Proof.
  intros M H.
  assert (forall x y, in_order chk x y -> in_order chk' x y) as M1 by (intros x y Q; induction Q; constructor; auto; now apply M).
  assert (forall x y, in_order chk' x y -> in_order chk x y) as M2 by (intros x y Q; induction Q; constructor; auto; now apply M).
  destruct H; try (constructor; auto; now apply M || (rewrite <- M; assumption)).
Qed.
Lemma exec_ext (chk chk' : bytes -> bytes -> Prop) s st st' : (forall a b, chk a b <-> chk' a b) -> exec chk s st st' -> exec chk' s st st'.
Proof.
  intros M H. induction H; [constructor|now apply ex_push| |constructor]. eapply ex_word; [|eassumption]. eapply word_ext; eassumption.
Qed.
Lemma resigned_sym t t' : resigned t t' -> resigned t' t.
Proof.
  intros (A & B & C & D). split; [now symmetry|]. split; [now symmetry|]. split; [now symmetry|].
  clear -D. induction D; constructor; [now apply same_signed_sym|assumption].
Qed.
Lemma careful_resigned verify t t' n sg pub : resigned t t' -> (careful_ok verify t n sg pub <-> careful_ok verify t' n sg pub).
Proof.
  intros R. unfold careful_ok, strict_ok. split; intros ((s & f & p & E & NF & P & V) & K); (split; [|exact K]); exists s, f, p; (split; [exact E|]); (split; [exact NF|]); (split; [|exact V]).
  - exact (preimage_resigned _ _ _ _ _ R P).
  - exact (preimage_resigned _ _ _ _ _ (resigned_sym _ _ R) P).
Qed.
Definition first_script (u : bytes) (t : tx) : tx :=
  mk_tx (version t) (match inputs t with Some i :: r => Some (with_script i u) :: r | l => l end) (outputs t) (locktime t).
Lemma first_resigned u t : resigned t (first_script u t).
Proof.
  unfold first_script. split; [reflexivity|]. split; [reflexivity|]. split; [reflexivity|]. cbn [inputs].
  assert (forall l : list (option input), Forall2 same_signed_input l l) as R by (induction l; constructor; [apply same_signed_refl|assumption]).
  destruct (inputs t) as [|[i|] r]; [constructor| |apply R]. constructor; [cbn; auto|apply R].
Qed.
Lemma first_wf u t : wf_tx t -> nlen u < 2 ^ 63 -> wf_tx (first_script u t).
Proof.
  intros (W1 & W2 & W3 & W4 & W5 & W6) L. unfold first_script. split; [exact W1|]. split; [exact W2|]. cbn [inputs outputs].
  destruct (inputs t) as [|[i|] r] eqn:E; (split; [exact W3|]); (split; [exact W4|]); (split; [|exact W6]); [exact W5| |exact W5].
  inversion W5 as [|? ? (i' & E' & WI) WR]; subst. assert (i' = i) as -> by congruence. constructor; [|exact WR].
  exists (with_script i u). split; [reflexivity|]. destruct WI as (I1 & I2 & I3 & _). split; [exact I1|]. split; [exact I2|]. split; [exact I3|exact L].
Qed.

(** Refuted without that hypothesis: where a second signature can be made from a first one, which verifies as well,
    a second transaction is taken in the place of the first by this node too. *)
Theorem C103_one_signature_refuted : forall verify known b full i r h alt, careful_node verify known b full -> sized b ->
  inputs full = Some i :: r -> prev_script i = Some (p2pkh h) -> length h = 20%nat ->
  (forall pub d s, verify pub d s -> verify pub d (alt s) /\ alt s <> s /\ nlen (alt s) + 1 < 2 ^ 32) ->
  exists b' full', careful_node verify known b' full' /\ b' <> b /\ only_scripts_differ full full'.
Proof.
  intros verify known b full i r h alt (t & WT & FT & EV & EO & EL & LU & CT & ND & NI & NO & SU) SB IN PS L20 ALT.
  assert (nth_error (inputs full) 0 = Some (Some i)) as N0 by (rewrite IN; reflexivity).
  assert (0 < length (inputs full))%nat as L0 by (rewrite IN; cbn [length]; lia).
  destruct (proj1 (C103_shape verify full 0 i h N0 PS L20) (CT _ L0)) as (u & pub & sg & f & p & U & E & LS & K & EH & NF & P & V).
  destruct (ALT _ _ _ V) as (V' & NE & LA).
  assert (nlen pub < 2 ^ 32) as LP by (unfold nlen; destruct K as [-> | ->]; reflexivity).
  assert (nlen (alt sg ++ [n2b f]) < 2 ^ 32) as LA' by (unfold nlen in *; rewrite app_length; cbn [length]; lia).
  destruct (C18_bytes pub (alt sg) f LA' LP) as (hh & gg & E' & S1 & S2). set (u' := hh ++ (alt sg ++ [n2b f]) ++ gg ++ pub) in *.
  assert (u' <> u) as NU.
  { intros ->. pose proof (proj1 (C78_unlocking_script _ _ _ _ E (fun _ _ => True) [pub; sg ++ [n2b f] ])) as X. pose proof (proj1 (C78_unlocking_script _ _ _ _ E' (fun _ _ => True) [pub; sg ++ [n2b f] ])) as Y.
    pose proof (proj2 X eq_refl) as X1. apply Y in X1. assert (sg ++ [n2b f] = alt sg ++ [n2b f]) as Q by congruence. apply app_inj_tail in Q as [Q _]. now apply NE. }
  assert (nlen u' < 2 ^ 63) as LU'.
  { unfold u'. assert (forall x n, shortest_header x n -> (length x <= 5)%nat) as H5 by (intros x n [ [c Lc|c|l Ll|l Ll] _]; cbn [length]; lia).
    pose proof (H5 _ _ S1). pose proof (H5 _ _ S2). unfold nlen in *. rewrite !app_length in *. cbn [length] in *. lia. }
  destruct (inputs t) as [|ot tr] eqn:IT; [now elim NI|]. rewrite IN in LU. inversion LU as [|? ? ? ? LK LR]; subst.
  destruct LK as (j & o & id & -> & PJ & UJ & EI). assert (i = mk_in (prev_txid j) (prev_index j) (satoshis o) (locking o) (unlocking j) (sequence j)) as EI' by congruence.
  assert (on_wire b t) as OW by (split; [now apply wire_tx_weaken|exact FT]). pose proof (on_wire_wf b t SB OW) as WF.
  destruct (wf_wire _ (first_wf u' t WF LU')) as (b' & WB).
  exists b', (first_script u' full). pose proof (first_resigned u' full) as RF. pose proof (first_resigned u' t) as RT.
  assert (fresh_tx (first_script u' t)) as FT'.
  { unfold fresh_tx, first_script in *. cbn [inputs]. rewrite IT in *. inversion FT as [|? ? (j' & EJ & (F1 & F2 & F3 & F4)) FR]; subst. assert (j' = j) as -> by congruence.
    constructor; [|exact FR]. exists (with_script j u'). split; [reflexivity|]. split; [exact F1|]. split; [exact F2|]. split; [exact F3|discriminate]. }
  split; [|split].
  - exists (first_script u' t). split; [exact WB|]. split; [exact FT'|]. split; [exact EV|]. split; [exact EO|]. split; [exact EL|]. split; [|split].
    + unfold first_script. cbn [inputs]. rewrite IT, IN. constructor; [|exact LR]. exists (with_script j u'), o, id. split; [reflexivity|]. split; [exact PJ|]. split; [exact UJ|].
      rewrite EI'. reflexivity.
    + intros n Ln. assert (n < length (inputs full))%nat as Ln' by (unfold first_script in Ln; cbn [inputs] in Ln; rewrite IN in *; exact Ln).
      destruct n as [|n].
      * apply (C103_shape verify (first_script u' full) 0 (with_script i u') (ripemd160 (sha256 pub))); [unfold first_script; cbn [inputs]; rewrite IN; reflexivity|exact PS|exact L20|].
        exists u', pub, (alt sg), f, p. split; [reflexivity|]. split; [exact E'|]. split; [exact LA|]. split; [exact K|]. split; [reflexivity|]. split; [exact NF|].
        split; [exact (preimage_resigned _ _ _ _ _ RF P)|exact V'].
      * destruct (CT _ Ln') as (i1 & u1 & s1 & ds & top & N1 & U1 & P1 & LP1 & X & T). exists i1, u1, s1, ds, top.
        split; [unfold first_script; cbn [inputs]; rewrite IN in *; exact N1|]. split; [exact U1|]. split; [exact P1|]. split; [exact LP1|]. split; [|exact T].
        eapply exec_ext; [|exact X]. intros a c. now apply careful_resigned.
    + destruct (signed_points _ _ (proj2 (proj2 (proj2 RT)))) as (Q1 & _ & _). destruct (signed_points _ _ (proj2 (proj2 (proj2 RF)))) as (_ & Q2 & _).
      unfold spent. rewrite Q1, Q2. rewrite <- IT in *. split; [exact ND|]. split.
      { unfold first_script. cbn [inputs]. rewrite IT. discriminate. }
      split; [exact NO|exact SU].
  - intros ->. assert (on_wire b (first_script u' t)) as OW' by (split; [now apply wire_tx_weaken|exact FT']).
    pose proof (on_wire_unique b _ _ SB OW OW') as Q. apply (f_equal inputs) in Q. unfold first_script in Q. cbn [inputs] in Q. rewrite IT in Q.
    assert (j = with_script j u') as Q' by congruence. apply (f_equal unlocking) in Q'. cbn [with_script unlocking] in Q'. rewrite EI' in U. cbn [unlocking] in U. apply NU. congruence.
  - destruct RF as (R1 & R2 & R3 & R4). split; [now symmetry|]. split; [now symmetry|]. split; [now symmetry|exact R4].
Qed.
Print Assumptions C103_one_signature_refuted.

(** the wallet of C84: its first transaction and all that C103_final asks of it; with an empty push before its unlocking
    script (C99) it is not taken; and a verifier for which every signature has a second one *)
Lemma padded_refused verify t n i h u pub sg f : nth_error (inputs t) n = Some (Some i) -> prev_script i = Some (p2pkh h) -> length h = 20%nat ->
  network_flag f -> key_size pub -> nlen sg + 1 < 2 ^ 32 -> p2pkh_unlocking_script pub sg f = (u, None) -> unlocking i = Some (x00 :: u) ->
  ~ carefully_taken verify t n.
Proof.
  intros N S L NF K LS E U (i0 & u0 & s0 & ds & top & N0 & U0 & S0 & LP & X & T). assert (i0 = i) as -> by congruence. assert (s0 = p2pkh h) as -> by congruence.
  destruct (proj1 (p2pkh_clean (careful_ok verify t n) h (rev ds) L)) as (pub' & sg' & ED & _); [now exists top|].
  assert (u0 = x00 :: u) as -> by congruence.
  assert (least_pushes (x00 :: u) [ []; sg ++ [n2b f]; pub]) as LP'.
  { change (x00 :: u) with (([x00] ++ []) ++ u). apply lps_one; [|apply unlocking_iff; [exact NF|exact K|split; [exact E|exact LS] ] ].
    apply lp_data; [|intros c Q; discriminate Q]. split; [apply (an_direct x00); cbn; lia|]. intros h' A. apply announces_low in A as (c & x & -> & _). cbn [length]. lia. }
  pose proof (least_pushes_fun _ _ LP _ LP') as Q. rewrite Q in ED. discriminate ED.
Qed.
Definition ex103_verify (pub d sg : bytes) : Prop := pub = ex63_pub /\ (sg = x30 :: firstn 8 d \/ sg = x31 :: firstn 8 d).
Definition ex103_alt (sg : bytes) : bytes := match sg with x30 :: r => x31 :: r | _ :: r => x30 :: r | [] => [] end.
Lemma ex103_honest : honest ex103_verify ex63_key.
Proof.
  split; [reflexivity|]. intros d L. exists (x30 :: firstn 8 d). split; [reflexivity|]. split; [|split; [reflexivity|now left] ].
  unfold nlen. cbn [length]. rewrite firstn_length. lia.
Qed.
Lemma ex103_second pub d s : ex103_verify pub d s -> ex103_verify pub d (ex103_alt s) /\ ex103_alt s <> s /\ nlen (ex103_alt s) + 1 < 2 ^ 32.
Proof.
  assert (forall c, nlen (c :: firstn 8 d) + 1 < 2 ^ 32) as L by (intros c; unfold nlen; cbn [length]; rewrite firstn_length; lia).
  intros (-> & [-> | ->]); cbn [ex103_alt]; (split; [split; [reflexivity|]; auto|]); (split; [discriminate|apply L]).
Qed.
Lemma ex103_key : key_size (key_pub ex63_key).
Proof. left. reflexivity. Qed.
Lemma ex103_all known calls t s b : Forall (wallet_call known ex63_pub) calls -> nlen calls < 2 ^ 31 -> balanced calls ->
  tx_sign_auto (tx_run tx_new calls) (mk_signer ex63_key 0) = Ok (t, s, None) -> tx_to_bytes t = Ok b -> (length b <? 1000)%nat = true ->
  only_own ex84_verify ex63_key (tx_run tx_new calls) t /\ careful_node ex84_verify known b t /\ nlen b < 2 ^ 31 /\
  (exists pt, In pt (spent t) /\ In pt (points calls)) /\ careful_node ex103_verify known b t /\ ~ carefully_taken ex84_verify (pad_tx 1 t) 0.
Proof.
  intros F B BA SA TB SZ. pose proof (sized1 _ SZ) as SB. apply Nat.ltb_lt in SZ.
  destruct (C103_wallet ex84_verify known ex63_key calls ex84_honest ex103_key F B) as (t1 & b1 & S1 & B1 & C1).
  destruct (C103_wallet ex103_verify known ex63_key calls ex103_honest ex103_key F B) as (t2 & b2 & S2 & B2 & C2).
  rewrite S1 in SA. assert (t1 = t) as -> by congruence. assert (b1 = b) as -> by congruence.
  rewrite S1 in S2. assert (t2 = t) as -> by congruence. assert (b2 = b) as -> by congruence.
  destruct (C84_accepted ex84_verify known ex63_key calls ex84_honest F B) as (t3 & b3 & S3 & B3 & R). rewrite S1 in S3. assert (t3 = t) as -> by congruence. assert (b3 = b) as -> by congruence.
  destruct (R SB) as (_ & SP & _). pose proof BA as (_ & NP & _). split; [|split; [|split; [|split; [|split] ] ] ].
  - eapply (C103_own ex84_verify known ex63_key calls t _ ex84_honest ex103_key F B S1). intros d sg _ (_ & ->). reflexivity.
  - exact (C1 SB BA).
  - unfold nlen. lia.
  - rewrite SP. destruct (points calls) as [|pt q]; [now elim NP|]. exists pt. split; now left.
  - exact (C2 SB BA).
  - assert (Forall (spend_call ex63_pub) calls) as FS by (eapply Forall_impl; [|exact F]; intros c; apply wallet_spends).
    destruct (spends_asked _ _ FS) as (asked & A & _). destruct (spend_facts ex63_key calls asked FS A B) as (W & BI & FX & EI).
    destruct (inputs (tx_run tx_new calls)) as [|oi r] eqn:IN.
    { exfalso. destruct (wallet_asked known ex63_pub calls asked F A) as (_ & I2 & _). rewrite <- EI in I2. now apply NP. }
    rewrite Forall_forall in FX. destruct (FX oi (or_introl eq_refl)) as (i & -> & X & S0).
    assert (nth_error (inputs (tx_run tx_new calls)) 0 = Some (Some i)) as N0 by (rewrite IN; reflexivity).
    assert (nlen (inputs (tx_run tx_new calls)) <= 2 ^ 32) as BI' by (rewrite IN; exact BI).
    destruct (auto_at ex84_verify _ (mk_signer ex63_key 0) t _ _ 0%nat i W eq_refl BI' ex84_honest S1 N0 X S0) as (p & sg & u & _ & _ & LG & _ & UU & NN).
    destruct (inputs t) as [|ot rt] eqn:IT; [discriminate NN|]. cbn [nth_error] in NN. assert (ot = Some (with_script i u)) as -> by congruence.
    apply (padded_refused ex84_verify (pad_tx 1 t) 0 (pad 1 (with_script i u)) (hash160 ex63_pub) u ex63_pub sg 65).
    + unfold pad_tx. cbn [inputs]. rewrite IT. reflexivity.
    + exact S0.
    + apply hash160_length.
    + now left.
    + exact ex103_key.
    + exact LG.
    + exact UU.
    + reflexivity.
Qed.
Example C103_example : let b0 := ex84_b ex84_a0 in let b1 := ex84_b ex84_a1 in let calls := ex84_calls ex84_a0 1000 in
  honest ex84_verify ex63_key /\ key_size (key_pub ex63_key) /\ Forall (wallet_call [b0] ex63_pub) calls /\
  tx_sign_auto (tx_run tx_new calls) (mk_signer ex63_key 0) = Ok (ex84_a1, mk_signer ex63_key 65, None) /\ tx_to_bytes ex84_a1 = Ok b1 /\
  no_collision [b0] /\ Forall sized [b0] /\
  only_own ex84_verify ex63_key (tx_run tx_new calls) ex84_a1 /\ careful_node ex84_verify [b0] b1 ex84_a1 /\ nlen b1 < 2 ^ 31 /\
  (exists pt, In pt (spent ex84_a1) /\ In pt (points calls)) /\
  careful_node ex103_verify [b0] b1 ex84_a1 /\ ~ carefully_taken ex84_verify (pad_tx 1 ex84_a1) 0.
Proof.
  cbv zeta. destruct ex84_facts as (F1 & F2 & F3 & F4). destruct ex84_facts1 as (F5 & F6 & _). pose proof (sized1 _ F2) as F2'.
  assert (Forall sized [ex84_b ex84_a0]) as FSZ by (constructor; [exact F2'|constructor]).
  assert (Forall (wallet_call [ex84_b ex84_a0] ex63_pub) (ex84_calls ex84_a0 1000) /\ balanced (ex84_calls ex84_a0 1000)) as (C & BA).
  { apply (ex84_wallet [ex84_b ex84_a0] ex84_a0 1000); [exact ex84_wf0|exact F1|now left|lia|reflexivity|reflexivity|exact FSZ|exact F3]. }
  split; [exact ex84_honest|]. split; [exact ex103_key|]. split; [exact C|]. split; [exact F4|]. split; [exact F5|]. split.
  { intros x y [<-|[] ] [<-|[] ] _. reflexivity. }
  split; [exact FSZ|]. exact (ex103_all _ _ _ _ _ C eq_refl BA F4 F5 F6).
Qed.
