(** C101: signatures that leave parts of a transaction open. *)
From Verif Require Import S_Weak P_Flow T_Flow T_Demand T_Script T_Chain T_Tx T_Sighash T_Exact T_Joint T_Strict T_Third.
From Coq Require Import Lia ZifyBool ZifyNat ZifyN.

(** ** The preimage *)
Lemma somes {A} (P : A -> Prop) l : Forall (fun o => exists x, o = Some x /\ P x) l -> exists l', l = map Some l'.
Proof.
  induction 1 as [|o l (x & -> & _) _ (l' & ->)]; [now exists []|]. now exists (x :: l').
Qed.
Lemma points_outpoints is' : forall is ws, map point_of (map Some is') = map point_of (map Some is) -> Forall2 outpoint is ws -> Forall2 outpoint is' ws.
Proof.
  induction is' as [|a is' IH]; intros [|b is] ws E F; cbn [map] in E; try discriminate E; [exact F|].
  inversion F as [|? w ? ws' F1 F2]; subst. injection E as E1 E2 E3. constructor; [|now apply (IH is)].
  unfold outpoint in *. rewrite E1, E2. exact F1.
Qed.
Lemma sequences_eq is' : forall is, map sequence_of (map Some is') = map sequence_of (map Some is) -> map sequence is' = map sequence is.
Proof. intros is E. now rewrite !map_map in E. Qed.
Lemma covers_preimage f t n t' n' p : sig_tx t' -> covers f t n t' n' -> preimage t n f p -> preimage t' n' f p.
Proof.
  intros (WI & WO & _) (E1 & E2 & (i0 & N1 & N2) & E3 & E4 & E5 & E6) (is & os & i & s & hp & hs & ho & op & len & EI & EO & Ni & PS & HP & HS & HO & OP & CM & ->).
  destruct (somes _ _ WI) as (is' & EI'). destruct (somes _ _ WO) as (os' & EO').
  assert (i0 = i) as ->. { rewrite EI, nth_error_map, Ni in N1. cbn in N1. congruence. }
  exists is', os', i, s, hp, hs, ho, op, len. split; [exact EI'|]. split; [exact EO'|]. split.
  { rewrite EI', nth_error_map in N2. destruct (nth_error is' n') as [j|]; cbn in N2; congruence. }
  split; [exact PS|]. unfold spent in E3. rewrite EI, EI' in E3, E4. rewrite EO, EO' in E5, E6.
  split. { unfold hash_prevouts in *. destruct (any_one_can_pay f); [exact HP|]. destruct HP as (ws & F & ->). exists ws. split; [|reflexivity]. apply (points_outpoints is' is); auto. }
  split. { unfold hash_sequence in *. destruct (any_one_can_pay f); [exact HS|]. destruct (is_all f); [|exact HS]. rewrite HS. cbn [orb negb].
    rewrite <- (map_map sequence (le_put 4) is'), <- (map_map sequence (le_put 4) is), (sequences_eq is' is); auto. }
  split. { unfold hash_outputs in *. destruct (is_none f) eqn:Fn; [exact HO|]. destruct (is_single f) eqn:Fs.
    - specialize (E6 eq_refl). rewrite !nth_error_map in E6.
      destruct (nth_error os n) as [o|], (nth_error os' n') as [o'|]; cbn in E6; try discriminate E6; [|exact HO]. assert (o' = o) as -> by congruence. exact HO.
    - assert (is_all f = true) as Fa by (unfold is_all; now rewrite Fn, Fs). specialize (E5 Fa).
      assert (os' = os) as ->; [|exact HO]. clear -E5. revert os E5. induction os' as [|a l IH]; intros [|b m] E; cbn in E; try discriminate E; [reflexivity|].
      injection E as -> E. f_equal. now apply IH. }
  split; [exact OP|]. split; [exact CM|]. now rewrite E1, E2.
Qed.

Lemma moved_taken (verify : bytes -> bytes -> bytes -> Prop) t n f pub sg p i : nlen sg + 1 < 2 ^ 32 -> nlen pub < 2 ^ 32 -> network_flag f -> preimage t n f p -> verify pub (dsha p) sg ->
  nth_error (inputs t) n = Some (Some (with_script i (fst (p2pkh_unlocking_script pub sg f)))) -> prev_script i = Some (p2pkh (hash160 pub)) -> taken verify t n.
Proof.
  intros L LP NF P V E' S.
  assert (p2pkh_unlocking_script pub sg f = (fst (p2pkh_unlocking_script pub sg f), None)) as U.
  { destruct (C18_bytes pub sg f) as (a & b & X & _); [unfold nlen in *; rewrite app_length; cbn [length]; lia|exact LP|]. rewrite X. reflexivity. }
  set (u := fst (p2pkh_unlocking_script pub sg f)) in *. pose proof (C78_unlocking_script _ _ _ _ U) as C78.
  destruct (C13_from_pubkey_bytes pub) as [PK _].
  exists (with_script i u), u, (p2pkh (hash160 pub)), [pub; sg ++ [n2b f]]. split; [exact E'|]. split; [reflexivity|]. split; [exact S|]. split.
  - apply (proj2 (proj1 (C78 (strict_ok verify t n) [pub; sg ++ [n2b f]]))). reflexivity.
  - rewrite <- PK. apply (C78 (strict_ok verify t n) []). exists sg, f, p. split; [reflexivity|]. split; [exact NF|]. split; [exact P|exact V].
Qed.

(** Whoever has a signed input can put it into any transaction that the flag covers: the network takes it there. *)
Theorem C101_moves : forall verify t s n c i t1 t' n', sig_tx t -> sig_tx t' -> nlen (inputs t) <= 2 ^ 32 -> honest verify (sg_key s) ->
  nth_error (inputs t) n = Some (Some i) -> prev_txid i <> [] -> prev_script i = Some (p2pkh (hash160 (key_pub (sg_key s)))) ->
  signing s n c -> sign_do t c = Ok t1 -> network_flag (flag_of s) -> sg_flag s < 256 ->
  covers (flag_of s) t1 n t' n' -> taken verify t' n'.
Proof.
  intros verify t s n c i t1 t' n' W W' B HK E X S SG D NF Bf C.
  destruct (signer_writes verify t s n c i t1 W Bf B HK E X S SG D) as (p & sg & P & _ & L & V & _ & R & N1).
  pose proof C as (_ & _ & (i0 & N2 & N3) & _). assert (i0 = with_script i (fst (p2pkh_unlocking_script (key_pub (sg_key s)) sg (flag_of s)))) as -> by congruence.
  apply (moved_taken verify t' n' (flag_of s) (key_pub (sg_key s)) sg p i L (proj1 HK) NF); [|exact V|exact N3|exact S].
  apply (covers_preimage _ _ _ _ _ _ W' C). exact (preimage_resigned _ _ _ _ _ R P).
Qed.
Print Assumptions C101_moves.

(** ** At the node *)
Definition signed_coin (known : list bytes) (oi : option input) : Prop :=
  exists i u id o h, oi = Some i /\ unlocking i = Some u /\ nlen u < 2 ^ 63 /\ prev_txid i = hex_encode (rev id) /\ length id = 32%nat /\
    unspent known id (prev_index i) o /\ prev_index i < 2 ^ 32 /\ sequence i = 2 ^ 32 - 1 /\ prev_sats i = satoshis o /\ prev_script i = locking o /\
    locking o = Some (p2pkh h) /\ length h = 20%nat.
Lemma coins_tx known l os : Forall (signed_coin known) l -> Forall (fun oo => exists o, oo = Some o /\ wf_output o) os -> nlen l + nlen os < 2 ^ 31 ->
  wf_tx (mk_tx 1 l os 0) /\ sig_tx (mk_tx 1 l os 0).
Proof.
  intros C O L. split.
  - split; [reflexivity|]. split; [reflexivity|]. cbn [inputs outputs]. split; [lia|]. split; [lia|]. split; [|exact O].
    eapply Forall_impl; [|exact C]. intros oi (i & u & id & o & h & -> & U & LU & T & LI & UN & BI & SQ & _). exists i. split; [reflexivity|].
    split; [exists (rev id); split; [now rewrite rev_length|exact T]|]. split; [exact BI|]. split; [now rewrite SQ|]. now rewrite U.
  - split; [|split; [exact O|cbn [outputs]; lia]]. cbn [inputs]. eapply Forall_impl; [|exact C].
    intros oi (i & u & id & o & h & -> & U & LU & T & LI & UN & BI & SQ & SA & PS & LO & LH). exists i. split; [reflexivity|]. split.
    + exists (rev id). rewrite T. apply hex_dec_encode.
    + intros s E. assert (s = p2pkh h) as -> by congruence. now apply p2pkh_small.
Qed.
Lemma takes_of verify known l os b : Forall (signed_coin known) l -> Forall (fun oo => exists o, oo = Some o /\ wf_output o) os -> nlen l + nlen os < 2 ^ 31 ->
  tx_to_bytes (mk_tx 1 l os 0) = Ok b -> sized b ->
  (forall n, (n < length l)%nat -> taken verify (mk_tx 1 l os 0) n) -> NoDup (map point_of l) -> l <> [] -> os <> [] ->
  sum (map amount_out os) <= sum (map amount_in l) -> node_takes verify known b.
Proof.
  intros C O L EB S T D NE NO BAL. destruct (coins_tx known l os C O L) as (WT & _). pose proof (wire_of_written _ _ WT EB) as OW.
  exists (bare_tx (mk_tx 1 l os 0)), (mk_tx 1 l os 0). split; [exact OW|]. split; [reflexivity|]. split; [reflexivity|]. split; [reflexivity|].
  unfold spent. cbn [bare_tx inputs outputs]. rewrite Forall_forall in C. split; [|split; [exact T|]].
  - apply F2_build. intros n oi N. destruct (C _ (nth_error_In _ _ N)) as (i & u & id & o & h & -> & U & LU & TX & LI & UN & BI & SQ & SA & PS & LO & LH).
    exists (bare_input i), o, id. split; [reflexivity|]. unfold bare_input. cbn [prev_txid prev_index unlocking sequence].
    split; [exact TX|]. split; [exact UN|]. rewrite U. cbn [script_bytes]. destruct i as [a1 a2 a3 a4 a5 a6]. cbn in *. subst. reflexivity.
  - assert (map point_of (map (option_map bare_input) l) = map point_of l) as ->.
    { rewrite map_map. apply map_ext. intros [i|]; reflexivity. }
    split; [exact D|]. split; [now destruct l|]. split; [exact NO|exact BAL].
Qed.

(** what SignAuto makes of coins of one key *)
Lemma coins_signed verify known k f is os :
  Forall (fun oi => exists k0, In k0 [k] /\ coin known (key_pub k0) oi /\ snd (point_of oi) < 2 ^ 32) is ->
  Forall (fun oo => exists h sats, oo = Some (mk_out sats (Some (p2pkh h))) /\ length h = 20%nat /\ sats < 2 ^ 64) os ->
  nlen is + nlen os < 2 ^ 31 -> honest verify k -> network_flag f ->
  exists t', tx_sign_auto (mk_tx 1 is os 0) (mk_signer k f) = Ok (t', mk_signer k f, None) /\
    resigned (mk_tx 1 is os 0) t' /\ Forall (signed_coin known) (inputs t') /\
    forall n t2 n2, sig_tx t2 -> covers f t' n t2 n2 -> taken verify t2 n2.
Proof.
  intros I1 I2 L HK NF. destruct (shared_sig known [k] is os I1 I2 L) as (W & FK).
  assert (f < 256) as Bf by now apply network_small.
  assert (nlen (inputs (mk_tx 1 is os 0)) <= 2 ^ 32) as BI by (cbn [inputs]; lia).
  assert (Forall (fun oi => exists i, oi = Some i /\ prev_script i = Some (p2pkh (hash160 (key_pub k)))) (inputs (mk_tx 1 is os 0))) as FS.
  { cbn [inputs]. eapply Forall_impl; [|exact FK]. intros oi (i & k0 & -> & [<-|[]] & _ & PS & _). now exists i. }
  destruct (auto_total verify (mk_tx 1 is os 0) (mk_signer k f) W Bf BI HK FS) as (t' & E).
  assert (used_flag (mk_signer k f) = f) as UF. { unfold used_flag. cbn [sg_flag]. destruct (N.eqb_spec f 0) as [->|]; [|reflexivity]. exfalso. cbn [network_flag In] in NF. lia. }
  rewrite UF in E. exists t'. split; [exact E|]. pose proof (auto_resigned (mk_tx 1 is os 0) (mk_signer k f) _ _ _ Bf BI E) as R. split; [exact R|].
  assert (sign_do (mk_tx 1 is os 0) (DoSignAuto (mk_signer k f)) = Ok t') as SD by (cbn [sign_do]; rewrite E; reflexivity).
  assert (forall n i, nth_error is n = Some (Some i) -> prev_txid i <> [] -> prev_script i = Some (p2pkh (hash160 (key_pub k))) ->
    exists p sg, preimage (mk_tx 1 is os 0) n f p /\ nlen sg + 1 < 2 ^ 32 /\ verify (key_pub k) (dsha p) sg /\
      nth_error (inputs t') n = Some (Some (with_script i (fst (p2pkh_unlocking_script (key_pub k) sg f))))) as SW.
  { intros n i N X PS. destruct (signer_writes verify (mk_tx 1 is os 0) (mk_signer k f) n (DoSignAuto (mk_signer k f)) i t' W Bf BI HK N X PS (or_intror eq_refl) SD)
      as (p & sg & P & _ & LS & V & _ & _ & N1). change (flag_of (mk_signer k f)) with (used_flag (mk_signer k f)) in *. rewrite UF in *. exists p, sg. auto. }
  pose proof R as (_ & _ & _ & RI). cbn [inputs] in RI. rewrite Forall_forall in I1. split.
  - apply Forall_forall. intros oi I. apply In_nth_error in I as (n & N). destruct (F2_nth _ _ _ RI _ _ N) as (oj & NJ & _).
    destruct (I1 _ (nth_error_In _ _ NJ)) as (k0 & [<-|[]] & (id & ix & o & UN & LO & LN & ->) & BX).
    destruct (SW n _ NJ) as (p & sg & _ & LS & _ & N1); [cbn [prev_txid]; apply hex32_nonempty; now rewrite rev_length|reflexivity|].
    assert (oi = Some (with_script (mk_in (hex_encode (rev id)) ix (satoshis o) (Some (p2pkh (hash160 (key_pub k)))) None (2 ^ 32 - 1)) (fst (p2pkh_unlocking_script (key_pub k) sg f)))) as -> by congruence.
    eexists _, _, id, o, (hash160 (key_pub k)). split; [reflexivity|]. cbn [with_script unlocking prev_txid prev_index sequence prev_sats prev_script]. split; [reflexivity|].
    split; [apply unlocking_small; [exact LS|apply HK]|]. split; [reflexivity|]. split; [exact LN|]. split; [exact UN|]. split; [exact BX|].
    split; [reflexivity|]. split; [reflexivity|]. split; [now symmetry|]. split; [exact LO|apply hash160_length].
  - intros n t2 n2 W2 C. pose proof C as (_ & _ & (i0 & N2 & N3) & _). destruct (F2_nth _ _ _ RI _ _ N2) as (oj & NJ & _).
    destruct (I1 _ (nth_error_In _ _ NJ)) as (k0 & [<-|[]] & (id & ix & o & UN & LO & LN & ->) & BX).
    destruct (SW n _ NJ) as (p & sg & P & LS & V & N1); [cbn [prev_txid]; apply hex32_nonempty; now rewrite rev_length|reflexivity|].
    rewrite N1 in N2. assert (i0 = with_script (mk_in (hex_encode (rev id)) ix (satoshis o) (Some (p2pkh (hash160 (key_pub k)))) None (2 ^ 32 - 1)) (fst (p2pkh_unlocking_script (key_pub k) sg f))) as -> by congruence.
    apply (moved_taken verify t2 n2 f (key_pub k) sg p _ LS (proj1 HK) NF (covers_preimage _ _ _ _ _ _ W2 C (preimage_resigned _ _ _ _ _ R P)) V N3). reflexivity.
Qed.

Lemma asked_total calls : exists asked, Forall2 asks calls asked.
Proof. induction calls as [|c calls (asked & IH)]; [exists []; constructor|]. destruct (asks_total c) as (a & H). exists (a :: asked). now constructor. Qed.
Lemma wallet_shared known k calls : Forall (wallet_call known (key_pub k)) calls -> Forall (shared_call known [k]) calls.
Proof. intros F. eapply Forall_impl; [|exact F]. intros c W. exists k. split; [now left|exact W]. Qed.
Lemma resigned_lists is os t' : resigned (mk_tx 1 is os 0) t' ->
  t' = mk_tx 1 (inputs t') os 0 /\ map point_of (inputs t') = map point_of is /\ map amount_in (inputs t') = map amount_in is /\ length (inputs t') = length is.
Proof.
  intros (RV & RO & RL & RI). cbn in RV, RO, RL, RI. destruct (signed_points _ _ RI) as (P1 & P2 & _). split; [destruct t'; cbn in *; now subst|].
  split; [exact P1|]. split; [exact P2|]. symmetry. eapply Forall2_length, RI.
Qed.
Lemma nth_spent known l n : Forall (signed_coin known) l -> (n < length l)%nat -> exists i, nth_error l n = Some (Some i).
Proof.
  intros C L. destruct (nth_error l n) as [oi|] eqn:N; [|apply nth_error_None in N; lia]. rewrite Forall_forall in C.
  destruct (C _ (nth_error_In _ _ N)) as (i & _ & _ & _ & _ & -> & _). now exists i.
Qed.

(** A wallet that signs with sighash.NoneForkID: whatever it paid to, whoever sees the result can have the money paid
    elsewhere. *)
Theorem C101_none_redirected : forall verify known k calls, honest verify k -> Forall (wallet_call known (key_pub k)) calls -> nlen calls < 2 ^ 31 ->
  NoDup (points calls) -> points calls <> [] ->
  exists t', tx_sign_auto (tx_run tx_new calls) (mk_signer k 0x42) = Ok (t', mk_signer k 0x42, None) /\
    forall os, Forall (fun oo => exists o, oo = Some o /\ wf_output o) os -> os <> [] -> nlen calls + nlen os < 2 ^ 31 ->
      sum (map amount_out os) <= funds calls ->
      exists b, tx_to_bytes (mk_tx (version t') (inputs t') os (locktime t')) = Ok b /\ (sized b -> node_takes verify known b).
Proof.
  intros verify known k calls HK F B D NE. destruct (asked_total calls) as (asked & A).
  destruct (shared_asked known [k] calls asked (wallet_shared _ _ _ F) A) as (I1 & I2 & L & I3 & I4 & I5 & I6).
  pose proof (tx_run_eq calls tx_new asked A) as RE.
  change (tx_run tx_new calls = mk_tx 1 (concat (map asked_inputs asked)) (concat (map asked_outputs asked)) 0) in RE.
  set (is := concat (map asked_inputs asked)) in *. set (os0 := concat (map asked_outputs asked)) in *. rewrite RE. clear RE.
  destruct (coins_signed verify known k 0x42 is os0 I1 I2 ltac:(unfold nlen in *; lia) HK ltac:(right; now left)) as (t' & E & R & C & T).
  exists t'. split; [exact E|]. intros os O NO LO BAL. destruct (resigned_lists _ _ _ R) as (ET & P1 & P2 & LL).
  assert (version t' = 1 /\ locktime t' = 0) as (-> & ->) by (rewrite ET; split; reflexivity).
  assert (nlen (inputs t') + nlen os < 2 ^ 31) as LB by (unfold nlen in *; lia).
  destruct (coins_tx known (inputs t') os C O LB) as (WT & ST). destruct (wf_wire _ WT) as (b & Hb). pose proof (wire_tx_bytes _ _ Hb) as EB.
  exists b. split; [exact EB|]. intros S. apply (takes_of verify known (inputs t') os b C O LB EB S); auto.
  - intros n Ln. destruct (nth_spent _ _ _ C Ln) as (i & N). apply (T n _ n ST). rewrite ET. unfold covers, spent. cbn [version locktime inputs outputs].
    split; [reflexivity|]. split; [reflexivity|]. split; [now exists i|]. split; [reflexivity|]. split; [reflexivity|]. split; intros X; discriminate X.
  - now rewrite P1, I3.
  - intros X. rewrite X in P1. cbn in P1. rewrite I3 in P1. congruence.
  - rewrite P2, I4. exact BAL.
Qed.
Print Assumptions C101_none_redirected.

(** With NONE and ANYONECANPAY (0xc2) each input by itself is money for whoever sees it. *)
Theorem C101_none_anyone_taken : forall verify known k calls, honest verify k -> Forall (wallet_call known (key_pub k)) calls -> nlen calls < 2 ^ 31 ->
  exists t', tx_sign_auto (tx_run tx_new calls) (mk_signer k 0xc2) = Ok (t', mk_signer k 0xc2, None) /\
    forall n oi os, nth_error (inputs t') n = Some oi -> Forall (fun oo => exists o, oo = Some o /\ wf_output o) os -> os <> [] -> nlen os < 2 ^ 31 - 1 ->
      sum (map amount_out os) <= amount_in oi ->
      exists b, tx_to_bytes (mk_tx 1 [oi] os 0) = Ok b /\ (sized b -> node_takes verify known b).
Proof.
  intros verify known k calls HK F B. destruct (asked_total calls) as (asked & A).
  destruct (shared_asked known [k] calls asked (wallet_shared _ _ _ F) A) as (I1 & I2 & L & I3 & I4 & I5 & I6).
  pose proof (tx_run_eq calls tx_new asked A) as RE.
  change (tx_run tx_new calls = mk_tx 1 (concat (map asked_inputs asked)) (concat (map asked_outputs asked)) 0) in RE.
  set (is := concat (map asked_inputs asked)) in *. set (os0 := concat (map asked_outputs asked)) in *. rewrite RE. clear RE.
  destruct (coins_signed verify known k 0xc2 is os0 I1 I2 ltac:(unfold nlen in *; lia) HK ltac:(right; right; right; right; now left)) as (t' & E & R & C & T).
  exists t'. split; [exact E|]. intros n oi os N O NO LO BAL. destruct (resigned_lists _ _ _ R) as (ET & _).
  assert (Forall (signed_coin known) [oi]) as C1 by (constructor; [rewrite Forall_forall in C; apply C, (nth_error_In _ _ N)|constructor]).
  assert (nlen [oi] + nlen os < 2 ^ 31) as LB by (unfold nlen in *; cbn [length]; lia).
  destruct (coins_tx known [oi] os C1 O LB) as (WT & ST). destruct (wf_wire _ WT) as (b & Hb). pose proof (wire_tx_bytes _ _ Hb) as EB.
  exists b. split; [exact EB|]. intros S. apply (takes_of verify known [oi] os b C1 O LB EB S).
  - intros m Lm. assert (m = 0%nat) as -> by (cbn [length] in Lm; lia). apply (T n _ 0%nat ST). rewrite ET. unfold covers, spent. cbn [version locktime inputs outputs].
    inversion C1 as [|? ? (i & _ & _ & _ & _ & -> & _) _]; subst.
    split; [reflexivity|]. split; [reflexivity|]. split; [exists i; split; [exact N|reflexivity]|]. split; [intros X; discriminate X|]. split; [intros X; discriminate X|]. split; intros X; discriminate X.
  - constructor; [intros []|constructor].
  - intros X. discriminate X.
  - exact NO.
  - cbn [map]. unfold sum at 2. cbn [fold_right]. lia.
Qed.
Print Assumptions C101_none_anyone_taken.

(** ** Pledges *)
Lemma points_app a b : points (a ++ b) = points a ++ points b.
Proof. unfold points. apply flat_map_app. Qed.
Lemma funds_app a b : funds (a ++ b) = funds a + funds b.
Proof. unfold funds. now rewrite map_app, sum_app. Qed.
Lemma payments_app a b : payments (a ++ b) = payments a + payments b.
Proof. unfold payments. now rewrite map_app, sum_app. Qed.
Lemma pay_wallet known pub pay : Forall payment pay -> Forall (wallet_call known pub) pay.
Proof. intros F. eapply Forall_impl; [|exact F]. intros c (h & m & sats & L & B & ->). now apply wc_pay. Qed.
Lemma pay_none pay : Forall payment pay -> points pay = [] /\ funds pay = 0.
Proof.
  induction 1 as [|c pay (h & m & sats & L & B & ->) _ (IH1 & IH2)]; [split; reflexivity|].
  split; [exact IH1|]. unfold funds, sum in *. cbn [map fold_right]. lia.
Qed.
Lemma from_none froms : Forall (fun c => exists id k s sats, c = CallFrom id k s sats) froms -> payments froms = 0 /\ ~ exists a sats, In (CallPayTo a sats) froms.
Proof.
  induction 1 as [|c l (id & k & s & sats & ->) _ (IH1 & IH2)]; [split; [reflexivity|intros (a & sats & [])]|].
  split; [unfold payments, sum in *; cbn [map fold_right]; lia|]. intros (a & x & [H|H]); [discriminate H|apply IH2; eauto].
Qed.
Lemma app_inv2 {A B} (R : A -> B -> Prop) l1 l2 l : Forall2 R (l1 ++ l2) l -> exists a b, l = a ++ b /\ Forall2 R l1 a /\ Forall2 R l2 b.
Proof. intros H. apply Forall2_app_inv_l in H as (a & b & F1 & F2 & ->). now exists a, b. Qed.
Lemma nth_concat {A} (ll : list (list A)) : forall n x, nth_error (concat ll) n = Some x -> exists l m, In l ll /\ nth_error l m = Some x.
Proof.
  induction ll as [|l ll IH]; intros n x H; [destruct n; discriminate H|]. cbn [concat] in H.
  destruct (Nat.ltb_spec n (length l)) as [L|L].
  - rewrite nth_error_app1 in H by exact L. exists l, n. split; [now left|exact H].
  - rewrite nth_error_app2 in H by exact L. destruct (IH _ _ H) as (l' & m & I & N). exists l', m. split; [now right|exact N].
Qed.

Lemma pledge_signed verify known pay asked p : Forall payment pay -> Forall2 asks pay asked -> pledge verify known p -> nlen (snd p) + nlen pay < 2 ^ 31 ->
  exists t', tx_sign_auto (tx_run tx_new (snd p ++ pay)) (mk_signer (fst p) 0xc1) = Ok (t', mk_signer (fst p) 0xc1, None) /\
    t' = mk_tx 1 (inputs t') (concat (map asked_outputs asked)) 0 /\ Forall (signed_coin known) (inputs t') /\
    map point_of (inputs t') = points (snd p) /\ sum (map amount_in (inputs t')) = funds (snd p) /\ length (inputs t') = length (snd p) /\
    forall n t2 n2, sig_tx t2 -> covers 0xc1 t' n t2 n2 -> taken verify t2 n2.
Proof.
  intros FP AP (HK & FW & FF) L. destruct p as [k froms]. cbn [fst snd] in *.
  destruct (asked_total froms) as (af & AF).
  destruct (shared_asked known [k] froms af (wallet_shared _ _ _ FW) AF) as (I1 & I2 & LF & I3 & I4 & I5 & I6).
  destruct (shared_asked known [k] pay asked (wallet_shared _ _ _ (pay_wallet known (key_pub k) pay FP)) AP) as (J1 & J2 & LP & J3 & J4 & J5 & J6).
  destruct (pay_none pay FP) as (PP & _). destruct (from_none froms FF) as (_ & NP).
  assert (concat (map asked_outputs af) = []) as OE.
  { destruct (concat (map asked_outputs af)) as [|x l]; [reflexivity|]. exfalso. apply NP. apply I6. intros X. discriminate X. }
  assert (concat (map asked_inputs asked) = []) as IE.
  { apply map_eq_nil with (f := point_of). now rewrite J3. }
  pose proof (tx_run_eq (froms ++ pay) tx_new (af ++ asked) (Forall2_app AF AP)) as RE.
  change (tx_run tx_new (froms ++ pay) = mk_tx 1 (concat (map asked_inputs (af ++ asked))) (concat (map asked_outputs (af ++ asked))) 0) in RE.
  rewrite !map_app, !concat_app, OE, IE, app_nil_r in RE. cbn [app] in RE. rewrite RE. rewrite OE in LF. rewrite IE in LP. cbn [length] in LF, LP.
  destruct (coins_signed verify known k 0xc1 _ _ I1 J2 ltac:(unfold nlen in *; lia) HK ltac:(right; right; right; now left)) as (t' & E & R & C & T).
  exists t'. split; [exact E|]. destruct (resigned_lists _ _ _ R) as (ET & P1 & P2 & LL). split; [exact ET|]. split; [exact C|].
  split; [now rewrite P1|]. split; [now rewrite P2|]. split; [lia|exact T].
Qed.

(** Any number of people give money towards the same payments: each builds a transaction of his own with all the payments,
    signs it with ALL, ANYONECANPAY and fork id (0xc1) and hands it over. Whoever has collected enough puts all the inputs
    into one transaction, which the network takes. *)
Theorem C101_pledges : forall verify known pay ps, Forall payment pay -> Forall (pledge verify known) ps ->
  nlen (concat (map snd ps)) + nlen pay < 2 ^ 31 ->
  exists ts b, Forall2 (fun p t => tx_sign_auto (tx_run tx_new (snd p ++ pay)) (mk_signer (fst p) 0xc1) = Ok (t, mk_signer (fst p) 0xc1, None)) ps ts /\
    tx_to_bytes (mk_tx 1 (concat (map inputs ts)) (outputs (tx_run tx_new pay)) 0) = Ok b /\
    (sized b -> balanced (concat (map snd ps) ++ pay) -> node_takes verify known b).
Proof.
  intros verify known pay ps FP F L. destruct (asked_total pay) as (asked & AP).
  pose proof (tx_run_eq pay tx_new asked AP) as RE.
  change (tx_run tx_new pay = mk_tx 1 (concat (map asked_inputs asked)) (concat (map asked_outputs asked)) 0) in RE.
  assert (outputs (tx_run tx_new pay) = concat (map asked_outputs asked)) as -> by now rewrite RE. clear RE.
  set (os := concat (map asked_outputs asked)).
  assert (exists ts, Forall2 (fun p t => tx_sign_auto (tx_run tx_new (snd p ++ pay)) (mk_signer (fst p) 0xc1) = Ok (t, mk_signer (fst p) 0xc1, None)) ps ts /\
    Forall (signed_coin known) (concat (map inputs ts)) /\ map point_of (concat (map inputs ts)) = points (concat (map snd ps)) /\
    sum (map amount_in (concat (map inputs ts))) = funds (concat (map snd ps)) /\ length (concat (map inputs ts)) = length (concat (map snd ps)) /\
    forall t, In t ts -> t = mk_tx 1 (inputs t) os 0 /\ forall n t2 n2, sig_tx t2 -> covers 0xc1 t n t2 n2 -> taken verify t2 n2) as (ts & S & C & P & A & LL & T).
  { clear -FP F L AP. revert F L. induction ps as [|p ps IH]; intros F L.
    - exists []. split; [constructor|]. split; [constructor|]. split; [reflexivity|]. split; [reflexivity|]. split; [reflexivity|]. intros t [].
    - inversion F as [|? ? F1 F2]; subst. cbn [map concat] in L. assert (nlen (snd p) + nlen pay < 2 ^ 31) as L1 by (unfold nlen in *; rewrite app_length in L; lia).
      assert (nlen (concat (map snd ps)) + nlen pay < 2 ^ 31) as L2 by (unfold nlen in *; rewrite app_length in L; lia).
      destruct (pledge_signed verify known pay asked p FP AP F1 L1) as (t & E & ET & C & P & A & LN & T). destruct (IH F2 L2) as (ts & S' & C' & P' & A' & LN' & T').
      exists (t :: ts). split; [now constructor|]. cbn [map concat]. split; [apply Forall_app; now split|]. rewrite !map_app, sum_app, points_app, funds_app, !app_length, P, P', A, A', LN, LN'.
      split; [reflexivity|]. split; [reflexivity|]. split; [reflexivity|]. intros t0 [<-|I]; [|now apply T']. split; [exact ET|exact T]. }
  destruct (shared_asked known [ex63_key] pay asked (wallet_shared _ _ _ (pay_wallet known (key_pub ex63_key) pay FP)) AP) as (_ & J2 & LP & _ & _ & J5 & J6). fold os in J2, LP, J5, J6.
  assert (Forall (fun oo => exists o, oo = Some o /\ wf_output o) os) as O.
  { eapply Forall_impl; [|exact J2]. intros oo (h & sats & -> & Lh & Bs). eexists. split; [reflexivity|]. split; [exact Bs|]. eexists. split; [reflexivity|]. now apply p2pkh_small. }
  assert (nlen (concat (map inputs ts)) + nlen os < 2 ^ 31) as LB by (unfold nlen in *; lia).
  destruct (coins_tx known _ os C O LB) as (WT & ST). destruct (wf_wire _ WT) as (b & Hb). pose proof (wire_tx_bytes _ _ Hb) as EB.
  exists ts, b. split; [exact S|]. split; [exact EB|]. intros SZ (D & NE & PAY & BAL).
  destruct (pay_none pay FP) as (PP & PF). assert (payments (concat (map snd ps)) = 0 /\ ~ exists a sats, In (CallPayTo a sats) (concat (map snd ps))) as (PZ & NP).
  { apply from_none. apply Forall_concat, Forall_map. eapply Forall_impl; [|exact F]. intros p (_ & _ & FF). exact FF. }
  rewrite points_app, PP, app_nil_r in D, NE. rewrite payments_app, funds_app, PF, PZ in BAL.
  apply (takes_of verify known _ os b C O LB EB SZ).
  - intros n Ln. destruct (nth_spent _ _ _ C Ln) as (i & N). destruct (nth_concat _ _ _ N) as (l & m & I & M). apply in_map_iff in I as (t & <- & I).
    destruct (T t I) as (ET & TT). apply (TT m _ n ST). rewrite ET. unfold covers, spent. cbn [version locktime inputs outputs].
    split; [reflexivity|]. split; [reflexivity|]. split; [exists i; now split|]. split; [intros X; discriminate X|]. split; [intros X; discriminate X|]. split; [reflexivity|intros X; discriminate X].
  - now rewrite P.
  - intros X. rewrite X in P. cbn in P. congruence.
  - apply J6. destruct PAY as (a & sats & I). apply in_app_or in I as [I|I]; [exfalso; apply NP; eauto|eauto].
  - rewrite A, J5. lia.
Qed.
Print Assumptions C101_pledges.

(** Before that nobody can use a pledge for anything else: whatever the network takes that spends an output of a key
    which has only signed the pledge pays exactly the outputs agreed on, or a collision is at hand. *)
Theorem C101_pledge_safe : forall f verify pub t t' n i, is_all f = true -> f < 256 -> full_tx t -> full_tx t' -> nlen (inputs t) <= 2 ^ 32 -> nlen (inputs t') <= 2 ^ 32 ->
  signed_only_with f verify pub t -> nth_error (inputs t') n = Some (Some i) -> prev_script i = Some (p2pkh (hash160 pub)) ->
  taken verify t' n ->
  (exists u pub' st, unlocking i = Some u /\ exec (strict_ok verify t' n) u [] (pub' :: st) /\ collision hash160 pub' pub) \/
  (exists m f' p p', preimage t m f p /\ preimage t' n f' p' /\ dcollision p p') \/
  (exists o o', all_outputs t o /\ all_outputs t' o' /\ dcollision o o') \/
  outputs t' = outputs t.
Proof.
  intros f verify pub t t' n i FA Bf F F' L L' SO NI PS (i' & u & s & st & N' & U & PS' & R1 & R2).
  assert (i' = i) as -> by congruence. assert (s = p2pkh (hash160 pub)) as -> by congruence.
  rewrite <- (proj1 (C13_from_pubkey_bytes pub)) in R2. apply C78_public_key in R2. destruct R2 as (pub' & sg & st' & -> & HP & CH).
  destruct HP as [-> | HP]; [|left; now exists u, pub', (sg :: st')]. right.
  destruct CH as (s0 & f' & p' & _ & NF & P' & V). apply network_small in NF. destruct (SO _ _ V) as (m & p & P & D).
  destruct (list_eq_dec Byte.byte_eq_dec p p') as [<-|NE].
  2:{ left. exists m, f', p, p'. split; [exact P|]. split; [exact P'|]. apply other_dsha; [now symmetry|exact NE]. }
  right. assert (f = f') as <- by (apply (preimage_flag _ _ _ _ _ _ _ P P'); [exact Bf|exact NF]).
  assert (forall T k, full_tx T -> nlen (inputs T) <= 2 ^ 32 -> preimage T k f p -> N.of_nat k < 2 ^ 32 /\ get_input_signature_hash T (N.of_nat k) f = Ok (rev (sha256 (sha256 p)))) as G.
  { intros T k FT LT PT. pose proof PT as (is & os & j & s & hp & hs & ho & op & len & EI & _ & Nj & _).
    assert (nth_error (inputs T) k = Some (Some j)) as NJ by (rewrite EI; now apply map_nth_error).
    assert (k < length (inputs T))%nat as KL by (apply nth_error_Some; now rewrite NJ).
    assert (N.of_nat k < 2 ^ 32) as KB by (unfold nlen in LT; lia). split; [exact KB|].
    apply C36_digest_iff; [now apply full_sig|exact KB|exact Bf|]. rewrite Nat2N.id. exists j, p. split; [exact NJ|]. split; [|now split].
    destruct FT as (_ & _ & FI & _). rewrite Forall_forall in FI. destruct (FI _ (nth_error_In _ _ NJ)) as (j' & E & ((id & LI & H) & _)). assert (j' = j) as -> by congruence.
    intros E0. rewrite E0 in H. cbn in H. assert (id = []) as -> by congruence. discriminate LI. }
  destruct (G t m F L P) as (B1 & G1). destruct (G t' n F' L' P') as (B2 & G2).
  destruct (C37_outputs t (N.of_nat m) t' (N.of_nat n) f _ F F' B1 B2 Bf FA G1 G2) as (p1 & p2 & o1 & o2 & Q1 & Q2 & O1 & O2 & H).
  rewrite Nat2N.id in Q1, Q2. pose proof (C36_preimage_unique _ _ _ _ _ Q1 P) as ->. pose proof (C36_preimage_unique _ _ _ _ _ Q2 P') as ->.
  destruct H as [H|[H|H]].
  - exfalso. destruct H as [[H _]|[H _]]; now apply H.
  - left. exists o1, o2. auto.
  - right. now symmetry.
Qed.
Print Assumptions C101_pledge_safe.

(** two holders with 1000 each and a payment of 1900, which neither of them could make alone *)
Definition ex101_pub : bytes := x03 :: repeat x22 32.
Definition ex101_key : priv_key := mk_key ex101_pub (fun d => Ok (x30 :: firstn 8 d)).
Definition ex101_verify (pub d sg : bytes) : Prop := (pub = ex63_pub \/ pub = ex101_pub) /\ sg = x30 :: firstn 8 d.
Definition ex101_a : tx :=
  mk_tx 1 [Some (mk_in (hex_encode (repeat x00 32)) 0 0 None (Some [x52]) 0)] [Some (mk_out 1000 (Some (p2pkh (hash160 ex101_pub))))] 0.
Definition ex101_known : list bytes := [ex84_b ex84_a0; ex84_b ex101_a].
Definition ex101_from (pub : bytes) (a : tx) : list tx_call := [CallFrom (ok_or [] (tx_id a)) 0 (hex_encode (p2pkh (hash160 pub))) 1000].
Definition ex101_pay : list tx_call := [CallPayTo ex84_addr 1900].
Definition ex101_ps : list (priv_key * list tx_call) := [(ex63_key, ex101_from ex63_pub ex84_a0); (ex101_key, ex101_from ex101_pub ex101_a)].
Lemma ex101_wf : wf_tx ex101_a.
Proof.
  split; [reflexivity|]. split; [reflexivity|]. split; [reflexivity|]. split; [reflexivity|]. split; (constructor; [|constructor]); eexists; (split; [reflexivity|]).
  - split; [exists (repeat x00 32); split; reflexivity|]. split; [reflexivity|]. split; reflexivity.
  - split; [reflexivity|]. eexists. split; [reflexivity|]. reflexivity.
Qed.
Lemma ex101_honest pub : pub = ex63_pub \/ pub = ex101_pub -> honest ex101_verify (mk_key pub (fun d => Ok (x30 :: firstn 8 d))).
Proof.
  intros H. split; [destruct H as [->| ->]; reflexivity|]. intros d L. exists (x30 :: firstn 8 d). split; [reflexivity|]. split; [|split; [exact H|reflexivity]].
  unfold nlen. cbn [length]. rewrite firstn_length. lia.
Qed.
Lemma ex101_wallet known a pub : wf_tx a -> tx_to_bytes a = Ok (ex84_b a) -> In (ex84_b a) known ->
  nth_error (outputs a) 0 = Some (Some (mk_out 1000 (Some (p2pkh (hash160 pub))))) ->
  Forall sized known -> spentb known (ok_or [] (tx_id a), 0) = false -> Forall (wallet_call known pub) (ex101_from pub a).
Proof.
  intros W E I N S NS. constructor; [|constructor].
  apply (wc_from known pub a (ex84_b a) (mk_out 1000 (Some (p2pkh (hash160 pub)))) 0); try assumption; try reflexivity.
  - rewrite (C31_definition _ _ E). reflexivity.
  - now apply spentb_spec.
Qed.
Definition ex101_t1 : tx := match tx_sign_auto (tx_run tx_new (ex101_from ex63_pub ex84_a0 ++ ex101_pay)) (mk_signer ex63_key 0xc1) with Ok (t, _, _) => t | _ => tx_new end.
Definition ex101_t2 : tx := match tx_sign_auto (tx_run tx_new (ex101_from ex101_pub ex101_a ++ ex101_pay)) (mk_signer ex101_key 0xc1) with Ok (t, _, _) => t | _ => tx_new end.
Definition ex101_joint : bytes := ex84_b (mk_tx 1 (inputs ex101_t1 ++ inputs ex101_t2) (outputs ex101_t1) 0).
Lemma ex101_facts :
  tx_to_bytes ex101_a = Ok (ex84_b ex101_a) /\ tx_to_bytes ex84_a0 = Ok (ex84_b ex84_a0) /\ forallb (fun b => (length b <? 1000)%nat) ex101_known = true /\
  spentb ex101_known (ok_or [] (tx_id ex84_a0), 0) = false /\ spentb ex101_known (ok_or [] (tx_id ex101_a), 0) = false /\
  bytes_eqb (ok_or [] (tx_id ex84_a0)) (ok_or [] (tx_id ex101_a)) = false /\ (length ex101_joint <? 1000)%nat = true /\
  tx_sign_auto (tx_run tx_new (ex101_from ex63_pub ex84_a0 ++ ex101_pay)) (mk_signer ex63_key 0xc1) = Ok (ex101_t1, mk_signer ex63_key 0xc1, None) /\
  tx_sign_auto (tx_run tx_new (ex101_from ex101_pub ex101_a ++ ex101_pay)) (mk_signer ex101_key 0xc1) = Ok (ex101_t2, mk_signer ex101_key 0xc1, None) /\
  outputs (tx_run tx_new ex101_pay) = outputs ex101_t1.
Proof.
  split; [vm_compute; reflexivity|]. split; [vm_compute; reflexivity|]. split; [vm_compute; reflexivity|]. split; [vm_compute; reflexivity|]. split; [vm_compute; reflexivity|].
  split; [vm_compute; reflexivity|]. split; [vm_compute; reflexivity|]. split; [vm_compute; reflexivity|]. split; vm_compute; reflexivity.
Qed.
Lemma ex101_balanced x y : bytes_eqb x y = false ->
  balanced (concat [[CallFrom x 0 (hex_encode (p2pkh (hash160 ex63_pub))) 1000]; [CallFrom y 0 (hex_encode (p2pkh (hash160 ex101_pub))) 1000]] ++ ex101_pay).
Proof.
  intros NE. unfold balanced, points, funds, payments, sum, ex101_pay. cbn [concat app flat_map map fold_right]. split; [|split; [|split]].
  - constructor; [|constructor; [intros []|constructor]]. intros [E|[]]. injection E as E. rewrite E, bytes_eqb_refl in NE. discriminate NE.
  - intros E. discriminate E.
  - eexists _, _. right. right. left. reflexivity.
  - lia.
Qed.
Lemma ex101_two verify known pay k1 f1 k2 f2 t1 t2 os b : Forall payment pay -> pledge verify known (k1, f1) -> pledge verify known (k2, f2) -> nlen (concat [f1; f2]) + nlen pay < 2 ^ 31 ->
  balanced (concat [f1; f2] ++ pay) ->
  tx_sign_auto (tx_run tx_new (f1 ++ pay)) (mk_signer k1 0xc1) = Ok (t1, mk_signer k1 0xc1, None) ->
  tx_sign_auto (tx_run tx_new (f2 ++ pay)) (mk_signer k2 0xc1) = Ok (t2, mk_signer k2 0xc1, None) ->
  outputs (tx_run tx_new pay) = os -> b = ex84_b (mk_tx 1 (inputs t1 ++ inputs t2) os 0) -> sized b -> node_takes verify known b.
Proof.
  intros P P1 P2 L BA E1 E2 EO EB S. assert (Forall (pledge verify known) [(k1, f1); (k2, f2)]) as FP by (constructor; [exact P1|constructor; [exact P2|constructor]]).
  destruct (C101_pledges verify known pay [(k1, f1); (k2, f2)] P FP) as (ts & b' & SG & EB' & N); [exact L|].
  inversion SG as [|? x1 ? ts1 X1 SG1]; subst. inversion SG1 as [|? x2 ? ts2 X2 SG2]; subst. inversion SG2; subst. cbn [fst snd] in X1, X2.
  assert (x1 = t1) as -> by congruence. assert (x2 = t2) as -> by congruence. cbn [map concat] in EB'. rewrite app_nil_r in EB'.
  unfold ex84_b in *. rewrite EB' in *. cbn [ok_or] in *. apply N; [exact S|exact BA].
Qed.
Example C101_example : Forall payment ex101_pay /\ Forall (pledge ex101_verify ex101_known) ex101_ps /\
  balanced (concat (map snd ex101_ps) ++ ex101_pay) /\ sized ex101_joint /\ node_takes ex101_verify ex101_known ex101_joint.
Proof.
  destruct ex101_facts as (F1 & F2 & F3 & F4 & F5 & F6 & F7 & F8 & F9 & F10).
  assert (Forall sized ex101_known) as SK.
  { apply Forall_forall. intros b I. rewrite forallb_forall in F3. now apply sized1, F3. }
  assert (Forall payment ex101_pay) as P.
  { constructor; [|constructor]. exists (hash160 ex63_pub), true, 1900. split; [apply hash160_length|]. split; reflexivity. }
  assert (pledge ex101_verify ex101_known (ex63_key, ex101_from ex63_pub ex84_a0)) as P1.
  { split; [apply (ex101_honest ex63_pub (or_introl eq_refl))|]. split; cbn [fst snd].
    - apply (ex101_wallet ex101_known ex84_a0 ex63_pub ex84_wf0 F2 (or_introl eq_refl) eq_refl SK F4).
    - constructor; [|constructor]. eexists _, _, _, _. reflexivity. }
  assert (pledge ex101_verify ex101_known (ex101_key, ex101_from ex101_pub ex101_a)) as P2.
  { split; [apply (ex101_honest ex101_pub (or_intror eq_refl))|]. split; cbn [fst snd].
    - apply (ex101_wallet ex101_known ex101_a ex101_pub ex101_wf F1 (or_intror (or_introl eq_refl)) eq_refl SK F5).
    - constructor; [|constructor]. eexists _, _, _, _. reflexivity. }
  pose proof (ex101_balanced _ _ F6) as BA. apply sized1 in F7.
  split; [exact P|]. split; [constructor; [exact P1|constructor; [exact P2|constructor]]|]. split; [exact BA|]. split; [exact F7|].
  exact (ex101_two ex101_verify ex101_known ex101_pay ex63_key _ ex101_key _ ex101_t1 ex101_t2 _ ex101_joint P P1 P2 eq_refl BA F8 F9 F10 eq_refl F7).
Qed.
