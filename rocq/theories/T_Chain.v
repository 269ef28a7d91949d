(** C84: transactions that spend one another, checked by a node. *)
From Verif Require Import P_TxMisc P_TxParse P_TxSer P_Signer P_Flow T_Tx T_Flow S_Chain.
From Coq Require Import Lia ZifyBool ZifyNat ZifyN.

Lemma wire_of_written a b : wf_tx a -> tx_to_bytes a = Ok b -> on_wire b (bare_tx a).
Proof.
  intros W E. destruct (wf_wire a W) as (w & H). pose proof (wire_tx_bytes _ _ H) as E'. rewrite E in E'.
  assert (b = w) as -> by congruence. split; [apply wire_bare, wire_tx_weaken, H|now apply wf_fresh_bare].
Qed.
Lemma on_wire_parses b t : sized b -> (on_wire b t <-> tx_from_bytes b = Ok t).
Proof. intros S. unfold on_wire, tx_from_bytes. symmetry. apply tx_from_ok. unfold sized, scap in *. cbn [vis spare]. rewrite ?app_nil_r. cbn [length]. lia. Qed.
Lemma on_wire_unique b t t' : sized b -> on_wire b t -> on_wire b t' -> t = t'.
Proof. intros S A B. apply on_wire_parses in A, B; auto. congruence. Qed.
Lemma sum_app a b : sum (a ++ b) = sum a + sum b.
Proof. unfold sum. induction a as [|x a IH]; cbn [app fold_right]; [reflexivity|]. rewrite IH. lia. Qed.

(** what a wallet's calls ask for *)
Definition coin (known : list bytes) (pub : bytes) (oi : option input) : Prop :=
  exists id k o, unspent known id k o /\ locking o = Some (p2pkh (hash160 pub)) /\ length id = 32%nat /\
    oi = Some (mk_in (hex_encode (rev id)) k (satoshis o) (Some (p2pkh (hash160 pub))) None (2 ^ 32 - 1)).
Lemma wallet_from known pub a b o k id s : wf_tx a -> tx_to_bytes a = Ok b -> In b known -> k < 2 ^ 32 ->
    nth_error (outputs a) (N.to_nat k) = Some (Some o) -> locking o = Some (p2pkh (hash160 pub)) ->
    tx_id a = Ok id -> output_script_hex o = Ok s ->
    (forall b' t', In b' known -> on_wire b' t' -> ~ In (id, k) (spent t')) ->
  id = hex_encode (rev (dsha b)) /\ s = hex_encode (p2pkh (hash160 pub)) /\ unspent known (dsha b) k o /\ satoshis o < 2 ^ 64.
Proof.
  intros W E I K N LO TI SH U. pose proof (C31_definition a b E) as D. rewrite TI in D.
  assert (Eid : id = hex_encode (rev (dsha b))) by (unfold dsha; congruence).
  unfold output_script_hex in SH. rewrite LO in SH. cbn [deref bind or_panic] in SH. split; [exact Eid|]. split; [congruence|]. split; [split|].
  - exists b, (bare_tx a). split; [exact I|]. split; [reflexivity|]. split; [now apply wire_of_written|exact N].
  - rewrite <- Eid. exact U.
  - destruct W as (_ & _ & _ & _ & _ & W). rewrite Forall_forall in W. destruct (W _ (nth_error_In _ _ N)) as (o' & E' & B & _). congruence.
Qed.
Lemma wallet_spends known pub c : wallet_call known pub c -> spend_call pub c.
Proof.
  intros [a b o k id s W E I K N LO TI SH U|h m sats L B]; [|now constructor].
  destruct (wallet_from known pub a b o k id s W E I K N LO TI SH U) as (-> & -> & _ & B).
  constructor; auto. rewrite rev_length. apply sha256d_length.
Qed.
Lemma asks_from_inv txid vout script sats s x : hex_dec script = Some s -> asks (CallFrom txid vout script sats) x ->
  x = Some ([Some (mk_in txid vout sats (Some s) None (2 ^ 32 - 1))], []).
Proof. intros H A. inversion A; subst; [repeat f_equal|]; congruence. Qed.
Lemma asks_pay_inv addr sats a h x : addr_from_string addr = Ok a -> addr_pkh a = hex_encode h -> asks (CallPayTo addr sats) x ->
  x = Some ([], [Some (mk_out sats (Some (p2pkh h)))]).
Proof.
  intros H K A. inversion A as [| | | |? ? a' h' E1 E2|? ? N]; subst; [|exfalso; eapply N, H].
  assert (a' = a) as -> by congruence. rewrite K in E2. assert (h' = h) as -> by (apply hex_encode_inj; congruence). reflexivity.
Qed.
Lemma wallet_asked known pub calls : forall asked, Forall (wallet_call known pub) calls -> Forall2 asks calls asked ->
  Forall (coin known pub) (concat (map asked_inputs asked)) /\
  map point_of (concat (map asked_inputs asked)) = points calls /\
  sum (map amount_in (concat (map asked_inputs asked))) = funds calls /\
  sum (map amount_out (concat (map asked_outputs asked))) = payments calls /\
  (concat (map asked_outputs asked) <> [] <-> exists a sats, In (CallPayTo a sats) calls).
Proof.
  induction calls as [|c calls IH]; intros asked W A; inversion A as [|? x ? asked' A1 A2]; subst; clear A.
  - cbn. split; [constructor|]. split; [reflexivity|]. split; [reflexivity|]. split; [reflexivity|]. split; [congruence|intros (a & sats & [])].
  - inversion W as [|? ? W1 W2]; subst. clear W. destruct (IH asked' W2 A2) as (I1 & I2 & I3 & I4 & I5). clear IH.
    destruct W1 as [a b o k id s W E I K N LO TI SH U|h m sats L B].
    + destruct (wallet_from known pub a b o k id s W E I K N LO TI SH U) as (-> & -> & UN & B).
      rewrite (asks_from_inv _ _ _ _ _ _ (hex_dec_encode _) A1).
      cbn [map asked_inputs asked_outputs concat app points flat_map funds payments]. split; [|split; [|split; [|split]]].
      * constructor; [|exact I1]. exists (dsha b), k, o. split; [exact UN|]. split; [exact LO|]. split; [apply sha256d_length|reflexivity].
      * cbn [point_of prev_txid prev_index]. f_equal. exact I2.
      * cbn [amount_in prev_sats]. unfold funds, sum in *. cbn [map fold_right]. now rewrite I3.
      * exact I4.
      * rewrite I5. split; intros (a0 & s0 & H); exists a0, s0; [now right|]. destruct H as [H|H]; [discriminate|exact H].
    + rewrite (asks_pay_inv _ _ _ _ _ (proj1 (addr_round h m L)) (eq_refl : addr_pkh (addr_from_pkh h m) = hex_encode h) A1).
      cbn [map asked_inputs asked_outputs concat app points flat_map funds payments]. split; [exact I1|]. split; [exact I2|]. split; [exact I3|]. split.
      * cbn [amount_out satoshis]. unfold payments, sum in *. cbn [map fold_right]. now rewrite I4.
      * split; [|discriminate]. intros _. eexists _, _. left. reflexivity.
Qed.

Lemma F2_nth {A B} (R : A -> B -> Prop) (l : list A) (l' : list B) : Forall2 R l l' -> forall n y, nth_error l' n = Some y -> exists x, nth_error l n = Some x /\ R x y.
Proof. induction 1 as [|x y l l' H _ IH]; intros [|n] z E; try discriminate; cbn [nth_error] in *; [exists x; split; congruence|eauto]. Qed.
Lemma F2_build {A B} (R : A -> B -> Prop) (f : B -> A) (l : list B) : (forall n y, nth_error l n = Some y -> R (f y) y) -> Forall2 R (map f l) l.
Proof. induction l as [|y l IH]; intros H; constructor; [apply (H 0%nat); reflexivity|]. apply IH. intros n z E. apply (H (S n)). exact E. Qed.

Lemma signed_points l l' : Forall2 same_signed_input l l' -> map point_of l' = map point_of l /\ map amount_in l' = map amount_in l /\
  map point_of (map (option_map bare_input) l') = map point_of l.
Proof.
  induction 1 as [|x y l l' H _ (IH1 & IH2 & IH3)]; [repeat split|]. cbn [map]. rewrite IH1, IH2, IH3.
  destruct x as [x|], y as [y|]; cbn in H; try contradiction; [|repeat split].
  destruct H as (H1 & H2 & H3 & _). cbn [point_of amount_in option_map bare_input prev_txid prev_index]. rewrite H1, H2, H3. repeat split.
Qed.

Lemma le_get4 b : length b = 4%nat -> le_get b < 2 ^ 32.
Proof. intros L. pose proof (le_get_bound b) as H. rewrite L in H. exact H. Qed.
Lemma on_wire_wf b t : sized b -> on_wire b t -> wf_tx t.
Proof.
  intros S [(ver & nin & wi & nout & wo & lt & -> & Lv & Ll & EV & EL & Ci & Co & FI & FO) F].
  unfold sized in S. rewrite !app_length in S.
  assert (forall w, In w wi -> (length w <= length (concat wi))%nat) as BI.
  { intros w I. apply in_split in I as (a & c & ->). rewrite concat_app, app_length. cbn [concat]. rewrite app_length. lia. }
  assert (forall w, In w wo -> (length w <= length (concat wo))%nat) as BO.
  { intros w I. apply in_split in I as (a & c & ->). rewrite concat_app, app_length. cbn [concat]. rewrite app_length. lia. }
  assert (length (inputs t) <= length (concat wi))%nat as LI.
  { clear -FI. induction FI as [|w oi ws ois (i & _ & (id & ix & l & sq & -> & L & _)) _ IH]; cbn [concat length] in *; [lia|]. rewrite !app_length in *. unfold bytes in *. lia. }
  assert (length (outputs t) <= length (concat wo))%nat as LO.
  { clear -FO. induction FO as [|w oi ws ois (i & _ & (v & l & s & -> & L & _)) _ IH]; cbn [concat length] in *; [lia|]. rewrite !app_length in *. unfold bytes in *. lia. }
  split; [rewrite EV; now apply le_get4|]. split; [rewrite EL; now apply le_get4|].
  split; [unfold nlen; lia|]. split; [unfold nlen; lia|]. split.
  - apply Forall_forall. intros oi I. apply In_nth_error in I as (n & N). destruct (F2_nth _ _ _ FI _ _ N) as (w & Nw & i & -> & H).
    exists i. split; [reflexivity|]. destruct H as (id & ix & l & sq & E & L1 & L2 & L3 & _ & X & P & Q).
    apply nth_error_In in Nw. apply BI in Nw. rewrite E, !app_length in Nw.
    unfold fresh_tx in F. rewrite Forall_forall in F. destruct (F _ (nth_error_In _ _ N)) as (i' & E' & (b' & Y) & _).
    assert (i' = i) as -> by congruence. rewrite Y, hex_dec_encode in X. assert (b' = rev id) as -> by congruence.
    split; [exists (rev id); rewrite rev_length; auto|]. split; [rewrite P; now apply le_get4|]. split; [rewrite Q; now apply le_get4|].
    unfold nlen. lia.
  - apply Forall_forall. intros oo I. apply In_nth_error in I as (n & N). destruct (F2_nth _ _ _ FO _ _ N) as (w & Nw & o & -> & H).
    exists o. split; [reflexivity|]. destruct H as (v & l & s & E & L1 & _ & P & Q).
    apply nth_error_In in Nw. apply BO in Nw. rewrite E, !app_length in Nw.
    split; [|exists s; split; [exact Q|unfold nlen; lia]]. rewrite P. pose proof (le_get_bound v) as H. rewrite L1 in H. exact H.
Qed.
Lemma wf_of_bare t : wf_tx (bare_tx t) -> wf_tx t.
Proof.
  intros (H1 & H2 & H3 & H4 & H5 & H6). unfold bare_tx in *. cbn [version locktime inputs outputs] in *. unfold nlen in H3. rewrite map_length in H3.
  split; [exact H1|]. split; [exact H2|]. split; [exact H3|]. split; [exact H4|]. split; [|exact H6].
  apply Forall_forall. intros oi I. rewrite Forall_forall in H5. destruct (H5 _ (in_map _ _ _ I)) as (i & E & W).
  destruct oi as [j|]; [|discriminate]. exists j. split; [reflexivity|]. cbn [option_map] in E. assert (i = bare_input j) as -> by congruence. exact W.
Qed.

(** ** C84 *)

(** What a wallet builds from outputs it found and signs is accepted, if it does not name an output
    twice and does not pay more than it spends. *)
Theorem C84_accepted verify known k calls : honest verify k -> Forall (wallet_call known (key_pub k)) calls -> nlen calls < 2 ^ 31 ->
  exists t' b, tx_sign_auto (tx_run tx_new calls) (mk_signer k 0) = Ok (t', mk_signer k 65, None) /\ tx_to_bytes t' = Ok b /\
    (sized b -> wf_tx t' /\ spent t' = points calls /\ (balanced calls -> node_accepts verify known b)).
Proof.
  intros HK F B.
  assert (Forall (spend_call (key_pub k)) calls) as FS by (eapply Forall_impl; [|exact F]; intros c; apply wallet_spends).
  destruct (C64_workflow verify k calls HK FS B) as (asked & t' & b & A & SA & V & LT & FI & FO & AC & TB & RT).
  destruct (wallet_asked known (key_pub k) calls asked F A) as (I1 & I2 & I3 & I4 & I5).
  destruct (signed_points _ _ FI) as (P1 & P2 & P3).
  exists t', b. split; [exact SA|]. split; [exact TB|]. intros S.
  assert (on_wire b (bare_tx t')) as OW by (apply on_wire_parses; [exact S|]; apply RT, S).
  split; [apply wf_of_bare; eapply on_wire_wf; eassumption|]. split; [unfold spent; rewrite P1; exact I2|].
  intros (D & NE & PAY & BAL). exists (bare_tx t'), t'. split; [exact OW|]. split; [reflexivity|]. split; [reflexivity|]. split; [reflexivity|].
  unfold spent. cbn [bare_tx inputs outputs]. split; [|split; [exact AC|]].
  - apply F2_build. intros n oi N.
    destruct (F2_nth _ _ _ FI _ _ N) as (oj & NJ & SS). rewrite Forall_forall in I1.
    destruct (I1 _ (nth_error_In _ _ NJ)) as (id & ix & o & UN & LO & LEN & ->).
    destruct (AC n) as (i & u & s & st & st' & N' & U & _); [apply nth_error_Some; congruence|].
    assert (oi = Some i) as -> by congruence. cbn [same_signed_input prev_txid prev_index prev_sats prev_script sequence] in SS.
    destruct SS as (S1 & S2 & S3 & S4 & S5). exists (bare_input i), o, id. split; [reflexivity|]. unfold bare_input. cbn [prev_txid prev_index unlocking sequence].
    split; [now symmetry|]. split; [rewrite <- S2; exact UN|]. rewrite U. cbn [script_bytes].
    destruct i as [a1 a2 a3 a4 a5 a6]. cbn in *. subst. rewrite LO. reflexivity.
  - rewrite P3, I2. split; [exact D|]. split.
    { intros E. apply (f_equal (map point_of)) in E. rewrite P3, I2 in E. now apply NE. }
    split; [rewrite FO; now apply I5|]. rewrite FO, I4, P2, I3. exact BAL.
Qed.
Print Assumptions C84_accepted.

(** The library checks neither: an output named twice, or payments above the funds, and the
    transaction is signed all the same and refused by the node. *)
Theorem C84_accepted_only_if verify known k calls t' s' b : honest verify k -> Forall (wallet_call known (key_pub k)) calls -> nlen calls < 2 ^ 31 ->
  no_collision known -> Forall sized known -> sized b ->
  tx_sign_auto (tx_run tx_new calls) (mk_signer k 0) = Ok (t', s', None) -> tx_to_bytes t' = Ok b ->
  node_accepts verify known b -> balanced calls.
Proof.
  intros HK F B NC SK S SA' TB' (t & full & OW & _ & _ & _ & LU & _ & ND & NI & NO & BAL).
  assert (Forall (spend_call (key_pub k)) calls) as FS by (eapply Forall_impl; [|exact F]; intros c; apply wallet_spends).
  destruct (C64_workflow verify k calls HK FS B) as (asked & t1 & b1 & A & SA & V & LT & FI & FO & AC & TB & RT).
  assert (t1 = t') as -> by congruence. assert (b1 = b) as -> by congruence. clear SA' TB'.
  destruct (wallet_asked known (key_pub k) calls asked F A) as (I1 & I2 & I3 & I4 & I5).
  destruct (signed_points _ _ FI) as (P1 & P2 & P3).
  assert (on_wire b (bare_tx t')) as OW' by (apply on_wire_parses; [exact S|]; apply RT, S).
  assert (t = bare_tx t') as -> by (eapply on_wire_unique; eassumption). clear OW OW'.
  unfold spent in *. cbn [bare_tx inputs outputs] in *. rewrite P3, I2 in ND. split; [exact ND|]. split; [|split].
  - intros E. apply NI. rewrite <- I2, <- P3 in E. apply map_eq_nil in E. exact E.
  - rewrite FO in NO. now apply I5.
  - rewrite FO, I4 in BAL. enough (map amount_in (inputs full) = map amount_in (inputs t')) as E by (rewrite E, P2, I3 in BAL; exact BAL).
    clear - LU FI I1 NC SK. revert LU I1. generalize (inputs full). induction FI as [|x y l l' H _ IH]; intros fl LU I1.
    { cbn [map] in LU. inversion LU. reflexivity. }
    cbn [map] in LU. inversion LU as [|? of ? fl' LU1 LU2]; subst. inversion I1 as [|? ? C1 C2]; subst. cbn [map]. f_equal; [|now apply IH].
    destruct C1 as (id & ix & o & ((b1 & u1 & K1 & D1 & W1 & N1) & _) & _ & _ & ->). destruct y as [y|]; [|contradiction].
    cbn [same_signed_input prev_txid prev_index prev_sats prev_script sequence] in H. destruct H as (H1 & H2 & H3 & _).
    destruct LU1 as (i & o' & id' & E & X & ((b2 & u2 & K2 & D2 & W2 & N2) & _) & ->). cbn [option_map] in E.
    assert (i = bare_input y) as -> by congruence. unfold bare_input in *. cbn [prev_txid prev_index amount_in prev_sats] in *.
    rewrite <- H1 in X. apply hex_encode_inj in X. apply (f_equal (@rev byte)) in X. rewrite !rev_involutive in X. subst id'.
    assert (b2 = b1) as -> by (apply NC; congruence). rewrite Forall_forall in SK.
    assert (u2 = u1) as -> by (eapply on_wire_unique; eauto). rewrite <- H2 in N2. assert (o' = o) as -> by congruence. exact H3.
Qed.
Print Assumptions C84_accepted_only_if.

(** Any number of transactions, of any keys, spending outputs of one another: each is accepted when
    it is sent. *)
Theorem C84_chain verify known known' : grows verify known known' ->
  exists added, known' = known ++ added /\
    forall pre b post, added = pre ++ b :: post -> node_accepts verify (known ++ pre) b.
Proof.
  induction 1 as [known|known k calls t' s' b known' HK F BA B SA TB S _ (added & -> & IH)].
  - exists []. split; [now rewrite app_nil_r|]. intros pre b post E. now destruct pre.
  - exists (b :: added). split; [now rewrite <- app_assoc|]. intros pre c post E.
    destruct (C84_accepted verify known k calls HK F B) as (t1 & b1 & SA1 & TB1 & AC).
    assert (t1 = t') as -> by congruence. assert (b1 = b) as -> by congruence.
    destruct pre as [|p pre]; cbn [app] in E.
    + assert (c = b) as -> by congruence. rewrite app_nil_r. now apply AC.
    + assert (p = b) as -> by congruence. specialize (IH pre c post). rewrite <- app_assoc in IH. apply IH. congruence.
Qed.
Print Assumptions C84_chain.

Lemma NoDup_join {A} (l l' : list A) : NoDup l -> NoDup l' -> (forall x, In x l' -> ~ In x l) -> NoDup (l ++ l').
Proof.
  induction l as [|x l IH]; intros H H' D; [exact H'|]. inversion H as [|? ? N1 N2]; subst. cbn [app]. constructor.
  - rewrite in_app_iff. intros [I|I]; [now apply N1|]. apply (D _ I). now left.
  - apply IH; auto. intros y I J. apply (D _ I). now right.
Qed.
Lemma accepted_fresh verify known ts b : Forall sized known -> sized b -> Forall2 on_wire known ts -> NoDup (concat (map spent ts)) ->
  node_accepts verify known b -> exists t, on_wire b t /\ NoDup (concat (map spent (ts ++ [t]))).
Proof.
  intros SK S F ND (t & full & OW & _ & _ & _ & LU & _ & ND' & _). exists t. split; [exact OW|].
  rewrite map_app, concat_app. cbn [map concat]. rewrite app_nil_r. apply NoDup_join; auto.
  intros p I J. unfold spent in I. apply in_map_iff in I as (oi & <- & I). apply In_nth_error in I as (n & N).
  assert (exists of, looked_up known oi of) as (of & i & o & id & -> & X & ((_ & U) & _)).
  { clear -LU N. revert n N. induction LU as [|x y l l' H _ IH]; intros [|n] N; try discriminate; cbn [nth_error] in N; [exists y; congruence|eauto]. }
  apply in_concat in J as (l & J1 & J2). apply in_map_iff in J1 as (u & <- & J1). apply In_nth_error in J1 as (m & M).
  destruct (F2_nth _ _ _ F _ _ M) as (bu & Mb & OU). cbn [point_of] in J2. rewrite X in J2.
  now apply (U bu u (nth_error_In _ _ Mb) OU).
Qed.
(** No output is ever spent twice. *)
Theorem C84_no_double_spend verify known known' ts : grows verify known known' -> Forall sized known ->
  Forall2 on_wire known ts -> NoDup (concat (map spent ts)) ->
  exists ts', Forall2 on_wire known' ts' /\ NoDup (concat (map spent ts')).
Proof.
  intros G. revert ts. induction G as [known|known k calls t' s' b known' HK F BA B SA TB S G IH]; intros ts SK W ND; [now exists ts|].
  destruct (C84_accepted verify known k calls HK F B) as (t1 & b1 & SA1 & TB1 & AC).
  assert (t1 = t') as -> by congruence. assert (b1 = b) as -> by congruence. destruct (AC S) as (_ & _ & NA).
  destruct (accepted_fresh verify known ts b SK S W ND (NA BA)) as (t & OW & ND').
  apply (IH (ts ++ [t])); [apply Forall_app; auto| |exact ND']. apply Forall2_app; auto.
Qed.
Print Assumptions C84_no_double_spend.

(** A transaction the node accepts refers only to transactions the node knows, byte for byte, or to
    one with the same hash. *)
Theorem C84_reference verify known b t a w k : node_accepts verify known b -> sized b -> on_wire b t ->
  In (hex_encode (rev (dsha w)), k) (spent t) -> tx_to_bytes a = Ok w ->
  tx_id a = Ok (hex_encode (rev (dsha w))) /\ (In w known \/ exists w', In w' known /\ w' <> w /\ dsha w' = dsha w).
Proof.
  intros (t1 & full & OW & _ & _ & _ & LU & _) S OW' I E. split; [exact (C31_definition a w E)|].
  assert (t1 = t) as -> by (eapply on_wire_unique; eassumption).
  unfold spent in I. apply in_map_iff in I as (oi & P & I). apply In_nth_error in I as (n & N).
  assert (exists of, looked_up known oi of) as (of & i & o & id & -> & X & (((c & u & K & D & _) & _) & _)).
  { clear -LU N. revert n N. induction LU as [|x y l l' H _ IH]; intros [|n] N; try discriminate; cbn [nth_error] in N; [exists y; congruence|eauto]. }
  cbn [point_of] in P. assert (prev_txid i = hex_encode (rev (dsha w))) as Q by congruence. rewrite X in Q. apply hex_encode_inj in Q.
  apply (f_equal (@rev byte)) in Q. rewrite !rev_involutive in Q. subst id.
  destruct (list_eq_dec Byte.byte_eq_dec c w) as [->|NE]; [now left|]. right. exists c. auto.
Qed.
Print Assumptions C84_reference.

Lemma run_empty chk st st' : script_run chk [] st st' -> st' = st.
Proof. intros H. inversion H as [|h d r ? ? A _ E| | | |]; subst; [reflexivity|]. destruct h; [now inversion A|discriminate]. Qed.
Lemma run_dup_empty chk r st' : ~ script_run chk (x76 :: r) [] st'.
Proof. intros H. inversion H as [|h d r' ? ? A _ E| | | |]; subst. destruct h as [|c h]; [now inversion A|]. assert (c = x76) as -> by (injection E; auto). inversion A as [c' Hc| | |]; subst. cbv in Hc. contradiction. Qed.
Lemma unsigned_wf is os t' known pub : wf_tx t' -> Forall2 same_signed_input is (inputs t') -> outputs t' = os ->
  Forall (coin known pub) is -> wf_tx (mk_tx 1 is os 0).
Proof.
  intros (_ & _ & H3 & H4 & H5 & H6) F <- C. unfold wf_tx. cbn [version locktime inputs outputs].
  split; [reflexivity|]. split; [reflexivity|]. split; [unfold nlen in *; now rewrite (Forall2_length _ _ _ F)|]. split; [exact H4|]. split; [|exact H6].
  clear -F C H5. induction F as [|x y l l' H _ IH]; [constructor|]. inversion H5 as [|? ? (i & -> & W1) W2]; subst. inversion C as [|? ? (id & ix & o & _ & _ & L & ->) C2]; subst.
  constructor; [|auto]. eexists. split; [reflexivity|]. destruct H as (E1 & E2 & _). cbn [prev_txid prev_index] in E1, E2.
  split; [exists (rev id); rewrite rev_length; auto|]. cbn [prev_txid prev_index sequence unlocking script_bytes].
  split; [rewrite E2; apply W1|]. split; reflexivity.
Qed.
(** In particular the id must be asked for after signing: before, it is that of other bytes. *)
Theorem C84_id_before_signing verify known k calls t' s' b w : honest verify k -> Forall (wallet_call known (key_pub k)) calls -> nlen calls < 2 ^ 31 ->
  points calls <> [] -> sized b -> tx_sign_auto (tx_run tx_new calls) (mk_signer k 0) = Ok (t', s', None) -> tx_to_bytes t' = Ok b ->
  tx_to_bytes (tx_run tx_new calls) = Ok w -> 
  w <> b /\ (tx_id (tx_run tx_new calls) = tx_id t' -> dsha w = dsha b).
Proof.
  intros HK F B NE S SA' TB' TW. split.
  - intros ->. 
    assert (Forall (spend_call (key_pub k)) calls) as FS by (eapply Forall_impl; [|exact F]; intros c; apply wallet_spends).
    destruct (C64_workflow verify k calls HK FS B) as (asked & t1 & b1 & A & SA & V & LT & FI & FO & AC & TB & RT).
    assert (t1 = t') as -> by congruence. assert (b1 = b) as -> by congruence. clear SA' TB'.
    destruct (wallet_asked known (key_pub k) calls asked F A) as (I1 & I2 & I3 & I4 & I5).
    pose proof (tx_run_eq calls tx_new asked A) as RE.
    change (tx_run tx_new calls = mk_tx 1 (concat (map asked_inputs asked)) (concat (map asked_outputs asked)) 0) in RE.
    assert (on_wire b (bare_tx t')) as OW' by (apply on_wire_parses; [exact S|]; apply RT, S).
    assert (wf_tx t') as W' by (apply wf_of_bare; eapply on_wire_wf; eassumption).
    assert (wf_tx (tx_run tx_new calls)) as W0 by (rewrite RE; eapply unsigned_wf; eauto).
    pose proof (wire_of_written _ _ W0 TW) as OW0. pose proof (on_wire_unique _ _ _ S OW0 OW') as EQ.
    rewrite RE in EQ. apply (f_equal inputs) in EQ. cbn [bare_tx inputs] in EQ.
    destruct (concat (map asked_inputs asked)) as [|x is] eqn:EI; [now apply NE; rewrite <- I2|].
    inversion I1 as [|? ? (id & ix & o & _ & _ & _ & ->) _]; subst.
    destruct (AC 0%nat) as (i & u & s & st & st' & N & U & P & R1 & R2); [destruct (inputs t'); [discriminate|cbn; lia]|].
    destruct (F2_nth _ _ _ FI _ _ N) as (oj & NJ & SS). cbn [nth_error] in NJ. injection NJ as <-.
    cbn [same_signed_input prev_script] in SS. destruct SS as (_ & _ & _ & SS & _). rewrite P in SS. assert (s = p2pkh (hash160 (key_pub k))) as -> by congruence.
    destruct (inputs t') as [|y l']; [discriminate|]. cbn [nth_error] in N. assert (y = Some i) as -> by congruence. cbn [map option_map] in EQ.
    apply (f_equal (fun l => match l with Some j :: _ => unlocking j | _ => None end)) in EQ. unfold bare_input in EQ. cbn [unlocking script_bytes] in EQ. rewrite U in EQ. cbn [script_bytes] in EQ.
    assert (u = []) as -> by congruence. apply run_empty in R1. subst st. now apply run_dup_empty in R2.
  - intros E. rewrite (C31_definition _ _ TW), (C31_definition _ _ TB') in E. assert (hex_encode (rev (dsha w)) = hex_encode (rev (dsha b))) as Q by (unfold dsha; congruence).
    apply hex_encode_inj in Q. apply (f_equal (@rev byte)) in Q. now rewrite !rev_involutive in Q.
Qed.
Print Assumptions C84_id_before_signing.

(** ** A chain of two transactions on a known one *)
Definition spentb (known : list bytes) (p : bytes * N) : bool :=
  existsb (fun b => match tx_from_bytes b with
                    | Ok t => existsb (fun q => bytes_eqb (fst q) (fst p) && (snd q =? snd p)) (spent t)
                    | _ => false end) known.
Lemma spentb_spec known id k : Forall sized known -> spentb known (id, k) = false ->
  forall b t, In b known -> on_wire b t -> ~ In (id, k) (spent t).
Proof.
  intros S E b t I W J. rewrite Forall_forall in S. apply on_wire_parses in W; [|auto].
  enough (spentb known (id, k) = true) by congruence. apply existsb_exists. exists b. split; [exact I|]. rewrite W.
  apply existsb_exists. exists (id, k). split; [exact J|]. cbn [fst snd]. rewrite bytes_eqb_refl, N.eqb_refl. reflexivity.
Qed.
Definition ok_or {A} (d : A) (r : res A) : A := match r with Ok x => x | _ => d end.
Definition ex84_verify (pub d sg : bytes) : Prop := pub = ex63_pub /\ sg = x30 :: firstn 8 d.
Definition ex84_addr : bytes := addr_string (addr_from_pkh (hash160 ex63_pub) true).
Definition ex84_a0 : tx :=
  mk_tx 1 [Some (mk_in (hex_encode (repeat x00 32)) 0 0 None (Some [x51]) 0)] [Some (mk_out 1000 (Some (p2pkh (hash160 ex63_pub))))] 0.
(** spends output 0 of [a], worth [v], to [v] - 100 *)
Definition ex84_calls (a : tx) (v : N) : list tx_call :=
  [CallFrom (ok_or [] (tx_id a)) 0 (hex_encode (p2pkh (hash160 ex63_pub))) v; CallPayTo ex84_addr (v - 100)].
Definition ex84_sign (calls : list tx_call) : tx :=
  match tx_sign_auto (tx_run tx_new calls) (mk_signer ex63_key 0) with Ok (t, _, _) => t | _ => tx_new end.
Definition ex84_a1 : tx := ex84_sign (ex84_calls ex84_a0 1000).
Definition ex84_a2 : tx := ex84_sign (ex84_calls ex84_a1 900).
Definition ex84_b (a : tx) : bytes := ok_or [] (tx_to_bytes a).
Lemma ex84_honest : honest ex84_verify ex63_key.
Proof.
  split; [reflexivity|]. intros d L. exists (x30 :: firstn 8 d). split; [reflexivity|]. split; [|split; reflexivity].
  unfold nlen. cbn [length]. rewrite firstn_length. lia.
Qed.
Lemma ex84_wallet known a v : wf_tx a -> tx_to_bytes a = Ok (ex84_b a) -> In (ex84_b a) known -> 100 <= v -> v < 2 ^ 64 ->
  nth_error (outputs a) 0 = Some (Some (mk_out v (Some (p2pkh (hash160 ex63_pub))))) ->
  Forall sized known -> spentb known (ok_or [] (tx_id a), 0) = false ->
  Forall (wallet_call known ex63_pub) (ex84_calls a v) /\ balanced (ex84_calls a v).
Proof.
  intros W E I B B2 N S NS. split.
  - constructor; [|constructor; [|constructor]].
    + apply (wc_from known ex63_pub a (ex84_b a) (mk_out v (Some (p2pkh (hash160 ex63_pub)))) 0); try assumption; try reflexivity.
      * rewrite (C31_definition _ _ E). reflexivity.
      * now apply spentb_spec.
    + constructor; [apply hash160_length|lia].
  - unfold balanced, points, funds, payments, sum. cbn. split; [constructor; [intros []|constructor]|]. split; [discriminate|]. split; [|lia].
    eexists _, _. right. left. reflexivity.
Qed.
Lemma sizedb_spec known : forallb (fun b => (Z.of_nat (length b) <? 2 ^ 62)%Z) known = true -> Forall sized known.
Proof. intros H. apply Forall_forall. intros b I. rewrite forallb_forall in H. specialize (H _ I). unfold sized. lia. Qed.
(** one more transaction *)
Lemma ex84_step known a v a' b b' : wf_tx a -> tx_to_bytes a = Ok b -> In b known -> 100 <= v -> v < 2 ^ 64 ->
  nth_error (outputs a) 0 = Some (Some (mk_out v (Some (p2pkh (hash160 ex63_pub))))) ->
  Forall sized known -> spentb known (ok_or [] (tx_id a), 0) = false ->
  tx_sign_auto (tx_run tx_new (ex84_calls a v)) (mk_signer ex63_key 0) = Ok (a', mk_signer ex63_key 65, None) ->
  tx_to_bytes a' = Ok b' -> sized b' ->
  wf_tx a' /\ Forall sized (known ++ [b']) /\ node_accepts ex84_verify known b' /\
  (forall L, grows ex84_verify (known ++ [b']) L -> grows ex84_verify known L).
Proof.
  intros W E I B B2 N S NS SA E' S'. assert (ex84_b a = b) as Eb by (unfold ex84_b; now rewrite E).
  destruct (ex84_wallet known a v W) as (C & BA); try assumption; try (rewrite Eb; assumption).
  destruct (C84_accepted ex84_verify known ex63_key _ ex84_honest C) as (t & c & X & Y & Q); [reflexivity|].
  rewrite SA in X. assert (t = a') as -> by congruence. assert (c = b') as -> by congruence. destruct (Q S') as (Q1 & _ & Q2).
  split; [exact Q1|]. split; [apply Forall_app; auto|]. split; [auto|]. intros L G.
  eapply grows_one; [exact ex84_honest|exact C|exact BA|reflexivity|exact SA|exact E'|exact S'|exact G].
Qed.
Lemma ex84_wf0 : wf_tx ex84_a0.
Proof.
  split; [reflexivity|]. split; [reflexivity|]. split; [reflexivity|]. split; [reflexivity|]. split; (constructor; [|constructor]); eexists; (split; [reflexivity|]).
  - split; [exists (repeat x00 32); split; reflexivity|]. split; [reflexivity|]. split; reflexivity.
  - split; [reflexivity|]. eexists. split; [reflexivity|]. reflexivity.
Qed.
Lemma sized1 b : (length b <? 1000)%nat = true -> sized b.
Proof. intros H. apply Nat.ltb_lt in H. unfold sized. lia. Qed.
Lemma ex84_facts :
  tx_to_bytes ex84_a0 = Ok (ex84_b ex84_a0) /\ (length (ex84_b ex84_a0) <? 1000)%nat = true /\
  spentb [ex84_b ex84_a0] (ok_or [] (tx_id ex84_a0), 0) = false /\
  tx_sign_auto (tx_run tx_new (ex84_calls ex84_a0 1000)) (mk_signer ex63_key 0) = Ok (ex84_a1, mk_signer ex63_key 65, None).
Proof. split; [vm_compute; reflexivity|]. split; [vm_compute; reflexivity|]. split; vm_compute; reflexivity. Qed.
Lemma ex84_facts1 :
  tx_to_bytes ex84_a1 = Ok (ex84_b ex84_a1) /\ (length (ex84_b ex84_a1) <? 1000)%nat = true /\
  nth_error (outputs ex84_a1) 0 = Some (Some (mk_out 900 (Some (p2pkh (hash160 ex63_pub))))) /\
  spentb [ex84_b ex84_a0; ex84_b ex84_a1] (ok_or [] (tx_id ex84_a1), 0) = false /\
  tx_sign_auto (tx_run tx_new (ex84_calls ex84_a1 900)) (mk_signer ex63_key 0) = Ok (ex84_a2, mk_signer ex63_key 65, None) /\
  tx_to_bytes ex84_a2 = Ok (ex84_b ex84_a2) /\ (length (ex84_b ex84_a2) <? 1000)%nat = true.
Proof.
  split; [vm_compute; reflexivity|]. split; [vm_compute; reflexivity|]. split; [vm_compute; reflexivity|]. split; [vm_compute; reflexivity|].
  split; [vm_compute; reflexivity|]. split; vm_compute; reflexivity.
Qed.
Lemma ex84_chain a0 a1 a2 b0 b1 b2 : wf_tx a0 -> tx_to_bytes a0 = Ok b0 -> (length b0 <? 1000)%nat = true ->
  nth_error (outputs a0) 0 = Some (Some (mk_out 1000 (Some (p2pkh (hash160 ex63_pub))))) -> spentb [b0] (ok_or [] (tx_id a0), 0) = false ->
  tx_sign_auto (tx_run tx_new (ex84_calls a0 1000)) (mk_signer ex63_key 0) = Ok (a1, mk_signer ex63_key 65, None) ->
  tx_to_bytes a1 = Ok b1 -> (length b1 <? 1000)%nat = true ->
  nth_error (outputs a1) 0 = Some (Some (mk_out 900 (Some (p2pkh (hash160 ex63_pub))))) -> spentb [b0; b1] (ok_or [] (tx_id a1), 0) = false ->
  tx_sign_auto (tx_run tx_new (ex84_calls a1 900)) (mk_signer ex63_key 0) = Ok (a2, mk_signer ex63_key 65, None) ->
  tx_to_bytes a2 = Ok b2 -> (length b2 <? 1000)%nat = true ->
  grows ex84_verify [b0] [b0; b1; b2] /\ node_accepts ex84_verify [b0] b1 /\ node_accepts ex84_verify [b0; b1] b2.
Proof.
  intros W0 E0 S0 N0 U0 A1 E1 S1 N1 U1 A2 E2 S2. apply sized1 in S0, S1, S2.
  destruct (ex84_step [b0] a0 1000 a1 b0 b1) as (W1 & F1 & NA1 & G1); auto; [now left|lia|reflexivity|].
  destruct (ex84_step [b0; b1] a1 900 a2 b1 b2) as (W2 & F2 & NA2 & G2); auto; [right; now left|lia|reflexivity|].
  split; [|split; assumption]. apply G1. cbn [app]. apply G2. cbn [app]. apply grows_none.
Qed.
Example C84_example : let b0 := ex84_b ex84_a0 in let b1 := ex84_b ex84_a1 in let b2 := ex84_b ex84_a2 in
  grows ex84_verify [b0] [b0; b1; b2] /\ node_accepts ex84_verify [b0] b1 /\ node_accepts ex84_verify [b0; b1] b2.
Proof.
  cbv zeta. destruct ex84_facts as (F1 & F2 & F3 & F4). destruct ex84_facts1 as (F5 & F6 & F7 & F8 & F9 & F10 & F11).
  exact (ex84_chain _ _ _ _ _ _ ex84_wf0 F1 F2 eq_refl F3 F4 F5 F6 F7 F8 F9 F10 F11).
Qed.
(** an output named twice is signed without complaint and refused *)
Definition ex84_twice : list tx_call := ex84_calls ex84_a0 1000 ++ ex84_calls ex84_a0 1000.
Lemma ex84_facts2 :
  tx_sign_auto (tx_run tx_new ex84_twice) (mk_signer ex63_key 0) = Ok (ex84_sign ex84_twice, mk_signer ex63_key 65, None) /\
  tx_to_bytes (ex84_sign ex84_twice) = Ok (ex84_b (ex84_sign ex84_twice)) /\ (length (ex84_b (ex84_sign ex84_twice)) <? 1000)%nat = true.
Proof. split; [vm_compute; reflexivity|]. split; vm_compute; reflexivity. Qed.
Lemma ex84_refused calls0 known t b s' : tx_sign_auto (tx_run tx_new (calls0 ++ calls0)) (mk_signer ex63_key 0) = Ok (t, s', None) ->
  tx_to_bytes t = Ok b -> (length b <? 1000)%nat = true -> Forall (wallet_call known ex63_pub) calls0 -> nlen (calls0 ++ calls0) < 2 ^ 31 ->
  points calls0 <> [] -> no_collision known -> Forall sized known -> ~ node_accepts ex84_verify known b.
Proof.
  intros SA E S C B P NC SK NA. apply sized1 in S.
  assert (Forall (wallet_call known ex63_pub) (calls0 ++ calls0)) as C2 by (apply Forall_app; auto).
  destruct (C84_accepted_only_if ex84_verify known ex63_key _ t s' b ex84_honest C2 B NC SK S SA E NA) as (D & _).
  unfold points in *. rewrite flat_map_app in D. destruct (flat_map _ calls0) as [|x l]; [now apply P|]. cbn [app] in D.
  inversion D as [|? ? D1 _]; subst. apply D1. apply in_or_app. right. now left.
Qed.
Example C84_twice :
  tx_sign_auto (tx_run tx_new ex84_twice) (mk_signer ex63_key 0) = Ok (ex84_sign ex84_twice, mk_signer ex63_key 65, None) /\
  Forall (wallet_call [ex84_b ex84_a0] ex63_pub) ex84_twice /\ ~ node_accepts ex84_verify [ex84_b ex84_a0] (ex84_b (ex84_sign ex84_twice)).
Proof.
  destruct ex84_facts as (F1 & F2 & F3 & _). destruct ex84_facts2 as (G1 & G2 & G3). apply sized1 in F2.
  assert (Forall (wallet_call [ex84_b ex84_a0] ex63_pub) (ex84_calls ex84_a0 1000)) as C.
  { apply (ex84_wallet [ex84_b ex84_a0] ex84_a0 1000); [exact ex84_wf0|exact F1|now left|lia|reflexivity|reflexivity|auto|exact F3]. }
  split; [exact G1|]. split; [apply Forall_app; auto|].
  apply (ex84_refused (ex84_calls ex84_a0 1000) [ex84_b ex84_a0] _ _ _ G1 G2 G3 C); [reflexivity|discriminate| |auto].
  intros x y [<-|[]] [<-|[]] _. reflexivity.
Qed.
