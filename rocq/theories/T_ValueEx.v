(** C84: what leaves the unspent outputs is exactly the fee. *)
From Verif Require Import P_TxMisc P_TxParse P_TxSer P_Signer P_Flow T_Tx T_Flow T_Chain S_Value T_Value.
From Coq Require Import Lia ZifyBool ZifyNat ZifyN.

Lemma left_other (S : list (bytes * N)) p (C : list coin_t) : ~ In p (map fst C) -> left_in (p :: S) C = left_in S C.
Proof.
  intros N. unfold left_in. do 2 f_equal. apply filter_ext_in. intros c I. unfold left_of.
  destruct (in_dec point_dec (fst c) (p :: S)) as [X|X]; destruct (in_dec point_dec (fst c) S) as [Y|Y]; try reflexivity.
  - exfalso. destruct X as [X|X]; [|auto]. apply N. rewrite X. now apply in_map.
  - exfalso. apply X. now right.
Qed.
Lemma left_cons S q w (C : list coin_t) : left_in S ((q, w) :: C) = (if in_dec point_dec q S then 0 else w) + left_in S C.
Proof. unfold left_in, left_of. cbn [filter fst]. destruct (in_dec point_dec q S); [reflexivity|]. cbn [map snd sum fold_right]. reflexivity. Qed.
Lemma left_one_eq S p v (C : list coin_t) : ~ In p S -> In (p, v) C -> NoDup (map fst C) -> left_in (p :: S) C + v = left_in S C.
Proof.
  intros N. induction C as [|[q w] C IH]; [intros []|]. intros I ND. cbn [map fst] in ND. inversion ND as [|? ? N1 ND1]; subst. rewrite !left_cons.
  destruct I as [I|I].
  - assert (q = p) by congruence. assert (w = v) by congruence. subst q w. rewrite left_other by exact N1.
    destruct (in_dec point_dec p (p :: S)) as [X|X]; [|exfalso; apply X; now left]. destruct (in_dec point_dec p S); [contradiction|]. lia.
  - specialize (IH I ND1). assert (q <> p) by (intros ->; apply N1; exact (in_map fst _ _ I)).
    destruct (in_dec point_dec q (p :: S)) as [X|X]; destruct (in_dec point_dec q S) as [Y|Y]; try lia.
    + exfalso. destruct X as [X|X]; congruence.
    + exfalso. apply X. now right.
Qed.
Lemma left_all_eq S (C : list coin_t) P vs : NoDup (map fst C) -> NoDup P -> Forall2 (fun p v => ~ In p S /\ In (p, v) C) P vs -> left_in (S ++ P) C + sum vs = left_in S C.
Proof.
  intros NC ND F. induction F as [|p v P vs (N & I) F IH].
  - rewrite app_nil_r. cbn. lia.
  - inversion ND as [|? ? N' ND']; subst. specialize (IH ND').
    assert (NP : ~ In p (S ++ P)) by (rewrite in_app_iff; tauto).
    pose proof (left_one_eq (S ++ P) p v C NP I NC) as H. rewrite (left_ext (p :: S ++ P) (S ++ p :: P)) in H.
    2:{ intros q. cbn [In]. rewrite !in_app_iff. cbn [In]. tauto. }
    cbn [sum fold_right]. unfold sum in *. lia.
Qed.
Lemma left_none S (C : list coin_t) : (forall p, In p (map fst C) -> ~ In p S) -> left_in S C = sum (map snd C).
Proof.
  induction C as [|[q w] C IH]; intros H; [reflexivity|]. rewrite left_cons. destruct (in_dec point_dec q S) as [X|X].
  { exfalso. apply (H q); [now left|exact X]. }
  rewrite IH by (intros p I; apply H; now right). reflexivity.
Qed.

Lemma coin_points b t : map fst (coins_of b t) = map (fun k => (hex_encode (rev (dsha b)), N.of_nat k)) (seq 0 (length (outputs t))).
Proof.
  unfold coins_of. assert (H : forall (x : list (bytes * N)) (y : list N), length x = length y -> map fst (combine x y) = x).
  { induction x as [|a x IH]; intros [|c y] E; try discriminate; cbn; [reflexivity|]. f_equal. apply IH. now injection E. }
  apply H. now rewrite !map_length, seq_length.
Qed.
Lemma coin_point b t p : In p (map fst (coins_of b t)) -> exists k, p = (hex_encode (rev (dsha b)), k).
Proof. rewrite coin_points. intros I. apply in_map_iff in I as (k & <- & _). eauto. Qed.
Lemma coin_points_nodup b t : NoDup (map fst (coins_of b t)).
Proof.
  rewrite coin_points. apply FinFun.Injective_map_NoDup; [|apply seq_NoDup]. intros x y E.
  assert (N.of_nat x = N.of_nat y) by congruence. lia.
Qed.
Lemma ids_inj b b' : hex_encode (rev (dsha b)) = hex_encode (rev (dsha b')) -> dsha b = dsha b'.
Proof. intros X. apply hex_encode_inj in X. apply (f_equal (@rev byte)) in X. now rewrite !rev_involutive in X. Qed.

Lemma coins_nodup known ts : NoDup known -> no_collision known -> length known = length ts ->
  NoDup (map fst (concat (map (fun bt => coins_of (fst bt) (snd bt)) (combine known ts)))).
Proof.
  revert ts. induction known as [|b known IH]; intros [|t ts] ND NC L; try discriminate; [constructor|].
  cbn [combine map concat fst snd]. rewrite map_app. inversion ND as [|? ? N1 ND1]; subst. apply NoDup_join.
  - apply coin_points_nodup.
  - apply IH; [exact ND1| |now injection L]. intros x y X Y. apply NC; now right.
  - intros p I J. apply coin_point in J as (k & ->). apply in_map_iff in I as (c & E & I). apply in_concat in I as (l & I1 & I2).
    apply in_map_iff in I1 as ([b' t'] & <- & I1). cbn [fst snd] in I2. apply (in_map fst) in I2. rewrite E in I2.
    apply coin_point in I2 as (k' & E2). apply in_combine_l in I1.
    assert (dsha b = dsha b') as D by (apply ids_inj; congruence). apply N1.
    rewrite (NC b b' (or_introl eq_refl) (or_intror I1) D). exact I1.
Qed.

(** Whatever a node accepts: the unspent outputs lose exactly what the transaction spends and gain
    exactly what it pays. *)
Theorem C84_fee_accepted verify known ts b : Forall sized known -> sized b -> Forall2 on_wire known ts ->
  NoDup known -> no_collision (known ++ [b]) -> unnamed known b -> node_accepts verify known b ->
  exists t full, on_wire b t /\ Forall2 (looked_up known) (inputs t) full /\
    unspent_total (known ++ [b]) (ts ++ [t]) + sum (map amount_in full) = unspent_total known ts + sum (map amount_out (outputs t)).
Proof.
  intros SK S F NDK NCB UN (t & full & OW & _ & _ & _ & LU & _ & ND & NI & _ & BAL). exists t, (inputs full). split; [exact OW|]. split; [exact LU|].
  assert (NC : no_collision known) by (intros x y X Y; apply NCB; apply in_or_app; now left).
  assert (LEN : length known = length ts) by (clear -F; induction F; cbn; congruence).
  assert (UO : forall oi of, looked_up known oi of -> forall b' t', In b' known -> on_wire b' t' -> ~ In (point_of oi) (spent t')).
  { intros oi of (i & o & id & -> & X & (_ & U) & _) b' t' I W. cbn [point_of]. rewrite X. eauto. }
  assert (NB : ~ In b known).
  { intros I. destruct (inputs t) as [|oi l] eqn:EI; [now apply NI|]. inversion LU as [|? of ? ? H _]; subst.
    apply (UO _ _ H b t I OW). unfold spent. rewrite EI. now left. }
  unfold unspent_total. rewrite combine_app, !map_app, !concat_app by exact LEN. cbn [map concat combine app fst snd]. rewrite !app_nil_r.
  set (S0 := concat (map spent ts)). set (C := concat (map (fun bt => coins_of (fst bt) (snd bt)) (combine known ts))).
  fold (left_of (S0 ++ spent t)) (left_of S0).
  change (left_in (S0 ++ spent t) (C ++ coins_of b t) + sum (map amount_in (inputs full)) = left_in S0 C + sum (map amount_out (outputs t))).
  rewrite left_app.
  assert (L1 : left_in (S0 ++ spent t) (coins_of b t) = sum (map amount_out (outputs t))).
  { rewrite <- (coins_sum b t). apply left_none. intros p I J. apply coin_point in I as (k & ->). apply in_app_or in J as [J|J].
    - apply in_concat in J as (q & J1 & J2). apply in_map_iff in J1 as (u & <- & J1). apply In_nth_error in J1 as (m & M).
      destruct (F2_nth _ _ _ F _ _ M) as (bu & Mb & OU). exact (UN bu u k (nth_error_In _ _ Mb) OU J2).
    - unfold spent in J. apply in_map_iff in J as (oi & E & J).
      assert (exists of, looked_up known oi of) as (of & i & o & id & -> & X & ((b0 & t0 & I0 & D & _) & _) & _).
      { clear -LU J. induction LU as [|x y l l' H _ IH]; [destruct J|]. destruct J as [->|J]; eauto. }
      cbn [point_of] in E. assert (prev_txid i = hex_encode (rev (dsha b))) as E1 by congruence. rewrite X, <- D in E1. apply ids_inj in E1.
      apply NB. rewrite <- (NCB b0 b); [exact I0|apply in_or_app; now left|apply in_or_app; right; now left|exact E1]. }
  assert (L2 : left_in (S0 ++ spent t) C + sum (map amount_in (inputs full)) = left_in S0 C).
  { apply left_all_eq; [apply coins_nodup; assumption|exact ND|]. unfold spent. clear -LU F SK. induction LU as [|oi of l l' H _ IH]; cbn [map]; constructor; [|exact IH].
    destruct H as (i & o & id & -> & X & ((b0 & t0 & I0 & D & W & N) & U) & ->). cbn [point_of amount_in prev_sats]. rewrite X. split.
    - intros J. apply in_concat in J as (q & J1 & J2). apply in_map_iff in J1 as (u & <- & J1). apply In_nth_error in J1 as (m & M).
      destruct (F2_nth _ _ _ F _ _ M) as (bu & Mb & OU). now apply (U bu u (nth_error_In _ _ Mb) OU).
    - destruct (combine_in _ _ _ F b0 I0) as (t1 & I1 & W1). rewrite Forall_forall in SK.
      assert (t1 = t0) as -> by (eapply on_wire_unique; [apply SK; exact I0|eassumption|eassumption]).
      unfold C. apply in_concat. exists (coins_of b0 t0). split; [apply in_map_iff; exists (b0, t0); auto|]. subst id. now apply coins_in. }
  lia.
Qed.
Print Assumptions C84_fee_accepted.

(** What a wallet builds with From and PayTo, signs and sends: the unspent outputs together lose exactly
    what it took in less what it paid. *)
Theorem C84_fee_wallet verify known ts k calls t' s' b : honest verify k -> Forall (wallet_call known (key_pub k)) calls -> balanced calls -> nlen calls < 2 ^ 31 ->
  tx_sign_auto (tx_run tx_new calls) (mk_signer k 0) = Ok (t', s', None) -> tx_to_bytes t' = Ok b -> sized b ->
  Forall sized known -> Forall2 on_wire known ts -> NoDup known -> no_collision (known ++ [b]) -> unnamed known b ->
  exists t, on_wire b t /\ unspent_total (known ++ [b]) (ts ++ [t]) + (funds calls - payments calls) = unspent_total known ts.
Proof.
  intros HK F BA B SA' TB' S SK W NDK NCB UN.
  destruct (C84_accepted verify known k calls HK F B) as (t2 & b2 & SA2 & TB2 & AC2).
  assert (t2 = t') as -> by congruence. assert (b2 = b) as -> by congruence. destruct (AC2 S) as (_ & _ & NA). specialize (NA BA).
  destruct (C84_fee_accepted verify known ts b SK S W NDK NCB UN NA) as (t & full & OW & LU & EQ). exists t. split; [exact OW|].
  assert (Forall (spend_call (key_pub k)) calls) as FS by (eapply Forall_impl; [|exact F]; intros c; apply wallet_spends).
  destruct (C64_workflow verify k calls HK FS B) as (asked & t1 & b1 & A & SA & V & LT & FI & FO & AC & TB & RT).
  assert (t1 = t') as -> by congruence. assert (b1 = b) as -> by congruence. clear SA' TB' SA2 TB2.
  destruct (wallet_asked known (key_pub k) calls asked F A) as (I1 & I2 & I3 & I4 & I5).
  destruct (signed_points _ _ FI) as (P1 & P2 & P3).
  assert (on_wire b (bare_tx t')) as OW' by (apply on_wire_parses; [exact S|]; apply RT, S).
  assert (t = bare_tx t') as -> by (eapply on_wire_unique; eassumption). clear OW OW'.
  cbn [bare_tx inputs outputs] in *. rewrite FO, I4 in EQ.
  assert (NC : no_collision known) by (intros x y X Y; apply NCB; apply in_or_app; now left).
  assert (map amount_in full = map amount_in (inputs t')) as E.
  { clear - LU FI I1 NC SK. revert LU I1. generalize full. induction FI as [|x y l l' H _ IH]; intros fl LU I1.
    { cbn [map] in LU. inversion LU. reflexivity. }
    cbn [map] in LU. inversion LU as [|? of ? fl' LU1 LU2]; subst. inversion I1 as [|? ? C1 C2]; subst. cbn [map]. f_equal; [|now apply IH].
    destruct C1 as (id & ix & o & ((b1 & u1 & K1 & D1 & W1 & N1) & _) & _ & _ & ->). destruct y as [y|]; [|contradiction].
    cbn [same_signed_input prev_txid prev_index prev_sats prev_script sequence] in H. destruct H as (H1 & H2 & H3 & _).
    destruct LU1 as (i & o' & id' & E & X & ((b2 & u2 & K2 & D2 & W2 & N2) & _) & ->). cbn [option_map] in E.
    assert (i = bare_input y) as -> by congruence. unfold bare_input in *. cbn [prev_txid prev_index amount_in prev_sats] in *.
    rewrite <- H1 in X. apply hex_encode_inj in X. apply (f_equal (@rev byte)) in X. rewrite !rev_involutive in X. subst id'.
    assert (b2 = b1) as -> by (apply NC; congruence). rewrite Forall_forall in SK.
    assert (u2 = u1) as -> by (eapply on_wire_unique; eauto). rewrite <- H2 in N2. assert (o' = o) as -> by congruence. exact H3. }
  rewrite E, P2, I3 in EQ. destruct BA as (_ & _ & _ & BAL). lia.
Qed.
Print Assumptions C84_fee_wallet.

(** the first two transactions of C84_example meet the conditions: 1000 is spent, 900 paid, 100 lost *)
Definition unnamedb (known : list bytes) (id : bytes) : bool :=
  forallb (fun b' => match tx_from_bytes b' with
                     | Ok t => forallb (fun q => negb (bytes_eqb (fst q) id)) (spent t)
                     | _ => true end) known.
Lemma unnamedb_spec known b : Forall sized known -> unnamedb known (hex_encode (rev (dsha b))) = true -> unnamed known b.
Proof.
  intros S E b' t' k I W J. rewrite Forall_forall in S. apply on_wire_parses in W; [|auto].
  unfold unnamedb in E. rewrite forallb_forall in E. specialize (E _ I). rewrite W in E. rewrite forallb_forall in E. specialize (E _ J).
  cbn [fst] in E. rewrite bytes_eqb_refl in E. discriminate E.
Qed.
Lemma no_collision2 b0 b1 : bytes_eqb (dsha b0) (dsha b1) = false -> no_collision [b0; b1].
Proof.
  intros E x y [<-|[<-|[]]] [<-|[<-|[]]] D; try reflexivity; exfalso; rewrite D, bytes_eqb_refl in E; discriminate E.
Qed.
Lemma ex84_conditions : bytes_eqb (dsha (ex84_b ex84_a0)) (dsha (ex84_b ex84_a1)) = false /\
  unnamedb [ex84_b ex84_a0] (hex_encode (rev (dsha (ex84_b ex84_a1)))) = true.
Proof. split; vm_compute; reflexivity. Qed.
Example C84_fee_example : let b0 := ex84_b ex84_a0 in let b1 := ex84_b ex84_a1 in
  Forall sized [b0] /\ NoDup [b0] /\ no_collision ([b0] ++ [b1]) /\ unnamed [b0] b1 /\ node_accepts ex84_verify [b0] b1 /\
  funds (ex84_calls ex84_a0 1000) = 1000 /\ payments (ex84_calls ex84_a0 1000) = 900 /\
  unspent_total ([b0] ++ [b1]) ([ex84_a0] ++ [ex84_a1]) + (1000 - 900) = unspent_total [b0] [ex84_a0].
Proof.
  cbv zeta. destruct ex84_conditions as (C1 & C2). destruct C84_value_example as (_ & V0 & V1 & _). destruct C84_example as (_ & NA & _).
  destruct ex84_facts as (_ & F2 & _). apply sized1 in F2.
  assert (Forall sized [ex84_b ex84_a0]) as SK by (constructor; [exact F2|constructor]).
  split; [exact SK|]. split; [constructor; [intros []|constructor]|]. split; [apply no_collision2; exact C1|]. split; [apply unnamedb_spec; assumption|].
  split; [exact NA|]. split; [reflexivity|]. split; [reflexivity|].
  change ([ex84_b ex84_a0] ++ [ex84_b ex84_a1]) with [ex84_b ex84_a0; ex84_b ex84_a1]. change ([ex84_a0] ++ [ex84_a1]) with [ex84_a0; ex84_a1].
  rewrite V0, V1. reflexivity.
Qed.
