(** C89: Sign and SignAuto with a Signer of one's own. *)
From Verif Require Import P_Ext T_Tx T_Flow.
From Coq Require Import Lia.

(** An error of the signer is returned, and Sign has changed nothing itself: the world is as the signer
    left it. *)
Theorem C89_error : forall c bt w w2 e,
  sign_ext c bt w = Some (w2, Some e) <-> exists r, c w bt = Some (w2, r, Some e).
Proof.
  intros c bt w w2 e. split.
  - unfold sign_ext. destruct (c w bt) as [[[w' r] [x|]]|]; try discriminate; [injection 1 as <- <-; now exists r|].
    destruct bt as [b|]; [|discriminate]. destruct r as [a|]; [|discriminate]. destruct (nth_error (w_txs w') a); discriminate.
  - intros (r & H). eapply ext_error; eassumption.
Qed.
(** Otherwise the receiver gets the fields of the transaction returned; no other transaction and no
    Input is changed by Sign itself. From then on the two share their inputs: whatever is written to
    Inputs later shows in both. *)
Theorem C89_success : forall c b w w2, sign_ext c (Some b) w = Some (w2, None) ->
  exists w1 a v, c w (Some b) = Some (w1, Some a, None) /\ nth_error (w_txs w1) a = Some v /\
    w_ins w2 = w_ins w1 /\ length (w_txs w2) = length (w_txs w1) /\
    (forall a', a' <> b -> nth_error (w_txs w2) a' = nth_error (w_txs w1) a') /\
    ((b < length (w_txs w1))%nat -> nth_error (w_txs w2) b = Some v /\ tx_at w2 b = tx_at w1 a /\
       forall h, tx_at (mk_world h (w_txs w2)) b = tx_at (mk_world h (w_txs w2)) a).
Proof.
  intros c b w w2 H. destruct (ext_ok_inv _ _ _ _ H) as (b' & w1 & a & v & E & C & N & ->). injection E as <-.
  exists w1, a, v. split; [assumption|]. split; [assumption|]. split; [reflexivity|]. cbn [w_txs w_ins]. split.
  { clear. generalize (w_txs w1). intros l. revert b. induction l as [|x l IH]; intros [|b]; cbn; auto. }
  split; [intros a' D; rewrite nth_set_nth; now rewrite (proj2 (Nat.eqb_neq _ _) D)|].
  intros L. assert (E : nth_error (set_nth b v (w_txs w1)) b = Some v).
  { rewrite nth_set_nth, Nat.eqb_refl. destruct (nth_error (w_txs w1) b) eqn:X; [reflexivity|]. apply nth_error_None in X. lia. }
  split; [assumption|]. split; [unfold tx_at; cbn [w_txs w_ins]; now rewrite E, N|].
  intros h. unfold tx_at. cbn [w_txs w_ins]. rewrite E. rewrite nth_set_nth. destruct (Nat.eqb_spec a b) as [->|D]; [|now rewrite N].
  destruct (nth_error (w_txs w1) b) eqn:X; [reflexivity|]. apply nth_error_None in X. lia.
Qed.
(** It panics exactly when the signer does, or returns neither a transaction nor an error (or, without
    an error, for a nil receiver). *)
Theorem C89_panics_iff : forall c bt w,
  (forall w1 a e, c w bt = Some (w1, Some a, e) -> (a < length (w_txs w1))%nat) ->
  (sign_ext c bt w = None <-> c w bt = None \/ exists w1 r, c w bt = Some (w1, r, None) /\ (r = None \/ bt = None)).
Proof.
  intros c bt w V. unfold sign_ext. destruct (c w bt) as [[[w1 r] [e|]]|] eqn:C.
  - split; [discriminate|]. intros [H|(w1' & r' & H & _)]; discriminate H.
  - destruct bt as [b|]; [|split; [intros _; right; exists w1, r; auto|reflexivity]].
    destruct r as [a|]; [|split; [intros _; right; exists w1, None; auto|reflexivity]].
    specialize (V w1 a None eq_refl). destruct (nth_error (w_txs w1) a) as [v|] eqn:N; [|apply nth_error_None in N; lia].
    split; [discriminate|]. intros [H|(w1' & r' & H & [X|X])]; [discriminate H| |discriminate X]. injection H as _ <-. discriminate X.
  - split; [intros _; now left|reflexivity].
Qed.
(** Nothing is checked: for every transaction [b] and every other content there is a signer for which
    Sign returns nil and [b] has that content. *)
Theorem C89_unchecked : forall w b v is os lt, (b < length (w_txs w))%nat ->
  exists c w2, sign_ext c (Some b) w = Some (w2, None) /\ tx_at w2 b = Some (mk_tx v (map Some is) os lt) /\
    (forall a i, nth_error (w_ins w) a = Some i -> nth_error (w_ins w2) a = Some i) /\
    (forall a t, a <> b -> nth_error (w_txs w) a = Some t -> nth_error (w_txs w2) a = Some t).
Proof.
  intros w b v is os lt L.
  set (p := mk_ptx v (map (fun k => Some (length (w_ins w) + k)%nat) (seq 0 (length is))) os lt).
  set (w1 := mk_world (w_ins w ++ is) (w_txs w ++ [p])).
  assert (N : nth_error (w_txs w1) (length (w_txs w)) = Some p) by (unfold w1; cbn [w_txs]; rewrite nth_error_app2 by lia; now rewrite Nat.sub_diag).
  exists (fun _ _ => Some (w1, Some (length (w_txs w)), None)), (mk_world (w_ins w1) (set_nth b p (w_txs w1))). split; [unfold sign_ext; now rewrite N|].
  split.
  { unfold tx_at. cbn [w_txs w_ins]. rewrite nth_set_nth, Nat.eqb_refl. destruct (nth_error (w_txs w1) b) eqn:X; [|apply nth_error_None in X; unfold w1 in X; cbn in X; rewrite app_length in X; lia].
    cbn [option_map]. unfold w1, p. cbn [w_ins]. now rewrite view_fresh. }
  split.
  - intros a i H. cbn [w_ins]. unfold w1. cbn [w_ins]. rewrite nth_error_app1; [assumption|]. apply nth_error_Some. congruence.
  - intros a t D H. cbn [w_txs]. rewrite nth_set_nth, (proj2 (Nat.eqb_neq _ _) D). unfold w1. cbn [w_txs]. rewrite nth_error_app1; [assumption|]. apply nth_error_Some. congruence.
Qed.

(** Signers that return the transaction they are given and write unlocking scripts only: after any
    history of their calls, on whatever transactions, every transaction is the same up to unlocking
    scripts, so every signature hash is what it was, and an input whose script was not written is
    accepted if it was. *)
Theorem C89_fill_in : forall cs w w', Forall (fun x => fills_in (fst x)) cs -> ext_run cs w = Some w' ->
  forall b p, nth_error (w_txs w) b = Some p -> valid_ptrs (w_ins w) p ->
  exists t t', tx_at w b = Some t /\ tx_at w' b = Some t' /\ same_but_scripts t t' /\
    (forall n f, n < 2 ^ 32 -> f < 256 -> get_input_signature_hash t' n f = get_input_signature_hash t n f) /\
    (forall verify n, (forall i i', nth_error (inputs t) n = Some (Some i) -> nth_error (inputs t') n = Some (Some i') -> unlocking i' = unlocking i) ->
       accepted verify t n -> accepted verify t' n).
Proof.
  intros cs w w' F R b p N V. destruct (fills_run cs w w' F R) as (A & B).
  exists (view (w_ins w) p), (view (w_ins w') p). unfold tx_at. rewrite N, (A _ _ N). split; [reflexivity|]. split; [reflexivity|].
  assert (S := fills_view w w' p V B). split; [assumption|]. split.
  - intros n f Bn Bf. symmetry. apply sighash_agree; [assumption|assumption|]. apply resigned_agree. now apply same_but_resigned.
  - intros verify n U H. eapply accepted_same; eassumption.
Qed.
(** The InternalSigner is such a signer, and Sign with it is the Sign of C39, C40 and C62. *)
Theorem C89_internal : forall s n, fills_in (internal_ext_sign s n) /\ fills_in (internal_ext_auto s) /\
  forall w b p, nth_error (w_txs w) b = Some p -> valid_ptrs (w_ins w) p -> no_sharing p ->
  (forall t' s' e, tx_sign (view (w_ins w) p) n s = Ok (t', s', e) ->
     exists w2, sign_ext (internal_ext_sign s n) (Some b) w = Some (w2, e) /\ tx_at w2 b = Some t' /\ w_txs w2 = w_txs w) /\
  (tx_sign (view (w_ins w) p) n s = Panic -> sign_ext (internal_ext_sign s n) (Some b) w = None) /\
  (forall t' s' e, tx_sign_auto (view (w_ins w) p) s = Ok (t', s', e) ->
     exists w2, sign_ext (internal_ext_auto s) (Some b) w = Some (w2, e) /\ tx_at w2 b = Some t' /\ w_txs w2 = w_txs w) /\
  (tx_sign_auto (view (w_ins w) p) s = Panic -> sign_ext (internal_ext_auto s) (Some b) w = None).
Proof.
  intros s n. split; [apply internal_fills|]. split; [apply internal_auto_fills|]. intros w b p N V NS.
  assert (R := sign_refines s n (w_ins w) p V NS). assert (Q := auto_refines s (w_ins w) p V NS).
  unfold tx_sign, tx_sign_auto. rewrite <- R, <- Q. unfold sign_ext, internal_ext_sign, internal_ext_auto. rewrite N.
  split; [|split; [|split]].
  - intros t' s' e H. destruct (h_sign s n (w_ins w) p) as [h|x|]; cbn [bind] in H; try discriminate H; injection H as <- _ <-.
    + cbn [w_txs]. rewrite N, set_nth_same by assumption. eexists. split; [reflexivity|]. split; [|reflexivity]. unfold tx_at. cbn [w_txs w_ins]. now rewrite N.
    + eexists. split; [reflexivity|]. split; [|reflexivity]. unfold tx_at. now rewrite N.
  - intros H. destruct (h_sign s n (w_ins w) p); cbn [bind] in H; try discriminate H. reflexivity.
  - intros t' s' e H. destruct (h_sign_auto s (w_ins w) p) as [h|x|]; cbn [bind] in H; try discriminate H; injection H as <- _ <-.
    + cbn [w_txs]. rewrite N, set_nth_same by assumption. eexists. split; [reflexivity|]. split; [|reflexivity]. unfold tx_at. cbn [w_txs w_ins]. now rewrite N.
    + eexists. split; [reflexivity|]. split; [|reflexivity]. unfold tx_at. now rewrite N.
  - intros H. destruct (h_sign_auto s (w_ins w) p); cbn [bind] in H; try discriminate H. reflexivity.
Qed.
(** A signer on another machine that works on the bytes: Sign succeeds and the transaction is the one
    that was sent with the script filled in. But its inputs have lost the amounts and scripts they
    spend, so no input of it can be signed any more - Sign returns an error, SignAuto does nothing and
    returns nil - although the original Inputs still exist unchanged. *)
Theorem C89_remote : forall w b p n u, let t := view (w_ins w) p in
  nth_error (w_txs w) b = Some p -> wf_tx t -> (n < length (inputs t))%nat ->
  (forall raw, tx_to_bytes t = Ok raw -> (Z.of_nat (length raw) < 2 ^ 62)%Z) ->
  exists w2 t', sign_ext (remote n u) (Some b) w = Some (w2, None) /\ tx_at w2 b = Some t' /\ unlocked (bare_tx t) n u t' /\
    (forall a i, nth_error (w_ins w) a = Some i -> nth_error (w_ins w2) a = Some i) /\
    (forall a x, a <> b -> nth_error (w_txs w) a = Some x -> nth_error (w_txs w2) a = Some x) /\
    forall s, (forall k, (N.to_nat k < length (inputs t))%nat -> sign_ext (internal_ext_sign s k) (Some b) w2 = Some (w2, Some ENoPrevTxScript)) /\
              sign_ext (internal_ext_auto s) (Some b) w2 = Some (w2, None).
Proof.
  intros w b p n u t N W L B. destruct (C27_round_trip t W) as (raw & ER & EP). specialize (B raw ER). specialize (EP []).
  assert (SC : (scap (Sl raw []) < 2 ^ 62)%Z) by (unfold scap; cbn [vis spare length]; lia).
  specialize (EP SC).
  assert (LB : length (inputs (bare_tx t)) = length (inputs t)) by (unfold bare_tx; cbn [inputs]; apply map_length).
  assert (IS : exists is, inputs (bare_tx t) = map Some is /\ length is = length (inputs t) /\ Forall (fun i => prev_txid i <> [] /\ prev_script i = None) is).
  { assert (P : forall k oi, nth_error (inputs (bare_tx t)) k = Some oi -> exists i, oi = Some i /\ prev_txid i <> [] /\ prev_script i = None) by (intros; eapply parsed_input; eassumption).
    rewrite <- LB. clear -P. revert P. generalize (inputs (bare_tx t)). induction l as [|oi l IH]; intros P; [exists []; auto|].
    destruct IH as (is & E1 & E2 & E3); [intros k x H; exact (P (S k) x H)|]. destruct (P 0%nat oi eq_refl) as (i & -> & Pi). exists (i :: is). cbn [map length]. rewrite <- E1, E2. auto. }
  destruct IS as (is & EI & LI & FI). destruct (nth_error is n) as [i|] eqn:Ni; [|apply nth_error_None in Ni; lia].
  set (is2 := set_nth n (set_unlocking i (Some u)) is).
  set (p2 := mk_ptx (version (bare_tx t)) (map (fun k => Some (length (w_ins w) + k)%nat) (seq 0 (length is2))) (outputs (bare_tx t)) (locktime (bare_tx t))).
  set (w1 := mk_world (w_ins w ++ is2) (w_txs w ++ [p2])). set (w2 := mk_world (w_ins w1) (set_nth b p2 (w_txs w1))).
  assert (Lb : (b < length (w_txs w))%nat) by (apply nth_error_Some; congruence).
  assert (R : remote n u w (Some b) = Some (w1, Some (length (w_txs w)), None)).
  { unfold remote, tx_at. rewrite N. cbn [option_map]. fold t. rewrite ER, EP, EI. rewrite nth_error_map', Ni. cbn [option_map]. rewrite filter_somes. rewrite Ni. reflexivity. }
  assert (N1 : nth_error (w_txs w1) (length (w_txs w)) = Some p2) by (unfold w1; cbn [w_txs]; rewrite nth_error_app2 by lia; now rewrite Nat.sub_diag).
  assert (N2 : nth_error (w_txs w2) b = Some p2).
  { unfold w2. cbn [w_txs]. rewrite nth_set_nth, Nat.eqb_refl. destruct (nth_error (w_txs w1) b) eqn:X; [reflexivity|]. apply nth_error_None in X. unfold w1 in X. cbn in X. rewrite app_length in X. lia. }
  assert (VW : view (w_ins w2) p2 = mk_tx (version (bare_tx t)) (map Some is2) (outputs (bare_tx t)) (locktime (bare_tx t))) by (unfold w2, w1, p2; cbn [w_ins]; apply view_fresh).
  assert (L2 : length is2 = length is) by (unfold is2; clear; revert n; induction is as [|x l IH]; intros [|n]; cbn; auto).
  assert (F2 : Forall (fun i => prev_txid i <> [] /\ prev_script i = None) is2).
  { apply Forall_forall. intros x Hx. apply In_nth_error in Hx. destruct Hx as (k & Hk). unfold is2 in Hk. rewrite nth_set_nth in Hk. rewrite Forall_forall in FI.
    destruct (Nat.eqb k n); [|apply FI; eapply nth_error_In; eassumption]. rewrite Ni in Hk. injection Hk as <-. exact (FI i (nth_error_In _ _ Ni)). }
  exists w2, (view (w_ins w2) p2). split; [unfold sign_ext; rewrite R, N1; reflexivity|]. split; [unfold tx_at; now rewrite N2|]. split.
  { rewrite VW. unfold unlocked. cbn [version outputs locktime inputs]. split; [reflexivity|]. split; [reflexivity|]. split; [reflexivity|].
    split; [rewrite map_length, EI, map_length; exact L2|]. split.
    - intros k D. rewrite EI, !nth_error_map'. unfold is2. rewrite nth_set_nth, (proj2 (Nat.eqb_neq _ _) D). reflexivity.
    - exists i. rewrite EI, !nth_error_map', Ni. split; [reflexivity|]. unfold is2. rewrite nth_set_nth, Nat.eqb_refl, Ni. reflexivity. }
  split; [intros a x H; unfold w2, w1; cbn [w_ins]; rewrite nth_error_app1; [assumption|apply nth_error_Some; congruence]|].
  split; [intros a x D H; unfold w2, w1; cbn [w_txs]; rewrite nth_set_nth, (proj2 (Nat.eqb_neq _ _) D), nth_error_app1; [assumption|apply nth_error_Some; congruence]|].
  intros s. split.
  - intros k Hk. unfold sign_ext, internal_ext_sign. rewrite N2.
    destruct (nth_error is2 (N.to_nat k)) as [j|] eqn:Nj; [|apply nth_error_None in Nj; lia]. rewrite Forall_forall in F2. destruct (F2 j (nth_error_In _ _ Nj)) as (X & S).
    rewrite (h_sign_no_script s k (w_ins w2) p2 j); [reflexivity| |assumption|assumption]. rewrite VW. cbn [inputs]. rewrite nth_error_map', Nj. reflexivity.
  - unfold sign_ext, internal_ext_auto. rewrite N2. unfold h_sign_auto.
    assert (E : h_auto_loop (default_flag s) 0 (length (p_inputs p2)) (w_ins w2) p2 = Ok (w_ins w2)).
    { apply h_auto_no_script; [cbn; lia|]. intros m oi H. rewrite VW in H. cbn [inputs] in H. rewrite nth_error_map' in H.
      destruct (nth_error is2 m) as [j|] eqn:Nj; [|discriminate H]. injection H as <-. exists j. split; [reflexivity|]. rewrite Forall_forall in F2. exact (proj2 (F2 j (nth_error_In _ _ Nj))). }
    rewrite E. cbn [w_txs w_ins]. rewrite N2, set_nth_same by assumption. now destruct w2.
Qed.

(** A spend of two outputs of a key (C63): with its own signer both inputs get signed, and the first
    call's script stays; if the first script comes from another machine, the second Sign fails. *)
Definition ex89_w : world :=
  let t := tx_run tx_new ex63_calls in
  mk_world (flat_map (fun oi => match oi with Some i => [i] | None => [] end) (inputs t)) [mk_ptx (version t) [Some 0%nat; Some 1%nat] (outputs t) (locktime t)].
Definition out_ok (o : output) : bool := (satoshis o <? 2 ^ 64) && match locking o with Some l => nlen l <? 2 ^ 63 | None => false end.
Lemma out_ok_wf o : out_ok o = true -> wf_output o.
Proof.
  unfold out_ok. intros H. apply andb_true_iff in H. destruct H as (H1 & H2). apply N.ltb_lt in H1. destruct (locking o) as [l|] eqn:E; [|discriminate H2]. apply N.ltb_lt in H2.
  split; [assumption|]. exists l. now split.
Qed.
Example C89_example : let s := mk_signer ex63_key 0 in
  let t := tx_run tx_new ex63_calls in
  tx_at ex89_w 0 = Some t /\
  (exists w1 w2, sign_ext (internal_ext_sign s 0) (Some 0%nat) ex89_w = Some (w1, None) /\ sign_ext (internal_ext_sign s 1) (Some 0%nat) w1 = Some (w2, None)) /\
  (exists w1, sign_ext (remote 0 [x51]) (Some 0%nat) ex89_w = Some (w1, None) /\
     sign_ext (internal_ext_sign s 1) (Some 0%nat) w1 = Some (w1, Some ENoPrevTxScript) /\ sign_ext (internal_ext_auto s) (Some 0%nat) w1 = Some (w1, None)) /\
  wf_tx t.
Proof.
  intros s t. split; [vm_compute; reflexivity|]. split; [eexists _, _; split; [vm_compute; reflexivity|]; vm_compute; reflexivity|].
  split; [eexists; split; [vm_compute; reflexivity|]; split; vm_compute; reflexivity|].
  assert (E : exists i1 i2 o1 o2, t = mk_tx 1 [Some i1; Some i2] [Some o1; Some o2] 0 /\
    (prev_txid i1 = hex_encode ex63_id /\ prev_index i1 = 0 /\ sequence i1 = 4294967295 /\ unlocking i1 = None) /\
    (prev_txid i2 = hex_encode ex63_id /\ prev_index i2 = 1 /\ sequence i2 = 4294967295 /\ unlocking i2 = None) /\
    out_ok o1 = true /\ out_ok o2 = true).
  { do 4 eexists. split; [vm_compute; reflexivity|]. split; [split; [vm_compute; reflexivity|]; split; [reflexivity|]; split; reflexivity|]. split; [split; [vm_compute; reflexivity|]; split; [reflexivity|]; split; reflexivity|]. split; reflexivity. }
  destruct E as (i1 & i2 & o1 & o2 & -> & (A1 & A2 & A3 & A4) & (B1 & B2 & B3 & B4) & O1 & O2).
  assert (IOK : forall i, prev_txid i = hex_encode ex63_id -> prev_index i < 2 ^ 32 -> sequence i = 4294967295 -> unlocking i = None -> wf_input i).
  { intros i H1 H2 H3 H4. split; [exists ex63_id; split; [reflexivity|assumption]|]. split; [assumption|]. split; [rewrite H3; reflexivity|]. rewrite H4. reflexivity. }
  split; [reflexivity|]. split; [reflexivity|]. split; [reflexivity|]. split; [reflexivity|]. split.
  - constructor; [|constructor; [|constructor]]; eexists; (split; [reflexivity|]); apply IOK; try assumption; [rewrite A2|rewrite B2]; reflexivity.
  - constructor; [|constructor; [|constructor]]; eexists; (split; [reflexivity|]); now apply out_ok_wf.
Qed.
Print Assumptions C89_error.
Print Assumptions C89_success.
Print Assumptions C89_panics_iff.
Print Assumptions C89_unchecked.
Print Assumptions C89_fill_in.
Print Assumptions C89_internal.
Print Assumptions C89_remote.
