(** C73: what a transaction obtained through the API looks like on the wire. *)
From Verif Require Import P_Made.
From Coq Require Import ZifyBool ZifyNat ZifyN.

(** Whatever calls led to it, serialising does not panic. *)
Theorem C73_serialises : forall t, made t -> exists b, tx_to_bytes t = Ok b.
Proof. intros t M. apply made_typed in M. destruct (typed_bytes t M) as (is & os & _ & _ & _ & _ & E). eauto. Qed.

(** It parses back to itself exactly when every reference is 64 lower-case digits. *)
Theorem C73_round_trip_iff : forall t b sp, made t -> tx_to_bytes t = Ok b -> (scap (Sl b sp) < 2 ^ 62)%Z ->
  (tx_from_slice (Sl b sp) = Ok (bare_tx t) <-> forall i, In (Some i) (inputs t) -> good_ref i).
Proof. exact round_iff. Qed.

(** References in upper or mixed case come back in lower case, all else the same. *)
Theorem C73_case : forall t b sp, made t -> tx_to_bytes t = Ok b -> (scap (Sl b sp) < 2 ^ 62)%Z ->
  (forall i, In (Some i) (inputs t) -> hex_ref i) -> tx_from_slice (Sl b sp) = Ok (bare_tx (lower_refs t)).
Proof. exact round_case. Qed.

Lemma careful_made t : careful t -> made t.
Proof.
  induction 1; [constructor|eapply made_parsed; eassumption|now constructor|now constructor|eapply made_apply; eassumption|eapply made_sign; eassumption].
Qed.

Definition good_refs (t : tx) : Prop := forall i, In (Some i) (inputs t) -> good_ref i.

Lemma apply_good t n u t' : good_refs t -> apply_unlocking_script t n u = Ok t' -> good_refs t'.
Proof.
  intros G. unfold apply_unlocking_script. destruct (nth_error (inputs t) (N.to_nat n)) as [[j|]|] eqn:E; cbn [or_panic bind]; try discriminate.
  intros [= <-] i. cbn [inputs]. intros H.
  assert (Forall (fun oi => forall i, oi = Some i -> good_ref i) (set_nth (N.to_nat n) (Some (mk_in (prev_txid j) (prev_index j) (prev_sats j) (prev_script j) u (sequence j))) (inputs t))) as F.
  { apply Forall_set_nth; [|apply Forall_forall; intros oi Hi x ->; now apply G].
    intros x [= <-]. apply nth_error_In in E. apply G in E as (id & L & P). exists id. split; [assumption|exact P]. }
  rewrite Forall_forall in F. eapply F; [exact H|reflexivity].
Qed.

Lemma internal_good s n t t' : good_refs t -> internal_sign s n t = Ok t' -> good_refs t'.
Proof.
  intros T. unfold internal_sign. cbv zeta. destruct (get_input_signature_hash _ _ _) as [h|e|]; cbn [bind]; try discriminate.
  destruct (key_sign _ _) as [sg|e|]; cbn [bind]; try discriminate. destruct (p2pkh_unlocking_script _ _ _) as [us e]. now apply apply_good.
Qed.

Lemma auto_good s n : forall i t t', good_refs t -> sign_auto_loop s i n t = Ok t' -> good_refs t'.
Proof.
  induction n as [|n IH]; intros i t t' T; cbn [sign_auto_loop]; [now intros [= <-]|].
  destruct (sign_auto_step s i t) as [t1|e|] eqn:E; cbn [bind]; try discriminate. apply IH. revert E. unfold sign_auto_step.
  destruct (nth_error (inputs t) (N.to_nat i)) as [[j|]|]; cbn [or_panic bind deref]; try discriminate.
  destruct (match get_public_key_hash (prev_script j) with Ok h => Ok h | Err _ => Ok [] | Panic => Panic end) as [h|e|]; cbn [bind]; try discriminate.
  cbv zeta. destruct (equals _ _); [|now intros [= <-]]. destruct (internal_sign s (wrap32 i) t) as [t2|e|] eqn:E; intros [= <-]; [|assumption].
  now apply internal_good in E.
Qed.

Lemma careful_good t : careful t -> good_refs t.
Proof.
  induction 1 as [|v sp t Cap H|t v l _ IH ? ?|t c _ IH P C|t n u t' _ IH H|t c t' _ IH H].
  - intros i [].
  - intros i Hi. apply tx_from_ok in H as [W F]; [|assumption].
    destruct W as (ver & nin & wi & nout & wo & lt & _ & _ & _ & _ & _ & _ & _ & FI & _). unfold fresh_tx in F.
    rewrite Forall_forall in F. destruct (F _ Hi) as (j & [= <-] & (x & X) & _).
    assert (exists w, wire_input compact w i) as (w & W).
    { clear -FI Hi. induction FI as [|w oi wi l (j & -> & W) _ IH]; [easy|]. destruct Hi as [H|H]; [|now apply IH]. injection H as <-. now exists w. }
    destruct W as (id & ix & l & sq & _ & Li & _ & _ & _ & D & _). rewrite X, hex_dec_encode in D. injection D as ->.
    exists (rev id). rewrite rev_length. split; [assumption|]. exact X.
  - exact IH.
  - destruct c as [txid vout script sats|oi|oo|addr sats]; cbn [tx_do].
    + unfold tx_from_utxo. destruct (script_from_hex script); cbn [fst]; [|exact IH..]. intros i Hi. cbn [tx_add_input inputs] in Hi.
      apply in_app_or in Hi as [Hi|[Hi|[]]]; [now apply IH|]. injection Hi as <-. exact C.
    + intros i Hi. cbn [fst tx_add_input inputs] in Hi. apply in_app_or in Hi as [Hi|[Hi|[]]]; [now apply IH|]. now apply C.
    + exact IH.
    + unfold tx_pay_to. destruct (output_p2pkh_from_address addr sats); exact IH.
  - eapply apply_good; eassumption.
  - destruct c as [s n|s]; cbn [sign_do] in H; revert H.
    + unfold tx_sign. destruct (internal_sign s n t) as [t1|e|] eqn:E; intros [= <-]; [|assumption]. now apply internal_good in E.
    + unfold tx_sign_auto. destruct (internal_sign_auto s t) as [t1|e|] eqn:E; intros [= <-]; [|assumption]. now apply auto_good in E.
Qed.

Theorem C73_careful_round_trip : forall t b sp, careful t -> tx_to_bytes t = Ok b -> (scap (Sl b sp) < 2 ^ 62)%Z ->
  tx_from_slice (Sl b sp) = Ok (bare_tx t).
Proof. intros t b sp C E Cap. apply round_iff; [now apply careful_made|assumption..|]. now apply careful_good. Qed.

(** From accepts any text as a reference. With the empty one, the bytes can be a
    well-formed transaction that spends another output and carries another script. *)
Theorem C73_reference_unchecked_refuted : exists t b t' i i', made t /\ tx_to_bytes t = Ok b /\ tx_from_bytes b = Ok t' /\
  inputs t = [Some i] /\ inputs t' = [Some i'] /\ prev_index i = 7 /\ prev_index i' = 0xbbbbbbbb /\
  unlocking i = Some (repeat xaa 27 ++ repeat xbb 4 ++ [x00]) /\ unlocking i' = Some [] /\ outputs t' = outputs t.
Proof.
  set (t0 := fst (tx_do tx_new (CallFrom [] 7 [x35; x31] 1000))).
  assert (made t0) as M0 by (apply made_call; [constructor|split; vm_compute; reflexivity]).
  destruct (apply_unlocking_script t0 0 (Some (repeat xaa 27 ++ repeat xbb 4 ++ [x00]))) as [t|e|] eqn:E;
    [|vm_compute in E; discriminate..].
  exists t. pose proof (made_apply _ _ _ _ M0 E) as M. vm_compute in E. injection E as <-.
  eexists. eexists. eexists. eexists. split; [exact M|]. split; [vm_compute; reflexivity|]. split; [vm_compute; reflexivity|].
  split; [reflexivity|]. split; [reflexivity|]. split; [reflexivity|]. split; [reflexivity|]. split; [reflexivity|]. split; reflexivity.
Qed.

(** Upper-case reference: a careful history apart from that. *)
Example C73_example :
  let up := repeat x41 64 in
  let t := fst (tx_do (fst (tx_do tx_new (CallFrom up 1 [x35; x31] 1000))) (CallAddOutput (Some (mk_out 5 (Some [x51; x76]))))) in
  made t /\ (forall i, In (Some i) (inputs t) -> hex_ref i) /\ ~ (forall i, In (Some i) (inputs t) -> good_ref i) /\
  careful (fst (tx_do tx_new (CallFrom (repeat x61 64) 1 [x35; x31] 1000))).
Proof.
  cbv zeta. split; [|split; [|split]].
  - apply made_call; [apply made_call; [constructor|split; vm_compute; reflexivity]|].
    eexists. split; [reflexivity|]. apply (mo_parsed (map n2b [5;0;0;0;0;0;0;0; 2; 0x51; 0x76]) [] _ 11); vm_compute; reflexivity.
  - intros i Hi. vm_compute in Hi. destruct Hi as [Hi|[]]. injection Hi as <-. exists (repeat xaa 32). split; vm_compute; reflexivity.
  - intros G. specialize (G (mk_in (repeat x41 64) 1 1000 (Some [x51]) None 0xffffffff)). destruct G as (id & L & E).
    { vm_compute. now left. }
    cbn [prev_txid] in E. assert (hex_dec (repeat x41 64) = Some id) as D by (rewrite E; apply hex_dec_encode).
    vm_compute in D. injection D as <-. vm_compute in E. discriminate.
  - apply cf_call; [constructor|split; vm_compute; reflexivity|]. exists (repeat xaa 32). split; vm_compute; reflexivity.
Qed.

Print Assumptions C73_serialises.
Print Assumptions C73_round_trip_iff.
Print Assumptions C73_case.
Print Assumptions C73_careful_round_trip.
Print Assumptions C73_reference_unchecked_refuted.
