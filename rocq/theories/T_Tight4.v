(** C39: the other outcomes of Sign. *)
From Verif Require Import P_Signer.
From Coq Require Import ZifyBool ZifyNat ZifyN.

Lemma sign_outcome t n s : sg_flag s < 256 -> n < 2 ^ 32 ->
  let f := if sg_flag s =? 0 then 65 else sg_flag s in
  match get_input_signature_hash t n f with
  | Err e => tx_sign t n s = Ok (t, mk_signer (sg_key s) f, Some e)
  | Panic => tx_sign t n s = Panic
  | Ok h => match key_sign (sg_key s) (rev h) with
            | Err e => tx_sign t n s = Ok (t, mk_signer (sg_key s) f, Some e)
            | Panic => tx_sign t n s = Panic
            | Ok _ => exists t', tx_sign t n s = Ok (t', mk_signer (sg_key s) f, None)
            end
  end.
Proof.
  intros Bf Bn f. pose proof (sign_spec t n s _ eq_refl Bf Bn) as S. change (used_flag s) with f in S.
  destruct (tx_sign t n s) as [[[t1 s1] [e1|]]|e1|].
  - destruct S as (-> & -> & [C|(h & C & K)]); rewrite C; [reflexivity|now rewrite K].
  - destruct S as (-> & h & sg & C & K & _). rewrite C, K. eauto.
  - contradiction.
  - destruct S as [C|(h & C & K)]; rewrite C; [reflexivity|now rewrite K].
Qed.

(** Sign returns an error exactly when the signature hash or the key does, and that error; the transaction stays as it is. *)
Theorem C39_error_iff : forall t n s t' s' e, sig_tx t -> sg_flag s < 256 -> n < 2 ^ 32 ->
  let f := if sg_flag s =? 0 then 65 else sg_flag s in
  (tx_sign t n s = Ok (t', s', Some e) <->
   t' = t /\ s' = mk_signer (sg_key s) f /\ exists i, nth_error (inputs t) (N.to_nat n) = Some (Some i) /\
     ((prev_txid i = [] /\ e = ENoPrevTxID) \/ (prev_txid i <> [] /\ prev_script i = None /\ e = ENoPrevTxScript) \/
      exists h, get_input_signature_hash t n f = Ok h /\ key_sign (sg_key s) (rev h) = Err e)).
Proof.
  intros t n s t' s' e W Bf Bn f. pose proof (sign_outcome t n s Bf Bn) as S. cbv zeta in S. fold f in S.
  assert (f < 256) as Ff by (unfold f; destruct (sg_flag s =? 0); lia).
  pose proof (fun e => sighash_err_iff t n f e W Bn Ff) as HE. clearbody f. split.
  - intros Q. destruct (get_input_signature_hash t n f) as [h|x|] eqn:H.
    + destruct (sighash_input _ _ _ _ H) as (i & I).
      destruct (key_sign (sg_key s) (rev h)) as [sg|x|] eqn:K; [destruct S as (t2 & S)| |]; rewrite S in Q; try discriminate Q.
      injection Q as <- <- <-. split; [reflexivity|]. split; [reflexivity|]. exists i. split; [exact I|]. right. right. exists h. auto.
    + rewrite S in Q. injection Q as <- <- <-. split; [reflexivity|]. split; [reflexivity|].
      destruct (proj1 (HE x) eq_refl) as (i & I & [C|C]); exists i; auto.
    + rewrite S in Q. discriminate Q.
  - intros (-> & -> & i & I & [C|[C|(h & C & K)]]).
    + rewrite (proj2 (HE e)) in S; [exact S|]. eauto.
    + rewrite (proj2 (HE e)) in S; [exact S|]. eauto.
    + rewrite C, K in S. exact S.
Qed.

(** It panics exactly for an input number that is not there, or when the key does. *)
Theorem C39_panics_iff : forall t n s, sig_tx t -> sg_flag s < 256 -> n < 2 ^ 32 ->
  let f := if sg_flag s =? 0 then 65 else sg_flag s in
  (tx_sign t n s = Panic <->
   (length (inputs t) <= N.to_nat n)%nat \/
   exists h, get_input_signature_hash t n f = Ok h /\ key_sign (sg_key s) (rev h) = Panic).
Proof.
  intros t n s W Bf Bn f. pose proof (sign_outcome t n s Bf Bn) as S. cbv zeta in S. fold f in S.
  assert (f < 256) as Ff by (unfold f; destruct (sg_flag s =? 0); lia).
  pose proof (sighash_panic_iff t n f W Bn Ff) as HP. clearbody f. rewrite <- HP.
  destruct (get_input_signature_hash t n f) as [h|x|] eqn:H.
  - destruct (key_sign (sg_key s) (rev h)) as [sg|x|] eqn:K; [destruct S as (t2 & S)| |]; rewrite S.
    + split; [discriminate|]. intros [Q|(h' & Q & Q')]; [discriminate Q|]. injection Q as <-. congruence.
    + split; [discriminate|]. intros [Q|(h' & Q & Q')]; [discriminate Q|]. injection Q as <-. congruence.
    + split; [intros _; right; eauto|reflexivity].
  - rewrite S. split; [discriminate|]. intros [Q|(h' & Q & _)]; discriminate Q.
  - rewrite S. split; [now left|reflexivity].
Qed.

Print Assumptions C39_error_iff.
Print Assumptions C39_panics_iff.
