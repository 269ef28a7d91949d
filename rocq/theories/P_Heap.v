(** Proofs about transactions that share Input objects (C62). *)
From Verif Require Export S_Heap P_Flow.
From Coq Require Import ZifyBool ZifyNat ZifyN.

Lemma nth_error_map' {A B} (f : A -> B) l : forall n, nth_error (map f l) n = option_map f (nth_error l n).
Proof. induction l as [|a l IH]; intros [|n]; cbn; auto. Qed.

Lemma load_set h a x p : (a < length h)%nat -> load (set_nth a x h) p = if match p with Some b => Nat.eqb a b | None => false end then Some x else load h p.
Proof.
  intros L. destruct p as [b|]; cbn [load]; [|reflexivity]. destruct (Nat.eqb_spec a b) as [<-|Q].
  - destruct (nth_error h a) as [y|] eqn:E; [eapply nth_error_set_eq, E|]. apply nth_error_None in E. lia.
  - apply nth_error_set_neq. congruence.
Qed.

Lemma h_apply_ok h t n s h' : valid_ptrs h t -> h_apply h t n s = Ok h' ->
  exists a i, nth_error (p_inputs t) (N.to_nat n) = Some (Some a) /\ nth_error h a = Some i /\ h' = set_nth a (set_unlocking i s) h.
Proof.
  intros V. unfold h_apply. destruct (nth_error (p_inputs t) (N.to_nat n)) as [[a|]|] eqn:E; cbn [or_panic bind]; try discriminate.
  destruct (nth_error h a) as [i|] eqn:Ea; cbn [or_panic bind]; [|discriminate]. intros H. injection H as <-. exists a, i. auto.
Qed.

Lemma view_set h t n a x : valid_ptrs h t -> no_sharing t -> nth_error (p_inputs t) n = Some (Some a) ->
  inputs (view (set_nth a x h) t) = set_nth n (Some x) (inputs (view h t)).
Proof.
  intros V D E. cbn [view inputs]. apply list_ext. intros k. rewrite nth_error_map'.
  destruct (Nat.eq_dec k n) as [->|Q].
  - rewrite E. cbn [option_map load]. pose proof (V _ _ E) as L.
    assert (nth_error (set_nth n (Some x) (map (load h) (p_inputs t))) n = Some (Some x)) as ->.
    { eapply nth_error_set_eq. rewrite nth_error_map', E. reflexivity. }
    destruct (nth_error h a) as [y|] eqn:Ea; [|apply nth_error_None in Ea; lia]. now rewrite (nth_error_set_eq _ _ _ _ Ea).
  - rewrite nth_error_set_neq by assumption. rewrite nth_error_map'.
    destruct (nth_error (p_inputs t) k) as [p|] eqn:Ek; cbn [option_map]; [|reflexivity]. f_equal.
    rewrite load_set by (eapply V; exact E). destruct p as [b|]; [|reflexivity].
    destruct (Nat.eqb_spec a b) as [<-|]; [|reflexivity]. exfalso. apply Q. eapply D; eassumption.
Qed.

Lemma apply_refines h t n s : valid_ptrs h t -> no_sharing t ->
  (h' <- h_apply h t n s ;; Ok (view h' t)) = apply_unlocking_script (view h t) n s.
Proof.
  intros V D. unfold h_apply, apply_unlocking_script. cbn [view inputs]. rewrite nth_error_map'.
  destruct (nth_error (p_inputs t) (N.to_nat n)) as [[a|]|] eqn:E; cbn [option_map or_panic bind load]; try reflexivity.
  destruct (nth_error h a) as [i|] eqn:Ea; [|apply nth_error_None in Ea; apply V in E; lia]. cbn [or_panic bind].
  f_equal. unfold view at 1. f_equal. exact (view_set h t _ a _ V D E).
Qed.

Lemma h_apply_valid h t n s h' : valid_ptrs h t -> h_apply h t n s = Ok h' -> length h' = length h /\ valid_ptrs h' t.
Proof.
  intros V H. destruct (h_apply_ok _ _ _ _ _ V H) as (a & i & _ & _ & ->). rewrite set_nth_length. split; [reflexivity|].
  intros m b E. rewrite set_nth_length. eapply V, E.
Qed.

Lemma sign_refines s n h t : valid_ptrs h t -> no_sharing t ->
  (h' <- h_sign s n h t ;; Ok (view h' t)) = internal_sign s n (view h t).
Proof.
  intros V D. unfold h_sign, internal_sign. set (d := default_flag s).
  destruct (get_input_signature_hash (view h t) n (sg_flag d)) as [g|e|]; cbn [bind]; try reflexivity.
  destruct (key_sign (sg_key d) (reverse_bytes g)) as [sg|e|]; cbn [bind]; try reflexivity.
  destruct (p2pkh_unlocking_script (key_pub (sg_key d)) sg (sg_flag d)) as [us e]. now apply apply_refines.
Qed.

Lemma h_sign_valid s n h t h' : valid_ptrs h t -> h_sign s n h t = Ok h' -> length h' = length h /\ valid_ptrs h' t.
Proof.
  intros V. unfold h_sign. set (d := default_flag s).
  destruct (get_input_signature_hash (view h t) n (sg_flag d)) as [g|e|]; cbn [bind]; try discriminate.
  destruct (key_sign (sg_key d) (reverse_bytes g)) as [sg|e|]; cbn [bind]; try discriminate.
  destruct (p2pkh_unlocking_script (key_pub (sg_key d)) sg (sg_flag d)) as [us e]. now apply h_apply_valid.
Qed.

Lemma step_refines s n h t : valid_ptrs h t -> no_sharing t ->
  (h' <- h_auto_step s n h t ;; Ok (view h' t)) = sign_auto_step s n (view h t).
Proof.
  intros V D. unfold h_auto_step, sign_auto_step. cbn [view inputs]. rewrite nth_error_map'.
  destruct (nth_error (p_inputs t) (N.to_nat n)) as [p|]; cbn [option_map or_panic bind]; [|reflexivity].
  destruct (load h p) as [i|]; cbn [deref or_panic bind]; [|reflexivity].
  destruct (get_public_key_hash (prev_script i)) as [g|e|]; cbn [bind]; [| |reflexivity];
    (destruct (equals _ _); [|reflexivity]); rewrite <- (sign_refines s (wrap32 n) h t V D);
    destruct (h_sign s (wrap32 n) h t) as [h'|e'|]; reflexivity.
Qed.

Lemma step_valid s n h t h' : valid_ptrs h t -> h_auto_step s n h t = Ok h' -> length h' = length h /\ valid_ptrs h' t.
Proof.
  intros V. unfold h_auto_step.
  destruct (nth_error (p_inputs t) (N.to_nat n)) as [p|]; cbn [or_panic bind]; [|discriminate].
  destruct (load h p) as [i|]; cbn [deref or_panic bind]; [|discriminate].
  assert (length h = length h /\ valid_ptrs h t) as X by auto.
  destruct (get_public_key_hash (prev_script i)) as [g|e|]; cbn [bind]; [| |discriminate];
    (destruct (equals _ _); [|intros H; injection H as <-; exact X]);
    destruct (h_sign s (wrap32 n) h t) as [h1|e'|] eqn:S; try discriminate; intros H; injection H as <-; try exact X;
    eapply h_sign_valid; eassumption.
Qed.

Lemma loop_refines s t k : forall n h, valid_ptrs h t -> no_sharing t ->
  (h' <- h_auto_loop s n k h t ;; Ok (view h' t)) = sign_auto_loop s n k (view h t).
Proof.
  induction k as [|k IH]; intros n h V D; cbn [h_auto_loop sign_auto_loop bind]; [reflexivity|].
  rewrite <- (step_refines s n h t V D). destruct (h_auto_step s n h t) as [h'|e|] eqn:S; cbn [bind]; try reflexivity.
  apply IH; [|assumption]. eapply step_valid; eassumption.
Qed.

Lemma auto_refines s h t : valid_ptrs h t -> no_sharing t ->
  (h' <- h_sign_auto s h t ;; Ok (view h' t)) = internal_sign_auto s (view h t).
Proof.
  intros V D. unfold h_sign_auto, internal_sign_auto. rewrite loop_refines by assumption. f_equal.
  cbn [view inputs]. now rewrite map_length.
Qed.

(** what one write does to every transaction of the program *)
Lemma write_effect h a x t2 m : (a < length h)%nat ->
  nth_error (inputs (view (set_nth a x h) t2)) m =
  match nth_error (p_inputs t2) m with
  | Some (Some b) => if Nat.eqb a b then Some (Some x) else nth_error (inputs (view h t2)) m
  | _ => nth_error (inputs (view h t2)) m
  end.
Proof.
  intros L. cbn [view inputs]. rewrite !nth_error_map'. destruct (nth_error (p_inputs t2) m) as [p|]; cbn [option_map]; [|reflexivity].
  rewrite load_set by assumption. destruct p as [b|]; [|reflexivity]. destruct (Nat.eqb a b); reflexivity.
Qed.

Lemma apply_frame h t n s h' : valid_ptrs h t -> h_apply h t n s = Ok h' -> frame t h h'.
Proof.
  intros V H a N. destruct (h_apply_ok _ _ _ _ _ V H) as (b & i & E & _ & ->). apply nth_error_set_neq. intros ->. now apply (N (N.to_nat n)).
Qed.

Lemma sign_frame s n h t h' : valid_ptrs h t -> h_sign s n h t = Ok h' -> frame t h h'.
Proof.
  intros V. unfold h_sign. set (d := default_flag s).
  destruct (get_input_signature_hash (view h t) n (sg_flag d)) as [g|e|]; cbn [bind]; try discriminate.
  destruct (key_sign (sg_key d) (reverse_bytes g)) as [sg|e|]; cbn [bind]; try discriminate.
  destruct (p2pkh_unlocking_script (key_pub (sg_key d)) sg (sg_flag d)) as [us e]. now apply apply_frame.
Qed.

Lemma step_frame s n h t h' : valid_ptrs h t -> h_auto_step s n h t = Ok h' -> frame t h h'.
Proof.
  intros V. unfold h_auto_step.
  destruct (nth_error (p_inputs t) (N.to_nat n)) as [p|]; cbn [or_panic bind]; [|discriminate].
  destruct (load h p) as [i|]; cbn [deref or_panic bind]; [|discriminate].
  assert (frame t h h) as X by (intros a _; reflexivity).
  destruct (get_public_key_hash (prev_script i)) as [g|e|]; cbn [bind]; [| |discriminate];
    (destruct (equals _ _); [|intros H; injection H as <-; exact X]);
    destruct (h_sign s (wrap32 n) h t) as [h1|e'|] eqn:S; try discriminate; intros H; injection H as <-; try exact X;
    eapply sign_frame; eassumption.
Qed.

Lemma loop_frame s t k : forall n h h', valid_ptrs h t -> h_auto_loop s n k h t = Ok h' -> frame t h h'.
Proof.
  induction k as [|k IH]; intros n h h' V H; cbn [h_auto_loop] in H.
  - injection H as <-. intros a _. reflexivity.
  - destruct (h_auto_step s n h t) as [h1|e|] eqn:S; cbn [bind] in H; try discriminate.
    destruct (step_valid _ _ _ _ _ V S) as (_ & V1). intros a N. rewrite (IH _ _ _ V1 H a N). eapply step_frame; eassumption.
Qed.

(** ** Building *)

Lemma add_new_ok h t i : valid_ptrs h t -> no_sharing t ->
  let '(h', t') := h_add_new h t i in
  valid_ptrs h' t' /\ no_sharing t' /\ view h' t' = tx_add_input (view h t) (Some i).
Proof.
  intros V D. cbn [h_add_new]. split; [|split].
  - intros n a E. cbn [h_add p_inputs] in E. rewrite app_length. cbn [length].
    destruct (Nat.lt_ge_cases n (length (p_inputs t))) as [L|L].
    + rewrite nth_error_app1 in E by assumption. apply V in E. lia.
    + rewrite nth_error_app2 in E by assumption. destruct (n - length (p_inputs t))%nat as [|j]; cbn in E; [injection E as <-; lia|destruct j; discriminate].
  - intros m n a Em En. cbn [h_add p_inputs] in Em, En.
    assert (forall k, nth_error (p_inputs t ++ [Some (length h)]) k = Some (Some a) ->
       (nth_error (p_inputs t) k = Some (Some a) /\ (a < length h)%nat) \/ (k = length (p_inputs t) /\ a = length h)) as X.
    { intros k E. destruct (Nat.lt_ge_cases k (length (p_inputs t))) as [L|L].
      - rewrite nth_error_app1 in E by assumption. left. split; [assumption|]. eapply V, E.
      - rewrite nth_error_app2 in E by assumption. right. destruct (k - length (p_inputs t))%nat as [|j] eqn:Q; cbn in E; [injection E as <-; split; lia|destruct j; discriminate]. }
    destruct (X _ Em) as [[A A']|[A A']], (X _ En) as [[B B']|[B B']]; try lia. eapply D; eassumption.
  - unfold view, tx_add_input. cbn [h_add p_version p_inputs p_outputs p_locktime version inputs outputs locktime]. f_equal.
    rewrite map_app. cbn [map load]. rewrite nth_error_app2, Nat.sub_diag by lia. cbn [nth_error]. f_equal.
    apply map_ext_in. intros p I. apply In_nth_error in I as (n & E). destruct p as [a|]; [|reflexivity]. cbn [load].
    apply nth_error_app1. eapply V, E.
Qed.
