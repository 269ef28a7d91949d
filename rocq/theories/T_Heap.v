(** Property theorems C62: transactions whose inputs are shared objects. *)
From Verif Require Import P_Heap.
From Coq Require Import ZifyBool ZifyNat ZifyN.

(** without sharing, pointers do not matter: the operations act as on values *)
Theorem C62_apply_value_semantics : forall h t n s, valid_ptrs h t -> no_sharing t ->
  (h' <- h_apply h t n s ;; Ok (view h' t)) = apply_unlocking_script (view h t) n s.
Proof. exact apply_refines. Qed.
Print Assumptions C62_apply_value_semantics.

Theorem C62_sign_value_semantics : forall s n h t, valid_ptrs h t -> no_sharing t ->
  (h' <- h_sign s n h t ;; Ok (view h' t)) = internal_sign s n (view h t).
Proof. exact sign_refines. Qed.
Print Assumptions C62_sign_value_semantics.

Theorem C62_auto_value_semantics : forall s h t, valid_ptrs h t -> no_sharing t ->
  (h' <- h_sign_auto s h t ;; Ok (view h' t)) = internal_sign_auto s (view h t).
Proof. exact auto_refines. Qed.
Print Assumptions C62_auto_value_semantics.

(** transactions built by adding new inputs (as From and NewFromBytes do) do not share *)
Theorem C62_new_inputs_do_not_share : forall is h t, valid_ptrs h t -> no_sharing t ->
  forall h' t', fold_left (fun ht i => h_add_new (fst ht) (snd ht) i) is (h, t) = (h', t') ->
  valid_ptrs h' t' /\ no_sharing t' /\
  view h' t' = fold_left (fun x i => tx_add_input x (Some i)) is (view h t).
Proof.
  induction is as [|i is IH]; intros h t V D h' t' E; cbn [fold_left] in *.
  - injection E as <- <-. auto.
  - pose proof (add_new_ok h t i V D) as X. cbn [fst snd] in E. destruct (h_add_new h t i) as [h1 t1]. destruct X as (V1 & D1 & E1).
    rewrite <- E1. eapply IH; eassumption.
Qed.
Print Assumptions C62_new_inputs_do_not_share.

(** Setting an unlocking script shows at every position, of this and of every other
    transaction, that holds the same Input - and nowhere else. *)
Theorem C62_write_shows_everywhere : forall h t n s h', valid_ptrs h t -> h_apply h t n s = Ok h' ->
  exists a i, nth_error (p_inputs t) (N.to_nat n) = Some (Some a) /\ nth_error h a = Some i /\
  forall t2 m, nth_error (inputs (view h' t2)) m =
    match nth_error (p_inputs t2) m with
    | Some (Some b) => if Nat.eqb a b then Some (Some (set_unlocking i s)) else nth_error (inputs (view h t2)) m
    | _ => nth_error (inputs (view h t2)) m
    end.
Proof.
  intros h t n s h' V H. destruct (h_apply_ok _ _ _ _ _ V H) as (a & i & E & Ea & ->). exists a, i.
  split; [assumption|]. split; [assumption|]. intros t2 m. apply write_effect. eapply V, E.
Qed.
Print Assumptions C62_write_shows_everywhere.

(** signing touches only objects of the signed transaction *)
Theorem C62_sign_frame : forall s n h t h', valid_ptrs h t -> h_sign s n h t = Ok h' -> frame t h h'.
Proof. exact sign_frame. Qed.
Print Assumptions C62_sign_frame.

Theorem C62_auto_frame : forall s h t h', valid_ptrs h t -> h_sign_auto s h t = Ok h' -> frame t h h'.
Proof. intros s h t h' V H. unfold h_sign_auto in H. eapply loop_frame; eassumption. Qed.
Print Assumptions C62_auto_frame.

(** with sharing, the value semantics is wrong: signing input 0 of one transaction
    with SINGLE changes input 1 of the same transaction, and another transaction,
    although the signature is not valid for them *)
Definition ex62_pub : bytes := x02 :: repeat x11 32.
Definition ex62_key : priv_key := mk_key ex62_pub (fun d => Ok (x30 :: firstn 8 d)).
Definition ex62_in : input := mk_in (hex_encode (repeat x33 32)) 1 500 (Some (p2pkh (hash160 ex62_pub))) None 0.
Definition ex62_h : heap := [ex62_in].
Definition ex62_t : ptx := mk_ptx 1 [Some 0%nat; Some 0%nat] [Some (mk_out 1 (Some [])); Some (mk_out 2 (Some []))] 0.
Definition ex62_t2 : ptx := mk_ptx 2 [Some 0%nat] [] 9.

Theorem C62_independent_inputs_refuted : exists h', h_sign (mk_signer ex62_key 0x43) 0 ex62_h ex62_t = Ok h' /\
  valid_ptrs ex62_h ex62_t /\ valid_ptrs ex62_h ex62_t2 /\
  (match nth_error (inputs (view ex62_h ex62_t)) 1 with Some (Some i) => unlocking i = None | _ => False end) /\
  (match nth_error (inputs (view h' ex62_t)) 1 with Some (Some i) => unlocking i <> None | _ => False end) /\
  (match nth_error (inputs (view h' ex62_t2)) 0 with Some (Some i) => unlocking i <> None | _ => False end) /\
  get_input_signature_hash (view h' ex62_t) 0 0x43 <> get_input_signature_hash (view h' ex62_t) 1 0x43 /\
  tx_to_bytes (view h' ex62_t2) <> tx_to_bytes (view ex62_h ex62_t2).
Proof.
  assert (forall x y : res bytes, match x, y with Ok a, Ok b => bytes_eqb a b = false | _, _ => False end -> x <> y) as NE.
  { intros [a|e|] [b|e'|] H E; try contradiction. assert (a = b) as -> by congruence.
    assert (bytes_eqb b b = true) by now apply bytes_eqb_eq. congruence. }
  eexists. split; [vm_compute; reflexivity|]. split; [|split].
  - intros [|[|[|n]]] a E; cbn in E; try discriminate; injection E as <-; cbn; lia.
  - intros [|[|n]] a E; cbn in E; try discriminate; injection E as <-; cbn; lia.
  - split; [reflexivity|]. split; [cbn; discriminate|]. split; [cbn; discriminate|]. split; apply NE; vm_compute; reflexivity.
Qed.
Print Assumptions C62_independent_inputs_refuted.

Example C62_example :
  let t := mk_ptx 1 [Some 1%nat; None; Some 0%nat] [] 0 in let h := [ex62_in; ex62_in] in
  valid_ptrs h t /\ no_sharing t /\
  match h_sign (mk_signer ex62_key 0) 0 h (mk_ptx 1 [Some 1%nat; Some 0%nat] [] 0) with Ok h' => nth_error h' 0 = Some ex62_in | _ => False end.
Proof.
  cbv zeta. split; [|split].
  - intros [|[|[|[|n]]]] a E; cbn in E; try discriminate; injection E as <-; cbn; lia.
  - intros [|[|[|m]]] [|[|[|n]]] a E E'; cbn in E, E'; try reflexivity; try discriminate; try (destruct m; discriminate); try (destruct n; discriminate); congruence.
  - vm_compute. reflexivity.
Qed.
