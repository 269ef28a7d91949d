(** C36: SIGHASH_SINGLE beyond the sizes of C36_digest_iff. *)
From Verif Require Import P_Utils P_TxSer P_Sighash.
From Coq Require Import Lia ZifyBool ZifyNat ZifyN.

Lemma prevout_buf_not_err l : forall b e, prevout_buf b l <> Err e.
Proof. induction l as [|[i|] l IH]; intros b e; cbn [prevout_buf deref or_panic bind]; [discriminate|apply IH|discriminate]. Qed.

(** An output of number 2^31 or more cannot be signed with SIGHASH_SINGLE: the number is converted to an int32. *)
Theorem C36_single_far : forall t n f i s, is_single f = true -> 2 ^ 31 <= n < 2 ^ 32 -> n < nlen (outputs t) mod 2 ^ 32 ->
  nth_error (inputs t) (N.to_nat n) = Some (Some i) -> prev_txid i <> [] -> prev_script i = Some s ->
  get_input_signature_hash t n f = Panic.
Proof.
  intros t n f i s S Bn L I T P. unfold get_input_signature_hash, sighash_preimage. rewrite I. cbn [or_panic bind deref].
  replace (equals (prev_txid i) []) with false; [|destruct (prev_txid i) eqn:Q; [contradiction|reflexivity]]. rewrite P. rewrite single_test, none_test, S.
  cbn [negb andb]. rewrite andb_false_r. cbn [andb].
  destruct (if N.land f shAnyOneCanPay =? 0 then prevout_hash t else Ok zeros32) as [hp|e|] eqn:H; [|exfalso|reflexivity].
  2:{ destruct (N.land f shAnyOneCanPay =? 0); [|discriminate H]. unfold prevout_hash in H. destruct (prevout_buf [] (inputs t)) as [x|e'|] eqn:Q; cbn [bind] in H; [discriminate H|exact (prevout_buf_not_err _ _ _ Q)|discriminate H]. }
  cbn [bind]. replace (n <? wrap32 (nlen (outputs t))) with true by (unfold wrap32; change 4294967296 with (2 ^ 32); lia).
  unfold outputs_hash, int32_of_u32. replace (n <? 2147483648) with false by lia.
  assert (nlen (outputs t) mod 2 ^ 32 < 2 ^ 32) as M by (apply N.mod_lt; discriminate).
  replace (Z.of_N n - 4294967296 =? -1)%Z with false by lia. replace (Z.of_N n - 4294967296 <? 0)%Z with true by lia. reflexivity.
Qed.
Print Assumptions C36_single_far.

(** The number of outputs is compared modulo 2^32: from there on the output of the same number is not signed. *)
Theorem C36_single_wrapped : forall t n f, is_single f = true -> nlen (outputs t) mod 2 ^ 32 <= n ->
  get_input_signature_hash t n f = get_input_signature_hash (mk_tx (version t) (inputs t) [] (locktime t)) n f.
Proof.
  intros t n f S L. unfold get_input_signature_hash, sighash_preimage, prevout_hash, sequence_hash. cbn [inputs outputs version locktime].
  rewrite single_test, none_test, S. cbn [negb andb].
  replace (n <? wrap32 (nlen (outputs t))) with false by (unfold wrap32; change 4294967296 with (2 ^ 32); lia).
  replace (n <? wrap32 (nlen (@nil (option output)))) with false; [reflexivity|]. change (wrap32 (nlen (@nil (option output)))) with 0. lia.
Qed.
Print Assumptions C36_single_wrapped.

(** ** the limit on the number of outputs in C36_digest_iff is needed *)
Definition far_in : input := mk_in (hex_encode (repeat x11 32)) 0 5 (Some [x51]) None 0.
Definition far_out : output := mk_out 5 (Some [x51]).
Definition far_tx (k : nat) : tx := mk_tx 1 (map Some (repeat far_in k)) (map Some (repeat far_out k)) 0.

Lemma far_preimage k n : (n < k)%nat -> exists p, preimage (far_tx k) n 0xc3 p.
Proof.
  intros L. eexists. exists (repeat far_in k), (repeat far_out k), far_in, [x51], (repeat x00 32), (repeat x00 32),
    (dsha (le_put 8 5 ++ [x01] ++ [x51])), (repeat x11 32 ++ le_put 4 0), [x01].
  split; [reflexivity|]. split; [reflexivity|]. split; [now apply nth_error_repeat|]. split; [reflexivity|].
  split; [reflexivity|]. split; [reflexivity|]. split.
  - unfold hash_outputs. change (is_none 195) with false. change (is_single 195) with true. cbv iota. rewrite nth_error_repeat by assumption.
    eexists. split; [|reflexivity]. exists (le_put 8 5), [x01], [x51]. split; [reflexivity|]. split; [reflexivity|]. split; [split; [|reflexivity]|split; reflexivity].
    exact (varint_compact 1 eq_refl).
  - split; [exists (repeat x11 32); split; [vm_compute; reflexivity|reflexivity]|]. split; [split; [exact (varint_compact 1 eq_refl)|reflexivity]|]. reflexivity.
Qed.

Theorem C36_any_size_refuted : exists t n f p, n < 2 ^ 32 /\ f < 256 /\
  Forall (fun oo => exists o, oo = Some o /\ wf_output o) (outputs t) /\ nlen (outputs t) < 2 ^ 32 /\
  preimage t (N.to_nat n) f p /\ get_input_signature_hash t n f = Panic.
Proof.
  assert (forall k, 2 ^ 31 < N.of_nat k < 2 ^ 32 -> exists p, 2 ^ 31 < 2 ^ 32 /\ 0xc3 < 256 /\
    Forall (fun oo => exists o, oo = Some o /\ wf_output o) (outputs (far_tx k)) /\ nlen (outputs (far_tx k)) < 2 ^ 32 /\
    preimage (far_tx k) (N.to_nat (2 ^ 31)) 0xc3 p /\ get_input_signature_hash (far_tx k) (2 ^ 31) 0xc3 = Panic) as G.
  { intros k K. destruct (far_preimage k (N.to_nat (2 ^ 31))) as (p & P); [lia|]. exists p. split; [reflexivity|]. split; [reflexivity|]. split; [|split; [|split; [exact P|]]].
    - apply Forall_forall. intros x I. cbn [far_tx outputs] in I. apply in_map_iff in I. destruct I as (o & <- & I). apply repeat_spec in I. subst o. exists far_out. split; [reflexivity|]. split; [reflexivity|]. exists [x51]. split; reflexivity.
    - cbn [far_tx outputs]. unfold nlen. rewrite map_length, repeat_length. apply K.
    - apply (C36_single_far _ _ _ far_in [x51]); [reflexivity|split; [apply N.le_refl|reflexivity]| | |discriminate|reflexivity].
      + cbn [far_tx outputs]. unfold nlen. rewrite map_length, repeat_length, N.mod_small by apply K. apply K.
      + cbn [far_tx inputs]. rewrite nth_error_map, nth_error_repeat by lia. reflexivity. }
  destruct (G (N.to_nat (2 ^ 31 + 1))) as (p & H); [rewrite N2Nat.id; split; reflexivity|]. exists (far_tx (N.to_nat (2 ^ 31 + 1))), (2 ^ 31), 0xc3, p. exact H.
Qed.
Print Assumptions C36_any_size_refuted.

(** C36_single_wrapped where it matters: the 2^32-th output exists *)
Example C36_wrapped_example : exists t, nlen (outputs t) mod 2 ^ 32 <= 0 /\ exists o, nth_error (outputs t) 0 = Some (Some o).
Proof.
  assert (forall k, N.of_nat k = 2 ^ 32 -> nlen (outputs (far_tx k)) mod 2 ^ 32 <= 0 /\ exists o, nth_error (outputs (far_tx k)) 0 = Some (Some o)) as G.
  { intros k K. cbn [far_tx outputs]. unfold nlen. rewrite map_length, repeat_length, K. split; [discriminate|]. exists far_out.
    rewrite nth_error_map, nth_error_repeat by lia. reflexivity. }
  exists (far_tx (N.to_nat (2 ^ 32))). apply G. apply N2Nat.id.
Qed.
