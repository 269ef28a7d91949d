(** C72: parsing work is bounded by the input. *)
From Verif Require Import P_Cost.
From Coq Require Import ZifyBool ZifyNat ZifyN.

(** The counting model is the model of C25-C30 (NewFromBytes) and of C10-C11
    (DecodeParts, whatever the allowance of iterations beyond [length b]). *)
Theorem C72_same_result : forall b, fst (tx_from_slice_counted b) = tx_from_slice b.
Proof. exact counted_same. Qed.

Theorem C72_parts_same_result : forall b fuel, (length b <= fuel)%nat ->
  fst (decode_counted fuel [] b) = decode_parts_full b.
Proof. intros b fuel H. apply (decode_counted_eq fuel [] b H). Qed.

(** Whatever the counts in the bytes claim and whatever the outcome, the loops
    over inputs and outputs together run at most (length + 3) / 9 times. *)
Theorem C72_work : forall v sp, (scap (Sl v sp) < 2 ^ 62)%Z ->
  (9 * snd (tx_from_slice_counted (Sl v sp)) <= length v + 3)%nat.
Proof. exact tx_work. Qed.

(** A script of n bytes takes at most n iterations; the parts returned, also
    beside an error, are at most n and have together at most n bytes. *)
Theorem C72_parts_work : forall b fuel, (length b <= fuel)%nat -> (snd (decode_counted fuel [] b) <= length b)%nat.
Proof. intros b fuel H. apply (decode_counted_eq fuel [] b H). Qed.

Theorem C72_parts_sizes : forall b ps e, decode_parts_full b = Ok (ps, e) ->
  (length ps <= length b /\ length (concat ps) <= length b)%nat.
Proof. intros b ps e H. apply decode_loop_sizes in H. cbn [length concat] in H. lia. Qed.

(** bytes of all scripts of a transaction *)
Definition script_total (t : tx) : nat :=
  (list_sum (map (fun oi => match oi with Some i => length (script_bytes (unlocking i)) | None => 0 end) (inputs t)) +
   list_sum (map (fun oo => match oo with Some o => length (script_bytes (locking o)) | None => 0 end) (outputs t)))%nat.

Theorem C72_sizes : forall v sp t, (scap (Sl v sp) < 2 ^ 62)%Z -> tx_from_slice (Sl v sp) = Ok t ->
  (10 + 41 * length (inputs t) + 9 * length (outputs t) + script_total t <= length v)%nat.
Proof.
  intros v sp t Cap H. apply tx_from_ok in H as [W _]; [|assumption]. apply tx_size in W.
  unfold script_total, in_script_len, out_script_len in *. lia.
Qed.

(** The bound is attained: 42 bytes claiming 200 outputs, five iterations. A
    13-byte message claiming 2^64-1 inputs takes at most one. *)
Example C72_example :
  snd (tx_from_slice_counted (Sl (map n2b [1;0;0;0; 0; 200]%N ++ repeat x00 36) [])) = 5%nat /\
  (snd (tx_from_slice_counted (Sl (map n2b [1;0;0;0]%N ++ repeat xff 9) [])) <= 1)%nat /\
  snd (decode_counted 3 [] [x76; x01; xaa]) = 2%nat /\
  exists t, tx_from_slice (Sl (map n2b [1;0;0;0; 0; 1; 5;0;0;0;0;0;0;0; 2; 0x76; 0xa9; 0;0;0;0]%N) []) = Ok t /\
    (10 + 41 * length (inputs t) + 9 * length (outputs t) + script_total t = 21)%nat.
Proof.
  split; [vm_compute; reflexivity|]. split.
  { pose proof (C72_work (map n2b [1;0;0;0]%N ++ repeat xff 9) [] ltac:(cbn; lia)) as H. rewrite app_length, map_length, repeat_length in H. cbn [length] in H. lia. }
  split; [vm_compute; reflexivity|]. eexists. split; [vm_compute; reflexivity|]. vm_compute. reflexivity.
Qed.

Print Assumptions C72_same_result.
Print Assumptions C72_parts_same_result.
Print Assumptions C72_work.
Print Assumptions C72_parts_work.
Print Assumptions C72_parts_sizes.
Print Assumptions C72_sizes.
