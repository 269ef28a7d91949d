(** C75: what lies behind the bytes. NewFromBytes is given a slice, whose spare capacity
    DecodeVarInt may read; NewFromString gives it one whose spare capacity holds
    characters of the text. *)
From Verif Require Import P_Capacity.
From Coq Require Import ZifyBool ZifyNat ZifyN.

(** A length or a transaction that NewFromBytes accepts or refuses with an error on a
    slice without spare capacity gets the same answer whatever lies behind it. *)
Theorem C75_same : forall v sp, (scap (Sl v sp) < 2 ^ 62)%Z -> tx_from_bytes v <> Panic ->
  tx_from_slice (Sl v sp) = tx_from_bytes v.
Proof.
  unfold tx_from_bytes. intros v sp Cap N. assert (Z.of_nat (length v) < 2 ^ 62)%Z as C0 by (unfold scap in Cap; cbn [vis spare] in Cap; lia).
  destruct (tx_from_slice (Sl v [])) as [t|e|] eqn:E; [| |congruence].
  - now apply tx_ok_sp.
  - apply tx_err_sp; [assumption|]. left. now apply tx_err.
Qed.

(** Exactly when an error is returned, and when there is a panic. *)
Theorem C75_error_iff : forall v sp e, (scap (Sl v sp) < 2 ^ 62)%Z ->
  (tx_from_slice (Sl v sp) = Err e <-> tx_fails v e \/ tx_runs_over sp v e).
Proof. exact tx_err_sp. Qed.

Theorem C75_panic_iff : forall v sp, (scap (Sl v sp) < 2 ^ 62)%Z ->
  (tx_from_slice (Sl v sp) = Panic <-> tx_panics v /\ forall e, ~ tx_runs_over sp v e).
Proof. exact tx_panic_sp. Qed.

Theorem C75_input_error_iff : forall v sp e, (scap (Sl v sp) < 2 ^ 62)%Z ->
  (input_from_bytes (Sl v sp) = Err e <-> input_fails v e \/ (e = EInputShort /\ runs_over 36 4 sp v)).
Proof. exact input_err_sp. Qed.

Theorem C75_output_error_iff : forall v sp e, (scap (Sl v sp) < 2 ^ 62)%Z ->
  (output_from_bytes (Sl v sp) = Err e <-> output_fails v e \/ (e = EOutputShort /\ runs_over 8 0 sp v)).
Proof. exact output_err_sp. Qed.

(** NewFromString, for every text: what it accepts, its errors, its panics. Bytes that
    end inside the length of a script are an error here, where NewFromBytes (without
    spare capacity) panics. *)
Theorem C75_text : forall slack s, (Z.of_nat (length s + slack) < 2 ^ 62)%Z ->
  (forall t, tx_from_string slack s = Ok t <-> exists v, hex_dec s = Some v /\ wire_tx compact v t /\ fresh_tx t) /\
  (forall e, tx_from_string slack s = Err e <->
     (exists x, e = EHex x /\ hex_fails s x) \/
     (exists v, hex_dec s = Some v /\ (tx_fails v e \/ tx_in_length v e))) /\
  (tx_from_string slack s = Panic <-> exists v, hex_dec s = Some v /\ tx_panics v /\ forall e, ~ tx_in_length v e).
Proof.
  intros slack s Cap. unfold tx_from_string, hex_decode_slice. pose proof (hex_fails_iff s) as HF.
  destruct (hex_decode s) as [b [x|]] eqn:E.
  - assert (hex_dec s = None) as N by (unfold hex_dec; now rewrite E).
    split; [|split].
    + intros t. split; [discriminate|]. intros (v & Q & _). congruence.
    + intros e. split.
      * intros Q. injection Q as <-. left. exists x. split; [reflexivity|]. apply HF. eauto.
      * intros [(y & -> & Q)|(v & Q & _)]; [|congruence]. apply HF in Q as (d & Q). injection Q as _ ->. reflexivity.
    + split; [discriminate|]. intros (v & Q & _). congruence.
  - assert (hex_dec s = Some b) as D by (unfold hex_dec; now rewrite E). pose proof (hex_dec_length s b D) as L.
    set (sp := skipn (length b) s ++ repeat x00 slack).
    assert (scap (Sl b sp) < 2 ^ 62)%Z as C0.
    { unfold scap, sp. cbn [vis spare]. rewrite app_length, skipn_length, repeat_length. unfold bytes in *. lia. }
    assert (forall x, ~ hex_fails s x) as NF by (intros x Q; apply HF in Q as (d & Q); discriminate).
    assert (forall e, tx_runs_over sp b e <-> tx_in_length b e) as RO by (intros e; apply text_over; assumption).
    split; [|split].
    + intros t. rewrite (tx_from_ok b sp t C0). split; [intros Q; exists b; auto|]. intros (v & Q & R). congruence.
    + intros e. rewrite (tx_err_sp b sp e C0), RO. split.
      * intros Q. right. exists b. auto.
      * intros [(x & _ & Q)|(v & Q & R)]; [now apply NF in Q|]. congruence.
    + rewrite (tx_panic_sp b sp C0). split.
      * intros [P N]. exists b. split; [assumption|]. split; [assumption|]. intros e Q. now apply (N e), RO.
      * intros (v & Q & P & N). assert (v = b) as -> by congruence. split; [assumption|]. intros e R. now apply (N e), RO.
Qed.

(** One input announced; its outpoint; then a three-byte length of which two bytes are
    there. NewFromBytes panics, NewFromString answers with an error; what lies behind the
    slice decides for NewFromBytes. The last: a nine-byte length, completed to 2^64-1. *)
Example C75_ex :
  let head := [x01;x00;x00;x00; x01] ++ repeat x07 36 in
  let v := head ++ [xfd; x05] in
  let w := head ++ [xff; xff; xff] in
  tx_in_length v EInputShort /\ tx_runs_over [x00] v EInputShort /\
  tx_from_bytes v = Panic /\ tx_from_slice (Sl v [x00]) = Err EInputShort /\ tx_from_string 0 (hex_encode v) = Err EInputShort /\
  tx_from_slice (Sl w (repeat x00 6)) = Err EInputShort /\ tx_from_slice (Sl w (repeat xff 5 ++ [x7f])) = Panic /\
  tx_from_slice (Sl w (repeat xff 6)) = Err EInputShort /\
  tx_from_string 7 (hex_encode head) = Panic.
Proof.
  cbv zeta. split; [|split; [|split; [vm_compute; reflexivity|split; [vm_compute; reflexivity|split; [vm_compute; reflexivity|split; [vm_compute; reflexivity|split; [vm_compute; reflexivity|split; [vm_compute; reflexivity|vm_compute; reflexivity]]]]]]]].
  - apply (tc_input _ _ [x01;x00;x00;x00] 1 [x01] [] (repeat x07 36 ++ [xfd; x05])); [reflexivity|exact (compact_1 x01 ltac:(vm_compute; reflexivity))|constructor|vm_compute; reflexivity|].
    exists (repeat x07 36), [xfd; x05]. split; [reflexivity|]. split; [reflexivity|]. split; [discriminate|]. vm_compute. repeat constructor.
  - apply (tc_input _ _ [x01;x00;x00;x00] 1 [x01] [] (repeat x07 36 ++ [xfd; x05])); [reflexivity|exact (compact_1 x01 ltac:(vm_compute; reflexivity))|constructor|vm_compute; reflexivity|].
    exists (repeat x07 36), [xfd; x05], [x00], [], 5. split; [reflexivity|]. split; [reflexivity|]. split; [discriminate|]. split; [reflexivity|].
    split; [discriminate|]. split; [exact (compact_3 [x05; x00] eq_refl)|]. left. vm_compute. reflexivity.
Qed.

Print Assumptions C75_same.
Print Assumptions C75_error_iff.
Print Assumptions C75_panic_iff.
Print Assumptions C75_input_error_iff.
Print Assumptions C75_output_error_iff.
Print Assumptions C75_text.
