(** Property theorems C25-C35, C54: transactions, inputs, outputs, builders.
    The hypothesis [scap _ < 2^62] says that the slice's capacity is one a Go
    program can have (an allocation of at most 2^62 bytes). *)
From Verif Require Import P_TxMisc.
From Coq Require Import ZifyBool ZifyNat ZifyN.

(** ** C25: inputs *)

Theorem C25_round_trip : forall i rest sp, wf_input i ->
  (scap (Sl (input_to_bytes i false ++ rest) sp) < 2 ^ 62)%Z ->
  input_from_bytes (Sl (input_to_bytes i false ++ rest) sp)
  = Ok (bare_input i, Z.of_nat (length (input_to_bytes i false))).
Proof.
  intros i rest sp W C. apply input_from_ok; [assumption|].
  exists (input_to_bytes i false), rest. split; [reflexivity|]. split; [|reflexivity].
  split.
  - apply wire_bare_input, wire_input_weaken, wf_input_wire, W.
  - destruct W as ((id & _ & E) & _). unfold fresh_input, bare_input. cbn. repeat split; [eauto|discriminate].
Qed.
Print Assumptions C25_round_trip.

Theorem C25_accepts_iff : forall v sp i n, (scap (Sl v sp) < 2 ^ 62)%Z ->
  (input_from_bytes (Sl v sp) = Ok (i, n) <->
   exists w r, v = w ++ r /\ wire_input compact w i /\ fresh_input i /\ n = Z.of_nat (length w)).
Proof.
  intros v sp i n C. rewrite input_from_ok by assumption. split; intros (w & r & E & H).
  - destruct H as [[H F] ->]. eauto 10.
  - destruct H as (H & F & ->). exists w, r. split; [assumption|]. split; [split; assumption|reflexivity].
Qed.
Print Assumptions C25_accepts_iff.

Theorem C25_panics_iff : forall v, (Z.of_nat (length v) < 2 ^ 62)%Z ->
  (input_from_bytes (Sl v []) = Panic <-> input_panics v).
Proof. exact input_from_panic. Qed.
Print Assumptions C25_panics_iff.

Definition ex_id : bytes := map n2b [1;2;3;4;5;6;7;8;9;10;11;12;13;14;15;16;17;18;19;20;21;22;23;24;25;26;27;28;29;30;31;32].
Definition ex_in : input := mk_in (hex_encode ex_id) 7 5000 (Some [x76]) (Some [x01; x02; x03]) 4294967294.
Definition ex_in_nil : input := mk_in (hex_encode (rev ex_id)) 0 0 None None 5.

Lemma ex_in_wf : wf_input ex_in /\ wf_input ex_in_nil.
Proof.
  split; (split; [eexists; split; [|reflexivity]; reflexivity|vm_compute; auto]).
Qed.

Example C25_example :
  input_from_bytes (Sl (input_to_bytes ex_in false ++ [xff]) [x00]) = Ok (bare_input ex_in, 44%Z) /\
  input_from_bytes (Sl (input_to_bytes ex_in_nil false) []) = Ok (bare_input ex_in_nil, 41%Z) /\
  input_from_bytes (Sl (firstn 43 (input_to_bytes ex_in false)) []) = Err EInputShort /\
  input_from_bytes (Sl (firstn 36 (input_to_bytes ex_in false)) []) = Panic.
Proof. vm_compute. auto. Qed.

(** ** C26: outputs *)

Theorem C26_round_trip : forall o rest sp, wf_output o -> exists w, output_to_bytes o = Ok w /\
  ((scap (Sl (w ++ rest) sp) < 2 ^ 62)%Z ->
   output_from_bytes (Sl (w ++ rest) sp) = Ok (o, Z.of_nat (length w))).
Proof.
  intros o rest sp W. destruct (wf_output_wire o W) as (w & E & H). exists w. split; [assumption|]. intros C.
  apply output_from_ok; [assumption|]. exists w, rest. split; [reflexivity|]. split; [|reflexivity]. now apply wire_output_weaken.
Qed.
Print Assumptions C26_round_trip.

Theorem C26_accepts_iff : forall v sp o n, (scap (Sl v sp) < 2 ^ 62)%Z ->
  (output_from_bytes (Sl v sp) = Ok (o, n) <->
   exists w r, v = w ++ r /\ wire_output compact w o /\ n = Z.of_nat (length w)).
Proof. exact output_from_ok. Qed.
Print Assumptions C26_accepts_iff.

Theorem C26_panics_iff : forall v, (Z.of_nat (length v) < 2 ^ 62)%Z ->
  (output_from_bytes (Sl v []) = Panic <-> output_panics v).
Proof. exact output_from_panic. Qed.
Print Assumptions C26_panics_iff.

Theorem C26_sighash_bytes : forall o, output_sighash_bytes o = output_to_bytes o.
Proof. exact sighash_bytes_eq. Qed.
Print Assumptions C26_sighash_bytes.

Definition ex_out : output := mk_out 5000000000 (Some [x76; xa9; x00; x88; xac]).
Definition ex_out0 : output := mk_out 18446744073709551615 (Some []).
Lemma ex_out_wf : wf_output ex_out /\ wf_output ex_out0.
Proof. split; (split; [reflexivity|eexists; split; [reflexivity|reflexivity]]). Qed.

Example C26_example : exists w, output_to_bytes ex_out = Ok w /\
  output_from_bytes (Sl (w ++ [xaa]) []) = Ok (ex_out, 14%Z) /\
  output_from_bytes (Sl (firstn 13 w) []) = Err EOutputShort /\
  output_from_bytes (Sl (firstn 8 w) []) = Panic.
Proof. eexists. split; [vm_compute; reflexivity|]. vm_compute. auto. Qed.

(** ** C27: parse after serialise *)

Theorem C27_round_trip : forall t, wf_tx t -> exists b, tx_to_bytes t = Ok b /\
  forall sp, (scap (Sl b sp) < 2 ^ 62)%Z -> tx_from_slice (Sl b sp) = Ok (bare_tx t).
Proof.
  intros t W. destruct (wf_wire t W) as (w & H). exists w. split; [now apply wire_tx_bytes|].
  intros sp C. apply tx_round; try assumption. now apply wire_tx_bytes.
Qed.
Print Assumptions C27_round_trip.

Theorem C27_round_trip_hex : forall t, wf_tx t -> exists s, tx_to_string t = Ok s /\
  forall slack, (Z.of_nat (length s + slack) < 2 ^ 62)%Z -> tx_from_string slack s = Ok (bare_tx t).
Proof.
  intros t W. destruct (wf_wire t W) as (w & H). exists (hex_encode w).
  pose proof (wire_tx_bytes _ _ H) as E. unfold tx_to_string. rewrite E. split; [reflexivity|].
  intros slack C. unfold tx_from_string, hex_decode_slice. rewrite hex_decode_encode.
  apply tx_round; try assumption. unfold scap. cbn [vis spare].
  rewrite app_length, skipn_length, repeat_length, hex_encode_length in *. lia.
Qed.
Print Assumptions C27_round_trip_hex.

(** parsing what was parsed and serialised again changes nothing *)
Theorem C27_idempotent : forall v sp t, (scap (Sl v sp) < 2 ^ 62)%Z -> tx_from_slice (Sl v sp) = Ok t ->
  bare_tx t = t /\ exists b, tx_to_bytes t = Ok b /\
    forall sp', (scap (Sl b sp') < 2 ^ 62)%Z -> tx_from_slice (Sl b sp') = Ok t.
Proof.
  intros v sp t C E. apply tx_from_ok in E as [H F]; [|assumption]. split.
  - destruct t as [ver is os lt]. unfold bare_tx, fresh_tx in *. cbn [version inputs outputs locktime] in *. f_equal.
    clear -F. induction F as [|oi ois (i & -> & Q) _ IH]; [reflexivity|]. cbn [map option_map]. rewrite IH. do 2 f_equal.
    destruct i as [a b c d e f]. destruct Q as (_ & Q1 & Q2 & Q3). cbn in *. subst.
    destruct e as [e|]; [reflexivity|congruence].
  - destruct (wire_tx_min _ _ H) as (b & M). exists b. split; [now apply wire_tx_bytes|].
    intros sp' C'. apply tx_from_ok; [assumption|]. split; [now apply wire_tx_weaken|assumption].
Qed.
Print Assumptions C27_idempotent.

Definition ex_tx : tx := mk_tx 2 [Some ex_in; Some ex_in_nil] [Some ex_out; Some ex_out0] 500000.
Lemma ex_tx_wf : wf_tx ex_tx.
Proof.
  destruct ex_in_wf, ex_out_wf.
  repeat split; try reflexivity; repeat constructor; eexists; (split; [reflexivity|assumption]).
Qed.

Example C27_example : exists b, tx_to_bytes ex_tx = Ok b /\ length b = 118%nat /\
  tx_from_bytes b = Ok (bare_tx ex_tx).
Proof. eexists. split; [vm_compute; reflexivity|]. vm_compute. auto. Qed.

(** ** C28: serialise after parse *)

Theorem C28_accepts_iff : forall v sp t, (scap (Sl v sp) < 2 ^ 62)%Z ->
  (tx_from_slice (Sl v sp) = Ok t <-> wire_tx compact v t /\ fresh_tx t).
Proof. exact tx_from_ok. Qed.
Print Assumptions C28_accepts_iff.

Theorem C28_canonical : forall v sp t, (scap (Sl v sp) < 2 ^ 62)%Z -> tx_from_slice (Sl v sp) = Ok t ->
  exists b, tx_to_bytes t = Ok b /\ wire_tx compact_min b t /\ (b = v <-> wire_tx compact_min v t).
Proof.
  intros v sp t C E. apply tx_from_ok in E as [H F]; [|assumption]. destruct (wire_tx_min _ _ H) as (b & M).
  exists b. pose proof (wire_tx_bytes _ _ M) as B. split; [assumption|]. split; [assumption|]. split; [now intros <-|].
  intros M'. apply wire_tx_bytes in M'. congruence.
Qed.
Print Assumptions C28_canonical.

(** the natural claim "an accepted transaction serialises to the bytes received"
    is false: a count or length may be written in a longer form *)
Theorem C28_identity_refuted : exists v t b, tx_from_bytes v = Ok t /\ tx_to_bytes t = Ok b /\
  bytes_eqb b v = false /\
  tx_id t = Ok (hex_encode (rev (sha256d b))) /\
  bytes_eqb (sha256d b) (sha256d v) = false.
Proof.
  exists (map n2b [1;0;0;0; 253;0;0; 0; 0;0;0;0]). eexists _, _.
  split; [vm_compute; reflexivity|]. split; [vm_compute; reflexivity|].
  split; [vm_compute; reflexivity|]. split; vm_compute; reflexivity.
Qed.
Print Assumptions C28_identity_refuted.

Example C28_example : exists b t, tx_to_bytes ex_tx = Ok b /\ tx_from_bytes b = Ok t /\ tx_to_bytes t = Ok b.
Proof. eexists _, _. split; [vm_compute; reflexivity|]. split; [vm_compute; reflexivity|]. vm_compute. auto. Qed.

(** ** C29: self-delimiting *)

Theorem C29_no_extension : forall v sp t x sp', (scap (Sl v sp) < 2 ^ 62)%Z -> (scap (Sl (v ++ x) sp') < 2 ^ 62)%Z ->
  tx_from_slice (Sl v sp) = Ok t -> x <> [] -> tx_from_slice (Sl (v ++ x) sp') = Err ELockTime.
Proof. intros v sp t x sp' C C' E X. apply tx_from_ok in E as [H _]; [|assumption]. eapply tx_extra; eassumption. Qed.
Print Assumptions C29_no_extension.

Theorem C29_no_prefix : forall p x sp sp' t t', (scap (Sl (p ++ x) sp) < 2 ^ 62)%Z -> (scap (Sl p sp') < 2 ^ 62)%Z ->
  tx_from_slice (Sl (p ++ x) sp) = Ok t -> tx_from_slice (Sl p sp') = Ok t' -> x = [].
Proof.
  intros p x sp sp' t t' C C' E E'. destruct x as [|y x]; [reflexivity|]. exfalso.
  rewrite (C29_no_extension p sp' t' (y :: x) sp C' C E') in E; [discriminate|discriminate].
Qed.
Print Assumptions C29_no_prefix.

Example C29_example : exists b, tx_to_bytes ex_tx = Ok b /\ tx_from_bytes b = Ok (bare_tx ex_tx) /\
  tx_from_bytes (b ++ [x00]) = Err ELockTime /\ tx_from_bytes (firstn 117 b) = Err ELockTime /\
  tx_from_bytes (firstn 99 b) = Panic.
Proof. eexists. split; [vm_compute; reflexivity|]. vm_compute. auto. Qed.

(** ** C30: hostile input *)

(** what is accepted, and the result, do not depend on bytes beyond the length *)
Theorem C30_capacity_independent : forall v sp sp' t, (scap (Sl v sp) < 2 ^ 62)%Z -> (scap (Sl v sp') < 2 ^ 62)%Z ->
  tx_from_slice (Sl v sp) = Ok t -> tx_from_slice (Sl v sp') = Ok t.
Proof. intros v sp sp' t C C' E. apply tx_from_ok in E; [|assumption]. now apply tx_from_ok. Qed.
Print Assumptions C30_capacity_independent.

(** the size of the result is bounded by the size of the input *)
Theorem C30_size_bound : forall v sp t, (scap (Sl v sp) < 2 ^ 62)%Z -> tx_from_slice (Sl v sp) = Ok t ->
  (10 + 41 * length (inputs t) + 9 * length (outputs t) <= length v)%nat.
Proof.
  intros v sp t C E. apply tx_from_ok in E as [H _]; [|assumption].
  destruct H as (ver & nin & wi & nout & wo & lt & -> & Lv & Ll & _ & _ & Ci & Co & FI & FO).
  assert (41 * length (inputs t) <= length (concat wi))%nat as HI.
  { clear -FI. induction FI as [|w oi ws ois (i & _ & H) _ IH]; [cbn; lia|]. cbn [length concat]. rewrite app_length.
    destruct H as (id & ix & l & sq & -> & A & B & D & L & _). rewrite !app_length.
    pose proof (compact_len _ _ L). lia. }
  assert (9 * length (outputs t) <= length (concat wo))%nat as HO.
  { clear -FO. induction FO as [|w oi ws ois (i & _ & H) _ IH]; [cbn; lia|]. cbn [length concat]. rewrite app_length.
    destruct H as (a & l & s & -> & A & L & _). rewrite !app_length.
    pose proof (compact_len _ _ L). lia. }
  pose proof (compact_len _ _ Ci). pose proof (compact_len _ _ Co). rewrite !app_length. lia.
Qed.
Print Assumptions C30_size_bound.

(** on a slice without spare capacity: exactly when it panics *)
Theorem C30_panics_iff : forall v, (Z.of_nat (length v) < 2 ^ 62)%Z ->
  (tx_from_bytes v = Panic <-> tx_panics v).
Proof. exact tx_from_panic. Qed.
Print Assumptions C30_panics_iff.

(** the natural claim "malformed bytes give an error" is false: ten bytes that
    announce one input in a 3-byte count, or stop before the output count *)
Theorem C30_never_panics_refuted : exists v, length v = 10%nat /\ tx_from_bytes v = Panic.
Proof. exists (map n2b [1;0;0;0; 255; 1;0;0;0;0]). vm_compute. auto. Qed.
Print Assumptions C30_never_panics_refuted.

(** and a script length of 2^63 or more *)
Theorem C30_script_length_refuted : exists v, tx_from_bytes v = Panic /\
  v = map n2b [1;0;0;0; 0; 1; 0;0;0;0;0;0;0;0; 255;255;255;255;255;255;255;255;127].
Proof. eexists. split; [|reflexivity]. vm_compute. reflexivity. Qed.
Print Assumptions C30_script_length_refuted.

(** whether malformed bytes panic or give an error does depend on spare capacity *)
Theorem C30_failure_capacity_refuted : exists v sp e, tx_from_slice (Sl v []) = Panic /\ tx_from_slice (Sl v sp) = Err e.
Proof. exists (map n2b [1;0;0;0; 1] ++ repeat x00 36 ++ [xfd]), (repeat x00 40). eexists. split; vm_compute; reflexivity. Qed.
Print Assumptions C30_failure_capacity_refuted.

Example C30_example : tx_panics (map n2b [1;0;0;0; 255; 1;0;0;0;0]).
Proof. apply (panic_count (map n2b [1;0;0;0])); vm_compute; repeat constructor. Qed.

(** ** C31: transaction ids *)

Theorem C31_definition : forall t b, tx_to_bytes t = Ok b ->
  tx_id t = Ok (hex_encode (rev (sha256 (sha256 b)))).
Proof. intros t b E. rewrite (tx_id_eq _ _ E). now rewrite sha256d_eq. Qed.
Print Assumptions C31_definition.

Theorem C31_commits : forall t1 t2 b1 b2, wf_tx t1 -> wf_tx t2 ->
  tx_to_bytes t1 = Ok b1 -> tx_to_bytes t2 = Ok b2 -> (Z.of_nat (length b1) < 2 ^ 62)%Z ->
  tx_id t1 = tx_id t2 ->
  bare_tx t1 = bare_tx t2 \/ collision sha256 b1 b2 \/ collision sha256 (sha256 b1) (sha256 b2).
Proof. exact tx_id_commits. Qed.
Print Assumptions C31_commits.

(** spent-output data and nil versus empty script do not influence it *)
Theorem C31_metadata_free : forall t1 t2, bare_tx t1 = bare_tx t2 -> tx_id t1 = tx_id t2.
Proof.
  intros t1 t2 E. unfold tx_id. rewrite <- (to_bytes_bare t1), <- (to_bytes_bare t2), E. reflexivity.
Qed.
Print Assumptions C31_metadata_free.

Example C31_example : exists b, tx_to_bytes ex_tx = Ok b /\
  match tx_id ex_tx with Ok s => length s = 64%nat | _ => False end /\
  match tx_id ex_tx, tx_id (mk_tx 3 (inputs ex_tx) (outputs ex_tx) 500000) with
  | Ok a, Ok b => bytes_eqb a b = false | _, _ => False end.
Proof. eexists. split; [vm_compute; reflexivity|]. vm_compute. auto. Qed.

(** ** C32: total *)

Theorem C32_total : forall t os, outputs t = map Some os ->
  total_output_satoshis t = Ok (fold_right (fun o n => satoshis o + n) 0 os mod 2 ^ 64).
Proof.
  intros t os E. unfold total_output_satoshis. rewrite E, total_loop_eq by reflexivity.
  assert (sum_sats os = fold_right (fun o n => satoshis o + n) 0 os) as ->; [|reflexivity]. clear E. induction os as [|o os IH]; cbn [sum_sats fold_right]; [reflexivity|]. now rewrite IH.
Qed.
Print Assumptions C32_total.

Theorem C32_exact_iff : forall t os, outputs t = map Some os ->
  let sum := fold_right (fun o n => satoshis o + n) 0 os in
  (total_output_satoshis t = Ok sum <-> sum < 2 ^ 64).
Proof.
  intros t os E sum. rewrite (C32_total _ _ E). fold sum. split.
  - intros H. assert (sum mod 2 ^ 64 = sum) as <- by congruence. apply N.mod_lt. discriminate.
  - intros H. now rewrite N.mod_small.
Qed.
Print Assumptions C32_exact_iff.

Theorem C32_order : forall t1 t2 os1 os2, outputs t1 = map Some os1 -> outputs t2 = map Some os2 ->
  Permutation os1 os2 -> total_output_satoshis t1 = total_output_satoshis t2.
Proof.
  intros t1 t2 os1 os2 E1 E2 P. unfold total_output_satoshis. rewrite E1, E2, !total_loop_eq by reflexivity.
  now rewrite (sum_perm _ _ P).
Qed.
Print Assumptions C32_order.

Theorem C32_panics_iff : forall t, total_output_satoshis t = Panic <-> In None (outputs t).
Proof. intros t. apply total_panic_iff. Qed.
Print Assumptions C32_panics_iff.

Example C32_example : total_output_satoshis ex_tx = Ok 4999999999.
Proof. vm_compute. reflexivity. Qed.

(** ** C33: coinbase test *)

Theorem C33_iff : forall t, is_coinbase t = Ok true <->
  exists i, inputs t = [Some i] /\ prev_txid i = repeat x30 64 /\
    (prev_index i = 2 ^ 32 - 1 \/ sequence i = 2 ^ 32 - 1).
Proof. exact is_coinbase_iff. Qed.
Print Assumptions C33_iff.

Theorem C33_total : forall t, (is_coinbase t = Panic <-> inputs t = [None]) /\ (forall e, is_coinbase t <> Err e).
Proof. intros t. split; [apply is_coinbase_panic|intros e; apply is_coinbase_not_err]. Qed.
Print Assumptions C33_total.

(** the protocol's rule: one input, whose outpoint is the null outpoint *)
Definition null_outpoint (t : tx) : Prop := exists i, inputs t = [Some i] /\
  hex_dec (prev_txid i) = Some (repeat x00 32) /\ prev_index i = 2 ^ 32 - 1.

Lemma hex_zero s : forall n, hex_dec s = Some (repeat x00 n) -> s = repeat x30 (2 * n).
Proof.
  induction s as [|c|c d r IH] using list_ind2; intros n.
  - destruct n; [reflexivity|discriminate].
  - intros H. apply hex_dec_length in H. cbn [length] in H. lia.
  - rewrite hex_decode_pair. destruct (hexval c) as [a|] eqn:A; [|discriminate].
    destruct (hexval d) as [b|] eqn:B; [|discriminate]. destruct (hex_dec r) as [t|] eqn:T; [|discriminate].
    destruct n as [|n]; [discriminate|]. cbn [repeat]. intros H. injection H as H1 H2. subst t.
    specialize (IH _ eq_refl). replace (2 * S n)%nat with (S (S (2 * n))) by lia. cbn [repeat]. rewrite <- IH.
    assert (forall x v, hexval x = Some v -> v = 0 -> x = x30) as Z0.
    { clear. intros x v. destruct x; cbn; intros E; congruence. }
    assert (b2n (n2b (16 * a + b)) = 0) as Q by (replace (16 * a + b) with (match a with 0 => 0 | N.pos q => N.pos q~0~0~0~0 end + b); [rewrite H1; reflexivity|destruct a; reflexivity]).
    assert (a < 16) by (clear -A; destruct c; cbn in A; congruence || (injection A as <-; reflexivity)).
    assert (b < 16) by (clear -B; destruct d; cbn in B; congruence || (injection B as <-; reflexivity)).
    rewrite b2n_n2b in Q by lia. f_equal; [|f_equal]; eapply Z0; eauto; lia.
Qed.

Theorem C33_null_outpoint_reported : forall t, null_outpoint t -> is_coinbase t = Ok true.
Proof.
  intros t (i & E & H & X). apply is_coinbase_iff. exists i. split; [assumption|]. split; [now apply (hex_zero _ 32)|auto].
Qed.
Print Assumptions C33_null_outpoint_reported.

Theorem C33_reports_only_null_outpoint_refuted : exists t, is_coinbase t = Ok true /\ ~ null_outpoint t.
Proof.
  exists (mk_tx 1 [Some (mk_in (repeat x30 64) 0 0 None (Some []) (2 ^ 32 - 1))] [] 0). split; [reflexivity|].
  intros (i & E & _ & X). cbn in E. injection E as <-. discriminate X.
Qed.
Print Assumptions C33_reports_only_null_outpoint_refuted.

Example C33_example : is_coinbase (mk_tx 1 [Some (mk_in (repeat x30 64) (2 ^ 32 - 1) 0 None (Some []) 5)] [] 0) = Ok true
  /\ is_coinbase ex_tx = Ok false.
Proof. vm_compute. auto. Qed.

(** ** C34: builder histories *)

Theorem C34_histories : forall calls asked, Forall2 asks calls asked ->
  tx_run tx_new calls = mk_tx 1 (concat (map asked_inputs asked)) (concat (map asked_outputs asked)) 0.
Proof. intros calls asked F. rewrite (tx_run_eq _ _ _ F). reflexivity. Qed.
Print Assumptions C34_histories.

Theorem C34_every_history : forall calls, exists asked, Forall2 asks calls asked.
Proof.
  induction calls as [|c calls (asked & IH)]; [exists []; constructor|].
  destruct (asks_total c) as (a & H). exists (a :: asked). now constructor.
Qed.
Print Assumptions C34_every_history.

(** a call fails exactly when it cannot be served, and then changes nothing *)
Theorem C34_failure_changes_nothing : forall t c a, asks c a ->
  (snd (tx_do t c) = None <-> a <> None) /\ (a = None -> fst (tx_do t c) = t).
Proof.
  intros t c a H. destruct (tx_do_eq t c a H) as [E Q]. split; [assumption|]. intros ->. rewrite E.
  unfold extended. cbn. rewrite !app_nil_r. apply tx_eta.
Qed.
Print Assumptions C34_failure_changes_nothing.

Theorem C34_counts : forall t calls asked, Forall2 asks calls asked ->
  input_count (tx_run t calls) = (input_count t + length (concat (map asked_inputs asked)))%nat /\
  output_count (tx_run t calls) = (output_count t + length (concat (map asked_outputs asked)))%nat.
Proof.
  intros t calls asked F. rewrite (tx_run_eq _ _ _ F). unfold input_count, output_count. cbn [inputs outputs].
  now rewrite !app_length.
Qed.
Print Assumptions C34_counts.

(** input.NewFromUTXO builds the same input as From, with any sequence number *)
Theorem C34_from_utxo_input : forall t txid vout script sats i, input_from_utxo txid vout sats script (2 ^ 32 - 1) = Ok i ->
  tx_from_utxo t txid vout script sats = (tx_add_input t (Some i), None).
Proof.
  intros t txid vout script sats i H. unfold input_from_utxo, tx_from_utxo in *.
  destruct (script_from_hex script) as [s|e|]; cbn [bind] in H; try discriminate. injection H as <-. reflexivity.
Qed.
Print Assumptions C34_from_utxo_input.

Definition ex_addr : bytes := addr_string (addr_from_pkh (hash160 (str "key")) true).
Definition ex_calls : list tx_call :=
  [CallFrom (hex_encode ex_id) 0 (str "76a9") 100; CallFrom (hex_encode ex_id) 1 (str "76a") 100;
   CallPayTo ex_addr 50; CallPayTo (str "nonsense") 50; CallAddInput (Some ex_in); CallAddOutput (Some ex_out)].

Example C34_example :
  map (fun c => match snd (tx_do tx_new c) with None => true | _ => false end) ex_calls = [true; false; true; false; true; true] /\
  tx_run tx_new ex_calls =
    mk_tx 1 [Some (mk_in (hex_encode ex_id) 0 100 (Some [x76; xa9]) None (2 ^ 32 - 1)); Some ex_in]
            [Some (mk_out 50 (Some (p2pkh (hash160 (str "key"))))); Some ex_out] 0.
Proof. vm_compute. auto. Qed.

(** ** C35: cleared inputs *)

Theorem C35_expected_iff : forall t index spk, wf_tx t ->
  (tx_to_bytes_cleared t index (Some spk) = tx_to_bytes (cleared t index spk) <->
   (index < 0 \/ Z.of_nat (length (inputs t)) <= index)%Z).
Proof. exact cleared_iff. Qed.
Print Assumptions C35_expected_iff.

(** for an index in range exactly 40 bytes (outpoint and sequence) are missing *)
Theorem C35_missing_bytes : forall t index spk a b, wf_tx t -> (0 <= index < Z.of_nat (length (inputs t)))%Z ->
  tx_to_bytes_cleared t index (Some spk) = Ok a -> tx_to_bytes (cleared t index spk) = Ok b ->
  (length a + 40 = length b)%nat.
Proof. exact cleared_missing. Qed.
Print Assumptions C35_missing_bytes.

Theorem C35_nil_script : forall t index, tx_to_bytes_cleared t index None = tx_to_bytes t.
Proof. exact cleared_nil. Qed.
Print Assumptions C35_nil_script.

Theorem C35_as_expected_refuted : exists t spk, wf_tx t /\
  tx_to_bytes_cleared t 0 (Some spk) <> tx_to_bytes (cleared t 0 spk).
Proof.
  exists ex_tx, [x51]. split; [apply ex_tx_wf|]. intros H.
  apply C35_expected_iff in H; [|apply ex_tx_wf]. cbn in H. lia.
Qed.
Print Assumptions C35_as_expected_refuted.

Example C35_example : exists a b, tx_to_bytes_cleared ex_tx 1 (Some [x51; x52]) = Ok a /\
  tx_to_bytes (cleared ex_tx 1 [x51; x52]) = Ok b /\ length a = 77%nat /\ length b = 117%nat.
Proof. eexists _, _. split; [vm_compute; reflexivity|]. split; [vm_compute; reflexivity|]. vm_compute. auto. Qed.

(** ** C54: data outputs, hash puzzles *)

Theorem C54_data_output : forall parts, (forall p, In p parts -> nlen p < 2 ^ 32) ->
  exists d, output_op_return_parts parts = Ok (mk_out 0 (Some ([x00; x6a] ++ d))) /\
    is_data ([x00; x6a] ++ d) = Ok true.
Proof.
  intros parts H. exists (concat (map push_wire parts)). split; [now apply op_return_ok|].
  apply data_iff. eexists. right. reflexivity.
Qed.
Print Assumptions C54_data_output.

Theorem C54_data_output_decodes : forall parts, Forall push_domain parts ->
  exists s, output_op_return_parts parts = Ok (mk_out 0 (Some s)) /\ decode_parts s = Ok ([x00] :: [x6a] :: parts).
Proof.
  intros parts F. exists ([x00; x6a] ++ concat (map push_wire parts)). split; [|now apply op_return_decode].
  apply op_return_ok. intros p I. apply domain_small. rewrite Forall_forall in F. auto.
Qed.
Print Assumptions C54_data_output_decodes.

Theorem C54_data_output_fails_iff : forall parts,
  (exists e, output_op_return_parts parts = Err e) <-> exists p, In p parts /\ 2 ^ 32 <= nlen p.
Proof.
  intros parts. split; [|apply op_return_err]. intros (e & E).
  destruct (Exists_dec (fun p : bytes => 2 ^ 32 <= nlen p) parts) as [X|X].
  - intros p. destruct (2 ^ 32 <=? nlen p) eqn:Q; [left|right]; lia.
  - now apply Exists_exists in X.
  - rewrite op_return_ok in E; [discriminate|]. intros p I. destruct (N.ltb_spec (nlen p) (2 ^ 32)) as [|Q]; [assumption|].
    exfalso. apply X. apply Exists_exists. eauto.
Qed.
Print Assumptions C54_data_output_fails_iff.

Theorem C54_single_part : forall d, output_op_return d = output_op_return_parts [d].
Proof. reflexivity. Qed.
Print Assumptions C54_single_part.

Theorem C54_hash_puzzle : forall secret pkh h sats, hex_dec pkh = Some h -> push_domain h ->
  exists s, output_hash_puzzle secret pkh sats = Ok (mk_out sats (Some s)) /\
    decode_parts s = Ok [[xa9]; hash160 secret; [x88]; [x76]; [xa9]; h; [x88]; [xac]].
Proof. exact puzzle_ok. Qed.
Print Assumptions C54_hash_puzzle.

Example C54_example :
  output_op_return_parts [str "hello"; str "world"] =
    Ok (mk_out 0 (Some (map n2b [0; 106; 5; 104; 101; 108; 108; 111; 5; 119; 111; 114; 108; 100]))) /\
  match output_hash_puzzle (str "secret") (hex_encode (hash160 (str "key"))) 9 with
  | Ok o => match locking o with Some s => length s = 48%nat | None => False end | _ => False end.
Proof. vm_compute. auto. Qed.
