(** Proofs about txids, totals, coinbase test, builders, cleared inputs, data
    outputs (C31-C35, C54). *)
From Verif Require Export P_TxSer.
From Coq Require Import ZifyBool ZifyNat ZifyN.

(** ** TxID *)

Lemma rev_inj {A} (a b : list A) : rev a = rev b -> a = b.
Proof. intros E. rewrite <- (rev_involutive a), <- (rev_involutive b), E. reflexivity. Qed.

Lemma tx_id_eq t b : tx_to_bytes t = Ok b -> tx_id t = Ok (hex_encode (rev (sha256d b))).
Proof. intros E. unfold tx_id. rewrite E. cbn [bind]. now rewrite reverse_bytes_rev. Qed.

Lemma tx_id_commits t1 t2 b1 b2 : wf_tx t1 -> wf_tx t2 ->
  tx_to_bytes t1 = Ok b1 -> tx_to_bytes t2 = Ok b2 -> (Z.of_nat (length b1) < 2 ^ 62)%Z ->
  tx_id t1 = tx_id t2 ->
  bare_tx t1 = bare_tx t2 \/ collision sha256 b1 b2 \/ collision sha256 (sha256 b1) (sha256 b2).
Proof.
  intros W1 W2 E1 E2 Cap E. rewrite (tx_id_eq _ _ E1), (tx_id_eq _ _ E2) in E. injection E as E.
  apply hex_encode_inj, rev_inj in E. destruct (bytes_eq_dec b1 b2) as [->|N].
  - left. destruct (wf_wire _ W1) as (w1 & H1). destruct (wf_wire _ W2) as (w2 & H2).
    pose proof (wire_tx_bytes _ _ H1) as F1. pose proof (wire_tx_bytes _ _ H2) as F2.
    rewrite E1 in F1. rewrite E2 in F2. injection F1 as <-. injection F2 as <-.
    eapply wire_tx_inj; try eassumption; now apply wire_tx_weaken.
  - right. now apply sha256d_collision.
Qed.

Lemma input_bytes_bare i : input_to_bytes (bare_input i) false = input_to_bytes i false.
Proof. rewrite !input_to_bytes_eq. reflexivity. Qed.

Lemma helper_inputs_bare l : forall h i index,
  helper_inputs h i index None (map (option_map bare_input) l) = helper_inputs h i index None l.
Proof.
  induction l as [|[x|] l IH]; intros h i index; cbn [map option_map helper_inputs]; [reflexivity| |reflexivity].
  cbn [deref or_panic bind]. now rewrite input_bytes_bare, IH.
Qed.

Lemma to_bytes_bare t : tx_to_bytes (bare_tx t) = tx_to_bytes t.
Proof.
  unfold tx_to_bytes, to_bytes_helper, bare_tx. cbn [version inputs outputs locktime].
  unfold nlen. rewrite map_length, helper_inputs_bare. reflexivity.
Qed.

(** ** Totals *)

Fixpoint sum_sats (os : list output) : N := match os with [] => 0 | o :: r => satoshis o + sum_sats r end.

Lemma total_loop_eq os : forall a, a < 2 ^ 64 -> total_loop a (map Some os) = Ok ((a + sum_sats os) mod 2 ^ 64).
Proof.
  induction os as [|o os IH]; intros a H; cbn [map total_loop sum_sats].
  - rewrite N.add_0_r, N.mod_small by assumption. reflexivity.
  - cbn [deref or_panic bind]. rewrite IH by (unfold wrap64; change 18446744073709551616 with (2 ^ 64); apply N.mod_lt; discriminate).
    unfold wrap64. change 18446744073709551616 with (2 ^ 64). rewrite N.add_mod_idemp_l by discriminate.
    now rewrite N.add_assoc.
Qed.

Lemma total_panic_iff l : forall a, total_loop a l = Panic <-> In None l.
Proof.
  induction l as [|[o|] l IH]; intros a; cbn [total_loop]; [split; [discriminate|intros []]| |].
  - cbn [deref or_panic bind]. rewrite IH. split; [now right|]. intros [E|I]; [discriminate|assumption].
  - split; [now left|reflexivity].
Qed.

Lemma sum_perm a b : Permutation a b -> sum_sats a = sum_sats b.
Proof. induction 1; cbn [sum_sats]; lia. Qed.

(** ** Coinbase *)

Lemma is_coinbase_iff t : is_coinbase t = Ok true <->
  exists i, inputs t = [Some i] /\ prev_txid i = repeat x30 64 /\
    (prev_index i = 2 ^ 32 - 1 \/ sequence i = 2 ^ 32 - 1).
Proof.
  unfold is_coinbase, zeros64. split.
  - destruct (inputs t) as [|[i|] [|? ?]]; try discriminate. cbn [deref or_panic bind].
    destruct (equals (prev_txid i) (repeat x30 64)) eqn:E; [|discriminate].
    apply equals_spec in E. cbn [negb].
    destruct ((prev_index i =? 0xFFFFFFFF) || (sequence i =? 0xFFFFFFFF)) eqn:Q; [|discriminate]. intros _.
    exists i. repeat split; try assumption. lia.
  - intros (i & -> & E & H). cbn [deref or_panic bind]. rewrite E, equals_refl. cbn [negb].
    replace ((prev_index i =? 0xFFFFFFFF) || (sequence i =? 0xFFFFFFFF)) with true by lia. reflexivity.
Qed.

Lemma is_coinbase_panic t : is_coinbase t = Panic <-> inputs t = [None].
Proof.
  unfold is_coinbase. destruct (inputs t) as [|[i|] [|? ?]]; try (split; [discriminate|congruence]).
  - cbn [deref or_panic bind]. destruct (negb (equals (prev_txid i) zeros64)); [split; [discriminate|congruence]|].
    destruct ((prev_index i =? 0xFFFFFFFF) || (sequence i =? 0xFFFFFFFF)); split; try discriminate; congruence.
  - split; reflexivity.
Qed.

Lemma is_coinbase_not_err t e : is_coinbase t <> Err e.
Proof.
  unfold is_coinbase. destruct (inputs t) as [|[i|] [|? ?]]; try discriminate.
  cbn [deref or_panic bind]. destruct (negb (equals (prev_txid i) zeros64)); [discriminate|].
  destruct ((prev_index i =? 0xFFFFFFFF) || (sequence i =? 0xFFFFFFFF)); discriminate.
Qed.

(** ** Builders *)

Definition extended (t : tx) (a : option (list (option input) * list (option output))) : tx :=
  mk_tx (version t) (inputs t ++ asked_inputs a) (outputs t ++ asked_outputs a) (locktime t).

Lemma tx_eta t : mk_tx (version t) (inputs t) (outputs t) (locktime t) = t.
Proof. now destruct t. Qed.

Lemma pay_to_ok addr sats a h : addr_from_string addr = Ok a -> addr_pkh a = hex_encode h ->
  output_p2pkh_from_address addr sats = Ok (mk_out sats (Some (p2pkh h))).
Proof. intros A H. unfold output_p2pkh_from_address. rewrite (p2pkh_address _ _ _ A H). reflexivity. Qed.

Lemma asks_total c : exists a, asks c a.
Proof.
  destruct c as [txid vout script sats|i|o|addr sats].
  - destruct (hex_dec script) eqn:E; eexists; [eapply asks_from|eapply asks_from_bad]; eassumption.
  - eexists. constructor.
  - eexists. constructor.
  - destruct (addr_from_string addr) as [a|e|] eqn:E.
    + pose proof E as E'. apply addr_from_string_iff in E' as (w & h & k & _ & _ & _ & _ & ->).
      eexists. eapply asks_pay; [eassumption|reflexivity].
    + eexists. apply asks_pay_bad. intros a. rewrite E. discriminate.
    + eexists. apply asks_pay_bad. intros a. rewrite E. discriminate.
Qed.

Lemma tx_do_eq t c a : asks c a -> fst (tx_do t c) = extended t a /\ (snd (tx_do t c) = None <-> a <> None).
Proof.
  intros H. unfold extended. destruct H as [txid vout script sats s E|txid vout script sats E|i|o|addr sats a h E E'|addr sats E];
    cbn [tx_do asked_inputs asked_outputs]; rewrite ?app_nil_r.
  - unfold tx_from_utxo, script_from_hex. apply of_hex_ok in E. rewrite E. split; [reflexivity|]. split; [discriminate|reflexivity].
  - unfold tx_from_utxo, script_from_hex. destruct (of_hex script) as [s|e|] eqn:Q.
    + apply of_hex_ok in Q. congruence.
    + rewrite tx_eta. split; [reflexivity|]. split; [discriminate|congruence].
    + now apply of_hex_no_panic in Q.
  - split; [reflexivity|]. split; [discriminate|reflexivity].
  - split; [reflexivity|]. split; [discriminate|reflexivity].
  - unfold tx_pay_to. rewrite (pay_to_ok _ _ _ _ E E'). split; [reflexivity|]. split; [discriminate|reflexivity].
  - unfold tx_pay_to, output_p2pkh_from_address. destruct (p2pkh_address_err addr E) as [e ->]. cbn [bind].
    rewrite tx_eta. split; [reflexivity|]. split; [discriminate|congruence].
Qed.

Lemma tx_run_eq cs : forall t asked, Forall2 asks cs asked ->
  tx_run t cs = mk_tx (version t) (inputs t ++ concat (map asked_inputs asked))
                      (outputs t ++ concat (map asked_outputs asked)) (locktime t).
Proof.
  unfold tx_run. induction cs as [|c cs IH]; intros t asked F; inversion F as [|? a ? asked' H F']; subst; cbn [fold_left map concat].
  - rewrite !app_nil_r. symmetry. apply tx_eta.
  - destruct (tx_do_eq t c a H) as [-> _]. rewrite (IH _ _ F'). unfold extended. cbn [version inputs outputs locktime].
    now rewrite <- !app_assoc.
Qed.

(** ** Cleared inputs *)

Definition input_core (i : input) : bytes := rev (hex_ignore (prev_txid i)) ++ le_put 4 (prev_index i).

Lemma input_bytes_clear i : input_to_bytes i true = input_core i ++ [x00] ++ le_put 4 (sequence i).
Proof. unfold input_to_bytes, input_core. rewrite reverse_bytes_rev. cbn [app]. now rewrite <- !app_assoc. Qed.

Lemma input_bytes_script i s : unlocking i = Some s ->
  input_to_bytes i false = input_core i ++ (varint (nlen s) ++ s) ++ le_put 4 (sequence i).
Proof. intros E. rewrite input_to_bytes_eq, E. unfold input_core. cbn [script_bytes]. now rewrite <- !app_assoc. Qed.

(** the bytes of one input: what the code writes, what is expected *)
Definition got_input (k index : Z) (spk : bytes) (i : input) : bytes :=
  if (k =? index)%Z then varint (nlen spk) ++ spk else input_core i ++ [x00] ++ le_put 4 (sequence i).
Definition want_input (k index : Z) (spk : bytes) (i : input) : bytes :=
  if (k =? index)%Z then input_core i ++ (varint (nlen spk) ++ spk) ++ le_put 4 (sequence i)
  else input_core i ++ [x00] ++ le_put 4 (sequence i).

Fixpoint each {A} (f : Z -> A -> bytes) (k : Z) (l : list A) : bytes :=
  match l with [] => [] | x :: r => f k x ++ each f (k + 1)%Z r end.

Lemma helper_cleared is : forall h k index spk,
  helper_inputs h k index (Some spk) (map Some is) = Ok (h ++ each (fun k i => got_input k index spk i) k is).
Proof.
  induction is as [|x is IH]; intros h k index spk; cbn [map helper_inputs each]; [now rewrite app_nil_r|].
  cbn [deref or_panic bind]. unfold got_input at 1. destruct (k =? index)%Z; rewrite IH, <- !app_assoc; [reflexivity|].
  now rewrite input_bytes_clear, <- !app_assoc.
Qed.

Lemma helper_want is : forall h k index spk j jx,
  helper_inputs h j jx None (clear_inputs k index spk (map Some is)) = Ok (h ++ each (fun k i => want_input k index spk i) k is).
Proof.
  induction is as [|x is IH]; intros h k index spk j jx; cbn [map clear_inputs option_map helper_inputs each]; [now rewrite app_nil_r|].
  cbn [deref or_panic bind]. unfold want_input at 1.
  erewrite input_bytes_script by reflexivity. rewrite IH, <- !app_assoc.
  unfold input_core. cbn [prev_txid prev_index sequence]. destruct (k =? index)%Z; cbn [app]; now rewrite <- ?app_assoc.
Qed.

Lemma clear_length l : forall k index spk, length (clear_inputs k index spk l) = length l.
Proof. induction l as [|x l IH]; intros k index spk; cbn [clear_inputs length]; [reflexivity|]. now rewrite IH. Qed.

Lemma each_ext {A} (f g : Z -> A -> bytes) l : forall k,
  (forall j x, (k <= j < k + Z.of_nat (length l))%Z -> f j x = g j x) -> each f k l = each g k l.
Proof.
  induction l as [|x l IH]; intros k H; cbn [each]; [reflexivity|]. cbn [length] in H. rewrite H by lia.
  f_equal. apply IH. intros j y B. apply H. lia.
Qed.

Lemma each_length_in index spk is : Forall (fun i => length (input_core i) = 36%nat) is -> forall k,
  (k <= index < k + Z.of_nat (length is))%Z ->
  (length (each (fun k i => got_input k index spk i) k is) + 40 = length (each (fun k i => want_input k index spk i) k is))%nat.
Proof.
  induction 1 as [|x is L F IH]; intros k H; cbn [length] in H; [lia|]. cbn [each]. rewrite !app_length.
  destruct (Z.eqb_spec k index) as [->|N].
  - unfold got_input at 1, want_input at 1. rewrite Z.eqb_refl, !app_length, L, le_put_length.
    rewrite (each_ext (fun k i => got_input k index spk i) (fun k i => want_input k index spk i) is (index + 1)).
    + lia.
    + intros j y B. unfold got_input, want_input. now replace (j =? index)%Z with false by lia.
  - rewrite <- (IH (k + 1)%Z) by lia. unfold got_input at 1, want_input at 1.
    replace (k =? index)%Z with false by lia. lia.
Qed.

Lemma core_length i : wf_input i -> length (input_core i) = 36%nat.
Proof.
  intros ((id & L & E) & _). unfold input_core. rewrite E, hex_ignore_encode, app_length, rev_length, le_put_length. lia.
Qed.

Lemma wf_inputs_some t : wf_tx t -> exists is, inputs t = map Some is /\ Forall wf_input is.
Proof.
  intros (_ & _ & _ & _ & F & _). induction F as [|oi ois (i & -> & H) _ (is & -> & IH)]; [exists []; auto|].
  exists (i :: is). split; [reflexivity|now constructor].
Qed.

Lemma wf_outputs_bytes t : wf_tx t -> exists ws, forall h, helper_outputs h (outputs t) = Ok (h ++ concat ws).
Proof.
  intros (_ & _ & _ & _ & _ & F).
  assert (exists ws, Forall2 (fun w oo => exists o, oo = Some o /\ output_to_bytes o = Ok w) ws (outputs t)) as (ws & H).
  { induction F as [|oo oos (o & -> & H) _ (ws & IH)]; [exists []; constructor|].
    apply wf_output_wire in H as (w & E & _). exists (w :: ws). constructor; eauto. }
  exists ws. intros h. now apply helper_outputs_eq.
Qed.

Lemma cleared_both t index spk : wf_tx t -> exists is pre post, inputs t = map Some is /\ Forall wf_input is /\
  tx_to_bytes_cleared t index (Some spk) = Ok (pre ++ each (fun k i => got_input k index spk i) 0 is ++ post) /\
  tx_to_bytes (cleared t index spk) = Ok (pre ++ each (fun k i => want_input k index spk i) 0 is ++ post).
Proof.
  intros W. destruct (wf_inputs_some t W) as (is & E & F). destruct (wf_outputs_bytes t W) as (ws & O).
  exists is, (le_put 4 (version t) ++ varint (nlen (inputs t))),
    (varint (nlen (outputs t)) ++ concat ws ++ le_put 4 (locktime t)).
  split; [assumption|]. split; [assumption|].
  unfold tx_to_bytes_cleared, tx_to_bytes, to_bytes_helper, cleared. cbn [version inputs outputs locktime].
  assert (nlen (clear_inputs 0 index spk (inputs t)) = nlen (inputs t)) as -> by (unfold nlen; now rewrite clear_length).
  generalize (nlen (inputs t)) as ni. intros ni. rewrite E. split.
  - rewrite helper_cleared. cbn [bind]. rewrite O. cbn [bind]. rewrite <- !app_assoc. reflexivity.
  - rewrite helper_want. cbn [bind]. rewrite O. cbn [bind]. rewrite <- !app_assoc. reflexivity.
Qed.

Lemma cleared_iff t index spk : wf_tx t ->
  (tx_to_bytes_cleared t index (Some spk) = tx_to_bytes (cleared t index spk) <->
   (index < 0 \/ Z.of_nat (length (inputs t)) <= index)%Z).
Proof.
  intros W. destruct (cleared_both t index spk W) as (is & pre & post & E & F & G & T). rewrite G, T, E, map_length. split.
  - intros Q. destruct (Z.ltb_spec index 0) as [|H0]; [now left|]. right.
    destruct (Z.leb_spec (Z.of_nat (length is)) index) as [|H1]; [assumption|]. exfalso.
    assert (forall a b : bytes, Ok a = Ok b -> a = b) as Inj by congruence. apply Inj in Q.
    apply (f_equal (@length byte)) in Q. rewrite !app_length in Q.
    pose proof (each_length_in index spk is) as H. specialize (H ltac:(eapply Forall_impl; [|exact F]; apply core_length) 0%Z ltac:(lia)). lia.
  - intros H. do 3 f_equal. apply each_ext. intros j x B. unfold got_input, want_input. now replace (j =? index)%Z with false by lia.
Qed.

(** exactly 40 bytes are missing: the outpoint and the sequence number *)
Lemma cleared_missing t index spk a b : wf_tx t -> (0 <= index < Z.of_nat (length (inputs t)))%Z ->
  tx_to_bytes_cleared t index (Some spk) = Ok a -> tx_to_bytes (cleared t index spk) = Ok b ->
  (length a + 40 = length b)%nat.
Proof.
  intros W H A B. destruct (cleared_both t index spk W) as (is & pre & post & E & F & G & T). rewrite G in A. rewrite T in B.
  injection A as <-. injection B as <-. rewrite !app_length. rewrite E, map_length in H.
  pose proof (each_length_in index spk is) as Q. specialize (Q ltac:(eapply Forall_impl; [|exact F]; apply core_length) 0%Z ltac:(lia)). lia.
Qed.

Lemma cleared_nil t index : tx_to_bytes_cleared t index None = tx_to_bytes t.
Proof.
  unfold tx_to_bytes_cleared, tx_to_bytes, to_bytes_helper.
  assert (forall l h i, helper_inputs h i index None l = helper_inputs h i 0 None l) as Q.
  { induction l as [|[x|] l IH]; intros h i; cbn [helper_inputs deref or_panic bind]; [reflexivity|apply IH|reflexivity]. }
  now rewrite Q.
Qed.

(** ** Data outputs and hash puzzles *)

Lemma op_return_ok parts : (forall p, In p parts -> nlen p < 2 ^ 32) ->
  output_op_return_parts parts = Ok (mk_out 0 (Some ([x00; x6a] ++ concat (map push_wire parts)))).
Proof.
  intros H. unfold output_op_return_parts, create_op_return_output. rewrite append_array_ok by exact H. reflexivity.
Qed.

Lemma op_return_err parts : (exists p, In p parts /\ 2 ^ 32 <= nlen p) -> exists e, output_op_return_parts parts = Err e.
Proof.
  intros (p & I & B). unfold output_op_return_parts, create_op_return_output.
  destruct (append_array_err (append_opcode (append_opcode [] OpFALSE) OpRETURN) parts p I B) as [e ->]. cbn [check bind]. eauto.
Qed.

Lemma op_return_decode parts : Forall push_domain parts ->
  decode_parts ([x00; x6a] ++ concat (map push_wire parts)) = Ok ([x00] :: [x6a] :: parts).
Proof.
  intros F. apply decode_ok_iff.
  change ([x00; x6a] ++ concat (map push_wire parts)) with ([x00] ++ [x6a] ++ concat (map push_wire parts)).
  change ([x00] :: [x6a] :: parts) with ([[x00]] ++ [[x6a]] ++ parts).
  apply safe_app; [apply safe_op; op_side|]. apply safe_app; [apply safe_op; op_side|]. now apply pushes_safe.
Qed.

Lemma push_one s d : push_domain d -> append_push_data s d = (s ++ push_wire d, None).
Proof.
  intros D. rewrite push_array, append_array_ok by (apply dom_all; now constructor).
  cbn [map concat]. now rewrite app_nil_r.
Qed.

Lemma puzzle_ok secret pkh h sats : hex_dec pkh = Some h -> push_domain h ->
  exists s, output_hash_puzzle secret pkh sats = Ok (mk_out sats (Some s)) /\
    decode_parts s = Ok [[xa9]; hash160 secret; [x88]; [x76]; [xa9]; h; [x88]; [xac]].
Proof.
  intros E D. unfold output_hash_puzzle. apply of_hex_ok in E. rewrite E. cbn [bind].
  assert (push_domain (hash160 secret)) as Dh by (unfold push_domain, nlen; rewrite hash160_length; lia).
  rewrite (push_one _ _ Dh). cbn [check bind]. rewrite (push_one _ _ D). cbn [check bind].
  eexists. split; [reflexivity|]. apply decode_ok_iff. unfold append_opcode. rewrite <- !app_assoc. cbn [app].
  change [[xa9]; hash160 secret; [x88]; [x76]; [xa9]; h; [x88]; [xac]]
    with ([[xa9]] ++ [hash160 secret] ++ [[x88]] ++ [[x76]] ++ [[xa9]] ++ [h] ++ [[x88]] ++ [[xac]]).
  apply (safe_app [OpHASH160]); [apply safe_op; op_side|]. apply safe_app; [now apply push_wire_safe|].
  apply (safe_app [OpEQUALVERIFY]); [apply safe_op; op_side|]. apply (safe_app [OpDUP]); [apply safe_op; op_side|].
  apply (safe_app [OpHASH160]); [apply safe_op; op_side|]. apply safe_app; [now apply push_wire_safe|].
  apply (safe_app [OpEQUALVERIFY]); [apply safe_op; op_side|]. apply safe_op; op_side.
Qed.

