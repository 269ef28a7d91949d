(** C47, continued: two helpers of block/GetCoinbaseParts.go that no exported function calls. *)
From Verif Require Import P_Coinbase S_Tx.
From Coq Require Import Lia ZifyBool ZifyNat ZifyN.

(** [makeCoinbaseInputTransaction] is the wire form of the coinbase input with that script. *)
Theorem C47_input_helper : forall d, nlen d < 2 ^ 63 ->
  wire_input compact_min (make_coinbase_input d) (mk_in (repeat x30 64) (2 ^ 32 - 1) 0 None (Some d) (2 ^ 32 - 1)).
Proof.
  intros d L. exists (repeat x00 32), [xff; xff; xff; xff], (varint (nlen d)), [xff; xff; xff; xff]. cbn [unlocking prev_txid prev_index sequence script_bytes].
  split; [unfold make_coinbase_input; now rewrite <- !app_assoc|]. split; [reflexivity|]. split; [reflexivity|]. split; [reflexivity|].
  split; [apply compact_min_of; unfold u64; lia|]. split; [reflexivity|]. split; reflexivity.
Qed.
Print Assumptions C47_input_helper.

Lemma chunk_loop_spec limit msg : (0 < limit)%nat -> forall n i, (i * limit <= length msg)%nat -> (length msg < (i + n) * limit)%nat -> (i + n = length msg / limit + 1)%nat ->
  concat (chunk_loop n i msg limit) = skipn (i * limit) msg /\
  forall j c, nth_error (chunk_loop n i msg limit) j = Some c -> length c = if Nat.eqb (S j) n then (length msg mod limit)%nat else limit.
Proof.
  intros P. induction n as [|n IH]; intros i Hi Hn E; [exfalso; lia|]. cbn [chunk_loop].
  assert (D := Nat.div_mod (length msg) limit ltac:(lia)). assert (M := Nat.mod_upper_bound (length msg) limit ltac:(lia)).
  destruct n as [|n].
  - assert (i = length msg / limit)%nat by lia. subst i. clear IH. destruct (Nat.ltb_spec (length msg) ((length msg / limit + 1) * limit)) as [H|H]; [|lia].
    cbn [chunk_loop concat]. rewrite app_nil_r. assert (LL : (length (skipn (length msg / limit * limit) msg) = length msg mod limit)%nat) by (rewrite skipn_length; lia). split.
    + apply firstn_all2. rewrite LL. lia.
    + intros [|[|j]] c; cbn [nth_error]; intros [= <-]. cbn [Nat.eqb]. rewrite firstn_length, LL. lia.
  - assert (B : ((i + 1) * limit <= length msg)%nat).
    { assert (i + 1 <= length msg / limit)%nat by lia. transitivity (length msg / limit * limit)%nat; [now apply Nat.mul_le_mono_r|lia]. }
    destruct (Nat.ltb_spec (length msg) ((i + 1) * limit)) as [H|_]; [lia|].
    destruct (IH (S i)) as (IH1 & IH2); [lia|lia|lia|]. replace ((i + 1) * limit - i * limit)%nat with limit by lia. split.
    + cbn [concat]. rewrite IH1. replace (S i * limit)%nat with (limit + i * limit)%nat by lia. rewrite <- (firstn_skipn limit (skipn (i * limit) msg)) at 2. f_equal.
      clear. generalize (i * limit)%nat. intros k. rewrite Nat.add_comm. revert limit msg. induction k as [|k IHk]; intros limit msg; [reflexivity|].
      destruct msg; [now rewrite !skipn_nil|]. cbn [Nat.add skipn]. apply IHk.
    + intros [|j] c; cbn [nth_error]; [intros [= <-]|].
      * cbn [Nat.eqb]. rewrite firstn_length, skipn_length. lia.
      * intros Hc. rewrite (IH2 j c Hc). reflexivity.
Qed.

(** [chunk]: the text in pieces of [limit] characters; the last piece is shorter, possibly
    empty. A limit of 0 is a panic. *)
Theorem C47_chunk : forall msg limit,
  (limit = 0%nat -> chunk msg limit = Panic) /\
  ((0 < limit)%nat -> exists l, chunk msg limit = Ok l /\ concat l = msg /\ length l = (length msg / limit + 1)%nat /\
     forall j c, nth_error l j = Some c -> length c = if Nat.eqb (S j) (length l) then (length msg mod limit)%nat else limit).
Proof.
  intros msg limit. split; [intros ->; reflexivity|]. intros P. unfold chunk. destruct (Nat.eqb_spec limit 0) as [X|_]; [lia|]. eexists. split; [reflexivity|].
  assert (D := Nat.div_mod (length msg) limit ltac:(lia)). assert (M := Nat.mod_upper_bound (length msg) limit ltac:(lia)).
  destruct (chunk_loop_spec limit msg P (length msg / limit + 1) 0) as (A & B); [lia|lia|lia|].
  assert (LL : forall n i, length (chunk_loop n i msg limit) = n) by (induction n as [|n IH]; intros i; cbn [chunk_loop length]; [reflexivity|now rewrite IH]).
  rewrite LL. split; [exact A|]. split; [reflexivity|exact B].
Qed.
Print Assumptions C47_chunk.
Example C47_chunk_example : chunk [x61; x62; x63; x64; x65] 2 = Ok [[x61; x62]; [x63; x64]; [x65]] /\ chunk [x61; x62] 2 = Ok [[x61; x62]; []].
Proof. split; reflexivity. Qed.
