(** C76: texts that are not hexadecimal where no error is reported. C77: which
    transactions can be written, and what is written. *)
From Verif Require T_Tx.
From Verif Require Import M_Float S_Lenient P_TxMisc P_TxParse P_Pay P_TxSer P_Sighash P_Made P_Merkle M_Coinbase.
From Coq Require Import ZifyBool ZifyNat ZifyN.

Lemma pair_reads c d x : hex_text [c; d] [x] <-> exists v w, hexval c = Some v /\ hexval d = Some w /\ x = n2b (v * 16 + w).
Proof.
  rewrite <- hex_text_iff. unfold hex_dec. cbn [hex_decode]. destruct (hexval c) as [v|]; [|split; [discriminate|intros (? & ? & ? & _); discriminate]].
  destruct (hexval d) as [w|]; [|split; [discriminate|intros (? & ? & _ & ? & _); discriminate]].
  split; [intros [= <-]; eauto|]. intros (? & ? & [= <-] & [= <-] & ->). reflexivity.
Qed.

Lemma ignore_step c d r : hex_ignore (c :: d :: r) =
  match hexval c, hexval d with Some v, Some w => n2b (v * 16 + w) :: hex_ignore r | _, _ => [] end.
Proof.
  unfold hex_ignore. cbn [hex_decode]. destruct (hexval c); [|reflexivity]. destruct (hexval d); [|reflexivity].
  destruct (hex_decode r); reflexivity.
Qed.

Lemma reads_nil s : hex_ignore s = [] -> (forall c d r, s = c :: d :: r -> hexval c = None \/ hexval d = None) -> reads s [] [].
Proof.
  intros _ H. exists s. split; [reflexivity|]. split; [constructor|]. intros c d r x -> X. apply pair_reads in X as (v & w & A & B & _).
  destruct (H c d r eq_refl); congruence.
Qed.

Lemma reads_exists s : exists p, reads s p (hex_ignore s).
Proof.
  induction s as [|c|c d r IH] using list_ind2.
  - exists []. apply reads_nil; [reflexivity|discriminate].
  - exists []. assert (hex_ignore [c] = []) as -> by (unfold hex_ignore; cbn; destruct (hexval c); reflexivity).
    exists [c]. split; [reflexivity|]. split; [constructor|discriminate].
  - rewrite ignore_step. destruct (hexval c) as [v|] eqn:V.
    + destruct (hexval d) as [w|] eqn:W.
      * destruct IH as (p & r' & E & T & M). exists (c :: d :: p), r'. split; [cbn [app]; now f_equal; f_equal|]. split; [|assumption].
        assert (hex_text [c; d] [n2b (v * 16 + w)]) as Q by (apply pair_reads; eauto).
        inversion Q; subst. econstructor; eassumption.
      * exists []. exists (c :: d :: r). split; [reflexivity|]. split; [constructor|]. intros ? ? ? x [= <- <- <-] X. apply pair_reads in X as (? & ? & _ & ? & _). congruence.
    + exists []. exists (c :: d :: r). split; [reflexivity|]. split; [constructor|]. intros ? ? ? x [= <- <- <-] X. apply pair_reads in X as (? & ? & ? & _). congruence.
Qed.

Lemma reads_ignore p : forall s b, reads s p b -> hex_ignore s = b /\ hex_ignore p = b.
Proof.
  induction p as [|c|c d p IH] using list_ind2; intros s b (r & E & T & M).
  - inversion T; subst. cbn [app]. split; [|reflexivity]. destruct r as [|c [|d r]]; [reflexivity|unfold hex_ignore; cbn; now destruct (hexval c)|].
    rewrite ignore_step. destruct (hexval c) as [v|] eqn:V; [|reflexivity]. destruct (hexval d) as [w|] eqn:W; [|reflexivity].
    exfalso. eapply M; [reflexivity|]. apply pair_reads. eauto.
  - inversion T.
  - assert (exists x b', b = x :: b' /\ hex_text [c; d] [x] /\ hex_text p b') as (x & b' & -> & X & T').
    { inversion T; subst. eexists _, _. split; [reflexivity|]. split; [|assumption]. econstructor; try eassumption. constructor. }
    apply pair_reads in X as (v & w & V & W & ->).
    destruct (IH (p ++ r) b') as [A B]; [now exists r|]. subst s. cbn [app]. rewrite !ignore_step, V, W, A, B. now split.
Qed.

(** What is read, and its bytes, is determined for every text; of a hexadecimal text it is all. *)
Theorem C76_reads : forall s, (exists! p, exists b, reads s p b) /\ (forall b, hex_text s b -> reads s s b) /\
  (forall p b b', reads s p b -> reads s p b' -> b = b').
Proof.
  intros s. split; [|split].
  - destruct (reads_exists s) as (p & R). exists p. split; [eauto|]. intros p' (b' & R').
    destruct (reads_ignore _ _ _ R) as [_ L1]. destruct (reads_ignore _ _ _ R') as [L2 L3].
    destruct R as (r & E & T & _), R' as (r' & E' & T' & _). subst b'.
    apply hex_text_iff in T, T'. apply hex_dec_length in T, T'.
    assert (length p = length p') as L by lia. rewrite E in E'. clear -L E'. revert p' L E'.
    induction p as [|c p IH]; intros [|c' p'] L E; try discriminate; [reflexivity|]. cbn [app] in E. injection E as -> E. f_equal. apply IH; [now injection L|assumption].
  - intros b T. exists []. rewrite app_nil_r. split; [reflexivity|]. split; [assumption|discriminate].
  - intros p b b' R R'. apply reads_ignore in R, R'. destruct R, R'. congruence.
Qed.

Lemma same_ignore s s' : same_read s s' <-> hex_ignore s = hex_ignore s' /\ same_read s s'.
Proof. split; [|tauto]. intros (p & b & A & B). split; [|now exists p, b]. apply reads_ignore in A as [-> _], B as [-> _]. reflexivity. Qed.

(** BuildBlockHeader, BuildCoinbase, BuildMerkleRootFromCoinbase and DifficultyFromBits
    report nothing: they go on with what is read. *)
Theorem C76_header : forall ver prev prev' root time bits nonce, same_read prev prev' ->
  build_block_header ver prev root time bits nonce = build_block_header ver prev' root time bits nonce.
Proof. intros. apply same_ignore in H as [H _]. unfold build_block_header. now rewrite H. Qed.

Theorem C76_coinbase : forall c1 c2 x1 x1' x2 x2', same_read x1 x1' -> same_read x2 x2' ->
  build_coinbase c1 c2 x1 x2 = build_coinbase c1 c2 x1' x2'.
Proof. intros * H H'. apply same_ignore in H as [H _], H' as [H' _]. unfold build_coinbase. now rewrite H, H'. Qed.

Theorem C76_root : forall brs brs', Forall2 same_read brs brs' -> forall c,
  build_merkle_root_from_coinbase c brs = build_merkle_root_from_coinbase c brs'.
Proof.
  induction 1 as [|b b' brs brs' H _ IH]; intros c; [reflexivity|]. unfold build_merkle_root_from_coinbase in *. cbn [fold_left].
  apply same_ignore in H as [H _]. rewrite H. apply IH.
Qed.

Theorem C76_difficulty : forall s s', same_read s s' -> difficulty_from_bits s = difficulty_from_bits s'.
Proof. intros * H. apply same_ignore in H as [H _]. unfold difficulty_from_bits, difficulty_target. now rewrite H. Qed.

(** GetMerkleBranches: the first branch is the second text with its pairs reversed,
    whatever it is; the others depend on what is read of the reversed texts. *)
Lemma level_same l l' : Forall2 same_read l l' -> merkle_level l = merkle_level l'.
Proof.
  revert l'. induction l as [|a|a b l IH] using list_ind2; intros l' F.
  - inversion F. reflexivity.
  - inversion F as [|? a' ? r' A N]; subst. inversion N; subst. apply same_ignore in A as [A _]. cbn [merkle_level]. now rewrite A.
  - inversion F as [|? a' ? r' A N]; subst. inversion N as [|? b' ? l'' B N']; subst. apply same_ignore in A as [A _], B as [B _].
    cbn [merkle_level]. rewrite A, B. f_equal. now apply IH.
Qed.

Lemma walk_app fuel : forall br l, walk_branch fuel br l = br ++ walk_branch fuel [] l.
Proof.
  induction fuel as [|f IH]; intros br l; cbn [walk_branch]; [now rewrite app_nil_r|].
  destruct l as [|a [|b l]]; [now rewrite app_nil_r|now rewrite app_nil_r|]. rewrite IH. rewrite (IH ([] ++ [b])). now rewrite <- !app_assoc.
Qed.

Lemma hashes_map l : get_hashes l = map reverse_hex_string l.
Proof.
  unfold get_hashes. assert (forall acc, fold_left (fun hashes t => hashes ++ [reverse_hex_string t]) l acc = acc ++ map reverse_hex_string l) as H.
  { induction l as [|x l IH]; intros acc; cbn [fold_left map]; [now rewrite app_nil_r|]. rewrite IH, <- app_assoc. reflexivity. }
  apply H.
Qed.

Theorem C76_branches : forall l l', Forall2 (fun s s' => same_read (reverse_hex_string s) (reverse_hex_string s')) l l' ->
  tl (get_merkle_branches l) = tl (get_merkle_branches l') /\
  forall a b r, l = a :: b :: r -> hd_error (get_merkle_branches l) = Some (reverse_hex_string b).
Proof.
  intros l l' F. unfold get_merkle_branches. rewrite !hashes_map. 
  assert (Forall2 same_read (map reverse_hex_string l) (map reverse_hex_string l')) as G by (induction F; constructor; assumption).
  split.
  - rewrite !map_length, <- (Forall2_length _ _ _ F). destruct (length l) as [|n]; [reflexivity|]. cbn [walk_branch].
    inversion G as [E1 E2|a a' r r' A G' E1 E2]; [reflexivity|]. inversion G' as [E3 E4|b b' q q' B G'' E3 E4]; [reflexivity|].
    rewrite (walk_app n ([] ++ [b])), (walk_app n ([] ++ [b'])). cbn [app tl]. f_equal. apply level_same. now constructor; [|constructor].
  - intros a b r ->. cbn [map length]. generalize (S (length (map reverse_hex_string r))). intros n. cbn [walk_branch]. rewrite walk_app. reflexivity.
Qed.

(** Input references: ToBytes, ToString, GetTxID, ToBytesWithClearedInputs. *)
Lemma input_same i i' clear : same_read (prev_txid i) (prev_txid i') -> prev_index i = prev_index i' -> unlocking i = unlocking i' -> sequence i = sequence i' ->
  input_to_bytes i clear = input_to_bytes i' clear.
Proof. intros A B C D. apply same_ignore in A as [A _]. unfold input_to_bytes. now rewrite A, B, C, D. Qed.

Theorem C76_transaction : forall t t', same_refs t t' ->
  tx_to_bytes t = tx_to_bytes t' /\ tx_to_string t = tx_to_string t' /\ tx_id t = tx_id t' /\
  forall index spk, tx_to_bytes_cleared t index spk = tx_to_bytes_cleared t' index spk.
Proof.
  intros t t' (V & L & O & F).
  assert (forall spk h i index, helper_inputs h i index spk (inputs t) = helper_inputs h i index spk (inputs t')) as H.
  { intros spk. induction F as [|oi oi' l l' A _ IH]; intros h i index; [reflexivity|]. cbn [helper_inputs].
    destruct oi as [a|], oi' as [a'|]; try contradiction; [|reflexivity]. cbn [deref or_panic bind]. destruct A as (A & B & _ & _ & C & D).
    destruct spk; [destruct (i =? index)%Z; [apply IH|]|];
    rewrite (input_same _ _ _ A B C D); apply IH. }
  assert (forall index spk, to_bytes_helper t index spk = to_bytes_helper t' index spk) as G.
  { intros. unfold to_bytes_helper. rewrite V, L, O, H. unfold nlen. now rewrite (Forall2_length _ _ _ F). }
  unfold tx_to_string, tx_id, tx_to_bytes, tx_to_bytes_cleared. rewrite !G. repeat split. intros. apply G.
Qed.

(** The signature hash; only the empty text counts as missing. *)
Theorem C76_sighash : forall t t' n f, same_refs t t' ->
  (forall i i', nth_error (inputs t) (N.to_nat n) = Some (Some i) -> nth_error (inputs t') (N.to_nat n) = Some (Some i') ->
     (prev_txid i = [] <-> prev_txid i' = [])) ->
  get_input_signature_hash t n f = get_input_signature_hash t' n f.
Proof.
  intros t t' n f (V & L & O & F) E.
  assert (forall b, prevout_buf b (inputs t) = prevout_buf b (inputs t')) as P.
  { clear E. induction F as [|oi oi' l l' A _ IH]; intros b; [reflexivity|]. cbn [prevout_buf].
    destruct oi as [a|], oi' as [a'|]; try contradiction; [|reflexivity]. cbn [deref or_panic bind]. destruct A as (A & B & _). apply same_ignore in A as [A _]. rewrite A, B. apply IH. }
  assert (forall b, sequence_buf b (inputs t) = sequence_buf b (inputs t')) as Q.
  { clear E P. induction F as [|oi oi' l l' A _ IH]; intros b; [reflexivity|]. cbn [sequence_buf].
    destruct oi as [a|], oi' as [a'|]; try contradiction; [|reflexivity]. cbn [deref or_panic bind]. destruct A as (A & B & _ & _ & _ & D). rewrite D. apply IH. }
  unfold get_input_signature_hash. f_equal. unfold sighash_preimage, prevout_hash, sequence_hash, outputs_hash. rewrite P, Q, V, L, O.
  assert (match nth_error (inputs t) (N.to_nat n), nth_error (inputs t') (N.to_nat n) with
          | Some (Some i), Some (Some i') => same_read (prev_txid i) (prev_txid i') /\ prev_index i = prev_index i' /\ prev_sats i = prev_sats i' /\
                             prev_script i = prev_script i' /\ unlocking i = unlocking i' /\ sequence i = sequence i'
          | Some None, Some None => True | None, None => True | _, _ => False end) as A.
  { clear -F. revert F. generalize (N.to_nat n), (inputs t), (inputs t'). intros k l l' F. revert k.
    induction F as [|oi oi' l l' A _ IH]; intros [|k]; cbn [nth_error]; [exact I|exact I| |apply IH].
    destruct oi, oi'; try contradiction; assumption. }
  destruct (nth_error (inputs t) (N.to_nat n)) as [[i|]|], (nth_error (inputs t') (N.to_nat n)) as [[i'|]|]; try contradiction; try reflexivity.
  cbn [or_panic bind deref]. specialize (E i i' eq_refl eq_refl). destruct A as (A & B & C & D & G & H). apply same_ignore in A as [A _].
  assert (equals (prev_txid i) [] = equals (prev_txid i') []) as ->.
  { destruct (prev_txid i), (prev_txid i'); try reflexivity; destruct E as [E E']; [discriminate (E eq_refl)|discriminate (E' eq_refl)]. }
  now rewrite A, B, C, D, H.
Qed.

(** The natural claim "what is not hexadecimal is reported or changes the result" is
    false of each: a reference "zz" makes the same bytes and identifier as no reference
    at all, and can be signed; no reference cannot. *)
Theorem C76_reported_refuted : exists t t' i i', inputs t = [Some i] /\ inputs t' = [Some i'] /\
  prev_txid i = str "zz" /\ prev_txid i' = [] /\ tx_to_bytes t = tx_to_bytes t' /\ tx_id t = tx_id t' /\
  (exists h, get_input_signature_hash t 0 0x41 = Ok h) /\ get_input_signature_hash t' 0 0x41 = Err ENoPrevTxID.
Proof.
  exists (mk_tx 1 [Some (mk_in (str "zz") 0 1 (Some [x51]) None 0)] [] 0), (mk_tx 1 [Some (mk_in [] 0 1 (Some [x51]) None 0)] [] 0).
  do 2 eexists. split; [reflexivity|]. split; [reflexivity|]. split; [reflexivity|]. split; [reflexivity|].
  split; [reflexivity|]. split; [apply (C76_transaction _ _)|].
  - split; [reflexivity|]. split; [reflexivity|]. split; [reflexivity|]. constructor; [|constructor]. cbn [prev_txid prev_index prev_sats prev_script unlocking sequence].
    split; [|repeat split]. exists [], []. split.
    + exists (str "zz"). split; [reflexivity|]. split; [constructor|]. intros c1 c2 r x [= <- <- <-] H. apply pair_reads in H as (v & w & H & _). vm_compute in H. discriminate.
    + exists []. split; [reflexivity|]. split; [constructor|discriminate].
  - split; [|reflexivity]. unfold get_input_signature_hash.
    destruct (sighash_preimage _ 0 65) as [b|e|] eqn:E; [eexists; reflexivity|vm_compute in E; discriminate|vm_compute in E; discriminate].
Qed.

(** the hypotheses: texts of which the same is read although they differ *)
Example C76_example : same_read (str "0A1bzz") (str "0A1b") /\ same_read (str "0A1bf") (str "0A1b!!77") /\
  same_read (str "0g00") (str "xyz").
Proof.
  split; [|split].
  - exists (str "0A1b"), [x0a; x1b]. split; [exists (str "zz")|exists []]; (split; [reflexivity|]); (split; [apply hex_text_iff; reflexivity|]); intros c1 c2 r x [= <- <- <-] H; apply pair_reads in H as (v & w & H & _); discriminate.
  - exists (str "0A1b"), [x0a; x1b]. split; [exists (str "f")|exists (str "!!77")]; (split; [reflexivity|]); (split; [apply hex_text_iff; reflexivity|]); intros c1 c2 r x E H; [discriminate|].
    injection E as <- <- <-. apply pair_reads in H as (v & w & H & _); discriminate.
  - exists [], []. split; [exists (str "0g00")|exists (str "xyz")]; (split; [reflexivity|]); (split; [constructor|]); intros c1 c2 r x [= <- <- <-] H; apply pair_reads in H as (v & w & H & H' & _); discriminate.
Qed.

(** ** C77 *)

Lemma inputs_panic spk index : forall l h i, helper_inputs h i index spk l = Panic <-> In None l.
Proof.
  induction l as [|[a|] l IH]; intros h i; cbn [helper_inputs deref or_panic bind].
  - split; [discriminate|intros []].
  - assert (In None (Some a :: l) <-> In None l) as -> by (split; [intros [H|H]; [discriminate|assumption]|now right]).
    destruct spk; [destruct (i =? index)%Z|]; apply IH.
  - split; [now left|reflexivity].
Qed.
Lemma inputs_no_err spk index : forall l h i e, helper_inputs h i index spk l <> Err e.
Proof.
  induction l as [|[a|] l IH]; intros h i e; cbn [helper_inputs deref or_panic bind]; try discriminate.
  destruct spk; [destruct (i =? index)%Z|]; apply IH.
Qed.
Lemma outputs_panic : forall l h, helper_outputs h l = Panic <-> In None l \/ exists o, In (Some o) l /\ locking o = None.
Proof.
  induction l as [|[a|] l IH]; intros h; cbn [helper_outputs deref or_panic bind].
  - split; [discriminate|intros [[]|(o & [] & _)]].
  - unfold output_to_bytes. destruct (locking a) as [s|] eqn:S; cbn [deref or_panic bind].
    + rewrite IH. split.
      * intros [H|(o & H & E)]; [left; now right|]. right. exists o. split; [now right|assumption].
      * intros [[H|H]|(o & [H|H] & E)]; [discriminate|now left| |right; eauto]. injection H as <-. congruence.
    + split; [|reflexivity]. intros _. right. exists a. split; [now left|assumption].
  - split; [left; now left|reflexivity].
Qed.
Lemma outputs_no_err : forall l h e, helper_outputs h l <> Err e.
Proof.
  induction l as [|[a|] l IH]; intros h e; cbn [helper_outputs deref or_panic bind]; try discriminate.
  unfold output_to_bytes. destruct (locking a); cbn [deref or_panic bind]; [apply IH|discriminate].
Qed.

Lemma helper_panic t index spk : to_bytes_helper t index spk = Panic <-> holds_nil t.
Proof.
  unfold to_bytes_helper, holds_nil. cbv zeta.
  match goal with |- context [helper_inputs ?h 0 index spk (inputs t)] => pose proof (inputs_panic spk index (inputs t) h 0) as I; pose proof (inputs_no_err spk index (inputs t) h 0) as N; destruct (helper_inputs h 0 index spk (inputs t)) as [b|e|] end; cbn [bind].
  - match goal with |- context [helper_outputs ?h (outputs t)] => pose proof (outputs_panic (outputs t) h) as O; pose proof (outputs_no_err (outputs t) h) as M; destruct (helper_outputs h (outputs t)) as [b'|e|] end; cbn [bind].
    + split; [discriminate|]. intros [H|H]; [apply I in H; discriminate|apply O in H; discriminate].
    + edestruct M; reflexivity.
    + split; [|reflexivity]. intros _. right. now apply O.
  - edestruct N; reflexivity.
  - split; [|reflexivity]. intros _. left. now apply I.
Qed.
Lemma helper_no_err t index spk e : to_bytes_helper t index spk <> Err e.
Proof.
  unfold to_bytes_helper. cbv zeta.
  match goal with |- context [helper_inputs ?h 0 index spk (inputs t)] => pose proof (inputs_no_err spk index (inputs t) h 0) as N; destruct (helper_inputs h 0 index spk (inputs t)) as [b|e'|] end; cbn [bind]; [|edestruct N; reflexivity|discriminate].
  match goal with |- context [helper_outputs ?h (outputs t)] => pose proof (outputs_no_err (outputs t) h) as M; destruct (helper_outputs h (outputs t)) as [b'|e'|] end; cbn [bind]; [discriminate|edestruct M; reflexivity|discriminate].
Qed.

(** The four ways of writing a transaction panic for the same transactions: those
    that hold a nil input, a nil output or an output with a nil locking script. *)
Theorem C77_panics_iff : forall t,
  (tx_to_bytes t = Panic <-> holds_nil t) /\ (tx_to_string t = Panic <-> holds_nil t) /\ (tx_id t = Panic <-> holds_nil t) /\
  (forall index spk, tx_to_bytes_cleared t index spk = Panic <-> holds_nil t) /\
  forall e, tx_to_bytes t <> Err e /\ tx_to_string t <> Err e /\ tx_id t <> Err e /\ forall index spk, tx_to_bytes_cleared t index spk <> Err e.
Proof.
  intros t. unfold tx_to_string, tx_id, tx_to_bytes, tx_to_bytes_cleared. pose proof (helper_panic t 0 None) as P. pose proof (helper_no_err t 0 None) as N.
  split; [exact P|]. split; [destruct (to_bytes_helper t 0 None); cbn [bind]; [|exfalso; eapply N; reflexivity|exact P]; rewrite <- P; split; discriminate|].
  split; [destruct (to_bytes_helper t 0 None); cbn [bind]; [|exfalso; eapply N; reflexivity|exact P]; rewrite <- P; split; discriminate|].
  split; [intros; apply helper_panic|]. intros e. split; [apply N|].
  split; [destruct (to_bytes_helper t 0 None); cbn [bind]; [discriminate|exfalso; eapply N; reflexivity|discriminate]|].
  split; [destruct (to_bytes_helper t 0 None); cbn [bind]; [discriminate|exfalso; eapply N; reflexivity|discriminate]|].
  intros. apply helper_no_err.
Qed.

Lemma writes_input_eq i w : writes_input i w -> w = input_to_bytes i false.
Proof.
  intros (p & ref & ix & l & sq & R & -> & A & B & C & D & E). rewrite input_to_bytes_eq. apply reads_ignore in R as [-> _].
  apply compact_min_varint in C as ->. rewrite D, E. now rewrite !le_put_get_at.
Qed.
Lemma input_writes i : prev_index i < 2 ^ 32 -> sequence i < 2 ^ 32 -> nlen (script_bytes (unlocking i)) < 2 ^ 63 -> writes_input i (input_to_bytes i false).
Proof.
  intros I Q U. rewrite input_to_bytes_eq. destruct (reads_exists (prev_txid i)) as (p & R).
  exists p, (hex_ignore (prev_txid i)), (le_put 4 (prev_index i)), (varint (nlen (script_bytes (unlocking i)))), (le_put 4 (sequence i)).
  rewrite !le_put_length, !le_get_put_small by (change (256 ^ N.of_nat 4) with (2 ^ 32); assumption).
  split; [assumption|]. split; [reflexivity|]. split; [reflexivity|]. split; [reflexivity|]. split; [|now split].
  apply compact_min_of. now apply nlen_u64.
Qed.

Lemma ranged_typed t : ranged t -> ~ holds_nil t -> typed t.
Proof.
  intros (V & L & _ & _ & I & O) N. split; [assumption|]. split; [assumption|]. split; apply Forall_forall.
  - intros [i|] H; [|exfalso; apply N; now left]. exists i. split; [reflexivity|]. destruct (I i H) as (A & B & _). now split.
  - intros [o|] H; [|exfalso; apply N; right; now left]. exists o. split; [reflexivity|]. destruct (O o H) as (A & _). split; [assumption|].
    intros E. apply N. right. right. eauto.
Qed.

Lemma writes_not_nil t w : writes_tx t w -> ~ holds_nil t.
Proof.
  intros (ver & nin & wi & nout & wo & lt & _ & _ & _ & _ & _ & _ & _ & FI & FO) [H|[H|(o & H & E)]].
  - clear FO. induction FI as [|w' oi wi' l (i & -> & _) _ IH]; [easy|]. destruct H as [H|H]; [discriminate|now apply IH].
  - clear FI. induction FO as [|w' oi wo' l (i & -> & _) _ IH]; [easy|]. destruct H as [H|H]; [discriminate|now apply IH].
  - clear FI. induction FO as [|w' oi wo' l (i & -> & W) _ IH]; [easy|]. destruct H as [H|H]; [|now apply IH].
    injection H as ->. destruct W as (? & ? & ? & _ & _ & _ & _ & W). congruence.
Qed.

Lemma out_wire_spec w o : wire_output compact_min w o -> w = out_wire o.
Proof.
  intros W. apply wire_output_bytes in W. unfold out_wire. destruct (locking o) as [s|] eqn:E.
  - rewrite (output_to_bytes_eq _ _ E) in W. cbn [script_bytes]. now injection W.
  - unfold output_to_bytes in W. rewrite E in W. discriminate.
Qed.

Lemma writes_wire_eq t w : ranged t -> writes_tx t w -> tx_to_bytes t = Ok w.
Proof.
  intros R W. pose proof (ranged_typed t R (writes_not_nil t w W)) as T. destruct (typed_bytes t T) as (is & os & Ei & Eo & _ & _ & ->). f_equal.
  destruct W as (ver & nin & wi & nout & wo & lt & -> & A & B & V & L & C & D & FI & FO). rewrite V, L, !le_put_get_at by assumption.
  apply compact_min_varint in C, D. rewrite Ei in *. rewrite Eo in *. unfold nlen in *. rewrite map_length in C, D. subst nin nout.
  assert (wi = map (fun i => input_to_bytes i false) is) as ->.
  { clear -FI. revert wi FI. induction is as [|i is IH]; intros wi F; inversion F as [|w ? wi' ? (j & Ej & W) F']; [reflexivity|]. subst. injection Ej as <-. cbn [map]. f_equal; [now apply writes_input_eq|now apply IH]. }
  assert (wo = map out_wire os) as ->.
  { clear -FO. revert wo FO. induction os as [|i is IH]; intros wi F; inversion F as [|w ? wi' ? (j & Ej & W) F']; [reflexivity|]. subst. injection Ej as <-. cbn [map]. f_equal; [now apply out_wire_spec|now apply IH]. }
  reflexivity.
Qed.

Lemma nil_writes t : ranged t -> ~ holds_nil t -> exists w, writes_tx t w.
Proof.
  intros (V & L & CI & CO & I & O) N. unfold writes_tx.
  assert (exists wi, Forall2 (fun w oi => exists i, oi = Some i /\ writes_input i w) wi (inputs t)) as (wi & FI).
  { assert (~ In None (inputs t)) as M by (intros H; apply N; now left). clear -I M. induction (inputs t) as [|[i|] l IH]; [exists []; constructor| |exfalso; apply M; now left].
    destruct IH as (wi & F); [intros j H; apply I; now right|intros H; apply M; now right|]. destruct (I i) as (A & B & C); [now left|].
    exists (input_to_bytes i false :: wi). constructor; [|assumption]. exists i. split; [reflexivity|]. now apply input_writes. }
  assert (exists wo, Forall2 (fun w oo => exists o, oo = Some o /\ wire_output compact_min w o) wo (outputs t)) as (wo & FO).
  { assert (forall oo, In oo (outputs t) -> exists o, oo = Some o /\ wf_output o) as M.
    { intros [o|] H; [|exfalso; apply N; right; now left]. exists o. split; [reflexivity|]. destruct (O o H) as (A & B). split; [assumption|].
      destruct (locking o) as [s|] eqn:E; [exists s; split; [reflexivity|exact B]|]. exfalso. apply N. right. right. eauto. }
    clear -M. induction (outputs t) as [|oo l IH]; [exists []; constructor|].
    destruct IH as (wo & F); [intros j H; apply M; now right|]. destruct (M oo) as (o & -> & W); [now left|].
    apply wf_output_wire in W as (w & _ & W). exists (w :: wo). constructor; [|assumption]. eauto. }
  eexists. exists (le_put 4 (version t)), (varint (nlen (inputs t))), wi, (varint (nlen (outputs t))), wo, (le_put 4 (locktime t)).
  rewrite !le_put_length, !le_get_put_small by (change (256 ^ N.of_nat 4) with (2 ^ 32); assumption).
  split; [reflexivity|]. split; [reflexivity|]. split; [reflexivity|]. split; [reflexivity|]. split; [reflexivity|].
  split; [apply compact_min_of; now apply nlen_u64|]. split; [apply compact_min_of; now apply nlen_u64|]. now split.
Qed.

(** What is written, for every transaction without nil pointers, whatever the texts of
    its references: the wire layout with the bytes read of each reference. *)
Theorem C77_bytes_iff : forall t w, ranged t -> (tx_to_bytes t = Ok w <-> writes_tx t w).
Proof.
  intros t w R. split; [|now apply writes_wire_eq]. intros E.
  assert (~ holds_nil t) as N by (intros H; apply (proj1 (C77_panics_iff t)) in H; congruence).
  destruct (nil_writes t R N) as (w' & W). pose proof (writes_wire_eq _ _ R W) as E'. rewrite E in E'.
  assert (w = w') as -> by (now injection E'). assumption.
Qed.

(** How many bytes. *)
Theorem C77_size : forall t w is os refs, ranged t -> tx_to_bytes t = Ok w -> inputs t = map Some is -> outputs t = map Some os ->
  Forall2 (fun i k => exists p b, reads (prev_txid i) p b /\ length b = k) is refs ->
  length w = (4 + compact_size (nlen is) + list_sum (map (fun ik => size_input (fst ik) (snd ik)) (combine is refs)) +
    compact_size (nlen os) + list_sum (map size_output os) + 4)%nat.
Proof.
  intros t w is os refs R E Ei Eo F. apply C77_bytes_iff in E; [|assumption].
  destruct E as (ver & nin & wi & nout & wo & lt & -> & A & B & _ & _ & [_ C] & [_ D] & FI & FO). rewrite !app_length, A, B, C, D.
  rewrite Ei in *. rewrite Eo in *. unfold nlen. rewrite !map_length.
  assert (length (concat wi) = list_sum (map (fun ik => size_input (fst ik) (snd ik)) (combine is refs))) as ->.
  { clear -FI F. revert wi FI. induction F as [|i k is refs (p & b & R & L) _ IH]; intros wi FI; inversion FI as [|w ? wi' ? (j & Ej & W) F']; [reflexivity|]. subst. injection Ej as <-.
    cbn [concat combine map]. change (list_sum (?a :: ?l)) with (a + list_sum l)%nat. rewrite app_length, (IH _ F'). f_equal.
    destruct W as (p' & ref & ix & l & sq & R' & -> & A & B & [_ C] & _). apply reads_ignore in R as [R _], R' as [R' _]. rewrite R in R'. subst ref.
    cbn [fst snd]. unfold size_input. rewrite !app_length, rev_length. unfold bytes in *. lia. }
  assert (length (concat wo) = list_sum (map size_output os)) as ->.
  { clear -FO. revert wo FO. induction os as [|i is IH]; intros wi FI; inversion FI as [|w ? wi' ? (j & Ej & W) F']; [reflexivity|]. subst. injection Ej as <-.
    cbn [concat map]. change (list_sum (?a :: ?l)) with (a + list_sum l)%nat. rewrite app_length, (IH _ F'). f_equal.
    destruct W as (v & l & s & -> & A & [_ B] & _ & L). unfold size_output. rewrite L. cbn [script_bytes]. rewrite !app_length. lia. }
  lia.
Qed.

(** ** C25, C27: exactly which inputs and transactions read back *)
Theorem C25_round_trip_iff : forall i rest sp, prev_index i < 2 ^ 32 -> sequence i < 2 ^ 32 -> nlen (script_bytes (unlocking i)) < 2 ^ 63 ->
  (scap (Sl (input_to_bytes i false ++ rest) sp) < 2 ^ 62)%Z ->
  (input_from_bytes (Sl (input_to_bytes i false ++ rest) sp) = Ok (bare_input i, Z.of_nat (length (input_to_bytes i false))) <->
   exists id, length id = 32%nat /\ prev_txid i = hex_encode id).
Proof.
  intros i rest sp I Q U Cap. split.
  - intros P. apply input_from_ok in P as (w & r & _ & (W & (x & X) & _) & _); [|assumption].
    destruct W as (id & ix & l & sq & _ & Li & _ & _ & _ & D & _). cbn [bare_input prev_txid] in X, D. rewrite X, hex_dec_encode in D. injection D as ->.
    exists (rev id). now rewrite rev_length.
  - intros G. apply T_Tx.C25_round_trip; [|assumption]. now repeat split.
Qed.

Theorem C27_round_trip_iff : forall t b sp, ranged t -> tx_to_bytes t = Ok b -> (scap (Sl b sp) < 2 ^ 62)%Z ->
  (tx_from_slice (Sl b sp) = Ok (bare_tx t) <->
   forall i, In (Some i) (inputs t) -> exists id, length id = 32%nat /\ prev_txid i = hex_encode id).
Proof.
  intros t b sp R E Cap. assert (typed t) as T.
  { apply ranged_typed; [assumption|]. intros H; apply (proj1 (C77_panics_iff t)) in H; congruence. }
  apply round_iff_typed; assumption.
Qed.

(** a transaction with a malformed reference, in range, without nil: written with the
    two bytes that can be read *)
Example C77_example : exists t w, ranged t /\ ~ holds_nil t /\ tx_to_bytes t = Ok w /\ length w = 32%nat /\
  (exists i, inputs t = [Some i] /\ prev_txid i = str "0A1bzz") /\ firstn 7 w = map n2b [1; 0; 0; 0; 1; 27; 10] /\
  holds_nil (tx_add_output t None).
Proof.
  exists (mk_tx 1 [Some (mk_in (str "0A1bzz") 3 0 None None 9)] [Some (mk_out 7 (Some [x51; x52]))] 0). eexists.
  split; [|split; [|split; [vm_compute; reflexivity|split; [reflexivity|split; [eexists; split; reflexivity|split; [reflexivity|]]]]]].
  - split; [reflexivity|]. split; [reflexivity|]. split; [vm_compute; reflexivity|]. split; [vm_compute; reflexivity|].
    split; intros x [[= <-]|[]]; (split; [vm_compute; reflexivity|]); [split|]; vm_compute; reflexivity.
  - intros [[H|[]]|[[H|[]]|(o & [Q|[]] & H)]]; try discriminate. injection Q as <-. discriminate.
  - right. left. right. now left.
Qed.

Print Assumptions C76_reads.
Print Assumptions C76_header.
Print Assumptions C76_coinbase.
Print Assumptions C76_root.
Print Assumptions C76_difficulty.
Print Assumptions C76_branches.
Print Assumptions C76_transaction.
Print Assumptions C76_sighash.
Print Assumptions C76_reported_refuted.
Print Assumptions C77_panics_iff.
Print Assumptions C77_bytes_iff.
Print Assumptions C77_size.
Print Assumptions C25_round_trip_iff.
Print Assumptions C27_round_trip_iff.
