(** C102: which calls can stop a program. *)
From Verif Require Import S_Crash P_Push T_Push T_Script T_Pay T_Address T_Block T_Tx T_Utils T_Redeem T_Difficulty P_Encryption T_Encryption.
From Coq Require Import Lia ZifyBool ZifyNat ZifyN.

Lemma bind_np {A B} (r : res A) (f : A -> res B) : r <> Panic -> (forall a, f a <> Panic) -> bind r f <> Panic.
Proof. intros H1 H2. destruct r as [a|e|]; cbn [bind]; [apply H2|discriminate|contradiction]. Qed.
Lemma bind_panic_iff {A B} (r : res A) (f : A -> res B) : bind r f = Panic <-> r = Panic \/ exists a, r = Ok a /\ f a = Panic.
Proof.
  destruct r as [a|e|]; cbn [bind]; split.
  - intros H. right. now exists a.
  - intros [H|(a' & E & H)]; [discriminate H|]. now injection E as <-.
  - intros H. discriminate H.
  - intros [H|(a' & E & H)]; [discriminate H|discriminate E].
  - now left.
  - reflexivity.
Qed.
Lemma check_np m : check m <> Panic.
Proof. destruct m as [s [e|]]; cbn; discriminate. Qed.
Lemma push_prefix_np d : push_prefix d <> Panic.
Proof. unfold push_prefix. repeat match goal with |- context [if ?c then _ else _] => destruct c end; discriminate. Qed.
Lemma encode_np ps : encode_parts ps <> Panic.
Proof.
  unfold encode_parts. generalize 0 ([] : bytes). induction ps as [|p ps IH]; intros i b; cbn [encode_loop]; [discriminate|].
  destruct (push_prefix p); [apply IH|discriminate|discriminate].
Qed.
Lemma asm_np l : forall s, asm_loop s l <> Panic.
Proof.
  induction l as [|w l IH]; intros s; cbn [asm_loop]; [discriminate|]. destruct (lookup_str opCodeStrings w); [apply IH|].
  destruct (append_push_data_hex s w) as [s' [e|]]; [discriminate|apply IH].
Qed.
Lemma p2pkh_addr_np a : p2pkh_from_address a <> Panic.
Proof.
  intros H. pose proof (proj1 (proj2 (proj2 (C68_no_panic a 0 [] 0 0)))) as Q. apply Q. unfold output_p2pkh_from_address. now rewrite H.
Qed.

(** The calls that take texts or bytes from outside and never stop the program, whatever they are given: *)
Theorem C102_never : forall (s t u v : bytes) (l : list bytes) (n m q : N) (z : Z) (b : bool),
  (* addresses and scripts *)
  addr_from_string s <> Panic /\ addr_from_pubkey_str s b <> Panic /\
  script_from_hex s <> Panic /\ script_from_asm s <> Panic /\
  p2pkh_from_pubkey_str s <> Panic /\ p2pkh_from_pkh_str s <> Panic /\ p2pkh_from_address s <> Panic /\
  push_prefix s <> Panic /\ encode_parts l <> Panic /\ new_redeem_script z <> Panic /\
  (* inputs and outputs *)
  input_from_utxo s n m t q <> Panic /\ output_p2pkh_from_pkh s n <> Panic /\ output_p2pkh_from_address s n <> Panic /\
  output_hash_puzzle s t n <> Panic /\ output_op_return s <> Panic /\ output_op_return_parts l <> Panic /\
  (* blocks *)
  merkle_root_from_branches s z l <> Panic /\ get_coinbase_parts n m s t u v <> Panic.
Proof.
  intros s t u v l n m q0 z b. pose proof (fun x => of_hex_no_panic x) as OH.
  assert (forall x y, output_op_return_parts x = y -> y <> Panic) as OR.
  { intros x y <-. unfold output_op_return_parts, create_op_return_output. apply bind_np; [apply check_np|discriminate]. }
  split; [apply C21_never_panics|]. split; [apply bind_np; [apply OH|discriminate]|].
  split; [apply OH|]. split; [apply asm_np|]. split; [apply bind_np; [apply OH|discriminate]|]. split; [apply bind_np; [apply OH|discriminate]|].
  split; [apply p2pkh_addr_np|]. split; [apply push_prefix_np|]. split; [apply encode_np|].
  split. { unfold new_redeem_script. destruct (z <? 2)%Z; [discriminate|]. destruct (16 <? z)%Z; discriminate. }
  split; [apply (C68_no_panic t m s n q0)|]. split; [apply (C68_no_panic s n s n 0)|]. split; [apply (C68_no_panic s n s n 0)|].
  split. { unfold output_hash_puzzle. apply bind_np; [apply OH|]. intros p. apply bind_np; [apply check_np|]. intros q. apply bind_np; [apply check_np|]. discriminate. }
  split; [exact (OR [s] _ eq_refl)|]. split; [exact (OR l _ eq_refl)|].
  split; [apply C44_no_panic|apply C47_no_panic].
Qed.
Print Assumptions C102_never.

(** Those that can, and exactly when: *)
Theorem C102_exactly :
  (forall s, decode_parts s = Panic <-> overflows s) /\
  (forall s, decode_string_parts s = Panic <-> exists b, hex_dec s = Some b /\ overflows b) /\
  (forall s, script_to_asm s = Panic <-> overflows s) /\
  (forall s, get_public_key_hash s = Panic <->
     s = Some [x76] \/ s = Some [x76; xa9] \/ exists r, s = Some (x76 :: xa9 :: r) /\ overflows r) /\
  (forall s, is_data s = Panic <-> s = [] \/ s = [x00]) /\
  (forall s, expand_target_from_as_int s = Panic <-> exists b, hex_dec s = Some b /\ (length b < 4)%nat) /\
  (forall o, output_to_bytes o = Panic <-> locking o = None) /\
  (forall o, output_sighash_bytes o = Panic <-> locking o = None) /\
  (forall o, output_script_hex o = Panic <-> locking o = None) /\
  (forall t n s, apply_unlocking_script t n s = Panic <-> nlen (inputs t) <= n) /\
  (forall v l, get_little_endian_bytes v l = Panic <-> l < 4) /\
  (forall c iv s, encrypt c iv s = Panic <-> iv = Panic \/ exists b, iv = Ok b /\ length b <> blk_size c) /\
  (forall c s, fst (decrypt c s) = Panic <-> (16 <= length s)%nat /\ blk_size c <> 16%nat) /\
  (forall H rs x path, add_public_key H rs x path = Panic <-> exists i j, path = [i; j] /\ hd_derive H x i j = Panic).
Proof.
  assert (forall s, decode_parts s = Panic <-> overflows s) as DP by exact C10_decode_panic_iff.
  split; [exact DP|]. split.
  { intros s. unfold decode_string_parts. rewrite bind_panic_iff. split.
    - intros [H|(b & E & H)]; [now apply of_hex_no_panic in H|]. exists b. split; [now apply of_hex_ok|now apply DP].
    - intros (b & E & H). right. exists b. split; [now apply of_hex_ok|now apply DP]. }
  split. { intros s. unfold script_to_asm. rewrite bind_panic_iff. split; [intros [H|(b & _ & H)]; [now apply DP|discriminate H]|intros H; left; now apply DP]. }
  split. { intros s. rewrite C14_gpkh_panic_iff. split; (intros [H|[H|(r & E & H)]]; [now left|right; now left|right; right; exists r; split; [exact E|now apply DP]]). }
  split; [exact C16_data_panic_iff|].
  split. { intros s. unfold expand_target_from_as_int. rewrite bind_panic_iff. split.
    - intros [H|(b & E & H)]; [now apply of_hex_no_panic in H|]. exists b. split; [now apply of_hex_ok|]. rewrite bind_panic_iff in H. destruct H as [H|(c & _ & H)]; [|discriminate H].
      unfold be_uint32 in H. destruct (Nat.ltb_spec (length b) 4); [assumption|discriminate H].
    - intros (b & E & H). right. exists b. split; [now apply of_hex_ok|]. rewrite bind_panic_iff. left. unfold be_uint32. destruct (Nat.ltb_spec (length b) 4); [reflexivity|lia]. }
  split. { intros o. unfold output_to_bytes. destruct (locking o); split; intros H; try discriminate H; reflexivity. }
  split. { intros o. unfold output_sighash_bytes. destruct (locking o); split; intros H; try discriminate H; reflexivity. }
  split. { intros o. unfold output_script_hex. destruct (locking o); split; intros H; try discriminate H; reflexivity. }
  split. { intros t n s. unfold apply_unlocking_script. destruct (nth_error (inputs t) (N.to_nat n)) as [oi|] eqn:E; cbn [or_panic bind].
    - assert (N.to_nat n < length (inputs t))%nat by (apply nth_error_Some; congruence). split; [destruct oi; intros X; discriminate X|unfold nlen; lia].
    - apply nth_error_None in E. split; [intros _; unfold nlen; lia|reflexivity]. }
  split. { intros v l. unfold get_little_endian_bytes. destruct (N.ltb_spec l 4); split; intros X; try discriminate X; try reflexivity; lia. }
  split. { intros c iv s. unfold encrypt. rewrite bind_panic_iff. split.
    - intros [H|(b & E & H)]; [now left|]. right. exists b. split; [exact E|]. destruct (Nat.eqb_spec (length b) (blk_size c)); [discriminate H|assumption].
    - intros [H|(b & E & H)]; [now left|]. right. exists b. split; [exact E|]. destruct (Nat.eqb_spec (length b) (blk_size c)); [contradiction|reflexivity]. }
  split.
  { intros c s. unfold decrypt. destruct (Nat.ltb_spec (length s) 16) as [L|L]; cbn [fst]; [split; [intros X; discriminate X|lia]|].
    destruct (Nat.eqb_spec 16 (blk_size c)) as [E|E]; cbn [negb fst].
    - split; [|intros (_ & X); congruence]. intros X. exfalso. revert X. apply b64_decode_no_panic.
    - split; [intros _; split; [exact L|congruence]|reflexivity]. }
  intros H rs x path. unfold add_public_key. destruct path as [|i [|j [|k path] ] ]; try (split; [intros X; discriminate X|intros (a & b & X & _); discriminate X]).
  split.
  - intros X. exists i, j. split; [reflexivity|]. destruct (hd_derive H x i j); [discriminate X|discriminate X|reflexivity].
  - intros (a & b & E & X). injection E as <- <-. now rewrite X.
Qed.
Print Assumptions C102_exactly.

(** Three bytes are enough to stop DecodeParts and what rests on it, and fewer are not. *)
Theorem C102_shortest : (forall s, decode_parts s = Panic -> (3 <= length s)%nat) /\
  (forall s, length s = 3%nat -> decode_parts s = Panic <-> exists c, s = [x4d; c; xff] /\ 253 <= b2n c).
Proof.
  split.
  - intros s H. apply C10_decode_panic_iff in H as (p & ps & t & -> & _ & W). rewrite app_length.
    inversion W as [l d L _|l d L _]; subst; cbn [length]; rewrite app_length; lia.
  - intros s L3. rewrite C10_decode_panic_iff. split.
    + intros (p & ps & t & -> & S & W). rewrite app_length in L3. inversion W as [l d L G|l d L G]; subst; cbn [length] in L3; rewrite app_length in L3; [|lia].
      assert (length p = 0%nat /\ length d = 0%nat) as (P0 & D0) by lia. apply length_zero_iff_nil in P0, D0. subst p d.
      destruct l as [|c [|e [|x l] ] ]; try discriminate L. rewrite app_nil_r. cbn [app]. cbn [le_get] in G.
      pose proof (b2n_lt c). pose proof (b2n_lt e).
      assert (b2n e = 255) as E by lia. exists c. split; [|lia].
      assert (e = xff) as -> by (rewrite <- (n2b_b2n e), E; reflexivity). reflexivity.
    + intros (c & -> & G). exists [], [], [x4d; c; xff]. split; [reflexivity|]. split; [constructor|].
      apply (wraps2 [c; xff] []); [reflexivity|]. cbn [le_get]. change (b2n xff) with 255. lia.
Qed.
Print Assumptions C102_shortest.

Example C102_example : decode_parts [x4d; xfd; xff] = Panic /\ decode_parts [x4d; xfc; xff] = Err ENotEnough /\ decode_string_parts (str "4dffff") = Panic /\
  script_to_asm [x51; x4d; xff; xff] = Panic /\ apply_unlocking_script tx_new 0 None = Panic /\ expand_target_from_as_int (str "1d00ff") = Panic /\
  output_to_bytes (mk_out 1 None) = Panic /\ fst (decrypt (mk_block 8 (fun b => b)) (repeat x00 16)) = Panic.
Proof. repeat split. Qed.
