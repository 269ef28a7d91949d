(** Property theorems C42-C47: merkle branches and proofs, block headers, coinbase
    transactions. *)
From Verif Require Import P_Merkle P_Coinbase P_Address.
From Coq Require Import ZifyBool ZifyNat ZifyN.

(** ** C42: the merkle root from the coinbase hash and the branches *)

Theorem C42_root : forall txids c ids, Forall2 displays txids (c :: ids) ->
  merkle_root (c :: ids) (build_merkle_root_from_coinbase c (get_merkle_branches txids)).
Proof.
  intros txids c ids F. rewrite build_eq. unfold get_merkle_branches. cbv zeta.
  pose proof (hashes_hold _ _ F) as H. rewrite (F2_len H). apply (walk_root _ (c :: ids)); [reflexivity|discriminate|exact H].
Qed.
Print Assumptions C42_root.

(** the specification determines the root *)
Theorem C42_root_unique : forall ids, ids <> [] -> exists! r, merkle_root ids r.
Proof.
  intros ids H. destruct (merkle_root_total _ ids (le_n _) H) as (r & R). exists r. split; [exact R|]. intros r' R'. exact (merkle_root_fun _ _ _ R R').
Qed.
Print Assumptions C42_root_unique.

Definition leaf (k : N) : bytes := repeat (n2b k) 31 ++ [n2b (k + 100)].
Definition shown (k : N) : bytes := hex_encode (rev (leaf k)).
Lemma shown_displays k : displays (shown k) (leaf k).
Proof. unfold displays, shown. apply hex_dec_encode. Qed.

Example C42_example :
  Forall2 displays (map shown [1;2;3;4;5]) (map leaf [1;2;3;4;5]) /\
  build_merkle_root_from_coinbase (leaf 1) (get_merkle_branches (map shown [1;2;3;4;5]))
  = dsha (dsha (dsha (leaf 1 ++ leaf 2) ++ dsha (leaf 3 ++ leaf 4)) ++
          dsha (dsha (leaf 5 ++ leaf 5) ++ dsha (leaf 5 ++ leaf 5))).
Proof. split; [repeat (constructor; [apply shown_displays|]); constructor|vm_compute; reflexivity]. Qed.

(** ** C43: the branches *)

Theorem C43_coinbase_irrelevant : forall c c' txids,
  get_merkle_branches (c :: txids) = get_merkle_branches (c' :: txids).
Proof.
  intros c c' txids. unfold get_merkle_branches. rewrite !get_hashes_eq. cbn [map length]. now apply walk_tail.
Qed.
Print Assumptions C43_coinbase_irrelevant.

Theorem C43_length : forall txids, length (get_merkle_branches txids) = Nat.log2_up (length txids).
Proof.
  intros txids. unfold get_merkle_branches. cbv zeta. rewrite walk_length by lia. now rewrite get_hashes_eq, map_length.
Qed.
Print Assumptions C43_length.

(** the branches are the sibling path of the first leaf, in internal order *)
Theorem C43_is_path : forall txids ids, ids <> [] -> Forall2 displays txids ids ->
  exists p, path ids 0 p /\ Forall2 (fun s id => hex_ignore s = id) (get_merkle_branches txids) p.
Proof.
  intros txids ids NE F. unfold get_merkle_branches. cbv zeta. pose proof (hashes_hold _ _ F) as H. rewrite (F2_len H).
  apply walk_path; [lia|assumption|assumption].
Qed.
Print Assumptions C43_is_path.

Example C43_example : length (get_merkle_branches (map shown [1;2;3;4;5])) = 3%nat /\
  get_merkle_branches (map shown [9;2;3]) = [hex_encode (leaf 2); hex_encode (dsha (leaf 3 ++ leaf 3))] /\
  get_merkle_branches [shown 1] = [] /\ get_merkle_branches [] = [].
Proof. vm_compute. auto. Qed.

(** ** C44: completeness of merkle proofs *)

Theorem C44_completeness : forall ids i x s p brs root, merkle_root ids root ->
  nth_error ids i = Some x -> displays s x -> path ids i p -> Forall2 displays brs p ->
  merkle_root_from_branches s (Z.of_nat i) brs = Ok (hex_encode (rev root)).
Proof.
  intros ids i x s p brs root R X D P F. apply proof_accepts. destruct (path_climb _ _ _ P _ X) as (ms & r & C & R').
  assert (i < 2 ^ length brs)%nat as I.
  { rewrite (F2_len F), (path_length _ _ _ P). assert (i < length ids)%nat by (apply nth_error_Some; congruence).
    destruct (Nat.le_gt_cases (length ids) 1) as [L|L]; [assert (i = 0)%nat as -> by lia; pose proof (Nat.pow_nonzero 2 (Nat.log2_up (length ids)) ltac:(lia)); lia|].
    pose proof (Nat.log2_up_spec _ L). lia. }
  assert (Z.of_nat i < 2 ^ Z.of_nat (length brs))%Z as I2 by (rewrite <- (Nat2Z.inj_pow 2); lia).
  exists x, p, ms, r. split; [assumption|]. split; [assumption|]. split; [assumption|]. split.
  - rewrite Z.mod_small by lia. rewrite <- nat_N_Z, N2Z.id. exact C.
  - f_equal. f_equal. exact (merkle_root_fun _ _ _ R R').
Qed.
Print Assumptions C44_completeness.

(** every leaf has a proof, of one fixed length *)
Theorem C44_proof_exists : forall ids i, (i < length ids)%nat ->
  exists p, path ids i p /\ length p = Nat.log2_up (length ids).
Proof.
  intros ids i I. destruct (path_total _ ids i (le_n _) I) as (p & P). exists p. split; [exact P|exact (path_length _ _ _ P)].
Qed.
Print Assumptions C44_proof_exists.

(** exactly which arguments are accepted, and with which result *)
Theorem C44_accepts_iff : forall s i brs out, merkle_root_from_branches s i brs = Ok out <->
  exists x bs ms r, displays s x /\ Forall2 displays brs bs /\ (i < 2 ^ Z.of_nat (length brs))%Z /\
    climb x (Z.to_N (i mod 2 ^ Z.of_nat (length brs))) bs ms r /\ out = hex_encode (rev r).
Proof. exact proof_accepts. Qed.
Print Assumptions C44_accepts_iff.

Theorem C44_index_too_large : forall s i brs x bs, displays s x -> Forall2 displays brs bs ->
  (2 ^ Z.of_nat (length brs) <= i)%Z -> merkle_root_from_branches s i brs = Err (EIndexRange (i / 2 ^ Z.of_nat (length brs)) (nlen brs)).
Proof. exact proof_out_of_range. Qed.
Print Assumptions C44_index_too_large.

Theorem C44_no_panic : forall s i brs, merkle_root_from_branches s i brs <> Panic.
Proof. exact proof_no_panic. Qed.
Print Assumptions C44_no_panic.

(** a negative index is accepted: -1 stands for the last position of the padded tree *)
Theorem C44_negative_index_rejected_refuted : ~ (forall s i brs out, (i < 0)%Z -> merkle_root_from_branches s i brs <> Ok out).
Proof.
  intros H. apply (H (shown 2) (-1)%Z [shown 1] (hex_encode (rev (dsha (leaf 1 ++ leaf 2)))) ltac:(lia)). vm_compute. reflexivity.
Qed.
Print Assumptions C44_negative_index_rejected_refuted.

Theorem C44_negative_index : forall s i brs, (i < 0)%Z ->
  merkle_root_from_branches s i brs = merkle_root_from_branches s (i mod 2 ^ Z.of_nat (length brs)) brs.
Proof. exact proof_negative. Qed.
Print Assumptions C44_negative_index.

Definition ex_ids : list bytes := map leaf [1;2;3].
Definition ex_root : bytes := dsha (dsha (leaf 1 ++ leaf 2) ++ dsha (leaf 3 ++ leaf 3)).
Lemma ex_pair : pairing ex_ids [dsha (leaf 1 ++ leaf 2); dsha (leaf 3 ++ leaf 3)].
Proof. unfold ex_ids. cbn [map]. apply pair_two, pair_one. Qed.
Lemma ex_merkle : merkle_root ex_ids ex_root.
Proof.
  eapply root_up; [cbn; lia|exact ex_pair|]. eapply root_up; [cbn; lia|apply pair_two, pair_nil|]. apply root_one.
Qed.
Lemma ex_path : path ex_ids 2 [leaf 3; dsha (leaf 1 ++ leaf 2)].
Proof.
  eapply path_up; [cbn; lia|exact ex_pair|reflexivity|]. change (2 / 2)%nat with 1%nat.
  eapply path_up; [cbn; lia|apply pair_two, pair_nil|reflexivity|]. apply path_one.
Qed.

Example C44_example :
  merkle_root_from_branches (shown 3) 2 [shown 3; hex_encode (rev (dsha (leaf 1 ++ leaf 2)))] = Ok (hex_encode (rev ex_root)) /\
  merkle_root_from_branches (shown 3) 4 [shown 3; hex_encode (rev (dsha (leaf 1 ++ leaf 2)))] = Err (EIndexRange 1 2) /\
  merkle_root_from_branches (shown 3) 2 [[x67]] <> Panic.
Proof.
  split; [|split; [vm_compute; reflexivity|apply C44_no_panic]].
  apply (C44_completeness ex_ids 2 (leaf 3) _ _ _ _ ex_merkle eq_refl (shown_displays 3) ex_path).
  constructor; [apply shown_displays|]. constructor; [unfold displays; apply hex_dec_encode|constructor].
Qed.

(** ** C45: soundness of merkle proofs *)

Theorem C45_sound : forall s s' i brs brs' out x x', length brs = length brs' ->
  displays s x -> displays s' x' -> length x = 32%nat -> length x' = 32%nat ->
  merkle_root_from_branches s i brs = Ok out -> merkle_root_from_branches s' i brs' = Ok out ->
  exists bs bs' ms ms' r, Forall2 displays brs bs /\ Forall2 displays brs' bs' /\
    climb x (Z.to_N (i mod 2 ^ Z.of_nat (length brs))) bs ms r /\
    climb x' (Z.to_N (i mod 2 ^ Z.of_nat (length brs))) bs' ms' r /\
    ((x = x' /\ bs = bs') \/
     exists k m m', nth_error ms k = Some m /\ nth_error ms' k = Some m' /\ dcollision m m').
Proof.
  intros s s' i brs brs' out x x' L D D' X X' H H'. apply proof_accepts in H, H'.
  destruct H as (y & bs & ms & r & Dy & F & I & C & ->). destruct H' as (y' & bs' & ms' & r' & Dy' & F' & _ & C' & E).
  pose proof (displays_fun _ _ _ D Dy) as <-. pose proof (displays_fun _ _ _ D' Dy') as <-.
  assert (r' = r) as ->.
  { apply (f_equal hex_dec) in E. rewrite !hex_dec_encode in E. injection E as E. apply (f_equal (@rev _)) in E. now rewrite !rev_involutive in E. }
  rewrite <- L in C'. exists bs, bs', ms, ms', r. split; [assumption|]. split; [assumption|]. split; [assumption|]. split; [assumption|].
  apply (climb_sound _ _ _ _ _ _ _ _ C C'); [|assumption|assumption]. rewrite <- (F2_len F), <- (F2_len F'). assumption.
Qed.
Print Assumptions C45_sound.

(** a proof at the tree's depth shows membership at that position *)
Theorem C45_membership : forall ids root i s x brs y p, merkle_root ids root ->
  Forall (fun id => length id = 32%nat) ids -> nth_error ids i = Some y -> path ids i p ->
  displays s x -> length x = 32%nat -> length brs = Nat.log2_up (length ids) ->
  merkle_root_from_branches s (Z.of_nat i) brs = Ok (hex_encode (rev root)) ->
  exists bs ms ms', Forall2 displays brs bs /\ climb x (N.of_nat i) bs ms root /\ climb y (N.of_nat i) p ms' root /\
    ((x = y /\ bs = p) \/
     exists k m m', nth_error ms k = Some m /\ nth_error ms' k = Some m' /\ dcollision m m').
Proof.
  intros ids root i s x brs y p R A Y P D X L H.
  destruct (path_climb _ _ _ P _ Y) as (ms' & r' & C' & R'). pose proof (merkle_root_fun _ _ _ R R') as <-.
  apply proof_accepts in H. destruct H as (z & bs & ms & r & Dz & F & I & C & E).
  pose proof (displays_fun _ _ _ D Dz) as <-.
  assert (r = root) as ->.
  { apply (f_equal hex_dec) in E. rewrite !hex_dec_encode in E. injection E as E. apply (f_equal (@rev _)) in E. now rewrite !rev_involutive in E. }
  rewrite Z.mod_small, <- nat_N_Z, N2Z.id in C by lia.
  exists bs, ms, ms'. split; [assumption|]. split; [assumption|]. split; [assumption|].
  apply (climb_sound _ _ _ _ _ _ _ _ C C'); [|assumption|].
  - rewrite <- (F2_len F), (path_length _ _ _ P). assumption.
  - rewrite Forall_forall in A. apply A. now apply nth_error_In in Y.
Qed.
Print Assumptions C45_membership.

(** without fixing the proof length, a proof shows nothing: the root itself, and
    any inner node, is accepted as a transaction id *)
Theorem C45_any_length_refuted : ~ (forall ids root i s x brs, merkle_root ids root ->
  Forall (fun id => length id = 32%nat) ids -> displays s x -> length x = 32%nat ->
  merkle_root_from_branches s i brs = Ok (hex_encode (rev root)) -> In x ids).
Proof.
  intros H. specialize (H ex_ids ex_root 0%Z (hex_encode (rev ex_root)) ex_root [] ex_merkle).
  assert (In ex_root ex_ids) as B.
  { apply H; [repeat constructor|unfold displays; apply hex_dec_encode|apply sha256_length|vm_compute; reflexivity]. }
  destruct B as [B|[B|[B|[]]]]; apply (f_equal (firstn 2)) in B; vm_compute in B; discriminate B.
Qed.
Print Assumptions C45_any_length_refuted.

(** the root does not determine the list: an odd level may or may not repeat its last hash *)
Theorem C45_root_determines_list_refuted :
  ~ (forall ids ids' root, merkle_root ids root -> merkle_root ids' root -> ids = ids').
Proof.
  intros H. specialize (H ex_ids (ex_ids ++ [leaf 3]) ex_root ex_merkle). discriminate H.
  eapply root_up; [cbn; lia|unfold ex_ids; cbn [map app]; apply pair_two, pair_two, pair_nil|].
  eapply root_up; [cbn; lia|apply pair_two, pair_nil|]. apply root_one.
Qed.
Print Assumptions C45_root_determines_list_refuted.

Example C45_example : exists bs ms ms', Forall2 displays [shown 3; hex_encode (rev (dsha (leaf 1 ++ leaf 2)))] bs /\
  climb (leaf 3) 2 bs ms ex_root /\ climb (leaf 3) 2 [leaf 3; dsha (leaf 1 ++ leaf 2)] ms' ex_root /\
  ((leaf 3 = leaf 3 /\ bs = [leaf 3; dsha (leaf 1 ++ leaf 2)]) \/
   exists k m m', nth_error ms k = Some m /\ nth_error ms' k = Some m' /\ dcollision m m').
Proof.
  apply (C45_membership ex_ids ex_root 2 (shown 3) (leaf 3) _ (leaf 3) _ ex_merkle).
  - repeat constructor.
  - reflexivity.
  - exact ex_path.
  - apply shown_displays.
  - reflexivity.
  - reflexivity.
  - vm_compute. reflexivity.
Qed.

(** ** C46: block headers *)

Theorem C46_layout : forall ver prev root time bits nonce p, ver < 2 ^ 32 -> displays prev p -> length p = 32%nat ->
  length root = 32%nat -> length time = 4%nat -> length bits = 4%nat -> length nonce = 4%nat ->
  let h := build_block_header ver prev root time bits nonce in
  length h = 80%nat /\
  le_get (firstn 4 h) = ver /\ firstn 32 (skipn 4 h) = p /\ firstn 32 (skipn 36 h) = root /\
  firstn 4 (skipn 68 h) = time /\ firstn 4 (skipn 72 h) = bits /\ skipn 76 h = nonce.
Proof.
  intros ver prev root time bits nonce p V D Lp Lr Lt Lb Ln. cbv zeta. unfold build_block_header. cbv zeta. cbn [app].
  unfold displays in D. apply hex_dec_ignore in D. rewrite D, reverse_bytes_rev, rev_involutive. rewrite <- !app_assoc.
  assert (length (le_put 4 ver) = 4%nat) as Lv by apply le_put_length.
  assert (le_get (le_put 4 ver) = ver) as G by (rewrite le_get_put; apply N.mod_small; exact V).
  generalize dependent (le_put 4 ver). intros v Lv G.
  assert (forall k (a b : bytes), length a = k -> firstn k (a ++ b) = a) as F1.
  { intros k a b <-. rewrite firstn_app, firstn_all, Nat.sub_diag. cbn. apply app_nil_r. }
  assert (forall k j (a b : bytes), length a = j -> (j <= k)%nat -> skipn k (a ++ b) = skipn (k - j) b) as F2.
  { intros k j a b <- Lk. rewrite skipn_app, skipn_all2 by lia. reflexivity. }
  split; [rewrite !app_length; lia|]. split; [rewrite F1 by assumption; exact G|].
  split; [rewrite (F2 4%nat 4%nat) by (assumption || lia); now apply F1|].
  split; [rewrite (F2 36%nat 4%nat), (F2 _ 32%nat) by (assumption || lia); now apply F1|].
  split; [rewrite (F2 68%nat 4%nat), (F2 _ 32%nat), (F2 _ 32%nat) by (assumption || lia); now apply F1|].
  split; [rewrite (F2 72%nat 4%nat), (F2 _ 32%nat), (F2 _ 32%nat), (F2 _ 4%nat) by (assumption || lia); now apply F1|].
  rewrite (F2 76%nat 4%nat), (F2 _ 32%nat), (F2 _ 32%nat), (F2 _ 4%nat), (F2 _ 4%nat) by (assumption || lia). reflexivity.
Qed.
Print Assumptions C46_layout.

Theorem C46_injective : forall ver prev root time bits nonce p ver' prev' root' time' bits' nonce' p',
  ver < 2 ^ 32 -> ver' < 2 ^ 32 -> displays prev p -> displays prev' p' -> length p = 32%nat -> length p' = 32%nat ->
  length root = 32%nat -> length root' = 32%nat -> length time = 4%nat -> length time' = 4%nat ->
  length bits = 4%nat -> length bits' = 4%nat -> length nonce = 4%nat -> length nonce' = 4%nat ->
  build_block_header ver prev root time bits nonce = build_block_header ver' prev' root' time' bits' nonce' ->
  ver = ver' /\ p = p' /\ root = root' /\ time = time' /\ bits = bits' /\ nonce = nonce'.
Proof.
  intros ver prev root time bits nonce p ver' prev' root' time' bits' nonce' p' V V' D D' Lp Lp' Lr Lr' Lt Lt' Lb Lb' Ln Ln' E.
  destruct (C46_layout _ _ _ _ _ _ _ V D Lp Lr Lt Lb Ln) as (_ & A1 & A2 & A3 & A4 & A5 & A6).
  destruct (C46_layout _ _ _ _ _ _ _ V' D' Lp' Lr' Lt' Lb' Ln') as (_ & B1 & B2 & B3 & B4 & B5 & B6).
  rewrite E in *. split; [congruence|]. split; [congruence|]. split; [congruence|]. split; [congruence|]. split; congruence.
Qed.
Print Assumptions C46_injective.

(** the function checks none of the sizes: a malformed previous hash gives a short header *)
Theorem C46_always_80_refuted : ~ (forall ver prev root time bits nonce,
  length root = 32%nat -> length time = 4%nat -> length bits = 4%nat -> length nonce = 4%nat ->
  length (build_block_header ver prev root time bits nonce) = 80%nat).
Proof.
  intros H. specialize (H 1 [x67] (leaf 1) [x00;x00;x00;x00] [x00;x00;x00;x00] [x00;x00;x00;x00] eq_refl eq_refl eq_refl eq_refl).
  vm_compute in H. discriminate H.
Qed.
Print Assumptions C46_always_80_refuted.

Example C46_example :
  let h := build_block_header 536870912 (shown 7) (leaf 8) [x01;x02;x03;x04] [xff;xff;x00;x1d] [x09;x08;x07;x06] in
  length h = 80%nat /\ le_get (firstn 4 h) = 536870912 /\ firstn 32 (skipn 4 h) = leaf 7.
Proof. vm_compute. auto. Qed.

(** ** C47: coinbase transactions *)

(** the parts, joined with 12 bytes of extra nonces, are the canonical bytes of the
    coinbase transaction and parse back into it *)
Theorem C47_round_trip : forall height value text wallet miner witness ws a h x1 x2 e1 e2,
  value < 2 ^ 64 -> addr_from_string wallet = Ok a -> addr_pkh a = hex_encode h -> witness_data witness ws ->
  Forall (fun d => nlen d < 2 ^ 62) (ws ++ miner_data miner) ->
  hex_dec x1 = Some e1 -> hex_dec x2 = Some e2 -> length (e1 ++ e2) = 12%nat ->
  exists c1 c2, get_coinbase_parts height value witness text wallet miner = Ok (c1, c2) /\
    let t := coinbase_tx height value text (e1 ++ e2) h (ws ++ miner_data miner) in
    tx_to_bytes t = Ok (build_coinbase c1 c2 x1 x2) /\
    (forall sp, (scap (Sl (build_coinbase c1 c2 x1 x2) sp) < 2 ^ 62)%Z ->
     tx_from_slice (Sl (build_coinbase c1 c2 x1 x2) sp) = Ok t) /\
    is_coinbase t = Ok true /\ total_output_satoshis t = Ok value.
Proof.
  intros height value text wallet miner witness ws a h x1 x2 e1 e2 V A H W FD X1 X2 L.
  destruct (coinbase_wire height value text wallet miner witness ws a h x1 x2 e1 e2 V A H W FD X1 X2 L) as (c1 & c2 & E & WT).
  exists c1, c2. split; [exact E|]. cbv zeta. split; [now apply wire_tx_bytes|]. split.
  - intros sp C. apply tx_from_ok; [exact C|]. split; [now apply wire_tx_weaken|apply coinbase_fresh].
  - split; [apply coinbase_is|now apply coinbase_total].
Qed.
Print Assumptions C47_round_trip.

(** the unlocking script has at most 100 bytes and is complete when the text has at most 84 *)
Theorem C47_script : forall height text nonce, length nonce = 12%nat ->
  (length (coinbase_script height text nonce) <= 100)%nat /\
  ((length text <= 84)%nat -> coinbase_script height text nonce = x03 :: le_put 3 height ++ text ++ nonce).
Proof.
  intros height text nonce L. split; [now apply script_length|]. intros T. unfold coinbase_script.
  rewrite firstn_all2 by (cbn [length]; rewrite app_length, le_put_length; lia). cbn [app]. now rewrite <- app_assoc.
Qed.
Print Assumptions C47_script.

Theorem C47_errors : forall height value witness text wallet miner,
  ((forall a, addr_from_string wallet <> Ok a) \/ (witness <> [] /\ hex_dec witness = None)) ->
  exists e, get_coinbase_parts height value witness text wallet miner = Err e.
Proof. intros height value witness text wallet miner [H|[N H]]; [now apply parts_bad_wallet|now apply parts_bad_witness]. Qed.
Print Assumptions C47_errors.

Theorem C47_no_panic : forall height value witness text wallet miner,
  get_coinbase_parts height value witness text wallet miner <> Panic.
Proof. exact parts_no_panic. Qed.
Print Assumptions C47_no_panic.

(** the height is the BIP34 height only between 2^15 and 2^23 *)
Theorem C47_bip34_iff : forall height text nonce, height < 2 ^ 32 ->
  (bip34 height (coinbase_script height text nonce) <-> 2 ^ 15 <= height < 2 ^ 23).
Proof. exact bip34_range. Qed.
Print Assumptions C47_bip34_iff.

Theorem C47_height_refuted : ~ (forall h1 h2 text nonce, h1 < 2 ^ 32 -> h2 < 2 ^ 32 ->
  coinbase_script h1 text nonce = coinbase_script h2 text nonce -> h1 = h2).
Proof.
  intros H. specialize (H 700000 (700000 + 2 ^ 24) [] [] eq_refl eq_refl). assert (700000 = 700000 + 2 ^ 24) as B by (apply H; vm_compute; reflexivity). discriminate B.
Qed.
Print Assumptions C47_height_refuted.

Definition ex_wallet : bytes := addr_string (addr_from_pkh (repeat x2a 20) true).
Definition ex_witness : bytes := hex_encode [x6a; x01; x02].

(** extra nonces of another total size do not give that transaction *)
Theorem C47_any_nonce_refuted : exists c1 c2, get_coinbase_parts 700000 5000000000 [] [] ex_wallet [] = Ok (c1, c2) /\
  (forall t, tx_from_bytes (build_coinbase c1 c2 (hex_encode (repeat x01 4)) (hex_encode (repeat x02 4))) <> Ok t).
Proof.
  eexists _, _. split; [vm_compute; reflexivity|]. intros t H. vm_compute in H. discriminate H.
Qed.
Print Assumptions C47_any_nonce_refuted.

Lemma ex_wallet_ok : exists a, addr_from_string ex_wallet = Ok a /\ addr_pkh a = hex_encode (repeat x2a 20).
Proof. eexists. split; [apply (proj1 (addr_round (repeat x2a 20) true eq_refl))|]. reflexivity. Qed.

Example C47_example : exists c1 c2,
  get_coinbase_parts 700000 5000000000 ex_witness (repeat x41 200) ex_wallet (repeat x42 300) = Ok (c1, c2) /\
  tx_from_bytes (build_coinbase c1 c2 (hex_encode (repeat x01 8)) (hex_encode (repeat x02 4)))
  = Ok (coinbase_tx 700000 5000000000 (repeat x41 200) (repeat x01 8 ++ repeat x02 4) (repeat x2a 20) [[x6a; x01; x02]; repeat x42 300]) /\
  (exists e, get_coinbase_parts 700000 5000000000 [x67] [] ex_wallet [] = Err e) /\
  bip34 700000 (coinbase_script 700000 (repeat x41 200) (repeat x01 12)) /\
  ~ bip34 100 (coinbase_script 100 [] (repeat x01 12)).
Proof.
  destruct ex_wallet_ok as (a & A & H).
  destruct (C47_round_trip 700000 5000000000 (repeat x41 200) ex_wallet (repeat x42 300) ex_witness [[x6a; x01; x02]] a (repeat x2a 20)
    (hex_encode (repeat x01 8)) (hex_encode (repeat x02 4)) (repeat x01 8) (repeat x02 4)) as (c1 & c2 & E & _ & R & _).
  - reflexivity.
  - exact A.
  - exact H.
  - right. split; [discriminate|]. exists [x6a; x01; x02]. split; reflexivity.
  - repeat constructor.
  - apply hex_dec_encode.
  - apply hex_dec_encode.
  - reflexivity.
  - exists c1, c2. split; [exact E|]. split.
    + apply R. clear -E. vm_compute in E. injection E as <- <-. vm_compute. reflexivity.
    + split; [|split].
      * apply C47_errors. right. split; [discriminate|reflexivity].
      * apply C47_bip34_iff; [reflexivity|]. split; [discriminate|reflexivity].
      * rewrite C47_bip34_iff by reflexivity. intros [B _]. apply B. reflexivity.
Qed.
