(** Property theorems C66: what the merkle root says about the transaction list. *)
From Verif Require Import P_Malle T_Block.
From Coq Require Import ZifyBool ZifyNat ZifyN.

(** The root does not determine the list: repeating the last 2^k ids of a list of
    an odd number (at least 3) of such blocks keeps the root and the hashed messages. *)
Theorem C66_repeated_tail : forall txids txids' c ids, Forall2 displays txids (c :: ids) -> repeats_tail txids txids' ->
  build_merkle_root_from_coinbase c (get_merkle_branches txids') = build_merkle_root_from_coinbase c (get_merkle_branches txids).
Proof.
  intros txids txids' c ids F (k & m & M & L & ->). pose proof (F2_len F) as Q.
  assert (repeats_tail (c :: ids) (c :: ids ++ skipn (length (c :: ids) - 2 ^ k) (c :: ids))) as R.
  { exists k, m. split; [assumption|]. split; [congruence|reflexivity]. }
  destruct (repeats_map _ _ _ _ F R) as (ss & (k' & m' & M' & L' & ->) & F').
  assert (k' = k) as ->.
  { assert (forall a b x y, (2 * a + 1) * 2 ^ x = (2 * b + 1) * 2 ^ y -> x = y)%nat as U.
    { intros a b x. revert a b. induction x as [|x IH]; intros a b [|y] E; cbn [Nat.pow] in E; try lia. f_equal. eapply (IH a b). lia. }
    apply (U m' m). congruence. }
  apply (merkle_root_fun (c :: ids ++ skipn (length (c :: ids) - 2 ^ k) (c :: ids))).
  - apply C42_root. exact F'.
  - apply (repeats_same _ _ R). apply C42_root. exact F.
Qed.
Print Assumptions C66_repeated_tail.

(** Apart from that it does, among lists of the same tree depth: equal roots mean that
    both lists extend to the same list in this way, or that two of the messages
    hashed in the two trees collide. *)
Theorem C66_root_determines : forall txids txids' c ids c' ids', Forall2 displays txids (c :: ids) -> Forall2 displays txids' (c' :: ids') ->
  Forall (fun id => length id = 32%nat) (c :: ids) -> Forall (fun id => length id = 32%nat) (c' :: ids') ->
  Nat.log2_up (length txids) = Nat.log2_up (length txids') ->
  build_merkle_root_from_coinbase c (get_merkle_branches txids) = build_merkle_root_from_coinbase c' (get_merkle_branches txids') ->
  (exists l, extends (c :: ids) l /\ extends (c' :: ids') l) \/
  exists m m', hashed_in (c :: ids) m /\ hashed_in (c' :: ids') m' /\ dcollision m m'.
Proof.
  intros txids txids' c ids c' ids' F F' W W' D E. pose proof (C42_root _ _ _ F) as R. pose proof (C42_root _ _ _ F') as R'.
  rewrite <- E in R'. rewrite (F2_len F), (F2_len F') in D. exact (root_determines _ _ _ R R' D W W').
Qed.
Print Assumptions C66_root_determines.

(** in particular for lists of the same length *)
Theorem C66_same_count : forall txids txids' c ids c' ids', Forall2 displays txids (c :: ids) -> Forall2 displays txids' (c' :: ids') ->
  Forall (fun id => length id = 32%nat) (c :: ids) -> Forall (fun id => length id = 32%nat) (c' :: ids') ->
  length txids = length txids' ->
  build_merkle_root_from_coinbase c (get_merkle_branches txids) = build_merkle_root_from_coinbase c' (get_merkle_branches txids') ->
  c :: ids = c' :: ids' \/
  exists m m', hashed_in (c :: ids) m /\ hashed_in (c' :: ids') m' /\ dcollision m m'.
Proof.
  intros txids txids' c ids c' ids' F F' W W' D E. pose proof (C42_root _ _ _ F) as R. pose proof (C42_root _ _ _ F') as R'.
  rewrite <- E in R'. rewrite (F2_len F), (F2_len F') in D. exact (root_inj _ _ _ _ (le_n _) R R' D W W').
Qed.
Print Assumptions C66_same_count.

(** A list that extends another one contains nothing new: it repeats entries. *)
Theorem C66_extension_repeats : forall (l l' : list bytes), extends l l' ->
  (forall x, In x l' <-> In x l) /\ (l' = l \/ ~ NoDup l') /\ exists r, l' = l ++ r.
Proof.
  intros l l'. induction 1 as [l|l l1 l2 H _ (IH1 & IH2 & r & IH3)].
  - split; [reflexivity|]. split; [now left|]. exists []. now rewrite app_nil_r.
  - destruct (repeats_split _ _ H) as (k & m & pre & suf & M & P & S & -> & ->). split; [|split].
    + intros x. rewrite (IH1 x), !in_app_iff. tauto.
    + right. intros N. subst l2. destruct suf as [|a suf]; [pose proof (Nat.pow_nonzero 2 k); cbn [length] in S; lia|].
      rewrite <- !app_assoc in N. 
      assert (forall p q : list bytes, NoDup (p ++ q) -> NoDup q) as ND.
      { induction p as [|y p IHp]; intros q Hq; [assumption|]. inversion Hq; auto. }
      apply ND in N. cbn [app] in N. inversion N as [|? ? NI _]; subst. apply NI.
      apply in_or_app. right. apply in_eq.
    + exists (suf ++ r). subst l2. rewrite !app_assoc. reflexivity.
Qed.
Print Assumptions C66_extension_repeats.

(** MerkleRootFromBranches accepts every inner node in the place of a transaction id,
    with the part of a proof above that node. *)
Theorem C66_inner_node_accepted : forall ids root k l j x s p brs, merkle_root ids root -> level k ids l ->
  nth_error l j = Some x -> displays s x -> path l j p -> Forall2 displays brs p ->
  merkle_root_from_branches s (Z.of_nat j) brs = Ok (hex_encode (rev root)).
Proof. intros ids root k l j x s p brs R L. apply C44_completeness. eapply level_root; eassumption. Qed.
Print Assumptions C66_inner_node_accepted.

Definition ex66 : list N := [1;2;3;4;5;6].
Example C66_example :
  let l := map leaf ex66 in let l' := map leaf [1;2;3;4;5;6;5;6] in
  Forall2 displays (map shown ex66) l /\ repeats_tail (map shown ex66) (map shown [1;2;3;4;5;6;5;6]) /\
  Forall (fun id => length id = 32%nat) l' /\ extends l l' /\
  build_merkle_root_from_coinbase (leaf 1) (get_merkle_branches (map shown ex66)) =
  build_merkle_root_from_coinbase (leaf 1) (get_merkle_branches (map shown [1;2;3;4;5;6;5;6])) /\
  level 1 (map leaf [1;2;3;4]) [dsha (leaf 1 ++ leaf 2); dsha (leaf 3 ++ leaf 4)] /\
  merkle_root_from_branches (hex_encode (rev (dsha (leaf 3 ++ leaf 4)))) 1 [hex_encode (rev (dsha (leaf 1 ++ leaf 2)))] =
  Ok (hex_encode (rev (build_merkle_root_from_coinbase (leaf 1) (get_merkle_branches (map shown [1;2;3;4]))))).
Proof.
  cbv zeta.
  split; [unfold ex66; cbn [map]; repeat (constructor; [apply shown_displays|]); constructor|].
  split; [exists 1%nat, 1%nat; split; [lia|]; split; reflexivity|].
  split; [repeat constructor|].
  split; [eapply ext_step; [|constructor]; exists 1%nat, 1%nat; split; [lia|]; split; reflexivity|].
  split; [vm_compute; reflexivity|].
  split; [eapply level_up; [cbn; lia|apply pair_two, pair_two, pair_nil|apply level_leaves]|].
  vm_compute; reflexivity.
Qed.
