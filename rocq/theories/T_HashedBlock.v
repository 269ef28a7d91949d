(** C108: how much is hashed for a Merkle tree. *)
From Verif Require Import S_HashedBlock P_Merkle P_Crypto P_Utils T_Hashed T_Block.
From Coq Require Import Lia ZifyBool ZifyNat ZifyN.

Lemma list_ind2 {A} (P : list A -> Prop) : P [] -> (forall x, P [x]) -> (forall x y r, P r -> P (x :: y :: r)) -> forall l, P l.
Proof.
  intros H0 H1 H2 l. enough (P l /\ forall x, P (x :: l)) as [Q _] by exact Q. induction l as [|a l [I J] ]; [split; [exact H0|exact H1]|].
  split; [apply J|]. intros x. apply H2, I.
Qed.
Lemma same_level l : fst (l_merkle_level l) = merkle_level l.
Proof.
  induction l as [|x|x y r IH] using list_ind2; [reflexivity|reflexivity|]. cbn [l_merkle_level merkle_level].
  destruct (l_merkle_level r) as [res l']. cbn [fst] in *. now rewrite IH.
Qed.
Lemma same_walk f : forall b l, fst (l_walk_branch f b l) = walk_branch f b l.
Proof.
  induction f as [|f IH]; intros b l; [reflexivity|]. destruct l as [|x [|y r] ]; [reflexivity|reflexivity|].
  cbn [l_walk_branch walk_branch]. pose proof (same_level (x :: y :: r)) as E. destruct (l_merkle_level (x :: y :: r)) as [res l']. cbn [fst] in E. subst res.
  rewrite <- IH. destruct (l_walk_branch f (b ++ [y]) (merkle_level (x :: y :: r))). reflexivity.
Qed.
Lemma same_build bs : forall acc, fst (l_build_merkle_root acc bs) = build_merkle_root_from_coinbase acc bs.
Proof.
  induction bs as [|b r IH]; intros acc; [reflexivity|]. cbn [l_build_merkle_root]. specialize (IH (sha256d (acc ++ hex_ignore b))).
  destruct (l_build_merkle_root (sha256d (acc ++ hex_ignore b)) r). exact IH.
Qed.
Lemma same_proof bs : forall h i, fst (l_merkle_proof_loop h i bs) = merkle_proof_loop h i bs.
Proof.
  induction bs as [|b r IH]; intros h i; [reflexivity|]. cbn [l_merkle_proof_loop merkle_proof_loop]. rewrite l_fst. change (fst (quiet (of_hex b))) with (of_hex b).
  destruct (of_hex b) as [x|e|]; cbn [bind]; try reflexivity. rewrite l_fst. destruct (0 <? Z.land i 1)%Z; cbn [l_sha256d fst bind]; apply IH.
Qed.

(** Noting what is hashed changes nothing. *)
Theorem C108_same_result :
  (forall ids, fst (l_get_merkle_branches ids) = get_merkle_branches ids) /\
  (forall c bs, fst (l_build_merkle_root c bs) = build_merkle_root_from_coinbase c bs) /\
  (forall s i bs, fst (l_merkle_root_from_branches s i bs) = merkle_root_from_branches s i bs).
Proof.
  split; [intros ids; apply same_walk|]. split; [intros c bs; apply same_build|]. intros s i bs.
  unfold l_merkle_root_from_branches, merkle_root_from_branches. rewrite l_fst. change (fst (quiet (of_hex s))) with (of_hex s).
  destruct (of_hex s) as [x|e|]; cbn [bind]; try reflexivity. rewrite l_fst, same_proof.
  destruct (merkle_proof_loop (reverse_bytes x) i bs) as [ [h j]|e|]; cbn [bind]; try reflexivity. destruct (0 <? j)%Z; reflexivity.
Qed.
Print Assumptions C108_same_result.

Lemma level_lens l : length (snd (l_merkle_level l)) = Nat.div2 (S (length l)) /\ length (merkle_level l) = Nat.div2 (S (length l)).
Proof.
  induction l as [|x|x y r [I J] ] using list_ind2; [split; reflexivity|split; reflexivity|]. cbn [l_merkle_level merkle_level length].
  destruct (l_merkle_level r) as [res l']. cbn [snd length] in *. change (Nat.div2 (S (S (S (length r))))) with (S (Nat.div2 (S (length r)))). lia.
Qed.
Lemma walk_count f : forall b l, (length l <= f)%nat -> pairs (length l) (length (snd (l_walk_branch f b l))).
Proof.
  induction f as [|f IH]; intros b l Lf; [destruct l; [constructor|cbn [length] in Lf; lia]|].
  destruct l as [|x [|y r] ]; [constructor|constructor|]. cbn [l_walk_branch].
  destruct (level_lens (x :: y :: r)) as [E1 E2]. pose proof (same_level (x :: y :: r)) as E.
  destruct (l_merkle_level (x :: y :: r)) as [res l']. cbn [fst snd] in *. subst res.
  set (k := length (x :: y :: r)) in *. assert (2 <= k)%nat as K2 by (unfold k; cbn [length]; lia).
  pose proof (Nat.div2_div (S k)) as D. rewrite D in *.
  assert (length (merkle_level (x :: y :: r)) <= f)%nat as Q.
  { rewrite E2. pose proof (Nat.div_lt_upper_bound (S k) 2 k). lia. }
  specialize (IH (b ++ [y]) _ Q). destruct (l_walk_branch f (b ++ [y]) (merkle_level (x :: y :: r))) as [out l2]. cbn [snd] in *.
  rewrite app_length, E1. rewrite E2 in IH. clearbody k. clear -IH K2. destruct (Nat.Even_or_Odd k) as [ [j ->] | [j ->] ].
  - assert (S (2 * j) / 2 = j)%nat as X by (symmetry; apply (Nat.div_unique (S (2 * j)) 2 j 1); lia). rewrite X in *. apply pairs_even; [lia|exact IH].
  - assert (S (2 * j + 1) / 2 = j + 1)%nat as X by (symmetry; apply (Nat.div_unique (S (2 * j + 1)) 2 (j + 1) 0); lia). rewrite X in *. apply pairs_odd; [lia|exact IH].
Qed.
Lemma pairs_bounds n w : pairs n w -> (0 < n)%nat -> (n - 1 <= w <= n - 1 + Nat.log2_up n)%nat.
Proof.
  induction 1 as [| |k w K _ IH|k w K _ IH]; intros P; [lia|cbn; lia| |].
  - rewrite Nat.log2_up_double by lia. lia.
  - assert (Nat.log2_up (2 * k + 1) = S (Nat.log2_up (k + 1))) as ->; [|lia].
    rewrite (Nat.log2_up_eqn (2 * k + 1)) by lia. rewrite (Nat.log2_up_eqn (k + 1)) by lia.
    replace (Nat.pred (2 * k + 1)) with (2 * k)%nat by lia. replace (Nat.pred (k + 1)) with k by lia. now rewrite Nat.log2_double by lia.
Qed.
Lemma pairs_power j : pairs (2 ^ j) (2 ^ j - 1).
Proof.
  induction j as [|j IH]; [constructor|]. pose proof (Nat.pow_nonzero 2 j). change (2 ^ S j)%nat with (2 * 2 ^ j)%nat.
  replace (2 * 2 ^ j - 1)%nat with (2 ^ j + (2 ^ j - 1))%nat by lia. apply pairs_even; [lia|exact IH].
Qed.

(** The branches of a block of [n] transactions cost between [n - 1] and [n - 1 + log2 n] hashes. *)
Theorem C108_branches : forall ids,
  let w := length (snd (l_get_merkle_branches ids)) in
  pairs (length ids) w /\
  (ids <> [] -> (length ids - 1 <= w <= length ids - 1 + Nat.log2_up (length ids))%nat) /\
  (forall j, length ids = (2 ^ j)%nat -> w = (length ids - 1)%nat).
Proof.
  intros ids w. assert (pairs (length ids) w) as P.
  { unfold w, l_get_merkle_branches. rewrite get_hashes_eq. pose proof (walk_count (length (map reverse_hex_string ids)) [] (map reverse_hex_string ids) (le_n _)) as P. now rewrite map_length in P |- *. }
  split; [exact P|]. split; [intros N; apply (pairs_bounds _ _ P); destruct ids; [now exfalso|cbn [length]; lia]|].
  intros j E. rewrite E in P |- *. clear E. assert (forall a x, pairs a x -> forall y, pairs a y -> x = y) as U; [|exact (U _ _ P _ (pairs_power j))].
  clear. induction 1 as [| |k x K A IH|k x K A IH]; intros y B; inversion B as [| |k' y' K' B' E'|k' y' K' B' E']; subst; try lia.
  - assert (k' = k) as -> by lia. now rewrite (IH _ B').
  - assert (k' = k) as -> by lia. now rewrite (IH _ B').
Qed.
Print Assumptions C108_branches.

(** Each of them is of 64 bytes, if the txids are. *)
Lemma level_64 l : Forall (fun t => exists x, hex_dec t = Some x /\ length x = 32%nat) l ->
  Forall (fun m => length m = 64%nat) (snd (l_merkle_level l)) /\ Forall (fun t => exists x, hex_dec t = Some x /\ length x = 32%nat) (merkle_level l).
Proof.
  assert (forall b, exists x, hex_dec (hex_encode (sha256d b)) = Some x /\ length x = 32%nat) as HH by (intros b; exists (sha256d b); split; [apply hex_dec_encode|apply sha256d_len]).
  induction l as [|x|x y r IH] using list_ind2; intros F.
  - split; constructor.
  - inversion F as [|? ? (a & E & L) _]; subst. cbn [l_merkle_level merkle_level snd]. rewrite (hex_dec_ignore _ _ E). split; constructor; try constructor; [rewrite app_length; lia|apply HH].
  - inversion F as [|? ? (a & E & L) F']; subst. inversion F' as [|? ? (b & E' & L') F2]; subst. destruct (IH F2) as [I J].
    cbn [l_merkle_level merkle_level]. destruct (l_merkle_level r) as [res l']. cbn [snd] in *. rewrite (hex_dec_ignore _ _ E), (hex_dec_ignore _ _ E').
    split; constructor; [rewrite app_length; lia|exact I|apply HH|exact J].
Qed.
Lemma walk_64 f : forall b l, Forall (fun t => exists x, hex_dec t = Some x /\ length x = 32%nat) l -> Forall (fun m => length m = 64%nat) (snd (l_walk_branch f b l)).
Proof.
  induction f as [|f IH]; intros b l F; [constructor|]. destruct l as [|x [|y r] ]; [constructor|constructor|]. cbn [l_walk_branch].
  destruct (level_64 _ F) as [A B]. pose proof (same_level (x :: y :: r)) as E. destruct (l_merkle_level (x :: y :: r)) as [res l']. cbn [fst snd] in *. subst res.
  specialize (IH (b ++ [y]) _ B). destruct (l_walk_branch f (b ++ [y]) (merkle_level (x :: y :: r))). cbn [snd] in *. apply Forall_app. now split.
Qed.
Theorem C108_branches_sizes : forall ids, Forall (fun t => exists x, hex_dec t = Some x /\ length x = 32%nat) ids ->
  Forall (fun m => length m = 64%nat) (snd (l_get_merkle_branches ids)).
Proof.
  intros ids F. unfold l_get_merkle_branches. rewrite get_hashes_eq. apply walk_64. induction F as [|t l (x & E & L) _ IH]; [constructor|]. cbn [map]. constructor; [|exact IH].
  exists (rev x). split; [now apply c04_hex|now rewrite rev_length].
Qed.
Print Assumptions C108_branches_sizes.

(** Going up from the coinbase transaction takes one hash for every branch: of the coinbase hash and the branch, then of 32 bytes
    and the branch. *)
Theorem C108_build : forall c bs ds, Forall2 (fun b d => hex_dec b = Some d) bs ds ->
  map (@length byte) (snd (l_build_merkle_root c bs)) =
  match ds with [] => [] | d :: r => (length c + length d)%nat :: map (fun d => 32 + length d)%nat r end.
Proof.
  intros c bs ds F.
  assert (forall bs ds, Forall2 (fun b d => hex_dec b = Some d) bs ds -> forall c, length c = 32%nat ->
    map (@length byte) (snd (l_build_merkle_root c bs)) = map (fun d => 32 + length d)%nat ds) as G.
  { clear. induction 1 as [|b d bs ds E _ IH]; intros c L; [reflexivity|]. cbn [l_build_merkle_root map]. specialize (IH (sha256d (c ++ hex_ignore b)) (sha256d_len _)).
    destruct (l_build_merkle_root (sha256d (c ++ hex_ignore b)) bs) as [o l]. cbn [snd map] in *. rewrite app_length, L, (hex_dec_ignore _ _ E). now f_equal. }
  destruct F as [|b d bs ds E F]; [reflexivity|]. cbn [l_build_merkle_root]. pose proof (G _ _ F (sha256d (c ++ hex_ignore b)) (sha256d_len _)) as Q.
  destruct (l_build_merkle_root (sha256d (c ++ hex_ignore b)) bs) as [o l]. cbn [snd map] in *. rewrite app_length, (hex_dec_ignore _ _ E). now f_equal.
Qed.
Print Assumptions C108_build.

Lemma proof_cost : forall p rest, Forall (fun b => hex_dec b <> None) p -> (rest = [] \/ exists t r, rest = t :: r /\ hex_dec t = None) ->
  forall h i, length (snd (l_merkle_proof_loop h i (p ++ rest))) = length p.
Proof.
  induction p as [|b p IH]; intros rest F R h i; cbn [app].
  - destruct R as [-> | (t & r & -> & E)]; [reflexivity|]. cbn [l_merkle_proof_loop].
    destruct (of_hex t) as [x|e|] eqn:H; [apply of_hex_ok in H; congruence|reflexivity|reflexivity].
  - inversion F as [|? ? N F']; subst. destruct (hex_dec b) as [d|] eqn:H; [|now exfalso]. apply of_hex_ok in H.
    cbn [l_merkle_proof_loop]. rewrite H, lq. cbv zeta. destruct (0 <? Z.land i 1)%Z; unfold lbind, l_sha256d; cbn [fst snd]; rewrite app_length, (IH rest F' R); reflexivity.
Qed.
Lemma proof_64 bs : Forall (fun b => exists d, hex_dec b = Some d /\ length d = 32%nat) bs ->
  forall h i, length h = 32%nat -> Forall (fun m => length m = 64%nat) (snd (l_merkle_proof_loop h i bs)).
Proof.
  induction 1 as [|b bs (d & E & L) _ IH]; intros h i Lh; [constructor|]. apply of_hex_ok in E. cbn [l_merkle_proof_loop]. rewrite E, lq. cbv zeta.
  assert (length (reverse_bytes d) = 32%nat) as L' by (rewrite reverse_bytes_rev, rev_length; exact L).
  destruct (0 <? Z.land i 1)%Z; unfold lbind, l_sha256d; cbn [fst snd app]; (constructor; [rewrite app_length; lia|apply IH, sha256d_len]).
Qed.
Lemma end_quiet (r : logged (bytes * Z)) n : 
  snd (lbind r (fun r => let '(hash, txIndex) := r in if (0 <? txIndex)%Z then quiet (Err (EIndexRange txIndex n)) else quiet (Ok (hex_encode (reverse_bytes hash))))) = snd r.
Proof. unfold lbind. destruct r as [ [ [h j]|e|] l]; cbn [fst snd]; try reflexivity. destruct (0 <? j)%Z; apply app_nil_r. Qed.

(** A Merkle proof is hashed up to the first branch that is no hexadecimal text, whatever the index. *)
Theorem C108_proof : forall s i p rest, Forall (fun b => hex_dec b <> None) p -> (rest = [] \/ exists t r, rest = t :: r /\ hex_dec t = None) ->
  length (snd (l_merkle_root_from_branches s i (p ++ rest))) = match hex_dec s with Some _ => length p | None => O end.
Proof.
  intros s i p rest F R. unfold l_merkle_root_from_branches. destruct (hex_dec s) as [x|] eqn:E.
  - apply of_hex_ok in E. rewrite E, lq. cbv zeta. rewrite end_quiet. now apply proof_cost.
  - destruct (of_hex s) as [x|e|] eqn:H; [apply of_hex_ok in H; congruence|reflexivity|reflexivity].
Qed.
Print Assumptions C108_proof.
Theorem C108_proof_sizes : forall s i bs, Forall (fun b => exists d, hex_dec b = Some d /\ length d = 32%nat) (s :: bs) ->
  Forall (fun m => length m = 64%nat) (snd (l_merkle_root_from_branches s i bs)).
Proof.
  intros s i bs F. inversion F as [|? ? (x & E & L) F']; subst. unfold l_merkle_root_from_branches. apply of_hex_ok in E. rewrite E, lq. cbv zeta. rewrite end_quiet.
  apply proof_64; [exact F'|]. rewrite reverse_bytes_rev, rev_length. exact L.
Qed.
Print Assumptions C108_proof_sizes.

(** An index that no proof of that length can have is refused only after all the hashing. *)
Theorem C108_refused_early_refuted :
  ~ (forall s i bs, (2 ^ Z.of_nat (length bs) <= i)%Z -> snd (l_merkle_root_from_branches s i bs) = []).
Proof.
  intros H. specialize (H (str "00") 2%Z [str "00"]). assert (2 ^ Z.of_nat (length [str "00"]) <= 2)%Z as A by (cbn; lia). specialize (H A).
  apply (f_equal (@length bytes)) in H. revert H. change [str "00"] with ([str "00"] ++ []). rewrite C108_proof; [|constructor; [discriminate|constructor]|now left]. discriminate.
Qed.
Print Assumptions C108_refused_early_refuted.

Lemma build_count bs : forall c, length (snd (l_build_merkle_root c bs)) = length bs.
Proof.
  induction bs as [|b r IH]; intros c; [reflexivity|]. cbn [l_build_merkle_root]. specialize (IH (sha256d (c ++ hex_ignore b))).
  destruct (l_build_merkle_root (sha256d (c ++ hex_ignore b)) r) as [o l]. cbn [snd length] in *. now rewrite IH.
Qed.
(** What the branches are for: a new coinbase transaction costs as many hashes as the tree has levels. *)
Theorem C108_new_coinbase : forall c ids, length (snd (l_build_merkle_root c (get_merkle_branches ids))) = Nat.log2_up (length ids).
Proof. intros c ids. rewrite build_count. apply C43_length. Qed.
Print Assumptions C108_new_coinbase.
(** The number of pairs is a function of the number of leaves, and there is one for every number. *)
Theorem C108_pairs : forall n, exists! w, pairs n w.
Proof.
  intros n. exists (length (snd (l_get_merkle_branches (repeat [] n)))). split.
  - destruct (C108_branches (repeat [] n)) as (P & _). now rewrite repeat_length in P.
  - intros y B. destruct (C108_branches (repeat [] n)) as (P & _). rewrite repeat_length in P.
    revert P y B. generalize (length (snd (l_get_merkle_branches (repeat [] n)))). clear. intros w.
    induction 1 as [| |k x K A IH|k x K A IH]; intros y B; inversion B as [| |k' y' K' B' E'|k' y' K' B' E']; subst; try lia.
    + assert (k' = k) as -> by lia. now rewrite (IH _ B').
    + assert (k' = k) as -> by lia. now rewrite (IH _ B').
Qed.
Print Assumptions C108_pairs.

(** Five transactions; a proof with a branch that is no text. *)
Definition hash_id (n : N) : bytes := hex_encode (repeat (n2b n) 32).
Example C108_example :
  Forall (fun t => exists x, hex_dec t = Some x /\ length x = 32%nat) (map hash_id [1; 2; 3; 4; 5]) /\
  pairs 5 6 /\ length (snd (l_get_merkle_branches (map hash_id [1; 2; 3; 4; 5]))) = 6%nat /\
  map (@length byte) (snd (l_build_merkle_root [x01] (map hash_id [1; 2; 3]))) = [33; 64; 64]%nat /\
  map (@length byte) (snd (l_merkle_root_from_branches (hash_id 1) 9 (map hash_id [1; 2] ++ [str "0g"; hash_id 3]))) = [64; 64]%nat.
Proof.
  split; [|split; [|split; [|split] ] ].
  - repeat (constructor; [eexists; split; [apply hex_dec_encode|reflexivity]|]). constructor.
  - apply (pairs_odd 2 3); [lia|]. apply (pairs_odd 1 1); [lia|]. apply (pairs_even 1 0); [lia|constructor].
  - vm_compute. reflexivity.
  - vm_compute. reflexivity.
  - vm_compute. reflexivity.
Qed.
