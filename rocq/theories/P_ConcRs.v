(** Proofs for C81. *)
From Verif Require Export P_Redeem S_ConcRs P_Conc.
From Coq Require Import Lia Permutation Sorting.Sorted ZifyBool ZifyNat ZifyN.

Notation ksolo := (solo kcell_eq kheld).
Notation kupd := (upd kcell_eq kheld).
Notation ks m := (public_keys (rs_at m)).

Lemma list_ext {A} (l1 : list A) : forall l2, (forall i, nth_error l1 i = nth_error l2 i) -> l1 = l2.
Proof.
  induction l1 as [|a l1 IH]; intros [|b l2] H; [reflexivity|discriminate (H 0%nat)|discriminate (H 0%nat)|].
  f_equal; [specialize (H 0%nat); cbn in H; congruence|]. apply IH. intros i. exact (H (S i)).
Qed.
Lemma keys_nth (m : kmem) i : nth_error (ks m) i = if Nat.ltb i (m KLen) then Some (m (KKey i)) else None.
Proof.
  cbn [rs_at public_keys]. rewrite nth_error_map. destruct (Nat.ltb_spec i (m KLen)) as [H|H].
  - rewrite (nth_error_nth' (seq 0 (m KLen)) 0%nat) by (rewrite seq_length; lia). rewrite seq_nth by lia. reflexivity.
  - assert (nth_error (seq 0 (m KLen)) i = None) as -> by (apply nth_error_None; rewrite seq_length; lia). reflexivity.
Qed.
Lemma keys_len (m : kmem) : length (ks m) = m KLen.
Proof. cbn [rs_at public_keys]. now rewrite map_length, seq_length. Qed.
Lemma keys_upd (m : kmem) i (v : bytes) : ks (kupd m (KKey i) v) = set_nth i v (ks m).
Proof.
  apply list_ext. intros k. rewrite nth_error_set, !keys_nth. rewrite (upd_other kcell_eq kheld m (KKey i) v KLen) by discriminate.
  destruct (Nat.eqb_spec i k) as [<-|N]; destruct (Nat.ltb i (m KLen)) eqn:L; try reflexivity.
  - now rewrite upd_same.
  - destruct (Nat.ltb k (m KLen)); [|reflexivity]. rewrite upd_other; congruence.
  - destruct (Nat.ltb k (m KLen)); [|reflexivity]. rewrite upd_other; congruence.
Qed.

Lemma keys_some (m : kmem) i a : nth_error (ks m) i = Some a -> m (KKey i) = a.
Proof. rewrite keys_nth. destruct (Nat.ltb i (m KLen)); [congruence|discriminate]. Qed.

Lemma solo_sorter {R} (k : kcall R) s : forall (m : kmem) l', sort_run s (ks m) = Some l' ->
  exists m' : kmem, ksolo m (c_sorter s k) = ksolo m' k /\ ks m' = l' /\ m' KLen = m KLen /\ m' KReq = m KReq.
Proof.
  induction s as [|i j f IH|i j f IH]; intros m l' H; cbn [sort_run c_sorter solo] in *.
  - injection H as <-. eauto.
  - destruct (nth_error (ks m) i) as [a|] eqn:Ea; [|discriminate]. destruct (nth_error (ks m) j) as [b|] eqn:Eb; [|discriminate].
    apply keys_some in Ea, Eb. rewrite Ea, Eb. now apply IH.
  - destruct (nth_error (ks m) i) as [a|] eqn:Ea; [|discriminate]. destruct (nth_error (ks m) j) as [b|] eqn:Eb; [|discriminate].
    apply keys_some in Ea, Eb. rewrite Ea, Eb. rewrite <- !keys_upd in H.
    destruct (IH _ _ H) as (m' & A & B & C & D). exists m'. split; [assumption|]. split; [assumption|].
    rewrite C, D, !upd_other by discriminate. auto.
Qed.
Lemma solo_keys {R} (m : kmem) (k : bytes -> kcall R) n : forall i b,
  ksolo m (c_keys b i n k) = ksolo m (k (fold_left (fun b pk => (b ++ [n2b (nlen pk)]) ++ pk) (map (fun i => m (KKey i)) (seq i n)) b)).
Proof. induction n as [|n IH]; intros i b; cbn [c_keys solo seq map fold_left]; [reflexivity|]. apply IH. Qed.

Lemma solo_get_redeem (sort : nat -> sorter) (m : kmem) l' : sort_run (sort (m KLen)) (ks m) = Some l' -> sorted_of (ks m) l' ->
  fst (ksolo m (c_get_redeem sort)) = fst (get_redeem_script (rs_at m)) /\
  rs_at (snd (ksolo m (c_get_redeem sort))) = snd (get_redeem_script (rs_at m)).
Proof.
  intros H S. unfold c_get_redeem. cbn [solo].
  match goal with |- context [solo kcell_eq kheld m (c_sorter ?s ?K)] =>
    destruct (solo_sorter K s m l' H) as (m' & E & K1 & K2 & K3); set (Z := solo kcell_eq kheld m (c_sorter s K)) in *; change (Z = solo kcell_eq kheld m' K) in E; clearbody Z end.
  rewrite E; clear E Z. cbn [solo]. rewrite upd_same, solo_keys. cbn [solo fst snd]. rewrite upd_same.
  assert (UK : forall l, kupd m' KLen (m KLen) l = m' l).
  { intros l. destruct (kcell_eq KLen l) as [<-|N]; [rewrite upd_same; congruence|now apply upd_other]. }
  assert (LK : map (fun i => kupd m' KLen (m KLen) (KKey i)) (seq 0 (m KLen)) = l').
  { rewrite <- K1. cbn [rs_at public_keys]. rewrite K2. apply map_ext. intros i. exact (UK (KKey i)). }
  apply sorted_of_sort in S. unfold get_redeem_script. cbn [fst snd]. rewrite LK. cbn [public_keys sigs_required]. rewrite <- S.
  split.
  - change (sigs_required (rs_at m)) with (m KReq). repeat f_equal. unfold nlen. rewrite <- (keys_len m), S. change (length (ks m)) with (length (ks m)).
    rewrite (Permutation_length (sort_perm (ks m))). reflexivity.
  - unfold rs_at at 1. rewrite upd_other by discriminate. rewrite upd_same, K3, LK. reflexivity.
Qed.

(** ** the keys are in order *)
Lemma foot_sorter {R} (m : kmem) (k : kcall R) (Rs : kcell -> Prop) Ws s : (forall l, Rs l) -> no_swaps s (ks m) -> foot kcell_eq kheld true m k Rs Ws -> foot kcell_eq kheld true m (c_sorter s k) Rs Ws.
Proof.
  intros RA. induction s as [|i j f IH|i j f IH]; intros H F; cbn [no_swaps c_sorter foot] in *; [assumption| |tauto].
  split; [left; apply RA|]. split; [left; apply RA|].
  destruct (nth_error (ks m) i) as [a|] eqn:Ea; [|tauto]. destruct (nth_error (ks m) j) as [b|] eqn:Eb; [|tauto].
  apply keys_some in Ea, Eb. rewrite Ea, Eb. now apply IH.
Qed.
Lemma foot_keys {R} (m : kmem) (k : bytes -> kcall R) (Rs : kcell -> Prop) Ws n : forall i b, (forall l, Rs l) -> (forall b, foot kcell_eq kheld true m (k b) Rs Ws) -> foot kcell_eq kheld true m (c_keys b i n k) Rs Ws.
Proof. induction n as [|n IH]; intros i b RA H; cbn [c_keys foot]; auto. Qed.
Lemma foot_get_redeem (m : kmem) (sort : nat -> sorter) : no_swaps (sort (m KLen)) (ks m) -> foot kcell_eq kheld true m (c_get_redeem sort) (fun _ => True) (fun _ => false).
Proof.
  intros H. unfold c_get_redeem. cbn [foot]. split; [auto|]. split; [auto|]. apply foot_sorter; [auto|assumption|]. cbn [foot].
  split; [right; auto|]. split; [auto|]. apply foot_keys; [auto|]. intros b. cbn [foot]. auto.
Qed.

(** ** the first swap of different keys, half done *)
Lemma half_swap {R B} (k : kcall R) (g : R -> kcall B) s : forall (m : kmem) (ps : list (kcall B)) t l',
  sort_run s (ks m) = Some l' -> l' <> ks m -> nth_error ps t = Some (bindp kheld (c_sorter s k) g) ->
  exists sch (m' : kmem) P i j a b, run kcell_eq kheld (m, ps) sch = (m', set_nth t P ps) /\
    m' KLen = m KLen /\ m' KReq = m KReq /\
    nth_error (ks m) i = Some a /\ nth_error (ks m) j = Some b /\ a <> b /\ ks m' = set_nth i b (ks m).
Proof.
  assert (SS : forall (A : Type) (l : list A) i x y, set_nth i x (set_nth i y l) = set_nth i x l).
  { intros A l; induction l as [|a l IH]; intros [|i] x y; cbn; try reflexivity. now rewrite IH. }
  assert (SI : forall (A : Type) (l : list A) i x, nth_error l i = Some x -> set_nth i x l = l).
  { intros A l; induction l as [|a l IH]; intros [|i] x; cbn; try discriminate; [now intros [= ->]|]. intros H. now rewrite IH. }
  assert (NS : forall t (ps : list (kcall B)) P x, nth_error ps t = Some x -> nth_error (set_nth t P ps) t = Some P).
  { intros t ps P x H. rewrite nth_error_set, Nat.eqb_refl, H. reflexivity. }
  induction s as [|i j f IH|i j f IH]; intros m ps t l' H D E; cbn [sort_run c_sorter bindp] in *.
  - congruence.
  - destruct (nth_error (ks m) i) as [a|] eqn:Ea; [|discriminate]. destruct (nth_error (ks m) j) as [b|] eqn:Eb; [|discriminate].
    assert (Ka := keys_some _ _ _ Ea). assert (Kb := keys_some _ _ _ Eb).
    match type of E with _ = Some (Rd _ ?K1) => pose proof (NS t ps (K1 (m (KKey i))) _ E) as E1 end. cbv beta in E1.
    match type of E1 with nth_error ?ps1 _ = Some (Rd _ ?K2) => pose proof (NS t ps1 (K2 (m (KKey j))) _ E1) as E2 end. cbv beta in E2.
    rewrite SS in E2.
    assert (E3 := E2). rewrite Ka, Kb in E3 at 2. rewrite Ka, Kb in E3.
    destruct (IH (bytes_less a b) m _ t l' H D E3) as (sch & m' & P & i' & j' & a' & b' & X & Y).
    exists (t :: t :: sch), m', P, i', j', a', b'. split; [|exact Y].
    erewrite run_rd by exact E. erewrite run_rd by exact E1. rewrite SS. rewrite Ka, Kb. rewrite X. now rewrite SS.
  - destruct (nth_error (ks m) i) as [a|] eqn:Ea; [|discriminate]. destruct (nth_error (ks m) j) as [b|] eqn:Eb; [|discriminate].
    assert (Ka := keys_some _ _ _ Ea). assert (Kb := keys_some _ _ _ Eb).
    match type of E with _ = Some (Rd _ ?K1) => pose proof (NS t ps (K1 (m (KKey i))) _ E) as E1 end. cbv beta in E1.
    match type of E1 with nth_error ?ps1 _ = Some (Rd _ ?K2) => pose proof (NS t ps1 (K2 (m (KKey j))) _ E1) as E2 end. cbv beta in E2.
    rewrite SS in E2. rewrite Ka, Kb in E2.
    assert (RW : forall (mm : kmem) (pp : list (kcall B)) l v q sc, nth_error pp t = Some (Wr l v q) -> run kcell_eq kheld (mm, pp) (t :: sc) = run kcell_eq kheld (kupd mm l v, set_nth t q pp) sc).
    { intros mm pp l v q sc W. unfold run. cbn [fold_left]. unfold step at 2. cbn [fst snd]. now rewrite W. }
    destruct (list_eq_dec Byte.byte_eq_dec a b) as [<-|N].
    + match type of E2 with nth_error ?ps1 _ = Some (Wr _ _ ?q) => pose proof (NS t ps1 q _ E2) as E3 end. rewrite SS in E3.
      match type of E3 with nth_error ?ps1 _ = Some (Wr _ _ ?q) => pose proof (NS t ps1 q _ E3) as E4 end. rewrite SS in E4.
      set (m2 := kupd (kupd m (KKey j) a) (KKey i) a).
      assert (KM : ks m2 = ks m) by (unfold m2; rewrite !keys_upd, (SI _ (ks m) j a Eb); now apply SI).
      destruct (IH m2 (set_nth t (bindp kheld (c_sorter f k) g) ps) t l') as (sch & m' & P & i' & j' & a' & b' & X & Y1 & Y2 & Y3 & Y4 & Y5 & Y6).
      { rewrite KM. rewrite (SI _ (ks m) j a Eb) in H. now rewrite (SI _ (ks m) i a Ea) in H. }
      { now rewrite KM. }
      { exact E4. }
      exists (t :: t :: t :: t :: sch), m', P, i', j', a', b'. split.
      { erewrite run_rd by exact E. erewrite run_rd by exact E1. rewrite SS, Ka, Kb. erewrite RW by exact E2. erewrite RW by (rewrite SS; exact E3).
        rewrite !SS. rewrite SS in X. exact X. }
      split; [rewrite Y1; unfold m2; now rewrite !upd_other by discriminate|]. split; [rewrite Y2; unfold m2; now rewrite !upd_other by discriminate|].
      rewrite KM in Y3, Y4, Y6. auto 10.
    + exists [t; t; t], (kupd m (KKey j) a).
      match type of E2 with nth_error ?ps1 _ = Some (Wr _ _ ?q) => exists q end. exists j, i, b, a. split.
      { erewrite run_rd by exact E. erewrite run_rd by exact E1. rewrite SS, Ka, Kb. erewrite RW by exact E2. now rewrite SS. }
      rewrite !upd_other by discriminate. rewrite keys_upd. auto 10.
Qed.

(** ** insertion sort *)
Lemma sorted_app_inv {A} (R : A -> A -> Prop) (l1 l2 : list A) : StronglySorted R (l1 ++ l2) ->
  StronglySorted R l1 /\ StronglySorted R l2 /\ forall a b, In a l1 -> In b l2 -> R a b.
Proof.
  induction l1 as [|x l1 IH]; cbn [app]; intros H.
  - split; [constructor|]. split; [assumption|]. intros a b [].
  - apply StronglySorted_inv in H. destruct H as [H F]. destruct (IH H) as (A1 & A2 & A3).
    rewrite Forall_app in F. destruct F as [F1 F2]. split; [constructor; assumption|]. split; [assumption|].
    intros a b [<-|Ha] Hb; [|now apply A3]. rewrite Forall_forall in F2. now apply F2.
Qed.
Lemma sorted_app {A} (R : A -> A -> Prop) (l1 l2 : list A) : StronglySorted R l1 -> StronglySorted R l2 ->
  (forall a b, In a l1 -> In b l2 -> R a b) -> StronglySorted R (l1 ++ l2).
Proof.
  induction l1 as [|x l1 IH]; cbn [app]; intros H1 H2 H; [assumption|]. apply StronglySorted_inv in H1. destruct H1 as [H1 F].
  constructor; [apply IH; auto; intros a b Ha; apply H; now right|]. rewrite Forall_app. split; [assumption|].
  apply Forall_forall. intros b Hb. apply H; [now left|assumption].
Qed.
Lemma set_mid {A} (p : list A) x y q : set_nth (length p) y (p ++ x :: q) = p ++ y :: q.
Proof. induction p as [|a p IH]; cbn; [reflexivity|]. now rewrite IH. Qed.
Lemma nth_mid_error {A} (p : list A) x q : nth_error (p ++ x :: q) (length p) = Some x.
Proof. induction p; cbn; auto. Qed.

Lemma inner_run k p : forall x q, exists r, Permutation (p ++ [x]) r /\ (StronglySorted lex_le p -> StronglySorted lex_le r) /\
  sort_run (ins_inner (length p) k) (p ++ x :: q) = sort_run k (r ++ q).
Proof.
  induction p as [|y p IH] using rev_ind; intros x q.
  - exists [x]. cbn. repeat split; auto. repeat constructor.
  - rewrite app_length. cbn [length]. rewrite Nat.add_1_r. cbn [ins_inner sort_run].
    assert (E1 : nth_error ((p ++ [y]) ++ x :: q) (S (length p)) = Some x).
    { replace (S (length p)) with (length (p ++ [y])) by (rewrite app_length; cbn; lia). apply nth_mid_error. }
    assert (E2 : nth_error ((p ++ [y]) ++ x :: q) (length p) = Some y) by (rewrite <- app_assoc; apply nth_mid_error).
    rewrite E1, E2. destruct (bytes_less x y) eqn:L.
    + cbn [sort_run]. rewrite E1, E2.
      assert (ES : set_nth (S (length p)) y (set_nth (length p) x ((p ++ [y]) ++ x :: q)) = p ++ x :: y :: q).
      { rewrite <- app_assoc. cbn [app]. rewrite set_mid. change (p ++ x :: x :: q) with (p ++ [x] ++ x :: q). rewrite app_assoc.
        replace (S (length p)) with (length (p ++ [x])) by (rewrite app_length; cbn; lia). rewrite set_mid. now rewrite <- app_assoc. }
      rewrite ES. destruct (IH x (y :: q)) as (r & P & S & E). exists (r ++ [y]). split; [|split].
      * rewrite <- P. rewrite <- !app_assoc. apply Permutation_app_head. cbn. constructor.
      * intros H. apply sorted_app_inv in H. destruct H as (H1 & _ & H2). apply sorted_app; [now apply S|repeat constructor|].
        intros a b Ha [<-|[]]. apply (Permutation_in _ (Permutation_sym P)) in Ha. apply in_app_or in Ha.
        destruct Ha as [Ha|[<-|[]]]; [apply H2; [assumption|now left]|]. now apply bytes_less_spec in L.
      * rewrite E, <- app_assoc. reflexivity.
    + exists ((p ++ [y]) ++ [x]). split; [reflexivity|]. split; [|now rewrite <- (app_assoc (p ++ [y]))].
      intros H. assert (H0 := H). apply sorted_app_inv in H. destruct H as (H1 & _ & H2). apply sorted_app; [assumption|repeat constructor|].
      apply bytes_less_false in L. intros a b Ha [<-|[]]. apply in_app_or in Ha. destruct Ha as [Ha|[<-|[]]]; [|assumption].
      eapply lex_le_trans; [apply H2; [exact Ha|now left]|exact L].
Qed.
Lemma outer_run q : forall p, StronglySorted lex_le p -> exists r, sort_run (ins_outer (length p) (length q)) (p ++ q) = Some r /\ Permutation (p ++ q) r /\ StronglySorted lex_le r.
Proof.
  induction q as [|x q IH]; intros p H; cbn [ins_outer length sort_run].
  - exists p. rewrite app_nil_r. auto.
  - destruct (inner_run (ins_outer (S (length p)) (length q)) p x q) as (r & P & SS & E).
    rewrite E. assert (LR : length r = S (length p)) by (rewrite <- (Permutation_length P), app_length; cbn; lia). rewrite <- LR.
    destruct (IH r (SS H)) as (r2 & E2 & P2 & S2). exists r2. split; [assumption|]. split; [|assumption].
    rewrite <- P2. change (x :: q) with ([x] ++ q). rewrite app_assoc. now apply Permutation_app_tail.
Qed.
Lemma insertion_sorting : sorting go_insertion.
Proof.
  intros [|x l]; [exists []; split; [reflexivity|split; constructor]|].
  destruct (outer_run l [x]) as (r & E & P & SR); [repeat constructor|]. exists r. split; [|split; assumption].
  unfold go_insertion. cbn [length]. replace (S (length l) - 1)%nat with (length l) by lia. exact E.
Qed.
Lemma inner_lazy k p x q : StronglySorted lex_le (p ++ x :: q) -> no_swaps k (p ++ x :: q) -> no_swaps (ins_inner (length p) k) (p ++ x :: q).
Proof.
  intros H N. destruct p as [|y p _] using rev_ind; [exact N|]. rewrite app_length. cbn [length]. rewrite Nat.add_1_r. cbn [ins_inner no_swaps].
  assert (E1 : nth_error ((p ++ [y]) ++ x :: q) (S (length p)) = Some x).
  { replace (S (length p)) with (length (p ++ [y])) by (rewrite app_length; cbn; lia). apply nth_mid_error. }
  assert (E2 : nth_error ((p ++ [y]) ++ x :: q) (length p) = Some y) by (rewrite <- app_assoc; apply nth_mid_error).
  rewrite E1, E2. apply sorted_app_inv in H. destruct H as (_ & _ & H).
  destruct (bytes_less x y) eqn:L; [|exact N]. exfalso. apply bytes_less_spec in L. destruct L as [L1 L2]. apply L2.
  apply lex_le_antisym; [assumption|]. apply H; [apply in_or_app; right; now left|now left].
Qed.
Lemma outer_lazy q : forall p, StronglySorted lex_le (p ++ q) -> no_swaps (ins_outer (length p) (length q)) (p ++ q).
Proof.
  induction q as [|x q IH]; intros p H; cbn [ins_outer length]; [exact I|]. apply inner_lazy; [assumption|].
  replace (p ++ x :: q) with ((p ++ [x]) ++ q) by (rewrite <- app_assoc; reflexivity).
  replace (S (length p)) with (length (p ++ [x])) by (rewrite app_length; cbn; lia). apply IH. now rewrite <- app_assoc.
Qed.
Lemma insertion_lazy : lazy_sorting go_insertion.
Proof.
  intros [|x l] H; [exact I|]. unfold go_insertion. cbn [length]. replace (S (length l) - 1)%nat with (length l) by lia.
  apply (outer_lazy l [x]). exact H.
Qed.
