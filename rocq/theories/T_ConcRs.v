(** C81: one RedeemScript in several goroutines. *)
From Verif Require Import P_ConcRs.
From Coq Require Import Lia Permutation ZifyBool ZifyNat ZifyN.

(** a call that is alone: the value models *)
Theorem C81_alone sort m j : sorting sort ->
  fst (solo kcell_eq kheld m (r_started sort j)) = r_value (rs_at m) j /\
  rs_at (snd (solo kcell_eq kheld m (r_started sort j))) = mk_rs (m KReq) (sort_byte_arrays (public_keys (rs_at m))).
Proof.
  intros S. destruct (S (ks m)) as (l' & E & SO). rewrite keys_len in E. destruct (solo_get_redeem sort m l' E SO) as (A & B).
  unfold r_started. rewrite solo_bind. cbn [solo fst snd]. rewrite A, B.
  split; [|unfold get_redeem_script; reflexivity].
  destruct j; cbn [r_finish r_value]; unfold get_redeem_script_hash, redeem_get_address; destruct (get_redeem_script (rs_at m)); reflexivity.
Qed.

(** keys that are in order: every schedule of any number of calls gives what each call gives
    alone, and the keys stay as they are *)
Theorem C81_once_sorted sort m js schedule rs : sorting sort -> lazy_sorting sort ->
  StronglySorted lex_le (public_keys (rs_at m)) -> returned kheld (r_together sort m js schedule) rs ->
  rs = map (r_value (rs_at m)) js.
Proof.
  intros S Lz SO H. assert (NS : no_swaps (sort (m KLen)) (ks m)) by (rewrite <- keys_len; now apply Lz).
  destruct (apart_outcome kcell_eq kheld true m (map (r_started sort) js) (fun _ _ => True) (fun _ _ => false) schedule rs) as (E & _);
    [intros i j l _ _ _ Z; discriminate| |exact H|].
  - intros i p Hp. rewrite nth_error_map in Hp. destruct (nth_error js i); [|discriminate]. injection Hp as <-. apply foot_bind; [now apply foot_get_redeem|exact I].
  - rewrite E, map_map. apply map_ext. intros j. now apply C81_alone.
Qed.
Theorem C81_sorted_keys_stay sort m js schedule : lazy_sorting sort ->
  StronglySorted lex_le (public_keys (rs_at m)) -> forall l, fst (r_together sort m js schedule) l = m l.
Proof.
  intros Lz SO l. assert (NS : no_swaps (sort (m KLen)) (ks m)) by (rewrite <- keys_len; now apply Lz).
  destruct (inv_run kcell_eq kheld true m (map (r_started sort) js) (fun _ _ => True) (fun _ _ => false) schedule) as (_ & _ & H);
    [intros i j l' _ _ _ Z; discriminate| |apply H; reflexivity].
  intros i p Hp. rewrite nth_error_map in Hp. destruct (nth_error js i); [|discriminate]. injection Hp as <-. apply foot_bind; [now apply foot_get_redeem|exact I].
Qed.

(** keys that are not in order, any way of sorting: there is a schedule of two calls in which the
    second returns the script (hash, address) of other keys: one key is replaced by another *)
Theorem C81_unsorted_keys sort m j0 j1 : sorting sort -> ~ StronglySorted lex_le (public_keys (rs_at m)) ->
  exists i j a b schedule r0,
    nth_error (public_keys (rs_at m)) i = Some a /\ nth_error (public_keys (rs_at m)) j = Some b /\ a <> b /\
    returned kheld (r_together sort m [j0; j1] schedule) [r0; r_value (mk_rs (m KReq) (set_nth i b (public_keys (rs_at m)))) j1].
Proof.
  intros S NS. destruct (S (ks m)) as (l' & E & SO). rewrite keys_len in E.
  assert (D : l' <> ks m) by (intros ->; apply NS, SO).
  unfold r_together. cbn [map].
  set (p1 := r_started sort j1).
  assert (E0 : exists K, run kcell_eq kheld (m, [r_started sort j0; p1]) [0; 0]%nat = (m, [bindp kheld (c_sorter (sort (m KLen)) K) (fun s => Ret (r_finish j0 s)); p1])).
  { eexists. unfold r_started, c_get_redeem. cbn [bindp]. do 2 (erewrite run_rd by reflexivity; cbn [set_nth bindp]). reflexivity. }
  destruct E0 as (K & E0).
  destruct (half_swap K (fun s => Ret (r_finish j0 s)) (sort (m KLen)) m [bindp kheld (c_sorter (sort (m KLen)) K) (fun s => Ret (r_finish j0 s)); p1] 0 l' E D eq_refl)
    as (sch & m' & P & i & j & a & b & X & Y1 & Y2 & Y3 & Y4 & Y5 & Y6).
  cbn [set_nth] in X.
  destruct (run_to_end kcell_eq kheld p1 m' [P; p1] 1 eq_refl) as (sch1 & X1). cbn [set_nth] in X1.
  destruct (C81_alone sort m' j1 S) as (V & _). fold p1 in V. rewrite V in X1.
  set (m2 := snd (ksolo m' p1)) in *.
  destruct (run_to_end kcell_eq kheld P m2 [P; Ret (r_value (rs_at m') j1)] 0 eq_refl) as (sch2 & X2). cbn [set_nth] in X2.
  exists i, j, a, b, ([0; 0]%nat ++ sch ++ sch1 ++ sch2), (fst (ksolo m2 P)). repeat (split; [assumption|]).
  unfold returned. rewrite !run_app, E0, X, X1, X2. cbn [snd map]. do 3 f_equal. f_equal. unfold rs_at in Y6 |- *. cbn [public_keys] in Y6. rewrite Y6, Y2. reflexivity.
Qed.

(** which is not the script of the keys *)
Lemma replaced_not_perm (l : list bytes) i a b : nth_error l i = Some a -> a <> b -> ~ Permutation l (set_nth i b l).
Proof.
  intros E N P. apply nth_error_split in E. destruct E as (l1 & l2 & -> & <-). rewrite set_mid in P.
  apply (Permutation_count_occ (list_eq_dec Byte.byte_eq_dec)) with (x := a) in P. revert P. unfold bytes in *.
  rewrite !count_occ_app. rewrite count_occ_cons_eq by reflexivity. rewrite count_occ_cons_neq by congruence. lia.
Qed.
Theorem C81_wrong_script r keys i a b : nth_error keys i = Some a -> a <> b ->
  nlen keys < 256 -> (forall k, In k keys -> nlen k < 256) -> nlen b < 256 ->
  r_value (mk_rs r (set_nth i b keys)) RScript <> r_value (mk_rs r keys) RScript.
Proof.
  intros E N L B1 B2 H. cbn [r_value] in H. rewrite !redeem_value in H. cbn [fst public_keys sigs_required] in H.
  assert (M : Z.to_N (r mod 256) < 256) by (pose proof (Z.mod_pos_bound r 256); lia).
  apply multisig_inj in H; try assumption.
  - destruct H as [_ H]. apply (replaced_not_perm keys i a b E N). apply (Permutation_trans (sort_perm keys)). rewrite <- H. apply Permutation_sym, sort_perm.
  - pose proof (Permutation_length (sort_perm (set_nth i b keys))) as PL. rewrite set_nth_len in PL. unfold nlen, bytes in *. lia.
  - pose proof (Permutation_length (sort_perm keys)) as PL. unfold nlen, bytes in *. lia.
  - intros k Hk. apply (Permutation_in _ (Permutation_sym (sort_perm _))) in Hk.
    apply In_nth_error in Hk. destruct Hk as (n & Hn). rewrite nth_error_set in Hn. destruct (Nat.eqb i n).
    + match type of Hn with match ?x with _ => _ end = _ => destruct x; [|discriminate Hn] end. injection Hn as <-. exact B2.
    + eapply B1, nth_error_In, Hn.
  - intros k Hk. apply (Permutation_in _ (Permutation_sym (sort_perm _))) in Hk. now apply B1.
Qed.

(** With Go's insertion sort and two keys that are not in order, a key can be lost for good:
    afterwards the RedeemScript names one key twice. *)
Theorem C81_key_lost (m : kmem) (a b : bytes) : m KLen = 2%nat -> m (KKey 0) = b -> m (KKey 1) = a -> bytes_less a b = true ->
  exists schedule, let c := r_together go_insertion m [RScript; RScript] schedule in
    let two := mk_rs (m KReq) [a; a] in
    returned kheld c [r_value two RScript; r_value two RScript] /\ rs_at (fst c) = two.
Proof.
  intros L Kb Ka LT.
  exists [1;1;1;1;1; 0;0;0;0;0;0;0;0; 1;1;1; 0;0;0;0;0; 1;1;1;1;1]%nat. cbv zeta. unfold r_together. cbn [map].
  unfold r_started, c_get_redeem. cbn [bindp].
  Ltac stp L Ka Kb LT := first [erewrite run_rd by reflexivity|erewrite (run_wr kcell_eq kheld _ _ _ KLen) by reflexivity|erewrite (run_wr kcell_eq kheld _ _ _ (KKey 0)) by reflexivity|erewrite (run_wr kcell_eq kheld _ _ _ (KKey 1)) by reflexivity]; cbn [set_nth bindp];
    repeat (rewrite upd_same || rewrite upd_other by discriminate); rewrite ?L, ?Ka, ?Kb, ?LT; cbn [c_sorter go_insertion ins_outer ins_inner Nat.sub bindp c_keys].
  do 26 stp L Ka Kb LT. cbn [run fold_left fst snd].
  assert (SO : sort_byte_arrays [a; a] = [a; a]).
  { unfold sort_byte_arrays. cbn. now destruct (bytes_less a a). }
  split.
  - unfold returned. cbn [snd map r_value r_finish]. unfold get_redeem_script. cbn [fst public_keys sigs_required]. rewrite SO. reflexivity.
  - unfold rs_at. repeat (rewrite upd_same || rewrite upd_other by discriminate). cbn [seq map].
    repeat (rewrite upd_same || rewrite upd_other by discriminate). reflexivity.
Qed.

(** Go's insertion sort (what sort.Sort does to short slices) is such a way of sorting. *)
Theorem C81_insertion_sort : sorting go_insertion /\ lazy_sorting go_insertion.
Proof. split; [exact insertion_sorting|exact insertion_lazy]. Qed.
Print Assumptions C81_insertion_sort.

(** ** Non-vacuity: Go's insertion sort is such a way of sorting; a 1-of-2 with its keys out of
    order. *)
Definition ex_kmem : kmem := fun c => match c as c return kheld c with
  | KReq => 1%Z | KLen => 2%nat | KKey 0 => [x03; x01] | KKey _ => [x02; x01] end.
Example C81_example :
  sorting go_insertion /\ lazy_sorting go_insertion /\
  ~ StronglySorted lex_le (public_keys (rs_at ex_kmem)) /\
  (ex_kmem KLen = 2%nat /\ bytes_less (ex_kmem (KKey 1)) (ex_kmem (KKey 0)) = true) /\
  r_value (rs_at ex_kmem) RScript = [x51; x02; x02; x01; x02; x03; x01; x52; xae] /\
  StronglySorted lex_le (public_keys (rs_at (snd (solo kcell_eq kheld ex_kmem (r_started go_insertion RScript))))).
Proof.
  split; [exact insertion_sorting|]. split; [exact insertion_lazy|]. split.
  { intros H. inversion H as [|x y H1 H2]; subst. inversion H2 as [|x y H3 H4]; subst. inversion H3 as [|x y c d HL|]; subst. revert HL. vm_compute. discriminate. }
  split; [split; reflexivity|]. split; [reflexivity|].
  destruct (C81_alone go_insertion ex_kmem RScript insertion_sorting) as (_ & ->). cbn [public_keys]. apply sort_sorted.
Qed.

Print Assumptions C81_alone.
Print Assumptions C81_once_sorted.
Print Assumptions C81_sorted_keys_stay.
Print Assumptions C81_unsorted_keys.
Print Assumptions C81_wrong_script.
Print Assumptions C81_key_lost.
