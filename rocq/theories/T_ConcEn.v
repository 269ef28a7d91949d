(** C90: Encrypt and Decrypt in several goroutines on slices of one array. *)
From Verif Require Import P_ConcEn.
From Coq Require Import Lia ZifyBool ZifyNat.
Open Scope N_scope.

(** a call that is alone: the value model of C52 and C53, and nothing else changes *)
Theorem C90_alone m j : block_cipher j ->
  fst (solo Nat.eq_dec bheld m (job_call j)) = job_alone m j /\
  (forall l, ~ overwritten j l -> snd (solo Nat.eq_dec bheld m (job_call j)) l = m l) /\
  (forall E off len, j = JDec E off len ->
     slice_at (snd (solo Nat.eq_dec bheld m (job_call j))) off len = snd (decrypt (mk_block 16 E) (slice_at m off len))).
Proof.
  intros H. split; [now apply solo_job|]. split.
  - intros l Hl. apply (solo_frame Nat.eq_dec bheld false (job_call j) (touched j) (wjob j) m (foot_job m j)).
    destruct (wjob j l) eqn:W; [|reflexivity]. apply wjob_iff in W. contradiction.
  - intros E off len ->. now apply solo_decrypt.
Qed.

(** nobody overwrites what another one uses: no data race, every schedule gives each call its result,
    nothing else changes, and every decrypted slice holds what Decrypt leaves in it *)
Theorem C90_apart m js schedule : Forall block_cipher js -> separate_jobs js ->
  let c := jobs_together m js schedule in
  ~ race bheld c /\
  (forall l, (forall j, In j js -> ~ overwritten j l) -> fst c l = m l) /\
  forall rs, returned bheld c rs -> rs = map (job_alone m) js /\
    forall E off len, (16 <= len)%nat -> In (JDec E off len) js -> slice_at (fst c) off len = snd (decrypt (mk_block 16 E) (slice_at m off len)).
Proof.
  intros B S. cbv zeta. unfold jobs_together.
  set (Rs := fun i l => match nth_error js i with Some j => touched j l | None => False end).
  set (Ws := fun i l => match nth_error js i with Some j => wjob j l | None => false end).
  assert (FT : feet Nat.eq_dec bheld false m (map job_call js) Rs Ws).
  { intros i p Hp. rewrite nth_error_map in Hp. unfold Rs, Ws. destruct (nth_error js i) as [j|]; [|discriminate]. injection Hp as <-. apply foot_job. }
  assert (AP : apart (length (map job_call js)) Rs Ws).
  { intros i j l _ _ D W X. unfold Rs, Ws in *. destruct (nth_error js i) as [a|] eqn:Na; [|discriminate]. apply wjob_iff in W.
    destruct (nth_error js j) as [b|] eqn:Nb; [|destruct X; [contradiction|discriminate]]. apply (S i j a b l D Na Nb W).
    destruct X as [X|X]; [assumption|]. apply wjob_iff in X. destruct b; cbn in *; [contradiction|lia]. }
  assert (NW : forall l, (forall j, In j js -> ~ overwritten j l) -> forall i, Ws i l = false).
  { intros l H i. unfold Ws. destruct (nth_error js i) as [j|] eqn:N; [|reflexivity]. destruct (wjob j l) eqn:W; [|reflexivity].
    apply wjob_iff in W. destruct (H j (nth_error_In _ _ N) W). }
  split; [eapply apart_no_race; eauto|]. split.
  - intros l H. destruct (inv_run Nat.eq_dec bheld false m (map job_call js) Rs Ws schedule AP FT) as (_ & _ & X). apply X. intros i _. now apply NW.
  - intros rs R. destruct (apart_outcome Nat.eq_dec bheld false m (map job_call js) Rs Ws schedule rs AP FT R) as (E & W & U). split.
    + rewrite E, map_map. apply map_ext_in. intros j Hj. apply solo_job. rewrite Forall_forall in B. now apply B.
    + intros F off len L16 Hj. assert (HF := proj1 (Forall_forall _ _) B _ Hj). destruct (In_nth_error _ _ Hj) as (i & Ni).
      rewrite <- (proj1 (proj2 (solo_decrypt F m off len HF))). unfold slice_at. apply map_seq_eq. intros l Hl.
      assert (Nc : nth_error (map job_call js) i = Some (job_call (JDec F off len))) by (rewrite nth_error_map, Ni; reflexivity).
      destruct (wjob (JDec F off len) l) eqn:Wl.
      * apply (W i _ l Nc). unfold Ws. rewrite Ni. exact Wl.
      * destruct (solo_frame Nat.eq_dec bheld false _ _ _ m (foot_job m (JDec F off len)) l Wl).
        assert (K : snd (solo Nat.eq_dec bheld m (c_decrypt (mk_block 16 F) off len)) l = m l)
          by apply (solo_frame Nat.eq_dec bheld false _ _ _ m (foot_job m (JDec F off len)) l Wl).
        rewrite K. apply U. intros i' _. unfold Ws. destruct (nth_error js i') as [j'|] eqn:N'; [|reflexivity]. destruct (wjob j' l) eqn:W'; [|reflexivity].
        exfalso. destruct (Nat.eq_dec i' i) as [->|D]; [rewrite Ni in N'; injection N' as <-; rewrite Wl in W'; discriminate|].
        apply wjob_iff in W'. apply (S i' i j' _ l D N' Ni W'). cbn. lia.
Qed.

(** a goroutine decrypts a byte that another one encrypts or decrypts: a data race is possible *)
Theorem C90_races m js i j a b l : Forall block_cipher js -> i <> j -> nth_error js i = Some a -> nth_error js j = Some b ->
  overwritten a l -> touched b l -> exists schedule, race bheld (jobs_together m js schedule).
Proof.
  intros B D Na Nb Oa Tb. unfold jobs_together. apply (visits_race Nat.eq_dec bheld l false m (map job_call js) i j (job_call a) (job_call b) D).
  - rewrite nth_error_map, Na. reflexivity.
  - rewrite nth_error_map, Nb. reflexivity.
  - apply visits_written; [|assumption]. rewrite Forall_forall in B. apply B. eapply nth_error_In, Na.
  - now apply visits_touched.
Qed.

(** two Decrypts of one slice, one after the other: the second decrypts what the first has left *)
Theorem C90_one_then_other m E off len : (forall b, length b = 16%nat -> length (E b) = 16%nat) ->
  exists schedule, returned bheld (jobs_together m [JDec E off len; JDec E off len] schedule)
    [fst (decrypt (mk_block 16 E) (slice_at m off len));
     fst (decrypt (mk_block 16 E) (snd (decrypt (mk_block 16 E) (slice_at m off len))))].
Proof.
  intros HE. unfold jobs_together. cbn [map job_call]. set (p := c_decrypt (mk_block 16 E) off len).
  destruct (run_to_end Nat.eq_dec bheld p m [p; p] 0 eq_refl) as (s1 & E1). cbn [set_nth] in E1. set (m1 := snd (bsolo m p)) in *.
  destruct (run_to_end Nat.eq_dec bheld p m1 [Ret (fst (bsolo m p)); p] 1 eq_refl) as (s2 & E2). cbn [set_nth] in E2.
  exists (s1 ++ s2). unfold returned. rewrite run_app, E1, E2. cbn [snd map].
  destruct (solo_decrypt E m off len HE) as (R1 & S1 & _). destruct (solo_decrypt E m1 off len HE) as (R2 & _).
  fold p in R1, S1, R2. fold m1 in S1. rewrite R1, R2, S1. reflexivity.
Qed.

(** any number of Decrypts of one slice that holds a single block, in any schedule: each call's base64
    text has at every position the byte of the clear text or that of the ciphertext *)
Theorem C90_one_block m E off len n schedule rs p : (forall b, length b = 16%nat -> length (E b) = 16%nat) -> (16 <= len <= 32)%nat ->
  cfb E (slice_at m off 16) p (slice_at m (off + 16) (len - 16)) ->
  returned bheld (jobs_together m (repeat (JDec E off len) n) schedule) rs ->
  forall r, In r rs -> exists x, either p (slice_at m (off + 16) (len - 16)) x /\ r <> Panic /\ forall t, r = Ok t <-> b64_loose (no_newlines x) t.
Proof.
  intros HE HL C R r Hr. pose (body := slice_at m (off + 16) (len - 16)). fold body in C |- *.
  assert (EP : p = xor_bytes body (firstn (len - 16) (E (slice_at m off 16)))).
  { unfold body, slice_at. rewrite <- (cfb_one_block E (len - 16)); [|assumption|apply slice_len|lia|lia].
    apply (cfb_inv E HE (slice_at m off 16) p body (slice_len _ _ _) C). apply decrypt_cfb; [assumption|unfold body; rewrite slice_len; lia|apply slice_len]. }
  subst p.
  assert (F : Forall (fun r => exists x, either (xor_bytes body (firstn (len - 16) (E (slice_at m off 16)))) body x /\ r = b64_decode x) rs).
  { pose proof (typed_one_block E m off len HE HL) as T. cbv zeta in T. match type of T with typed bheld ?P _ ?Q =>
      apply (typed_returned Nat.eq_dec bheld P Q schedule (m, map job_call (repeat (JDec E off len) n)) rs) end; [| |exact R].
    - intros l. left. reflexivity.
    - cbn [snd]. apply Forall_forall. intros q Hq. rewrite in_map_iff in Hq. destruct Hq as (j & <- & Hj). apply repeat_spec in Hj. subst j. exact T. }
  rewrite Forall_forall in F. destruct (F r Hr) as (x & X & ->). exists x. split; [assumption|]. split; [apply b64_decode_no_panic|]. intros t. apply b64_decode_iff.
Qed.

(** two Decrypts of one slice of any length: for every choice of positions there is a schedule in which
    both calls decode the text that has the byte of the clear text there and that of the ciphertext
    elsewhere *)
Lemma mix_shift choice d p : forall i c, mix (fun l => choice (l - d)%nat) (d + i) p c = mix choice i p c.
Proof. induction p as [|a p IH]; intros i [|b c]; cbn [mix]; try reflexivity. replace (d + i - d)%nat with i by lia. f_equal. rewrite <- Nat.add_succ_r. apply IH. Qed.
Theorem C90_mixed m E off len p choice : (forall b, length b = 16%nat -> length (E b) = 16%nat) -> (16 <= len)%nat ->
  cfb E (slice_at m off 16) p (slice_at m (off + 16) (len - 16)) ->
  let x := mix choice 0 p (slice_at m (off + 16) (len - 16)) in
  exists schedule r, returned bheld (jobs_together m [JDec E off len; JDec E off len] schedule) [r; r] /\
    r <> Panic /\ (forall t, r = Ok t <-> b64_loose (no_newlines x) t) /\
    slice_at (fst (jobs_together m [JDec E off len; JDec E off len] schedule)) off len = slice_at m off 16 ++ x.
Proof.
  intros HE HL C. cbv zeta. set (body := slice_at m (off + 16) (len - 16)) in *.
  assert (EP : p = cfb_decrypt (len - 16) E 16 (slice_at m off 16) body).
  { apply (cfb_inv E HE (slice_at m off 16) p body (slice_len _ _ _) C). apply decrypt_cfb; [assumption|unfold body; rewrite slice_len; lia|apply slice_len]. }
  destruct (lock_decrypt E (fun l => choice (l - (off + 16))%nat) m off len HE HL) as (s & m' & R & M). fold body in R, M. rewrite <- EP in R, M.
  assert (MS : mix (fun l => choice (l - (off + 16))%nat) (off + 16) p body = mix choice 0 p body) by (rewrite <- (mix_shift choice (off + 16) p 0 body); now rewrite Nat.add_0_r).
  rewrite MS in R, M.
  exists s, (b64_decode (mix choice 0 p body)). unfold jobs_together, returned. cbn [map job_call]. rewrite R. cbn [snd fst map].
  split; [reflexivity|]. split; [apply b64_decode_no_panic|]. split; [intros t; apply b64_decode_iff|exact M].
Qed.

(** Decrypt by two goroutines of what Encrypt has returned: each call alone gives the text back, both may
    fail, and both may return another text *)
Definition ex_stream (x : byte) : bytes -> bytes := fun _ => repeat x 16.
Definition ex_array (c : bytes) : bmem := fun l => nth l c x00.
Definition ex_sched : list nat := repeat 0%nat 20 ++ repeat 1%nat 20 ++ concat (repeat [0; 0; 1; 1]%nat 4) ++ repeat 0%nat 4 ++ repeat 1%nat 4.
Theorem C90_two_readers_refuted :
  (exists E iv text c s e, (forall b, length b = 16%nat -> length (E b) = 16%nat) /\
    encrypt (mk_block 16 E) (Ok iv) text = Ok c /\ fst (decrypt (mk_block 16 E) c) = Ok text /\
    returned bheld (jobs_together (ex_array c) [JDec E 0 (length c); JDec E 0 (length c)] s) [Err e; Err e]) /\
  (exists E iv text c s other, (forall b, length b = 16%nat -> length (E b) = 16%nat) /\
    encrypt (mk_block 16 E) (Ok iv) text = Ok c /\ fst (decrypt (mk_block 16 E) c) = Ok text /\ other <> text /\
    returned bheld (jobs_together (ex_array c) [JDec E 0 (length c); JDec E 0 (length c)] s) [Ok other; Ok other]).
Proof.
  split.
  - exists (ex_stream x80), (repeat x00 16), [x61; x62; x63]. eexists. exists ex_sched. eexists. split; [reflexivity|]. split; [vm_compute; reflexivity|]. split; [vm_compute; reflexivity|].
    vm_compute; reflexivity.
  - exists (ex_stream x01), (repeat x00 16), [x61; x62; x63]. eexists. exists ex_sched. eexists. split; [reflexivity|]. split; [vm_compute; reflexivity|]. split; [vm_compute; reflexivity|].
    split; [|vm_compute; reflexivity]. discriminate.
Qed.

(** ** Non-vacuity: an array of 60 bytes; a Decrypt of the first 20, an Encrypt of the next 10 by two
    goroutines, a Decrypt of 24 more *)
Definition ex_jobs : list cjob := [JDec (ex_stream x80) 0 20; JEnc (ex_stream x80) (repeat x00 16) 20 10; JEnc (ex_stream x01) (repeat x07 16) 20 10; JDec (ex_stream x01) 30 24].
Example C90_example :
  Forall block_cipher ex_jobs /\ separate_jobs ex_jobs /\
  overwritten (JDec (ex_stream x80) 0 20) 18 /\ touched (JEnc (ex_stream x01) [] 18 3) 18 /\
  cfb (ex_stream x01) (slice_at (ex_array (repeat x00 16 ++ str "XVKk")) 0 16) (str "YWJj") (slice_at (ex_array (repeat x00 16 ++ str "XVKk")) 16 4) /\
  mix Nat.even 0 (str "YWJj") (str "XVKk") = str "YVJk" /\ either (str "YWJj") (str "XVKk") (str "YVJk").
Proof.
  split; [unfold ex_jobs; repeat constructor; intros b _; reflexivity|]. split.
  - intros i j a b l D Na Nb O T. unfold ex_jobs in *.
    destruct i as [|[|[|[|i]]]]; cbn in Na; try discriminate Na; try (injection Na as <-; cbn in O; try contradiction);
      destruct j as [|[|[|[|j]]]]; cbn in Nb; try discriminate Nb; try (injection Nb as <-; cbn in T; lia); try lia;
      match goal with H : nth_error [] ?k = Some _ |- _ => destruct k; discriminate H end.
  - split; [cbn; lia|]. split; [cbn; lia|]. split; [|split; [reflexivity|]].
    + apply cfb_last; [vm_compute; lia|]. vm_compute. repeat constructor.
    + split; [reflexivity|]. intros [|[|[|[|i]]]] b Hb; cbn in Hb; try (injection Hb as <-; cbn; auto). destruct i; discriminate Hb.
Qed.
Print Assumptions C90_alone.
Print Assumptions C90_apart.
Print Assumptions C90_races.
Print Assumptions C90_one_then_other.
Print Assumptions C90_one_block.
Print Assumptions C90_mixed.
Print Assumptions C90_two_readers_refuted.
