(** Proofs for C90. *)
From Verif Require Export S_ConcEn P_ConcCb P_Encryption.
From Coq Require Import Lia ZifyBool ZifyNat.
Open Scope N_scope.

Definition xb (b x : byte) : byte := n2b (N.lxor (b2n b) (b2n x)).
Lemma xb_twice b x : xb (xb b x) x = b.
Proof. unfold xb. rewrite xor_byte, N.lxor_assoc, N.lxor_nilpotent, N.lxor_0_r. apply n2b_b2n. Qed.
Lemma xor_bytes_cons a r x s : xor_bytes (a :: r) (x :: s) = xb a x :: xor_bytes r s. Proof. reflexivity. Qed.

(** ** one call alone *)
Fixpoint xorm (m : bmem) (i : nat) (ks : bytes) : bmem :=
  match ks with [] => m | x :: r => xorm (bupd m i (xb (m i) x)) (S i) r end.
Lemma solo_xor {R} (k : bcall R) ks : forall m i, bsolo m (c_xor i ks k) = bsolo (xorm m i ks) k.
Proof. induction ks as [|x r IH]; intros m i; cbn [c_xor xorm solo]; [reflexivity|]. apply IH. Qed.
Lemma xorm_out ks : forall (m : bmem) i l, ~ (i <= l < i + length ks)%nat -> xorm m i ks l = m l.
Proof.
  induction ks as [|x r IH]; intros m i l H; cbn [xorm length] in *; [reflexivity|]. rewrite IH by lia. apply upd_other. lia.
Qed.
Lemma xorm_shown ks : forall (m : bmem) i, map (xorm m i ks) (seq i (length ks)) = xor_bytes (map m (seq i (length ks))) ks.
Proof.
  induction ks as [|x r IH]; intros m i; cbn [xorm length seq map]; [reflexivity|]. rewrite xor_bytes_cons. f_equal.
  - rewrite xorm_out by lia. apply (upd_same Nat.eq_dec bheld m i).
  - rewrite IH. f_equal. apply map_seq_eq. intros l Hl. apply upd_other. lia.
Qed.
Fixpoint cfbm (fuel : nat) (E : bytes -> bytes) (next : bytes) (m : bmem) (i n : nat) {struct fuel} : bmem :=
  match fuel with
  | O => m
  | S f => match n with
           | O => m
           | _ => let k := Nat.min 16 n in cfbm f E (map m (seq i k)) (xorm m i (firstn k (E next))) (i + k) (n - k)
           end
  end.
Lemma solo_cfb {R} (k : bcall R) E fuel : forall m next i n, bsolo m (c_cfb fuel E 16 next i n k) = bsolo (cfbm fuel E next m i n) k.
Proof.
  induction fuel as [|f IH]; intros m next i n; cbn [c_cfb cfbm]; [reflexivity|]. destruct n as [|n]; [reflexivity|]. cbv zeta.
  rewrite solo_take, solo_xor. cbn [app]. apply IH.
Qed.
Lemma cfbm_out E fuel : forall next (m : bmem) i n l, ~ (i <= l < i + n)%nat -> cfbm fuel E next m i n l = m l.
Proof.
  induction fuel as [|f IH]; intros next m i n l H; cbn [cfbm]; [reflexivity|]. destruct n as [|n]; [reflexivity|]. cbv zeta.
  rewrite IH by lia. apply xorm_out. rewrite firstn_length. lia.
Qed.
Lemma xor_trunc a b : xor_bytes a b = xor_bytes a (firstn (length a) b).
Proof. revert b. induction a as [|x a IH]; intros [|y b]; try reflexivity. cbn [length firstn]. rewrite !xor_bytes_cons. f_equal. apply IH. Qed.
Lemma map_seq_split {A} (m : nat -> A) i k n : (k <= n)%nat -> map m (seq i n) = map m (seq i k) ++ map m (seq (i + k) (n - k)).
Proof. intros H. rewrite <- map_app, <- seq_app. do 2 f_equal. lia. Qed.
Lemma map_seq_firstn {A} (m : nat -> A) i k n : (k <= n)%nat -> firstn k (map m (seq i n)) = map m (seq i k).
Proof. intros H. rewrite (map_seq_split m i k n H). rewrite firstn_app, map_length, seq_length, Nat.sub_diag, firstn_O, app_nil_r. apply firstn_all2. rewrite map_length, seq_length. lia. Qed.
Lemma map_seq_skipn {A} (m : nat -> A) i k n : (k <= n)%nat -> skipn k (map m (seq i n)) = map m (seq (i + k) (n - k)).
Proof. intros H. rewrite (map_seq_split m i k n H). rewrite skipn_app, map_length, seq_length, Nat.sub_diag, skipn_O. rewrite skipn_all2 by (rewrite map_length, seq_length; lia). reflexivity. Qed.
Lemma first_min {A} (l : list A) : firstn (Nat.min 16 (length l)) l = firstn 16 l.
Proof. destruct (Nat.le_ge_cases 16 (length l)); [now rewrite Nat.min_l|]. rewrite Nat.min_r by assumption. now rewrite !firstn_all2. Qed.
Lemma cfb_decrypt_S f E prev (m : bmem) i n : (0 < n)%nat -> (forall b, length b = 16%nat -> length (E b) = 16%nat) -> length prev = 16%nat ->
  let k := Nat.min 16 n in
  cfb_decrypt (S f) E 16 prev (map m (seq i n)) =
  xor_bytes (map m (seq i k)) (firstn k (E prev)) ++ cfb_decrypt f E 16 (map m (seq i k)) (map m (seq (i + k) (n - k))).
Proof.
  intros N HE L k. destruct n as [|n]; [lia|]. cbn [cfb_decrypt]. destruct (map m (seq i (S n))) as [|x t] eqn:Em; [discriminate Em|]. rewrite <- Em.
  assert (F : firstn 16 (map m (seq i (S n))) = map m (seq i k)).
  { rewrite <- first_min. rewrite map_length, seq_length. apply map_seq_firstn. unfold k. lia. }
  assert (Sk : skipn 16 (map m (seq i (S n))) = map m (seq (i + k) (S n - k))).
  { destruct (Nat.le_ge_cases 16 (S n)) as [H|H].
    - replace k with 16%nat by (unfold k; lia). now apply map_seq_skipn.
    - replace k with (S n) by (unfold k; lia). rewrite Nat.sub_diag. apply skipn_all2. rewrite map_length, seq_length. lia. }
  rewrite F, Sk. f_equal. rewrite xor_trunc. rewrite map_length, seq_length. reflexivity.
Qed.
Lemma cfbm_shown E fuel : (forall b, length b = 16%nat -> length (E b) = 16%nat) -> forall next (m : bmem) i n, (n <= fuel)%nat -> length next = 16%nat \/ n = 0%nat ->
  map (cfbm fuel E next m i n) (seq i n) = cfb_decrypt fuel E 16 next (map m (seq i n)).
Proof.
  intros HE. induction fuel as [|f IH]; intros next m i n Hn L; [replace n with 0%nat by lia; reflexivity|].
  destruct n as [|n]; [reflexivity|]. destruct L as [L|L]; [|lia]. rewrite cfb_decrypt_S by (lia || assumption).
  cbn [cfbm]. set (k := Nat.min 16 (S n)). assert (LK : length (firstn k (E next)) = k) by (rewrite firstn_length, HE by assumption; unfold k; lia).
  rewrite (map_seq_split _ i k (S n)) by (unfold k; lia). f_equal.
  - assert (X := xorm_shown (firstn k (E next)) m i). rewrite LK in X. rewrite <- X. apply map_seq_eq. intros l Hl. apply cfbm_out. lia.
  - rewrite IH; [|lia|].
    + f_equal. apply map_seq_eq. intros l Hl. apply xorm_out. rewrite LK. lia.
    + rewrite map_length, seq_length. destruct (Nat.le_ge_cases 16 (S n)); [left|right]; unfold k; lia.
Qed.

Lemma slice_split (m : bmem) off len : (16 <= len)%nat -> slice_at m off len = slice_at m off 16 ++ slice_at m (off + 16) (len - 16).
Proof. intros H. now apply map_seq_split. Qed.
Lemma slice_len (m : bmem) off len : length (slice_at m off len) = len. Proof. unfold slice_at. now rewrite map_length, seq_length. Qed.
Lemma firstn_slice (m : bmem) off len : (16 <= len)%nat -> firstn 16 (slice_at m off len) = slice_at m off 16.
Proof. intros H. unfold slice_at. now apply map_seq_firstn. Qed.
Lemma skipn_slice (m : bmem) off len : (16 <= len)%nat -> skipn 16 (slice_at m off len) = slice_at m (off + 16) (len - 16).
Proof. intros H. unfold slice_at. now apply map_seq_skipn. Qed.
Definition after (E : bytes -> bytes) (m : bmem) (off len : nat) : bmem := cfbm (len - 16) E (slice_at m off 16) m (off + 16) (len - 16).
Lemma solo_decrypt E (m : bmem) off len : (forall b, length b = 16%nat -> length (E b) = 16%nat) ->
  fst (bsolo m (c_decrypt (mk_block 16 E) off len)) = fst (decrypt (mk_block 16 E) (slice_at m off len)) /\
  slice_at (snd (bsolo m (c_decrypt (mk_block 16 E) off len))) off len = snd (decrypt (mk_block 16 E) (slice_at m off len)) /\
  snd (bsolo m (c_decrypt (mk_block 16 E) off len)) = (if Nat.ltb len 16 then m else after E m off len).
Proof.
  intros HE. unfold c_decrypt, decrypt. rewrite slice_len. destruct (Nat.ltb_spec len 16) as [S|S]; [cbn; auto|]. cbn [blk_size blk_enc Nat.eqb negb].
  rewrite firstn_slice, skipn_slice, slice_len by assumption. rewrite solo_take, solo_cfb. cbn [app]. rewrite solo_take. cbn [app solo fst snd].
  fold (slice_at m off 16). fold (after E m off len).
  assert (X : slice_at (after E m off len) (off + 16) (len - 16) = cfb_decrypt (len - 16) E 16 (slice_at m off 16) (slice_at m (off + 16) (len - 16))).
  { unfold after, slice_at. apply cfbm_shown; [assumption|lia|]. left. now rewrite map_length, seq_length. }
  split; [fold (slice_at (after E m off len) (off + 16) (len - 16)); now rewrite X|]. split; [|reflexivity].
  rewrite slice_split by assumption. rewrite X. f_equal. unfold slice_at. apply map_seq_eq. intros l Hl. unfold after. apply cfbm_out. lia.
Qed.
Lemma solo_job (m : bmem) j : block_cipher j -> fst (bsolo m (job_call j)) = job_alone m j.
Proof.
  destruct j as [E iv off len|E off len]; intros H; cbn [job_call job_alone].
  - unfold c_encrypt. rewrite solo_take. reflexivity.
  - now apply solo_decrypt.
Qed.
(** ** accesses *)
Notation bfoot := (foot Nat.eq_dec bheld false).
Lemma foot_take {R} (m : bmem) (k : bytes -> bcall R) Rs Ws n : forall i acc, (forall j, (i <= j < i + n)%nat -> Rs j \/ Ws j = true) ->
  bfoot m (k (acc ++ map m (seq i n))) Rs Ws -> bfoot m (c_take acc i n k) Rs Ws.
Proof.
  induction n as [|n IH]; intros i acc H F; cbn [c_take foot seq map] in *; [now rewrite app_nil_r in F|].
  split; [apply H; lia|]. apply IH; [intros j Hj; apply H; lia|]. now rewrite <- app_assoc.
Qed.
Lemma foot_xor {R} (k : bcall R) Rs Ws ks : forall (m : bmem) i, (forall j, (i <= j < i + length ks)%nat -> Ws j = true) ->
  bfoot (xorm m i ks) k Rs Ws -> bfoot m (c_xor i ks k) Rs Ws.
Proof.
  induction ks as [|x r IH]; intros m i H F; cbn [c_xor foot length xorm] in *; [assumption|].
  split; [right; apply H; lia|]. split; [left; apply H; lia|]. apply IH; [intros j Hj; apply H; lia|]. exact F.
Qed.
Lemma foot_cfb {R} (k : bcall R) E Rs Ws fuel : forall (m : bmem) next i n, (forall j, (i <= j < i + n)%nat -> Ws j = true) ->
  bfoot (cfbm fuel E next m i n) k Rs Ws -> bfoot m (c_cfb fuel E 16 next i n k) Rs Ws.
Proof.
  induction fuel as [|f IH]; intros m next i n H F; cbn [c_cfb cfbm] in *; [assumption|]. destruct n as [|n]; [assumption|]. cbv zeta in *.
  apply foot_take; [intros j Hj; right; apply H; lia|]. cbn [app]. apply foot_xor; [intros j Hj; apply H; rewrite firstn_length in Hj; lia|].
  apply IH; [intros j Hj; apply H; lia|]. exact F.
Qed.
Definition wjob (j : cjob) (l : nat) : bool := match j with JEnc _ _ _ _ => false | JDec _ off len => Nat.leb (off + 16) l && Nat.ltb l (off + len) end.
Lemma wjob_iff j l : wjob j l = true <-> overwritten j l.
Proof. destruct j; unfold wjob, overwritten; [split; [discriminate|tauto]|]. rewrite andb_true_iff, Nat.leb_le, Nat.ltb_lt. tauto. Qed.
Lemma foot_job (m : bmem) j : bfoot m (job_call j) (touched j) (wjob j).
Proof.
  destruct j as [E iv off len|E off len]; cbn [job_call].
  - unfold c_encrypt. apply foot_take; [intros l Hl; left; exact Hl|]. exact I.
  - unfold c_decrypt. destruct (Nat.ltb_spec len 16) as [S|S]; [exact I|]. cbn [blk_size blk_enc Nat.eqb negb].
    apply foot_take; [intros l Hl; left; cbn; lia|]. apply foot_cfb; [intros l Hl; apply wjob_iff; cbn; lia|].
    apply foot_take; [intros l Hl; left; cbn; lia|]. exact I.
Qed.
(** ** programs that come to a cell whatever they read *)
Section Visits.
Context {L : Type} (leq : forall a b : L, {a = b} + {a <> b}) (V : L -> Type).
Fixpoint visits {R} (l : L) (w : bool) (p : prog V R) : Prop :=
  match p with
  | Ret _ => False
  | Rd l' k => (l' = l /\ w = false) \/ forall v, visits l w (k v)
  | Wr l' v k => (l' = l /\ w = true) \/ visits l w k
  end.
Lemma visits_reach {R} l w (p : prog V R) : forall (m : mem V) ps i, nth_error ps i = Some p -> visits l w p ->
  exists s m' q, run leq V (m, ps) s = (m', set_nth i q ps) /\ next V q = Some (l, w).
Proof.
  induction p as [r|l' k IH|l' v k IH]; intros m ps i N Vi; cbn [visits] in Vi; [contradiction| |].
  - destruct Vi as [(-> & ->)|Vi].
    + exists [], m, (Rd l k). split; [|reflexivity]. cbn. f_equal. clear -N. revert i N. induction ps as [|x ps IH]; intros [|i] N; cbn in *; try discriminate N; [congruence|]. f_equal. now apply IH.
    + assert (N' : nth_error (set_nth i (k (m l')) ps) i = Some (k (m l'))) by (rewrite nth_error_set, Nat.eqb_refl, N; reflexivity).
      destruct (IH (m l') m (set_nth i (k (m l')) ps) i N' (Vi (m l'))) as (s & m' & q & E & Nx). exists (i :: s), m', q. split; [|assumption].
      rewrite (run_rd leq V m ps i l' k s N), E. f_equal. clear. revert i. induction ps as [|x ps IH]; intros [|i]; cbn; [reflexivity|reflexivity|reflexivity|]. f_equal. apply IH.
  - destruct Vi as [(-> & ->)|Vi].
    + exists [], m, (Wr l v k). split; [|reflexivity]. cbn. f_equal. clear -N. revert i N. induction ps as [|x ps IH]; intros [|i] N; cbn in *; try discriminate N; [congruence|]. f_equal. now apply IH.
    + assert (N' : nth_error (set_nth i k ps) i = Some k) by (rewrite nth_error_set, Nat.eqb_refl, N; reflexivity).
      destruct (IH (upd leq V m l' v) (set_nth i k ps) i N' Vi) as (s & m' & q & E & Nx). exists (i :: s), m', q. split; [|assumption].
      rewrite (run_wr leq V m ps i l' v k s N), E. f_equal. clear. revert i. induction ps as [|x ps IH]; intros [|i]; cbn; [reflexivity|reflexivity|reflexivity|]. f_equal. apply IH.
Qed.
Lemma visits_race {R} l w (m : mem V) (ps : list (prog V R)) i j p q : i <> j -> nth_error ps i = Some p -> nth_error ps j = Some q ->
  visits l true p -> visits l w q -> exists s, race V (run leq V (m, ps) s).
Proof.
  intros D Np Nq Vp Vq. destruct (visits_reach l true p m ps i Np Vp) as (s1 & m1 & p1 & E1 & X1).
  assert (Nq1 : nth_error (set_nth i p1 ps) j = Some q) by (rewrite nth_error_set, (proj2 (Nat.eqb_neq _ _) D); exact Nq).
  destruct (visits_reach l w q m1 _ j Nq1 Vq) as (s2 & m2 & q1 & E2 & X2). exists (s1 ++ s2). rewrite run_app, E1, E2.
  exists i, j, p1, q1, l, true, w. split; [assumption|]. cbn [snd]. split.
  - rewrite nth_error_set. destruct (Nat.eqb_spec j i); [congruence|]. rewrite nth_error_set, Nat.eqb_refl, Np. reflexivity.
  - split; [rewrite nth_error_set, Nat.eqb_refl, Nq1; reflexivity|]. auto.
Qed.
End Visits.
Lemma visits_take_in {R} l (k : bytes -> bcall R) n : forall i acc, (i <= l < i + n)%nat -> visits bheld l false (c_take acc i n k).
Proof.
  induction n as [|n IH]; intros i acc H; [lia|]. cbn [c_take visits]. destruct (Nat.eq_dec i l); [now left|]. right. intros v. apply IH. lia.
Qed.
Lemma visits_take {R} l w (k : bytes -> bcall R) n : forall i acc, (forall x, length x = n -> visits bheld l w (k (acc ++ x))) -> visits bheld l w (c_take acc i n k).
Proof.
  induction n as [|n IH]; intros i acc H; cbn [c_take visits]; [specialize (H [] eq_refl); now rewrite app_nil_r in H|].
  right. intros v. apply IH. intros x Hx. rewrite <- app_assoc. apply H. cbn. now rewrite Hx.
Qed.
Lemma visits_xor {R} l (k : bcall R) ks : forall i, (i <= l < i + length ks)%nat \/ visits bheld l true k -> visits bheld l true (c_xor i ks k).
Proof.
  induction ks as [|x r IH]; intros i H; cbn [c_xor visits length] in *; [destruct H; [lia|assumption]|].
  right. intros v. cbn [visits]. destruct (Nat.eq_dec i l); [now left|]. right. apply IH. destruct H; [left; lia|now right].
Qed.
Lemma visits_cfb {R} l (k : bcall R) E fuel : (forall b, length b = 16%nat -> length (E b) = 16%nat) -> forall next i n, (n <= fuel)%nat -> length next = 16%nat ->
  (i <= l < i + n)%nat -> visits bheld l true (c_cfb fuel E 16 next i n k).
Proof.
  intros HE. induction fuel as [|f IH]; intros next i n Hn L H; [lia|]. cbn [c_cfb]. destruct n as [|n]; [lia|]. cbv zeta.
  apply visits_take. intros x Lx. cbn [app]. apply visits_xor. set (t := Nat.min 16 (S n)) in *. rewrite firstn_length, HE by assumption.
  destruct (Nat.lt_ge_cases l (i + t)) as [Q|Q]; [left; lia|]. right. assert (t = 16%nat) by lia. apply IH; lia.
Qed.
Lemma visits_written j l : block_cipher j -> overwritten j l -> visits bheld l true (job_call j).
Proof.
  destruct j as [E iv off len|E off len]; cbn; [contradiction|]. intros HE H. unfold c_decrypt. destruct (Nat.ltb_spec len 16) as [S|S]; [lia|].
  cbn [blk_size blk_enc Nat.eqb negb]. apply visits_take. intros x Lx. cbn [app]. apply visits_cfb; (assumption || lia).
Qed.
Lemma visits_touched j l : touched j l -> visits bheld l false (job_call j).
Proof.
  destruct j as [E iv off len|E off len]; cbn [touched job_call].
  - intros H. unfold c_encrypt. now apply visits_take_in.
  - intros (H1 & H2). unfold c_decrypt. destruct (Nat.ltb_spec len 16) as [S|S]; [lia|]. cbn [blk_size blk_enc Nat.eqb negb].
    destruct (Nat.lt_ge_cases l (off + 16)) as [Q|Q]; [apply visits_take_in; lia|].
    apply visits_take. intros x _. cbn [app].
    assert (G : forall fuel next i n (k : bcall (res bytes)), (i <= l < i + n)%nat -> (n <= fuel)%nat -> visits bheld l false (c_cfb fuel E 16 next i n k)).
    { clear. induction fuel as [|f IH]; intros next i n k H Hf; [lia|]. cbn [c_cfb]. destruct n as [|n]; [lia|]. cbv zeta. set (t := Nat.min 16 (S n)).
      destruct (Nat.lt_ge_cases l (i + t)) as [Q|Q]; [apply visits_take_in; lia|]. apply visits_take. intros x _.
      assert (GX : forall ks j, visits bheld l false (c_cfb f E 16 ([] ++ x) (i + t) (S n - t) k) -> visits bheld l false (c_xor j ks (c_cfb f E 16 ([] ++ x) (i + t) (S n - t) k))).
      { induction ks as [|y r IHr]; intros j H2; cbn [c_xor visits]; [assumption|]. right. intros v. right. now apply IHr. }
      apply GX. apply IH; lia. }
    apply G; lia.
Qed.
(** ** what holds of the cells in every schedule *)
Section Typed.
Context {L : Type} (leq : forall a b : L, {a = b} + {a <> b}) (V : L -> Type) (P : forall l, V l -> Prop).
Fixpoint typed {R} (p : prog V R) (Q : R -> Prop) : Prop :=
  match p with
  | Ret r => Q r
  | Rd l k => forall v, P l v -> typed (k v) Q
  | Wr l v k => P l v /\ typed k Q
  end.
Lemma typed_run {R} (Q : R -> Prop) s : forall (c : conf V R), (forall l, P l (fst c l)) -> Forall (fun p => typed p Q) (snd c) ->
  (forall l, P l (fst (run leq V c s) l)) /\ Forall (fun p => typed p Q) (snd (run leq V c s)).
Proof.
  induction s as [|i s IH]; intros c HM HP; [auto|]. cbn [run fold_left]. apply IH.
  - unfold step. destruct (nth_error (snd c) i) as [[r|l k|l v k]|] eqn:N; cbn [fst]; try assumption.
    rewrite Forall_forall in HP. destruct (HP _ (nth_error_In _ _ N)) as (Pv & _). intros l'. destruct (leq l l') as [<-|D]; [now rewrite upd_same|]. rewrite upd_other by assumption. apply HM.
  - assert (HS : forall x l, Forall (fun p => typed p Q) l -> typed x Q -> forall i, Forall (fun p => typed p Q) (set_nth i x l)).
    { clear. intros x l Hl Hx. induction Hl as [|y l Hy Hl IH]; intros [|i]; cbn; constructor; auto. }
    unfold step. destruct (nth_error (snd c) i) as [[r|l k|l v k]|] eqn:N; cbn [snd]; try assumption; apply HS; try assumption;
      rewrite Forall_forall in HP; specialize (HP _ (nth_error_In _ _ N)); cbn [typed] in HP; [apply HP, HM|tauto].
Qed.
Lemma typed_returned {R} (Q : R -> Prop) s (c : conf V R) rs : (forall l, P l (fst c l)) -> Forall (fun p => typed p Q) (snd c) -> returned V (run leq V c s) rs -> Forall Q rs.
Proof.
  intros HM HP E. destruct (typed_run Q s c HM HP) as (_ & F). unfold returned in E. rewrite E in F. clear -F. induction rs as [|r rs IH]; constructor; inversion F; subst; auto.
Qed.
End Typed.
Lemma typed_take (P : nat -> byte -> Prop) {R} (Q : R -> Prop) (k : bytes -> bcall R) n : forall i acc,
  (forall x, length x = n -> (forall j b, nth_error x j = Some b -> P (i + j)%nat b) -> typed bheld P (k (acc ++ x)) Q) -> typed bheld P (c_take acc i n k) Q.
Proof.
  induction n as [|n IH]; intros i acc H; cbn [c_take typed].
  - specialize (H [] eq_refl). rewrite app_nil_r in H. apply H. intros [|j] b; discriminate.
  - intros v Pv. apply IH. intros x Lx Px. rewrite <- app_assoc. apply H; [cbn; now rewrite Lx|]. intros [|j] b Hb; cbn in Hb.
    + injection Hb as <-. now rewrite Nat.add_0_r.
    + rewrite <- plus_n_Sm. exact (Px j b Hb).
Qed.
Lemma typed_xor (P : nat -> byte -> Prop) {R} (Q : R -> Prop) (k : bcall R) ks : forall i,
  (forall j x b, nth_error ks j = Some x -> P (i + j)%nat b -> P (i + j)%nat (xb b x)) -> typed bheld P k Q -> typed bheld P (c_xor i ks k) Q.
Proof.
  induction ks as [|x r IH]; intros i H T; cbn [c_xor typed]; [assumption|]. intros v Pv. split.
  - specialize (H 0%nat x v eq_refl). rewrite Nat.add_0_r in H. exact (H Pv).
  - apply IH; [|assumption]. intros j y b Hj Pb. specialize (H (S j) y b Hj). rewrite <- plus_n_Sm in H. exact (H Pb).
Qed.
(** ** one block: every byte is the ciphertext's or the plaintext's *)
Lemma nth_map_seq {A} (m : nat -> A) i n j : (j < n)%nat -> nth_error (map m (seq i n)) j = Some (m (i + j)%nat).
Proof.
  revert i j. induction n as [|n IH]; intros i j H; [lia|]. destruct j as [|j]; cbn; [now rewrite Nat.add_0_r|]. rewrite IH by lia. do 2 f_equal. lia.
Qed.
Lemma map_seq_nth {A} (m : nat -> A) (x : list A) i n : length x = n -> (forall j b, nth_error x j = Some b -> b = m (i + j)%nat) -> x = map m (seq i n).
Proof.
  revert i n. induction x as [|a x IH]; intros i n L H; [cbn in L; subst; reflexivity|]. destruct n as [|n]; [discriminate L|]. cbn. f_equal.
  - specialize (H 0%nat a eq_refl). now rewrite Nat.add_0_r in H.
  - apply IH; [now injection L|]. intros j b Hj. specialize (H (S j) b Hj). now rewrite Nat.add_succ_comm.
Qed.
Lemma nth_xor_bytes a : forall b j x y, nth_error a j = Some x -> nth_error b j = Some y -> nth_error (xor_bytes a b) j = Some (xb x y).
Proof. induction a as [|p a IH]; intros [|q b] [|j] x y Ha Hb; cbn in *; try discriminate; [injection Ha as ->; injection Hb as ->; reflexivity|]. now apply IH. Qed.
Lemma cfb_one_block E fuel next (m : bmem) i n : (forall b, length b = 16%nat -> length (E b) = 16%nat) -> length next = 16%nat -> (n <= 16)%nat -> (n <= fuel)%nat ->
  cfb_decrypt fuel E 16 next (map m (seq i n)) = xor_bytes (map m (seq i n)) (firstn n (E next)).
Proof.
  intros HE L N F. destruct n as [|n]; [destruct fuel; reflexivity|]. destruct fuel as [|f]; [lia|]. rewrite cfb_decrypt_S by (assumption || lia).
  rewrite Nat.min_r by assumption. rewrite Nat.sub_diag. cbn [seq map]. destruct f; cbn [cfb_decrypt]; apply app_nil_r.
Qed.
Lemma typed_one_block E (m : bmem) off len : (forall b, length b = 16%nat -> length (E b) = 16%nat) -> (16 <= len <= 32)%nat ->
  let body := slice_at m (off + 16) (len - 16) in
  let ks := firstn (len - 16) (E (slice_at m off 16)) in
  typed bheld (fun l v => v = m l \/ exists j k, l = (off + 16 + j)%nat /\ nth_error ks j = Some k /\ v = xb (m l) k)
    (c_decrypt (mk_block 16 E) off len) (fun r => exists x, either (xor_bytes body ks) body x /\ r = b64_decode x).
Proof.
  intros HE HL body ks. unfold c_decrypt. destruct (Nat.ltb_spec len 16) as [S|S]; [lia|]. cbn [blk_size blk_enc Nat.eqb negb].
  match goal with |- typed bheld ?p _ ?q => set (P := p); set (Q := q) end.
  assert (LK : length ks = (len - 16)%nat) by (unfold ks; rewrite firstn_length, HE by apply slice_len; lia).
  assert (Fin : typed bheld P (c_take [] (off + 16) (len - 16) (fun text => Ret (b64_decode text))) Q).
  { apply typed_take. intros x Lx Px. cbn [app typed]. exists x. split; [|reflexivity].
    assert (LX : length (xor_bytes body ks) = (len - 16)%nat).
    { assert (G : forall a b, length a = length b -> length (xor_bytes a b) = length a) by (induction a as [|p a IHa]; intros [|q b] Hl; try discriminate Hl; cbn; [reflexivity|]; f_equal; apply IHa; now injection Hl).
      rewrite G; unfold body; rewrite slice_len; congruence. }
    split; [congruence|]. intros j b Hj. assert (J : (j < len - 16)%nat) by (rewrite <- Lx; apply nth_error_Some; congruence).
    assert (B : nth_error body j = Some (m (off + 16 + j)%nat)) by (apply nth_map_seq; assumption).
    destruct (Px j b Hj) as [->|(j' & k & E1 & E2 & ->)]; [now right|]. left. assert (j' = j) by lia. subst j'. now apply nth_xor_bytes. }
  apply typed_take. intros iv Liv Piv. cbn [app].
  assert (EIV : iv = slice_at m off 16).
  { apply map_seq_nth; [assumption|]. intros j b Hj. assert (J : (j < 16)%nat) by (rewrite <- Liv; apply nth_error_Some; congruence).
    destruct (Piv j b Hj) as [->|(j' & k & E1 & _)]; [reflexivity|lia]. }
  subst iv. destruct (len - 16)%nat as [|n] eqn:EN; [exact Fin|]. cbn [c_cfb]. cbv zeta. rewrite Nat.min_r by lia. rewrite Nat.sub_diag.
  apply typed_take. intros src _ _. cbn [app]. fold ks. apply typed_xor.
  - intros j x b Hx [->|(j' & k & E1 & E2 & ->)].
    + right. exists j, x. auto.
    + left. assert (j' = j) by lia. subst j'. rewrite Hx in E2. injection E2 as ->. apply xb_twice.
  - destruct n; exact Fin.
Qed.
(** ** two goroutines side by side *)
Lemma lock_take {R} (k1 k2 : bytes -> bcall R) (m : bmem) n : forall i acc, exists s,
  run Nat.eq_dec bheld (m, [c_take acc i n k1; c_take acc i n k2]) s = (m, [k1 (acc ++ map m (seq i n)); k2 (acc ++ map m (seq i n))]).
Proof.
  induction n as [|n IH]; intros i acc; [exists []; cbn; now rewrite app_nil_r|].
  destruct (IH (S i) (acc ++ [m i])) as (s & E). exists (0%nat :: 1%nat :: s). cbn [c_take seq map].
  erewrite run_rd; [|reflexivity]. cbn [set_nth]. erewrite run_rd; [|reflexivity]. cbn [set_nth]. rewrite E. now rewrite <- app_assoc.
Qed.
Lemma lock_xor {R} (k1 k2 : bcall R) (choice : nat -> bool) ks : forall (m : bmem) i, exists s m',
  run Nat.eq_dec bheld (m, [c_xor i ks k1; c_xor i ks k2]) s = (m', [k1; k2]) /\
  (forall l, ~ (i <= l < i + length ks)%nat -> m' l = m l) /\
  (forall j x, nth_error ks j = Some x -> m' (i + j)%nat = if choice (i + j)%nat then xb (m (i + j)%nat) x else m (i + j)%nat).
Proof.
  induction ks as [|x r IH]; intros m i.
  - exists [], m. split; [reflexivity|]. split; [reflexivity|]. intros [|j] y; discriminate.
  - set (v := if choice i then xb (m i) x else m i).
    assert (One : exists s m1, (forall l, m1 l = bupd m i v l) /\
      run Nat.eq_dec bheld (m, [c_xor i (x :: r) k1; c_xor i (x :: r) k2]) s = (m1, [c_xor (S i) r k1; c_xor (S i) r k2])).
    { unfold v. destruct (choice i).
      - exists [0%nat; 1%nat; 0%nat; 1%nat]. eexists. split; [|cbn [c_xor]; erewrite run_rd; [|reflexivity]; cbn [set_nth]; erewrite run_rd; [|reflexivity]; cbn [set_nth];
          erewrite run_wr; [|reflexivity]; cbn [set_nth]; erewrite run_wr; [|reflexivity]; cbn [set_nth]; reflexivity].
        intros l. destruct (Nat.eq_dec i l) as [<-|D]; [now rewrite !upd_same|now rewrite !upd_other].
      - exists [0%nat; 0%nat; 1%nat; 1%nat]. eexists. split; [|cbn [c_xor]; erewrite run_rd; [|reflexivity]; cbn [set_nth]; erewrite run_wr; [|reflexivity]; cbn [set_nth];
          erewrite run_rd; [|reflexivity]; cbn [set_nth]; erewrite run_wr; [|reflexivity]; cbn [set_nth]; reflexivity].
        intros l. rewrite upd_same. change (n2b (N.lxor (b2n (m i)) (b2n x))) with (xb (m i) x).
        change (n2b (N.lxor (b2n (xb (m i) x)) (b2n x))) with (xb (xb (m i) x) x). rewrite xb_twice.
        destruct (Nat.eq_dec i l) as [<-|D]; [now rewrite !upd_same|now rewrite !upd_other]. }
    destruct One as (s1 & m1 & M1 & E1). destruct (IH m1 (S i)) as (s2 & m2 & E2 & O2 & I2). exists (s1 ++ s2), m2.
    split; [now rewrite run_app, E1|]. cbn [length]. split.
    + intros l Hl. rewrite O2 by lia. rewrite M1. apply upd_other. lia.
    + intros [|j] y Hy; cbn in Hy.
      * injection Hy as <-. rewrite Nat.add_0_r, O2 by lia. rewrite M1. unfold v. apply (upd_same Nat.eq_dec bheld m i).
      * rewrite <- Nat.add_succ_comm. rewrite (I2 j y Hy). rewrite M1, upd_other by lia. reflexivity.
Qed.
Lemma map_mix (choice : nat -> bool) ks : forall (m m' : bmem) i,
  (forall j x, nth_error ks j = Some x -> m' (i + j)%nat = if choice (i + j)%nat then xb (m (i + j)%nat) x else m (i + j)%nat) ->
  map m' (seq i (length ks)) = mix choice i (xor_bytes (map m (seq i (length ks))) ks) (map m (seq i (length ks))).
Proof.
  induction ks as [|x r IH]; intros m m' i H; [reflexivity|]. cbn [length seq map]. rewrite xor_bytes_cons. cbn [mix]. f_equal.
  - specialize (H 0%nat x eq_refl). now rewrite Nat.add_0_r in H.
  - apply IH. intros j y Hy. specialize (H (S j) y Hy). now rewrite Nat.add_succ_comm.
Qed.
Lemma mix_app choice p : forall i p' c c', length p = length c -> mix choice i (p ++ p') (c ++ c') = mix choice i p c ++ mix choice (i + length p) p' c'.
Proof.
  induction p as [|a p IH]; intros i p' [|b c] c' L; try discriminate L; cbn [app length mix]; [now rewrite Nat.add_0_r|].
  f_equal. rewrite IH by now injection L. now rewrite Nat.add_succ_comm.
Qed.
Lemma xor_len a : forall b, length a = length b -> length (xor_bytes a b) = length a.
Proof. induction a as [|p a IH]; intros [|q b] H; try discriminate H; cbn; [reflexivity|]. f_equal. apply IH. now injection H. Qed.
Lemma lock_cfb {R} (k1 k2 : bcall R) (choice : nat -> bool) E fuel : (forall b, length b = 16%nat -> length (E b) = 16%nat) ->
  forall (m : bmem) next i n, (n <= fuel)%nat -> length next = 16%nat \/ n = 0%nat -> exists s m',
  run Nat.eq_dec bheld (m, [c_cfb fuel E 16 next i n k1; c_cfb fuel E 16 next i n k2]) s = (m', [k1; k2]) /\
  (forall l, ~ (i <= l < i + n)%nat -> m' l = m l) /\
  map m' (seq i n) = mix choice i (cfb_decrypt fuel E 16 next (map m (seq i n))) (map m (seq i n)).
Proof.
  intros HE. induction fuel as [|f IH]; intros m next i n Hn L.
  { replace n with 0%nat by lia. exists [], m. split; [reflexivity|]. split; reflexivity. }
  destruct n as [|n]; [exists [], m; split; [reflexivity|]; split; reflexivity|]. destruct L as [L|L]; [|lia]. rewrite cfb_decrypt_S by (assumption || lia).
  cbn [c_cfb]. cbv zeta. set (t := Nat.min 16 (S n)). set (ks := firstn t (E next)).
  assert (LK : length ks = t) by (unfold ks; rewrite firstn_length, HE by assumption; unfold t; lia).
  assert (T : (t <= S n)%nat) by (unfold t; lia).
  match goal with |- context [[c_take [] i t ?a; c_take [] i t ?b]] => destruct (lock_take a b m t i []) as (s1 & E1) end. cbn [app] in E1.
  match type of E1 with _ = (_, [c_xor _ _ ?a; c_xor _ _ ?b]) => destruct (lock_xor a b choice ks m i) as (s2 & m2 & E2 & O2 & I2) end.
  destruct (IH m2 (map m (seq i t)) (i + t)%nat (S n - t)%nat) as (s3 & m3 & E3 & O3 & I3).
  { unfold t; lia. } { rewrite map_length, seq_length. destruct (Nat.le_ge_cases 16 (S n)); [left|right]; unfold t; lia. }
  exists (s1 ++ s2 ++ s3), m3. split; [rewrite run_app, E1, run_app, E2; exact E3|].
  split; [intros l Hl; rewrite O3 by lia; apply O2; lia|].
  rewrite (map_seq_split m3 i t (S n)), (map_seq_split m i t (S n)) by assumption.
  assert (LX : length (xor_bytes (map m (seq i t)) ks) = t) by (rewrite xor_len; rewrite map_length, seq_length; congruence).
  rewrite mix_app by (rewrite LX, map_length, seq_length; reflexivity). rewrite LX.
  assert (U : map m2 (seq (i + t) (S n - t)) = map m (seq (i + t) (S n - t))) by (apply map_seq_eq; intros l Hl; apply O2; lia).
  rewrite I3, U. f_equal. rewrite <- (map_seq_eq m2 m3) by (intros l Hl; symmetry; apply O3; lia).
  assert (X := map_mix choice ks m m2 i I2). rewrite LK in X. exact X.
Qed.
Lemma lock_decrypt E (choice : nat -> bool) (m : bmem) off len : (forall b, length b = 16%nat -> length (E b) = 16%nat) -> (16 <= len)%nat ->
  let body := slice_at m (off + 16) (len - 16) in
  let x := mix choice (off + 16) (cfb_decrypt (len - 16) E 16 (slice_at m off 16) body) body in
  exists s m', run Nat.eq_dec bheld (m, [c_decrypt (mk_block 16 E) off len; c_decrypt (mk_block 16 E) off len]) s = (m', [Ret (b64_decode x); Ret (b64_decode x)]) /\
    slice_at m' off len = slice_at m off 16 ++ x.
Proof.
  intros HE HL body x. unfold c_decrypt. destruct (Nat.ltb_spec len 16) as [S|S]; [lia|]. cbn [blk_size blk_enc Nat.eqb negb].
  match goal with |- context [[c_take [] off 16 ?a; c_take [] off 16 ?b]] => destruct (lock_take a b m 16 off []) as (s1 & E1) end. cbn [app] in E1.
  match type of E1 with _ = (_, [c_cfb _ _ _ _ _ _ ?a; c_cfb _ _ _ _ _ _ ?b]) =>
    destruct (lock_cfb a b choice E (len - 16) HE m (slice_at m off 16) (off + 16) (len - 16)) as (s2 & m2 & E2 & O2 & I2); [lia|left; apply slice_len|] end.
  match type of E2 with _ = (_, [c_take [] _ _ ?a; c_take [] _ _ ?b]) => destruct (lock_take a b m2 (len - 16) (off + 16) []) as (s3 & E3) end. cbn [app] in E3.
  exists (s1 ++ s2 ++ s3), m2. split.
  - rewrite run_app, E1, run_app. etransitivity; [exact (f_equal (fun c => run Nat.eq_dec bheld c s3) E2)|]. rewrite E3. rewrite I2. reflexivity.
  - rewrite slice_split by assumption. f_equal; [|exact I2]. apply map_seq_eq. intros l Hl. apply O2. lia.
Qed.
