(** C82: BuildMerkleRootFromCoinbase in several goroutines with one coinbase hash. *)
From Verif Require Import P_ConcCb.
From Coq Require Import Lia ZifyBool ZifyNat.

(** a call that is alone: the value model; it changes nothing outside the room behind the hash *)
Theorem C82_alone m len room branches :
  fst (solo Nat.eq_dec bheld m (c_root len room branches)) = build_merkle_root_from_coinbase (hash_at m len) branches /\
  forall l, (l < len \/ len + room <= l)%nat -> snd (solo Nat.eq_dec bheld m (c_root len room branches)) l = m l.
Proof.
  unfold c_root. destruct branches as [|h r]; cbv zeta; [rewrite solo_take; cbn; auto|].
  destruct (Nat.leb_spec (length (hex_ignore h)) room) as [LE|LE].
  - match goal with |- context [c_put len ?d ?k] => destruct (solo_put k d len m) as (m' & W & ->) end.
    rewrite solo_take. cbn [solo fst snd app]. split.
    + rewrite build_cons. do 2 f_equal. rewrite <- map_written. apply map_ext. exact W.
    + intros l Hl. rewrite W. unfold written. destruct (Nat.leb_spec len l); [|reflexivity]. apply nth_overflow. lia.
  - rewrite solo_take. cbn [solo fst snd app]. auto.
Qed.

(** no first branch fits behind the hash: no data race, no byte changes, and every schedule
    gives each call its merkle root *)
Lemma foot_copies m len room branches : copies room branches ->
  foot Nat.eq_dec bheld false m (c_root len room branches) (fun _ => True) (fun _ => false).
Proof.
  assert (T : forall (k : bytes -> bcall bytes) n i acc, (forall b, foot Nat.eq_dec bheld false m (k b) (fun _ => True) (fun _ => false)) ->
    foot Nat.eq_dec bheld false m (c_take acc i n k) (fun _ => True) (fun _ => false)).
  { intros k n. induction n as [|n IH]; intros i acc H; cbn [c_take foot]; [apply H|]. auto. }
  intros C. unfold c_root. destruct branches as [|h r]; [apply T; intros; exact I|]. cbv zeta. cbn in C.
  destruct (Nat.leb_spec (length (hex_ignore h)) room) as [LE|LE]; [|apply T; intros; exact I].
  destruct C as [C|C]; [lia|]. rewrite C. cbn [c_put]. apply T; intros; exact I.
Qed.
Theorem C82_no_room m len room jobs schedule : Forall (copies room) jobs ->
  let c := roots_together m len room jobs schedule in
  ~ race bheld c /\ (forall l, fst c l = m l) /\
  forall rs, returned bheld c rs -> rs = map (build_merkle_root_from_coinbase (hash_at m len)) jobs.
Proof.
  intros F. cbv zeta. unfold roots_together.
  assert (FT : feet Nat.eq_dec bheld false m (map (c_root len room) jobs) (fun _ _ => True) (fun _ _ => false)).
  { intros i p Hp. rewrite nth_error_map in Hp. destruct (nth_error jobs i) as [b|] eqn:E; [|discriminate]. injection Hp as <-.
    apply foot_copies. rewrite Forall_forall in F. apply F. eapply nth_error_In, E. }
  assert (AP : forall n, apart n (fun (_ : nat) (_ : nat) => True) (fun _ _ => false)) by (intros n i j l _ _ _ Z; discriminate).
  split; [|split].
  - eapply apart_no_race; eauto.
  - intros l. destruct (inv_run Nat.eq_dec bheld false m (map (c_root len room) jobs) (fun _ _ => True) (fun _ _ => false) schedule) as (_ & _ & H); auto.
  - intros rs H. destruct (apart_outcome Nat.eq_dec bheld false m (map (c_root len room) jobs) (fun _ _ => True) (fun _ _ => false) schedule rs) as (E & _); auto.
    rewrite E, map_map. apply map_ext. intros b. apply C82_alone.
Qed.

(** all calls have the same first branch: there may be room, and every schedule still gives
    each call its merkle root *)
Theorem C82_same_first m len room jobs schedule rs :
  (forall h r h' r', In (h :: r) jobs -> In (h' :: r') jobs -> hex_ignore h = hex_ignore h') ->
  returned bheld (roots_together m len room jobs schedule) rs ->
  rs = map (build_merkle_root_from_coinbase (hash_at m len)) jobs.
Proof.
  intros S. unfold roots_together.
  assert (D : exists d, forall h r, In (h :: r) jobs -> hex_ignore h = d).
  { destruct (existsb (fun j => match j with [] => false | _ => true end) jobs) eqn:X.
    - apply existsb_exists in X. destruct X as ([|h r] & I1 & I2); [discriminate|]. exists (hex_ignore h). intros. eapply S; eauto.
    - exists []. intros h r I1. exfalso. rewrite <- not_true_iff_false in X. apply X. apply existsb_exists. exists (h :: r). auto. }
  destruct D as (d & D). apply (conv_outcome Nat.eq_dec bheld (written m len d)).
  split; [cbn; now rewrite !map_length|]. cbn [fst snd]. intros i p r Hp Hr. rewrite nth_error_map in Hp, Hr.
  destruct (nth_error jobs i) as [b|] eqn:E; [|discriminate]. injection Hp as <-. injection Hr as <-. apply nth_error_In in E.
  exists (fun l => (l < len)%nat). split.
  - apply conv_root.
    + intros l Hl. unfold written. destruct (Nat.leb_spec len l); [lia|reflexivity].
    + destruct b as [|h r]; [exact I|]. intros _ j b Hj. rewrite (D h r E) in Hj. unfold written.
      destruct (Nat.leb_spec len (len + j)); [|lia]. replace (len + j - len)%nat with j by lia. erewrite nth_error_nth; [reflexivity|exact Hj].
  - intros l Hl. unfold written. destruct (Nat.leb_spec len l); [lia|reflexivity].
Qed.

(** two calls whose first branches fit behind the hash: a data race at once *)
Theorem C82_room_races m len room h0 r0 h1 r1 :
  (0 < length (hex_ignore h0) <= room)%nat -> (0 < length (hex_ignore h1) <= room)%nat ->
  race bheld (roots_together m len room [h0 :: r0; h1 :: r1] []).
Proof.
  intros H0 H1. unfold roots_together. cbn [run fold_left]. 
  assert (X : forall h r, (0 < length (hex_ignore h) <= room)%nat -> next bheld (c_root len room (h :: r)) = Some (len, true)).
  { intros h r H. unfold c_root. destruct (Nat.leb_spec (length (hex_ignore h)) room); [|lia]. destruct (hex_ignore h); [cbn in H; lia|reflexivity]. }
  exists 0%nat, 1%nat, (c_root len room (h0 :: r0)), (c_root len room (h1 :: r1)), len, true, true.
  split; [discriminate|]. split; [reflexivity|]. split; [reflexivity|]. split; [now apply X|]. split; [now apply X|]. now left.
Qed.

(** and, if the branches have one length, there is a schedule in which the second call returns
    the root for the first call's first branch *)
Lemma run_put {R} (k : bcall R) d : forall i (m : bmem) ps t, nth_error ps t = Some (c_put i d k) ->
  exists s m', (forall l, m' l = written m i d l) /\ run Nat.eq_dec bheld (m, ps) s = (m', set_nth t k ps).
Proof.
  induction d as [|b d IH]; intros i m ps t H.
  - exists [], m. split; [intros l; unfold written; destruct (Nat.leb i l); [destruct (l - i)%nat|]; reflexivity|]. cbn. f_equal. symmetry.
    revert t H. induction ps as [|p ps IHp]; intros [|t] H; cbn in *; try discriminate; [congruence|]. f_equal. now apply IHp.
  - destruct (IH (S i) (bupd m i b) (set_nth t (c_put (S i) d k) ps) t) as (s & m' & W & E).
    { rewrite nth_error_set, Nat.eqb_refl, H. reflexivity. }
    exists (t :: s), m'. split; [intros l; rewrite W; symmetry; apply written_cons|].
    cbn [c_put] in H. erewrite (run_wr Nat.eq_dec bheld _ _ _ i b) by exact H. rewrite E. f_equal.
    clear -H. revert t H. induction ps as [|p ps IHp]; intros [|t] H; cbn in *; try discriminate; [reflexivity|]. f_equal. now apply IHp.
Qed.
Theorem C82_wrong_branch m len room h0 r0 h1 r1 :
  length (hex_ignore h0) = length (hex_ignore h1) -> (length (hex_ignore h0) <= room)%nat ->
  exists schedule, returned bheld (roots_together m len room [h0 :: r0; h1 :: r1] schedule)
    [build_merkle_root_from_coinbase (hash_at m len) (h0 :: r0); build_merkle_root_from_coinbase (hash_at m len) (h0 :: r1)].
Proof.
  intros L F. unfold roots_together. cbn [map]. set (p0 := c_root len room (h0 :: r0)).
  assert (E1 : exists k, c_root len room (h1 :: r1) = c_put len (hex_ignore h1) k /\
    forall m', fst (bsolo m' k) = build_merkle_root_from_coinbase (sha256d (hash_at m' (len + length (hex_ignore h1)))) r1).
  { eexists. split; [unfold c_root; cbv zeta; destruct (Nat.leb_spec (length (hex_ignore h1)) room); [reflexivity|lia]|].
    intros m'. rewrite solo_take. reflexivity. }
  destruct E1 as (k & -> & V).
  destruct (run_put k (hex_ignore h1) len m [p0; c_put len (hex_ignore h1) k] 1 eq_refl) as (s1 & m1 & W1 & X1). cbn [set_nth] in X1.
  destruct (run_to_end Nat.eq_dec bheld p0 m1 [p0; k] 0 eq_refl) as (s2 & X2). cbn [set_nth] in X2.
  destruct (C82_alone m1 len room (h0 :: r0)) as (V0 & _). fold p0 in V0.
  assert (HA : hash_at m1 len = hash_at m len).
  { apply map_seq_eq. intros l Hl. rewrite W1. unfold written. destruct (Nat.leb_spec len l); [lia|reflexivity]. }
  rewrite HA in V0. rewrite V0 in X2. set (m2 := snd (bsolo m1 p0)) in *.
  destruct (run_to_end Nat.eq_dec bheld k m2 [Ret (build_merkle_root_from_coinbase (hash_at m len) (h0 :: r0)); k] 1 eq_refl) as (s3 & X3). cbn [set_nth] in X3.
  exists (s1 ++ s2 ++ s3). unfold returned. rewrite !run_app.
  pose proof (eq_trans (f_equal (fun c => run Nat.eq_dec bheld (run Nat.eq_dec bheld c s2) s3) X1) (eq_trans (f_equal (fun c => run Nat.eq_dec bheld c s3) X2) X3)) as X.
  cbv beta in X. etransitivity; [exact (f_equal snd X)|]. cbn [snd map]. do 2 f_equal. f_equal.
  rewrite V, build_cons. f_equal. f_equal. rewrite <- L, <- HA, <- map_written.
  assert (M2 : forall l, m2 l = written m1 len (hex_ignore h0) l).
  { intros l. unfold m2, p0, c_root. cbv zeta. destruct (Nat.leb_spec (length (hex_ignore h0)) room); [|lia].
    match goal with |- context [c_put len ?d ?k] => destruct (solo_put k d len m1) as (m' & W & ->) end.
    rewrite solo_take. cbn [solo snd]. apply W. }
  apply map_ext. exact M2.
Qed.

(** that root is right only if there is a collision among the messages hashed on the way *)
Theorem C82_wrong_root c h0 h1 r : hex_ignore h0 <> hex_ignore h1 ->
  build_merkle_root_from_coinbase c (h0 :: r) = build_merkle_root_from_coinbase c (h1 :: r) ->
  exists k a b, nth_error (hashed c (h0 :: r)) k = Some a /\ nth_error (hashed c (h1 :: r)) k = Some b /\
    a <> b /\ sha256d a = sha256d b.
Proof.
  intros N E. rewrite !build_cons in E. cbn [hashed].
  assert (N' : c ++ hex_ignore h0 <> c ++ hex_ignore h1) by (intros X; apply app_inv_head in X; contradiction).
  revert N' E. generalize (c ++ hex_ignore h0) (c ++ hex_ignore h1). clear. induction r as [|h r IH]; intros a b N E.
  - exists 0%nat, a, b. cbn in E. auto.
  - rewrite !build_cons in E. cbn [hashed].
    destruct (list_eq_dec Byte.byte_eq_dec (sha256d a) (sha256d b)) as [Q|Q]; [exists 0%nat, a, b; auto|].
    destruct (IH (sha256d a ++ hex_ignore h) (sha256d b ++ hex_ignore h)) as (k & x & y & A & B & C); [intros X; apply app_inv_tail in X; contradiction|exact E|].
    exists (S k), x, y. auto.
Qed.

(** ** Non-vacuity: a 4-byte hash with 4 free bytes behind it, branches "aabb" and "ccdd"; with
    1 free byte; the same branch twice *)
Definition ex_bmem : bmem := fun l => n2b (N.of_nat l).
Example C82_example :
  let b0 := [hex_encode [xaa; xbb]] in let b1 := [hex_encode [xcc; xdd]; hex_encode [x01]] in
  hash_at ex_bmem 4 = [x00; x01; x02; x03] /\
  (length (hex_ignore (hex_encode [xaa; xbb])) = length (hex_ignore (hex_encode [xcc; xdd])) /\ 0 < length (hex_ignore (hex_encode [xcc; xdd])) <= 4)%nat /\
  hex_ignore (hex_encode [xaa; xbb]) <> hex_ignore (hex_encode [xcc; xdd]) /\
  Forall (copies 1) [b0; b1; []] /\ ~ copies 4 b0.
Proof.
  cbv zeta. split; [reflexivity|]. split; [vm_compute; lia|]. split; [vm_compute; discriminate|]. split.
  - repeat constructor; vm_compute; left; lia.
  - vm_compute. intros [H|H]; [lia|discriminate].
Qed.
Print Assumptions C82_alone.
Print Assumptions C82_no_room.
Print Assumptions C82_same_first.
Print Assumptions C82_room_races.
Print Assumptions C82_wrong_branch.
Print Assumptions C82_wrong_root.
