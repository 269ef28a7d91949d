(** Proofs for C82. *)
From Verif Require Export P_Conc S_ConcCb.
From Coq Require Import Lia ZifyBool ZifyNat.

(** calls that agree on what the cells will hold: each reads only what it wrote or what nobody
    changes *)
Section Conv.
Context {L : Type} (leq : forall a b : L, {a = b} + {a <> b}) (V : L -> Type).
Variable goal : mem V.
Fixpoint conv {R} (K : L -> Prop) (p : prog V R) (r : R) : Prop :=
  match p with
  | Ret x => x = r
  | Rd l k => K l /\ conv K (k (goal l)) r
  | Wr l v k => v = goal l /\ conv (fun l' => l' = l \/ K l') k r
  end.
Lemma conv_mono {R} (p : prog V R) : forall (K K' : L -> Prop) r, (forall l, K l -> K' l) -> conv K p r -> conv K' p r.
Proof.
  induction p as [x|l k IH|l v k IH]; intros K K' r H C; cbn in *; auto.
  - destruct C; split; auto. eapply IH; eauto.
  - destruct C; split; auto. eapply IH; [|eassumption]. cbn. intuition.
Qed.
Definition cinv {R} (c : conf V R) (rs : list R) : Prop :=
  length (snd c) = length rs /\ forall i p r, nth_error (snd c) i = Some p -> nth_error rs i = Some r ->
    exists K, conv K p r /\ forall l, K l -> fst c l = goal l.
Lemma cinv_step {R} (c : conf V R) rs i : cinv c rs -> cinv (step leq V c i) rs.
Proof.
  intros (Ln & H). unfold step. destruct (nth_error (snd c) i) as [[x|l k|l v k]|] eqn:E; [split; assumption| | |split; assumption].
  - split; [cbn; now rewrite set_nth_len|]. cbn [fst snd]. intros j p r Hp Hr. rewrite nth_error_set in Hp.
    destruct (Nat.eqb_spec i j) as [<-|N]; [|now apply H with j].
    destruct (H i _ _ E Hr) as (K & (C1 & C2) & A). rewrite E in Hp. injection Hp as <-. exists K. rewrite (A l C1). auto.
  - split; [cbn; now rewrite set_nth_len|]. cbn [fst snd]. intros j p r Hp Hr. rewrite nth_error_set in Hp.
    assert (i < length rs)%nat as Hi by (rewrite <- Ln; apply nth_error_Some; congruence).
    destruct (nth_error rs i) as [ri|] eqn:Er; [|apply nth_error_None in Er; lia].
    destruct (H i _ _ E Er) as (Ki & (C1 & C2) & A).
    destruct (Nat.eqb_spec i j) as [<-|N].
    + rewrite E in Hp. injection Hp as <-. replace r with ri by congruence. eexists. split; [exact C2|]. cbn. intros l' [->|Hl'].
      * rewrite upd_same. assumption.
      * destruct (leq l l') as [<-|n]; [rewrite upd_same; assumption|rewrite upd_other; auto].
    + destruct (H j _ _ Hp Hr) as (K & C & B). exists K. split; [assumption|]. intros l' Hl'.
      destruct (leq l l') as [<-|n]; [rewrite upd_same; assumption|rewrite upd_other; auto].
Qed.
Lemma cinv_run {R} s : forall (c : conf V R) rs, cinv c rs -> cinv (run leq V c s) rs.
Proof. induction s as [|i s IH]; intros c rs H; [assumption|]. cbn [run fold_left]. apply IH, cinv_step, H. Qed.
Lemma conv_outcome {R} (c : conf V R) rs s xs : cinv c rs -> returned V (run leq V c s) xs -> xs = rs.
Proof.
  intros H E. destruct (cinv_run s c rs H) as (Ln & I). unfold returned in E. rewrite E in I, Ln. rewrite map_length in Ln.
  clear E H. set (m := fst _) in I. clearbody m. revert rs Ln I. induction xs as [|x xs IH]; intros [|r rs] Ln I; try discriminate; [reflexivity|].
  destruct (I 0%nat _ _ eq_refl eq_refl) as (K & C & _). cbn in C. subst. f_equal.
  apply IH; [now injection Ln|]. intros i. exact (I (S i)).
Qed.
End Conv.

Notation bsolo := (solo Nat.eq_dec bheld).
Notation bupd := (upd Nat.eq_dec bheld).

Lemma build_cons c h r : build_merkle_root_from_coinbase c (h :: r) = build_merkle_root_from_coinbase (sha256d (c ++ hex_ignore h)) r.
Proof. reflexivity. Qed.

(** the array after [append] has written [d] at [i] *)
Definition written (m : bmem) (i : nat) (d : bytes) : bmem := fun l => if Nat.leb i l then nth (l - i) d (m l) else m l.
Lemma written_cons (m : bmem) i b d l : written m i (b :: d) l = written (bupd m i b) (S i) d l.
Proof.
  unfold written. destruct (Nat.leb_spec i l), (Nat.leb_spec (S i) l); try lia.
  - replace (l - i)%nat with (S (l - S i)) by lia. cbn [nth]. rewrite upd_other by lia. reflexivity.
  - replace l with i by lia. rewrite Nat.sub_diag, upd_same. reflexivity.
  - rewrite upd_other by lia. reflexivity.
Qed.
Lemma solo_put {R} (k : bcall R) d : forall i (m : bmem), exists m', (forall l, m' l = written m i d l) /\ bsolo m (c_put i d k) = bsolo m' k.
Proof.
  induction d as [|b d IH]; intros i m.
  - exists m. split; [|reflexivity]. intros l. unfold written. destruct (Nat.leb i l); [destruct (l - i)%nat|]; reflexivity.
  - cbn [c_put solo]. destruct (IH (S i) (bupd m i b)) as (m' & E & F). exists m'. split; [|exact F]. intros l. rewrite E. symmetry. apply written_cons.
Qed.
Lemma solo_take {R} (m : bmem) (k : bytes -> bcall R) n : forall i acc, bsolo m (c_take acc i n k) = bsolo m (k (acc ++ map m (seq i n))).
Proof.
  induction n as [|n IH]; intros i acc; cbn [c_take solo seq map]; [now rewrite app_nil_r|].
  rewrite IH, <- app_assoc. reflexivity.
Qed.
Lemma conv_put goal {R} (k : bcall R) (r : R) d : forall i (K : nat -> Prop),
  (forall j b, nth_error d j = Some b -> goal (i + j)%nat = b) ->
  conv bheld goal (fun l => K l \/ (i <= l < i + length d)%nat) k r -> conv bheld goal K (c_put i d k) r.
Proof.
  induction d as [|b d IH]; intros i K G C; cbn [c_put].
  - eapply conv_mono; [|exact C]. cbn. intros l [H|H]; [assumption|lia].
  - cbn [conv]. split; [symmetry; rewrite <- (Nat.add_0_r i); now apply G|]. apply IH.
    + intros j x Hj. rewrite <- (G (S j) x Hj). f_equal. lia.
    + eapply conv_mono; [|exact C]. cbn. intros l [H|H]; [auto|]. destruct (Nat.eq_dec l i); [auto|]. right. lia.
Qed.
Lemma conv_take goal {R} (k : bytes -> bcall R) (r : R) (K : nat -> Prop) n : forall i acc,
  (forall l, (i <= l < i + n)%nat -> K l) -> conv bheld goal K (k (acc ++ map goal (seq i n))) r -> conv bheld goal K (c_take acc i n k) r.
Proof.
  induction n as [|n IH]; intros i acc H C; cbn [c_take seq map] in *; [now rewrite app_nil_r in C|].
  cbn [conv]. split; [apply H; lia|]. apply IH; [intros l Hl; apply H; lia|]. rewrite <- app_assoc. exact C.
Qed.
Lemma map_seq_eq (f g : bmem) i n : (forall l, (i <= l < i + n)%nat -> f l = g l) -> map f (seq i n) = map g (seq i n).
Proof. intros H. apply map_ext_in. intros l Hl. apply in_seq in Hl. apply H. lia. Qed.
Lemma map_written (m : bmem) len d : map (written m len d) (seq 0 (len + length d)) = hash_at m len ++ d.
Proof.
  rewrite seq_app, map_app. f_equal.
  - apply map_seq_eq. intros l Hl. unfold written. destruct (Nat.leb_spec len l); [lia|reflexivity].
  - cbn [plus]. revert len m. induction d as [|b d IH]; intros len m; [reflexivity|]. cbn [length seq map]. f_equal.
    + unfold written. rewrite Nat.leb_refl, Nat.sub_diag. reflexivity.
    + transitivity (map (written (bupd m len b) (S len) d) (seq (S len) (length d))); [|apply IH]. apply map_ext. intros l. apply written_cons.
Qed.
(** every call of [c_root] whose first branch is [d] if it fits *)
Lemma conv_root (m : bmem) len room branches goal : (forall l, (l < len)%nat -> goal l = m l) ->
  match branches with h :: _ => (length (hex_ignore h) <= room)%nat -> forall j b, nth_error (hex_ignore h) j = Some b -> goal (len + j)%nat = b | [] => True end ->
  conv bheld goal (fun l => (l < len)%nat) (c_root len room branches) (build_merkle_root_from_coinbase (hash_at m len) branches).
Proof.
  intros G D. assert (GH : map goal (seq 0 len) = hash_at m len) by (apply map_seq_eq; intros l Hl; apply G; lia).
  unfold c_root. destruct branches as [|h r].
  - apply conv_take; [intros l Hl; lia|]. cbn. exact GH.
  - cbv zeta. rewrite build_cons. destruct (Nat.leb_spec (length (hex_ignore h)) room) as [LE|LE].
    + specialize (D LE). apply conv_put; [exact D|]. apply conv_take; [intros l Hl; lia|]. cbn [conv app]. do 2 f_equal.
      rewrite <- map_written. apply map_seq_eq. intros l Hl. unfold written. destruct (Nat.leb_spec len l); [|apply G; lia].
      pose proof (D (l - len)%nat (nth (l - len) (hex_ignore h) (m l))) as E. replace (len + (l - len))%nat with l in E by lia. apply E, nth_error_nth'. lia.
    + apply conv_take; [intros l Hl; lia|]. cbn [conv app]. now rewrite GH.
Qed.
