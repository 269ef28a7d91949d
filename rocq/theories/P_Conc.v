(** Calls whose writes the others do not access: every schedule gives what running them
    one by one gives, without data races. *)
From Verif Require Export S_Conc.
From Coq Require Import Eqdep_dec Lia.

Section Conc.
Context {L : Type} (leq : forall a b : L, {a = b} + {a <> b}) (V : L -> Type).
Notation mem := (mem V).
Notation upd := (upd leq V).
Notation solo := (solo leq V).
Notation step := (step leq V).
Notation run := (run leq V).

Lemma upd_same m l v : upd m l v l = v.
Proof.
  unfold S_Conc.upd; destruct (leq l l) as [e|n]; [|congruence].
  rewrite (UIP_dec leq e eq_refl); reflexivity.
Qed.
Lemma upd_other m l v l' : l <> l' -> upd m l v l' = m l'.
Proof. unfold S_Conc.upd; destruct (leq l l') as [e|n]; [congruence|reflexivity]. Qed.

(** the accesses of the call alone lie in these sets; with [sl], it may also write back
    what a cell of [Rs] holds *)
Fixpoint foot (sl : bool) {R} (m : mem) (p : prog V R) (Rs : L -> Prop) (Ws : L -> bool) : Prop :=
  match p with
  | Ret _ => True
  | Rd l k => (Rs l \/ Ws l = true) /\ foot sl m (k (m l)) Rs Ws
  | Wr l v k => (Ws l = true \/ (sl = true /\ Rs l /\ v = m l)) /\ foot sl (upd m l v) k Rs Ws
  end.

Definition agree (m m' : mem) (Rs : L -> Prop) (Ws : L -> bool) : Prop :=
  forall l, Rs l \/ Ws l = true -> m l = m' l.

Lemma agree_upd m m' Rs Ws l v : agree m m' Rs Ws -> agree (upd m l v) (upd m' l v) Rs Ws.
Proof.
  intros A l' Hl'. destruct (leq l l') as [<-|n]; [now rewrite !upd_same|rewrite !upd_other; auto].
Qed.

Lemma solo_agree sl {R} (p : prog V R) Rs Ws : forall m m', foot sl m p Rs Ws -> agree m m' Rs Ws ->
  foot sl m' p Rs Ws /\ fst (solo m' p) = fst (solo m p) /\ agree (snd (solo m p)) (snd (solo m' p)) Rs Ws /\
  (forall l, Ws l = false -> snd (solo m' p) l = m' l).
Proof.
  induction p as [r|l k IH|l v k IH]; intros m m' F A; cbn [foot S_Conc.solo fst snd] in *.
  - auto.
  - destruct F as [Hl F]. destruct (IH (m l) m m' F A) as (F' & E & A' & N).
    rewrite <- (A l Hl). auto.
  - destruct F as [Hl F]. destruct (IH (upd m l v) (upd m' l v) F) as (F' & E & A' & N);
      [now apply agree_upd|]. split; [split; [|assumption]|repeat split; auto].
    + destruct Hl as [Hl|(S1 & S2 & S3)]; [now left|right]. repeat split; auto. rewrite <- (A l); auto.
    + intros l' Hl'. rewrite N by assumption. destruct (leq l l') as [<-|n]; [|now apply upd_other].
      rewrite upd_same. destruct Hl as [Hl|(S1 & S2 & S3)]; [congruence|]. rewrite <- (A l); auto.
Qed.

Lemma agree_refl m Rs Ws : agree m m Rs Ws. Proof. intros l _; reflexivity. Qed.

Lemma solo_frame sl {R} (p : prog V R) Rs Ws m : foot sl m p Rs Ws -> forall l, Ws l = false -> snd (solo m p) l = m l.
Proof. intros F. apply (solo_agree sl p Rs Ws m m F (agree_refl _ _ _)). Qed.

(** what one call writes, another does not access *)
Definition apart (n : nat) (Rs : nat -> L -> Prop) (Ws : nat -> L -> bool) : Prop :=
  forall i j l, (i < n)%nat -> (j < n)%nat -> i <> j -> Ws i l = true -> ~ (Rs j l \/ Ws j l = true).

Definition feet (sl : bool) {R} (m : mem) (ps : list (prog V R)) Rs Ws : Prop :=
  forall i p, nth_error ps i = Some p -> foot sl m p (Rs i) (Ws i).

(** the state of an execution relative to its start *)
Definition inv (sl : bool) {R} (m0 : mem) (ps : list (prog V R)) Rs Ws (c : conf V R) : Prop :=
  length (snd c) = length ps /\
  (forall i p q, nth_error ps i = Some p -> nth_error (snd c) i = Some q ->
     foot sl (fst c) q (Rs i) (Ws i) /\ fst (solo (fst c) q) = fst (solo m0 p) /\
     agree (snd (solo (fst c) q)) (snd (solo m0 p)) (Rs i) (Ws i)) /\
  (forall l, (forall i, (i < length ps)%nat -> Ws i l = false) -> fst c l = m0 l).

Lemma nth_error_set {A} (l : list A) i j x :
  nth_error (set_nth i x l) j = if Nat.eqb i j then match nth_error l j with Some _ => Some x | None => None end else nth_error l j.
Proof.
  revert i j; induction l as [|a l IH]; intros [|i] [|j]; cbn; try reflexivity.
  - now destruct (Nat.eqb i j).
  - apply IH.
Qed.
Lemma set_nth_len {A} (l : list A) i x : length (set_nth i x l) = length l.
Proof. revert i; induction l as [|a l IH]; intros [|i]; cbn; auto. Qed.

Lemma inv_step sl {R} m0 (ps : list (prog V R)) Rs Ws c i :
  apart (length ps) Rs Ws -> inv sl m0 ps Rs Ws c -> inv sl m0 ps Rs Ws (step c i).
Proof.
  intros Ap (Hl & Ht & Hm). destruct c as [m qs]; cbn [fst snd] in *. unfold S_Conc.step; cbn [fst snd].
  destruct (nth_error qs i) as [q|] eqn:Hq; [|repeat split; auto; apply (Ht _ _ _ H H0)].
  assert (Hi : (i < length ps)%nat) by (rewrite <- Hl; apply nth_error_Some; congruence).
  destruct (nth_error ps i) as [p|] eqn:Hp; [|apply nth_error_None in Hp; lia].
  destruct (Ht i p q Hp Hq) as (F & E & A).
  destruct q as [r|l k|l v k].
  - repeat split; auto; apply (Ht _ _ _ H H0).
  - (* read *)
    split; [cbn; now rewrite set_nth_len|]. split; [|exact Hm].
    intros j p' q' Hp' Hq'. cbn [fst snd] in *. rewrite nth_error_set in Hq'.
    destruct (Nat.eqb_spec i j) as [<-|Hij]; [|now apply (Ht j)].
    rewrite Hq in Hq'. injection Hq' as <-. rewrite Hp in Hp'; injection Hp' as <-.
    cbn [foot S_Conc.solo] in *. tauto.
  - (* write *)
    cbn [foot S_Conc.solo] in *. destruct F as [Wl F].
    split; [cbn; now rewrite set_nth_len|]. cbn [fst snd]. split.
    + intros j p' q' Hp' Hq'. rewrite nth_error_set in Hq'.
      destruct (Nat.eqb_spec i j) as [<-|Hij].
      * rewrite Hq in Hq'. injection Hq' as <-. rewrite Hp in Hp'; injection Hp' as <-. auto.
      * destruct (Ht j p' q' Hp' Hq') as (F' & E' & A').
        assert (Hj : (j < length ps)%nat) by (apply nth_error_Some; congruence).
        assert (Ag : agree m (upd m l v) (Rs j) (Ws j)).
        { intros l' Hl'. destruct (leq l l') as [<-|n]; [|now rewrite upd_other].
          destruct Wl as [Wl|(_ & _ & Wl)]; [destruct (Ap i j l Hi Hj Hij Wl Hl')|]. now rewrite upd_same. }
        destruct (solo_agree sl q' (Rs j) (Ws j) m (upd m l v) F' Ag) as (G1 & G2 & G3 & _).
        split; [assumption|]. split; [congruence|].
        intros l' Hl'. rewrite <- (G3 l' Hl'). now apply A'.
    + intros l' Hl'. destruct (leq l l') as [<-|n]; [|rewrite upd_other by assumption; now apply Hm].
      rewrite upd_same. destruct Wl as [Wl|(_ & _ & ->)]; [specialize (Hl' i Hi); congruence|]. now apply Hm.
Qed.

Lemma inv_init sl {R} m0 (ps : list (prog V R)) Rs Ws : feet sl m0 ps Rs Ws -> inv sl m0 ps Rs Ws (m0, ps).
Proof.
  intros F. split; [reflexivity|]. split; [|reflexivity]. intros i p q Hp Hq; cbn [fst snd] in *.
  rewrite Hp in Hq; injection Hq as <-. split; [now apply F|]. split; [reflexivity|apply agree_refl].
Qed.

Lemma inv_run sl {R} m0 (ps : list (prog V R)) Rs Ws sched : apart (length ps) Rs Ws -> feet sl m0 ps Rs Ws ->
  inv sl m0 ps Rs Ws (run (m0, ps) sched).
Proof.
  intros Ap F. unfold S_Conc.run. assert (I := inv_init sl m0 ps Rs Ws F). revert I. generalize (m0, ps).
  induction sched as [|i s IH]; intros c I; cbn; [exact I|]. apply IH. now apply inv_step.
Qed.

Lemma foot_next {R} m (p : prog V R) Rs Ws l w : foot false m p Rs Ws -> next V p = Some (l, w) ->
  (Rs l \/ Ws l = true) /\ (w = true -> Ws l = true).
Proof. destruct p; cbn; intros F; [discriminate| |]; intros [= <- <-]; destruct F as [F _]; split; auto; try discriminate; destruct F as [F|(F & _)]; try discriminate; auto. Qed.

(** no data race *)
Theorem apart_no_race {R} m0 (ps : list (prog V R)) Rs Ws sched : apart (length ps) Rs Ws -> feet false m0 ps Rs Ws ->
  ~ race V (run (m0, ps) sched).
Proof.
  intros Ap F (i & j & p & q & l & w1 & w2 & Hij & Hp & Hq & N1 & N2 & Hw).
  destruct (inv_run false m0 ps Rs Ws sched Ap F) as (Hl & Ht & _).
  assert (Hi : (i < length ps)%nat) by (rewrite <- Hl; apply nth_error_Some; congruence).
  assert (Hj : (j < length ps)%nat) by (rewrite <- Hl; apply nth_error_Some; congruence).
  destruct (nth_error ps i) as [p0|] eqn:Hp0; [|apply nth_error_None in Hp0; lia].
  destruct (nth_error ps j) as [q0|] eqn:Hq0; [|apply nth_error_None in Hq0; lia].
  destruct (Ht i p0 p Hp0 Hp) as (F1 & _). destruct (Ht j q0 q Hq0 Hq) as (F2 & _).
  destruct (foot_next _ _ _ _ _ _ F1 N1) as [A1 B1]. destruct (foot_next _ _ _ _ _ _ F2 N2) as [A2 B2].
  destruct Hw as [-> | ->]; [exact (Ap i j l Hi Hj Hij (B1 eq_refl) A2)|].
  exact (Ap j i l Hj Hi (not_eq_sym Hij) (B2 eq_refl) A1).
Qed.

(** the outcome *)
Definition outcome {R} (m0 : mem) (ps : list (prog V R)) (Ws : nat -> L -> bool) (rs : list R) (m : mem) : Prop :=
  rs = map (fun p => fst (solo m0 p)) ps /\
  (forall i p l, nth_error ps i = Some p -> Ws i l = true -> m l = snd (solo m0 p) l) /\
  (forall l, (forall i, (i < length ps)%nat -> Ws i l = false) -> m l = m0 l).

Lemma apart_outcome sl {R} m0 (ps : list (prog V R)) Rs Ws sched rs : apart (length ps) Rs Ws -> feet sl m0 ps Rs Ws ->
  returned V (run (m0, ps) sched) rs -> outcome m0 ps Ws rs (fst (run (m0, ps) sched)).
Proof.
  intros Ap F Hr. destruct (inv_run sl m0 ps Rs Ws sched Ap F) as (Hl & Ht & Hm).
  unfold returned in Hr. rewrite Hr in Ht. rewrite Hr, map_length in Hl.
  split; [|split]; [| |exact Hm].
  - clear Hm. clear F Ap. revert Hl Ht. generalize (fst (run (m0, ps) sched)); intros m Hl Ht.
    clear Hr. revert Rs Ws rs Hl Ht. induction ps as [|p ps IH]; intros Rs Ws [|r rs] Hl Ht; cbn in *; try discriminate; [reflexivity|].
    f_equal.
    + destruct (Ht 0%nat p (Ret r) eq_refl eq_refl) as (_ & E & _). exact E.
    + apply (IH (fun i => Rs (S i)) (fun i => Ws (S i))); [lia|]. intros i p' q' H1 H2. exact (Ht (S i) p' q' H1 H2).
  - intros i p l Hp Wl.
    assert (Hi : (i < length rs)%nat) by (rewrite Hl; apply nth_error_Some; congruence).
    destruct (nth_error rs i) as [r|] eqn:Hri; [|apply nth_error_None in Hri; lia].
    destruct (Ht i p (Ret r) Hp) as (_ & _ & A); [now rewrite nth_error_map, Hri|].
    cbn [S_Conc.solo snd] in A. now apply A; right.
Qed.

Lemma one_by_one_outcome sl {R} (ps : list (prog V R)) : forall m0 Rs Ws, apart (length ps) Rs Ws -> feet sl m0 ps Rs Ws ->
  outcome m0 ps Ws (fst (one_by_one leq V m0 ps)) (snd (one_by_one leq V m0 ps)).
Proof.
  induction ps as [|p ps IH]; intros m0 Rs Ws Ap F; cbn [one_by_one].
  - split; [reflexivity|]. split; [intros [|i] p l; discriminate|reflexivity].
  - destruct (solo m0 p) as [x m1] eqn:E. destruct (one_by_one leq V m1 ps) as [xs m2] eqn:E2. cbn [fst snd].
    assert (F0 : foot sl m0 p (Rs 0%nat) (Ws 0%nat)) by (now apply F).
    assert (N : forall l, Ws 0%nat l = false -> m1 l = m0 l).
    { intros l Hl. replace m1 with (snd (solo m0 p)) by (now rewrite E). exact (solo_frame sl p _ _ m0 F0 l Hl). }
    assert (Ag : forall i, (S i < length (p :: ps))%nat -> agree m0 m1 (Rs (S i)) (Ws (S i))).
    { intros i Hi l Hl. symmetry. apply N. destruct (Ws 0%nat l) eqn:Hw; [|reflexivity]. exfalso.
      exact (Ap 0%nat (S i) l ltac:(cbn; lia) Hi ltac:(lia) Hw Hl). }
    assert (Fi : forall i q, nth_error ps i = Some q ->
        foot sl m1 q (Rs (S i)) (Ws (S i)) /\ fst (solo m1 q) = fst (solo m0 q) /\
        agree (snd (solo m0 q)) (snd (solo m1 q)) (Rs (S i)) (Ws (S i))).
    { intros i q Hq. assert (Hi : (S i < length (p :: ps))%nat) by (cbn; apply -> Nat.succ_lt_mono; apply nth_error_Some; congruence).
      destruct (solo_agree sl q (Rs (S i)) (Ws (S i)) m0 m1 (F (S i) q Hq) (Ag i Hi)) as (A & B & C & _). auto. }
    destruct (IH m1 (fun i => Rs (S i)) (fun i => Ws (S i))) as (H1 & H2 & H3).
    { intros i j l Hi Hj Hij. apply (Ap (S i) (S j) l); cbn; lia. }
    { intros i q Hq. now apply Fi. }
    rewrite E2 in H1, H2, H3; cbn [fst snd] in H1, H2, H3.
    split; [|split].
    + cbn [map]. rewrite E; cbn [fst]. f_equal. rewrite H1. clear - Fi.
      apply map_ext_in. intros q Hq. apply In_nth_error in Hq. destruct Hq as [i Hq].
      now destruct (Fi i q Hq) as (_ & ? & _).
    + intros [|i] q l Hq Wl; cbn in Hq.
      * injection Hq as <-. rewrite E; cbn [snd]. rewrite H3; [reflexivity|].
        intros i Hi. destruct (Ws (S i) l) eqn:Hw; [|reflexivity]. exfalso.
        exact (Ap 0%nat (S i) l ltac:(cbn; lia) ltac:(cbn; lia) ltac:(lia) Wl (or_intror Hw)).
      * rewrite (H2 i q l Hq Wl). destruct (Fi i q Hq) as (_ & _ & A). symmetry. apply A. now right.
    + intros l Hl. rewrite H3; [|intros i Hi; apply (Hl (S i)); cbn; lia]. apply N. apply (Hl 0%nat). cbn; lia.
Qed.

Lemma outcome_unique {R} m0 (ps : list (prog V R)) Ws rs1 m1 rs2 m2 :
  outcome m0 ps Ws rs1 m1 -> outcome m0 ps Ws rs2 m2 -> rs1 = rs2 /\ forall l, m1 l = m2 l.
Proof.
  intros (A1 & B1 & C1) (A2 & B2 & C2). split; [congruence|]. intros l.
  destruct (existsb (fun i => Ws i l) (seq 0 (length ps))) eqn:E.
  - apply existsb_exists in E. destruct E as (i & Hi & Wl). apply in_seq in Hi.
    destruct (nth_error ps i) as [p|] eqn:Hp; [|apply nth_error_None in Hp; lia].
    now rewrite (B1 i p l Hp Wl), (B2 i p l Hp Wl).
  - assert (N : forall i, (i < length ps)%nat -> Ws i l = false).
    { intros i Hi. destruct (Ws i l) eqn:Hw; [|reflexivity]. rewrite <- E. symmetry.
      apply existsb_exists. exists i. split; [apply in_seq; lia|exact Hw]. }
    now rewrite (C1 l N), (C2 l N).
Qed.

(** Every complete execution returns what running the calls one by one returns, and leaves
    the same memory. *)
Theorem apart_one_by_one sl {R} m0 (ps : list (prog V R)) Rs Ws sched rs : apart (length ps) Rs Ws -> feet sl m0 ps Rs Ws ->
  returned V (run (m0, ps) sched) rs ->
  rs = fst (one_by_one leq V m0 ps) /\ forall l, fst (run (m0, ps) sched) l = snd (one_by_one leq V m0 ps) l.
Proof.
  intros Ap F Hr. apply (outcome_unique m0 ps Ws).
  - now apply (apart_outcome sl m0 ps Rs Ws).
  - now apply (one_by_one_outcome sl ps m0 Rs Ws).
Qed.

(** ** every execution can be completed *)
Lemma run_app {R} (c : conf V R) s1 s2 : run c (s1 ++ s2) = run (run c s1) s2.
Proof. apply fold_left_app. Qed.

Lemma finish_one {R} (p : prog V R) : forall (m : mem) (ps : list (prog V R)) i, nth_error ps i = Some p ->
  exists s r m', run (m, ps) s = (m', set_nth i (Ret r) ps).
Proof.
  assert (SS : forall (A : Type) (l : list A) i x y, set_nth i x (set_nth i y l) = set_nth i x l).
  { intros A l; induction l as [|a l IH]; intros [|i] x y; cbn; try reflexivity. now rewrite IH. }
  assert (SI : forall (A : Type) (l : list A) i x, nth_error l i = Some x -> set_nth i x l = l).
  { intros A l; induction l as [|a l IH]; intros [|i] x; cbn; try discriminate; [now intros [= ->]|]. intros H. now rewrite IH. }
  induction p as [r|l k IH|l v k IH]; intros m ps i Hp.
  - exists [], r, m. cbn. now rewrite SI.
  - destruct (IH (m l) m (set_nth i (k (m l)) ps) i) as (s & r & m' & E).
    { rewrite nth_error_set, Nat.eqb_refl, Hp. reflexivity. }
    exists (i :: s), r, m'. unfold S_Conc.run in *. cbn [fold_left]. unfold S_Conc.step at 2. cbn [fst snd]. rewrite Hp.
    rewrite E, SS. reflexivity.
  - destruct (IH (upd m l v) (set_nth i k ps) i) as (s & r & m' & E).
    { rewrite nth_error_set, Nat.eqb_refl, Hp. reflexivity. }
    exists (i :: s), r, m'. unfold S_Conc.run in *. cbn [fold_left]. unfold S_Conc.step at 2. cbn [fst snd]. rewrite Hp.
    rewrite E, SS. reflexivity.
Qed.

Theorem completable {R} (c : conf V R) : exists s rs, returned V (run c s) rs.
Proof.
  destruct c as [m ps].
  enough (G : forall (todo : list (prog V R)) (m : mem) (done : list R), exists s rs m', run (m, map Ret done ++ todo) s = (m', map Ret rs)).
  { destruct (G ps m []) as (s & rs & m' & E). exists s, rs. unfold returned. cbn [map app] in E. now rewrite E. }
  clear. induction todo as [|p todo IH]; intros m done.
  - exists [], done, m. now rewrite app_nil_r.
  - destruct (finish_one p m (map Ret done ++ p :: todo) (length done)) as (s & r & m' & E).
    { rewrite nth_error_app2 by (rewrite map_length; lia). rewrite map_length, Nat.sub_diag. reflexivity. }
    assert (ES : set_nth (length done) (Ret r) (map Ret done ++ p :: todo) = map Ret (done ++ [r]) ++ todo).
    { clear. induction done as [|d done IH]; cbn; [reflexivity|]. now rewrite IH. }
    rewrite ES in E. destruct (IH m' (done ++ [r])) as (s2 & rs & m2 & E2).
    exists (s ++ s2), rs, m2. rewrite run_app, E. exact E2.
Qed.

(** ** sequencing *)
Lemma solo_bind {A B} (p : prog V A) (f : A -> prog V B) : forall m,
  solo m (bindp V p f) = solo (snd (solo m p)) (f (fst (solo m p))).
Proof. induction p as [r|l k IH|l v k IH]; intros m; cbn [S_Conc.solo bindp fst snd]; auto. Qed.
Lemma foot_bind sl {A B} (p : prog V A) (f : A -> prog V B) Rs Ws : forall m,
  foot sl m p Rs Ws -> foot sl (snd (solo m p)) (f (fst (solo m p))) Rs Ws -> foot sl m (bindp V p f) Rs Ws.
Proof. induction p as [r|l k IH|l v k IH]; intros m F G; cbn [S_Conc.solo bindp fst snd foot] in *; auto; destruct F; auto. Qed.
Lemma solo_bindr {A B} (p : prog V (res A)) (f : A -> prog V (res B)) m :
  solo m (bindr V p f) = match fst (solo m p) with
                         | Ok a => solo (snd (solo m p)) (f a)
                         | Err e => (Err e, snd (solo m p)) | Panic => (Panic, snd (solo m p)) end.
Proof. unfold bindr. rewrite solo_bind. now destruct (fst (solo m p)). Qed.
Lemma foot_weaken {R} (p : prog V R) Rs Ws : forall m, foot false m p Rs Ws -> foot true m p Rs Ws.
Proof.
  induction p as [r|l k IH|l v k IH]; intros m F; cbn [foot] in *; auto; destruct F as [F1 F2]; split; auto.
  destruct F1 as [F1|(F1 & _)]; [now left|discriminate].
Qed.
Lemma foot_bindr sl {A B} (p : prog V (res A)) (f : A -> prog V (res B)) Rs Ws m :
  foot sl m p Rs Ws -> (forall a, fst (solo m p) = Ok a -> foot sl (snd (solo m p)) (f a) Rs Ws) -> foot sl m (bindr V p f) Rs Ws.
Proof.
  intros F G. unfold bindr. apply foot_bind; [assumption|]. destruct (fst (solo m p)) as [a|e|] eqn:E; cbn; auto.
Qed.

Lemma run_rd {R} (m : mem) (ps : list (prog V R)) i l k s : nth_error ps i = Some (Rd l k) -> run (m, ps) (i :: s) = run (m, set_nth i (k (m l)) ps) s.
Proof. intros H. unfold S_Conc.run. cbn [fold_left]. unfold S_Conc.step at 2. cbn [fst snd]. now rewrite H. Qed.

Lemma run_wr {R} (m : mem) (ps : list (prog V R)) i l v k s : nth_error ps i = Some (Wr l v k) -> run (m, ps) (i :: s) = run (upd m l v, set_nth i k ps) s.
Proof. intros H. unfold S_Conc.run. cbn [fold_left]. unfold S_Conc.step at 2. cbn [fst snd]. now rewrite H. Qed.

(** one goroutine runs alone up to a point *)
Lemma run_ctx {A R} (F : prog V A -> prog V R) :
  (forall l k, F (Rd l k) = Rd l (fun v => F (k v))) -> (forall l v k, F (Wr l v k) = Wr l v (F k)) ->
  forall p (m : mem) ps i, nth_error ps i = Some (F p) ->
  exists s, run (m, ps) s = (snd (solo m p), set_nth i (F (Ret (fst (solo m p)))) ps).
Proof.
  intros HR HW.
  assert (SS : forall (A : Type) (l : list A) i x y, set_nth i x (set_nth i y l) = set_nth i x l).
  { intros B l; induction l as [|a l IH]; intros [|i] x y; cbn; try reflexivity. now rewrite IH. }
  assert (SI : forall (A : Type) (l : list A) i x, nth_error l i = Some x -> set_nth i x l = l).
  { intros B l; induction l as [|a l IH]; intros [|i] x; cbn; try discriminate; [now intros [= ->]|]. intros H. now rewrite IH. }
  induction p as [r|l k IH|l v k IH]; intros m ps i Hp; cbn [S_Conc.solo fst snd] in *.
  - exists []. cbn. now rewrite SI.
  - rewrite HR in Hp. destruct (IH (m l) m (set_nth i (F (k (m l))) ps) i) as (s & E).
    { rewrite nth_error_set, Nat.eqb_refl, Hp. reflexivity. }
    exists (i :: s). unfold S_Conc.run in *. cbn [fold_left]. unfold S_Conc.step at 2. cbn [fst snd]. rewrite Hp.
    rewrite E, SS. reflexivity.
  - rewrite HW in Hp. destruct (IH (upd m l v) (set_nth i (F k) ps) i) as (s & E).
    { rewrite nth_error_set, Nat.eqb_refl, Hp. reflexivity. }
    exists (i :: s). unfold S_Conc.run in *. cbn [fold_left]. unfold S_Conc.step at 2. cbn [fst snd]. rewrite Hp.
    rewrite E, SS. reflexivity.
Qed.
Lemma run_to_end {R} (p : prog V R) (m : mem) ps i : nth_error ps i = Some p ->
  exists s, run (m, ps) s = (snd (solo m p), set_nth i (Ret (fst (solo m p))) ps).
Proof. intros H. apply (run_ctx (fun q => q)); auto. Qed.
End Conc.
