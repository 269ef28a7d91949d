(** C96: copies of a transaction in several goroutines. *)
From Verif Require Import P_ConcLi.
From Coq Require Import Lia ZifyBool ZifyNat.

Definition grset (m : tmem) (gs : list worker) (i : nat) (l : tcell) : Prop := match nth_error gs i with Some g => rset m g l | None => False end.
Definition gwset (m : tmem) (gs : list worker) (i : nat) (l : tcell) : bool := match nth_error gs i with Some g => wset m g l | None => false end.

Lemma separate_apart m gs : new_each m gs -> apart_lists m gs -> apart (length (map begun gs)) (grset m gs) (gwset m gs).
Proof.
  intros (F1 & F2) (S1 & S2 & _) i j l _ _ N. unfold grset, gwset.
  destruct (nth_error gs i) as [gi|] eqn:Ei; [|discriminate]. destruct (nth_error gs j) as [gj|] eqn:Ej; [|intros _ [[]|X]; discriminate X].
  assert (Ii := nth_error_In _ _ Ei). assert (Ij := nth_error_In _ _ Ej). destruct l as [s|a k].
  - rewrite !wset_head. cbn [rset]. intros B [U|U]; apply N; eapply S1; eauto. now left.
  - rewrite !wset_byte. cbn [rset]. intros [(n & _ & <-)|(s & B & H)] [(s' & U & W)|[(n' & _ & E)|(s' & B' & H')]].
    + destruct W as [W _]. now apply (F2 gi gj n s' Ii Ij U).
    + apply N. symmetry. now apply (F1 j i gj gi n' n).
    + destruct H' as [W _]. now apply (F2 gi gj n s' Ii Ij (or_introl B')).
    + destruct (tlist_eq s s') as [<-|D]; [apply N; eapply S1; eauto|]. exact (proj1 (S2 gi gj s s' a k Ii Ij B U D H) W).
    + subst a. destruct H as [W _]. now apply (F2 gj gi n' s Ij Ii (or_introl B)).
    + destruct (tlist_eq s s') as [<-|D]; [apply N; eapply S1; eauto; now left|]. exact (proj2 (S2 gi gj s s' a k Ii Ij B (or_introl B') D H) B' H').
Qed.
Lemma separate_ginv m gs i g : new_each m gs -> apart_lists m gs -> nth_error gs i = Some g ->
  (forall n n', w_fresh g n = w_fresh g n' -> n = n') /\ (forall n s, touches g s -> w_fresh g n <> s_arr (m (THead s))) /\ ginv m g 0 m (list_at m).
Proof.
  intros (F1 & F2) (S1 & S2 & S3) E. assert (I := nth_error_In _ _ E). split; [|split].
  - intros n n' H. now apply (F1 i i g g n n').
  - intros n s U. now apply (F2 g g).
  - split.
    + intros s U. split; [reflexivity|]. split; [now apply (S3 g)|]. split; [left; lia|]. auto.
    + intros s s' a k B U D H. now apply (S2 g g s s' a k).
Qed.

(** Every goroutine has lists of its own to add to, and reads these or lists that nobody adds to,
    and nothing else lies in the spare capacity: no data race, and every schedule gives each the
    results of working alone on plain lists, and the lists it used are what they should be. *)
Theorem C96_separate m gs schedule : new_each m gs -> apart_lists m gs ->
  let c := side_by_side m gs schedule in
  ~ race theld c /\
  forall rs, returned theld c rs ->
    rs = map (fun g => fst (on_lists (list_at m) (w_acts g))) gs /\
    forall g s, In g gs -> touches g s -> list_at (fst c) s = snd (on_lists (list_at m) (w_acts g)) s.
Proof.
  intros F S c. assert (AP := separate_apart m gs F S).
  assert (FT : feet tcell_eq theld false m (map begun gs) (grset m gs) (gwset m gs)).
  { intros i p Hp. rewrite nth_error_map in Hp. unfold grset, gwset. destruct (nth_error gs i) as [g|] eqn:E; [|discriminate]. injection Hp as <-.
    destruct (separate_ginv m gs i g F S E) as (H1 & H2 & H3). now apply (acts_ok m g H1 H2 (w_acts g) 0 [] m (list_at m)). }
  split; [eapply apart_no_race; eauto|]. intros rs HR.
  destruct (apart_outcome tcell_eq theld false m (map begun gs) (grset m gs) (gwset m gs) schedule rs AP FT HR) as (E & W & O). fold c in W, O. split.
  - rewrite E, map_map. apply map_ext_in. intros g I. apply In_nth_error in I. destruct I as (i & I).
    destruct (separate_ginv m gs i g F S I) as (H1 & H2 & H3).
    destruct (acts_ok m g H1 H2 (w_acts g) 0 [] m (list_at m)) as (_ & X & _); auto.
  - intros g s I U. apply In_nth_error in I. destruct I as (i & I).
    destruct (separate_ginv m gs i g F S I) as (H1 & H2 & H3).
    destruct (acts_ok m g H1 H2 (w_acts g) 0 [] m (list_at m)) as (FO & _ & X); auto. fold (begun g) in FO, X. set (mi := snd (tsolo m (begun g))) in *.
    assert (AG : forall l, rset m g l \/ wset m g l = true -> fst c l = mi l).
    { assert (Ip : nth_error (map begun gs) i = Some (begun g)) by (rewrite nth_error_map, I; reflexivity).
      assert (Wi : forall l, gwset m gs i l = wset m g l) by (intros l; unfold gwset; now rewrite I).
      intros l Hl. destruct (wset m g l) eqn:Hw; [apply (W i (begun g) l Ip); now rewrite Wi|].
      transitivity (m l).
      - apply O. intros j Hj. destruct (gwset m gs j l) eqn:Hj'; [|reflexivity]. exfalso.
        destruct (Nat.eq_dec j i) as [->|D]; [rewrite Wi in Hj'; congruence|].
        apply (AP j i l Hj); auto; [apply nth_error_Some; congruence|]. unfold grset, gwset. rewrite I. destruct Hl as [Hl|Hl]; [now left|now right].
      - symmetry. unfold mi. eapply solo_frame; [exact FO|assumption]. }
    unfold list_at at 1. destruct X as (X1 & X2). destruct (X1 s U) as (V & _). rewrite <- V. rewrite (AG (THead s) (or_introl U)).
    apply shownl_ext. intros k Hk. apply AG. eapply (in_sets m g) with (n := length (w_acts g)) (s := s); [exact H1|exact H2|lia|exact (conj X1 X2)|exact U|exact Hk].
Qed.
Print Assumptions C96_separate.


(** Copies of a transaction (or the original and a copy) that have no spare capacity when they are
    made: each goroutine may add to its own. *)
Theorem C96_full_copies m gs schedule : new_each m gs ->
  (forall g l, In g gs -> touches g l -> s_cap (m (THead l)) = s_len (m (THead l))) ->
  (forall i j gi gj l, nth_error gs i = Some gi -> nth_error gs j = Some gj -> appends_to gi l -> touches gj l -> i = j) ->
  let c := side_by_side m gs schedule in
  ~ race theld c /\
  forall rs, returned theld c rs ->
    rs = map (fun g => fst (on_lists (list_at m) (w_acts g))) gs /\
    forall g l, In g gs -> touches g l -> list_at (fst c) l = snd (on_lists (list_at m) (w_acts g)) l.
Proof.
  intros F C O. apply C96_separate; [assumption|]. split; [exact O|]. split.
  - intros g g' l l' a i I I' A T N (_ & H). rewrite (C g l I (or_introl A)) in H. lia.
  - intros g l I T. rewrite (C g l I T). lia.
Qed.
Print Assumptions C96_full_copies.

(** Any number of goroutines that work on copies, or on the same transaction, or both: the pointers
    that were there when the copies were made stay at the beginning of every list, every reading
    starts with them and no count is smaller. *)
Theorem C96_old_stays m h (F : tlist -> Prop) gs schedule : copies_of m h F ->
  (forall g l, In g gs -> touches g l -> F l) -> (forall g n, In g gs -> w_fresh g n <> s_arr h) ->
  let c := side_by_side m gs schedule in
  (forall l, F l -> begins (shown_list m h) (list_at (fst c) l)) /\
  forall rs, returned theld c rs -> Forall2 (fun g => Forall2 (replies (shown_list m h)) (w_acts g)) gs rs.
Proof.
  intros HC HO HN c. set (a0 := s_arr h). set (off0 := s_off h). set (old := shown_list m h).
  set (Q := fun t (r : list tres) => forall g, nth_error gs t = Some g -> Forall2 (replies old) (w_acts g) r).
  assert (Lo : length old = s_len h) by apply shownl_length.
  assert (B0 : base a0 off0 h = off0) by (unfold base; fold a0; now rewrite Nat.eqb_refl).
  assert (I : tinv F a0 off0 old Q c).
  { apply tinv_run. split; cbn [fst snd].
    - intros l Fl. rewrite (HC l Fl). split; [split; [now rewrite B0|lia]|].
      intros a i (-> & Hi) b. rewrite B0 in Hi. replace (goal a0 off0 old (s_arr h) i) with (goal a0 off0 old (s_arr h) (base a0 off0 h + (i - off0))) by (f_equal; rewrite B0; lia). rewrite goal_cell.
      unfold old, shown_list. rewrite nth_error_map. intros H. destruct (nth_error _ _) as [y|] eqn:Ey in H; [|discriminate H]. injection H as <-.
      apply nth_error_nth with (d := 0%nat) in Ey. rewrite seq_nth in Ey by lia. fold off0 in Ey. replace y with i by lia. reflexivity.
    - intros t p Hp. rewrite nth_error_map in Hp. destruct (nth_error gs t) as [g|] eqn:E; [|discriminate Hp]. injection Hp as <-.
      exists (fun _ _ => False). split; [intros ? ? []|]. assert (Ig := nth_error_In _ _ E).
      assert (SA : tsafe F a0 off0 old (Forall2 (replies old) ([] ++ w_acts g)) (begun g) (fun _ _ => False)).
      { apply tsafe_acts; [intros n; apply HN; assumption| |constructor].
        intros x Hx. destruct x as [l q|l|l]; apply (HO g l Ig); [left; now exists q|right; now left|right; now right]. }
      cbn [app] in SA. replace (Q t) with (fun r => forall g0, nth_error gs t = Some g0 -> Forall2 (replies old) (w_acts g0) r) by reflexivity.
      revert SA. generalize (begun g). generalize (fun _ _ : nat => False). intros K p. revert K.
      induction p as [r|[s'|a i] k IH|[s'|a i] v k IH]; intros K; cbn [tsafe trd_ok twr_ok].
      + intros X g0 Eg. assert (g0 = g) by congruence. now subst g0.
      + intros (E1 & E2). split; [exact E1|]. intros h0 Gh. apply IH. now apply E2.
      + intros E1 v Hv. apply IH. now apply E1.
      + intros (E1 & E2 & E3 & E4). auto.
      + intros (E1 & E2). auto. }
  split; [intros l Fl; exact (tinv_script F a0 off0 old Q c l I Fl)|]. intros rs HR. destruct I as (_ & I). unfold returned in HR. rewrite HR in I.
  assert (LL : length gs = length rs).
  { assert (X : length (snd c) = length gs).
    { unfold c, side_by_side. rewrite run_length. cbn [snd]. apply map_length. }
    rewrite HR, map_length in X. now symmetry. }
  clear - I LL. assert (J : forall t g r, nth_error gs t = Some g -> nth_error rs t = Some r -> Forall2 (replies old) (w_acts g) r).
  { intros t g r Eg Er. destruct (I t (Ret r)) as (K & _ & S); [rewrite nth_error_map, Er; reflexivity|]. now apply S. }
  clear I. revert rs LL J. clear. induction gs as [|g gs IH]; intros [|r rs] LL J; try discriminate LL; constructor.
  - now apply (J 0%nat).
  - apply IH; [now injection LL|]. intros t g' r' Eg Er. now apply (J (S t)).
Qed.
Print Assumptions C96_old_stays.

(** ** copies with room behind them *)
(** one more element *)
Definition longer (h : sl) : sl := mk_sl (s_arr h) (s_off h) (s_len h + 1) (s_cap h).
Definition room_end (h : sl) : nat := (s_off h + s_len h)%nat.

(** the programs of such an adder after 0, 1, 2, 3 accesses *)
Inductive at_stage (h : sl) (x : tlist * option nat) : nat -> tcall (list tres) -> Prop :=
| stage0 k : k h = Wr (V:=theld) (TSlot (s_arr h) (room_end h)) (snd x) (Wr (V:=theld) (THead (fst x)) (longer h) (Ret [TNil])) -> at_stage h x 0 (Rd (V:=theld) (THead (fst x)) k)
| stage1 : at_stage h x 1 (Wr (V:=theld) (TSlot (s_arr h) (room_end h)) (snd x) (Wr (V:=theld) (THead (fst x)) (longer h) (Ret [TNil])))
| stage2 : at_stage h x 2 (Wr (V:=theld) (THead (fst x)) (longer h) (Ret [TNil]))
| stage3 : at_stage h x 3 (Ret [TNil]).

Section Room.
Variables (m : tmem) (h : sl) (ws : list (tlist * option nat)).
Hypothesis ND : NoDup (map fst ws).

Definition stages (k : nat -> nat) (c : conf theld (list tres)) : Prop :=
  length (snd c) = length ws /\
  (forall i x, nth_error ws i = Some x -> exists p, nth_error (snd c) i = Some p /\ at_stage h x (k i) p) /\
  (forall i x, nth_error ws i = Some x -> fst c (THead (fst x)) = if Nat.eqb (k i) 3 then longer h else h) /\
  (forall l, ~ In l (map fst ws) -> fst c (THead l) = m (THead l)) /\
  (forall a i, ~ (a = s_arr h /\ i = room_end h) -> fst c (TSlot a i) = m (TSlot a i)).
Definition slot (c : conf theld (list tres)) : option nat := fst c (TSlot (s_arr h) (room_end h)).

Lemma fst_inj i j x y : nth_error ws i = Some x -> nth_error ws j = Some y -> fst x = fst y -> i = j.
Proof.
  intros Hi Hj E. assert (Ei : nth_error (map fst ws) i = Some (fst x)) by (rewrite nth_error_map, Hi; reflexivity).
  assert (Ej : nth_error (map fst ws) j = Some (fst y)) by (rewrite nth_error_map, Hj; reflexivity).
  rewrite NoDup_nth_error in ND. apply ND; [apply nth_error_Some; congruence|congruence].
Qed.

Lemma stages_step k c j x : stages k c -> nth_error ws j = Some x -> (k j < 3)%nat ->
  stages (fun i => if Nat.eqb i j then S (k j) else k i) (step tcell_eq theld c j) /\
  slot (step tcell_eq theld c j) = if Nat.eqb (k j) 1 then snd x else slot c.
Proof.
  destruct c as [mc ps]. intros (L & P & H & O & U) Ex Lt. cbn [fst snd] in *. destruct (P j x Ex) as (p & Ep & St). unfold step, slot. cbn [fst snd]. rewrite Ep.
  assert (P' : forall q, at_stage h x (S (k j)) q -> forall i y, nth_error ws i = Some y -> exists p0, nth_error (set_nth j q ps) i = Some p0 /\ at_stage h y (if Nat.eqb i j then S (k j) else k i) p0).
  { intros q Sq i y Ey. rewrite nth_error_set, Nat.eqb_sym. destruct (Nat.eqb_spec i j) as [->|N]; [|now apply P]. rewrite Ep. exists q. split; [reflexivity|]. congruence. }
  assert (H0 := H j x Ex). destruct (Nat.eqb_spec (k j) 3) as [X|_]; [lia|].
  remember (k j) as n eqn:En. destruct St as [k0 E0| | |]; [| | |lia].
  - rewrite H0, E0. cbn [fst snd Nat.eqb]. split; [|reflexivity]. split; [cbn [snd]; now rewrite set_nth_len|]. split; [apply P'; constructor|]. split; [|split; assumption].
    intros i y Ey. cbn [fst]. rewrite (H i y Ey). destruct (Nat.eqb_spec i j) as [->|N]; [|reflexivity]. rewrite <- En. reflexivity.
  - cbn [fst snd Nat.eqb]. split; [|apply (upd_same tcell_eq theld mc (TSlot (s_arr h) (room_end h)) (snd x))]. split; [cbn [snd]; now rewrite set_nth_len|]. split; [apply P'; constructor|].
    assert (HH : forall l, tupd mc (TSlot (s_arr h) (room_end h)) (snd x) (THead l) = mc (THead l)) by (intros; now apply upd_other).
    cbn [fst]. split; [|split].
    + intros i y Ey. rewrite HH, (H i y Ey). destruct (Nat.eqb_spec i j) as [->|N]; [|reflexivity]. rewrite <- En. reflexivity.
    + intros l Hl. rewrite HH. auto.
    + intros a i Hai. rewrite upd_other; [auto|]. intros [= <- <-]. now apply Hai.
  - cbn [fst snd Nat.eqb]. split; [|apply byte_upd]. split; [cbn [snd]; now rewrite set_nth_len|]. split; [apply P'; constructor|]. cbn [fst]. split; [|split].
    + intros i y Ey. rewrite head_upd. destruct (tlist_eq (fst y) (fst x)) as [E|N].
      * rewrite (fst_inj i j y x Ey Ex E), Nat.eqb_refl. reflexivity.
      * destruct (Nat.eqb_spec i j) as [->|N']; [|now apply H]. exfalso. apply N. congruence.
    + intros l Hl. rewrite head_upd. destruct (tlist_eq l (fst x)) as [->|N]; [|auto]. exfalso. apply Hl. apply in_map. eapply nth_error_In; eauto.
    + intros a i Hai. rewrite byte_upd. auto.
Qed.
Lemma stages_idle k c j : stages k c -> (nth_error ws j = None \/ (3 <= k j)%nat) -> step tcell_eq theld c j = c.
Proof.
  intros (L & P & _) [N|G].
  - unfold step. apply nth_error_None in N. rewrite <- L in N. apply nth_error_None in N. now rewrite N.
  - destruct (nth_error ws j) as [x|] eqn:Ex.
    + destruct (P j x Ex) as (p & Ep & St). unfold step. rewrite Ep. destruct St; try lia. reflexivity.
    + unfold step. apply nth_error_None in Ex. rewrite <- L in Ex. apply nth_error_None in Ex. now rewrite Ex.
Qed.

(** in every schedule: the slot holds what one of the adders wrote, as soon as one has written *)
Definition claimed (k : nat -> nat) (c : conf theld (list tres)) : Prop :=
  (exists i x, nth_error ws i = Some x /\ (2 <= k i)%nat) -> exists x, In x ws /\ slot c = snd x.
Lemma stages_run sched : forall k c, stages k c -> claimed k c -> exists k', stages k' (run tcell_eq theld c sched) /\ claimed k' (run tcell_eq theld c sched).
Proof.
  induction sched as [|j sched IH]; intros k c S C; [now exists k|]. change (run tcell_eq theld c (j :: sched)) with (run tcell_eq theld (step tcell_eq theld c j) sched).
  destruct (nth_error ws j) as [x|] eqn:Ex; [|rewrite (stages_idle k c j S (or_introl Ex)); now apply (IH k)].
  destruct (Nat.lt_ge_cases (k j) 3) as [Lt|Ge]; [|rewrite (stages_idle k c j S (or_intror Ge)); now apply (IH k)].
  destruct (stages_step k c j x S Ex Lt) as (S' & E'). eapply IH; [exact S'|]. intros (i & y & Ey & Hi). rewrite E'.
  destruct (Nat.eqb_spec (k j) 1) as [E1|N1]; [exists x; split; [eapply nth_error_In; eauto|reflexivity]|]. apply C.
  destruct (Nat.eqb_spec i j) as [->|N]; [exists j, x; split; [assumption|lia]|exists i, y; split; assumption].
Qed.

(** the lists when all have returned *)
Lemma stages_lists k c y : stages k c -> In y ws -> (forall i x, nth_error ws i = Some x -> k i = 3%nat) ->
  list_at (fst c) (fst y) = shown_list m h ++ [slot c].
Proof.
  intros (_ & _ & H & _ & U) Iy K3. apply In_nth_error in Iy. destruct Iy as (i & Ei). unfold list_at. rewrite (H i y Ei), (K3 i y Ei). cbn [Nat.eqb].
  unfold shown_list. cbn [longer s_arr s_off s_len]. rewrite seq_app, map_app. f_equal. apply map_ext_in. intros j Hj. apply in_seq in Hj. apply U. unfold room_end. lia.
Qed.
Lemma stages_done k c rs : stages k c -> returned theld c rs -> forall i x, nth_error ws i = Some x -> k i = 3%nat.
Proof.
  intros (_ & P & _) HR i x Ex. destruct (P i x Ex) as (p & Ep & St). unfold returned in HR. rewrite HR, nth_error_map in Ep.
  destruct (nth_error rs i) as [r|]; [|discriminate]. injection Ep as <-. inversion St. reflexivity.
Qed.
Lemma stages_ext k k' c : (forall i, k i = k' i) -> stages k c -> stages k' c.
Proof.
  intros E (A & B & D & O & G). split; [exact A|]. split; [|split; [|split; assumption]].
  - intros i y Ey. destruct (B i y Ey) as (p & Ep & St). exists p. rewrite <- E. auto.
  - intros i y Ey. rewrite <- E. auto.
Qed.
(** one adder from beginning to end *)
Lemma stages_three k c j x : stages k c -> nth_error ws j = Some x -> k j = 0%nat ->
  stages (fun i => if Nat.eqb i j then 3%nat else k i) (run tcell_eq theld c [j; j; j]) /\ slot (run tcell_eq theld c [j; j; j]) = snd x.
Proof.
  intros S0 Ex K. cbn [run fold_left]. destruct (stages_step k c j x S0 Ex) as (S1 & E1); [lia|].
  destruct (stages_step _ _ j x S1 Ex) as (S2 & E2); [rewrite Nat.eqb_refl; lia|]. rewrite Nat.eqb_refl, K in E2. cbn [Nat.eqb] in E2.
  destruct (stages_step _ _ j x S2 Ex) as (S3 & E3); [rewrite !Nat.eqb_refl; lia|]. rewrite !Nat.eqb_refl, K in E3. cbn [Nat.eqb] in E3. split; [|unfold step in *; now rewrite E3].
  revert S3. apply stages_ext. intros i. rewrite !Nat.eqb_refl, K. now destruct (Nat.eqb i j).
Qed.
Lemma stages_all js : forall k c, stages k c -> NoDup js -> (forall j, In j js -> k j = 0%nat /\ (j < length ws)%nat) ->
  exists k', stages k' (run tcell_eq theld c (flat_map (fun j => [j; j; j]) js)) /\
    forall i, k' i = if existsb (Nat.eqb i) js then 3%nat else k i.
Proof.
  induction js as [|j js IH]; intros k c S N H; [exists k; split; [exact S|reflexivity]|]. cbn [flat_map]. rewrite run_app.
  destruct (H j (or_introl eq_refl)) as (K & Lt). destruct (nth_error ws j) as [x|] eqn:Ex; [|apply nth_error_None in Ex; lia].
  destruct (stages_three k c j x S Ex K) as (S1 & _). inversion N as [|? ? Nj N']; subst.
  destruct (IH _ _ S1 N') as (k' & S' & E').
  { intros i Hi. destruct (H i (or_intror Hi)) as (Ki & Li). destruct (Nat.eqb_spec i j) as [->|]; [contradiction|]. auto. }
  exists k'. split; [exact S'|]. intros i. rewrite E'. cbn [existsb]. destruct (Nat.eqb i j); [|reflexivity]. now destruct (existsb _ _).
Qed.
End Room.

Lemma Forall2_len {A B} (P : A -> B -> Prop) l l' : Forall2 P l l' -> length l = length l'.
Proof. induction 1; cbn; auto. Qed.
Lemma Forall2_nth_error_l {A B} (P : A -> B -> Prop) l l' : Forall2 P l l' -> forall i x, nth_error l i = Some x -> exists y, nth_error l' i = Some y /\ P x y.
Proof. induction 1; intros [|i] z E; try discriminate; cbn in E; [injection E as <-; cbn; eauto|]. now apply IHForall2. Qed.
Lemma nth_error_ext_eq {A} (a : list A) : forall b, (forall i, nth_error a i = nth_error b i) -> a = b.
Proof.
  induction a as [|x a IH]; intros [|y b] H; try reflexivity; try (specialize (H 0%nat); discriminate).
  f_equal; [specialize (H 0%nat); cbn in H; congruence|]. apply IH. intros i. apply (H (S i)).
Qed.
Lemma stages_start m h ws gs : copies_of m h (fun l => In l (map fst ws)) -> Forall2 adder ws gs -> (s_len h < s_cap h)%nat ->
  stages m h ws (fun _ => 0%nat) (m, map begun gs).
Proof.
  intros HC HA Lt. split; [cbn [snd]; rewrite map_length; symmetry; eapply Forall2_len; eauto|]. cbn [fst snd]. split; [|split; [|split; auto]].
  - intros i x Ex. destruct (Forall2_nth_error_l _ _ _ HA i x Ex) as (g & Eg & A). exists (begun g). rewrite nth_error_map, Eg. split; [reflexivity|].
    unfold begun. red in A. rewrite A. cbn [t_acts app]. unfold t_add. apply stage0. destruct (Nat.leb_spec (s_len h + 1) (s_cap h)); [reflexivity|lia].
  - intros i x Ex. apply HC. apply in_map. eapply nth_error_In; eauto.
Qed.

(** Copies of a transaction that have room behind the list when they are made; each goroutine adds
    one input (output) to its own copy. Whatever the schedule (also one after the other): when all
    have returned, all of these copies show the same new element, which one of them added; those of
    the others are lost. Copies nobody added to are as they were. *)
Theorem C96_copies_with_room m h F ws gs schedule rs : copies_of m h F -> (forall x, In x ws -> F (fst x)) ->
  NoDup (map fst ws) -> Forall2 adder ws gs -> (s_len h < s_cap h)%nat -> ws <> [] ->
  returned theld (side_by_side m gs schedule) rs ->
  (exists x, In x ws /\ forall y, In y ws -> list_at (fst (side_by_side m gs schedule)) (fst y) = shown_list m h ++ [snd x]) /\
  (forall l, F l -> ~ In l (map fst ws) -> list_at (fst (side_by_side m gs schedule)) l = shown_list m h).
Proof.
  intros HC HF ND HA Lt NE HR.
  assert (HC' : copies_of m h (fun l => In l (map fst ws))) by (intros l Hl; apply in_map_iff in Hl; destruct Hl as (x & <- & Hx); apply HC; auto).
  destruct (stages_run m h ws ND schedule (fun _ => 0%nat) (m, map begun gs)) as (k & S & C); [now apply stages_start|intros (i & x & _ & X); lia|].
  fold (side_by_side m gs schedule) in S, C. assert (D := stages_done m h ws k _ rs S HR). split.
  - destruct C as (x & Ix & Ex).
    { destruct ws as [|x ws']; [congruence|]. exists 0%nat, x. split; [reflexivity|]. rewrite (D 0%nat x eq_refl). lia. }
    exists x. split; [exact Ix|]. intros y Iy. rewrite (stages_lists m h ws k _ y S Iy D), Ex. reflexivity.
  - intros l Fl Nl. destruct S as (_ & _ & _ & O & U). unfold list_at. rewrite (O l Nl), (HC l Fl). unfold shown_list. apply map_ext_in. intros j Hj. apply in_seq in Hj. apply U. unfold room_end. lia.
Qed.
Print Assumptions C96_copies_with_room.

(** Each of them can be the one whose element all copies show. *)
Theorem C96_any_can_win m h F ws gs x : copies_of m h F -> (forall x, In x ws -> F (fst x)) ->
  NoDup (map fst ws) -> Forall2 adder ws gs -> (s_len h < s_cap h)%nat -> In x ws ->
  exists schedule, returned theld (side_by_side m gs schedule) (map (fun _ => [TNil]) gs) /\
    forall y, In y ws -> list_at (fst (side_by_side m gs schedule)) (fst y) = shown_list m h ++ [snd x].
Proof.
  intros HC HF ND HA Lt Ix.
  assert (HC' : copies_of m h (fun l => In l (map fst ws))) by (intros l Hl; apply in_map_iff in Hl; destruct Hl as (z & <- & Hx); apply HC; auto).
  assert (S0 := stages_start m h ws gs HC' HA Lt). apply In_nth_error in Ix. destruct Ix as (i & Ei).
  assert (Li : (i < length ws)%nat) by (apply nth_error_Some; congruence).
  set (others := filter (fun j => negb (Nat.eqb j i)) (seq 0 (length ws))).
  destruct (stages_all m h ws ND others _ _ S0) as (k & S1 & K1).
  { apply NoDup_filter, seq_NoDup. }
  { intros j Hj. apply filter_In in Hj. destruct Hj as (Hj & _). apply in_seq in Hj. split; [reflexivity|lia]. }
  assert (Ki : k i = 0%nat).
  { rewrite K1. destruct (existsb (Nat.eqb i) others) eqn:X; [|reflexivity]. apply existsb_exists in X. destruct X as (j & Hj & E). apply Nat.eqb_eq in E. subst j.
    apply filter_In in Hj. destruct Hj as (_ & Hj). now rewrite Nat.eqb_refl in Hj. }
  destruct (stages_three m h ws ND k _ i x S1 Ei Ki) as (S2 & E2). rewrite <- run_app in S2, E2. set (schedule := _ ++ _) in S2, E2.
  assert (D : forall j y, nth_error ws j = Some y -> (if Nat.eqb j i then 3%nat else k j) = 3%nat).
  { intros j y Ey. destruct (Nat.eqb_spec j i) as [->|N]; [reflexivity|]. rewrite K1. destruct (existsb (Nat.eqb j) others) eqn:X; [reflexivity|]. exfalso.
    assert (Y : In j others). { apply filter_In. split; [apply in_seq; split; [lia|]; cbn; apply nth_error_Some; congruence|]. destruct (Nat.eqb_spec j i); [contradiction|reflexivity]. }
    assert (Z : existsb (Nat.eqb j) others = true) by (apply existsb_exists; exists j; split; [exact Y|apply Nat.eqb_refl]). congruence. }
  exists schedule. split.
  - unfold returned. apply nth_error_ext_eq. intros j. rewrite nth_error_map. destruct S2 as (L & P & _). destruct (nth_error ws j) as [y|] eqn:Ey.
    + destruct (P j y Ey) as (p & Ep & St). unfold side_by_side. rewrite Ep. specialize (D j y Ey). cbv beta in St. rewrite D in St. inversion St. rewrite nth_error_map.
      destruct (Forall2_nth_error_l _ _ _ HA j y Ey) as (g & Eg & _). rewrite Eg. reflexivity.
    + apply nth_error_None in Ey. rewrite <- L in Ey. assert (N := Ey). apply nth_error_None in N. unfold side_by_side. rewrite N.
      rewrite L in Ey. rewrite (Forall2_len _ _ _ HA) in Ey. rewrite nth_error_map. apply nth_error_None in Ey. rewrite Ey. reflexivity.
  - intros y Iy. unfold side_by_side. rewrite (stages_lists m h ws _ _ y S2 Iy D), E2. reflexivity.
Qed.
Print Assumptions C96_any_can_win.

(** Two goroutines, each with a copy of its own (neither touches the other's struct), adding at the
    same time: a data race. *)
Theorem C96_copies_race m h F ws gs x y : copies_of m h F -> (forall x, In x ws -> F (fst x)) ->
  ws = [x; y] -> fst x <> fst y -> Forall2 adder ws gs -> (s_len h < s_cap h)%nat ->
  exists schedule, race theld (side_by_side m gs schedule).
Proof.
  intros HC HF -> N HA Lt.
  assert (HC' : copies_of m h (fun l => In l (map fst [x; y]))) by (intros l Hl; apply in_map_iff in Hl; destruct Hl as (z & <- & Hx); apply HC; auto).
  assert (S0 := stages_start m h [x; y] gs HC' HA Lt).
  assert (ND : NoDup (map fst [x; y])) by (cbn [map]; constructor; [intros [E|[]]; congruence|constructor; [intros []|constructor]]).
  destruct (stages_step m h [x; y] ND _ _ 0%nat x S0 eq_refl (Nat.lt_0_succ 2)) as (S1 & _).
  destruct (stages_step m h [x; y] ND _ _ 1%nat y S1 eq_refl (Nat.lt_0_succ 2)) as (S2 & _).
  destruct S2 as (_ & P & _). destruct (P 0%nat x eq_refl) as (p & Ep & Sp). destruct (P 1%nat y eq_refl) as (q & Eq & Sq). cbn [Nat.eqb] in Sp, Sq. inversion Sp. inversion Sq. subst p q.
  exists [0%nat; 1%nat]. exists 0%nat, 1%nat. eexists _, _, _, true, true. split; [discriminate|]. split; [exact Ep|]. split; [exact Eq|]. cbn [next]. auto.
Qed.
Print Assumptions C96_copies_race.

Lemma run2_wr0 {R} (m : tmem) c (v : theld c) (k y : tcall R) s : run tcell_eq theld (m, [Wr (V:=theld) c v k; y]) (0%nat :: s) = run tcell_eq theld (tupd m c v, [k; y]) s.
Proof. reflexivity. Qed.
Lemma run2_wr1 {R} (m : tmem) c (v : theld c) (k y : tcall R) s : run tcell_eq theld (m, [y; Wr (V:=theld) c v k]) (1%nat :: s) = run tcell_eq theld (tupd m c v, [y; k]) s.
Proof. reflexivity. Qed.
(** A goroutine adds to its copy and then goes through its list: it can find the other's element in
    the place of its own. *)
Theorem C96_finds_the_other (m : tmem) h l0 l1 p q f0 k0 f1 k1 : m (THead l0) = h -> m (THead l1) = h -> l0 <> l1 -> (s_len h < s_cap h)%nat ->
  exists schedule, returned theld (side_by_side m [mk_wk [TAdd l0 p; TGet l0] f0 k0; mk_wk [TAdd l1 q] f1 k1] schedule)
    [[TNil; TList (shown_list m h ++ [q])]; [TNil]].
Proof.
  intros H0 H1 N Lt. unfold side_by_side. cbn [map]. unfold begun. cbn [w_acts w_fresh w_slack t_acts app]. unfold t_add.
  assert (LE : Nat.leb (s_len h + 1) (s_cap h) = true) by (apply Nat.leb_le; lia).
  match goal with |- context [t_put _ _ [p] (Wr _ _ ?k)] => set (K0 := k) end.
  set (e := TSlot (s_arr h) (room_end h)). set (m1 := tupd m e p). set (m2 := tupd m1 (THead l0) (longer h)). set (m3 := tupd m2 e q). set (m4 := tupd m3 (THead l1) (longer h)).
  assert (E1 : m2 (THead l1) = h). { unfold m2. rewrite head_upd. destruct (tlist_eq l1 l0); [congruence|]. unfold m1. rewrite upd_other by discriminate. exact H1. }
  destruct (run_to_end tcell_eq theld K0 m4 [K0; Ret [TNil]] 0 eq_refl) as (s1 & E2). cbn [set_nth] in E2.
  exists (0%nat :: 0%nat :: 0%nat :: 1%nat :: 1%nat :: 1%nat :: s1).
  erewrite run_rd; [|reflexivity]. cbn [set_nth]. rewrite H0, LE. cbn [t_put].
  rewrite !run2_wr0.
  change (tupd (tupd m (TSlot (s_arr h) (s_off h + s_len h)) p) (THead l0) (mk_sl (s_arr h) (s_off h) (s_len h + 1) (s_cap h))) with m2.
  erewrite run_rd; [|reflexivity]. cbn [set_nth]. rewrite E1, LE. cbn [t_put].
  rewrite !run2_wr1.
  change (tupd (tupd m2 (TSlot (s_arr h) (s_off h + s_len h)) q) (THead l1) (mk_sl (s_arr h) (s_off h) (s_len h + 1) (s_cap h))) with m4.
  rewrite E2. unfold returned. cbn [snd map]. f_equal. f_equal. unfold K0. cbn [solo].
  assert (E3 : m4 (THead l0) = longer h).
  { unfold m4. rewrite head_upd. destruct (tlist_eq l0 l1); [congruence|]. unfold m3. rewrite upd_other by discriminate. apply (upd_same tcell_eq theld m1 (THead l0) (longer h)). }
  rewrite E3, solo_take. cbn [solo fst app longer s_arr s_off s_len]. f_equal. f_equal. f_equal. rewrite seq_app, map_app. f_equal.
  - unfold shown_list. apply map_ext_in. intros j Hj. apply in_seq in Hj. unfold m4. rewrite byte_upd. unfold m3. rewrite (upd_other tcell_eq theld m2 e q (TSlot (s_arr h) j)) by (unfold e, room_end; intros [= X]; lia).
    unfold m2. rewrite byte_upd. unfold m1. apply (upd_other tcell_eq theld m e p (TSlot (s_arr h) j)). unfold e, room_end. intros [= X]. lia.
  - cbn [seq map]. f_equal. unfold m4. rewrite byte_upd. apply (upd_same tcell_eq theld m2 e q).
Qed.
Print Assumptions C96_finds_the_other.

(** A transaction with inputs 10, 11, 12 in an array of four, and two copies of it (transactions 1
    and 2); the outputs fill their array. *)
Definition ex_tmem : tmem := fun c => match c with
  | THead (Ins _) => mk_sl 0 0 3 4
  | THead (Outs _) => mk_sl 1 0 2 2
  | TSlot 0 i => nth i [Some 10; Some 11; Some 12]%nat None
  | TSlot _ i => nth i [Some 20; Some 21]%nat None
  end.
Definition ex_ws : list (tlist * option nat) := [(Ins 1, Some 13%nat); (Ins 2, Some 14%nat)].
Definition ex_adders : list worker := [mk_wk [TAdd (Ins 1) (Some 13%nat)] (fun n => 2 + 2 * n)%nat (fun _ => 0%nat); mk_wk [TAdd (Ins 2) (Some 14%nat)] (fun n => 3 + 2 * n)%nat (fun _ => 0%nat)].
(** outputs: added to copies 1 and 2 *)
Definition ex_payers : list worker :=
  [mk_wk [TAdd (Outs 1) (Some 22%nat); TGet (Outs 1); TCount (Outs 0)] (fun n => 2 + 2 * n)%nat (fun _ => 3%nat);
   mk_wk [TAdd (Outs 2) (Some 23%nat); TAdd (Outs 2) (Some 24%nat); TGet (Outs 2)] (fun n => 3 + 2 * n)%nat (fun _ => 3%nat)].
Lemma ex_payers_touch g l : In g ex_payers -> touches g l -> exists t, l = Outs t /\ (t <> 0%nat -> g = nth (t - 1) ex_payers g) /\ (appends_to g l -> t <> 0%nat).
Proof.
  intros [<-|[<-|[]]] [(p & H)|[H|H]]; cbn in H; intuition try congruence; subst;
    match goal with
    | E : TAdd (Outs ?t) _ = TAdd _ _ |- _ => exists t
    | E : TGet (Outs ?t) = TGet _ |- _ => exists t
    | E : TCount (Outs ?t) = TCount _ |- _ => exists t end;
    (split; [congruence|split; [reflexivity||congruence|]]); try discriminate.
  all: intros (p & A); cbn in A; intuition congruence.
Qed.
Example C96_example :
  copies_of ex_tmem (mk_sl 0 0 3 4) (fun l => match l with Ins _ => True | _ => False end) /\
  NoDup (map fst ex_ws) /\ Forall2 adder ex_ws ex_adders /\ shown_list ex_tmem (mk_sl 0 0 3 4) = [Some 10; Some 11; Some 12]%nat /\
  (forall g n, In g ex_adders -> w_fresh g n <> 0%nat) /\
  new_each ex_tmem ex_payers /\
  (forall g l, In g ex_payers -> touches g l -> s_cap (ex_tmem (THead l)) = s_len (ex_tmem (THead l))) /\
  (forall i j gi gj l, nth_error ex_payers i = Some gi -> nth_error ex_payers j = Some gj -> appends_to gi l -> touches gj l -> i = j) /\
  map (fun g => fst (on_lists (list_at ex_tmem) (w_acts g))) ex_payers =
    [[TNil; TList [Some 20; Some 21; Some 22]%nat; TNum 2]; [TNil; TNil; TList [Some 20; Some 21; Some 23; Some 24]%nat]].
Proof.
  split; [intros [t|t] []; reflexivity|]. split; [cbn; repeat constructor; cbn; intuition discriminate|]. split; [repeat constructor|]. split; [reflexivity|].
  split; [intros g n [<-|[<-|[]]]; cbn; lia|]. split; [split|split; [|split]].
  - intros [|[|i]] [|[|j]] gi gj n n'; cbn [ex_payers nth_error]; try (now destruct i); try (now destruct j); intros [= <-] [= <-]; cbn; intros H; split; lia.
  - intros g g' n l I I' T. destruct (ex_payers_touch g' l I' T) as (t & -> & _). destruct I as [<-|[<-|[]]]; cbn; lia.
  - intros g l I T. destruct (ex_payers_touch g l I T) as (t & -> & _). reflexivity.
  - intros i j gi gj l Ei Ej A T. destruct (ex_payers_touch gi l (nth_error_In _ _ Ei) (or_introl A)) as (t & -> & X & Y).
    destruct (ex_payers_touch gj (Outs t) (nth_error_In _ _ Ej) T) as (t' & [= <-] & X' & _). specialize (Y A). specialize (X Y). specialize (X' Y).
    destruct i as [|[|i]]; destruct j as [|[|j]]; cbn in Ei, Ej; try reflexivity; try (destruct i; discriminate); try (destruct j; discriminate);
      injection Ei as <-; injection Ej as <-; destruct t as [|[|[|t]]]; cbn in X, X'; try congruence; exfalso.
    all: clear - A T; destruct A as (p & A); cbn in A; intuition congruence.
  - reflexivity.
Qed.
