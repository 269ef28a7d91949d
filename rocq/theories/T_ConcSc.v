(** C87: scripts in several goroutines. *)
From Verif Require Import P_ConcSc.
From Coq Require Import Lia ZifyBool ZifyNat.

Definition grset (m : smem) (gs : list goroutine) (i : nat) (l : scell) : Prop := match nth_error gs i with Some g => rset m g l | None => False end.
Definition gwset (m : smem) (gs : list goroutine) (i : nat) (l : scell) : bool := match nth_error gs i with Some g => wset m g l | None => false end.

Lemma separate_apart m gs : fresh_arrays m gs -> separate m gs -> apart (length (map started gs)) (grset m gs) (gwset m gs).
Proof.
  intros (F1 & F2) (S1 & S2 & _) i j l _ _ N. unfold grset, gwset.
  destruct (nth_error gs i) as [gi|] eqn:Ei; [|discriminate]. destruct (nth_error gs j) as [gj|] eqn:Ej; [|intros _ [[]|X]; discriminate X].
  assert (Ii := nth_error_In _ _ Ei). assert (Ij := nth_error_In _ _ Ej). destruct l as [s|a k].
  - rewrite !wset_head. cbn [rset]. intros B [U|U]; apply N; eapply S1; eauto. now left.
  - rewrite !wset_byte. cbn [rset]. intros [(n & _ & <-)|(s & B & H)] [(s' & U & W)|[(n' & _ & E)|(s' & B' & H')]].
    + destruct W as [W _]. now apply (F2 gi gj n s' Ii Ij U).
    + apply N. symmetry. now apply (F1 j i gj gi n' n).
    + destruct H' as [W _]. now apply (F2 gi gj n s' Ii Ij (or_introl B')).
    + destruct (Nat.eq_dec s s') as [<-|D]; [apply N; eapply S1; eauto|]. exact (proj1 (S2 gi gj s s' a k Ii Ij B U D H) W).
    + subst a. destruct H as [W _]. now apply (F2 gj gi n' s Ij Ii (or_introl B)).
    + destruct (Nat.eq_dec s s') as [<-|D]; [apply N; eapply S1; eauto; now left|]. exact (proj2 (S2 gi gj s s' a k Ii Ij B (or_introl B') D H) B' H').
Qed.
Lemma separate_ginv m gs i g : fresh_arrays m gs -> separate m gs -> nth_error gs i = Some g ->
  (forall n n', g_fresh g n = g_fresh g n' -> n = n') /\ (forall n s, uses g s -> g_fresh g n <> s_arr (m (SHead s))) /\ ginv m g 0 m (script_at m).
Proof.
  intros (F1 & F2) (S1 & S2 & S3) E. assert (I := nth_error_In _ _ E). split; [|split].
  - intros n n' H. now apply (F1 i i g g n n').
  - intros n s U. now apply (F2 g g).
  - split.
    + intros s U. split; [reflexivity|]. split; [now apply (S3 g)|]. split; [left; lia|]. auto.
    + intros s s' a k B U D H. now apply (S2 g g s s' a k).
Qed.

(** Every goroutine has scripts of its own to build, and reads these or scripts that nobody
    builds: no data race, and every schedule gives each the results of working alone on plain
    byte strings, and the scripts it used are what they should be. *)
Theorem C87_separate m gs schedule : fresh_arrays m gs -> separate m gs ->
  let c := together m gs schedule in
  ~ race sheld c /\
  forall rs, returned sheld c rs ->
    rs = map (fun g => fst (on_values (script_at m) (g_acts g))) gs /\
    forall g s, In g gs -> uses g s -> script_at (fst c) s = snd (on_values (script_at m) (g_acts g)) s.
Proof.
  intros F S c. assert (AP := separate_apart m gs F S).
  assert (FT : feet scell_eq sheld false m (map started gs) (grset m gs) (gwset m gs)).
  { intros i p Hp. rewrite nth_error_map in Hp. unfold grset, gwset. destruct (nth_error gs i) as [g|] eqn:E; [|discriminate]. injection Hp as <-.
    destruct (separate_ginv m gs i g F S E) as (H1 & H2 & H3). now apply (acts_ok m g H1 H2 (g_acts g) 0 [] m (script_at m)). }
  split; [eapply apart_no_race; eauto|]. intros rs HR.
  destruct (apart_outcome scell_eq sheld false m (map started gs) (grset m gs) (gwset m gs) schedule rs AP FT HR) as (E & W & O). fold c in W, O. split.
  - rewrite E, map_map. apply map_ext_in. intros g I. apply In_nth_error in I. destruct I as (i & I).
    destruct (separate_ginv m gs i g F S I) as (H1 & H2 & H3).
    destruct (acts_ok m g H1 H2 (g_acts g) 0 [] m (script_at m)) as (_ & X & _); auto.
  - intros g s I U. apply In_nth_error in I. destruct I as (i & I).
    destruct (separate_ginv m gs i g F S I) as (H1 & H2 & H3).
    destruct (acts_ok m g H1 H2 (g_acts g) 0 [] m (script_at m)) as (FO & _ & X); auto. fold (started g) in FO, X. set (mi := snd (ssolo m (started g))) in *.
    assert (AG : forall l, rset m g l \/ wset m g l = true -> fst c l = mi l).
    { assert (Ip : nth_error (map started gs) i = Some (started g)) by (rewrite nth_error_map, I; reflexivity).
      assert (Wi : forall l, gwset m gs i l = wset m g l) by (intros l; unfold gwset; now rewrite I).
      intros l Hl. destruct (wset m g l) eqn:Hw; [apply (W i (started g) l Ip); now rewrite Wi|].
      transitivity (m l).
      - apply O. intros j Hj. destruct (gwset m gs j l) eqn:Hj'; [|reflexivity]. exfalso.
        destruct (Nat.eq_dec j i) as [->|D]; [rewrite Wi in Hj'; congruence|].
        apply (AP j i l Hj); auto; [apply nth_error_Some; congruence|]. unfold grset, gwset. rewrite I. destruct Hl as [Hl|Hl]; [now left|now right].
      - symmetry. unfold mi. eapply solo_frame; [exact FO|assumption]. }
    unfold script_at at 1. destruct X as (X1 & X2). destruct (X1 s U) as (V & _). rewrite <- V. rewrite (AG (SHead s) (or_introl U)).
    apply shown_ext. intros k Hk. apply AG. eapply (in_sets m g) with (n := length (g_acts g)) (s := s); [exact H1|exact H2|lia|exact (conj X1 X2)|exact U|exact Hk].
Qed.
Print Assumptions C87_separate.

(** One script, any number of goroutines that build and read it (whatever the runtime's new
    arrays, also the same one twice, as long as it is not the script's): what was in the script at
    the start stays at its beginning, every reading starts with it, and every call returns the
    error it returns alone. *)
Theorem C87_old_stays m s gs schedule : (forall g, In g gs -> only_on s g) -> new_arrays m s gs ->
  let c := together m gs schedule in
  starts_with (script_at m s) (script_at (fst c) s) /\
  forall rs, returned sheld c rs -> Forall2 (fun g => Forall2 (answers (script_at m s)) (g_acts g)) gs rs.
Proof.
  intros HO HN c. set (a0 := s_arr (m (SHead s))). set (off0 := s_off (m (SHead s))). set (old := script_at m s).
  set (Q := fun t (r : list sres) => forall g, nth_error gs t = Some g -> Forall2 (answers old) (g_acts g) r).
  assert (Lo : length old = s_len (m (SHead s))) by apply shown_length.
  assert (B0 : base a0 off0 (m (SHead s)) = off0) by (unfold base; fold a0; now rewrite Nat.eqb_refl).
  assert (I : sinv s a0 off0 old Q c).
  { apply sinv_run. split; [|split]; cbn [fst snd].
    - split; [now rewrite B0|lia].
    - intros a i (-> & Hi) b. rewrite B0 in Hi. cbn [fst]. replace (goal a0 off0 old (s_arr (m (SHead s))) i) with (goal a0 off0 old (s_arr (m (SHead s))) (base a0 off0 (m (SHead s)) + (i - off0))) by (f_equal; rewrite B0; lia). rewrite goal_cell.
      unfold old, script_at, shown. rewrite nth_error_map. intros H. destruct (nth_error _ _) as [y|] eqn:Ey in H; [|discriminate H]. injection H as <-.
      apply nth_error_nth with (d := 0%nat) in Ey. rewrite seq_nth in Ey by lia. fold off0 in Ey. replace y with i by lia. reflexivity.
    - intros t p Hp. rewrite nth_error_map in Hp. destruct (nth_error gs t) as [g|] eqn:E; [|discriminate Hp]. injection Hp as <-.
      exists (fun _ _ => False). split; [intros ? ? []|]. assert (Ig := nth_error_In _ _ E).
      assert (SA : safe s a0 off0 old (Forall2 (answers old) ([] ++ g_acts g)) (started g) (fun _ _ => False)).
      { apply safe_acts; [intros n; apply HN; assumption|apply HO; assumption|constructor]. }
      cbn [app] in SA. replace (Q t) with (fun r => forall g0, nth_error gs t = Some g0 -> Forall2 (answers old) (g_acts g0) r) by reflexivity.
      revert SA. generalize (started g). generalize (fun _ _ : nat => False). intros K p. revert K.
      induction p as [r|[s'|a i] k IH|[s'|a i] v k IH]; intros K; cbn [safe rd_ok wr_ok].
      + intros X g0 Eg. assert (g0 = g) by congruence. now subst g0.
      + intros (E1 & E2). split; [exact E1|]. intros h Gh. apply IH. now apply E2.
      + intros E1 v Hv. apply IH. now apply E1.
      + intros (E1 & E2 & E3 & E4). auto.
      + intros (E1 & E2). auto. }
  split; [exact (sinv_script s a0 off0 old Q c I)|]. intros rs HR. destruct I as (_ & _ & I). unfold returned in HR. rewrite HR in I.
  assert (LL : length gs = length rs).
  { assert (X : length (snd c) = length gs).
    { unfold c, together. rewrite run_length. cbn [snd]. apply map_length. }
    rewrite HR, map_length in X. now symmetry. }
  clear - I LL. assert (J : forall t g r, nth_error gs t = Some g -> nth_error rs t = Some r -> Forall2 (answers old) (g_acts g) r).
  { intros t g r Eg Er. destruct (I t (Ret r)) as (K & _ & S); [rewrite nth_error_map, Er; reflexivity|]. now apply S. }
  clear I. revert rs LL J. clear. induction gs as [|g gs IH]; intros [|r rs] LL J; try discriminate LL; constructor.
  - now apply (J 0%nat).
  - apply IH; [now injection LL|]. intros t g' r' Eg Er. now apply (J (S t)).
Qed.
Print Assumptions C87_old_stays.

Lemma run_heads {R} (m : smem) s (h h' : sl) (x y : scall R) :
  run scell_eq sheld (m, [Wr (V:=sheld) (SHead s) h x; Wr (V:=sheld) (SHead s) h' y]) [0; 1]%nat = (supd (supd m (SHead s) h) (SHead s) h', [x; y]).
Proof. reflexivity. Qed.

Definition one (a : sact) (f k : nat -> nat) : goroutine := mk_go [a] f k.

(** A call that appends something and any other use of that script at the same time: a data race. *)
Theorem C87_races m s c p x f0 k0 f1 k1 : run_call [] c = (p, None) -> p <> [] ->
  x = SRead s \/ (exists c', x = SCall s c' /\ snd (run_call [] c') = None) ->
  exists schedule, race sheld (together m [one (SCall s c) f0 k0; one x f1 k1] schedule).
Proof.
  intros R NE HX. set (P1 := started (one x f1 k1)).
  assert (N1 : next sheld P1 = Some (SHead s, false)).
  { unfold P1. destruct HX as [->|(c' & -> & E)]; [reflexivity|]. unfold started. cbn [one g_acts g_fresh g_slack s_acts]. unfold s_call.
    destruct (run_call [] c') as [p' e]. cbn [snd] in E. subst e. reflexivity. }
  set (P0 := started (one (SCall s c) f0 k0)).
  assert (D : snd (ssolo m P0) (SHead s) <> m (SHead s)).
  { unfold P0, started. cbn [one g_acts g_fresh g_slack s_acts]. unfold s_call. rewrite R. unfold s_append. cbn [solo].
    assert (LP : (length p <> 0)%nat) by (destruct p; [congruence|discriminate]). set (h := m (SHead s)). intros E. apply (f_equal s_len) in E. revert E.
    destruct (Nat.leb _ _); [rewrite solo_put|rewrite solo_take, solo_put]; cbn [solo snd]; rewrite head_upd, Nat.eqb_refl; cbn [s_len]; lia. }
  destruct (run_until P0 (SHead s) m [P0; P1] 0 eq_refl D) as (sch & m' & p' & E & N0). exists sch. unfold together. cbn [map]. fold P0 P1. rewrite E.
  exists 0%nat, 1%nat, p', P1, (SHead s), true, false. cbn [snd set_nth nth_error]. auto 10.
Qed.
Print Assumptions C87_races.

(** Two calls on one script, whatever they append: one of the two can vanish although both
    return nil. *)
Theorem C87_lost m s c0 c1 p0 p1 f0 k0 f1 k1 : run_call [] c0 = (p0, None) -> run_call [] c1 = (p1, None) ->
  new_arrays m s [one (SCall s c0) f0 k0; one (SCall s c1) f1 k1] ->
  exists schedule, let c := together m [one (SCall s c0) f0 k0; one (SCall s c1) f1 k1] schedule in
    returned sheld c [[RErr None]; [RErr None]] /\ script_at (fst c) s = script_at m s ++ p1.
Proof.
  intros R0 R1 HN. assert (N0 : f0 0%nat <> s_arr (m (SHead s))) by (apply (HN (one (SCall s c0) f0 k0)); now left).
  assert (N1 : f1 0%nat <> s_arr (m (SHead s))) by (apply (HN (one (SCall s c1) f1 k1)); right; now left).
  set (h := m (SHead s)) in *. cbv zeta. cbv zeta. unfold together. cbn [map]. unfold started. cbn [one g_acts g_fresh g_slack s_acts]. unfold s_call. rewrite R0, R1. cbn [app].
  set (P0 := s_append s p0 (f0 0%nat) (k0 0%nat) (Ret [RErr None])).
  unfold s_append. match goal with |- context [[P0; Rd (SHead s) ?k]] => set (K1 := k) end.
  set (m0 := snd (ssolo m P0)).
  assert (O0 : forall i, within h (s_arr h) i -> m0 (SByte (s_arr h) i) = m (SByte (s_arr h) i)).
  { intros i (_ & Hi). unfold m0, P0, s_append. cbn [solo]. fold h. destruct (Nat.leb (s_len h + length p0) (s_cap h)).
    - rewrite solo_put. cbn [solo snd]. rewrite byte_upd. apply putm_out. lia.
    - rewrite solo_take, solo_put. cbn [solo snd]. rewrite byte_upd. apply putm_out. intros (X & _). congruence. }
  assert (F0 : fst (ssolo m P0) = [RErr None]).
  { unfold P0, s_append. cbn [solo]. destruct (Nat.leb _ _); [rewrite solo_put|rewrite solo_take, solo_put]; reflexivity. }
  destruct (run_to_end scell_eq sheld P0 m [P0; K1 h] 0 eq_refl) as (s1 & E1). rewrite F0 in E1. fold m0 in E1. cbn [set_nth] in E1.
  destruct (run_to_end scell_eq sheld (K1 h) m0 [Ret [RErr None]; K1 h] 1 eq_refl) as (s2 & E2). cbn [set_nth] in E2.
  exists (1%nat :: s1 ++ s2). rewrite (run_rd scell_eq sheld m [P0; Rd (V:=sheld) (SHead s) K1] 1 (SHead s) K1 (s1 ++ s2) eq_refl). cbn [set_nth]. fold h.
  rewrite run_app, E1, E2. unfold returned. cbn [fst snd map]. unfold K1.
  destruct (Nat.leb (s_len h + length p1) (s_cap h)).
  - rewrite solo_put. cbn [solo fst snd]. split; [reflexivity|]. unfold script_at. rewrite head_upd, Nat.eqb_refl. fold h.
    unfold shown at 1. cbn [s_arr s_off s_len]. rewrite seq_app, map_app. f_equal.
    + unfold shown. apply map_ext_in. intros i Hi. apply in_seq in Hi. rewrite byte_upd, putm_out by lia. apply O0. unfold within. lia.
    + erewrite map_ext; [apply putm_shown with (m := m0) (a := s_arr h)|]. intros i. apply byte_upd.
  - rewrite solo_take, solo_put. cbn [solo fst snd app]. split; [reflexivity|]. unfold script_at. rewrite head_upd, Nat.eqb_refl. fold h.
    assert (E : map (fun j => m0 (SByte (s_arr h) j)) (seq (s_off h) (s_len h)) = shown m h).
    { apply map_ext_in. intros i Hi. apply in_seq in Hi. apply O0. unfold within. lia. }
    rewrite E. unfold shown at 1. cbn [s_arr s_off s_len].
    replace (s_len h + length p1)%nat with (length (shown m h ++ p1)) by (rewrite app_length, shown_length; reflexivity).
    erewrite map_ext; [apply putm_shown with (m := m0) (a := f1 0%nat)|]. intros i. apply byte_upd.
Qed.
Print Assumptions C87_lost.

(** Two calls that append equally much where there is room: any first part of the one followed
    by the rest of the other can be what is appended. *)
Theorem C87_mixed (m : smem) s c0 c1 p0 p1 f0 k0 f1 k1 k : run_call [] c0 = (p0, None) -> run_call [] c1 = (p1, None) ->
  length p0 = length p1 -> (s_len (m (SHead s)) + length p0 <= s_cap (m (SHead s)))%nat -> (k <= length p0)%nat ->
  exists schedule, let c := together m [one (SCall s c0) f0 k0; one (SCall s c1) f1 k1] schedule in
    returned sheld c [[RErr None]; [RErr None]] /\ script_at (fst c) s = script_at m s ++ firstn k p0 ++ skipn k p1.
Proof.
  intros R0 R1 L LE Hk. set (h := m (SHead s)) in *. cbv zeta. unfold together. cbn [map]. unfold started. cbn [one g_acts g_fresh g_slack s_acts]. unfold s_call. rewrite R0, R1. cbn [app].
  unfold s_append. set (e := (s_off h + s_len h)%nat). set (h' := mk_sl (s_arr h) (s_off h) (s_len h + length p0) (s_cap h)).
  set (W := Wr (V:=sheld) (SHead s) h' (Ret [RErr None])).
  set (d1 := firstn k p1). set (d2 := skipn k p1). assert (Ld : length d1 = k) by (unfold d1; rewrite firstn_length; lia).
  exists ([0; 1]%nat ++ repeat 1%nat (length d1) ++ repeat 0%nat (length p0) ++ repeat 1%nat (length d2) ++ [0; 1]%nat).
  rewrite !run_app. match goal with |- context [run scell_eq sheld ?c [0%nat; 1%nat]] => match c with (m, _) => assert (E : run scell_eq sheld c [0%nat; 1%nat] = (m, [s_put (s_arr h) e (p0 ++ []) W; s_put (s_arr h) e (d1 ++ d2) W])) end end.
  { erewrite run_rd; [|reflexivity]. cbn [set_nth]. erewrite run_rd; [|reflexivity]. cbn [set_nth]. fold h.
    unfold d1, d2. rewrite firstn_skipn, app_nil_r, <- L. destruct (Nat.leb_spec (s_len h + length p0) (s_cap h)); [reflexivity|lia]. }
  rewrite E. clear E. rewrite run_put1. rewrite run_put0. cbn [s_put].
  pose proof (run_put1 W W [] d2 (putm (putm m (s_arr h) e d1) (s_arr h) e p0) (s_arr h) (e + length d1)) as E3. rewrite app_nil_r in E3. rewrite E3. clear E3. cbn [s_put].
  set (m3 := putm _ _ _ d2). unfold W. rewrite run_heads. cbn [fst snd]. split; [reflexivity|].
  unfold script_at. rewrite head_upd, Nat.eqb_refl. fold h. unfold shown at 1. cbn [h' s_arr s_off s_len]. rewrite seq_app, map_app. f_equal.
  - unfold shown. apply map_ext_in. intros i Hi. apply in_seq in Hi. rewrite !byte_upd. unfold m3. rewrite !putm_out by (fold e; lia). reflexivity.
  - fold e. replace (length p0) with (k + (length p0 - k))%nat at 1 by lia. rewrite seq_app, map_app. f_equal.
    + transitivity (map (fun i => putm (putm m (s_arr h) e d1) (s_arr h) e p0 (SByte (s_arr h) i)) (seq (e + 0) k)).
      * rewrite Nat.add_0_r. apply map_ext_in. intros i Hi. apply in_seq in Hi. rewrite !byte_upd. unfold m3. apply putm_out. lia.
      * rewrite putm_reads. cbn [skipn]. rewrite skipn_all2, app_nil_r; [reflexivity|]. rewrite map_length, seq_length, firstn_length. lia.
    + rewrite <- Ld at 1. replace (length p0 - k)%nat with (length d2) by (unfold d2; rewrite skipn_length; lia).
      unfold m3. erewrite map_ext; [apply putm_shown with (a := s_arr h)|]. intros i. now rewrite !byte_upd.
Qed.
Print Assumptions C87_mixed.

(** A call appends where there is room, and that room holds another script (a slice of the same
    array): a goroutine that reads the other one, which nobody builds, can see any first part of
    the appended bytes written over it. *)
Theorem C87_neighbour (m : smem) s s' c p f0 k0 f1 k1 k : run_call [] c = (p, None) ->
  (s_len (m (SHead s)) + length p <= s_cap (m (SHead s)))%nat ->
  s_arr (m (SHead s')) = s_arr (m (SHead s)) -> (s_off (m (SHead s)) + s_len (m (SHead s)) <= s_off (m (SHead s')))%nat ->
  let q := firstn (s_len (m (SHead s'))) (skipn (s_off (m (SHead s')) - (s_off (m (SHead s)) + s_len (m (SHead s)))) (firstn k p)) in
  exists schedule, returned sheld (together m [one (SCall s c) f0 k0; one (SRead s') f1 k1] schedule)
    [[RErr None]; [RBytes (q ++ skipn (length q) (script_at m s'))]].
Proof.
  intros R LE EA HO. set (h := m (SHead s)) in *. set (h' := m (SHead s')) in *. set (e := (s_off h + s_len h)%nat) in *. cbv zeta.
  cbv zeta. unfold together. cbn [map]. unfold started. cbn [one g_acts g_fresh g_slack s_acts]. unfold s_call. rewrite R. cbn [app]. unfold s_append.
  set (W := Wr (V:=sheld) (SHead s) (mk_sl (s_arr h) (s_off h) (s_len h + length p) (s_cap h)) (Ret (R:=list sres) [RErr None])).
  match goal with |- context [[_; ?r]] => set (P1 := r) end. set (d1 := firstn k p). set (d2 := skipn k p). set (m1 := putm m (s_arr h) e d1).
  destruct (run_to_end scell_eq sheld P1 m1 [s_put (s_arr h) (e + length d1) d2 W; P1] 1 eq_refl) as (s1 & E1). cbn [set_nth] in E1.
  set (m2 := snd (ssolo m1 P1)) in *. set (r1 := fst (ssolo m1 P1)) in *.
  destruct (run_to_end scell_eq sheld (s_put (s_arr h) (e + length d1) d2 W) m2 [s_put (s_arr h) (e + length d1) d2 W; Ret r1] 0 eq_refl) as (s2 & E2). cbn [set_nth] in E2.
  exists (0%nat :: repeat 0%nat (length d1) ++ s1 ++ s2). erewrite run_rd; [|reflexivity]. cbn [set_nth]. fold h. fold e.
  destruct (Nat.leb_spec (s_len h + length p) (s_cap h)) as [_|X]; [|lia]. fold W.
  replace (s_put (s_arr h) e p W) with (s_put (s_arr h) e (d1 ++ d2) W) by (unfold d1, d2; now rewrite firstn_skipn).
  rewrite !run_app, run_put0. fold m1. rewrite E1, E2. unfold returned. cbn [snd map]. f_equal; [now rewrite solo_put|]. f_equal. f_equal.
  unfold r1, P1. cbn [solo]. rewrite solo_take. cbn [solo fst app]. f_equal. f_equal. unfold m1. rewrite putm_head. fold h'.
  unfold script_at, shown. fold h'. rewrite EA. replace (s_off h') with (e + (s_off h' - e))%nat at 1 by lia. rewrite putm_reads.
  replace (e + (s_off h' - e))%nat with (s_off h') by lia. reflexivity.
Qed.
Print Assumptions C87_neighbour.

(** Script 0 has room behind it and script 2 lies in that room; script 1 is in an array of its
    own; script 3, in front of script 0, is only read. *)
Definition ex_smem : smem := fun c => match c with
  | SHead 0 => mk_sl 0 2 3 10 | SHead 1 => mk_sl 1 0 2 2 | SHead 2 => mk_sl 0 7 3 3 | SHead _ => mk_sl 0 0 4 4
  | SByte a i => nth i [x00; x01; x02; x03; x04; x05; x06; x07; x08; x09; x0a; x0b] x00
  end.
Definition ex_sgs : list goroutine :=
  [mk_go [SCall 0 (CPush [xaa]); SRead 3; SCall 0 (COpCode x51)] (fun n => 2 + 2 * n)%nat (fun _ => 8%nat);
   mk_go [SCall 1 (CPush [xbb; xcc]); SRead 3; SRead 1] (fun n => 3 + 2 * n)%nat (fun _ => 0%nat)].
Lemma ex_builds g s : In g ex_sgs -> builds g s -> (g = nth 0 ex_sgs g /\ s = 0%nat) \/ (g = nth 1 ex_sgs g /\ s = 1%nat).
Proof. intros [<-|[<-|[]]] (c & H); cbn in H; intuition congruence. Qed.
Lemma ex_uses g s : In g ex_sgs -> uses g s -> (g = nth 0 ex_sgs g /\ s = 0%nat) \/ (g = nth 1 ex_sgs g /\ s = 1%nat) \/ s = 3%nat.
Proof. intros I [B|H]; [destruct (ex_builds g s I B); auto|]. destruct I as [<-|[<-|[]]]; cbn in H; intuition congruence. Qed.
Example C87_example :
  fresh_arrays ex_smem ex_sgs /\ separate ex_smem ex_sgs /\
  map (fun g => fst (on_values (script_at ex_smem) (g_acts g))) ex_sgs =
    [[RErr None; RBytes [x00; x01; x02; x03]; RErr None]; [RErr None; RBytes [x00; x01; x02; x03]; RBytes [x00; x01; x02; xbb; xcc]]] /\
  (forall g, In g [one (SCall 0 (CPush [xaa])) (fun _ => 5%nat) (fun _ => 0%nat); one (SCall 0 (CPushHex [x67])) (fun _ => 5%nat) (fun _ => 0%nat); one (SRead 0) (fun _ => 5%nat) (fun _ => 0%nat)] ->
     only_on 0 g /\ forall n, g_fresh g n <> s_arr (ex_smem (SHead 0))) /\
  run_call [] (CPush [xaa; xbb; xcc]) = ([x03; xaa; xbb; xcc], None) /\ run_call [] (CPush [x11; x22; x33]) = ([x03; x11; x22; x33], None) /\
  run_call [] (CPushHex [x67]) <> ([], None) /\
  (s_len (ex_smem (SHead 0)) + 4 <= s_cap (ex_smem (SHead 0)))%nat /\
  (* script 2 as read while script 0 has got [xaa; xbb; xcc]: two of three bytes changed *)
  (let q := firstn 3 (skipn 2 (firstn 4 [x03; xaa; xbb; xcc])) in
   q ++ skipn (length q) (script_at ex_smem 2) = [xbb; xcc; x09] /\ script_at ex_smem 2 = [x07; x08; x09]).
Proof.
  split; [|split; [|split; [|split]]].
  - split.
    + intros [|[|i]] [|[|j]] gi gj n n'; cbn [ex_sgs nth_error]; try (now destruct i); try (now destruct j); intros [= <-] [= <-]; cbn; intros H; split; lia.
    + intros g g' n s I I' U. destruct (ex_uses g' s I' U) as [(_ & ->)|[(_ & ->)| ->]]; destruct I as [<-|[<-|[]]]; cbn; lia.
  - split; [|split].
    + intros i j gi gj s Ei Ej B U. destruct (ex_builds gi s (nth_error_In _ _ Ei) B) as [(Eg & ->)|(Eg & ->)];
        destruct (ex_uses gj _ (nth_error_In _ _ Ej) U) as [(Eh & H)|[(Eh & H)|H]]; try discriminate H; clear H;
        destruct i as [|[|i]]; destruct j as [|[|j]]; cbn in Ei, Ej; try reflexivity; try (destruct i; discriminate); try (destruct j; discriminate);
        injection Ei as Ei; injection Ej as Ej; rewrite <- Ei in Eg; rewrite <- Ej in Eh; discriminate.
    + intros g g' s s' a i I I' B U N H. destruct (ex_builds g s I B) as [(_ & ->)|(_ & ->)]; destruct (ex_uses g' s' I' U) as [(_ & ->)|[(_ & ->)| ->]]; try congruence;
        unfold behind, within in *; cbn in *; (split; [|intros _]); lia.
    + intros g s I U. destruct (ex_uses g s I U) as [(_ & ->)|[(_ & ->)| ->]]; cbn; lia.
  - reflexivity.
  - intros g [<-|[<-|[<-|[]]]]; (split; [intros x [<-|[]]; reflexivity|cbn; intros n; lia]).
  - repeat split; try reflexivity; [vm_compute; discriminate|cbn; lia].
Qed.
