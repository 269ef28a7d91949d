(** Proofs for C74. *)
From Verif Require Export S_Slots.
From Verif Require Import P_Share.
From Coq Require Import ZifyBool ZifyNat ZifyN.

Section P.
Context {A : Type}.
Implicit Types (h : store A) (s t : slots) (nil : A).

Lemma set_len {B} (l : list B) : forall n x, length (set_nth n x l) = length l.
Proof. induction l as [|y l IH]; intros [|n] x; cbn [set_nth length]; try reflexivity. now rewrite IH. Qed.

Lemma array_set h a b l : (a < length h)%nat -> array (set_nth a l h) b = if Nat.eqb b a then l else array h b.
Proof.
  intros L. unfold array. destruct (Nat.eqb b a) eqn:E.
  - apply Nat.eqb_eq in E as ->. apply nth_error_nth. destruct (nth_error h a) as [y|] eqn:N; [now rewrite (nth_set_same _ _ _ _ N)|].
    apply nth_error_None in N. lia.
  - apply Nat.eqb_neq in E. destruct (nth_error h b) as [y|] eqn:N.
    + rewrite (nth_error_nth _ _ _ N). apply nth_error_nth. rewrite nth_set_other by auto. assumption.
    + apply nth_error_None in N. rewrite !nth_overflow; [reflexivity|assumption|now rewrite set_len].
Qed.

Lemma array_app h l b : array (h ++ [l]) b = if Nat.eqb b (length h) then l else array h b.
Proof.
  unfold array. destruct (Nat.eqb b (length h)) eqn:E.
  - apply Nat.eqb_eq in E as ->. rewrite app_nth2, Nat.sub_diag by lia. reflexivity.
  - apply Nat.eqb_neq in E. destruct (Nat.lt_ge_cases b (length h)); [now rewrite app_nth1|].
    rewrite !nth_overflow; [reflexivity|assumption|rewrite app_length; cbn [length]; lia].
Qed.

Lemma set_mid {B} (l : list B) n x : (n < length l)%nat -> set_nth n x l = firstn n l ++ [x] ++ skipn (S n) l.
Proof.
  revert n. induction l as [|y l IH]; intros [|n] L; cbn [length] in L; try lia; [reflexivity|]. cbn [set_nth firstn skipn app]. f_equal. apply IH. lia.
Qed.

Lemma skip_skip {B} (l : list B) : forall a b, skipn a (skipn b l) = skipn (b + a) l.
Proof. intros a b. revert l. induction b as [|b IH]; intros [|y l]; cbn [skipn Nat.add]; try reflexivity; [now rewrite skipn_nil|apply IH]. Qed.

(** one append *)
Lemma add_shows nil k h s x h' s' : lies h s -> k_add nil k h s x = (h', s') ->
  lies h' s' /\ shows h' s' = shows h s ++ [x] /\ (length h <= length h')%nat /\
  (forall b, (b < length h)%nat -> length (array h' b) = length (array h b) /\ firstn (k_len s) (array h' b) = firstn (k_len s) (array h b) /\ (b <> k_arr s -> array h' b = array h b)) /\
  ((0 < room h s)%nat /\ k_arr s' = k_arr s /\ array h' (k_arr s) = set_nth (k_len s) x (array h (k_arr s)) \/
   room h s = 0%nat /\ k_arr s' = length h /\ array h' (k_arr s) = array h (k_arr s)) /\ k_len s' = S (k_len s).
Proof.
  intros [L1 L2]. unfold k_add, room. destruct (Nat.ltb (k_len s) (length (array h (k_arr s)))) eqn:F; intros E; injection E as <- <-.
  - apply Nat.ltb_lt in F. assert (array (set_nth (k_arr s) (set_nth (k_len s) x (array h (k_arr s))) h) (k_arr s) = set_nth (k_len s) x (array h (k_arr s))) as AS.
    { rewrite array_set, Nat.eqb_refl by assumption. reflexivity. }
    split; [|split; [|split; [|split; [|split; [|reflexivity]]]]].
    + split; cbn [k_arr k_len]; rewrite ?set_len; [assumption|]. rewrite AS, set_len. lia.
    + unfold shows. cbn [k_arr k_len]. rewrite AS, set_mid by assumption. rewrite firstn_app, firstn_firstn, firstn_length.
      replace (Nat.min (S (k_len s)) (k_len s)) with (k_len s) by lia. f_equal.
      replace (S (k_len s) - Nat.min (k_len s) (length (array h (k_arr s))))%nat with 1%nat by lia. reflexivity.
    + now rewrite set_len.
    + intros b Lb. rewrite array_set by assumption. destruct (Nat.eqb b (k_arr s)) eqn:Eb; [|auto].
      apply Nat.eqb_eq in Eb as ->. rewrite set_len. split; [reflexivity|]. split; [|congruence].
      rewrite set_mid by assumption. rewrite firstn_app, firstn_firstn, firstn_length, Nat.min_id.
      replace (k_len s - Nat.min (k_len s) (length (array h (k_arr s))))%nat with 0%nat by lia. cbn [firstn]. now rewrite app_nil_r.
    + left. split; [lia|]. split; [reflexivity|exact AS].
  - apply Nat.ltb_ge in F. split; [|split; [|split; [|split; [|split; [|reflexivity]]]]].
    + split; cbn [k_arr k_len]; [rewrite app_length; cbn [length]; lia|]. rewrite array_app, Nat.eqb_refl.
      rewrite !app_length. unfold shows. rewrite firstn_length. cbn [length]. lia.
    + unfold shows at 1. cbn [k_arr k_len]. rewrite array_app, Nat.eqb_refl. change (shows h s ++ x :: repeat nil k) with (shows h s ++ [x] ++ repeat nil k). rewrite app_assoc, firstn_app.
      assert (length (shows h s ++ [x]) = S (k_len s)) as LS by (rewrite app_length; unfold shows; rewrite firstn_length; cbn [length]; lia).
      rewrite LS, Nat.sub_diag, firstn_O, app_nil_r. apply firstn_all2. lia.
    + rewrite app_length. lia.
    + intros b Lb. rewrite array_app. replace (Nat.eqb b (length h)) with false by lia. auto.
    + right. split; [lia|]. split; [reflexivity|]. rewrite array_app. now replace (Nat.eqb (k_arr s) (length h)) with false by lia.
Qed.

(** ** got slices are only read *)

Definition owner (own : list bool) i := nth_error own i = Some true.

Definition inv (own : list bool) h (ss : list slots) : Prop :=
  length own = length ss /\
  (forall i s, nth_error ss i = Some s -> lies h s) /\
  (forall i j s t, i <> j -> owner own i -> nth_error ss i = Some s -> nth_error ss j = Some t -> k_arr s = k_arr t ->
     nth_error own j = Some false /\ (k_len t <= k_len s)%nat).

Lemma nth_snoc {B} (l : list B) y i z : nth_error (l ++ [y]) i = Some z -> nth_error l i = Some z \/ i = length l /\ z = y.
Proof.
  intros H. destruct (Nat.lt_ge_cases i (length l)) as [L|L]; [rewrite nth_error_app1 in H by assumption; auto|].
  rewrite nth_error_app2 in H by assumption. destruct (i - length l)%nat as [|m] eqn:E; [|destruct m; discriminate].
  cbn [nth_error] in H. injection H as <-. right. split; [lia|reflexivity].
Qed.

Lemma owner_snoc own b i : owner (own ++ [b]) i -> owner own i \/ i = length own /\ b = true.
Proof. intros H. apply nth_snoc in H as [H|[-> <-]]; [left|right]; auto. Qed.

Lemma snoc_old {B} (l : list B) y i z : nth_error l i = Some z -> nth_error (l ++ [y]) i = Some z.
Proof. intros H. rewrite nth_error_app1; [assumption|]. apply nth_error_Some. congruence. Qed.

Lemma step_new own h ss : inv own h ss -> inv (own ++ [true]) (h ++ [[]]) (ss ++ [mk_slots (length h) 0]) /\
  map (shows (h ++ [[]])) (ss ++ [mk_slots (length h) 0]) = map (shows h) ss ++ [[]].
Proof.
  intros (L & W & D). split; [split; [|split]|].
  - rewrite !app_length, L. reflexivity.
  - intros i s H. apply nth_snoc in H as [H|[_ ->]].
    + destruct (W _ _ H) as [W1 W2]. split; [rewrite app_length; lia|]. rewrite array_app. now replace (Nat.eqb (k_arr s) (length h)) with false by lia.
    + split; cbn [k_arr k_len]; [rewrite app_length; cbn [length]; lia|lia].
  - intros i j s t IJ O Hi Hj E. apply nth_snoc in Hi as [Hi|[-> ->]]; apply nth_snoc in Hj as [Hj|[-> ->]].
    + apply owner_snoc in O as [O|[-> _]]; [|assert (length own < length ss)%nat by (apply nth_error_Some; congruence); lia].
      * destruct (D i j s t IJ O Hi Hj E) as [D1 D2]. split; [now apply snoc_old|assumption].
    + cbn [k_arr] in E. destruct (W _ _ Hi) as [W1 _]. lia.
    + cbn [k_arr] in E. destruct (W _ _ Hj) as [W1 _]. lia.
    + congruence.
  - rewrite map_app. f_equal. apply map_ext_in. intros s H. apply In_nth_error in H as [i H]. destruct (W _ _ H) as [W1 _].
    unfold shows. rewrite array_app. now replace (Nat.eqb (k_arr s) (length h)) with false by lia.
Qed.

Lemma step_get own h ss i s : inv own h ss -> nth_error ss i = Some s -> inv (own ++ [false]) h (ss ++ [s]).
Proof.
  intros (L & W & D) N. split; [|split].
  - rewrite !app_length, L. reflexivity.
  - intros j t H. apply nth_snoc in H as [H|[_ ->]]; [exact (W _ _ H)|exact (W _ _ N)].
  - intros a b u v AB O Ha Hb E. apply owner_snoc in O as [O|[_ ?]]; [|discriminate].
    assert (nth_error ss a = Some u) as Ha'.
    { apply nth_snoc in Ha as [Ha|[-> _]]; [assumption|]. exfalso. unfold owner in O. assert (length ss < length own)%nat by (apply nth_error_Some; congruence). lia. }
    apply nth_snoc in Hb as [Hb|[-> ->]].
    + destruct (D a b u v AB O Ha' Hb E) as [D1 D2]. split; [now apply snoc_old|assumption].
    + split; [rewrite nth_error_app2, <- L, Nat.sub_diag by lia; reflexivity|].
      destruct (Nat.eq_dec a i) as [-> |X]; [rewrite N in Ha'; injection Ha' as ->; lia|]. now destruct (D a i u s X O Ha' N E).
Qed.

Lemma step_add own nil k h ss i s x h' s' : inv own h ss -> owner own i -> nth_error ss i = Some s -> k_add nil k h s x = (h', s') ->
  inv own h' (set_nth i s' ss) /\ map (shows h') (set_nth i s' ss) = set_nth i (shows h s ++ [x]) (map (shows h) ss).
Proof.
  intros (L & W & D) O N E. destruct (add_shows nil k h s x h' s' (W _ _ N) E) as (Ls & Ss & Lh & Fr & Ar & Ln).
  assert (forall j t, j <> i -> nth_error ss j = Some t -> lies h' t /\ shows h' t = shows h t) as Other.
  { intros j t J T. destruct (W _ _ T) as [T1 T2]. destruct (Fr _ T1) as (F1 & F2 & F3). split; [split; [lia|now rewrite F1]|].
    unfold shows. destruct (Nat.eq_dec (k_arr t) (k_arr s)) as [X|X]; [|now rewrite (F3 X)].
    destruct (D i j s t ltac:(auto) O N T ltac:(auto)) as [_ LE].
    replace (k_len t) with (Nat.min (k_len t) (k_len s)) by lia. rewrite <- !firstn_firstn. now rewrite F2. }
  split; [split; [|split]|].
  - now rewrite set_len.
  - intros j t T. rewrite nth_set in T. destruct (Nat.eqb i j && Nat.ltb j (length ss))%bool eqn:J; [injection T as <-; assumption|].
    apply (Other j); [|assumption]. intros ->. assert (i < length ss)%nat by (apply nth_error_Some; congruence). lia.
  - assert (forall j t, nth_error (set_nth i s' ss) j = Some t -> j = i /\ t = s' \/ j <> i /\ nth_error ss j = Some t) as Case.
    { intros j t T. rewrite nth_set in T. destruct (Nat.eqb i j && Nat.ltb j (length ss))%bool eqn:J.
      - injection T as <-. left. split; [lia|reflexivity].
      - right. split; [|assumption]. intros ->. assert (i < length ss)%nat by (apply nth_error_Some; congruence). lia. }
    intros a b u v AB Oa Ha Hb Eab. apply Case in Ha as [[-> ->]|[Xa Ha]]; apply Case in Hb as [[-> ->]|[Xb Hb]].
    + congruence.
    + destruct Ar as [(_ & Ea & _)|(_ & Ea & _)].
      * rewrite Ea in Eab. destruct (D i b s v AB O N Hb Eab). split; [assumption|lia].
      * destruct (W _ _ Hb). lia.
    + destruct Ar as [(_ & Ea & _)|(_ & Ea & _)].
      * rewrite Ea in Eab. destruct (D a i u s AB Oa Ha N Eab) as [Z _]. unfold owner in O. congruence.
      * destruct (W _ _ Ha). lia.
    + exact (D a b u v AB Oa Ha Hb Eab).
  - apply P_Mem.nth_error_eq. intros j. rewrite nth_error_map, !nth_set, map_length.
    destruct (Nat.eqb i j && Nat.ltb j (length ss))%bool eqn:J; [cbn [option_map]; now rewrite Ss|].
    rewrite nth_error_map. destruct (nth_error ss j) as [t|] eqn:T; [|reflexivity]. cbn [option_map]. f_equal. apply (Other j); [|assumption].
    intros ->. assert (i < length ss)%nat by (apply nth_error_Some; congruence). lia.
Qed.

Lemma acts_agree nil l : forall own h ss, inv own h ss -> reads_only own l ->
  match k_acts nil (h, ss) l with
  | Some (h', ss') => v_acts (map (shows h) ss) l = Some (map (shows h') ss')
  | None => v_acts (map (shows h) ss) l = None
  end.
Proof.
  induction l as [|a l IH]; intros own h ss I R; [reflexivity|].
  destruct a as [|k i x|i|i j x]; cbn [k_acts k_act v_acts v_act reads_only] in *.
  - destruct (step_new own h ss I) as [I' M]. rewrite <- M. exact (IH _ _ _ I' R).
  - rewrite nth_error_map. destruct (nth_error ss i) as [s|] eqn:N; cbn [option_map]; [|reflexivity].
    destruct R as [O R]. destruct (k_add nil k h s x) as [h' s'] eqn:E.
    assert (owner own i) as Ow.
    { unfold owner. destruct (nth_error own i) as [[|]|] eqn:Q; [reflexivity|congruence|]. destruct I as [L _]. apply nth_error_None in Q.
      assert (i < length ss)%nat by (apply nth_error_Some; congruence). lia. }
    destruct (step_add own nil k h ss i s x h' s' I Ow N E) as [I' M]. rewrite <- M. exact (IH _ _ _ I' R).
  - rewrite nth_error_map. destruct (nth_error ss i) as [s|] eqn:N; cbn [option_map]; [|reflexivity].
    pose proof (IH _ _ _ (step_get own h ss i s I N) R) as K. rewrite map_app in K. exact K.
  - contradiction.
Qed.

(** ** a history of appends to one variable *)

Fixpoint k_adds nil h s (xs : list (nat * A)) : store A * slots :=
  match xs with
  | [] => (h, s)
  | (k, x) :: r => let (h', s') := k_add nil k h s x in k_adds nil h' s' r
  end.

Lemma adds_spec nil xs : forall h s h' s', lies h s -> k_adds nil h s xs = (h', s') ->
  lies h' s' /\ shows h' s' = shows h s ++ map snd xs /\ (length h <= length h')%nat /\ k_len s' = (k_len s + length xs)%nat /\
  (forall b, (b < length h)%nat -> b <> k_arr s -> array h' b = array h b) /\
  array h' (k_arr s) = firstn (k_len s) (array h (k_arr s)) ++ firstn (room h s) (map snd xs) ++ skipn (k_len s + Nat.min (room h s) (length xs)) (array h (k_arr s)) /\
  ((length xs <= room h s)%nat -> k_arr s' = k_arr s) /\ ((room h s < length xs)%nat -> (length h <= k_arr s')%nat).
Proof.
  induction xs as [|[k x] xs IH]; intros h s h' s' L E; cbn [k_adds] in E.
  - injection E as <- <-. cbn [map length]. rewrite app_nil_r, firstn_nil, Nat.min_0_r, Nat.add_0_r. cbn [app]. rewrite firstn_skipn.
    split; [assumption|]. split; [reflexivity|]. split; [lia|]. split; [lia|]. split; [reflexivity|]. split; [reflexivity|]. split; [reflexivity|]. lia.
  - destruct (k_add nil k h s x) as [h1 s1] eqn:E1. destruct (add_shows nil k h s x h1 s1 L E1) as (L1 & S1 & H1 & F1 & R1 & N1).
    destruct (IH _ _ _ _ L1 E) as (L2 & S2 & H2 & N2 & O2 & A2 & M2 & M2'). pose proof L as [La Lb]. destruct (F1 _ La) as (F1a & F1b & _).
    split; [assumption|]. split; [rewrite S2, S1, <- app_assoc; reflexivity|]. split; [lia|]. split; [cbn [length]; lia|].
    destruct R1 as [(P & Ea & Ar)|(P & Ea & Ar)].
    + assert (room h1 s1 = room h s - 1)%nat as RR by (unfold room; rewrite Ea, N1, Ar, set_len; lia).
      split; [|split; [|split]].
      * intros b Hb Nb. rewrite O2 by (rewrite ?Ea; lia). now apply F1.
      * rewrite <- Ea, A2, Ea, Ar, RR, N1. unfold room in *. cbn [map snd length]. destruct (length (array h (k_arr s)) - k_len s)%nat as [|r] eqn:Er; [lia|].
        replace (S r - 1)%nat with r by lia. rewrite (Nat.min_comm r). rewrite (Nat.min_comm (S r)). cbn [Nat.min]. rewrite firstn_cons.
        rewrite set_mid by lia. set (a := array h (k_arr s)) in *. set (n := k_len s) in *. clearbody a n.
        assert (length (firstn n a) = n) as LF by (rewrite firstn_length; lia).
        rewrite firstn_app, LF. replace (S n - n)%nat with 1%nat by lia. rewrite (firstn_all2 (n := S n)) by lia. cbn [firstn app].
        rewrite <- app_assoc. cbn [app]. do 3 f_equal. rewrite skipn_app, LF. rewrite (skipn_all2 (n := S n + Nat.min (length xs) r)) by lia. cbn [app].
        replace (S n + Nat.min (length xs) r - n)%nat with (S (Nat.min (length xs) r)) by lia. change (x :: skipn (S n) a) with ([x] ++ skipn (S n) a). rewrite skipn_app. cbn [length]. rewrite (skipn_all2 (n := S (Nat.min (length xs) r))) by (cbn [length]; lia). cbn [app]. rewrite skip_skip. f_equal. lia.
      * cbn [length]. intros Q. rewrite M2 by lia. assumption.
      * cbn [length]. intros Q. specialize (M2' ltac:(lia)). lia.
    + split; [|split; [|split]].
      * intros b Hb Nb. rewrite O2 by (rewrite ?Ea; lia). now apply F1.
      * rewrite O2 by (rewrite ?Ea; lia). rewrite Ar. rewrite P. cbn [firstn app Nat.min]. rewrite Nat.add_0_r, firstn_skipn. reflexivity.
      * cbn [length]. lia.
      * intros _. destruct (Nat.le_gt_cases (length xs) (room h1 s1)) as [Q|Q]; [rewrite M2, Ea by assumption; lia|]. specialize (M2' Q). lia.
Qed.
End P.
