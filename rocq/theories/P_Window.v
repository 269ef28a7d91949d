(** Proofs for C104. *)
From Verif Require Export S_Window.
From Verif Require Import P_Share P_Slots.
From Coq Require Import ZifyBool ZifyNat ZifyN.

Section P.
Context {A : Type}.
Implicit Types (h : store A) (w u : win) (nil : A).

Lemma list_ext (l m : list A) : (forall k, nth_error l k = nth_error m k) -> l = m.
Proof.
  revert m. induction l as [|x l IH]; intros [|y m] H; [reflexivity|specialize (H 0%nat); discriminate|specialize (H 0%nat); discriminate|].
  pose proof (H 0%nat) as H0. cbn [nth_error] in H0. injection H0 as ->. f_equal. apply IH. intros k. exact (H (S k)).
Qed.

Lemma ext_all {B} (l m : list B) : (forall k, nth_error l k = nth_error m k) -> l = m.
Proof.
  revert m. induction l as [|x l IH]; intros [|y m] H; [reflexivity|specialize (H 0%nat); discriminate|specialize (H 0%nat); discriminate|].
  pose proof (H 0%nat) as H0. cbn [nth_error] in H0. injection H0 as ->. f_equal. apply IH. intros k. exact (H (S k)).
Qed.

Lemma nth_firstn (l : list A) n k : nth_error (firstn n l) k = if Nat.ltb k n then nth_error l k else None.
Proof.
  revert n k. induction l as [|x l IH]; intros n k; [rewrite firstn_nil; destruct k; destruct (Nat.ltb _ n); reflexivity|].
  destruct n as [|n]; [destruct k; reflexivity|]. destruct k as [|k]; [reflexivity|]. cbn [firstn nth_error]. rewrite IH.
  change (Nat.ltb (S k) (S n)) with (Nat.ltb k n). reflexivity.
Qed.

Lemma nth_skipn (l : list A) n k : nth_error (skipn n l) k = nth_error l (n + k).
Proof. revert n. induction l as [|x l IH]; intros [|n]; cbn [skipn Nat.add nth_error]; try reflexivity; [destruct k; reflexivity|apply IH]. Qed.

Lemma nth_app (l m : list A) k : nth_error (l ++ m) k = if Nat.ltb k (length l) then nth_error l k else nth_error m (k - length l).
Proof.
  destruct (Nat.ltb k (length l)) eqn:E; [apply nth_error_app1; lia|apply nth_error_app2; lia].
Qed.

Lemma nth_put k xs (l : list A) j : (k + length xs <= length l)%nat ->
  nth_error (put_from k xs l) j = if Nat.leb k j && Nat.ltb j (k + length xs) then nth_error xs (j - k) else nth_error l j.
Proof.
  intros L. unfold put_from. rewrite !nth_app, firstn_length, nth_firstn, nth_skipn.
  replace (Nat.min k (length l)) with k by lia. destruct (Nat.ltb j k) eqn:E1.
  - replace (Nat.leb k j) with false by lia. reflexivity.
  - replace (Nat.leb k j) with true by lia. cbn [andb]. destruct (Nat.ltb (j - k) (length xs)) eqn:E2.
    + now replace (Nat.ltb j (k + length xs)) with true by lia.
    + replace (Nat.ltb j (k + length xs)) with false by lia. f_equal. lia.
Qed.

Lemma put_len k xs (l : list A) : (k + length xs <= length l)%nat -> length (put_from k xs l) = length l.
Proof. intros L. unfold put_from. rewrite !app_length, firstn_length, skipn_length. lia. Qed.

Lemma nth_w h w k : nth_error (w_shows h w) k = if Nat.ltb k (w_len w) then nth_error (array h (w_arr w)) (w_off w + k) else None.
Proof. unfold w_shows. now rewrite nth_firstn, nth_skipn. Qed.

Lemma w_shows_len h w : w_lies h w -> length (w_shows h w) = w_len w.
Proof. intros (_ & L1 & L2). unfold w_shows. rewrite firstn_length, skipn_length. lia. Qed.

(** one append *)
Lemma append_spec nil k h w xs h' w' : w_lies h w -> w_append nil k h w xs = (h', w') ->
  w_lies h' w' /\ w_shows h' w' = w_shows h w ++ xs /\ (length h <= length h')%nat /\ w_len w' = (w_len w + length xs)%nat /\
  (forall b, (b < length h)%nat -> length (array h' b) = length (array h b)) /\
  ((w_len w + length xs <= w_cap w)%nat /\ w_arr w' = w_arr w /\ w_off w' = w_off w /\ w_cap w' = w_cap w /\
   (forall b, b <> w_arr w -> array h' b = array h b) /\
   array h' (w_arr w) = put_from (w_off w + w_len w) xs (array h (w_arr w)) \/
   (w_cap w < w_len w + length xs)%nat /\ w_arr w' = length h /\ w_off w' = 0%nat /\
   (forall b, (b < length h)%nat -> array h' b = array h b)).
Proof.
  intros L. pose proof (w_shows_len h w L) as SL. destruct L as (L1 & L2 & L3). unfold w_append.
  destruct (Nat.leb (w_len w + length xs) (w_cap w)) eqn:F; intros E; injection E as <- <-; cbn [w_arr w_off w_len w_cap].
  - apply Nat.leb_le in F. set (new := put_from (w_off w + w_len w) xs (array h (w_arr w))) in *.
    assert (length new = length (array h (w_arr w))) as NL by (apply put_len; lia).
    split; [|split; [|split; [|split; [|split]]]].
    + unfold w_lies. cbn [w_arr w_off w_len w_cap]. rewrite set_len, array_set, Nat.eqb_refl, NL by assumption. lia.
    + apply list_ext. intros j. rewrite nth_app, !nth_w, SL. cbn [w_arr w_off w_len w_cap].
      rewrite array_set, Nat.eqb_refl by assumption. unfold new. rewrite nth_put by lia.
      destruct (Nat.ltb j (w_len w)) eqn:E1.
      * replace (Nat.ltb j (w_len w + length xs)) with true by lia.
        replace (Nat.leb (w_off w + w_len w) (w_off w + j)) with false by lia. reflexivity.
      * replace (Nat.leb (w_off w + w_len w) (w_off w + j)) with true by lia. cbn [andb].
        destruct (Nat.ltb j (w_len w + length xs)) eqn:E2.
        -- replace (Nat.ltb (w_off w + j) (w_off w + w_len w + length xs)) with true by lia. f_equal. lia.
        -- symmetry. apply nth_error_None. lia.
    + rewrite set_len. lia.
    + reflexivity.
    + intros b B. rewrite array_set by assumption. destruct (Nat.eqb b (w_arr w)) eqn:EB; [|reflexivity]. apply Nat.eqb_eq in EB as ->. exact NL.
    + left. split; [assumption|]. do 3 (split; [reflexivity|]). split.
      * intros b B. rewrite array_set by assumption. now replace (Nat.eqb b (w_arr w)) with false by lia.
      * rewrite array_set, Nat.eqb_refl by assumption. reflexivity.
  - apply Nat.leb_gt in F. split; [|split; [|split; [|split; [|split]]]].
    + unfold w_lies. cbn [w_arr w_off w_len w_cap]. rewrite array_app, Nat.eqb_refl, !app_length, SL, repeat_length. cbn [length]. lia.
    + unfold w_shows at 1. cbn [w_arr w_off w_len w_cap skipn]. rewrite array_app, Nat.eqb_refl, app_assoc.
      rewrite firstn_app, app_length, SL, Nat.sub_diag, firstn_O, app_nil_r. apply firstn_all2. rewrite app_length, SL. lia.
    + rewrite app_length. lia.
    + reflexivity.
    + intros b B. rewrite array_app. now replace (Nat.eqb b (length h)) with false by lia.
    + right. split; [assumption|]. do 2 (split; [reflexivity|]). intros b B. rewrite array_app. now replace (Nat.eqb b (length h)) with false by lia.
Qed.

(** what it does to a slice apart *)
Lemma append_apart nil k h w xs h' w' u : w_lies h w -> w_lies h u -> apart w u -> w_append nil k h w xs = (h', w') ->
  w_lies h' u /\ w_shows h' u = w_shows h u /\ apart w' u.
Proof.
  intros L (U1 & U2 & U3) Ap E. destruct (append_spec nil k h w xs h' w' L E) as (L' & S' & H' & N' & Len & C). destruct L as (L1 & L2 & L3).
  split; [|split].
  - split; [lia|]. split; [assumption|]. rewrite Len by assumption. assumption.
  - apply list_ext. intros j. rewrite !nth_w. destruct (Nat.ltb j (w_len u)) eqn:J; [|reflexivity].
    destruct C as [(C1 & C2 & C3 & C4 & C5 & C6)|(C1 & C2 & C3 & C4)]; [|now rewrite C4 by assumption].
    destruct (Nat.eq_dec (w_arr u) (w_arr w)) as [X|X]; [|now rewrite C5].
    rewrite X, C6. rewrite nth_put by lia. destruct Ap as [Ap|Ap]; [congruence|].
    destruct (Nat.leb _ _ && Nat.ltb _ _)%bool eqn:Z; [|reflexivity]. lia.
  - destruct C as [(C1 & C2 & C3 & C4 & C5 & C6)|(C1 & C2 & C3 & C4)].
    + unfold apart in *. rewrite C2, C3, C4. assumption.
    + left. lia.
Qed.

Lemma put_apart h w u k x : w_lies h w -> w_lies h u -> apart w u -> (k < w_len w)%nat ->
  let h' := set_nth (w_arr w) (set_nth (w_off w + k) x (array h (w_arr w))) h in
  w_lies h' u /\ w_shows h' u = w_shows h u.
Proof.
  intros (L1 & L2 & L3) (U1 & U2 & U3) Ap K h'. subst h'. assert (forall b, length (array (set_nth (w_arr w) (set_nth (w_off w + k) x (array h (w_arr w))) h) b) = length (array h b)) as Len.
  { intros b. rewrite array_set by assumption. destruct (Nat.eqb b (w_arr w)) eqn:B; [|reflexivity]. apply Nat.eqb_eq in B as ->. apply set_len. }
  split; [split; [rewrite set_len; assumption|split; [assumption|rewrite Len; assumption]]|].
  apply list_ext. intros j. rewrite !nth_w. destruct (Nat.ltb j (w_len u)) eqn:J; [|reflexivity].
  rewrite array_set by assumption. destruct (Nat.eqb (w_arr u) (w_arr w)) eqn:B; [|reflexivity]. apply Nat.eqb_eq in B. rewrite B.
  rewrite nth_set_other; [reflexivity|]. destruct Ap as [Ap|Ap]; [congruence|]. lia.
Qed.

(** nothing a program does through slices apart from [u] changes [u] *)
Lemma act_apart nil h ws a h' ws' u : w_act nil (h, ws) a = Some (h', ws') -> w_lies h u ->
  Forall (fun w => w_lies h w /\ apart w u) ws -> w_shows h' u = w_shows h u /\ w_lies h' u /\ (forall w, w_lies h w -> w_lies h' w) /\
    Forall (fun w => w_lies h' w /\ apart w u) ws'.
Proof.
  intros E U F. assert (forall i w, nth_error ws i = Some w -> w_lies h w /\ apart w u) as G.
  { intros i w N. apply nth_error_In in N. rewrite Forall_forall in F. auto. }
  assert (forall nil k w xs h' w', w_lies h w -> apart w u -> w_append nil k h w xs = (h', w') -> forall i,
    w_shows h' u = w_shows h u /\ w_lies h' u /\ (forall v, w_lies h v -> w_lies h' v) /\ Forall (fun w => w_lies h' w /\ apart w u) (set_nth i w' ws)) as App.
  { intros nil0 k w xs h1 w1 Lw Aw E1 i. destruct (append_apart _ _ _ _ _ _ _ u Lw U Aw E1) as (B1 & B2 & B3).
    destruct (append_spec _ _ _ _ _ _ _ Lw E1) as (L' & _ & H' & _ & Len & _).
    assert (forall v, w_lies h v -> w_lies h1 v) as Mono by (intros v (V1 & V2 & V3); split; [lia|split; [assumption|rewrite Len; assumption]]).
    split; [assumption|]. split; [assumption|]. split; [assumption|].
    apply Forall_forall. intros v V. apply In_nth_error in V as [j V]. rewrite nth_set in V.
    destruct (Nat.eqb i j && Nat.ltb j (length ws))%bool; [injection V as <-; auto|]. destruct (G _ _ V). auto. }
  destruct a as [|k i xs|k i j|i|i a b|i a b|i j|i k x]; cbn [w_act] in E.
  - injection E as <- <-. assert (forall v, w_lies h v -> w_lies (h ++ [[]]) v) as Mono.
    { intros v (V1 & V2 & V3). split; [rewrite app_length; lia|]. split; [assumption|]. rewrite array_app. now replace (Nat.eqb (w_arr v) (length h)) with false by lia. }
    split; [|split; [auto|split; [assumption|]]].
    + unfold w_shows. rewrite array_app. destruct U as (U1 & _). now replace (Nat.eqb (w_arr u) (length h)) with false by lia.
    + apply Forall_app. split; [apply Forall_forall; intros v V; rewrite Forall_forall in F; destruct (F v V); auto|]. constructor; [|constructor]. split.
      * split; cbn [w_arr w_off w_len w_cap]; [rewrite app_length; cbn [length]; lia|lia].
      * left. cbn [w_arr]. destruct U as (U1 & _). lia.
  - destruct (nth_error ws i) as [w|] eqn:N; [|discriminate E]. destruct (w_append nil k h w xs) as [h1 w1] eqn:E1. injection E as <- <-.
    destruct (G _ _ N). eapply App; eassumption.
  - destruct (nth_error ws i) as [w|] eqn:N; [|discriminate E]. destruct (nth_error ws j) as [v|] eqn:M; [|discriminate E].
    destruct (w_append nil k h w (w_shows h v)) as [h1 w1] eqn:E1. injection E as <- <-. destruct (G _ _ N). eapply App; eassumption.
  - destruct (nth_error ws i) as [w|] eqn:N; [|discriminate E]. injection E as <- <-. split; [reflexivity|]. split; [assumption|]. split; [auto|].
    apply Forall_app. split; [assumption|]. constructor; [exact (G _ _ N)|constructor].
  - destruct (nth_error ws i) as [w|] eqn:N; [|discriminate E]. destruct (Nat.leb a b && Nat.leb b (w_cap w))%bool eqn:Z; [|discriminate E]. injection E as <- <-. split; [reflexivity|]. split; [assumption|]. split; [auto|].
    apply Forall_app. split; [assumption|]. constructor; [|constructor]. destruct (G _ _ N) as [(V1 & V2 & V3) Aw]. split.
    + unfold w_lies. cbn [w_arr w_off w_len w_cap]. lia.
    + unfold apart in *. cbn [w_arr w_off w_len w_cap]. lia.
  - destruct (nth_error ws i) as [w|] eqn:N; [|discriminate E]. destruct (Nat.leb a b && Nat.leb b (w_cap w))%bool eqn:Z; [|discriminate E]. injection E as <- <-. split; [reflexivity|]. split; [assumption|]. split; [auto|].
    apply Forall_app. split; [assumption|]. constructor; [|constructor]. destruct (G _ _ N) as [(V1 & V2 & V3) Aw]. split.
    + unfold w_lies. cbn [w_arr w_off w_len w_cap]. lia.
    + unfold apart in *. cbn [w_arr w_off w_len w_cap]. lia.
  - destruct (nth_error ws i) as [w|] eqn:N; [|discriminate E]. destruct (nth_error ws j) as [v|] eqn:M; [|discriminate E]. injection E as <- <-. split; [reflexivity|]. split; [assumption|]. split; [auto|].
    apply Forall_forall. intros z Z. apply In_nth_error in Z as [q Z]. rewrite nth_set in Z.
    destruct (Nat.eqb i q && Nat.ltb q (length ws))%bool; [injection Z as <-; exact (G _ _ M)|exact (G _ _ Z)].
  - destruct (nth_error ws i) as [w|] eqn:N; [|discriminate E]. destruct (Nat.ltb k (w_len w)) eqn:Z; [|discriminate E]. injection E as <- <-. destruct (G _ _ N) as [Lw Aw].
    destruct (put_apart h w u k x Lw U Aw ltac:(lia)) as [B1 B2].
    assert (forall v, w_lies h v -> w_lies (set_nth (w_arr w) (set_nth (w_off w + k) x (array h (w_arr w))) h) v) as Mono.
    { intros v (V1 & V2 & V3). split; [now rewrite set_len|]. split; [assumption|]. rewrite array_set by (destruct Lw; assumption).
      destruct (Nat.eqb (w_arr v) (w_arr w)) eqn:B; [|assumption]. apply Nat.eqb_eq in B. rewrite set_len, <- B. assumption. }
    split; [assumption|]. split; [assumption|]. split; [assumption|]. apply Forall_forall. intros v V. rewrite Forall_forall in F. destruct (F v V). auto.
Qed.

Lemma acts_apart nil l : forall h ws h' ws' u, w_acts nil (h, ws) l = Some (h', ws') -> w_lies h u ->
  Forall (fun w => w_lies h w /\ apart w u) ws -> w_shows h' u = w_shows h u.
Proof.
  induction l as [|a l IH]; intros h ws h' ws' u E U F; cbn [w_acts] in E; [injection E as <- <-; reflexivity|].
  destruct (w_act nil (h, ws) a) as [[h1 ws1]|] eqn:E1; [|discriminate E]. destruct (act_apart nil h ws a h1 ws1 u E1 U F) as (B1 & B2 & _ & B3).
  rewrite <- B1. exact (IH _ _ _ _ _ E B2 B3).
Qed.

(** ** other variables are only read *)

Definition w_inv (own : list bool) h (ws : list win) : Prop :=
  length own = length ws /\
  (forall i w, nth_error ws i = Some w -> w_lies h w) /\
  (forall i j w u, i <> j -> owner own i -> nth_error ws i = Some w -> nth_error ws j = Some u -> w_arr w = w_arr u ->
     nth_error own j = Some false /\ (w_off u + w_len u <= w_off w + w_len w)%nat).

Lemma w_step_new own h ws : w_inv own h ws -> w_inv (own ++ [true]) (h ++ [[]]) (ws ++ [mk_win (length h) 0 0 0]) /\
  map (w_shows (h ++ [[]])) (ws ++ [mk_win (length h) 0 0 0]) = map (w_shows h) ws ++ [[]].
Proof.
  intros (L & W & D). split; [split; [|split]|].
  - rewrite !app_length, L. reflexivity.
  - intros i w H. apply nth_snoc in H as [H|[_ ->]].
    + destruct (W _ _ H) as (W1 & W2 & W3). split; [rewrite app_length; lia|]. split; [assumption|]. rewrite array_app. now replace (Nat.eqb (w_arr w) (length h)) with false by lia.
    + split; cbn [w_arr w_off w_len w_cap]; [rewrite app_length; cbn [length]; lia|lia].
  - intros i j w u IJ O Hi Hj E. apply nth_snoc in Hi as [Hi|[-> ->]]; apply nth_snoc in Hj as [Hj|[-> ->]].
    + apply owner_snoc in O as [O|[-> _]]; [|assert (length own < length ws)%nat by (apply nth_error_Some; congruence); lia].
      destruct (D i j w u IJ O Hi Hj E) as [D1 D2]. split; [now apply snoc_old|assumption].
    + cbn [w_arr] in E. destruct (W _ _ Hi) as [W1 _]. lia.
    + cbn [w_arr] in E. destruct (W _ _ Hj) as [W1 _]. lia.
    + congruence.
  - rewrite map_app. f_equal.
    + apply map_ext_in. intros w H. apply In_nth_error in H as [i H]. destruct (W _ _ H) as [W1 _].
      unfold w_shows. rewrite array_app. now replace (Nat.eqb (w_arr w) (length h)) with false by lia.
Qed.

Lemma w_step_part own h ws i w v : w_inv own h ws -> nth_error ws i = Some w -> w_arr v = w_arr w -> w_lies h v -> (w_off v + w_len v <= w_off w + w_len w)%nat ->
  w_inv (own ++ [false]) h (ws ++ [v]).
Proof.
  intros (L & W & D) N Va Vl Ve. split; [|split].
  - rewrite !app_length, L. reflexivity.
  - intros j t H. apply nth_snoc in H as [H|[_ ->]]; [exact (W _ _ H)|assumption].
  - intros a b x y AB O Ha Hb E. apply owner_snoc in O as [O|[_ ?]]; [|discriminate].
    assert (nth_error ws a = Some x) as Ha'.
    { apply nth_snoc in Ha as [Ha|[-> _]]; [assumption|]. exfalso. unfold owner in O. assert (length ws < length own)%nat by (apply nth_error_Some; congruence). lia. }
    apply nth_snoc in Hb as [Hb|[-> ->]].
    + destruct (D a b x y AB O Ha' Hb E) as [D1 D2]. split; [now apply snoc_old|assumption].
    + split; [rewrite nth_error_app2, <- L, Nat.sub_diag by lia; reflexivity|].
      destruct (Nat.eq_dec a i) as [-> |X]; [rewrite N in Ha'; injection Ha' as ->; assumption|].
      rewrite Va in E. destruct (D a i x w X O Ha' N E). lia.
Qed.

Lemma w_step_set own h ws i j u : w_inv own h ws -> nth_error own i <> Some true -> nth_error ws j = Some u ->
  w_inv own h (set_nth i u ws).
Proof.
  intros (L & W & D) NO N. assert (forall b v, nth_error (set_nth i u ws) b = Some v -> (b = i /\ (i < length ws)%nat) /\ v = u \/ b <> i /\ nth_error ws b = Some v) as Case.
  { intros b v T. rewrite nth_set in T. destruct (Nat.eqb i b && Nat.ltb b (length ws))%bool eqn:J.
    - injection T as <-. left. split; [lia|reflexivity].
    - assert (b < length ws)%nat by (apply nth_error_Some; congruence). right. split; [lia|assumption]. }
  split; [|split].
  - now rewrite set_len.
  - intros b v H. apply Case in H as [[_ ->]|[_ H]]; [exact (W _ _ N)|exact (W _ _ H)].
  - intros a b x y AB O Ha Hb E. apply Case in Ha as [[[-> _] ->]|[Xa Ha]]; [contradiction (NO O)|].
    apply Case in Hb as [[[-> I] ->]|[Xb Hb]]; [|exact (D a b x y AB O Ha Hb E)].
    split.
    + destruct (nth_error own i) as [[|]|] eqn:Oi; [congruence|reflexivity|]. apply nth_error_None in Oi. lia.
    + destruct (Nat.eq_dec a j) as [-> |X]; [rewrite N in Ha; injection Ha as ->; lia|]. now destruct (D a j x u X O Ha N E).
Qed.

Lemma w_step_add own nil k h ws i w xs h' w' : w_inv own h ws -> owner own i -> nth_error ws i = Some w -> w_append nil k h w xs = (h', w') ->
  w_inv own h' (set_nth i w' ws) /\ map (w_shows h') (set_nth i w' ws) = set_nth i (w_shows h w ++ xs) (map (w_shows h) ws).
Proof.
  intros (L & W & D) O N E. pose proof (W _ _ N) as Lw. destruct (append_spec nil k h w xs h' w' Lw E) as (Ls & Ss & Lh & Ln & Len & Ar).
  assert (forall j t, j <> i -> nth_error ws j = Some t -> w_lies h' t /\ w_shows h' t = w_shows h t) as Other.
  { intros j t J T. pose proof (W _ _ T) as (T1 & T2 & T3). split; [split; [lia|split; [assumption|rewrite Len by assumption; assumption]]|].
    apply list_ext. intros q. rewrite !nth_w. destruct (Nat.ltb q (w_len t)) eqn:Q; [|reflexivity].
    destruct Ar as [(C1 & C2 & C3 & C4 & C5 & C6)|(C1 & C2 & C3 & C4)]; [|now rewrite C4].
    destruct (Nat.eq_dec (w_arr t) (w_arr w)) as [X|X]; [|now rewrite C5]. destruct (D i j w t ltac:(auto) O N T ltac:(auto)) as [_ LE].
    destruct Lw as (Lw1 & Lw2 & Lw3). rewrite X, C6, nth_put by lia. destruct (Nat.leb _ _ && Nat.ltb _ _)%bool eqn:Z; [|reflexivity]. lia. }
  split; [split; [|split]|].
  - now rewrite set_len.
  - intros j t T. rewrite nth_set in T. destruct (Nat.eqb i j && Nat.ltb j (length ws))%bool eqn:J; [injection T as <-; assumption|].
    apply (Other j); [|assumption]. intros ->. assert (i < length ws)%nat by (apply nth_error_Some; congruence). lia.
  - assert (forall j t, nth_error (set_nth i w' ws) j = Some t -> j = i /\ t = w' \/ j <> i /\ nth_error ws j = Some t) as Case.
    { intros j t T. rewrite nth_set in T. destruct (Nat.eqb i j && Nat.ltb j (length ws))%bool eqn:J.
      - injection T as <-. left. split; [lia|reflexivity].
      - right. split; [|assumption]. intros ->. assert (i < length ws)%nat by (apply nth_error_Some; congruence). lia. }
    intros a b x y AB Oa Ha Hb Eab. apply Case in Ha as [[-> ->]|[Xa Ha]]; apply Case in Hb as [[-> ->]|[Xb Hb]].
    + congruence.
    + destruct Ar as [(_ & Ea & Eo & _)|(_ & Ea & _)].
      * rewrite Ea in Eab. destruct (D i b w y AB O N Hb Eab). split; [assumption|lia].
      * destruct (W _ _ Hb). lia.
    + destruct Ar as [(_ & Ea & _)|(_ & Ea & _)].
      * rewrite Ea in Eab. destruct (D a i x w AB Oa Ha N Eab) as [Z _]. unfold owner in O. congruence.
      * destruct (W _ _ Ha). lia.
    + exact (D a b x y AB Oa Ha Hb Eab).
  - rewrite map_set, Ss. apply ext_all. intros j. rewrite !nth_set, !map_length.
    destruct (Nat.eqb i j && Nat.ltb j (length ws))%bool eqn:J; [reflexivity|]. rewrite !nth_error_map. destruct (nth_error ws j) as [t|] eqn:T; [|reflexivity].
    cbn [option_map]. f_equal. apply (Other j); [|assumption]. intros ->. assert (i < length ws)%nat by (apply nth_error_Some; congruence). lia.
Qed.

Lemma nth_shows h ws i : nth_error (map (w_shows h) ws) i = option_map (w_shows h) (nth_error ws i).
Proof. apply nth_error_map. Qed.

Lemma w_acts_agree nil l : forall own h ws vs, w_inv own h ws -> w_reads_only own l -> wv_acts (map (w_shows h) ws) l = Some vs ->
  exists h' ws', w_acts nil (h, ws) l = Some (h', ws') /\ map (w_shows h') ws' = vs.
Proof.
  induction l as [|a l IH]; intros own h ws vs I R E; cbn [wv_acts] in E; [injection E as <-; exists h, ws; split; reflexivity|].
  cbn [w_acts]. pose proof I as (L & W & D).
  assert (forall i w, nth_error ws i = Some w -> nth_error own i <> Some false -> owner own i) as Own.
  { intros i w N NF. assert (i < length own)%nat by (rewrite L; apply nth_error_Some; congruence). unfold owner. destruct (nth_error own i) as [[|]|] eqn:Q; [reflexivity|congruence|]. apply nth_error_None in Q. lia. }
  destruct a as [|k i xs|k i j|i|i a b|i a b|i j|i k x]; cbn [wv_act w_reads_only] in E, R; cbn [w_act].
  - destruct (w_step_new own h ws I) as [I' S']. rewrite <- S' in E. exact (IH _ _ _ _ I' R E).
  - rewrite nth_shows in E. destruct (nth_error ws i) as [w|] eqn:N; [|discriminate E]. cbn [option_map] in E. destruct R as [R1 R2].
    destruct (w_append nil k h w xs) as [h1 w1] eqn:E1. destruct (w_step_add own nil k h ws i w xs h1 w1 I (Own _ _ N R1) N E1) as [I' S'].
    rewrite <- S' in E. exact (IH _ _ _ _ I' R2 E).
  - rewrite !nth_shows in E. destruct (nth_error ws i) as [w|] eqn:N; [|discriminate E]. destruct (nth_error ws j) as [u|] eqn:M; [|discriminate E]. cbn [option_map] in E. destruct R as [R1 R2].
    destruct (w_append nil k h w (w_shows h u)) as [h1 w1] eqn:E1. destruct (w_step_add own nil k h ws i w _ h1 w1 I (Own _ _ N R1) N E1) as [I' S'].
    rewrite <- S' in E. exact (IH _ _ _ _ I' R2 E).
  - rewrite nth_shows in E. destruct (nth_error ws i) as [w|] eqn:N; [|discriminate E]. cbn [option_map] in E.
    refine (IH _ _ _ _ (w_step_part own h ws i w w I N eq_refl (W _ _ N) (le_n _)) R _). rewrite map_app. exact E.
  - rewrite nth_shows in E. destruct (nth_error ws i) as [w|] eqn:N; [|discriminate E]. cbn [option_map] in E. pose proof (W _ _ N) as Lw. rewrite (w_shows_len h w Lw) in E.
    destruct (Nat.leb a b && Nat.leb b (w_len w))%bool eqn:Z; [|discriminate E]. destruct Lw as (W1 & W2 & W3).
    replace (Nat.leb a b && Nat.leb b (w_cap w))%bool with true by lia. refine (IH _ _ _ _ (w_step_part own h ws i w (mk_win (w_arr w) (w_off w + a) (b - a) (w_cap w - a)) I N eq_refl _ _) R _); cbn [w_arr w_off w_len w_cap].
    + unfold w_lies. cbn [w_arr w_off w_len w_cap]. lia.
    + lia.
    + rewrite map_app. cbn [map]. rewrite <- E. do 3 f_equal. unfold w_shows at 1. cbn [w_arr w_off w_len]. unfold w_shows. rewrite skipn_firstn_comm, firstn_firstn, skip_skip. f_equal. lia.
  - rewrite nth_shows in E. destruct (nth_error ws i) as [w|] eqn:N; [|discriminate E]. cbn [option_map] in E. pose proof (W _ _ N) as Lw. rewrite (w_shows_len h w Lw) in E.
    destruct (Nat.leb a b && Nat.leb b (w_len w))%bool eqn:Z; [|discriminate E]. destruct Lw as (W1 & W2 & W3).
    replace (Nat.leb a b && Nat.leb b (w_cap w))%bool with true by lia. refine (IH _ _ _ _ (w_step_part own h ws i w (mk_win (w_arr w) (w_off w + a) (b - a) (b - a)) I N eq_refl _ _) R _); cbn [w_arr w_off w_len w_cap].
    + unfold w_lies. cbn [w_arr w_off w_len w_cap]. lia.
    + lia.
    + rewrite map_app. cbn [map]. rewrite <- E. do 3 f_equal. unfold w_shows at 1. cbn [w_arr w_off w_len]. unfold w_shows. rewrite skipn_firstn_comm, firstn_firstn, skip_skip. f_equal. lia.
  - rewrite !nth_shows in E. destruct (nth_error ws i) as [w|] eqn:N; [|discriminate E]. destruct (nth_error ws j) as [u|] eqn:M; [|discriminate E]. cbn [option_map] in E. destruct R as [R1 R2].
    refine (IH _ _ _ _ (w_step_set own h ws i j u I R1 M) R2 _). rewrite map_set. exact E.
  - contradiction.
Qed.
End P.
