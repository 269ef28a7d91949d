(** Proofs for C71. *)
From Verif Require Import S_Share P_Mem.
From Coq Require Import ZifyBool ZifyNat ZifyN.

Lemma nth_set {A} (l : list A) i j x : nth_error (set_nth i x l) j = if Nat.eqb i j && Nat.ltb j (length l) then Some x else nth_error l j.
Proof.
  revert i j. induction l as [|y l IH]; intros i j; [destruct i, j; cbn [set_nth nth_error length]; rewrite ?andb_false_r; reflexivity|].
  destruct i, j; cbn [set_nth nth_error length]; [reflexivity|reflexivity|reflexivity|]. rewrite IH. reflexivity.
Qed.
Lemma nth_set_same {A} (l : list A) i x y : nth_error l i = Some y -> nth_error (set_nth i x l) i = Some x.
Proof. intros H. rewrite nth_set, Nat.eqb_refl. assert (i < length l)%nat by (apply nth_error_Some; congruence). now replace (Nat.ltb i (length l)) with true by lia. Qed.
Lemma nth_set_other {A} (l : list A) i j x : i <> j -> nth_error (set_nth i x l) j = nth_error l j.
Proof. intros H. rewrite nth_set. now replace (Nat.eqb i j) with false by lia. Qed.
Lemma map_set {A B} (f : A -> B) i x l : map f (set_nth i x l) = set_nth i (f x) (map f l).
Proof. revert i. induction l as [|y l IH]; intros i; destruct i; cbn [set_nth map]; try reflexivity. now rewrite IH. Qed.

(** ** the methods are appends *)

(** a method either leaves everything alone or appends some bytes; in step with the
    method on values *)
Lemma call_is_append k h s c v : exists d e,
  run_call v c = (v ++ d, e) /\ h_call k h s c = (h_append k h s d, e) \/
  run_call v c = (v, e) /\ h_call k h s c = (h, s, e).
Proof.
  assert (forall l, exists d e, append_push_data_array v l = (v ++ d, e) /\ h_append_array k h s l = (h_append k h s d, e) \/
    append_push_data_array v l = (v, e) /\ h_append_array k h s l = (h, s, e)) as K.
  { intros l. unfold append_push_data_array, h_append_array. destruct (encode_parts l) as [p|e|].
    - exists p, None. left. auto.
    - exists [], (Some e). right. auto.
    - exists [], None. right. auto. }
  destruct c as [d|x|t|l|l|o]; cbn [run_call h_call].
  - apply (K [d]).
  - unfold append_push_data_hex. destruct (of_hex x) as [d|e|]; [apply (K [d])|exists [], (Some e); auto|exists [], None; auto].
  - apply (K [t]).
  - apply K.
  - unfold append_push_data_strings. cbv zeta. apply K.
  - exists [o], None. left. auto.
Qed.

Lemma append_get k h s d h' s' : inside h s -> h_append k h s d = (h', s') -> get h' s' = get h s ++ d.
Proof.
  intros (A & B & C) E. destruct (Nat.le_gt_cases (s_len s + length d) (s_cap s)) as [F|F].
  - rewrite append_fits in E by assumption. injection E as <- <-. unfold get. cbn [s_arr s_off s_len]. rewrite h_write_arr, Nat.eqb_refl by assumption.
    unfold write_at.
    assert (length (firstn (s_off s + s_len s) (arr h (s_arr s))) = s_off s + s_len s)%nat as LF by (rewrite firstn_length; lia).
    rewrite skipn_app, LF. replace (s_off s - (s_off s + s_len s))%nat with 0%nat by lia. cbn [skipn]. rewrite skipn_firstn_comm.
    replace (s_off s + s_len s - s_off s)%nat with (s_len s) by lia.
    set (x := firstn (s_len s) (skipn (s_off s) (arr h (s_arr s)))). assert (length x = s_len s) as LX by (unfold x; rewrite firstn_length, skipn_length; lia).
    rewrite firstn_app, LX. rewrite firstn_all2 by lia. f_equal. replace (s_len s + length d - s_len s)%nat with (length d) by lia.
    now rewrite firstn_app, Nat.sub_diag, firstn_all, app_nil_r.
  - rewrite append_moves in E by assumption. pose proof (get_alloc h (get h s ++ d) k) as G. rewrite E in G. exact G.
Qed.

Lemma inside_alloc h b k t : inside h t -> inside (fst (h_alloc h b k)) t.
Proof.
  intros (A & B & C). split; [cbn [h_alloc fst]; rewrite app_length; cbn [length]; lia|]. split; [assumption|].
  now rewrite arr_alloc_old.
Qed.
Lemma inside_new h b k : inside (fst (h_alloc h b k)) (snd (h_alloc h b k)).
Proof.
  split; [cbn [h_alloc fst snd s_arr]; rewrite app_length; cbn [length]; lia|]. cbn [h_alloc snd s_len s_cap s_off s_arr].
  split; [lia|]. change (h ++ [b ++ repeat x00 k]) with (fst (h_alloc h b k)). rewrite arr_alloc_new, app_length, repeat_length. lia.
Qed.
Lemma inside_write h a i d t : (a < length h)%nat -> (i + length d <= length (arr h a))%nat -> inside h t -> inside (h_write h a i d) t.
Proof.
  intros L M (A & B & C). split; [unfold h_write; rewrite set_nth_length; assumption|]. split; [assumption|].
  rewrite h_write_arr by assumption. destruct (Nat.eqb (s_arr t) a) eqn:E; [|assumption].
  apply Nat.eqb_eq in E. rewrite E in C. now rewrite write_length.
Qed.

Definition inv (A : nat -> Prop) (h : heap) (ss : list sl) : Prop :=
  (forall i s, nth_error ss i = Some s -> inside h s) /\ apart A ss.

(** the step: one append to a script of [A] *)
Lemma append_step A k h ss i s d h' s' : inv A h ss -> A i -> nth_error ss i = Some s -> h_append k h s d = (h', s') ->
  inv A h' (set_nth i s' ss) /\ map (get h') (set_nth i s' ss) = set_nth i (get h s ++ d) (map (get h) ss).
Proof.
  intros [W P] Ai N E. pose proof (W _ _ N) as Ws. pose proof (append_get _ _ _ _ _ _ Ws E) as G.
  assert (forall t, (exists j, j <> i /\ nth_error ss j = Some t) -> get h' t = get h t /\ inside h' t) as O.
  { intros t (j & J & T). pose proof (W _ _ T) as Wt. destruct Ws as (A1 & A2 & A3).
    destruct (Nat.le_gt_cases (s_len s + length d) (s_cap s)) as [F|F].
    - rewrite append_fits in E by assumption. injection E as <- <-. split; [|apply inside_write; [assumption|lia|assumption]].
      destruct (Nat.eq_dec (s_len t) 0) as [Z|Z]; [unfold get; now rewrite Z|]. destruct (Nat.eq_dec (length d) 0) as [Z'|Z'].
      { destruct d; [|discriminate]. apply get_old. rewrite h_write_arr by assumption. destruct (Nat.eqb (s_arr t) (s_arr s)) eqn:X; [|reflexivity].
        apply Nat.eqb_eq in X as ->. unfold write_at. cbn [app length]. rewrite Nat.add_0_r. apply firstn_skipn. }
      apply h_write_other; [assumption|lia|].
      destruct (Nat.eq_dec (s_arr t) (s_arr s)) as [X|X]; [|auto]. right.
      destruct (Nat.le_gt_cases (s_off t + s_len t) (s_off s + s_len s)) as [Q|Q]; [auto|]. right.
      destruct (Nat.le_gt_cases (s_off s + s_len s + length d) (s_off t)) as [R|R]; [lia|]. exfalso.
      assert (exists p, spare_at s (s_arr s) p /\ shown_at t (s_arr s) p) as (p & P1 & P2).
      { exists (Nat.max (s_off s + s_len s) (s_off t)). unfold spare_at, shown_at. lia. }
      destruct (P i j s t (s_arr s) p Ai ltac:(auto) N T P1) as [P3 _]. now apply P3.
    - rewrite append_moves in E by assumption.
      pose proof (inside_alloc h (get h s ++ d) k t Wt) as I. pose proof (arr_alloc_old h (get h s ++ d) k (s_arr t)) as Q.
      rewrite E in I, Q. split; [|exact I]. apply get_old. apply Q. destruct Wt. lia. }
  assert (inside h' s') as Ws'.
  { destruct Ws as (A1 & A2 & A3). destruct (Nat.le_gt_cases (s_len s + length d) (s_cap s)) as [F|F].
    - rewrite append_fits in E by assumption. injection E as <- <-. apply inside_write; [assumption|lia|].
      split; [assumption|]. cbn [s_len s_cap s_off s_arr]. lia.
    - rewrite append_moves in E by assumption. pose proof (inside_new h (get h s ++ d) k) as I. rewrite E in I. exact I. }
  split; [split|].
  - intros j t. destruct (Nat.eq_dec i j) as [<- |J].
    + rewrite (nth_set_same _ _ _ _ N). intros H. injection H as <-. assumption.
    + rewrite nth_set_other by assumption. intros T. apply O. exists j. auto.
  - assert (forall a p, shown_at s' a p -> (shown_at s a p \/ spare_at s a p) \/ (length h <= a)%nat) as S1.
    { destruct (Nat.le_gt_cases (s_len s + length d) (s_cap s)) as [F|F].
      - rewrite append_fits in E by assumption. injection E as <- <-. intros a p. unfold shown_at, spare_at. cbn [s_len s_cap s_off s_arr]. lia.
      - rewrite append_moves in E by assumption. injection E as <- <-. intros a p. unfold shown_at, spare_at. cbn [s_len s_cap s_off s_arr]. lia. }
    assert (forall a p, spare_at s' a p -> spare_at s a p \/ (length h <= a)%nat) as S2.
    { destruct (Nat.le_gt_cases (s_len s + length d) (s_cap s)) as [F|F].
      - rewrite append_fits in E by assumption. injection E as <- <-. intros a p. unfold shown_at, spare_at. cbn [s_len s_cap s_off s_arr]. lia.
      - rewrite append_moves in E by assumption. injection E as <- <-. intros a p. unfold shown_at, spare_at. cbn [s_len s_cap s_off s_arr]. lia. }
    assert (forall j t a p, nth_error ss j = Some t -> shown_at t a p \/ spare_at t a p -> (a < length h)%nat) as S3.
    { intros j t a p T [[-> _]|[-> _]]; apply (W _ _ T). }
    intros x y u v a p Ax XY U V SP. rewrite nth_set in U, V.
    destruct (Nat.eqb i x && Nat.ltb x (length ss))%bool eqn:X.
    + assert (i = x) by lia. subst x. injection U as <-.
      replace (Nat.eqb i y) with false in V by lia. cbn [andb] in V.
      destruct (S2 _ _ SP) as [Q|Q].
      * destruct (P i y s v a p Ai XY N V Q) as [P1 P2]. auto.
      * split; [intros Z; pose proof (S3 _ _ _ _ V (or_introl Z))|intros _ Z; pose proof (S3 _ _ _ _ V (or_intror Z))]; lia.
    + destruct (Nat.eqb i y && Nat.ltb y (length ss))%bool eqn:Y; [|exact (P x y u v a p Ax XY U V SP)].
      assert (i = y) by lia. subst y. injection V as <-.
      pose proof (S3 _ _ _ _ U (or_intror SP)) as LA. destruct (P x i u s a p Ax XY U N SP) as [P1 P2]. split.
      * intros Z. destruct (S1 _ _ Z) as [[Q|Q]|Q]; [now apply P1|now apply P2|lia].
      * intros _ Z. destruct (S2 _ _ Z) as [Q|Q]; [now apply P2|lia].
  - apply nth_error_eq. intros j. rewrite nth_error_map, !nth_set, map_length.
    destruct (Nat.eqb i j && Nat.ltb j (length ss))%bool eqn:J.
    + cbn [option_map]. now rewrite G.
    + rewrite nth_error_map. destruct (nth_error ss j) as [t|] eqn:T; [|reflexivity]. cbn [option_map]. f_equal. apply O. exists j. split; [|assumption].
      assert (j < length ss)%nat by (apply nth_error_Some; congruence). lia.
Qed.

Lemma set_same {A} (l : list A) i x : nth_error l i = Some x -> set_nth i x l = l.
Proof. revert i. induction l as [|y l IH]; intros i; destruct i; cbn [nth_error set_nth]; intros H; try discriminate; [now injection H as ->|]. now rewrite IH. Qed.

Lemma call_step A k h ss i s c h' s' e : inv A h ss -> A i -> nth_error ss i = Some s -> h_call k h s c = (h', s', e) ->
  inv A h' (set_nth i s' ss) /\
  (let '(v', e') := run_call (get h s) c in (set_nth i v' (map (get h) ss), e')) = (map (get h') (set_nth i s' ss), e).
Proof.
  intros I Ai N E. destruct (call_is_append k h s c (get h s)) as (d & e' & [[R H]|[R H]]); rewrite R; rewrite H in E.
  - injection E as E <-. destruct (append_step A k h ss i s d h' s' I Ai N E) as [I' M]. split; [assumption|]. now rewrite M.
  - injection E as <- <- <-. rewrite (set_same ss i s N). split; [assumption|]. f_equal. apply set_same. now rewrite nth_error_map, N.
Qed.

Lemma act_step A h ss a h' ss' e : inv A h ss -> uses A a -> h_act (h, ss) a = (h', ss', e) ->
  inv A h' ss' /\ v_act (map (get h) ss) a = (map (get h') ss', e).
Proof.
  intros I U E. destruct a as [k i c|k i j|k b]; cbn [h_act v_act uses] in *.
  - rewrite nth_error_map. destruct (nth_error ss i) as [s|] eqn:N; cbn [option_map]; [|injection E as <- <- <-; auto].
    destruct (h_call k h s c) as [[h1 s1] e1] eqn:C. injection E as <- <- <-. exact (call_step A k h ss i s c h1 s1 e1 I U N C).
  - rewrite !nth_error_map. destruct (nth_error ss i) as [s|] eqn:N; cbn [option_map]; [|injection E as <- <- <-; auto].
    destruct (nth_error ss j) as [t|] eqn:T; cbn [option_map]; [|injection E as <- <- <-; auto].
    destruct (h_call k h s (CPush (get h t))) as [[h1 s1] e1] eqn:C. injection E as <- <- <-. exact (call_step A k h ss i s _ h1 s1 e1 I U N C).
  - injection E as <- <- <-. destruct I as [W P]. split; [split|].
    + intros j t T. change (h ++ [b ++ repeat x00 k]) with (fst (h_alloc h b k)).
      destruct (Nat.lt_ge_cases j (length ss)) as [L|L].
      * rewrite nth_error_app1 in T by assumption. apply inside_alloc. exact (W _ _ T).
      * rewrite nth_error_app2 in T by assumption. destruct (j - length ss)%nat as [|n]; [|destruct n; discriminate].
        cbn [nth_error] in T. injection T as <-. apply (inside_new h b k).
    + assert (forall j t a p, nth_error ss j = Some t -> shown_at t a p \/ spare_at t a p -> (a < length h)%nat) as S3.
      { intros j t a p T [[-> _]|[-> _]]; apply (W _ _ T). }
      set (n := mk_sl (length h) 0 (length b) (length b + k)).
      assert (forall j t, nth_error (ss ++ [n]) j = Some t -> nth_error ss j = Some t \/ j = length ss /\ t = n) as S4.
      { intros j t T. destruct (Nat.lt_ge_cases j (length ss)) as [L|L]; [rewrite nth_error_app1 in T by assumption; auto|].
        rewrite nth_error_app2 in T by assumption. destruct (j - length ss)%nat as [|m] eqn:Z; [|destruct m; discriminate].
        cbn [nth_error] in T. injection T as <-. right. split; [lia|reflexivity]. }
      assert (forall a p, shown_at n a p \/ spare_at n a p -> a = length h) as S5 by (intros a p [[-> _]|[-> _]]; reflexivity).
      intros x y u v a p Ax XY X Y SP. apply S4 in X as [X|[-> ->]]; apply S4 in Y as [Y|[-> ->]].
      * exact (P x y u v a p Ax XY X Y SP).
      * pose proof (S3 _ _ _ _ X (or_intror SP)). split; [intros Z|intros _ Z].
        -- pose proof (S5 _ _ (or_introl Z)). lia.
        -- pose proof (S5 _ _ (or_intror Z)). lia.
      * pose proof (S5 _ _ (or_intror SP)). split; [intros Z|intros _ Z].
        -- pose proof (S3 _ _ _ _ Y (or_introl Z)). lia.
        -- pose proof (S3 _ _ _ _ Y (or_intror Z)). lia.
      * congruence.
    + f_equal. rewrite map_app. cbn [map]. f_equal.
      * apply map_ext_in. intros t T. apply In_nth_error in T as [j T]. symmetry. apply get_old.
        change (h ++ [b ++ repeat x00 k]) with (fst (h_alloc h b k)). apply arr_alloc_old. apply (W _ _ T).
      * f_equal. symmetry. apply (get_alloc h b k).
Qed.

Lemma acts_steps A l : forall h ss h' ss' es, inv A h ss -> Forall (uses A) l -> h_acts (h, ss) l = (h', ss', es) ->
  inv A h' ss' /\ v_acts (map (get h) ss) l = (map (get h') ss', es).
Proof.
  induction l as [|a l IH]; intros h ss h' ss' es I F E; cbn [h_acts v_acts] in *.
  - injection E as <- <- <-. auto.
  - destruct (h_act (h, ss) a) as [[h1 ss1] e1] eqn:E1. destruct (h_acts (h1, ss1) l) as [[h2 ss2] es2] eqn:E2. injection E as <- <- <-.
    inversion F as [|? ? Ua Fl]; subst. destruct (act_step A h ss a h1 ss1 e1 I Ua E1) as [I1 V1].
    destruct (IH _ _ _ _ _ I1 Fl E2) as [I2 V2]. split; [assumption|]. now rewrite V1, V2.
Qed.

(** ** the other direction: runs of opcodes *)

Definition ops (i : nat) (c : byte) (n : nat) : list act := repeat (ACall 0 i (COpCode c)) n.

Lemma acts_app l1 l2 st : h_acts st (l1 ++ l2) = (let '(st1, es1) := h_acts st l1 in let '(st2, es2) := h_acts st1 l2 in (st2, es1 ++ es2)).
Proof.
  revert st. induction l1 as [|a l1 IH]; intros st; cbn [h_acts app].
  - now destruct (h_acts st l2) as [[h ss] es].
  - destruct (h_act st a) as [[h ss] e]. rewrite IH. destruct (h_acts (h, ss) l1) as [[h1 ss1] e1]. now destruct (h_acts (h1, ss1) l2) as [[h2 ss2] e2].
Qed.
Lemma v_acts_app l1 l2 vs : v_acts vs (l1 ++ l2) = (let '(v1, es1) := v_acts vs l1 in let '(v2, es2) := v_acts v1 l2 in (v2, es1 ++ es2)).
Proof.
  revert vs. induction l1 as [|a l1 IH]; intros vs; cbn [v_acts app].
  - now destruct (v_acts vs l2) as [v es].
  - destruct (v_act vs a) as [v e]. rewrite IH. destruct (v_acts v l1) as [v1 e1]. now destruct (v_acts v1 l2) as [v2 e2].
Qed.

Lemma ops_values i c n : forall vs v, nth_error vs i = Some v ->
  fst (v_acts vs (ops i c n)) = set_nth i (v ++ repeat c n) vs.
Proof.
  unfold ops. induction n as [|n IH]; intros vs v N; cbn [repeat v_acts].
  - rewrite app_nil_r. cbn [fst]. symmetry. now apply set_same.
  - cbn [v_act]. rewrite N. cbn [run_call]. destruct (v_acts _ _) as [w es] eqn:E. cbn [fst].
    pose proof (IH (set_nth i (append_opcode v c) vs) (append_opcode v c) (nth_set_same _ _ _ _ N)) as K. rewrite E in K. cbn [fst] in K. rewrite K.
    unfold append_opcode. rewrite <- app_assoc. cbn [app]. change (c :: repeat c n) with ([c] ++ repeat c n).
    clear. revert i. induction vs as [|y vs IH]; intros i; destruct i; cbn [set_nth]; try reflexivity. now rewrite IH.
Qed.

Lemma ops_heap i c n : forall h ss s, nth_error ss i = Some s -> inside h s -> (s_len s + n <= s_cap s)%nat ->
  exists h', fst (h_acts (h, ss) (ops i c n)) = (h', set_nth i (mk_sl (s_arr s) (s_off s) (s_len s + n) (s_cap s)) ss) /\
    length h' = length h /\ (forall a, length (arr h' a) = length (arr h a)) /\
    (forall p, (s_off s + s_len s <= p < s_off s + s_len s + n)%nat -> nth_error (arr h' (s_arr s)) p = Some c) /\
    (forall a p, (a <> s_arr s \/ p < s_off s + s_len s \/ s_off s + s_len s + n <= p)%nat -> nth_error (arr h' a) p = nth_error (arr h a) p).
Proof.
  unfold ops. induction n as [|n IH]; intros h ss s N I L; cbn [repeat h_acts].
  - exists h. cbn [fst]. rewrite Nat.add_0_r. split; [|split; [reflexivity|split; [reflexivity|split; [lia|reflexivity]]]].
    destruct s as [a o l c']. cbn [s_arr s_off s_len s_cap]. now rewrite (set_same ss i _ N).
  - cbn [h_act]. rewrite N. cbn [h_call]. unfold h_append_opcode. rewrite append_fits by (cbn [length]; lia). cbn [length].
    destruct I as (A1 & A2 & A3).
    set (h1 := h_write h (s_arr s) (s_off s + s_len s) [c]). set (s1 := mk_sl (s_arr s) (s_off s) (s_len s + 1) (s_cap s)).
    assert (s_off s + s_len s + length [c] <= length (arr h (s_arr s)))%nat as L1 by (cbn [length]; lia).
    assert (inside h1 s1) as I1.
    { apply inside_write; [assumption|assumption|]. split; [assumption|]. unfold s1. cbn [s_arr s_off s_len s_cap]. lia. }
    destruct (IH h1 (set_nth i s1 ss) s1 (nth_set_same _ _ _ _ N) I1) as (h' & E & H1 & H1' & H2 & H3); [unfold s1; cbn [s_len s_cap]; lia|].
    destruct (h_acts _ _) as [[h2 ss2] es] eqn:Q. cbn [fst] in E |- *. injection E as <- E. exists h2.
    destruct (write_overwritten _ _ _ L1) as (W0 & W1 & W2). unfold s1 in E, H2, H3. cbn [s_arr s_off s_len s_cap] in E, H2, H3.
    split; [|split; [|split; [|split]]].
    + f_equal. rewrite E. replace (s_len s + 1 + n)%nat with (s_len s + S n)%nat by lia.
      clear. revert i. induction ss as [|y ss IH]; intros i; destruct i; cbn [set_nth]; try reflexivity. now rewrite IH.
    + rewrite H1. unfold h1, h_write. now rewrite set_nth_length.
    + intros a. rewrite H1'. unfold h1. rewrite h_write_arr by assumption. destruct (Nat.eqb a (s_arr s)) eqn:X; [|reflexivity]. apply Nat.eqb_eq in X as ->. now rewrite write_length.
    + intros p P. destruct (Nat.eq_dec p (s_off s + s_len s)) as [-> |X].
      * rewrite H3 by lia. unfold h1. rewrite h_write_arr, Nat.eqb_refl by assumption. specialize (W1 0%nat ltac:(cbn [length]; lia)). now rewrite Nat.add_0_r in W1.
      * apply H2. lia.
    + intros a p P. rewrite H3 by lia. unfold h1. rewrite h_write_arr by assumption. destruct (Nat.eqb a (s_arr s)) eqn:X; [|reflexivity].
      apply Nat.eqb_eq in X as ->. apply W2. cbn [length]. lia.
Qed.

Lemma other_byte (c : byte) : exists c', c' <> c.
Proof. destruct (byte_eqb c x00) eqn:E; [exists x01|exists x00]; intros <-; cbn in E; discriminate. Qed.

Lemma apart_needed A h ss : (forall i s, nth_error ss i = Some s -> inside h s) ->
  (forall l, Forall (uses A) l -> as_values h ss l) -> apart A ss.
Proof.
  intros W V i j s t a p Ai IJ N T SP. pose proof (W _ _ N) as Ws. pose proof (W _ _ T) as Wt.
  assert (forall k c n, A k -> Forall (uses A) (ops k c n)) as U.
  { intros k c n Ak. apply Forall_forall. intros x X. apply repeat_spec in X as ->. exact Ak. }
  destruct SP as [-> SP]. split.
  - intros [E SH]. set (n := (p - (s_off s + s_len s) + 1)%nat).
    assert (exists c, nth_error (get h t) (p - s_off t) = Some c) as [c0 C0].
    { destruct (nth_error (get h t) (p - s_off t)) eqn:Q; [eauto|]. exfalso. rewrite nth_get in Q. replace (Nat.ltb (p - s_off t) (s_len t)) with true in Q by lia.
      apply nth_error_None in Q. destruct Wt as (_ & ? & ?). lia. }
    destruct (other_byte c0) as [c C]. specialize (V (ops i c n) (U _ _ _ Ai)).
    destruct (ops_heap i c n h ss s N Ws) as (h' & H & _ & _ & H2 & _); [unfold n; lia|].
    pose proof (ops_values i c n (map (get h) ss) (get h s)) as K. rewrite nth_error_map, N in K. specialize (K eq_refl).
    unfold as_values in V. destruct (h_acts (h, ss) (ops i c n)) as [[h1 ss1] es]. cbn [fst] in H. injection H as -> ->.
    rewrite V in K. cbn [fst] in K. apply (f_equal (fun l => nth_error l j)) in K. rewrite nth_set_other in K by assumption.
    rewrite !nth_error_map in K. rewrite nth_set_other in K by assumption. rewrite T in K. cbn [option_map] in K. injection K as K.
    rewrite <- K, nth_get in C0. replace (Nat.ltb (p - s_off t) (s_len t)) with true in C0 by lia. rewrite <- E in C0.
    replace (s_off t + (p - s_off t))%nat with p in C0 by lia. rewrite H2 in C0 by (unfold n; lia). congruence.
  - intros Aj [E SH]. set (n := (p - (s_off s + s_len s) + 1)%nat). set (m := (p - (s_off t + s_len t) + 1)%nat).
    set (l := ops i x01 n ++ ops j x02 m).
    assert (Forall (uses A) l) as Ul by (apply Forall_app; split; apply U; assumption). specialize (V l Ul).
    destruct (ops_heap i x01 n h ss s N Ws) as (h1 & H1 & L1 & L2 & _); [unfold n; lia|].
    set (s' := mk_sl (s_arr s) (s_off s) (s_len s + n) (s_cap s)) in *.
    assert (nth_error (set_nth i s' ss) j = Some t) as T' by (rewrite nth_set_other; assumption).
    assert (inside h1 t) as Wt'.
    { destruct Wt as (B1 & B2 & B3). split; [lia|]. split; [assumption|]. now rewrite L2. }
    destruct (ops_heap j x02 m h1 (set_nth i s' ss) t T' Wt') as (h2 & H2 & _ & _ & H3 & _); [unfold m; lia|].
    pose proof (ops_values i x01 n (map (get h) ss) (get h s)) as K. rewrite nth_error_map, N in K. specialize (K eq_refl).
    unfold as_values, l in V. rewrite acts_app, v_acts_app in V.
    destruct (h_acts (h, ss) (ops i x01 n)) as [[h1' ss1] es1]. cbn [fst] in H1. injection H1 as -> ->.
    destruct (h_acts (h1, set_nth i s' ss) (ops j x02 m)) as [[h2' ss2] es2]. cbn [fst] in H2. injection H2 as -> ->.
    destruct (v_acts (map (get h) ss) (ops i x01 n)) as [v1 f1]. cbn [fst] in K.
    assert (nth_error v1 j = Some (get h t)) as Tv by (rewrite K, nth_set_other, nth_error_map, T by assumption; reflexivity).
    pose proof (ops_values j x02 m v1 _ Tv) as K2. destruct (v_acts v1 (ops j x02 m)) as [v2 f2]. cbn [fst] in K2.
    injection V as V _. apply (f_equal (fun l => nth_error l i)) in V. rewrite K2 in V.
    rewrite nth_set_other in V by auto. rewrite K in V.
    assert (nth_error (map (get h) ss) i = Some (get h s)) as Nv by (rewrite nth_error_map, N; reflexivity).
    pose proof (eq_trans (eq_sym (nth_set_same (map (get h) ss) i (get h s ++ repeat x01 n) (get h s) Nv)) V) as V'. clear V. rename V' into V.
    rewrite nth_error_map, nth_set_other in V by auto. rewrite (nth_set_same ss i s' s N) in V. cbn [option_map] in V. injection V as V.
    apply (f_equal (fun l => nth_error l (p - s_off s))) in V.
    assert (length (get h s) = s_len s) as GL by (unfold get; rewrite firstn_length, skipn_length; destruct Ws as (_ & ? & ?); lia).
    rewrite nth_error_app2 in V by lia. rewrite GL in V. rewrite nth_get in V. unfold s' in V. cbn [s_len s_off s_arr] in V.
    replace (Nat.ltb (p - s_off s) (s_len s + n)) with true in V by (unfold n; lia).
    replace (s_off s + (p - s_off s))%nat with p in V by lia. rewrite E in V. rewrite H3 in V by (unfold m; lia).
    rewrite (nth_error_nth' _ x01) in V by (rewrite repeat_length; unfold n; lia). rewrite nth_repeat in V. discriminate.
Qed.
