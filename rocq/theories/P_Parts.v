(** Proofs about the storage of decoded parts. *)
From Verif Require Import S_Parts P_Mem P_Push.
From Coq Require Import ZifyBool ZifyNat ZifyN.

Lemma get_sub h b lo hi s : h_sub b lo hi = Some s -> (hi <= Z.of_nat (s_len b))%Z ->
  get h s = firstn (Z.to_nat (hi - lo)) (skipn (Z.to_nat lo) (get h b)).
Proof.
  unfold h_sub. destruct ((0 <=? lo) && (lo <=? hi) && (hi <=? Z.of_nat (s_cap b)))%Z eqn:E; [|discriminate].
  intros H L. injection H as <-. unfold get. cbn [s_arr s_off s_len]. rewrite skipn_firstn_comm, firstn_firstn, skipn_add.
  f_equal. lia.
Qed.

Lemma cut_refines h b lo hi : wf_sl h b -> hi <= N.of_nat (s_len b) ->
  (h_cut h b lo hi = Panic /\ bsub (get h b) lo hi = Panic) \/
  exists p r, h_cut h b lo hi = Ok (h, p, r) /\ lo <= hi /\
    bsub (get h b) lo hi = Ok (get h p) /\ bfrom (get h b) hi = Ok (get h r) /\
    p = mk_sl (s_arr b) (s_off b + N.to_nat lo) (N.to_nat (hi - lo)) (s_cap b - N.to_nat lo) /\
    r = mk_sl (s_arr b) (s_off b + N.to_nat hi) (s_len b - N.to_nat hi) (s_cap b - N.to_nat hi).
Proof.
  intros W L. unfold h_cut. pose proof (get_length h b W) as GL. destruct W as (W1 & W2 & W3 & W4).
  unfold bfrom, bsub. assert (nlen (get h b) = N.of_nat (s_len b)) as NL by (unfold nlen; lia). rewrite NL.
  destruct (N.leb_spec lo hi) as [B|B].
  - right. destruct (h_sub b (Z.of_N lo) (Z.of_N hi)) as [p|] eqn:P; [|unfold h_sub in P; destruct ((0 <=? Z.of_N lo) && (Z.of_N lo <=? Z.of_N hi) && (Z.of_N hi <=? Z.of_nat (s_cap b)))%Z eqn:X; [discriminate|lia]].
    destruct (h_from b (Z.of_N hi)) as [r|] eqn:R.
    + exists p, r. cbn [or_panic bind]. split; [reflexivity|]. split; [assumption|].
      unfold h_from in R. rewrite (get_sub _ _ _ _ _ P) by lia. rewrite (get_sub _ _ _ _ _ R) by lia.
      replace (hi <=? N.of_nat (s_len b)) with true by lia. replace (N.of_nat (s_len b) <=? N.of_nat (s_len b)) with true by lia. cbn [andb].
      split; [f_equal; f_equal; [lia|f_equal; lia]|]. split; [f_equal; f_equal; [lia|f_equal; lia]|].
      unfold h_sub in P, R. destruct ((0 <=? Z.of_N lo) && (Z.of_N lo <=? Z.of_N hi) && (Z.of_N hi <=? Z.of_nat (s_cap b)))%Z; [|discriminate].
      destruct ((0 <=? Z.of_N hi) && (Z.of_N hi <=? Z.of_nat (s_len b)) && (Z.of_nat (s_len b) <=? Z.of_nat (s_cap b)))%Z; [|discriminate].
      injection P as <-. injection R as <-. split; f_equal; lia.
    + exfalso. unfold h_from, h_sub in R. destruct ((0 <=? Z.of_N hi) && (Z.of_N hi <=? Z.of_nat (s_len b)) && (Z.of_nat (s_len b) <=? Z.of_nat (s_cap b)))%Z eqn:X; [discriminate|lia].
  - left. unfold h_sub. replace ((0 <=? Z.of_N lo) && (Z.of_N lo <=? Z.of_N hi) && (Z.of_N hi <=? Z.of_nat (s_cap b)))%Z with false by lia.
    cbn [or_panic bind andb]. auto.
Qed.

Lemma h_plain h c b : is_special c = false ->
  h_decode_part h c b =
  (if (1 <=? b2n c) && (b2n c <=? 75) then
     if N.of_nat (s_len b) <? 1 + b2n c then Err ENotEnough else h_cut h b 1 (b2n c + 1)
   else
     let (h', part) := h_alloc h [c] 0 in
     rest <- or_panic (h_from b 1) ;; Ok (h', part, rest)).
Proof.
  intros S. destruct c; cbn [is_special] in S; try discriminate; reflexivity.
Qed.

Definition rest_sl (b : sl) (k : nat) : sl := mk_sl (s_arr b) (s_off b + k) (s_len b - k) (s_cap b - k).

(** one iteration *)
Lemma part_refines h b c t : wf_sl h b -> get h b = c :: t ->
  (h_decode_part h c b = Panic /\ decode_part c (get h b) = Panic) \/
  (exists e, h_decode_part h c b = Err e /\ decode_part c (get h b) = Err e) \/
  (exists lo hi, h_decode_part h c b = Ok (h, mk_sl (s_arr b) (s_off b + lo) (hi - lo) (s_cap b - lo), rest_sl b hi) /\
     (1 <= lo <= hi)%nat /\ (hi <= s_len b)%nat /\
     decode_part c (get h b) = Ok (firstn (hi - lo) (skipn lo (get h b)), skipn hi (get h b))) \/
  ((c = x00 \/ 79 <= b2n c) /\ h_decode_part h c b = Ok (h ++ [[c]], mk_sl (length h) 0 1 1, rest_sl b 1) /\
     decode_part c (get h b) = Ok ([c], skipn 1 (get h b))).
Proof.
  intros W G. pose proof (get_length h b W) as GL.
  assert (nlen (get h b) = N.of_nat (s_len b)) as NL by (unfold nlen; lia).
  assert (forall lo hi, hi <= N.of_nat (s_len b) -> 1 <= lo ->
    (h_cut h b lo hi = Panic /\ (part <- bsub (get h b) lo hi ;; r <- bfrom (get h b) hi ;; Ok (part, r)) = Panic) \/
    (exists lo' hi', h_cut h b lo hi = Ok (h, mk_sl (s_arr b) (s_off b + lo') (hi' - lo') (s_cap b - lo'), rest_sl b hi') /\
       (1 <= lo' <= hi')%nat /\ (hi' <= s_len b)%nat /\
       (part <- bsub (get h b) lo hi ;; r <- bfrom (get h b) hi ;; Ok (part, r)) = Ok (firstn (hi' - lo') (skipn lo' (get h b)), skipn hi' (get h b)))) as CUT.
  { intros lo hi L1 L2. destruct (cut_refines h b lo hi W L1) as [[E1 E2]|(p & r & E & B & E1 & E2 & Ep & Er)].
    - left. rewrite E1, E2. auto.
    - right. exists (N.to_nat lo), (N.to_nat hi). rewrite E, Ep, Er. split; [f_equal; f_equal; f_equal; f_equal; lia|]. split; [lia|]. split; [lia|].
      rewrite E1, E2. cbn [bind]. subst p r. f_equal. f_equal.
      + unfold bsub in E1. destruct ((lo <=? hi) && (hi <=? nlen (get h b))); [|discriminate].
        assert (forall x y : bytes, Ok x = Ok y -> x = y) as OI by (intros x y H; now injection H). apply OI in E1. rewrite <- E1. f_equal. lia.
      + unfold bfrom, bsub in E2. destruct ((hi <=? nlen (get h b)) && (nlen (get h b) <=? nlen (get h b))); [|discriminate].
        assert (forall x y : bytes, Ok x = Ok y -> x = y) as OI by (intros x y H; now injection H). apply OI in E2. rewrite <- E2.
        apply firstn_all2. rewrite skipn_length. unfold nlen. lia. }
  destruct (is_special c) eqn:S.
  - apply special_cases in S as [-> |[-> | ->]]; unfold decode_part, h_decode_part; cbv zeta; rewrite NL.
    + destruct (N.of_nat (s_len b) <? 2); [right; left; eauto|].
      destruct (N.ltb_spec (N.of_nat (s_len b)) (2 + b2n (nth 1 (get h b) x00))) as [L|L]; [right; left; eauto|].
      destruct (CUT 2 (2 + b2n (nth 1 (get h b) x00)) L ltac:(lia)) as [X|X]; [left; exact X|right; right; left; exact X].
    + destruct (N.of_nat (s_len b) <? 3); [right; left; eauto|].
      set (e := wrap16 _). destruct (N.ltb_spec (N.of_nat (s_len b)) e) as [L|L]; [right; left; eauto|].
      destruct (CUT 3 e L ltac:(lia)) as [X|X]; [left; exact X|right; right; left; exact X].
    + destruct (N.of_nat (s_len b) <? 5); [right; left; eauto|].
      set (e := wrap32 _). destruct (N.ltb_spec (N.of_nat (s_len b)) e) as [L|L]; [right; left; eauto|].
      destruct (CUT 5 e L ltac:(lia)) as [X|X]; [left; exact X|right; right; left; exact X].
  - rewrite (h_plain _ _ _ S), (decode_part_plain _ _ S), NL.
    destruct ((1 <=? b2n c) && (b2n c <=? 75)) eqn:R.
    + destruct (N.ltb_spec (N.of_nat (s_len b)) (1 + b2n c)) as [L|L]; [right; left; eauto|].
      destruct (CUT 1 (b2n c + 1) ltac:(lia) ltac:(lia)) as [X|X].
      * left. replace (1 + b2n c) with (b2n c + 1) by lia. exact X.
      * right; right; left. replace (1 + b2n c) with (b2n c + 1) by lia. exact X.
    + right; right; right. split.
      { destruct (plain_n c S) as [X|X]; [|now right]. left. apply b2n_inj. change (b2n x00) with 0. lia. }
      assert (1 <= s_len b)%nat as L by (rewrite G in GL; cbn [length] in GL; lia).
      unfold h_alloc, h_from, h_sub. destruct W as (W1 & W2 & W3 & W4).
      replace ((0 <=? 1) && (1 <=? Z.of_nat (s_len b)) && (Z.of_nat (s_len b) <=? Z.of_nat (s_cap b)))%Z with true by lia.
      cbn [or_panic bind length repeat app]. split.
      * f_equal. f_equal. unfold rest_sl. f_equal; lia.
      * unfold bfrom, bsub. replace ((1 <=? nlen (get h b)) && (nlen (get h b) <=? nlen (get h b))) with true by lia. cbn [bind]. f_equal. f_equal.
        apply firstn_all2. rewrite skipn_length. unfold nlen. change (N.to_nat 1) with 1%nat. lia.
Qed.

Lemma wf_rest h b k : wf_sl h b -> (k <= s_len b)%nat -> wf_sl h (rest_sl b k).
Proof. intros (A & B & C & D) L. unfold wf_sl, rest_sl. cbn [s_arr s_off s_len s_cap]. split; [assumption|]. split; [lia|]. split; [lia|assumption]. Qed.

Lemma arr_old h n a : (a < length h)%nat -> arr (h ++ n) a = arr h a.
Proof. intros L. unfold arr. now rewrite app_nth1. Qed.
Lemma get_app h n s : (s_arr s < length h)%nat -> get (h ++ n) s = get h s.
Proof. intros L. apply get_old. now apply arr_old. Qed.
Lemma wf_app h n b : wf_sl h b -> wf_sl (h ++ n) b.
Proof. intros (A & B & C & D). unfold wf_sl. rewrite arr_old, app_length by assumption. split; [lia|]. auto. Qed.

Lemma get_rest h b k : get h (rest_sl b k) = skipn k (get h b).
Proof. unfold get, rest_sl. cbn [s_arr s_off s_len]. rewrite skipn_firstn_comm, skipn_add. reflexivity. Qed.

Lemma laid_shift b k n o ws ss : laid (rest_sl b k) n o ws ss -> laid b n (o + k) ws ss.
Proof.
  induction 1 as [n o|n o c ws ss C _ IH|n o k' d ws ss E NE _ IH]; [constructor|..].
  - constructor; [assumption|]. now replace (o + k + 1)%nat with (o + 1 + k)%nat by lia.
  - cbn [rest_sl s_arr s_off s_cap].
    replace (mk_sl (s_arr b) (s_off b + k + o + length k') (length d) (s_cap b - k - (o + length k')))
      with (mk_sl (s_arr b) (s_off b + (o + k) + length k') (length d) (s_cap b - (o + k + length k'))) by (f_equal; lia).
    apply laid_push; [assumption|assumption|]. now replace (o + k + length (k' ++ d))%nat with (o + length (k' ++ d) + k)%nat by lia.
Qed.

Lemma elem_of_part c b p r : hd_error b = Some c -> decode_part c b = Ok (p, r) -> exists w, elem w p /\ b = w ++ r.
Proof.
  intros H D. destruct b as [|x b]; [discriminate|]. injection H as ->.
  destruct (classify (c :: b)) as [W|[[T W]|(w & q & r' & E & EL & W)]]; [discriminate|..].
  - pose proof (decode_part_wraps _ W) as X. cbn [hd] in X. congruence.
  - pose proof (decode_part_truncated _ T W) as X. cbn [hd] in X. congruence.
  - pose proof (decode_part_elem w q r' EL W) as X. rewrite <- E in X. cbn [hd] in X. exists w.
    assert (p = q /\ r = r') as [-> ->] by (rewrite X in D; injection D; auto). auto.
Qed.

Lemma h_loop fuel : forall h b r rs, wf_sl h b -> (s_len b <= fuel)%nat ->
  (h_decode_loop fuel h r b = Panic /\ decode_loop fuel rs (get h b) = Panic) \/
  exists news ss ws t ps e, h_decode_loop fuel h r b = Ok (h ++ map (fun c => [c]) news, r ++ ss, e) /\
    decode_loop fuel rs (get h b) = Ok (rs ++ ps, e) /\ get h b = concat ws ++ t /\ (e = None -> t = []) /\ Forall2 elem ws ps /\
    laid b (length h) 0 ws ss /\ map (get (h ++ map (fun c => [c]) news)) ss = ps.
Proof.
  induction fuel as [|fuel IH]; intros h b r rs W L.
  - pose proof (get_length h b W) as GL. assert (get h b = []) as G by (destruct (get h b); [reflexivity|cbn [length] in GL; lia]).
    right. exists [], [], [], [], [], None. cbn [h_decode_loop decode_loop map concat app]. rewrite G, !app_nil_r. repeat (split; [reflexivity|]).
    split; [constructor|]. split; [constructor|reflexivity].
  - cbn [h_decode_loop decode_loop]. destruct (get h b) as [|c t0] eqn:G.
    { right. exists [], [], [], [], [], None. cbn [map concat app]. rewrite !app_nil_r. repeat (split; [reflexivity|]).
      split; [constructor|]. split; [constructor|reflexivity]. }
    pose proof (get_length h b W) as GL. rewrite <- G. 
    destruct (part_refines h b c t0 W G) as [[E1 E2]|[(e & E1 & E2)|[(lo & hi & E1 & B & Bh & E2)|(C & E1 & E2)]]]; rewrite E1, E2.
    + left. auto.
    + right. exists [], [], [], (get h b), [], (Some e). cbn [map concat app]. rewrite !app_nil_r. repeat (split; [reflexivity|]).
      split; [discriminate|]. split; [constructor|]. split; [constructor|reflexivity].
    + set (p := mk_sl _ _ _ _). set (d := firstn (hi - lo) (skipn lo (get h b))) in *. specialize (IH h (rest_sl b hi) (r ++ [p]) (rs ++ [d])).
      rewrite get_rest in IH. destruct IH as [IH|(news & ss & ws & t & ps & e & H1 & H2 & H3 & H4 & H5 & H6 & H7)].
      { now apply wf_rest. } { cbn [rest_sl s_len]. lia. }
      { left. exact IH. }
      right. destruct (elem_of_part c (get h b) d (skipn hi (get h b))) as (w & EL & EW); [now rewrite G|exact E2|].
      assert (w = firstn hi (get h b)) as ->.
      { rewrite <- (firstn_skipn hi (get h b)) in EW at 1. apply app_inv_tail in EW. auto. }
      assert (firstn hi (get h b) = firstn lo (get h b) ++ d) as SP.
      { unfold d. now rewrite firstn_split by lia. }
      exists news, (p :: ss), (firstn hi (get h b) :: ws), t, (d :: ps), e.
      split; [rewrite H1; now rewrite <- app_assoc|]. split; [etransitivity; [exact H2|]; now rewrite <- app_assoc|].
      split; [cbn [concat]; rewrite <- app_assoc, <- H3; symmetry; apply firstn_skipn|]. split; [assumption|].
      split; [constructor; assumption|].
      assert (length (firstn lo (get h b)) = lo) as LL by (rewrite firstn_length; lia).
      assert (length d = (hi - lo)%nat) as LD by (unfold d; rewrite firstn_length, skipn_length; lia).
      split.
      * unfold p. rewrite SP.
        replace (mk_sl (s_arr b) (s_off b + lo) (hi - lo) (s_cap b - lo))
          with (mk_sl (s_arr b) (s_off b + 0 + length (firstn lo (get h b))) (length d) (s_cap b - (0 + length (firstn lo (get h b)))))
          by (rewrite LL, LD; f_equal; lia).
        apply laid_push; [now rewrite <- SP|intros Z; rewrite Z in LL; cbn [length] in LL; lia|].
        rewrite app_length, LL, LD. replace (0 + (lo + (hi - lo)))%nat with (0 + hi)%nat by lia. now apply laid_shift.
      * cbn [map]. f_equal; [|exact H7]. rewrite get_app by exact (proj1 W). unfold p, d, get. cbn [s_arr s_off s_len].
        rewrite skipn_firstn_comm, firstn_firstn, skipn_add. f_equal. lia.
    + set (p := mk_sl _ _ _ _). specialize (IH (h ++ [[c]]) (rest_sl b 1) (r ++ [p]) (rs ++ [[c]])).
      rewrite get_rest, (get_app h [[c]] b (proj1 W)) in IH.
      destruct IH as [IH|(news & ss & ws & t & ps & e & H1 & H2 & H3 & H4 & H5 & H6 & H7)].
      { apply wf_app, wf_rest; [assumption|]. rewrite G in GL. cbn [length] in GL. lia. } { cbn [rest_sl s_len]. lia. }
      { left. exact IH. }
      right. exists (c :: news), (p :: ss), ([c] :: ws), t, ([c] :: ps), e.
      assert (h ++ map (fun x => [x]) (c :: news) = (h ++ [[c]]) ++ map (fun x => [x]) news) as HH by (cbn [map]; now rewrite <- app_assoc).
      rewrite HH. split; [rewrite H1, <- (app_assoc r [p] ss); reflexivity|]. split; [etransitivity; [exact H2|]; rewrite <- app_assoc; reflexivity|].
      split; [rewrite G in H3 |- *; cbn [concat app skipn] in *; now rewrite H3|]. split; [assumption|].
      split; [constructor; [now constructor|assumption]|].
      split.
      * unfold p. apply laid_op; [assumption|]. rewrite app_length in H6. cbn [length] in H6.
        replace (S (length h)) with (length h + 1)%nat by lia. now apply (laid_shift b 1 _ 0).
      * cbn [map]. f_equal; [|exact H7]. unfold p, get, arr. cbn [s_arr s_off s_len]. rewrite <- app_assoc, app_nth2 by lia. now rewrite Nat.sub_diag.
Qed.

Lemma h_full h b : wf_sl h b ->
  (h_decode_parts h b = Panic /\ decode_parts_full (get h b) = Panic) \/
  exists news ss ws t ps e, h_decode_parts h b = Ok (h ++ map (fun c => [c]) news, ss, e) /\
    decode_parts_full (get h b) = Ok (ps, e) /\ get h b = concat ws ++ t /\ (e = None -> t = []) /\ Forall2 elem ws ps /\
    laid b (length h) 0 ws ss /\ map (get (h ++ map (fun c => [c]) news)) ss = ps.
Proof.
  intros W. unfold h_decode_parts, decode_parts_full. rewrite (get_length h b W). exact (h_loop (s_len b) h b [] [] W (le_n _)).
Qed.

Lemma laid_kinds b n o ws ss : laid b n o ws ss -> (o + length (concat ws) <= s_cap b)%nat ->
  Forall (fun s => own n s \/ window b o (o + length (concat ws)) s) ss.
Proof.
  induction 1 as [n o|n o c ws ss C _ IH|n o k d ws ss E NE _ IH]; intros B; [constructor|..]; cbn [concat] in B; rewrite app_length in B.
  - cbn [length] in B. constructor; [left; unfold own; cbn [s_arr s_off s_len s_cap]; lia|]. eapply Forall_impl; [|apply IH; lia].
    cbn. intros s [(A1 & A2 & A3 & A4)|(A1 & A2 & A3 & A4)]; [left; unfold own; lia|right]. unfold window. cbn [concat app length]. lia.
  - constructor.
    + right. unfold window. cbn [s_arr s_off s_len s_cap concat]. rewrite !app_length in *. destruct k; [congruence|]. cbn [length] in *. lia.
    + eapply Forall_impl; [|apply IH; lia]. cbn. intros s [A|(A1 & A2 & A3 & A4)]; [left; exact A|right]. unfold window. cbn [concat]. rewrite !app_length in *. lia.
Qed.

Lemma laid_distinct b n o ws ss : laid b n o ws ss -> (s_arr b < n)%nat -> forall i j s s', (i < j)%nat ->
  nth_error ss i = Some s -> nth_error ss j = Some s' -> s_arr s = s_arr s' -> s_arr s = s_arr b.
Proof.
  assert (forall n o ws ss, laid b n o ws ss -> forall s, In s ss -> s_arr s = s_arr b \/ (n <= s_arr s)%nat) as GE.
  { induction 1 as [m q|m q c ws' ss' C _ IH|m q k d ws' ss' E NE _ IH]; intros s; [intros []|..].
    - intros [<- |I]; [right; cbn [s_arr]; lia|]. destruct (IH s I); [now left|right; lia].
    - intros [<- |I]; [now left|]. now apply IH. }
  induction 1 as [n o|n o c ws ss C L IH|n o k d ws ss E NE L IH]; intros B i j s s' IJ I J A; [destruct i; discriminate|..].
  - destruct j as [|j]; [lia|]. destruct i as [|i]; cbn [nth_error] in I, J.
    + injection I as <-. cbn [s_arr] in *. destruct (GE _ _ _ _ L s' (nth_error_In _ _ J)); lia.
    + apply (IH ltac:(lia) i j s s'); [lia|assumption..].
  - destruct j as [|j]; [lia|]. destruct i as [|i]; cbn [nth_error] in I, J.
    + injection I as <-. reflexivity.
    + apply (IH B i j s s'); [lia|assumption..].
Qed.

(** a write into the array of [b], seen through [b] *)
Lemma write_seen h b i d : wf_sl h b -> (s_off b <= i)%nat -> (i + length d <= s_off b + s_len b)%nat ->
  overwritten (get h b) (i - s_off b) d (get (h_write h (s_arr b) i d) b).
Proof.
  intros W I L. pose proof (get_length h b W) as GL. destruct W as (W1 & W2 & W3 & W4).
  assert (i + length d <= length (arr h (s_arr b)))%nat as LA by lia.
  pose proof (write_overwritten _ _ _ LA) as (O1 & O2 & O3). 
  split; [|split].
  - rewrite GL. unfold get. rewrite h_write_arr, Nat.eqb_refl by assumption. rewrite firstn_length, skipn_length, O1. lia.
  - intros k K. rewrite nth_get, h_write_arr, Nat.eqb_refl by assumption. replace (Nat.ltb (i - s_off b + k) (s_len b)) with true by (symmetry; apply Nat.ltb_lt; lia).
    replace (s_off b + (i - s_off b + k))%nat with (i + k)%nat by lia. now apply O2.
  - intros k K. rewrite !nth_get, h_write_arr, Nat.eqb_refl by assumption. destruct (Nat.ltb k (s_len b)); [|reflexivity]. apply O3. lia.
Qed.

Lemma elem_single c p : elem [c] p -> c = x00 \/ 79 <= b2n c -> length p = 1%nat.
Proof.
  intros E C. inversion E as [c' H|c' d H1 H2|d H|d H|d H]; subst; [reflexivity|exfalso..].
  all: destruct C as [C|C]; [try (subst; change (b2n x00) with 0 in *); lia || discriminate|try lia; vm_compute in C; now apply C].
Qed.

Lemma own_one h' b n o ws ss : laid b n o ws ss -> (s_arr b < n)%nat -> Forall2 elem ws (map (get h') ss) ->
  forall s, In s ss -> s_arr s <> s_arr b -> length (get h' s) = 1%nat.
Proof.
  induction 1 as [n o|n o c ws ss C _ IH|n o k d ws ss E NE _ IH]; intros B F s I N; [destruct I|..]; inversion F as [|? ? ? ? F1 F2]; subst.
  - destruct I as [<- |I]; [now apply (elem_single c)|apply IH; auto; lia].
  - destruct I as [<- |I]; [exfalso; now apply N|now apply IH].
Qed.

Lemma okp (a b c d : bytes) : Ok (a, b) = Ok (c, d) -> a = c /\ b = d.
Proof. intros H. injection H. auto. Qed.

(** a script that starts with a push of 20 bytes *)
Lemma first_push20 h b d t news ss e : wf_sl h b -> get h b = x14 :: d ++ t -> length d = 20%nat ->
  h_decode_parts h b = Ok (h ++ map (fun c => [c]) news, ss, e) ->
  nth_error ss 0 = Some (mk_sl (s_arr b) (s_off b + 1) 20 (s_cap b - 1)).
Proof.
  intros W G L. pose proof (get_length h b W) as GL. rewrite G in GL. cbn [length] in GL. rewrite app_length in GL.
  unfold h_decode_parts. replace (s_len b) with (S (20 + length t)) by lia. cbn [h_decode_loop]. rewrite G.
  assert (decode_part x14 (x14 :: d ++ t) = Ok (d, t)) as X.
  { apply (decode_part_elem (x14 :: d) d t); [apply elem_push; [vm_compute; split; discriminate|unfold nlen; rewrite L; reflexivity]|intros Z; inversion Z]. }
  destruct (part_refines h b x14 (d ++ t) W G) as [[E1 E2]|[(x & E1 & E2)|[(lo & hi & E1 & B & Bh & E2)|(C & E1 & E2)]]].
  - rewrite E1. discriminate.
  - exfalso. rewrite G, X in E2. discriminate.
  - rewrite E1. rewrite G, X in E2.
    assert (length (firstn (hi - lo) (skipn lo (x14 :: d ++ t))) = 20%nat) as L1 by (rewrite <- (proj1 (okp _ _ _ _ E2)); exact L).
    assert (length (skipn hi (x14 :: d ++ t)) = length t) as L2 by (rewrite <- (proj2 (okp _ _ _ _ E2)); reflexivity).
    rewrite firstn_length, skipn_length in L1. rewrite skipn_length in L2. cbn [length] in L1, L2. rewrite app_length in L1, L2.
    assert (hi = 21%nat /\ lo = 1%nat) as [-> ->] by lia.
    set (p := mk_sl _ _ _ _). destruct (h_loop (20 + length t) h (rest_sl b 21) ([] ++ [p]) [] (wf_rest h b 21 W Bh)) as [[Y _]|(n' & ss' & ws & t' & ps & e' & Y & _)].
    + cbn [rest_sl s_len]. lia.
    + rewrite Y. discriminate.
    + rewrite Y. intros H. injection H as _ <- _. cbn [app nth_error]. reflexivity.
  - exfalso. destruct C as [C|C]; [discriminate|vm_compute in C; now apply C].
Qed.

Lemma err_same {A B} x e : @Err A x = Err e <-> @Err B x = Err e.
Proof. split; intros H; injection H as ->; reflexivity. Qed.
