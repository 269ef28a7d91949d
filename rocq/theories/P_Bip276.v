(** Proofs about BIP276 text (C23, C24). *)
From Verif Require Export P_Address P_Asm.
From Coq Require Import ZifyBool ZifyNat ZifyN.

Lemma first_sep {A} (x : A) a : forall b a' b', a ++ x :: b = a' ++ x :: b' -> ~ In x a -> ~ In x a' -> a = a' /\ b = b'.
Proof.
  induction a as [|y a IH]; intros b [|y' a'] b' E N N'; cbn [app] in E.
  - injection E as ->. auto.
  - injection E as -> _. exfalso. apply N'. now left.
  - injection E as <- _. exfalso. apply N. now left.
  - injection E as -> E. apply IH in E as [-> ->]; [auto| |]; intros I; [apply N|apply N']; now right.
Qed.

Lemma last_sep {A} (x : A) a b a' b' : a ++ x :: b = a' ++ x :: b' -> ~ In x b -> ~ In x b' -> a = a' /\ b = b'.
Proof.
  intros E N N'. apply (f_equal (@rev A)) in E. rewrite !rev_app_distr in E. cbn [rev] in E.
  rewrite <- !app_assoc in E. cbn [app] in E.
  apply first_sep in E as [E1 E2]; [|rewrite <- in_rev; assumption|rewrite <- in_rev; assumption].
  apply (f_equal (@rev A)) in E1, E2. rewrite !rev_involutive in E1, E2. auto.
Qed.

Lemma is_digit_iff c : is_digit c = true <-> dec_digit c.
Proof. unfold is_digit, dec_digit. rewrite andb_true_iff, !N.leb_le. reflexivity. Qed.

Lemma digit_not_colon c : dec_digit c -> c <> x3a.
Proof. intros [_ H] ->. change (b2n x3a) with 58 in H. lia. Qed.

Lemma hex_not_colon s : forallb is_hex s = true -> ~ In x3a s.
Proof. intros H I. rewrite forallb_forall in H. apply H in I. discriminate. Qed.

(** the text after the colon *)
Definition tail_shape (t : bytes) (a b c d : byte) (h k : bytes) : Prop :=
  t = a :: b :: c :: d :: h ++ k /\ dec_digit a /\ dec_digit b /\ dec_digit c /\ dec_digit d /\
  h <> [] /\ length k = 8%nat /\ forallb is_hex (h ++ k) = true.

Lemma tail_some t v n h k : bip276_tail t = Some (v, n, h, k) ->
  exists a b c d, v = [a; b] /\ n = [c; d] /\ tail_shape t a b c d h k.
Proof.
  unfold bip276_tail. destruct (Nat.leb 13 (length t)) eqn:L; [|discriminate]. apply Nat.leb_le in L.
  destruct t as [|a [|b [|c [|d t]]]]; cbn [length] in L; try lia.
  change (firstn 4 (a :: b :: c :: d :: t)) with [a; b; c; d].
  change (skipn 4 (a :: b :: c :: d :: t)) with t.
  destruct (forallb is_digit [a; b; c; d]) eqn:D; [|discriminate].
  destruct (forallb is_hex t) eqn:X; [|discriminate]. cbn [andb].
  cbn [forallb] in D. rewrite !andb_true_iff in D. destruct D as (Da & Db & Dc & Dd & _).
  apply is_digit_iff in Da, Db, Dc, Dd.
  intros E. injection E as <- <- <- <-. exists a, b, c, d. split; [reflexivity|]. split; [reflexivity|].
  unfold tail_shape. rewrite firstn_skipn. repeat split; try assumption; try apply Da; try apply Db; try apply Dc; try apply Dd.
  - intros E. apply (f_equal (@length byte)) in E. rewrite firstn_length in E. cbn [length] in E. lia.
  - rewrite skipn_length. lia.
Qed.

Lemma tail_of t a b c d h k : tail_shape t a b c d h k -> bip276_tail t = Some ([a; b], [c; d], h, k).
Proof.
  intros (-> & Da & Db & Dc & Dd & H & K & X). unfold bip276_tail.
  change (firstn 4 (a :: b :: c :: d :: h ++ k)) with [a; b; c; d].
  change (skipn 4 (a :: b :: c :: d :: h ++ k)) with (h ++ k).
  apply is_digit_iff in Da, Db, Dc, Dd. cbn [forallb]. rewrite Da, Db, Dc, Dd, X. cbn [andb].
  destruct h as [|x h]; [congruence|].
  replace (Nat.leb 13 (length (a :: b :: c :: d :: (x :: h) ++ k))) with true
    by (symmetry; apply Nat.leb_le; cbn [length app]; rewrite app_length; lia).
  cbn [andb]. rewrite app_length, K.
  replace (length (x :: h) + 8 - 8)%nat with (length (x :: h)) by lia.
  rewrite firstn_app, skipn_app, Nat.sub_diag, firstn_all, skipn_all, firstn_O, skipn_O, app_nil_r. reflexivity.
Qed.

Lemma tail_no_colon t a b c d h k : tail_shape t a b c d h k -> ~ In x3a t.
Proof.
  intros (-> & Da & Db & Dc & Dd & _ & _ & X) I. cbn [In] in I.
  destruct I as [E|[E|[E|[E|I]]]]; try (symmetry in E; subst).
  - now apply digit_not_colon in Da.
  - now apply digit_not_colon in Db.
  - now apply digit_not_colon in Dc.
  - now apply digit_not_colon in Dd.
  - now apply hex_not_colon in X.
Qed.

Lemma text_tail text p a b c d h k : bip276_text text p a b c d h k <->
  p <> [] /\ ~ In x0a p /\ exists t, text = p ++ x3a :: t /\ tail_shape t a b c d h k.
Proof.
  unfold bip276_text, tail_shape. split.
  - intros (-> & P & Q & R). split; [assumption|]. split; [assumption|].
    exists (a :: b :: c :: d :: h ++ k). auto.
  - intros (P & Q & t & -> & -> & R). auto.
Qed.

Lemma match_from_some s : forall p m, bip276_match_from p s = Some m ->
  exists q t a b c d h k, s = q ++ x3a :: t /\ p ++ q <> [] /\ ~ In x0a q /\ tail_shape t a b c d h k
    /\ m = mk_bm (p ++ q) [a; b] [c; d] h k.
Proof.
  induction s as [|x s IH]; intros p m; cbn [bip276_match_from]; [discriminate|].
  match goal with |- match ?X with _ => _ end = _ -> _ => destruct X as [m'|] eqn:E end.
  - intros Q. injection Q as <-. destruct (byte_eqb_spec x x3a) as [->|]; [|discriminate].
    destruct p as [|y p]; [discriminate|].
    destruct (bip276_tail s) as [[[[v n] h] k]|] eqn:T; [|discriminate]. injection E as <-.
    apply tail_some in T as (a & b & c & d & -> & -> & T).
    exists [], s, a, b, c, d, h, k. rewrite app_nil_r. cbn [app]. repeat split; try apply T; [discriminate|intros []].
  - destruct (byte_eqb_spec x x0a) as [->|Nl]; [discriminate|]. intros M.
    apply IH in M as (q & t & a & b & c & d & h & k & -> & P & Q & T & ->).
    exists (x :: q), t, a, b, c, d, h, k. rewrite <- app_assoc in *. cbn [app] in *.
    repeat split; try apply T; try assumption. intros [I|I]; [now apply Nl|now apply Q].
Qed.

Lemma match_from_none s : forall p q t a b c d h k,
  s = q ++ x3a :: t -> p ++ q <> [] -> ~ In x0a q -> tail_shape t a b c d h k ->
  bip276_match_from p s <> None.
Proof.
  induction s as [|x s IH]; intros p q t a b c d h k E P Q T; [destruct q; discriminate|].
  cbn [bip276_match_from]. destruct q as [|y q]; cbn [app] in E; injection E as <- E.
  - subst s. rewrite byte_eqb_refl. rewrite app_nil_r in P. destruct p; [congruence|].
    rewrite (tail_of _ _ _ _ _ _ _ T). discriminate.
  - match goal with |- match ?X with _ => _ end <> _ => destruct X as [m'|] end; [discriminate|].
    destruct (byte_eqb_spec x x0a) as [->|Nl]; [exfalso; apply Q; now left|].
    apply (IH _ q t a b c d h k); [assumption| |intros I; apply Q; now right|assumption].
    rewrite <- app_assoc. cbn [app]. assumption.
Qed.

Lemma regex_iff text m : bip276_regex text = Some m <->
  exists p a b c d h k, bip276_text text p a b c d h k /\ m = mk_bm p [a; b] [c; d] h k.
Proof.
  unfold bip276_regex. split.
  - intros M. apply match_from_some in M as (q & t & a & b & c & d & h & k & E & P & Q & T & ->).
    cbn [app] in *. exists q, a, b, c, d, h, k. split; [|reflexivity]. apply text_tail. eauto.
  - intros (p & a & b & c & d & h & k & T & ->). apply text_tail in T as (P & Q & t & E & T).
    pose proof (match_from_none text [] p t a b c d h k E P Q T) as N.
    destruct (bip276_match_from [] text) as [m|] eqn:M; [|congruence]. f_equal.
    apply match_from_some in M as (q & t' & a' & b' & c' & d' & h' & k' & E' & P' & Q' & T' & ->).
    cbn [app] in *. rewrite E in E'.
    apply last_sep in E' as [<- <-]; [|eapply tail_no_colon; eassumption|eapply tail_no_colon; eassumption].
    apply tail_of in T. apply tail_of in T'. rewrite T in T'. injection T' as <- <- <- <- <- <-. reflexivity.
Qed.

Lemma text_det text p a b c d h k p' a' b' c' d' h' k' :
  bip276_text text p a b c d h k -> bip276_text text p' a' b' c' d' h' k' ->
  p = p' /\ a = a' /\ b = b' /\ c = c' /\ d = d' /\ h = h' /\ k = k'.
Proof.
  intros T T'.
  assert (bip276_regex text = Some (mk_bm p [a; b] [c; d] h k)) as E by (apply regex_iff; eauto 10).
  assert (bip276_regex text = Some (mk_bm p' [a'; b'] [c'; d'] h' k')) as E' by (apply regex_iff; eauto 10).
  rewrite E in E'. injection E' as <- <- <- <- <- <- <-. repeat split.
Qed.

Lemma atoi2 a b : dec_digit a -> dec_digit b -> atoi [a; b] = dec2 a b.
Proof. intros [A _] [B _]. unfold atoi, dec2. cbn [fold_left]. lia. Qed.

Lemma dec2_range a b : dec_digit a -> dec_digit b -> (0 <= dec2 a b <= 99)%Z.
Proof. intros [A A'] [B B']. unfold dec2. lia. Qed.

Lemma z_sweep (P : Z -> bool) (k : nat) :
  forallb P (map Z.of_nat (seq 0 k)) = true -> forall z, (0 <= z < Z.of_nat k)%Z -> P z = true.
Proof.
  intros F z H. rewrite forallb_forall in F. apply F. rewrite <- (Z2Nat.id z) by lia.
  apply in_map, in_seq. lia.
Qed.

Lemma fmt_hex2 n : (0 <= n <= 255)%Z -> fmt_2x n = hex2 n.
Proof.
  intros H. apply bytes_eqb_eq.
  apply (z_sweep (fun n => bytes_eqb (fmt_2x n) (hex2 n)) 256); [vm_compute; reflexivity|lia].
Qed.

Lemma create_hex2 p n v d : (0 <= n <= 255)%Z -> (0 <= v <= 255)%Z ->
  create_bip276 p n v d = (p ++ x3a :: hex2 n ++ hex2 v ++ hex_encode d,
    hex_encode (firstn 4 (sha256d (p ++ x3a :: hex2 n ++ hex2 v ++ hex_encode d)))).
Proof. intros Hn Hv. unfold create_bip276. rewrite !fmt_hex2 by assumption. reflexivity. Qed.

(** the payload whose checksum the decoder compares *)
Definition swapped (p : bytes) (v n : Z) (data : bytes) : bytes :=
  p ++ x3a :: hex2 n ++ hex2 v ++ hex_encode data.

Lemma decode_text text p a b c d h k : bip276_text text p a b c d h k ->
  decode_bip276 text =
  match hex_decode h with
  | (data, None) => if bytes_eqb k (hex_encode (firstn 4 (sha256d (swapped p (dec2 a b) (dec2 c d) data))))
                    then Ok (p, dec2 a b, dec2 c d, data) else Err EBip276Checksum
  | (_, Some e) => Err (EHex e)
  end.
Proof.
  intros T. unfold decode_bip276.
  assert (bip276_regex text = Some (mk_bm p [a; b] [c; d] h k)) as -> by (apply regex_iff; eauto 10).
  cbn [bm_prefix bm_ver bm_net bm_data bm_sum].
  destruct T as (_ & _ & _ & Da & Db & Dc & Dd & _).
  rewrite !atoi2 by assumption. unfold of_hex. destruct (hex_decode h) as [data [e|]]; cbn [bind]; [reflexivity|].
  pose proof (dec2_range a b Da Db). pose proof (dec2_range c d Dc Dd).
  rewrite create_hex2 by lia. unfold swapped.
  match goal with |- context [equals k ?y] => set (z := y) in * end.
  destruct (equals k z) eqn:E; cbn [negb].
  - apply equals_spec in E as ->. now rewrite bytes_eqb_refl.
  - apply equals_neq in E. destruct (bytes_eqb k z) eqn:Q; [|reflexivity]. apply bytes_eqb_eq in Q. contradiction.
Qed.

Lemma decode_no_text text : (forall p a b c d h k, ~ bip276_text text p a b c d h k) -> decode_bip276 text = Panic.
Proof.
  intros H. unfold decode_bip276. destruct (bip276_regex text) as [m|] eqn:E; [|reflexivity].
  apply regex_iff in E as (p & a & b & c & d & h & k & T & _). now apply H in T.
Qed.

Lemma text_dec text : (exists p a b c d h k, bip276_text text p a b c d h k) \/
  (forall p a b c d h k, ~ bip276_text text p a b c d h k).
Proof.
  destruct (bip276_regex text) as [m|] eqn:E.
  - left. apply regex_iff in E as (p & a & b & c & d & h & k & T & _). eauto 10.
  - right. intros p a b c d h k T.
    assert (bip276_regex text = Some (mk_bm p [a; b] [c; d] h k)) by (apply regex_iff; eauto 10). congruence.
Qed.

Lemma decode_bip276_ok text p v n data : decode_bip276 text = Ok (p, v, n, data) <->
  exists a b c d h k, bip276_text text p a b c d h k /\ v = dec2 a b /\ n = dec2 c d /\
    hex_dec h = Some data /\
    k = hex_encode (firstn 4 (sha256d (p ++ x3a :: hex2 n ++ hex2 v ++ hex_encode data))).
Proof.
  split.
  - intros E. destruct (text_dec text) as [(p' & a & b & c & d & h & k & T)|N];
      [|rewrite (decode_no_text _ N) in E; discriminate].
    pose proof T as T0. apply decode_text in T. rewrite T in E.
    destruct (hex_decode h) as [data' [e|]] eqn:X; [discriminate|].
    match type of E with (if ?c then _ else _) = _ => destruct c eqn:Q; [|discriminate] end.
    injection E as -> <- <- ->. apply bytes_eqb_eq in Q. exists a, b, c, d, h, k.
    repeat split; try assumption; try apply T0. unfold hex_dec. now rewrite X.
  - intros (a & b & c & d & h & k & T & -> & -> & X & K). rewrite (decode_text _ _ _ _ _ _ _ _ T).
    unfold hex_dec in X. destruct (hex_decode h) as [data' [e|]]; [discriminate|]. injection X as ->.
    unfold swapped. rewrite <- K, bytes_eqb_refl. reflexivity.
Qed.

Lemma decode_bip276_panic text : decode_bip276 text = Panic <->
  (forall p a b c d h k, ~ bip276_text text p a b c d h k).
Proof.
  split; [|apply decode_no_text]. intros E p a b c d h k T. rewrite (decode_text _ _ _ _ _ _ _ _ T) in E.
  destruct (hex_decode h) as [data' [e|]]; [discriminate|].
  match type of E with (if ?c then _ else _) = _ => destruct c; discriminate end.
Qed.

(** ** Encode then decode *)

Definition decimal_hex (n : Z) : Prop := exists a b, hex2 n = [a; b] /\ dec_digit a /\ dec_digit b.

Lemma hex2_pair n : exists a b, hex2 n = [a; b] /\ is_hex a = true /\ is_hex b = true.
Proof.
  unfold hex2. cbn [hex_encode]. eexists _, _. split; [reflexivity|].
  pose proof (b2n_lt (n2b (Z.to_N n))). unfold is_hex. rewrite !hexdig_val; [auto|apply N.mod_lt|apply N.div_lt_upper_bound]; lia.
Qed.

(** the text after the colon of an encoding for positive fields *)
Lemma encode_text p n v d : (1 <= n <= 255)%Z -> (1 <= v <= 255)%Z ->
  encode_bip276 p n v d = p ++ x3a :: hex2 n ++ hex2 v ++ hex_encode d
    ++ hex_encode (firstn 4 (sha256d (p ++ x3a :: hex2 n ++ hex2 v ++ hex_encode d))).
Proof.
  intros Hn Hv. unfold encode_bip276.
  replace ((v =? 0) || (255 <? v) || (n =? 0) || (255 <? n))%Z with false by lia.
  rewrite create_hex2 by lia. rewrite <- !app_assoc. cbn [app]. now rewrite <- !app_assoc.
Qed.

Lemma encode_shape p n v d : (1 <= n <= 255)%Z -> (1 <= v <= 255)%Z -> p <> [] -> ~ In x0a p -> d <> [] ->
  forall a b c e, hex2 n = [a; b] -> hex2 v = [c; e] -> dec_digit a -> dec_digit b -> dec_digit c -> dec_digit e ->
  bip276_text (encode_bip276 p n v d) p a b c e (hex_encode d)
    (hex_encode (firstn 4 (sha256d (p ++ x3a :: hex2 n ++ hex2 v ++ hex_encode d)))).
Proof.
  intros Hn Hv P Q D a b c e E1 E2 Da Db Dc De. rewrite encode_text by assumption.
  unfold bip276_text. rewrite E1, E2. cbn [app]. repeat split; try assumption; try apply Da; try apply Db; try apply Dc; try apply De.
  - destruct d; [congruence|discriminate].
  - rewrite hex_encode_length, checksum_length. reflexivity.
  - rewrite <- hex_encode_app. apply hex_encode_hex.
Qed.

(** no other shape: the colon of the format is the last one *)
Lemma hex2_no_colon n : ~ In x3a (hex2 n).
Proof. destruct (hex2_pair n) as (a & b & -> & A & B). apply hex_not_colon. cbn [forallb]. now rewrite A, B. Qed.

Lemma hexe_no_colon b : ~ In x3a (hex_encode b).
Proof. apply hex_not_colon, hex_encode_hex. Qed.

Lemma encode_shape_inv p n v d p' a b c e h k : (1 <= n <= 255)%Z -> (1 <= v <= 255)%Z ->
  bip276_text (encode_bip276 p n v d) p' a b c e h k ->
  p' = p /\ p <> [] /\ ~ In x0a p /\ d <> [] /\ hex2 n = [a; b] /\ hex2 v = [c; e]
  /\ dec_digit a /\ dec_digit b /\ dec_digit c /\ dec_digit e.
Proof.
  intros Hn Hv T. apply text_tail in T as (P & Q & t & E & T). rewrite encode_text in E by assumption.
  apply last_sep in E as [<- E]; [| |eapply tail_no_colon; eassumption].
  - destruct T as (-> & Da & Db & Dc & De & H & K & X).
    destruct (hex2_pair n) as (n1 & n2 & E1 & _). destruct (hex2_pair v) as (v1 & v2 & E2 & _).
    rewrite E1, E2 in *. cbn [app] in E.
    match type of E with context [hex_encode (firstn 4 ?x)] =>
      assert (length (hex_encode (firstn 4 x)) = 8%nat) as L0
        by (rewrite hex_encode_length, checksum_length; reflexivity);
      generalize dependent (hex_encode (firstn 4 x)); intros k0 E L0 end.
    injection E as -> -> -> -> E.
    repeat split; try assumption; try apply Da; try apply Db; try apply Dc; try apply De.
    intros ->. apply (f_equal (@length byte)) in E. rewrite !app_length, K, L0 in E.
    cbn [hex_encode length] in E. destruct h; [congruence|]. cbn [length] in E. lia.
  - rewrite !in_app_iff. intros [I|[I|[I|I]]]; revert I; try apply hex2_no_colon; apply hexe_no_colon.
Qed.

Lemma dec_hex2 n a b : (1 <= n <= 255)%Z -> hex2 n = [a; b] -> dec_digit a -> dec_digit b ->
  (dec2 a b <= n /\ (dec2 a b = n <-> n <= 9))%Z.
Proof.
  intros H E Da Db.
  pose proof (z_sweep (fun n => match hex2 n with
     | [a; b] => negb (is_digit a && is_digit b) || ((dec2 a b <=? n) && (Bool.eqb (dec2 a b =? n) (n <=? 9)))
     | _ => false end)%Z 256) as F.
  specialize (F ltac:(vm_compute; reflexivity) n ltac:(lia)). cbv beta in F. rewrite E in F.
  apply is_digit_iff in Da, Db. rewrite Da, Db in F. cbn [andb negb orb] in F.
  apply andb_true_iff in F as [F1 F2]. apply eqb_prop in F2. lia.
Qed.

Lemma small_hex2 n : (1 <= n <= 9)%Z -> exists a b, hex2 n = [a; b] /\ dec_digit a /\ dec_digit b /\ dec2 a b = n.
Proof.
  intros H.
  pose proof (z_sweep (fun n => match hex2 n with
     | [a; b] => is_digit a && is_digit b && (dec2 a b =? n)%Z | _ => false end) 10
     ltac:(vm_compute; reflexivity) n ltac:(lia)) as F. cbv beta in F.
  destruct (hex2 n) as [|a [|b [|? ?]]]; try discriminate. exists a, b.
  rewrite !andb_true_iff, !is_digit_iff, Z.eqb_eq in F. tauto.
Qed.

(** fields that are not 1..255 never decode *)
Lemma dash_not_digit : ~ dec_digit x2d.
Proof. intros [H _]. change (b2n x2d) with 45 in H. lia. Qed.

Lemma fmt_neg n : (n < 0)%Z -> exists t, fmt_2x n = x2d :: t.
Proof. intros H. unfold fmt_2x. replace (n <? 0)%Z with true by lia. eexists. reflexivity. Qed.

Lemma digits16_hex n : forallb is_hex (map hexdig (digits 16 n)) = true.
Proof.
  destruct (digits_spec 16 n) as (F & _ & _); [lia|]. rewrite forallb_forall. intros c I.
  apply in_map_iff in I as (d & <- & I). rewrite Forall_forall in F. unfold is_hex. rewrite hexdig_val; auto.
Qed.

Lemma fmt_no_colon n : ~ In x3a (fmt_2x n).
Proof.
  unfold fmt_2x. intros I. apply in_app_or in I as [I|I].
  - destruct (n <? 0)%Z; [|destruct I]. destruct I as [E|[]]. discriminate.
  - apply in_app_or in I as [I|I].
    + apply repeat_spec in I. discriminate.
    + apply hex_not_colon in I; [assumption|apply digits16_hex].
Qed.

Lemma encode_bad_panic p n v d : (n < 1 \/ 255 < n \/ v < 1 \/ 255 < v)%Z ->
  decode_bip276 (encode_bip276 p n v d) = Panic.
Proof.
  intros H. unfold encode_bip276.
  destruct ((v =? 0) || (255 <? v) || (n =? 0) || (255 <? n))%Z eqn:Z0; [vm_compute; reflexivity|].
  assert (n < 0 \/ v < 0)%Z as Neg by lia.
  apply decode_no_text. intros p' a b c e h k T. apply text_tail in T as (P & Q & t & E & T).
  unfold create_bip276 in E. rewrite <- !app_assoc in E. cbn [app] in E. change (str ":") with [x3a] in E. cbn [app] in E.
  apply last_sep in E as [<- E]; [| |eapply tail_no_colon; eassumption].
  - destruct T as (-> & Da & Db & Dc & De & _).
    destruct (Z.ltb_spec n 0) as [Nn|Nn].
    + destruct (fmt_neg n Nn) as [t' F]. rewrite F in E. cbn [app] in E. injection E as <- _. now apply dash_not_digit.
    + rewrite fmt_hex2 in E by lia. destruct (hex2_pair n) as (n1 & n2 & F1 & _).
      destruct (fmt_neg v ltac:(lia)) as [t' F2]. rewrite F1, F2 in E. cbn [app] in E. injection E as _ _ <- _. now apply dash_not_digit.
  - rewrite !in_app_iff. intros [I|[I|[I|I]]]; revert I; try apply fmt_no_colon; apply hexe_no_colon.
Qed.

Lemma bip276_round p n v d :
  decode_bip276 (encode_bip276 p n v d) = Ok (p, v, n, d) <->
  n = v /\ (1 <= n <= 9)%Z /\ d <> [] /\ p <> [] /\ ~ In x0a p.
Proof.
  split.
  - intros E.
    assert (1 <= n <= 255 /\ 1 <= v <= 255)%Z as [Hn Hv].
    { enough (~ (n < 1 \/ 255 < n \/ v < 1 \/ 255 < v)%Z) by lia. intros B.
      rewrite (encode_bad_panic _ _ _ _ B) in E. discriminate. }
    apply decode_bip276_ok in E as (a & b & c & e & h & k & T & Ev & En & _ & _).
    apply encode_shape_inv in T as (_ & P & Q & D & E1 & E2 & Da & Db & Dc & De); [|assumption|assumption].
    pose proof (dec_hex2 n a b Hn E1 Da Db). pose proof (dec_hex2 v c e Hv E2 Dc De).
    repeat split; try assumption; lia.
  - intros (<- & H & D & P & Q). destruct (small_hex2 n H) as (a & b & E & Da & Db & V).
    apply decode_bip276_ok. exists a, b, a, b, (hex_encode d),
      (hex_encode (firstn 4 (sha256d (p ++ x3a :: hex2 n ++ hex2 n ++ hex_encode d)))).
    split; [apply encode_shape; try assumption; lia|]. repeat split; try (symmetry; assumption). apply hex_dec_encode.
Qed.

(** exact result for fields in range *)
Lemma bip276_swap p n v d a b c e : (1 <= n <= 255)%Z -> (1 <= v <= 255)%Z -> p <> [] -> ~ In x0a p -> d <> [] ->
  hex2 n = [a; b] -> hex2 v = [c; e] ->
  (dec_digit a -> dec_digit b -> dec_digit c -> dec_digit e ->
   decode_bip276 (encode_bip276 p n v d) =
   if bytes_eqb (firstn 4 (sha256d (p ++ x3a :: hex2 n ++ hex2 v ++ hex_encode d)))
                (firstn 4 (sha256d (p ++ x3a :: hex2 (dec2 c e) ++ hex2 (dec2 a b) ++ hex_encode d)))
   then Ok (p, dec2 a b, dec2 c e, d) else Err EBip276Checksum) /\
  (~ (dec_digit a /\ dec_digit b /\ dec_digit c /\ dec_digit e) -> decode_bip276 (encode_bip276 p n v d) = Panic).
Proof.
  intros Hn Hv P Q D E1 E2. split.
  - intros Da Db Dc De.
    pose proof (encode_shape p n v d Hn Hv P Q D a b c e E1 E2 Da Db Dc De) as T.
    rewrite (decode_text _ _ _ _ _ _ _ _ T), hex_decode_encode. unfold swapped.
    match goal with |- (if bytes_eqb (hex_encode ?x) (hex_encode ?y) then _ else _) = _ => set (X := x); set (Y := y) end.
    destruct (bytes_eqb X Y) eqn:B.
    + apply bytes_eqb_eq in B as ->. now rewrite bytes_eqb_refl.
    + destruct (bytes_eqb (hex_encode X) (hex_encode Y)) eqn:B'; [|reflexivity].
      apply bytes_eqb_eq, hex_encode_inj in B'. rewrite B', bytes_eqb_refl in B. discriminate.
  - intros Nd. apply decode_no_text. intros p' a' b' c' e' h k T.
    apply encode_shape_inv in T as (_ & _ & _ & _ & F1 & F2 & Da & Db & Dc & De); [|assumption|assumption].
    rewrite E1 in F1. rewrite E2 in F2. injection F1 as -> ->. injection F2 as -> ->. tauto.
Qed.
