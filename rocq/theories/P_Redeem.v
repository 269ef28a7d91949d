(** Proofs about redeem scripts (C50, C51, C58). *)
From Verif Require Export S_RedeemApi P_Script P_Address P_Crypto.
From Coq Require Import ZifyBool ZifyNat ZifyN.

(** ** value of GetRedeemScript *)

Lemma redeem_fold ks : forall b, fold_left (fun b pk => (b ++ [n2b (nlen pk)]) ++ pk) ks b
  = b ++ concat (map (fun k => n2b (nlen k) :: k) ks).
Proof.
  induction ks as [|k ks IH]; intros b; cbn [fold_left map concat]; [now rewrite app_nil_r|].
  rewrite IH, <- !app_assoc. reflexivity.
Qed.

Lemma n2b_eq a b : a mod 256 = b mod 256 -> n2b a = n2b b.
Proof. intros H. rewrite <- (n2b_mod a), <- (n2b_mod b). now rewrite H. Qed.

Lemma redeem_value rs : get_redeem_script rs =
  (multisig_script (Z.to_N (sigs_required rs mod 256)) (sort_byte_arrays (public_keys rs)),
   mk_rs (sigs_required rs) (sort_byte_arrays (public_keys rs))).
Proof.
  unfold get_redeem_script. cbv zeta. cbn [public_keys sigs_required]. rewrite redeem_fold. unfold multisig_script.
  f_equal. rewrite <- !app_assoc. cbn [app]. unfold op_base_plus.
  match goal with |- _ :: _ ++ [n2b ?a; _] = _ => replace (n2b a) with (n2b (80 + nlen (sort_byte_arrays (public_keys rs)))); [reflexivity|] end.
  apply n2b_eq. symmetry. change (b2n OpBASE) with 80. rewrite N.add_mod_idemp_r by discriminate. reflexivity.
Qed.

Lemma sorted_of_sort ks l : sorted_of ks l <-> l = sort_byte_arrays ks.
Proof.
  split.
  - intros [P S]. now apply sort_unique.
  - intros ->. split; [apply sort_perm|apply sort_sorted].
Qed.

Lemma redeem_script_iff rs l : sorted_of (public_keys rs) l ->
  get_redeem_script rs = (multisig_script (Z.to_N (sigs_required rs mod 256)) l, mk_rs (sigs_required rs) l).
Proof. intros S. apply sorted_of_sort in S. subst. apply redeem_value. Qed.

Lemma sort_idem ks : sort_byte_arrays (sort_byte_arrays ks) = sort_byte_arrays ks.
Proof. symmetry. apply sort_perm_eq, sort_perm. Qed.

(** ** injectivity *)

Lemma app_eq_len {A} (a : list A) : forall b x y, length a = length b -> a ++ x = b ++ y -> a = b /\ x = y.
Proof.
  induction a as [|c a IH]; intros [|d b] x y L E; try discriminate L; [auto|]. cbn [app] in E. injection E as -> E.
  destruct (IH b x y) as [-> ->]; [now injection L|assumption|auto].
Qed.

Lemma keys_inj ks1 : forall ks2 t1 t2, length ks1 = length ks2 ->
  (forall k, In k ks1 -> nlen k < 256) -> (forall k, In k ks2 -> nlen k < 256) ->
  concat (map (fun k => n2b (nlen k) :: k) ks1) ++ t1 = concat (map (fun k => n2b (nlen k) :: k) ks2) ++ t2 ->
  ks1 = ks2 /\ t1 = t2.
Proof.
  induction ks1 as [|k ks1 IH]; intros [|k' ks2] t1 t2 L B1 B2 E; try discriminate L; [auto|].
  cbn [map concat app] in E. rewrite <- !app_assoc in E. cbn [app] in E.
  assert (n2b (nlen k) = n2b (nlen k')) as A by congruence.
  assert (k ++ concat (map (fun k => n2b (nlen k) :: k) ks1) ++ t1 = k' ++ concat (map (fun k => n2b (nlen k) :: k) ks2) ++ t2) as E2 by congruence.
  apply (f_equal b2n) in A. rewrite (b2n_n2b_small (nlen k)) in A by (apply B1; now left). rewrite (b2n_n2b_small (nlen k')) in A by (apply B2; now left).
  assert (length k = length k') as LK. { unfold nlen in A. lia. }
  apply app_eq_len in E2; [|exact LK]. destruct E2 as [-> E3].
  destruct (IH ks2 t1 t2) as [-> ->]; auto.
  - intros x I. apply B1. now right.
  - intros x I. apply B2. now right.
Qed.

Lemma multisig_inj m1 ks1 m2 ks2 : m1 < 256 -> m2 < 256 -> nlen ks1 < 256 -> nlen ks2 < 256 ->
  (forall k, In k ks1 -> nlen k < 256) -> (forall k, In k ks2 -> nlen k < 256) ->
  multisig_script m1 ks1 = multisig_script m2 ks2 -> m1 = m2 /\ ks1 = ks2.
Proof.
  intros M1 M2 N1 N2 B1 B2 E. unfold multisig_script in E. cbn [app] in E.
  assert (n2b (80 + m1) = n2b (80 + m2)) as A by congruence.
  pose proof (f_equal (@tl byte) E) as E2. cbn [tl] in E2.
  clear E. apply (f_equal b2n) in A. rewrite !b2n_n2b in A.
  assert (forall x y, x < 256 -> y < 256 -> (80 + x) mod 256 = (80 + y) mod 256 -> x = y) as J.
  { intros x y X Y Z. pose proof (N.div_mod (80 + x) 256). pose proof (N.div_mod (80 + y) 256). pose proof (N.mod_lt (80 + x) 256). pose proof (N.mod_lt (80 + y) 256). nia. }
  split; [now apply J|].
  change [n2b (80 + nlen ks1); xae] with ([n2b (80 + nlen ks1)] ++ [xae]) in E2. change [n2b (80 + nlen ks2); xae] with ([n2b (80 + nlen ks2)] ++ [xae]) in E2.
  rewrite !app_assoc in E2. apply app_inj_tail in E2 as [E2 _]. pose proof E2 as E3. apply app_inj_tail in E3 as [_ C].
  apply (f_equal b2n) in C. rewrite !b2n_n2b in C. apply J in C; [|assumption..].
  eapply keys_inj in E2; [|unfold nlen, bytes in *; lia|assumption..]. tauto.
Qed.

(** ** decoding *)

Lemma key_safe k : 1 <= nlen k <= 75 -> safe_elems (n2b (nlen k) :: k) [k].
Proof.
  intros L. apply safe_one.
  - apply elem_push; rewrite b2n_n2b_small by lia; lia.
  - intros W. inversion W as [l d H1 H2 H3|l d H1 H2 H3].
    + assert (b2n (n2b (nlen k)) = b2n x4d) as X by now rewrite H3. rewrite b2n_n2b_small in X by lia. simpl (b2n _) in X. lia.
    + assert (b2n (n2b (nlen k)) = b2n x4e) as X by now rewrite H3. rewrite b2n_n2b_small in X by lia. simpl (b2n _) in X. lia.
Qed.

Lemma keys_safe ks : (forall k, In k ks -> 1 <= nlen k <= 75) -> safe_elems (concat (map (fun k => n2b (nlen k) :: k) ks)) ks.
Proof.
  induction ks as [|k ks IH]; intros B; cbn [map concat]; [constructor|].
  apply (safe_app _ [k]); [apply key_safe, B; now left|apply IH; intros x I; apply B; now right].
Qed.

Lemma redeem_op_safe c : 79 <= b2n c -> safe_elems [c] [[c]].
Proof.
  intros H. apply safe_one; [apply elem_op; now right|]. intros W.
  inversion W as [l d H1 H2 H3|l d H1 H2 H3]; subst; vm_compute in H; congruence.
Qed.

Lemma multisig_safe m ks : m < 176 -> nlen ks < 176 -> (forall k, In k ks -> 1 <= nlen k <= 75) ->
  safe_elems (multisig_script m ks) ([n2b (80 + m)] :: ks ++ [[n2b (80 + nlen ks)]; [xae]]).
Proof.
  intros M N B. unfold multisig_script. apply (safe_app _ [[n2b (80 + m)]]).
  { apply redeem_op_safe. rewrite b2n_n2b_small; lia. }
  apply safe_app; [now apply keys_safe|].
  apply (safe_app [n2b (80 + nlen ks)] [[n2b (80 + nlen ks)]] [xae] [[xae]]); apply redeem_op_safe; [rewrite b2n_n2b_small; lia|vm_compute; discriminate].
Qed.

Lemma multisig_out_iff m ks : m < 176 -> nlen ks < 176 -> (forall k, In k ks -> 1 <= nlen k <= 75) ->
  is_multisig_out (multisig_script m ks) = Ok ((1 <=? m) && (m <=? 16) && (1 <=? nlen ks) && (nlen ks <=? 16)).
Proof.
  intros M N B. pose proof (multisig_safe m ks M N B) as S. apply decode_ok_iff in S. rewrite (multisig_cases _ _ _ _ _ S).
  assert (forall x, x < 176 -> is_small_int_op (n2b (80 + x)) = (1 <=? x) && (x <=? 16)) as I.
  { intros x X. unfold is_small_int_op. rewrite !b2n_n2b_small by lia. change (b2n OpONE) with 81. change (b2n Op16) with 96.
    assert (byte_eqb (n2b (80 + x)) OpZERO = false) as ->; [|cbn [orb]; lia].
    destruct (byte_eqb_spec (n2b (80 + x)) OpZERO) as [E|]; [|reflexivity]. exfalso. apply (f_equal b2n) in E. rewrite b2n_n2b_small in E by lia. change (b2n OpZERO) with 0 in E. lia. }
  rewrite I by assumption. destruct ((1 <=? m) && (m <=? 16)); cbn [andb]; [|reflexivity].
  destruct (existsb (fun p => Nat.ltb (length p) 1) ks) eqn:X.
  { apply exists_empty in X. apply B in X. change (nlen (@nil byte)) with 0 in X. lia. }
  rewrite I by assumption. destruct ((1 <=? nlen ks) && (nlen ks <=? 16)); reflexivity.
Qed.

(** ** Electrum import *)

Lemma path_loop_spec p : forall fuel s, (length p < fuel)%nat ->
  path_loop fuel s p = if Nat.odd (length p) then Panic else path_loop fuel s p.
Proof.
  assert (forall n p, (length p <= n)%nat -> forall fuel s, (length p < fuel)%nat ->
    path_loop fuel s p = if Nat.odd (length p) then Panic else path_loop fuel s p) as G.
  { induction n as [|n IH]; intros q L fuel s F.
    - destruct q; [reflexivity|cbn [length] in L; lia].
    - destruct q as [|a [|b r]]; [reflexivity| |].
      + destruct fuel; [lia|reflexivity].
      + destruct fuel as [|fuel]; [cbn [length] in F; lia|]. cbn [length] in *. cbn [path_loop].
        change (Nat.odd (S (S (length r)))) with (Nat.odd (length r)). apply IH; lia. }
  intros fuel s. now apply (G (length p)).
Qed.

Lemma path_loop_len n : forall p fuel s, (length p <= n)%nat -> (length p < fuel)%nat ->
  match path_loop fuel s p with
  | Ok l => (2 * (length l - length s) = length p)%nat /\ (length s <= length l)%nat
  | Err _ => False
  | Panic => Nat.odd (length p) = true
  end.
Proof.
  induction n as [|n IH]; intros p fuel s L F.
  - destruct p; [|cbn [length] in L; lia]. destruct fuel; cbn [path_loop]; cbn [length]; split; lia.
  - destruct p as [|a [|b r]].
    + destruct fuel; cbn [path_loop length]; split; lia.
    + destruct fuel; [lia|reflexivity].
    + destruct fuel as [|fuel]; [cbn [length] in F; lia|]. cbn [length] in *. cbn [path_loop].
      specialize (IH r fuel (s ++ [le_get [a; b]]) ltac:(lia) ltac:(lia)). destruct (path_loop fuel _ r); [|destruct IH|exact IH].
      rewrite app_length in IH. cbn [length] in IH. lia.
Qed.

Lemma path_four p fuel : length p = 4%nat -> (length p < fuel)%nat -> exists a b c d, p = [a; b; c; d] /\ path_loop fuel [] p = Ok [le_get [a; b]; le_get [c; d]].
Proof.
  intros L F. destruct p as [|a [|b [|c [|d [|]]]]]; try discriminate L. exists a, b, c, d. split; [reflexivity|].
  cbn [length] in F. destruct fuel as [|[|[|fuel]]]; try lia. reflexivity.
Qed.

Lemma le_get2 a b : le_get [a; b] = b2n a + 256 * b2n b.
Proof. cbn [le_get]. lia. Qed.

(** outcome of one key element *)
Lemma electrum_key_cases H p :
  match p with
  | [] => electrum_key H p = Panic
  | c :: t =>
      if byte_eqb c xff then
        if Nat.ltb (length t) 78 || Nat.odd (length t) then electrum_key H p = Panic
        else if Nat.eqb (length t) 82 then
          exists xpub i j, electrum_elem p xpub i j /\ electrum_key H p = hd_derive H (b58_encode_missing_checksum xpub) i j
        else electrum_key H p = Err EPath2Items
      else electrum_key H p = Err EElectrumFF
  end.
Proof.
  destruct p as [|c t]; [reflexivity|]. unfold electrum_key. cbn [first_byte bind]. destruct (byte_eqb c xff) eqn:C; cbn [negb]; [|reflexivity].
  apply byte_eqb_eq in C. subst c. cbv zeta. change (skipn 1 (xff :: t)) with t.
  destruct (Nat.ltb_spec (length t) 78) as [L|L]; cbn [orb]; [reflexivity|].
  set (p := skipn 78 t). assert (length p = (length t - 78)%nat) as LP by (unfold p; apply skipn_length).
  assert (t = firstn 78 t ++ p) as E by (symmetry; apply firstn_skipn).
  assert (length (firstn 78 t) = 78%nat) as L78 by (rewrite firstn_length; lia).
  pose proof (path_loop_len (length p) p (S (length p)) [] ltac:(lia) ltac:(lia)) as Q.
  assert (Nat.odd (length t) = Nat.odd (length p)) as OD.
  { replace (length t) with (78 + length p)%nat by lia. rewrite Nat.odd_add. change (Nat.odd 78) with false. now destruct (Nat.odd (length p)). }
  rewrite OD. destruct (Nat.odd (length p)) eqn:O.
  { rewrite path_loop_spec by lia. rewrite O. reflexivity. }
  destruct (Nat.eqb_spec (length t) 82) as [L82|N82].
  - destruct (path_four p (S (length p)) ltac:(lia) ltac:(lia)) as (a & b & c & d & P & ->). cbn [bind].
    exists (firstn 78 t), (le_get [a; b]), (le_get [c; d]). split; [|reflexivity].
    exists a, b, c, d. rewrite !le_get2. split; [|auto]. rewrite E at 1. rewrite P. reflexivity.
  - destruct (path_loop (S (length p)) [] p) as [l|e|] eqn:X; [|destruct Q|congruence]. cbn [bind].
    destruct Q as [Q _]. cbn [length] in Q.
    destruct l as [|i [|j [|k l]]]; try reflexivity. cbn [length] in Q. lia.
Qed.

Lemma electrum_elem_inj p x i j x' i' j' : electrum_elem p x i j -> electrum_elem p x' i' j' -> x = x' /\ i = i' /\ j = j'.
Proof.
  intros (a & b & c & d & E & L & -> & ->) (a' & b' & c' & d' & E' & L' & -> & ->). rewrite E in E'.
  assert (x ++ [a; b; c; d] = x' ++ [a'; b'; c'; d']) as F by congruence. apply app_eq_len in F; [|lia].
  destruct F as [-> F]. injection F as -> -> -> ->. auto.
Qed.

Lemma hd_derive_ok H t i j pub : hd_derive H t i j = Ok pub <->
  exists k k1 k2, hd_parse H t = Ok k /\ hd_child H k i = Ok k1 /\ hd_child H k1 j = Ok k2 /\ hd_pub H k2 = Ok pub.
Proof.
  unfold hd_derive. split.
  - intros E. destruct (hd_parse H t) as [k|e|] eqn:K; try discriminate E. cbn [bind] in E.
    destruct (hd_child H k i) as [k1|e|] eqn:K1; try discriminate E. cbn [bind] in E.
    destruct (hd_child H k1 j) as [k2|e|] eqn:K2; try discriminate E. cbn [bind] in E. exists k, k1, k2. auto.
  - intros (k & k1 & k2 & -> & K1 & K2 & P). cbn [bind]. rewrite K1. cbn [bind]. rewrite K2. exact P.
Qed.

Lemma b58_of_iff s b : b58_of s b <-> s = b58_encode b.
Proof. split; [intros E; symmetry; now apply b58_of_encode|intros ->; apply b58_encode_of]. Qed.

Lemma electrum_key_ok H p pub : electrum_key H p = Ok pub <-> derived_key H p pub.
Proof.
  pose proof (electrum_key_cases H p) as C. split.
  - intros E. destruct p as [|c t]; [congruence|]. destruct (byte_eqb c xff); [|congruence].
    destruct (Nat.ltb (length t) 78 || Nat.odd (length t)); [congruence|]. destruct (Nat.eqb (length t) 82); [|congruence].
    destruct C as (xpub & i & j & S & D). rewrite E in D. symmetry in D. apply hd_derive_ok in D as (k & k1 & k2 & A1 & A2 & A3 & A4).
    exists xpub, i, j, (b58_encode_missing_checksum xpub), k, k1, k2. split; [assumption|]. split; [apply b58_of_iff; reflexivity|auto].
  - intros (xpub & i & j & txt & k & k1 & k2 & S & T & A). apply b58_of_iff in T.
    pose proof S as S'. destruct S' as (a & b & c & d & -> & L & _ & _). change (byte_eqb xff xff) with true in C. cbv iota in C.
    rewrite app_length, L in C. change (length [a; b; c; d]) with 4%nat in C. change (Nat.ltb (78 + 4) 78 || Nat.odd (78 + 4)) with false in C.
    change (Nat.eqb (78 + 4) 82) with true in C. cbv iota in C. destruct C as (xpub' & i' & j' & S2 & ->).
    destruct (electrum_elem_inj _ _ _ _ _ _ _ S S2) as (<- & <- & <-). apply hd_derive_ok. exists k, k1, k2. subst txt. exact A.
Qed.

Lemma F2_length {A B} (R : A -> B -> Prop) l l' : Forall2 R l l' -> length l = length l'.
Proof. induction 1; cbn [length]; congruence. Qed.

Lemma mapM_ok {A B} (f : A -> res B) l ys : mapM f l = Ok ys <-> Forall2 (fun x y => f x = Ok y) l ys.
Proof.
  revert ys. induction l as [|x l IH]; intros ys; cbn [mapM].
  - split; [intros E; injection E as <-; constructor|intros F; now inversion F].
  - split.
    + intros E. destruct (f x) as [y|e|] eqn:X; try discriminate E. cbn [bind] in E.
      destruct (mapM f l) as [zs|e|]; try discriminate E. cbn [bind] in E. assert (ys = y :: zs) as -> by congruence.
      constructor; [exact X|now apply IH].
    + intros F. inversion F as [|x' y l' ys' X Q]; subst. rewrite X. cbn [bind]. apply IH in Q. rewrite Q. reflexivity.
Qed.

Lemma mapM_panic {A B} (f : A -> res B) l : mapM f l = Panic <->
  exists l1 x l2, l = l1 ++ x :: l2 /\ (forall y, In y l1 -> exists z, f y = Ok z) /\ f x = Panic.
Proof.
  induction l as [|x l IH]; cbn [mapM].
  - split; [discriminate|]. intros (l1 & y & l2 & E & _). destruct l1; discriminate.
  - split.
    + intros E. destruct (f x) as [y|e|] eqn:X; cbn [bind] in E; [|discriminate E|].
      * destruct (mapM f l) as [zs|e|]; try discriminate E. destruct IH as [IH _]. destruct (IH eq_refl) as (l1 & w & l2 & -> & A1 & P).
        exists (x :: l1), w, l2. split; [reflexivity|]. split; [|exact P]. intros v [<-|I]; eauto.
      * exists [], x, l. split; [reflexivity|]. split; [intros y []|exact X].
    + intros (l1 & w & l2 & E & A1 & P). destruct l1 as [|v l1]; cbn [app] in E.
      * assert (x = w) as -> by congruence. now rewrite P.
      * assert (x = v) as -> by congruence. assert (l = l1 ++ w :: l2) as -> by congruence. destruct (A1 v ltac:(now left)) as (z & ->). cbn [bind].
        destruct IH as [_ IH]. rewrite IH; [reflexivity|]. exists l1, w, l2. split; [reflexivity|]. split; [intros y I; apply A1; now right|exact P].
Qed.

(** the import in terms of the decoded elements *)
Definition electrum_parts (H : hdlib) (a : bytes) (m : list bytes) (b c : bytes) : res redeem :=
  match a with
  | [] => Panic
  | c0 :: _ =>
      if (b2n c0 <? 82) || (95 <? b2n c0) then Err (if ((b2n c0 + 256 - 80) mod 256 <? 2) then ESigsMin else ESigsMax15)
      else match b, c with
      | [], _ => Panic
      | _, [] => Panic
      | cn :: _, cl :: _ =>
          if byte_eqb cl xae then
            keys <- mapM (electrum_key H) m ;;
            if nlen keys =? (b2n cn + 176) mod 256 then Ok (mk_rs (Z.of_N (b2n c0 - 80)) keys) else Err EKeyCount
          else Err ECheckMultisig
      end
  end.

Lemma sub80 c : ((b2n c + 256 - 80) mod 256 <? 2) || (15 <? (b2n c + 256 - 80) mod 256) = (b2n c <? 82) || (95 <? b2n c).
Proof. destruct c; reflexivity. Qed.

Lemma electrum_eq H s bs a m b c : hex_dec s = Some bs -> decode_parts bs = Ok (a :: m ++ [b; c]) ->
  redeem_from_electrum H s = electrum_parts H a m b c.
Proof.
  intros HX D. apply of_hex_ok in HX. unfold redeem_from_electrum, decode_string_parts. rewrite HX. cbn [bind]. rewrite D. cbn [bind]. cbv zeta.
  set (n := length (a :: m ++ [b; c])).
  assert (n = (3 + length m)%nat) as En by (unfold n; cbn [length]; rewrite app_length; cbn [length]; lia).
  replace (Nat.eqb n 0) with false by lia. replace (Nat.ltb n 2) with false by lia. replace (Nat.ltb n 3) with false by lia.
  change (nth 0 (a :: m ++ [b; c]) []) with a.
  assert (firstn (n - 3) (skipn 1 (a :: m ++ [b; c])) = m) as -> by (cbn [skipn]; rewrite En, firstn_len by lia; reflexivity).
  assert (nth (n - 2) (a :: m ++ [b; c]) [] = b) as ->.
  { rewrite En. replace (3 + length m - 2)%nat with (S (length m)) by lia. cbn [nth]. rewrite app_nth2 by lia. now rewrite Nat.sub_diag. }
  assert (nth (n - 1) (a :: m ++ [b; c]) [] = c) as ->.
  { rewrite En. replace (3 + length m - 1)%nat with (S (S (length m))) by lia. cbn [nth]. rewrite app_nth2 by lia. replace (S (length m) - length m)%nat with 1%nat by lia. reflexivity. }
  unfold electrum_parts. destruct a as [|c0 a]; [reflexivity|]. cbn [first_byte bind]. change (b2n OpBASE) with 80.
  rewrite <- sub80. destruct ((b2n c0 + 256 - 80) mod 256 <? 2) eqn:S1; cbn [orb]; [reflexivity|].
  destruct (15 <? (b2n c0 + 256 - 80) mod 256) eqn:S2; [reflexivity|].
  destruct b as [|cn b]; [reflexivity|]. cbn [first_byte bind]. destruct c as [|cl c]; [reflexivity|]. cbn [first_byte bind].
  change OpCHECKMULTISIG with xae. destruct (byte_eqb cl xae); cbn [negb]; [|reflexivity].
  destruct (mapM (electrum_key H) m) as [keys|e|]; cbn [bind]; [|reflexivity..].
  replace (b2n cn + 256 - 80) with (b2n cn + 176) by lia. destruct (nlen keys =? (b2n cn + 176) mod 256); cbn [negb]; [|reflexivity].
  do 2 f_equal. pose proof (sub80 c0) as S3. rewrite S1, S2 in S3. cbn [orb] in S3. pose proof (b2n_lt c0).
  assert (82 <= b2n c0 <= 95) by lia. replace (b2n c0 + 256 - 80) with (b2n c0 - 80 + 1 * 256) by lia. rewrite N.mod_add by discriminate. rewrite N.mod_small by lia. reflexivity.
Qed.

Lemma electrum_short H s bs ps : hex_dec s = Some bs -> decode_parts bs = Ok ps -> (length ps < 3)%nat ->
  redeem_from_electrum H s =
  match ps with
  | [] => Err EFiveParts
  | a :: r =>
      match a with
      | [] => Panic
      | c0 :: _ =>
          if (b2n c0 <? 82) || (95 <? b2n c0) then Err (if ((b2n c0 + 256 - 80) mod 256 <? 2) then ESigsMin else ESigsMax15)
          else match r with
               | [] => Panic
               | [] :: _ => Panic
               | (cl :: _) :: _ => if byte_eqb cl xae then Panic else Err ECheckMultisig
               end
      end
  end.
Proof.
  intros HX D L. apply of_hex_ok in HX. unfold redeem_from_electrum, decode_string_parts. rewrite HX. cbn [bind]. rewrite D. cbn [bind]. cbv zeta.
  destruct ps as [|a [|b [|]]]; try (cbn [length] in L; lia); cbn [length Nat.eqb nth]; [reflexivity| |];
    (destruct a as [|c0 a]; [reflexivity|]); cbn [first_byte bind]; change (b2n OpBASE) with 80; rewrite <- sub80;
    destruct ((b2n c0 + 256 - 80) mod 256 <? 2) eqn:S1; cbn [orb]; try reflexivity;
    destruct (15 <? (b2n c0 + 256 - 80) mod 256) eqn:S2; try reflexivity.
  change (Nat.ltb 2 2) with false. change (2 - 2)%nat with 0%nat. change (2 - 1)%nat with 1%nat. cbn [nth first_byte bind].
  destruct b as [|cl b]; [reflexivity|]. cbn [first_byte bind]. change OpCHECKMULTISIG with xae. destruct (byte_eqb cl xae); reflexivity.
Qed.

Lemma electrum_ok_iff H s rs : redeem_from_electrum H s = Ok rs <->
  exists bs c0 t0 ks cn tn tl pubs, hex_dec s = Some bs /\ safe_elems bs ((c0 :: t0) :: ks ++ [cn :: tn; xae :: tl]) /\
    82 <= b2n c0 <= 95 /\ Forall2 (derived_key H) ks pubs /\ nlen ks < 256 /\ b2n cn = (80 + nlen ks) mod 256 /\
    rs = mk_rs (Z.of_N (b2n c0 - 80)) pubs.
Proof.
  assert (forall m pubs, Forall2 (derived_key H) m pubs <-> mapM (electrum_key H) m = Ok pubs) as FM.
  { intros m pubs. rewrite mapM_ok. split; intros F; induction F; constructor; try assumption; now apply electrum_key_ok. }
  assert (forall (cn : byte) k, k = (b2n cn + 176) mod 256 <-> k < 256 /\ b2n cn = (80 + k) mod 256) as CN.
  { intros cn k. pose proof (b2n_lt cn). pose proof (N.div_mod (b2n cn + 176) 256). pose proof (N.mod_lt (b2n cn + 176) 256).
    pose proof (N.div_mod (80 + k) 256). pose proof (N.mod_lt (80 + k) 256). split; intros; nia. }
  split.
  - intros E. destruct (hex_dec s) as [bs|] eqn:HX.
    2:{ unfold redeem_from_electrum, decode_string_parts in E. destruct (of_hex s) as [b|e|] eqn:O; try discriminate E. apply of_hex_ok in O. congruence. }
    destruct (decode_parts bs) as [ps|e|] eqn:D;
      try (unfold redeem_from_electrum, decode_string_parts in E; pose proof HX as O; apply of_hex_ok in O; rewrite O in E; cbn [bind] in E; rewrite D in E; discriminate E).
    destruct (Nat.lt_ge_cases (length ps) 3) as [L|L].
    { rewrite (electrum_short _ _ _ _ HX D L) in E. destruct ps as [|[|c0 a] r]; try discriminate E.
      destruct ((b2n c0 <? 82) || (95 <? b2n c0)); [discriminate E|]. destruct r as [|[|cl b] r]; try discriminate E. destruct (byte_eqb cl xae); discriminate E. }
    destruct (three_split ps L) as (a & m & b & c & ->). rewrite (electrum_eq _ _ _ _ _ _ _ HX D) in E. unfold electrum_parts in E.
    destruct a as [|c0 a]; [discriminate E|]. destruct ((b2n c0 <? 82) || (95 <? b2n c0)) eqn:R; [discriminate E|].
    destruct b as [|cn b]; [discriminate E|]. destruct c as [|cl c]; [discriminate E|]. destruct (byte_eqb cl xae) eqn:CL; [|discriminate E].
    apply byte_eqb_eq in CL. subst cl. destruct (mapM (electrum_key H) m) as [pubs|e|] eqn:M; cbn [bind] in E; try discriminate E.
    destruct (N.eqb_spec (nlen pubs) ((b2n cn + 176) mod 256)) as [K|K]; [|discriminate E].
    apply FM in M. assert (nlen m = nlen pubs) as LM by (unfold nlen; f_equal; now apply F2_length in M).
    assert (nlen m < 256 /\ b2n cn = (80 + nlen m) mod 256) as [K1 K2] by (rewrite LM; now apply CN).
    exists bs, c0, a, m, cn, b, c, pubs. apply decode_ok_iff in D.
    split; [reflexivity|]. split; [exact D|]. split; [lia|]. split; [exact M|]. split; [exact K1|]. split; [exact K2|congruence].
  - intros (bs & c0 & t0 & ks & cn & tn & tl & pubs & HX & S & R & F & K1 & K2 & ->). apply decode_ok_iff in S.
    rewrite (electrum_eq _ _ _ _ _ _ _ HX S). unfold electrum_parts. replace ((b2n c0 <? 82) || (95 <? b2n c0)) with false by lia.
    change (byte_eqb xae xae) with true. cbv iota. assert (nlen ks = nlen pubs) as LM by (unfold nlen; f_equal; now apply F2_length in F).
    apply FM in F. rewrite F. cbn [bind]. rewrite LM in *. pose proof (proj2 (CN cn (nlen pubs)) (conj K1 K2)) as K.
    rewrite <- K, N.eqb_refl. reflexivity.
Qed.

(** ** panics of the import, for key libraries that do not panic themselves *)

Lemma derive_total H t i j : hd_total H -> hd_derive H t i j <> Panic.
Proof.
  intros (A & B & C). unfold hd_derive. destruct (hd_parse H t) as [k|e|] eqn:K; cbn [bind]; [|discriminate|now apply A in K].
  destruct (hd_child H k i) as [k1|e|] eqn:K1; cbn [bind]; [|discriminate|now apply B in K1].
  destruct (hd_child H k1 j) as [k2|e|] eqn:K2; cbn [bind]; [|discriminate|now apply B in K2]. apply C.
Qed.

Lemma electrum_key_panic H p : hd_total H -> electrum_key H p = Panic <-> electrum_bad p.
Proof.
  intros T. pose proof (electrum_key_cases H p) as C. unfold electrum_bad. destruct p as [|c t]; [tauto|].
  destruct (byte_eqb c xff) eqn:X.
  - apply byte_eqb_eq in X. subst c. destruct (Nat.ltb (length t) 78 || Nat.odd (length t)) eqn:Y.
    + split; [intros _; right|now intros _]. exists t. split; [reflexivity|]. apply orb_true_iff in Y as [Y|Y]; [left; lia|now right].
    + apply orb_false_iff in Y as [Y1 Y2]. split; [|intros [Q|(t' & Q & [Q2|Q2])]; [discriminate Q|..]; (assert (t = t') as <- by congruence); [lia|congruence]].
      intros E. exfalso. destruct (Nat.eqb (length t) 82); [|congruence]. destruct C as (x & i & j & _ & D). rewrite E in D. symmetry in D. now apply derive_total in D.
  - split; [congruence|]. intros [Q|(t' & Q & _)]; [discriminate Q|]. assert (c = xff) as -> by congruence. discriminate X.
Qed.

Lemma two_tail {A} (ks ks' : list A) b e b' e' : ks ++ [b; e] = ks' ++ [b'; e'] -> ks = ks' /\ b = b' /\ e = e'.
Proof.
  intros E. change [b; e] with ([b] ++ [e]) in E. change [b'; e'] with ([b'] ++ [e']) in E. rewrite !app_assoc in E.
  apply app_inj_tail in E as [E ->]. apply app_inj_tail in E as [-> ->]. auto.
Qed.

Lemma electrum_panic_iff H s : hd_total H -> redeem_from_electrum H s = Panic <->
  exists bs, hex_dec s = Some bs /\ (decode_parts bs = Panic \/ exists ps, safe_elems bs ps /\ electrum_panics H ps).
Proof.
  intros T. destruct (hex_dec s) as [bs|] eqn:HX.
  2:{ split; [|intros (bs & X & _); discriminate X]. intros E. exfalso. unfold redeem_from_electrum, decode_string_parts in E.
      destruct (of_hex s) as [b|e|] eqn:O; cbn [bind] in E; [apply of_hex_ok in O; congruence|discriminate E|].
      unfold of_hex in O. destruct (hex_decode s) as [t [e|]]; discriminate O. }
  assert ((exists bs0, Some bs = Some bs0 /\ (decode_parts bs0 = Panic \/ exists ps, safe_elems bs0 ps /\ electrum_panics H ps)) <->
          (decode_parts bs = Panic \/ exists ps, safe_elems bs ps /\ electrum_panics H ps)) as ->.
  { split; [intros (x & E & Q); now injection E as <-|eauto]. }
  pose proof HX as O. apply of_hex_ok in O.
  destruct (decode_parts bs) as [ps|e|] eqn:D.
  2:{ unfold redeem_from_electrum, decode_string_parts. rewrite O. cbn [bind]. rewrite D. cbn [bind].
      split; [discriminate|]. intros [X|(ps & S & _)]; [discriminate X|]. apply decode_ok_iff in S. congruence. }
  2:{ unfold redeem_from_electrum, decode_string_parts. rewrite O. cbn [bind]. rewrite D. cbn [bind]. tauto. }
  assert ((Ok ps = Panic \/ exists qs, safe_elems bs qs /\ electrum_panics H qs) <-> electrum_panics H ps) as ->.
  { split; [intros [X|(qs & S & Q)]; [discriminate X|]; apply decode_ok_iff in S; congruence|].
    intros Q. right. exists ps. split; [now apply decode_ok_iff|exact Q]. }
  destruct (Nat.lt_ge_cases (length ps) 3) as [L|L].
  - rewrite (electrum_short _ _ _ _ HX D L). unfold electrum_panics.
    destruct ps as [|a r]; [split; [discriminate|intros [(r & X)|(c & t & r & X & _)]; discriminate X]|].
    destruct a as [|c0 a]; [split; [intros _; left; eauto|reflexivity]|].
    destruct ((b2n c0 <? 82) || (95 <? b2n c0)) eqn:R.
    { split; [discriminate|]. intros [(r' & X)|(c & t & r' & X & B & _)]; [discriminate X|]. assert (c0 = c) as -> by congruence. lia. }
    destruct r as [|q r].
    { split; [intros _; right; exists c0, a, []; split; [reflexivity|]; split; [lia|now left]|reflexivity]. }
    destruct r; [|cbn [length] in L; lia]. destruct q as [|cl q].
    { split; [intros _; right; exists c0, a, [[]]; split; [reflexivity|]; split; [lia|right; now left]|reflexivity]. }
    destruct (byte_eqb cl xae) eqn:CL.
    + apply byte_eqb_eq in CL. subst cl. split; [intros _; right; exists c0, a, [xae :: q]; split; [reflexivity|]; split; [lia|]; right; right; left; eauto|reflexivity].
    + split; [discriminate|]. intros [(r' & X)|(c & t & r' & X & B & Q)]; [discriminate X|]. injection X as <- <- <-. exfalso.
      destruct Q as [Q|[Q|[(tl & Q)|(ks & b & e & Q & _)]]]; [discriminate Q|discriminate Q| |].
      * assert (cl = xae) as -> by congruence. discriminate CL.
      * apply (f_equal (@length _)) in Q. rewrite app_length in Q. cbn [length] in Q. lia.
  - destruct (three_split ps L) as (a & m & b & c & ->). rewrite (electrum_eq _ _ _ _ _ _ _ HX D). unfold electrum_parts, electrum_panics.
    destruct a as [|c0 a]; [split; [intros _; left; eauto|reflexivity]|].
    destruct ((b2n c0 <? 82) || (95 <? b2n c0)) eqn:R.
    { split; [discriminate|]. intros [(r' & X)|(c' & t & r' & X & B & _)]; [discriminate X|]. assert (c0 = c') as -> by congruence. lia. }
    split.
    + intros E. right. exists c0, a, (m ++ [b; c]). split; [reflexivity|]. split; [lia|]. right. right. right. exists m, b, c. split; [reflexivity|].
      destruct b as [|cn b]; [now left|right]. destruct c as [|cl c]; [now left|right]. destruct (byte_eqb cl xae) eqn:CL; [|discriminate E].
      apply byte_eqb_eq in CL. split; [exact CL|]. destruct (mapM (electrum_key H) m) as [keys|e|] eqn:M; cbn [bind] in E.
      { destruct (nlen keys =? _); discriminate E. } { discriminate E. }
      apply mapM_panic in M as (l1 & x & l2 & -> & A & P). exists l1, x, l2. split; [reflexivity|]. split; [|now apply (electrum_key_panic H)].
      intros q I. destruct (A q I) as (z & Z). exists z. now apply electrum_key_ok.
    + intros [(r' & X)|(c' & t & r' & X & B & Q)]; [discriminate X|]. injection X as <- <- <-.
      destruct Q as [Q|[Q|[(tl & Q)|(ks & b' & e & Q & W)]]].
      * apply (f_equal (@length _)) in Q. rewrite app_length in Q. cbn [length] in Q. lia.
      * apply (f_equal (@length _)) in Q. rewrite app_length in Q. cbn [length] in Q. lia.
      * apply (f_equal (@length _)) in Q. rewrite app_length in Q. cbn [length] in Q. lia.
      * apply two_tail in Q as (<- & <- & <-). destruct W as [->|[->|(S & l1 & p & l2 & -> & A & P)]]; [reflexivity|now destruct b|].
        destruct b as [|cn b]; [reflexivity|]. destruct c as [|cl c]; [reflexivity|]. cbn [starts] in S. subst cl. change (byte_eqb xae xae) with true. cbv iota.
        assert (mapM (electrum_key H) (l1 ++ p :: l2) = Panic) as ->; [|reflexivity].
        apply mapM_panic. exists l1, p, l2. split; [reflexivity|]. split; [|now apply electrum_key_panic]. intros y I. destruct (A y I) as (z & Z). exists z. now apply electrum_key_ok.
Qed.

(** ** histories of calls *)

Lemma get_hash_snd rs : snd (get_redeem_script_hash rs) = snd (get_redeem_script rs).
Proof. unfold get_redeem_script_hash. now destruct (get_redeem_script rs). Qed.
Lemma get_addr_snd rs : snd (redeem_get_address rs) = snd (get_redeem_script rs).
Proof. unfold redeem_get_address. now destruct (get_redeem_script rs). Qed.

Lemma run_adds H h : forall rs rs' ks, run_redeem H rs h = Ok rs' -> adds H h ks ->
  sigs_required rs' = sigs_required rs /\ Permutation (public_keys rs ++ ks) (public_keys rs').
Proof.
  induction h as [|c h IH]; intros rs rs' ks R A.
  - cbn [run_redeem] in R. inversion A; subst. assert (rs = rs') as -> by congruence. rewrite app_nil_r. auto.
  - assert (forall rs0, sigs_required rs0 = sigs_required rs -> Permutation (public_keys rs) (public_keys rs0) ->
      run_redeem H rs0 h = Ok rs' -> adds H h ks -> sigs_required rs' = sigs_required rs /\ Permutation (public_keys rs ++ ks) (public_keys rs')) as G.
    { intros rs0 S P R0 A0. destruct (IH _ _ _ R0 A0) as [S1 P1]. split; [congruence|]. rewrite <- P1. now apply Permutation_app_tail. }
    assert (sigs_required (snd (get_redeem_script rs)) = sigs_required rs /\ Permutation (public_keys rs) (public_keys (snd (get_redeem_script rs)))) as [GS GP].
    { rewrite redeem_value. cbn [snd sigs_required public_keys]. split; [reflexivity|apply sort_perm]. }
    inversion A as [|k i j r ks0 x x1 x2 pub E1 E2 E3 E4 A0|k i j r ks0 NE A0|k p r ks0 L A0|r ks0 A0|r ks0 A0|r ks0 A0]; subst; cbn [run_redeem] in R.
    + unfold add_public_key in R. assert (hd_derive H k i j = Ok pub) as D by (apply hd_derive_ok; exists x, x1, x2; auto). rewrite D in R. cbn [bind] in R.
      destruct (IH _ _ _ R A0) as [S1 P1]. cbn [sigs_required public_keys] in *. split; [exact S1|]. rewrite <- P1, <- app_assoc. reflexivity.
    + unfold add_public_key in R. destruct (hd_derive H k i j) as [pub|e|] eqn:D; cbn [bind] in R; [|now apply (G rs)|discriminate R].
      apply hd_derive_ok in D as (x & x1 & x2 & E1 & E2 & E3 & E4). exfalso. now apply (NE x x1 x2 pub).
    + unfold add_public_key in R. destruct p as [|i [|j [|]]]; cbn [bind] in R; try (now apply (G rs)).
    + now apply (G (snd (get_redeem_script rs))).
    + rewrite get_hash_snd in R. now apply (G (snd (get_redeem_script rs))).
    + rewrite get_addr_snd in R. now apply (G (snd (get_redeem_script rs))).
Qed.
