(** Proofs about DecodeParts and its callers with a 32-bit [int] (C93). *)
From Verif Require Export P_Word P_Push.
From Coq Require Import ZifyBool ZifyNat ZifyN.

Lemma cmp32 n e : (e <? 2147483648) = true -> (Z.of_N n <? int_at 32 e)%Z = (n <? e).
Proof. intros H. unfold int_at. rewrite wrap32_small by (unfold two31; lia). lia. Qed.

Lemma part32_x4e b : nlen b < 2147483648 ->
  decode_part_at 32 x4e b =
  if 5 <=? nlen b then
    if 2147483648 <=? wrap32 (5 + le_get (firstn 4 (skipn 1 b))) then Panic else decode_part x4e b
  else decode_part x4e b.
Proof.
  intros L. unfold decode_part_at, decode_part. cbv zeta.
  destruct (nlen b <? 5) eqn:E5; [replace (5 <=? nlen b) with false by lia; reflexivity|].
  replace (5 <=? nlen b) with true by lia.
  set (e := wrap32 (5 + le_get (firstn 4 (skipn 1 b)))).
  assert (e < 4294967296) as B by (apply N.mod_lt; discriminate). clearbody e.
  destruct (2147483648 <=? e) eqn:E.
  - replace (Z.of_N (nlen b) <? int_at 32 e)%Z with false
      by (unfold int_at, wrap_at; change (2 ^ (32 - 1))%Z with 2147483648%Z; change (2 ^ 32)%Z with 4294967296%Z; lia).
    unfold bsub. replace (e <=? nlen b) with false by lia. rewrite andb_false_r. reflexivity.
  - rewrite cmp32 by lia. reflexivity.
Qed.

Lemma le_get_2 b : le_get (firstn 2 b) < 65536.
Proof.
  pose proof (le_get_bound (firstn 2 b)) as B.
  assert (length (firstn 2 b) <= 2)%nat as L by (rewrite firstn_length; lia).
  eapply N.lt_le_trans; [exact B|]. change 65536 with (256 ^ 2). apply N.pow_le_mono_r; lia.
Qed.

Lemma part32_other c b : c <> x4e -> decode_part_at 32 c b = decode_part c b.
Proof.
  intros N. destruct c; try congruence; unfold decode_part_at, decode_part; cbv zeta;
    try (rewrite cmp32 by reflexivity; reflexivity); try reflexivity.
  - rewrite cmp32; [reflexivity|]. pose proof (b2n_lt (nth 1 b x00)). lia.
  - rewrite cmp32; [reflexivity|]. unfold wrap16. pose proof (N.mod_lt (3 + le_get (firstn 2 (skipn 1 b))) 65536). lia.
Qed.

Lemma part32 b : nlen b < 2147483648 -> ~ huge b -> decode_part_at 32 (hd x00 b) b = decode_part (hd x00 b) b.
Proof.
  intros L H. destruct b as [|c b]; [reflexivity|]. cbn [hd].
  destruct (byte_eqb c x4e) eqn:E; [apply byte_eqb_eq in E; subst c|].
  2:{ apply part32_other. intros ->. discriminate E. }
  rewrite part32_x4e by assumption.
  destruct (5 <=? nlen (x4e :: b)) eqn:E5; [|reflexivity].
  destruct (2147483648 <=? wrap32 (5 + le_get (firstn 4 (skipn 1 (x4e :: b))))) eqn:E; [|reflexivity].
  exfalso. apply H. cbn [skipn] in E. rewrite <- (firstn_skipn 4 b). unfold nlen in E5. cbn [length] in E5.
  assert (length (firstn 4 b) = 4%nat) as L4 by (rewrite firstn_length; lia).
  constructor; [assumption|].
  pose proof (le_get_bound (firstn 4 b)) as B. rewrite L4 in B. change (256 ^ N.of_nat 4) with 4294967296 in B.
  change (2 ^ 31) with 2147483648. change (2 ^ 32) with 4294967296. unfold wrap32 in E. lia.
Qed.

Lemma part32_huge t : nlen t < 2147483648 -> huge t -> decode_part_at 32 (hd x00 t) t = Panic.
Proof.
  intros L H. destruct H as [l d Ll B]. cbn [hd]. rewrite part32_x4e by assumption.
  change (2 ^ 31) with 2147483648 in B. change (2 ^ 32) with 4294967296 in B.
  cbn [skipn]. rewrite firstn_exact by assumption.
  replace (5 <=? nlen (x4e :: l ++ d)) with true by (unfold nlen; cbn [length]; rewrite app_length; lia).
  unfold wrap32. rewrite N.mod_small by lia. replace (2147483648 <=? 5 + le_get l) with true by lia. reflexivity.
Qed.

Lemma huge_truncated t : nlen t < 2147483648 -> huge t -> truncated t /\ ~ wraps t.
Proof.
  intros L H. destruct H as [l d Ll B]. change (2 ^ 31) with 2147483648 in B. change (2 ^ 32) with 4294967296 in B. split.
  - apply tr_pushdata4; [assumption|]. unfold nlen in *. cbn [length] in L. rewrite app_length in L. lia.
  - intros W. remember (x4e :: l ++ d) as b eqn:E. destruct W as [l' d' L' B'|l' d' L' B']; [discriminate|].
    injection E as E. apply (cut_uniq 4) in E as [-> ->]; try assumption. lia.
Qed.

Lemma elem_not_huge w p r : elem w p -> nlen (w ++ r) < 2147483648 -> ~ huge (w ++ r).
Proof.
  intros E L H. remember (w ++ r) as b eqn:Eb. destruct H as [l d Ll B].
  change (2 ^ 31) with 2147483648 in B. destruct E as [c C|c x C _|c x _|l' x Ll' _|l' x Ll' N];
    cbn [app] in Eb.
  - injection Eb as <- _. destruct C as [C|C]; [discriminate|]. vm_compute in C. now apply C.
  - injection Eb as <- _. destruct C as [_ C]. vm_compute in C. now apply C.
  - discriminate.
  - discriminate.
  - injection Eb as Eb. rewrite <- app_assoc in Eb. apply (cut_uniq 4) in Eb as [E1 E2]; try assumption. subst.
    unfold nlen in *. cbn [length] in L. rewrite !app_length in L. lia.
Qed.

Lemma loop32_cons fuel r b : b <> [] ->
  decode_loop_at 32 (S fuel) r b =
  match decode_part_at 32 (hd x00 b) b with
  | Ok (part, b') => decode_loop_at 32 fuel (r ++ [part]) b'
  | Err e => Ok (r, Some e)
  | Panic => Panic
  end.
Proof. destruct b; [congruence|reflexivity]. Qed.

Lemma loop32_safe fuel r p ps t : safe_elems p ps -> (length (p ++ t) <= fuel)%nat -> nlen (p ++ t) < 2147483648 ->
  exists fuel', (length t <= fuel')%nat /\ decode_loop_at 32 fuel r (p ++ t) = decode_loop_at 32 fuel' (r ++ ps) t.
Proof.
  intros H; revert fuel r; induction H as [|w q b ps E W H IH]; intros fuel r L S.
  - rewrite app_nil_r. exists fuel. split; [assumption|reflexivity].
  - rewrite <- app_assoc in *. pose proof (elem_nonempty _ _ E) as NE.
    destruct fuel as [|f]; [destruct w; [congruence|cbn [app length] in L; lia]|].
    rewrite loop32_cons by (destruct w; [congruence|discriminate]).
    rewrite part32 by (eauto using elem_not_huge).
    rewrite (decode_part_elem w q (b ++ t) E W).
    destruct (IH f (r ++ [q])) as (f' & L' & EQ).
    { destruct w; [congruence|]. cbn [app length] in L. rewrite app_length in L. lia. }
    { unfold nlen in *. rewrite app_length in S. lia. }
    exists f'. split; [assumption|]. rewrite EQ, <- app_assoc. reflexivity.
Qed.

Lemma parts32_huge b : nlen b < 2147483648 -> has_huge b ->
  decode_parts_at 32 b = Panic /\ decode_parts b = Err ENotEnough.
Proof.
  intros L (p & ps & t & -> & S & H).
  assert (nlen t < 2147483648) as Lt by (unfold nlen in *; rewrite app_length in L; lia).
  destruct (huge_truncated t Lt H) as [T W]. split.
  - unfold decode_parts_at.
    destruct (loop32_safe (length (p ++ t)) [] p ps t S (le_n _) L) as (f & Lf & ->). cbn [app].
    assert (t <> []) by (destruct H; discriminate).
    destruct f as [|f]; [destruct t; [congruence|cbn [length] in Lf; lia]|].
    rewrite loop32_cons, part32_huge by assumption. reflexivity.
  - unfold decode_parts. rewrite (full_err p ps t) by assumption. reflexivity.
Qed.

Lemma loop32_same fuel : forall r b, nlen b < 2147483648 -> ~ has_huge b ->
  decode_loop_at 32 fuel r b = decode_loop fuel r b.
Proof.
  induction fuel as [|f IH]; intros r b L H; destruct b as [|c b]; try reflexivity.
  rewrite loop32_cons, decode_loop_cons by discriminate.
  rewrite part32; [|assumption|].
  2:{ intros G. apply H. exists [], [], (c :: b). repeat split; [constructor|assumption]. }
  destruct (classify (c :: b)) as [W|[[T W]|(w & p & r' & E & EL & W)]]; [discriminate| | |].
  - rewrite decode_part_wraps by assumption. reflexivity.
  - rewrite decode_part_truncated by assumption. reflexivity.
  - rewrite E in *. rewrite (decode_part_elem w p r' EL W). apply IH.
    + unfold nlen in *. rewrite app_length in L. lia.
    + intros (q & ps & t & -> & S & G). apply H. exists (w ++ q), (p :: ps), t. rewrite app_assoc.
      repeat split; [|assumption]. now constructor.
Qed.

Lemma parts32_same b : nlen b < 2147483648 -> ~ has_huge b -> decode_parts_at 32 b = decode_parts b.
Proof. intros L H. unfold decode_parts_at, decode_parts, decode_parts_full. now rewrite loop32_same. Qed.

(** deciding whether there is such a push *)
Lemma huge_dec t : huge t \/ ~ huge t.
Proof.
  destruct t as [|c t]; [right; intros H; inversion H|].
  destruct (byte_eqb c x4e) eqn:E; [apply byte_eqb_eq in E; subst c|].
  2:{ right. intros H. inversion H. subst c. discriminate E. }
  destruct (Nat.ltb (length t) 4) eqn:L.
  { right. intros H. inversion H as [l d Ll B E0]. subst t. rewrite app_length in L. lia. }
  destruct ((2 ^ 31 - 5 <=? le_get (firstn 4 t)) && (le_get (firstn 4 t) <? 2 ^ 32 - 5)) eqn:B.
  - left. rewrite <- (firstn_skipn 4 t). constructor; [rewrite firstn_length; lia|lia].
  - right. intros H. inversion H as [l d Ll B' E0]. subst t. rewrite firstn_exact in B by assumption. lia.
Qed.

Lemma has_huge_dec b : nlen b < 2147483648 -> has_huge b \/ ~ has_huge b.
Proof.
  intros L. destruct (trichotomy b) as [[ps S]|[(p & ps & t & -> & S & T & W)|(p & ps & t & -> & S & W)]].
  - right. intros H. apply parts32_huge in H as [_ H]; [|assumption]. apply decode_ok_iff in S. congruence.
  - destruct (huge_dec t) as [G|G]; [left; exists p, ps, t; auto|]. right. intros H.
    apply parts32_huge in H as [H _]; [|assumption]. revert H. unfold decode_parts_at.
    destruct (loop32_safe (length (p ++ t)) [] p ps t S (le_n _) L) as (f & Lf & ->). cbn [app].
    assert (t <> []) by (destruct T; discriminate).
    destruct f as [|f]; [destruct t; [congruence|cbn [length] in Lf; lia]|].
    rewrite loop32_cons, part32 by (try assumption; unfold nlen in *; rewrite app_length in L; lia).
    rewrite decode_part_truncated by assumption. discriminate.
  - right. intros H. apply parts32_huge in H as [_ H]; [|assumption].
    assert (decode_parts (p ++ t) = Panic) by (apply decode_panic_iff; eauto 6). congruence.
Qed.
