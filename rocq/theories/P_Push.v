(** Proofs about script/OpPushdata.go. *)
From Verif Require Export S_Script M_Push P_Utils.
From Coq Require Import ZifyBool ZifyNat ZifyN.

Definition is_special (c : byte) : bool :=
  match c with x4c | x4d | x4e => true | _ => false end.

Lemma decode_part_plain c b : is_special c = false ->
  decode_part c b =
  (if (1 <=? b2n c) && (b2n c <=? 75) then
     if nlen b <? 1 + b2n c then Err ENotEnough else
     part <- bsub b 1 (b2n c + 1) ;; r <- bfrom b (1 + b2n c) ;; Ok (part, r)
   else r <- bfrom b 1 ;; Ok ([c], r)).
Proof. destruct c; cbn [is_special]; intros H; try discriminate; reflexivity. Qed.

Lemma special_cases c : is_special c = true -> c = x4c \/ c = x4d \/ c = x4e.
Proof. destruct c; cbn [is_special]; intros H; try discriminate; auto. Qed.

Lemma plain_n c : is_special c = false -> b2n c < 76 \/ 79 <= b2n c.
Proof. destruct c; cbn [is_special]; intros H; try discriminate; vm_compute; tauto || (left; reflexivity) || (right; discriminate). Qed.

Lemma nlen_cons {A} (x : A) l : nlen (x :: l) = 1 + nlen l.
Proof. unfold nlen. cbn [length]. lia. Qed.

Lemma bsub_app a d r : bsub (a ++ d ++ r) (nlen a) (nlen a + nlen d) = Ok d.
Proof.
  unfold bsub. rewrite !nlen_app.
  replace ((nlen a <=? nlen a + nlen d) && (nlen a + nlen d <=? nlen a + (nlen d + nlen r))) with true by lia.
  f_equal. unfold nlen. rewrite Nat2N.id.
  replace (N.to_nat (N.of_nat (length a) + N.of_nat (length d) - N.of_nat (length a))) with (length d) by lia.
  rewrite skipn_app, skipn_all, Nat.sub_diag. cbn [app skipn].
  rewrite firstn_app, firstn_all, Nat.sub_diag. cbn [firstn]. apply app_nil_r.
Qed.

Lemma bfrom_app a r : bfrom (a ++ r) (nlen a) = Ok r.
Proof.
  unfold bfrom. pose proof (bsub_app a r []) as H. rewrite app_nil_r in H.
  rewrite nlen_app. exact H.
Qed.

(** a header [h], then data [d], then the rest *)
Lemma bsub_hd h d r n m : n = nlen h -> m = nlen h + nlen d -> bsub (h ++ d ++ r) n m = Ok d.
Proof. intros -> ->. apply bsub_app. Qed.

Lemma bfrom_hd h d r n : n = nlen h + nlen d -> bfrom (h ++ d ++ r) n = Ok r.
Proof. intros ->. rewrite app_assoc. replace (nlen h + nlen d) with (nlen (h ++ d)) by apply nlen_app. apply bfrom_app. Qed.

Lemma le_get2_bound l : length l = 2%nat -> le_get l < 65536.
Proof. intros H. pose proof (le_get_bound l). rewrite H in *. exact H0. Qed.

Lemma le_get4_bound l : length l = 4%nat -> le_get l < 4294967296.
Proof. intros H. pose proof (le_get_bound l). rewrite H in *. exact H0. Qed.

Ltac nl := unfold nlen in *; cbn [length] in *; rewrite ?app_length in *; cbn [length] in *; lia.

(** *** Forward direction: a complete element, a truncated one, a wrapping one *)

Lemma decode_part_elem w p r : elem w p -> ~ wraps w ->
  decode_part (hd x00 (w ++ r)) (w ++ r) = Ok (p, r).
Proof.
  intros H W. destruct H as [c Hc|c d Hc Hd|c d Hd|l d Hl Hd|l d Hl Hd].
  - assert (is_special c = false) as S.
    { destruct (is_special c) eqn:E; [|reflexivity]. apply special_cases in E.
      destruct Hc as [->|Hc]; [destruct E as [E|[E|E]]; discriminate|].
      destruct E as [E|[E|E]]; subst; vm_compute in Hc; congruence. }
    cbn [app hd]. rewrite decode_part_plain by assumption.
    assert ((1 <=? b2n c) && (b2n c <=? 75) = false) as ->.
    { destruct Hc as [->|Hc]; [reflexivity|]. lia. }
    change (bfrom (c :: r) 1) with (bfrom ([c] ++ r) (nlen [c])). now rewrite bfrom_app.
  - assert (is_special c = false) as S.
    { destruct (is_special c) eqn:E; [|reflexivity]. apply special_cases in E.
      destruct E as [E|[E|E]]; subst; vm_compute in Hc; destruct Hc; congruence. }
    change ((c :: d) ++ r) with ([c] ++ d ++ r). cbn [hd]. change (hd x00 ([c] ++ d ++ r)) with c.
    rewrite decode_part_plain by assumption.
    replace ((1 <=? b2n c) && (b2n c <=? 75)) with true by lia.
    replace (nlen ([c] ++ d ++ r) <? 1 + b2n c) with false by nl.
    rewrite (bsub_hd [c] d r) by nl. rewrite (bfrom_hd [c] d r) by nl. reflexivity.
  - change (hd x00 ((x4c :: c :: d) ++ r)) with x4c. cbn [decode_part].
    change ((x4c :: c :: d) ++ r) with ([x4c; c] ++ d ++ r).
    change (nth 1 ([x4c; c] ++ d ++ r) x00) with c. cbv zeta.
    replace (nlen ([x4c; c] ++ d ++ r) <? 2) with false by nl.
    replace (nlen ([x4c; c] ++ d ++ r) <? 2 + b2n c) with false by nl.
    rewrite (bsub_hd [x4c; c] d r) by nl. rewrite (bfrom_hd [x4c; c] d r) by nl. reflexivity.
  - pose proof (le_get2_bound l Hl) as B.
    assert (le_get l < 65533).
    { destruct (N.lt_ge_cases (le_get l) 65533); [assumption|]. exfalso; apply W. now constructor. }
    change (hd x00 ((x4d :: l ++ d) ++ r)) with x4d. cbn [decode_part].
    replace ((x4d :: l ++ d) ++ r) with ((x4d :: l) ++ d ++ r) by (cbn [app]; now rewrite <- app_assoc).
    assert (firstn 2 (skipn 1 ((x4d :: l) ++ d ++ r)) = l) as ->.
    { cbn [app skipn]. rewrite <- Hl. rewrite firstn_app, firstn_all, Nat.sub_diag. cbn [firstn]. apply app_nil_r. }
    cbv zeta. unfold wrap16. rewrite N.mod_small by lia.
    replace (nlen ((x4d :: l) ++ d ++ r) <? 3) with false by nl.
    replace (nlen ((x4d :: l) ++ d ++ r) <? 3 + le_get l) with false by nl.
    rewrite (bsub_hd (x4d :: l) d r) by nl. rewrite (bfrom_hd (x4d :: l) d r) by nl. reflexivity.
  - pose proof (le_get4_bound l Hl) as B.
    assert (le_get l < 4294967291).
    { destruct (N.lt_ge_cases (le_get l) 4294967291); [assumption|]. exfalso; apply W. now constructor. }
    change (hd x00 ((x4e :: l ++ d) ++ r)) with x4e. cbn [decode_part].
    replace ((x4e :: l ++ d) ++ r) with ((x4e :: l) ++ d ++ r) by (cbn [app]; now rewrite <- app_assoc).
    assert (firstn 4 (skipn 1 ((x4e :: l) ++ d ++ r)) = l) as ->.
    { cbn [app skipn]. rewrite <- Hl. rewrite firstn_app, firstn_all, Nat.sub_diag. cbn [firstn]. apply app_nil_r. }
    cbv zeta. unfold wrap32. rewrite N.mod_small by lia.
    replace (nlen ((x4e :: l) ++ d ++ r) <? 5) with false by nl.
    replace (nlen ((x4e :: l) ++ d ++ r) <? 5 + le_get l) with false by nl.
    rewrite (bsub_hd (x4e :: l) d r) by nl. rewrite (bfrom_hd (x4e :: l) d r) by nl. reflexivity.
Qed.

Lemma firstn_len {A} k (l d : list A) : length l = k -> firstn k (l ++ d) = l.
Proof. intros <-. rewrite firstn_app, firstn_all, Nat.sub_diag. cbn [firstn]. apply app_nil_r. Qed.

Lemma decode_part_truncated t : truncated t -> ~ wraps t ->
  decode_part (hd x00 t) t = Err ENotEnough.
Proof.
  intros H W. destruct H as [c d Hc Hd| |c d Hd|l Hl|l d Hl Hd|l Hl|l d Hl Hd]; cbn [hd].
  - assert (is_special c = false) as S.
    { destruct (is_special c) eqn:E; [|reflexivity]. apply special_cases in E.
      destruct E as [E|[E|E]]; subst; vm_compute in Hc; destruct Hc; congruence. }
    rewrite decode_part_plain by assumption.
    replace ((1 <=? b2n c) && (b2n c <=? 75)) with true by lia.
    replace (nlen (c :: d) <? 1 + b2n c) with true by nl. reflexivity.
  - reflexivity.
  - cbn [decode_part nth]. replace (nlen (x4c :: c :: d) <? 2) with false by nl.
    cbv zeta. replace (nlen (x4c :: c :: d) <? 2 + b2n c) with true by nl. reflexivity.
  - cbn [decode_part]. replace (nlen (x4d :: l) <? 3) with true by nl. reflexivity.
  - pose proof (le_get2_bound l Hl) as B.
    assert (le_get l < 65533).
    { destruct (N.lt_ge_cases (le_get l) 65533); [assumption|]. exfalso; apply W. now constructor. }
    cbn [decode_part skipn]. rewrite (firstn_len 2 l d Hl). cbv zeta.
    unfold wrap16. rewrite N.mod_small by lia.
    replace (nlen (x4d :: l ++ d) <? 3) with false by nl.
    replace (nlen (x4d :: l ++ d) <? 3 + le_get l) with true by nl. reflexivity.
  - cbn [decode_part]. replace (nlen (x4e :: l) <? 5) with true by nl. reflexivity.
  - pose proof (le_get4_bound l Hl) as B.
    assert (le_get l < 4294967291).
    { destruct (N.lt_ge_cases (le_get l) 4294967291); [assumption|]. exfalso; apply W. now constructor. }
    cbn [decode_part skipn]. rewrite (firstn_len 4 l d Hl). cbv zeta.
    unfold wrap32. rewrite N.mod_small by lia.
    replace (nlen (x4e :: l ++ d) <? 5) with false by nl.
    replace (nlen (x4e :: l ++ d) <? 5 + le_get l) with true by nl. reflexivity.
Qed.

Lemma decode_part_wraps t : wraps t -> decode_part (hd x00 t) t = Panic.
Proof.
  intros H. destruct H as [l d Hl Hd|l d Hl Hd]; cbn [hd decode_part skipn].
  - pose proof (le_get2_bound l Hl) as B. rewrite (firstn_len 2 l d Hl). cbv zeta.
    assert (wrap16 (3 + le_get l) = le_get l - 65533) as -> by (unfold wrap16; lia).
    replace (nlen (x4d :: l ++ d) <? 3) with false by nl.
    replace (nlen (x4d :: l ++ d) <? le_get l - 65533) with false by nl.
    unfold bsub. replace (3 <=? le_get l - 65533) with false by lia. reflexivity.
  - pose proof (le_get4_bound l Hl) as B. rewrite (firstn_len 4 l d Hl). cbv zeta.
    assert (wrap32 (5 + le_get l) = le_get l - 4294967291) as -> by (unfold wrap32; lia).
    replace (nlen (x4e :: l ++ d) <? 5) with false by nl.
    replace (nlen (x4e :: l ++ d) <? le_get l - 4294967291) with false by nl.
    unfold bsub. replace (5 <=? le_get l - 4294967291) with false by lia. reflexivity.
Qed.

(** *** Every non-empty byte string starts with one of the three *)

Lemma split_at (n : N) (b : bytes) : n <= nlen b -> exists d r, b = d ++ r /\ nlen d = n.
Proof.
  intros H. exists (firstn (N.to_nat n) b), (skipn (N.to_nat n) b).
  split; [symmetry; apply firstn_skipn|]. unfold nlen in *. rewrite firstn_length. lia.
Qed.

Lemma classify t : t <> [] ->
  wraps t \/ (truncated t /\ ~ wraps t) \/ exists w p r, t = w ++ r /\ elem w p /\ ~ wraps w.
Proof.
  intros NE0. destruct t as [|c t]; [congruence|]. clear NE0.
  assert (forall c' x, wraps (c' :: x) -> is_special c' = true) as WS
    by (intros c' x W; inversion W; reflexivity).
  destruct (is_special c) eqn:S.
  - destruct (special_cases c S) as [->|[->| ->]].
    + right. assert (forall x, ~ wraps (x4c :: x)) as NW by (intros x W; inversion W).
      destruct t as [|l t]; [left; split; [apply tr_pushdata1_len|apply NW]|].
      destruct (N.lt_ge_cases (nlen t) (b2n l)) as [L|L].
      * left; split; [now constructor|apply NW].
      * right. destruct (split_at (b2n l) t L) as (d & r & -> & E).
        exists (x4c :: l :: d), d, r. split; [reflexivity|]. split; [now constructor|apply NW].
    + destruct (Nat.lt_ge_cases (length t) 2) as [L|L].
      { right; left. split; [now constructor|]. intros W; inversion W; subst. rewrite app_length in L. lia. }
      assert (t = firstn 2 t ++ skipn 2 t) as E by (symmetry; apply firstn_skipn).
      assert (length (firstn 2 t) = 2%nat) as E2 by (rewrite firstn_length; lia).
      set (l := firstn 2 t) in *. set (q := skipn 2 t) in *. clearbody l q. subst t.
      destruct (N.lt_ge_cases (le_get l) 65533) as [B|B]; [|left; now constructor].
      assert (forall x, ~ wraps (x4d :: l ++ x)) as NW.
      { intros x W; inversion W as [l' d' Hl' Hd' EE|l' d' Hl' Hd' EE]; subst. apply (f_equal (firstn 2)) in EE.
        rewrite !firstn_len in EE by assumption. subst. lia. }
      right. destruct (N.lt_ge_cases (nlen q) (le_get l)) as [L'|L'].
      * left; split; [now constructor|apply NW].
      * right. destruct (split_at (le_get l) q L') as (d & r & -> & E).
        exists (x4d :: l ++ d), d, r. split; [cbn [app]; now rewrite <- app_assoc|].
        split; [now constructor|apply NW].
    + destruct (Nat.lt_ge_cases (length t) 4) as [L|L].
      { right; left. split; [now constructor|]. intros W; inversion W; subst. rewrite app_length in L. lia. }
      assert (t = firstn 4 t ++ skipn 4 t) as E by (symmetry; apply firstn_skipn).
      assert (length (firstn 4 t) = 4%nat) as E2 by (rewrite firstn_length; lia).
      set (l := firstn 4 t) in *. set (q := skipn 4 t) in *. clearbody l q. subst t.
      destruct (N.lt_ge_cases (le_get l) 4294967291) as [B|B]; [|left; now constructor].
      assert (forall x, ~ wraps (x4e :: l ++ x)) as NW.
      { intros x W; inversion W as [l' d' Hl' Hd' EE|l' d' Hl' Hd' EE]; subst. apply (f_equal (firstn 4)) in EE.
        rewrite !firstn_len in EE by assumption. subst. lia. }
      right. destruct (N.lt_ge_cases (nlen q) (le_get l)) as [L'|L'].
      * left; split; [now constructor|apply NW].
      * right. destruct (split_at (le_get l) q L') as (d & r & -> & E).
        exists (x4e :: l ++ d), d, r. split; [cbn [app]; now rewrite <- app_assoc|].
        split; [now constructor|apply NW].
  - assert (forall x, ~ wraps (c :: x)) as NW.
    { intros x W. apply WS in W. congruence. }
    right. destruct ((1 <=? b2n c) && (b2n c <=? 75)) eqn:E.
    + destruct (N.lt_ge_cases (nlen t) (b2n c)) as [L|L].
      * left. split; [constructor; [lia|assumption] | apply NW].
      * right. destruct (split_at (b2n c) t L) as (d & r & -> & E').
        exists (c :: d), d, r. split; [reflexivity|]. split; [constructor; [lia|assumption]|apply NW].
    + right. exists [c], [c], t. split; [reflexivity|]. split; [|apply NW]. constructor.
      destruct (plain_n c S); [left; apply b2n_inj; change (b2n x00) with 0; lia|now right].
Qed.

Lemma elem_nonempty w p : elem w p -> w <> [].
Proof. destruct 1; discriminate. Qed.

(** *** The whole loop *)

Definition outcome (r : list bytes) (b : bytes) : res (list bytes * option err) :=
  decode_loop (length b) r b.

Lemma decode_loop_cons fuel r b : b <> [] ->
  decode_loop (S fuel) r b =
  match decode_part (hd x00 b) b with
  | Ok (part, b') => decode_loop fuel (r ++ [part]) b'
  | Err e => Ok (r, Some e)
  | Panic => Panic
  end.
Proof. destruct b; [congruence|reflexivity]. Qed.

Lemma decode_loop_nil fuel r : decode_loop fuel r [] = Ok (r, None).
Proof. destruct fuel; reflexivity. Qed.

Lemma loop_safe fuel r p ps t : safe_elems p ps -> (length (p ++ t) <= fuel)%nat ->
  exists fuel', (length t <= fuel')%nat /\ decode_loop fuel r (p ++ t) = decode_loop fuel' (r ++ ps) t.
Proof.
  intros H; revert fuel r; induction H as [|w q b ps E W H IH]; intros fuel r L.
  - rewrite app_nil_r. exists fuel. split; [assumption|reflexivity].
  - rewrite <- app_assoc in *. pose proof (elem_nonempty _ _ E) as NE.
    destruct fuel as [|f]; [destruct w; [congruence|cbn [app length] in L; lia]|].
    rewrite decode_loop_cons by (destruct w; [congruence|discriminate]).
    rewrite (decode_part_elem w q (b ++ t) E W).
    destruct (IH f (r ++ [q])) as (f' & L' & EQ).
    { destruct w; [congruence|]. cbn [app length] in L. rewrite app_length in L. lia. }
    exists f'. split; [assumption|]. rewrite EQ, <- app_assoc. reflexivity.
Qed.

Lemma full_ok b ps : safe_elems b ps -> decode_parts_full b = Ok (ps, None).
Proof.
  intros H. unfold decode_parts_full.
  destruct (loop_safe (length b) [] b ps [] H) as (f & _ & E); [now rewrite app_nil_r|].
  rewrite app_nil_r in E. rewrite E. apply decode_loop_nil.
Qed.

Lemma full_err p ps t : safe_elems p ps -> truncated t -> ~ wraps t ->
  decode_parts_full (p ++ t) = Ok (ps, Some ENotEnough).
Proof.
  intros H T W. unfold decode_parts_full.
  destruct (loop_safe (length (p ++ t)) [] p ps t H (le_n _)) as (f & L & ->). cbn [app].
  assert (t <> []) by (destruct T; discriminate).
  destruct f as [|f]; [destruct t; [congruence|cbn [length] in L; lia]|].
  rewrite decode_loop_cons, decode_part_truncated by assumption. reflexivity.
Qed.

Lemma full_panic p ps t : safe_elems p ps -> wraps t -> decode_parts_full (p ++ t) = Panic.
Proof.
  intros H W. unfold decode_parts_full.
  destruct (loop_safe (length (p ++ t)) [] p ps t H (le_n _)) as (f & L & ->). cbn [app].
  assert (t <> []) by (destruct W; discriminate).
  destruct f as [|f]; [destruct t; [congruence|cbn [length] in L; lia]|].
  rewrite decode_loop_cons, decode_part_wraps by assumption. reflexivity.
Qed.

Lemma trichotomy b :
  (exists ps, safe_elems b ps) \/
  (exists p ps t, b = p ++ t /\ safe_elems p ps /\ truncated t /\ ~ wraps t) \/
  (exists p ps t, b = p ++ t /\ safe_elems p ps /\ wraps t).
Proof.
  remember (length b) as n eqn:E. assert (length b <= n)%nat as L by lia. clear E.
  revert b L; induction n as [|n IH]; intros b L.
  - destruct b; [|cbn [length] in L; lia]. left. exists []. constructor.
  - destruct b as [|c b']; [left; exists []; constructor|].
    destruct (classify (c :: b')) as [W|[[T W]|(w & p & r & E & EL & W)]]; [discriminate| | |].
    + right; right. exists [], [], (c :: b'). repeat split; [constructor|assumption].
    + right; left. exists [], [], (c :: b'). repeat split; [constructor|assumption|assumption].
    + rewrite E in *. pose proof (elem_nonempty _ _ EL) as NE.
      destruct (IH r) as [[ps H]|[(q & ps & t & -> & H & T & W')|(q & ps & t & -> & H & W')]].
      { destruct w; [congruence|]. cbn [app length] in L. rewrite app_length in L. lia. }
      * left. exists (p :: ps). now constructor.
      * right; left. exists (w ++ q), (p :: ps), t. rewrite app_assoc. repeat split; try assumption. now constructor.
      * right; right. exists (w ++ q), (p :: ps), t. rewrite app_assoc. repeat split; try assumption. now constructor.
Qed.

Lemma safe_elems_elems b ps : safe_elems b ps -> elems b ps.
Proof. induction 1; constructor; assumption. Qed.

Lemma full_ok_iff b ps : decode_parts_full b = Ok (ps, None) <-> safe_elems b ps.
Proof.
  split; [|apply full_ok]. intros D.
  destruct (trichotomy b) as [[qs H]|[(q & qs & t & -> & H & T & W)|(q & qs & t & -> & H & W)]].
  - rewrite (full_ok _ _ H) in D. injection D as <-. assumption.
  - rewrite (full_err _ _ _ H T W) in D. discriminate.
  - rewrite (full_panic _ _ _ H W) in D. discriminate.
Qed.

Lemma full_err_iff b ps e : decode_parts_full b = Ok (ps, Some e) <->
  e = ENotEnough /\ exists p t, b = p ++ t /\ safe_elems p ps /\ truncated t /\ ~ wraps t.
Proof.
  split.
  - intros D. destruct (trichotomy b) as [[qs H]|[(q & qs & t & -> & H & T & W)|(q & qs & t & -> & H & W)]].
    + rewrite (full_ok _ _ H) in D. discriminate.
    + rewrite (full_err _ _ _ H T W) in D. injection D as <- <-. eauto 10.
    + rewrite (full_panic _ _ _ H W) in D. discriminate.
  - intros (-> & p & t & -> & H & T & W). now apply full_err.
Qed.

Lemma full_panic_iff b : decode_parts_full b = Panic <->
  exists p ps t, b = p ++ t /\ safe_elems p ps /\ wraps t.
Proof.
  split.
  - intros D. destruct (trichotomy b) as [[qs H]|[(q & qs & t & -> & H & T & W)|(q & qs & t & -> & H & W)]]; eauto 10.
    + rewrite (full_ok _ _ H) in D. discriminate.
    + rewrite (full_err _ _ _ H T W) in D. discriminate.
  - intros (p & ps & t & -> & H & W). eapply full_panic; eassumption.
Qed.

Lemma full_not_err b e : decode_parts_full b <> Err e.
Proof.
  destruct (trichotomy b) as [[qs H]|[(q & qs & t & -> & H & T & W)|(q & qs & t & -> & H & W)]].
  - rewrite (full_ok _ _ H). discriminate.
  - rewrite (full_err _ _ _ H T W). discriminate.
  - rewrite (full_panic _ _ _ H W). discriminate.
Qed.

Lemma decode_ok_iff b ps : decode_parts b = Ok ps <-> safe_elems b ps.
Proof.
  rewrite <- full_ok_iff. unfold decode_parts.
  destruct (decode_parts_full b) as [[r [x|]]|x|] eqn:E; cbn [bind]; split; congruence.
Qed.

Lemma decode_err_iff b e : decode_parts b = Err e <->
  e = ENotEnough /\ exists p ps t, b = p ++ t /\ safe_elems p ps /\ truncated t /\ ~ wraps t.
Proof.
  unfold decode_parts. split.
  - destruct (decode_parts_full b) as [[r [x|]]|x|] eqn:E; cbn [bind]; try discriminate.
    + intros H; injection H as ->. apply full_err_iff in E as (-> & p & t & ->  & H & T & W). eauto 10.
    + now apply full_not_err in E.
  - intros (-> & p & ps & t & -> & H & T & W). now rewrite (full_err _ _ _ H T W).
Qed.

Lemma decode_panic_iff b : decode_parts b = Panic <->
  exists p ps t, b = p ++ t /\ safe_elems p ps /\ wraps t.
Proof.
  rewrite <- full_panic_iff. unfold decode_parts.
  destruct (decode_parts_full b) as [[r [x|]]|x|] eqn:E; cbn [bind]; split; congruence.
Qed.

Lemma safe_app a ps b qs : safe_elems a ps -> safe_elems b qs -> safe_elems (a ++ b) (ps ++ qs).
Proof.
  intros H; induction H as [|w p a ps E W H IH]; intros Hb; [assumption|].
  rewrite <- app_assoc. cbn [app]. constructor; auto.
Qed.

Lemma safe_one w p : elem w p -> ~ wraps w -> safe_elems w [p].
Proof. intros E W. rewrite <- (app_nil_r w). constructor; [assumption|assumption|constructor]. Qed.

(** the decoding is a function of the bytes *)
Lemma safe_det b ps qs : safe_elems b ps -> safe_elems b qs -> ps = qs.
Proof.
  intros H1 H2. apply full_ok in H1, H2. congruence.
Qed.

(** *** Encoding *)

Definition push_wire (d : bytes) : bytes :=
  match push_prefix d with Ok p => p ++ d | _ => [] end.

Lemma push_prefix_ok d : nlen d < 4294967296 -> exists p, push_prefix d = Ok p.
Proof.
  intros H. unfold push_prefix.
  destruct (nlen d <=? 75); [eauto|]. destruct (nlen d <=? 255); [eauto|].
  destruct (nlen d <=? 65535); [eauto|]. replace (nlen d <=? 0xFFFFFFFF) with true by lia. eauto.
Qed.

Lemma push_prefix_big d : 4294967296 <= nlen d -> push_prefix d = Err ETooBig.
Proof.
  intros H. unfold push_prefix.
  replace (nlen d <=? 75) with false by lia. replace (nlen d <=? 255) with false by lia.
  replace (nlen d <=? 65535) with false by lia. replace (nlen d <=? 0xFFFFFFFF) with false by lia. reflexivity.
Qed.

Lemma push_prefix_announces d p : push_prefix d = Ok p -> announces p (nlen d).
Proof.
  unfold push_prefix.
  destruct (nlen d <=? 75) eqn:E1.
  { intros H; injection H as <-. pose proof (an_direct (n2b (nlen d))) as A.
    rewrite b2n_n2b_small in A by lia. apply A. lia. }
  destruct (nlen d <=? 255) eqn:E2.
  { intros H; injection H as <-. pose proof (an_1 (n2b (nlen d))) as A.
    rewrite b2n_n2b_small in A by lia. exact A. }
  destruct (nlen d <=? 65535) eqn:E3.
  { intros H; injection H as <-. pose proof (an_2 (le_put 2 (nlen d)) (le_put_length _ _)) as A.
    rewrite le_get_put_small in A by (change (256 ^ N.of_nat 2) with 65536; lia). exact A. }
  destruct (nlen d <=? 0xFFFFFFFF) eqn:E4; [|discriminate].
  intros H; injection H as <-. pose proof (an_4 (le_put 4 (nlen d)) (le_put_length _ _)) as A.
  rewrite le_get_put_small in A by (change (256 ^ N.of_nat 4) with 4294967296; lia). exact A.
Qed.

Lemma push_prefix_length d p : push_prefix d = Ok p ->
  length p = if nlen d <=? 75 then 1%nat else if nlen d <=? 255 then 2%nat
             else if nlen d <=? 65535 then 3%nat else 5%nat.
Proof.
  unfold push_prefix. destruct (nlen d <=? 75); [intros H; injection H as <-; reflexivity|].
  destruct (nlen d <=? 255); [intros H; injection H as <-; reflexivity|].
  destruct (nlen d <=? 65535); [intros H; injection H as <-; reflexivity|].
  destruct (nlen d <=? 0xFFFFFFFF); [intros H; injection H as <-; reflexivity|discriminate].
Qed.

Lemma announces_length h n : announces h n ->
  ((if (n <=? 75)%N then 1 else if (n <=? 255)%N then 2 else if (n <=? 65535)%N then 3 else 5) <= length h)%nat.
Proof.
  destruct 1 as [c H|c|l H|l H]; cbn [length].
  - replace (b2n c <=? 75) with true by lia. lia.
  - pose proof (b2n_lt c). replace (b2n c <=? 255) with true by lia. destruct (b2n c <=? 75); lia.
  - pose proof (le_get2_bound l H). replace (le_get l <=? 65535) with true by lia.
    destruct (le_get l <=? 75); [lia|]. destruct (le_get l <=? 255); lia.
  - destruct (le_get l <=? 75); [lia|]. destruct (le_get l <=? 255); [lia|].
    destruct (le_get l <=? 65535); lia.
Qed.

Lemma push_prefix_shortest d p h : push_prefix d = Ok p -> announces h (nlen d) ->
  (length p <= length h)%nat.
Proof.
  intros H A. rewrite (push_prefix_length _ _ H). now apply announces_length.
Qed.

(** the wire form of a non-empty push is an element *)
Lemma push_elem d p : push_prefix d = Ok p -> d <> [] -> elem (p ++ d) d.
Proof.
  unfold push_prefix. intros H NE.
  assert (1 <= nlen d) by (destruct d; [congruence|nl]).
  destruct (nlen d <=? 75) eqn:E1.
  { injection H as <-. cbn [app]. constructor; rewrite ?b2n_n2b_small by lia; lia. }
  destruct (nlen d <=? 255) eqn:E2.
  { injection H as <-. cbn [app]. constructor. rewrite ?b2n_n2b_small by lia; lia. }
  destruct (nlen d <=? 65535) eqn:E3.
  { assert (p = x4d :: le_put 2 (nlen d)) as -> by congruence. clear H.
    apply (elem_pushdata2 (le_put 2 (nlen d)) d); [apply le_put_length|]. rewrite le_get_put_small; [reflexivity|]. change (256 ^ N.of_nat 2) with 65536. lia. }
  destruct (nlen d <=? 0xFFFFFFFF) eqn:E4; [|discriminate].
  assert (p = x4e :: le_put 4 (nlen d)) as -> by congruence. clear H.
  apply (elem_pushdata4 (le_put 4 (nlen d)) d); [apply le_put_length|]. rewrite le_get_put_small; [reflexivity|]. change (256 ^ N.of_nat 4) with 4294967296. lia.
Qed.

Lemma push_wraps d p : push_prefix d = Ok p ->
  wraps (p ++ d) <-> (65533 <= nlen d <= 65535 \/ 4294967291 <= nlen d).
Proof.
  unfold push_prefix. intros H.
  destruct (nlen d <=? 75) eqn:E1.
  { injection H as <-. cbn [app]. split; [|lia]. intros W. exfalso.
    inversion W as [l d' Hl Hd E|l d' Hl Hd E]; apply (f_equal b2n) in E; rewrite b2n_n2b_small in E by lia; vm_compute (b2n x4d) in E; vm_compute (b2n x4e) in E; lia. }
  destruct (nlen d <=? 255) eqn:E2.
  { injection H as <-. cbn [app]. split; [|lia]. intros W. inversion W. }
  destruct (nlen d <=? 65535) eqn:E3.
  { assert (p = x4d :: le_put 2 (nlen d)) as -> by congruence. clear H.
  change ((x4d :: le_put 2 (nlen d)) ++ d) with (x4d :: le_put 2 (nlen d) ++ d).
  remember (le_put 2 (nlen d)) as lp eqn:LP.
    assert (length lp = 2%nat) as LL by (subst lp; apply le_put_length). assert (le_get lp = nlen d) as G by (subst lp; apply le_get_put_small; change (256 ^ N.of_nat 2) with 65536; lia).
    split.
    - intros W. inversion W as [l d' Hl Hd E|]. left. apply (f_equal (firstn 2)) in E.
      rewrite !firstn_len in E by assumption. rewrite E in Hd. lia.
    - intros D. constructor; [assumption|]. lia. }
  destruct (nlen d <=? 0xFFFFFFFF) eqn:E4; [|discriminate].
  assert (p = x4e :: le_put 4 (nlen d)) as -> by congruence. clear H.
  change ((x4e :: le_put 4 (nlen d)) ++ d) with (x4e :: le_put 4 (nlen d) ++ d).
  remember (le_put 4 (nlen d)) as lp eqn:LP.
  assert (length lp = 4%nat) as LL by (subst lp; apply le_put_length). assert (le_get lp = nlen d) as G by (subst lp; apply le_get_put_small; change (256 ^ N.of_nat 4) with 4294967296; lia).
  split.
  - intros W. inversion W as [|l d' Hl Hd E]. right. apply (f_equal (firstn 4)) in E.
    rewrite !firstn_len in E by assumption. rewrite E in Hd. lia.
  - intros D. constructor; [assumption|]. lia.
Qed.

Lemma domain_nonempty d : push_domain d -> d <> [].
Proof. intros [H|H] ->; vm_compute in H; destruct H as [H _]; apply H; reflexivity. Qed.

Lemma push_safe d p : push_prefix d = Ok p -> push_domain d -> safe_elems (p ++ d) [d].
Proof.
  intros H D. apply safe_one; [apply push_elem; [assumption|now apply domain_nonempty]|].
  rewrite push_wraps by assumption. unfold push_domain in D. lia.
Qed.

Lemma push_safe' d p : push_prefix d = Ok p -> ~ wraps (p ++ d) -> safe_elems (p ++ d) [readback d].
Proof.
  intros H W. destruct d as [|x d].
  - injection H as <-. cbn [app readback]. apply safe_one; [constructor; now left|]. exact W.
  - apply safe_one; [|exact W]. cbn [readback]. now apply push_elem.
Qed.

Lemma encode_loop_spec i b parts :
  (forall p, In p parts -> nlen p < 4294967296) ->
  encode_loop i b parts = Ok (b ++ concat (map push_wire parts)).
Proof.
  revert i b; induction parts as [|p parts IH]; intros i b H; cbn [encode_loop map concat].
  - now rewrite app_nil_r.
  - destruct (push_prefix_ok p) as [pd E]; [apply H; now left|].
    rewrite E, IH by (intros q I; apply H; now right).
    unfold push_wire at 2. rewrite E, <- !app_assoc. reflexivity.
Qed.

Lemma encode_loop_err i b l p r :
  (forall q, In q l -> nlen q < 4294967296) -> 4294967296 <= nlen p ->
  encode_loop i b (l ++ p :: r) = Err (EPartTooBig (i + nlen l)).
Proof.
  revert i b; induction l as [|q l IH]; intros i b H B; cbn [app encode_loop].
  - rewrite push_prefix_big by assumption. do 2 f_equal. unfold nlen; cbn [length]. lia.
  - destruct (push_prefix_ok q) as [pd E]; [apply H; now left|].
    rewrite E, IH by (assumption || (intros x I; apply H; now right)). do 2 f_equal. rewrite nlen_cons. lia.
Qed.

Lemma encode_parts_spec parts : (forall p, In p parts -> nlen p < 4294967296) ->
  encode_parts parts = Ok (concat (map push_wire parts)).
Proof. intros H. unfold encode_parts. now rewrite encode_loop_spec. Qed.

Lemma first_big (parts : list bytes) :
  (forall p, In p parts -> nlen p < 4294967296) \/
  exists l p r, parts = l ++ p :: r /\ (forall q, In q l -> nlen q < 4294967296) /\ 4294967296 <= nlen p.
Proof.
  induction parts as [|p parts IH]; [left; intros q []|].
  destruct (N.lt_ge_cases (nlen p) 4294967296) as [L|L].
  - destruct IH as [H|(l & q & r & -> & H & B)].
    + left. intros q [<-|I]; auto.
    + right. exists (p :: l), q, r. repeat split; [|assumption]. intros x [<-|I]; auto.
  - right. exists [], p, parts. repeat split; [intros q []|assumption].
Qed.

Lemma encode_parts_no_panic parts : encode_parts parts <> Panic.
Proof.
  destruct (first_big parts) as [H|(l & p & r & -> & H & B)].
  - rewrite encode_parts_spec by assumption. discriminate.
  - unfold encode_parts. rewrite encode_loop_err by assumption. discriminate.
Qed.

Lemma encode_parts_inv parts b : encode_parts parts = Ok b ->
  (forall p, In p parts -> nlen p < 4294967296) /\ b = concat (map push_wire parts).
Proof.
  destruct (first_big parts) as [H|(l & p & r & -> & H & B)].
  - rewrite encode_parts_spec by assumption. intros E; injection E as <-. auto.
  - unfold encode_parts. rewrite encode_loop_err by assumption. discriminate.
Qed.

Lemma push_wire_safe d : push_domain d -> safe_elems (push_wire d) [d].
Proof.
  intros D. unfold push_wire. destruct (push_prefix_ok d) as [p E]; [unfold push_domain in D; lia|].
  rewrite E. now apply push_safe.
Qed.

Lemma pushes_safe parts : Forall push_domain parts -> safe_elems (concat (map push_wire parts)) parts.
Proof.
  induction 1 as [|d parts D _ IH]; [constructor|]. cbn [map concat].
  change (d :: parts) with ([d] ++ parts). apply safe_app; [now apply push_wire_safe|assumption].
Qed.

Lemma domain_small d : push_domain d -> nlen d < 4294967296.
Proof. unfold push_domain. lia. Qed.

Lemma c08_roundtrip parts : Forall push_domain parts ->
  exists b, encode_parts parts = Ok b /\ decode_parts b = Ok parts.
Proof.
  intros H. exists (concat (map push_wire parts)). split.
  - apply encode_parts_spec. rewrite Forall_forall in H. intros p I. apply domain_small; auto.
  - apply decode_ok_iff. now apply pushes_safe.
Qed.

Lemma hazard_dec d : {hazard d} + {~ hazard d}.
Proof.
  unfold hazard.
  destruct ((65533 <=? nlen d) && (nlen d <=? 65535)) eqn:A; [left; lia|].
  destruct ((4294967291 <=? nlen d) && (nlen d <? 4294967296)) eqn:B; [left; lia|right; lia].
Qed.

Lemma push_wire_safe' d : nlen d < 4294967296 -> ~ hazard d -> safe_elems (push_wire d) [readback d].
Proof.
  intros L H. unfold push_wire. destruct (push_prefix_ok d L) as [p E]. rewrite E.
  apply push_safe'; [assumption|]. rewrite push_wraps by assumption. unfold hazard in H. lia.
Qed.

Lemma c08_general parts b : encode_parts parts = Ok b -> (forall d, In d parts -> ~ hazard d) ->
  decode_parts b = Ok (map readback parts).
Proof.
  intros E H. apply encode_parts_inv in E as [L ->]. apply decode_ok_iff.
  induction parts as [|d parts IH]; [constructor|]. cbn [map concat].
  change (readback d :: map readback parts) with ([readback d] ++ map readback parts).
  apply safe_app.
  - apply push_wire_safe'; [apply L; now left|apply H; now left].
  - apply IH; intros q I; [apply L|apply H]; now right.
Qed.

Lemma c08_panic parts b d : encode_parts parts = Ok b -> In d parts -> hazard d -> decode_parts b = Panic.
Proof.
  intros E I HZ. apply encode_parts_inv in E as [L ->].
  assert (exists l x r, parts = l ++ x :: r /\ (forall q, In q l -> ~ hazard q) /\ hazard x) as (l & x & r & -> & Hl & Hx).
  { clear L. induction parts as [|q parts IH]; [destruct I|].
    destruct (hazard_dec q) as [Hq|Hq].
    - exists [], q, parts. repeat split; [intros ? []|assumption].
    - destruct I as [->|I]; [contradiction|]. destruct (IH I) as (l & x & r & -> & Hl & Hx).
      exists (q :: l), x, r. repeat split; [|assumption]. intros z [<-|Iz]; auto. }
  apply decode_panic_iff. rewrite map_app, concat_app. cbn [map concat].
  exists (concat (map push_wire l)), (map readback l), (push_wire x ++ concat (map push_wire r)).
  split; [reflexivity|]. split.
  - apply decode_ok_iff. apply c08_general; [|assumption].
    apply encode_parts_spec. intros p Ip. apply L. apply in_or_app. now left.
  - assert (nlen x < 4294967296) as Lx by (apply L, in_or_app; right; now left).
    unfold push_wire. destruct (push_prefix_ok x Lx) as [p E]. rewrite E.
    assert (wraps (p ++ x)) as W by (rewrite push_wraps by assumption; unfold hazard in Hx; lia).
    revert W. generalize (p ++ x). intros w W. destruct W as [l' d' Hl' Hd'|l' d' Hl' Hd'].
    + cbn [app]. rewrite <- app_assoc. now constructor.
    + cbn [app]. rewrite <- app_assoc. now constructor.
Qed.

Lemma c08_fails parts : (exists e, encode_parts parts = Err e) <-> exists d, In d parts /\ 4294967296 <= nlen d.
Proof.
  split.
  - intros [e E]. destruct (first_big parts) as [H|(l & p & r & -> & H & B)].
    + rewrite encode_parts_spec in E by assumption. discriminate.
    + exists p. split; [apply in_or_app; right; now left|assumption].
  - intros (d & I & B). destruct (first_big parts) as [H|(l & p & r & -> & H & B')].
    + specialize (H d I). lia.
    + eexists. unfold encode_parts. now rewrite encode_loop_err.
Qed.

Lemma c11_lossless b ps : decode_parts b = Ok ps -> elems b ps.
Proof. rewrite decode_ok_iff. apply safe_elems_elems. Qed.

Lemma c11_unique b ps qs : decode_parts b = Ok ps -> safe_elems b qs -> ps = qs.
Proof. rewrite decode_ok_iff. apply safe_det. Qed.

Lemma wraps_prefix w r : wraps w -> wraps (w ++ r).
Proof. destruct 1; cbn [app]; rewrite <- app_assoc; now constructor. Qed.

Lemma truncated_maximal t w p r : truncated t -> ~ wraps t -> t = w ++ r -> ~ elem w p.
Proof.
  intros T W -> E.
  assert (~ wraps w) as W' by (intros X; apply W; now apply wraps_prefix).
  pose proof (decode_part_elem w p r E W') as A. rewrite (decode_part_truncated _ T W) in A. discriminate.
Qed.

Lemma le_put_of_get k l n : length l = k -> le_get l = n -> l = le_put k n.
Proof. intros <- <-. symmetry. apply le_put_get. Qed.

Lemma shortest_unique d h : nlen d < 4294967296 -> shortest_header h (nlen d) -> push_prefix d = Ok h.
Proof.
  intros L [A M]. destruct (push_prefix_ok d L) as [p E]. pose proof (push_prefix_length _ _ E) as PL.
  specialize (M p (push_prefix_announces _ _ E)). rewrite PL in M. clear PL p E.
  unfold push_prefix. remember (nlen d) as n eqn:En. clear En. destruct A as [c H|c|l H|l H]; cbn [length] in M.
  - replace (b2n c <=? 75) with true by lia. now rewrite n2b_b2n.
  - pose proof (b2n_lt c). destruct (b2n c <=? 75); [lia|].
    replace (b2n c <=? 255) with true by lia. now rewrite n2b_b2n.
  - pose proof (le_get2_bound l H). destruct (le_get l <=? 75); [lia|]. destruct (le_get l <=? 255); [lia|].
    replace (le_get l <=? 65535) with true by lia. rewrite <- (le_put_of_get 2 l _ H eq_refl). reflexivity.
  - destruct (le_get l <=? 75); [lia|]. destruct (le_get l <=? 255); [lia|].
    destruct (le_get l <=? 65535); [lia|]. replace (le_get l <=? 0xFFFFFFFF) with true by lia.
    rewrite <- (le_put_of_get 4 l _ H eq_refl). reflexivity.
Qed.
