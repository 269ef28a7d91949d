(** C72: the numbers of C72_work and C72_parts_work are how often the bodies of the loops run. *)
From Verif Require Import P_Cost S_Cost T_Cost.
From Coq Require Import ZifyBool ZifyNat ZifyN.

Lemma after_in {S : Type} (f : S -> res S) j : forall s x, f s = Ok x -> after f (Datatypes.S j) s = after f j x.
Proof.
  induction j as [|j IH]; intros s x E; [cbn [after]; exact E|].
  change (after f (Datatypes.S (Datatypes.S j)) s) with (match after f (Datatypes.S j) s with Ok y => f y | r => r end). rewrite (IH s x E). reflexivity.
Qed.
Lemma loop_runs {S : Type} (f : S -> res S) n : forall s, body_runs f n s (snd (counted_loop f n s)) /\ fst (counted_loop f n s) = after f n s.
Proof.
  induction n as [|n IH]; intros s.
  - split; [|reflexivity]. cbn. split; [lia|]. split; [intros j J; lia|lia].
  - cbn [counted_loop]. unfold cbind. cbn [fst snd].
    assert (forall r, ~ fine r -> f s = r -> body_runs f (Datatypes.S n) s 1 /\ after f (Datatypes.S n) s = r) as Stop.
    { intros r NF E. assert (forall m, after f (Datatypes.S m) s = r) as K.
      { induction m as [|m IHm]; [exact E|]. change (after f (Datatypes.S (Datatypes.S m)) s) with (match after f (Datatypes.S m) s with Ok y => f y | q => q end).
        rewrite IHm. destruct r; [exfalso; apply NF; eexists; reflexivity|reflexivity|reflexivity]. }
      split; [|apply K]. split; [lia|]. split; [|intros _; rewrite K; exact NF].
      intros j J. replace j with 0%nat by lia. eexists. reflexivity. }
    destruct (f s) as [x|e|] eqn:E.
    + destruct (IH x) as ((I1 & I2 & I3) & I4). cbn [fst snd]. rewrite (after_in f n s x E). split; [|exact I4].
      split; [lia|]. split.
      * intros j J. destruct j as [|j]; [eexists; reflexivity|]. rewrite (after_in f j s x E). apply I2. lia.
      * intros K. cbn [Nat.add]. rewrite (after_in f _ s x E). apply I3. lia.
    + cbn [fst snd]. destruct (Stop (Err e)) as (K1 & K2); [intros (y & Y); discriminate Y|reflexivity|]. split; [exact K1|now rewrite K2].
    + cbn [fst snd]. destruct (Stop Panic) as (K1 & K2); [intros (y & Y); discriminate Y|reflexivity|]. split; [exact K1|now rewrite K2].
Qed.
Lemma runs_unique {S : Type} (f : S -> res S) n s k k' : body_runs f n s k -> body_runs f n s k' -> k = k'.
Proof.
  intros (A1 & A2 & A3) (B1 & B2 & B3). destruct (Nat.lt_trichotomy k k') as [L|[E|L]]; [|exact E|]; exfalso.
  - apply A3; [lia|]. now apply B2.
  - apply B3; [lia|]. now apply A2.
Qed.

Lemma snd_free {A B} (r : res A) (f : A -> counted B) : snd (cbind (free r) f) = match r with Ok a => snd (f a) | _ => 0%nat end.
Proof. unfold cbind, free. cbn [fst snd]. now destruct r. Qed.
Lemma snd_bind {A B} (r : counted A) (f : A -> counted B) : snd (cbind r f) = (snd r + match fst r with Ok a => snd (f a) | _ => 0 end)%nat.
Proof. unfold cbind. destruct (fst r); cbn [snd]; lia. Qed.
Lemma FB' {A B} (r : counted A) (f : A -> counted B) t : fst (cbind r f) = Ok t -> exists x, fst r = Ok x /\ fst (f x) = Ok t.
Proof. unfold cbind. destruct (fst r) as [x| |]; cbn [fst]; [eauto|discriminate|discriminate]. Qed.

Lemma version_there b : (10 <= slen b)%Z -> exists vs ver, sl_sub b 0 4 = Some vs /\ sl_le 4 vs = Some ver.
Proof.
  intros L. rewrite (sl_sub_vis b 0 4) by lia. eexists. eexists. split; [reflexivity|]. unfold sl_le, slen in *. cbn [vis].
  rewrite firstn_length, skipn_length. replace (Nat.leb _ _) with true by lia. reflexivity.
Qed.

(** Whatever the outcome, the number of C72_work is the number of runs of the loop over the inputs, if
    NewFromBytes comes to it, plus that of the loop over the outputs, if it comes to that. *)
Theorem C72_counts : forall b, exists ki ko, snd (tx_from_slice_counted b) = (ki + ko)%nat /\
  (forall n s, input_loop b n s -> body_runs (tx_input_step b) n s ki) /\ ((forall n s, ~ input_loop b n s) -> ki = 0%nat) /\
  (forall n s, output_loop b n s -> body_runs (tx_output_step b) n s ko) /\ ((forall n s, ~ output_loop b n s) -> ko = 0%nat).
Proof.
  intros b. unfold tx_from_slice_counted. cbv zeta.
  destruct (slen b <? 10)%Z eqn:L.
  { exists 0%nat, 0%nat. split; [reflexivity|]. split; [intros n s (X & _); lia|]. split; [reflexivity|].
    split; [|reflexivity]. intros n s (ni & si & off & ins & rest & c & size & (X & _) & _). lia. }
  destruct (version_there b ltac:(lia)) as (vs & ver & E1 & E2). rewrite snd_free, E1. cbn [or_panic]. rewrite snd_free, E2. cbn [or_panic]. rewrite snd_free.
  destruct (sl_from b 4) as [rest|] eqn:E3; cbn [or_panic].
  2:{ exists 0%nat, 0%nat. split; [reflexivity|]. split; [intros n s (_ & r & c & z & X & _); congruence|]. split; [reflexivity|].
      split; [|reflexivity]. intros n s (ni & si & off & ins & rest & c & size & (_ & r & c' & z & X & _) & _). congruence. }
  rewrite snd_free.
  assert (forall n s, input_loop b n s -> exists c z, decode_varint rest = Ok (c, z) /\ n = N.to_nat c /\ s = (wrap_int (4 + z), [])) as IL.
  { intros n s (_ & r & c & z & X & Y & Z). exists c, z. rewrite E3 in X. assert (r = rest) as -> by congruence. auto. }
  assert ((forall n s, ~ input_loop b n s) -> forall n s, ~ output_loop b n s) as NL.
  { intros N n s (ni & si & off & ins & r & c & z & X & _). exact (N _ _ X). }
  destruct (decode_varint rest) as [[c z]|e|] eqn:E4.
  2,3: assert (forall n s, ~ input_loop b n s) as NI by (intros n s H; destruct (IL n s H) as (c & z & X & _); discriminate X);
       exists 0%nat, 0%nat; split; [reflexivity|]; split; [intros n s H; destruct (NI n s H)|]; split; [reflexivity|];
       split; [intros n s H; destruct (NL NI n s H)|reflexivity].
  assert (input_loop b (N.to_nat c) (wrap_int (4 + z), [])) as ILc.
  { split; [lia|]. exists rest, c, z. auto. }
  assert (forall n s, input_loop b n s -> n = N.to_nat c /\ s = (wrap_int (4 + z), [])) as IU.
  { intros n s H. destruct (IL n s H) as (c' & z' & X & -> & ->). assert (c' = c) by congruence. assert (z' = z) by congruence. subst. auto. }
  rewrite snd_bind. destruct (loop_runs (tx_input_step b) (N.to_nat c) (wrap_int (4 + z), [])) as (R1 & R2).
  set (ki := snd (counted_loop (tx_input_step b) (N.to_nat c) (wrap_int (4 + z), []))) in *. rewrite R2.
  assert (forall m, exists ki0 ko, (ki + m = ki0 + ko)%nat /\ ki0 = ki /\ ko = m) as Sum by (intros m; eauto).
  match goal with |- context [(ki + ?m)%nat] => exists ki, m end. split; [reflexivity|].
  split; [intros n s H; destruct (IU n s H) as (-> & ->); exact R1|]. split; [intros NI; destruct (NI _ _ ILc)|].
  assert (forall n s, output_loop b n s -> exists off ins r c' z', after (tx_input_step b) (N.to_nat c) (wrap_int (4 + z), []) = Ok (off, ins) /\
    sl_from b off = Some r /\ decode_varint r = Ok (c', z') /\ n = N.to_nat c' /\ s = (wrap_int (off + z'), [])) as OL.
  { intros n s (ni & si & off & ins & r & c' & z' & X & Y & Z). destruct (IU _ _ X) as (-> & ->). exists off, ins, r, c', z'. tauto. }
  destruct (after (tx_input_step b) (N.to_nat c) (wrap_int (4 + z), [])) as [[off ins]|e|] eqn:E5.
  2,3: split; [intros n s H; destruct (OL n s H) as (off & ins & r & c' & z' & X & _); discriminate X|reflexivity].
  rewrite snd_free. destruct (sl_from b off) as [r|] eqn:E6; cbn [or_panic].
  2:{ split; [|reflexivity]. intros n s H. destruct (OL n s H) as (off' & ins' & r & c' & z' & X & Y & _). assert (off' = off) by congruence. subst off'. congruence. }
  rewrite snd_free. destruct (decode_varint r) as [[c' z']|e|] eqn:E7.
  2,3: split; [|reflexivity]; intros n s H; destruct (OL n s H) as (off' & ins' & r' & c2 & z2 & X & Y & Z & _);
       assert (off' = off) by congruence; subst off'; assert (r' = r) by congruence; subst r'; rewrite E7 in Z; discriminate Z.
  rewrite snd_bind. destruct (loop_runs (tx_output_step b) (N.to_nat c') (wrap_int (off + z'), [])) as (Q1 & Q2). rewrite Q2.
  match goal with |- context [(snd (counted_loop ?f ?n ?s) + ?m)%nat] => assert (m = 0%nat) as -> end.
  { destruct (after (tx_output_step b) (N.to_nat c') (wrap_int (off + z'), [])) as [[off2 outs]|e|]; [|reflexivity|reflexivity].
    rewrite snd_free. destruct (sl_from b off2) as [nLT|]; cbn [or_panic]; [|reflexivity]. destruct (negb (slen nLT =? 4)%Z); [reflexivity|].
    rewrite snd_free. cbn [or_panic]. rewrite snd_free. destruct (sl_le 4 nLT); reflexivity. }
  rewrite Nat.add_0_r. split.
  - intros n s H. destruct (OL n s H) as (off' & ins' & r' & c2 & z2 & X & Y & Z & -> & ->). assert (off' = off) by congruence; subst off'. assert (r' = r) by congruence; subst r'.
    assert (c2 = c') by congruence. assert (z2 = z') by congruence. subst c2 z2. exact Q1.
  - intros NO. exfalso. apply (NO (N.to_nat c') (wrap_int (off + z'), [])). exists (N.to_nat c), (wrap_int (4 + z), []), off, ins, r, c', z'.
    split; [exact ILc|]. split; [exact E5|]. split; [exact E6|]. split; [exact E7|]. auto.
Qed.
Print Assumptions C72_counts.

(** So a transaction that is parsed takes one run for each of its inputs and outputs. *)
Theorem C72_exact : forall b t, tx_from_slice b = Ok t -> snd (tx_from_slice_counted b) = (length (inputs t) + length (outputs t))%nat.
Proof.
  intros b t E. rewrite <- C72_same_result in E. revert E. unfold tx_from_slice_counted. cbv zeta.
  destruct (slen b <? 10)%Z; [intros E; discriminate E|].
  assert (forall A (r : res A) f, fst (cbind (free r) f) = Ok t -> exists x, r = Ok x /\ fst (f x) = Ok t) as FF.
  { intros A r f. unfold cbind, free. cbn [fst snd]. destruct r as [x| |]; cbn [fst]; [eauto|discriminate|discriminate]. }
  assert (forall A (r : counted A) f, fst (cbind r f) = Ok t -> exists x, fst r = Ok x /\ fst (f x) = Ok t) as FB.
  { intros A r f. unfold cbind. destruct (fst r) as [x| |]; cbn [fst]; [eauto|discriminate|discriminate]. }
  intros E. apply FF in E as (vs & E1 & E). rewrite snd_free, E1. cbv beta iota. apply FF in E as (ver & E2 & E). rewrite snd_free, E2. cbv beta iota.
  apply FF in E as (rest & E3 & E). rewrite snd_free, E3. cbv beta iota. apply FF in E as ([c z] & E4 & E). rewrite snd_free, E4. cbv beta iota.
  apply FB in E as ([off ins] & E5 & E). rewrite snd_bind, E5. cbv beta iota. apply FF in E as (r & E6 & E). rewrite snd_free, E6. cbv beta iota.
  apply FF in E as ([c' z'] & E7 & E). rewrite snd_free, E7. cbv beta iota. apply FB in E as ([off2 outs] & E8 & E). rewrite snd_bind, E8. cbv beta iota.
  apply FF in E as (nLT & E9 & E). rewrite snd_free, E9. cbv beta iota. destruct (negb (slen nLT =? 4)%Z); [discriminate E|].
  apply FF in E as (ls & E10 & E). assert (ls = nLT) by congruence; subst ls. rewrite snd_free. cbv beta iota. apply FF in E as (lt & E11 & E). rewrite snd_free, E11. cbv beta iota.
  cbn [free fst snd] in E |- *. assert (t = mk_tx ver (map Some ins) (map Some outs) lt) as -> by congruence. cbn [inputs outputs]. rewrite !map_length.
  assert (forall n s o l, fst (counted_loop (tx_input_step b) n s) = Ok (o, l) -> snd (counted_loop (tx_input_step b) n s) = n /\ length l = (length (snd s) + n)%nat) as LI.
  { induction n as [|n IH]; intros s o l H; cbn [counted_loop] in *; [cbn [free fst snd] in *; assert (s = (o, l)) as -> by congruence; cbn [snd]; lia|].
    rewrite snd_bind. cbn [fst snd]. apply FB' in H as (x & H1 & H2). cbn [fst] in H1. rewrite H1. destruct (IH _ _ _ H2) as (K1 & K2). rewrite K1. split; [reflexivity|].
    rewrite K2. destruct s as [o0 l0]. unfold tx_input_step in H1. destruct (sl_from b o0) as [q|]; cbn [or_panic bind] in H1; [|discriminate H1].
    destruct (input_from_bytes q) as [[i sz]| |]; cbn [bind] in H1; [|discriminate H1|discriminate H1]. assert (x = (wrap_int (o0 + sz), l0 ++ [i])) as -> by congruence. cbn [snd]. rewrite app_length. cbn [length]. lia. }
  assert (forall n s o l, fst (counted_loop (tx_output_step b) n s) = Ok (o, l) -> snd (counted_loop (tx_output_step b) n s) = n /\ length l = (length (snd s) + n)%nat) as LO.
  { induction n as [|n IH]; intros s o l H; cbn [counted_loop] in *; [cbn [free fst snd] in *; assert (s = (o, l)) as -> by congruence; cbn [snd]; lia|].
    rewrite snd_bind. cbn [fst snd]. apply FB' in H as (x & H1 & H2). cbn [fst] in H1. rewrite H1. destruct (IH _ _ _ H2) as (K1 & K2). rewrite K1. split; [reflexivity|].
    rewrite K2. destruct s as [o0 l0]. unfold tx_output_step in H1. destruct (sl_from b o0) as [q|]; cbn [or_panic bind] in H1; [|discriminate H1].
    destruct (output_from_bytes q) as [[i sz]| |]; cbn [bind] in H1; [|discriminate H1|discriminate H1]. assert (x = (wrap_int (o0 + sz), l0 ++ [i])) as -> by congruence. cbn [snd]. rewrite app_length. cbn [length]. lia. }
  destruct (LI _ _ _ _ E5) as (A1 & A2). destruct (LO _ _ _ _ E8) as (B1 & B2). cbn [snd length] in A2, B2. lia.
Qed.
Print Assumptions C72_exact.

(** Of DecodeParts: one run for each part, and one more if it ends with an error. *)
Theorem C72_parts_exact : forall b fuel ps e, (length b <= fuel)%nat -> decode_parts_full b = Ok (ps, e) ->
  snd (decode_counted fuel [] b) = (length ps + match e with Some _ => 1 | None => 0 end)%nat.
Proof.
  intros b fuel ps e L E. rewrite <- (C72_parts_same_result b fuel L) in E.
  assert (forall fuel r b, fst (decode_counted fuel r b) = Ok (ps, e) -> (length r + snd (decode_counted fuel r b) = length ps + match e with Some _ => 1 | None => 0 end)%nat) as H.
  { clear. induction fuel as [|fuel IH]; intros r b E; destruct b as [|c b']; cbn [decode_counted free fst snd] in *.
    - assert (r = ps) as -> by congruence. assert (e = None) as -> by congruence. lia.
    - discriminate E.
    - assert (r = ps) as -> by congruence. assert (e = None) as -> by congruence. lia.
    - destruct (decode_part c (c :: b')) as [[part b2]|x|]; cbn [fst snd] in *.
      + apply IH in E. rewrite app_length in E. cbn [length] in E. lia.
      + assert (r = ps) as -> by congruence. assert (e = Some x) as -> by congruence. lia.
      + discriminate E. }
  specialize (H fuel [] b E). exact H.
Qed.
Print Assumptions C72_parts_exact.

(** 42 bytes that claim 200 outputs: no run of the loop over the inputs, five of the one over the outputs, of
    which the last fails. *)
Example C72_counts_example : let b := Sl (map n2b [1;0;0;0; 0; 200]%N ++ repeat x00 36) [] in
  input_loop b 0 (5%Z, []) /\ output_loop b 200 (6%Z, []) /\ body_runs (tx_output_step b) 200 (6%Z, []) 5 /\
  decode_parts_full [x76; x01; xaa] = Ok ([[x76]; [xaa]], None).
Proof.
  cbv zeta. assert (forall n f (s : Z * list output), body_runs f n s (snd (counted_loop f n s))) as R by (intros; apply loop_runs).
  split; [split; [vm_compute; discriminate|]; do 3 eexists; split; [vm_compute; reflexivity|]; split; [vm_compute; reflexivity|]; split; reflexivity|].
  split.
  { exists 0%nat, (5%Z, []), 5%Z, []. do 3 eexists. split; [split; [vm_compute; discriminate|]; do 3 eexists; split; [vm_compute; reflexivity|]; split; [vm_compute; reflexivity|]; split; reflexivity|].
    split; [reflexivity|]. split; [vm_compute; reflexivity|]. split; [vm_compute; reflexivity|]. split; reflexivity. }
  split; [|vm_compute; reflexivity].
  match goal with |- body_runs ?f ?n ?s _ => pose proof (R n f s) as Q; assert (snd (counted_loop f n s) = 5%nat) as X by (vm_compute; reflexivity); rewrite X in Q; exact Q end.
Qed.
