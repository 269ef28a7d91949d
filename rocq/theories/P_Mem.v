(** Proofs about the memory model (C05, C56, C57). *)
From Verif Require Export S_Mem P_Utils P_Crypto.
From Coq Require Import ZifyBool ZifyNat ZifyN.

(** ** arrays *)

Lemma nth_error_eq {A} (l m : list A) : (forall k, nth_error l k = nth_error m k) -> l = m.
Proof.
  revert m. induction l as [|x l IH]; intros [|y m] H; [reflexivity|now specialize (H O)..|].
  pose proof (H O) as H0. cbn in H0. injection H0 as ->. f_equal. apply IH. intros k. exact (H (S k)).
Qed.

Lemma arr_set h a b x : arr (set_nth a b h) x = if Nat.eqb x a && Nat.ltb a (length h) then b else arr h x.
Proof.
  unfold arr. revert a x. induction h as [|c h IH]; intros a x.
  - destruct (Nat.eqb x a && Nat.ltb a (length (@nil bytes))) eqn:E; [cbn [length] in E; lia|]. destruct a; reflexivity.
  - destruct a as [|a]; cbn [set_nth length]; destruct x as [|x]; cbn [nth]; try reflexivity.
    rewrite IH. reflexivity.
Qed.

Lemma write_length b i d : (i + length d <= length b)%nat -> length (write_at b i d) = length b.
Proof. intros L. unfold write_at. rewrite !app_length, firstn_length, skipn_length. lia. Qed.

Lemma write_overwritten b i d : (i + length d <= length b)%nat -> overwritten b i d (write_at b i d).
Proof.
  intros L. split; [now apply write_length|]. unfold write_at. assert (length (firstn i b) = i) as LF by (rewrite firstn_length; lia). split.
  - intros k K. rewrite nth_error_app2 by lia. rewrite LF, nth_error_app1 by lia. f_equal. lia.
  - intros k [K|K].
    + rewrite nth_error_app1 by lia. rewrite <- (firstn_skipn i b) at 2. rewrite nth_error_app1 by lia. reflexivity.
    + rewrite nth_error_app2 by lia. rewrite LF. rewrite nth_error_app2 by lia.
      rewrite <- (firstn_skipn (i + length d) b) at 2. rewrite (nth_error_app2 (firstn (i + length d) b)) by (rewrite firstn_length; lia).
      f_equal. rewrite firstn_length. lia.
Qed.

Lemma overwritten_fun b i d x y : (i + length d <= length b)%nat -> overwritten b i d x -> overwritten b i d y -> x = y.
Proof.
  intros L (L1 & A1 & B1) (L2 & A2 & B2). apply nth_error_eq. intros k.
  destruct (Nat.lt_ge_cases k i) as [K|K]; [rewrite B1, B2 by lia; reflexivity|].
  destruct (Nat.lt_ge_cases k (i + length d)) as [K'|K']; [|rewrite B1, B2 by lia; reflexivity].
  replace k with (i + (k - i))%nat by lia. rewrite A1, A2 by lia. reflexivity.
Qed.

(** ** reading slices *)

Lemma get_length h s : wf_sl h s -> length (get h s) = s_len s.
Proof. intros (A & B & C & _). unfold get. rewrite firstn_length, skipn_length. lia. Qed.

Lemma spare_length h s : wf_sl h s -> length (get_spare h s) = (s_cap s - s_len s)%nat.
Proof. intros (A & B & C & _). unfold get_spare. rewrite firstn_length, skipn_length. lia. Qed.

Lemma skipn_add {A} n m (l : list A) : skipn (n + m) l = skipn m (skipn n l).
Proof. revert l. induction n as [|n IH]; intros l; [reflexivity|]. destruct l; [now destruct m|]. apply IH. Qed.

Lemma firstn_split {A} n m (l : list A) : (n <= m)%nat -> firstn n l ++ firstn (m - n) (skipn n l) = firstn m l.
Proof.
  intros L. revert m l L. induction n as [|n IH]; intros m l L; [cbn [firstn skipn app]; now rewrite Nat.sub_0_r|].
  destruct m as [|m]; [lia|]. destruct l as [|x l]; [cbn [skipn]; now rewrite !firstn_nil|]. cbn [firstn skipn app Nat.sub]. f_equal. apply IH. lia.
Qed.

Lemma view_all h s : wf_sl h s -> vis (view h s) ++ spare (view h s) = firstn (s_cap s) (skipn (s_off s) (arr h (s_arr s))).
Proof.
  intros (A & B & C & _). cbn [view vis spare]. unfold get, get_spare. rewrite skipn_add. now apply firstn_split.
Qed.

Lemma view_slen h s : wf_sl h s -> slen (view h s) = Z.of_nat (s_len s).
Proof. intros W. unfold slen. cbn [view vis]. now rewrite get_length. Qed.
Lemma view_scap h s : wf_sl h s -> scap (view h s) = Z.of_nat (s_cap s).
Proof. intros W. unfold scap. cbn [view vis spare]. rewrite get_length, spare_length by assumption. destruct W as (_ & B & _). lia. Qed.

Lemma skipn_firstn_sub {A} n m (l : list A) : skipn n (firstn m l) = firstn (m - n) (skipn n l).
Proof. apply skipn_firstn_comm. Qed.

Lemma view_sub h b lo hi : wf_sl h b ->
  match h_sub b lo hi with
  | Some s => sl_sub (view h b) lo hi = Some (view h s) /\ wf_sl h s /\ s_arr s = s_arr b /\ (0 <= lo <= hi)%Z /\
      s_off s = (s_off b + Z.to_nat lo)%nat /\ s_len s = Z.to_nat (hi - lo) /\ (s_off s + s_cap s = s_off b + s_cap b)%nat /\ (hi <= Z.of_nat (s_cap b))%Z
  | None => sl_sub (view h b) lo hi = None
  end.
Proof.
  intros W. unfold h_sub, sl_sub. rewrite view_scap, view_all by assumption. destruct ((0 <=? lo) && (lo <=? hi) && (hi <=? Z.of_nat (s_cap b)))%Z eqn:E; [|reflexivity].
  cbv zeta. cbn [s_arr s_off s_len s_cap]. destruct W as (A & B & C & D). split; [|split].
  - f_equal. unfold view, get, get_spare. cbn [s_arr s_off s_len s_cap]. f_equal.
    + rewrite skipn_firstn_sub, firstn_firstn, skipn_add. f_equal. lia.
    + rewrite skipn_firstn_sub. rewrite <- !skipn_add. f_equal; [lia|]. f_equal. lia.
  - unfold wf_sl. cbn [s_arr s_off s_len s_cap]. split; [assumption|]. split; [lia|]. split; [lia|assumption].
  - split; [reflexivity|]. split; [lia|]. split; [reflexivity|]. split; [reflexivity|]. split; lia.
Qed.

Lemma view_from h b lo : wf_sl h b ->
  match h_from b lo with
  | Some s => sl_from (view h b) lo = Some (view h s) /\ wf_sl h s /\ s_arr s = s_arr b /\ (0 <= lo <= Z.of_nat (s_len b))%Z /\
      s_off s = (s_off b + Z.to_nat lo)%nat /\ s_len s = (s_len b - Z.to_nat lo)%nat /\ (s_off s + s_cap s = s_off b + s_cap b)%nat
  | None => sl_from (view h b) lo = None
  end.
Proof.
  intros W. unfold h_from, sl_from. rewrite view_slen by assumption. pose proof (view_sub h b lo (Z.of_nat (s_len b)) W) as V.
  destruct (h_sub b lo (Z.of_nat (s_len b))) as [s|]; [|exact V]. destruct V as (V1 & V2 & V3 & V4 & V5 & V6 & V7 & _).
  split; [exact V1|]. split; [exact V2|]. split; [exact V3|]. split; [lia|]. split; [exact V5|]. split; [lia|exact V7].
Qed.

(** ** the parser on memory does what the parser on values does *)

Definition rmap {A B} (f : A -> B) (r : res A) : res B := match r with Ok a => Ok (f a) | Err e => Err e | Panic => Panic end.

Lemma h_input_refines h b : wf_sl h b -> input_from_bytes (view h b) = rmap (fun p => (abs_in h (fst p), snd p)) (h_input h b).
Proof.
  intros W. unfold input_from_bytes, h_input. rewrite view_slen by assumption. destruct (Z.of_nat (s_len b) <? 36)%Z; [reflexivity|].
  pose proof (view_sub h b 0 32 W) as V. destruct (h_sub b 0 32) as [p|]; [destruct V as (-> & _)|rewrite V; reflexivity]. cbn [or_panic bind]. cbv zeta.
  pose proof (view_sub h b 32 36 W) as V. destruct (h_sub b 32 36) as [ix|]; [destruct V as (-> & _)|rewrite V; reflexivity]. cbn [or_panic bind].
  destruct (sl_le 4 (view h ix)) as [index|]; [|reflexivity]. cbn [or_panic bind].
  pose proof (view_from h b 36 W) as V. destruct (h_from b 36) as [rest|]; [destruct V as (-> & _)|rewrite V; reflexivity]. cbn [or_panic bind].
  destruct (decode_varint (view h rest)) as [[l size]|e|]; [|reflexivity..]. cbn [bind]. cbv zeta.
  destruct (Z.of_nat (s_len b) <? wrap_int (wrap_int (36 + size + int_of_u64 l) + 4))%Z; [reflexivity|].
  set (hi := wrap_int (36 + size + int_of_u64 l)).
  pose proof (view_sub h b (36 + size) hi W) as V. destruct (h_sub b (36 + size) hi) as [s|]; [destruct V as (-> & _)|rewrite V; reflexivity]. cbn [or_panic bind].
  pose proof (view_from h b hi W) as V. destruct (h_from b hi) as [sq|]; [destruct V as (-> & _)|rewrite V; reflexivity]. cbn [or_panic bind].
  destruct (sl_le 4 (view h sq)) as [seq|]; reflexivity.
Qed.

Lemma h_output_refines h b : wf_sl h b -> output_from_bytes (view h b) = rmap (fun p => (abs_out h (fst p), snd p)) (h_output h b).
Proof.
  intros W. unfold output_from_bytes, h_output. rewrite view_slen by assumption. destruct (Z.of_nat (s_len b) <? 8)%Z; [reflexivity|].
  pose proof (view_sub h b 0 8 W) as V. destruct (h_sub b 0 8) as [v|]; [destruct V as (-> & _)|rewrite V; reflexivity]. cbn [or_panic bind].
  destruct (sl_le 8 (view h v)) as [sats|]; [|reflexivity]. cbn [or_panic bind].
  pose proof (view_from h b 8 W) as V. destruct (h_from b 8) as [rest|]; [destruct V as (-> & _)|rewrite V; reflexivity]. cbn [or_panic bind].
  destruct (decode_varint (view h rest)) as [[l size]|e|]; [|reflexivity..]. cbn [bind]. cbv zeta.
  set (hi := wrap_int (8 + size + int_of_u64 l)). destruct (Z.of_nat (s_len b) <? hi)%Z; [reflexivity|].
  pose proof (view_sub h b (8 + size) hi W) as V. destruct (h_sub b (8 + size) hi) as [s|]; [destruct V as (-> & _)|rewrite V; reflexivity]. reflexivity.
Qed.

Lemma loop_refines {S T} (f : S -> res S) (g : T -> res T) (p : T -> S) n :
  (forall t, f (p t) = rmap p (g t)) -> forall t, n_loop f n (p t) = rmap p (n_loop g n t).
Proof.
  intros H t. rewrite !n_loop_nat. revert t. induction (N.to_nat n) as [|k IH]; intros t; cbn [nat_loop]; [reflexivity|].
  rewrite H. destruct (g t); cbn [rmap bind]; [apply IH|reflexivity..].
Qed.

Lemma h_tx_refines h b : wf_sl h b -> tx_from_slice (view h b) = rmap (abs_tx h) (h_tx h b).
Proof.
  intros W. unfold tx_from_slice, h_tx. rewrite view_slen by assumption. destruct (Z.of_nat (s_len b) <? 10)%Z; [reflexivity|].
  pose proof (view_sub h b 0 4 W) as V. destruct (h_sub b 0 4) as [vs|]; [destruct V as (-> & _)|rewrite V; reflexivity]. cbn [or_panic bind].
  destruct (sl_le 4 (view h vs)) as [ver|]; [|reflexivity]. cbn [or_panic bind]. cbv zeta.
  pose proof (view_from h b 4 W) as V. destruct (h_from b 4) as [rest|]; [destruct V as (-> & _)|rewrite V; reflexivity]. cbn [or_panic bind].
  destruct (decode_varint (view h rest)) as [[inputCount size]|e|]; [|reflexivity..]. cbn [bind]. cbv zeta.
  assert (forall st, tx_input_step (view h b) (fst st, map (abs_in h) (snd st)) = rmap (fun st => (fst st, map (abs_in h) (snd st))) (h_input_step h b st)) as SI.
  { intros [o ins]. cbn [fst snd tx_input_step h_input_step]. pose proof (view_from h b o W) as V. destruct (h_from b o) as [r|]; [destruct V as (-> & Wr & _)|rewrite V; reflexivity].
    cbn [or_panic bind]. rewrite (h_input_refines h r Wr). destruct (h_input h r) as [[i z]|e|]; cbn [rmap bind fst snd]; [|reflexivity..]. now rewrite map_app. }
  assert (forall st, tx_output_step (view h b) (fst st, map (abs_out h) (snd st)) = rmap (fun st => (fst st, map (abs_out h) (snd st))) (h_output_step h b st)) as SO.
  { intros [o outs]. cbn [fst snd tx_output_step h_output_step]. pose proof (view_from h b o W) as V. destruct (h_from b o) as [r|]; [destruct V as (-> & Wr & _)|rewrite V; reflexivity].
    cbn [or_panic bind]. rewrite (h_output_refines h r Wr). destruct (h_output h r) as [[i z]|e|]; cbn [rmap bind fst snd]; [|reflexivity..]. now rewrite map_app. }
  pose proof (loop_refines _ _ _ inputCount SI (wrap_int (4 + size), [])) as LI. cbn [fst snd map] in LI. rewrite LI. clear LI.
  destruct (n_loop (h_input_step h b) inputCount (wrap_int (4 + size), [])) as [[o1 ins]|e|]; cbn [rmap bind fst snd]; [|reflexivity..].
  pose proof (view_from h b o1 W) as V. destruct (h_from b o1) as [rest1|]; [destruct V as (-> & _)|rewrite V; reflexivity]. cbn [or_panic bind].
  destruct (decode_varint (view h rest1)) as [[outputCount size1]|e|]; [|reflexivity..]. cbn [bind]. cbv zeta.
  pose proof (loop_refines _ _ _ outputCount SO (wrap_int (o1 + size1), [])) as LO. cbn [fst snd map] in LO. rewrite LO. clear LO.
  destruct (n_loop (h_output_step h b) outputCount (wrap_int (o1 + size1), [])) as [[o2 outs]|e|]; cbn [rmap bind fst snd]; [|reflexivity..].
  pose proof (view_from h b o2 W) as V. destruct (h_from b o2) as [nlt|]; [destruct V as (-> & Wn & _)|rewrite V; reflexivity]. cbn [or_panic bind].
  rewrite view_slen by assumption. destruct (negb (Z.of_nat (s_len nlt) =? 4)%Z); [reflexivity|].
  destruct (sl_le 4 (view h nlt)) as [lt|]; reflexivity.
Qed.

(** ** where the scripts lie *)

Lemma wrap_small z : (- 2 ^ 63 <= z < 2 ^ 63)%Z -> wrap_int z = z.
Proof. apply wrap_int_small. Qed.

Lemma h_input_place h b i n : wf_sl h b -> h_input h b = Ok (i, n) ->
  let s := m_unlocking i in
  wf_sl h s /\ s_arr s = s_arr b /\ (s_off s + s_cap s = s_off b + s_cap b)%nat /\ (s_off b + 37 <= s_off s)%nat /\
  (0 <= n <= Z.of_nat (s_len b))%Z /\ (Z.of_nat (s_off s + s_len s + 4) = Z.of_nat (s_off b) + n)%Z.
Proof.
  intros W. unfold h_input. destruct (Z.of_nat (s_len b) <? 36)%Z; [discriminate|].
  destruct (h_sub b 0 32) as [p|]; [|discriminate]. cbn [or_panic bind]. cbv zeta.
  destruct (h_sub b 32 36) as [ix|]; [|discriminate]. cbn [or_panic bind].
  destruct (sl_le 4 (view h ix)) as [index|]; [|discriminate]. cbn [or_panic bind].
  destruct (h_from b 36) as [rest|]; [|discriminate]. cbn [or_panic bind].
  destruct (decode_varint (view h rest)) as [[l size]|e|] eqn:D; [|discriminate..]. cbn [bind].
  apply decode_varint_size in D as [K _].
  set (hi := wrap_int (36 + size + int_of_u64 l)).
  destruct (Z.of_nat (s_len b) <? wrap_int (hi + 4))%Z eqn:L; [discriminate|].
  pose proof (view_sub h b (36 + size) hi W) as V. destruct (h_sub b (36 + size) hi) as [s|]; [|discriminate]. cbn [or_panic bind].
  destruct V as (_ & Ws & Va & Vb & Vo & Vl & Vc & Vd). destruct W as (W1 & W2 & W3 & W4).
  destruct (h_from b hi) as [sq|]; [|discriminate]. cbn [or_panic bind].
  destruct (sl_le 4 (view h sq)) as [seq|]; [|discriminate]. cbn [or_panic bind]. intros E. injection E as <- <-. cbn [m_unlocking].
  rewrite wrap_small in * by lia. split; [exact Ws|]. split; [exact Va|]. split; [exact Vc|]. lia.
Qed.

Lemma h_output_place h b o n : wf_sl h b -> h_output h b = Ok (o, n) ->
  let s := m_locking o in
  wf_sl h s /\ s_arr s = s_arr b /\ (s_off s + s_cap s = s_off b + s_cap b)%nat /\ (s_off b + 9 <= s_off s)%nat /\
  (0 <= n <= Z.of_nat (s_len b))%Z /\ (Z.of_nat (s_off s + s_len s) = Z.of_nat (s_off b) + n)%Z.
Proof.
  intros W. unfold h_output. destruct (Z.of_nat (s_len b) <? 8)%Z; [discriminate|].
  destruct (h_sub b 0 8) as [v|]; [|discriminate]. cbn [or_panic bind].
  destruct (sl_le 8 (view h v)) as [sats|]; [|discriminate]. cbn [or_panic bind].
  destruct (h_from b 8) as [rest|]; [|discriminate]. cbn [or_panic bind].
  destruct (decode_varint (view h rest)) as [[l size]|e|] eqn:D; [|discriminate..]. cbn [bind]. cbv zeta.
  apply decode_varint_size in D as [K _].
  set (hi := wrap_int (8 + size + int_of_u64 l)).
  destruct (Z.of_nat (s_len b) <? hi)%Z eqn:L; [discriminate|].
  pose proof (view_sub h b (8 + size) hi W) as V. destruct (h_sub b (8 + size) hi) as [s|]; [|discriminate]. cbn [or_panic bind].
  destruct V as (_ & Ws & Va & Vb & Vo & Vl & Vc & Vd). intros E. injection E as <- <-. cbn [m_locking].
  split; [exact Ws|]. split; [exact Va|]. split; [exact Vc|]. lia.
Qed.

Definition placed (h : heap) (b : sl) (o : Z) (l : list sl) : Prop :=
  Forall (fun s => wf_sl h s /\ s_arr s = s_arr b /\ (s_off s + s_cap s = s_off b + s_cap b)%nat /\
    (Z.of_nat (s_off s + s_len s) <= Z.of_nat (s_off b) + o)%Z /\ (s_off b <= s_off s)%nat) l /\
  StronglySorted (after 9) l.

Lemma sorted_snoc {A} (R : A -> A -> Prop) l x : StronglySorted R l -> Forall (fun y => R y x) l -> StronglySorted R (l ++ [x]).
Proof.
  induction l as [|y l IH]; intros S F; [repeat constructor|]. inversion S; subst. inversion F; subst. cbn [app]. constructor; [now apply IH|].
  apply Forall_app. split; [assumption|now constructor].
Qed.

Lemma placed_mono h b o o' l : (o <= o')%Z -> placed h b o l -> placed h b o' l.
Proof. intros L [F S]. split; [|exact S]. eapply Forall_impl; [|exact F]. cbn. intros s (A & B & C & D & G). repeat (split; [assumption|]). lia. Qed.

Lemma placed_snoc h b o o' l s : placed h b o l -> (0 <= o <= o')%Z -> wf_sl h s -> s_arr s = s_arr b -> (s_off s + s_cap s = s_off b + s_cap b)%nat ->
  (Z.of_nat (s_off b) + o + 9 <= Z.of_nat (s_off s))%Z -> (Z.of_nat (s_off s + s_len s) <= Z.of_nat (s_off b) + o')%Z -> placed h b o' (l ++ [s]).
Proof.
  intros P L W A C O E. destruct (placed_mono _ _ _ _ _ (proj2 L) P) as [F' _]. destruct P as [F S]. split.
  - apply Forall_app. split; [exact F'|]. constructor; [|constructor]. repeat (split; [assumption|]). lia.
  - apply sorted_snoc; [exact S|]. eapply Forall_impl; [|exact F]. cbn. intros x (_ & B & _ & D & _). split; [congruence|lia].
Qed.

Lemma loop_inv {S} (f : S -> res S) (I : S -> Prop) n : (forall s s', I s -> f s = Ok s' -> I s') -> forall s s', I s -> n_loop f n s = Ok s' -> I s'.
Proof.
  intros H s s'. rewrite n_loop_nat. revert s. induction (N.to_nat n) as [|k IH]; intros s Hs; cbn [nat_loop]; [congruence|].
  destruct (f s) as [s1| |] eqn:E; [|discriminate..]. cbn [bind]. apply IH. now apply (H s).
Qed.

Lemma input_step_place h b pre o ins o' ins' : wf_sl h b -> (0 <= o)%Z /\ placed h b o (pre ++ map m_unlocking ins) ->
  h_input_step h b (o, ins) = Ok (o', ins') -> (0 <= o')%Z /\ placed h b o' (pre ++ map m_unlocking ins').
Proof.
  intros W [O P]. unfold h_input_step. pose proof (view_from h b o W) as V. destruct (h_from b o) as [r|]; [|discriminate]. cbn [or_panic bind].
  destruct V as (_ & Wr & Va & Vb & Vo & Vl & Vc). destruct (h_input h r) as [[i z]|e|] eqn:E; [|discriminate..]. cbn [bind].
  apply h_input_place in E; [|assumption]. cbv zeta in E. destruct E as (Ws & E1 & E2 & E3 & E4 & E5). destruct W as (W1 & W2 & W3 & W4).
  intros X. injection X as <- <-. rewrite wrap_small by lia. split; [lia|]. rewrite map_app, app_assoc. cbn [map].
  apply (placed_snoc h b o); [assumption|lia|assumption|congruence|lia|lia|lia].
Qed.

Lemma output_step_place h b pre o outs o' outs' : wf_sl h b -> (0 <= o)%Z /\ placed h b o (pre ++ map m_locking outs) ->
  h_output_step h b (o, outs) = Ok (o', outs') -> (0 <= o')%Z /\ placed h b o' (pre ++ map m_locking outs').
Proof.
  intros W [O P]. unfold h_output_step. pose proof (view_from h b o W) as V. destruct (h_from b o) as [r|]; [|discriminate]. cbn [or_panic bind].
  destruct V as (_ & Wr & Va & Vb & Vo & Vl & Vc). destruct (h_output h r) as [[i z]|e|] eqn:E; [|discriminate..]. cbn [bind].
  apply h_output_place in E; [|assumption]. cbv zeta in E. destruct E as (Ws & E1 & E2 & E3 & E4 & E5). destruct W as (W1 & W2 & W3 & W4).
  intros X. injection X as <- <-. rewrite wrap_small by lia. split; [lia|]. rewrite map_app, app_assoc. cbn [map].
  apply (placed_snoc h b o); [assumption|lia|assumption|congruence|lia|lia|lia].
Qed.

Lemma h_tx_place h b m : wf_sl h b -> h_tx h b = Ok m -> placed h b (Z.of_nat (s_len b) - 4) (scripts m).
Proof.
  intros W. unfold h_tx. destruct (Z.of_nat (s_len b) <? 10)%Z; [discriminate|].
  destruct (h_sub b 0 4) as [vs|]; [|discriminate]. cbn [or_panic bind].
  destruct (sl_le 4 (view h vs)) as [ver|]; [|discriminate]. cbn [or_panic bind]. cbv zeta.
  destruct (h_from b 4) as [rest|]; [|discriminate]. cbn [or_panic bind].
  destruct (decode_varint (view h rest)) as [[ic size]|e|] eqn:D; [|discriminate..]. cbn [bind].
  apply decode_varint_size in D as [K _].
  assert ((0 <= fst (wrap_int (4 + size), @nil minput))%Z /\ placed h b (fst (wrap_int (4 + size), @nil minput)) ([] ++ map m_unlocking (snd (wrap_int (4 + size), @nil minput)))) as I.
  { cbn [fst snd map app]. rewrite wrap_small by lia. split; [lia|]. split; constructor. }
  destruct (n_loop (h_input_step h b) ic (wrap_int (4 + size), [])) as [[o1 ins]|e|] eqn:L; [|discriminate..]. cbn [bind].
  apply (loop_inv _ (fun st => (0 <= fst st)%Z /\ placed h b (fst st) ([] ++ map m_unlocking (snd st))) ic) in L; [|intros [o1' i1] [o2' i2] P E; exact (input_step_place h b [] _ _ _ _ W P E)|exact I]. clear I.
  cbn [fst snd app] in L. destruct L as [O1 L].
  pose proof (view_from h b o1 W) as V. destruct (h_from b o1) as [rest1|]; [|discriminate]. destruct V as (_ & _ & _ & Vb & _). cbn [or_panic bind].
  destruct (decode_varint (view h rest1)) as [[oc size1]|e|] eqn:D; [|discriminate..]. cbn [bind].
  apply decode_varint_size in D as [K1 _]. pose proof W as (W1 & W2 & W3 & W4).
  rewrite (wrap_small (o1 + size1)) by lia.
  assert ((0 <= fst ((o1 + size1)%Z, @nil moutput))%Z /\ placed h b (fst ((o1 + size1)%Z, @nil moutput)) (map m_unlocking ins ++ map m_locking (snd ((o1 + size1)%Z, @nil moutput)))) as I.
  { cbn [fst snd map]. rewrite app_nil_r. split; [lia|]. apply (placed_mono h b o1); [lia|assumption]. }
  destruct (n_loop (h_output_step h b) oc ((o1 + size1)%Z, [])) as [[o2 outs]|e|] eqn:L2; [|discriminate..]. cbn [bind].
  apply (loop_inv _ (fun st => (0 <= fst st)%Z /\ placed h b (fst st) (map m_unlocking ins ++ map m_locking (snd st))) oc) in L2; [|intros [o1' i1] [o2' i2] P E; exact (output_step_place h b _ _ _ _ _ W P E)|exact I]. clear I.
  cbn [fst snd] in L2. destruct L2 as [O2 L2].
  pose proof (view_from h b o2 W) as V. destruct (h_from b o2) as [nlt|]; [|discriminate]. destruct V as (_ & _ & _ & Vc & _ & Vl & _). cbn [or_panic bind].
  destruct (negb (Z.of_nat (s_len nlt) =? 4)%Z) eqn:N; [discriminate|].
  destruct (sl_le 4 (view h nlt)) as [lt|]; [|discriminate]. cbn [or_panic bind]. intros X. injection X as <-. unfold scripts. cbn [m_ins m_outs].
  apply (placed_mono h b o2); [lia|assumption].
Qed.

(** ** writing *)

Lemma nth_firstn {A} n (l : list A) k : nth_error (firstn n l) k = if Nat.ltb k n then nth_error l k else None.
Proof.
  revert l k. induction n as [|n IH]; intros l k; [cbn [firstn]; now destruct k|].
  destruct l as [|x l]; [cbn [firstn]; destruct k; cbn [nth_error]; now destruct (Nat.ltb _ _)|].
  destruct k as [|k]; [reflexivity|]. cbn [firstn nth_error]. rewrite IH. reflexivity.
Qed.

Lemma nth_skipn {A} n (l : list A) k : nth_error (skipn n l) k = nth_error l (n + k).
Proof. revert l. induction n as [|n IH]; intros l; [reflexivity|]. destruct l; [now destruct k|]. apply IH. Qed.

Lemma nth_get h s k : nth_error (get h s) k = if Nat.ltb k (s_len s) then nth_error (arr h (s_arr s)) (s_off s + k) else None.
Proof. unfold get. rewrite nth_firstn, nth_skipn. reflexivity. Qed.

(** every slice after a write into an array *)
Lemma h_write_get h a i d t k c : (a < length h)%nat -> (i + length d <= length (arr h a))%nat ->
  nth_error (get h t) k = Some c ->
  nth_error (get (h_write h a i d) t) k = Some (if (Nat.eqb (s_arr t) a && Nat.leb i (s_off t + k))%bool then nth (s_off t + k - i) d c else c).
Proof.
  intros A L. rewrite !nth_get. destruct (Nat.ltb k (s_len t)) eqn:K; [|discriminate]. unfold h_write. rewrite arr_set.
  destruct (write_overwritten (arr h a) i d L) as (_ & W1 & W2). intros H.
  destruct (Nat.eqb (s_arr t) a) eqn:E.
  - apply Nat.eqb_eq in E. rewrite E in *. replace (Nat.ltb a (length h)) with true by (symmetry; now apply Nat.ltb_lt). cbn [andb].
    destruct (Nat.leb i (s_off t + k)) eqn:I; [|rewrite W2 by lia; exact H].
    destruct (Nat.lt_ge_cases (s_off t + k) (i + length d)) as [J|J].
    + replace (s_off t + k)%nat with (i + (s_off t + k - i))%nat at 1 by lia. rewrite W1 by lia. apply nth_error_nth'. lia.
    + rewrite W2 by lia. rewrite nth_overflow by lia. exact H.
  - cbn [andb]. exact H.
Qed.

Lemma h_write_other h a i d t : (a < length h)%nat -> (i + length d <= length (arr h a))%nat ->
  (s_arr t <> a \/ s_off t + s_len t <= i \/ i + length d <= s_off t)%nat -> get (h_write h a i d) t = get h t.
Proof.
  intros A L D. apply nth_error_eq. intros k. destruct (nth_error (get h t) k) as [c|] eqn:E.
  - rewrite (h_write_get _ _ _ _ _ _ c A L E). f_equal. destruct (Nat.eqb (s_arr t) a && Nat.leb i (s_off t + k))%bool eqn:X; [|reflexivity].
    assert (k < s_len t)%nat by (rewrite nth_get in E; destruct (Nat.ltb k (s_len t)) eqn:K; [lia|discriminate]). apply nth_overflow. lia.
  - rewrite nth_get in *. destruct (Nat.ltb k (s_len t)); [|reflexivity].
    apply nth_error_None in E. apply nth_error_None. unfold h_write. rewrite arr_set.
    destruct (Nat.eqb (s_arr t) a && Nat.ltb a (length h))%bool eqn:X; [|exact E].
    apply andb_prop in X as [X _]. apply Nat.eqb_eq in X. rewrite X in E. now rewrite write_length.
Qed.

Lemma h_write_arr h a i d x : (a < length h)%nat -> arr (h_write h a i d) x = if Nat.eqb x a then write_at (arr h a) i d else arr h x.
Proof. intros A. unfold h_write. rewrite arr_set. replace (Nat.ltb a (length h)) with true by (symmetry; now apply Nat.ltb_lt). now rewrite andb_true_r. Qed.

Lemma set_nth_length {A} n (x : A) l : length (set_nth n x l) = length l.
Proof. revert n. induction l as [|y l IH]; intros n; [now destruct n|]. destruct n; cbn [set_nth length]; [reflexivity|]. now rewrite IH. Qed.

Lemma arr_alloc_old h b k x : (x < length h)%nat -> arr (fst (h_alloc h b k)) x = arr h x.
Proof. intros L. cbn [h_alloc fst]. unfold arr. now rewrite app_nth1. Qed.
Lemma arr_alloc_new h b k : arr (fst (h_alloc h b k)) (length h) = b ++ repeat x00 k.
Proof. cbn [h_alloc fst]. unfold arr. rewrite app_nth2 by lia. now rewrite Nat.sub_diag. Qed.
Lemma get_alloc h b k : get (fst (h_alloc h b k)) (snd (h_alloc h b k)) = b.
Proof.
  unfold get. cbn [h_alloc snd s_arr s_off s_len]. change (h ++ [b ++ repeat x00 k]) with (fst (h_alloc h b k)). rewrite arr_alloc_new. cbn [skipn].
  now rewrite firstn_app, Nat.sub_diag, firstn_all, app_nil_r.
Qed.
Lemma get_old h h' t : arr h' (s_arr t) = arr h (s_arr t) -> get h' t = get h t.
Proof. intros E. unfold get. now rewrite E. Qed.

(** ** append *)

Lemma append_fits k h s d : (s_len s + length d <= s_cap s)%nat ->
  h_append k h s d = (h_write h (s_arr s) (s_off s + s_len s) d, mk_sl (s_arr s) (s_off s) (s_len s + length d) (s_cap s)).
Proof. intros L. unfold h_append. replace (Nat.leb _ _) with true by (symmetry; now apply Nat.leb_le). reflexivity. Qed.
Lemma append_moves k h s d : (s_cap s < s_len s + length d)%nat -> h_append k h s d = h_alloc h (get h s ++ d) k.
Proof. intros L. unfold h_append. replace (Nat.leb _ _) with false by (symmetry; now apply Nat.leb_gt). reflexivity. Qed.

Lemma append_value k h s d h' s' : wf_sl h s -> h_append k h s d = (h', s') -> get h' s' = get h s ++ d.
Proof.
  intros (A & B & C & _) E. destruct (Nat.le_gt_cases (s_len s + length d) (s_cap s)) as [F|F].
  - rewrite append_fits in E by assumption. injection E as <- <-. unfold get. cbn [s_arr s_off s_len]. rewrite h_write_arr, Nat.eqb_refl by assumption.
    unfold write_at.
    assert (length (firstn (s_off s + s_len s) (arr h (s_arr s))) = s_off s + s_len s)%nat as LF by (rewrite firstn_length; lia).
    rewrite skipn_app, LF. replace (s_off s - (s_off s + s_len s))%nat with 0%nat by lia. cbn [skipn]. rewrite skipn_firstn_comm.
    replace (s_off s + s_len s - s_off s)%nat with (s_len s) by lia.
    set (x := firstn (s_len s) (skipn (s_off s) (arr h (s_arr s)))). assert (length x = s_len s) as LX by (unfold x; rewrite firstn_length, skipn_length; lia).
    rewrite firstn_app, LX. rewrite firstn_all2 by lia. f_equal. replace (s_len s + length d - s_len s)%nat with (length d) by lia.
    now rewrite firstn_app, Nat.sub_diag, firstn_all, app_nil_r.
  - rewrite append_moves in E by assumption. pose proof (get_alloc h (get h s ++ d) k) as G. rewrite E in G. exact G.
Qed.

(** ** the merkle root from the coinbase *)

Lemma merkle_rest k branches : forall h acc, (s_cap acc = s_len acc)%nat -> wf_sl h acc ->
  let r := h_merkle k h acc branches in
  get (fst r) (snd r) = build_merkle_root_from_coinbase (get h acc) branches /\
  (forall a, (a < length h)%nat -> arr (fst r) a = arr h a).
Proof.
  induction branches as [|b br IH]; intros h acc E W; cbn [h_merkle]; [split; reflexivity|].
  destruct (h_append k h acc (hex_ignore b)) as [h1 c] eqn:A.
  pose proof (append_value _ _ _ _ _ _ W A) as G.
  assert (forall a, (a < length h)%nat -> arr h1 a = arr h a) as O.
  { intros a La. destruct (Nat.eq_dec (length (hex_ignore b)) 0) as [Z|Z].
    - destruct (hex_ignore b) as [|? ?]; [|discriminate]. rewrite append_fits in A by (cbn [length]; lia). injection A as <- _.
      rewrite h_write_arr by apply W. unfold write_at. cbn [length app]. rewrite Nat.add_0_r, firstn_skipn. destruct (Nat.eqb a (s_arr acc)) eqn:X; [apply Nat.eqb_eq in X; congruence|reflexivity].
    - rewrite append_moves in A by lia. replace h1 with (fst (h_alloc h (get h acc ++ hex_ignore b) k)) by now rewrite A. now apply arr_alloc_old. }
  assert (length h <= length h1)%nat as LL.
  { unfold h_append in A. destruct (Nat.leb _ _); injection A as <- _; [unfold h_write; now rewrite set_nth_length|rewrite app_length; lia]. }
  destruct (h_alloc h1 (sha256d (get h1 c)) 0) as [h2 hs] eqn:B. cbv beta iota.
  pose proof (get_alloc h1 (sha256d (get h1 c)) 0) as G2. pose proof (arr_alloc_new h1 (sha256d (get h1 c)) 0) as AN.
  pose proof (fun x => arr_alloc_old h1 (sha256d (get h1 c)) 0 x) as AO. rewrite B in G2, AN, AO. cbn [fst snd] in G2, AN, AO.
  assert (length h2 = S (length h1)) as L2 by (unfold h_alloc in B; injection B as <- _; rewrite app_length; cbn [length]; lia).
  assert (hs = mk_sl (length h1) 0 32 32) as HS.
  { unfold h_alloc in B. injection B as _ <-. rewrite sha256d_length. reflexivity. }
  assert (wf_sl h2 hs) as W2.
  { rewrite HS. unfold wf_sl. cbn [s_arr s_off s_len s_cap]. rewrite AN, app_length, sha256d_length. cbn [repeat length]. lia. }
  destruct (IH h2 hs) as [I1 I2]; [now rewrite HS|exact W2|]. split.
  - rewrite I1, G2, G. reflexivity.
  - intros a La. rewrite I2 by lia. rewrite AO by lia. now apply O.
Qed.

Lemma merkle_all k h c branches : wf_sl h c ->
  let r := h_merkle k h c branches in
  get (fst r) (snd r) = build_merkle_root_from_coinbase (get h c) branches /\
  (forall a, (a < length h)%nat -> arr (fst r) a =
     match branches with
     | b :: _ => if (Nat.eqb a (s_arr c) && Nat.leb (s_len c + length (hex_ignore b)) (s_cap c))%bool
                 then write_at (arr h a) (s_off c + s_len c) (hex_ignore b) else arr h a
     | [] => arr h a
     end).
Proof.
  intros W. destruct branches as [|b br]; cbn [h_merkle]; [split; reflexivity|].
  destruct (h_append k h c (hex_ignore b)) as [h1 cc] eqn:A.
  pose proof (append_value _ _ _ _ _ _ W A) as G.
  assert (length h <= length h1)%nat as LL.
  { unfold h_append in A. destruct (Nat.leb _ _); injection A as <- _; [unfold h_write; now rewrite set_nth_length|rewrite app_length; lia]. }
  destruct (h_alloc h1 (sha256d (get h1 cc)) 0) as [h2 hs] eqn:B. cbv beta iota.
  pose proof (get_alloc h1 (sha256d (get h1 cc)) 0) as G2. pose proof (arr_alloc_new h1 (sha256d (get h1 cc)) 0) as AN.
  pose proof (fun x => arr_alloc_old h1 (sha256d (get h1 cc)) 0 x) as AO. rewrite B in G2, AN, AO. cbn [fst snd] in G2, AN, AO.
  assert (length h2 = S (length h1)) as L2 by (unfold h_alloc in B; injection B as <- _; rewrite app_length; cbn [length]; lia).
  assert (hs = mk_sl (length h1) 0 32 32) as HS.
  { unfold h_alloc in B. injection B as _ <-. rewrite sha256d_length. reflexivity. }
  assert (wf_sl h2 hs) as W2.
  { rewrite HS. unfold wf_sl. cbn [s_arr s_off s_len s_cap]. rewrite AN, app_length, sha256d_length. cbn [repeat length]. lia. }
  destruct (merkle_rest k br h2 hs) as [I1 I2]; [now rewrite HS|exact W2|]. split.
  - rewrite I1, G2, G. reflexivity.
  - intros a La. rewrite I2 by lia. rewrite AO by lia.
    destruct (Nat.leb (s_len c + length (hex_ignore b)) (s_cap c)) eqn:F.
    + rewrite append_fits in A by lia. injection A as <- _. rewrite h_write_arr by apply W. rewrite andb_true_r.
      destruct (Nat.eqb a (s_arr c)) eqn:X; [|reflexivity]. apply Nat.eqb_eq in X. now rewrite X.
    + rewrite append_moves in A by lia. rewrite andb_false_r. replace h1 with (fst (h_alloc h (get h c ++ hex_ignore b) k)) by now rewrite A. now apply arr_alloc_old.
Qed.

(** ** sorting in place *)

Lemma chain_sorted {A} (R : A -> A -> Prop) : (forall x y z, R x y -> R y z -> R x z) -> forall l,
  (forall i a b, nth_error l i = Some a -> nth_error l (S i) = Some b -> R a b) -> StronglySorted R l.
Proof.
  intros T l H. apply Sorted_StronglySorted; [exact T|]. induction l as [|x l IH]; [constructor|]. constructor.
  - apply IH. intros i a b Ha Hb. exact (H (S i) a b Ha Hb).
  - destruct l as [|y l]; constructor. exact (H O x y eq_refl eq_refl).
Qed.
