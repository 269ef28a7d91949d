(** Lemmas: what parsing reads, and what a parsed transaction shows later. *)
From Verif Require Export S_Reuse P_Mem.
From Verif Require Import S_Fee T_Fee T_Tx P_Tx P_TxParse P_TxSer P_Utils.
From Coq Require Import ZifyBool ZifyNat ZifyN.

Lemma later_wf h h' b s : later h h' b -> wf_sl h s -> s_arr s = s_arr b -> wf_sl h' s.
Proof. intros [L E] (A & B & C & D) Q. unfold wf_sl. rewrite Q in *. rewrite E. repeat (split; [assumption|]). assumption. Qed.

(** the two memories agree at the places [lo <= k < hi] of an array that are not in [s] *)
Definition agree (h h' : heap) (a lo hi : nat) (P : nat -> Prop) : Prop :=
  forall k, (lo <= k < hi)%nat -> ~ P k -> nth_error (arr h' a) k = nth_error (arr h a) k.
Definition inw (s : sl) (k : nat) : Prop := (s_off s <= k < s_off s + s_len s)%nat.

Lemma get_agree h h' s P : agree h h' (s_arr s) (s_off s) (s_off s + s_len s) P -> (forall k, (s_off s <= k < s_off s + s_len s)%nat -> ~ P k) -> get h' s = get h s.
Proof. intros A N. apply nth_error_eq. intros k. rewrite !nth_get. destruct (Nat.ltb_spec k (s_len s)); [|reflexivity]. apply A; [lia|apply N; lia]. Qed.

Lemma firstn_agree h h' s n P : agree h h' (s_arr s) (s_off s) (s_off s + n) P -> (forall k, (s_off s <= k < s_off s + n)%nat -> ~ P k) ->
  firstn n (get h' s) = firstn n (get h s).
Proof. intros A N. apply nth_error_eq. intros k. rewrite !nth_firstn, !nth_get. destruct (Nat.ltb_spec k n); [|reflexivity]. destruct (Nat.ltb_spec k (s_len s)); [|reflexivity]. apply A; [lia|apply N; lia]. Qed.

Lemma le_agree h h' s n P : wf_sl h s -> wf_sl h' s -> agree h h' (s_arr s) (s_off s) (s_off s + n) P -> (forall k, (s_off s <= k < s_off s + n)%nat -> ~ P k) ->
  sl_le n (view h' s) = sl_le n (view h s).
Proof.
  intros W W' A N. unfold sl_le, view. cbn [vis]. rewrite (firstn_agree _ _ _ _ _ A N).
  now rewrite !get_length by assumption.
Qed.

Lemma varint_agree h h' s l n P : wf_sl h s -> wf_sl h' s -> decode_varint (view h s) = Ok (l, n) -> (n <= Z.of_nat (s_len s))%Z ->
  agree h h' (s_arr s) (s_off s) (s_off s + Z.to_nat n) P -> (forall k, (s_off s <= k < s_off s + Z.to_nat n)%nat -> ~ P k) ->
  decode_varint (view h' s) = Ok (l, n).
Proof.
  intros W W' D L A N. apply decode_varint_inv in D; [|now rewrite view_slen by assumption]. destruct D as (lb & x & V & C & ->). rewrite Nat2Z.id in *.
  pose proof (firstn_agree _ _ _ _ _ A N) as F. cbn [view vis] in V. rewrite V in F at 1. rewrite firstn_app, Nat.sub_diag, firstn_all in F. cbn [firstn] in F. rewrite app_nil_r in F.
  unfold view. rewrite <- (firstn_skipn (length lb) (get h' s)), F. now apply decode_varint_compact.
Qed.

Lemma agree_sub h h' a lo hi lo' hi' P : agree h h' a lo hi P -> (lo <= lo')%nat -> (hi' <= hi)%nat -> agree h h' a lo' hi' P.
Proof. intros A L H k K. apply A. lia. Qed.

Lemma h_input_same h h' b i n : wf_sl h b -> later h h' b -> h_input h b = Ok (i, n) ->
  agree h h' (s_arr b) (s_off b) (s_off b + Z.to_nat n) (inw (m_unlocking i)) -> h_input h' b = Ok (i, n).
Proof.
  intros W LT E A. pose proof (h_input_place _ _ _ _ W E) as PL. cbv zeta in PL. destruct PL as (_ & _ & _ & P1 & P2 & P3).
  pose proof W as (W1 & W2 & W3 & W4).
  revert E. unfold h_input. destruct (Z.of_nat (s_len b) <? 36)%Z; [discriminate|].
  pose proof (view_sub h b 0 32 W) as Vp. destruct (h_sub b 0 32) as [p|]; [|discriminate]. cbn [or_panic bind]. cbv zeta. destruct Vp as (_ & Wp & Ap & _ & Op & Lp & _).
  pose proof (view_sub h b 32 36 W) as Vx. destruct (h_sub b 32 36) as [ix|]; [|discriminate]. cbn [or_panic bind]. destruct Vx as (_ & Wx & Ax & _ & Ox & Lx & _).
  destruct (sl_le 4 (view h ix)) as [index|] eqn:X; [|discriminate]. cbn [or_panic bind].
  pose proof (view_from h b 36 W) as Vr. destruct (h_from b 36) as [rest|]; [|discriminate]. cbn [or_panic bind]. destruct Vr as (_ & Wr & Ar & Br & Or & Lr & _).
  destruct (decode_varint (view h rest)) as [[l size]|e|] eqn:D; [|discriminate..]. cbn [bind].
  pose proof (decode_varint_size _ _ _ D) as [K _].
  set (hi := wrap_int (36 + size + int_of_u64 l)).
  destruct (Z.of_nat (s_len b) <? wrap_int (hi + 4))%Z eqn:L; [discriminate|].
  pose proof (view_sub h b (36 + size) hi W) as V. destruct (h_sub b (36 + size) hi) as [s|] eqn:HS; [|discriminate]. cbn [or_panic bind].
  destruct V as (_ & Ws & Va & Vb & Vo & Vl & Vc & Vd).
  pose proof (view_from h b hi W) as Vq. destruct (h_from b hi) as [sq|] eqn:HF; [|discriminate]. cbn [or_panic bind]. destruct Vq as (_ & Wq & Aq & Bq & Oq & Lq & _).
  destruct (sl_le 4 (view h sq)) as [seq|] eqn:Q; [|discriminate]. cbn [or_panic bind]. intros E. injection E as <- <-. cbn [m_unlocking] in *.
  rewrite wrap_small in * by lia.
  assert (forall t, wf_sl h t -> s_arr t = s_arr b -> wf_sl h' t) as LW by (intros t Wt At; exact (later_wf h h' b t LT Wt At)).
  assert (forall k, inw s k -> (s_off b + 36 + Z.to_nat size <= k < s_off b + Z.to_nat hi)%nat) as IW by (unfold inw; intros k; lia).
  rewrite (get_agree h h' p (inw s)); [|rewrite Ap; eapply agree_sub; [exact A|lia|lia]|intros k Hk Hn; apply IW in Hn; lia].
  rewrite (le_agree h h' ix 4 (inw s)), X; [|exact Wx|now apply LW|rewrite Ax; eapply agree_sub; [exact A|lia|lia]|intros k Hk Hn; apply IW in Hn; lia]. cbn [or_panic bind].
  rewrite (varint_agree h h' rest l size (inw s)); [|exact Wr|now apply LW|exact D|lia|rewrite Ar; eapply agree_sub; [exact A|lia|lia]|intros k Hk Hn; apply IW in Hn; lia]. cbn [bind].
  fold hi. rewrite (wrap_small (hi + 4)) by lia. rewrite L, HS. cbn [or_panic bind]. rewrite HF. cbn [or_panic bind].
  rewrite (le_agree h h' sq 4 (inw s)), Q; [reflexivity|exact Wq|now apply LW|rewrite Aq; eapply agree_sub; [exact A|lia|lia]|intros k Hk Hn; apply IW in Hn; lia].
Qed.

Lemma h_output_same h h' b i n : wf_sl h b -> later h h' b -> h_output h b = Ok (i, n) ->
  agree h h' (s_arr b) (s_off b) (s_off b + Z.to_nat n) (inw (m_locking i)) -> h_output h' b = Ok (i, n).
Proof.
  intros W LT E A. pose proof (h_output_place _ _ _ _ W E) as PL. cbv zeta in PL. destruct PL as (_ & _ & _ & P1 & P2 & P3).
  pose proof W as (W1 & W2 & W3 & W4).
  revert E. unfold h_output. destruct (Z.of_nat (s_len b) <? 8)%Z; [discriminate|].
  pose proof (view_sub h b 0 8 W) as Vx. destruct (h_sub b 0 8) as [ix|]; [|discriminate]. cbn [or_panic bind]. destruct Vx as (_ & Wx & Ax & _ & Ox & Lx & _).
  destruct (sl_le 8 (view h ix)) as [index|] eqn:X; [|discriminate]. cbn [or_panic bind].
  pose proof (view_from h b 8 W) as Vr. destruct (h_from b 8) as [rest|]; [|discriminate]. cbn [or_panic bind]. destruct Vr as (_ & Wr & Ar & Br & Or & Lr & _).
  destruct (decode_varint (view h rest)) as [[l size]|e|] eqn:D; [|discriminate..]. cbn [bind]. cbv zeta.
  pose proof (decode_varint_size _ _ _ D) as [K _].
  set (hi := wrap_int (8 + size + int_of_u64 l)).
  destruct (Z.of_nat (s_len b) <? hi)%Z eqn:L; [discriminate|].
  pose proof (view_sub h b (8 + size) hi W) as V. destruct (h_sub b (8 + size) hi) as [s|] eqn:HS; [|discriminate]. cbn [or_panic bind].
  destruct V as (_ & Ws & Va & Vb & Vo & Vl & Vc & Vd). intros E. injection E as <- <-. cbn [m_locking] in *.
  assert (forall t, wf_sl h t -> s_arr t = s_arr b -> wf_sl h' t) as LW by (intros t Wt At; exact (later_wf h h' b t LT Wt At)).
  assert (forall k, inw s k -> (s_off b + 8 + Z.to_nat size <= k < s_off b + Z.to_nat hi)%nat) as IW by (unfold inw; intros k; lia).
  rewrite (le_agree h h' ix 8 (inw s)), X; [|exact Wx|now apply LW|rewrite Ax; eapply agree_sub; [exact A|lia|lia]|intros k Hk Hn; apply IW in Hn; lia]. cbn [or_panic bind].
  rewrite (varint_agree h h' rest l size (inw s)); [|exact Wr|now apply LW|exact D|lia|rewrite Ar; eapply agree_sub; [exact A|lia|lia]|intros k Hk Hn; apply IW in Hn; lia]. cbn [bind].
  fold hi. now rewrite L, HS.
Qed.

(** one loop of NewFromBytes, for inputs or for outputs *)
Section ITEMS.
Context {A : Type} (g : heap -> sl -> res (A * Z)) (win : A -> sl).
Definition gstep (h : heap) (b : sl) (st : Z * list A) : res (Z * list A) :=
  let '(offset, l) := st in
  rest <- or_panic (h_from b offset) ;;
  '(i, size) <- g h rest ;;
  Ok (wrap_int (offset + size), l ++ [i]).
Hypothesis place : forall h b i n, wf_sl h b -> g h b = Ok (i, n) ->
  (s_off b <= s_off (win i))%nat /\ (0 <= n <= Z.of_nat (s_len b))%Z /\ (Z.of_nat (s_off (win i) + s_len (win i)) <= Z.of_nat (s_off b) + n)%Z.
Hypothesis same : forall h h' b i n, wf_sl h b -> later h h' b -> g h b = Ok (i, n) ->
  agree h h' (s_arr b) (s_off b) (s_off b + Z.to_nat n) (inw (win i)) -> g h' b = Ok (i, n).

Lemma items_same h h' b n : wf_sl h b -> later h h' b -> forall o l o' l', (0 <= o <= Z.of_nat (s_len b))%Z ->
  nat_loop (gstep h b) n (o, l) = Ok (o', l') ->
  exists new, l' = l ++ new /\ (o <= o' <= Z.of_nat (s_len b))%Z /\
    Forall (fun i => Z.of_nat (s_off b) + o <= Z.of_nat (s_off (win i)) /\ Z.of_nat (s_off (win i) + s_len (win i)) <= Z.of_nat (s_off b) + o')%Z new /\
    (agree h h' (s_arr b) (s_off b + Z.to_nat o) (s_off b + Z.to_nat o') (fun k => exists i, In i new /\ inw (win i) k) ->
     nat_loop (gstep h' b) n (o, l) = Ok (o', l')).
Proof.
  intros W LT. pose proof W as (W1 & W2 & W3 & W4). induction n as [|n IH]; intros o l o' l' O E; cbn [nat_loop] in E.
  { injection E as <- <-. exists []. rewrite app_nil_r. split; [reflexivity|]. split; [lia|]. split; [constructor|]. reflexivity. }
  destruct (gstep h b (o, l)) as [[o1 l1]|e|] eqn:S; cbn [bind] in E; try discriminate E.
  unfold gstep in S. pose proof (view_from h b o W) as V. destruct (h_from b o) as [r|] eqn:HF; [|discriminate S]. cbn [or_panic bind] in S.
  destruct V as (_ & Wr & Ar & _ & Or & Lr & _). destruct (g h r) as [[i z]|e|] eqn:G; [|discriminate S..]. cbn [bind] in S. injection S as S1 S2.
  pose proof (place _ _ _ _ Wr G) as (P1 & P2 & P3). rewrite wrap_small in S1 by lia. subst o1 l1.
  destruct (IH (o + z)%Z (l ++ [i]) o' l') as (new & -> & I1 & I2 & I3); [lia|exact E|].
  exists (i :: new). split; [now rewrite <- app_assoc|]. split; [lia|]. split.
  { constructor; [lia|]. eapply Forall_impl; [|exact I2]. cbn. intros j Hj. lia. }
  intros AG. cbn [nat_loop]. unfold gstep at 1. rewrite HF. cbn [or_panic bind].
  rewrite (same h h' r i z); [cbn [bind]; rewrite wrap_small by lia|exact Wr| |exact G|].
  - apply I3. intros k Hk N. apply AG; [lia|]. intros (j & [<-|Ij] & Hw); [unfold inw in Hw; lia|]. apply N. now exists j.
  - destruct LT as [L1 L2]. unfold later. now rewrite Ar.
  - rewrite Ar. intros k Hk N. apply AG; [lia|]. intros (j & [<-|Ij] & Hw); [contradiction|]. rewrite Forall_forall in I2. apply I2 in Ij. unfold inw in Hw. lia.
Qed.
End ITEMS.

Lemma n_loop_n {S} (f : S -> res S) n s : n_loop f n s = nat_loop f (N.to_nat n) s.
Proof. apply n_loop_nat. Qed.

(** parsing reads nothing of the scripts: the same slices from any buffer with the same bytes elsewhere *)
Lemma h_tx_same h h' b m : wf_sl h b -> later h h' b -> h_tx h b = Ok m ->
  agree h h' (s_arr b) (s_off b) (s_off b + s_len b) (in_script m) -> h_tx h' b = Ok m.
Proof.
  intros W LT. pose proof W as (W1 & W2 & W3 & W4). unfold h_tx. destruct (Z.of_nat (s_len b) <? 10)%Z eqn:L10; [discriminate|].
  assert (forall t, wf_sl h t -> s_arr t = s_arr b -> wf_sl h' t) as LW by (intros t Wt At; exact (later_wf h h' b t LT Wt At)).
  pose proof (view_sub h b 0 4 W) as Vv. destruct (h_sub b 0 4) as [vs|]; [|discriminate]. cbn [or_panic bind]. destruct Vv as (_ & Wv & Av & _ & Ov & Lv & _).
  destruct (sl_le 4 (view h vs)) as [ver|] eqn:X; [|discriminate]. cbn [or_panic bind]. cbv zeta.
  pose proof (view_from h b 4 W) as Vr. destruct (h_from b 4) as [rest|]; [|discriminate]. cbn [or_panic bind]. destruct Vr as (_ & Wr & Ar & Br & Or & Lr & _).
  destruct (decode_varint (view h rest)) as [[ic size]|e|] eqn:D; [|discriminate..]. cbn [bind].
  pose proof (decode_varint_size _ _ _ D) as [K _]. rewrite (wrap_small (4 + size)) by lia.
  destruct (n_loop (h_input_step h b) ic ((4 + size)%Z, [])) as [[o1 ins]|e|] eqn:L1; [|discriminate..]. cbn [bind].
  pose proof (view_from h b o1 W) as Vr1. destruct (h_from b o1) as [rest1|] eqn:HF1; [|discriminate]. cbn [or_panic bind]. destruct Vr1 as (_ & Wr1 & Ar1 & Br1 & Or1 & Lr1 & _).
  destruct (decode_varint (view h rest1)) as [[oc size1]|e|] eqn:D1; [|discriminate..]. cbn [bind].
  pose proof (decode_varint_size _ _ _ D1) as [K1 _]. rewrite (wrap_small (o1 + size1)) by lia.
  destruct (n_loop (h_output_step h b) oc ((o1 + size1)%Z, [])) as [[o2 outs]|e|] eqn:L2; [|discriminate..]. cbn [bind].
  pose proof (view_from h b o2 W) as Vr2. destruct (h_from b o2) as [nlt|] eqn:HF2; [|discriminate]. cbn [or_panic bind]. destruct Vr2 as (_ & Wr2 & Ar2 & Br2 & Or2 & Lr2 & _).
  destruct (negb (Z.of_nat (s_len nlt) =? 4)%Z) eqn:NL; [discriminate|].
  destruct (sl_le 4 (view h nlt)) as [lt|] eqn:Q; [|discriminate]. cbn [or_panic bind]. intros E AG. injection E as <-.
  assert (4 + size <= Z.of_nat (s_len b))%Z as S0.
  { destruct (Z.leb_spec (4 + size) (Z.of_nat (s_len b))) as [|G]; [assumption|exfalso]. rewrite n_loop_n in L1. destruct (N.to_nat ic) as [|c]; cbn [nat_loop] in L1.
    - assert (o1 = 4 + size)%Z as Qx by congruence. clear L1. rewrite Qx in Br1. lia.
    - unfold h_input_step at 1 in L1. pose proof (view_from h b (4 + size) W) as Vx. destruct (h_from b (4 + size)) as [x|]; [destruct Vx as (_ & _ & _ & Bx & _); lia|]. cbn in L1. discriminate L1. }
  assert (o1 + size1 <= Z.of_nat (s_len b))%Z as S1.
  { destruct (Z.leb_spec (o1 + size1) (Z.of_nat (s_len b))) as [|G]; [assumption|exfalso]. rewrite n_loop_n in L2. destruct (N.to_nat oc) as [|c]; cbn [nat_loop] in L2.
    - assert (o2 = o1 + size1)%Z as Qx by congruence. clear L2. rewrite Qx in Br2. lia.
    - unfold h_output_step at 1 in L2. pose proof (view_from h b (o1 + size1) W) as Vx. destruct (h_from b (o1 + size1)) as [x|]; [destruct Vx as (_ & _ & _ & Bx & _); lia|]. cbn in L2. discriminate L2. }
  rewrite n_loop_n in L1. rewrite n_loop_n in L2.
  assert (forall h b i n, wf_sl h b -> h_input h b = Ok (i, n) ->
    (s_off b <= s_off (m_unlocking i))%nat /\ (0 <= n <= Z.of_nat (s_len b))%Z /\ (Z.of_nat (s_off (m_unlocking i) + s_len (m_unlocking i)) <= Z.of_nat (s_off b) + n)%Z) as PI.
  { intros h0 b0 i0 n0 W0 E0. pose proof (h_input_place _ _ _ _ W0 E0) as PP. cbv zeta in PP. lia. }
  assert (forall h b i n, wf_sl h b -> h_output h b = Ok (i, n) ->
    (s_off b <= s_off (m_locking i))%nat /\ (0 <= n <= Z.of_nat (s_len b))%Z /\ (Z.of_nat (s_off (m_locking i) + s_len (m_locking i)) <= Z.of_nat (s_off b) + n)%Z) as PO.
  { intros h0 b0 i0 n0 W0 E0. pose proof (h_output_place _ _ _ _ W0 E0) as PP. cbv zeta in PP. lia. }
  destruct (items_same h_input m_unlocking PI h_input_same h h' b (N.to_nat ic) W LT (4 + size)%Z [] o1 ins ltac:(lia) L1) as (new & EI & I1 & I2 & I3). cbn [app] in EI. subst new.
  destruct (items_same h_output m_locking PO h_output_same h h' b (N.to_nat oc) W LT (o1 + size1)%Z [] o2 outs ltac:(lia) L2) as (new & EO & J1 & J2 & J3). cbn [app] in EO. subst new.
  rewrite Forall_forall in I2, J2.
  assert (forall k, in_script (mk_mtx ver ins outs lt) k -> (exists i, In i ins /\ inw (m_unlocking i) k) \/ (exists i, In i outs /\ inw (m_locking i) k)) as IS.
  { intros k (s & Is & Hk). unfold scripts in Is. cbn [m_ins m_outs] in Is. apply in_app_or in Is. destruct Is as [Is|Is]; apply in_map_iff in Is; destruct Is as (i & <- & Ii); [left|right]; exists i; split; assumption. }
  assert (forall k, in_script (mk_mtx ver ins outs lt) k -> (Z.of_nat (s_off b) + 4 + size <= Z.of_nat k < Z.of_nat (s_off b) + o1 \/ Z.of_nat (s_off b) + o1 + size1 <= Z.of_nat k < Z.of_nat (s_off b) + o2)%Z) as IB.
  { intros k Hk. apply IS in Hk. destruct Hk as [(i & Ii & Hw)|(i & Ii & Hw)]; [apply I2 in Ii|apply J2 in Ii]; unfold inw in Hw; lia. }
  rewrite (le_agree h h' vs 4 (in_script (mk_mtx ver ins outs lt))), X; [|exact Wv|now apply LW|rewrite Av; eapply agree_sub; [exact AG|lia|lia]|intros k Hk Hn; apply IB in Hn; lia]. cbn [or_panic bind].
  rewrite (varint_agree h h' rest ic size (in_script (mk_mtx ver ins outs lt))); [|exact Wr|now apply LW|exact D|lia|rewrite Ar; eapply agree_sub; [exact AG|lia|lia]|intros k Hk Hn; apply IB in Hn; lia]. cbn [bind].
  rewrite (wrap_small (4 + size)) by lia. rewrite n_loop_n. change (h_input_step h' b) with (gstep h_input h' b).
  rewrite I3; [|intros k Hk N; apply AG; [lia|]; intros Hi; pose proof (IB _ Hi); apply IS in Hi; destruct Hi as [Hi|(i & Ii & Hw)]; [contradiction|apply J2 in Ii; unfold inw in Hw; lia]].
  cbn [bind]. rewrite HF1. cbn [or_panic bind].
  rewrite (varint_agree h h' rest1 oc size1 (in_script (mk_mtx ver ins outs lt))); [|exact Wr1|now apply LW|exact D1|lia|rewrite Ar1; eapply agree_sub; [exact AG|lia|lia]|intros k Hk Hn; apply IB in Hn; lia]. cbn [bind].
  rewrite (wrap_small (o1 + size1)) by lia. rewrite n_loop_n. change (h_output_step h' b) with (gstep h_output h' b).
  rewrite J3; [|intros k Hk N; apply AG; [lia|]; intros Hi; pose proof (IB _ Hi); apply IS in Hi; destruct Hi as [(i & Ii & Hw)|Hi]; [apply I2 in Ii; unfold inw in Hw; lia|contradiction]].
  cbn [bind]. rewrite HF2. cbn [or_panic bind]. rewrite NL.
  rewrite (le_agree h h' nlt 4 (in_script (mk_mtx ver ins outs lt))), Q; [reflexivity|exact Wr2|now apply LW|rewrite Ar2; eapply agree_sub; [exact AG|lia|lia]|intros k Hk Hn; apply IB in Hn; lia].
Qed.

(** ** the mixture *)
Definition inb (s : sl) (k : nat) : bool := Nat.leb (s_off s) k && Nat.ltb k (s_off s + s_len s).
Definition in_scriptb (m : mtx) (k : nat) : bool := existsb (fun s => inb s k) (scripts m).
Lemma in_scriptb_ok m k : in_scriptb m k = true <-> in_script m k.
Proof.
  unfold in_scriptb, in_script. rewrite existsb_exists. unfold inb. split; intros (s & I & H); exists s; (split; [exact I|]); lia.
Qed.
Lemma in_script_dec m k : {in_script m k} + {~ in_script m k}.
Proof. destruct (in_scriptb m k) eqn:E; [left|right; intros H]; [|apply in_scriptb_ok in H; congruence]. now apply in_scriptb_ok. Qed.

Definition mix_arr (m : mtx) (old new : bytes) : bytes :=
  map (fun k => if in_scriptb m k then nth k new x00 else nth k old x00) (seq 0 (length old)).
Lemma mix_length m old new : length (mix_arr m old new) = length old.
Proof. unfold mix_arr. now rewrite map_length, seq_length. Qed.
Lemma nth_mix m old new k : length new = length old ->
  nth_error (mix_arr m old new) k = if in_scriptb m k then nth_error new k else nth_error old k.
Proof.
  intros L. destruct (Nat.ltb_spec k (length old)) as [B|B].
  - unfold mix_arr. rewrite nth_error_map.
    rewrite (nth_error_nth' (seq 0 (length old)) 0%nat) by (rewrite seq_length; lia). cbn [option_map]. rewrite seq_nth by lia. cbn [Nat.add].
    destruct (in_scriptb m k); symmetry; apply nth_error_nth'; lia.
  - assert (nth_error (mix_arr m old new) k = None) as -> by (apply nth_error_None; rewrite mix_length; lia).
    destruct (in_scriptb m k); symmetry; apply nth_error_None; lia.
Qed.

Definition mix_heap (h h' : heap) (b : sl) (m : mtx) : heap := set_nth (s_arr b) (mix_arr m (arr h (s_arr b)) (arr h' (s_arr b))) h.
Lemma mix_heap_arr h h' b m : (s_arr b < length h)%nat -> arr (mix_heap h h' b m) (s_arr b) = mix_arr m (arr h (s_arr b)) (arr h' (s_arr b)).
Proof. intros L. unfold mix_heap. rewrite arr_set, Nat.eqb_refl. apply Nat.ltb_lt in L. now rewrite L. Qed.

Lemma scripts_at h h' b m : wf_sl h b -> h_tx h b = Ok m -> later h h' b -> forall s, In s (scripts m) ->
  s_arr s = s_arr b /\ wf_sl h s /\ wf_sl h' s /\ (s_off b <= s_off s)%nat /\ (s_off s + s_len s + 4 <= s_off b + s_len b)%nat.
Proof.
  intros W E LT s I. pose proof (h_tx_place h b m W E) as [F _]. rewrite Forall_forall in F. destruct (F s I) as (A & B & C & D & G).
  split; [exact B|]. split; [exact A|]. split; [exact (later_wf h h' b s LT A B)|]. lia.
Qed.

Lemma abs_same h h' m : (forall s, In s (scripts m) -> get h' s = get h s) -> abs_tx h' m = abs_tx h m.
Proof.
  intros H. unfold abs_tx. f_equal.
  - f_equal. apply map_ext_in. intros i I. unfold abs_in. rewrite H; [reflexivity|]. unfold scripts. apply in_or_app. left. now apply in_map.
  - f_equal. apply map_ext_in. intros i I. unfold abs_out. rewrite H; [reflexivity|]. unfold scripts. apply in_or_app. right. now apply in_map.
Qed.

Lemma mix_parse h h' b m : wf_sl h b -> h_tx h b = Ok m -> later h h' b ->
  let h2 := mix_heap h h' b m in
  wf_sl h2 b /\ mixture m b (get h b) (get h' b) (get h2 b) /\ h_tx h2 b = Ok m /\ abs_tx h2 m = abs_tx h' m.
Proof.
  intros W E LT h2. pose proof W as (W1 & W2 & W3 & W4). pose proof LT as [L1 L2].
  assert (arr h2 (s_arr b) = mix_arr m (arr h (s_arr b)) (arr h' (s_arr b))) as A2 by now apply mix_heap_arr.
  assert (later h h2 b) as LT2.
  { split; [unfold h2, mix_heap; now rewrite set_nth_length|]. now rewrite A2, mix_length. }
  pose proof (later_wf h h2 b b LT2 W eq_refl) as Wb2.
  split; [exact Wb2|]. split; [split|].
  - now rewrite !get_length by assumption.
  - intros k Hk. rewrite get_length in Hk by assumption. rewrite !nth_get. destruct (Nat.ltb_spec k (s_len b)); [|lia]. rewrite A2, nth_mix by assumption.
    split; intros H'; destruct (in_scriptb m (s_off b + k)) eqn:Q; try reflexivity; [apply in_scriptb_ok in H'; congruence|apply in_scriptb_ok in Q; contradiction].
  - split.
    + apply (h_tx_same h h2 b m W LT2 E). intros k Hk N. rewrite A2, nth_mix by assumption. destruct (in_scriptb m k) eqn:Q; [apply in_scriptb_ok in Q; contradiction|reflexivity].
    + apply abs_same. intros s I. destruct (scripts_at h h' b m W E LT s I) as (B & _). apply nth_error_eq. intros k. rewrite !nth_get. destruct (Nat.ltb_spec k (s_len s)); [|reflexivity].
      rewrite B, A2, nth_mix by assumption. replace (in_scriptb m (s_off s + k)) with true; [reflexivity|]. symmetry. apply in_scriptb_ok. exists s. split; [exact I|lia].
Qed.

(** ** an encoding as long as the shortest one is the shortest one *)
Lemma compact_vs n l l' : compact n l -> compact_min n l' -> (length l' <= length l)%nat /\ (length l' = length l -> l' = l).
Proof.
  intros C M. pose proof (compact_min_varint _ _ M) as ->. pose proof (compact_size_le _ _ C) as S. rewrite varint_length. split; [lia|]. intros Q. symmetry. apply compact_min_varint.
  unfold compact_min in *. destruct M as [_ M]. split; [exact C|]. rewrite ?varint_length in M. first [lia|rewrite <- Q; exact M|idtac].
Qed.

Lemma rev_inj (a b : bytes) : rev a = rev b -> a = b.
Proof. intros H. rewrite <- (rev_involutive a), H. apply rev_involutive. Qed.

Lemma input_vs w w' i : wire_input compact w i -> wire_input compact_min w' i -> (length w' <= length w)%nat /\ (length w' = length w -> w' = w).
Proof.
  intros (id & ix & l & sq & -> & A1 & A2 & A3 & C & H & X & Q) (id' & ix' & l' & sq' & -> & B1 & B2 & B3 & C' & H' & X' & Q').
  rewrite H in H'. injection H' as H'. apply rev_inj in H'. rewrite X in X'. apply le_get_inj in X'; [|lia]. rewrite Q in Q'. apply le_get_inj in Q'; [|lia].
  subst id' ix' sq'. destruct (compact_vs _ _ _ C C') as [V1 V2]. rewrite !app_length. split; [lia|]. intros L. rewrite V2 by lia. reflexivity.
Qed.
Lemma output_vs w w' i : wire_output compact w i -> wire_output compact_min w' i -> (length w' <= length w)%nat /\ (length w' = length w -> w' = w).
Proof.
  intros (v & l & s & -> & A1 & C & X & Q) (v' & l' & s' & -> & B1 & C' & X' & Q').
  rewrite X in X'. apply le_get_inj in X'; [|lia]. rewrite Q in Q'. injection Q' as Q'. subst v' s'.
  destruct (compact_vs _ _ _ C C') as [V1 V2]. rewrite !app_length. split; [lia|]. intros L. rewrite V2 by lia. reflexivity.
Qed.
Lemma list_vs {A} (P Q : bytes -> A -> Prop) (H : forall w w' i, P w i -> Q w' i -> (length w' <= length w)%nat /\ (length w' = length w -> w' = w)) l :
  forall ws ws', Forall2 (fun w oi => exists i, oi = Some i /\ P w i) ws l -> Forall2 (fun w oi => exists i, oi = Some i /\ Q w i) ws' l ->
  (length (concat ws') <= length (concat ws))%nat /\ (length (concat ws') = length (concat ws) -> concat ws' = concat ws).
Proof.
  induction l as [|a l IH]; intros ws ws' F F'; inversion F; subst; inversion F'; subst; [split; [lia|reflexivity]|].
  match goal with X : exists i, _ = Some i /\ P _ i |- _ => destruct X as (i & -> & HP) end.
  match goal with X : exists i, _ = Some i /\ Q _ i |- _ => destruct X as (j & Ej & HQ) end. injection Ej as <-.
  destruct (H _ _ _ HP HQ) as [H1 H2].
  match goal with X : Forall2 _ _ _, Y : Forall2 (fun w oi => exists i, oi = Some i /\ Q w i) _ l |- _ => destruct (IH _ _ X Y) as [I1 I2] end.
  cbn [concat]. rewrite !app_length. split; [lia|]. intros L. rewrite H2, I2 by lia. reflexivity.
Qed.
Lemma tx_vs w w' t : wire_tx compact w t -> wire_tx compact_min w' t -> length w' = length w -> w' = w.
Proof.
  intros (ver & nin & wi & nout & wo & lt & -> & A1 & A2 & V & Lk & Ci & Co & FI & FO) (ver' & nin' & wi' & nout' & wo' & lt' & -> & B1 & B2 & V' & Lk' & Ci' & Co' & FI' & FO').
  rewrite V in V'. apply le_get_inj in V'; [|lia]. rewrite Lk in Lk'. apply le_get_inj in Lk'; [|lia]. subst ver' lt'.
  destruct (compact_vs _ _ _ Ci Ci') as [I1 I2]. destruct (compact_vs _ _ _ Co Co') as [O1 O2].
  destruct (list_vs _ _ input_vs _ _ _ FI FI') as [J1 J2]. destruct (list_vs _ _ output_vs _ _ _ FO FO') as [P1 P2].
  rewrite !app_length. intros L. rewrite I2, O2, J2, P2 by lia. reflexivity.
Qed.

(** the length of the serialisation depends on the lengths of the scripts only *)
Lemma len_same h h' b m w w' : wf_sl h b -> h_tx h b = Ok m -> later h h' b ->
  tx_to_bytes (abs_tx h m) = Ok w -> tx_to_bytes (abs_tx h' m) = Ok w' -> length w' = length w.
Proof.
  intros W E LT Q Q'. apply tx_len in Q, Q'. rewrite Q, Q'. unfold abs_tx. cbn [inputs outputs].
  assert (forall s, In s (scripts m) -> length (get h' s) = length (get h s)) as GL.
  { intros s I. destruct (scripts_at h h' b m W E LT s I) as (_ & Ws & Ws' & _). now rewrite !get_length by assumption. }
  unfold nlen. rewrite !map_length. f_equal; [f_equal|].
  - rewrite !map_map. f_equal. apply map_ext_in. intros i I. unfold abs_in, in_len, script_size. cbn [prev_txid unlocking script_bytes]. unfold nlen.
    rewrite GL; [reflexivity|]. unfold scripts. apply in_or_app. left. now apply in_map.
  - rewrite !map_map. f_equal. apply map_ext_in. intros i I. unfold abs_out, out_len, script_size. cbn [locking script_bytes]. unfold nlen.
    rewrite GL; [reflexivity|]. unfold scripts. apply in_or_app. right. now apply in_map.
Qed.

(** equal windows, equal values *)
Lemma abs_inj h h' m : abs_tx h' m = abs_tx h m -> forall s, In s (scripts m) -> get h' s = get h s.
Proof.
  unfold abs_tx. intros E s I. pose proof (f_equal inputs E) as EI. pose proof (f_equal outputs E) as EO. cbn [inputs outputs] in EI, EO.
  unfold scripts in I. apply in_app_or in I. destruct I as [I|I]; apply in_map_iff in I; destruct I as (i & <- & I).
  - clear -EI I. induction (m_ins m) as [|a l IH]; [contradiction|]. cbn [map] in EI. injection EI as E1 E2. destruct I as [->|I]; [exact E1|now apply IH].
  - clear -EO I. induction (m_outs m) as [|a l IH]; [contradiction|]. cbn [map] in EO. injection EO as E1 E2. destruct I as [->|I]; [exact E1|now apply IH].
Qed.

Lemma mixture_fun m b old new x y : mixture m b old new x -> mixture m b old new y -> x = y.
Proof.
  intros [L H] [L' H']. apply nth_error_eq. intros k. destruct (Nat.ltb_spec k (length old)) as [B|B].
  - destruct (H k B) as [H1 H2]. destruct (H' k B) as [H3 H4]. destruct (in_script_dec m (s_off b + k)) as [I|I]; [rewrite H1, H3 by assumption|rewrite H2, H4 by assumption]; reflexivity.
  - rewrite !(proj2 (nth_error_None _ _)) by lia. reflexivity.
Qed.
