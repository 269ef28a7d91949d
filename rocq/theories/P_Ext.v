(** Proofs for C89. *)
From Verif Require Export S_Ext P_Flow P_Heap.
From Coq Require Import Lia.

Lemma nth_set_nth {A} (l : list A) : forall b v a, nth_error (set_nth b v l) a = if Nat.eqb a b then match nth_error l b with Some _ => Some v | None => None end else nth_error l a.
Proof. induction l as [|x l IH]; intros [|b] v [|a]; cbn; try reflexivity; [now destruct (Nat.eqb a b)|]. apply IH. Qed.
Lemma set_nth_same {A} (l : list A) : forall b v, nth_error l b = Some v -> set_nth b v l = l.
Proof. induction l as [|x l IH]; intros [|b] v H; cbn in *; try discriminate H; [congruence|]. f_equal. now apply IH. Qed.
Lemma set_unlocking_twice i u v : set_unlocking (set_unlocking i u) v = set_unlocking i v. Proof. reflexivity. Qed.
Lemma set_unlocking_id i : set_unlocking i (unlocking i) = i. Proof. now destruct i. Qed.

(** ** what Sign itself does *)
Lemma ext_error c bt w w' r e : c w bt = Some (w', r, Some e) -> sign_ext c bt w = Some (w', Some e).
Proof. intros H. unfold sign_ext. now rewrite H. Qed.
Lemma ext_ok_inv c bt w w2 : sign_ext c bt w = Some (w2, None) ->
  exists b w' a v, bt = Some b /\ c w bt = Some (w', Some a, None) /\ nth_error (w_txs w') a = Some v /\ w2 = mk_world (w_ins w') (set_nth b v (w_txs w')).
Proof.
  unfold sign_ext. destruct (c w bt) as [[[w' r] [e|]]|]; try discriminate. destruct bt as [b|]; [|discriminate]. destruct r as [a|]; [|discriminate].
  destruct (nth_error (w_txs w') a) as [v|] eqn:E; [|discriminate]. injection 1 as <-. now exists b, w', a, v.
Qed.

(** ** signers that fill in *)
Lemma same_but_refl t : same_but_scripts t t.
Proof.
  repeat (split; [reflexivity|]). intros n. destruct (nth_error (inputs t) n) as [[i|]|]; try reflexivity. exists (unlocking i). now rewrite set_unlocking_id.
Qed.
Lemma fills_view w w' t : valid_ptrs (w_ins w) t ->
  (forall a i, nth_error (w_ins w) a = Some i -> exists u, nth_error (w_ins w') a = Some (set_unlocking i u)) ->
  same_but_scripts (view (w_ins w) t) (view (w_ins w') t).
Proof.
  intros V H. split; [reflexivity|]. split; [reflexivity|]. split; [reflexivity|]. split; [cbn; now rewrite !map_length|].
  intros n. cbn [inputs view]. rewrite !nth_error_map'. destruct (nth_error (p_inputs t) n) as [[a|]|] eqn:E; cbn [option_map load]; [|reflexivity|reflexivity].
  specialize (V n a E). destruct (nth_error (w_ins w) a) as [i|] eqn:N; [|apply nth_error_None in N; lia].
  destruct (H a i N) as (u & ->). now exists u.
Qed.
Definition extends (w w' : world) : Prop :=
  (forall a t, nth_error (w_txs w) a = Some t -> nth_error (w_txs w') a = Some t) /\
  (forall a i, nth_error (w_ins w) a = Some i -> exists u, nth_error (w_ins w') a = Some (set_unlocking i u)).
Lemma extends_refl w : extends w w.
Proof. split; [auto|]. intros a i H. exists (unlocking i). now rewrite set_unlocking_id. Qed.
Lemma extends_trans w1 w2 w3 : extends w1 w2 -> extends w2 w3 -> extends w1 w3.
Proof.
  intros (A1 & B1) (A2 & B2). split; [auto|]. intros a i H. destruct (B1 a i H) as (u & H'). destruct (B2 a _ H') as (v & H''). exists v. exact H''.
Qed.
Lemma fills_run cs : forall w w', Forall (fun x => fills_in (fst x)) cs -> ext_run cs w = Some w' -> extends w w'.
Proof.
  induction cs as [|[c bt] cs IH]; intros w w' F H; cbn [ext_run] in H; [injection H as <-; apply extends_refl|].
  inversion F as [|x l F1 F2]; subst. destruct (sign_ext c bt w) as [[w1 e]|] eqn:E; [|discriminate H].
  apply extends_trans with w1; [|now apply IH]. cbn [fst] in F1.
  unfold sign_ext in E. destruct (c w bt) as [[[w2 r] [x|]]|] eqn:C; try discriminate E.
  - injection E as <- _. destruct (F1 _ _ _ _ _ C) as (_ & A & B). now split.
  - destruct (F1 _ _ _ _ _ C) as (R & A & B). rewrite (R eq_refl) in E. destruct bt as [b|]; [|discriminate E].
    destruct (nth_error (w_txs w2) b) as [v|] eqn:E2; [|discriminate E]. injection E as <- _. rewrite set_nth_same by assumption. now split.
Qed.
Lemma same_but_resigned t t' : same_but_scripts t t' -> resigned t t'.
Proof.
  intros (A & B & C & L & H). split; [now symmetry|]. split; [now symmetry|]. split; [now symmetry|].
  assert (G : forall l l' : list (option input), length l' = length l ->
    (forall n, match nth_error l n, nth_error l' n with Some (Some i), Some (Some i') => exists u, i' = set_unlocking i u | x, y => x = y end) -> Forall2 same_signed_input l l').
  { clear. induction l as [|a l IH]; intros [|b l'] L H; try discriminate L; constructor.
    - specialize (H 0%nat). cbn in H. destruct a as [i|], b as [i'|]; try discriminate H; [|exact I]. destruct H as (u & ->). cbn. auto.
    - apply IH; [now injection L|]. intros n. exact (H (S n)). }
  now apply G.
Qed.
Lemma script_run_mono (c1 c2 : bytes -> bytes -> Prop) : (forall a b, c1 a b -> c2 a b) -> forall u st st', script_run c1 u st st' -> script_run c2 u st st'.
Proof. intros H u st st' R. induction R; econstructor; eauto. Qed.
Lemma accepted_same verify t t' n : same_but_scripts t t' ->
  (forall i i', nth_error (inputs t) n = Some (Some i) -> nth_error (inputs t') n = Some (Some i') -> unlocking i' = unlocking i) ->
  accepted verify t n -> accepted verify t' n.
Proof.
  intros S U (i & u & s & st & st' & N & E1 & E2 & R1 & R2). assert (RS := same_but_resigned _ _ S). destruct S as (_ & _ & _ & _ & S).
  specialize (S n). rewrite N in S. destruct (nth_error (inputs t') n) as [[i'|]|] eqn:N'; try discriminate S. destruct S as (x & Ex).
  specialize (U i i' N eq_refl). exists i', u, s, st, st'. split; [assumption|]. split; [congruence|]. split; [subst i'; exact E2|].
  assert (M : forall a b, signature_ok verify t n a b -> signature_ok verify t' n a b).
  { intros a b (sg & f & p & H1 & H2 & H3 & H4). exists sg, f, p. repeat (split; [assumption|]). split; [|assumption]. eapply preimage_resigned; eassumption. }
  split; eapply script_run_mono; eauto.
Qed.
(** ** the InternalSigner *)
Lemma h_sign_fills s n h t h' : h_sign s n h t = Ok h' -> forall a i, nth_error h a = Some i -> exists u, nth_error h' a = Some (set_unlocking i u).
Proof.
  intros H a i N. unfold h_sign in H. destruct (get_input_signature_hash _ _ _); try discriminate H. cbn [bind] in H. destruct (key_sign _ _); try discriminate H. cbn [bind] in H.
  destruct (p2pkh_unlocking_script _ _ _) as [us x]. unfold h_apply in H. destruct (nth_error (p_inputs t) (N.to_nat n)) as [[b|]|]; try discriminate H. cbn [or_panic bind] in H.
  destruct (nth_error h b) as [j|] eqn:E; [|discriminate H]. cbn [or_panic bind] in H. injection H as <-. rewrite nth_set_nth.
  destruct (Nat.eqb_spec a b) as [->|D]; [|exists (unlocking i); now rewrite set_unlocking_id]. rewrite E. rewrite N in E. injection E as <-. now exists (Some us).
Qed.
Lemma h_step_fills s n h t h' : h_auto_step s n h t = Ok h' -> forall a i, nth_error h a = Some i -> exists u, nth_error h' a = Some (set_unlocking i u).
Proof.
  intros H a i N. unfold h_auto_step in H. destruct (nth_error (p_inputs t) (N.to_nat n)) as [p|]; [|discriminate H]. cbn [or_panic bind] in H.
  destruct (load h p) as [inp|]; [|discriminate H]. unfold deref in H. cbn [or_panic bind] in H.
  destruct (match get_public_key_hash (prev_script inp) with Ok h => Ok h | Err _ => Ok [] | Panic => Panic end) as [pkh|e|]; try discriminate H. cbn [bind] in H.
  destruct (equals _ _).
  - destruct (h_sign s (wrap32 n) h t) as [h1|e|] eqn:E; try discriminate H.
    + injection H as <-. eapply h_sign_fills; eassumption.
    + injection H as <-. exists (unlocking i). now rewrite set_unlocking_id.
  - injection H as <-. exists (unlocking i). now rewrite set_unlocking_id.
Qed.
Lemma h_loop_fills s t k : forall n h h', h_auto_loop s n k h t = Ok h' -> forall a i, nth_error h a = Some i -> exists u, nth_error h' a = Some (set_unlocking i u).
Proof.
  induction k as [|k IH]; intros n h h' H a i N; cbn [h_auto_loop] in H.
  - injection H as <-. exists (unlocking i). now rewrite set_unlocking_id.
  - destruct (h_auto_step s n h t) as [h1|e|] eqn:E; try discriminate H. cbn [bind] in H. destruct (h_step_fills _ _ _ _ _ E a i N) as (u & N1).
    destruct (IH _ _ _ H a _ N1) as (v & N2). exists v. exact N2.
Qed.
Lemma internal_fills s n : fills_in (internal_ext_sign s n).
Proof.
  intros w [b|] w' r e H; [|discriminate H]. unfold internal_ext_sign in H. destruct (nth_error (w_txs w) b) as [t|] eqn:T; [|discriminate H].
  destruct (h_sign s n (w_ins w) t) as [h|x|] eqn:E; [| |discriminate H]; injection H as <- <- <-.
  - split; [reflexivity|]. split; [auto|]. cbn [w_ins]. eapply h_sign_fills; eassumption.
  - split; [discriminate|]. apply extends_refl.
Qed.
Lemma internal_auto_fills s : fills_in (internal_ext_auto s).
Proof.
  intros w [b|] w' r e H; [|discriminate H]. unfold internal_ext_auto in H. destruct (nth_error (w_txs w) b) as [t|] eqn:T; [|discriminate H].
  destruct (h_sign_auto s (w_ins w) t) as [h|x|] eqn:E; [| |discriminate H]; injection H as <- <- <-.
  - split; [reflexivity|]. split; [auto|]. cbn [w_ins]. eapply h_loop_fills; eassumption.
  - split; [discriminate|]. apply extends_refl.
Qed.

(** ** a signer on another machine *)
Lemma filter_somes (is : list input) : flat_map (fun oi => match oi with Some i => [i] | None => [] end) (map Some is) = is.
Proof. induction is as [|i is IH]; cbn; [reflexivity|]. now rewrite IH. Qed.
Lemma view_fresh h is v os lt : view (h ++ is) (mk_ptx v (map (fun k => Some (length h + k)%nat) (seq 0 (length is))) os lt) = mk_tx v (map Some is) os lt.
Proof.
  unfold view. cbn [p_version p_inputs p_outputs p_locktime]. f_equal. rewrite map_map. cbn [load].
  assert (G : forall is p, map (fun k => nth_error (h ++ p ++ is) (length h + k)) (seq (length p) (length is)) = map Some is).
  { clear is. induction is as [|i is IH]; intros p; [reflexivity|]. cbn [length seq map]. f_equal.
    - rewrite nth_error_app2 by lia. replace (length h + length p - length h)%nat with (length p) by lia. rewrite nth_error_app2 by lia. now rewrite Nat.sub_diag.
    - specialize (IH (p ++ [i])). rewrite app_length in IH. cbn [length] in IH. rewrite Nat.add_1_r in IH. rewrite <- app_assoc in IH. exact IH. }
  exact (G is []).
Qed.
(** heap-level signing of inputs without previous scripts *)
Lemma h_sign_no_script s n h t i : nth_error (inputs (view h t)) (N.to_nat n) = Some (Some i) -> prev_txid i <> [] -> prev_script i = None ->
  h_sign s n h t = Err ENoPrevTxScript.
Proof. intros N X S. unfold h_sign. rewrite (sighash_no_script _ _ _ _ N X S). reflexivity. Qed.
Lemma hash_hex_neq pub : equals (hex_encode []) (hex_encode (hash160 pub)) = false.
Proof.
  apply equals_neq. intros H. apply (f_equal (@length byte)) in H. rewrite !hex_encode_length, hash160_length in H. discriminate H.
Qed.
Lemma h_auto_no_script s h t k : forall n, (N.to_nat n + k <= length (p_inputs t))%nat ->
  (forall m oi, nth_error (inputs (view h t)) m = Some oi -> exists i, oi = Some i /\ prev_script i = None) -> h_auto_loop s n k h t = Ok h.
Proof.
  induction k as [|k IH]; intros n L H; [reflexivity|]. cbn [h_auto_loop].
  assert (E : h_auto_step s n h t = Ok h).
  { unfold h_auto_step. destruct (nth_error (p_inputs t) (N.to_nat n)) as [p|] eqn:P; [|apply nth_error_None in P; lia]. cbn [or_panic bind].
    destruct (H (N.to_nat n) (load h p)) as (i & E & S); [cbn [inputs view]; rewrite nth_error_map', P; reflexivity|]. rewrite E. unfold deref. cbn [or_panic bind]. rewrite S.
    cbn [get_public_key_hash bind]. rewrite hash_hex_neq. reflexivity. }
  rewrite E. cbn [bind]. apply IH; [lia|assumption].
Qed.
