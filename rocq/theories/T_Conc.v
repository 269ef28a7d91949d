(** C80: one transaction in several goroutines. *)
From Verif Require Import P_ConcSign.
From Coq Require Import Permutation Lia ZifyBool ZifyNat ZifyN.

(** signing through the signers (InternalSigner.Sign, SignAuto) of different inputs with different
    signers (or signers whose flag is set), next to calls that only read: no data race in any
    schedule *)
Theorem C80_no_race (m : memory) t js schedule : nlen (m (XInputs t)) <= 2 ^ 32 -> undisturbed m t js ->
  (forall j, In j js -> ~ rewrites j) -> ~ race held (together m t js schedule).
Proof.
  intros B U D. apply (apart_no_race cell_eq held m _ (Rj js) (Wj m t js)); [now apply jobs_apart|]. apply jobs_feet; auto.
Qed.

(** every call answers what it answers alone on the transaction as it was *)
Theorem C80_answers (m : memory) t js schedule rs : own_inputs m t -> nlen (m (XInputs t)) <= 2 ^ 32 -> undisturbed m t js ->
  returned held (together m t js schedule) rs ->
  rs = map (fun j => fst (do_job (fun s => m (SFlag s)) (tx_at m t) j)) js.
Proof.
  intros D B U H. destruct (apart_outcome cell_eq held true m (map (started t) js) (Rj js) (Wj m t js) schedule rs) as (E & _);
    [now apply jobs_apart|now apply jobs_feet|exact H|].
  rewrite E, map_map. apply map_ext. intros j. apply job_value; auto. intros s; now left.
Qed.

(** and the outcome is that of one call after the other *)
Theorem C80_as_in_turn (m : memory) t js schedule rs : own_inputs m t -> nlen (m (XInputs t)) <= 2 ^ 32 -> undisturbed m t js ->
  (forall a, In a (fst (in_turn (fun s => m (SFlag s)) (tx_at m t) js)) -> a <> Panic) ->
  returned held (together m t js schedule) rs ->
  rs = fst (in_turn (fun s => m (SFlag s)) (tx_at m t) js) /\
  tx_at (fst (together m t js schedule)) t = snd (in_turn (fun s => m (SFlag s)) (tx_at m t) js).
Proof.
  intros D B U NP H. destruct (apart_one_by_one cell_eq held true m (map (started t) js) (Rj js) (Wj m t js) schedule rs) as (E1 & E2);
    [now apply jobs_apart|now apply jobs_feet|exact H|].
  destruct (one_by_one_value (fun s => m (SFlag s)) t js m D B) as (G1 & G2); [intros s; now left|exact NP|].
  split; [congruence|]. rewrite <- G2. apply tx_at_ext. intros l _. apply E2.
Qed.

(** in whatever order *)
Theorem C80_any_order (m : memory) t js js' schedule schedule' rs rs' : nlen (m (XInputs t)) <= 2 ^ 32 ->
  undisturbed m t js -> Permutation js js' ->
  returned held (together m t js schedule) rs -> returned held (together m t js' schedule') rs' ->
  forall l, fst (together m t js schedule) l = fst (together m t js' schedule') l.
Proof.
  intros B U P H H' l.
  assert (U' : undisturbed m t js').
  { apply Permutation_nth_error in P. destruct P as (_ & f & I & F). intros a b i j N Ha Hb. rewrite F in Ha, Hb.
    apply (U (f a) (f b)); [|assumption|assumption]. intros E. apply N, I, E. }
  destruct (apart_outcome cell_eq held true m (map (started t) js) (Rj js) (Wj m t js) schedule rs) as (_ & A1 & A2); [now apply jobs_apart|now apply jobs_feet|exact H|].
  destruct (apart_outcome cell_eq held true m (map (started t) js') (Rj js') (Wj m t js') schedule' rs') as (_ & B1 & B2); [now apply jobs_apart|now apply jobs_feet|exact H'|].
  destruct (existsb (fun j => writes_b m t j l) js) eqn:E.
  - apply existsb_exists in E. destruct E as (j & Hj & W).
    destruct (In_nth_error _ _ Hj) as (i & Hi). destruct (In_nth_error _ _ (Permutation_in _ P Hj)) as (i' & Hi').
    transitivity (snd (soloc m (started t j)) l); [apply (A1 i)|symmetry; apply (B1 i')];
      [now rewrite nth_error_map, Hi|unfold Wj; now rewrite Hi|now rewrite nth_error_map, Hi'|unfold Wj; now rewrite Hi'].
  - assert (N : forall j, In j js -> writes_b m t j l = false).
    { intros j Hj. destruct (writes_b m t j l) eqn:W; [|reflexivity]. rewrite <- E. symmetry. apply existsb_exists. eauto. }
    transitivity (m l); [apply A2|symmetry; apply B2]; intros i _; unfold Wj.
    + destruct (nth_error js i) as [j|] eqn:Hi; [|reflexivity]. apply N. eapply nth_error_In, Hi.
    + destruct (nth_error js' i) as [j|] eqn:Hi; [|reflexivity]. apply N. apply (Permutation_in _ (Permutation_sym P)). eapply nth_error_In, Hi.
Qed.

(** at every moment, everything but the unlocking scripts being written and the flags being
    defaulted is as before *)
Theorem C80_rest_untouched (m : memory) t js schedule l : nlen (m (XInputs t)) <= 2 ^ 32 -> undisturbed m t js ->
  (forall j, In j js -> ~ writes m t j l) -> fst (together m t js schedule) l = m l.
Proof.
  intros B U N. destruct (inv_run cell_eq held true m (map (started t) js) (Rj js) (Wj m t js) schedule) as (_ & _ & H);
    [now apply jobs_apart|now apply jobs_feet|].
  apply H. intros i _. unfold Wj. destruct (nth_error js i) as [j|] eqn:E; [|reflexivity].
  destruct (writes_b m t j l) eqn:W; [|reflexivity]. apply writes_spec in W. destruct (N j); [|assumption]. eapply nth_error_In, E.
Qed.

(** no call waits for another: from every moment on there is a way for all to return *)
Theorem C80_can_finish (m : memory) t js schedule : exists more rs, returned held (together m t js (schedule ++ more)) rs.
Proof.
  unfold together. destruct (completable cell_eq held (run cell_eq held (m, map (started t) js) schedule)) as (s & rs & H).
  exists s, rs. now rewrite run_app.
Qed.

(** * Where calls do get into each other's way *)

(** one signer whose flag has not been set, used in two goroutines: a data race *)
Theorem C80_shared_signer_races (m : memory) t i j s : signer_of i = Some s -> signer_of j = Some s -> m (SFlag s) = 0 ->
  exists schedule, race held (together m t [i; j] schedule).
Proof.
  intros Hi Hj F.
  assert (W : exists k, step cell_eq held (m, [started t i; started t j]) 0 = (m, [Wr (SFlag s) shAllForkID k; started t j])).
  { destruct i; cbn in Hi; try discriminate; injection Hi as ->;
      cbn [started answered c_tx_sign c_tx_sign_auto c_sign c_sign_auto c_default_flag bindr bindp step fst snd nth_error set_nth]; rewrite F; eexists; reflexivity. }
  destruct W as (k & W). exists [0%nat]. unfold together, run. cbn [map fold_left]. rewrite W.
  assert (Rj : exists kk, started t j = Rd (SFlag s) kk) by (destruct j; cbn in Hj; try discriminate; injection Hj as ->; eexists; reflexivity).
  destruct Rj as (kk & Rj). exists 0%nat, 1%nat, (Wr (SFlag s) shAllForkID k), (started t j), (SFlag s), true, false.
  split; [discriminate|]. split; [reflexivity|]. split; [reflexivity|]. split; [reflexivity|]. split; [now rewrite Rj|now left].
Qed.

(** Transaction.Sign writes the whole struct back (Transaction.go:270): two such calls race, also
    for different inputs and with different signers (whereas, by C80_as_in_turn, what they write
    is what was there) *)
Theorem C80_transaction_sign_races (m : memory) t s1 k1 n1 s2 k2 n2 x1 x2 :
  own_inputs m t -> nlen (m (XInputs t)) <= 2 ^ 32 -> undisturbed m t [JTxSign s1 k1 n1; JTxSign s2 k2 n2] ->
  internal_sign (mk_signer k1 (m (SFlag s1))) n1 (tx_at m t) = Ok x1 ->
  internal_sign (mk_signer k2 (m (SFlag s2))) n2 (tx_at m t) = Ok x2 ->
  exists schedule, race held (together m t [JTxSign s1 k1 n1; JTxSign s2 k2 n2] schedule).
Proof.
  intros D B U I1 I2. set (j1 := JTxSign s1 k1 n1) in *. set (j2 := JTxSign s2 k2 n2) in *.
  set (F := fun q : call (res unit) => answered (fun _ : unit => ADone) (bindr held q (fun _ => c_copy_struct t))).
  destruct (sign_value m s1 k1 t n1 D) as (V1 & Q1 & SF1). rewrite I1 in V1. destruct V1 as [V1 _].
  destruct (run_ctx cell_eq held F (fun _ _ => eq_refl) (fun _ _ _ => eq_refl) (c_sign s1 k1 t n1) m [started t j1; started t j2] 0 eq_refl) as (a1 & E1).
  rewrite V1 in E1. set (m1 := snd (soloc m (c_sign s1 k1 t n1))) in *.
  assert (V2 : fst (soloc m1 (c_sign s2 k2 t n2)) = Ok tt).
  { destruct (sign_value m s2 k2 t n2 D) as (V2 & _ & _). rewrite I2 in V2. destruct V2 as [V2 _].
    assert (FT : foot cell_eq held true m (c_sign s2 k2 t n2) (reads j2) (writes_b m t j2)).
    { apply foot_sign; [intros []; cbn; tauto|reflexivity| |]; [intros H; apply writes_spec; cbn; auto|intros p H; apply writes_spec; exact H]. }
    assert (FT1 : foot cell_eq held true m (c_sign s1 k1 t n1) (reads j1) (writes_b m t j1)).
    { apply foot_sign; [intros []; cbn; tauto|reflexivity| |]; [intros H; apply writes_spec; cbn; auto|intros p H; apply writes_spec; exact H]. }
    assert (AG : P_Conc.agree held m m1 (reads j2) (writes_b m t j2)).
    { intros l Hl. symmetry. apply (solo_frame cell_eq held true _ _ _ m FT1). destruct (writes_b m t j1 l) eqn:W; [|reflexivity]. exfalso.
      apply (jobs_apart m t [j1; j2] U 0%nat 1%nat l); [cbn; lia|cbn; lia|lia|exact W|exact Hl]. }
    destruct (solo_agree cell_eq held true _ _ _ m m1 FT AG) as (_ & E & _). now rewrite E. }
  destruct (run_ctx cell_eq held F (fun _ _ => eq_refl) (fun _ _ _ => eq_refl) (c_sign s2 k2 t n2) m1 [F (Ret (Ok tt)); started t j2] 1 eq_refl) as (a2 & E2).
  rewrite V2 in E2. exists (a1 ++ a2 ++ [0; 0; 0; 0])%nat. unfold together. cbn [map]. rewrite !run_app, E1. cbn [set_nth].
  rewrite E2. cbn [set_nth].
  set (m2 := snd (soloc m1 (c_sign s2 k2 t n2))).
  unfold race. exists 0%nat, 1%nat. do 2 eexists. exists (XVersion t), true, false.
  split; [discriminate|]. cbn. split; [reflexivity|]. split; [reflexivity|]. cbn. auto.
Qed.

(** and an output added meanwhile is lost: both calls succeed, the transaction has the outputs it
    had *)
Theorem C80_lost_output (m : memory) t s k n x o : own_inputs m t ->
  internal_sign (mk_signer k (m (SFlag s))) n (tx_at m t) = Ok x ->
  exists schedule, let c := run cell_eq held (m, [c_tx_sign s k t n; c_add_output t o]) schedule in
    returned held c [Ok tt; Ok tt] /\ tx_at (fst c) t = x /\ outputs x = outputs (tx_at m t).
Proof.
  intros D I1. set (F := fun q : call (res unit) => bindr held q (fun _ => c_copy_struct t)).
  destruct (sign_value m s k t n D) as (V1 & Q1 & SF1). rewrite I1 in V1. destruct V1 as [V1 V2].
  destruct (run_ctx cell_eq held F (fun _ _ => eq_refl) (fun _ _ _ => eq_refl) (c_sign s k t n) m [c_tx_sign s k t n; c_add_output t o] 0 eq_refl) as (a1 & E1).
  rewrite V1 in E1. set (m1 := snd (soloc m (c_sign s k t n))) in *.
  exists (a1 ++ [0; 0; 0; 0; 1; 1; 0; 0; 0; 0])%nat. cbv zeta. rewrite run_app, E1. cbn [set_nth].
  assert (OX : outputs x = outputs (tx_at m t)).
  { rewrite internal_sign_eq in I1. destruct (sig_script _ n (tx_at m t)) as [u|e|]; try discriminate.
    destruct (nth_error (inputs (tx_at m t)) (N.to_nat n)) as [[i|]|]; try discriminate. injection I1 as <-. reflexivity. }
  cbn. split; [reflexivity|]. split; [|exact OX]. rewrite <- V2. apply tx_at_ext. intros l _.
  repeat match goal with |- context [upd cell_eq held ?mm ?c ?v l] => destruct (cell_eq c l) as [<-|]; [now rewrite upd_same|rewrite (upd_other cell_eq held mm c v l) by assumption] end.
  reflexivity.
Qed.

Lemma helper_outputs_buf outs : forall buf, helper_outputs buf outs = map_res (fun o => buf ++ o) (helper_outputs [] outs).
Proof.
  induction outs as [|o outs IH]; intros buf; cbn [helper_outputs map_res]; [now rewrite app_nil_r|].
  destruct (deref o) as [o'|e|]; cbn [bind map_res]; try reflexivity. destruct (output_to_bytes o') as [c|e|]; cbn [bind map_res]; try reflexivity.
  rewrite (IH (buf ++ c)), (IH ([] ++ c)). destruct (helper_outputs [] outs); cbn [map_res app]; try reflexivity. now rewrite app_assoc.
Qed.
Lemma varint_differs a b x y : a < 2 ^ 64 -> b < 2 ^ 64 -> varint a ++ x = varint b ++ y -> a = b.
Proof.
  intros A B E.
  assert (CA := varint_compact a ltac:(unfold u64; lia)). assert (CB := varint_compact b ltac:(unfold u64; lia)).
  pose proof (decode_varint_compact _ _ x [] CA) as DA. pose proof (decode_varint_compact _ _ y [] CB) as DB.
  rewrite E, DB in DA. congruence.
Qed.

(** ToBytes reads the unlocking script three times (Input.go:108-114): next to a Sign of the
    input that replaces a script by one of another length it can return bytes that are neither
    the transaction before nor the one after *)
Theorem C80_torn_bytes (m : memory) t s k p old x i new b :
  m (XInputs t) = [Some p] -> m (IUnlock p) = Some old ->
  internal_sign (mk_signer k (m (SFlag s))) 0 (tx_at m t) = Ok x -> nth_error (inputs x) 0 = Some (Some i) -> unlocking i = Some new ->
  nlen old < 2 ^ 64 -> nlen new < 2 ^ 64 -> nlen old <> nlen new -> tx_to_bytes (tx_at m t) = Ok b ->
  exists schedule b', returned held (together m t [JBytes; JSign s k 0] schedule) [Ok (ABytes b'); Ok ADone] /\
    b' <> b /\ tx_to_bytes x <> Ok b' /\ tx_at (fst (together m t [JBytes; JSign s k 0] schedule)) t = x.
Proof.
  assert (INJ : forall a b : bytes, @Ok answer (ABytes a) = Ok (ABytes b) -> a = b) by congruence.
  intros XI UO I1 NX UN B1 B2 LN TB.
  assert (D : own_inputs m t) by (unfold own_inputs; rewrite XI; cbn; repeat constructor; tauto).
  destruct (sign_value m s k t 0 D) as (V1 & Q1 & _). rewrite I1 in V1. destruct V1 as [V1 V2].
  set (F := fun q : call (res unit) => answered (fun _ : unit => ADone) q).
  set (H := ([] ++ le_put 4 (m (XVersion t))) ++ varint (nlen (m (XInputs t)))).
  set (hd := ([] ++ reverse_bytes (hex_ignore (m (ITxid p)))) ++ le_put 4 (m (IIndex p))).
  set (REST := fun h : bytes => answered ABytes (Rd (XOutputs t) (fun outs1 => Rd (XOutputs t) (fun outs2 =>
     bindr held (c_outputs (h ++ varint (nlen outs1)) outs2) (fun h => Rd (XLocktime t) (fun lt => Ret (Ok (h ++ le_put 4 lt)))))))).
  assert (E0 : exists K, run cell_eq held (m, [started t JBytes; started t (JSign s k 0)]) [0;0;0;0;0;0;0]%nat = (m, [Rd (IUnlock p) K; F (c_sign s k t 0)]) /\
     K (Some new) = Rd (ISeq p) (fun sq => REST (H ++ (((hd ++ varint (nlen old)) ++ new) ++ le_put 4 sq)))).
  { eexists. split.
    - cbn [started answered c_to_bytes bindp].
      do 3 (erewrite run_rd by reflexivity; cbn [set_nth bindp]). rewrite XI. cbn [c_inputs c_input bindr bindp].
      do 2 (erewrite run_rd by reflexivity; cbn [set_nth bindp]).
      do 2 (erewrite run_rd by reflexivity; cbn [set_nth bindp]; rewrite UO; cbn [bindp]). reflexivity.
    - cbn [bindp]. subst REST H hd. rewrite XI. reflexivity. }
  destruct E0 as (K & E0 & EK).
  set (m1 := snd (soloc m (c_sign s k t 0))) in *.
  destruct (run_ctx cell_eq held F (fun _ _ => eq_refl) (fun _ _ _ => eq_refl) (c_sign s k t 0) m [Rd (IUnlock p) K; F (c_sign s k t 0)] 1 eq_refl) as (a1 & E1).
  rewrite V1 in E1. cbn [set_nth] in E1.
  assert (U1 : m1 (IUnlock p) = Some new).
  { rewrite <- V2 in NX. unfold tx_at in NX. cbn [inputs] in NX. rewrite Q1, XI in NX by exact I. cbn in NX. injection NX as <-. exact UN. }
  destruct (run_to_end cell_eq held (Rd (IUnlock p) K) m1 [Rd (IUnlock p) K; F (Ret (Ok tt))] 0 eq_refl) as (a2 & E2).
  cbn [solo] in E2. rewrite U1, EK in E2. cbn [set_nth solo] in E2.
  set (G := fun h m' => fst (soloc m' (REST h))).
  assert (GE : forall h m', (forall l, quiet l -> m' l = m l) -> G h m' =
     map_res (fun o => ABytes (h ++ (varint (nlen (m (XOutputs t))) ++ o ++ le_put 4 (m (XLocktime t)))))
             (helper_outputs [] (map (option_map (output_at m)) (m (XOutputs t)))) /\ snd (soloc m' (REST h)) = m').
  { intros h m' QQ. subst G REST. cbv beta. rewrite !solo_answered. cbn [solo fst snd]. rewrite !solo_bindr.
    rewrite !(only_solo _ _ m' (only_outputs _ _)), solo_outputs. cbn [solo]. rewrite !QQ by exact I.
    assert (OE : map (option_map (output_at m')) (m (XOutputs t)) = map (option_map (output_at m)) (m (XOutputs t))).
    { apply map_ext. intros [q|]; cbn [option_map]; [|reflexivity]. unfold output_at. now rewrite !QQ by exact I. }
    rewrite OE, helper_outputs_buf. destruct (helper_outputs [] _) as [o|e|]; cbn [map_res fst snd]; auto.
    split; [|reflexivity]. rewrite <- !app_assoc. reflexivity. }
  assert (TBX : forall m' u, (forall l, quiet l -> m' l = m l) -> m' (IUnlock p) = Some u ->
     map_res ABytes (tx_to_bytes (tx_at m' t)) = G (H ++ (((hd ++ varint (nlen u)) ++ u) ++ le_put 4 (m (ISeq p)))) m').
  { intros m' u QQ UU. rewrite <- solo_to_bytes. subst G REST. cbv beta. rewrite solo_answered. cbn [fst snd].
    unfold c_to_bytes. cbn [solo]. rewrite solo_bindr. cbn [solo]. rewrite !QQ by exact I. rewrite XI. cbn [c_inputs]. rewrite solo_bindr, solo_input, (only_solo _ _ _ (only_input _)).
    cbn [option_map deref or_panic bind solo fst snd]. unfold input_to_bytes, input_at. cbn [unlocking prev_txid prev_index sequence]. rewrite UU. rewrite !QQ by exact I.
    subst H hd. rewrite XI. reflexivity. }
  destruct (GE (H ++ (((hd ++ varint (nlen old)) ++ old) ++ le_put 4 (m (ISeq p)))) m (fun _ _ => eq_refl)) as [G0 _].
  rewrite <- (TBX m old (fun _ _ => eq_refl) UO), TB in G0.
  destruct (helper_outputs [] (map (option_map (output_at m)) (m (XOutputs t)))) as [o|e|]; cbn [map_res] in G0; try discriminate. apply INJ in G0.
  destruct (GE (H ++ (((hd ++ varint (nlen old)) ++ new) ++ le_put 4 (m (ISeq p)))) m1 Q1) as [G1 M1].
  destruct (GE (H ++ (((hd ++ varint (nlen new)) ++ new) ++ le_put 4 (m (ISeq p)))) m1 Q1) as [G2 _].
  rewrite <- (TBX m1 new Q1 U1) in G2. cbn [map_res] in G1, G2.
  rewrite (Q1 (ISeq p) I) in E2. subst G. cbv beta in G1. rewrite G1, M1 in E2.
  exists ([0;0;0;0;0;0;0]%nat ++ a1 ++ a2). eexists. unfold together. cbn [map].
  assert (EE : run cell_eq held (m, [started t JBytes; started t (JSign s k 0)]) ([0;0;0;0;0;0;0]%nat ++ a1 ++ a2) = (m1, [Ret (Ok (ABytes ((H ++ (((hd ++ varint (nlen old)) ++ new) ++ le_put 4 (m (ISeq p)))) ++ varint (nlen (m (XOutputs t))) ++ o ++ le_put 4 (m (XLocktime t))))); Ret (Ok ADone)])).
  { rewrite !run_app, E0, E1. exact E2. }
  rewrite EE. split; [reflexivity|]. cbn [fst]. split; [|split; [|exact V2]].
  - rewrite G0. intros E. rewrite <- !app_assoc in E. apply app_inv_head in E. apply app_inv_head in E. apply app_inv_head in E.
    apply (f_equal (@length byte)) in E. rewrite !app_length in E. unfold nlen in LN. lia.
  - rewrite <- V2. destruct (tx_to_bytes (tx_at m1 t)) as [b2|e|]; cbn [map_res] in G2; try discriminate. apply INJ in G2.
    intros E. assert (INJ2 : forall a b : bytes, Ok a = Ok b -> a = b) by congruence. apply INJ2 in E. rewrite G2 in E. rewrite <- !app_assoc in E. apply app_inv_head in E. apply app_inv_head in E.
    apply varint_differs in E; [|assumption|assumption]. apply LN. symmetry. exact E.
Qed.

(** * Concrete cases *)
Definition ex80_a : priv_key := mk_key (x02 :: repeat x11 32) (fun d => Ok (x30 :: firstn 8 d)).
Definition ex80_b : priv_key := mk_key (x03 :: repeat x22 32) (fun d => Ok (x30 :: firstn 9 d)).
(** transaction 0: input objects 0 and 2 pay to key a, 1 pays to key b; signers 0 (flag not set) and 1 (0xc3) *)
Definition ex80_m : memory := fun l =>
  match l with
  | XVersion _ => 1 | XInputs _ => [Some 0%nat; Some 1%nat; Some 2%nat] | XOutputs _ => [Some 0%nat; Some 7%nat] | XLocktime _ => 5
  | ITxid p => hex_encode (repeat (n2b (N.of_nat p + 60)) 32) | IIndex p => N.of_nat p | ISats p => 1000
  | IPrev p => Some (p2pkh (hash160 (if Nat.eqb p 1 then key_pub ex80_b else key_pub ex80_a))) | IUnlock p => Some [] | ISeq p => 4294967295
  | OSats p => 100 + N.of_nat p | OScript p => Some [x51]
  | SFlag s => if Nat.eqb s 0 then 0 else 195
  end.
Definition ex80_js : list job := [JAuto 0 ex80_a; JTxSign 1 ex80_b 1; JHash 0 65; JTotal; JCoinbase; JHash 1 195].
Definition is_panic {A} (r : res A) : bool := match r with Panic => true | _ => false end.
Lemma no_panics {A} (l : list (res A)) : existsb is_panic l = false -> forall a, In a l -> a <> Panic.
Proof. intros E a Ha ->. assert (existsb is_panic l = true) by (apply existsb_exists; exists Panic; auto). congruence. Qed.
Example ex80_own : own_inputs ex80_m 0.
Proof. unfold own_inputs. cbn. repeat constructor; cbn; intuition discriminate. Qed.
Example ex80_undisturbed : undisturbed ex80_m 0 ex80_js.
Proof.
  assert (PA : forall p, signs ex80_m 0 (JAuto 0 ex80_a) p -> p <> 1%nat).
  { intros p [_ H] ->. vm_compute in H. discriminate. }
  intros a b i j N Ha Hb.
  destruct a as [|[|[|[|[|[|[|a]]]]]]]; cbn in Ha; try discriminate; injection Ha as <-;
  destruct b as [|[|[|[|[|[|[|b]]]]]]]; cbn in Hb; try discriminate; injection Hb as <-; try congruence;
  intros [(p & S1 & [S2|S2])|(s & S1 & S2 & S3)]; cbn [serialises signer_of] in *; try tauto; try discriminate; try congruence.
  - injection S2 as <-. now apply PA in S1.
  - injection S1 as <-. now apply PA in S2.
Qed.
Example C80_example :
  existsb is_panic (fst (in_turn (fun s => ex80_m (SFlag s)) (tx_at ex80_m 0) ex80_js)) = false /\
  map (fun o => match o with Some i => option_map nlen (unlocking i) | None => None end)
      (inputs (snd (in_turn (fun s => ex80_m (SFlag s)) (tx_at ex80_m 0) ex80_js))) = [Some 45; Some 46; Some 45] /\
  (* an execution by turns *)
  let c := together ex80_m 0 ex80_js (concat (repeat [5;0;1;2;3;4]%nat 120)) in
  snd c = map Ret (fst (in_turn (fun s => ex80_m (SFlag s)) (tx_at ex80_m 0) ex80_js)) /\
  tx_at (fst c) 0 = snd (in_turn (fun s => ex80_m (SFlag s)) (tx_at ex80_m 0) ex80_js).
Proof.
  split; [vm_compute; reflexivity|]. split; [vm_compute; reflexivity|]. cbv zeta.
  split; vm_compute; reflexivity.
Qed.
Example ex80_races : exists schedule, race held (together ex80_m 0 [JTxSign 0 ex80_a 0; JTxSign 1 ex80_b 1] schedule).
Proof.
  eapply C80_transaction_sign_races; [apply ex80_own|vm_compute; discriminate| |vm_compute; reflexivity|vm_compute; reflexivity].
  intros [|[|a]] [|[|b]] i j N Ha Hb; cbn in Ha, Hb; try congruence; try (destruct a; discriminate); try (destruct b; discriminate);
  injection Ha as <-; injection Hb as <-; (intros [(p & S1 & [S2|[]])|(s & S1 & S2 & S3)]; [vm_compute in S1, S2|cbn in S1, S2]; congruence).
Qed.
Example ex80_lost : exists schedule, let c := run cell_eq held (ex80_m, [c_tx_sign 0 ex80_a 0 0; c_add_output 0 (Some 5%nat)]) schedule in
  returned held c [Ok tt; Ok tt] /\ length (outputs (tx_at (fst c) 0)) = 2%nat.
Proof.
  destruct (internal_sign (mk_signer ex80_a (ex80_m (SFlag 0))) 0 (tx_at ex80_m 0)) as [x|e|] eqn:E; [|vm_compute in E; discriminate|vm_compute in E; discriminate].
  destruct (C80_lost_output ex80_m 0 0 ex80_a 0 x (Some 5%nat) ex80_own E) as (sch & R & T & O). exists sch. split; [exact R|]. rewrite T, O. reflexivity.
Qed.
Example ex80_torn : let m := upd cell_eq held ex80_m (XInputs 0) [Some 0%nat] in exists b, tx_to_bytes (tx_at m 0) = Ok b /\
  exists schedule b', returned held (together m 0 [JBytes; JSign 0 ex80_a 0] schedule) [Ok (ABytes b'); Ok ADone] /\ b' <> b.
Proof.
  intros m. destruct (tx_to_bytes (tx_at m 0)) as [b|e|] eqn:TB; [|vm_compute in TB; discriminate|vm_compute in TB; discriminate].
  exists b. split; [reflexivity|].
  destruct (internal_sign (mk_signer ex80_a (m (SFlag 0))) 0 (tx_at m 0)) as [x|e|] eqn:E; [|vm_compute in E; discriminate|vm_compute in E; discriminate].
  assert (U : exists i new, nth_error (inputs x) 0 = Some (Some i) /\ unlocking i = Some new /\ nlen new = 45).
  { vm_compute in E. injection E as <-. do 2 eexists. split; [reflexivity|]. split; [reflexivity|]. reflexivity. }
  destruct U as (i & new & U1 & U2 & U3).
  destruct (C80_torn_bytes m 0 0 ex80_a 0 [] x i new b) as (sch & b' & R & N & _); try assumption; try reflexivity.
  - now rewrite U3.
  - rewrite U3. discriminate.
  - exists sch, b'. auto.
Qed.

Print Assumptions C80_no_race.
Print Assumptions C80_answers.
Print Assumptions C80_as_in_turn.
Print Assumptions C80_any_order.
Print Assumptions C80_rest_untouched.
Print Assumptions C80_can_finish.
Print Assumptions C80_shared_signer_races.
Print Assumptions C80_transaction_sign_races.
Print Assumptions C80_lost_output.
Print Assumptions C80_torn_bytes.
