(** C99: what others can do to a transaction that has been signed. *)
From Verif Require Import S_Third S_Demand P_Flow T_Flow T_Demand T_Script T_Chain T_Tx T_Sighash.
From Coq Require Import Lia ZifyBool ZifyNat ZifyN.

Definition pad (k : nat) (i : input) : input :=
  mk_in (prev_txid i) (prev_index i) (prev_sats i) (prev_script i) (Some (repeat x00 k ++ script_bytes (unlocking i))) (sequence i).
Definition pad_tx (k : nat) (t : tx) : tx :=
  mk_tx (version t) (match inputs t with Some i :: r => Some (pad k i) :: r | l => l end) (outputs t) (locktime t).
Definition change (k : nat) (b : bytes) : bytes :=
  match tx_from_bytes b with
  | Ok t => match tx_to_bytes (pad_tx k t) with Ok w => w | _ => [] end
  | _ => []
  end.

Lemma run_frame (chk chk' : bytes -> bytes -> Prop) b st st' : (forall sg pub, chk sg pub -> chk' sg pub) ->
  script_run chk b st st' -> forall x, script_run chk' b (st ++ x) (st' ++ x).
Proof.
  intros M H x. induction H as [st|h d r st st' A _ IH|r y st st' _ IH|r y st st' _ IH|r y st st' _ IH|r sg pub st st' C _ IH]; cbn [app] in *.
  - constructor.
  - now apply run_push.
  - now apply run_dup.
  - now apply run_hash160.
  - now apply run_equalverify.
  - apply run_checksig; auto.
Qed.
Lemma run_zeros chk k u : forall st st', script_run chk u (repeat [] k ++ st) st' -> script_run chk (repeat x00 k ++ u) st st'.
Proof.
  induction k as [|k IH]; intros st st' H; [exact H|]. cbn [repeat app]. apply (run_push chk [x00] []); [apply (an_direct x00); cbn; lia|].
  apply IH. replace (repeat [] k ++ [] :: st) with (repeat [] (S k) ++ st); [exact H|].
  cbn [repeat app]. clear. induction k as [|k IH]; [reflexivity|]. cbn [repeat app]. now rewrite IH.
Qed.

Lemma pad_signed k t : Forall2 same_signed_input (inputs t) (inputs (pad_tx k t)).
Proof.
  unfold pad_tx. cbn [inputs]. assert (forall l : list (option input), Forall2 same_signed_input l l) as R.
  { induction l; constructor; [apply same_signed_refl|assumption]. }
  destruct (inputs t) as [|[i|] r]; [constructor| |apply R]. constructor; [cbn; auto|apply R].
Qed.
Lemma pad_resigned k t : resigned t (pad_tx k t).
Proof. unfold resigned. split; [reflexivity|]. split; [reflexivity|]. split; [reflexivity|]. apply pad_signed. Qed.

Lemma pad_accepted verify k full n : accepted verify full n -> accepted verify (pad_tx k full) n.
Proof.
  intros (i & u & s & st & st' & N & U & S & R1 & R2).
  assert (forall sg pub, signature_ok verify full n sg pub -> signature_ok verify (pad_tx k full) n sg pub) as M.
  { intros sg pub (s0 & f & p & E & F & P & V). exists s0, f, p. split; [exact E|]. split; [exact F|]. split; [|exact V].
    eapply preimage_resigned; [apply pad_resigned|exact P]. }
  unfold pad_tx in *. destruct (inputs full) as [|[j|] r] eqn:IN.
  - destruct n; discriminate N.
  - destruct n as [|n].
    + cbn [nth_error] in N. assert (j = i) as -> by congruence.
      exists (pad k i), (repeat x00 k ++ u), s, (st ++ repeat [] k), (st' ++ repeat [] k).
      split; [reflexivity|]. split; [cbn [pad unlocking]; rewrite U; reflexivity|]. split; [exact S|]. split.
      * apply run_zeros. rewrite app_nil_r. apply (run_frame _ _ _ _ _ M R1 (repeat [] k)).
      * apply (run_frame _ _ _ _ _ M R2 (repeat [] k)).
    + exists i, u, s, st, st'. split; [exact N|]. split; [exact U|]. split; [exact S|]. split.
      * pose proof (run_frame _ _ _ _ _ M R1 []) as X. now rewrite !app_nil_r in X.
      * pose proof (run_frame _ _ _ _ _ M R2 []) as X. now rewrite !app_nil_r in X.
  - exists i, u, s, st, st'. split; [cbn [inputs]; rewrite <- IN in *; exact N|]. split; [exact U|]. split; [exact S|]. split.
    + pose proof (run_frame _ _ _ _ _ M R1 []) as X. now rewrite !app_nil_r in X.
    + pose proof (run_frame _ _ _ _ _ M R2 []) as X. now rewrite !app_nil_r in X.
Qed.

Lemma fresh_bare t : fresh_tx t -> bare_tx t = t.
Proof.
  destruct t as [v l o lt]. unfold fresh_tx, bare_tx. cbn [inputs version outputs locktime]. intros F. f_equal.
  induction F as [|oi l (i & -> & (_ & S & P & U)) _ IH]; [reflexivity|]. cbn [map option_map]. rewrite IH. f_equal.
  destruct i as [a b c d e f]. cbn in S, P, U. subst c d. unfold bare_input. cbn. destruct e; [reflexivity|congruence].
Qed.
Lemma pad_fresh k t : fresh_tx t -> fresh_tx (pad_tx k t).
Proof.
  unfold fresh_tx, pad_tx. cbn [inputs]. intros F. destruct F as [|oi l (i & -> & (H1 & H2 & H3 & H4)) F]; [constructor|]. constructor; [|exact F].
  exists (pad k i). split; [reflexivity|]. split; [exact H1|]. split; [exact H2|]. split; [exact H3|]. discriminate.
Qed.
Lemma wire_script_len b t i r : on_wire b t -> inputs t = Some i :: r -> (length (script_bytes (unlocking i)) <= length b)%nat.
Proof.
  intros [(ver & nin & wi & nout & wo & lt & -> & _ & _ & _ & _ & _ & _ & FI & _) _] E. rewrite E in FI.
  inversion FI as [|w oi wr ? H F]; subst. destruct H as (i' & E' & (id & ix & l & sq & -> & _)). assert (i' = i) as -> by congruence.
  rewrite !app_length. cbn [concat]. rewrite !app_length. lia.
Qed.

Lemma changed verify known b k : node_accepts verify known b -> sized b -> N.of_nat k < 2 ^ 62 ->
  exists t, on_wire b t /\ inputs t <> [] /\ wf_tx (pad_tx k t) /\ tx_to_bytes (pad_tx k t) = Ok (change k b) /\ on_wire (change k b) (pad_tx k t) /\ node_accepts verify known (change k b).
Proof.
  intros (t & full & W & EV & EO & EL & LU & AC & ND & NI & NO & SU) SZ K. exists t. split; [exact W|]. split; [exact NI|].
  pose proof (on_wire_wf b t SZ W) as WF. pose proof (proj1 (on_wire_parses b t SZ) W) as PA.
  assert (wf_tx (pad_tx k t)) as WP.
  { destruct WF as (W1 & W2 & W3 & W4 & W5 & W6). unfold pad_tx. split; [exact W1|]. split; [exact W2|].
    destruct (inputs t) as [|[i|] r] eqn:IN; [now elim NI| |]; cbn [inputs outputs].
    - split; [exact W3|]. split; [exact W4|]. split; [|exact W6]. inversion W5 as [|? ? (i' & E & WI) WR]; subst. assert (i' = i) as -> by congruence.
      constructor; [|exact WR]. exists (pad k i). split; [reflexivity|]. destruct WI as (I1 & I2 & I3 & I4). split; [exact I1|]. split; [exact I2|]. split; [exact I3|].
      cbn [pad unlocking script_bytes]. pose proof (wire_script_len b t i r W IN) as LL. unfold sized in SZ. unfold nlen in *. rewrite app_length, repeat_length. lia.
    - inversion W5 as [|? ? (i' & E & _) _]; discriminate E. }
  destruct (C27_round_trip _ WP) as (w & TW & _).
  assert (change k b = w) as CW by (unfold change; now rewrite PA, TW). rewrite CW. split; [exact WP|]. split; [exact TW|].
  assert (on_wire w (pad_tx k t)) as W'.
  { pose proof (wire_of_written _ _ WP TW) as X. rewrite fresh_bare in X; [exact X|]. apply pad_fresh. apply W. }
  split; [exact W'|].
  destruct (signed_points _ _ (pad_signed k t)) as (SP & _ & _).
  destruct (signed_points _ _ (pad_signed k full)) as (_ & SA & _).
  exists (pad_tx k t), (pad_tx k full). split; [exact W'|]. split; [exact EV|]. split; [exact EO|]. split; [exact EL|].
  split; [|split; [|split; [|split; [|split] ] ] ].
  - unfold pad_tx. destruct LU as [|oi of r r' (i & o & id & -> & P & U & ->) LR]; [constructor|]. cbn [inputs]. constructor; [|exact LR].
    exists (pad k i), o, id. split; [reflexivity|]. split; [exact P|]. split; [exact U|]. reflexivity.
  - intros n L. apply pad_accepted. apply AC. unfold pad_tx in L. cbn [inputs] in L. destruct (inputs full) as [|[j|] r]; exact L.
  - unfold spent. rewrite SP. exact ND.
  - unfold pad_tx. cbn [inputs]. destruct (inputs t) as [|[i|] r]; [now elim NI|discriminate|discriminate].
  - exact NO.
  - change (sum (map amount_out (outputs t)) <= sum (map amount_in (inputs (pad_tx k full)))). rewrite SA. exact SU.
Qed.

Lemma pad_inj j k t : Forall (fun oi => exists i : input, oi = Some i) (inputs t) -> inputs t <> [] -> pad_tx j t = pad_tx k t -> j = k.
Proof.
  intros F NI H. apply (f_equal inputs) in H. unfold pad_tx in H. cbn [inputs] in H. destruct F as [|oi r (i & ->) _]; [now elim NI|].
  assert (pad j i = pad k i) as E by congruence. apply (f_equal unlocking) in E. cbn [pad unlocking] in E.
  assert (repeat x00 j ++ script_bytes (unlocking i) = repeat x00 k ++ script_bytes (unlocking i)) as E' by congruence.
  apply (f_equal (@length byte)) in E'. rewrite !app_length, !repeat_length in E'. lia.
Qed.
Lemma pad_0 t : fresh_tx t -> pad_tx 0 t = t.
Proof.
  destruct t as [v l o lt]. unfold fresh_tx, pad_tx. cbn [inputs version outputs locktime]. intros F. f_equal.
  destruct F as [|oi l (i & -> & (_ & _ & _ & U)) _]; [reflexivity|]. f_equal. f_equal. destruct i as [a b c d e f]. cbn in U. unfold pad. cbn.
  destruct e; [reflexivity|congruence].
Qed.
Lemma fresh_some t : fresh_tx t -> Forall (fun oi => exists i : input, oi = Some i) (inputs t).
Proof. intros F. unfold fresh_tx in F. eapply Forall_impl; [|exact F]. intros oi (i & E & _). now exists i. Qed.

(** Whoever sees an accepted transaction can make as many others as he likes, without any key: each is accepted in
    its place, spends the same outputs, pays the same, and differs from it (and from each other) only in the
    unlocking scripts. *)
Theorem C99_third_party : exists change : nat -> bytes -> bytes, forall verify known b k,
  node_accepts verify known b -> sized b -> N.of_nat k < 2 ^ 62 ->
  node_accepts verify known (change k b) /\
  (exists t t', on_wire b t /\ on_wire (change k b) t' /\ only_scripts_differ t t') /\
  ((0 < k)%nat -> change k b <> b) /\
  (forall j, N.of_nat j < 2 ^ 62 -> sized (change k b) -> change j b = change k b -> j = k).
Proof.
  exists change. intros verify known b k A SZ K. destruct (changed verify known b k A SZ K) as (t & W & NI & _ & _ & W' & A').
  split; [exact A'|]. pose proof (pad_resigned k t) as (R1 & R2 & R3 & R4). split; [|split].
  - exists t, (pad_tx k t). split; [exact W|]. split; [exact W'|]. split; [now symmetry|]. split; [now symmetry|]. split; [now symmetry|exact R4].
  - intros K0 E. rewrite E in W'. pose proof (on_wire_unique b _ _ SZ W W') as Q. rewrite <- (pad_0 t (proj2 W)) in Q at 1.
    apply pad_inj in Q; [lia|apply fresh_some, W|exact NI].
  - intros j J SC E. destruct (changed verify known b j A SZ J) as (t2 & W2 & _ & _ & _ & W2' & _).
    assert (t2 = t) as -> by exact (on_wire_unique b _ _ SZ W2 W). rewrite E in W2'. pose proof (on_wire_unique _ _ _ SC W2' W') as Q.
    now apply pad_inj in Q; [|apply fresh_some, W|].
Qed.
Print Assumptions C99_third_party.

Lemma other_dsha x y : dsha x = dsha y -> x <> y -> dcollision x y.
Proof.
  intros E N. unfold dsha in E. destruct (list_eq_dec Byte.byte_eq_dec (sha256 x) (sha256 y)) as [Q|Q]; [left|right]; split; assumption.
Qed.

(** ** refuted: the TxID of a signed transaction is final *)

(** For everything a wallet builds and signs there is another transaction that the node accepts in its place, which
    differs only in the unlocking scripts and has another TxID (or here is a collision of SHA-256d). *)
Theorem C99_id_final_refuted : forall verify known k calls t s b, honest verify k -> Forall (wallet_call known (key_pub k)) calls ->
  nlen calls < 2 ^ 31 -> balanced calls ->
  tx_sign_auto (tx_run tx_new calls) (mk_signer k 0) = Ok (t, s, None) -> tx_to_bytes t = Ok b -> sized b ->
  node_accepts verify known b /\
  exists t' b', tx_to_bytes t' = Ok b' /\ node_accepts verify known b' /\ only_scripts_differ (bare_tx t) t' /\ b' <> b /\
    (tx_id t' = tx_id t -> dcollision b' b).
Proof.
  intros verify known k calls t s b HK HW HN HB HS HT SZ.
  destruct (C84_accepted verify known k calls HK HW HN) as (t1 & b1 & S1 & B1 & R). rewrite S1 in HS.
  assert (t1 = t) as -> by congruence. assert (b1 = b) as -> by congruence. destruct (R SZ) as (WF & _ & A). specialize (A HB). split; [exact A|].
  destruct (changed verify known b 1 A SZ) as (u & W & NI & WP & TB & W' & A'); [reflexivity|].
  assert (u = bare_tx t) as -> by exact (on_wire_unique b _ _ SZ W (wire_of_written t b WF HT)).
  exists (pad_tx 1 (bare_tx t)), (change 1 b). split; [exact TB|]. split; [exact A'|]. pose proof (pad_resigned 1 (bare_tx t)) as (R1 & R2 & R3 & R4).
  split; [split; [now symmetry|]; split; [now symmetry|]; split; [now symmetry|exact R4]|].
  assert (change 1 b <> b) as NE.
  { intros E. rewrite E in W'. pose proof (on_wire_unique b _ _ SZ W W') as Q. rewrite <- (pad_0 _ (proj2 W)) in Q at 1.
    apply pad_inj in Q; [lia|apply fresh_some, W|exact NI]. }
  split; [exact NE|]. rewrite (C31_definition _ _ TB), (C31_definition _ _ HT). intros E. apply other_dsha; [|exact NE].
  assert (hex_encode (rev (dsha (change 1 b))) = hex_encode (rev (dsha b))) as E' by (unfold dsha; congruence).
  apply (f_equal hex_dec) in E'. rewrite !hex_dec_encode in E'. assert (rev (dsha (change 1 b)) = rev (dsha b)) as E2 by congruence.
  apply (f_equal (@rev byte)) in E2. now rewrite !rev_involutive in E2.
Qed.
Print Assumptions C99_id_final_refuted.

Lemma same_spent t t' : only_scripts_differ t t' -> spent t' = spent t.
Proof. intros (_ & _ & _ & F). apply (signed_points _ _ F). Qed.
Lemma accepted_new verify known b t p : node_accepts verify known b -> sized b -> on_wire b t -> In p (spent t) ->
  forall x u, In x known -> on_wire x u -> ~ In p (spent u).
Proof.
  intros (t0 & full & W & _ & _ & _ & LU & _) SZ W1 I x u IX WX. assert (t0 = t) as -> by exact (on_wire_unique b _ _ SZ W W1).
  unfold spent in I. apply in_map_iff in I. destruct I as (oi & <- & I). apply In_nth_error in I as (n & N).
  assert (exists of, looked_up known oi of) as (of & i & o & id & -> & P & (_ & U) & _).
  { clear -LU N. revert n N. induction LU as [|a c l l' H _ IH]; intros [|n] N; try discriminate N; cbn in N; [|now apply (IH n)]. exists c. assert (a = oi) by congruence. now subst. }
  cbn [point_of]. rewrite P. apply (U x u IX WX).
Qed.

(** Once such a transaction is known, the one it was made from is accepted no more. *)
Theorem C99_replaced : forall verify known b b' t t', on_wire b t -> on_wire b' t' -> sized b -> only_scripts_differ t t' ->
  ~ node_accepts verify (known ++ [b']) b.
Proof.
  intros verify known b b' t t' W W' SZ D A. pose proof A as (t0 & full & W0 & _ & _ & _ & _ & _ & _ & NI & _).
  assert (t0 = t) as -> by exact (on_wire_unique b _ _ SZ W0 W). destruct (spent t) as [|p r] eqn:SP.
  { unfold spent in SP. apply map_eq_nil in SP. contradiction. }
  apply (accepted_new verify _ b t p A SZ W) with (x := b') (u := t').
  - rewrite SP. now left.
  - apply in_or_app. right. now left.
  - exact W'.
  - rewrite (same_spent _ _ D), SP. now left.
Qed.
Print Assumptions C99_replaced.

(** And what was signed to spend its outputs is not accepted either, unless another known transaction has the same hash. *)
Theorem C99_children_lost : forall verify known b b' t w u n, node_accepts verify known b -> sized b -> on_wire b t -> b' <> b ->
  sized w -> on_wire w u -> In (hex_encode (rev (dsha b)), n) (spent u) ->
  node_accepts verify (known ++ [b']) w -> exists x, In x (known ++ [b']) /\ x <> b /\ dsha x = dsha b.
Proof.
  intros verify known b b' t w u n A SZ W NE SW WW I AW.
  assert (~ In b known) as NK.
  { intros IK. pose proof A as (t0 & full & W0 & _ & _ & _ & _ & _ & _ & NI & _).
    assert (t0 = t) as -> by exact (on_wire_unique b _ _ SZ W0 W). destruct (spent t) as [|p r] eqn:SP; [unfold spent in SP; apply map_eq_nil in SP; contradiction|].
    apply (accepted_new verify known b t p A SZ W) with (x := b) (u := t); [rewrite SP; now left|exact IK|exact W|rewrite SP; now left]. }
  destruct AW as (u0 & full & W0 & _ & _ & _ & LU & _). assert (u0 = u) as -> by exact (on_wire_unique w _ _ SW W0 WW).
  unfold spent in I. apply in_map_iff in I. destruct I as (oi & E & I). apply In_nth_error in I as (m & N).
  assert (exists of, looked_up (known ++ [b']) oi of) as (of & i & o & id & -> & P & ((x & tx0 & IX & DX & _) & _) & _).
  { clear -LU N. revert m N. induction LU as [|a c l l' H _ IH]; intros [|m] N; try discriminate N; cbn in N; [|now apply (IH m)]. exists c. assert (a = oi) by congruence. now subst. }
  exists x. split; [exact IX|]. cbn [point_of] in E. rewrite P in E. assert (hex_encode (rev id) = hex_encode (rev (dsha b))) as E' by congruence.
  apply (f_equal hex_dec) in E'. rewrite !hex_dec_encode in E'. assert (rev id = rev (dsha b)) as E2 by congruence.
  apply (f_equal (@rev byte)) in E2. rewrite !rev_involutive in E2. split; [|congruence].
  intros ->. apply in_app_or in IX. destruct IX as [IX|[IX|[]]]; [now apply NK|now apply NE].
Qed.
Print Assumptions C99_children_lost.

(** ** what others cannot do *)
Lemma preimage_flag t n f p t' n' f' : preimage t n f p -> preimage t' n' f' p -> f < 256 -> f' < 256 -> f = f'.
Proof.
  intros (is & os & i & s & hp & hs & ho & op & len & _ & _ & _ & _ & _ & _ & _ & _ & _ & E)
         (is' & os' & i' & s' & hp' & hs' & ho' & op' & len' & _ & _ & _ & _ & _ & _ & _ & _ & _ & E') B B'.
  rewrite E in E'. rewrite !app_assoc in E'. apply (f_equal (@rev byte)) in E'. rewrite !(rev_app_distr _ (le_put 4 _)) in E'.
  apply (f_equal (firstn 4)) in E'. rewrite !firstn_app, !rev_length, !le_put_length, !Nat.sub_diag, !firstn_O, !app_nil_r in E'.
  rewrite !firstn_all2 in E' by (rewrite rev_length, le_put_length; lia). apply (f_equal (@rev byte)) in E'. rewrite !rev_involutive in E'.
  apply (f_equal le_get) in E'. rewrite !le_get_put in E'. rewrite !N.mod_small in E' by (cbn; lia). exact E'.
Qed.

Lemma full_sig t : full_tx t -> sig_tx t.
Proof.
  intros (_ & _ & F & O & L). split; [|split; [exact O|exact L] ]. eapply Forall_impl; [|exact F].
  intros oi (i & E & ((id & _ & H) & _ & _ & _ & S)). exists i. split; [exact E|]. split; [now exists id|exact S].
Qed.

(** Where the holder of a key has signed nothing but [t], an accepted input that spends an output of that key belongs
    to a transaction with the version, lock time, outpoints, sequence numbers and outputs of [t]: whatever else
    there is, is a key with the same hash or a collision of SHA-256 in what the signature covers. *)
Theorem C99_nothing_else : forall verify pub t t' n i, full_tx t -> full_tx t' -> nlen (inputs t) <= 2 ^ 32 -> nlen (inputs t') <= 2 ^ 32 ->
  signed_only verify pub t -> nth_error (inputs t') n = Some (Some i) -> prev_script i = Some (p2pkh (hash160 pub)) ->
  accepted verify t' n ->
  (exists u pub' st, unlocking i = Some u /\ exec (signature_ok verify t' n) u [] (pub' :: st) /\ collision hash160 pub' pub) \/
  (exists m f p p', preimage t m 65 p /\ preimage t' n f p' /\ dcollision p p') \/
  (exists a a' s s' o o', all_outpoints t a /\ all_outpoints t' a' /\ all_sequences t s /\ all_sequences t' s' /\
     all_outputs t o /\ all_outputs t' o' /\ (dcollision a a' \/ dcollision s s' \/ dcollision o o')) \/
  (version t = version t' /\ locktime t = locktime t' /\ Forall2 point_eq (inputs t) (inputs t') /\
   Forall2 same_sequence (inputs t) (inputs t') /\ outputs t = outputs t').
Proof.
  intros verify pub t t' n i F F' L L' SO NI PS AC.
  destruct (C64_full_machine verify t' n AC) as (i' & u & s & st & N' & U & PS' & R1 & R2).
  assert (i' = i) as -> by congruence. assert (s = p2pkh (hash160 pub)) as -> by congruence.
  rewrite <- (proj1 (C13_from_pubkey_bytes pub)) in R2. apply C78_public_key in R2. destruct R2 as (pub' & sg & st' & -> & HP & C).
  destruct HP as [-> | HP]; [|left; now exists u, pub', (sg :: st')]. right.
  destruct C as (s0 & f & p' & _ & Bf & P' & V). destruct (SO _ _ V) as (m & p & P & D).
  destruct (list_eq_dec Byte.byte_eq_dec p p') as [<-|NE].
  2:{ left. exists m, f, p, p'. split; [exact P|]. split; [exact P'|]. apply other_dsha; [now symmetry|exact NE]. }
  right. assert (65 = f) as <- by (apply (preimage_flag _ _ _ _ _ _ _ P P'); [reflexivity|exact Bf]).
  assert (forall T k, full_tx T -> nlen (inputs T) <= 2 ^ 32 -> preimage T k 65 p -> N.of_nat k < 2 ^ 32 /\ get_input_signature_hash T (N.of_nat k) 65 = Ok (rev (sha256 (sha256 p)))) as G.
  { intros T k FT LT PT. pose proof PT as (is & os & j & s & hp & hs & ho & op & len & EI & _ & Nj & _).
    assert (nth_error (inputs T) k = Some (Some j)) as NJ by (rewrite EI; now apply map_nth_error).
    assert (k < length (inputs T))%nat as KL by (apply nth_error_Some; now rewrite NJ).
    assert (N.of_nat k < 2 ^ 32) as KB by (unfold nlen in LT; lia). split; [exact KB|].
    apply C36_digest_iff; [now apply full_sig|exact KB|reflexivity|]. rewrite Nat2N.id. exists j, p. split; [exact NJ|]. split; [|now split].
    destruct FT as (_ & _ & FI & _). rewrite Forall_forall in FI. destruct (FI _ (nth_error_In _ _ NJ)) as (j' & E & ((id & LI & H) & _)). assert (j' = j) as -> by congruence.
    intros E0. rewrite E0 in H. cbn in H. assert (id = []) as -> by congruence. discriminate LI. }
  destruct (G t m F L P) as (B1 & G1). destruct (G t' n F' L' P') as (B2 & G2).
  destruct (C37_all t (N.of_nat m) t' (N.of_nat n) 65 _ F F' B1 B2 eq_refl eq_refl eq_refl G1 G2)
    as (p1 & p2 & a1 & a2 & s1 & s2 & o1 & o2 & Q1 & Q2 & A1 & A2 & S1 & S2 & O1 & O2 & H).
  rewrite Nat2N.id in Q1, Q2. pose proof (C36_preimage_unique _ _ _ _ _ Q1 P) as ->. pose proof (C36_preimage_unique _ _ _ _ _ Q2 P') as ->.
  destruct H as [H|[H|[H|[H|(H1 & H2 & _ & H3 & H4 & H5)]]]].
  - exfalso. destruct H as [[H _]|[H _]]; now apply H.
  - left. exists a1, a2, s1, s2, o1, o2. tauto.
  - left. exists a1, a2, s1, s2, o1, o2. tauto.
  - left. exists a1, a2, s1, s2, o1, o2. tauto.
  - right. auto.
Qed.
Print Assumptions C99_nothing_else.

(** a wallet's transaction with two inputs, signed; what the key has signed verifies and nothing else *)
Definition ex99_t : tx := tx_run tx_new ex63_calls.
Definition ex99_signed : tx := match tx_sign_auto ex99_t (mk_signer ex63_key 0) with Ok (t, _, _) => t | _ => ex99_t end.
Definition ex99_verify (pub d s : bytes) : Prop :=
  pub = ex63_pub /\ s = x30 :: firstn 8 d /\ exists n p, preimage ex99_t n 65 p /\ d = dsha p.
Definition fullb (t : tx) : bool :=
  (version t <? 2 ^ 32) && (locktime t <? 2 ^ 32) && (nlen (outputs t) <? 2 ^ 31) &&
  forallb (fun oi => match oi with Some i =>
    (match hex_dec (prev_txid i) with Some id => (length id =? 32)%nat | None => false end) && (prev_index i <? 2 ^ 32) && (sequence i <? 2 ^ 32) && (prev_sats i <? 2 ^ 64) &&
    (match prev_script i with Some s => nlen s <? 2 ^ 63 | None => true end) | None => false end) (inputs t) &&
  forallb (fun oo => match oo with Some o => (satoshis o <? 2 ^ 64) && match locking o with Some s => nlen s <? 2 ^ 63 | None => false end | None => false end) (outputs t).
Lemma fullb_spec t : fullb t = true -> full_tx t.
Proof.
  unfold fullb. intros H. apply andb_true_iff in H as [H O]. apply andb_true_iff in H as [H I]. apply andb_true_iff in H as [H L]. apply andb_true_iff in H as [V T].
  apply N.ltb_lt in V, T, L. split; [exact V|]. split; [exact T|]. rewrite forallb_forall in I, O. split; [|split; [|exact L] ].
  - apply Forall_forall. intros oi X. apply I in X. destruct oi as [i|]; [|discriminate X]. exists i. split; [reflexivity|].
    apply andb_true_iff in X as [X X5]. apply andb_true_iff in X as [X X4]. apply andb_true_iff in X as [X X3]. apply andb_true_iff in X as [X1 X2].
    destruct (hex_dec (prev_txid i)) as [id|] eqn:D; [|discriminate X1]. apply Nat.eqb_eq in X1. apply N.ltb_lt in X2, X3, X4.
    split; [now exists id|]. split; [exact X2|]. split; [exact X3|]. split; [exact X4|]. intros s E. rewrite E in X5. now apply N.ltb_lt in X5.
  - apply Forall_forall. intros oo X. apply O in X. destruct oo as [o|]; [|discriminate X]. exists o. split; [reflexivity|].
    apply andb_true_iff in X as [X1 X2]. apply N.ltb_lt in X1. split; [exact X1|]. destruct (locking o) as [s|]; [|discriminate X2]. exists s. split; [reflexivity|now apply N.ltb_lt in X2].
Qed.
Lemma resigned_refl t : resigned t t.
Proof.
  unfold resigned. split; [reflexivity|]. split; [reflexivity|]. split; [reflexivity|].
  induction (inputs t); constructor; [apply same_signed_refl|assumption].
Qed.
Lemma ex99_facts : exists i h sg, fullb ex99_t = true /\ fullb ex99_signed = true /\ nth_error (inputs ex99_t) 0 = Some (Some i) /\ prev_txid i <> [] /\
  prev_script i = Some (p2pkh (hash160 ex63_pub)) /\ get_input_signature_hash ex99_t 0 65 = Ok h /\ sg = x30 :: firstn 8 (rev h) /\
  nth_error (inputs ex99_signed) 0 = Some (Some (with_script i (fst (p2pkh_unlocking_script ex63_pub sg 65)))).
Proof.
  do 3 eexists. split; [vm_compute; reflexivity|]. split; [vm_compute; reflexivity|]. split; [vm_compute; reflexivity|]. split; [vm_compute; discriminate|].
  split; [vm_compute; reflexivity|]. split; [vm_compute; reflexivity|]. split; [vm_compute; reflexivity|]. vm_compute; reflexivity.
Qed.
Example C99_example : full_tx ex99_t /\ full_tx ex99_signed /\ signed_only ex99_verify ex63_pub ex99_t /\
  (exists i, nth_error (inputs ex99_signed) 0 = Some (Some i) /\ prev_script i = Some (p2pkh (hash160 ex63_pub))) /\
  accepted ex99_verify ex99_signed 0.
Proof.
  destruct ex99_facts as (i & h & sg & F1 & F2 & N0 & T0 & S0 & H0 & SG & N1). apply fullb_spec in F1, F2.
  split; [exact F1|]. split; [exact F2|]. split; [intros d s (_ & _ & n & p & P & D); exists n, p; exact (conj P D)|].
  split; [eexists; split; [exact N1|exact S0]|].
  apply (proj1 (C36_digest_iff ex99_t 0 65 h (full_sig _ F1) ltac:(reflexivity) ltac:(reflexivity))) in H0. destruct H0 as (i0 & p & _ & _ & P & ->). rewrite rev_involutive in SG. cbn [N.to_nat] in P.
  assert (resigned ex99_t ex99_signed) as R.
  { unfold ex99_signed. destruct (tx_sign_auto ex99_t (mk_signer ex63_key 0)) as [[[t' s'] oe]|e|] eqn:E.
    - apply (auto_resigned ex99_t (mk_signer ex63_key 0) t' s' oe); [reflexivity|vm_compute; discriminate|exact E].
    - exact (resigned_refl ex99_t).
    - exact (resigned_refl ex99_t). }
  exists (with_script i (fst (p2pkh_unlocking_script ex63_pub sg 65))), (fst (p2pkh_unlocking_script ex63_pub sg 65)), (p2pkh (hash160 ex63_pub)), [ex63_pub; sg ++ [n2b 65]], [].
  split; [exact N1|]. split; [reflexivity|]. split; [exact S0|].
  assert (nlen sg <= 9) as LS by (rewrite SG; unfold nlen; cbn [length]; rewrite firstn_length; lia).
  split; [apply unlocking_run; [lia|reflexivity]|]. apply p2pkh_run.
  exists sg, 65, p. split; [reflexivity|]. split; [reflexivity|]. split; [exact (preimage_resigned _ _ _ _ _ R P)|].
  split; [reflexivity|]. split; [exact SG|]. exists 0%nat, p. exact (conj P eq_refl).
Qed.
