(** What the programs of M_Conc do when they run alone, and which cells they access. *)
From Verif Require Export P_Signer M_Conc P_Conc.
From Coq Require Import Lia ZifyBool ZifyNat ZifyN.

Notation soloc := (solo cell_eq held).

(** reads only, and only cells in [Q] *)
Fixpoint only {R} (Q : cell -> Prop) (p : call R) : Prop :=
  match p with
  | Ret _ => True
  | Rd l k => Q l /\ forall v, only Q (k v)
  | Wr _ _ _ => False
  end.
Lemma only_solo {R} Q (p : call R) m : only Q p -> snd (soloc m p) = m.
Proof. induction p as [r|l k IH|l v k IH]; cbn; [reflexivity|intros [_ H]; apply IH, H|tauto]. Qed.
Lemma only_foot {R} (Q : cell -> Prop) (p : call R) : only Q p -> forall sl m (Rs : cell -> Prop) Ws, (forall l, Q l -> Rs l) -> foot cell_eq held sl m p Rs Ws.
Proof. induction p as [r|l k IH|l v k IH]; cbn; [auto| |tauto]. intros [Hl H] sl m Rs Ws S. split; [left; auto|]. apply IH; auto. Qed.
Lemma only_bind {A B} Q (p : call A) (f : A -> call B) : only Q p -> (forall a, only Q (f a)) -> only Q (bindp held p f).
Proof. induction p as [r|l k IH|l v k IH]; cbn; intros H G; [auto| |tauto]. destruct H; split; auto. Qed.
Lemma only_bindr {A B} Q (p : call (res A)) (f : A -> call (res B)) : only Q p -> (forall a, only Q (f a)) -> only Q (bindr held p f).
Proof. intros H G. apply only_bind; [assumption|]. intros [a|e|]; cbn; auto. Qed.

(** cells that signing only reads *)
Definition quiet (l : cell) : Prop := match l with IUnlock _ | SFlag _ => False | _ => True end.
(** cells that serialising reads *)
Definition plain (l : cell) : Prop := match l with SFlag _ => False | _ => True end.

Lemma only_sub {R} (Q Q' : cell -> Prop) (p : call R) : (forall l, Q l -> Q' l) -> only Q p -> only Q' p.
Proof. intros S. induction p as [r|l k IH|l v k IH]; cbn; [auto| |tauto]. intros [Hl H]; split; auto. Qed.
Lemma quiet_plain l : quiet l -> plain l. Proof. destruct l; cbn; auto. Qed.

Lemma only_prevouts ins : forall buf, only quiet (c_prevouts buf ins).
Proof. induction ins as [|[p|] r IH]; intros buf; cbn; auto. Qed.
Lemma only_sequences ins : forall buf, only quiet (c_sequences buf ins).
Proof. induction ins as [|[p|] r IH]; intros buf; cbn; auto. Qed.
Lemma only_output p : only quiet (c_output p).
Proof. destruct p as [p|]; cbn; auto. repeat split; auto. intros [s|]; cbn; auto. split; auto. intros [s2|]; cbn; auto. Qed.
Lemma only_outputs outs : forall buf, only quiet (c_outputs buf outs).
Proof. induction outs as [|p r IH]; intros buf; cbn [c_outputs]; [exact I|]. apply only_bindr; [apply only_output|auto]. Qed.
Lemma only_outputs_hash t n : only quiet (c_outputs_hash t n).
Proof.
  unfold c_outputs_hash. destruct (n =? -1)%Z; cbn [only]; (split; [exact I|]); intros outs.
  - apply only_bindr; [apply only_outputs|]. intros; exact I.
  - destruct (if (n <? 0)%Z then None else nth_error outs (Z.to_nat n)); [|exact I]. apply only_bindr; [apply only_output|intros; exact I].
Qed.
Lemma only_sighash t n f : only quiet (c_sighash t n f).
Proof.
  unfold c_sighash. cbn [only]. split; [exact I|]. intros ins. destruct (nth_error ins (N.to_nat n)) as [[p|]|]; [|exact I|exact I].
  cbn [only]. split; [exact I|]. intros txid1. destruct (equals txid1 []); [exact I|]. cbn [only]. split; [exact I|].
  intros [s1|]; [|exact I].
  apply only_bindr; [destruct (_ =? 0); cbn [only]; [split; [exact I|intros; apply only_prevouts]|exact I]|]. intros hp.
  apply only_bindr; [destruct (_ && _ && _); cbn [only]; [split; [exact I|intros; apply only_sequences]|exact I]|]. intros hs.
  apply only_bindr.
  { destruct (_ && _); [apply only_outputs_hash|]. destruct (N.land f 31 =? shSingle); [|exact I]. cbn [only]. split; [exact I|].
    intros outs. destruct (n <? _); [apply only_outputs_hash|exact I]. }
  intros ho. cbn [only]. do 4 (split; [exact I|intros ?]). split; [exact I|]. intros s3.
  destruct v2 as [s2|]; [|exact I]. destruct s3 as [s3|]; [|exact I]. cbn [only]. do 3 (split; [exact I|intros ?]). exact I.
Qed.
Lemma only_input p : only plain (c_input p).
Proof.
  destruct p as [p|]; cbn; auto. do 3 (split; [exact I|intros ?]). destruct v1 as [u|]; cbn; auto.
  split; [exact I|]. intros [u2|]; cbn; auto. split; [exact I|]. intros [u3|]; cbn; auto.
Qed.
Lemma only_inputs ins : forall h, only plain (c_inputs h ins).
Proof. induction ins as [|p r IH]; intros h; cbn [c_inputs]; [exact I|]. apply only_bindr; [apply only_input|auto]. Qed.
Lemma only_to_bytes t : only plain (c_to_bytes t).
Proof.
  unfold c_to_bytes. cbn [only]. do 3 (split; [exact I|intros ?]). apply only_bindr; [apply only_inputs|]. intros h.
  cbn [only]. do 2 (split; [exact I|intros ?]). apply only_bindr; [apply (only_sub quiet); [apply quiet_plain|apply only_outputs]|].
  intros h2. cbn. auto.
Qed.
Lemma only_total_loop outs : forall n, only quiet (c_total_loop n outs).
Proof. induction outs as [|[p|] r IH]; intros n; cbn; auto. Qed.
Lemma only_total t : only quiet (c_total t).
Proof. unfold c_total. cbn [only]. split; [exact I|]. intros; apply only_total_loop. Qed.
Lemma only_is_coinbase t : only quiet (c_is_coinbase t).
Proof.
  unfold c_is_coinbase. cbn [only]. split; [exact I|]. intros l0. destruct (negb _); [exact I|]. cbn [only]. split; [exact I|].
  intros l1. destruct (nth_error l1 0) as [[p|]|]; [|exact I|exact I]. cbn [only]. split; [exact I|]. intros txid. destruct (negb _); [exact I|].
  cbn [only]. split; [exact I|]. intros l2. destruct (nth_error l2 0) as [[p2|]|]; [|exact I|exact I]. cbn [only]. split; [exact I|]. intros ix.
  destruct (_ =? _); [exact I|]. cbn [only]. split; [exact I|]. intros l3. destruct (nth_error l3 0) as [[p3|]|]; [|exact I|exact I].
  cbn [only]. split; [exact I|]. intros; exact I.
Qed.

(** ** results *)
Lemma solo_prevouts m ins : forall buf, fst (soloc m (c_prevouts buf ins)) =
  (b <- prevout_buf buf (map (option_map (input_at m)) ins) ;; Ok (sha256d b)).
Proof. induction ins as [|[p|] r IH]; intros buf; cbn [c_prevouts solo map option_map prevout_buf bind fst]; [reflexivity| |reflexivity]. rewrite IH. reflexivity. Qed.
Lemma solo_sequences m ins : forall buf, fst (soloc m (c_sequences buf ins)) =
  (b <- sequence_buf buf (map (option_map (input_at m)) ins) ;; Ok (sha256d b)).
Proof. induction ins as [|[p|] r IH]; intros buf; cbn [c_sequences solo map option_map sequence_buf bind fst]; [reflexivity| |reflexivity]. rewrite IH. reflexivity. Qed.
Lemma solo_output m p : fst (soloc m (c_output p)) =
  (o <- deref (option_map (output_at m) p) ;; output_to_bytes o).
Proof.
  destruct p as [p|]; [|reflexivity]. cbn [c_output solo option_map deref or_panic bind].
  unfold output_to_bytes, output_at. cbn [locking satoshis]. destruct (m (OScript p)) as [s|] eqn:E; cbn; [|reflexivity].
  rewrite E. cbn. reflexivity.
Qed.
Lemma solo_outputs m outs : forall buf, fst (soloc m (c_outputs buf outs)) = helper_outputs buf (map (option_map (output_at m)) outs).
Proof.
  induction outs as [|p r IH]; intros buf; cbn [c_outputs solo map helper_outputs fst]; [reflexivity|].
  rewrite solo_bindr, solo_output, (only_solo _ _ m (only_output p)).
  destruct p as [p|]; cbn [option_map deref or_panic bind]; [|reflexivity].
  destruct (output_to_bytes (output_at m p)) as [b|e|]; cbn [bind]; [apply IH|reflexivity|reflexivity].
Qed.
Lemma outputs_buf_helper outs : forall buf, outputs_buf buf outs = helper_outputs buf outs.
Proof. reflexivity. Qed.
Lemma solo_outputs_hash m t n : fst (soloc m (c_outputs_hash t n)) = outputs_hash (tx_at m t) n.
Proof.
  unfold c_outputs_hash, outputs_hash. cbn [tx_at outputs]. destruct (n =? -1)%Z.
  - cbn [solo]. rewrite solo_bindr, solo_outputs, (only_solo _ _ m (only_outputs _ _)). rewrite <- outputs_buf_helper.
    now destruct (outputs_buf [] _).
  - cbn [solo]. destruct (n <? 0)%Z; [reflexivity|]. rewrite nth_error_map. destruct (nth_error (m (XOutputs t)) (Z.to_nat n)) as [p|]; [|reflexivity].
    cbn [option_map or_panic bind]. rewrite solo_bindr, solo_output, (only_solo _ _ m (only_output _)).
    destruct p as [p|]; [|reflexivity]. cbn [option_map deref or_panic bind].
    change (output_sighash_bytes (output_at m p)) with (output_to_bytes (output_at m p)).
    now destruct (output_to_bytes (output_at m p)).
Qed.

Lemma solo_sighash m t n f : fst (soloc m (c_sighash t n f)) = get_input_signature_hash (tx_at m t) n f.
Proof.
  unfold c_sighash, get_input_signature_hash, sighash_preimage. cbn [solo].
  change (inputs (tx_at m t)) with (map (option_map (input_at m)) (m (XInputs t))). rewrite nth_error_map. destruct (nth_error (m (XInputs t)) (N.to_nat n)) as [[p|]|]; cbn [option_map or_panic deref bind]; [|reflexivity|reflexivity].
  cbn [solo input_at prev_txid prev_script prev_index prev_sats sequence]. destruct (equals (m (ITxid p)) []); [reflexivity|].
  cbn [solo]. destruct (m (IPrev p)) as [ps|] eqn:Eps; [|reflexivity].
  set (A := if N.land f shAnyOneCanPay =? 0 then Rd (XInputs t) (fun ins => c_prevouts [] ins) else Ret (Ok zeros32)).
  assert (HA : fst (soloc m A) = (if N.land f shAnyOneCanPay =? 0 then prevout_hash (tx_at m t) else Ok zeros32)).
  { subst A. destruct (_ =? 0); [|reflexivity]. cbn [solo]. apply solo_prevouts. }
  assert (OA : only quiet A) by (subst A; destruct (_ =? 0); cbn [only]; [split; [exact I|intros; apply only_prevouts]|exact I]).
  rewrite solo_bindr, HA, (only_solo _ _ m OA).
  destruct (if N.land f shAnyOneCanPay =? 0 then prevout_hash (tx_at m t) else Ok zeros32) as [hp|e|] eqn:EA;
    [|reflexivity|reflexivity]. cbn [bind].
  match goal with |- context [bindr held (if ?b then Rd (XInputs t) (fun ins => c_sequences [] ins) else _)] => set (B := if b then Rd (XInputs t) (fun ins => c_sequences [] ins) else Ret (Ok zeros32)); set (bb := b) in * end.
  assert (HB : fst (soloc m B) = (if bb then sequence_hash (tx_at m t) else Ok zeros32)).
  { subst B. destruct bb; [|reflexivity]. cbn [solo]. apply solo_sequences. }
  assert (OB : only quiet B) by (subst B; destruct bb; cbn [only]; [split; [exact I|intros; apply only_sequences]|exact I]).
  rewrite solo_bindr, HB, (only_solo _ _ m OB).
  destruct (if bb then sequence_hash (tx_at m t) else Ok zeros32) as [hs|e|] eqn:EB;
    [|reflexivity|reflexivity]. cbn [bind].
  match goal with |- context [bindr held ?x] => set (C := x) end.
  set (cc := negb (N.land f 31 =? shSingle) && negb (N.land f 31 =? shNone)) in *.
  assert (HC : fst (soloc m C) = (if cc then outputs_hash (tx_at m t) (-1) else if (N.land f 31 =? shSingle) && (n <? wrap32 (nlen (outputs (tx_at m t)))) then outputs_hash (tx_at m t) (int32_of_u32 n) else Ok zeros32)).
  { subst C. destruct cc; [apply solo_outputs_hash|]. destruct (N.land f 31 =? shSingle); [|reflexivity]. cbn [solo andb tx_at outputs].
    unfold nlen. rewrite map_length. destruct (n <? _); [apply solo_outputs_hash|reflexivity]. }
  assert (OC : only quiet C).
  { clear HC. subst C. destruct cc; [apply only_outputs_hash|]. destruct (N.land f 31 =? shSingle); [|exact I]. cbn [only]. split; [exact I|].
    intros outs. destruct (n <? _); [apply only_outputs_hash|exact I]. }
  rewrite solo_bindr, HC, (only_solo _ _ m OC).
  match goal with |- context [match ?x with Ok _ => _ | Err _ => _ | Panic => _ end] => destruct x as [ho|e|] eqn:EC end;
    [|reflexivity|reflexivity]. cbn [bind solo].
  rewrite Eps. cbn [solo fst]. reflexivity.
Qed.

Lemma solo_input m p : fst (soloc m (c_input p)) = (i <- deref (option_map (input_at m) p) ;; Ok (input_to_bytes i false)).
Proof.
  destruct p as [p|]; [|reflexivity]. cbn [c_input solo option_map deref or_panic bind]. unfold input_to_bytes, input_at.
  cbn [unlocking prev_txid prev_index sequence]. destruct (m (IUnlock p)) as [u|] eqn:E; cbn [solo]; [|reflexivity].
  rewrite !E. cbn [solo]. rewrite !E. reflexivity.
Qed.
Lemma solo_inputs m ins : forall h i, fst (soloc m (c_inputs h ins)) = helper_inputs h i 0 None (map (option_map (input_at m)) ins).
Proof.
  induction ins as [|p r IH]; intros h i; cbn [c_inputs solo map helper_inputs fst]; [reflexivity|].
  rewrite solo_bindr, solo_input, (only_solo _ _ m (only_input p)).
  destruct p as [p|]; cbn [option_map deref or_panic bind]; [|reflexivity]. apply IH.
Qed.
Lemma solo_to_bytes m t : fst (soloc m (c_to_bytes t)) = tx_to_bytes (tx_at m t).
Proof.
  unfold c_to_bytes, tx_to_bytes, to_bytes_helper. cbn [solo tx_at inputs outputs version locktime].
  rewrite solo_bindr, (only_solo _ _ m (only_inputs _ _)). rewrite (solo_inputs m (m (XInputs t)) _ 0%Z).
  unfold nlen. rewrite !map_length.
  destruct (helper_inputs _ 0 0 None (map (option_map (input_at m)) (m (XInputs t)))) as [h|e|]; cbn [bind]; [|reflexivity|reflexivity].
  cbn [solo]. rewrite solo_bindr, (only_solo _ _ m (only_outputs _ _)), solo_outputs.
  destruct (helper_outputs _ (map (option_map (output_at m)) (m (XOutputs t)))) as [h2|e|]; reflexivity.
Qed.
Lemma solo_total m t : fst (soloc m (c_total t)) = total_output_satoshis (tx_at m t).
Proof.
  unfold c_total, total_output_satoshis. cbn [solo tx_at outputs]. generalize (m (XOutputs t)) as outs. generalize 0%N.
  intros n outs; revert n. induction outs as [|[p|] r IH]; intros n; cbn [c_total_loop solo map option_map total_loop deref or_panic bind]; [reflexivity| |reflexivity].
  apply IH.
Qed.
Lemma solo_is_coinbase m t : fst (soloc m (c_is_coinbase t)) = is_coinbase (tx_at m t).
Proof.
  unfold c_is_coinbase, is_coinbase. cbn [solo tx_at inputs]. destruct (m (XInputs t)) as [|p [|q l]] eqn:E; cbn [length Nat.eqb negb map]; [reflexivity| |reflexivity].
  cbn [solo]. rewrite E. cbn [nth_error]. destruct p as [p|]; [|reflexivity]. cbn [solo option_map deref or_panic bind input_at prev_txid prev_index sequence].
  destruct (equals (m (ITxid p)) zeros64); cbn [negb]; [|reflexivity]. cbn [solo]. rewrite E. cbn [nth_error solo].
  destruct (m (IIndex p) =? 4294967295); cbn [orb]; [reflexivity|]. cbn [solo]. rewrite E. cbn [nth_error solo fst].
  now destruct (m (ISeq p) =? 4294967295).
Qed.
