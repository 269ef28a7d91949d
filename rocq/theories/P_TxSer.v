(** Proofs about transaction serialisation (C25-C35). *)
From Verif Require Export P_TxParse.
From Coq Require Import ZifyBool ZifyNat ZifyN.

Lemma compact_min_of n : u64 n = true -> compact_min n (varint n).
Proof. apply varint_min. Qed.

Lemma nlen_u64 {A} (l : list A) : nlen l < 2 ^ 63 -> u64 (nlen l) = true.
Proof. unfold u64. lia. Qed.

(** ** Inputs and outputs *)

Lemma le_put_get_at k b : length b = k -> le_put k (le_get b) = b.
Proof. intros <-. apply le_put_get. Qed.

Lemma input_to_bytes_eq i : input_to_bytes i false =
  rev (hex_ignore (prev_txid i)) ++ le_put 4 (prev_index i) ++ varint (nlen (script_bytes (unlocking i)))
  ++ script_bytes (unlocking i) ++ le_put 4 (sequence i).
Proof.
  unfold input_to_bytes. rewrite reverse_bytes_rev. cbn [app].
  destruct (unlocking i) as [u|]; cbn [script_bytes]; rewrite <- !app_assoc; reflexivity.
Qed.

Lemma wire_input_bytes w i : wire_input compact_min w i -> w = input_to_bytes i false.
Proof.
  intros (id & ix & l & sq & -> & A & B & C & D & E & F & G). rewrite input_to_bytes_eq.
  apply hex_dec_ignore in E. rewrite E, rev_involutive. apply compact_min_varint in D. rewrite D, F, G.
  now rewrite !le_put_get_at.
Qed.

Lemma wf_input_wire i : wf_input i -> wire_input compact_min (input_to_bytes i false) i.
Proof.
  intros ((id & L & E) & I & S & U). rewrite input_to_bytes_eq.
  exists (rev id), (le_put 4 (prev_index i)), (varint (nlen (script_bytes (unlocking i)))), (le_put 4 (sequence i)).
  rewrite E, hex_ignore_encode, hex_dec_encode, rev_length, !le_put_length, rev_involutive.
  rewrite !le_get_put_small by (change (256 ^ N.of_nat 4) with (2 ^ 32); assumption).
  split; [reflexivity|]. repeat split; try assumption; apply compact_min_of; now apply nlen_u64.
Qed.

Lemma output_to_bytes_eq o s : locking o = Some s -> output_to_bytes o = Ok (le_put 8 (satoshis o) ++ varint (nlen s) ++ s).
Proof. intros E. unfold output_to_bytes. rewrite E. cbn [deref or_panic bind app]. now rewrite <- app_assoc. Qed.

Lemma wire_output_bytes w o : wire_output compact_min w o -> output_to_bytes o = Ok w.
Proof.
  intros (v & l & s & -> & A & B & C & D). rewrite (output_to_bytes_eq _ _ D). apply compact_min_varint in B.
  now rewrite B, C, le_put_get_at.
Qed.

Lemma wf_output_wire o : wf_output o -> exists w, output_to_bytes o = Ok w /\ wire_output compact_min w o.
Proof.
  intros (S & s & E & L). rewrite (output_to_bytes_eq _ _ E). eexists. split; [reflexivity|].
  exists (le_put 8 (satoshis o)), (varint (nlen s)), s. rewrite le_put_length.
  rewrite le_get_put_small by (change (256 ^ N.of_nat 8) with (2 ^ 64); assumption).
  repeat split; try assumption; apply compact_min_of; now apply nlen_u64.
Qed.

Lemma sighash_bytes_eq o : output_sighash_bytes o = output_to_bytes o.
Proof. reflexivity. Qed.

(** shortest wire forms exist as soon as some wire form does *)
Lemma wire_input_min w i : wire_input compact w i -> wire_input compact_min (input_to_bytes i false) i.
Proof.
  intros (id & ix & l & sq & -> & A & B & C & D & E & F & G). rewrite input_to_bytes_eq.
  exists id, ix, (varint (nlen (script_bytes (unlocking i)))), sq.
  rewrite (hex_dec_ignore _ _ E), rev_involutive, F, G. rewrite !le_put_get_at by assumption.
  repeat split; try assumption; apply compact_min_of; eapply compact_bound; eassumption.
Qed.

Lemma wire_output_min w o : wire_output compact w o -> exists w', wire_output compact_min w' o.
Proof.
  intros (v & l & s & -> & A & B & C & D). exists (v ++ varint (nlen s) ++ s), v, (varint (nlen s)), s.
  repeat split; try assumption; apply compact_min_of; eapply compact_bound; eassumption.
Qed.

Lemma wire_input_weaken w i : wire_input compact_min w i -> wire_input compact w i.
Proof.
  intros (id & ix & l & sq & -> & A & B & C & [D _] & R). exists id, ix, l, sq. auto 10.
Qed.
Lemma wire_output_weaken w o : wire_output compact_min w o -> wire_output compact w o.
Proof. intros (v & l & s & -> & A & [B _] & R). exists v, l, s. auto 10. Qed.

(** ** Transactions *)

Lemma helper_inputs_none ois is : ois = map Some is -> forall h i index,
  helper_inputs h i index None ois = Ok (h ++ concat (map (fun i => input_to_bytes i false) is)).
Proof.
  intros ->. induction is as [|x is IH]; intros h i index; cbn [map helper_inputs concat].
  - now rewrite app_nil_r.
  - cbn [deref or_panic bind]. rewrite IH. now rewrite <- app_assoc.
Qed.

Lemma helper_outputs_eq oos ws : Forall2 (fun w oo => exists o, oo = Some o /\ output_to_bytes o = Ok w) ws oos ->
  forall h, helper_outputs h oos = Ok (h ++ concat ws).
Proof.
  induction 1 as [|w oo ws oos (o & -> & E) _ IH]; intros h; cbn [helper_outputs concat].
  - now rewrite app_nil_r.
  - cbn [deref or_panic bind]. rewrite E. cbn [bind]. rewrite IH. now rewrite <- app_assoc.
Qed.

Lemma Forall2_impl {A B} (P Q : A -> B -> Prop) l l' :
  (forall a b, P a b -> Q a b) -> Forall2 P l l' -> Forall2 Q l l'.
Proof. intros H. induction 1; constructor; auto. Qed.

Lemma wire_tx_bytes w t : wire_tx compact_min w t -> tx_to_bytes t = Ok w.
Proof.
  intros (ver & nin & wi & nout & wo & lt & -> & Lv & Ll & EV & EL & Ci & Co & FI & FO).
  apply Forall2_unsome in FI as (is & Ei & FI).
  unfold tx_to_bytes, to_bytes_helper. rewrite (helper_inputs_none _ is Ei). cbn [bind].
  rewrite (helper_outputs_eq _ wo) by (eapply Forall2_impl; [|exact FO]; intros a b (o & -> & H);
    exists o; split; [reflexivity|]; now apply wire_output_bytes).
  cbn [bind]. apply compact_min_varint in Ci, Co. rewrite EV, EL, !le_put_get_at by assumption.
  assert (map (fun i => input_to_bytes i false) is = wi) as ->.
  { clear -FI. induction FI as [|w i wi is H _ IH]; [reflexivity|]. cbn [map].
    apply wire_input_bytes in H. now rewrite <- H, IH. }
  rewrite Ci, Co. rewrite <- !app_assoc. reflexivity.
Qed.

Lemma wf_wire t : wf_tx t -> exists w, wire_tx compact_min w t.
Proof.
  intros (V & L & NI & NO & FI & FO).
  assert (exists wi, Forall2 (fun w oi => exists i, oi = Some i /\ wire_input compact_min w i) wi (inputs t)) as (wi & HI).
  { induction FI as [|oi ois (i & -> & H) _ IH]; [exists []; constructor|].
    destruct IH as (wi & IH); [revert NI; unfold nlen; cbn [length]; lia|].
    exists (input_to_bytes i false :: wi). constructor; [|assumption]. exists i. split; [reflexivity|]. now apply wf_input_wire. }
  assert (exists wo, Forall2 (fun w oo => exists o, oo = Some o /\ wire_output compact_min w o) wo (outputs t)) as (wo & HO).
  { induction FO as [|oi ois (i & -> & H) _ IH]; [exists []; constructor|].
    destruct IH as (wo & IH); [revert NO; unfold nlen; cbn [length]; lia|].
    apply wf_output_wire in H as (w & _ & H). exists (w :: wo). constructor; [|assumption]. eauto. }
  eexists. exists (le_put 4 (version t)), (varint (nlen (inputs t))), wi, (varint (nlen (outputs t))), wo, (le_put 4 (locktime t)).
  rewrite !le_put_length, !le_get_put_small by (change (256 ^ N.of_nat 4) with (2 ^ 32); assumption).
  split; [reflexivity|]. repeat split; try assumption; apply compact_min_of; now apply nlen_u64.
Qed.

Lemma wire_tx_min w t : wire_tx compact w t -> exists w', wire_tx compact_min w' t.
Proof.
  intros (ver & nin & wi & nout & wo & lt & -> & Lv & Ll & EV & EL & Ci & Co & FI & FO).
  assert (exists wi, Forall2 (fun w oi => exists i, oi = Some i /\ wire_input compact_min w i) wi (inputs t)) as (wi' & HI).
  { clear Ci. induction FI as [|w oi ws ois (i & -> & H) _ (wi' & IH)]; [exists []; constructor|].
    exists (input_to_bytes i false :: wi'). constructor; [|assumption]. exists i. split; [reflexivity|]. eapply wire_input_min; eassumption. }
  assert (exists wo, Forall2 (fun w oo => exists o, oo = Some o /\ wire_output compact_min w o) wo (outputs t)) as (wo' & HO).
  { clear Co. induction FO as [|w oi ws ois (i & -> & H) _ (wo' & IH)]; [exists []; constructor|].
    apply wire_output_min in H as (w' & H). exists (w' :: wo'). constructor; [|assumption]. eauto. }
  eexists. exists ver, (varint (nlen (inputs t))), wi', (varint (nlen (outputs t))), wo', lt.
  split; [reflexivity|]. repeat split; try assumption; apply compact_min_of; eapply compact_bound; eassumption.
Qed.

Lemma wire_tx_weaken w t : wire_tx compact_min w t -> wire_tx compact w t.
Proof.
  intros (ver & nin & wi & nout & wo & lt & -> & Lv & Ll & EV & EL & [Ci _] & [Co _] & FI & FO).
  exists ver, nin, wi, nout, wo, lt. split; [reflexivity|]. repeat split; try assumption.
  - eapply Forall2_impl; [|exact FI]. intros a b (i & -> & H). exists i. split; [reflexivity|]. now apply wire_input_weaken.
  - eapply Forall2_impl; [|exact FO]. intros a b (i & -> & H). exists i. split; [reflexivity|]. now apply wire_output_weaken.
Qed.

(** ** The wire form determines everything but the fields not on the wire *)

Lemma wire_bare_input cs w i : wire_input cs w i -> wire_input cs w (bare_input i).
Proof. intros H. exact H. Qed.

Lemma wire_bare cs w t : wire_tx cs w t -> wire_tx cs w (bare_tx t).
Proof.
  intros (ver & nin & wi & nout & wo & lt & -> & Lv & Ll & EV & EL & Ci & Co & FI & FO).
  exists ver, nin, wi, nout, wo, lt. cbn [bare_tx version inputs outputs locktime]. unfold nlen in *. rewrite map_length.
  split; [reflexivity|]. repeat split; try assumption. clear -FI.
  induction FI as [|w oi ws ois (i & -> & H) _ IH]; constructor; [|assumption]. cbn [option_map]. eexists. split; [reflexivity|exact H].
Qed.

Lemma wf_fresh_bare t : wf_tx t -> fresh_tx (bare_tx t).
Proof.
  intros (_ & _ & _ & _ & FI & _). unfold fresh_tx. cbn [bare_tx inputs]. induction FI as [|oi ois (i & -> & H) _ IH]; constructor; [|assumption].
  cbn [option_map]. eexists. split; [reflexivity|]. destruct H as ((id & _ & E) & _).
  unfold fresh_input, bare_input. cbn. repeat split; [eauto|discriminate].
Qed.

Lemma tx_round t b sp : wf_tx t -> tx_to_bytes t = Ok b -> (scap (Sl b sp) < 2 ^ 62)%Z ->
  tx_from_slice (Sl b sp) = Ok (bare_tx t).
Proof.
  intros W E Cap. destruct (wf_wire t W) as (w & H). pose proof (wire_tx_bytes _ _ H) as E'. rewrite E in E'. injection E' as <-.
  apply tx_from_ok; [assumption|]. split; [|now apply wf_fresh_bare]. apply wire_bare, wire_tx_weaken, H.
Qed.

Lemma wire_tx_parsed v t w : wire_tx compact v t -> wire_tx compact_min w t -> (tx_to_bytes t = Ok v <-> wire_tx compact_min v t).
Proof.
  intros H M. split; [|apply wire_tx_bytes]. intros E. apply wire_tx_bytes in M as M'. rewrite E in M'. injection M' as ->. assumption.
Qed.

(** same wire form, same content *)
Lemma wire_tx_inj w t1 t2 : (Z.of_nat (length w) < 2 ^ 62)%Z ->
  wf_tx t1 -> wf_tx t2 -> wire_tx compact w t1 -> wire_tx compact w t2 -> bare_tx t1 = bare_tx t2.
Proof.
  intros Cap W1 W2 H1 H2.
  assert (scap (Sl w []) < 2 ^ 62)%Z as Cap' by (unfold scap; cbn [vis spare length]; lia).
  assert (tx_from_slice (Sl w []) = Ok (bare_tx t1)) as E1
    by (apply tx_from_ok; [assumption|]; split; [now apply wire_bare|now apply wf_fresh_bare]).
  assert (tx_from_slice (Sl w []) = Ok (bare_tx t2)) as E2
    by (apply tx_from_ok; [assumption|]; split; [now apply wire_bare|now apply wf_fresh_bare]).
  congruence.
Qed.

(** ** Trailing bytes *)

Lemma parse_outputs_extra ver ins pre nout wo os lt x sp m : (scap (Sl (pre ++ nout ++ concat wo ++ lt ++ x) sp) < 2 ^ 62)%Z ->
  compact m nout -> N.of_nat (length os) = m -> Forall2 (wire_output compact) wo os -> length lt = 4%nat -> x <> [] ->
  parse_outputs ver ins (length pre) (nout ++ concat wo ++ lt ++ x) sp (Sl (pre ++ nout ++ concat wo ++ lt ++ x) sp) = Err ELockTime.
Proof.
  intros Cap C M F Ll X. unfold parse_outputs. rewrite (decode_varint_compact _ _ _ _ C).
  rewrite <- Nat2Z.inj_add, <- app_length. rewrite (app_assoc pre nout) in *.
  assert (nat_loop (item_step output output_from_bytes (Sl ((pre ++ nout) ++ concat wo ++ lt ++ x) sp)) (N.to_nat m)
    (Z.of_nat (length (pre ++ nout)), []) = Ok (Z.of_nat (length (pre ++ nout) + length (concat wo)), os)) as ->.
  { apply (items_ok output output_from_bytes (wire_output compact) output_from_ok); [assumption|].
    exists wo, os, (lt ++ x). repeat split; try assumption; lia. }
  cbn [bind]. rewrite sl_from_vis by (unfold slen; cbn [vis]; rewrite !app_length; lia).
  cbn [or_panic bind vis spare]. rewrite Nat2Z.id. rewrite (app_assoc (pre ++ nout)).
  rewrite skipn_exact by (rewrite !app_length; lia). unfold slen. cbn [vis]. rewrite app_length, Ll.
  destruct x as [|c x]; [congruence|]. cbn [length].
  destruct (Z.of_nat (4 + S (length x)) =? 4)%Z eqn:Q; [lia|reflexivity].
Qed.

Lemma tx_extra v t x sp : wire_tx compact v t -> x <> [] -> (scap (Sl (v ++ x) sp) < 2 ^ 62)%Z ->
  tx_from_slice (Sl (v ++ x) sp) = Err ELockTime.
Proof.
  intros (ver & nin & wi & nout & wo & lt & -> & Lv & Ll & EV & EL & Ci & Co & FI & FO) X Cap.
  apply Forall2_unsome in FI as (is & Ei & FI). apply Forall2_unsome in FO as (os & Eo & FO).
  assert (exists is', Forall2 fresh_wire_input wi is') as (is' & FI').
  { apply Forall_fresh. clear -FI. induction FI; constructor; eauto. now exists y. }
  rewrite <- !app_assoc in *. rewrite tx_from_eq by assumption.
  pose proof (compact_len _ _ Ci). pose proof (compact_len _ _ Co).
  replace (Z.of_nat (length (nin ++ concat wi ++ nout ++ concat wo ++ lt ++ x)) <? 6)%Z with false by (rewrite !app_length; lia).
  rewrite (decode_varint_compact _ _ _ _ Ci).
  replace (4 + Z.of_nat (length nin))%Z with (Z.of_nat (length (ver ++ nin))) by (rewrite app_length; lia).
  rewrite (app_assoc ver nin) in *.
  assert (nat_loop (item_step input input_from_bytes (Sl ((ver ++ nin) ++ concat wi ++ nout ++ concat wo ++ lt ++ x) sp))
     (N.to_nat (nlen (inputs t))) (Z.of_nat (length (ver ++ nin)), [])
     = Ok (Z.of_nat (length (ver ++ nin) + length (concat wi)), is')) as ->.
  { apply (items_ok input input_from_bytes fresh_wire_input input_from_ok); [assumption|].
    exists wi, is', (nout ++ concat wo ++ lt ++ x). repeat split; try assumption.
    apply Forall2_length in FI, FI'. unfold nlen. rewrite Ei, map_length. unfold bytes in *. lia. }
  cbn [bind]. rewrite sl_from_vis by (unfold slen; cbn [vis]; rewrite !app_length; lia).
  cbn [vis spare]. rewrite Nat2Z.id. rewrite (app_assoc (ver ++ nin)) in *.
  rewrite skipn_exact by (rewrite !app_length; lia).
  replace (length (ver ++ nin) + length (concat wi))%nat with (length ((ver ++ nin) ++ concat wi)) by (rewrite !app_length; lia).
  eapply parse_outputs_extra; try eassumption. unfold nlen. now rewrite Eo, map_length.
Qed.
