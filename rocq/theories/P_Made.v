(** Proofs for C73. *)
From Verif Require Export S_Made P_TxMisc P_TxParse P_TxSer P_Signer P_Flow.
From Coq Require Import ZifyBool ZifyNat ZifyN.

(** what all of them have in common *)
Definition typed_input (i : input) : Prop := prev_index i < 2 ^ 32 /\ sequence i < 2 ^ 32.
Definition typed_output (o : output) : Prop := satoshis o < 2 ^ 64 /\ locking o <> None.
Definition typed (t : tx) : Prop :=
  version t < 2 ^ 32 /\ locktime t < 2 ^ 32 /\
  Forall (fun oi => exists i, oi = Some i /\ typed_input i) (inputs t) /\
  Forall (fun oo => exists o, oo = Some o /\ typed_output o) (outputs t).

Lemma le_get_32 b : length b = 4%nat -> le_get b < 2 ^ 32.
Proof. intros L. pose proof (le_get_bound b) as B. rewrite L in B. exact B. Qed.
Lemma le_get_64 b : length b = 8%nat -> le_get b < 2 ^ 64.
Proof. intros L. pose proof (le_get_bound b) as B. rewrite L in B. exact B. Qed.

Lemma wire_typed_input cs w i : wire_input cs w i -> typed_input i.
Proof. intros (id & ix & l & sq & _ & _ & A & B & _ & _ & E1 & E2). unfold typed_input. rewrite E1, E2. split; now apply le_get_32. Qed.

Lemma wire_typed_output cs w o : wire_output cs w o -> typed_output o.
Proof. intros (v & l & s & _ & A & _ & E & L). split; [rewrite E; now apply le_get_64|]. rewrite L. discriminate. Qed.

Lemma parsed_typed v sp t : (scap (Sl v sp) < 2 ^ 62)%Z -> tx_from_slice (Sl v sp) = Ok t -> typed t.
Proof.
  intros Cap H. apply tx_from_ok in H as [(ver & nin & wi & nout & wo & lt & _ & A & B & V & L & _ & _ & FI & FO) _]; [|assumption].
  split; [rewrite V; now apply le_get_32|]. split; [rewrite L; now apply le_get_32|]. split.
  - induction FI as [|w oi wi l (i & -> & W) _ IH]; constructor; [|assumption]. apply wire_typed_input in W. eauto.
  - induction FO as [|w oi wo' l (i & -> & W) _ IH]; constructor; [|assumption]. apply wire_typed_output in W. eauto.
Qed.

Lemma text_typed slack s t : (Z.of_nat (length s + slack) < 2 ^ 62)%Z -> tx_from_string slack s = Ok t -> typed t.
Proof.
  intros L. unfold tx_from_string, hex_decode_slice. destruct (hex_decode s) as [b [e|]] eqn:E; [discriminate|].
  apply parsed_typed. assert (hex_dec s = Some b) as D by (unfold hex_dec; now rewrite E). apply hex_dec_length in D.
  unfold scap. cbn [vis spare]. rewrite app_length, skipn_length, repeat_length. lia.
Qed.

Lemma made_input_typed i : made_input i -> typed_input i.
Proof.
  intros [|v sp j n Cap H|txid vout sats script nseq j V S Q H].
  - split; vm_compute; reflexivity.
  - apply input_from_ok in H as (w & r & _ & W & _); [|assumption]. destruct W as [W _]. now apply wire_typed_input in W.
  - unfold input_from_utxo in H. destruct (script_from_hex script); cbn [bind] in H; try discriminate. injection H as <-. now split.
Qed.

Lemma made_output_typed o : made_output o -> typed_output o.
Proof.
  intros [v sp j n Cap H|pkh sats j S H|addr sats j S H|secret pkh sats j S H|d j H|ds j H].
  - apply output_from_ok in H as (w & r & _ & W & _); [|assumption]. now apply wire_typed_output in W.
  - unfold output_p2pkh_from_pkh in H. destruct (p2pkh_from_pkh_str pkh); cbn [bind] in H; try discriminate. injection H as <-. split; [assumption|discriminate].
  - unfold output_p2pkh_from_address in H. destruct (p2pkh_from_address addr); cbn [bind] in H; try discriminate. injection H as <-. split; [assumption|discriminate].
  - revert H. unfold output_hash_puzzle. destruct (of_hex pkh) as [h|e|]; cbn [bind]; try discriminate.
    cbv zeta. destruct (check _) as [s1|e|]; cbn [bind]; try discriminate. destruct (check _) as [s2|e|]; cbn [bind]; try discriminate.
    intros [= <-]; split; [assumption|discriminate].
  - revert H. unfold output_op_return, create_op_return_output.
    cbv zeta. destruct (check _) as [s1|e|]; cbn [bind]; try discriminate. intros [= <-]; split; [reflexivity|discriminate].
  - revert H. unfold output_op_return_parts, create_op_return_output.
    cbv zeta. destruct (check _) as [s1|e|]; cbn [bind]; try discriminate. intros [= <-]; split; [reflexivity|discriminate].
Qed.

Lemma do_typed t c : typed t -> plain_call c -> typed (fst (tx_do t c)).
Proof.
  intros (V & L & FI & FO) P. assert (typed t) as T by (repeat split; assumption). destruct c as [txid vout script sats|oi|oo|addr sats]; cbn [tx_do].
  - unfold tx_from_utxo. destruct (script_from_hex script); cbn [fst]; [|exact T..].
    repeat split; try assumption. cbn [tx_add_input inputs]. apply Forall_app. split; [assumption|]. constructor; [|constructor].
    eexists. split; [reflexivity|]. destruct P. split; [assumption|]. cbn [sequence]. reflexivity.
  - destruct P as (i & -> & H). repeat split; try assumption. cbn [fst tx_add_input inputs]. apply Forall_app. split; [assumption|].
    constructor; [|constructor]. apply made_input_typed in H. eauto.
  - destruct P as (o & -> & H). repeat split; try assumption. cbn [fst tx_add_output outputs]. apply Forall_app. split; [assumption|].
    constructor; [|constructor]. apply made_output_typed in H. eauto.
  - unfold tx_pay_to. destruct (output_p2pkh_from_address addr sats) as [o|e|] eqn:E; cbn [fst]; [|exact T..].
    repeat split; try assumption. cbn [tx_add_output outputs]. apply Forall_app. split; [assumption|].
    constructor; [|constructor]. exists o. split; [reflexivity|]. apply made_output_typed. eapply mo_address; eassumption.
Qed.

Lemma Forall_set_nth {A} (P : A -> Prop) l : forall n x, P x -> Forall P l -> Forall P (set_nth n x l).
Proof. induction l as [|y l IH]; intros [|n] x Hx H; cbn; try assumption; inversion_clear H; constructor; auto. Qed.

Lemma apply_typed t n u t' : typed t -> apply_unlocking_script t n u = Ok t' -> typed t'.
Proof.
  intros (V & L & FI & FO). unfold apply_unlocking_script. destruct (nth_error (inputs t) (N.to_nat n)) as [[i|]|] eqn:E; cbn [or_panic bind]; try discriminate.
  intros [= <-]. repeat split; try assumption. cbn [inputs]. apply Forall_set_nth; [|assumption].
  apply nth_error_In in E. rewrite Forall_forall in FI. apply FI in E as (j & [= <-] & H). eexists. split; [reflexivity|exact H].
Qed.

Lemma internal_typed s n t t' : typed t -> internal_sign s n t = Ok t' -> typed t'.
Proof.
  intros T. unfold internal_sign. cbv zeta. destruct (get_input_signature_hash _ _ _) as [h|e|]; cbn [bind]; try discriminate.
  destruct (key_sign _ _) as [sg|e|]; cbn [bind]; try discriminate. destruct (p2pkh_unlocking_script _ _ _) as [us e]. now apply apply_typed.
Qed.

Lemma auto_typed s n : forall i t t', typed t -> sign_auto_loop s i n t = Ok t' -> typed t'.
Proof.
  induction n as [|n IH]; intros i t t' T; cbn [sign_auto_loop]; [now intros [= <-]|].
  destruct (sign_auto_step s i t) as [t1|e|] eqn:E; cbn [bind]; try discriminate. apply IH. revert E. unfold sign_auto_step.
  destruct (nth_error (inputs t) (N.to_nat i)) as [[j|]|]; cbn [or_panic bind deref]; try discriminate.
  destruct (match get_public_key_hash (prev_script j) with Ok h => Ok h | Err _ => Ok [] | Panic => Panic end) as [h|e|]; cbn [bind]; try discriminate.
  cbv zeta. destruct (equals _ _); [|now intros [= <-]]. destruct (internal_sign s (wrap32 i) t) as [t2|e|] eqn:E; intros [= <-]; [|assumption].
  now apply internal_typed in E.
Qed.

Lemma sign_typed t c t' : typed t -> sign_do t c = Ok t' -> typed t'.
Proof.
  intros T. destruct c as [s n|s]; cbn [sign_do].
  - unfold tx_sign. destruct (internal_sign s n t) as [t1|e|] eqn:E; intros [= <-]; [|assumption]. now apply internal_typed in E.
  - unfold tx_sign_auto. destruct (internal_sign_auto s t) as [t1|e|] eqn:E; intros [= <-]; [|assumption]. now apply auto_typed in E.
Qed.

Lemma made_typed t : made t -> typed t.
Proof.
  induction 1 as [|v sp t Cap H|slack s t L H|t v l _ (V & L & FI & FO) ? ?|t c _ IH P|t n u t' _ IH H|t c t' _ IH H].
  - split; [vm_compute; reflexivity|]. split; [vm_compute; reflexivity|]. split; constructor.
  - eapply parsed_typed; eassumption.
  - eapply text_typed; eassumption.
  - repeat split; assumption.
  - now apply do_typed.
  - eapply apply_typed; eassumption.
  - eapply sign_typed; eassumption.
Qed.

(** ** Serialising *)

Definition out_wire (o : output) : bytes := le_put 8 (satoshis o) ++ varint (nlen (script_bytes (locking o))) ++ script_bytes (locking o).

Lemma typed_bytes t : typed t -> exists is os, inputs t = map Some is /\ outputs t = map Some os /\
  Forall typed_input is /\ Forall typed_output os /\
  tx_to_bytes t = Ok (le_put 4 (version t) ++ varint (nlen is) ++ concat (map (fun i => input_to_bytes i false) is) ++
    varint (nlen os) ++ concat (map out_wire os) ++ le_put 4 (locktime t)).
Proof.
  intros (_ & _ & FI & FO).
  assert (exists is, inputs t = map Some is /\ Forall typed_input is) as (is & Ei & Ti).
  { induction FI as [|oi l (i & -> & H) _ (is & -> & T)]; [exists []; now split|]. exists (i :: is). split; [reflexivity|]. now constructor. }
  assert (exists os, outputs t = map Some os /\ Forall typed_output os) as (os & Eo & To).
  { clear Ei. induction FO as [|oi l (i & -> & H) _ (is' & -> & T)]; [exists []; now split|]. exists (i :: is'). split; [reflexivity|]. now constructor. }
  exists is, os. split; [assumption|]. split; [assumption|]. split; [assumption|]. split; [assumption|].
  unfold tx_to_bytes, to_bytes_helper. rewrite (helper_inputs_none _ is Ei). cbn [bind].
  rewrite (helper_outputs_eq _ (map out_wire os)).
  - cbn [bind]. rewrite Ei, Eo. unfold nlen. rewrite !map_length. cbn [app]. rewrite <- !app_assoc. reflexivity.
  - rewrite Eo. clear -To. induction To as [|o os [_ H] _ IH]; constructor; [|assumption]. exists o. split; [reflexivity|].
    destruct (locking o) as [s|] eqn:E; [|contradiction]. rewrite (output_to_bytes_eq _ _ E). unfold out_wire. rewrite E. reflexivity.
Qed.

Lemma concat_part {A B} (f : A -> list B) l x : In x l -> (length (f x) <= length (concat (map f l)))%nat.
Proof. induction l as [|y l IH]; [easy|]. intros [-> |H]; cbn [map concat]; rewrite app_length; [lia|]. apply IH in H. lia. Qed.

Lemma concat_count {A B} (f : A -> list B) l : (forall x, In x l -> (1 <= length (f x))%nat) -> (length l <= length (concat (map f l)))%nat.
Proof.
  induction l as [|y l IH]; intros H; [cbn; lia|]. cbn [map concat length]. rewrite app_length.
  pose proof (H y (or_introl eq_refl)). assert (forall x, In x l -> (1 <= length (f x))%nat) as H' by (intros; apply H; now right). apply IH in H'. lia.
Qed.

Lemma typed_wf t b : typed t -> tx_to_bytes t = Ok b -> (Z.of_nat (length b) < 2 ^ 62)%Z ->
  (forall i, In (Some i) (inputs t) -> good_ref i) -> wf_tx t.
Proof.
  intros T E L G. destruct (typed_bytes t T) as (is & os & Ei & Eo & Ti & To & E'). rewrite E in E'. assert (forall (a b : bytes), Ok a = Ok b -> a = b) as inj by (intros a c Q; now injection Q). apply inj in E'. rewrite E' in L.
  rewrite !app_length in L. rewrite !le_put_length in L. destruct T as (V & K & _ & _).
  assert (forall i, In i is -> (1 <= length (input_to_bytes i false))%nat) as I1.
  { intros i _. rewrite input_to_bytes_eq, !app_length, !le_put_length. lia. }
  assert (forall o, In o os -> (1 <= length (out_wire o))%nat) as O1.
  { intros i _. unfold out_wire. rewrite !app_length, !le_put_length. lia. }
  apply concat_count in I1, O1. unfold bytes in L, I1, O1.
  split; [assumption|]. split; [assumption|].
  split; [rewrite Ei; unfold nlen; rewrite map_length; lia|]. split; [rewrite Eo; unfold nlen; rewrite map_length; lia|]. split.
  - rewrite Ei in *. apply Forall_forall. intros oi H. apply in_map_iff in H as (i & <- & H). exists i. split; [reflexivity|].
    pose proof (G i (in_map Some _ _ H)) as R. rewrite Forall_forall in Ti. destruct (Ti i H) as [A B]. repeat split; try assumption.
    pose proof (concat_part (fun i => input_to_bytes i false) _ _ H) as Q. cbv beta in Q. rewrite input_to_bytes_eq, !app_length, !le_put_length in Q. unfold nlen; unfold bytes in *; lia.
  - rewrite Eo. apply Forall_forall. intros oi H. apply in_map_iff in H as (o & <- & H). exists o. split; [reflexivity|].
    rewrite Forall_forall in To. destruct (To o H) as [A B]. split; [assumption|]. destruct (locking o) as [s|] eqn:S; [|contradiction].
    exists s. split; [reflexivity|].
    pose proof (concat_part out_wire _ _ H) as Q. unfold out_wire at 1 in Q. rewrite S, !app_length, !le_put_length in Q. cbn [script_bytes] in Q. unfold nlen; unfold bytes in *; lia.
Qed.

Lemma round_iff_typed t b sp : typed t -> tx_to_bytes t = Ok b -> (scap (Sl b sp) < 2 ^ 62)%Z ->
  (tx_from_slice (Sl b sp) = Ok (bare_tx t) <-> forall i, In (Some i) (inputs t) -> good_ref i).
Proof.
  intros M E Cap. split.
  - intros P i H. apply tx_from_ok in P as [W F]; [|assumption].
    destruct W as (ver & nin & wi & nout & wo & lt & _ & _ & _ & _ & _ & _ & _ & FI & _). unfold fresh_tx in F.
    cbn [bare_tx inputs] in FI, F. apply (in_map (option_map bare_input)) in H. cbn [option_map] in H.
    rewrite Forall_forall in F. destruct (F _ H) as (j & [= <-] & (x & X) & _).
    assert (exists w, wire_input compact w (bare_input i)) as (w & W).
    { clear -FI H. induction FI as [|w oi wi l (j & -> & W) _ IH]; [easy|]. destruct H as [H|H]; [|now apply IH]. injection H as <-. now exists w. }
    destruct W as (id & ix & l & sq & _ & Li & _ & _ & _ & D & _). rewrite X, hex_dec_encode in D. injection D as ->.
    exists (rev id). rewrite rev_length. split; [assumption|]. exact X.
  - intros G. apply tx_round; try assumption. eapply typed_wf; try eassumption. unfold scap in Cap. cbn [vis spare] in Cap. lia.
Qed.

Lemma round_iff t b sp : made t -> tx_to_bytes t = Ok b -> (scap (Sl b sp) < 2 ^ 62)%Z ->
  (tx_from_slice (Sl b sp) = Ok (bare_tx t) <-> forall i, In (Some i) (inputs t) -> good_ref i).
Proof. intros M. now apply round_iff_typed, made_typed. Qed.

Lemma lower_bytes i : hex_ref i -> input_to_bytes (lower_ref i) false = input_to_bytes i false.
Proof.
  intros (id & L & E). rewrite !input_to_bytes_eq. cbn [lower_ref prev_txid prev_index unlocking sequence].
  rewrite E, hex_ignore_encode, (hex_dec_ignore _ _ E). reflexivity.
Qed.

Lemma lower_tx_bytes t : typed t -> (forall i, In (Some i) (inputs t) -> hex_ref i) -> typed (lower_refs t) /\ tx_to_bytes (lower_refs t) = tx_to_bytes t.
Proof.
  intros T G. assert (typed (lower_refs t)) as T'.
  { destruct T as (V & L & FI & FO). repeat split; try assumption. cbn [lower_refs inputs]. clear -FI.
    induction FI as [|oi l (i & -> & H) _ IH]; constructor; [|assumption]. eexists. split; [reflexivity|exact H]. }
  split; [assumption|]. destruct (typed_bytes t T) as (is & os & Ei & Eo & _ & _ & ->).
  destruct (typed_bytes _ T') as (is' & os' & Ei' & Eo' & _ & _ & ->). cbn [lower_refs inputs outputs version locktime] in *.
  rewrite Eo in Eo'. assert (os' = os) as ->.
  { clear -Eo'. revert os' Eo'. induction os as [|o os IH]; intros [|o' os'] H; try discriminate; [reflexivity|]. injection H as -> H. f_equal. now apply IH. }
  rewrite Ei in Ei', G. assert (is' = map lower_ref is) as ->.
  { clear -Ei'. revert is' Ei'. induction is as [|o os IH]; intros [|o' os'] H; try discriminate; [reflexivity|]. cbn in H. injection H as <- H. cbn. f_equal. now apply IH. }
  rewrite map_map. rewrite (map_ext_in (fun x => input_to_bytes (lower_ref x) false) (fun i => input_to_bytes i false)).
  - unfold nlen. now rewrite map_length.
  - intros i H. apply lower_bytes, G. now apply in_map.
Qed.

Lemma round_case t b sp : made t -> tx_to_bytes t = Ok b -> (scap (Sl b sp) < 2 ^ 62)%Z ->
  (forall i, In (Some i) (inputs t) -> hex_ref i) -> tx_from_slice (Sl b sp) = Ok (bare_tx (lower_refs t)).
Proof.
  intros M E Cap G. apply made_typed in M. destruct (lower_tx_bytes t M G) as [T E']. rewrite E in E'.
  apply tx_round; try assumption. eapply typed_wf; try eassumption; [unfold scap in Cap; cbn [vis spare] in Cap; lia|].
  intros i H. cbn [lower_refs inputs] in H. apply in_map_iff in H as ([j|] & [= <-] & H). destruct (G j H) as (id & L & D).
  exists id. split; [assumption|]. cbn [lower_ref prev_txid]. now rewrite D.
Qed.
