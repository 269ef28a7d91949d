(** Proofs about the signature hash (C36-C38). *)
From Verif Require Export P_TxMisc S_Sighash.
From Coq Require Import ZifyBool ZifyNat ZifyN.

(** ** The flag tests of the code, in terms of the specification's *)

Lemma land_31 f : N.land f 31 = f mod 32.
Proof. change 31 with (N.ones 5). rewrite N.land_ones. reflexivity. Qed.

Lemma land_128 f : f < 256 -> (N.land f 128 =? 0) = (f <? 128).
Proof.
  intros H. assert (forall k, (k < 256)%nat -> (N.land (N.of_nat k) 128 =? 0) = (N.of_nat k <? 128)) as A.
  { intros k Hk. do 256 (destruct k as [|k]; [reflexivity|]). lia. }
  specialize (A (N.to_nat f)). rewrite N2Nat.id in A. apply A. lia.
Qed.

Lemma acp_test f : f < 256 -> (N.land f shAnyOneCanPay =? 0) = negb (any_one_can_pay f).
Proof. intros H. unfold shAnyOneCanPay, any_one_can_pay. rewrite land_128 by assumption. lia. Qed.

Lemma single_test f : (N.land f 31 =? shSingle) = is_single f.
Proof. unfold is_single, base_type. now rewrite land_31. Qed.
Lemma none_test f : (N.land f 31 =? shNone) = is_none f.
Proof. unfold is_none, base_type. now rewrite land_31. Qed.

Lemma none_single f : is_none f = true -> is_single f = true -> False.
Proof. unfold is_none, is_single. lia. Qed.

(** ** The three digests *)

Definition op_bytes (i : input) : bytes := rev (hex_ignore (prev_txid i)) ++ le_put 4 (prev_index i).

Lemma prevout_buf_eq is : forall buf, prevout_buf buf (map Some is) = Ok (buf ++ concat (map op_bytes is)).
Proof.
  induction is as [|i is IH]; intros buf; cbn [map prevout_buf concat]; [now rewrite app_nil_r|].
  cbn [deref or_panic bind]. rewrite IH, reverse_bytes_rev. unfold op_bytes. now rewrite <- !app_assoc.
Qed.

Lemma sequence_buf_eq is : forall buf,
  sequence_buf buf (map Some is) = Ok (buf ++ concat (map (fun i => le_put 4 (sequence i)) is)).
Proof.
  induction is as [|i is IH]; intros buf; cbn [map sequence_buf concat]; [now rewrite app_nil_r|].
  cbn [deref or_panic bind]. now rewrite IH, <- app_assoc.
Qed.

Lemma outputs_buf_eq os ws : Forall2 (wire_output compact_min) ws os -> forall buf,
  outputs_buf buf (map Some os) = Ok (buf ++ concat ws).
Proof.
  induction 1 as [|w o ws os H _ IH]; intros buf; cbn [map outputs_buf concat]; [now rewrite app_nil_r|].
  cbn [deref or_panic bind]. rewrite sighash_bytes_eq, (wire_output_bytes _ _ H). cbn [bind].
  now rewrite IH, <- app_assoc.
Qed.

Lemma outpoint_op i w : outpoint i w -> w = op_bytes i.
Proof.
  intros (id & E & ->). unfold op_bytes. rewrite (hex_dec_ignore _ _ E), rev_involutive. reflexivity.
Qed.

Lemma op_outpoint i id : hex_dec (prev_txid i) = Some id -> outpoint i (op_bytes i).
Proof.
  intros E. exists (rev id). rewrite rev_involutive. split; [assumption|]. unfold op_bytes. now rewrite (hex_dec_ignore _ _ E).
Qed.

Lemma outpoints_op is ws : Forall2 outpoint is ws -> ws = map op_bytes is.
Proof. induction 1 as [|i w is ws H _ IH]; cbn [map]; [reflexivity|]. now rewrite (outpoint_op _ _ H), IH. Qed.

Lemma wire_outputs os : Forall (fun oo => exists o, oo = Some o /\ wf_output o) (map Some os) ->
  exists ws, Forall2 (wire_output compact_min) ws os.
Proof.
  induction os as [|o os IH]; cbn [map]; intros F; [exists []; constructor|].
  inversion F as [|? ? (o' & E & W) F']; subst. injection E as <-. destruct (IH F') as (ws & H).
  destruct (wf_output_wire _ W) as (w & _ & Q). exists (w :: ws). now constructor.
Qed.

Lemma unsome {A} (P : A -> Prop) l : Forall (fun x => exists a, x = Some a /\ P a) l ->
  exists l', l = map Some l' /\ Forall P l'.
Proof.
  induction 1 as [|x l (a & -> & H) _ (l' & -> & IH)]; [exists []; auto|]. exists (a :: l'). split; [reflexivity|now constructor].
Qed.

Lemma nth_map_some {A} (l : list A) n : nth_error (map Some l) n = option_map Some (nth_error l n).
Proof. revert n. induction l as [|a l IH]; intros [|n]; cbn; auto. Qed.

Lemma map_some_inj {A} (a b : list A) : map Some a = map Some b -> a = b.
Proof. revert b. induction a as [|x a IH]; intros [|y b] E; try discriminate; [reflexivity|]. injection E as -> E. now rewrite (IH _ E). Qed.

(** ** The preimage *)

Lemma sig_parts t : sig_tx t -> exists is os, inputs t = map Some is /\ outputs t = map Some os /\
  Forall (fun i => (exists id, hex_dec (prev_txid i) = Some id) /\ (forall s, prev_script i = Some s -> nlen s < 2 ^ 63)) is /\
  Forall wf_output os /\ N.of_nat (length os) < 2 ^ 31.
Proof.
  intros (FI & FO & L). apply unsome in FI as (is & EI & FI). apply unsome in FO as (os & EO & FO).
  exists is, os. repeat split; try assumption. rewrite EO in L. unfold nlen in L. rewrite map_length in L. lia.
Qed.

Lemma hash_prevouts_code f is : f < 256 ->
  Forall (fun i => (exists id, hex_dec (prev_txid i) = Some id) /\ (forall s, prev_script i = Some s -> nlen s < 2 ^ 63)) is ->
  forall t, inputs t = map Some is -> exists h,
  (if N.land f shAnyOneCanPay =? 0 then prevout_hash t else Ok zeros32) = Ok h /\ hash_prevouts f is h.
Proof.
  intros B F t E. rewrite acp_test by assumption. unfold hash_prevouts. destruct (any_one_can_pay f); cbn [negb].
  - exists (repeat x00 32). split; reflexivity.
  - unfold prevout_hash. rewrite E, prevout_buf_eq. cbn [bind app]. eexists. split; [reflexivity|].
    exists (map op_bytes is). split; [|reflexivity]. clear E. induction F as [|i is ((id & H) & _) _ IH]; cbn [map]; constructor; [|assumption].
    eapply op_outpoint; eassumption.
Qed.

Lemma hash_sequence_code f is : f < 256 -> forall t, inputs t = map Some is -> exists h,
  (if (N.land f shAnyOneCanPay =? 0) && negb (N.land f 31 =? shSingle) && negb (N.land f 31 =? shNone)
   then sequence_hash t else Ok zeros32) = Ok h /\ hash_sequence f is h.
Proof.
  intros B t E. rewrite acp_test, single_test, none_test by assumption. unfold hash_sequence, is_all.
  destruct (any_one_can_pay f); cbn [negb andb orb].
  - eexists. split; reflexivity.
  - rewrite (andb_comm (negb (is_none f))). destruct (negb (is_single f) && negb (is_none f)); cbn [negb].
    + unfold sequence_hash. rewrite E, sequence_buf_eq. eexists. split; reflexivity.
    + eexists. split; reflexivity.
Qed.

Lemma hash_outputs_code f os n : n < 2 ^ 32 -> Forall wf_output os -> N.of_nat (length os) < 2 ^ 31 ->
  forall t, outputs t = map Some os -> exists h,
  (if negb (N.land f 31 =? shSingle) && negb (N.land f 31 =? shNone) then outputs_hash t (-1)
   else if (N.land f 31 =? shSingle) && (n <? wrap32 (nlen (outputs t))) then outputs_hash t (int32_of_u32 n)
   else Ok zeros32) = Ok h /\ hash_outputs f (N.to_nat n) os h.
Proof.
  intros Bn F L t E. rewrite single_test, none_test. unfold hash_outputs.
  assert (exists ws, Forall2 (wire_output compact_min) ws os) as (ws & W).
  { clear -F. induction F as [|o os H _ (ws & IH)]; [exists []; constructor|].
    destruct (wf_output_wire _ H) as (w & _ & Q). exists (w :: ws). now constructor. }
  destruct (is_none f) eqn:EN.
  - assert (is_single f = false) as ES by (destruct (is_single f) eqn:Q; [exfalso; eapply none_single; eassumption|reflexivity]).
    rewrite ES. cbn [negb andb]. eexists. split; reflexivity.
  - destruct (is_single f) eqn:ES; cbn [negb andb].
    + assert (wrap32 (nlen (outputs t)) = N.of_nat (length os)) as ->
        by (unfold wrap32, nlen; rewrite E, map_length; apply N.mod_small; lia).
      destruct (N.ltb_spec n (N.of_nat (length os))) as [K|K].
      * assert (int32_of_u32 n = Z.of_N n) as -> by (unfold int32_of_u32; replace (n <? 2147483648) with true by lia; reflexivity).
        unfold outputs_hash. replace (Z.of_N n =? -1)%Z with false by lia. replace (Z.of_N n <? 0)%Z with false by lia.
        assert (Z.to_nat (Z.of_N n) = N.to_nat n) as -> by lia.
        rewrite E, nth_map_some. destruct (nth_error os (N.to_nat n)) as [o|] eqn:O.
        2:{ apply nth_error_None in O. lia. }
        cbn [option_map or_panic bind deref]. rewrite sighash_bytes_eq.
        assert (wf_output o) as Wo by (rewrite Forall_forall in F; eapply F, nth_error_In, O).
        destruct (wf_output_wire _ Wo) as (w & -> & Q). cbn [bind app]. eexists. split; [reflexivity|]. exists w. split; [assumption|reflexivity].
      * destruct (nth_error os (N.to_nat n)) as [o|] eqn:O.
        { assert (N.to_nat n < length os)%nat by (apply nth_error_Some; congruence). lia. }
        eexists. split; reflexivity.
    + unfold outputs_hash. change (-1 =? -1)%Z with true. cbv iota. rewrite E, (outputs_buf_eq _ _ W). cbn [bind app]. eexists. split; [reflexivity|]. exists ws. split; [assumption|reflexivity].
Qed.

Lemma hash_prevouts_fun f is h h' : hash_prevouts f is h -> hash_prevouts f is h' -> h = h'.
Proof.
  unfold hash_prevouts. destruct (any_one_can_pay f); [congruence|]. intros (ws & A & ->) (ws' & B & ->).
  apply outpoints_op in A, B. now subst.
Qed.

Lemma wire_outputs_fun os ws ws' : Forall2 (wire_output compact_min) ws os -> Forall2 (wire_output compact_min) ws' os -> ws = ws'.
Proof.
  intros H. revert ws'. induction H as [|w o ws os H _ IH]; intros ws' H'; inversion H' as [|w' ? ws'' ? K K']; subst; [reflexivity|].
  rewrite (IH _ K'). apply wire_output_bytes in H, K. congruence.
Qed.

Lemma hash_outputs_fun f n os h h' : hash_outputs f n os h -> hash_outputs f n os h' -> h = h'.
Proof.
  unfold hash_outputs. destruct (is_none f); [congruence|]. destruct (is_single f).
  - destruct (nth_error os n); [|congruence]. intros (w & A & ->) (w' & B & ->). apply wire_output_bytes in A, B. congruence.
  - intros (ws & A & ->) (ws' & B & ->). now rewrite (wire_outputs_fun _ _ _ A B).
Qed.

Lemma preimage_fun t n f p p' : preimage t n f p -> preimage t n f p' -> p = p'.
Proof.
  intros (is & os & i & s & hp & hs & ho & op & len & EI & EO & EN & ES & HP & HS & HO & OP & CL & ->)
         (is' & os' & i' & s' & hp' & hs' & ho' & op' & len' & EI' & EO' & EN' & ES' & HP' & HS' & HO' & OP' & CL' & ->).
  assert (is' = is) as -> by (rewrite EI in EI'; apply map_some_inj in EI'; congruence).
  assert (os' = os) as -> by (rewrite EO in EO'; apply map_some_inj in EO'; congruence).
  assert (i' = i) as -> by congruence. assert (s' = s) as -> by congruence.
  rewrite (hash_prevouts_fun _ _ _ _ HP HP'), (hash_outputs_fun _ _ _ _ _ HO HO').
  unfold hash_sequence in *. apply outpoint_op in OP, OP'. apply compact_min_varint in CL, CL'. congruence.
Qed.

Lemma preimage_code t n f i s : sig_tx t -> n < 2 ^ 32 -> f < 256 ->
  nth_error (inputs t) (N.to_nat n) = Some (Some i) -> prev_txid i <> [] -> prev_script i = Some s ->
  exists p, sighash_preimage t n f = Ok p /\ preimage t (N.to_nat n) f p.
Proof.
  intros W Bn Bf EN X ES. destruct (sig_parts _ W) as (is & os & EI & EO & FI & FO & L).
  unfold sighash_preimage. rewrite EN. cbn [or_panic bind deref].
  apply equals_neq in X. rewrite X, ES.
  destruct (hash_prevouts_code f is Bf FI t EI) as (hp & -> & HP). cbn [bind].
  destruct (hash_sequence_code f is Bf t EI) as (hs & -> & HS). cbn [bind].
  destruct (hash_outputs_code f os n Bn FO L t EO) as (ho & -> & HO). cbn [bind].
  rewrite EI, nth_map_some in EN. destruct (nth_error is (N.to_nat n)) as [i'|] eqn:EN'; [|discriminate].
  cbn [option_map] in EN. injection EN as ->.
  assert (In i is) as I by (eapply nth_error_In, EN'). rewrite Forall_forall in FI. destruct (FI _ I) as ((id & Eid) & Ls).
  eexists. split; [reflexivity|].
  exists is, os, i, s, hp, hs, ho, (op_bytes i), (varint (nlen s)). repeat (split; [assumption|]).
  split; [eapply op_outpoint; eassumption|]. split; [apply compact_min_of, nlen_u64, Ls, ES|].
  unfold op_bytes. rewrite reverse_bytes_rev. cbn [app]. now rewrite <- !app_assoc.
Qed.

Lemma preimage_cases t n f : sig_tx t -> n < 2 ^ 32 -> f < 256 ->
  match nth_error (inputs t) (N.to_nat n) with
  | Some (Some i) =>
      if bytes_eqb (prev_txid i) [] then sighash_preimage t n f = Err ENoPrevTxID
      else match prev_script i with
           | None => sighash_preimage t n f = Err ENoPrevTxScript
           | Some _ => exists p, sighash_preimage t n f = Ok p /\ preimage t (N.to_nat n) f p
           end
  | Some None => False
  | None => sighash_preimage t n f = Panic
  end.
Proof.
  intros W Bn Bf. destruct (nth_error (inputs t) (N.to_nat n)) as [[i|]|] eqn:EN.
  - destruct (bytes_eqb (prev_txid i) []) eqn:X.
    + apply bytes_eqb_eq in X. unfold sighash_preimage. rewrite EN. cbn [or_panic bind deref]. rewrite X. reflexivity.
    + assert (prev_txid i <> []) as X' by (intros Q; rewrite Q in X; discriminate).
      destruct (prev_script i) as [s|] eqn:ES; [eapply preimage_code; eassumption|].
      unfold sighash_preimage. rewrite EN. cbn [or_panic bind deref]. apply equals_neq in X'. rewrite X', ES. reflexivity.
  - destruct (sig_parts _ W) as (is & os & EI & _). rewrite EI, nth_map_some in EN. destruct (nth_error is _); discriminate.
  - unfold sighash_preimage. rewrite EN. reflexivity.
Qed.

Lemma sighash_ok_iff t n f h : sig_tx t -> n < 2 ^ 32 -> f < 256 ->
  (get_input_signature_hash t n f = Ok h <->
   exists i p, nth_error (inputs t) (N.to_nat n) = Some (Some i) /\ prev_txid i <> [] /\
     preimage t (N.to_nat n) f p /\ h = rev (dsha p)).
Proof.
  intros W Bn Bf. pose proof (preimage_cases t n f W Bn Bf) as C. unfold get_input_signature_hash.
  destruct (nth_error (inputs t) (N.to_nat n)) as [[i|]|] eqn:EN.
  - destruct (bytes_eqb (prev_txid i) []) eqn:X.
    + rewrite C. split; [discriminate|]. intros (i' & p & E & Q & _). injection E as <-. apply bytes_eqb_eq in X. contradiction.
    + assert (prev_txid i <> []) as X' by (intros Q; rewrite Q in X; discriminate).
      destruct (prev_script i) as [s|] eqn:ES.
      * destruct C as (p & -> & P). cbn [bind]. rewrite reverse_bytes_rev, sha256d_eq. fold (dsha p). split.
        -- intros H. injection H as <-. exists i, p. auto.
        -- intros (i' & p' & E & _ & P' & ->). now rewrite (preimage_fun _ _ _ _ _ P P').
      * rewrite C. split; [discriminate|]. intros (i' & p & E & _ & P & _). injection E as <-.
        destruct P as (is & os & i' & s & hp & hs & ho & op & len & EI & EO & EN' & ES' & _).
        rewrite EI, nth_map_some, EN' in EN. cbn in EN. congruence.
  - contradiction.
  - rewrite C. split; [discriminate|]. intros (i & p & E & _). discriminate.
Qed.

Lemma sighash_err_iff t n f e : sig_tx t -> n < 2 ^ 32 -> f < 256 ->
  (get_input_signature_hash t n f = Err e <->
   exists i, nth_error (inputs t) (N.to_nat n) = Some (Some i) /\
     ((prev_txid i = [] /\ e = ENoPrevTxID) \/ (prev_txid i <> [] /\ prev_script i = None /\ e = ENoPrevTxScript))).
Proof.
  intros W Bn Bf. pose proof (preimage_cases t n f W Bn Bf) as C. unfold get_input_signature_hash.
  destruct (nth_error (inputs t) (N.to_nat n)) as [[i|]|] eqn:EN.
  - destruct (bytes_eqb (prev_txid i) []) eqn:X.
    + apply bytes_eqb_eq in X. rewrite C. cbn [bind]. split.
      * intros H. injection H as <-. exists i. auto.
      * intros (i' & E & Q). injection E as <-. destruct Q as [[_ ->]|[Q _]]; [reflexivity|contradiction].
    + assert (prev_txid i <> []) as X' by (intros Q; rewrite Q in X; discriminate).
      destruct (prev_script i) as [s|] eqn:ES.
      * destruct C as (p & -> & P). cbn [bind]. split; [discriminate|]. intros (i' & E & Q). injection E as <-.
        destruct Q as [[Q _]|(_ & Q & _)]; congruence.
      * rewrite C. cbn [bind]. split.
        -- intros H. injection H as <-. exists i. auto 6.
        -- intros (i' & E & Q). injection E as <-. destruct Q as [[Q _]|(_ & _ & ->)]; congruence.
  - contradiction.
  - rewrite C. split; [discriminate|]. intros (i & E & _). discriminate.
Qed.

Lemma sighash_panic_iff t n f : sig_tx t -> n < 2 ^ 32 -> f < 256 ->
  (get_input_signature_hash t n f = Panic <-> (length (inputs t) <= N.to_nat n)%nat).
Proof.
  intros W Bn Bf. pose proof (preimage_cases t n f W Bn Bf) as C. unfold get_input_signature_hash.
  rewrite <- nth_error_None.
  destruct (nth_error (inputs t) (N.to_nat n)) as [[i|]|] eqn:EN.
  - split; [|discriminate]. destruct (bytes_eqb (prev_txid i) []); [rewrite C; discriminate|].
    destruct (prev_script i); [destruct C as (p & -> & _)|rewrite C]; discriminate.
  - contradiction.
  - rewrite C. tauto.
Qed.

(** ** What the hash commits to (C37) *)

Lemma full_sig t : full_tx t -> sig_tx t.
Proof.
  intros (_ & _ & FI & FO & L). split; [|split; assumption]. eapply Forall_impl; [|exact FI].
  intros oi (i & -> & (id & _ & E) & _ & _ & _ & S). exists i. split; [reflexivity|]. split; [eauto|assumption].
Qed.

Lemma hash_prevouts_length f is h : hash_prevouts f is h -> length h = 32%nat.
Proof.
  unfold hash_prevouts. destruct (any_one_can_pay f); [intros ->; apply repeat_length|]. intros (ws & _ & ->). apply sha256_length.
Qed.
Lemma hash_sequence_length f is h : hash_sequence f is h -> length h = 32%nat.
Proof.
  unfold hash_sequence. destruct (any_one_can_pay f || negb (is_all f)); intros ->; [apply repeat_length|apply sha256_length].
Qed.
Lemma hash_outputs_length f n os h : hash_outputs f n os h -> length h = 32%nat.
Proof.
  unfold hash_outputs. destruct (is_none f); [intros ->; apply repeat_length|]. destruct (is_single f).
  - destruct (nth_error os n); [intros (w & _ & ->); apply sha256_length|intros ->; apply repeat_length].
  - intros (ws & _ & ->). apply sha256_length.
Qed.

Lemma outpoint_length i w : full_input i -> outpoint i w -> length w = 36%nat.
Proof.
  intros ((id & L & E) & _) (id' & E' & ->). rewrite E in E'. injection E' as ->. rewrite rev_length in L.
  rewrite app_length, le_put_length, L. reflexivity.
Qed.

Lemma le_put_inj k a b : a < 256 ^ N.of_nat k -> b < 256 ^ N.of_nat k -> le_put k a = le_put k b -> a = b.
Proof. intros A B E. apply (f_equal le_get) in E. now rewrite !le_get_put_small in E. Qed.

Lemma outpoint_inj a b w : full_input a -> full_input b -> outpoint a w -> outpoint b w ->
  hex_dec (prev_txid a) = hex_dec (prev_txid b) /\ prev_index a = prev_index b.
Proof.
  intros A B (ida & Ea & Wa) (idb & Eb & Wb).
  destruct A as ((xa & La & Ha) & Ia & _). destruct B as ((xb & Lb & Hb) & Ib & _).
  rewrite Ea in Ha. rewrite Eb in Hb. injection Ha as <-. injection Hb as <-. rewrite rev_length in La, Lb.
  rewrite Wa in Wb. apply (cut_uniq 32) in Wb as [-> Q]; try assumption. split; [congruence|].
  apply le_put_inj in Q; try assumption. congruence.
Qed.

Lemma dsha_inj a b : dsha a = dsha b -> a = b \/ dcollision a b.
Proof.
  intros E. destruct (bytes_eq_dec a b) as [|N]; [now left|right]. now apply sha256d_collision.
Qed.

(** the fields of the preimage *)
Lemma preimage_fields ver1 hp1 hs1 op1 len1 s1 v1 sq1 ho1 lt1 f1 ver2 hp2 hs2 op2 len2 s2 v2 sq2 ho2 lt2 f2 :
  ver1 < 2 ^ 32 -> ver2 < 2 ^ 32 -> lt1 < 2 ^ 32 -> lt2 < 2 ^ 32 -> f1 < 256 -> f2 < 256 ->
  v1 < 2 ^ 64 -> v2 < 2 ^ 64 -> sq1 < 2 ^ 32 -> sq2 < 2 ^ 32 ->
  length hp1 = 32%nat -> length hp2 = 32%nat -> length hs1 = 32%nat -> length hs2 = 32%nat ->
  length ho1 = 32%nat -> length ho2 = 32%nat -> length op1 = 36%nat -> length op2 = 36%nat ->
  compact_min (nlen s1) len1 -> compact_min (nlen s2) len2 ->
  le_put 4 ver1 ++ hp1 ++ hs1 ++ op1 ++ (len1 ++ s1) ++ le_put 8 v1 ++ le_put 4 sq1 ++ ho1 ++ le_put 4 lt1 ++ le_put 4 f1 =
  le_put 4 ver2 ++ hp2 ++ hs2 ++ op2 ++ (len2 ++ s2) ++ le_put 8 v2 ++ le_put 4 sq2 ++ ho2 ++ le_put 4 lt2 ++ le_put 4 f2 ->
  ver1 = ver2 /\ hp1 = hp2 /\ hs1 = hs2 /\ op1 = op2 /\ s1 = s2 /\ v1 = v2 /\ sq1 = sq2 /\ ho1 = ho2 /\ lt1 = lt2 /\ f1 = f2.
Proof.
  intros V1 V2 T1 T2 F1 F2 A1 A2 Q1 Q2 P1 P2 S1 S2 O1 O2 X1 X2 [C1 _] [C2 _] E.
  apply (cut_uniq 4) in E as [Ev E]; [|apply le_put_length..]. apply (cut_uniq 32) in E as [-> E]; try assumption.
  apply (cut_uniq 32) in E as [-> E]; try assumption. apply (cut_uniq 36) in E as [-> E]; try assumption.
  rewrite <- !app_assoc in E. destruct (cs_uniq _ _ _ _ _ _ C1 C2 E) as (EL & -> & E').
  apply (cut_uniq (length s1)) in E' as [-> E']; [|unfold nlen in EL; lia|reflexivity].
  apply (cut_uniq 8) in E' as [Es E']; [|apply le_put_length..].
  apply (cut_uniq 4) in E' as [Eq E']; [|apply le_put_length..].
  apply (cut_uniq 32) in E' as [-> E']; try assumption.
  apply (cut_uniq 4) in E' as [El Ef]; [|apply le_put_length..].
  apply le_put_inj in Ev, Es, Eq, El, Ef; try assumption; try (change (256 ^ N.of_nat 4) with (2 ^ 32); lia).
  subst. auto 20.
Qed.

Lemma concat_chunks_inj k (a b : list bytes) : (0 < k)%nat -> Forall (fun w => length w = k) a -> Forall (fun w => length w = k) b ->
  concat a = concat b -> a = b.
Proof.
  intros K FA. revert b. induction FA as [|x a L _ IH]; intros b FB E; destruct FB as [|y b L' FB]; cbn [concat] in E.
  - reflexivity.
  - exfalso. apply (f_equal (@length byte)) in E. rewrite app_length in E. cbn [length] in E. lia.
  - exfalso. apply (f_equal (@length byte)) in E. rewrite app_length in E. cbn [length] in E. lia.
  - apply (cut_uniq k) in E as [-> E]; try assumption. symmetry in E. now rewrite (IH b FB E).
Qed.

Lemma outpoints_lengths is ws : Forall full_input is -> Forall2 outpoint is ws -> Forall (fun w => length w = 36%nat) ws.
Proof.
  intros F H. induction H as [|i w is ws H _ IH]; [constructor|]. inversion F; subst. constructor; [|auto]. eapply outpoint_length; eassumption.
Qed.

Lemma outpoints_eq is1 is2 ws : Forall full_input is1 -> Forall full_input is2 ->
  Forall2 outpoint is1 ws -> Forall2 outpoint is2 ws -> Forall2 point_eq (map Some is1) (map Some is2).
Proof.
  intros F1 F2 H1. revert is2 F2. induction H1 as [|i w is1 ws H _ IH]; intros is2 F2 H2; inversion H2; subst; cbn [map]; constructor.
  - inversion F1; inversion F2; subst. do 2 eexists. split; [reflexivity|]. split; [reflexivity|].
    eapply outpoint_inj; eassumption.
  - inversion F1; inversion F2; subst. auto.
Qed.

Lemma sequences_eq is1 is2 : Forall full_input is1 -> Forall full_input is2 ->
  concat (map (fun i => le_put 4 (sequence i)) is1) = concat (map (fun i => le_put 4 (sequence i)) is2) ->
  map sequence is1 = map sequence is2.
Proof.
  intros F1. revert is2. induction F1 as [|i is1 H _ IH]; intros is2 F2 E; destruct F2 as [|j is2 H2 F2]; cbn [map concat] in *.
  - reflexivity.
  - exfalso. apply (f_equal (@length byte)) in E. rewrite app_length, le_put_length in E. cbn [length] in E. lia.
  - exfalso. apply (f_equal (@length byte)) in E. rewrite app_length, le_put_length in E. cbn [length] in E. lia.
  - apply (cut_uniq 4) in E as [E1 E2]; [|apply le_put_length..]. symmetry in E2. rewrite (IH _ F2 E2).
    apply le_put_inj in E1; [congruence| |]; [apply H2|apply H].
Qed.

Lemma wire_output_uniq w o w' o' r r' : wire_output compact_min w o -> wire_output compact_min w' o' ->
  w ++ r = w' ++ r' -> w = w' /\ o = o' /\ r = r'.
Proof.
  intros (v & l & s & -> & A & [B _] & C & D) (v' & l' & s' & -> & A' & [B' _] & C' & D') E.
  rewrite <- !app_assoc in E. apply (cut_uniq 8) in E as [-> E]; try assumption.
  destruct (cs_uniq _ _ _ _ _ _ B B' (eq_sym E)) as (EL & -> & E').
  apply (cut_uniq (length s)) in E' as [-> ->]; [|unfold nlen in EL; lia|reflexivity].
  repeat split. destruct o, o'; cbn in *; congruence.
Qed.

Lemma outputs_eq os1 os2 ws1 ws2 : Forall2 (wire_output compact_min) ws1 os1 -> Forall2 (wire_output compact_min) ws2 os2 ->
  concat ws1 = concat ws2 -> os1 = os2.
Proof.
  intros H1. revert os2 ws2. induction H1 as [|w o ws1 os1 H _ IH]; intros os2 ws2 H2 E;
    destruct H2 as [|w' o' ws2 os2 H' H2]; cbn [concat] in E.
  - reflexivity.
  - exfalso. destruct H' as (v & l & s & -> & A & _). apply (f_equal (@length byte)) in E. rewrite !app_length in E. cbn [length] in E. lia.
  - exfalso. destruct H as (v & l & s & -> & A & _). apply (f_equal (@length byte)) in E. rewrite !app_length in E. cbn [length] in E. lia.
  - destruct (wire_output_uniq _ _ _ _ _ _ H H' E) as (_ & -> & E'). now rewrite (IH _ _ H2 E').
Qed.

Lemma full_parts t is : full_tx t -> inputs t = map Some is -> Forall full_input is.
Proof.
  intros (_ & _ & F & _) E. rewrite E in F. clear E. induction is as [|i is IH]; [constructor|]. cbn [map] in F.
  inversion F as [|? ? (j & E & H) F']; subst. injection E as <-. constructor; auto.
Qed.

(** equal preimages *)
Lemma preimage_commits t1 n1 f1 t2 n2 f2 p : full_tx t1 -> full_tx t2 -> f1 < 256 -> f2 < 256 ->
  preimage t1 n1 f1 p -> preimage t2 n2 f2 p ->
  f1 = f2 /\ version t1 = version t2 /\ locktime t1 = locktime t2 /\ own_eq t1 n1 t2 n2 /\
  exists is1 is2 os1 os2 hp hs ho, inputs t1 = map Some is1 /\ inputs t2 = map Some is2 /\
    outputs t1 = map Some os1 /\ outputs t2 = map Some os2 /\
    hash_prevouts f1 is1 hp /\ hash_prevouts f1 is2 hp /\ hash_sequence f1 is1 hs /\ hash_sequence f1 is2 hs /\
    hash_outputs f1 n1 os1 ho /\ hash_outputs f1 n2 os2 ho.
Proof.
  intros W1 W2 B1 B2
    (is1 & os1 & i1 & s1 & hp1 & hs1 & ho1 & op1 & len1 & EI1 & EO1 & EN1 & ES1 & HP1 & HS1 & HO1 & OP1 & CL1 & E1)
    (is2 & os2 & i2 & s2 & hp2 & hs2 & ho2 & op2 & len2 & EI2 & EO2 & EN2 & ES2 & HP2 & HS2 & HO2 & OP2 & CL2 & E2).
  pose proof (full_parts _ _ W1 EI1) as FI1. pose proof (full_parts _ _ W2 EI2) as FI2.
  assert (full_input i1) as J1 by (rewrite Forall_forall in FI1; eapply FI1, nth_error_In, EN1).
  assert (full_input i2) as J2 by (rewrite Forall_forall in FI2; eapply FI2, nth_error_In, EN2).
  rewrite E1 in E2. clear E1. pose proof J1 as J1'. pose proof J2 as J2'.
  destruct J1' as (_ & _ & Q1 & A1 & _). destruct J2' as (_ & _ & Q2 & A2 & _).
  destruct W1 as (V1 & T1 & _). destruct W2 as (V2 & T2 & _).
  apply preimage_fields in E2;
    [|assumption|assumption|assumption|assumption|assumption|assumption|assumption|assumption|assumption|assumption
     |eapply hash_prevouts_length; eassumption|eapply hash_prevouts_length; eassumption
     |eapply hash_sequence_length; eassumption|eapply hash_sequence_length; eassumption
     |eapply hash_outputs_length; eassumption|eapply hash_outputs_length; eassumption
     |exact (outpoint_length _ _ J1 OP1)|exact (outpoint_length _ _ J2 OP2)|assumption|assumption].
  destruct E2 as (EV & <- & <- & <- & <- & EA & EQ & <- & EL & <-).
  destruct (outpoint_inj _ _ _ J1 J2 OP1 OP2) as [ET EX].
  split; [reflexivity|]. split; [assumption|]. split; [assumption|]. split.
  - exists i1, i2. rewrite EI1, EI2, !nth_map_some, EN1, EN2. split; [reflexivity|]. split; [reflexivity|].
    split; [assumption|]. split; [assumption|]. split; [congruence|]. split; assumption.
  - exists is1, is2, os1, os2, hp1, hs1, ho1. auto 15.
Qed.

Lemma sighash_preimages t1 n1 f1 t2 n2 f2 h : full_tx t1 -> full_tx t2 -> n1 < 2 ^ 32 -> n2 < 2 ^ 32 -> f1 < 256 -> f2 < 256 ->
  get_input_signature_hash t1 n1 f1 = Ok h -> get_input_signature_hash t2 n2 f2 = Ok h ->
  exists p1 p2, preimage t1 (N.to_nat n1) f1 p1 /\ preimage t2 (N.to_nat n2) f2 p2 /\ (p1 = p2 \/ dcollision p1 p2).
Proof.
  intros W1 W2 Bn1 Bn2 Bf1 Bf2 H1 H2.
  apply sighash_ok_iff in H1 as (i1 & p1 & _ & _ & P1 & E1); [|now apply full_sig|assumption|assumption].
  apply sighash_ok_iff in H2 as (i2 & p2 & _ & _ & P2 & E2); [|now apply full_sig|assumption|assumption].
  exists p1, p2. split; [assumption|]. split; [assumption|]. apply dsha_inj. rewrite E1 in E2. now apply rev_inj.
Qed.

Lemma prevouts_commit f is1 is2 hp : any_one_can_pay f = false -> Forall full_input is1 -> Forall full_input is2 ->
  hash_prevouts f is1 hp -> hash_prevouts f is2 hp ->
  exists ws1 ws2, Forall2 outpoint is1 ws1 /\ Forall2 outpoint is2 ws2 /\
    (Forall2 point_eq (map Some is1) (map Some is2) \/ dcollision (concat ws1) (concat ws2)).
Proof.
  intros A F1 F2. unfold hash_prevouts. rewrite A. intros (ws1 & H1 & E1) (ws2 & H2 & E2). exists ws1, ws2.
  split; [assumption|]. split; [assumption|]. rewrite E1 in E2. apply dsha_inj in E2 as [E|C]; [left|now right].
  apply (concat_chunks_inj 36) in E; [|lia|exact (outpoints_lengths _ _ F1 H1)|exact (outpoints_lengths _ _ F2 H2)].
  subst ws2. exact (outpoints_eq _ _ _ F1 F2 H1 H2).
Qed.

Lemma sequences_commit f is1 is2 hs : any_one_can_pay f = false -> is_all f = true -> Forall full_input is1 -> Forall full_input is2 ->
  hash_sequence f is1 hs -> hash_sequence f is2 hs ->
  map sequence is1 = map sequence is2 \/
  dcollision (concat (map (fun i => le_put 4 (sequence i)) is1)) (concat (map (fun i => le_put 4 (sequence i)) is2)).
Proof.
  intros A B F1 F2. unfold hash_sequence. rewrite A, B. cbn [orb negb]. intros E1 E2. rewrite E1 in E2.
  apply dsha_inj in E2 as [E|C]; [left|now right]. now apply sequences_eq.
Qed.

Lemma outputs_commit f n1 n2 os1 os2 ho : is_all f = true -> hash_outputs f n1 os1 ho -> hash_outputs f n2 os2 ho ->
  exists ws1 ws2, Forall2 (wire_output compact_min) ws1 os1 /\ Forall2 (wire_output compact_min) ws2 os2 /\
    (os1 = os2 \/ dcollision (concat ws1) (concat ws2)).
Proof.
  unfold is_all, hash_outputs. intros A. apply andb_true_iff in A as [A B]. apply negb_true_iff in A, B. rewrite A, B.
  intros (ws1 & H1 & E1) (ws2 & H2 & E2). exists ws1, ws2. split; [assumption|]. split; [assumption|].
  rewrite E1 in E2. apply dsha_inj in E2 as [E|C]; [left|now right]. eapply outputs_eq; eassumption.
Qed.

Lemma single_commit f n1 n2 os1 os2 ho o1 o2 : is_single f = true -> hash_outputs f n1 os1 ho -> hash_outputs f n2 os2 ho ->
  nth_error os1 n1 = Some o1 -> nth_error os2 n2 = Some o2 ->
  exists w1 w2, wire_output compact_min w1 o1 /\ wire_output compact_min w2 o2 /\ (o1 = o2 \/ dcollision w1 w2).
Proof.
  intros A. unfold hash_outputs. rewrite A. destruct (is_none f) eqn:B; [exfalso; eapply none_single; eassumption|].
  intros H1 H2 E1 E2. rewrite E1 in H1. rewrite E2 in H2. destruct H1 as (w1 & H1 & Q1). destruct H2 as (w2 & H2 & Q2).
  exists w1, w2. split; [assumption|]. split; [assumption|]. rewrite Q1 in Q2. apply dsha_inj in Q2 as [->|C]; [left|now right].
  destruct (wire_output_uniq _ _ _ _ [] [] H1 H2 eq_refl) as (_ & -> & _). reflexivity.
Qed.

(** ** What it does not depend on (C38) *)

Lemma prevout_buf_ext l1 l2 : Forall2 same_outpoint l1 l2 -> forall b, prevout_buf b l1 = prevout_buf b l2.
Proof.
  induction 1 as [|x y l1 l2 H _ IH]; intros b; cbn [prevout_buf]; [reflexivity|].
  destruct x as [x|], y as [y|]; cbn [same_outpoint] in H; try contradiction; [|reflexivity].
  destruct H as [E1 E2]. cbn [deref or_panic bind]. rewrite E1, E2. apply IH.
Qed.

Lemma sequence_buf_ext l1 l2 : Forall2 same_sequence l1 l2 -> forall b, sequence_buf b l1 = sequence_buf b l2.
Proof.
  induction 1 as [|x y l1 l2 H _ IH]; intros b; cbn [sequence_buf]; [reflexivity|].
  destruct x as [x|], y as [y|]; cbn [same_sequence] in H; try contradiction; [|reflexivity].
  cbn [deref or_panic bind]. rewrite H. apply IH.
Qed.

Lemma nth_error_range {A} (l : list A) n : (nth_error l n = None <-> (length l <= n)%nat).
Proof. apply nth_error_None. Qed.

Lemma sighash_agree t1 t2 n f : n < 2 ^ 32 -> f < 256 -> agree f (N.to_nat n) t1 t2 ->
  get_input_signature_hash t1 n f = get_input_signature_hash t2 n f.
Proof.
  intros Bn Bf [EV EL SM OWN HP HS HO H1]. unfold get_input_signature_hash. f_equal. unfold sighash_preimage.
  destruct (nth_error (inputs t1) (N.to_nat n)) as [[i1|]|] eqn:N1, (nth_error (inputs t2) (N.to_nat n)) as [[i2|]|] eqn:N2;
    try contradiction; try reflexivity.
  cbn [or_panic bind deref]. cbn [same_signed_input] in OWN. destruct OWN as (ET & EX & EA & ES & EQ).
  rewrite ET, ES. destruct (equals (prev_txid i2) []); [reflexivity|]. destruct (prev_script i2) as [s|]; [|reflexivity].
  rewrite EX, EA, EQ, EV, EL, acp_test, single_test, none_test by assumption.
  unfold is_all in *. 
  assert (prevout_hash t1 = prevout_hash t2 \/ any_one_can_pay f = true) as CP.
  { destruct (any_one_can_pay f); [now right|left]. unfold prevout_hash. now rewrite (prevout_buf_ext _ _ (HP eq_refl)). }
  assert (sequence_hash t1 = sequence_hash t2 \/ any_one_can_pay f = true \/ negb (is_none f) && negb (is_single f) = false) as CS.
  { destruct (any_one_can_pay f); [auto|]. destruct (negb (is_none f) && negb (is_single f)); [left|auto].
    unfold sequence_hash. now rewrite (sequence_buf_ext _ _ (HS eq_refl eq_refl)). }
  assert ((if negb (is_single f) && negb (is_none f) then outputs_hash t1 (-1)
           else if is_single f && (n <? wrap32 (nlen (outputs t1))) then outputs_hash t1 (int32_of_u32 n) else Ok zeros32) =
          (if negb (is_single f) && negb (is_none f) then outputs_hash t2 (-1)
           else if is_single f && (n <? wrap32 (nlen (outputs t2))) then outputs_hash t2 (int32_of_u32 n) else Ok zeros32)) as ->.
  { destruct SM as [EO|[S1 S2]]; [unfold outputs_hash; now rewrite EO|].
    destruct (is_single f) eqn:SS; cbn [negb andb].
    - specialize (H1 eq_refl).
      assert (forall t, nlen (outputs t) < 2 ^ 31 -> wrap32 (nlen (outputs t)) = nlen (outputs t)) as WR
        by (intros t T; unfold wrap32; apply N.mod_small; lia).
      rewrite !WR by assumption.
      destruct (nth_error (outputs t2) (N.to_nat n)) as [o|] eqn:O2.
      + assert (N.to_nat n < length (outputs t2))%nat as K2 by (apply nth_error_Some; congruence).
        assert (N.to_nat n < length (outputs t1))%nat as K1 by (apply nth_error_Some; congruence).
        replace (n <? nlen (outputs t1)) with true by (unfold nlen; lia).
        replace (n <? nlen (outputs t2)) with true by (unfold nlen; lia).
        assert (int32_of_u32 n = Z.of_N n) as -> by (unfold int32_of_u32, nlen in *; replace (n <? 2147483648) with true by lia; reflexivity).
        unfold outputs_hash. replace (Z.of_N n =? -1)%Z with false by lia. replace (Z.of_N n <? 0)%Z with false by lia.
        assert (Z.to_nat (Z.of_N n) = N.to_nat n) as -> by lia. now rewrite H1, O2.
      + apply nth_error_None in H1, O2. replace (n <? nlen (outputs t1)) with false by (unfold nlen; lia).
        replace (n <? nlen (outputs t2)) with false by (unfold nlen; lia). reflexivity.
    - destruct (is_none f); cbn [negb andb] in *; [reflexivity|]. unfold outputs_hash. now rewrite (HO eq_refl). }
  destruct CP as [-> | ->]; cbn [negb andb].
  - destruct CS as [->|[->|CS]]; [reflexivity|reflexivity|]. destruct (is_none f), (is_single f); cbn [negb andb] in *; try discriminate; rewrite ?andb_false_r; reflexivity.
  - reflexivity.
Qed.
