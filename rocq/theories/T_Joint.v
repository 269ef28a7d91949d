(** C85: several parties build and sign one transaction. *)
From Verif Require Import P_TxMisc P_TxParse P_TxSer P_Sighash P_Signer P_Flow T_Tx T_Flow T_Sighash P_Demand T_Demand S_Joint T_Chain.
From Coq Require Import Lia ZifyBool ZifyNat ZifyN.

(** ** What the calls leave alone *)
Definition grown (n : nat) (t t' : tx) : Prop :=
  version t' = version t /\ locktime t' = locktime t /\ (exists os, outputs t' = outputs t ++ os) /\
  (exists l1 l2, inputs t' = l1 ++ l2 /\ Forall2 same_signed_input (inputs t) l1) /\
  nth_error (inputs t') n = nth_error (inputs t) n.
Lemma same_signed_refl oi : same_signed_input oi oi.
Proof. destruct oi as [i|]; cbn; auto 10. Qed.
Lemma same_signed_refls l : Forall2 same_signed_input l l.
Proof. induction l; constructor; [apply same_signed_refl|assumption]. Qed.
Lemma same_signed_trans a b c : same_signed_input a b -> same_signed_input b c -> same_signed_input a c.
Proof. destruct a, b, c; cbn; try tauto. intros (A1 & A2 & A3 & A4 & A5) (B1 & B2 & B3 & B4 & B5). repeat split; congruence. Qed.
Lemma same_signed_transs a b c : Forall2 same_signed_input a b -> Forall2 same_signed_input b c -> Forall2 same_signed_input a c.
Proof.
  intros H. revert c. induction H as [|x y l l' H _ IH]; intros c H'; inversion H'; subst; constructor; eauto using same_signed_trans.
Qed.
Lemma grown_refl n t : grown n t t.
Proof. split; [reflexivity|]. split; [reflexivity|]. split; [exists []; now rewrite app_nil_r|]. split; [|reflexivity]. exists (inputs t), []. rewrite app_nil_r. split; [reflexivity|apply same_signed_refls]. Qed.
Lemma grown_trans n a b c : grown n a b -> grown n b c -> grown n a c.
Proof.
  intros (A1 & A2 & (os & A3) & (l1 & l2 & A4 & A5) & A6) (B1 & B2 & (os' & B3) & (m1 & m2 & B4 & B5) & B6).
  split; [congruence|]. split; [congruence|]. split; [exists (os ++ os'); rewrite B3, A3; now rewrite app_assoc|]. split; [|congruence].
  rewrite A4 in B5. apply Forall2_app_inv_l in B5 as (x1 & x2 & F1 & F2 & ->). exists x1, (x2 ++ m2). rewrite app_assoc. split; [exact B4|].
  eapply same_signed_transs; eassumption.
Qed.
Lemma do_grown n i t c t' : joint_bounds c -> nlen (inputs t) <= 2 ^ 32 -> nth_error (inputs t) n = Some (Some i) ->
  leaves n i c -> joint_do t c = Ok t' -> grown n t t'.
Proof.
  intros B L N LV H. destruct c as [c|c]; cbn [joint_do joint_bounds] in *.
  - destruct (asks_total c) as (a & A). pose proof (tx_run_eq [c] t [a] (Forall2_cons _ _ A (Forall2_nil _))) as E.
    change (tx_run t [c]) with (fst (tx_do t c)) in E. assert (t' = fst (tx_do t c)) as -> by congruence. rewrite E. clear H E.
    split; [reflexivity|]. split; [reflexivity|]. cbn [inputs outputs]. split; [eauto|]. split; [eexists _, _; split; [reflexivity|apply same_signed_refls]|].
    rewrite nth_error_app1; [reflexivity|]. apply nth_error_Some. congruence.
  - destruct (sign_do_writes t c t' B L H) as ((R1 & R2 & R3 & R4) & W). split; [congruence|]. split; [congruence|].
    split; [exists []; rewrite app_nil_r; congruence|]. split; [exists (inputs t'), []; rewrite app_nil_r; auto|].
    rewrite (W _ _ N), N. destruct c as [s m|s]; cbn [writes leaves] in *.
    + destruct (Nat.eqb_spec (N.to_nat m) n) as [E|E]; [contradiction|reflexivity].
    + rewrite N. destruct (hit (key_pub (sg_key s)) i) as [[]|e|] eqn:Hh; try reflexivity. exfalso. apply LV. now apply hit_matches.
Qed.
Lemma do_count t c t' : joint_bounds c -> nlen (inputs t) <= 2 ^ 32 -> joint_do t c = Ok t' -> nlen (inputs t') <= nlen (inputs t) + 1.
Proof.
  intros B L H. destruct c as [c|c]; cbn [joint_do joint_bounds] in *.
  - destruct (asks_total c) as (a & A). pose proof (tx_run_eq [c] t [a] (Forall2_cons _ _ A (Forall2_nil _))) as E.
    change (tx_run t [c]) with (fst (tx_do t c)) in E. assert (t' = fst (tx_do t c)) as -> by congruence. rewrite E. cbn [inputs map concat]. unfold nlen. rewrite !app_length.
    destruct A; cbn [asked_inputs length]; lia.
  - destruct (sign_do_writes t c t' B L H) as (R & _). apply resigned_count in R. unfold nlen. lia.
Qed.
Lemma run_grown n i cs : forall t t', Forall joint_bounds cs -> nlen (inputs t) + nlen cs <= 2 ^ 32 -> nth_error (inputs t) n = Some (Some i) ->
  Forall (leaves n i) cs -> joint_run t cs = Ok t' -> grown n t t'.
Proof.
  induction cs as [|c cs IH]; intros t t' B L N F H; cbn [joint_run] in H.
  - assert (t' = t) as -> by congruence. apply grown_refl.
  - inversion B as [|? ? B1 B2]; subst. inversion F as [|? ? F1 F2]; subst. destruct (joint_do t c) as [t1|e|] eqn:D; cbn [bind] in H; try discriminate.
    assert (nlen (inputs t) <= 2 ^ 32) as L0 by (unfold nlen in *; cbn [length] in L; lia).
    pose proof (do_grown n i t c t1 B1 L0 N F1 D) as G. pose proof (do_count t c t1 B1 L0 D) as K.
    eapply grown_trans; [exact G|]. apply IH; auto; [unfold nlen in *; cbn [length] in L; lia|]. destruct G as (_ & _ & _ & _ & E). congruence.
Qed.
Lemma grown_agree f n t t' : nth_error (inputs t) n <> None -> grown n t t' -> nlen (outputs t') < 2 ^ 31 -> may_add f n t t' -> agree f n t t'.
Proof.
  intros NN (E1 & E2 & (os & E3) & (l1 & l2 & E4 & E5) & E6) B (MI & MO).
  assert (length (inputs t) = length l1) as LL by (eapply Forall2_length, E5).
  constructor; try congruence.
  - right. rewrite E3 in B. unfold nlen in *. rewrite E3, !app_length in *. lia.
  - rewrite E6. destruct (nth_error (inputs t) n) as [a|]; [|exact I]. apply same_signed_refl.
  - intros F. destruct MI as [MI|MI]; [congruence|]. rewrite E4, app_length in MI. assert (l2 = []) as -> by (destruct l2; [reflexivity|cbn [length] in MI; lia]).
    rewrite E4, app_nil_r. clear -E5. induction E5 as [|x y l l' H _ IH]; constructor; auto. destruct x, y; cbn in *; tauto.
  - intros F _. destruct MI as [MI|MI]; [congruence|]. rewrite E4, app_length in MI. assert (l2 = []) as -> by (destruct l2; [reflexivity|cbn [length] in MI; lia]).
    rewrite E4, app_nil_r. clear -E5. induction E5 as [|x y l l' H _ IH]; constructor; auto. destruct x, y; cbn in *; tauto.
  - intros F. unfold is_all in F. apply andb_prop in F as [F1 F2]. rewrite Bool.negb_true_iff in F1, F2.
    destruct MO as [MO|[MO|(MO & _)]]; try congruence. rewrite E3, app_length in MO.
    assert (os = []) as -> by (destruct os; [reflexivity|cbn [length] in MO; lia]). now rewrite E3, app_nil_r.
  - intros F. destruct MO as [MO|[MO|(_ & [MO|MO])]].
    + exfalso. unfold is_none, is_single in *. lia.
    + rewrite E3, app_length in MO. assert (os = []) as -> by (destruct os; [reflexivity|cbn [length] in MO; lia]). now rewrite E3, app_nil_r.
    + rewrite E3, nth_error_app1 by exact MO. reflexivity.
    + assert (nth_error (outputs t') n = None) as -> by (apply nth_error_None; exact MO). apply nth_error_None. rewrite E3, app_length in MO. lia.
Qed.

(** ** What a signer writes *)
Lemma flag_of_used s : flag_of s = used_flag s.
Proof. reflexivity. Qed.
Lemma signer_writes verify t s n c i t1 : sig_tx t -> sg_flag s < 256 -> nlen (inputs t) <= 2 ^ 32 -> honest verify (sg_key s) ->
  nth_error (inputs t) n = Some (Some i) -> prev_txid i <> [] -> prev_script i = Some (p2pkh (hash160 (key_pub (sg_key s)))) ->
  signing s n c -> sign_do t c = Ok t1 ->
  exists p sg, preimage t n (flag_of s) p /\ key_sign (sg_key s) (dsha p) = Ok sg /\ nlen sg + 1 < 2 ^ 32 /\ verify (key_pub (sg_key s)) (dsha p) sg /\
    get_input_signature_hash t (N.of_nat n) (flag_of s) = Ok (rev (dsha p)) /\ resigned t t1 /\
    nth_error (inputs t1) n = Some (Some (with_script i (fst (p2pkh_unlocking_script (key_pub (sg_key s)) sg (flag_of s))))).
Proof.
  intros W Bf B HK E X S SG H. rewrite flag_of_used. pose proof (used_flag_small s Bf) as Bu.
  assert (n < length (inputs t))%nat as Ln by (apply nth_error_Some; congruence).
  assert (N.of_nat n < 2 ^ 32) as Bn by (unfold nlen in B; lia).
  assert (call_bounds c) as BC by (destruct SG as [->| ->]; cbn [call_bounds]; auto).
  destruct (sign_do_writes t c t1 BC B H) as (R & WR). specialize (WR _ _ E).
  destruct (get_input_signature_hash t (N.of_nat n) (used_flag s)) as [h|e|] eqn:G.
  2:{ exfalso. apply sighash_err_iff in G as (i0 & E0 & D); try assumption. rewrite Nat2N.id in E0.
      assert (i0 = i) as -> by congruence. destruct D as [[D _]|(_ & D & _)]; congruence. }
  2:{ exfalso. apply sighash_panic_iff in G; try assumption. rewrite Nat2N.id in G. lia. }
  pose proof G as G'. apply sighash_ok_iff in G' as (i0 & p & E0 & _ & P & EH); try assumption. rewrite Nat2N.id in *.
  destruct (proj2 HK (dsha p)) as (sg & K & L & V); [unfold dsha; apply sha256_length|].
  exists p, sg. split; [exact P|]. split; [exact K|]. split; [exact L|]. split; [exact V|]. split; [now rewrite EH|]. split; [exact R|].
  assert (sig_script s (N.of_nat n) t = Ok (fst (p2pkh_unlocking_script (key_pub (sg_key s)) sg (used_flag s)))) as SS.
  { unfold sig_script. rewrite G. cbn [bind]. rewrite EH, rev_involutive, K. reflexivity. }
  assert (writes t c n = Some (fst (p2pkh_unlocking_script (key_pub (sg_key s)) sg (used_flag s)))) as WE.
  { destruct SG as [->| ->]; cbn [writes].
    - rewrite Nat2N.id, Nat.eqb_refl, SS. reflexivity.
    - rewrite E. assert (hit (key_pub (sg_key s)) i = Ok true) as -> by (apply hit_matches, gpkh_ok_iff; rewrite S; apply gpkh_p2pkh, hash160_length). rewrite SS. reflexivity. }
  rewrite WE in WR. exact WR.
Qed.

(** ** C85 *)

(** Input [n] was signed, with any flag, by the key it pays to. Others build and sign as they like
    afterwards. As long as they only add what the flag allows, the input can be spent. *)
Theorem C85_survives verify t0 s n c i t1 post t2 : sig_tx t0 -> sg_flag s < 256 -> nlen (inputs t0) + nlen post <= 2 ^ 32 -> honest verify (sg_key s) ->
  nth_error (inputs t0) n = Some (Some i) -> prev_txid i <> [] -> prev_script i = Some (p2pkh (hash160 (key_pub (sg_key s)))) ->
  signing s n c -> sign_do t0 c = Ok t1 ->
  Forall joint_bounds post -> Forall (leaves n i) post -> joint_run t1 post = Ok t2 -> sig_tx t2 ->
  may_add (flag_of s) n t1 t2 -> accepted verify t2 n.
Proof.
  intros W Bf B HK E X S SG H BP LP J W2 MA.
  assert (nlen (inputs t0) <= 2 ^ 32) as B0 by lia.
  destruct (signer_writes verify t0 s n c i t1 W Bf B0 HK E X S SG H) as (p & sg & P & K & L & V & G & R & E1).
  set (u := fst _) in E1. pose proof (resigned_count _ _ R) as RC.
  assert (Forall (leaves n (with_script i u)) post) as LP' by exact LP.
  pose proof (run_grown n (with_script i u) post t1 t2 BP ltac:(unfold nlen in *; lia) E1 LP' J) as GR.
  pose proof (grown_agree (flag_of s) n t1 t2 ltac:(congruence) GR (proj2 (proj2 W2)) MA) as AG.
  assert (n < length (inputs t0))%nat as Ln by (apply nth_error_Some; congruence).
  assert (N.of_nat n < 2 ^ 32) as Bn by (unfold nlen in B0; lia).
  assert (flag_of s < 256) as Bu by (rewrite flag_of_used; now apply used_flag_small).
  assert (get_input_signature_hash t2 (N.of_nat n) (flag_of s) = Ok (rev (dsha p))) as G2.
  { rewrite <- (C38_depends_only_on t1 t2 (N.of_nat n) (flag_of s) Bn Bu); [|now rewrite Nat2N.id].
    rewrite <- G. symmetry. now apply resigned_sighash. }
  pose proof G2 as G2'. apply sighash_ok_iff in G2' as (i0 & p2 & E0 & _ & P2 & EH); try assumption. rewrite Nat2N.id in *.
  assert (dsha p2 = dsha p) as DD by (apply (f_equal (@rev byte)) in EH; rewrite !rev_involutive in EH; symmetry; exact EH).
  assert (nth_error (inputs t2) n = Some (Some (with_script i u))) as E2 by (destruct GR as (_ & _ & _ & _ & Q); congruence).
  set (pub := key_pub (sg_key s)) in *.
  exists (with_script i u), u, (p2pkh (hash160 pub)), [pub; sg ++ [n2b (flag_of s)]], [].
  split; [exact E2|]. split; [reflexivity|]. split; [exact S|]. destruct HK as (LPK & _).
  split; [apply unlocking_run; [exact L|exact LPK]|]. apply p2pkh_run.
  exists sg, (flag_of s), p2. split; [reflexivity|]. split; [exact Bu|]. split; [exact P2|]. rewrite DD. exact V.
Qed.
Print Assumptions C85_survives.

(** Under ANYONECANPAY too, a signature without NONE or SINGLE covers all outputs. *)
Theorem C37_outputs t1 n1 t2 n2 f h : full_tx t1 -> full_tx t2 -> n1 < 2 ^ 32 -> n2 < 2 ^ 32 -> f < 256 -> is_all f = true ->
  get_input_signature_hash t1 n1 f = Ok h -> get_input_signature_hash t2 n2 f = Ok h ->
  exists p1 p2 o1 o2, preimage t1 (N.to_nat n1) f p1 /\ preimage t2 (N.to_nat n2) f p2 /\ all_outputs t1 o1 /\ all_outputs t2 o2 /\
    (dcollision p1 p2 \/ dcollision o1 o2 \/ outputs t1 = outputs t2).
Proof.
  intros W1 W2 Bn1 Bn2 Bf A H1 H2. destruct (sighash_preimages _ _ _ _ _ _ _ W1 W2 Bn1 Bn2 Bf Bf H1 H2) as (p1 & p2 & P1 & P2 & D).
  assert (forall t n p, preimage t n f p -> exists o, all_outputs t o) as X.
  { clear -A. intros t n p (is & os & i & s & hp & hs & ho & op & len & EI & EO & _ & _ & _ & _ & HO & _).
    unfold hash_outputs in HO. unfold is_all in A. apply andb_true_iff in A as [B1 B2]. apply negb_true_iff in B1, B2.
    rewrite B1, B2 in HO. destruct HO as (ws & Hw & _). exists (concat ws), os, ws. auto. }
  destruct (X _ _ _ P1) as (o1 & O1). destruct (X _ _ _ P2) as (o2 & O2). exists p1, p2, o1, o2.
  split; [exact P1|]. split; [exact P2|]. split; [exact O1|]. split; [exact O2|]. destruct D as [->|D]; [right|now left].
  destruct (preimage_commits _ _ _ _ _ _ _ W1 W2 Bf Bf P1 P2) as (_ & _ & _ & _ & is1 & is2 & os1 & os2 & hp & hs & ho & E1 & E2 & EO1 & EO2 & _ & _ & _ & _ & R1 & R2).
  destruct (outputs_commit f _ _ os1 os2 ho A R1 R2) as (ws1 & ws2 & Y1 & Y2 & K).
  destruct O1 as (os1' & ws1' & E1' & Y1' & ->). destruct O2 as (os2' & ws2' & E2' & Y2' & ->).
  assert (os1' = os1) as -> by (apply map_some_inj; congruence). assert (os2' = os2) as -> by (apply map_some_inj; congruence).
  assert (forall ws ws' os, Forall2 (wire_output compact_min) ws os -> Forall2 (wire_output compact_min) ws' os -> ws = ws') as U.
  { clear. intros ws ws' os H. revert ws'. induction H as [|w o ws os H _ IH]; intros ws' H'; inversion H' as [|w' ? ws'' ? H1 H2]; subst; [reflexivity|].
    f_equal; [|auto]. apply wire_output_bytes in H, H1. congruence. }
  rewrite (U _ _ _ Y1' Y1), (U _ _ _ Y2' Y2). destruct K as [->|K]; [right; congruence|now left].
Qed.
Print Assumptions C37_outputs.

(** what the unlocking script and the spent script together check *)
Lemma accepted_checks verify t n i pub sg f : nth_error (inputs t) n = Some (Some (with_script i (fst (p2pkh_unlocking_script pub sg f)))) ->
  prev_script i = Some (p2pkh (hash160 pub)) -> nlen sg + 1 < 2 ^ 32 -> nlen pub < 2 ^ 32 -> f < 256 -> accepted verify t n ->
  exists p, preimage t n f p /\ verify pub (dsha p) sg.
Proof.
  intros E S LS LP Bf A. destruct (C64_full_machine verify t n A) as (i0 & u & s & st & E0 & U & PS & X & SAT).
  assert (i0 = with_script i (fst (p2pkh_unlocking_script pub sg f))) as -> by congruence. cbn [unlocking with_script prev_script] in U, PS.
  assert (s = p2pkh (hash160 pub)) as -> by congruence. assert (u = fst (p2pkh_unlocking_script pub sg f)) as -> by congruence.
  assert (st = [pub; sg ++ [n2b f]]) as ->.
  { unfold p2pkh_unlocking_script in X. cbn [app] in X.
    assert (nlen (sg ++ [n2b f]) < 4294967296) as L3 by (unfold nlen in *; rewrite app_length; cbn [length]; lia).
    rewrite append_array_ok in X by (intros q [<- | [<- | []]]; assumption). cbn [fst app map concat] in X.
    destruct (push_wire_announces _ L3) as (h1 & Q1 & A1). destruct (push_wire_announces _ LP) as (h2 & Q2 & A2). rewrite Q1, Q2 in X.
    rewrite <- app_assoc in X. apply exec_push_inv in X; [|exact A1]. rewrite <- app_assoc in X. apply exec_push_inv in X; [|exact A2]. apply exec_nil_inv in X. exact X. }
  apply p2pkh_iff in SAT; [|apply hash160_length]. destruct SAT as (pub' & sg' & st' & Q & _ & (s' & f' & p & Q1 & Bf' & P & V)).
  assert (pub' = pub) as -> by congruence. assert (sg' = sg ++ [n2b f]) as -> by congruence.
  apply app_inj_tail in Q1 as (<- & Q1). apply (f_equal b2n) in Q1. rewrite !b2n_n2b in Q1. rewrite !N.mod_small in Q1 by assumption. subst f'. eauto.
Qed.

(** The other way round: if more was added, the input can only be spent if the same signature
    verifies for another digest, or a collision (or a preimage of zero) is in plain sight. *)
Theorem C85_breaks verify t0 s n c i t1 post t2 : full_tx t0 -> sg_flag s < 256 -> nlen (inputs t0) + nlen post <= 2 ^ 32 -> honest verify (sg_key s) ->
  nth_error (inputs t0) n = Some (Some i) -> prev_txid i <> [] -> prev_script i = Some (p2pkh (hash160 (key_pub (sg_key s)))) ->
  signing s n c -> sign_do t0 c = Ok t1 ->
  Forall joint_bounds post -> Forall (leaves n i) post -> joint_run t1 post = Ok t2 -> full_tx t2 ->
  ~ may_add (flag_of s) n t1 t2 -> accepted verify t2 n ->
  exists p1 p2 sg, preimage t0 n (flag_of s) p1 /\ preimage t2 n (flag_of s) p2 /\ key_sign (sg_key s) (dsha p1) = Ok sg /\
    verify (key_pub (sg_key s)) (dsha p2) sg /\
    (dsha p1 <> dsha p2 \/ dcollision p1 p2 \/
     (exists a1 a2, all_outpoints t0 a1 /\ all_outpoints t2 a2 /\ dcollision a1 a2) \/
     (exists o1 o2, all_outputs t0 o1 /\ all_outputs t2 o2 /\ dcollision o1 o2) \/
     (exists o w, nth_error (outputs t2) n = Some (Some o) /\ output_to_bytes o = Ok w /\ dsha w = repeat x00 32)).
Proof.
  intros W Bf B HK E X S SG H BP LP J W2 MA AC.
  assert (nlen (inputs t0) <= 2 ^ 32) as B0 by lia.
  destruct (signer_writes verify t0 s n c i t1 (full_sig _ W) Bf B0 HK E X S SG H) as (p & sg & P & K & L & V & G & R & E1).
  set (u := fst _) in E1. pose proof (resigned_count _ _ R) as RC.
  pose proof (run_grown n (with_script i u) post t1 t2 BP ltac:(unfold nlen in *; lia) E1 LP J) as GR.
  assert (n < length (inputs t0))%nat as Ln by (apply nth_error_Some; congruence).
  assert (N.of_nat n < 2 ^ 32) as Bn by (unfold nlen in B0; lia).
  assert (flag_of s < 256) as Bu by (rewrite flag_of_used; now apply used_flag_small).
  assert (nth_error (inputs t2) n = Some (Some (with_script i u))) as E2 by (destruct GR as (_ & _ & _ & _ & Q); congruence).
  destruct (accepted_checks verify t2 n i (key_pub (sg_key s)) sg (flag_of s) E2 S L (proj1 HK) Bu AC) as (p2 & P2 & V2).
  exists p, p2, sg. split; [exact P|]. split; [exact P2|]. split; [exact K|]. split; [exact V2|].
  destruct (list_eq_dec Byte.byte_eq_dec (dsha p) (dsha p2)) as [DD|DD]; [right|now left].
  apply dsha_inj in DD as [DD|DD]; [right|now left]. subst p2.
  destruct (preimage_commits _ _ _ _ _ _ _ W W2 Bu Bu P P2) as (_ & _ & _ & _ & is1 & is2 & os1 & os2 & hp & hs & ho & I1 & I2 & O1 & O2 & HP1 & HP2 & _ & _ & HO1 & HO2).
  destruct GR as (_ & _ & (os & GO) & (l1 & l2 & GI & GS) & _). destruct R as (_ & RO & _ & RI).
  assert (any_one_can_pay (flag_of s) = false /\ length (inputs t2) <> length (inputs t1) \/
    is_none (flag_of s) = false /\ length (outputs t2) <> length (outputs t1) /\ ~ (is_single (flag_of s) = true /\ ((n < length (outputs t1))%nat \/ (length (outputs t2) <= n)%nat))) as [(C1 & C2)|(C1 & C2 & C3)].
  { unfold may_add in MA. destruct (any_one_can_pay (flag_of s)), (Nat.eq_dec (length (inputs t2)) (length (inputs t1))), (is_none (flag_of s)), (Nat.eq_dec (length (outputs t2)) (length (outputs t1))); tauto. }
  - left. destruct (prevouts_commit (flag_of s) is1 is2 hp C1 (full_parts _ _ W I1) (full_parts _ _ W2 I2) HP1 HP2) as (ws1 & ws2 & X1 & X2 & [Q|Q]).
    + exfalso. apply Forall2_length in Q. rewrite <- I1, <- I2 in Q. congruence.
    + exists (concat ws1), (concat ws2). split; [exists is1, ws1; auto|]. split; [exists is2, ws2; auto|exact Q].
  - right. destruct (is_single (flag_of s)) eqn:SI.
    + right. assert (length (outputs t1) <= n < length (outputs t2))%nat as LN by lia.
      unfold hash_outputs in HO1, HO2. rewrite C1, SI in HO1, HO2.
      assert (nth_error os1 n = None) as N1. { apply nth_error_None. rewrite RO in O1. apply (f_equal (@length _)) in O1. rewrite map_length in O1. lia. }
      rewrite N1 in HO1. destruct (nth_error os2 n) as [o|] eqn:N2.
      * destruct HO2 as (w & Hw & Q). exists o, w. split; [rewrite O2, nth_map_some, N2; reflexivity|]. split; [now apply wire_output_bytes|congruence].
      * exfalso. apply nth_error_None in N2. apply (f_equal (@length _)) in O2. rewrite map_length in O2. lia.
    + left. destruct (outputs_commit (flag_of s) n n os1 os2 ho) as (ws1 & ws2 & Y1 & Y2 & [Q|Q]); auto.
      * unfold is_all. rewrite C1, SI. reflexivity.
      * exfalso. apply C2. rewrite O2, <- RO, O1, Q. reflexivity.
      * exists (concat ws1), (concat ws2). split; [exists os1, ws1; auto|]. split; [exists os2, ws2; auto|exact Q].
Qed.
Print Assumptions C85_breaks.

(** ** Several holders *)
Lemma sig_script_honest verify t s n i x : sig_tx t -> sg_flag s < 256 -> nlen (inputs t) <= 2 ^ 32 -> honest verify (sg_key s) ->
  nth_error (inputs t) n = Some (Some i) -> prev_txid i <> [] -> prev_script i = Some x ->
  exists h sg, get_input_signature_hash t (N.of_nat n) (used_flag s) = Ok h /\ key_sign (sg_key s) (rev h) = Ok sg /\ nlen sg + 1 < 2 ^ 32 /\
    sig_script s (N.of_nat n) t = Ok (fst (p2pkh_unlocking_script (key_pub (sg_key s)) sg (used_flag s))).
Proof.
  intros W Bf B HK E X S. pose proof (used_flag_small s Bf) as Bu.
  assert (n < length (inputs t))%nat as Ln by (apply nth_error_Some; congruence).
  assert (N.of_nat n < 2 ^ 32) as Bn by (unfold nlen in B; lia).
  destruct (get_input_signature_hash t (N.of_nat n) (used_flag s)) as [h|e|] eqn:G.
  2:{ exfalso. apply sighash_err_iff in G as (i0 & E0 & D); try assumption. rewrite Nat2N.id in E0.
      assert (i0 = i) as -> by congruence. destruct D as [[D _]|(_ & D & _)]; congruence. }
  2:{ exfalso. apply sighash_panic_iff in G; try assumption. rewrite Nat2N.id in G. lia. }
  pose proof (sighash_len _ _ _ _ W Bn Bu G) as L32. destruct (proj2 HK _ L32) as (sg & K & L & _). exists h, sg.
  split; [reflexivity|]. split; [exact K|]. split; [exact L|]. unfold sig_script. rewrite G. cbn [bind]. rewrite K. reflexivity.
Qed.
Lemma unlocking_small pub sg f : nlen sg + 1 < 2 ^ 32 -> nlen pub < 2 ^ 32 -> nlen (fst (p2pkh_unlocking_script pub sg f)) < 2 ^ 63.
Proof.
  intros L Lp. unfold p2pkh_unlocking_script. cbn [app].
  assert (nlen (sg ++ [n2b f]) < 4294967296) as L3 by (unfold nlen in *; rewrite app_length; cbn [length]; lia).
  rewrite append_array_ok by (intros p [<- | [<- | []]]; assumption). cbn [fst app map concat].
  clear L. revert L3 Lp. generalize (sg ++ [n2b f]). intros a La Lb.
  unfold push_wire. destruct (push_prefix_ok a La) as [pa Ea]. destruct (push_prefix_ok pub Lb) as [pb Eb]. rewrite Ea, Eb.
  apply push_prefix_length in Ea, Eb. unfold nlen in *. rewrite !app_length. cbn [length].
  clear -Ea Eb La Lb. repeat match goal with H : context [if ?c then _ else _] |- _ => destruct c end; lia.
Qed.
Definition keyed (keys : list priv_key) (oi : option input) : Prop :=
  exists i k, oi = Some i /\ In k keys /\ prev_txid i <> [] /\ prev_script i = Some (p2pkh (hash160 (key_pub k))) /\ unlocking i = None.
Lemma p2pkh_inj h h' : p2pkh h = p2pkh h' -> h = h'.
Proof. unfold p2pkh. cbn [app]. intros E. injection E as E. apply app_inv_tail in E. exact E. Qed.
Lemma all_signed verify keys signers t : sig_tx t -> nlen (inputs t) <= 2 ^ 32 -> Forall (keyed keys) (inputs t) -> Forall (honest verify) keys ->
  all_sign keys signers ->
  exists t', sign_run t (map DoSignAuto signers) = Ok t' /\ resigned t t' /\
    forall n, (n < length (inputs t'))%nat -> accepted verify t' n /\ exists i, nth_error (inputs t') n = Some (Some i) /\ nlen (script_bytes (unlocking i)) < 2 ^ 63.
Proof.
  intros W B FK FH (FS & CV). rewrite Forall_forall in FK, FH, FS.
  assert (Forall call_bounds (map DoSignAuto signers)) as BC.
  { apply Forall_forall. intros c I. apply in_map_iff in I as (s & <- & I). apply (FS _ I). }
  assert (forall s n i k, In s signers -> nth_error (inputs t) n = Some (Some i) -> prev_txid i <> [] -> prev_script i = Some (p2pkh (hash160 (key_pub k))) ->
    hit (key_pub (sg_key s)) i = Ok true -> hash160 (key_pub (sg_key s)) = hash160 (key_pub k)) as HE.
  { intros s n i k _ _ _ S H. unfold hit in H. rewrite S in H. rewrite gpkh_p2pkh in H by apply hash160_length.
    assert (equals (hex_encode (hash160 (key_pub k))) (hex_encode (hash160 (key_pub (sg_key s)))) = true) as Q by congruence.
    apply equals_spec, hex_encode_inj in Q. now symmetry. }
  destruct (sign_run t (map DoSignAuto signers)) as [t'|e|] eqn:R.
  - exists t'. split; [reflexivity|]. destruct (history t _ t' BC B R) as (RS & HI). split; [exact RS|]. intros n Ln.
    rewrite (resigned_count _ _ RS) in Ln.
    destruct (nth_error (inputs t) n) as [oi|] eqn:N; [|apply nth_error_None in N; lia].
    destruct (FK _ (nth_error_In _ _ N)) as (i & k & -> & Ik & X & S & U).
    destruct (HI _ _ N) as [(c1 & c & c2 & u & EC & WR & _ & N')|(NW & _)].
    + assert (In c (map DoSignAuto signers)) as IC by (rewrite EC; apply in_elt). apply in_map_iff in IC as (s & <- & Is).
      destruct (FS _ Is) as (Ks & Bf). cbn [writes] in WR. rewrite N in WR.
      destruct (hit (key_pub (sg_key s)) i) as [[]|e|] eqn:Hh; try discriminate.
      destruct (sig_script_honest verify t s n i _ W Bf B (FH _ Ks) N X S) as (h & sg & G & K & L & SS). rewrite SS in WR.
      assert (u = fst (p2pkh_unlocking_script (key_pub (sg_key s)) sg (used_flag s))) as -> by congruence.
      pose proof (HE s n i k Is N X S Hh) as HH.
      split; [|eexists; split; [exact N'|cbn [unlocking with_script script_bytes]; apply unlocking_small; [exact L|apply (FH _ Ks)]]].
      apply (signed_accepted verify t t' n i s h sg); auto; [unfold nlen in B; lia|rewrite S, HH; reflexivity].
    + exfalso. destruct (CV _ Ik) as (s & Is & <-). destruct (FS _ Is) as (Ks & Bf).
      specialize (NW (DoSignAuto s) (in_map _ _ _ Is)). cbn [writes] in NW. rewrite N in NW.
      assert (hit (key_pub (sg_key s)) i = Ok true) as Hh by (apply hit_matches, gpkh_ok_iff; rewrite S; apply gpkh_p2pkh, hash160_length). rewrite Hh in NW.
      destruct (sig_script_honest verify t s n i _ W Bf B (FH _ Ks) N X S) as (h & sg & _ & _ & _ & SS). rewrite SS in NW. discriminate.
  - exfalso. clear -R BC B. revert R BC. assert (forall cs t1, Forall call_bounds cs -> nlen (inputs t1) <= 2 ^ 32 -> sign_run t1 cs = Err e -> False) as Q; [|intros R BC; exact (Q _ _ BC B R)].
    induction cs as [|c cs IH]; intros t1 F B1 H; cbn [sign_run] in H; [discriminate|]. inversion F as [|? ? F1 F2]; subst.
    destruct (sign_do t1 c) as [t2|e'|] eqn:D; cbn [bind] in H; try discriminate; [|now apply sign_do_not_err in D].
    destruct (sign_do_writes t1 c t2 F1 B1 D) as (RS & _). apply (IH t2 F2); [unfold nlen in *; rewrite (resigned_count _ _ RS); exact B1|exact H].
  - exfalso. apply history_panics in R as (c & IC & P); auto. apply in_map_iff in IC as (s & <- & Is). destruct (FS _ Is) as (Ks & Bf).
    cbn [sign_do] in P. unfold tx_sign_auto in P. rewrite sign_auto_eq in P by assumption.
    destruct (outcomes s t 0 (inputs t)) as [l|e|] eqn:O; try discriminate.
    apply outcomes_panic in O as (j & oi & E & PP). cbn [N.add] in PP.
    destruct (FK _ (nth_error_In _ _ E)) as (i & k & -> & Ik & X & S & U). cbn [P_Signer.outcome] in PP.
    destruct (hit (key_pub (sg_key s)) i) as [[]|e|] eqn:Hh; cbn [bind] in PP; try discriminate.
    + destruct (sig_script_honest verify t s j i _ W Bf B (FH _ Ks) E X S) as (h & sg & _ & _ & _ & SS). rewrite SS in PP; discriminate.
    + apply hit_panic in Hh. rewrite S, gpkh_p2pkh in Hh by apply hash160_length. discriminate.
Qed.

Lemma shared_asked known keys calls : forall asked, Forall (shared_call known keys) calls -> Forall2 asks calls asked ->
  Forall (fun oi => exists k, In k keys /\ coin known (key_pub k) oi /\ snd (point_of oi) < 2 ^ 32) (concat (map asked_inputs asked)) /\
  Forall (fun oo => exists h sats, oo = Some (mk_out sats (Some (p2pkh h))) /\ length h = 20%nat /\ sats < 2 ^ 64) (concat (map asked_outputs asked)) /\
  (length (concat (map asked_inputs asked)) + length (concat (map asked_outputs asked)) = length calls)%nat /\
  map point_of (concat (map asked_inputs asked)) = points calls /\
  sum (map amount_in (concat (map asked_inputs asked))) = funds calls /\
  sum (map amount_out (concat (map asked_outputs asked))) = payments calls /\
  (concat (map asked_outputs asked) <> [] <-> exists a sats, In (CallPayTo a sats) calls).
Proof.
  induction calls as [|c calls IH]; intros asked W A; inversion A as [|? x ? asked' A1 A2]; subst; clear A.
  - cbn. split; [constructor|]. split; [constructor|]. split; [reflexivity|]. split; [reflexivity|]. split; [reflexivity|]. split; [reflexivity|]. split; [congruence|intros (a & sats & [])].
  - inversion W as [|? ? (k & Ik & W1) W2]; subst. destruct (IH asked' W2 A2) as (J1 & J2 & J3 & J4 & J5 & J6 & J7).
    assert (Forall2 asks [c] [x]) as AX by (constructor; [exact A1|constructor]).
    destruct (wallet_asked known (key_pub k) [c] [x] (Forall_cons _ W1 (Forall_nil _)) AX) as (I1 & I2 & I3 & I4 & I5).
    cbn [map concat] in *. rewrite !app_nil_r in *. rewrite !map_app, !sum_app, I2, I3, I4, J4, J5, J6, !app_length.
    split; [|split; [|split; [|split; [|split; [|split]]]]].
    + apply Forall_app. split; [|exact J1]. destruct W1 as [a b o m id s W' E I K N LO TI SH U|h m sats L B].
      * destruct (wallet_from known (key_pub k) a b o m id s W' E I K N LO TI SH U) as (-> & -> & UN & B).
        rewrite (asks_from_inv _ _ _ _ _ _ (hex_dec_encode _) A1) in *. cbn [asked_inputs] in *. inversion I1 as [|? ? C1 _]; subst. constructor; [|constructor].
        exists k. split; [exact Ik|]. split; [exact C1|exact K].
      * rewrite (asks_pay_inv _ _ _ _ _ (proj1 (addr_round h m L)) (eq_refl : addr_pkh (addr_from_pkh h m) = hex_encode h) A1). constructor.
    + apply Forall_app. split; [|exact J2]. destruct W1 as [a b o m id s W' E I K N LO TI SH U|h m sats L B].
      * destruct (wallet_from known (key_pub k) a b o m id s W' E I K N LO TI SH U) as (-> & -> & UN & B).
        rewrite (asks_from_inv _ _ _ _ _ _ (hex_dec_encode _) A1). constructor.
      * rewrite (asks_pay_inv _ _ _ _ _ (proj1 (addr_round h m L)) (eq_refl : addr_pkh (addr_from_pkh h m) = hex_encode h) A1).
        cbn [asked_outputs]. constructor; [eauto|constructor].
    + destruct W1 as [a b o m id s W' E I K N LO TI SH U|h m sats L B].
      * destruct (wallet_from known (key_pub k) a b o m id s W' E I K N LO TI SH U) as (-> & -> & UN & B).
        rewrite (asks_from_inv _ _ _ _ _ _ (hex_dec_encode _) A1). cbn [asked_inputs asked_outputs length]. lia.
      * rewrite (asks_pay_inv _ _ _ _ _ (proj1 (addr_round h m L)) (eq_refl : addr_pkh (addr_from_pkh h m) = hex_encode h) A1).
        cbn [asked_inputs asked_outputs length]. lia.
    + unfold points. cbn [flat_map]. now rewrite app_nil_r.
    + unfold funds, sum. cbn [map fold_right]. lia.
    + unfold payments, sum. cbn [map fold_right]. lia.
    + split.
      * intros H. destruct (asked_outputs x) as [|y l] eqn:Q.
        -- apply J7 in H as (a & s & H). exists a, s. now right.
        -- destruct (proj1 I5 ltac:(discriminate)) as (a & s & [H'|[]]). exists a, s. now left.
      * intros (a & s & [H|H]).
        -- intros Z. apply app_eq_nil in Z as (Z & _). apply (proj2 I5); [|exact Z]. exists a, s. now left.
        -- intros Z. apply app_eq_nil in Z as (_ & Z). apply (proj2 J7); [|exact Z]. eauto.
Qed.

Lemma signed_wf known keys is os t' :
  Forall (fun oi => exists k, In k keys /\ coin known (key_pub k) oi /\ snd (point_of oi) < 2 ^ 32) is ->
  Forall (fun oo => exists h sats, oo = Some (mk_out sats (Some (p2pkh h))) /\ length h = 20%nat /\ sats < 2 ^ 64) os ->
  nlen is + nlen os < 2 ^ 31 -> resigned (mk_tx 1 is os 0) t' ->
  (forall n, (n < length (inputs t'))%nat -> exists i, nth_error (inputs t') n = Some (Some i) /\ nlen (script_bytes (unlocking i)) < 2 ^ 63) -> wf_tx t'.
Proof.
  intros I1 I2 L R AC. pose proof R as (RV & RO & RL & RI). cbn [version outputs locktime inputs] in RV, RO, RL, RI.
  assert (length is = length (inputs t')) as LI by (eapply Forall2_length, RI).
  split; [rewrite <- RV; reflexivity|]. split; [rewrite <- RL; reflexivity|].
  split; [unfold nlen in *; lia|]. split; [rewrite <- RO; unfold nlen in *; lia|]. split.
  - apply Forall_forall. intros oi I. apply In_nth_error in I as (n & N). destruct (F2_nth _ _ _ RI _ _ N) as (oj & NJ & SS).
    rewrite Forall_forall in I1. destruct (I1 _ (nth_error_In _ _ NJ)) as (k & Ik & (id & ix & o & UN & LO & LN & ->) & BX).
    destruct (AC n) as (i & N' & SM); [apply nth_error_Some; congruence|]. assert (oi = Some i) as -> by congruence.
    destruct SS as (Q1 & Q2 & Q3 & Q4 & Q5). cbn in Q1, Q2, Q3, Q4, Q5.
    exists i. split; [reflexivity|]. split; [exists (rev id); split; [now rewrite rev_length|now symmetry]|].
    split; [rewrite <- Q2; exact BX|split; [rewrite <- Q5; reflexivity|exact SM]].
  - rewrite <- RO. eapply Forall_impl; [|exact I2]. intros oo (h & sats & -> & Lh & Bs). eexists. split; [reflexivity|]. split; [exact Bs|].
    eexists. split; [reflexivity|]. now apply p2pkh_small.
Qed.
Lemma shared_sig known keys is os :
  Forall (fun oi => exists k, In k keys /\ coin known (key_pub k) oi /\ snd (point_of oi) < 2 ^ 32) is ->
  Forall (fun oo => exists h sats, oo = Some (mk_out sats (Some (p2pkh h))) /\ length h = 20%nat /\ sats < 2 ^ 64) os ->
  nlen is + nlen os < 2 ^ 31 -> sig_tx (mk_tx 1 is os 0) /\ Forall (keyed keys) is.
Proof.
  intros I1 I2 L. split.
  - split; [|split]; cbn [inputs outputs].
    + eapply Forall_impl; [|exact I1]. intros oi (k & Ik & (id & ix & o & UN & LO & LN & ->) & BX). eexists. split; [reflexivity|]. cbn [prev_txid prev_script]. split.
      * eexists. apply hex_dec_encode.
      * intros x Ex. assert (x = p2pkh (hash160 (key_pub k))) as -> by congruence. apply p2pkh_small, hash160_length.
    + eapply Forall_impl; [|exact I2]. intros oo (h & sats & -> & Lh & Bs). eexists. split; [reflexivity|]. split; [exact Bs|].
      eexists. split; [reflexivity|]. now apply p2pkh_small.
    + unfold nlen in *. lia.
  - eapply Forall_impl; [|exact I1]. intros oi (k & Ik & (id & ix & o & UN & LO & LN & ->) & BX). eexists _, k. split; [reflexivity|].
    split; [exact Ik|]. cbn [prev_txid prev_script unlocking]. split; [apply hex32_nonempty; now rewrite rev_length|]. split; reflexivity.
Qed.

(** Outputs of any number of keys are spent in one transaction; each holder calls SignAuto, with
    whatever flag, in whatever order, as often as he likes: the transaction is accepted. *)
Theorem C85_joint verify known keys calls signers : Forall (honest verify) keys -> Forall (shared_call known keys) calls -> nlen calls < 2 ^ 31 ->
  all_sign keys signers ->
  exists t' b, sign_run (tx_run tx_new calls) (map DoSignAuto signers) = Ok t' /\ tx_to_bytes t' = Ok b /\
    (sized b -> balanced calls -> node_accepts verify known b).
Proof.
  intros FH F B AS. assert (exists asked, Forall2 asks calls asked) as (asked & A).
  { clear. induction calls as [|c calls (asked & IH)]; [exists []; constructor|]. destruct (asks_total c) as (a & H). exists (a :: asked). now constructor. }
  destruct (shared_asked known keys calls asked F A) as (I1 & I2 & L & I3 & I4 & I5 & I6).
  pose proof (tx_run_eq calls tx_new asked A) as RE.
  change (tx_run tx_new calls = mk_tx 1 (concat (map asked_inputs asked)) (concat (map asked_outputs asked)) 0) in RE.
  set (is := concat (map asked_inputs asked)) in *. set (os := concat (map asked_outputs asked)) in *. rewrite RE. clear RE. set (t := mk_tx 1 is os 0) in *.
  assert (nlen (inputs t) <= 2 ^ 32) as BI by (cbn [t inputs]; unfold nlen in *; lia).
  destruct (shared_sig known keys is os I1 I2 ltac:(unfold nlen in *; lia)) as (W & FK). fold t in W.
  destruct (all_signed verify keys signers t W BI FK FH AS) as (t' & SR & R & AC). pose proof R as (RV & RO & RL & RI). cbn [t version outputs locktime inputs] in RV, RO, RL, RI.
  assert (wf_tx t') as WT by (apply (signed_wf known keys is os t'); auto; [unfold nlen in *; lia|intros n Ln; apply (AC n Ln)]).
  destruct (wf_wire t' WT) as (b & Hb). pose proof (wire_tx_bytes _ _ Hb) as EB. exists t', b. split; [exact SR|]. split; [exact EB|]. intros S (D & NE & PAY & BAL).
  pose proof (wire_of_written _ _ WT EB) as OW. destruct (signed_points _ _ RI) as (P1 & P2 & P3).
  exists (bare_tx t'), t'. split; [exact OW|]. split; [reflexivity|]. split; [reflexivity|]. split; [reflexivity|].
  unfold spent. cbn [bare_tx inputs outputs]. split; [|split; [intros n Ln; apply (AC n Ln)|]].
  - apply F2_build. intros n oi N.
    destruct (F2_nth _ _ _ RI _ _ N) as (oj & NJ & SS). rewrite Forall_forall in I1.
    destruct (I1 _ (nth_error_In _ _ NJ)) as (k & Ik & (id & ix & o & UN & LO & LN & ->) & BX).
    destruct (AC n) as ((i & u & s & st & st' & N' & U & _) & _); [apply nth_error_Some; congruence|].
    assert (oi = Some i) as -> by congruence. cbn [same_signed_input prev_txid prev_index prev_sats prev_script sequence] in SS.
    destruct SS as (S1 & S2 & S3 & S4 & S5). exists (bare_input i), o, id. split; [reflexivity|]. unfold bare_input. cbn [prev_txid prev_index unlocking sequence].
    split; [now symmetry|]. split; [rewrite <- S2; exact UN|]. rewrite U. cbn [script_bytes].
    destruct i as [a1 a2 a3 a4 a5 a6]. cbn in *. subst. rewrite LO. reflexivity.
  - rewrite P3, I3. split; [exact D|]. split.
    { intros E. apply (f_equal (map point_of)) in E. rewrite P3, I3 in E. now apply NE. }
    rewrite <- RO. split; [now apply I6|]. rewrite I5, P2, I4. exact BAL.
Qed.
Print Assumptions C85_joint.

(** All of them are needed: if an input pays to a key that has not signed, the transaction is refused. *)
Theorem C85_all_needed verify known keys calls signers n i h t' b : Forall (shared_call known keys) calls -> nlen calls < 2 ^ 31 ->
  no_collision known -> Forall sized known -> sized b -> Forall (fun s => honest verify (sg_key s) /\ sg_flag s < 256) signers ->
  nth_error (inputs (tx_run tx_new calls)) n = Some (Some i) -> prev_script i = Some (p2pkh h) -> length h = 20%nat ->
  (forall s, In s signers -> hash160 (key_pub (sg_key s)) <> h) ->
  sign_run (tx_run tx_new calls) (map DoSignAuto signers) = Ok t' -> tx_to_bytes t' = Ok b -> ~ node_accepts verify known b.
Proof.
  intros F B NC SK S FB N PS LH NS R TB (t & full & OW & _ & _ & _ & LU & AC & _).
  assert (exists asked, Forall2 asks calls asked) as (asked & A).
  { clear. induction calls as [|c calls (asked & IH)]; [exists []; constructor|]. destruct (asks_total c) as (a & H). exists (a :: asked). now constructor. }
  destruct (shared_asked known keys calls asked F A) as (I1 & I2 & L & _).
  pose proof (tx_run_eq calls tx_new asked A) as RE.
  change (tx_run tx_new calls = mk_tx 1 (concat (map asked_inputs asked)) (concat (map asked_outputs asked)) 0) in RE. rewrite RE in N, R.
  set (is := concat (map asked_inputs asked)) in *. set (os := concat (map asked_outputs asked)) in *. clear RE. set (t0 := mk_tx 1 is os 0) in *.
  assert (nlen (inputs t0) <= 2 ^ 32) as BI by (cbn [t0 inputs]; unfold nlen in *; lia).
  destruct (shared_sig known keys is os I1 I2 ltac:(unfold nlen in *; lia)) as (W & FK). fold t0 in W.
  rewrite Forall_forall in FB, FK.
  assert (Forall call_bounds (map DoSignAuto signers)) as BC.
  { apply Forall_forall. intros c I. apply in_map_iff in I as (s & <- & I). apply (FB _ I). }
  destruct (history t0 _ t' BC BI R) as (RS & HI).
  assert (forall m, (m < length (inputs t'))%nat -> exists j, nth_error (inputs t') m = Some (Some j) /\ nlen (script_bytes (unlocking j)) < 2 ^ 63) as SM.
  { intros m Lm. rewrite (resigned_count _ _ RS) in Lm. destruct (nth_error (inputs t0) m) as [oj|] eqn:NM; [|apply nth_error_None in NM; lia].
    destruct (FK _ (nth_error_In _ _ NM)) as (j & k & -> & Ik & X & PJ & U).
    destruct (HI _ _ NM) as [(c1 & c & c2 & u & EC & WR & _ & N')|(NW & N')]; (eexists; split; [exact N'|]); [|rewrite U; reflexivity].
    assert (In c (map DoSignAuto signers)) as IC by (rewrite EC; apply in_elt). apply in_map_iff in IC as (s & <- & Is).
    destruct (FB _ Is) as (Ks & Bf). cbn [writes] in WR. rewrite NM in WR.
    destruct (hit (key_pub (sg_key s)) j) as [[]|e|] eqn:Hh; try discriminate.
    destruct (sig_script_honest verify t0 s m j _ W Bf BI Ks NM X PJ) as (h' & sg & G & K & L' & SS). rewrite SS in WR.
    assert (u = fst (p2pkh_unlocking_script (key_pub (sg_key s)) sg (used_flag s))) as -> by congruence.
    cbn [unlocking with_script script_bytes]. apply unlocking_small; [exact L'|apply Ks]. }
  assert (wf_tx t') as WT by (apply (signed_wf known keys is os t'); auto; unfold nlen in *; lia).
  assert (t = bare_tx t') as -> by (eapply on_wire_unique; [exact S|exact OW|apply wire_of_written; auto]).
  assert (nth_error (inputs t') n = Some (Some i)) as N'.
  { destruct (HI _ _ N) as [(c1 & c & c2 & u & EC & WR & _ & _)|(_ & Q)]; [exfalso|exact Q].
    assert (In c (map DoSignAuto signers)) as IC by (rewrite EC; apply in_elt). apply in_map_iff in IC as (s & <- & Is).
    cbn [writes] in WR. rewrite N in WR. destruct (hit (key_pub (sg_key s)) i) as [[]|e|] eqn:Hh; try discriminate.
    unfold hit in Hh. rewrite PS, gpkh_p2pkh in Hh by exact LH. apply (NS s Is).
    assert (equals (hex_encode h) (hex_encode (hash160 (key_pub (sg_key s)))) = true) as Q by congruence.
    apply equals_spec, hex_encode_inj in Q. now symmetry. }
  cbn [bare_tx inputs] in LU.
  assert (nth_error (map (option_map bare_input) (inputs t')) n = Some (Some (bare_input i))) as NB by (rewrite nth_error_map, N'; reflexivity).
  assert (exists of, nth_error (inputs full) n = Some of /\ looked_up known (Some (bare_input i)) of) as (of & NF & LK).
  { clear -LU NB. revert n NB. induction LU as [|x y l l' H _ IH]; intros [|n] NB; try discriminate; cbn [nth_error] in *; [exists y; split; congruence|eauto]. }
  rewrite Forall_forall in I1. destruct (I1 _ (nth_error_In _ _ N)) as (k & Ik & (id & ix & o & ((b1 & u1 & K1 & D1 & W1 & M1) & _) & LO & LN & EI) & BX).
  assert (i = mk_in (hex_encode (rev id)) ix (satoshis o) (Some (p2pkh (hash160 (key_pub k)))) None (2 ^ 32 - 1)) as Ei by congruence. clear EI.
  destruct LK as (j & o' & id' & Ej & X & ((b2 & u2 & K2 & D2 & W2 & M2) & _) & ->). assert (j = bare_input i) as -> by congruence. clear Ej.
  rewrite Ei in X, M2. unfold bare_input in X, M2. cbn [prev_txid prev_index] in X, M2. apply hex_encode_inj in X. apply (f_equal (@rev byte)) in X. rewrite !rev_involutive in X. subst id'.
  assert (b2 = b1) as -> by (apply NC; congruence). rewrite Forall_forall in SK.
  assert (u2 = u1) as -> by (apply (on_wire_unique b1); auto). assert (o' = o) as -> by congruence.
  destruct (C64_full_machine verify full n) as (i0 & u & s & st & N0 & U0 & P0 & X0 & SAT); [apply AC, nth_error_Some; congruence|].
  rewrite NF in N0. match type of N0 with Some (Some ?a) = _ => assert (i0 = a) as -> by congruence end. clear N0.
  rewrite Ei in U0, P0. unfold bare_input in U0, P0. cbn [unlocking prev_script script_bytes] in U0, P0. assert (u = []) as -> by congruence.
  apply exec_nil_inv in X0. subst st. rewrite LO in P0. assert (s = p2pkh (hash160 (key_pub k))) as -> by congruence.
  apply p2pkh_iff in SAT; [|apply hash160_length]. destruct SAT as (pub & sg & st & Q & _). discriminate.
Qed.
Print Assumptions C85_all_needed.
