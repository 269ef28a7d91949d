(** C78 for hashes of 20 bytes or more, C79 for redeem scripts without keys and for
    imported ones. *)
From Verif Require T_Script T_Exact T_Redeem.
From Verif Require Import P_TxMisc P_Redeem P_Flow S_Redeem S_RedeemApi P_Crypto P_Demand T_Demand.
From Coq Require Import Lia ZifyBool ZifyNat ZifyN.

(** A hash of 20 bytes or more: what stands behind the first 20 is run as program text,
    with those 20, the hash of the top and the top itself on the stack. *)
Theorem C78_long_hash : forall t h, hex_text t h -> (20 <= length h)%nat -> exists s, p2pkh_from_pkh_str t = Ok s /\ forall chk st,
  satisfied chk s st <-> exists pub st', st = pub :: st' /\
    satisfied chk (skipn 20 h ++ [x88; xac]) (firstn 20 h :: ripemd160 (sha256 pub) :: pub :: st').
Proof.
  intros t h T L. apply hex_text_iff in T. exists (p2pkh h). split; [now apply T_Script.C13_from_pkh_str|]. intros chk st.
  assert (forall st', exec chk (p2pkh h) st st' <-> exists x r, st = x :: r /\ exec chk ([x14] ++ h ++ [x88; xac]) (ripemd160 (sha256 x) :: x :: r) st') as S.
  { intros st'. unfold p2pkh. cbn [app]. split.
    - intros H. apply exec_word_inv in H as (s1 & W & H); [|vm_compute; discriminate|discriminate]. apply dup_iff in W as (x & r & -> & ->).
      apply exec_word_inv in H as (s2 & W & H); [|vm_compute; discriminate|discriminate]. apply hash_iff in W as (y & q & E & ->). injection E as <- <-. eauto.
    - intros (x & r & -> & H). eapply ex_word; [constructor|]. eapply ex_word; [constructor|]. exact H. }
  replace ([x14] ++ h ++ [x88; xac]) with ([x14] ++ firstn 20 h ++ (skipn 20 h ++ [x88; xac])) in S.
  2:{ f_equal. rewrite app_assoc. f_equal. apply firstn_skipn. }
  assert (announces [x14] (nlen (firstn 20 h))) as A by (apply announces_20; rewrite firstn_length; lia).
  unfold satisfied. split.
  - intros (top & st' & H & T'). apply S in H as (x & r & -> & H). apply exec_push_iff in H; [|assumption]. exists x, r. split; [reflexivity|]. eauto.
  - intros (x & r & -> & top & st' & H & T'). exists top, st'. split; [|assumption]. apply S. exists x, r. split; [reflexivity|].
    now apply exec_push_iff.
Qed.
Print Assumptions C78_long_hash.

(** So with one byte too many the output can be anybody's: here 21 bytes, the last one
    OP_RETURN, which ends the script with the 20 bytes on top. *)
Theorem C78_long_hash_refuted : exists h s, length h = 21%nat /\ p2pkh_from_pkh_str (hex_encode h) = Ok s /\
  forall chk x st, satisfied chk s (x :: st).
Proof.
  destruct (C78_long_hash (hex_encode (repeat x2a 20 ++ [x6a])) (repeat x2a 20 ++ [x6a])) as (s & H & D); [apply hex_text_encode|cbn; lia|].
  exists (repeat x2a 20 ++ [x6a]), s. split; [reflexivity|]. split; [assumption|]. intros chk x st. apply D. exists x, st. split; [reflexivity|].
  exists (repeat x2a 20), (ripemd160 (sha256 x) :: x :: st). split; [exact (ex_return _ _ _)|].
  change (repeat x2a 20) with (repeat x2a 19 ++ [x2a]). apply last_truthy; discriminate.
Qed.
Print Assumptions C78_long_hash_refuted.

(** A redeem script to which no key was added: nobody can satisfy it. *)
Theorem C79_no_keys : forall m rs0, new_redeem_script m = Ok rs0 -> forall chk st, ~ satisfied chk (fst (get_redeem_script rs0)) st.
Proof.
  intros m rs0 N chk st. apply T_Redeem.C51_accepts_iff in N as [M ->].
  rewrite (T_Redeem.C50_value m [] []) by (split; [constructor|constructor]). cbn [fst].
  intros (top & st' & H & _).
  assert (multisig_script (Z.to_N (m mod 256)) [] = [n2b (80 + Z.to_N (m mod 256))] ++ [x50; xae]) as E by (unfold multisig_script; cbn; reflexivity).
  rewrite E in H. cbn [app] in H. rewrite Z.mod_small in H by lia.
  assert (b2n (n2b (80 + Z.to_N m)) = 80 + Z.to_N m) as Q by (apply b2n_n2b_small; lia).
  apply exec_word_inv in H as (s1 & W & H); [| |].
  - apply exec_word_inv in H as (s2 & W2 & H); [|vm_compute; discriminate|discriminate].
    apply word_high in W2. vm_compute in W2. now apply W2.
  - rewrite Q. lia.
  - intros X. apply (f_equal b2n) in X. rewrite Q in X. change (b2n x6a) with 106 in X. lia.
Qed.
Print Assumptions C79_no_keys.

(** The general form, for a redeem script that came from anywhere and any history of
    calls on it. *)
Lemma demand_from H rs0 h rs ks l : (1 <= sigs_required rs0 <= 16)%Z -> run_redeem H rs0 h = Ok rs -> adds H h ks -> sorted_of (public_keys rs0 ++ ks) l ->
  1 <= nlen (public_keys rs0 ++ ks) <= 16 -> (forall k, In k (public_keys rs0 ++ ks) -> 1 <= nlen k <= 75) ->
  forall chk st, satisfied chk (fst (get_redeem_script rs)) st <->
    exists sgs dummy st', st = rev sgs ++ dummy :: st' /\ Z.of_nat (length sgs) = sigs_required rs0 /\ in_order chk sgs l.
Proof.
  intros M R A S K B chk st. destruct (run_adds _ _ _ _ _ R A) as [E P].
  assert (sorted_of (public_keys rs) l) as S' by (destruct S as [P1 S1]; split; [rewrite <- P; exact P1|exact S1]).
  rewrite (redeem_script_iff rs l S'), E. cbn [fst]. rewrite Z.mod_small by lia.
  assert (nlen l = nlen (public_keys rs0 ++ ks)) as EL by (unfold nlen; f_equal; symmetry; apply Permutation_length, S).
  unfold multisig_script. rewrite (multisig_iff chk (Z.to_N (sigs_required rs0)) l st); [|lia|lia|].
  - split; intros (sgs & dummy & st' & X & Y & Z).
    + exists sgs, dummy, st'. split; [assumption|]. split; [unfold nlen in Y; lia|tauto].
    + exists sgs, dummy, st'. split; [assumption|]. split; [unfold nlen; lia|]. split; [|assumption].
      apply in_order_length in Z. unfold nlen. unfold bytes in *. lia.
  - intros k I. apply B. eapply Permutation_in; [apply Permutation_sym, S|assumption].
Qed.

(** A redeem script imported from Electrum, with any history of calls on it: what it
    demands are as many signatures as the first element of the imported text says, for
    the derived keys and those added. *)
Theorem C79_imported : forall H text rs0 h rs ks l, redeem_from_electrum H text = Ok rs0 -> run_redeem H rs0 h = Ok rs -> adds H h ks ->
  sorted_of (public_keys rs0 ++ ks) l ->
  1 <= nlen (public_keys rs0 ++ ks) <= 16 -> (forall k, In k (public_keys rs0 ++ ks) -> 1 <= nlen k <= 75) ->
  exists bs c0 t0 elems, hex_dec text = Some bs /\ decode_parts bs = Ok ((c0 :: t0) :: elems) /\
  forall chk st, satisfied chk (fst (get_redeem_script rs)) st <->
    exists sgs dummy st', st = rev sgs ++ dummy :: st' /\ 80 + nlen sgs = b2n c0 /\ in_order chk sgs l.
Proof.
  intros H text rs0 h rs ks l I R A S K B.
  apply T_Redeem.C58_accepts_iff in I as (bs & c0 & t0 & es & cn & tn & tl & pubs & X & D & C & _ & _ & _ & E).
  assert (exists elems, decode_parts bs = Ok ((c0 :: t0) :: elems)) as (elems & Dp).
  { exists (es ++ [cn :: tn; xae :: tl]). now apply P_Push.decode_ok_iff. }
  exists bs, c0, t0, elems. split; [assumption|]. split; [assumption|]. intros chk st.
  assert (sigs_required rs0 = Z.of_N (b2n c0 - 80)) as M by (now rewrite E).
  rewrite (demand_from H rs0 h rs ks l) by (assumption || lia). rewrite M.
  split; intros (sgs & dummy & st' & Y & Z & O); exists sgs, dummy, st'; (split; [assumption|]); (split; [|assumption]); unfold nlen in *; lia.
Qed.
Print Assumptions C79_imported.

(** one key of 33 bytes and a threshold of two, as imported: more than there are keys *)
Example C79_imported_example : let H := mk_hd N (fun t => Ok (nlen t)) (fun k i => Ok (k + i)) (fun k => Ok (x02 :: repeat (n2b k) 32)) in
  exists k rs, redeem_from_electrum H (str "524c53ff" ++ concat (repeat (str "00") 78) ++ str "0100020051ae") = Ok rs /\
    public_keys rs = [k] /\ nlen k = 33 /\ sigs_required rs = 2%Z.
Proof. cbv zeta. eexists _, _. split; [vm_compute; reflexivity|]. split; [reflexivity|]. split; reflexivity. Qed.
