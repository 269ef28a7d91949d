(** C78: what the single-key, puzzle and data outputs made by the library ask of a
    spender. C79: the same for multisig redeem scripts. *)
From Verif Require T_Script T_Exact T_Redeem.
From Verif Require Import P_TxMisc P_Redeem P_Flow S_Redeem S_RedeemApi P_Crypto P_Demand.
From Coq Require Import ZifyBool ZifyNat ZifyN.

(** Paying an address: exactly a key with the hash in the address and a signature that
    checks under it will do. *)
Theorem C78_address : forall addr s, p2pkh_from_address addr = Ok s ->
  exists a h, addr_from_string addr = Ok a /\ addr_pkh a = hex_encode h /\ length h = 20%nat /\
    forall chk st, satisfied chk s st <-> key_and_signature chk h st.
Proof.
  intros addr s H. destruct (addr_from_string addr) as [a|e|] eqn:E.
  - destruct (T_Script.C13_from_address addr a E) as (h & L & P & H'). rewrite H in H'.
    assert (s = p2pkh h) as -> by (now injection H'). exists a, h. repeat split; try assumption; intros; apply p2pkh_iff in H0; assumption.
  - destruct (T_Script.C13_from_bad_address addr) as (e' & X); [intros a; congruence|congruence].
  - destruct (T_Script.C13_from_bad_address addr) as (e' & X); [intros a; congruence|congruence].
Qed.

Theorem C78_pay_to : forall t addr sats t', tx_pay_to t addr sats = (t', None) ->
  exists o s a h, outputs t' = outputs t ++ [Some o] /\ satoshis o = sats /\ locking o = Some s /\
    addr_from_string addr = Ok a /\ addr_pkh a = hex_encode h /\
    forall chk st, satisfied chk s st <-> key_and_signature chk h st.
Proof.
  intros t addr sats t'. unfold tx_pay_to, output_p2pkh_from_address. destruct (p2pkh_from_address addr) as [s|e|] eqn:E; cbn [bind].
  - intros [= <-]. destruct (C78_address addr s E) as (a & h & A & P & _ & S). do 2 eexists. exists a, h. repeat split; try assumption; apply S.
  - discriminate.
  - exfalso. destruct (addr_from_string addr) as [a|e|] eqn:A.
    + destruct (T_Script.C13_from_address addr a A) as (h & _ & _ & X). congruence.
    + destruct (T_Script.C13_from_bad_address addr) as (e' & X); [intros a; congruence|congruence].
    + destruct (T_Script.C13_from_bad_address addr) as (e' & X); [intros a; congruence|congruence].
Qed.

(** Paying a public key: that key, or another with the same hash. *)
Theorem C78_public_key : forall k chk st, satisfied chk (p2pkh_from_pubkey_bytes k) st <->
  exists pub sg st', st = pub :: sg :: st' /\ (pub = k \/ collision hash160 pub k) /\ chk sg pub.
Proof.
  intros k chk st. destruct (T_Script.C13_from_pubkey_bytes k) as [-> L]. rewrite p2pkh_iff by assumption. unfold key_and_signature.
  split; intros (pub & sg & st' & E & H & C); exists pub, sg, st'; repeat split; try assumption.
  - destruct (list_eq_dec Byte.byte_eq_dec pub k) as [->|N]; [now left|right]. split; assumption.
  - destruct H as [->|[_ H]]; [reflexivity|assumption].
Qed.

(** The unlocking script that Sign makes leaves key and signature, nothing else; so it
    unlocks a P2PKH output of that key exactly when the signature checks. *)
Theorem C78_unlocking_script : forall pub sg flag u, p2pkh_unlocking_script pub sg flag = (u, None) ->
  forall chk st, (exec chk u [] st <-> st = [pub; sg ++ [n2b flag]]) /\
    (satisfied chk (p2pkh_from_pubkey_bytes pub) [pub; sg ++ [n2b flag]] <-> chk (sg ++ [n2b flag]) pub).
Proof.
  intros pub sg flag u H chk st. split.
  - destruct (N.ltb_spec (nlen (sg ++ [n2b flag])) (2 ^ 32)) as [A|A].
    + destruct (N.ltb_spec (nlen pub) (2 ^ 32)) as [B|B].
      * destruct (T_Exact.C18_bytes pub sg flag) as (h & k & E & [P _] & [Q _]); [assumption|assumption|]. rewrite H in E. injection E as ->.
        rewrite exec_push_iff by assumption. rewrite <- (app_nil_r (k ++ pub)), <- app_assoc. rewrite exec_push_iff by assumption. apply exec_nil_iff.
      * destruct (T_Exact.C18_fails pub sg flag) as (e & X); [right; assumption|congruence].
    + destruct (T_Exact.C18_fails pub sg flag) as (e & X); [left; assumption|congruence].
  - rewrite C78_public_key. split.
    + intros (p & s & r & [= -> -> <-] & _ & C). assumption.
    + intros C. exists pub, (sg ++ [n2b flag]), []. split; [reflexivity|]. split; [now left|assumption].
Qed.

(** A hash puzzle: something with the hash of the secret on top, then key and signature. *)
Theorem C78_hash_puzzle : forall secret pkh sats o, output_hash_puzzle secret pkh sats = Ok o ->
  exists s h, locking o = Some s /\ satoshis o = sats /\ hex_text pkh h /\
    forall chk st, satisfied chk s st <->
      exists x st', st = x :: st' /\ (x = secret \/ collision hash160 x secret) /\ key_and_signature chk h st'.
Proof.
  intros secret pkh sats o H. apply T_Exact.C54_hash_puzzle_bytes in H as (h & k & T & _ & [A _] & ->).
  eexists _, h. split; [reflexivity|]. split; [reflexivity|]. split; [assumption|]. intros chk st.
  rewrite (puzzle_iff chk (hash160 secret) k h st) by (apply hash160_length || assumption).
  split; intros (x & st' & E & Q & K); exists x, st'; (split; [assumption|]); (split; [|assumption]).
  - destruct (list_eq_dec Byte.byte_eq_dec x secret) as [->|N]; [now left|right]. split; assumption.
  - destruct Q as [->|[_ Q]]; [reflexivity|assumption].
Qed.

(** nobody can spend one whose key hash is not 20 bytes; this is not checked *)
Theorem C78_hash_puzzle_size : forall secret pkh sats o s h, output_hash_puzzle secret pkh sats = Ok o -> locking o = Some s ->
  hex_text pkh h -> length h <> 20%nat -> forall chk st, ~ satisfied chk s st.
Proof.
  intros secret pkh sats o s h H L T N chk st S. destruct (C78_hash_puzzle _ _ _ _ H) as (s' & h' & L' & _ & T' & I).
  rewrite L in L'. assert (s' = s) as -> by (now injection L'). destruct (proj1 (I chk st) S) as (x & st' & _ & _ & pub & sg & r & _ & E & _).
  apply hex_text_iff in T, T'. assert (h' = h) as -> by congruence. apply N. rewrite <- E. apply hash160_length.
Qed.

(** Data outputs cannot be spent, whatever the data. *)
Theorem C78_data : forall parts o s, output_op_return_parts parts = Ok o -> locking o = Some s -> forall chk st, ~ satisfied chk s st.
Proof.
  intros parts o s H L chk st. apply T_Exact.C54_data_bytes in H as (w & _ & _ & ->). cbn [locking] in L. injection L as <-. apply data_never.
Qed.

(** The natural claim "NewP2PkhFromPubKeyHash makes an output that only the owner of the
    key can spend" is false for a hash of another length than 20, which is not refused:
    with 18 bytes anybody can spend it, with fewer nobody, with 19 the last byte of what
    is taken for the public key is 88. *)
Lemma last_truthy x c : c <> x00 -> c <> x80 -> truthy (x ++ [c]).
Proof.
  intros A B (k & [E|E]).
  - destruct k as [|k]; [now destruct x|]. cbn [repeat] in E. rewrite repeat_cons in E. apply app_inj_tail in E as [_ E]. contradiction.
  - apply app_inj_tail in E as [_ E]. contradiction.
Qed.

Theorem C78_hash_size : forall t h, hex_text t h -> (length h < 20)%nat -> exists s, p2pkh_from_pkh_str t = Ok s /\ forall chk st,
  (length h = 18%nat -> (satisfied chk s st <-> st <> [])) /\
  ((length h < 18)%nat -> ~ satisfied chk s st) /\
  (length h = 19%nat -> (satisfied chk s st <-> exists x st', st = x :: st' /\ chk (ripemd160 (sha256 x)) (h ++ [x88]))).
Proof.
  intros t h T L. apply hex_text_iff in T. exists (p2pkh h). split; [now apply T_Script.C13_from_pkh_str|]. intros chk st.
  assert (forall st', exec chk (p2pkh h) st st' <-> exists x r, st = x :: r /\ exec chk ([x14] ++ h ++ [x88; xac]) (ripemd160 (sha256 x) :: x :: r) st') as S.
  { intros st'. unfold p2pkh. cbn [app]. split.
    - intros H. apply exec_word_inv in H as (s1 & W & H); [|vm_compute; discriminate|discriminate]. apply dup_iff in W as (x & r & -> & ->).
      apply exec_word_inv in H as (s2 & W & H); [|vm_compute; discriminate|discriminate]. apply hash_iff in W as (y & q & E & ->). injection E as <- <-. eauto.
    - intros (x & r & -> & H). eapply ex_word; [constructor|]. eapply ex_word; [constructor|]. exact H. }
  split; [|split].
  - intros L'. replace ([x14] ++ h ++ [x88; xac]) with ([x14] ++ (h ++ [x88; xac]) ++ []) in S by (now rewrite app_nil_r).
    assert (announces [x14] (nlen (h ++ [x88; xac]))) as A by (apply announces_20; rewrite app_length, L'; reflexivity). split.
    + intros (top & st' & H & _) ->. apply S in H as (x & r & H & _). discriminate.
    + intros N. destruct st as [|x r]; [contradiction|]. exists (h ++ [x88; xac]), (ripemd160 (sha256 x) :: x :: r). split.
      * apply S. exists x, r. split; [reflexivity|]. apply exec_push_iff; [assumption|constructor].
      * change [x88; xac] with ([x88] ++ [xac]). rewrite app_assoc. apply last_truthy; discriminate.
  - intros L' (top & st' & H & _). apply S in H as (x & r & _ & H).
    inversion H as [|k d q ? ? A X E|c q ? st1 ? W X E|]; subst.
    + assert (k = [x14] /\ nlen d = b2n x14 /\ d ++ q = h ++ [x88; xac]) as (_ & N & E').
      { eapply announces_prefix; [exact A|apply an_direct; vm_compute; discriminate|exact E]. }
      apply (f_equal (@length byte)) in E'. rewrite !app_length in E'. change (length [x88; xac]) with 2%nat in E'.
      assert (length d = 20%nat) by (change (b2n x14) with 20 in N; unfold nlen in N; unfold bytes in *; lia). lia.
    + apply word_high in W. vm_compute in W. now apply W.
  - intros L'. replace ([x14] ++ h ++ [x88; xac]) with ([x14] ++ (h ++ [x88]) ++ [xac]) in S by (now rewrite <- (app_assoc h)).
    assert (announces [x14] (nlen (h ++ [x88]))) as A by (apply announces_20; rewrite app_length, L'; reflexivity). split.
    + intros (top & st' & H & T'). apply S in H as (x & r & -> & H). apply exec_push_inv in H; [|assumption].
      apply exec_word_inv in H as (s1 & W & H); [|vm_compute; discriminate|discriminate]. apply exec_nil_inv in H. subst s1.
      apply sig_iff in W as (pub & sg & q & E & [(C & E')|(C & E')]); injection E' as -> ->; [|now apply falsy_nil in T'].
      injection E as <- <- <-. eauto.
    + intros (x & r & -> & C). exists [x01], (x :: r). split; [|apply truthy_one]. apply S. exists x, r. split; [reflexivity|].
      apply exec_push_iff; [assumption|]. eapply ex_word; [now constructor|]. constructor.
Qed.

Theorem C78_only_owner_refuted : exists t s, p2pkh_from_pkh_str t = Ok s /\ forall chk x st, satisfied chk s (x :: st).
Proof.
  destruct (C78_hash_size (hex_encode (repeat x2a 18)) (repeat x2a 18)) as (s & H & D); [apply hex_text_encode|cbn; lia|].
  exists (hex_encode (repeat x2a 18)), s. split; [assumption|]. intros chk x st. apply (proj1 (D chk (x :: st))); [reflexivity|discriminate].
Qed.

(** The machine of C64 is part of this one. *)
Lemma run_exec chk u st st' : script_run chk u st st' -> exec chk u st st'.
Proof.
  induction 1; [constructor|now apply ex_push|eapply ex_word; [constructor|assumption]..|].
  eapply ex_word; [|eassumption]. now constructor.
Qed.
Theorem C64_full_machine : forall verify t n, accepted verify t n -> exists i u s st, nth_error (inputs t) n = Some (Some i) /\
  unlocking i = Some u /\ prev_script i = Some s /\ exec (signature_ok verify t n) u [] st /\ satisfied (signature_ok verify t n) s st.
Proof.
  intros verify t n (i & u & s & st & st' & N & U & P & R1 & R2). exists i, u, s, st. repeat split; try assumption; [now apply run_exec|].
  exists [x01], st'. split; [now apply run_exec|apply truthy_one].
Qed.

(** ** C79 *)

(** After any history of calls on a new redeem script with at most 16 keys, exactly this
    satisfies it: m signatures above one item that is ignored, each valid for a key, in
    the order of the sorted keys. *)
Theorem C79_demand : forall H m rs0 h rs ks l, new_redeem_script m = Ok rs0 -> run_redeem H rs0 h = Ok rs -> adds H h ks -> sorted_of ks l ->
  1 <= nlen ks <= 16 -> (forall k, In k ks -> 1 <= nlen k <= 75) ->
  forall chk st, satisfied chk (fst (get_redeem_script rs)) st <->
    exists sgs dummy st', st = rev sgs ++ dummy :: st' /\ Z.of_nat (length sgs) = m /\ in_order chk sgs l.
Proof.
  intros H m rs0 h rs ks l N R A S K B chk st. apply T_Redeem.C51_accepts_iff in N as [M ->].
  rewrite (T_Redeem.C50_history H m h rs ks l R A S). rewrite Z.mod_small by lia.
  assert (nlen l = nlen ks) as E by (unfold nlen; f_equal; symmetry; apply Permutation_length, S).
  unfold multisig_script. rewrite (multisig_iff chk (Z.to_N m) l st); [|lia|lia|].
  - split; intros (sgs & dummy & st' & X & Y & Z).
    + exists sgs, dummy, st'. split; [assumption|]. split; [unfold nlen in Y; lia|tauto].
    + exists sgs, dummy, st'. split; [assumption|]. split; [unfold nlen; lia|]. split; [|assumption].
      apply in_order_length in Z. unfold nlen. unfold bytes in *. lia.
  - intros k I. apply B. eapply Permutation_in; [apply Permutation_sym, S|assumption].
Qed.

(** Any m of the owners suffice, in the order of their keys. *)
Inductive part_of : list bytes -> list bytes -> Prop :=
| po_nil ks : part_of [] ks
| po_take k a ks : part_of a ks -> part_of (k :: a) (k :: ks)
| po_skip k a ks : part_of a ks -> part_of a (k :: ks).

Theorem C79_any_m : forall H m rs0 h rs ks l, new_redeem_script m = Ok rs0 -> run_redeem H rs0 h = Ok rs -> adds H h ks -> sorted_of ks l ->
  1 <= nlen ks <= 16 -> (forall k, In k ks -> 1 <= nlen k <= 75) ->
  forall (chk : bytes -> bytes -> Prop) owners (sign : bytes -> bytes) dummy st, part_of owners l -> Z.of_nat (length owners) = m -> (forall k, In k owners -> chk (sign k) k) ->
  satisfied chk (fst (get_redeem_script rs)) (rev (map sign owners) ++ dummy :: st).
Proof.
  intros H m rs0 h rs ks l N R A S K B chk owners sign dummy st P L C. apply (C79_demand H m rs0 h rs ks l N R A S K B).
  exists (map sign owners), dummy, st. split; [reflexivity|]. split; [now rewrite map_length|]. clear -P C.
  induction P as [ks|k a ks P IH|k a ks P IH]; cbn [map]; [constructor| |].
  - constructor; [apply C; now left|]. apply IH. intros; apply C. now right.
  - constructor. now apply IH.
Qed.

(** Fewer keys than required signatures: nobody can ever satisfy it, and nothing warns. *)
Theorem C79_too_few : forall H m rs0 h rs ks, new_redeem_script m = Ok rs0 -> run_redeem H rs0 h = Ok rs -> adds H h ks ->
  1 <= nlen ks -> (Z.of_nat (length ks) < m)%Z -> (forall k, In k ks -> 1 <= nlen k <= 75) ->
  forall chk st, ~ satisfied chk (fst (get_redeem_script rs)) st.
Proof.
  intros H m rs0 h rs ks N R A K L B chk st X. pose proof N as N'. apply T_Redeem.C51_accepts_iff in N' as [M _].
  pose proof (proj2 (sorted_of_sort ks _) eq_refl) as S. rewrite (C79_demand H m rs0 h rs ks _ N R A S) in X; [|unfold nlen in *; lia|assumption].
  destruct X as (sgs & dummy & st' & _ & E & I). apply in_order_length in I. destruct S as [P _]. apply Permutation_length in P. unfold bytes in *. lia.
Qed.

(** The locking script of the address: the redeem script itself on top (or another with
    its hash), satisfied by the rest. *)
Theorem C79_p2sh : forall rs chk st, let s := fst (get_redeem_script rs) in
  satisfied_p2sh chk (fst (redeem_script_pub_key rs)) st <->
  exists r st', st = r :: st' /\ (r = s \/ collision hash160 r s) /\ satisfied chk r st'.
Proof.
  intros rs chk st s. destruct (T_Redeem.C50_hash_address rs) as (_ & _ & _ & E). fold s in E. rewrite E. cbn [fst]. unfold satisfied_p2sh.
  rewrite p2sh_hash_iff by apply hash160_length. split.
  - intros ((x & r & E1 & Hx) & (y & r' & E2 & S)). rewrite E1 in E2. injection E2 as <- <-. exists x, r. split; [assumption|]. split; [|assumption].
    destruct (list_eq_dec Byte.byte_eq_dec x s) as [->|D]; [now left|right]. split; assumption.
  - intros (r & st' & -> & D & S). split; [|eauto]. exists r, st'. split; [reflexivity|]. destruct D as [->|[_ D]]; [reflexivity|assumption].
Qed.

(** The natural claim "signatures may come in any order" is false. *)
Theorem C79_any_order_refuted : exists m ks (sign : bytes -> bytes) (chk : bytes -> bytes -> Prop), (forall k, In k ks -> chk (sign k) k) /\
  satisfied chk (fst (get_redeem_script (mk_rs m ks))) (rev (map sign ks) ++ [[]]) /\
  ~ satisfied chk (fst (get_redeem_script (mk_rs m ks))) (map sign ks ++ [[]]).
Proof.
  exists 2%Z, [[x02; x01]; [x02; x02]], (fun k => k), (fun s k => s = k). split; [reflexivity|].
  assert (sorted_of [[x02; x01]; [x02; x02]] (sort_byte_arrays [[x02; x01]; [x02; x02]])) as S by (now apply sorted_of_sort).
  rewrite (T_Redeem.C50_value 2 _ _ S). cbn [fst]. change (sort_byte_arrays [[x02; x01]; [x02; x02]]) with [[x02; x01]; [x02; x02]]. clear S.
  assert (forall k, In k [[x02; x01]; [x02; x02]] -> 1 <= nlen k <= 75) as B by (intros k [<-|[<-|[]]]; vm_compute; split; discriminate).
  assert (1 <= Z.to_N (2 mod 256) <= 16) as M by (vm_compute; split; discriminate).
  assert (1 <= nlen [[x02; x01]; [x02; x02]] <= 16) as K by (vm_compute; split; discriminate).
  unfold multisig_script. rewrite !(multisig_iff _ _ _ _ M K B). split.
  - exists [[x02; x01]; [x02; x02]], [], []. split; [reflexivity|]. split; [reflexivity|]. split; [vm_compute; discriminate|]. repeat constructor.
  - intros (sgs & dummy & st' & E & L & _ & I). apply (f_equal N.to_nat) in L. unfold nlen in L. rewrite Nat2N.id in L. change (N.to_nat (Z.to_N (2 mod 256))) with 2%nat in L.
    destruct sgs as [|a [|b [|c sgs]]]; try discriminate. cbn in E. injection E as <- <- _ _.
    repeat match goal with X : in_order _ (_ :: _) _ |- _ => inversion X; clear X; subst end; discriminate.
Qed.

(** the hypotheses of C78 and C79: a history that adds three keys, 2-of-3 *)
Definition ex79_lib : hdlib := mk_hd bytes (fun b => Ok b) (fun k i => Ok (k ++ [n2b i])) (fun k => Ok k).
Example C79_example : exists rs0 rs ks l, new_redeem_script 2 = Ok rs0 /\
  run_redeem ex79_lib rs0 [RAdd (str "c") [1; 2]; RAddress; RAdd (str "a") [7]; RAdd (str "a") [3; 4]; RAdd (str "b") [5; 6]] = Ok rs /\
  adds ex79_lib [RAdd (str "c") [1; 2]; RAddress; RAdd (str "a") [7]; RAdd (str "a") [3; 4]; RAdd (str "b") [5; 6]] ks /\
  sorted_of ks l /\ length ks = 3%nat /\ (forall k, In k ks -> 1 <= nlen k <= 75) /\
  part_of [str "a" ++ [x03; x04]; str "c" ++ [x01; x02]] l /\
  ~ part_of [str "c" ++ [x01; x02]; str "a" ++ [x03; x04]] l.
Proof.
  eexists _, _, _, _. split; [reflexivity|]. split; [reflexivity|]. split.
  - eapply adds_ok; try reflexivity. apply adds_address. eapply adds_path; [discriminate|].
    eapply adds_ok; try reflexivity. eapply adds_ok; try reflexivity. constructor.
  - split; [apply sorted_of_sort; reflexivity|]. split; [reflexivity|]. split; [intros k [<-|[<-|[<-|[]]]]; vm_compute; split; discriminate|]. split.
    + vm_compute. apply po_take, po_skip, po_take, po_nil.
    + vm_compute. intros X. repeat match goal with X : part_of (_ :: _) _ |- _ => inversion X; clear X; subst end.
Qed.

Example C78_example : exists addr s, p2pkh_from_address addr = Ok s /\
  key_and_signature (fun sg pub => sg = x30 :: pub) (hash160 [x02; x11]) [[x02; x11]; [x30; x02; x11]; [x77]].
Proof.
  exists (str "1111111111111111111114oLvT2"). eexists. split; [vm_compute; reflexivity|].
  exists [x02; x11], [x30; x02; x11], [[x77]]. repeat split.
Qed.

Print Assumptions C78_address.
Print Assumptions C78_pay_to.
Print Assumptions C78_public_key.
Print Assumptions C78_unlocking_script.
Print Assumptions C78_hash_puzzle.
Print Assumptions C78_hash_puzzle_size.
Print Assumptions C78_data.
Print Assumptions C78_hash_size.
Print Assumptions C78_only_owner_refuted.
Print Assumptions C64_full_machine.
Print Assumptions C79_demand.
Print Assumptions C79_any_m.
Print Assumptions C79_too_few.
Print Assumptions C79_p2sh.
Print Assumptions C79_any_order_refuted.
