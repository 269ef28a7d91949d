(** C85: examples. *)
From Verif Require Import P_TxMisc P_TxParse P_TxSer P_Sighash P_Signer P_Flow T_Tx T_Flow T_Sighash P_Demand T_Demand S_Joint T_Chain T_Joint.
From Coq Require Import Lia ZifyBool ZifyNat ZifyN.

(** ** Examples *)
Definition ex85_pub : bytes := x03 :: repeat x22 32.
Definition ex85_key : priv_key := mk_key ex85_pub (fun d => Ok (x30 :: firstn 8 d)).
Definition ex85_verify (pub d sg : bytes) : Prop := (pub = ex63_pub \/ pub = ex85_pub) /\ sg = x30 :: firstn 8 d.
Definition ex85_keys : list priv_key := [ex63_key; ex85_key].
Lemma ex85_honest : Forall (honest ex85_verify) ex85_keys.
Proof.
  repeat constructor; intros d L; exists (x30 :: firstn 8 d); (split; [reflexivity|]); (split; [unfold nlen; cbn [length]; rewrite firstn_length; lia|]); (split; [|reflexivity]); [now left|now right].
Qed.
(** output 0 belongs to one key, output 1 to the other *)
Definition ex85_a : tx :=
  mk_tx 1 [Some (mk_in (hex_encode (repeat x00 32)) 0 0 None (Some [x51]) 0)]
    [Some (mk_out 1000 (Some (p2pkh (hash160 ex63_pub)))); Some (mk_out 500 (Some (p2pkh (hash160 ex85_pub))))] 0.
Definition ex85_from (k : N) (pub : bytes) (v : N) : tx_call := CallFrom (ok_or [] (tx_id ex85_a)) k (hex_encode (p2pkh (hash160 pub))) v.
Definition ex85_calls : list tx_call := [ex85_from 0 ex63_pub 1000; CallPayTo ex84_addr 1400; ex85_from 1 ex85_pub 500].
Definition ex85_signers : list signer := [mk_signer ex85_key 0xC2; mk_signer ex63_key 0; mk_signer ex85_key 0x43].
Lemma ex85_wf : wf_tx ex85_a.
Proof.
  split; [reflexivity|]. split; [reflexivity|]. split; [reflexivity|]. split; [reflexivity|].
  split; (constructor; [|constructor; [|constructor]] || (constructor; [|constructor])); eexists; (split; [reflexivity|]).
  - split; [exists (repeat x00 32); split; reflexivity|]. split; [reflexivity|]. split; reflexivity.
  - split; [reflexivity|]. eexists. split; [reflexivity|]. reflexivity.
  - split; [reflexivity|]. eexists. split; [reflexivity|]. reflexivity.
Qed.
Lemma ex85_facts :
  tx_to_bytes ex85_a = Ok (ex84_b ex85_a) /\ (length (ex84_b ex85_a) <? 1000)%nat = true /\
  spentb [ex84_b ex85_a] (ok_or [] (tx_id ex85_a), 0) = false /\ spentb [ex84_b ex85_a] (ok_or [] (tx_id ex85_a), 1) = false.
Proof. split; [vm_compute; reflexivity|]. split; [vm_compute; reflexivity|]. split; vm_compute; reflexivity. Qed.
Definition ex85_signed : tx := ok_or tx_new (sign_run (tx_run tx_new ex85_calls) (map DoSignAuto ex85_signers)).
Lemma ex85_facts1 :
  sign_run (tx_run tx_new ex85_calls) (map DoSignAuto ex85_signers) = Ok ex85_signed /\
  tx_to_bytes ex85_signed = Ok (ex84_b ex85_signed) /\ (length (ex84_b ex85_signed) <? 1000)%nat = true.
Proof. split; [vm_compute; reflexivity|]. split; vm_compute; reflexivity. Qed.
Lemma ex85_call a b k v pub : wf_tx a -> tx_to_bytes a = Ok b -> sized b -> k < 2 ^ 32 ->
  nth_error (outputs a) (N.to_nat k) = Some (Some (mk_out v (Some (p2pkh (hash160 pub))))) ->
  spentb [b] (ok_or [] (tx_id a), k) = false -> wallet_call [b] pub (CallFrom (ok_or [] (tx_id a)) k (hex_encode (p2pkh (hash160 pub))) v).
Proof.
  intros W E S Bk N NS. apply (wc_from _ pub a b (mk_out v (Some (p2pkh (hash160 pub)))) k).
  - exact W.
  - exact E.
  - now left.
  - exact Bk.
  - exact N.
  - reflexivity.
  - rewrite (C31_definition _ _ E). reflexivity.
  - reflexivity.
  - apply spentb_spec; auto.
Qed.
Lemma ex85_shared : Forall (shared_call [ex84_b ex85_a] ex85_keys) ex85_calls /\ balanced ex85_calls.
Proof.
  destruct ex85_facts as (F1 & F2 & F3 & F4). apply sized1 in F2. split.
  - constructor; [|constructor; [|constructor; [|constructor]]].
    + exists ex63_key. split; [now left|]. exact (ex85_call _ _ 0 1000 ex63_pub ex85_wf F1 F2 eq_refl eq_refl F3).
    + exists ex63_key. split; [now left|]. constructor; [apply hash160_length|reflexivity].
    + exists ex85_key. split; [right; now left|]. exact (ex85_call _ _ 1 500 ex85_pub ex85_wf F1 F2 eq_refl eq_refl F4).
  - unfold balanced, points, funds, payments, sum, ex85_calls, ex85_from. cbn [flat_map app map fold_right]. generalize (ok_or [] (tx_id ex85_a)). intros id.
    split; [apply NoDup_cons; [intros [H|[]]; discriminate H|apply NoDup_cons; [intros []|apply NoDup_nil]]|].
    split; [discriminate|]. split; [|lia]. eexists _, _. right. left. reflexivity.
Qed.
Lemma ex85_all : all_sign ex85_keys ex85_signers.
Proof.
  split.
  - constructor; [split; [right; now left|reflexivity]|]. constructor; [split; [now left|reflexivity]|]. constructor; [split; [right; now left|reflexivity]|constructor].
  - intros k [<-|[<-|[]]]; [exists (mk_signer ex63_key 0)|exists (mk_signer ex85_key 0xC2)]; (split; [|reflexivity]); [right; now left|now left].
Qed.
Lemma ex85_use verify known keys calls signers t b : Forall (honest verify) keys -> Forall (shared_call known keys) calls /\ balanced calls -> nlen calls < 2 ^ 31 ->
  all_sign keys signers -> sign_run (tx_run tx_new calls) (map DoSignAuto signers) = Ok t -> tx_to_bytes t = Ok b -> (length b <? 1000)%nat = true ->
  node_accepts verify known b.
Proof.
  intros FH (F & BA) B AS R E S. destruct (C85_joint verify known keys calls signers FH F B AS) as (t' & b' & R' & E' & Q).
  assert (t' = t) as -> by congruence. assert (b' = b) as -> by congruence. apply Q; [now apply sized1|exact BA].
Qed.
(** two holders sign, one of them twice with different flags *)
Example C85_example :
  sign_run (tx_run tx_new ex85_calls) (map DoSignAuto ex85_signers) = Ok ex85_signed /\ length (inputs ex85_signed) = 2%nat /\
  node_accepts ex85_verify [ex84_b ex85_a] (ex84_b ex85_signed).
Proof.
  destruct ex85_facts1 as (G1 & G2 & G3). split; [exact G1|]. split; [vm_compute; reflexivity|].
  exact (ex85_use _ _ _ _ _ _ _ ex85_honest ex85_shared eq_refl ex85_all G1 G2 G3).
Qed.
(** the first holder signs alone, with NONE and ANYONECANPAY, before the others add input and output *)
Definition ex85_t0 : tx := tx_run tx_new [ex85_from 0 ex63_pub 1000].
Definition ex85_post : list joint_call := [JCall (ex85_from 1 ex85_pub 500); JCall (CallPayTo ex84_addr 1400); JSign (DoSignAuto (mk_signer ex85_key 0x41))].
Definition ex85_t1 (f : N) : tx := ok_or tx_new (sign_do ex85_t0 (DoSign (mk_signer ex63_key f) 0)).
Definition ex85_t2 (f : N) : tx := ok_or tx_new (joint_run (ex85_t1 f) ex85_post).
Lemma ex85_survives : joint_run (ex85_t1 0xC2) ex85_post = Ok (ex85_t2 0xC2) /\ sign_do ex85_t0 (DoSign (mk_signer ex63_key 0xC2) 0) = Ok (ex85_t1 0xC2) /\
  map (fun oi => match oi with Some i => hit ex85_pub i | None => Panic end) (inputs ex85_t0) = [Ok false] /\
  length (inputs (ex85_t2 0xC2)) = 2%nat /\ length (outputs (ex85_t2 0xC2)) = 1%nat /\ length (inputs (ex85_t1 0xC2)) = 1%nat /\ length (outputs (ex85_t1 0xC2)) = 0%nat.
Proof. split; [vm_compute; reflexivity|]. split; [vm_compute; reflexivity|]. split; [vm_compute; reflexivity|]. vm_compute. auto. Qed.
Definition sig_txb (t : tx) : bool :=
  forallb (fun oi => match oi with
    | Some i => match hex_dec (prev_txid i) with Some _ => true | None => false end &&
                match prev_script i with Some s => nlen s <? 2 ^ 63 | None => true end
    | None => false end) (inputs t) &&
  forallb (fun oo => match oo with
    | Some o => (satoshis o <? 2 ^ 64) && match locking o with Some s => nlen s <? 2 ^ 63 | None => false end
    | None => false end) (outputs t) && (nlen (outputs t) <? 2 ^ 31).
Lemma sig_txb_spec t : sig_txb t = true -> sig_tx t.
Proof.
  unfold sig_txb. rewrite !andb_true_iff, !forallb_forall. intros ((H1 & H2) & H3). split; [|split; [|lia]]; apply Forall_forall.
  - intros [i|] I; specialize (H1 _ I); [|discriminate]. apply andb_true_iff in H1 as (A & B). exists i. split; [reflexivity|]. split.
    + destruct (hex_dec (prev_txid i)); [eauto|discriminate].
    + intros s E. rewrite E in B. lia.
  - intros [o|] I; specialize (H2 _ I); [|discriminate]. apply andb_true_iff in H2 as (A & B). exists o. split; [reflexivity|]. split; [lia|].
    destruct (locking o) as [s|]; [|discriminate]. exists s. split; [reflexivity|lia].
Qed.
Lemma ex85_sig : exists i, ex85_t0 = mk_tx 1 [Some i] [] 0 /\ sig_tx ex85_t0 /\ prev_txid i <> [] /\ prev_script i = Some (p2pkh (hash160 ex63_pub)).
Proof.
  exists (mk_in (ok_or [] (tx_id ex85_a)) 0 1000 (Some (p2pkh (hash160 ex63_pub))) None (2 ^ 32 - 1)). split; [vm_compute; reflexivity|].
  split; [apply sig_txb_spec; vm_compute; reflexivity|]. split; [|reflexivity]. cbn [prev_txid]. 
  intros H. assert (length (ok_or [] (tx_id ex85_a)) = 64%nat) as L by (vm_compute; reflexivity). rewrite H in L. discriminate L.
Qed.
Lemma ex85_sig2 : sig_tx (ex85_t2 0xC2).
Proof. apply sig_txb_spec. vm_compute. reflexivity. Qed.
Lemma ex85_spent t1 t2 : sign_do ex85_t0 (DoSign (mk_signer ex63_key 0xC2) 0) = Ok t1 -> joint_run t1 ex85_post = Ok t2 -> sig_tx t2 ->
  map (fun oi => match oi with Some i => hit ex85_pub i | None => Panic end) (inputs ex85_t0) = [Ok false] ->
  may_add 0xC2 0 t1 t2 -> accepted ex85_verify t2 0.
Proof.
  intros E1 E2 S2 HT M. destruct ex85_sig as (i & E0 & S & X & P).
  apply (C85_survives ex85_verify ex85_t0 (mk_signer ex63_key 0xC2) 0 (DoSign (mk_signer ex63_key 0xC2) 0) i t1 ex85_post t2); auto.
  - reflexivity.
  - rewrite E0. unfold nlen, ex85_post. cbn [inputs length]. lia.
  - apply (Forall_inv ex85_honest).
  - rewrite E0. reflexivity.
  - now left.
  - repeat constructor.
  - constructor; [exact I|]. constructor; [exact I|]. constructor; [|constructor]. cbn [leaves sg_key key_pub]. intros Q. apply hit_matches in Q.
    rewrite E0 in HT. cbn [inputs map] in HT. unfold ex85_key in Q. cbn [key_pub] in Q. rewrite Q in HT. discriminate HT.
Qed.
Lemma may_add_lengths (t1 t2 : tx) : length (inputs t2) = 2%nat -> length (outputs t2) = 1%nat -> length (inputs t1) = 1%nat -> length (outputs t1) = 0%nat ->
  may_add 0xC2 0 t1 t2 /\ ~ may_add 0xC1 0 t1 t2 /\ ~ may_add 0x42 0 t1 t2 /\ ~ may_add 0xC3 0 t1 t2.
Proof.
  intros L1 L2 L3 L4. unfold may_add. rewrite L1, L2, L3, L4. clear. split; [split; left; reflexivity|]. split; [|split].
  - intros (_ & [H|[H|(H & _)]]); discriminate.
  - intros ([H|H] & _); discriminate.
  - intros (_ & [H|[H|(_ & [H|H])]]); try discriminate; lia.
Qed.
Example C85_flags : joint_run (ex85_t1 0xC2) ex85_post = Ok (ex85_t2 0xC2) /\ Forall joint_bounds ex85_post /\
  may_add 0xC2 0 (ex85_t1 0xC2) (ex85_t2 0xC2) /\ ~ may_add 0xC1 0 (ex85_t1 0xC2) (ex85_t2 0xC2) /\ ~ may_add 0x42 0 (ex85_t1 0xC2) (ex85_t2 0xC2) /\
  ~ may_add 0xC3 0 (ex85_t1 0xC2) (ex85_t2 0xC2) /\ accepted ex85_verify (ex85_t2 0xC2) 0.
Proof.
  destruct ex85_survives as (E1 & E2 & HT & L1 & L2 & L3 & L4). split; [exact E1|]. split; [repeat constructor|].
  destruct (may_add_lengths _ _ L1 L2 L3 L4) as (M1 & M2 & M3 & M4). split; [exact M1|]. split; [exact M2|]. split; [exact M3|]. split; [exact M4|].
  exact (ex85_spent _ _ E2 E1 ex85_sig2 HT M1).
Qed.
(** only one of the two holders signs: refused *)
Definition ex85_half : tx := ok_or tx_new (sign_run (tx_run tx_new ex85_calls) (map DoSignAuto [mk_signer ex63_key 0])).
Lemma ex85_facts2 :
  sign_run (tx_run tx_new ex85_calls) (map DoSignAuto [mk_signer ex63_key 0]) = Ok ex85_half /\
  tx_to_bytes ex85_half = Ok (ex84_b ex85_half) /\ (length (ex84_b ex85_half) <? 1000)%nat = true /\
  nth_error (inputs (tx_run tx_new ex85_calls)) 1 = Some (Some (mk_in (ok_or [] (tx_id ex85_a)) 1 500 (Some (p2pkh (hash160 ex85_pub))) None (2 ^ 32 - 1))) /\
  bytes_eqb (hash160 ex63_pub) (hash160 ex85_pub) = false.
Proof. split; [vm_compute; reflexivity|]. split; [vm_compute; reflexivity|]. split; [vm_compute; reflexivity|]. split; vm_compute; reflexivity. Qed.
Lemma ex85_refuse known t b i h : Forall (shared_call known ex85_keys) ex85_calls -> no_collision known -> Forall sized known ->
  sign_run (tx_run tx_new ex85_calls) (map DoSignAuto [mk_signer ex63_key 0]) = Ok t -> tx_to_bytes t = Ok b -> (length b <? 1000)%nat = true ->
  nth_error (inputs (tx_run tx_new ex85_calls)) 1 = Some (Some i) -> prev_script i = Some (p2pkh h) -> length h = 20%nat -> bytes_eqb (hash160 ex63_pub) h = false ->
  ~ node_accepts ex85_verify known b.
Proof.
  intros F NC SK R E S N P L D. apply sized1 in S.
  apply (C85_all_needed ex85_verify known ex85_keys ex85_calls [mk_signer ex63_key 0] 1 i h t b F eq_refl NC SK S); auto.
  - constructor; [split; [apply (Forall_inv ex85_honest)|reflexivity]|constructor].
  - intros s [<-|[]] Q. cbn [sg_key key_pub ex63_key] in Q. rewrite Q, bytes_eqb_refl in D. discriminate D.
Qed.
Example C85_half : ~ node_accepts ex85_verify [ex84_b ex85_a] (ex84_b ex85_half).
Proof.
  destruct ex85_facts as (_ & F2 & _). apply sized1 in F2. destruct ex85_facts2 as (G1 & G2 & G3 & G4 & G5).
  refine (ex85_refuse [ex84_b ex85_a] _ _ _ _ (proj1 ex85_shared) _ _ G1 G2 G3 G4 eq_refl (hash160_length _) G5).
  - intros x y [<-|[]] [<-|[]] _. reflexivity.
  - constructor; [exact F2|constructor].
Qed.
