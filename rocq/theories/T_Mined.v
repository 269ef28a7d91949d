(** C84, continued: what a miner's coinbase pays can be spent. *)
From Verif Require Import P_TxMisc P_TxParse P_TxSer P_Signer P_Flow P_Coinbase P_Address T_Block T_Tx T_Flow S_Mining S_Chain T_Chain.
From Coq Require Import Lia ZifyBool ZifyNat ZifyN.

(** The coinbase put together from GetCoinbaseParts for the address of a key and BuildCoinbase, once
    known to the node, is read back, and its value can be spent with From, PayTo and SignAuto. *)
Theorem C84_mined verify known k m height value text miner witness ws c1 c2 x1 x2 e1 e2 pays : honest verify k ->
  value < 2 ^ 64 -> witness_data witness ws -> Forall (fun d => nlen d < 2 ^ 62) (ws ++ miner_data miner) ->
  get_coinbase_parts height value witness text (addr_string (addr_from_pkh (hash160 (key_pub k)) m)) miner = Ok (c1, c2) ->
  hex_dec x1 = Some e1 -> hex_dec x2 = Some e2 -> length (e1 ++ e2) = 12%nat ->
  let b := build_coinbase c1 c2 x1 x2 in sized b -> In b known ->
  (forall b' t', In b' known -> on_wire b' t' -> ~ In (hex_encode (rev (dsha b)), 0) (spent t')) ->
  pays <> [] -> Forall (fun c => exists h m sats, length h = 20%nat /\ sats < 2 ^ 64 /\ c = CallPayTo (addr_string (addr_from_pkh h m)) sats) pays ->
  payments pays <= value -> nlen pays < 2 ^ 30 ->
  exists a o id s, tx_from_bytes b = Ok a /\ is_coinbase a = Ok true /\ nth_error (outputs a) 0 = Some (Some o) /\ satoshis o = value /\
    tx_id a = Ok id /\ output_script_hex o = Ok s /\
    exists t' b', tx_sign_auto (tx_run tx_new (CallFrom id 0 s (satoshis o) :: pays)) (mk_signer k 0) = Ok (t', mk_signer k 65, None) /\
      tx_to_bytes t' = Ok b' /\ (sized b' -> node_accepts verify known b').
Proof.
  intros HK BV WD FD GP H1 H2 L b SB IB U NE FP BP NP.
  assert (on_wire b (coinbase_tx height value text (e1 ++ e2) (hash160 (key_pub k)) (ws ++ miner_data miner))) as OW.
  { destruct (coinbase_wire height value text (addr_string (addr_from_pkh (hash160 (key_pub k)) m)) miner witness ws _ (hash160 (key_pub k)) x1 x2 e1 e2 BV
      (proj1 (addr_round _ m (hash160_length _))) eq_refl WD FD H1 H2 L) as (d1 & d2 & G & W).
    rewrite GP in G. assert (d1 = c1) as -> by congruence. assert (d2 = c2) as -> by congruence.
    split; [apply wire_tx_weaken, W|apply coinbase_fresh]. }
  set (a := coinbase_tx _ _ _ _ _ _) in OW. pose proof (on_wire_wf _ _ SB OW) as W.
  assert (tx_from_bytes b = Ok a) as PB by (now apply on_wire_parses).
  assert (tx_to_bytes a = Ok b) as TB.
  { destruct (C47_round_trip height value text (addr_string (addr_from_pkh (hash160 (key_pub k)) m)) miner witness ws _ (hash160 (key_pub k)) x1 x2 e1 e2 BV
      (proj1 (addr_round _ m (hash160_length _))) eq_refl WD FD H1 H2 L) as (d1 & d2 & G & T & _).
    rewrite GP in G. assert (d1 = c1) as -> by congruence. assert (d2 = c2) as -> by congruence. exact T. }
  set (o := mk_out value (Some (p2pkh (hash160 (key_pub k))))).
  exists a, o, (hex_encode (rev (dsha b))), (hex_encode (p2pkh (hash160 (key_pub k)))).
  split; [exact PB|]. split; [apply coinbase_is|]. split; [reflexivity|]. split; [reflexivity|].
  split; [exact (C31_definition a b TB)|]. split; [reflexivity|].
  set (calls := CallFrom _ _ _ _ :: pays).
  assert (points pays = [] /\ funds pays = 0) as (PP & FU).
  { clear -FP. unfold funds, points, sum. induction FP as [|c l (h & m & sats & _ & _ & ->) _ (IH & IH2)]; [split; reflexivity|]. cbn [flat_map map fold_right app]. rewrite IH, IH2. split; reflexivity. }
  assert (Forall (wallet_call known (key_pub k)) calls) as FW.
  { constructor.
    - apply (wc_from known (key_pub k) a b o 0); try assumption; try reflexivity. exact (C31_definition a b TB).
    - eapply Forall_impl; [|exact FP]. intros c (h & m' & sats & Lh & Bs & ->). now constructor. }
  destruct (C84_accepted verify known k calls HK FW) as (t' & b' & SA & TB' & Q).
  { unfold calls, nlen in *. cbn [length]. lia. }
  exists t', b'. split; [exact SA|]. split; [exact TB'|]. intros S'. destruct (Q S') as (_ & _ & Q'). apply Q'.
  assert (points calls = [(hex_encode (rev (dsha b)), 0)]) as PC by (change (points calls) with ((hex_encode (rev (dsha b)), 0) :: points pays); now rewrite PP).
  split; [rewrite PC; constructor; [intros []|constructor]|]. split; [rewrite PC; discriminate|]. split.
  - destruct pays as [|c pays]; [congruence|]. inversion FP as [|? ? (h & m' & sats & _ & _ & ->) _]; subst. eexists _, _. right. left. reflexivity.
  - change (payments calls) with (payments pays). change (funds calls) with (value + funds pays). rewrite FU. lia.
Qed.
Print Assumptions C84_mined.

(** for instance *)
Definition ex84_cb : bytes := match get_coinbase_parts 700000 5000000000 [] (str "hello") ex84_addr [] with Ok (c1, c2) => build_coinbase c1 c2 (hex_encode (repeat x01 8)) (hex_encode (repeat x02 4)) | _ => [] end.
Definition ex84_pays : list tx_call := [CallPayTo ex84_addr 4999999000].
Lemma ex84_cb_facts : exists c1 c2, get_coinbase_parts 700000 5000000000 [] (str "hello") ex84_addr [] = Ok (c1, c2) /\
  build_coinbase c1 c2 (hex_encode (repeat x01 8)) (hex_encode (repeat x02 4)) = ex84_cb /\ (length ex84_cb <? 1000)%nat = true /\
  spentb [ex84_cb] (hex_encode (rev (dsha ex84_cb)), 0) = false.
Proof. destruct (get_coinbase_parts 700000 5000000000 [] (str "hello") ex84_addr []) as [[c1 c2]|e|] eqn:E; [|vm_compute in E; discriminate|vm_compute in E; discriminate].
  exists c1, c2. split; [reflexivity|]. split; [unfold ex84_cb; now rewrite E|]. split; vm_compute; reflexivity. Qed.
Example C84_mined_example : exists t' b' id s v, 
  tx_sign_auto (tx_run tx_new (CallFrom id 0 s v :: ex84_pays)) (mk_signer ex63_key 0) = Ok (t', mk_signer ex63_key 65, None) /\
  tx_to_bytes t' = Ok b' /\ (sized b' -> node_accepts ex84_verify [ex84_cb] b').
Proof.
  destruct ex84_cb_facts as (c1 & c2 & E & B & S & U). apply sized1 in S.
  destruct (C84_mined ex84_verify [ex84_cb] ex63_key true 700000 5000000000 (str "hello") [] [] [] c1 c2 (hex_encode (repeat x01 8)) (hex_encode (repeat x02 4)) (repeat x01 8) (repeat x02 4) ex84_pays ex84_honest)
    as (a & o & id & s & _ & _ & _ & _ & _ & _ & t' & b' & H1 & H2 & H3).
  - reflexivity.
  - left. split; reflexivity.
  - constructor.
  - exact E.
  - reflexivity.
  - reflexivity.
  - reflexivity.
  - rewrite B. exact S.
  - rewrite B. now left.
  - rewrite B. apply spentb_spec; auto.
  - discriminate.
  - constructor; [|constructor]. exists (hash160 ex63_pub), true, 4999999000. split; [apply hash160_length|]. split; reflexivity.
  - unfold payments, ex84_pays, sum. cbn [map fold_right]. lia.
  - reflexivity.
  - exists t', b', id, s, (satoshis o). auto.
Qed.
