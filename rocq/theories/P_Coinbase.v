(** Proofs about coinbase transactions (C47). *)
From Verif Require Export S_Block M_Coinbase P_TxMisc.
From Coq Require Import ZifyBool ZifyNat ZifyN.

Lemma make1 height text :
  make_coinbase1 height text =
  le_put 4 1 ++ [x01] ++ repeat x00 32 ++ [xff; xff; xff; xff] ++
  varint (nlen (firstn 88 (x03 :: le_put 3 height ++ text)) + 12) ++ firstn 88 (x03 :: le_put 3 height ++ text).
Proof.
  unfold make_coinbase1. cbv zeta. change (N.of_nat 12) with 12. change (100 - 12)%nat with 88%nat.
  assert ((([] ++ [x03]) ++ firstn 3 (le_put 4 height)) ++ text = x03 :: le_put 3 height ++ text) as E by reflexivity.
  rewrite E. set (d := x03 :: le_put 3 height ++ text).
  assert ((if Nat.ltb 88 (length d) then firstn 88 d else d) = firstn 88 d) as ->.
  { destruct (Nat.ltb 88 (length d)) eqn:B; [reflexivity|]. symmetry. apply firstn_all2. apply Nat.ltb_ge in B. exact B. }
  rewrite <- !app_assoc. reflexivity.
Qed.

Lemma equals_nil (w : bytes) : equals w [] = match w with [] => true | _ => false end.
Proof. destruct w as [|a w]; reflexivity. Qed.

Definition out_wire (value : N) (s : bytes) : bytes := le_put 8 value ++ varint (nlen s) ++ s.

Lemma make_outputs value witness ws wallet miner a h : addr_from_string wallet = Ok a -> addr_pkh a = hex_encode h ->
  witness_data witness ws ->
  make_coinbase_outputs value witness wallet miner =
  Ok (varint (nlen (p2pkh h :: ws ++ miner_data miner)) ++
      concat (out_wire value (p2pkh h) :: map (out_wire 0) (ws ++ miner_data miner))).
Proof.
  intros A H W. unfold make_coinbase_outputs. rewrite (pay_to_ok _ _ _ _ A H). cbn [bind locking deref or_panic]. cbv zeta.
  rewrite equals_nil.
  assert ((repeat x00 8 : bytes) = le_put 8 0) as Z by reflexivity. rewrite Z. clear Z.
  destruct W as [[-> ->]|(N & wc & D & ->)].
  - cbn [negb bind]. destruct miner as [|m miner]; cbn [miner_data app map].
    + replace (0 <? nlen []) with false by reflexivity. cbn [concat]. rewrite app_nil_r. unfold out_wire. now rewrite <- !app_assoc.
    + replace (0 <? nlen (m :: miner)) with true by (unfold nlen; cbn [length]; lia). cbn [concat]. rewrite app_nil_r. unfold out_wire. rewrite <- !app_assoc. reflexivity.
  - destruct witness as [|w0 witness]; [congruence|]. cbn [negb]. apply of_hex_ok in D. rewrite D. cbn [bind].
    destruct miner as [|m miner]; cbn [miner_data app map].
    + replace (0 <? nlen []) with false by reflexivity. cbn [concat]. rewrite app_nil_r. unfold out_wire. rewrite <- !app_assoc. reflexivity.
    + replace (0 <? nlen (m :: miner)) with true by (unfold nlen; cbn [length]; lia). cbn [concat]. rewrite app_nil_r. unfold out_wire. rewrite <- !app_assoc. reflexivity.
Qed.

Lemma out_wire_ok value s : value < 2 ^ 64 -> nlen s < 2 ^ 63 -> wire_output compact_min (out_wire value s) (mk_out value (Some s)).
Proof.
  intros V S. exists (le_put 8 value), (varint (nlen s)), s. split; [reflexivity|]. split; [apply le_put_length|].
  split; [apply compact_min_of; unfold u64; lia|]. split; [|reflexivity]. cbn [satoshis]. rewrite le_get_put. symmetry. now apply N.mod_small.
Qed.

Lemma script_length height text nonce : length nonce = 12%nat -> (length (coinbase_script height text nonce) <= 100)%nat.
Proof. intros L. unfold coinbase_script. rewrite app_length, L. pose proof (firstn_le_length 88 (x03 :: le_put 3 height ++ text)). lia. Qed.

Lemma coinbase_wire height value text wallet miner witness ws a h x1 x2 e1 e2 :
  value < 2 ^ 64 -> addr_from_string wallet = Ok a -> addr_pkh a = hex_encode h -> witness_data witness ws ->
  Forall (fun d => nlen d < 2 ^ 62) (ws ++ miner_data miner) ->
  hex_dec x1 = Some e1 -> hex_dec x2 = Some e2 -> length (e1 ++ e2) = 12%nat ->
  exists c1 c2, get_coinbase_parts height value witness text wallet miner = Ok (c1, c2) /\
    wire_tx compact_min (build_coinbase c1 c2 x1 x2) (coinbase_tx height value text (e1 ++ e2) h (ws ++ miner_data miner)).
Proof.
  intros V A H W FD X1 X2 L12. unfold get_coinbase_parts. cbv zeta. rewrite (make_outputs _ _ _ _ _ _ _ A H W). cbn [bind].
  do 2 eexists. split; [reflexivity|]. unfold build_coinbase. cbv zeta. rewrite (hex_dec_ignore _ _ X1), (hex_dec_ignore _ _ X2).
  rewrite make1. cbn [app]. set (u := firstn 88 _).
  assert (nlen (u ++ e1 ++ e2) = nlen u + 12) as Lu by (unfold nlen; rewrite app_length, L12; lia).
  assert (coinbase_script height text (e1 ++ e2) = u ++ e1 ++ e2) as Eu by reflexivity.
  assert (nlen u <= 88) as Bu by (unfold u, nlen; pose proof (firstn_le_length 88 (x03 :: le_put 3 height ++ text)); lia).
  clearbody u.
  assert (length h = 20%nat) as Lh.
  { apply addr_pkh_20 in A as (h' & L & E' & _). rewrite E' in H. apply hex_encode_inj in H. congruence. }
  set (data := ws ++ miner_data miner) in *.
  exists (le_put 4 1), [x01], [repeat x00 32 ++ [xff;xff;xff;xff] ++ varint (nlen u + 12) ++ (u ++ e1 ++ e2) ++ [xff;xff;xff;xff]],
    (varint (nlen (p2pkh h :: data))), (out_wire value (p2pkh h) :: map (out_wire 0) data), (repeat x00 4).
  split.
  { unfold make_coinbase2. cbv zeta. cbn [concat]. rewrite app_nil_r. do 3 (rewrite <- !app_assoc; cbn [app]). reflexivity. }
  split; [reflexivity|]. split; [reflexivity|]. split; [reflexivity|]. split; [reflexivity|].
  assert (nlen data <= 2) as Ld.
  { unfold data, nlen. rewrite app_length. destruct W as [[_ ->]|(_ & wc & _ & ->)]; destruct miner; cbn [miner_data length]; lia. }
  split; [apply (compact_min_of 1); reflexivity|].
  split.
  { replace (nlen (outputs (coinbase_tx height value text (e1 ++ e2) h data))) with (nlen (p2pkh h :: data)).
    - apply compact_min_of. unfold u64, nlen in *. cbn [length]. lia.
    - unfold nlen. cbn [coinbase_tx outputs length]. now rewrite map_length. }
  cbn [coinbase_tx inputs outputs]. split.
  - constructor; [|constructor]. eexists. split; [reflexivity|].
    exists (repeat x00 32), [xff;xff;xff;xff], (varint (nlen u + 12)), [xff;xff;xff;xff]. cbn [unlocking script_bytes prev_txid prev_index sequence].
    rewrite Eu. split; [reflexivity|]. split; [reflexivity|]. split; [reflexivity|]. split; [reflexivity|].
    split; [rewrite Lu; apply compact_min_of; unfold u64; lia|]. split; [reflexivity|]. split; reflexivity.
  - constructor.
    + eexists. split; [reflexivity|]. apply out_wire_ok; [assumption|]. unfold p2pkh, nlen. rewrite !app_length, Lh. cbn. lia.
    + clear -FD. induction FD as [|d data D _ IH]; cbn [map]; constructor; [|assumption].
      eexists. split; [reflexivity|]. apply out_wire_ok; [lia|]. lia.
Qed.

Lemma coinbase_fresh height value text n h data : fresh_tx (coinbase_tx height value text n h data).
Proof.
  constructor; [|constructor]. eexists. split; [reflexivity|]. cbn. split; [|split; [reflexivity|split; [reflexivity|discriminate]]].
  exists (repeat x00 32). reflexivity.
Qed.

Lemma coinbase_is height value text n h data : is_coinbase (coinbase_tx height value text n h data) = Ok true.
Proof. reflexivity. Qed.

Lemma sum_zero (data : list bytes) : sum_sats (map (fun s => mk_out 0 (Some s)) data) = 0.
Proof. induction data as [|d data IH]; [reflexivity|]. cbn [map sum_sats satoshis]. lia. Qed.

Lemma coinbase_total height value text n h data : value < 2 ^ 64 ->
  total_output_satoshis (coinbase_tx height value text n h data) = Ok value.
Proof.
  intros V. unfold total_output_satoshis. cbn [coinbase_tx outputs].
  change (Some (mk_out value (Some (p2pkh h))) :: map (fun s => Some (mk_out 0 (Some s))) data)
    with (map (fun o => Some o) [mk_out value (Some (p2pkh h))] ++ map (fun s => Some (mk_out 0 (Some s))) data).
  replace (map (fun s => Some (mk_out 0 (Some s))) data) with (map Some (map (fun s : bytes => mk_out 0 (Some s)) data)) by now rewrite map_map.
  rewrite <- map_app. rewrite total_loop_eq by lia. cbn [app sum_sats satoshis]. rewrite sum_zero. f_equal. rewrite N.mod_small; lia.
Qed.

(** errors *)

Lemma parts_bad_wallet height value witness text wallet miner : (forall a, addr_from_string wallet <> Ok a) ->
  exists e, get_coinbase_parts height value witness text wallet miner = Err e.
Proof.
  intros H. unfold get_coinbase_parts, make_coinbase_outputs, output_p2pkh_from_address.
  destruct (p2pkh_address_err _ H) as (e & ->). cbn [bind]. eauto.
Qed.

Lemma parts_bad_witness height value witness text wallet miner : witness <> [] -> hex_dec witness = None ->
  exists e, get_coinbase_parts height value witness text wallet miner = Err e.
Proof.
  intros NE H. destruct (addr_from_string wallet) as [a|e|] eqn:A.
  2,3: apply parts_bad_wallet; intros b; congruence.
  destruct (addr_pkh_20 _ _ A) as (h & L & E & _). unfold get_coinbase_parts, make_coinbase_outputs.
  rewrite (pay_to_ok _ _ _ _ A E). cbn [bind locking deref or_panic]. cbv zeta. rewrite equals_nil. destruct witness as [|w witness]; [congruence|].
  cbn [negb]. unfold of_hex, hex_dec in *. destruct (hex_decode (w :: witness)) as [b [e|]]; [|discriminate]. cbn [bind]. eauto.
Qed.

Lemma parts_no_panic height value witness text wallet miner : get_coinbase_parts height value witness text wallet miner <> Panic.
Proof.
  destruct (addr_from_string wallet) as [a|e|] eqn:A.
  2,3: destruct (parts_bad_wallet height value witness text wallet miner) as (e' & ->); [intros b; congruence|discriminate].
  destruct (hex_dec witness) as [wc|] eqn:D.
  - destruct (addr_pkh_20 _ _ A) as (h & L & E & _). unfold get_coinbase_parts.
    assert (exists ws, witness_data witness ws) as (ws & W).
    { destruct witness as [|w witness]; [exists []; now left|]. exists [wc]. right. split; [discriminate|]. eauto. }
    rewrite (make_outputs _ _ _ _ _ _ _ A E W). discriminate.
  - destruct (parts_bad_witness height value witness text wallet miner) as (e' & ->); [|assumption|discriminate]. intros ->. discriminate D.
Qed.

(** BIP34 *)

Lemma le3 height : exists a b c, le_put 3 height = [a; b; c] /\ b2n a + 256 * b2n b + 65536 * b2n c = height mod 16777216.
Proof.
  destruct (le_put 3 height) as [|a [|b [|c [|]]]] eqn:E; try (apply (f_equal (@length _)) in E; rewrite le_put_length in E; cbn in E; lia).
  exists a, b, c. split; [reflexivity|]. pose proof (le_get_put 3 height) as G. rewrite E in G. cbn [le_get] in G.
  change (256 ^ N.of_nat 3) with 16777216 in G. lia.
Qed.

Lemma bip34_range height text nonce : height < 2 ^ 32 ->
  (bip34 height (coinbase_script height text nonce) <-> 32768 <= height < 8388608).
Proof.
  intros H. destruct (le3 height) as (a & b & c & E & V). unfold coinbase_script. rewrite E. cbn [app].
  change (firstn 88 (x03 :: a :: b :: c :: text)) with (x03 :: a :: b :: c :: firstn 84 text).
  pose proof (b2n_lt a). pose proof (b2n_lt b). pose proof (b2n_lt c). split.
  - intros (p & d & rest & S & Lp & G & D & M). cbn [app] in S. injection S as S0 S.
    assert (nlen (p ++ [d]) = 3) as L3.
    { apply (f_equal b2n) in S0. rewrite b2n_n2b_small in S0 by lia. symmetry. exact S0. }
    unfold nlen in L3. rewrite app_length in L3. cbn [length] in L3.
    destruct p as [|p0 [|p1 [|]]]; cbn [length] in L3; try lia. cbn [app] in S, G. injection S as <- <- <- _.
    cbn [le_get] in G. assert (height mod 16777216 = height) as HM by lia.
    split; [|lia]. destruct (N.eq_dec (b2n c) 0) as [Z|Z]; [|lia].
    destruct M as (b' & e & B & Be); [apply b2n_inj; exact Z|]. 
    change [a; b] with ([a] ++ [b]) in B. apply app_inj_tail in B as [_ <-]. lia.
  - intros R. exists [a; b], c, (firstn 84 text ++ nonce). split; [reflexivity|]. split; [vm_compute; discriminate|].
    rewrite N.mod_small in V by lia. cbn [app le_get]. split; [lia|]. split; [lia|].
    intros ->. exists [a], b. split; [reflexivity|]. change (b2n x00) with 0 in V. lia.
Qed.
