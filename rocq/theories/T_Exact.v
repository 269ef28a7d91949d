(** Further theorems C14, C15, C18, C39, C43, C54: exact bytes and exact error cases. *)
From Verif Require Import S_Builder M_Script P_Push P_Script P_Asm T_Builder P_TxMisc P_TxParse P_Signer P_Pay P_Merkle T_Script.
From Coq Require Import ZifyBool ZifyNat ZifyN.

(** ** C14: the error cases of GetPublicKeyHash *)
Theorem C14_gpkh_error_iff : forall s e, get_public_key_hash s = Err e <->
  (e = EScriptEmpty /\ (s = None \/ s = Some [])) \/
  (e = ENotP2PKH /\ ((exists c r, s = Some (c :: r) /\ c <> x76) \/ (exists c r, s = Some (x76 :: c :: r) /\ c <> xa9))) \/
  (exists r, s = Some (x76 :: xa9 :: r) /\ decode_parts r = Err e).
Proof.
  intros s e. split.
  - destruct s as [[|a r]|]; cbn [get_public_key_hash]; [intros H; injection H as <-; auto| |intros H; injection H as <-; auto].
    destruct (byte_eqb a x76) eqn:A; cbn [negb].
    + apply byte_eqb_eq in A as ->. destruct r as [|b r]; cbn [nth_error or_panic bind]; [discriminate|].
      destruct (byte_eqb b xa9) eqn:B; cbn [negb].
      * apply byte_eqb_eq in B as ->. cbn [skipn]. destruct (decode_parts r) as [ps|x|] eqn:D; cbn [bind].
        -- destruct ps; discriminate.
        -- intros H. injection H as <-. right. right. exists r. auto.
        -- discriminate.
      * intros H. injection H as <-. right. left. split; [reflexivity|]. right. exists b, r. split; [reflexivity|].
        intros ->. cbn in B. discriminate.
    + intros H. injection H as <-. right. left. split; [reflexivity|]. left. exists a, r. split; [reflexivity|].
      intros ->. cbn in A. discriminate.
  - intros [[-> [-> | ->]]|[[-> [(c & r & -> & N)|(c & r & -> & N)]]|(r & -> & D)]]; cbn [get_public_key_hash]; try reflexivity.
    + destruct (byte_eqb c x76) eqn:A; [apply byte_eqb_eq in A; contradiction|reflexivity].
    + change (byte_eqb x76 x76) with true. cbn [negb nth_error or_panic bind].
      destruct (byte_eqb c xa9) eqn:A; [apply byte_eqb_eq in A; contradiction|reflexivity].
    + change (byte_eqb x76 x76) with true. cbn [negb nth_error or_panic bind]. change (byte_eqb xa9 xa9) with true. cbn [negb skipn].
      rewrite D. reflexivity.
Qed.
Print Assumptions C14_gpkh_error_iff.

(** ** C15: the predicates answer yes or no, or panic as C16 says *)
Theorem C15_no_error : forall s e, is_p2pk s <> Err e /\ is_data s <> Err e /\ is_multisig_out s <> Err e.
Proof.
  assert (forall p (k : byte -> res bool) e, (forall c, k c <> Err e) -> bind (first_byte p) k <> Err e) as K
    by (intros [|c p] k e H; unfold first_byte; cbn [or_panic bind]; [discriminate|apply H]).
  intros s e. split; [|split].
  - unfold is_p2pk. destruct (decode_parts s) as [ps|x|]; try discriminate. destruct ps as [|p0 [|p1 [|p2 ps]]]; try discriminate.
    destruct (Nat.ltb 0 (length p0)); [|discriminate]. apply K. intros c. destruct (byte_eqb c OpCHECKSIG); [|discriminate]. apply K. intros v.
    destruct (_ && _); [discriminate|]. destruct (_ && _); discriminate.
  - unfold is_data. destruct s as [|b0 [|b1 s]]; cbn [nth_error or_panic bind]; [discriminate|..].
    + destruct (byte_eqb b0 x6a); [discriminate|]. destruct (byte_eqb b0 x00); discriminate.
    + destruct (byte_eqb b0 x6a); [discriminate|]. destruct (byte_eqb b0 x00); discriminate.
  - unfold is_multisig_out. destruct (decode_parts s) as [ps|x|]; try discriminate. cbv zeta.
    destruct (Nat.ltb (length ps) 3); [discriminate|]. apply K. intros c. destruct (negb (is_small_int_op c)); [discriminate|].
    destruct (existsb _ _); [discriminate|]. apply K. intros c1. destruct (is_small_int_op c1); [|discriminate]. apply K. discriminate.
Qed.
Print Assumptions C15_no_error.

(** ** C18: the unlocking script, byte for byte *)
Lemma pushes_two a b w : pushes [a; b] w -> exists h k, w = h ++ a ++ k ++ b /\ shortest_header h (nlen a) /\ shortest_header k (nlen b).
Proof.
  intros H. inversion H as [|d ds h w1 S1 H1]; subst. inversion H1 as [|d2 ds2 k w2 S2 H2]; subst. inversion H2; subst.
  exists h, k. now rewrite app_nil_r.
Qed.

Theorem C18_bytes : forall pub sg flag, nlen (sg ++ [n2b flag]) < 2 ^ 32 -> nlen pub < 2 ^ 32 ->
  exists h k, p2pkh_unlocking_script pub sg flag = (h ++ (sg ++ [n2b flag]) ++ k ++ pub, None) /\
    shortest_header h (nlen (sg ++ [n2b flag])) /\ shortest_header k (nlen pub).
Proof.
  change (2 ^ 32) with 4294967296. intros pub sg flag A B. unfold p2pkh_unlocking_script. cbv zeta. cbn [app].
  assert (forall p, In p [sg ++ [n2b flag]; pub] -> nlen p < 4294967296) as H by (intros p [<- |[<- |[]]]; assumption).
  rewrite append_array_ok by exact H. destruct (pushes_two _ _ _ (pushes_wire _ H)) as (h & k & E & S1 & S2).
  exists h, k. split; [|auto]. exact (f_equal (fun x => (x, None)) E).
Qed.
Print Assumptions C18_bytes.

Theorem C18_fails : forall pub sg flag, 2 ^ 32 <= nlen (sg ++ [n2b flag]) \/ 2 ^ 32 <= nlen pub ->
  exists e, p2pkh_unlocking_script pub sg flag = ([], Some e).
Proof.
  change (2 ^ 32) with 4294967296. intros pub sg flag [A|A]; unfold p2pkh_unlocking_script; cbv zeta; cbn [app].
  - apply (append_array_err [] _ (sg ++ [n2b flag])); [now left|assumption].
  - apply (append_array_err [] _ pub); [right; now left|assumption].
Qed.
Print Assumptions C18_fails.

(** ** C39: what signing writes, byte for byte *)
Theorem C39_bytes : forall t n s t' s', sg_flag s < 256 -> n < 2 ^ 32 -> tx_sign t n s = Ok (t', s', None) ->
  let f := if sg_flag s =? 0 then 65 else sg_flag s in
  let pub := key_pub (sg_key s) in
  exists h sg u, get_input_signature_hash t n f = Ok h /\ key_sign (sg_key s) (rev h) = Ok sg /\ unlocked t (N.to_nat n) u t' /\
    (nlen (sg ++ [n2b f]) < 2 ^ 32 -> nlen pub < 2 ^ 32 ->
     exists a b, u = a ++ (sg ++ [n2b f]) ++ b ++ pub /\ shortest_header a (nlen (sg ++ [n2b f])) /\ shortest_header b (nlen pub)).
Proof.
  intros t n s t' s' F N H f pub. pose proof (P_Signer.sign_spec t n s _ H F N) as S. cbv beta iota in S.
  destruct S as (_ & h & sg & A & B & U & _). change (used_flag s) with f in *. fold pub in U. exists h, sg.
  eexists. split; [exact A|]. split; [exact B|]. split; [exact U|]. intros L1 L2.
  destruct (C18_bytes pub sg f L1 L2) as (a & b & E & S1 & S2). rewrite E. exists a, b. auto.
Qed.
Print Assumptions C39_bytes.

(** ** C43: the branches are proper hex text of the path *)
Lemma walk_text fuel : forall ids ss, (length ids <= fuel)%nat -> ids <> [] -> Forall2 (fun s id => hex_dec s = Some id) ss ids ->
  exists p, path ids 0 p /\ Forall2 hex_text (walk_branch fuel [] ss) p.
Proof.
  assert (forall ids ids', pairing ids ids' -> forall ss, Forall2 (fun s id => hex_dec s = Some id) ss ids -> Forall2 (fun s id => hex_dec s = Some id) (merkle_level ss) ids') as LH.
  { induction 1 as [|a|a b l l' P IH]; intros ss F.
    - inversion F; subst. constructor.
    - inversion F as [|s ? ss' ? Hs F']; subst. inversion F'; subst. cbn [merkle_level]. constructor; [|constructor].
      rewrite (hex_dec_ignore _ _ Hs). apply hex_dec_encode.
    - inversion F as [|s ? ss' ? Hs F']; subst. inversion F' as [|s2 ? ss2 ? Hs2 F'']; subst. cbn [merkle_level]. constructor; [|auto].
      rewrite (hex_dec_ignore _ _ Hs), (hex_dec_ignore _ _ Hs2). apply hex_dec_encode. }
  induction fuel as [|f IH]; intros ids ss L N F; [destruct ids; cbn in L; [congruence|lia]|].
  destruct ids as [|a [|b ids]]; [congruence| |].
  - inversion F as [|s ? ss' ? Hs F']; subst. inversion F'; subst. exists []. split; constructor.
  - destruct (pairing_total _ (a :: b :: ids) (le_n _)) as (l' & P). pose proof (LH _ _ P _ F) as FL.
    inversion F as [|s ? ss' ? Hs F']; subst. inversion F' as [|s2 ? ss2 ? Hs2 F'']; subst.
    cbn [walk_branch]. rewrite walk_app. cbn [app].
    pose proof (pairing_length _ _ P) as Q. assert (2 <= length (a :: b :: ids))%nat as B by (cbn [length]; lia).
    pose proof (half_small _ B). pose proof (half_pos (length (a :: b :: ids)) ltac:(lia)).
    assert (l' <> []) as N' by (intros ->; cbn [length] in *; lia).
    destruct (IH l' (merkle_level (s :: s2 :: ss2)) ltac:(lia) N' FL) as (p & P1 & F1).
    exists (b :: p). split; [econstructor; [exact B|exact P|reflexivity|exact P1]|]. constructor; [now apply hex_text_iff|exact F1].
Qed.

Theorem C43_is_path_text : forall txids ids, ids <> [] -> Forall2 displays txids ids ->
  exists p, path ids 0 p /\ Forall2 hex_text (get_merkle_branches txids) p.
Proof.
  intros txids ids NE F. unfold get_merkle_branches. cbv zeta.
  assert (Forall2 (fun s id => hex_dec s = Some id) (get_hashes txids) ids) as H.
  { rewrite get_hashes_eq. clear NE. induction F as [|s id ss ids H _ IH]; cbn [map]; constructor; [|assumption].
    unfold displays in H. apply c04_hex in H. rewrite rev_involutive in H. exact H. }
  rewrite (F2_len H). apply walk_text; [lia|assumption|assumption].
Qed.
Print Assumptions C43_is_path_text.

(** ** C54: data outputs and hash puzzles, byte for byte *)
Theorem C54_data_bytes : forall parts o, output_op_return_parts parts = Ok o <->
  exists w, pushes parts w /\ (forall p, In p parts -> nlen p < 2 ^ 32) /\ o = mk_out 0 (Some ([x00; x6a] ++ w)).
Proof.
  change (2 ^ 32) with 4294967296. intros parts o. unfold output_op_return_parts, create_op_return_output.
  change (append_opcode (append_opcode [] OpFALSE) OpRETURN) with [x00; x6a]. cbv zeta.
  destruct (forallb (fun d => nlen d <? 4294967296) parts) eqn:F.
  - assert (forall p, In p parts -> nlen p < 4294967296) as H by (intros p I; rewrite forallb_forall in F; apply F in I; lia).
    rewrite append_array_ok by assumption. cbn [check fst snd bind]. split.
    + intros E. injection E as <-. eexists. split; [now apply pushes_wire|]. auto.
    + intros (w & P & _ & ->). do 4 f_equal. symmetry.
      apply (C12_builder_unique (CPushArray parts)); (apply ap_items; [discriminate|]); cbn [asked]; unfold servable; rewrite F; [exact P|now apply pushes_wire].
  - split.
    + intros E. exfalso. assert (exists d, In d parts /\ 4294967296 <= nlen d) as (d & I & B).
      { apply not_true_iff_false in F. rewrite forallb_forall in F. clear - F. induction parts as [|x l IH]; [exfalso; apply F; intros ? []|].
        destruct (N.ltb_spec (nlen x) 4294967296) as [L|L]; [|exists x; split; [now left|assumption]].
        destruct IH as (d & I & B); [|exists d; split; [now right|assumption]]. intros H. apply F. intros y [<- |I]; [lia|now apply H]. }
      destruct (append_array_err [x00; x6a] parts d I B) as [e X]. rewrite X in E. discriminate.
    + intros (w & _ & H & _). exfalso. apply not_true_iff_false in F. apply F. apply forallb_forall. intros x I. apply H in I. lia.
Qed.
Print Assumptions C54_data_bytes.

Theorem C54_hash_puzzle_bytes : forall secret pkh sats o, output_hash_puzzle secret pkh sats = Ok o <->
  exists h k, hex_text pkh h /\ nlen h < 2 ^ 32 /\ shortest_header k (nlen h) /\
    o = mk_out sats (Some ([xa9; x14] ++ hash160 secret ++ [x88; x76; xa9] ++ k ++ h ++ [x88; xac])).
Proof.
  change (2 ^ 32) with 4294967296. intros secret pkh sats o. unfold output_hash_puzzle.
  pose proof (hash160_length secret) as HL. set (hs := hash160 secret) in *. clearbody hs.
  assert (forall h, nlen h < 4294967296 -> exists k, push_prefix h = Ok k) as PP by (intros; now apply push_prefix_ok).
  assert (append_opcode [] OpHASH160 = [xa9]) as -> by reflexivity. cbv zeta.
  assert (check (append_push_data [xa9] hs) = Ok ([xa9] ++ x14 :: hs)) as ->.
  { rewrite push_array, append_array_ok by (intros p [<- |[]]; unfold nlen; rewrite HL; reflexivity). cbn [map concat]. rewrite app_nil_r, push20_wire by assumption. reflexivity. }
  destruct (of_hex_text pkh) as [(h & T & ->)|(N & e & ->)]; cbn [bind].
  - set (s0 := append_opcode (append_opcode (append_opcode _ _) _) _).
    assert (s0 = [xa9; x14] ++ hs ++ [x88; x76; xa9]) as E0 by (unfold s0, append_opcode; cbn [app]; now rewrite <- !app_assoc). rewrite E0. clear s0 E0.
    set (s0 := [xa9; x14] ++ hs ++ [x88; x76; xa9]). rewrite push_array. destruct (N.ltb_spec (nlen h) 4294967296) as [L|L].
    + assert (forall p, In p [h] -> nlen p < 4294967296) as HH by (intros p [<- |[]]; assumption).
      rewrite (append_array_ok s0 [h] HH). cbn [check fst snd bind map concat]. rewrite app_nil_r. destruct (PP h L) as [k K].
      assert (push_wire h = k ++ h) as PW by (unfold push_wire; now rewrite K). rewrite PW.
      assert (append_opcode (append_opcode (s0 ++ k ++ h) OpEQUALVERIFY) OpCHECKSIG = [xa9; x14] ++ hs ++ [x88; x76; xa9] ++ k ++ h ++ [x88; xac]) as ->.
      { unfold append_opcode, s0. rewrite <- !app_assoc. reflexivity. }
      split.
      * intros E. injection E as <-. exists h, k. split; [exact T|]. split; [exact L|]. split; [now apply push_shortest|reflexivity].
      * intros (h' & k' & T' & _ & S & ->). assert (h' = h) as -> by (apply hex_text_iff in T, T'; congruence).
        pose proof (shortest_unique _ _ L S) as K'. rewrite K in K'. injection K' as ->. reflexivity.
    + split.
      * intros E. exfalso. destruct (append_array_err s0 [h] h (or_introl eq_refl) L) as [e X]. rewrite X in E. discriminate.
      * intros (h' & k' & T' & L' & _). exfalso. assert (h' = h) as -> by (apply hex_text_iff in T, T'; congruence). lia.
  - split; [discriminate|]. intros (h & k & T & _). exfalso. now apply (N h).
Qed.
Print Assumptions C54_hash_puzzle_bytes.

Example C54_bytes_example :
  match output_op_return_parts [[x01]; []] with Ok o => locking o = Some [x00; x6a; x01; x01; x00] | _ => False end /\
  pushes [[x01]; []] [x01; x01; x00].
Proof.
  split; [reflexivity|]. change [x01; x01; x00] with ([x01] ++ [x01] ++ [x00] ++ [] ++ []).
  constructor; [apply push_shortest; reflexivity|]. constructor; [apply push_shortest; reflexivity|constructor].
Qed.

(** ** C35: what exactly is dropped *)
Lemma each_app {A} (f : Z -> A -> bytes) l1 : forall l2 k, each f k (l1 ++ l2) = each f k l1 ++ each f (k + Z.of_nat (length l1))%Z l2.
Proof.
  induction l1 as [|x l1 IH]; intros l2 k; cbn [app each length]; [now rewrite Z.add_0_r|]. rewrite IH, <- app_assoc. do 3 f_equal. lia.
Qed.

Theorem C35_dropped : forall t n i spk, wf_tx t -> nth_error (inputs t) n = Some (Some i) -> nlen spk < 2 ^ 63 ->
  exists before id ix l sq after,
    tx_to_bytes (cleared t (Z.of_nat n) spk) = Ok (before ++ (id ++ ix ++ l ++ spk ++ sq) ++ after) /\
    wire_input compact_min (id ++ ix ++ l ++ spk ++ sq) (mk_in (prev_txid i) (prev_index i) 0 None (Some spk) (sequence i)) /\
    length id = 32%nat /\ length ix = 4%nat /\ length sq = 4%nat /\ compact_min (nlen spk) l /\
    tx_to_bytes_cleared t (Z.of_nat n) (Some spk) = Ok (before ++ (l ++ spk) ++ after).
Proof.
  intros t n i spk W N LS. destruct (cleared_both t (Z.of_nat n) spk W) as (is & pre & post & E & F & G & T).
  rewrite E, nth_error_map in N. destruct (nth_error is n) as [i'|] eqn:N'; [|discriminate]. cbn [option_map] in N. injection N as ->.
  apply nth_error_split in N' as (l1 & l2 & -> & L). rewrite each_app in G, T. cbn [each] in G, T. rewrite Z.add_0_l, L in G, T.
  pose proof F as F0. rewrite Forall_app in F0. destruct F0 as [_ F0]. inversion F0 as [|? ? Wi _]; subst. destruct Wi as ((id & LI & EI) & B1 & B2 & _).
  unfold got_input at 2 in G. unfold want_input at 2 in T. rewrite Z.eqb_refl in G, T. unfold input_core in T. rewrite EI, hex_ignore_encode in T.
  rewrite (each_ext (fun k i => got_input k (Z.of_nat (length l1)) spk i) (fun k i => want_input k (Z.of_nat (length l1)) spk i) l1 0) in G
    by (intros j y B; unfold got_input, want_input; now replace (j =? Z.of_nat (length l1))%Z with false by lia).
  rewrite (each_ext (fun k i => got_input k (Z.of_nat (length l1)) spk i) (fun k i => want_input k (Z.of_nat (length l1)) spk i) l2 (Z.of_nat (length l1) + 1)) in G
    by (intros j y B; unfold got_input, want_input; now replace (j =? Z.of_nat (length l1))%Z with false by lia).
  exists (pre ++ each (fun k i => want_input k (Z.of_nat (length l1)) spk i) 0 l1), (rev id), (le_put 4 (prev_index i)), (varint (nlen spk)), (le_put 4 (sequence i)),
    (each (fun k i => want_input k (Z.of_nat (length l1)) spk i) (Z.of_nat (length l1) + 1) l2 ++ post).
  split; [rewrite T; f_equal; now rewrite <- !app_assoc|]. rewrite rev_length, !le_put_length.
  pose proof (c02_form (nlen spk)) as VM. specialize (VM ltac:(lia)).
  split; [|split; [assumption|split; [reflexivity|split; [reflexivity|split; [assumption|etransitivity; [exact G|]; f_equal; now rewrite <- !app_assoc]]]]].
  exists (rev id), (le_put 4 (prev_index i)), (varint (nlen spk)), (le_put 4 (sequence i)). cbn [unlocking script_bytes prev_txid prev_index sequence].
  rewrite rev_length, !le_put_length, rev_involutive, EI. split; [reflexivity|]. split; [assumption|]. split; [reflexivity|]. split; [reflexivity|]. split; [assumption|].
  split; [apply hex_dec_encode|]. split; symmetry; apply le_get_put_small; assumption.
Qed.
Print Assumptions C35_dropped.
