(** C95: What is returned beside an error. *)
From Verif Require Import M_Beside S_Address S_Script S_Lenient P_Bip276 T_Push T_Lenient.

(** what a caller has who looks at the error first *)
Definition checked {A} (r : res (A * option err)) : res A :=
  match r with Ok (a, None) => Ok a | Ok (_, Some e) => Err e | Err e => Err e | Panic => Panic end.

(** *** For such a caller these are the functions of the other properties *)
Theorem C95_same_code : forall text height value witness ct wallet miner s slack,
  checked (decode_bip276_both text) = decode_bip276 text /\
  checked (get_coinbase_parts_both height value witness ct wallet miner) = get_coinbase_parts height value witness ct wallet miner /\
  checked (decode_string_parts_both s) = decode_string_parts s /\
  checked (decode_32_byte_both slack s) = decode_32_byte slack s.
Proof.
  intros. split; [|split; [|split]].
  - unfold decode_bip276_both, decode_bip276, of_hex. destruct (bip276_regex text) as [m|]; [|reflexivity].
    destruct (hex_decode (bm_data m)) as [d [e|]]; cbn [bind checked]; [reflexivity|].
    destruct (create_bip276 _ _ _ _) as [pl ck]. destruct (negb _); reflexivity.
  - unfold get_coinbase_parts_both, get_coinbase_parts. destruct (make_coinbase_outputs _ _ _ _); reflexivity.
  - unfold decode_string_parts_both, decode_string_parts, of_hex, decode_parts. destruct (hex_decode s) as [b [e|]]; cbn [bind checked]; [reflexivity|].
    destruct (decode_parts_full b) as [[r [e|]]|e|]; reflexivity.
  - unfold decode_32_byte_both, decode_32_byte. destruct (hex_decode_slice slack s) as [b [e|]]; [reflexivity|].
    destruct (sl_sub b 0 32); reflexivity.
Qed.
Print Assumptions C95_same_code.

Lemma hex_text_even p b : hex_text p b -> Nat.even (length p) = true.
Proof. intros H. induction H; [reflexivity|]. cbn [length Nat.even]. assumption. Qed.
Lemma hexval_is_hex c : is_hex c = true -> exists v, hexval c = Some v.
Proof. unfold is_hex. destruct (hexval c); [eauto|discriminate]. Qed.

(** *** DecodeBIP276 returns everything the text says, with or without an error: the data is what is
    read of the hexadecimal part *)
Theorem C95_bip276 : forall text p a b c d h k, bip276_text text p a b c d h k ->
  exists q data oe, reads h q data /\ (Nat.even (length h) = true -> q = h) /\ (Nat.even (length h) = false -> exists x, h = q ++ [x]) /\
    decode_bip276_both text = Ok ((p, dec2 a b, dec2 c d, data), oe) /\
    (oe = None <-> decode_bip276 text = Ok (p, dec2 a b, dec2 c d, data)).
Proof.
  intros text p a b c d h k T. destruct (reads_exists h) as (q & R). exists q, (hex_ignore h).
  assert (bip276_regex text = Some (mk_bm p [a; b] [c; d] h k)) as X by (apply regex_iff; eauto 10).
  assert (forall n h q b, (length h <= n)%nat -> forallb is_hex h = true -> reads h q b ->
    (Nat.even (length h) = true -> q = h) /\ (Nat.even (length h) = false -> exists x, h = q ++ [x])) as L.
  { intros n. induction n as [|n IH]; intros h0 q0 b0 Ln Hx Rd.
    - destruct h0; [|cbn [length] in Ln; lia]. destruct Rd as (r & E & _). symmetry in E. apply app_eq_nil in E as [-> _]. split; [reflexivity|discriminate].
    - destruct Rd as (r & E & HT & N).
      destruct r as [|x1 [|x2 r]].
      + rewrite app_nil_r in E. subst h0. split; [reflexivity|]. intros O. exfalso. rewrite (hex_text_even _ _ HT) in O. discriminate O.
      + subst h0. rewrite app_length in *. cbn [length] in *. rewrite Nat.add_1_r, Nat.even_succ, <- Nat.negb_even, (hex_text_even _ _ HT). cbn [negb].
        split; [discriminate|]. intros _. now exists x1.
      + exfalso. subst h0. rewrite forallb_app in Hx. apply andb_prop in Hx as [_ Hx]. cbn [forallb] in Hx. apply andb_prop in Hx as [H1 Hx]. apply andb_prop in Hx as [H2 _].
        apply hexval_is_hex in H1 as (v & V), H2 as (w & W). apply (N x1 x2 r (n2b (v * 16 + w)) eq_refl). apply pair_reads. eauto. }
  destruct T as (TE & _ & _ & Da & Db & Dc & Dd & _ & _ & Hx). rewrite forallb_app in Hx. apply andb_prop in Hx as [Hx _].
  destruct (L (length h) h q _ (le_n _) Hx R) as [L1 L2].
  unfold decode_bip276_both. rewrite X. cbn [bm_prefix bm_ver bm_net bm_data bm_sum]. rewrite !atoi2 by assumption.
  pose proof (proj1 (C95_same_code text 0 0 [] [] [] [] [] 0)) as S. unfold decode_bip276_both in S. rewrite X in S. cbn [bm_prefix bm_ver bm_net bm_data bm_sum] in S. rewrite !atoi2 in S by assumption.
  unfold hex_ignore in *. destruct (hex_decode h) as [dt [e|]]; cbn [fst] in *.
  - exists (Some (EHex e)). split; [exact R|]. split; [exact L1|]. split; [exact L2|]. split; [reflexivity|]. rewrite <- S. split; discriminate.
  - destruct (create_bip276 _ _ _ _) as [pl ck]. eexists. split; [exact R|]. split; [exact L1|]. split; [exact L2|]. split; [reflexivity|]. rewrite <- S.
    destruct (negb _); cbn [checked]; split; intros Q; try discriminate Q; reflexivity.
Qed.
Print Assumptions C95_bip276.

(** so the checksum has no influence on the values returned: a caller who drops the error takes any
    text for valid *)
Theorem C95_checksum_ignored_refuted : forall text p a b c d h k k', bip276_text text p a b c d h k ->
  length k' = 8%nat -> forallb is_hex k' = true -> k' <> k -> decode_bip276 text = Ok (p, dec2 a b, dec2 c d, hex_ignore h) ->
  exists text', bip276_text text' p a b c d h k' /\
    decode_bip276_both text' = Ok ((p, dec2 a b, dec2 c d, hex_ignore h), Some EBip276Checksum).
Proof.
  intros text p a b c d h k k' T L Hx N E. set (text' := p ++ x3a :: a :: b :: c :: d :: h ++ k'). exists text'.
  assert (bip276_text text' p a b c d h k') as T'.
  { destruct T as (_ & P1 & P2 & Da & Db & Dc & Dd & H1 & _ & H2). rewrite forallb_app in H2. apply andb_prop in H2 as [H2 _].
    unfold bip276_text. rewrite forallb_app, H2, Hx. repeat (split; [assumption || reflexivity|]). reflexivity. }
  split; [exact T'|]. rewrite (decode_text _ _ _ _ _ _ _ _ T) in E.
  assert (bip276_regex text' = Some (mk_bm p [a; b] [c; d] h k')) as X by (apply regex_iff; eauto 10).
  destruct T as (_ & _ & _ & Da & Db & Dc & Dd & _).
  unfold decode_bip276_both. rewrite X. cbn [bm_prefix bm_ver bm_net bm_data bm_sum]. rewrite !atoi2 by assumption.
  unfold hex_ignore. destruct (hex_decode h) as [dt [e|]]; [discriminate E|]. cbn [fst].
  pose proof (dec2_range a b Da Db). pose proof (dec2_range c d Dc Dd). rewrite create_hex2 by lia. unfold swapped in E.
  match type of E with (if bytes_eqb k ?z then _ else _) = _ => destruct (bytes_eqb k z) eqn:B; [|discriminate E]; apply bytes_eqb_eq in B end.
  rewrite <- B. destruct (equals k' k) eqn:Q; [apply equals_spec in Q; contradiction|]. reflexivity.
Qed.
Print Assumptions C95_checksum_ignored_refuted.

(** *** GetCoinbaseParts: coinbase1 is complete beside every error, coinbase2 is nil *)
Theorem C95_coinbase : forall height value witness ct wallet miner c1 c2 e,
  get_coinbase_parts_both height value witness ct wallet miner = Ok ((c1, c2), Some e) ->
  c2 = [] /\ get_coinbase_parts height value witness ct wallet miner = Err e /\
  forall value' witness' wallet' miner' c1' c2',
    get_coinbase_parts height value' witness' ct wallet' miner' = Ok (c1', c2') -> c1' = c1.
Proof.
  intros height value witness ct wallet miner c1 c2 e H.
  pose proof (proj1 (proj2 (C95_same_code [] height value witness ct wallet miner [] 0))) as S. rewrite H in S. cbn [checked] in S.
  unfold get_coinbase_parts_both in H. destruct (make_coinbase_outputs value witness wallet miner); try discriminate H.
  injection H as <- <- <-. split; [reflexivity|]. split; [symmetry; exact S|].
  intros value' witness' wallet' miner' c1' c2' H'. unfold get_coinbase_parts in H'.
  destruct (make_coinbase_outputs value' witness' wallet' miner'); try discriminate H'. cbn [bind] in H'. now injection H' as <- _.
Qed.
Print Assumptions C95_coinbase.

(** *** DecodeStringParts: the elements before the incomplete one; nothing of a text that is not hexadecimal *)
Theorem C95_string_parts : forall s ps e, decode_string_parts_both s = Ok (ps, Some e) <->
  (ps = [] /\ exists x, e = EHex x /\ hex_dec s = None /\ decode_string_parts s = Err (EHex x)) \/
  (exists bs p t, hex_dec s = Some bs /\ e = ENotEnough /\ bs = p ++ t /\ safe_elems p ps /\ truncated t /\ ~ wraps t).
Proof.
  intros s ps e. unfold decode_string_parts_both, decode_string_parts, of_hex, hex_dec. destruct (hex_decode s) as [b [x|]]; cbn [bind].
  - split.
    + intros H. injection H as <- <-. left. split; [reflexivity|]. exists x. auto.
    + intros [(-> & y & -> & _ & H)|(bs & _ & _ & H & _)]; [|discriminate H]. now injection H as ->.
  - rewrite C11_decode_partial_result. split.
    + intros (-> & p & t & B & S & T & W). right. exists b, p, t. auto 10.
    + intros [(_ & y & _ & H & _)|(bs & p & t & H & -> & B & S & T & W)]; [discriminate H|]. injection H as ->. split; [reflexivity|]. exists p, t. auto.
Qed.
Print Assumptions C95_string_parts.

(** *** Decode32Byte: zeros *)
Theorem C95_decode32 : forall slack s b e, decode_32_byte_both slack s = Ok (b, Some e) -> b = repeat x00 32.
Proof.
  intros slack s b e H. unfold decode_32_byte_both in H. destruct (hex_decode_slice slack s) as [x [y|]].
  - now injection H as <- _.
  - destruct (sl_sub x 0 32); cbn [or_panic bind] in H; try discriminate H.
Qed.
Print Assumptions C95_decode32.

Example C95_example :
  decode_bip276_both (str "bitcoin-script:0201abcdefffffffff") = Ok ((str "bitcoin-script", 2%Z, 1%Z, [xab; xcd; xef]), Some EBip276Checksum) /\
  decode_bip276_both (str "bitcoin-script:0201abcdeffffffff") = Ok ((str "bitcoin-script", 2%Z, 1%Z, [xab; xcd]), Some (EHex HexErrLength)) /\
  (exists c1, get_coinbase_parts_both 1 2 [] (str "hi") (str "1") [] = Ok ((c1, []), Some (EAddrLength (str "1"))) /\ length c1 = 48%nat) /\
  decode_string_parts_both (str "5102aabb4c02cc") = Ok ([[x51]; [xaa; xbb]], Some ENotEnough) /\
  decode_32_byte_both 0 (str "01zz") = Ok (repeat x00 32, Some (EHex (HexInvalidByte x7a))).
Proof.
  split; [vm_compute; reflexivity|]. split; [vm_compute; reflexivity|].
  split; [eexists; split; [vm_compute; reflexivity|vm_compute; reflexivity]|].
  split; vm_compute; reflexivity.
Qed.
Print Assumptions C95_example.
