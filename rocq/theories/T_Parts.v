(** Property theorems C70: the storage of decoded script parts. *)
From Verif Require Import S_Parts P_Mem P_Push P_Parts P_Script.
From Coq Require Import ZifyBool ZifyNat ZifyN.

(** Decoding in memory has the outcome and the values of C10 and C11, and writes to no
    existing array. *)
Theorem C70_value : forall h b, wf_sl h b ->
  (h_decode_parts h b = Panic <-> decode_parts_full (get h b) = Panic) /\
  (forall e, h_decode_parts h b <> Err e) /\
  (forall h' ss e, h_decode_parts h b = Ok (h', ss, e) ->
     decode_parts_full (get h b) = Ok (map (get h') ss, e) /\ forall a, (a < length h)%nat -> arr h' a = arr h a).
Proof.
  intros h b W. destruct (h_full h b W) as [[E1 E2]|(news & ss & ws & t & ps & e & E1 & E2 & _ & _ & _ & _ & M)]; rewrite E1, E2.
  - split; [tauto|]. split; [discriminate|]. discriminate.
  - split; [split; discriminate|]. split; [discriminate|]. intros h' ss' e' H. injection H as <- <- <-. split; [now rewrite <- M|].
    intros a A. now apply arr_old.
Qed.
Print Assumptions C70_value.

(** Where every part lies. *)
Theorem C70_layout : forall h b h' ss e, wf_sl h b -> h_decode_parts h b = Ok (h', ss, e) ->
  exists ws t, get h b = concat ws ++ t /\ (e = None -> t = []) /\ Forall2 elem ws (map (get h') ss) /\ laid b (length h) 0 ws ss.
Proof.
  intros h b h' ss e W H. destruct (h_full h b W) as [[E1 _]|(news & ss' & ws & t & ps & e' & E1 & _ & G & T & F & L & M)]; rewrite E1 in H; [discriminate|].
  injection H as <- <- <-. exists ws, t. split; [assumption|]. split; [assumption|]. split; [now rewrite M|assumption].
Qed.
Print Assumptions C70_layout.

(** In short: a part is a one-byte array of its own or a window of the script, with the
    rest of the script's capacity behind it. *)
Theorem C70_kinds : forall h b h' ss e s, wf_sl h b -> h_decode_parts h b = Ok (h', ss, e) -> In s ss ->
  own (length h) s \/ window b 0 (s_len b) s.
Proof.
  intros h b h' ss e s W H I. destruct (C70_layout _ _ _ _ _ W H) as (ws & t & G & _ & _ & L). pose proof (get_length h b W) as GL.
  rewrite G, app_length in GL. pose proof W as (_ & W2 & _). pose proof (laid_kinds _ _ _ _ _ L ltac:(lia)) as F. rewrite Forall_forall in F.
  destruct (F s I) as [?|(A & B & C & D)]; [now left|right]. unfold window. lia.
Qed.
Print Assumptions C70_kinds.

(** A part of other than one byte is always a window. *)
Theorem C70_data_is_window : forall h b h' ss e s, wf_sl h b -> h_decode_parts h b = Ok (h', ss, e) -> In s ss ->
  length (get h' s) <> 1%nat -> window b 0 (s_len b) s.
Proof.
  intros h b h' ss e s W H I N. destruct (C70_kinds _ _ _ _ _ _ W H I) as [(A & _)|?]; [exfalso|assumption].
  destruct (C70_layout _ _ _ _ _ W H) as (ws & t & _ & _ & F & L). pose proof W as (W1 & _). apply N.
  apply (own_one h' b _ _ _ _ L W1 F s I). lia.
Qed.
Print Assumptions C70_data_is_window.

(** Writing to a window writes to the script, at the same place and nowhere else. *)
Theorem C70_write_data : forall h b h' ss e s i c h'', wf_sl h b -> h_decode_parts h b = Ok (h', ss, e) -> In s ss ->
  window b 0 (s_len b) s -> h_store h' s i c = Ok h'' ->
  overwritten (get h b) (s_off s - s_off b + i) [c] (get h'' b).
Proof.
  intros h b h' ss e s i c h'' W H I (A & B & C & D) S. unfold h_store in S. destruct (Nat.ltb_spec i (s_len s)) as [L|L]; [|discriminate]. injection S as <-.
  destruct (C70_value h b W) as (_ & _ & V). destruct (V _ _ _ H) as [_ Old]. rewrite <- (get_old h h' b (Old _ (proj1 W))).
  replace (s_off s - s_off b + i)%nat with (s_off s + i - s_off b)%nat by lia. rewrite A. apply write_seen; [|lia|cbn [length]; lia].
  destruct (h_full h b W) as [[E1 _]|(news & ss' & ws & t & ps & e' & E1 & _)]; rewrite E1 in H; [discriminate|]. injection H as <- _ _. now apply wf_app.
Qed.
Print Assumptions C70_write_data.

(** Appending to a window overwrites what follows it in the script, unless that does not
    fit into the script's capacity. *)
Theorem C70_append_data : forall k h b h' ss e s d h'' s'', wf_sl h b -> h_decode_parts h b = Ok (h', ss, e) -> In s ss ->
  window b 0 (s_len b) s -> (s_off s + s_len s + length d <= s_off b + s_len b)%nat -> h_append k h' s d = (h'', s'') ->
  overwritten (get h b) (s_off s + s_len s - s_off b) d (get h'' b).
Proof.
  intros k h b h' ss e s d h'' s'' W H I (A & B & C & D) L S. pose proof W as (W1 & W2 & W3 & W4). rewrite append_fits in S by lia. injection S as <- _.
  destruct (C70_value h b W) as (_ & _ & V). destruct (V _ _ _ H) as [_ Old]. rewrite <- (get_old h h' b (Old _ W1)).
  rewrite A. apply write_seen; [|lia|lia].
  destruct (h_full h b W) as [[E1 _]|(news & ss' & ws & t & ps & e' & E1 & _)]; rewrite E1 in H; [discriminate|]. injection H as <- _ _. now apply wf_app.
Qed.
Print Assumptions C70_append_data.

(** Writing to the part of an opcode changes neither the script nor another part. *)
Theorem C70_write_opcode : forall h b h' ss e n s i c h'', wf_sl h b -> h_decode_parts h b = Ok (h', ss, e) ->
  nth_error ss n = Some s -> own (length h) s -> h_store h' s i c = Ok h'' ->
  get h'' b = get h b /\ forall m s', nth_error ss m = Some s' -> m <> n -> get h'' s' = get h' s'.
Proof.
  intros h b h' ss e n s i c h'' W H I (A & B & C & D) S. pose proof W as (W1 & _).
  unfold h_store in S. destruct (Nat.ltb i (s_len s)); [|discriminate]. injection S as <-.
  assert (forall x, s_arr x <> s_arr s -> get (h_write h' (s_arr s) (s_off s + i) [c]) x = get h' x) as K.
  { intros x N. apply get_old. unfold h_write. rewrite arr_set. replace (Nat.eqb (s_arr x) (s_arr s)) with false by (symmetry; now apply Nat.eqb_neq). reflexivity. }
  destruct (C70_value h b W) as (_ & _ & V). destruct (V _ _ _ H) as [_ Old].
  split; [rewrite K by lia; apply get_old, Old, W1|].
  destruct (C70_layout _ _ _ _ _ W H) as (ws & t & _ & _ & _ & L). intros m s' J N. apply K. intros E.
  destruct (Nat.lt_ge_cases m n) as [X|X].
  - pose proof (laid_distinct _ _ _ _ _ L W1 m n s' s X J I E). lia.
  - pose proof (laid_distinct _ _ _ _ _ L W1 n m s s' ltac:(lia) I J ltac:(congruence)). lia.
Qed.
Print Assumptions C70_write_opcode.

(** GetPublicKeyHash: the values of C14, and the storage: the result is one of the parts
    of the script behind its first two bytes. *)
Theorem C70_pkh_value : forall h s, wf_sl h s ->
  (forall e, h_get_public_key_hash h s = Err e <-> get_public_key_hash (Some (get h s)) = Err e) /\
  (h_get_public_key_hash h s = Panic <-> get_public_key_hash (Some (get h s)) = Panic) /\
  (forall h' q, h_get_public_key_hash h s = Ok (h', q) -> get_public_key_hash (Some (get h s)) = Ok (get h' q) /\
     (forall a, (a < length h)%nat -> arr h' a = arr h a) /\ (own (length h) q \/ window s 2 (s_len s) q)).
Proof.
  intros h s W. unfold h_get_public_key_hash, get_public_key_hash. pose proof (get_length h s W) as GL. destruct (get h s) as [|b0 r] eqn:G; [split; [intros; apply err_same|]; split; [split; discriminate|discriminate]|].
  destruct (negb (byte_eqb b0 x76)); [split; [intros; apply err_same|]; split; [split; discriminate|discriminate]|].
  destruct r as [|b1 r]; cbn [nth_error or_panic bind]; [split; [split; discriminate|]; split; [split; reflexivity|discriminate]|].
  destruct (negb (byte_eqb b1 xa9)); [split; [intros; apply err_same|]; split; [split; discriminate|discriminate]|].
  assert (h_from s 2 = Some (rest_sl s 2)) as ->.
  { unfold h_from, h_sub. cbn [length] in GL. destruct W as (W1 & W2 & W3 & W4).
    replace ((0 <=? 2) && (2 <=? Z.of_nat (s_len s)) && (Z.of_nat (s_len s) <=? Z.of_nat (s_cap s)))%Z with true by lia.
    unfold rest_sl. change (Z.to_nat 2) with 2%nat. do 2 f_equal. lia. }
  assert (wf_sl h (rest_sl s 2)) as WR by (apply wf_rest; [assumption|cbn [length] in GL; lia]).
  assert (get h (rest_sl s 2) = r) as GR by (rewrite get_rest, G; reflexivity).
  cbn [or_panic bind skipn]. destruct (C70_value h (rest_sl s 2) WR) as (VP & VE & VO). rewrite GR in *.
  unfold decode_parts. destruct (h_decode_parts h (rest_sl s 2)) as [[[h' ss] e]|e|] eqn:D.
  - destruct (VO _ _ _ eq_refl) as [V Old]. rewrite V. cbn [bind]. destruct e as [x|].
    + cbn [bind]. split; [first [intros; apply err_same | split; discriminate]|]. split; [split; (discriminate || reflexivity)|discriminate].
    + cbn [bind]. destruct ss as [|q ss]; cbn [map nth_error or_panic bind]; [split; [split; discriminate|]; split; [split; reflexivity|discriminate]|].
      split; [split; discriminate|]. split; [split; discriminate|]. intros h1 q1 H. injection H as <- <-. split; [reflexivity|]. split; [assumption|].
      destruct (C70_kinds _ _ _ _ _ _ WR D (or_introl eq_refl)) as [?|(A & B & C & E)]; [now left|right].
      unfold window. unfold rest_sl in *. cbn [s_arr s_off s_len s_cap] in *. cbn [length] in GL. destruct W as (_ & W2 & _). lia.
  - exfalso. now apply (VE e).
  - rewrite (proj1 VP eq_refl). cbn [bind]. split; [first [intros; apply err_same | split; discriminate]|]. split; [split; (discriminate || reflexivity)|discriminate].
Qed.
Print Assumptions C70_pkh_value.

(** For a P2PKH script the result is the hash inside the script itself: changing it changes
    whom the script pays, appending to it overwrites the script's last opcodes. *)
Theorem C70_pkh_shared : forall h s hash, wf_sl h s -> get h s = p2pkh hash -> length hash = 20%nat ->
  exists h' q, h_get_public_key_hash h s = Ok (h', q) /\ get h' q = hash /\
    (forall i c h'', h_store h' q i c = Ok h'' -> exists hash', overwritten hash i [c] hash' /\ get h'' s = p2pkh hash') /\
    (forall k c d h'' q', h_append k h' q [c; d] = (h'', q') -> get h'' s = [x76; xa9; x14] ++ hash ++ [c; d]).
Proof.
  intros h s hash W G L. pose proof (get_length h s W) as GL. rewrite G in GL. unfold p2pkh in GL. rewrite !app_length in GL. cbn [length] in GL.
  pose proof W as (W1 & W2 & W3 & W4).
  assert (wf_sl h (rest_sl s 2)) as WR by (apply wf_rest; [assumption|lia]).
  assert (get h (rest_sl s 2) = x14 :: hash ++ [x88; xac]) as GR by (rewrite get_rest, G; reflexivity).
  assert (safe_elems (x14 :: hash ++ [x88; xac]) [hash; [x88]; [xac]]) as SE.
  { change (x14 :: hash ++ [x88; xac]) with ((x14 :: hash) ++ [x88] ++ [xac] ++ []). constructor; [apply elem_push; [vm_compute; split; discriminate|unfold nlen; rewrite L; reflexivity]|intros X; inversion X|].
    constructor; [apply elem_op; right; vm_compute; discriminate|intros X; inversion X|].
    constructor; [apply elem_op; right; vm_compute; discriminate|intros X; inversion X|constructor]. }
  destruct (h_full h (rest_sl s 2) WR) as [[_ E2]|(news & ss & ws & t & ps & e & E1 & E2 & E3 & E4 & E5 & E6 & E7)].
  { rewrite GR, (full_ok _ _ SE) in E2. discriminate. }
  rewrite GR, (full_ok _ _ SE) in E2. injection E2 as <- <-. set (h' := h ++ map (fun c => [c]) news) in *.
  destruct ss as [|q ss]; [discriminate|]. cbn [map] in E7. injection E7 as Q E7. exists h', q.
  assert (h_get_public_key_hash h s = Ok (h', q)) as P.
  { unfold h_get_public_key_hash. rewrite G. unfold p2pkh. cbn [app byte_eqb]. change (byte_eqb x76 x76) with true. change (byte_eqb xa9 xa9) with true.
    cbn [negb nth_error or_panic bind].
    assert (h_from s 2 = Some (rest_sl s 2)) as ->.
    { unfold h_from, h_sub. replace ((0 <=? 2) && (2 <=? Z.of_nat (s_len s)) && (Z.of_nat (s_len s) <=? Z.of_nat (s_cap s)))%Z with true by lia.
      unfold rest_sl. change (Z.to_nat 2) with 2%nat. do 2 f_equal. lia. }
    cbn [or_panic bind]. rewrite E1. reflexivity. }
  assert (q = mk_sl (s_arr s) (s_off s + 3) 20 (s_cap s - 3)) as EQ.
  { pose proof (first_push20 h (rest_sl s 2) hash [x88; xac] news _ _ WR GR L E1) as X. cbn [nth_error] in X. injection X as ->.
    unfold rest_sl. cbn [s_arr s_off s_cap]. f_equal; lia. }
  assert (get h' s = get h s) as GO by (apply get_app, W1).
  assert (wf_sl h' s) as W' by (apply wf_app, W).
  split; [exact P|]. split; [congruence|]. split.
  - intros i c h'' S. unfold h_store in S. subst q. cbn [s_len s_arr s_off] in S. destruct (Nat.ltb_spec i 20) as [I|I]; [|discriminate]. injection S as <-.
    assert (i + length [c] <= length hash)%nat as LI by (cbn [length]; lia).
    exists (write_at hash i [c]). split; [now apply write_overwritten|].
    pose proof (write_seen h' s (s_off s + 3 + i) [c] W' ltac:(lia) ltac:(cbn [length]; lia)) as O.
    rewrite GO, G in O. replace (s_off s + 3 + i - s_off s)%nat with (3 + i)%nat in O by lia.
    eapply overwritten_fun; [|exact O|].
    + unfold p2pkh. rewrite !app_length. cbn [length]. lia.
    + assert (p2pkh (write_at hash i [c]) = write_at (p2pkh hash) (3 + i) [c]) as ->.
      { unfold write_at, p2pkh. cbn [app firstn skipn plus length]. do 3 f_equal. rewrite !firstn_app, !skipn_app.
        replace (i - length hash)%nat with 0%nat by lia. replace (i + 1 - length hash)%nat with 0%nat by lia. cbn [firstn skipn]. rewrite app_nil_r, <- !app_assoc. reflexivity. }
      apply write_overwritten. unfold p2pkh. rewrite !app_length. cbn [length]. lia.
  - intros k c d h'' q' S. subst q. rewrite append_fits in S by (cbn [s_len s_cap length]; lia). injection S as <- _.
    cbn [s_arr s_off s_len].
    pose proof (write_seen h' s (s_off s + 3 + 20) [c; d] W' ltac:(lia) ltac:(cbn [length]; lia)) as O.
    rewrite GO, G in O. replace (s_off s + 3 + 20 - s_off s)%nat with 23%nat in O by lia.
    eapply overwritten_fun; [|exact O|].
    + unfold p2pkh. rewrite !app_length. cbn [length]. lia.
    + assert ([x76; xa9; x14] ++ hash ++ [c; d] = write_at (p2pkh hash) 23 [c; d]) as ->.
      { assert (p2pkh hash = ([x76; xa9; x14] ++ hash) ++ [x88; xac]) as ->  by (unfold p2pkh; now rewrite !app_assoc).
        assert (length ([x76; xa9; x14] ++ hash) = 23%nat) as L3 by (rewrite app_length, L; reflexivity).
        unfold write_at. rewrite firstn_app, skipn_app, L3, Nat.sub_diag, firstn_all2, skipn_all2 by (rewrite L3; cbn [length]; lia).
        cbn [length firstn skipn minus plus]. now rewrite !app_nil_r, <- app_assoc. }
      apply write_overwritten. unfold p2pkh. rewrite !app_length. cbn [length]. lia.
Qed.
Print Assumptions C70_pkh_shared.

(** The hypotheses are met: a P2PKH script of 25 bytes in an array with room for 4 more. *)
Example C70_example : let hash := repeat x07 20 in let h := [p2pkh hash ++ repeat x00 4] in let s := mk_sl 0 0 25 29 in
  wf_sl h s /\ get h s = p2pkh hash /\
  h_decode_parts h s = Ok (h ++ [[x76]; [xa9]; [x88]; [xac]],
    [mk_sl 1 0 1 1; mk_sl 2 0 1 1; mk_sl 0 3 20 26; mk_sl 3 0 1 1; mk_sl 4 0 1 1], None) /\
  window s 0 25 (mk_sl 0 3 20 26) /\ own 1 (mk_sl 2 0 1 1).
Proof.
  cbv zeta. split; [unfold wf_sl; cbn; lia|]. split; [reflexivity|]. split; [reflexivity|].
  unfold window, own. cbn. lia.
Qed.
