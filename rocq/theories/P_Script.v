(** Proofs about script/Script.go and script/UnlockingScript.go. *)
From Verif Require Export P_Push P_Crypto M_Script.
From Coq Require Import ZifyBool ZifyNat ZifyN.

(** ** Builder histories *)

Lemma append_array_ok s l : (forall p, In p l -> nlen p < 4294967296) ->
  append_push_data_array s l = (s ++ concat (map push_wire l), None).
Proof. intros H. unfold append_push_data_array. now rewrite encode_parts_spec. Qed.

Lemma append_array_err s l d : In d l -> 4294967296 <= nlen d ->
  exists e, append_push_data_array s l = (s, Some e).
Proof.
  intros I B. unfold append_push_data_array.
  destruct (proj2 (c08_fails l)) as [e E]; [eauto|]. rewrite E. eauto.
Qed.

Lemma fold_id (l : list bytes) acc : fold_left (fun acc t => acc ++ [t]) l acc = acc ++ l.
Proof.
  revert acc; induction l as [|x l IH]; intros acc; cbn [fold_left]; [now rewrite app_nil_r|].
  rewrite IH, <- app_assoc. reflexivity.
Qed.

Lemma strings_array s l : append_push_data_strings s l = append_push_data_array s l.
Proof. unfold append_push_data_strings. now rewrite fold_id. Qed.

Lemma push_array s d : append_push_data s d = append_push_data_array s [d].
Proof. reflexivity. Qed.

Lemma dom_all l : Forall push_domain l -> forall p, In p l -> nlen p < 4294967296.
Proof. rewrite Forall_forall. intros H p I. apply domain_small; auto. Qed.

Lemma run_call_safe s ps c : safe_elems s ps -> call_ok c ->
  safe_elems (fst (run_call s c)) (ps ++ asked c).
Proof.
  intros S H.
  assert (forall l, Forall push_domain (servable l) ->
    safe_elems (fst (append_push_data_array s l)) (ps ++ servable l)) as A.
  { intros l. unfold servable. destruct (forallb (fun d => nlen d <? 4294967296) l) eqn:E; intros D.
    - rewrite append_array_ok by now apply dom_all. cbn [fst].
      apply safe_app; [assumption|now apply pushes_safe].
    - assert (exists d, In d l /\ 4294967296 <= nlen d) as (d & I & B).
      { clear -E. induction l as [|x l IH]; [discriminate|]. cbn [forallb] in E.
        apply andb_false_iff in E as [E|E]; [exists x; split; [now left|lia]|].
        destruct (IH E) as (d & I & B). exists d. split; [now right|assumption]. }
      destruct (append_array_err s l d I B) as [e ->]. cbn [fst]. now rewrite app_nil_r. }
  destruct c as [d|h|t|l|l|o]; cbn [run_call asked call_ok] in *.
  - rewrite push_array. now apply A.
  - unfold append_push_data_hex. destruct (hex_dec h) as [d|] eqn:E.
    + apply of_hex_ok in E. rewrite E, push_array. now apply A.
    + destruct (of_hex h) as [d|e|] eqn:F; [apply of_hex_ok in F; congruence| |now apply of_hex_no_panic in F].
      cbn [fst]. now rewrite app_nil_r.
  - unfold append_push_data_string. rewrite push_array. now apply A.
  - now apply A.
  - rewrite strings_array. now apply A.
  - cbn [fst]. unfold append_opcode. apply safe_app; [assumption|].
    apply safe_one; [now constructor|]. intros W. inversion W as [l d Hl Hd E|l d Hl Hd E]; subst;
      destruct H as [H|H]; try discriminate; vm_compute in H; congruence.
Qed.

Lemma run_calls_safe cs s ps : safe_elems s ps -> Forall call_ok cs ->
  safe_elems (run_calls s cs) (ps ++ concat (map asked cs)).
Proof.
  intros S H; revert s ps S; induction H as [|c cs Hc H IH]; intros s ps S; cbn [run_calls map concat].
  - now rewrite app_nil_r.
  - rewrite app_assoc. apply IH. now apply run_call_safe.
Qed.

Lemma c12_history cs : Forall call_ok cs ->
  decode_parts (run_calls [] cs) = Ok (concat (map asked cs)).
Proof. intros H. apply decode_ok_iff. apply (run_calls_safe cs [] []); [constructor|assumption]. Qed.

Lemma c12_failed s c : call_failed s c -> fst (run_call s c) = s.
Proof.
  unfold call_failed.
  assert (forall l, snd (append_push_data_array s l) <> None -> fst (append_push_data_array s l) = s) as A.
  { intros l. unfold append_push_data_array. destruct (encode_parts l); cbn [fst snd]; congruence. }
  destruct c as [d|h|t|l|l|o]; cbn [run_call].
  - rewrite push_array. apply A.
  - unfold append_push_data_hex. destruct (of_hex h); [rewrite push_array; apply A| |]; reflexivity.
  - unfold append_push_data_string. rewrite push_array. apply A.
  - apply A.
  - rewrite strings_array. apply A.
  - cbn [snd]. congruence.
Qed.

Lemma c12_fails_iff s c : call_failed s c <->
  match c with
  | CPush d | CPushString d => 4294967296 <= nlen d
  | CPushHex h => match hex_dec h with None => True | Some d => 4294967296 <= nlen d end
  | CPushArray l | CPushStrings l => exists d, In d l /\ 4294967296 <= nlen d
  | COpCode _ => False
  end.
Proof.
  unfold call_failed.
  assert (forall l, snd (append_push_data_array s l) <> None <-> exists d, In d l /\ 4294967296 <= nlen d) as A.
  { intros l. split.
    - intros H. apply c08_fails. unfold append_push_data_array in H.
      destruct (encode_parts l) eqn:E; cbn [snd] in H; try congruence. eauto.
    - intros (d & I & B). destruct (append_array_err s l d I B) as [e ->]. discriminate. }
  assert (forall d, snd (append_push_data s d) <> None <-> 4294967296 <= nlen d) as A1.
  { intros d. rewrite push_array, A. split; [intros (x & [->|[]] & B); assumption|]. intros B. exists d. split; [now left|assumption]. }
  destruct c as [d|h|t|l|l|o]; cbn [run_call].
  - apply A1.
  - unfold append_push_data_hex. destruct (hex_dec h) as [d|] eqn:E.
    + apply of_hex_ok in E. rewrite E. apply A1.
    + destruct (of_hex h) as [d|e|] eqn:F; [apply of_hex_ok in F; congruence| |now apply of_hex_no_panic in F].
      cbn [snd]. split; [trivial|discriminate].
  - apply A1.
  - apply A.
  - rewrite strings_array. apply A.
  - cbn [snd]. split; [congruence|tauto].
Qed.

(** ** P2PKH and P2SH *)

Lemma nth_split (b : bytes) n : (n < length b)%nat -> b = firstn n b ++ nth n b x00 :: skipn (S n) b.
Proof.
  revert n; induction b as [|x b IH]; intros [|n] H; cbn [length] in H; try lia; [reflexivity|].
  cbn [firstn nth skipn app]. f_equal. apply IH. lia.
Qed.

Lemma p2pkh_iff s : is_p2pkh s = true <-> exists h, length h = 20%nat /\ s = p2pkh h.
Proof.
  split.
  - unfold is_p2pkh. rewrite !andb_true_iff, !byte_eqb_eq, Nat.eqb_eq.
    intros (((((L & A) & B) & C) & D) & E).
    do 25 (destruct s as [|? s]; [discriminate L|]).
    destruct s; [|discriminate L]. cbn [nth] in *. subst.
    eexists [_;_;_;_;_;_;_;_;_;_;_;_;_;_;_;_;_;_;_;_]. split; reflexivity.
  - intros (h & L & ->).
    do 20 (destruct h as [|? h]; [discriminate L|]). destruct h; [|discriminate L]. reflexivity.
Qed.

Lemma p2sh_iff s : is_p2sh s = true <-> exists h, length h = 20%nat /\ s = p2sh h.
Proof.
  split.
  - unfold is_p2sh. rewrite !andb_true_iff, !byte_eqb_eq, Nat.eqb_eq.
    intros (((L & A) & B) & C).
    do 23 (destruct s as [|? s]; [discriminate L|]).
    destruct s; [|discriminate L]. cbn [nth] in *. subst.
    eexists [_;_;_;_;_;_;_;_;_;_;_;_;_;_;_;_;_;_;_;_]. split; reflexivity.
  - intros (h & L & ->).
    do 20 (destruct h as [|? h]; [discriminate L|]). destruct h; [|discriminate L]. reflexivity.
Qed.

Lemma safe_op c : c = x00 \/ 79 <= b2n c -> safe_elems [c] [[c]].
Proof.
  intros H. apply safe_one; [now constructor|].
  intros W. inversion W as [l d Hl Hd E|l d Hl Hd E]; subst;
    destruct H as [H|H]; try discriminate; vm_compute in H; congruence.
Qed.

Lemma safe_push20 h : length h = 20%nat -> safe_elems (x14 :: h) [h].
Proof.
  intros L. apply safe_one.
  - constructor; [vm_compute; split; discriminate|]. unfold nlen. rewrite L. reflexivity.
  - intros W. inversion W.
Qed.

Ltac op_side := first [left; reflexivity | right; vm_compute; discriminate].

Lemma p2pkh_safe h : length h = 20%nat -> safe_elems (p2pkh h) [[x76]; [xa9]; h; [x88]; [xac]].
Proof.
  intros L. unfold p2pkh.
  change ([x76; xa9; x14] ++ h ++ [x88; xac]) with ([x76] ++ [xa9] ++ (x14 :: h) ++ [x88] ++ [xac]).
  change [[x76]; [xa9]; h; [x88]; [xac]] with ([[x76]] ++ [[xa9]] ++ [h] ++ [[x88]] ++ [[xac]]).
  repeat apply safe_app; try (apply safe_op; op_side). now apply safe_push20.
Qed.

Lemma p2sh_safe h : length h = 20%nat -> safe_elems (p2sh h) [[xa9]; h; [x87]].
Proof.
  intros L. unfold p2sh.
  change ([xa9; x14] ++ h ++ [x87]) with ([xa9] ++ (x14 :: h) ++ [x87]).
  change [[xa9]; h; [x87]] with ([[xa9]] ++ [h] ++ [[x87]]).
  repeat apply safe_app; try (apply safe_op; op_side). now apply safe_push20.
Qed.

Lemma p2pkh_pubkey_bytes k : p2pkh_from_pubkey_bytes k = p2pkh (hash160 k).
Proof. unfold p2pkh_from_pubkey_bytes, p2pkh. cbv zeta. rewrite <- !app_assoc. reflexivity. Qed.

Lemma p2pkh_pubkey_str t s : p2pkh_from_pubkey_str t = Ok s <-> exists k, hex_dec t = Some k /\ s = p2pkh (hash160 k).
Proof.
  unfold p2pkh_from_pubkey_str. destruct (of_hex t) as [k|e|] eqn:E; cbn [bind].
  - apply of_hex_ok in E. rewrite p2pkh_pubkey_bytes. split.
    + intros H; injection H as <-. eauto.
    + intros (k' & E' & ->). congruence.
  - split; [discriminate|]. intros (k & E' & _). apply of_hex_ok in E'. congruence.
  - now apply of_hex_no_panic in E.
Qed.

Lemma p2pkh_pkh_str t h : hex_dec t = Some h -> p2pkh_from_pkh_str t = Ok (p2pkh h).
Proof.
  intros E. apply of_hex_ok in E. unfold p2pkh_from_pkh_str. rewrite E. cbn [bind].
  f_equal. unfold p2pkh. cbv zeta. rewrite <- !app_assoc. reflexivity.
Qed.

Lemma addr_pkh_20 addr a : addr_from_string addr = Ok a ->
  exists h, length h = 20%nat /\ addr_pkh a = hex_encode h /\ addr_string a = addr /\
            h = firstn 20 (skipn 1 (b58_decode addr)).
Proof.
  unfold addr_from_string, address_to_pkh_str. cbv zeta.
  destruct (Nat.eqb (length (b58_decode addr)) 25) eqn:L; cbn [negb]; [|discriminate].
  apply Nat.eqb_eq in L. intros H.
  assert (mk_addr addr (hex_encode (firstn 20 (skipn 1 (b58_decode addr)))) = a) as <-.
  { destruct (nth 0 (b58_decode addr) x00); cbn [bind] in H; congruence. }
  exists (firstn 20 (skipn 1 (b58_decode addr))). cbn [addr_pkh addr_string].
  repeat split. rewrite firstn_length, skipn_length, L. reflexivity.
Qed.

Lemma push20_wire h : length h = 20%nat -> push_wire h = x14 :: h.
Proof. intros L. unfold push_wire, push_prefix, nlen. rewrite L. reflexivity. Qed.

Lemma p2pkh_address addr a h : addr_from_string addr = Ok a -> addr_pkh a = hex_encode h ->
  p2pkh_from_address addr = Ok (p2pkh h).
Proof.
  intros A E. unfold p2pkh_from_address. rewrite A. cbn [bind]. rewrite E, of_hex_encode. cbn [bind].
  assert (length h = 20%nat) as L.
  { apply addr_pkh_20 in A as (h' & L & E' & _). rewrite E' in E. apply hex_encode_inj in E. congruence. }
  rewrite push_array, append_array_ok.
  2: { intros p [<-|[]]. unfold nlen. rewrite L. reflexivity. }
  cbn [map concat]. rewrite app_nil_r, push20_wire by assumption.
  f_equal. unfold append_opcode, p2pkh. cbn [app]. now rewrite <- !app_assoc.
Qed.

Lemma p2pkh_address_err addr : (forall a, addr_from_string addr <> Ok a) ->
  exists e, p2pkh_from_address addr = Err e.
Proof.
  intros H. unfold p2pkh_from_address. destruct (addr_from_string addr) as [a|e|] eqn:E; cbn [bind]; eauto.
  - now specialize (H a).
  - exfalso. revert E. unfold addr_from_string, address_to_pkh_str. cbv zeta.
    destruct (Nat.eqb (length (b58_decode addr)) 25); cbn [negb]; [|discriminate].
    destruct (nth 0 (b58_decode addr) x00); discriminate.
Qed.

(** ** GetPublicKeyHash *)

Lemma gpkh_p2pkh h : length h = 20%nat -> get_public_key_hash (Some (p2pkh h)) = Ok h.
Proof.
  intros L. unfold p2pkh. cbn [app get_public_key_hash]. cbn [nth_error or_panic bind].
  change (negb (byte_eqb x76 x76)) with false. change (negb (byte_eqb xa9 xa9)) with false. cbn [skipn].
  assert (decode_parts (x14 :: h ++ [x88; xac]) = Ok [h; [x88]; [xac]]) as E.
  { apply decode_ok_iff. change (x14 :: h ++ [x88; xac]) with ((x14 :: h) ++ [x88] ++ [xac]).
    change [h; [x88]; [xac]] with ([h] ++ [[x88]] ++ [[xac]]).
    repeat apply safe_app; try (apply safe_op; op_side). now apply safe_push20. }
  match goal with |- bind ?x _ = _ => change x with (decode_parts (x14 :: h ++ [x88; xac])) end.
  rewrite E. reflexivity.
Qed.

Lemma gpkh_eq b0 b1 r :
  get_public_key_hash (Some (b0 :: b1 :: r)) =
  if byte_eqb b0 x76 && byte_eqb b1 xa9 then
    match decode_parts r with
    | Ok (p :: _) => Ok p
    | Ok [] => Panic
    | Err e => Err e
    | Panic => Panic
    end
  else Err ENotP2PKH.
Proof.
  cbn [get_public_key_hash nth_error or_panic bind skipn].
  destruct (byte_eqb b0 x76); cbn [negb andb]; [|reflexivity].
  destruct (byte_eqb b1 xa9); cbn [negb]; [|reflexivity].
  destruct (decode_parts r) as [[|p ps]|e|]; reflexivity.
Qed.

Lemma gpkh_ok_iff s h : get_public_key_hash s = Ok h <->
  exists r ps, s = Some (x76 :: xa9 :: r) /\ safe_elems r (h :: ps).
Proof.
  split.
  - destruct s as [[|b0 [|b1 r]]|]; try discriminate.
    + cbn [get_public_key_hash]. destruct (negb (byte_eqb b0 x76)); discriminate.
    + rewrite gpkh_eq. destruct (byte_eqb b0 x76 && byte_eqb b1 xa9) eqn:E; [|discriminate].
      apply andb_true_iff in E as [E0 E1]. apply byte_eqb_eq in E0, E1. subst.
      destruct (decode_parts r) as [[|p ps]|e|] eqn:D; try discriminate.
      intros H; injection H as ->. apply decode_ok_iff in D. eauto.
  - intros (r & ps & -> & H). rewrite gpkh_eq. apply decode_ok_iff in H. rewrite H. reflexivity.
Qed.

Lemma gpkh_panic_iff s : get_public_key_hash s = Panic <->
  s = Some [x76] \/ s = Some [x76; xa9] \/
  exists r, s = Some (x76 :: xa9 :: r) /\ decode_parts r = Panic.
Proof.
  split.
  - destruct s as [[|b0 [|b1 r]]|]; try discriminate.
    + cbn [get_public_key_hash]. destruct (byte_eqb b0 x76) eqn:E; cbn [negb]; [|discriminate].
      apply byte_eqb_eq in E. subst. auto.
    + rewrite gpkh_eq. destruct (byte_eqb b0 x76 && byte_eqb b1 xa9) eqn:E; [|discriminate].
      apply andb_true_iff in E as [E0 E1]. apply byte_eqb_eq in E0, E1. subst.
      destruct (decode_parts r) as [[|p ps]|e|] eqn:D; try discriminate.
      * apply decode_ok_iff in D. inversion D. subst. auto.
      * eauto.
  - intros [->|[->|(r & -> & D)]]; [reflexivity|reflexivity|].
    rewrite gpkh_eq, D. reflexivity.
Qed.

(** ** Template predicates *)

Lemma p2pk_cases s :
  is_p2pk s =
  match decode_parts s with
  | Panic => Panic
  | Err _ => Ok false
  | Ok [c :: k; []] => Panic
  | Ok [c :: k; d :: q] =>
      Ok (byte_eqb d xac &&
          ((byte_eqb c x04 || byte_eqb c x06 || byte_eqb c x07) && Nat.eqb (length (c :: k)) 65
           || (byte_eqb c x03 || byte_eqb c x02) && Nat.eqb (length (c :: k)) 33))
  | Ok _ => Ok false
  end.
Proof.
  unfold is_p2pk. destruct (decode_parts s) as [[|[|c k] [|[|d q] [|? ?]]]|e|]; try reflexivity.
  cbn [first_byte bind]. change (Nat.ltb 0 (length (c :: k))) with true. cbn [negb]. cbv iota.
  unfold OpCHECKSIG. destruct (byte_eqb d xac); cbn [andb]; [|reflexivity].
  destruct ((byte_eqb c x04 || byte_eqb c x06 || byte_eqb c x07) && Nat.eqb (length (c :: k)) 65); [reflexivity|].
  cbn [orb]. destruct ((byte_eqb c x03 || byte_eqb c x02) && Nat.eqb (length (c :: k)) 33); reflexivity.
Qed.

Lemma p2pk_true_iff s : is_p2pk s = Ok true <->
  exists k q, safe_elems s [k; xac :: q] /\ wf_pubkey k.
Proof.
  rewrite p2pk_cases. split.
  - destruct (decode_parts s) as [[|[|c k] [|[|d q] [|? ?]]]|e|] eqn:D; try discriminate.
    intros H. injection H as H. apply andb_true_iff in H as [H1 H2]. apply byte_eqb_eq in H1. subst d.
    exists (c :: k), q. split; [now apply decode_ok_iff|]. unfold wf_pubkey. cbn [hd].
    rewrite orb_true_iff, !andb_true_iff, !orb_true_iff, !Nat.eqb_eq, !byte_eqb_eq in H2. cbn [length].
    assert (length k = 64 <-> S (length k) = 65)%nat by lia. assert (length k = 32 <-> S (length k) = 33)%nat by lia. tauto.
  - intros (k & q & H & W). apply decode_ok_iff in H. rewrite H.
    assert (k <> []) by (destruct W as [[L _]|[L _]]; destruct k; discriminate).
    destruct k as [|c k]; [congruence|]. f_equal. rewrite byte_eqb_refl. cbn [andb].
    unfold wf_pubkey in W. cbn [hd] in W.
    rewrite orb_true_iff, !andb_true_iff, !orb_true_iff, !Nat.eqb_eq, !byte_eqb_eq. tauto.
Qed.

Lemma p2pk_panic_iff s : is_p2pk s = Panic <->
  decode_parts s = Panic \/ exists k, k <> [] /\ safe_elems s [k; []].
Proof.
  rewrite p2pk_cases. split.
  - destruct (decode_parts s) as [[|[|c k] [|[|d q] [|? ?]]]|e|] eqn:D; try discriminate; auto.
    intros _. right. exists (c :: k). split; [discriminate|now apply decode_ok_iff].
  - intros [->|(k & N & H)]; [reflexivity|]. apply decode_ok_iff in H. rewrite H. destruct k; congruence.
Qed.

Lemma data_iff s : is_data s = Ok true <-> exists r, s = x6a :: r \/ s = x00 :: x6a :: r.
Proof.
  unfold is_data. destruct s as [|c s]; cbn [nth_error or_panic bind].
  - split; [discriminate|]. intros (r & [H|H]); discriminate.
  - destruct (byte_eqb_spec c x6a) as [->|N]; [split; eauto|].
    destruct (byte_eqb_spec c x00) as [->|N0].
    + destruct s as [|d s]; cbn [nth_error or_panic bind].
      * split; [discriminate|]. intros (r & [H|H]); discriminate.
      * destruct (byte_eqb_spec d x6a) as [->|Nd].
        { split; eauto. }
        { split; [discriminate|]. intros (r & [H|H]); congruence. }
    + split; [discriminate|]. intros (r & [H|H]); congruence.
Qed.

Lemma data_panic_iff s : is_data s = Panic <-> s = [] \/ s = [x00].
Proof.
  unfold is_data. destruct s as [|c s]; cbn [nth_error or_panic bind]; [split; auto|].
  destruct (byte_eqb_spec c x6a) as [->|N]; [split; [discriminate|intros [H|H]; discriminate]|].
  destruct (byte_eqb_spec c x00) as [->|N0].
  - destruct s as [|d s]; cbn [nth_error or_panic bind]; [split; auto|]. split; [discriminate|intros [H|H]; discriminate].
  - split; [discriminate|intros [H|H]; congruence].
Qed.

Lemma small_int_iff c : is_small_int_op c = true <-> small_int c.
Proof.
  unfold is_small_int_op, small_int. rewrite orb_true_iff, byte_eqb_eq, andb_true_iff, !N.leb_le. reflexivity.
Qed.

Lemma three_split {A} (l : list A) : (3 <= length l)%nat ->
  exists a m b c, l = a :: m ++ [b; c].
Proof.
  intros H. destruct l as [|a l]; [cbn [length] in H; lia|]. cbn [length] in H.
  destruct (exists_last (l := l)) as (l1 & c & E); [destruct l; [cbn [length] in H; lia|discriminate]|].
  subst l. rewrite app_length in H. cbn [length] in H.
  destruct (exists_last (l := l1)) as (m & b & E); [destruct l1; [cbn [length] in H; lia|discriminate]|].
  subst l1. exists a, m, b, c. now rewrite <- app_assoc.
Qed.

Lemma multisig_cases s a m b c : decode_parts s = Ok (a :: m ++ [b; c]) ->
  is_multisig_out s =
  match a with
  | [] => Panic
  | a0 :: _ =>
      if is_small_int_op a0 then
        if existsb (fun p => Nat.ltb (length p) 1) m then Ok false else
        match b with
        | [] => Panic
        | b0 :: _ => if is_small_int_op b0 then
                       match c with [] => Panic | c0 :: _ => Ok (byte_eqb c0 xae) end
                     else Ok false
        end
      else Ok false
  end.
Proof.
  intros D. unfold is_multisig_out. rewrite D. cbv zeta.
  set (n := length (a :: m ++ [b; c])).
  assert (n = (3 + length m)%nat) as En by (unfold n; cbn [length]; rewrite app_length; cbn [length]; lia).
  replace (Nat.ltb n 3) with false by lia. change (nth 0 (a :: m ++ [b; c]) []) with a.
  assert (firstn (n - 3) (skipn 1 (a :: m ++ [b; c])) = m) as ->
    by (cbn [skipn]; rewrite En, firstn_len by lia; reflexivity).
  assert (nth (n - 2) (a :: m ++ [b; c]) [] = b) as ->.
  { replace (n - 2)%nat with (S (length m)) by lia. cbn [nth]. rewrite app_nth2, Nat.sub_diag by lia. reflexivity. }
  assert (nth (n - 1) (a :: m ++ [b; c]) [] = c) as ->.
  { replace (n - 1)%nat with (S (S (length m))) by lia. cbn [nth]. rewrite app_nth2 by lia.
    replace (S (length m) - length m)%nat with 1%nat by lia. reflexivity. }
  destruct a as [|a0 a]; cbn [first_byte bind]; [reflexivity|].
  destruct (is_small_int_op a0); cbn [negb]; [|reflexivity].
  destruct (existsb (fun p => Nat.ltb (length p) 1) m); [reflexivity|].
  destruct b as [|b0 b]; cbn [first_byte bind]; [reflexivity|].
  destruct (is_small_int_op b0); [|reflexivity].
  destruct c; reflexivity.
Qed.

Lemma multisig_short s ps : decode_parts s = Ok ps -> (length ps < 3)%nat -> is_multisig_out s = Ok false.
Proof.
  intros D L. unfold is_multisig_out. rewrite D. cbv zeta. replace (Nat.ltb (length ps) 3) with true by lia. reflexivity.
Qed.

Lemma exists_empty (m : list bytes) : existsb (fun p => Nat.ltb (length p) 1) m = true <-> In [] m.
Proof.
  rewrite existsb_exists. split.
  - intros (x & I & E). destruct x; [assumption|]. cbn [length] in E. lia.
  - intros I. exists []. split; [assumption|reflexivity].
Qed.

Lemma multisig_true_iff s : is_multisig_out s = Ok true <->
  exists a m b c, safe_elems s (a :: m ++ [b; c]) /\
    starts a small_int /\ ~ In [] m /\ starts b small_int /\ starts c (fun x => x = xae).
Proof.
  split.
  - intros H. destruct (decode_parts s) as [ps|e|] eqn:D.
    + destruct (Nat.lt_ge_cases (length ps) 3) as [L|L].
      { rewrite (multisig_short _ _ D L) in H. discriminate. }
      destruct (three_split ps L) as (a & m & b & c & ->).
      rewrite (multisig_cases _ _ _ _ _ D) in H. exists a, m, b, c.
      split; [now apply decode_ok_iff|].
      destruct a as [|a0 a]; [discriminate|]. cbn [starts].
      destruct (is_small_int_op a0) eqn:Ea; [|discriminate].
      destruct (existsb (fun p => Nat.ltb (length p) 1) m) eqn:Em; [discriminate|].
      destruct b as [|b0 b]; [discriminate|]. destruct (is_small_int_op b0) eqn:Eb; [|discriminate].
      destruct c as [|c0 c]; [discriminate|]. injection H as H. apply byte_eqb_eq in H.
      repeat split; try (now apply small_int_iff); [|assumption].
      intros I. apply exists_empty in I. congruence.
    + unfold is_multisig_out in H. rewrite D in H. discriminate.
    + unfold is_multisig_out in H. rewrite D in H. discriminate.
  - intros (a & m & b & c & S & Ha & Hm & Hb & Hc). apply decode_ok_iff in S.
    rewrite (multisig_cases _ _ _ _ _ S).
    destruct a as [|a0 a]; [destruct Ha|]. cbn [starts] in Ha. apply small_int_iff in Ha. rewrite Ha.
    destruct (existsb (fun p => Nat.ltb (length p) 1) m) eqn:Em; [apply exists_empty in Em; contradiction|].
    destruct b as [|b0 b]; [destruct Hb|]. cbn [starts] in Hb. apply small_int_iff in Hb. rewrite Hb.
    destruct c as [|c0 c]; [destruct Hc|]. cbn [starts] in Hc. subst. reflexivity.
Qed.

Lemma multisig_panic_iff s : is_multisig_out s = Panic <->
  decode_parts s = Panic \/
  exists a m b c, safe_elems s (a :: m ++ [b; c]) /\
    (a = [] \/ (starts a small_int /\ ~ In [] m /\ (b = [] \/ (starts b small_int /\ c = [])))).
Proof.
  split.
  - intros H. destruct (decode_parts s) as [ps|e|] eqn:D; [right| |now left].
    + destruct (Nat.lt_ge_cases (length ps) 3) as [L|L].
      { rewrite (multisig_short _ _ D L) in H. discriminate. }
      destruct (three_split ps L) as (a & m & b & c & ->).
      rewrite (multisig_cases _ _ _ _ _ D) in H. exists a, m, b, c.
      split; [now apply decode_ok_iff|].
      destruct a as [|a0 a]; [now left|]. right. cbn [starts].
      destruct (is_small_int_op a0) eqn:Ea; [|discriminate].
      destruct (existsb (fun p => Nat.ltb (length p) 1) m) eqn:Em; [discriminate|].
      split; [now apply small_int_iff|]. split; [intros I; apply exists_empty in I; congruence|].
      destruct b as [|b0 b]; [now left|]. right. destruct (is_small_int_op b0) eqn:Eb; [|discriminate].
      split; [now apply small_int_iff|]. destruct c; [reflexivity|discriminate].
    + unfold is_multisig_out in H. rewrite D in H. discriminate.
  - intros [D|(a & m & b & c & S & H)].
    + unfold is_multisig_out. now rewrite D.
    + apply decode_ok_iff in S. rewrite (multisig_cases _ _ _ _ _ S).
      destruct H as [->|(Ha & Hm & H)]; [reflexivity|].
      destruct a as [|a0 a]; [reflexivity|]. cbn [starts] in Ha. apply small_int_iff in Ha. rewrite Ha.
      destruct (existsb (fun p => Nat.ltb (length p) 1) m) eqn:Em; [apply exists_empty in Em; contradiction|].
      destruct b as [|b0 b]; [reflexivity|]. destruct H as [H|[Hb ->]]; [discriminate|].
      cbn [starts] in Hb. apply small_int_iff in Hb. now rewrite Hb.
Qed.

Lemma p2pk_not_err s e : is_p2pk s <> Err e.
Proof.
  rewrite p2pk_cases. destruct (decode_parts s) as [[|[|c k] [|[|d q] [|? ?]]]|x|]; discriminate.
Qed.

(** ** Disjointness *)

Lemma disjoint s :
  (is_p2pkh s = true -> is_p2sh s = false /\ is_p2pk s = Ok false /\ is_data s = Ok false /\ is_multisig_out s = Ok false) /\
  (is_p2sh s = true -> is_p2pkh s = false /\ is_p2pk s = Ok false /\ is_data s = Ok false /\ is_multisig_out s = Ok false) /\
  (is_p2pk s = Ok true -> is_data s = Ok false /\ is_multisig_out s = Ok false).
Proof.
  split; [|split].
  - intros H. apply p2pkh_iff in H as (h & L & ->).
    pose proof (proj2 (decode_ok_iff _ _) (p2pkh_safe h L)) as D. repeat split.
    + unfold is_p2sh. replace (Nat.eqb (length (p2pkh h)) 23) with false; [reflexivity|].
      unfold p2pkh. rewrite !app_length, L. reflexivity.
    + rewrite p2pk_cases, D. reflexivity.
    + rewrite (multisig_cases _ [x76] [[xa9]; h] [x88] [xac] D). reflexivity.
  - intros H. apply p2sh_iff in H as (h & L & ->).
    pose proof (proj2 (decode_ok_iff _ _) (p2sh_safe h L)) as D. repeat split.
    + unfold is_p2pkh. replace (Nat.eqb (length (p2sh h)) 25) with false; [reflexivity|].
      unfold p2sh. rewrite !app_length, L. reflexivity.
    + rewrite p2pk_cases, D. destruct h as [|? [|? ?]]; try reflexivity; discriminate.
    + rewrite (multisig_cases _ [xa9] [] h [x87] D). reflexivity.
  - intros H. apply p2pk_true_iff in H as (k & q & S & W).
    pose proof (proj2 (decode_ok_iff _ _) S) as D. split.
    + assert (length k <> 1)%nat as Lk by (destruct W as [[-> _]|[-> _]]; discriminate).
      inversion S as [|w p b ps E NW S' Eb Ep]. subst p ps.
      destruct E as [c Hc|c d Hc Hd|c d Hd|l d Hl Hd|l d Hl Hd]; try (now destruct Lk); cbn [app].
      * unfold is_data. cbn [nth_error or_panic bind].
        destruct (byte_eqb_spec c x6a) as [->|N]; [vm_compute in Hc; destruct Hc; congruence|].
        destruct (byte_eqb_spec c x00) as [->|N0]; [vm_compute in Hc; destruct Hc; congruence|]. reflexivity.
      * reflexivity.
      * reflexivity.
      * reflexivity.
    + eapply multisig_short; [exact D|cbn [length]; lia].
Qed.

(** ** Unlocking script *)

Lemma unlocking_safe pub sg flag : push_domain (sg ++ [n2b flag]) -> push_domain pub ->
  exists s, p2pkh_unlocking_script pub sg flag = (s, None) /\
            decode_parts s = Ok [sg ++ [n2b flag]; pub].
Proof.
  intros D1 D2. unfold p2pkh_unlocking_script. cbn [app].
  assert (Forall push_domain [sg ++ [n2b flag]; pub]) as F by (constructor; [assumption|constructor; [assumption|constructor]]).
  rewrite append_array_ok by now apply dom_all.
  eexists; split; [reflexivity|]. apply decode_ok_iff. cbn [app]. now apply pushes_safe.
Qed.

Lemma c13_address addr a : addr_from_string addr = Ok a ->
  exists h, length h = 20%nat /\ addr_pkh a = hex_encode h /\ p2pkh_from_address addr = Ok (p2pkh h).
Proof.
  intros A. pose proof (addr_pkh_20 _ _ A) as (h & L & E & _). exists h. repeat split; [assumption|assumption|].
  eapply p2pkh_address; eassumption.
Qed.

Lemma c13_unchecked t h : hex_dec t = Some h -> length h <> 20%nat ->
  exists s, p2pkh_from_pkh_str t = Ok s /\ is_p2pkh s = false.
Proof.
  intros E N. exists (p2pkh h). split; [now apply p2pkh_pkh_str|].
  unfold is_p2pkh. replace (Nat.eqb (length (p2pkh h)) 25) with false; [reflexivity|].
  symmetry. apply Nat.eqb_neq. unfold p2pkh. rewrite !app_length. cbn [length]. lia.
Qed.

Lemma c14_refuted : exists s h, get_public_key_hash (Some s) = Ok h /\ is_p2pkh s = false.
Proof. exists [x76; xa9; x02; x01; x02; x6a], [x01; x02]. vm_compute. auto. Qed.

Lemma c15_overlap : exists s, is_data s = Ok true /\ is_multisig_out s = Ok true.
Proof. exists [x00; x6a; x51; xae]. vm_compute. auto. Qed.

Lemma c15_p2pk_loose : exists s, is_p2pk s = Ok true /\
  ~ exists h k, announces h (nlen k) /\ s = h ++ k ++ [xac].
Proof.
  exists (x21 :: x02 :: repeat x11 32 ++ [x02; xac; x00]). split; [vm_compute; reflexivity|].
  intros (h & k & _ & E). rewrite app_assoc in E.
  apply (f_equal (fun l => last l x01)) in E. rewrite last_last in E. vm_compute in E. discriminate.
Qed.

Lemma c16_refuted :
  is_p2pk [x51; x4c; x00] = Panic /\ is_multisig_out [x4c; x00; x51; xae] = Panic /\
  is_data [] = Panic /\ is_data [x00] = Panic /\ is_p2pk [x4d; xff; xff] = Panic.
Proof. vm_compute. auto. Qed.
