(** Signing as a program over shared memory: what it does alone and which cells it
    accesses (C80). *)
From Verif Require Export P_ConcTx S_ConcTx.
From Coq Require Import Lia ZifyBool ZifyNat ZifyN.

Notation updc := (upd cell_eq held).
Notation footc := (foot cell_eq held).

Lemma tx_at_ext m m' t : (forall l, plain l -> m' l = m l) -> tx_at m' t = tx_at m t.
Proof.
  intros H. unfold tx_at. rewrite !H by exact I. f_equal; apply map_ext; intros [p|]; cbn [option_map]; try reflexivity;
    unfold input_at, output_at; rewrite !H by exact I; reflexivity.
Qed.
Definition dm (m : memory) (s : nat) : memory := if m (SFlag s) =? 0 then updc m (SFlag s) shAllForkID else m.
Lemma dm_plain m s l : plain l -> dm m s l = m l.
Proof. intros H. unfold dm. destruct (_ =? 0); [|reflexivity]. apply upd_other. intros <-. exact H. Qed.
Lemma dm_flag m s : dm m s (SFlag s) = used_flag (mk_signer (mk_key [] (fun _ => Panic)) (m (SFlag s))).
Proof. unfold dm, used_flag. cbn [sg_flag]. destruct (_ =? 0); [|reflexivity]. now rewrite upd_same. Qed.
Lemma dm_other m s l : l <> SFlag s -> dm m s l = m l.
Proof. intros H. unfold dm. destruct (_ =? 0); [|reflexivity]. apply upd_other. congruence. Qed.
Lemma dm_idem m s l : dm (dm m s) s l = dm m s l.
Proof.
  destruct (cell_eq l (SFlag s)) as [->|H]; [|now rewrite dm_other].
  rewrite dm_flag. rewrite dm_flag. unfold used_flag; cbn [sg_flag]. destruct (m (SFlag s) =? 0) eqn:E; [reflexivity|now rewrite E].
Qed.

Lemma solo_default {A} m s (k : call A) : soloc m (c_default_flag s k) = soloc (dm m s) k.
Proof. unfold c_default_flag, dm. cbn [solo]. destruct (m (SFlag s) =? 0); reflexivity. Qed.

Lemma solo_apply m t n u : soloc m (c_apply t n u) =
  match nth_error (m (XInputs t)) (N.to_nat n) with
  | Some (Some p) => (Ok tt, updc m (IUnlock p) u)
  | Some None => (Err (ENoInput n), m)
  | None => (Panic, m)
  end.
Proof. unfold c_apply. cbn [solo]. destruct (nth_error (m (XInputs t)) (N.to_nat n)) as [[p|]|] eqn:E; cbn [solo]; try reflexivity. rewrite E. reflexivity. Qed.

Definition signed_at (m : memory) (t : nat) (n : N) (r : res bytes) : res unit * memory :=
  match r with
  | Ok u => match nth_error (m (XInputs t)) (N.to_nat n) with
            | Some (Some p) => (Ok tt, updc m (IUnlock p) (Some u))
            | _ => (Panic, m)
            end
  | Err e => (Err e, m)
  | Panic => (Panic, m)
  end.

Lemma solo_sign m s k t n : soloc m (c_sign s k t n) =
  signed_at (dm m s) t n (sig_script (mk_signer k (m (SFlag s))) n (tx_at m t)).
Proof.
  unfold c_sign. rewrite solo_default. cbn [solo]. rewrite solo_bindr, solo_sighash, (only_solo _ _ _ (only_sighash _ _ _)).
  rewrite dm_flag. unfold sig_script. rewrite (tx_at_ext m (dm m s)) by apply dm_plain. cbn [sg_key].
  set (f := used_flag (mk_signer k (m (SFlag s)))). change (used_flag (mk_signer _ (m (SFlag s)))) with f.
  destruct (get_input_signature_hash (tx_at m t) n f) as [h|e|] eqn:H; cbn [bind signed_at]; try reflexivity.
  rewrite <- reverse_bytes_rev. destruct (key_sign k (reverse_bytes h)) as [sg|e|]; cbn [bind signed_at solo]; try reflexivity.
  rewrite dm_flag. change (used_flag (mk_signer _ (m (SFlag s)))) with f.
  destruct (p2pkh_unlocking_script (key_pub k) sg f) as [u e]. cbn [fst]. rewrite solo_apply.
  destruct (sighash_input _ _ _ _ H) as (i & E). unfold tx_at in E. cbn [inputs] in E. rewrite nth_error_map in E.
  rewrite <- (dm_plain m s (XInputs t)) in E by exact I.
  destruct (nth_error (dm m s (XInputs t)) (N.to_nat n)) as [[p|]|]; [reflexivity|discriminate|discriminate].
Qed.

(** ** one unlocking script written *)
Definition some_ptr (o : option nat) : bool := match o with Some _ => true | None => false end.
Lemma nodup_nth (l : list (option nat)) : NoDup (filter some_ptr l) -> forall a b p,
  nth_error l a = Some (Some p) -> nth_error l b = Some (Some p) -> a = b.
Proof.
  induction l as [|[q|] l IH]; intros D [|a] [|b] p A B; cbn in *; try discriminate; try reflexivity.
  - exfalso. injection A as ->. apply NoDup_cons_iff in D. destruct D as [D _]. apply D, filter_In. split; [|reflexivity]. eapply nth_error_In, B.
  - exfalso. injection B as ->. apply NoDup_cons_iff in D. destruct D as [D _]. apply D, filter_In. split; [|reflexivity]. eapply nth_error_In, A.
  - f_equal. apply NoDup_cons_iff in D. destruct D as [_ D]. now apply (IH D a b p).
  - f_equal. now apply (IH D a b p).
Qed.
Lemma map_set_one {A B} (l : list A) (f g : A -> B) n x : nth_error l n = Some x ->
  (forall k y, nth_error l k = Some y -> k <> n -> g y = f y) -> map g l = set_nth n (g x) (map f l).
Proof.
  revert n; induction l as [|a l IH]; intros [|n] E H; cbn in *; try discriminate.
  - injection E as ->. f_equal. apply map_ext_in. intros y Hy. apply In_nth_error in Hy as [k Hk]. apply (H (S k) y Hk). lia.
  - f_equal; [apply (H 0%nat a eq_refl); lia|]. apply IH; [assumption|]. intros k y Hk Hn. apply (H (S k) y Hk). lia.
Qed.

Lemma tx_at_unlock (m : memory) t n p u : NoDup (filter some_ptr (m (XInputs t))) -> nth_error (m (XInputs t)) n = Some (Some p) ->
  tx_at (updc m (IUnlock p) (Some u)) t = set_script (tx_at m t) n (input_at m p) u.
Proof.
  intros D E. unfold tx_at, set_script. cbn [version inputs outputs locktime].
  rewrite !upd_other by discriminate. f_equal.
  - rewrite (map_set_one _ (option_map (input_at m)) _ n (Some p) E).
    + f_equal. cbn [option_map]. f_equal. unfold input_at, with_script. cbn [prev_txid prev_index prev_sats prev_script sequence].
      rewrite !upd_other by discriminate. now rewrite upd_same.
    + intros k [q|] Hk Hn; cbn [option_map]; [|reflexivity]. f_equal. unfold input_at. rewrite !upd_other by discriminate.
      rewrite upd_other; [reflexivity|]. intros [= <-]. apply Hn. exact (nodup_nth _ D k n p Hk E).
Qed.

(** the transaction and the outcome afterwards are those of the value model *)
Definition as_value (r : res unit * memory) (t : nat) (v : res tx) (x : tx) : Prop :=
  match v with
  | Ok x' => fst r = Ok tt /\ tx_at (snd r) t = x'
  | Err e => fst r = Err e /\ tx_at (snd r) t = x
  | Panic => fst r = Panic
  end.

Lemma sign_value (m : memory) s k t n : NoDup (filter some_ptr (m (XInputs t))) ->
  as_value (soloc m (c_sign s k t n)) t (internal_sign (mk_signer k (m (SFlag s))) n (tx_at m t)) (tx_at m t) /\
  (forall l, quiet l -> snd (soloc m (c_sign s k t n)) l = m l) /\
  (forall s', snd (soloc m (c_sign s k t n)) (SFlag s') = dm m s (SFlag s')).
Proof.
  intros D. rewrite solo_sign, internal_sign_eq.
  assert (TD : tx_at (dm m s) t = tx_at m t) by (apply tx_at_ext, dm_plain).
  assert (XD : dm m s (XInputs t) = m (XInputs t)) by (apply dm_plain; exact I).
  destruct (sig_script (mk_signer k (m (SFlag s))) n (tx_at m t)) as [u|e|]; cbn [signed_at as_value].
  - rewrite XD. cbn [tx_at inputs]. rewrite nth_error_map. fold (tx_at m t).
    destruct (nth_error (m (XInputs t)) (N.to_nat n)) as [[p|]|] eqn:E; cbn [option_map as_value fst snd].
    + split; [split; [reflexivity|]|].
      * rewrite tx_at_unlock with (n := N.to_nat n); [|now rewrite XD|now rewrite XD]. rewrite TD. f_equal.
        unfold input_at. now rewrite !dm_plain by exact I.
      * split; [|intros s'; now apply upd_other].
        intros l Q. rewrite upd_other; [apply dm_plain, quiet_plain, Q|]. intros <-. exact Q.
    + split; [reflexivity|]. split; [|reflexivity]. intros l Q. apply dm_plain, quiet_plain, Q.
    + split; [reflexivity|]. split; [|reflexivity]. intros l Q. apply dm_plain, quiet_plain, Q.
  - cbn [fst snd]. split; [auto|]. split; [|reflexivity]. intros l Q. apply dm_plain, quiet_plain, Q.
  - cbn [fst snd]. split; [auto|]. split; [|reflexivity]. intros l Q. apply dm_plain, quiet_plain, Q.
Qed.

Lemma skipn_cons {A} (l : list A) : forall i x r, skipn i l = x :: r -> nth_error l i = Some x /\ skipn (S i) l = r.
Proof.
  induction l as [|a l IH]; intros [|i] x r; cbn; try discriminate.
  - now intros [= <- <-].
  - intros E. destruct (IH i x r E) as [A1 A2]. split; [assumption|]. exact A2.
Qed.

Lemma auto_no_err s n : forall i x e, sign_auto_loop s i n x <> Err e.
Proof.
  induction n as [|n IH]; intros i x e; cbn [sign_auto_loop]; [discriminate|]. unfold sign_auto_step.
  destruct (nth_error (inputs x) (N.to_nat i)) as [[p|]|]; cbn [or_panic deref bind]; try discriminate.
  assert (G : forall h, (t' <- (if equals (hex_encode h) (hex_encode (hash160 (key_pub (sg_key s))))
              then match internal_sign s (wrap32 i) x with Ok t' => Ok t' | Err _ => Ok x | Panic => Panic end else Ok x) ;;
              sign_auto_loop s (i + 1) n t') <> Err e).
  { intros h. destruct (equals _ _); cbn [bind]; [|apply IH]. destruct (internal_sign _ _ _); cbn [bind]; try discriminate; apply IH. }
  destruct (get_public_key_hash (prev_script p)) as [h|e'|]; cbn [bind]; [apply G|apply (G [])|discriminate].
Qed.

Lemma auto_value k t s f : f <> 0 -> forall ins i (m : memory),
  NoDup (filter some_ptr (m (XInputs t))) -> nlen (m (XInputs t)) <= 2 ^ 32 -> m (SFlag s) = f -> skipn i (m (XInputs t)) = ins ->
  as_value (soloc m (c_auto_loop s k t (N.of_nat i) ins)) t
           (sign_auto_loop (mk_signer k f) (N.of_nat i) (length ins) (tx_at m t)) (tx_at m t) /\
  (forall l, quiet l -> snd (soloc m (c_auto_loop s k t (N.of_nat i) ins)) l = m l) /\
  (forall s', snd (soloc m (c_auto_loop s k t (N.of_nat i) ins)) (SFlag s') = m (SFlag s')).
Proof.
  intros Nf. induction ins as [|o ins IH]; intros i m D B F E; cbn [c_auto_loop solo length sign_auto_loop].
  - cbn. auto.
  - destruct (skipn_cons _ _ _ _ E) as [E1 E2]. unfold sign_auto_step. cbn [tx_at inputs].
    rewrite nth_error_map. replace (N.to_nat (N.of_nat i)) with i by lia. rewrite E1. fold (tx_at m t).
    cbn [option_map or_panic bind]. destruct o as [p|]; cbn [option_map deref or_panic bind]; [|cbn; auto].
    cbn [solo sg_key]. change (prev_script (input_at m p)) with (m (IPrev p)).
    assert (DM : dm m s = m) by (unfold dm; rewrite F; destruct (N.eqb_spec f 0); [contradiction|reflexivity]).
    assert (W : wrap32 (N.of_nat i) = N.of_nat i).
    { unfold wrap32. apply N.mod_small. assert ((i < length (m (XInputs t)))%nat) by (apply nth_error_Some; congruence).
      unfold nlen in B. lia. }
    set (pkh := get_public_key_hash (m (IPrev p))).
    assert (STEP : forall h,
      let K := (if equals (hex_encode h) (hex_encode (hash160 (key_pub k)))
         then bindp held (c_sign s k t (wrap32 (N.of_nat i))) (fun r1 =>
             match r1 with Panic => Ret Panic | _ => c_auto_loop s k t (N.of_nat i + 1) ins end)
        else c_auto_loop s k t (N.of_nat i + 1) ins) in
      as_value (soloc m K) t
        (t' <- (if equals (hex_encode h) (hex_encode (hash160 (key_pub k)))
                then match internal_sign (mk_signer k f) (wrap32 (N.of_nat i)) (tx_at m t) with
                     | Ok t' => Ok t' | Err _ => Ok (tx_at m t) | Panic => Panic end
                else Ok (tx_at m t)) ;; sign_auto_loop (mk_signer k f) (N.of_nat i + 1) (length ins) t') (tx_at m t) /\
      (forall l, quiet l -> snd (soloc m K) l = m l) /\ (forall s', snd (soloc m K) (SFlag s') = m (SFlag s'))).
    { intros h K. subst K. replace (N.of_nat i + 1) with (N.of_nat (S i)) by lia.
      destruct (equals _ _); cbn [bind]; [|now apply IH].
      rewrite W. rewrite solo_bind. destruct (sign_value m s k t (N.of_nat i) D) as (V & Q & SF). rewrite DM in SF. rewrite F in V.
      remember (soloc m (c_sign s k t (N.of_nat i))) as r eqn:Hr. clear Hr. destruct r as [rr rm]. unfold as_value in V. cbn [fst snd] in *.
      assert (XI : rm (XInputs t) = m (XInputs t)) by (apply Q; exact I).
      assert (G : as_value (soloc rm (c_auto_loop s k t (N.of_nat (S i)) ins)) t
                    (sign_auto_loop (mk_signer k f) (N.of_nat (S i)) (length ins) (tx_at rm t)) (tx_at rm t) /\
                  (forall l, quiet l -> snd (soloc rm (c_auto_loop s k t (N.of_nat (S i)) ins)) l = m l) /\
                  (forall s', snd (soloc rm (c_auto_loop s k t (N.of_nat (S i)) ins)) (SFlag s') = m (SFlag s'))).
      { destruct (IH (S i) rm) as (A1 & A2 & A3); [now rewrite XI|now rewrite XI|now rewrite SF|now rewrite XI|].
        split; [assumption|]. split; [intros l Hl; rewrite A2, Q by assumption; reflexivity|]. intros s'. now rewrite A3, SF. }
      destruct G as (G1 & G2 & G3).
      destruct (internal_sign (mk_signer k f) (N.of_nat i) (tx_at m t)) as [x'|e|]; cbn [bind].
      - destruct V as [V1 V2]. subst rr x'. split; [|auto].
        destruct (sign_auto_loop (mk_signer k f) (N.of_nat (S i)) (length ins) (tx_at rm t)) as [y|e|] eqn:EL; cbn [as_value] in *; [assumption| |assumption].
        exfalso. exact (auto_no_err _ _ _ _ _ EL).
      - destruct V as [V1 V2]. subst rr. rewrite <- V2. split; [|auto].
        destruct (sign_auto_loop (mk_signer k f) (N.of_nat (S i)) (length ins) (tx_at rm t)) as [y|e'|] eqn:EL; cbn [as_value] in *; [assumption| |assumption].
        exfalso. exact (auto_no_err _ _ _ _ _ EL).
      - subst rr. cbn [as_value solo fst snd]. split; [reflexivity|]. split; [exact Q|exact SF]. }
    destruct pkh as [h|e|]; cbn [bind].
    + apply (STEP h).
    + apply (STEP []).
    + cbn; auto.
Qed.

(** ** which cells are accessed *)
Lemma sign_quiet (m : memory) s k t n :
  (forall l, quiet l -> snd (soloc m (c_sign s k t n)) l = m l) /\
  (forall s', snd (soloc m (c_sign s k t n)) (SFlag s') = dm m s (SFlag s')).
Proof.
  rewrite solo_sign. assert (QD : forall l, quiet l -> dm m s l = m l) by (intros l Q; apply dm_plain, quiet_plain, Q).
  destruct (sig_script _ n (tx_at m t)) as [u|e|]; cbn [signed_at snd]; auto.
  destruct (nth_error _ (N.to_nat n)) as [[p|]|]; cbn [snd]; auto. split; [|intros s'; now apply upd_other].
  intros l Q. rewrite upd_other; [auto|]. intros <-. exact Q.
Qed.
Lemma foot_default sl {A} (m : memory) s (k : call A) (Rs : cell -> Prop) Ws : Rs (SFlag s) -> (m (SFlag s) = 0 -> Ws (SFlag s) = true) ->
  footc sl (dm m s) k Rs Ws -> footc sl m (c_default_flag s k) Rs Ws.
Proof.
  intros R W F. unfold c_default_flag. cbn [foot]. split; [now left|]. unfold dm in F. destruct (N.eqb_spec (m (SFlag s)) 0); [|exact F].
  cbn [foot]. auto.
Qed.
Lemma foot_apply sl (m : memory) t n u (Rs : cell -> Prop) Ws : (forall l, quiet l -> Rs l) ->
  (forall p, nth_error (m (XInputs t)) (N.to_nat n) = Some (Some p) -> Ws (IUnlock p) = true) -> footc sl m (c_apply t n u) Rs Ws.
Proof.
  intros R W. unfold c_apply. cbn [foot]. split; [left; apply R; exact I|].
  destruct (nth_error (m (XInputs t)) (N.to_nat n)) as [[p|]|] eqn:E; [|exact I|exact I]. cbn [foot]. split; [left; apply R; exact I|].
  rewrite E. cbn [foot]. auto.
Qed.
Lemma foot_sign sl (m : memory) s k t n (Rs : cell -> Prop) Ws : (forall l, quiet l -> Rs l) -> Rs (SFlag s) -> (m (SFlag s) = 0 -> Ws (SFlag s) = true) ->
  (forall p, nth_error (m (XInputs t)) (N.to_nat n) = Some (Some p) -> Ws (IUnlock p) = true) -> footc sl m (c_sign s k t n) Rs Ws.
Proof.
  intros R S F W. unfold c_sign. apply foot_default; [assumption|assumption|]. cbn [foot]. split; [now left|].
  apply foot_bindr; [apply (only_foot quiet); [apply only_sighash|assumption]|]. intros h _.
  rewrite (only_solo _ _ _ (only_sighash _ _ _)). destruct (key_sign k (reverse_bytes h)) as [sg|e|]; [|exact I|exact I].
  cbn [foot]. split; [now left|]. destruct (p2pkh_unlocking_script _ _ _) as [u e]. apply foot_apply; [assumption|].
  intros p. rewrite dm_plain by exact I. apply W.
Qed.
Lemma pkh_match k h : equals (hex_encode h) (hex_encode (hash160 (key_pub k))) = true -> h = hash160 (key_pub k).
Proof. intros E. apply equals_spec, hex_encode_inj in E. exact E. Qed.

Lemma foot_auto sl k t s f (Rs : cell -> Prop) Ws : f <> 0 -> (forall l, quiet l -> Rs l) -> Rs (SFlag s) -> forall ins i (m : memory),
  nlen (m (XInputs t)) <= 2 ^ 32 -> m (SFlag s) = f -> skipn i (m (XInputs t)) = ins ->
  (forall p, In (Some p) (m (XInputs t)) -> get_public_key_hash (m (IPrev p)) = Ok (hash160 (key_pub k)) -> Ws (IUnlock p) = true) ->
  footc sl m (c_auto_loop s k t (N.of_nat i) ins) Rs Ws.
Proof.
  intros Nf R S. induction ins as [|o ins IH]; intros i m B F E W; cbn [c_auto_loop]; [exact I|].
  destruct (skipn_cons _ _ _ _ E) as [E1 E2]. destruct o as [p|]; [|exact I]. cbn [foot]. split; [left; apply R; exact I|].
  replace (N.of_nat i + 1) with (N.of_nat (1 + i)) by lia.
  assert (W32 : wrap32 (N.of_nat i) = N.of_nat i).
  { unfold wrap32. apply N.mod_small. assert ((i < length (m (XInputs t)))%nat) by (apply nth_error_Some; congruence).
    unfold nlen in B. lia. }
  destruct (get_public_key_hash (m (IPrev p))) as [h|e|] eqn:G; [| |exact I].
  - destruct (equals _ _) eqn:Q; [|now apply IH].
    apply pkh_match in Q. subst h. rewrite W32. apply foot_bind.
    + apply foot_sign; try assumption; [congruence|]. intros q. replace (N.to_nat (N.of_nat i)) with i by lia. rewrite E1. intros [= <-].
      apply W; [|assumption]. eapply nth_error_In, E1.
    + destruct (sign_quiet m s k t (N.of_nat i)) as (QQ & SF).
      assert (DM : dm m s = m) by (unfold dm; rewrite F; destruct (N.eqb_spec f 0); [contradiction|reflexivity]). rewrite DM in SF.
      destruct (soloc m (c_sign s k t (N.of_nat i))) as [rr rm]. cbn [fst snd] in *.
      assert (XI : rm (XInputs t) = m (XInputs t)) by (apply QQ; exact I).
      assert (K : footc sl rm (c_auto_loop s k t (N.of_nat (1 + i)) ins) Rs Ws).
      { apply IH; [now rewrite XI|now rewrite SF|now rewrite XI|].
        intros q. rewrite XI, (QQ (IPrev q)) by exact I. apply W. }
      destruct rr; [exact K|exact K|exact I].
  - assert (equals (hex_encode []) (hex_encode (hash160 (key_pub k))) = false) as -> by apply hex40. now apply IH.
Qed.

(** ** the calls *)
Definition reads (j : job) (l : cell) : Prop :=
  match l with
  | IUnlock _ => serialises j
  | SFlag s => signer_of j = Some s
  | _ => True
  end.
Definition writes_b (m : memory) (t : nat) (j : job) (l : cell) : bool :=
  match l with
  | IUnlock p =>
      match j with
      | JSign _ _ n | JTxSign _ _ n => match nth_error (m (XInputs t)) (N.to_nat n) with Some (Some q) => Nat.eqb p q | _ => false end
      | JAuto _ k | JTxAuto _ k => existsb (fun o => match o with Some q => Nat.eqb p q | None => false end) (m (XInputs t)) &&
                     match get_public_key_hash (m (IPrev p)) with Ok h => equals h (hash160 (key_pub k)) | _ => false end
      | _ => false
      end
  | SFlag s => match signer_of j with Some s' => Nat.eqb s s' && (m (SFlag s) =? 0) | None => false end
  | _ => false
  end.
Lemma writes_spec m t j l : writes_b m t j l = true <-> writes m t j l.
Proof.
  destruct l; cbn [writes_b writes]; try (split; [discriminate|tauto]).
  - assert (SG : forall n, match nth_error (m (XInputs t)) (N.to_nat n) with Some (Some q) => Nat.eqb p q | _ => false end = true <->
        nth_error (m (XInputs t)) (N.to_nat n) = Some (Some p)).
    { intros n. destruct (nth_error (m (XInputs t)) (N.to_nat n)) as [[q|]|]; [rewrite Nat.eqb_eq; split; congruence|split; discriminate|split; discriminate]. }
    assert (AU : forall k, existsb (fun o => match o with Some q => Nat.eqb p q | None => false end) (m (XInputs t)) &&
                     match get_public_key_hash (m (IPrev p)) with Ok h => equals h (hash160 (key_pub k)) | _ => false end = true <->
        In (Some p) (m (XInputs t)) /\ get_public_key_hash (m (IPrev p)) = Ok (hash160 (key_pub k))).
    { intros k. rewrite andb_true_iff, existsb_exists. split.
      * intros [(o & I1 & I2) E]. destruct o as [q|]; [|discriminate]. apply Nat.eqb_eq in I2. subst q. split; [assumption|].
        destruct (get_public_key_hash (m (IPrev p))); try discriminate. apply equals_spec in E. now subst.
      * intros [I1 E]. split; [exists (Some p); split; [assumption|apply Nat.eqb_refl]|]. rewrite E. now apply equals_spec. }
    destruct j as [s k n|s k|s k n|s k| | | | | ]; cbn [signs]; try (split; [discriminate|tauto]); [apply SG|apply AU|apply SG|apply AU].
  - destruct (signer_of j) as [s'|]; [|split; [discriminate|intros [E _]; discriminate]].
    rewrite andb_true_iff, Nat.eqb_eq, N.eqb_eq. intuition congruence.
Qed.

Lemma foot_answered sl {A} (m : memory) (f : A -> answer) (p : call (res A)) Rs Ws : footc sl m p Rs Ws -> footc sl m (answered f p) Rs Ws.
Proof. intros F. apply foot_bind; [assumption|exact I]. Qed.
Lemma solo_answered {A} (m : memory) (f : A -> answer) (p : call (res A)) : soloc m (answered f p) = (map_res f (fst (soloc m p)), snd (soloc m p)).
Proof. unfold answered. rewrite solo_bind. reflexivity. Qed.

Lemma foot_copy (m : memory) t (Rs : cell -> Prop) Ws : (forall l, quiet l -> Rs l) -> footc true m (c_copy_struct t) Rs Ws.
Proof.
  intros R. unfold c_copy_struct. cbn [foot].
  do 4 (split; [left; apply R; exact I|]).
  split; [right; repeat split; apply R; exact I|].
  split; [right; repeat split; apply R; exact I|].
  split; [right; repeat split; apply R; exact I|].
  split; [right; repeat split; apply R; exact I|]. exact I.
Qed.
Lemma foot_sign_auto sl (m : memory) s k t (Rs : cell -> Prop) Ws : nlen (m (XInputs t)) <= 2 ^ 32 -> (forall l, quiet l -> Rs l) -> Rs (SFlag s) -> (m (SFlag s) = 0 -> Ws (SFlag s) = true) ->
  (forall p, In (Some p) (m (XInputs t)) -> get_public_key_hash (m (IPrev p)) = Ok (hash160 (key_pub k)) -> Ws (IUnlock p) = true) ->
  footc sl m (c_sign_auto s k t) Rs Ws.
Proof.
  intros B R S F W. unfold c_sign_auto. apply foot_default; [assumption|assumption|]. cbn [foot]. split; [left; apply R; exact I|].
  apply (foot_auto sl k t s (dm m s (SFlag s)) _ _) with (i := 0%nat); [|assumption|assumption| |reflexivity|reflexivity|].
  - rewrite dm_flag. unfold used_flag; cbn [sg_flag]. destruct (N.eqb_spec (m (SFlag s)) 0); [discriminate|assumption].
  - now rewrite dm_plain by exact I.
  - intros p. rewrite !dm_plain by exact I. apply W.
Qed.
Lemma job_foot sl (m : memory) t j : nlen (m (XInputs t)) <= 2 ^ 32 -> (sl = false -> ~ rewrites j) -> footc sl m (started t j) (reads j) (writes_b m t j).
Proof.
  intros B SL.
  assert (QR : forall l, quiet l -> reads j l) by (intros []; cbn; tauto).
  destruct j as [s k n|s k|s k n|s k|n f| | | | ]; cbn [started]; apply foot_answered.
  - apply foot_sign; [assumption|reflexivity| |]; [intros H; apply writes_spec; cbn; auto|intros p H; apply writes_spec; exact H].
  - apply foot_sign_auto; [assumption|assumption|reflexivity|intros H; apply writes_spec; cbn; auto|].
    intros p H1 H2. apply writes_spec. split; assumption.
  - destruct sl; [|destruct (SL eq_refl I)]. unfold c_tx_sign. apply foot_bindr; [|intros a _; now apply foot_copy].
    apply foot_sign; [assumption|reflexivity| |]; [intros H; apply writes_spec; cbn; auto|intros p H; apply writes_spec; exact H].
  - destruct sl; [|destruct (SL eq_refl I)]. unfold c_tx_sign_auto. apply foot_bindr; [|intros a _; now apply foot_copy].
    apply foot_sign_auto; [assumption|assumption|reflexivity|intros H; apply writes_spec; cbn; auto|].
    intros p H1 H2. apply writes_spec. split; assumption.
  - apply (only_foot quiet); [apply only_sighash|assumption].
  - apply (only_foot quiet); [apply only_total|assumption].
  - apply (only_foot quiet); [apply only_is_coinbase|assumption].
  - apply (only_foot plain); [apply only_to_bytes|]. intros []; cbn; tauto.
  - apply (only_foot plain); [apply only_to_bytes|]. intros []; cbn; tauto.
Qed.

(** the flags of the signers now and at the beginning *)
Definition flags_ok (flag : nat -> N) (m : memory) : Prop := forall s, m (SFlag s) = flag s \/ (flag s = 0 /\ m (SFlag s) = shAllForkID).
Lemma flags_ok_default flag m s k : flags_ok flag m -> default_flag (mk_signer k (m (SFlag s))) = default_flag (mk_signer k (flag s)).
Proof. intros H. destruct (H s) as [-> | [-> ->]]; reflexivity. Qed.
Lemma flags_ok_dm flag m s : flags_ok flag m -> flags_ok flag (dm m s).
Proof.
  intros H s'. destruct (Nat.eq_dec s s') as [<-|N]; [|rewrite dm_other by congruence; apply H].
  rewrite dm_flag. unfold used_flag. cbn [sg_flag]. destruct (H s) as [E | [E1 E2]].
  - rewrite E. destruct (N.eqb_spec (flag s) 0) as [Z|Z]; [right; auto|left; reflexivity].
  - rewrite E2. right; auto.
Qed.

Lemma sign_job flag (m : memory) s k t n : own_inputs m t -> flags_ok flag m ->
  as_value (soloc m (c_sign s k t n)) t (internal_sign (mk_signer k (flag s)) n (tx_at m t)) (tx_at m t) /\
  snd (soloc m (c_sign s k t n)) (XInputs t) = m (XInputs t) /\ flags_ok flag (snd (soloc m (c_sign s k t n))).
Proof.
  intros D FO. destruct (sign_value m s k t n D) as (V & Q & SF).
  assert (FI : internal_sign (mk_signer k (m (SFlag s))) n (tx_at m t) = internal_sign (mk_signer k (flag s)) n (tx_at m t))
    by (unfold internal_sign; now rewrite (flags_ok_default flag m s k FO)).
  rewrite FI in V. split; [assumption|]. split; [apply Q; exact I|]. intros s'. rewrite SF. now apply flags_ok_dm.
Qed.
Lemma auto_job flag (m : memory) s k t : own_inputs m t -> nlen (m (XInputs t)) <= 2 ^ 32 -> flags_ok flag m ->
  as_value (soloc m (c_sign_auto s k t)) t (internal_sign_auto (mk_signer k (flag s)) (tx_at m t)) (tx_at m t) /\
  snd (soloc m (c_sign_auto s k t)) (XInputs t) = m (XInputs t) /\ flags_ok flag (snd (soloc m (c_sign_auto s k t))).
Proof.
  intros D B FO. unfold c_sign_auto. rewrite solo_default. cbn [solo].
  assert (NZ : dm m s (SFlag s) <> 0).
  { rewrite dm_flag. unfold used_flag; cbn [sg_flag]. destruct (N.eqb_spec (m (SFlag s)) 0); [discriminate|assumption]. }
  destruct (auto_value k t s (dm m s (SFlag s)) NZ (dm m s (XInputs t)) 0 (dm m s)) as (V & Q & SF).
  { now rewrite dm_plain by exact I. } { now rewrite dm_plain by exact I. } { reflexivity. } { reflexivity. }
  change (N.of_nat 0) with 0 in *.
  assert (FI : sign_auto_loop (mk_signer k (dm m s (SFlag s))) 0 (length (dm m s (XInputs t))) (tx_at (dm m s) t) =
               internal_sign_auto (mk_signer k (flag s)) (tx_at m t)).
  { unfold internal_sign_auto. rewrite <- (flags_ok_default flag m s k FO). rewrite default_flag_eq. cbn [sg_key].
    rewrite dm_flag. rewrite dm_plain by exact I. rewrite (tx_at_ext m (dm m s)) by apply dm_plain.
    cbn [tx_at inputs]. now rewrite map_length. }
  rewrite FI in V. rewrite (tx_at_ext m (dm m s)) in V by apply dm_plain.
  split; [assumption|]. split; [rewrite Q by exact I; apply dm_plain; exact I|]. intros s'. rewrite SF. now apply flags_ok_dm.
Qed.
Lemma copy_same (m : memory) t l : snd (soloc m (c_copy_struct t)) l = m l.
Proof.
  apply (solo_frame cell_eq held true _ quiet (fun _ => false) m); [|reflexivity]. now apply foot_copy.
Qed.
Lemma copy_value (m : memory) t (p : call (res unit)) v x : as_value (soloc m p) t v x ->
  as_value (soloc m (bindr held p (fun _ => c_copy_struct t))) t v x /\
  (forall l, snd (soloc m (bindr held p (fun _ => c_copy_struct t))) l = snd (soloc m p) l).
Proof.
  intros A. rewrite solo_bindr. unfold as_value in *. destruct (soloc m p) as [rr rm]. cbn [fst snd] in *.
  destruct v as [x'|e|].
  - destruct A as [-> <-]. split; [split; [reflexivity|]|intros l; apply copy_same]. apply tx_at_ext. intros l _. apply copy_same.
  - destruct A as [-> A]. auto.
  - subst rr. auto.
Qed.

Lemma job_value flag m t j : own_inputs m t -> nlen (m (XInputs t)) <= 2 ^ 32 -> flags_ok flag m ->
  fst (soloc m (started t j)) = fst (do_job flag (tx_at m t) j) /\
  (fst (do_job flag (tx_at m t) j) <> Panic -> tx_at (snd (soloc m (started t j))) t = snd (do_job flag (tx_at m t) j)) /\
  snd (soloc m (started t j)) (XInputs t) = m (XInputs t) /\ flags_ok flag (snd (soloc m (started t j))).
Proof.
  intros D B FO.
  assert (G : forall (p : call (res unit)) (v : res tx), as_value (soloc m p) t v (tx_at m t) ->
      snd (soloc m p) (XInputs t) = m (XInputs t) -> flags_ok flag (snd (soloc m p)) ->
      let d := match v with Ok x' => (Ok ADone, x') | Err e => (Err e, tx_at m t) | Panic => (Panic, tx_at m t) end in
      let q := answered (fun _ => ADone) p in
      fst (soloc m q) = fst d /\ (fst d <> Panic -> tx_at (snd (soloc m q)) t = snd d) /\
      snd (soloc m q) (XInputs t) = m (XInputs t) /\ flags_ok flag (snd (soloc m q))).
  { intros p v V XI FO'. cbv zeta. rewrite solo_answered. cbn [fst snd]. unfold as_value in V.
    destruct (soloc m p) as [rr rm]. cbn [fst snd] in *. destruct v as [x'|e|]; cbn [fst snd].
    + destruct V as [-> V2]. auto.
    + destruct V as [-> V2]. auto.
    + subst rr. split; [reflexivity|]. split; [contradiction|auto]. }
  destruct j as [s k n|s k|s k n|s k|n f| | | | ]; cbn [started do_job].
  - destruct (sign_job flag m s k t n D FO) as (V & XI & FO'). now apply G.
  - destruct (auto_job flag m s k t D B FO) as (V & XI & FO'). now apply G.
  - destruct (sign_job flag m s k t n D FO) as (V & XI & FO'). destruct (copy_value m t _ _ _ V) as [V' E]. apply G; [exact V'|now rewrite E|].
    intros s'. rewrite E. apply FO'.
  - destruct (auto_job flag m s k t D B FO) as (V & XI & FO'). destruct (copy_value m t _ _ _ V) as [V' E]. apply G; [exact V'|now rewrite E|].
    intros s'. rewrite E. apply FO'.
  - rewrite solo_answered; cbn [fst snd]. rewrite solo_sighash, (only_solo _ _ _ (only_sighash _ _ _)). auto.
  - rewrite solo_answered; cbn [fst snd]. rewrite solo_total, (only_solo _ _ _ (only_total _)). auto.
  - rewrite solo_answered; cbn [fst snd]. rewrite solo_is_coinbase, (only_solo _ _ _ (only_is_coinbase _)). auto.
  - rewrite solo_answered; cbn [fst snd]. rewrite solo_to_bytes, (only_solo _ _ _ (only_to_bytes _)). auto.
  - rewrite solo_answered; cbn [fst snd]. rewrite solo_to_bytes, (only_solo _ _ _ (only_to_bytes _)). unfold tx_id.
    split; [now destruct (tx_to_bytes (tx_at m t))|auto].
Qed.

Lemma one_by_one_value flag t js : forall m, own_inputs m t -> nlen (m (XInputs t)) <= 2 ^ 32 -> flags_ok flag m ->
  (forall a, In a (fst (in_turn flag (tx_at m t) js)) -> a <> Panic) ->
  fst (one_by_one cell_eq held m (map (started t) js)) = fst (in_turn flag (tx_at m t) js) /\
  tx_at (snd (one_by_one cell_eq held m (map (started t) js))) t = snd (in_turn flag (tx_at m t) js).
Proof.
  induction js as [|j js IH]; intros m D B FO NP; cbn [map one_by_one in_turn]; [auto|].
  destruct (job_value flag m t j D B FO) as (V1 & V2 & XI & FO').
  destruct (soloc m (started t j)) as [rr rm]. cbn [fst snd] in *. cbn [in_turn] in NP.
  destruct (do_job flag (tx_at m t) j) as [a x1]. cbn [fst snd] in *. subst a.
  destruct (in_turn flag x1 js) as [l x2] eqn:E2. cbn [fst] in NP.
  assert (TX : tx_at rm t = x1) by (apply V2, NP; now left).
  destruct (IH rm) as (G1 & G2); [unfold own_inputs; now rewrite XI|now rewrite XI|assumption| |].
  { rewrite TX, E2. cbn [fst]. intros a Ha. apply NP. now right. }
  rewrite TX, E2 in G1, G2. cbn [fst snd] in *.
  destruct (one_by_one cell_eq held rm (map (started t) js)) as [xs m2]. cbn [fst snd] in *. subst. auto.
Qed.

(** ** together *)
Definition Rj (js : list job) (i : nat) (l : cell) : Prop := match nth_error js i with Some j => reads j l | None => False end.
Definition Wj (m : memory) (t : nat) (js : list job) (i : nat) (l : cell) : bool := match nth_error js i with Some j => writes_b m t j l | None => false end.
Lemma jobs_feet sl (m : memory) t js : nlen (m (XInputs t)) <= 2 ^ 32 -> (sl = false -> forall j, In j js -> ~ rewrites j) -> feet cell_eq held sl m (map (started t) js) (Rj js) (Wj m t js).
Proof.
  intros B SL i p H. rewrite nth_error_map in H. unfold Rj, Wj. destruct (nth_error js i) as [j|] eqn:E; [|discriminate]. injection H as <-.
  apply job_foot; [assumption|]. intros Z. apply (SL Z). eapply nth_error_In, E.
Qed.
Lemma jobs_apart (m : memory) t js : undisturbed m t js -> apart (length (map (started t) js)) (Rj js) (Wj m t js).
Proof.
  intros U i j l _ _ N. unfold Rj, Wj. destruct (nth_error js i) as [a|] eqn:Ea; [|discriminate].
  destruct (nth_error js j) as [b|] eqn:Eb; [|intros _ [[]|]; discriminate].
  intros W. apply writes_spec in W. specialize (U i j a b N Ea Eb).
  intros [R|W2]; [|apply writes_spec in W2]; apply U.
  - destruct l; cbn in W, R; try tauto; [left; eauto|right; exists s; tauto].
  - destruct l; cbn in W, W2; try tauto; [left; eauto|right; exists s; tauto].
Qed.
