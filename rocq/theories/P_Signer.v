(** Proofs about signing (C39-C41). *)
From Verif Require Export P_Sighash.
From Coq Require Import ZifyBool ZifyNat ZifyN.

(** transactions that differ in unlocking scripts only *)
Definition resigned (t1 t2 : tx) : Prop :=
  version t1 = version t2 /\ outputs t1 = outputs t2 /\ locktime t1 = locktime t2 /\
  Forall2 same_signed_input (inputs t1) (inputs t2).

Lemma same_signed_refl a : same_signed_input a a.
Proof. destruct a; cbn; auto. Qed.
Lemma same_signed_trans a b c : same_signed_input a b -> same_signed_input b c -> same_signed_input a c.
Proof. destruct a, b, c; cbn; try tauto. intuition congruence. Qed.
Lemma same_signed_sym a b : same_signed_input a b -> same_signed_input b a.
Proof. destruct a, b; cbn; try tauto. intuition congruence. Qed.

Lemma Forall2_refl_signed l : Forall2 same_signed_input l l.
Proof. induction l; constructor; auto using same_signed_refl. Qed.

Lemma resigned_refl t : resigned t t.
Proof. repeat split. apply Forall2_refl_signed. Qed.

Lemma Forall2_nth {A B} (P : A -> B -> Prop) l1 l2 : Forall2 P l1 l2 -> forall n,
  match nth_error l1 n, nth_error l2 n with Some a, Some b => P a b | None, None => True | _, _ => False end.
Proof. induction 1 as [|a b l1 l2 H _ IH]; intros [|n]; cbn; auto. apply IH. Qed.

Lemma resigned_agree t1 t2 f n : resigned t1 t2 -> agree f n t1 t2.
Proof.
  intros (EV & EO & EL & F). constructor; try assumption; try (now left).
  - apply Forall2_nth, F.
  - intros _. eapply Forall2_impl; [|exact F]. intros [a|] [b|]; cbn; tauto.
  - intros _ _. eapply Forall2_impl; [|exact F]. intros [a|] [b|]; cbn; tauto.
  - intros _. assumption.
  - intros _. now rewrite EO.
Qed.

Lemma resigned_sighash t1 t2 n f : n < 2 ^ 32 -> f < 256 -> resigned t1 t2 ->
  get_input_signature_hash t1 n f = get_input_signature_hash t2 n f.
Proof. intros Bn Bf R. apply sighash_agree; try assumption. now apply resigned_agree. Qed.

(** ** Setting one unlocking script *)

Definition with_script (i : input) (u : bytes) : input :=
  mk_in (prev_txid i) (prev_index i) (prev_sats i) (prev_script i) (Some u) (sequence i).

Lemma with_script_signed i u : same_signed_input (Some i) (Some (with_script i u)).
Proof. cbn. auto. Qed.

Lemma nth_error_set_eq {A} (l : list A) : forall n x y, nth_error l n = Some y -> nth_error (set_nth n x l) n = Some x.
Proof. induction l as [|a l IH]; intros [|n] x y; cbn; try discriminate; auto. apply IH. Qed.
Lemma nth_error_set_neq {A} (l : list A) : forall n k x, k <> n -> nth_error (set_nth n x l) k = nth_error l k.
Proof. induction l as [|a l IH]; intros [|n] [|k] x H; cbn; try congruence. apply IH. congruence. Qed.

Lemma set_nth_signed l : forall n i u, nth_error l n = Some (Some i) ->
  Forall2 same_signed_input l (set_nth n (Some (with_script i u)) l).
Proof.
  induction l as [|a l IH]; intros [|n] i u E; cbn [nth_error set_nth] in *; try discriminate.
  - injection E as ->. constructor; [apply with_script_signed|apply Forall2_refl_signed].
  - constructor; [apply same_signed_refl|now apply IH].
Qed.

Definition set_script (t : tx) (n : nat) (i : input) (u : bytes) : tx :=
  mk_tx (version t) (set_nth n (Some (with_script i u)) (inputs t)) (outputs t) (locktime t).

Lemma set_script_resigned t n i u : nth_error (inputs t) n = Some (Some i) -> resigned t (set_script t n i u).
Proof. intros E. repeat split. cbn [set_script inputs]. now apply set_nth_signed. Qed.

Lemma set_script_unlocked t n i u : nth_error (inputs t) n = Some (Some i) -> unlocked t n u (set_script t n i u).
Proof.
  intros E. unfold unlocked, set_script. cbn [version inputs outputs locktime]. repeat (split; [reflexivity|]).
  split; [apply set_nth_length|]. split; [intros k H; now apply nth_error_set_neq|].
  exists i. split; [assumption|]. eapply nth_error_set_eq, E.
Qed.

(** ** Sign *)

Definition used_flag (s : signer) : N := if sg_flag s =? 0 then 65 else sg_flag s.

Lemma default_flag_eq s : default_flag s = mk_signer (sg_key s) (used_flag s).
Proof. unfold default_flag, used_flag. destruct (sg_flag s =? 0); [reflexivity|now destruct s]. Qed.

Lemma used_flag_small s : sg_flag s < 256 -> used_flag s < 256.
Proof. unfold used_flag. destruct (sg_flag s =? 0); lia. Qed.

Lemma used_idem s : used_flag (default_flag s) = used_flag s.
Proof. rewrite default_flag_eq. unfold used_flag. cbn [sg_flag]. destruct (sg_flag s =? 0) eqn:E; [reflexivity|now rewrite E]. Qed.

(** the unlocking script Sign makes *)
Definition sig_script (s : signer) (n : N) (t : tx) : res bytes :=
  h <- get_input_signature_hash t n (used_flag s) ;;
  sg <- key_sign (sg_key s) (rev h) ;;
  Ok (fst (p2pkh_unlocking_script (key_pub (sg_key s)) sg (used_flag s))).

Lemma sighash_input t n f h : get_input_signature_hash t n f = Ok h -> exists i, nth_error (inputs t) (N.to_nat n) = Some (Some i).
Proof.
  unfold get_input_signature_hash, sighash_preimage. destruct (nth_error (inputs t) (N.to_nat n)) as [[i|]|]; [eauto|discriminate|discriminate].
Qed.

Lemma internal_sign_eq s n t : internal_sign s n t =
  match sig_script s n t with
  | Ok u => match nth_error (inputs t) (N.to_nat n) with
            | Some (Some i) => Ok (set_script t (N.to_nat n) i u)
            | _ => Panic
            end
  | Err e => Err e
  | Panic => Panic
  end.
Proof.
  unfold internal_sign, sig_script. rewrite default_flag_eq. cbn [sg_key sg_flag].
  destruct (get_input_signature_hash t n (used_flag s)) as [h|e|] eqn:H; cbn [bind]; try reflexivity.
  rewrite reverse_bytes_rev. destruct (key_sign (sg_key s) (rev h)) as [sg|e|]; cbn [bind]; try reflexivity.
  destruct (p2pkh_unlocking_script (key_pub (sg_key s)) sg (used_flag s)) as [u e] eqn:U. cbn [fst].
  destruct (sighash_input _ _ _ _ H) as (i & E). unfold apply_unlocking_script. rewrite E. reflexivity.
Qed.

Lemma sig_script_input s n t u : sig_script s n t = Ok u -> exists i, nth_error (inputs t) (N.to_nat n) = Some (Some i).
Proof.
  unfold sig_script. destruct (get_input_signature_hash t n (used_flag s)) as [h|e|] eqn:H; try discriminate.
  intros _. eapply sighash_input, H.
Qed.

Lemma sig_script_resigned s n t1 t2 : n < 2 ^ 32 -> sg_flag s < 256 -> resigned t1 t2 -> sig_script s n t1 = sig_script s n t2.
Proof.
  intros Bn Bf R. unfold sig_script. rewrite (resigned_sighash t1 t2 n (used_flag s)); [reflexivity|assumption| |assumption].
  now apply used_flag_small.
Qed.

Lemma sign_spec t n s r : tx_sign t n s = r -> sg_flag s < 256 -> n < 2 ^ 32 ->
  match r with
  | Ok (t', s', oe) =>
      s' = mk_signer (sg_key s) (used_flag s) /\
      match oe with
      | Some e => t' = t /\
          (get_input_signature_hash t n (used_flag s) = Err e \/
           exists h, get_input_signature_hash t n (used_flag s) = Ok h /\ key_sign (sg_key s) (rev h) = Err e)
      | None => exists h sg, get_input_signature_hash t n (used_flag s) = Ok h /\ key_sign (sg_key s) (rev h) = Ok sg /\
          unlocked t (N.to_nat n) (fst (p2pkh_unlocking_script (key_pub (sg_key s)) sg (used_flag s))) t' /\
          get_input_signature_hash t' n (used_flag s) = Ok h
      end
  | Err _ => False
  | Panic => get_input_signature_hash t n (used_flag s) = Panic \/
             exists h, get_input_signature_hash t n (used_flag s) = Ok h /\ key_sign (sg_key s) (rev h) = Panic
  end.
Proof.
  intros <- Bf Bn. unfold tx_sign. rewrite internal_sign_eq. unfold sig_script.
  destruct (get_input_signature_hash t n (used_flag s)) as [h|e|] eqn:H; cbn [bind]; [|rewrite default_flag_eq; auto|auto].
  destruct (key_sign (sg_key s) (rev h)) as [sg|e|] eqn:K; cbn [bind]; [|rewrite default_flag_eq; eauto 6|eauto].
  destruct (sighash_input _ _ _ _ H) as (i & E). rewrite E. split; [apply default_flag_eq|].
  exists h, sg. split; [reflexivity|]. split; [assumption|]. split; [now apply set_script_unlocked|].
  rewrite <- H. symmetry. apply resigned_sighash; [assumption|now apply used_flag_small|now apply set_script_resigned].
Qed.

(** ** SignAuto *)

Definition hit (pub : bytes) (i : input) : res bool :=
  match get_public_key_hash (prev_script i) with
  | Ok h => Ok (equals (hex_encode h) (hex_encode (hash160 pub)))
  | Err _ => Ok false
  | Panic => Panic
  end.

Definition outcome (s : signer) (t : tx) (k : N) (oi : option input) : res (option input) :=
  match oi with
  | None => Panic
  | Some i =>
      b <- hit (key_pub (sg_key s)) i ;;
      if b then match sig_script s k t with
                | Ok u => Ok (Some (with_script i u))
                | Err _ => Ok (Some i)
                | Panic => Panic
                end
      else Ok (Some i)
  end.

Fixpoint outcomes (s : signer) (t : tx) (k : N) (l : list (option input)) {struct l} : res (list (option input)) :=
  match l with
  | [] => Ok []
  | oi :: r => x <- outcome s t k oi ;; y <- outcomes s t (k + 1) r ;; Ok (x :: y)
  end.

Lemma outcome_not_err s t k oi e : outcome s t k oi <> Err e.
Proof.
  destruct oi as [i|]; cbn [outcome]; [|discriminate]. unfold hit. destruct (get_public_key_hash (prev_script i)); cbn [bind]; try discriminate.
  destruct (equals _ _); [|discriminate]. destruct (sig_script s k t); discriminate.
Qed.

Lemma outcomes_not_err s t l : forall k e, outcomes s t k l <> Err e.
Proof.
  induction l as [|oi l IH]; intros k e; cbn [outcomes]; [discriminate|].
  destruct (outcome s t k oi) as [x|e'|] eqn:O; cbn [bind]; [|now apply outcome_not_err in O|discriminate].
  destruct (outcomes s t (k + 1) l) as [y|e'|] eqn:Q; cbn [bind]; [discriminate|now apply IH in Q|discriminate].
Qed.

Lemma outcome_resigned s t1 t2 k oi : k < 2 ^ 32 -> sg_flag s < 256 -> resigned t1 t2 -> outcome s t1 k oi = outcome s t2 k oi.
Proof. intros B F R. destruct oi as [i|]; cbn [outcome]; [|reflexivity]. now rewrite (sig_script_resigned s k t1 t2 B F R). Qed.

Lemma outcomes_resigned s t1 t2 l : forall k, k + nlen l <= 2 ^ 32 -> sg_flag s < 256 -> resigned t1 t2 ->
  outcomes s t1 k l = outcomes s t2 k l.
Proof.
  induction l as [|oi l IH]; intros k B F R; cbn [outcomes]; [reflexivity|]. unfold nlen in *. cbn [length] in B.
  rewrite (outcome_resigned s t1 t2 k oi) by (try assumption; lia). now rewrite IH by (try assumption; lia).
Qed.

Lemma hex40 pub : equals (hex_encode []) (hex_encode (hash160 pub)) = false.
Proof.
  apply equals_neq. intros E. apply (f_equal (@length byte)) in E. rewrite !hex_encode_length, hash160_length in E. discriminate.
Qed.

Lemma step_eq s t (don rest : list (option input)) oi : sg_flag s < 256 -> used_flag s = sg_flag s -> nlen don < 2 ^ 32 ->
  inputs t = don ++ oi :: rest ->
  sign_auto_step s (nlen don) t =
  match outcome s t (nlen don) oi with
  | Ok oi' => Ok (mk_tx (version t) (don ++ oi' :: rest) (outputs t) (locktime t))
  | Err e => Err e
  | Panic => Panic
  end.
Proof.
  intros Bf U Bk E. unfold sign_auto_step.
  assert (N.to_nat (nlen don) = length don) as Lk by (unfold nlen; lia).
  assert (nth_error (inputs t) (length don) = Some oi) as EN by (rewrite E, nth_error_app2, Nat.sub_diag by lia; reflexivity).
  rewrite Lk, EN. cbn [or_panic bind].
  destruct oi as [i|]; cbn [outcome deref or_panic bind]; [|reflexivity].
  assert (t = mk_tx (version t) (don ++ Some i :: rest) (outputs t) (locktime t)) as T by (rewrite <- E; symmetry; apply tx_eta).
  unfold hit. destruct (get_public_key_hash (prev_script i)) as [h|e|]; cbn [bind].
  - destruct (equals (hex_encode h) (hex_encode (hash160 (key_pub (sg_key s))))); [|now rewrite <- T].
    assert (wrap32 (nlen don) = nlen don) as -> by (unfold wrap32; apply N.mod_small; lia).
    rewrite internal_sign_eq, Lk, EN. destruct (sig_script s (nlen don) t) as [u|e|]; [|now rewrite <- T|reflexivity].
    unfold set_script. rewrite E, set_nth_mid. reflexivity.
  - rewrite hex40. now rewrite <- T.
  - reflexivity.
Qed.

Lemma outcome_signed s t k oi oi' : outcome s t k oi = Ok oi' -> same_signed_input oi oi'.
Proof.
  destruct oi as [i|]; cbn [outcome]; [|discriminate]. destruct (hit _ i) as [b|e|]; cbn [bind]; try discriminate.
  destruct b; [|intros H; injection H as <-; apply same_signed_refl].
  destruct (sig_script s k t) as [u|e|]; [| |discriminate]; intros H; injection H as <-; [apply with_script_signed|apply same_signed_refl].
Qed.

Lemma loop_eq s rest : forall t don, sg_flag s < 256 -> used_flag s = sg_flag s -> nlen don + nlen rest <= 2 ^ 32 ->
  inputs t = don ++ rest ->
  sign_auto_loop s (nlen don) (length rest) t =
  match outcomes s t (nlen don) rest with
  | Ok rest' => Ok (mk_tx (version t) (don ++ rest') (outputs t) (locktime t))
  | Err e => Err e
  | Panic => Panic
  end.
Proof.
  induction rest as [|oi rest IH]; intros t don Bf U B E; cbn [length sign_auto_loop outcomes].
  - rewrite <- E. now rewrite tx_eta.
  - rewrite (step_eq s t don rest oi) by (try assumption; unfold nlen in *; cbn [length] in B; lia).
    destruct (outcome s t (nlen don) oi) as [oi'|e|] eqn:O; cbn [bind]; try reflexivity.
    set (t1 := mk_tx (version t) (don ++ oi' :: rest) (outputs t) (locktime t)).
    assert (nlen don + 1 = nlen (don ++ [oi'])) as E1 by (unfold nlen; rewrite app_length; cbn [length]; lia).
    rewrite E1. rewrite (IH t1 (don ++ [oi'])); [|assumption|assumption| |cbn [inputs t1]; now rewrite <- app_assoc].
    2:{ unfold nlen in *. rewrite app_length. cbn [length] in *. lia. }
    assert (resigned t1 t) as R.
    { repeat split. cbn [inputs t1]. rewrite E. apply Forall2_app; [apply Forall2_refl_signed|]. constructor; [|apply Forall2_refl_signed].
      apply same_signed_sym. eapply outcome_signed, O. }
    rewrite (outcomes_resigned s t1 t); [|unfold nlen in *; rewrite app_length; cbn [length] in *; lia|assumption|assumption].
    destruct (outcomes s t (nlen (don ++ [oi'])) rest) as [l|e|]; cbn [bind version outputs locktime t1]; try reflexivity.
    now rewrite <- app_assoc.
Qed.

Lemma sig_script_default s n t : sig_script (default_flag s) n t = sig_script s n t.
Proof. unfold sig_script. rewrite used_idem, default_flag_eq. reflexivity. Qed.

Lemma outcome_default s t k oi : outcome (default_flag s) t k oi = outcome s t k oi.
Proof. destruct oi as [i|]; cbn [outcome]; [|reflexivity]. rewrite sig_script_default. now rewrite default_flag_eq. Qed.

Lemma outcomes_default s t l : forall k, outcomes (default_flag s) t k l = outcomes s t k l.
Proof. induction l as [|oi l IH]; intros k; cbn [outcomes]; [reflexivity|]. now rewrite outcome_default, IH. Qed.

Lemma sign_auto_eq s t : sg_flag s < 256 -> nlen (inputs t) <= 2 ^ 32 ->
  internal_sign_auto s t =
  match outcomes s t 0 (inputs t) with
  | Ok l => Ok (mk_tx (version t) l (outputs t) (locktime t))
  | Err e => Err e
  | Panic => Panic
  end.
Proof.
  intros Bf B. unfold internal_sign_auto. change 0 with (nlen (@nil (option input))) at 1.
  rewrite (loop_eq (default_flag s) (inputs t) t []); [| | |unfold nlen in *; cbn [length]; lia|reflexivity].
  - rewrite outcomes_default. reflexivity.
  - rewrite default_flag_eq. cbn [sg_flag]. now apply used_flag_small.
  - rewrite used_idem, default_flag_eq. reflexivity.
Qed.

Lemma outcomes_ok_nth s t l : forall k l', outcomes s t k l = Ok l' ->
  length l' = length l /\
  forall j oi, nth_error l j = Some oi -> exists oi', nth_error l' j = Some oi' /\ outcome s t (k + N.of_nat j) oi = Ok oi'.
Proof.
  induction l as [|x l IH]; intros k l' E; cbn [outcomes] in E.
  - injection E as <-. split; [reflexivity|]. intros [|j] oi; discriminate.
  - destruct (outcome s t k x) as [x'|e|] eqn:O; cbn [bind] in E; try discriminate.
    destruct (outcomes s t (k + 1) l) as [y|e|] eqn:Q; cbn [bind] in E; try discriminate. injection E as <-.
    destruct (IH _ _ Q) as [L H]. split; [cbn [length]; now rewrite L|]. intros [|j] oi N; cbn [nth_error] in *.
    + injection N as <-. exists x'. split; [reflexivity|]. now rewrite N.add_0_r.
    + destruct (H _ _ N) as (oi' & A & B). exists oi'. split; [assumption|].
      replace (k + N.of_nat (S j)) with (k + 1 + N.of_nat j) by lia. assumption.
Qed.

Lemma outcomes_panic s t l : forall k, outcomes s t k l = Panic <->
  exists j oi, nth_error l j = Some oi /\ outcome s t (k + N.of_nat j) oi = Panic.
Proof.
  induction l as [|x l IH]; intros k; cbn [outcomes].
  - split; [discriminate|]. intros ([|j] & oi & E & _); discriminate.
  - destruct (outcome s t k x) as [x'|e|] eqn:O; cbn [bind].
    + destruct (outcomes s t (k + 1) l) as [y|e|] eqn:Q; cbn [bind].
      * split; [discriminate|]. intros (j & oi & E & P). destruct j as [|j]; cbn [nth_error] in E.
        -- injection E as <-. rewrite N.add_0_r in P. congruence.
        -- assert (outcomes s t (k + 1) l = Panic) as P'.
           { apply IH. exists j, oi. split; [assumption|]. now replace (k + 1 + N.of_nat j) with (k + N.of_nat (S j)) by lia. }
           congruence.
      * now apply outcomes_not_err in Q.
      * split; [|reflexivity]. intros _. apply IH in Q as (j & oi & E & P). exists (S j), oi. split; [assumption|].
        now replace (k + N.of_nat (S j)) with (k + 1 + N.of_nat j) by lia.
    + now apply outcome_not_err in O.
    + split; [|reflexivity]. intros _. exists 0%nat, x. split; [reflexivity|]. now rewrite N.add_0_r.
Qed.

(** the test of SignAuto is [matches] *)
Lemma hit_matches pub i : hit pub i = Ok true <-> matches pub i.
Proof.
  unfold hit, matches. split.
  - destruct (get_public_key_hash (prev_script i)) as [h|e|] eqn:G; try discriminate. intros E.
    assert (equals (hex_encode h) (hex_encode (hash160 pub)) = true) as Q by congruence.
    apply equals_spec, hex_encode_inj in Q. subst h. apply gpkh_ok_iff in G. exact G.
  - intros G. apply gpkh_ok_iff in G. rewrite G. now rewrite equals_refl.
Qed.

Lemma hit_panic pub i : hit pub i = Panic <-> get_public_key_hash (prev_script i) = Panic.
Proof. unfold hit. destruct (get_public_key_hash (prev_script i)); split; congruence. Qed.

Lemma hit_not_err pub i e : hit pub i <> Err e.
Proof. unfold hit. destruct (get_public_key_hash (prev_script i)); discriminate. Qed.

(** ** Any order *)

Definition sign_keep (s : signer) (t : tx) (n : N) : tx := match internal_sign s n t with Ok t' => t' | _ => t end.

Lemma sign_keep_eq s t n : sign_keep s t n =
  match sig_script s n t, nth_error (inputs t) (N.to_nat n) with
  | Ok u, Some (Some i) => set_script t (N.to_nat n) i u
  | _, _ => t
  end.
Proof.
  unfold sign_keep. rewrite internal_sign_eq. destruct (sig_script s n t) as [u|e|]; try reflexivity.
  destruct (nth_error (inputs t) (N.to_nat n)) as [[i|]|]; reflexivity.
Qed.

Lemma sign_keep_resigned s t n : resigned t (sign_keep s t n).
Proof.
  rewrite sign_keep_eq. destruct (sig_script s n t) as [u|e|]; try apply resigned_refl.
  destruct (nth_error (inputs t) (N.to_nat n)) as [[i|]|] eqn:E; try apply resigned_refl. now apply set_script_resigned.
Qed.

Lemma set_nth_swap {A} (l : list A) : forall a b x y, a <> b -> set_nth a x (set_nth b y l) = set_nth b y (set_nth a x l).
Proof. induction l as [|z l IH]; intros [|a] [|b] x y H; cbn [set_nth]; try reflexivity; try congruence. f_equal. apply IH. congruence. Qed.

Lemma sign_keep_swap s t a b : sg_flag s < 256 -> a < 2 ^ 32 -> b < 2 ^ 32 ->
  sign_keep s (sign_keep s t a) b = sign_keep s (sign_keep s t b) a.
Proof.
  intros Bf Ba Bb. destruct (N.eq_dec a b) as [->|Q]; [reflexivity|].
  rewrite (sign_keep_eq s (sign_keep s t a) b), (sign_keep_eq s (sign_keep s t b) a).
  rewrite <- (sig_script_resigned s b t (sign_keep s t a)) by (try assumption; apply sign_keep_resigned).
  rewrite <- (sig_script_resigned s a t (sign_keep s t b)) by (try assumption; apply sign_keep_resigned).
  rewrite (sign_keep_eq s t a), (sign_keep_eq s t b).
  assert (N.to_nat a <> N.to_nat b) as Q' by lia.
  destruct (sig_script s a t) as [ua|ea|] eqn:Ea, (sig_script s b t) as [ub|eb|] eqn:Eb; try reflexivity.
  destruct (sig_script_input _ _ _ _ Ea) as (ia & Na). destruct (sig_script_input _ _ _ _ Eb) as (ib & Nb).
  rewrite Na, Nb. unfold set_script. cbn [version inputs outputs locktime].
  rewrite !nth_error_set_neq by congruence. rewrite Na, Nb. f_equal. apply set_nth_swap. congruence.
Qed.

Lemma fold_perm s : sg_flag s < 256 -> forall l1 l2, Permutation l1 l2 -> Forall (fun n => n < 2 ^ 32) l1 ->
  forall t, fold_left (sign_keep s) l1 t = fold_left (sign_keep s) l2 t.
Proof.
  intros Bf l1 l2 P. induction P as [|x l1 l2 P IH|x y l|l1 l2 l3 P1 IH1 P2 IH2]; intros F t; cbn [fold_left].
  - reflexivity.
  - inversion F; subst. now apply IH.
  - inversion F as [|? ? Bx F']; subst. inversion F'; subst. now rewrite sign_keep_swap.
  - rewrite IH1 by assumption. apply IH2. eapply Permutation_Forall; eassumption.
Qed.
