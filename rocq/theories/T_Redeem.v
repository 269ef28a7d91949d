(** Property theorems C50, C51, C58: redeem scripts. *)
From Verif Require Import P_Redeem.
From Coq Require Import ZifyBool ZifyNat ZifyN.

(** ** C50: the redeem script depends on the threshold and the multiset of keys *)

(** the exact bytes, and the keys afterwards *)
Theorem C50_value : forall m ks l, sorted_of ks l ->
  get_redeem_script (mk_rs m ks) = (multisig_script (Z.to_N (m mod 256)) l, mk_rs m l).
Proof. intros m ks l S. exact (redeem_script_iff (mk_rs m ks) l S). Qed.
Print Assumptions C50_value.

Theorem C50_order_independent : forall m ks1 ks2, Permutation ks1 ks2 ->
  get_redeem_script (mk_rs m ks1) = get_redeem_script (mk_rs m ks2) /\
  get_redeem_script_hash (mk_rs m ks1) = get_redeem_script_hash (mk_rs m ks2) /\
  redeem_get_address (mk_rs m ks1) = redeem_get_address (mk_rs m ks2).
Proof.
  intros m ks1 ks2 P. assert (get_redeem_script (mk_rs m ks1) = get_redeem_script (mk_rs m ks2)) as E.
  { rewrite !redeem_value. cbn [sigs_required public_keys]. now rewrite (sort_perm_eq _ _ P). }
  unfold get_redeem_script_hash, redeem_get_address. rewrite E. auto.
Qed.
Print Assumptions C50_order_independent.

(** a second call returns the same and changes nothing more *)
Theorem C50_stable : forall rs, let (s, rs') := get_redeem_script rs in
  get_redeem_script rs' = (s, rs') /\ sorted_of (public_keys rs) (public_keys rs') /\ sigs_required rs' = sigs_required rs.
Proof.
  intros rs. rewrite redeem_value. cbn [sigs_required public_keys]. split.
  - rewrite redeem_value. cbn [sigs_required public_keys]. now rewrite sort_idem.
  - split; [now apply sorted_of_sort|reflexivity].
Qed.
Print Assumptions C50_stable.

(** hash and address: of that script *)
Theorem C50_hash_address : forall rs, let s := fst (get_redeem_script rs) in
  get_redeem_script_hash rs = (ripemd160 (sha256 s), snd (get_redeem_script rs)) /\
  snd (redeem_get_address rs) = snd (get_redeem_script rs) /\
  (let payload := x05 :: ripemd160 (sha256 s) in
   b58_of (fst (redeem_get_address rs)) (payload ++ firstn 4 (sha256 (sha256 payload)))) /\
  redeem_script_pub_key rs = (p2sh (ripemd160 (sha256 s)), snd (get_redeem_script rs)).
Proof.
  intros rs. cbv zeta. rewrite <- hash160_eq. split; [|split; [|split]].
  - unfold get_redeem_script_hash. now destruct (get_redeem_script rs).
  - apply get_addr_snd.
  - unfold redeem_get_address. destruct (get_redeem_script rs) as [s r]. cbn [fst]. rewrite <- sha256d_eq. apply b58_encode_of.
  - unfold redeem_script_pub_key, get_redeem_script_hash. destruct (get_redeem_script rs) as [s r]. cbn [fst snd].
    unfold nlen. rewrite hash160_length. unfold p2sh. rewrite <- !app_assoc. reflexivity.
Qed.
Print Assumptions C50_hash_address.

(** after any history of calls on a new redeem script *)
Theorem C50_history : forall H m h rs ks l, run_redeem H (mk_rs m []) h = Ok rs -> adds H h ks -> sorted_of ks l ->
  fst (get_redeem_script rs) = multisig_script (Z.to_N (m mod 256)) l.
Proof.
  intros H m h rs ks l R A S. destruct (run_adds _ _ _ _ _ R A) as [E P]. cbn [public_keys sigs_required app] in *.
  assert (sorted_of (public_keys rs) l) as S' by (destruct S as [P1 S1]; split; [rewrite <- P; exact P1|exact S1]).
  rewrite (redeem_script_iff rs l S'), E. reflexivity.
Qed.
Print Assumptions C50_history.

(** two redeem scripts with the same bytes have the same threshold and keys *)
Theorem C50_injective : forall m1 ks1 m2 ks2, (0 <= m1 < 256)%Z -> (0 <= m2 < 256)%Z -> nlen ks1 < 256 -> nlen ks2 < 256 ->
  (forall k, In k (ks1 ++ ks2) -> nlen k < 256) ->
  fst (get_redeem_script (mk_rs m1 ks1)) = fst (get_redeem_script (mk_rs m2 ks2)) -> m1 = m2 /\ Permutation ks1 ks2.
Proof.
  intros m1 ks1 m2 ks2 M1 M2 N1 N2 B E. rewrite !redeem_value in E. cbn [fst sigs_required public_keys] in E.
  assert (forall ks, nlen (sort_byte_arrays ks) = nlen ks) as L by (intros ks; unfold nlen; f_equal; apply Permutation_length; symmetry; apply sort_perm).
  apply multisig_inj in E.
  - destruct E as [E1 E2]. rewrite !Z.mod_small in E1 by lia. split; [lia|]. rewrite (sort_perm ks1), E2. symmetry. apply sort_perm.
  - rewrite Z.mod_small by lia. lia.
  - rewrite Z.mod_small by lia. lia.
  - now rewrite L.
  - now rewrite L.
  - intros k I. apply B, in_or_app. left. apply (Permutation_in k) with (2 := I). symmetry. apply sort_perm.
  - intros k I. apply B, in_or_app. right. apply (Permutation_in k) with (2 := I). symmetry. apply sort_perm.
Qed.
Print Assumptions C50_injective.

(** lengths are written modulo 256: not so for longer keys *)
Theorem C50_injective_refuted : exists ks1 ks2,
  fst (get_redeem_script (mk_rs 2 ks1)) = fst (get_redeem_script (mk_rs 2 ks2)) /\ ~ Permutation ks1 ks2 /\ length ks1 = length ks2.
Proof.
  exists [[]; repeat x00 512], [repeat x00 256; repeat x00 256]. split; [vm_compute; reflexivity|]. split; [|reflexivity].
  intros P. apply (Permutation_in []) in P; [|now left]. destruct P as [P|[P|[]]]; discriminate P.
Qed.
Print Assumptions C50_injective_refuted.

Example C50_example :
  let k1 := x03 :: repeat xab 32 in let k2 := x02 :: repeat xcd 32 in
  fst (get_redeem_script (mk_rs 2 [k1; k2])) = [x52] ++ (x21 :: k2) ++ (x21 :: k1) ++ [x52; xae] /\
  public_keys (snd (get_redeem_script (mk_rs 2 [k1; k2]))) = [k2; k1] /\ sorted_of [k1; k2] [k2; k1] /\
  (let H := mk_hd N (fun t => if (nlen t <? 5) then Ok (nlen t) else Err EPath2) (fun k i => Ok (k + i)) (fun k => Ok [n2b k]) in
   run_redeem H (mk_rs 2 []) [RAdd (str "ab") [7; 1]; RScript; RAdd (str "abcdef") [1; 1]; RAdd (str "a") [1]; RAdd (str "a") [1; 1]; RAddress]
   = Ok (mk_rs 2 [[x03]; [x0a]]) /\
   adds H [RAdd (str "ab") [7; 1]; RScript; RAdd (str "abcdef") [1; 1]; RAdd (str "a") [1]; RAdd (str "a") [1; 1]; RAddress] [[x0a]; [x03]]).
Proof.
  cbv zeta. split; [vm_compute; reflexivity|]. split; [vm_compute; reflexivity|]. split; [apply sorted_of_sort; vm_compute; reflexivity|].
  split; [vm_compute; reflexivity|].
  eapply adds_ok; [vm_compute; reflexivity..|]. apply adds_script. apply adds_fail; [intros x x1 x2 pub E; vm_compute in E; discriminate E|].
  apply adds_path; [discriminate|]. eapply adds_ok; [vm_compute; reflexivity..|]. apply adds_address, adds_nil.
Qed.

(** ** C51: thresholds and decoding *)

Theorem C51_accepts_iff : forall m rs, new_redeem_script m = Ok rs <-> (2 <= m <= 16)%Z /\ rs = mk_rs m [].
Proof.
  intros m rs. unfold new_redeem_script. destruct (Z.ltb_spec m 2); [split; [discriminate|lia]|].
  destruct (Z.ltb_spec 16 m); [split; [discriminate|lia]|]. split; [intros E; split; [lia|congruence]|intros [_ ->]; reflexivity].
Qed.
Print Assumptions C51_accepts_iff.

Theorem C51_rejects : forall m, ~ (2 <= m <= 16)%Z -> exists e, new_redeem_script m = Err e.
Proof.
  intros m M. unfold new_redeem_script. destruct (Z.ltb_spec m 2); [eauto|]. destruct (Z.ltb_spec 16 m); [eauto|lia].
Qed.
Print Assumptions C51_rejects.

(** AddPublicKey: appends the derived key, or changes nothing *)
Theorem C51_add_public_key : forall H rs k path rs' e, add_public_key H rs k path = Ok (rs', e) ->
  (e = None /\ exists i j x x1 x2 pub, path = [i; j] /\ hd_parse H k = Ok x /\ hd_child H x i = Ok x1 /\ hd_child H x1 j = Ok x2 /\
     hd_pub H x2 = Ok pub /\ rs' = mk_rs (sigs_required rs) (public_keys rs ++ [pub])) \/
  (e <> None /\ rs' = rs /\ (length path = 2%nat -> forall i j x x1 x2 pub, path = [i; j] -> hd_parse H k = Ok x ->
     hd_child H x i = Ok x1 -> hd_child H x1 j = Ok x2 -> hd_pub H x2 <> Ok pub)).
Proof.
  intros H rs k path rs' e E. unfold add_public_key in E. destruct path as [|i [|j [|z path]]].
  - right. assert (rs = rs' /\ Some EPath2 = e) as [<- <-] by (split; congruence). split; [discriminate|]. split; [reflexivity|discriminate].
  - right. assert (rs = rs' /\ Some EPath2 = e) as [<- <-] by (split; congruence). split; [discriminate|]. split; [reflexivity|discriminate].
  - destruct (hd_derive H k i j) as [pub|e'|] eqn:D; [left|right|discriminate E].
    + apply hd_derive_ok in D as (x & x1 & x2 & D). split; [congruence|]. exists i, j, x, x1, x2, pub. split; [reflexivity|]. intuition congruence.
    + assert (rs = rs' /\ Some e' = e) as [<- <-] by (split; congruence). split; [discriminate|]. split; [reflexivity|].
      intros _ i0 j0 x x1 x2 pub P A1 A2 A3 A4. assert (hd_derive H k i j = Ok pub); [|congruence].
      apply hd_derive_ok. assert (i = i0) as -> by congruence. assert (j = j0) as -> by congruence. exists x, x1, x2. auto.
  - right. assert (rs = rs' /\ Some EPath2 = e) as [<- <-] by (split; congruence). split; [discriminate|]. split; [reflexivity|discriminate].
Qed.
Print Assumptions C51_add_public_key.

Theorem C51_decodes : forall m ks l, (0 <= m < 176)%Z -> nlen ks < 176 -> (forall k, In k ks -> 1 <= nlen k <= 75) -> sorted_of ks l ->
  decode_parts (fst (get_redeem_script (mk_rs m ks))) = Ok ([n2b (80 + Z.to_N m)] :: l ++ [[n2b (80 + nlen ks)]; [xae]]).
Proof.
  intros m ks l M N B S. rewrite (C50_value _ _ _ S). cbn [fst]. rewrite Z.mod_small by lia. destruct S as [P _].
  assert (nlen l = nlen ks) as L by (unfold nlen; f_equal; symmetry; now apply Permutation_length).
  rewrite <- L. apply decode_ok_iff, multisig_safe; [lia|unfold nlen, bytes in *; lia|]. intros k I. apply B. apply (Permutation_in k) with (2 := I). now symmetry.
Qed.
Print Assumptions C51_decodes.

(** it is recognised as multisig exactly when both counts are 1..16 *)
Theorem C51_multisig_iff : forall m ks, (0 <= m < 176)%Z -> nlen ks < 176 -> (forall k, In k ks -> 1 <= nlen k <= 75) ->
  exists b, is_multisig_out (fst (get_redeem_script (mk_rs m ks))) = Ok b /\ (b = true <-> (1 <= m <= 16)%Z /\ 1 <= nlen ks <= 16).
Proof.
  intros m ks M N B. rewrite redeem_value. cbn [fst sigs_required public_keys]. rewrite Z.mod_small by lia.
  assert (nlen (sort_byte_arrays ks) = nlen ks) as L by (unfold nlen; f_equal; apply Permutation_length; symmetry; apply sort_perm).
  rewrite multisig_out_iff; [eexists; split; [reflexivity|]; clear - L M; unfold nlen, bytes in *; lia|lia|unfold nlen, bytes in *; lia|].
  intros k I. apply B. apply (Permutation_in k) with (2 := I). symmetry. apply sort_perm.
Qed.
Print Assumptions C51_multisig_iff.

(** nothing checks the number of keys: an unspendable 3-of-1, and 17 keys whose
    script is not multisig *)
Theorem C51_keys_checked_refuted :
  (exists ks, length ks = 1%nat /\ new_redeem_script 3 = Ok (mk_rs 3 []) /\ is_multisig_out (fst (get_redeem_script (mk_rs 3 ks))) = Ok true) /\
  (exists ks, length ks = 17%nat /\ is_multisig_out (fst (get_redeem_script (mk_rs 2 ks))) = Ok false).
Proof.
  split.
  - exists [x02 :: repeat x11 32]. split; [reflexivity|]. split; vm_compute; reflexivity.
  - exists (repeat (x02 :: repeat x11 32) 17). split; [reflexivity|vm_compute; reflexivity].
Qed.
Print Assumptions C51_keys_checked_refuted.

Example C51_example : let k := x02 :: repeat x11 32 in
  decode_parts (fst (get_redeem_script (mk_rs 2 [k; k; k]))) = Ok [[x52]; k; k; k; [x53]; [xae]] /\
  is_multisig_out (fst (get_redeem_script (mk_rs 2 [k; k; k]))) = Ok true /\ new_redeem_script 16 = Ok (mk_rs 16 []) /\ new_redeem_script 17 = Err ESigsMax.
Proof. cbv zeta. split; [|split; [|split]]; vm_compute; reflexivity. Qed.

(** ** C58: import of Electrum's partially signed redeem scripts *)

Theorem C58_accepts_iff : forall H s rs, redeem_from_electrum H s = Ok rs <->
  exists bs c0 t0 ks cn tn tl pubs, hex_dec s = Some bs /\ safe_elems bs ((c0 :: t0) :: ks ++ [cn :: tn; xae :: tl]) /\
    82 <= b2n c0 <= 95 /\
    Forall2 (fun p pub => exists xpub i j txt k k1 k2, electrum_elem p xpub i j /\ b58_of txt (xpub ++ firstn 4 (sha256d xpub)) /\
      hd_parse H txt = Ok k /\ hd_child H k i = Ok k1 /\ hd_child H k1 j = Ok k2 /\ hd_pub H k2 = Ok pub) ks pubs /\
    nlen ks < 256 /\ b2n cn = (80 + nlen ks) mod 256 /\ rs = mk_rs (Z.of_N (b2n c0 - 80)) pubs.
Proof. exact electrum_ok_iff. Qed.
Print Assumptions C58_accepts_iff.

(** exactly when it panics, for a key library that does not *)
Theorem C58_panics_iff : forall H s, hd_total H ->
  redeem_from_electrum H s = Panic <->
  exists bs, hex_dec s = Some bs /\
    ((exists p ps t, bs = p ++ t /\ safe_elems p ps /\ wraps t) \/ exists ps, safe_elems bs ps /\ electrum_panics H ps).
Proof. intros H s T. rewrite (electrum_panic_iff H s T). setoid_rewrite decode_panic_iff. reflexivity. Qed.
Print Assumptions C58_panics_iff.

(** threshold and number of keys are not compared: "2 of none" is accepted *)
Theorem C58_threshold_refuted : forall H, redeem_from_electrum H (str "5250ae") = Ok (mk_rs 2 []).
Proof. intros H. vm_compute. reflexivity. Qed.
Print Assumptions C58_threshold_refuted.

(** nor are the first and last elements required to be opcodes *)
Theorem C58_opcodes_refuted : forall H, redeem_from_electrum H (str "02520002500002ae00") = Ok (mk_rs 2 []).
Proof. intros H. vm_compute. reflexivity. Qed.
Print Assumptions C58_opcodes_refuted.

(** the library's own redeem scripts are not in this form: every script with keys
    of at most 75 bytes is refused *)
Theorem C58_not_own_scripts : forall H m ks rs, (0 <= m < 176)%Z -> 1 <= nlen ks < 176 -> (forall k, In k ks -> 1 <= nlen k <= 75) ->
  redeem_from_electrum H (hex_encode (fst (get_redeem_script (mk_rs m ks)))) <> Ok rs.
Proof.
  intros H m ks rs M N B E. apply electrum_ok_iff in E as (bs & c0 & t0 & es & cn & tn & tl0 & pubs & HX & S & _ & F & _).
  rewrite hex_dec_encode in HX. assert (bs = fst (get_redeem_script (mk_rs m ks))) as -> by congruence. apply decode_ok_iff in S.
  rewrite (C51_decodes m ks (sort_byte_arrays ks) M ltac:(lia) B) in S by now apply sorted_of_sort.
  assert (forall A (x y : A), Ok x = Ok y -> x = y) as J by congruence. apply J in S. apply (f_equal (@tl bytes)) in S. cbn [tl] in S.
  apply two_tail in S as (S & _ & _). subst es. pose proof (sort_perm ks) as P.
  destruct ks as [|k ks]; [exfalso; clear - N; destruct N as [N _]; vm_compute in N; congruence|]. apply (Permutation_in k) in P; [|now left].
  assert (exists pub, derived_key H k pub) as (pub & x & i & j & txt & k0 & k1 & k2 & (a & b & c & d & -> & L & _) & _).
  { clear - F P. induction F as [|p q l l' D F IH]; [destruct P|]. destruct P as [<-|P]; [eauto|auto]. }
  specialize (B _ (or_introl eq_refl)). rewrite nlen_cons, nlen_app in B. unfold nlen, bytes in *. lia.
Qed.
Print Assumptions C58_not_own_scripts.

Example C58_example : let H := mk_hd N (fun t => Ok (nlen t)) (fun k i => Ok (k + i)) (fun k => Ok [n2b k]) in
  redeem_from_electrum H (str "524c53ff" ++ concat (repeat (str "00") 78) ++ str "0100020051ae") = Ok (mk_rs 2 [[x57]]) /\
  hd_total H /\ redeem_from_electrum H (str "52") = Panic /\ redeem_from_electrum H (str "52ae") = Panic /\
  redeem_from_electrum H (str "5202ff0051ae") = Panic.
Proof. cbv zeta. split; [vm_compute; reflexivity|]. split; [split; [|split]; discriminate|]. split; [|split]; vm_compute; reflexivity. Qed.
