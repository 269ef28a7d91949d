(** C107: how much is hashed while signing. *)
From Verif Require Import S_Hashed P_Sighash P_Script P_Crypto.
From Coq Require Import Lia ZifyBool ZifyNat ZifyN.

Lemma l_fst {A B} (r : logged A) (f : A -> logged B) : fst (lbind r f) = bind (fst r) (fun a => fst (f a)).
Proof. unfold lbind. destruct (fst r); reflexivity. Qed.
Lemma fst_if {A} (b : bool) (x y : logged A) : fst (if b return logged A then x else y) = if b then fst x else fst y.
Proof. destruct b; reflexivity. Qed.

Lemma lq {A B} (a : A) (f : A -> logged B) : lbind (quiet (Ok a)) f = f a.
Proof. unfold lbind. cbn [quiet fst snd app]. destruct (f a); reflexivity. Qed.

Lemma same_prevout t : fst (l_prevout_hash t) = prevout_hash t.
Proof. unfold l_prevout_hash, prevout_hash. rewrite l_fst. reflexivity. Qed.
Lemma same_sequence_hash t : fst (l_sequence_hash t) = sequence_hash t.
Proof. unfold l_sequence_hash, sequence_hash. rewrite l_fst. reflexivity. Qed.
Lemma same_outputs t n : fst (l_outputs_hash t n) = outputs_hash t n.
Proof.
  unfold l_outputs_hash, outputs_hash. rewrite fst_if. destruct (n =? -1)%Z; rewrite l_fst; [reflexivity|].
  change (fst (quiet ?r)) with r. destruct (or_panic (if (n <? 0)%Z then None else nth_error (outputs t) (Z.to_nat n))) as [oo|e|]; cbn [bind]; try reflexivity.
  rewrite l_fst. change (fst (quiet (deref oo))) with (deref oo). destruct (deref oo) as [o|e|]; cbn [bind]; try reflexivity.
  rewrite l_fst. reflexivity.
Qed.
Lemma same_sighash t n f : fst (l_sighash t n f) = get_input_signature_hash t n f.
Proof.
  unfold l_sighash, get_input_signature_hash, sighash_preimage. rewrite l_fst. change (fst (quiet ?r)) with r.
  destruct (or_panic (nth_error (inputs t) (N.to_nat n))) as [oin|e|]; cbn [bind]; try reflexivity.
  rewrite l_fst. change (fst (quiet (deref oin))) with (deref oin). destruct (deref oin) as [inp|e|]; cbn [bind]; try reflexivity.
  rewrite fst_if. destruct (equals (prev_txid inp) []); [reflexivity|]. destruct (prev_script inp) as [ps|]; [|reflexivity].
  rewrite l_fst, fst_if, same_prevout. change (fst (quiet (Ok zeros32))) with (Ok zeros32).
  destruct (if N.land f shAnyOneCanPay =? 0 then prevout_hash t else Ok zeros32) as [hp|e|]; cbn [bind]; try reflexivity.
  rewrite l_fst, fst_if, same_sequence_hash. change (fst (quiet (Ok zeros32))) with (Ok zeros32).
  destruct (if (N.land f shAnyOneCanPay =? 0) && negb (N.land f 31 =? shSingle) && negb (N.land f 31 =? shNone) then sequence_hash t else Ok zeros32) as [hs|e|]; cbn [bind]; try reflexivity.
  rewrite l_fst, !fst_if, !same_outputs. change (fst (quiet (Ok zeros32))) with (Ok zeros32).
  destruct (if negb (N.land f 31 =? shSingle) && negb (N.land f 31 =? shNone) then outputs_hash t (-1) else
    if (N.land f 31 =? shSingle) && (n <? wrap32 (nlen (outputs t))) then outputs_hash t (int32_of_u32 n) else Ok zeros32) as [ho|e|]; cbn [bind]; reflexivity.
Qed.
Lemma same_sign s n t : fst (l_sign s n t) = internal_sign s n t.
Proof.
  unfold l_sign, internal_sign. rewrite l_fst, same_sighash.
  destruct (get_input_signature_hash t n (sg_flag (default_flag s))) as [sh|e|]; cbn [bind]; try reflexivity.
  rewrite l_fst. change (fst (quiet ?r)) with r.
  destruct (key_sign (sg_key (default_flag s)) (reverse_bytes sh)) as [sig|e|]; cbn [bind]; try reflexivity.
  destruct (p2pkh_unlocking_script (key_pub (sg_key (default_flag s))) sig (sg_flag (default_flag s))). reflexivity.
Qed.
Lemma same_step s i t : fst (l_auto_step s i t) = sign_auto_step s i t.
Proof.
  unfold l_auto_step, sign_auto_step. rewrite l_fst. change (fst (quiet ?r)) with r.
  destruct (or_panic (nth_error (inputs t) (N.to_nat i))) as [oin|e|]; cbn [bind]; try reflexivity.
  rewrite l_fst. change (fst (quiet (deref oin))) with (deref oin). destruct (deref oin) as [inp|e|]; cbn [bind]; try reflexivity.
  rewrite l_fst. change (fst (quiet ?r)) with r.
  destruct (match get_public_key_hash (prev_script inp) with Ok h => Ok h | Err _ => Ok [] | Panic => Panic end) as [pkh|e|]; cbn [bind]; try reflexivity.
  rewrite l_fst. change (fst (l_hash160 ?b)) with (Ok (hash160 b)). cbn [bind]. rewrite fst_if.
  destruct (equals (hex_encode pkh) (hex_encode (hash160 (key_pub (sg_key s))))); [|reflexivity].
  rewrite <- same_sign. destruct (l_sign s (wrap32 i) t) as [ [t'|e|] l]; reflexivity.
Qed.
Lemma same_loop s n : forall i t, fst (l_auto_loop s i n t) = sign_auto_loop s i n t.
Proof.
  induction n as [|n IH]; intros i t; cbn [l_auto_loop sign_auto_loop]; [reflexivity|]. rewrite l_fst, same_step.
  destruct (sign_auto_step s i t) as [t'|e|]; cbn [bind]; [apply IH|reflexivity|reflexivity].
Qed.

(** Noting what is hashed changes nothing. *)
Theorem C107_same_result :
  (forall t n f, fst (l_sighash t n f) = get_input_signature_hash t n f) /\
  (forall s n t, fst (l_sign s n t) = internal_sign s n t) /\
  (forall s t, fst (l_sign_auto s t) = internal_sign_auto s t).
Proof.
  split; [exact same_sighash|]. split; [exact same_sign|]. intros s t. apply same_loop.
Qed.
Print Assumptions C107_same_result.

Lemma concat_len {A} (l : list A) (g : A -> bytes) n : (forall x, In x l -> length (g x) = n) -> length (concat (map g l)) = (n * length l)%nat.
Proof.
  induction l as [|x l IH]; intros H; cbn [map concat length]; [lia|]. rewrite app_length, IH by (intros y I; apply H; now right).
  rewrite (H x) by now left. lia.
Qed.
Lemma knowns l : Forall known l -> exists is, l = map Some is /\ Forall (fun i => exists id, hex_dec (prev_txid i) = Some id /\ length id = 32%nat) is.
Proof.
  induction 1 as [|x l (i & id & -> & E & L) _ (is & -> & F)]; [exists []; split; [reflexivity|constructor] |].
  exists (i :: is). split; [reflexivity|]. constructor; [now exists id|exact F].
Qed.
Lemma writtens l ws : Forall2 written l ws -> exists os, l = map Some os /\ Forall2 (fun o w => output_to_bytes o = Ok w) os ws.
Proof. induction 1 as [|x w l ws (o & -> & E) _ (os & -> & F)]; [exists []; split; [reflexivity|constructor] |]. exists (o :: os). split; [reflexivity|now constructor]. Qed.
Lemma outs_buf os ws : Forall2 (fun o w => output_to_bytes o = Ok w) os ws -> forall buf, outputs_buf buf (map Some os) = Ok (buf ++ concat ws).
Proof.
  induction 1 as [|o w os ws E _ IH]; intros buf; cbn [map outputs_buf concat]; [now rewrite app_nil_r|].
  cbn [deref or_panic bind]. change (output_sighash_bytes o) with (output_to_bytes o). rewrite E. cbn [bind]. now rewrite IH, <- app_assoc.
Qed.
Lemma op_len i id : hex_dec (prev_txid i) = Some id -> length (op_bytes i) = (length id + 4)%nat.
Proof. intros E. unfold op_bytes. rewrite (hex_dec_ignore _ _ E), app_length, rev_length, le_put_length. reflexivity. Qed.

Lemma sha256d_len b : length (sha256d b) = 32%nat.
Proof. apply sha256_length. Qed.
Lemma txid_some i id : hex_dec (prev_txid i) = Some id -> length id = 32%nat -> equals (prev_txid i) [] = false.
Proof. intros E L. destruct (prev_txid i) as [|c r]; [|reflexivity]. injection E as <-. discriminate L. Qed.

Definition preimage_len (s : bytes) : nat := (156 + length (varint (nlen s)) + length s)%nat.
Lemma sizes_of t n f ws i s id : f < 256 -> n < 2 ^ 32 -> nlen (outputs t) < 2 ^ 31 ->
  Forall known (inputs t) -> Forall2 written (outputs t) ws -> nth_error (inputs t) (N.to_nat n) = Some (Some i) ->
  hex_dec (prev_txid i) = Some id -> length id = 32%nat -> prev_script i = Some s ->
  exists h l, l_sighash t n f = (Ok h, l) /\ map (@length byte) l = hashed_sizes f (N.to_nat n) (length (inputs t)) ws s.
Proof.
  intros Bf Bn Bo K W Hn E L P. apply knowns in K as (is & EI & F). apply writtens in W as (os & EO & W).
  assert (length os = length ws) as Low by (clear -W; induction W; cbn [length]; congruence).
  unfold l_sighash. rewrite Hn. change (quiet (or_panic (Some (Some i)))) with (quiet (Ok (Some i))). rewrite lq.
  change (deref (Some i)) with (Ok i). rewrite lq. rewrite (txid_some _ _ E L), P.
  assert (exists hp, (if N.land f shAnyOneCanPay =? 0 then l_prevout_hash t else quiet (Ok zeros32)) =
     (Ok hp, if any_one_can_pay f then [] else [concat (map op_bytes is)]) /\ length hp = 32%nat) as (hp & -> & Lp).
  { rewrite acp_test by exact Bf. destruct (any_one_can_pay f); cbn [negb]; [exists zeros32; split; reflexivity|].
    unfold l_prevout_hash, lbind. rewrite EI, prevout_buf_eq. cbn [quiet fst snd app]. eexists. split; [reflexivity|apply sha256d_len]. }
  assert (exists hs, (if (N.land f shAnyOneCanPay =? 0) && negb (N.land f 31 =? shSingle) && negb (N.land f 31 =? shNone) then l_sequence_hash t else quiet (Ok zeros32)) =
     (Ok hs, if any_one_can_pay f || negb (is_all f) then [] else [concat (map (fun i => le_put 4 (sequence i)) is)]) /\ length hs = 32%nat) as (hs & -> & Ls).
  { rewrite acp_test, single_test, none_test by exact Bf. unfold is_all. destruct (any_one_can_pay f); cbn [negb andb orb]; [exists zeros32; split; reflexivity|].
    rewrite (andb_comm (negb (is_none f))). destruct (negb (is_single f) && negb (is_none f)); cbn [negb]; [|exists zeros32; split; reflexivity].
    unfold l_sequence_hash, lbind. rewrite EI, sequence_buf_eq. cbn [quiet fst snd app]. eexists. split; [reflexivity|apply sha256d_len]. }
  assert (exists ho, (if negb (N.land f 31 =? shSingle) && negb (N.land f 31 =? shNone) then l_outputs_hash t (-1) else
     if (N.land f 31 =? shSingle) && (n <? wrap32 (nlen (outputs t))) then l_outputs_hash t (int32_of_u32 n) else quiet (Ok zeros32)) =
     (Ok ho, if is_none f then [] else if is_single f then match nth_error ws (N.to_nat n) with Some w => [w] | None => [] end else [concat ws]) /\ length ho = 32%nat) as (ho & -> & Lo).
  { rewrite single_test, none_test. destruct (is_none f) eqn:EN.
    - assert (is_single f = false) as -> by (destruct (is_single f) eqn:Q; [exfalso; eapply none_single; eassumption|reflexivity]).
      cbn [negb andb]. exists zeros32. split; reflexivity.
    - destruct (is_single f); cbn [negb andb].
      + assert (wrap32 (nlen (outputs t)) = nlen (outputs t)) as -> by (unfold wrap32; apply N.mod_small; lia).
        assert (nlen (outputs t) = N.of_nat (length os)) as Lo by (unfold nlen; rewrite EO, map_length; reflexivity). rewrite Lo in *.
        destruct (N.ltb_spec n (N.of_nat (length os))) as [Q|Q].
        * assert (int32_of_u32 n = Z.of_N n) as -> by (unfold int32_of_u32; replace (n <? 2147483648) with true by lia; reflexivity).
          unfold l_outputs_hash. replace (Z.of_N n =? -1)%Z with false by lia. replace (Z.of_N n <? 0)%Z with false by lia.
          assert (Z.to_nat (Z.of_N n) = N.to_nat n) as -> by lia.
          assert (exists o w, nth_error os (N.to_nat n) = Some o /\ nth_error ws (N.to_nat n) = Some w /\ output_to_bytes o = Ok w) as (o & w & Eo & Ew & Ow).
          { assert (N.to_nat n < length os)%nat as Q' by lia. clear -W Q'. revert Q'. generalize (N.to_nat n). induction W as [|o w os ws H W IH]; intros k Q; cbn [length] in Q; [lia|].
            destruct k as [|k]; [exists o, w; split; [reflexivity|split; [reflexivity|exact H] ] |]. apply (IH k). lia. }
          rewrite EO, nth_map_some, Eo, Ew. unfold lbind. cbn [option_map or_panic quiet fst snd app]. change (deref (Some o)) with (Ok o). cbn [quiet fst snd app].
          change (output_sighash_bytes o) with (output_to_bytes o). rewrite Ow. cbn [quiet fst snd app]. eexists. split; [reflexivity|apply sha256d_len].
        * rewrite (proj2 (nth_error_None ws (N.to_nat n))) by lia. exists zeros32. split; reflexivity.
      + unfold l_outputs_hash. change (-1 =? -1)%Z with true. cbv iota. unfold lbind. rewrite EO, (outs_buf os ws W). cbn [quiet fst snd app]. eexists. split; [reflexivity|apply sha256d_len]. }
  eexists _, _. split; [unfold lbind, l_sha256d; cbn [quiet fst snd app]; reflexivity|]. unfold hashed_sizes. rewrite !map_app.
  assert (length (inputs t) = length is) as Li by (rewrite EI; apply map_length). rewrite Li.
  f_equal; [|f_equal; [|f_equal] ].
  - destruct (any_one_can_pay f); [reflexivity|]. cbn [map]. f_equal. apply concat_len. intros x I. rewrite Forall_forall in F. destruct (F x I) as (id' & E' & L').
    rewrite (op_len x id' E'), L'. reflexivity.
  - destruct (any_one_can_pay f || negb (is_all f)); [reflexivity|]. cbn [map]. f_equal. apply concat_len. intros x _. apply le_put_length.
  - destruct (is_none f); [reflexivity|]. destruct (is_single f); [destruct (nth_error ws (N.to_nat n)); reflexivity|reflexivity].
  - cbn [map]. f_equal. rewrite reverse_bytes_rev, (hex_dec_ignore _ _ E). rewrite !app_length, !le_put_length, rev_length, L, Lp, Ls, Lo. cbn [length]. lia.
Qed.

(** What one signature hash, and so one call of Sign, hashes: the bytes of every outpoint, every sequence number and every output,
    as far as the flag covers them, each time anew. Nothing is hashed for an input that is refused. *)
Theorem C107_one : forall t n f ws i s, f < 256 -> n < 2 ^ 32 -> nlen (outputs t) < 2 ^ 31 ->
  Forall known (inputs t) -> Forall2 written (outputs t) ws -> nth_error (inputs t) (N.to_nat n) = Some (Some i) -> spends s (Some i) ->
  map (@length byte) (snd (l_sighash t n f)) = hashed_sizes f (N.to_nat n) (length (inputs t)) ws s /\
  forall k, map (@length byte) (snd (l_sign (mk_signer k f) n t)) =
    hashed_sizes (if f =? 0 then 65 else f) (N.to_nat n) (length (inputs t)) ws s.
Proof.
  intros t n f ws i s Bf Bn Bo K W Hn (i' & id & Q & E & L & P). injection Q as <-.
  split; [destruct (sizes_of t n f ws i s id Bf Bn Bo K W Hn E L P) as (h & l & -> & Q); exact Q|].
  intros k. unfold l_sign. assert (sg_flag (default_flag (mk_signer k f)) = if f =? 0 then 65 else f) as -> by (unfold default_flag; cbn [sg_flag]; destruct (f =? 0); reflexivity).
  set (f' := if f =? 0 then 65 else f). assert (f' < 256) as Bf' by (unfold f'; destruct (f =? 0); lia).
  destruct (sizes_of t n f' ws i s id Bf' Bn Bo K W Hn E L P) as (sh & l & Q & Sz). unfold lbind. rewrite Q. cbn [fst snd].
  rewrite map_app. etransitivity; [apply (f_equal (fun x => x ++ _) Sz)|]. cbv beta. destruct (key_sign (sg_key (default_flag (mk_signer k f))) (reverse_bytes sh)) as [sg|e|]; cbn [quiet fst snd app map]; try apply app_nil_r.
  destruct (p2pkh_unlocking_script (key_pub (sg_key (default_flag (mk_signer k f)))) sg f'). cbn [quiet fst snd map]. apply app_nil_r.
Qed.
Print Assumptions C107_one.
Lemma total_sizes ms : total ms = fold_right Nat.add 0%nat (map (@length byte) ms).
Proof. unfold total. induction ms as [|m ms IH]; [reflexivity|]. cbn [concat map fold_right]. rewrite app_length, IH. reflexivity. Qed.

Lemma total_app a b : total (a ++ b) = (total a + total b)%nat.
Proof. unfold total. now rewrite concat_app, app_length. Qed.
Lemma spends_unlocked s i u : spends s (Some i) -> spends s (Some (mk_in (prev_txid i) (prev_index i) (prev_sats i) (prev_script i) u (sequence i))).
Proof. intros (i' & id & Q & R). injection Q as <-. eexists _, id. split; [reflexivity|exact R]. Qed.
Lemma belongs_known h oi b : belongs h oi b -> known oi.
Proof. destruct b; [intros (i & id & Q & E & L & _); now exists i, id|intros (H & _); exact H]. Qed.
Lemma belongs_all_known h l bs : Forall2 (belongs h) l bs -> Forall known l.
Proof. induction 1 as [|x b l bs H _ IH]; [constructor|constructor; [exact (belongs_known _ _ _ H)|exact IH] ]. Qed.
Lemma belongs_set h i u l bs : Forall2 (belongs h) l bs -> forall n, nth_error l n = Some (Some i) ->
  Forall2 (belongs h) (set_nth n (Some (mk_in (prev_txid i) (prev_index i) (prev_sats i) (prev_script i) u (sequence i))) l) bs.
Proof.
  induction 1 as [|x b l bs H F IH]; intros [|n] E; cbn [nth_error set_nth] in *; try discriminate E.
  - injection E as ->. constructor; [|exact F]. destruct b; [now apply spends_unlocked|].
    destruct H as ((i' & id & Q & E & L) & i2 & Q2 & R). injection Q as <-. injection Q2 as <-.
    split; [eexists _, id; split; [reflexivity|now split]|]. eexists. split; [reflexivity|exact R].
  - constructor; [exact H|now apply IH].
Qed.
Lemma set_len {A} (x : A) l : forall n, length (set_nth n x l) = length l.
Proof. induction l as [|y l IH]; intros [|n]; cbn [set_nth length]; [reflexivity|reflexivity|reflexivity|now rewrite IH]. Qed.

Section Auto.
Context (k : priv_key) (f : N) (Bf : f < 256) (Zf : (f =? 0) = false) (no_panic : forall m, key_sign k m <> Panic) (os : list (option output)) (ws : list bytes) (mine : list bool)
  (Wos : Forall2 written os ws) (Bo : nlen os < 2 ^ 31) (Bn : nlen mine <= 2 ^ 32).
Let h := hash160 (key_pub k).
Let s := mk_signer k f.
Definition auto_ok (t : tx) : Prop := outputs t = os /\ Forall2 (belongs h) (inputs t) mine.
Let per (n : nat) := sum (hashed_sizes f n (length mine) ws (p2pkh h)).

Lemma auto_sign t n i : auto_ok t -> n < 2 ^ 32 -> nth_error (inputs t) (N.to_nat n) = Some (Some i) -> spends (p2pkh h) (Some i) ->
  exists r l, l_sign s n t = (r, l) /\ total l = per (N.to_nat n) /\ (forall t', r = Ok t' -> auto_ok t') /\ r <> Panic.
Proof.
  intros (Eo & F) Ln Hn (i' & id & Q & E & L & P). injection Q as <-.
  pose proof (sizes_of t n f ws i (p2pkh h) id Bf Ln) as Sz. rewrite Eo in Sz.
  destruct (Sz Bo (belongs_all_known _ _ _ F) Wos Hn E L P) as (sh & l & Q & Z).
  assert (default_flag s = s) as Ds by (unfold s, default_flag; cbn [sg_flag]; now rewrite Zf).
  unfold l_sign. rewrite Ds. change (sg_flag s) with f. change (sg_key s) with k. cbv zeta. unfold lbind at 1. rewrite Q. cbn [fst snd].
  assert (total l = per (N.to_nat n)) as Tl.
  { rewrite total_sizes. etransitivity; [apply f_equal, Z|].
    assert (length (inputs t) = length mine) as -> by (clear -F; induction F; cbn [length]; congruence). reflexivity. }
  unfold lbind. destruct (key_sign k (reverse_bytes sh)) as [sg|e|] eqn:K; cbn [quiet fst snd].
  - destruct (p2pkh_unlocking_script (key_pub k) sg f) as [us x]. cbn [quiet fst snd]. eexists _, _. split; [reflexivity|].
    unfold apply_unlocking_script. rewrite Hn. cbn [or_panic bind]. rewrite !app_nil_r. split; [exact Tl|]. split; [|discriminate].
    intros t' R. injection R as <-. split; [exact Eo|]. cbn [inputs]. now apply belongs_set.
  - eexists _, _. split; [reflexivity|]. rewrite app_nil_r. split; [exact Tl|]. split; [intros t' R; discriminate R|discriminate].
  - exfalso. exact (no_panic _ K).
Qed.
Lemma auto_step t n b : auto_ok t -> (n < length mine)%nat -> nth_error mine n = Some b ->
  exists t' l, l_auto_step s (N.of_nat n) t = (Ok t', l) /\ auto_ok t' /\ total l = (length (key_pub k) + if b then per n else 0)%nat.
Proof.
  intros A Ln Hb. destruct A as (Eo & F). 
  assert (exists oi, nth_error (inputs t) n = Some oi /\ belongs h oi b) as (oi & Hn & Bb).
  { clear -F Hb. revert n Hb. induction F as [|x c l bs H F IH]; intros [|n] E; cbn [nth_error] in *; try discriminate E; [|now apply IH]. injection E as <-. now exists x. }
  destruct (belongs_known _ _ _ Bb) as (i & id & -> & E & L).
  assert (N.of_nat n < 2 ^ 32) as L32 by (unfold nlen in Bn; lia).
  unfold l_auto_step. rewrite Nat2N.id, Hn. change (quiet (or_panic (Some (Some i)))) with (quiet (Ok (Some i))). rewrite lq.
  change (deref (Some i)) with (Ok i). rewrite lq. change (sg_key s) with k. fold h. destruct b.
  - assert (prev_script i = Some (p2pkh h)) as -> by (destruct Bb as (i' & id' & Q & _ & _ & P'); injection Q as <-; exact P').
    rewrite gpkh_p2pkh by apply hash160_length. rewrite lq. cbv zeta. unfold lbind, l_hash160. cbn [fst snd]. fold h. rewrite equals_refl.
    assert (wrap32 (N.of_nat n) = N.of_nat n) as -> by (unfold wrap32; apply N.mod_small; exact L32).
    destruct (auto_sign t (N.of_nat n) i (conj Eo F) L32) as (r & l & -> & T & I & NP); [now rewrite Nat2N.id|exact Bb|].
    assert (forall x, total ([key_pub k] ++ x) = (length (key_pub k) + total x)%nat) as TT by (intros x; rewrite total_app; unfold total; cbn [concat]; now rewrite app_nil_r).
    destruct r as [t'|e|]; cbn [fst snd].
    + eexists _, _. split; [reflexivity|]. split; [now apply I|]. rewrite TT, T, Nat2N.id. reflexivity.
    + eexists _, _. split; [reflexivity|]. split; [now split|]. rewrite TT, T, Nat2N.id. reflexivity.
    + now exfalso.
  - destruct Bb as (_ & i' & Q & NP & NE). injection Q as <-.
    assert (exists p, (match get_public_key_hash (prev_script i) with Ok h => Ok h | Err _ => Ok [] | Panic => Panic end) = Ok p /\ equals (hex_encode p) (hex_encode h) = false) as (p & -> & D).
    { destruct (get_public_key_hash (prev_script i)) as [p|e|]; [|exists []; split; [reflexivity|]|now exfalso].
      - exists p. split; [reflexivity|]. apply equals_neq. intros X. apply hex_encode_inj in X. now subst p.
      - apply equals_neq. intros X. apply hex_encode_inj in X. apply (f_equal (@length byte)) in X. unfold h in X. rewrite hash160_length in X. discriminate X. }
    rewrite lq. cbv zeta. unfold lbind, l_hash160. cbn [fst snd]. fold h. rewrite D. cbn [quiet fst snd].
    eexists _, _. split; [reflexivity|]. split; [now split|]. unfold total. cbn [app concat]. rewrite app_nil_r. lia.
Qed.
Lemma auto_loop c : forall n t, auto_ok t -> (n + c = length mine)%nat ->
  exists t' l, l_auto_loop s (N.of_nat n) c t = (Ok t', l) /\ auto_ok t' /\
    total l = (c * length (key_pub k) + signing_sizes f n (length mine) ws (p2pkh h) (skipn n mine))%nat.
Proof.
  induction c as [|c IH]; intros n t A Q.
  - exists t, []. split; [reflexivity|]. split; [exact A|]. rewrite skipn_all2 by lia. reflexivity.
  - destruct (nth_error mine n) as [b|] eqn:Hb; [|apply nth_error_None in Hb; lia].
    destruct (auto_step t n b A) as (t' & l & E & A' & T); [lia|exact Hb|].
    destruct (IH (S n) t' A') as (t2 & l2 & E2 & A2 & T2); [lia|].
    exists t2, (l ++ l2). split; [|split; [exact A2|] ].
    + cbn [l_auto_loop]. unfold lbind. rewrite E. cbn [fst snd]. replace (N.of_nat n + 1) with (N.of_nat (S n)) by lia. now rewrite E2.
    + rewrite total_app, T, T2. assert (skipn n mine = b :: skipn (S n) mine) as ->.
      { clear -Hb. revert n Hb. induction mine as [|x m IHm]; intros [|n] H; cbn [nth_error] in H; try discriminate H; [injection H as ->; reflexivity|]. cbn [skipn]. rewrite (IHm n H). reflexivity. }
      cbn [signing_sizes]. destruct b; unfold per; lia.
Qed.
End Auto.

(** SignAuto hashes the public key once for every input, and for every input it signs what the flag covers, each time anew. *)
Theorem C107_auto : forall k f t ws mine, f < 256 -> (forall m, key_sign k m <> Panic) ->
  nlen (inputs t) <= 2 ^ 32 -> nlen (outputs t) < 2 ^ 31 ->
  let h := hash160 (key_pub k) in
  Forall2 (belongs h) (inputs t) mine -> Forall2 written (outputs t) ws ->
  let n := length (inputs t) in
  (exists t', internal_sign_auto (mk_signer k f) t = Ok t') /\
  total (snd (l_sign_auto (mk_signer k f) t)) =
    (n * length (key_pub k) + signing_sizes (if f =? 0 then 65 else f)%N 0 n ws (p2pkh h) mine)%nat.
Proof.
  intros k f t ws mine Bf NP Bi Bo h F W n.
  assert (n = length mine) as En by (unfold n; clear -F; induction F; cbn [length]; congruence).
  assert (nlen mine <= 2 ^ 32) as Bm by (unfold nlen in *; lia).
  set (f' := if f =? 0 then 65 else f). assert (f' < 256 /\ (f' =? 0) = false) as [Bf' Zf'].
  { unfold f'. destruct (f =? 0) eqn:Q; [split; [lia|reflexivity]|split; [exact Bf|exact Q] ]. }
  destruct (auto_loop k f' Bf' Zf' NP (outputs t) ws mine W Bo Bm (length mine) 0 t) as (t' & l & E & _ & T); [split; [reflexivity|exact F]|reflexivity|].
  cbn [skipn] in T. change (N.of_nat 0) with 0 in E.
  assert (l_sign_auto (mk_signer k f) t = (Ok t', l)) as Q.
  { unfold l_sign_auto. replace (default_flag (mk_signer k f)) with (mk_signer k f') by (unfold f', default_flag; cbn [sg_flag]; destruct (f =? 0); reflexivity). fold n. now rewrite En. }
  split.
  - exists t'. destruct C107_same_result as (_ & _ & <-). now rewrite Q.
  - rewrite Q. cbn [snd]. rewrite T, En. reflexivity.
Qed.
Print Assumptions C107_auto.

Lemma p2pkh_sizes h : length h = 20%nat -> (156 + length (varint (nlen (p2pkh h))) + length (p2pkh h))%nat = 182%nat.
Proof.
  intros L. assert (length (p2pkh h) = 25%nat) as L25 by (unfold p2pkh; rewrite !app_length; cbn [length]; rewrite L; reflexivity).
  assert (length (varint (nlen (p2pkh h))) = 1%nat) as -> by (unfold nlen; rewrite L25; reflexivity). now rewrite L25.
Qed.
Lemma all_sizes h n ins ws : length h = 20%nat -> sum (hashed_sizes 65 n ins ws (p2pkh h)) = (40 * ins + total ws + 182)%nat.
Proof.
  intros L. unfold hashed_sizes. rewrite (p2pkh_sizes h L). change (any_one_can_pay 65) with false. change (is_all 65) with true. change (is_none 65) with false.
  change (is_single 65) with false. cbn [negb orb app sum fold_right]. lia.
Qed.

(** With the default flag that is the whole transaction for every input signed. *)
Theorem C107_auto_all : forall k f t ws mine, f = 0 \/ f = 65 -> (forall m, key_sign k m <> Panic) ->
  nlen (inputs t) <= 2 ^ 32 -> nlen (outputs t) < 2 ^ 31 ->
  Forall2 (belongs (hash160 (key_pub k))) (inputs t) mine -> Forall2 written (outputs t) ws ->
  let n := length (inputs t) in
  let m := count_occ Bool.bool_dec mine true in
  total (snd (l_sign_auto (mk_signer k f) t)) = (n * length (key_pub k) + m * (40 * n + total ws + 182))%nat.
Proof.
  intros k f t ws mine Hf NP Bi Bo F W n m. assert (f < 256) as Bf by (destruct Hf; subst; lia).
  destruct (C107_auto k f t ws mine Bf NP Bi Bo F W) as (_ & ->). fold n. f_equal.
  replace (if f =? 0 then 65 else f) with 65 by (destruct Hf as [-> | ->]; reflexivity). unfold m.
  enough (forall j, signing_sizes 65 j n ws (p2pkh (hash160 (key_pub k))) mine = (count_occ Bool.bool_dec mine true * (40 * n + total ws + 182))%nat) as Q by apply Q.
  clear. induction mine as [|b r IH]; intros j; [reflexivity|].
  cbn [signing_sizes count_occ]. rewrite IH. destruct b; [rewrite all_sizes by apply hash160_length; destruct (Bool.bool_dec true true) as [_|X]; [lia|now exfalso]|
    destruct (Bool.bool_dec false true) as [X|_]; [discriminate X|reflexivity] ].
Qed.
Print Assumptions C107_auto_all.

Lemma single_sizes h ins mine : length h = 20%nat -> forall ws n, (signing_sizes 195 n ins ws (p2pkh h) mine <= length mine * 182 + total (skipn n ws))%nat.
Proof.
  intros L ws. induction mine as [|b r IH]; intros n; [cbn [signing_sizes length]; lia|]. cbn [signing_sizes length]. specialize (IH (S n)).
  assert (sum (hashed_sizes 195 n ins ws (p2pkh h)) = (match nth_error ws n with Some w => length w | None => 0 end + 182)%nat) as Q.
  { unfold hashed_sizes. rewrite (p2pkh_sizes h L). change (any_one_can_pay 195) with true. change (is_none 195) with false. change (is_single 195) with true.
    cbn [orb app]. destruct (nth_error ws n); cbn [app sum fold_right]; lia. }
  assert (total (skipn n ws) = match nth_error ws n with Some w => length w | None => 0 end + total (skipn (S n) ws))%nat as R.
  { clear. revert n. induction ws as [|w ws IH]; intros [|n]; [reflexivity|reflexivity| |apply IH]. cbn [skipn nth_error]. unfold total. cbn [concat]. apply app_length. }
  rewrite R. destruct b; [rewrite Q|]; lia.
Qed.

(** With ANYONECANPAY and SINGLE it is at most what the public key, 182 bytes for every input, and the outputs make. *)
Theorem C107_linear : forall k t ws mine, (forall m, key_sign k m <> Panic) ->
  nlen (inputs t) <= 2 ^ 32 -> nlen (outputs t) < 2 ^ 31 ->
  Forall2 (belongs (hash160 (key_pub k))) (inputs t) mine -> Forall2 written (outputs t) ws ->
  (total (snd (l_sign_auto (mk_signer k 195) t)) <= length (inputs t) * (length (key_pub k) + 182) + total ws)%nat.
Proof.
  intros k t ws mine NP Bi Bo F W. assert (195 < 256) as Bf by lia.
  destruct (C107_auto k 195 t ws mine Bf NP Bi Bo F W) as (_ & ->). change (if 195 =? 0 then 65 else 195) with 195.
  pose proof (single_sizes (hash160 (key_pub k)) (length (inputs t)) mine (hash160_length _) ws 0) as Q. cbn [skipn] in Q.
  assert (length (inputs t) = length mine) as En by (clear -F; induction F; cbn [length]; congruence). lia.
Qed.
Print Assumptions C107_linear.

(** So what signing hashes is not linear in the size of the transaction: for [n] inputs of one key it is at least [40 * n * n]. *)
Theorem C107_quadratic : forall k t ws, (forall m, key_sign k m <> Panic) ->
  nlen (inputs t) <= 2 ^ 32 -> nlen (outputs t) < 2 ^ 31 ->
  Forall (spends (p2pkh (hash160 (key_pub k)))) (inputs t) -> Forall2 written (outputs t) ws ->
  let n := length (inputs t) in
  total (snd (l_sign_auto (mk_signer k 0) t)) = (n * (40 * n + total ws + 182 + length (key_pub k)))%nat.
Proof.
  intros k t ws NP Bi Bo F W n.
  rewrite (C107_auto_all k 0 t ws (repeat true n) (or_introl eq_refl) NP Bi Bo).
  - fold n. assert (count_occ Bool.bool_dec (repeat true n) true = n) as -> by (induction n as [|j IH]; [reflexivity|cbn [repeat count_occ]; destruct (Bool.bool_dec true true) as [_|X]; [now rewrite IH|now exfalso] ]). lia.
  - unfold n. clear -F. induction F as [|x l H _ IH]; cbn [length repeat]; constructor; assumption.
  - exact W.
Qed.
Print Assumptions C107_quadratic.

(** An input that is refused costs nothing. *)
Definition never {A} (r : res A) : Prop := forall e, r <> Err e.
Lemma never_bind {A B} (r : res A) (f : A -> res B) : never r -> (forall a, never (f a)) -> never (bind r f).
Proof. intros H K e. destruct r as [a|e'|]; cbn [bind]; [apply K|exfalso; now apply (H e')|discriminate]. Qed.
Lemma never_ok {A} (a : A) : never (Ok a).
Proof. intros e. discriminate. Qed.
Lemma never_panic {A} (o : option A) : never (or_panic o).
Proof. intros e. destruct o; discriminate. Qed.
Lemma never_deref {A} (o : option A) : never (deref o).
Proof. intros e. destruct o; discriminate. Qed.
Lemma never_out o : never (output_sighash_bytes o).
Proof. unfold output_sighash_bytes. apply never_bind; [apply never_deref|intros; apply never_ok]. Qed.
Lemma never_prevouts l : forall b, never (prevout_buf b l).
Proof. induction l as [|x l IH]; intros b; cbn [prevout_buf]; [apply never_ok|]. apply never_bind; [apply never_deref|intros; apply IH]. Qed.
Lemma never_sequences l : forall b, never (sequence_buf b l).
Proof. induction l as [|x l IH]; intros b; cbn [sequence_buf]; [apply never_ok|]. apply never_bind; [apply never_deref|intros; apply IH]. Qed.
Lemma never_outs l : forall b, never (outputs_buf b l).
Proof.
  induction l as [|x l IH]; intros b; cbn [outputs_buf]; [apply never_ok|]. apply never_bind; [apply never_deref|intros o].
  apply never_bind; [apply never_out|intros; apply IH].
Qed.
Lemma never_outputs t n : never (outputs_hash t n).
Proof.
  unfold outputs_hash. destruct (n =? -1)%Z; [apply never_bind; [apply never_outs|intros; apply never_ok]|].
  apply never_bind; [apply never_panic|intros oo]. apply never_bind; [apply never_deref|intros o]. apply never_bind; [apply never_out|intros; apply never_ok].
Qed.
Theorem C107_refused : forall t n f e, get_input_signature_hash t n f = Err e -> snd (l_sighash t n f) = [].
Proof.
  intros t n f e H. unfold l_sighash. revert H. unfold get_input_signature_hash, sighash_preimage.
  destruct (nth_error (inputs t) (N.to_nat n)) as [ [i|]|]; [|intros H; discriminate H|intros H; discriminate H].
  change (quiet (or_panic (Some (Some i)))) with (quiet (Ok (Some i))). rewrite lq. change (deref (Some i)) with (Ok i). rewrite lq. cbn [or_panic bind]. change (deref (Some i)) with (Ok i). cbn [bind].
  destruct (equals (prev_txid i) []); [reflexivity|]. destruct (prev_script i) as [ps|]; [|reflexivity].
  intros H. exfalso. revert H. apply never_bind; [|intros; apply never_ok].
  apply never_bind; [destruct (N.land f shAnyOneCanPay =? 0); [apply never_bind; [apply never_prevouts|intros; apply never_ok]|apply never_ok]|intros hp].
  apply never_bind; [destruct ((N.land f shAnyOneCanPay =? 0) && negb (N.land f 31 =? shSingle) && negb (N.land f 31 =? shNone));
    [apply never_bind; [apply never_sequences|intros; apply never_ok]|apply never_ok]|intros hs].
  apply never_bind; [|intros; apply never_ok].
  destruct (negb (N.land f 31 =? shSingle) && negb (N.land f 31 =? shNone)); [apply never_outputs|].
  destruct ((N.land f 31 =? shSingle) && (n <? wrap32 (nlen (outputs t)))); [apply never_outputs|apply never_ok].
Qed.
Print Assumptions C107_refused.

(** Two inputs of one key and two foreign ones, one with an unknown output; one output. *)
Definition hash_pub : bytes := x02 :: repeat x11 32.
Definition hash_key : priv_key := mk_key hash_pub (fun d => Ok (x30 :: firstn 8 d)).
Definition hash_in (s : bytes) : option input := Some (mk_in (hex_encode (repeat x07 32)) 3 900 (Some s) None 4294967295).
Definition hash_tx : tx :=
  mk_tx 2 [hash_in (p2pkh (hash160 hash_pub)); hash_in [x51]; Some (mk_in (hex_encode (repeat x07 32)) 4 0 None None 0); hash_in (p2pkh (hash160 hash_pub))] [Some (mk_out 1000 (Some [x51; x51]))] 0.
Lemma hash_spends s : spends s (hash_in s).
Proof. eexists _, (repeat x07 32). split; [reflexivity|]. split; [apply hex_dec_encode|]. split; reflexivity. Qed.
Example C107_example :
  Forall2 (belongs (hash160 hash_pub)) (inputs hash_tx) [true; false; false; true] /\
  Forall2 written (outputs hash_tx) [map n2b [232; 3; 0; 0; 0; 0; 0; 0; 2; 81; 81] ] /\
  (forall m, key_sign hash_key m <> Panic) /\
  total (snd (l_sign_auto (mk_signer hash_key 0) hash_tx)) = 838%nat /\
  map (@length byte) (snd (l_sighash hash_tx 0 0x41)) = [144; 16; 11; 182]%nat /\
  map (@length byte) (snd (l_sighash hash_tx 1 0xc3)) = [158]%nat /\
  map (@length byte) (snd (l_sighash hash_tx 1 0x42)) = [144; 158]%nat.
Proof.
  split; [|split; [|split; [|split; [|split; [|split] ] ] ] ].
  - constructor; [apply hash_spends|]. constructor; [|constructor; [|constructor; [apply hash_spends|constructor] ] ].
    + split; [destruct (hash_spends [x51]) as (i & id & Q & E & L & _); now exists i, id|]. eexists. split; [reflexivity|]. split; discriminate.
    + split; [eexists _, (repeat x07 32); split; [reflexivity|]; split; [apply hex_dec_encode|reflexivity]|]. eexists. split; [reflexivity|]. split; discriminate.
  - constructor; [|constructor]. eexists. split; reflexivity.
  - intros m. discriminate.
  - vm_compute. reflexivity.
  - vm_compute. reflexivity.
  - vm_compute. reflexivity.
  - vm_compute. reflexivity.
Qed.

(** What is hashed of the inputs and outputs for the next input is what was hashed for the last: signing changes none of it. *)
Definition alike (a b : option input) : Prop :=
  match a, b with
  | Some i, Some j => prev_txid i = prev_txid j /\ prev_index i = prev_index j /\ sequence i = sequence j
  | None, None => True
  | _, _ => False
  end.
Definition same_parts (t t' : tx) : Prop := Forall2 alike (inputs t) (inputs t') /\ outputs t = outputs t'.
Lemma same_refl t : same_parts t t.
Proof. split; [|reflexivity]. induction (inputs t) as [|[i|] l IH]; constructor; try exact IH; [now repeat split|exact I]. Qed.
Lemma alike_trans a b c : alike a b -> alike b c -> alike a c.
Proof. destruct a, b, c; cbn; intros H K; try contradiction; [|exact I]. destruct H as (-> & -> & ->). exact K. Qed.
Lemma same_trans t u v : same_parts t u -> same_parts u v -> same_parts t v.
Proof.
  intros [A B] [C D]. split; [|congruence]. revert C. generalize (inputs v). clear -A. induction A as [|x y l m H _ IH]; intros w C; inversion C as [|? z ? w' K C']; subst; constructor; [now apply (alike_trans x y z)|now apply IH].
Qed.
Lemma same_apply t n u t' : apply_unlocking_script t n u = Ok t' -> same_parts t t'.
Proof.
  unfold apply_unlocking_script. destruct (nth_error (inputs t) (N.to_nat n)) as [ [i|]|] eqn:E; cbn [or_panic bind]; intros H; [|discriminate H|discriminate H].
  injection H as <-. split; [|reflexivity]. cbn [inputs]. destruct (same_refl t) as [R _]. revert R E. generalize (inputs t). intros l. revert l. induction (N.to_nat n) as [|k IH]; intros [|x l] R E; try discriminate E; cbn [nth_error set_nth] in *; inversion R; subst.
  - injection E as ->. constructor; [now repeat split|assumption].
  - constructor; [assumption|now apply IH].
Qed.
Lemma same_internal s n t t' : internal_sign s n t = Ok t' -> same_parts t t'.
Proof.
  unfold internal_sign. destruct (get_input_signature_hash t n (sg_flag (default_flag s))) as [sh|e|]; cbn [bind]; intros H; try discriminate H.
  destruct (key_sign (sg_key (default_flag s)) (reverse_bytes sh)) as [sg|e|]; cbn [bind] in H; try discriminate H.
  destruct (p2pkh_unlocking_script (key_pub (sg_key (default_flag s))) sg (sg_flag (default_flag s))) as [us x]. exact (same_apply _ _ _ _ H).
Qed.
Lemma same_auto_step s i t t' : sign_auto_step s i t = Ok t' -> same_parts t t'.
Proof.
  unfold sign_auto_step. destruct (or_panic (nth_error (inputs t) (N.to_nat i))) as [oi|e|]; cbn [bind]; intros H; try discriminate H.
  destruct (deref oi) as [inp|e|]; cbn [bind] in H; try discriminate H.
  destruct (match get_public_key_hash (prev_script inp) with Ok h => Ok h | Err _ => Ok [] | Panic => Panic end) as [p|e|]; cbn [bind] in H; try discriminate H.
  destruct (equals (hex_encode p) (hex_encode (hash160 (key_pub (sg_key s))))); [|injection H as <-; apply same_refl].
  destruct (internal_sign s (wrap32 i) t) as [u|e|] eqn:E; try discriminate H; injection H as <-; [exact (same_internal _ _ _ _ E)|apply same_refl].
Qed.
Lemma same_auto s n : forall i t t', sign_auto_loop s i n t = Ok t' -> same_parts t t'.
Proof.
  induction n as [|n IH]; intros i t t' H; cbn [sign_auto_loop] in H; [injection H as <-; apply same_refl|].
  destruct (sign_auto_step s i t) as [u|e|] eqn:E; cbn [bind] in H; try discriminate H. apply (same_trans t u t'); [exact (same_auto_step _ _ _ _ E)|exact (IH _ _ _ H)].
Qed.
Theorem C107_again : forall s n t t', internal_sign s n t = Ok t' \/ internal_sign_auto s t = Ok t' ->
  l_prevout_hash t' = l_prevout_hash t /\ l_sequence_hash t' = l_sequence_hash t /\ forall z, l_outputs_hash t' z = l_outputs_hash t z.
Proof.
  intros s n t t' H. assert (same_parts t t') as [F O] by (destruct H as [H|H]; [exact (same_internal _ _ _ _ H)|exact (same_auto _ _ _ _ _ H)]).
  assert (forall b, prevout_buf b (inputs t') = prevout_buf b (inputs t)) as P.
  { clear -F. induction F as [|x y l m A _ IH]; intros b; [reflexivity|]. destruct x as [i|], y as [j|]; cbn in A; try contradiction; cbn [prevout_buf]; [|reflexivity].
    destruct A as (A & B & _). change (deref (Some i)) with (Ok i). change (deref (Some j)) with (Ok j). cbn [bind]. rewrite A, B. apply IH. }
  assert (forall b, sequence_buf b (inputs t') = sequence_buf b (inputs t)) as Q.
  { clear -F. induction F as [|x y l m A _ IH]; intros b; [reflexivity|]. destruct x as [i|], y as [j|]; cbn in A; try contradiction; cbn [sequence_buf]; [|reflexivity].
    destruct A as (_ & _ & A). change (deref (Some i)) with (Ok i). change (deref (Some j)) with (Ok j). cbn [bind]. rewrite A. apply IH. }
  split; [unfold l_prevout_hash; now rewrite P|]. split; [unfold l_sequence_hash; now rewrite Q|]. intros z. unfold l_outputs_hash. now rewrite <- O.
Qed.
Print Assumptions C107_again.
