(** C98: what someone without the key learns from Decrypt's failures. *)
From Verif Require Import P_Oracle T_Encryption T_Cut.
From Coq Require Import Lia ZifyBool ZifyNat ZifyN.

(** ** the text *)
Fixpoint chunks {A} (n k : nat) (l : list A) : list (list A) :=
  match k with O => [] | S k' => firstn n l :: chunks n k' (skipn n l) end.
Lemma chunks_concat {A} n (L : list (list A)) : Forall (fun l => length l = n) L -> chunks n (length L) (concat L) = L.
Proof.
  induction 1 as [|l L Hl _ IH]; [reflexivity|]. cbn [length chunks concat].
  rewrite firstn_app, skipn_app, Hl, Nat.sub_diag, firstn_all2, skipn_all2, app_nil_r by lia. cbn [app skipn firstn]. now rewrite IH.
Qed.
Definition asks (c : bytes) : list bytes := concat (map (fun k => map (question c k) deltas) (seq 0 (length c - 16))).
Definition recover (c : bytes) (l : list bool) : bytes :=
  match b64_decode (map guess (chunks 255 (length c - 16) l)) with Ok t => t | _ => [] end.

Lemma map_concat {A B} (f : A -> B) L : map f (concat L) = concat (map (map f) L).
Proof. induction L as [|l L IH]; [reflexivity|]. cbn [concat map]. now rewrite map_app, IH. Qed.
Lemma nth_all (l : bytes) : map (fun k => nth k l x00) (seq 0 (length l)) = l.
Proof.
  induction l as [|x l IH]; [reflexivity|]. cbn [length seq map nth]. f_equal. rewrite <- seq_shift, map_map. exact IH.
Qed.

Lemma recovered E iv text c : cipher16 E -> length iv = 16%nat -> encrypt (mk_block 16 E) (Ok iv) text = Ok c ->
  recover c (map (answers E) (asks c)) = text.
Proof.
  intros HE LI H. destruct (encrypt_plain E iv text c HE LI H) as (LC & _ & _ & LL).
  unfold recover, asks. rewrite map_concat, map_map. set (n := (length c - 16)%nat).
  set (L := map (fun k => map (answers E) (map (question c k) deltas)) (seq 0 n)).
  assert (length L = n) as LN by (unfold L; now rewrite map_length, seq_length). rewrite <- LN at 1.
  rewrite chunks_concat.
  2:{ apply Forall_forall. intros l I. apply in_map_iff in I. destruct I as (k & <- & _). now rewrite !map_length. }
  assert (map guess L = b64_encode text) as ->; [|now rewrite b64_round].
  unfold L. rewrite map_map. rewrite <- (nth_all (b64_encode text)). replace (length (b64_encode text)) with n by (unfold n; lia).
  apply map_ext_in. intros k I. apply in_seq in I. rewrite map_map. apply (char_ok E iv text c k HE LI H). unfold n in I. lia.
Qed.

Lemma delta_nz d : In d deltas -> d <> x00.
Proof.
  intros I -> . assert (forallb (fun d => negb (byte_eqb d x00)) deltas = true) as F by (vm_compute; reflexivity).
  rewrite forallb_forall in F. apply F in I. discriminate I.
Qed.
Lemma alter_ne s d (y : bytes) : (s < length y)%nat -> d <> x00 -> alter s d y <> y.
Proof.
  intros L D Q. apply (f_equal (fun l => nth s l x00)) in Q. unfold alter in Q. rewrite app_nth2 in Q by (rewrite firstn_length; lia).
  rewrite firstn_length, Nat.min_l, Nat.sub_diag in Q by lia. cbn [nth] in Q. apply D. apply b2n_inj. apply (f_equal b2n) in Q. rewrite b2n_bxor in Q.
  apply (f_equal (N.lxor (b2n (nth s y x00)))) in Q. rewrite <- N.lxor_assoc, N.lxor_nilpotent, N.lxor_0_l in Q. exact Q.
Qed.
Lemma alter_len s d (y : bytes) : (s < length y)%nat -> length (alter s d y) = length y.
Proof. intros L. unfold alter. rewrite app_length. cbn [length]. rewrite firstn_length, skipn_length. lia. Qed.

(** There is a list of questions, made from the ciphertext alone, and a way to compute the text from the
    ciphertext and the yes/no answers: whatever the key and the initial bytes were. 255 questions for each
    character; each has at most 32 bytes, and none is the ciphertext itself. *)
Theorem C98_text_recovered : exists (asks : bytes -> list bytes) (recover : bytes -> list bool -> bytes),
  forall E iv text c, cipher16 E -> length iv = 16%nat -> encrypt (mk_block 16 E) (Ok iv) text = Ok c ->
    recover c (map (answers E) (asks c)) = text /\
    length (asks c) = (255 * (length c - 16))%nat /\
    Forall (fun q => q <> c /\ (length q <= 32)%nat) (asks c).
Proof.
  exists asks, recover. intros E iv text c HE LI H. split; [exact (recovered E iv text c HE LI H)|].
  destruct (encrypt_plain E iv text c HE LI H) as (LC & _ & _ & LL). pose proof (text_len _ _ (encode_text text)) as LT.
  split.
  - unfold asks. generalize (seq_length (length c - 16) 0). generalize (seq 0 (length c - 16)). intros l <-.
    induction l as [|k l IH]; [reflexivity|]. cbn [map concat length]. rewrite app_length, IH, map_length. change (length deltas) with 255%nat. lia.
  - apply Forall_forall. intros q I. unfold asks in I. apply in_concat in I. destruct I as (l & I1 & I2). apply in_map_iff in I1. destruct I1 as (k & <- & K).
    apply in_map_iff in I2. destruct I2 as (d & <- & D). apply delta_nz in D. apply in_seq in K.
    assert (k mod 4 < 4)%nat as S4 by (apply Nat.mod_upper_bound; lia).
    set (a := (k / 16)%nat). set (r := (k mod 16 / 4)%nat).
    assert (k / 4 = 4 * a + r)%nat as K4. { unfold a, r. pose proof (Nat.div_mod k 16). pose proof (Nat.div_mod k 4). pose proof (Nat.div_mod (k mod 16) 4). pose proof (Nat.mod_upper_bound k 16). pose proof (Nat.mod_upper_bound k 4). pose proof (Nat.mod_upper_bound (k mod 16) 4). lia. }
    assert (r < 4)%nat as R4 by (unfold r; pose proof (Nat.mod_upper_bound k 16 ltac:(lia)); apply Nat.div_lt_upper_bound; lia).
    assert (4 * (k / 4) + 4 <= length (b64_encode text))%nat as QL.
    { rewrite LT. pose proof (Nat.div_mod k 4 ltac:(lia)). lia. }
    assert (length (q_quad c k) = 4%nat) as LY by (unfold q_quad; rewrite firstn_length, skipn_length; lia).
    assert (length (q_base c k) = (16 + 4 * r)%nat) as LB by (unfold q_base; fold a r; rewrite app_length, !firstn_length, !skipn_length; lia).
    assert (length (question c k d) = (20 + 4 * r)%nat) as LQ by (unfold question; rewrite app_length, alter_len, LB, LY by lia; lia).
    split; [|lia]. intros Q. assert (a = 0)%nat as A0 by (pose proof (f_equal (@length byte) Q); lia).
    assert (q_base c k ++ q_quad c k = c) as QC.
    { assert (length c = (20 + 4 * r)%nat) as Lc by (pose proof (f_equal (@length byte) Q); lia).
      unfold q_base, q_quad. fold a r. rewrite K4, A0. replace (16 * 0)%nat with 0%nat by lia. replace (0 + 16)%nat with 16%nat by lia. replace (4 * (4 * 0 + r))%nat with (4 * r)%nat by lia. rewrite skipn_O, <- app_assoc.
      rewrite (firstn_all2 (n:=4)) by (rewrite skipn_length; lia).
      replace (skipn (16 + 4 * r) c) with (skipn (4 * r) (skipn 16 c)) by (rewrite skip_skip; f_equal; lia). now rewrite firstn_skipn, firstn_skipn. }
    unfold question in Q. rewrite <- QC in Q at 3. apply app_inv_head in Q. revert Q. apply alter_ne; [lia|exact D].
Qed.
Print Assumptions C98_text_recovered.

(** ** the cipher itself *)
Fixpoint words (n : nat) : list bytes :=
  match n with O => [[]] | S n' => flat_map (fun b => map (cons b) (words n')) (map n2b (map N.of_nat (seq 0 256))) end.
Lemma all_bytes b : In b (map n2b (map N.of_nat (seq 0 256))).
Proof.
  apply in_map_iff. exists (b2n b). split; [apply n2b_b2n|]. apply in_map_iff. exists (N.to_nat (b2n b)). split; [apply N2Nat.id|]. apply in_seq. pose proof (b2n_lt b). lia.
Qed.
Lemma words_all n : forall w, length w = n -> In w (words n).
Proof.
  induction n as [|n IH]; intros [|b w] L; try discriminate L; cbn [words]; [now left|]. apply in_flat_map. exists b. split; [apply all_bytes|]. apply in_map. apply IH. now injection L.
Qed.
Lemma words_len n : forall w, In w (words n) -> length w = n.
Proof.
  induction n as [|n IH]; intros w I; cbn [words] in I; [destruct I as [<-|[]]; reflexivity|]. apply in_flat_map in I. destruct I as (b & _ & I). apply in_map_iff in I. destruct I as (v & <- & I). cbn [length]. now rewrite (IH v I).
Qed.

Definition yes (l : list bool) : nat := length (filter (fun b => b) l).
(** a quantum that is accepted, and in more than one way: not four line ends *)
Definition good (o : bytes -> bool) (base y : bytes) : bool := o (base ++ y) && Nat.leb 2 (yes (map (fun d => o (base ++ alter 0 d y)) deltas)).
Definition learn_quad_in (W : list bytes) (o : bytes -> bool) (P known : bytes) : bytes :=
  let base := P ++ xor_bytes (repeat x41 (length known)) known in
  match find (good o base) W with
  | Some y => xor_bytes y (quad_guess o base y)
  | None => [] end.
Definition learn_quad := learn_quad_in (words 4).
Definition learn (o : bytes -> bool) (P : bytes) : bytes :=
  let k1 := learn_quad o P [] in
  let k2 := k1 ++ learn_quad o P k1 in
  let k3 := k2 ++ learn_quad o P k2 in
  k3 ++ learn_quad o P k3.

Lemma xor_self_cancel a : forall b, length a = length b -> xor_bytes (xor_bytes a b) b = a.
Proof. induction a as [|x a IH]; intros [|y b] L; try discriminate L; [reflexivity|]. cbn [xor_bytes]. fold (bxor x y) (bxor (bxor x y) y). rewrite bxor_cancel, IH; [reflexivity|]. now injection L. Qed.
Lemma xor_other a : forall b, length a = length b -> xor_bytes a (xor_bytes a b) = b.
Proof. induction a as [|x a IH]; intros [|y b] L; try discriminate L; [reflexivity|]. cbn [xor_bytes]. fold (bxor x y) (bxor x (bxor x y)). rewrite (bxor_comm x (bxor x y)), (bxor_comm x y), bxor_cancel, IH; [reflexivity|]. now injection L. Qed.
Lemma xor_first a : forall b, xor_bytes a b = xor_bytes a (firstn (length a) b).
Proof. induction a as [|x a IH]; intros [|y b]; try reflexivity. cbn [length firstn xor_bytes]. now rewrite <- IH. Qed.

Lemma nl_count a : is_nl a = true -> yes (map (fun d => is_nl (bxor a d)) deltas) = 1%nat.
Proof. destruct a; try discriminate; intros _; vm_compute; reflexivity. Qed.
Lemma succ_A : succ (b64_decode [x41; x41; x41; x41]) = true.
Proof. reflexivity. Qed.
Lemma count_A : Nat.leb 2 (yes (map (fun d => isd (bxor x41 d)) deltas)) = true.
Proof. vm_compute. reflexivity. Qed.

Lemma learn_quad_in_ok W E P r : (forall w, length w = 4%nat -> In w W) -> (forall w, In w W -> length w = 4%nat) ->
  cipher16 E -> length P = 16%nat -> (r < 4)%nat ->
  learn_quad_in W (answers E) P (firstn (4 * r) (E P)) = firstn 4 (skipn (4 * r) (E P)).
Proof.
  intros WA WL HE LP R. pose proof (HE P LP) as LE. unfold learn_quad_in. cbv zeta.
  set (known := firstn (4 * r) (E P)). assert (length known = (4 * r)%nat) as LK by (unfold known; rewrite firstn_length; lia).
  set (z := xor_bytes (repeat x41 (length known)) known). assert (length z = (4 * r)%nat) as LZ by (unfold z; rewrite xor_length, repeat_length; [exact LK|now rewrite repeat_length]).
  assert (xor_bytes z (E P) = repeat x41 (4 * r)) as XZ.
  { rewrite xor_first, LZ. fold known. unfold z. rewrite xor_self_cancel by now rewrite repeat_length. now rewrite LK. }
  assert (forallb isd (xor_bytes z (E P)) = true) as DZ by (rewrite XZ; apply forallb_forall; intros x I; apply repeat_spec in I; subst; reflexivity).
  destruct (four (skipn (4 * r) (E P))) as (k0 & k1 & k2 & k3 & kr & K); [rewrite skipn_length; lia|].
  assert (forall a b c d, answers E ((P ++ z) ++ [a; b; c; d]) = succ (b64_decode [bxor a k0; bxor b k1; bxor c k2; bxor d k3])) as AN.
  { intros a b c d. rewrite <- app_assoc, (quad_answer E P z a b c d r) by assumption. now rewrite K. }
  assert (exists y, find (good (answers E) (P ++ z)) W = Some y) as (y & FY).
  { destruct (find (good (answers E) (P ++ z)) W) as [y|] eqn:F; [now exists y|exfalso].
    pose proof (find_none _ _ F [bxor x41 k0; bxor x41 k1; bxor x41 k2; bxor x41 k3] (WA [bxor x41 k0; bxor x41 k1; bxor x41 k2; bxor x41 k3] eq_refl)) as N. unfold good in N.
    rewrite AN, !bxor_cancel in N. rewrite succ_A, andb_true_l in N.
    rewrite (map_ext _ (fun d => isd (bxor x41 d))) in N.
    2:{ intros d. unfold alter. cbn [firstn nth app skipn]. rewrite AN, !bxor_cancel. rewrite bxor_assoc, (bxor_comm d k0), <- bxor_assoc, bxor_cancel. rewrite quad_ok. cbn [all_nl forallb is_nl andb]. rewrite andb_false_r.
        unfold quad_valid. change (isd x41) with true. change (isdp x41) with true. cbn [andb orb]. now rewrite !andb_true_r. }
    rewrite count_A in N. discriminate N. }
  rewrite FY. apply find_some in FY. destruct FY as [IY G]. apply WL in IY.
  destruct y as [|a [|b [|c [|d [|e l]]]]]; try discriminate IY. unfold good in G. apply andb_true_iff in G as [G1 G2]. rewrite AN, quad_ok in G1.
  assert (quad_valid (bxor a k0) (bxor b k1) (bxor c k2) (bxor d k3) = true) as V.
  { destruct (all_nl _) eqn:AL in G1; [exfalso|exact G1]. cbn [all_nl forallb] in AL. apply andb_true_iff in AL as [N0 AL]. apply andb_true_iff in AL as [N1 AL]. apply andb_true_iff in AL as [N2 AL]. apply andb_true_iff in AL as [N3 _].
    rewrite (map_ext _ (fun x => is_nl (bxor (bxor a k0) x))), nl_count in G2; [discriminate G2|exact N0|].
    intros x. unfold alter. cbn [firstn nth app skipn]. rewrite AN, quad_ok. cbn [all_nl forallb]. rewrite N1, N2, N3. unfold quad_valid. rewrite (isd_nl _ N1), andb_false_r. cbn [andb]. rewrite orb_false_r, andb_true_r.
    f_equal. rewrite !bxor_assoc. f_equal. apply bxor_comm. }
  rewrite (quad_guess_ok E P z [a; b; c; d] r (bxor a k0) (bxor b k1) (bxor c k2) (bxor d k3) LE LP LZ R eq_refl DZ); [|now rewrite K|exact V].
  rewrite K. cbn [firstn xor_bytes]. fold (bxor a (bxor a k0)) (bxor b (bxor b k1)) (bxor c (bxor c k2)) (bxor d (bxor d k3)).
  rewrite !(bxor_comm _ (bxor _ _)), (bxor_comm a), (bxor_comm b), (bxor_comm c), (bxor_comm d), !bxor_cancel. reflexivity.
Qed.

Lemma learn_quad_ok E P r : cipher16 E -> length P = 16%nat -> (r < 4)%nat ->
  learn_quad (answers E) P (firstn (4 * r) (E P)) = firstn 4 (skipn (4 * r) (E P)).
Proof. exact (learn_quad_in_ok (words 4) E P r (words_all 4) (words_len 4)). Qed.
Global Opaque words learn_quad.

Lemma learn_ok E P : cipher16 E -> length P = 16%nat -> learn (answers E) P = E P.
Proof.
  intros HE LP. pose proof (HE P LP) as LE. unfold learn. cbv zeta.
  assert (forall r, firstn (4 * r) (E P) ++ firstn 4 (skipn (4 * r) (E P)) = firstn (4 * S r) (E P)) as ST.
  { intros r. rewrite <- (firstn_skipn (4 * r) (firstn (4 * S r) (E P))), firstn_firstn, skipn_firstn_comm. f_equal; f_equal; lia. }
  pose proof (learn_quad_ok E P 0 HE LP ltac:(lia)) as Q0. change (4 * 0)%nat with 0%nat in Q0. rewrite skipn_O in Q0. change (firstn 0 (E P)) with (@nil byte) in Q0. rewrite Q0. clear Q0. change 4%nat with (4 * 1)%nat.
  rewrite (learn_quad_ok E P 1 HE LP ltac:(lia)), ST. rewrite (learn_quad_ok E P 2 HE LP ltac:(lia)), ST. rewrite (learn_quad_ok E P 3 HE LP ltac:(lia)), ST.
  apply firstn_all2. lia.
Qed.

(** Whoever may ask Decrypt whether it accepts messages can compute the block cipher, on any block, without
    the key. *)
Theorem C98_cipher_learned : exists learn : (bytes -> bool) -> bytes -> bytes,
  forall E P, cipher16 E -> length P = 16%nat -> learn (answers E) P = E P.
Proof. exists learn. exact learn_ok. Qed.
Print Assumptions C98_cipher_learned.

Lemma encrypt_ext E F fuel : (forall P, length P = 16%nat -> F P = E P) -> cipher16 E -> forall prev t, length prev = 16%nat ->
  cfb_encrypt fuel F 16 prev t = cfb_encrypt fuel E 16 prev t.
Proof.
  intros X HE. induction fuel as [|f IH]; intros prev t LP; [reflexivity|]. cbn [cfb_encrypt]. destruct t as [|x t]; [reflexivity|]. cbv zeta. rewrite X by exact LP.
  set (c := xor_bytes (firstn 16 (x :: t)) (E prev)). destruct (Nat.leb_spec 16 (length (x :: t))) as [L|L].
  - f_equal. apply IH. unfold c. rewrite xor_length; [rewrite firstn_length; lia|]. rewrite firstn_length, (HE prev LP). lia.
  - rewrite (skipn_all2 (n:=16)) by lia. f_equal. destruct f; reflexivity.
Qed.
Lemma decrypt_ext E F fuel : (forall P, length P = 16%nat -> F P = E P) -> forall prev t, length prev = 16%nat ->
  cfb_decrypt fuel F 16 prev t = cfb_decrypt fuel E 16 prev t.
Proof.
  intros X. induction fuel as [|f IH]; intros prev t LP; [reflexivity|]. cbn [cfb_decrypt]. destruct t as [|x t]; [reflexivity|]. rewrite X by exact LP.
  destruct (Nat.leb_spec 16 (length (x :: t))) as [L|L].
  - f_equal. apply IH. rewrite firstn_length. lia.
  - rewrite (skipn_all2 (n:=16)) by lia. f_equal. destruct f; reflexivity.
Qed.

(** So whatever is encrypted or decrypted with the key can be encrypted and decrypted without it. *)
Theorem C98_key_not_needed : exists without_key : (bytes -> bool) -> bytes -> bytes,
  forall E, cipher16 E ->
    (forall iv text, length iv = 16%nat -> encrypt (mk_block 16 (without_key (answers E))) (Ok iv) text = encrypt (mk_block 16 E) (Ok iv) text) /\
    (forall c, decrypt (mk_block 16 (without_key (answers E))) c = decrypt (mk_block 16 E) c).
Proof.
  exists learn. intros E HE. assert (forall P, length P = 16%nat -> learn (answers E) P = E P) as X by (intros P LP; now apply learn_ok). split.
  - intros iv text L. unfold encrypt. cbn [bind blk_size blk_enc]. rewrite L. cbn [Nat.eqb negb]. now rewrite (encrypt_ext E (learn (answers E)) _ X HE) by exact L.
  - intros c. unfold decrypt. destruct (Nat.ltb_spec (length c) 16) as [Lc|Lc]; [reflexivity|]. cbn [blk_size blk_enc Nat.eqb negb].
    now rewrite (decrypt_ext E (learn (answers E)) _ X) by (rewrite firstn_length; lia).
Qed.
Print Assumptions C98_key_not_needed.

(** ** refuted: a ciphertext keeps its text from those who only see whether Decrypt fails *)

(** Any property of the text can be found out: encrypting two chosen texts gives ciphertexts that can be told apart. *)
Theorem C98_secret_refuted : forall p : bytes -> bool, exists judge : (bytes -> bool) -> bytes -> bool,
  forall E iv text c, cipher16 E -> length iv = 16%nat -> encrypt (mk_block 16 E) (Ok iv) text = Ok c -> judge (answers E) c = p text.
Proof. intros p. exists (fun o c => p (recover c (map o (asks c)))). intros E iv text c HE LI H. now rewrite (recovered E iv text c HE LI H). Qed.
Print Assumptions C98_secret_refuted.

(** a cipher, initial bytes, and the text "ok": 1020 answers, from which "ok" is computed *)
Definition ex98_E (b : bytes) : bytes := map (fun x => bxor x x5a) (rev b).
Definition ex98_iv : bytes := map n2b (map N.of_nat (seq 100 16)).
Example C98_example : cipher16 ex98_E /\ exists c, encrypt (mk_block 16 ex98_E) (Ok ex98_iv) (str "ok") = Ok c /\
  length (asks c) = 1020%nat /\ count_occ Bool.bool_dec (map (answers ex98_E) (asks c)) true = 254%nat /\
  recover c (map (answers ex98_E) (asks c)) = str "ok".
Proof.
  split; [intros b L; unfold ex98_E; rewrite map_length, rev_length; exact L|]. eexists. split; [vm_compute; reflexivity|]. split; [vm_compute; reflexivity|]. split; vm_compute; reflexivity.
Qed.
