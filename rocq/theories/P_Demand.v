(** Proofs for C78, C79. *)
From Verif Require Export S_Demand P_Pay P_Push P_Script.
From Coq Require Import ZifyBool ZifyNat ZifyN.

Lemma announces_low h n : announces h n -> exists c r, h = c :: r /\ b2n c <= 78.
Proof. intros [c L|c|l L|l L]; eexists _, _; (split; [reflexivity|]); [lia|vm_compute; discriminate|vm_compute; discriminate|vm_compute; discriminate]. Qed.

Lemma word_high chk c st st1 : word chk c st st1 -> 81 <= b2n c.
Proof.
  intros H. destruct H; try (vm_compute; discriminate). rewrite b2n_n2b_small by lia. lia.
Qed.

Lemma app_same {A} (a b c d : list A) : length a = length c -> a ++ b = c ++ d -> a = c /\ b = d.
Proof.
  revert c. induction a as [|x a IH]; intros [|y c] L E; try discriminate; [now split|]. cbn [app] in E. injection E as -> E.
  destruct (IH c) as [-> ->]; [now injection L|assumption|now split].
Qed.

Lemma announces_prefix h n h' n' r r' : announces h n -> announces h' n' -> h ++ r = h' ++ r' -> h = h' /\ n = n' /\ r = r'.
Proof.
  intros A B E.
  destruct A as [c L|c|l L|l L], B as [c' L'|c'|l' L'|l' L']; cbn [app] in E; try discriminate E; try (injection E as E1 E2; subst; (vm_compute in L; exfalso; apply L; reflexivity) || (vm_compute in L'; exfalso; apply L'; reflexivity)).
  - injection E as -> ->. now repeat split.
  - injection E as -> ->. now repeat split.
  - injection E as E. apply app_same in E as [-> ->]; [now repeat split|congruence].
  - injection E as E. apply app_same in E as [-> ->]; [now repeat split|congruence].
Qed.

Lemma exec_nil_inv chk st st' : exec chk [] st st' -> st' = st.
Proof.
  intros H. inversion H as [|h d r ? ? A X E| |]; [reflexivity|]. apply announces_low in A as (c & q & -> & _). discriminate.
Qed.

Lemma exec_word_inv chk c r st st' : 79 <= b2n c -> c <> x6a -> exec chk (c :: r) st st' -> exists st1, word chk c st st1 /\ exec chk r st1 st'.
Proof.
  intros L N H. inversion H as [|h d q ? ? A X E| |]; subst; [|eauto|congruence].
  apply announces_low in A as (x & y & -> & A). cbn [app] in E. injection E as -> _. lia.
Qed.

Lemma exec_push_inv chk h d r st st' : announces h (nlen d) -> exec chk (h ++ d ++ r) st st' -> exec chk r (d :: st) st'.
Proof.
  intros A H. inversion H as [st0 E|h' d' r' ? ? A' X E|c q ? st1 ? W X E|q st0 E]; subst.
  - apply announces_low in A as (x & y & -> & _). discriminate.
  - destruct (announces_prefix _ _ _ _ _ _ A' A E) as (_ & En & E'). apply app_same in E' as [-> ->]; [assumption|unfold nlen in En; unfold bytes in *; lia].
  - apply word_high in W. apply announces_low in A as (x & y & -> & A). cbn [app] in E. injection E as -> _. lia.
  - apply announces_low in A as (x & y & -> & A). cbn [app] in E. injection E as <- _. vm_compute in A. exfalso. now apply A.
Qed.

Lemma exec_push_iff chk h d r st st' : announces h (nlen d) -> (exec chk (h ++ d ++ r) st st' <-> exec chk r (d :: st) st').
Proof. intros A. split; [now apply exec_push_inv|now apply ex_push]. Qed.

Lemma exec_word_iff chk c r st st' : 79 <= b2n c -> c <> x6a -> (exec chk (c :: r) st st' <-> exists st1, word chk c st st1 /\ exec chk r st1 st').
Proof. intros L N. split; [now apply exec_word_inv|]. intros (st1 & W & X). eapply ex_word; eassumption. Qed.

Lemma exec_nil_iff chk st st' : exec chk [] st st' <-> st' = st.
Proof. split; [apply exec_nil_inv|intros ->; constructor]. Qed.

Lemma num_not c k : b2n c < 81 \/ 96 < b2n c -> 1 <= k <= 16 -> n2b (80 + k) <> c.
Proof. intros L K <-. rewrite b2n_n2b_small in L by lia. lia. Qed.

Ltac not_num H := exfalso; revert H; apply num_not; [vm_compute; (left; reflexivity) || (right; reflexivity)|assumption].

Lemma dup_iff chk st st1 : word chk x76 st st1 <-> exists x r, st = x :: r /\ st1 = x :: x :: r.
Proof. split; [|intros (x & r & -> & ->); constructor]. intros H. inversion H; subst; try (eexists _, _; split; reflexivity). not_num H0. Qed.
Lemma hash_iff chk st st1 : word chk xa9 st st1 <-> exists x r, st = x :: r /\ st1 = ripemd160 (sha256 x) :: r.
Proof. split; [|intros (x & r & -> & ->); constructor]. intros H. inversion H; subst; try (eexists _, _; split; reflexivity). not_num H0. Qed.
Lemma eqv_iff chk st st1 : word chk x88 st st1 <-> exists x, st = x :: x :: st1.
Proof. split; [|intros (x & ->); constructor]. intros H. inversion H; subst; try (eexists; reflexivity). not_num H0. Qed.
Lemma eq_iff chk st st1 : word chk x87 st st1 <-> exists x y r, st = x :: y :: r /\ ((x = y /\ st1 = [x01] :: r) \/ (x <> y /\ st1 = [] :: r)).
Proof.
  split.
  - intros H. inversion H; subst; [not_num H0| |]; (eexists _, _, _; split; [reflexivity|]); tauto.
  - intros (x & y & r & -> & [(-> & ->)|(N & ->)]); now constructor.
Qed.
Lemma sig_iff chk st st1 : word chk xac st st1 <-> exists pub sg r, st = pub :: sg :: r /\ ((chk sg pub /\ st1 = [x01] :: r) \/ (~ chk sg pub /\ st1 = [] :: r)).
Proof.
  split.
  - intros H. inversion H; subst; [not_num H0| |]; (eexists _, _, _; split; [reflexivity|]); tauto.
  - intros (x & y & r & -> & [(N & ->)|(N & ->)]); now constructor.
Qed.
Lemma num_iff chk k st st1 : 1 <= k <= 16 -> (word chk (n2b (80 + k)) st st1 <-> st1 = [n2b k] :: st).
Proof.
  intros K. split; [|intros ->; now constructor]. intros H.
  assert (forall c, b2n c <= 80 \/ 97 <= b2n c -> c = n2b (80 + k) -> False) as N.
  { intros c L E. apply (f_equal b2n) in E. rewrite b2n_n2b_small in E by lia. lia. }
  remember (n2b (80 + k)) as c eqn:Ec. destruct H as [k' st' K'| | | | | | | | |];
    try (exfalso; eapply N; [|reflexivity]; vm_compute; (left; discriminate) || (right; discriminate)).
  apply (f_equal b2n) in Ec. rewrite !b2n_n2b_small in Ec by lia. assert (k' = k) as -> by lia. reflexivity.
Qed.
Lemma multi_iff chk st st1 : word chk xae st st1 <-> exists a keys b sgs dummy r, st = a :: rev keys ++ b :: rev sgs ++ dummy :: r /\
  stack_num a (nlen keys) /\ stack_num b (nlen sgs) /\ nlen sgs <= nlen keys /\
  ((in_order chk sgs keys /\ st1 = [x01] :: r) \/ (~ in_order chk sgs keys /\ st1 = [] :: r)).
Proof.
  split.
  - intros H. inversion H; subst; [not_num H0| |]; (eexists _, _, _, _, _, _; split; [reflexivity|]); tauto.
  - intros (a & keys & b & sgs & dummy & r & -> & A & B & L & [(N & ->)|(N & ->)]); now constructor.
Qed.

Lemma truthy_one : truthy [x01].
Proof. intros (k & [E|E]); destruct k as [|k]; try discriminate. Qed.
Lemma falsy_nil : ~ truthy [].
Proof. intros H. apply H. exists 0%nat. now left. Qed.

(** the common tail: EQUALVERIFY CHECKSIG after a key hash [h] on [x :: hash160 x] *)
Lemma tail_iff chk h st : (exists top st', exec chk [x88; xac] (h :: st) (top :: st') /\ truthy top) <->
  exists pub sg r, st = h :: pub :: sg :: r /\ chk sg pub.
Proof.
  split.
  - intros (top & st' & H & T). apply exec_word_inv in H as (s1 & W & H); [|vm_compute; discriminate|discriminate]. apply eqv_iff in W as (x & W). injection W as -> ->.
    apply exec_word_inv in H as (s2 & W & H); [|vm_compute; discriminate|discriminate]. apply exec_nil_inv in H. subst s2.
    apply sig_iff in W as (pub & sg & r & -> & [(C & E)|(C & E)]); injection E as -> ->; [eauto|now apply falsy_nil in T].
  - intros (pub & sg & r & -> & C). exists [x01], r. split; [|apply truthy_one].
    eapply ex_word; [constructor|]. eapply ex_word; [now constructor|]. constructor.
Qed.

Lemma announces_20 (h : bytes) : length h = 20%nat -> announces [x14] (nlen h).
Proof. intros L. replace (nlen h) with (b2n x14) by (unfold nlen; rewrite L; reflexivity). constructor. vm_compute. discriminate. Qed.

Lemma keyhash_iff chk k (h : bytes) st : announces k (nlen h) ->
  (satisfied chk ([x76; xa9] ++ k ++ h ++ [x88; xac]) st <-> key_and_signature chk h st).
Proof.
  intros A. unfold satisfied, key_and_signature. cbn [app]. split.
  - intros (top & st' & H & T). apply exec_word_inv in H as (s1 & W & H); [|vm_compute; discriminate|discriminate]. apply dup_iff in W as (x & r & -> & ->).
    apply exec_word_inv in H as (s2 & W & H); [|vm_compute; discriminate|discriminate]. apply hash_iff in W as (y & q & E & ->). injection E as <- <-.
    apply exec_push_inv in H; [|assumption]. destruct (proj1 (tail_iff chk h (ripemd160 (sha256 x) :: x :: r))) as (pub & sg & r' & E & C); [eauto|].
    injection E as E1 -> ->. exists pub, sg, r'. now repeat split.
  - intros (pub & sg & r & -> & E & C). exists [x01], r. split; [|apply truthy_one].
    eapply ex_word; [constructor|]. eapply ex_word; [constructor|]. apply ex_push; [assumption|]. rewrite <- E.
    eapply ex_word; [constructor|]. eapply ex_word; [now constructor|]. constructor.
Qed.

Lemma p2pkh_iff chk (h : bytes) st : length h = 20%nat -> (satisfied chk (p2pkh h) st <-> key_and_signature chk h st).
Proof. intros L. apply (keyhash_iff chk [x14] h st). now apply announces_20. Qed.

Lemma puzzle_iff chk (a : bytes) k (h : bytes) st : length a = 20%nat -> announces k (nlen h) ->
  (satisfied chk ([xa9; x14] ++ a ++ [x88; x76; xa9] ++ k ++ h ++ [x88; xac]) st <->
   exists x st', st = x :: st' /\ ripemd160 (sha256 x) = a /\ key_and_signature chk h st').
Proof.
  intros L A. unfold satisfied at 1. split.
  - intros (top & st' & H & T). cbn [app] in H. apply exec_word_inv in H as (s1 & W & H); [|vm_compute; discriminate|discriminate]. apply hash_iff in W as (x & r & -> & ->).
    apply (exec_push_inv chk [x14] a) in H; [|now apply announces_20].
    apply exec_word_inv in H as (s2 & W & H); [|vm_compute; discriminate|discriminate]. apply eqv_iff in W as (y & E). injection E as <- <- ->.
    exists x, s2. split; [reflexivity|]. split; [reflexivity|]. apply (keyhash_iff chk k); [assumption|]. exists top, st'. now split.
  - intros (x & st' & -> & E & K). apply (keyhash_iff chk k) in K as (top & q & X & T); [|assumption]. exists top, q. split; [|assumption].
    cbn [app]. eapply ex_word; [constructor|]. rewrite E. apply (ex_push chk [x14] a); [now apply announces_20|].
    eapply ex_word; [constructor|]. exact X.
Qed.

Lemma data_never chk r st : ~ satisfied chk (x00 :: x6a :: r) st.
Proof.
  intros (top & st' & H & T). apply (exec_push_inv chk [x00] []) in H; [|apply (an_direct x00); vm_compute; discriminate].
  inversion H as [|h d q ? ? A X E|c q ? st1 ? W X E|]; subst.
  - apply announces_low in A as (x & y & -> & A). cbn [app] in E. injection E as -> _. vm_compute in A. now apply A.
  - inversion W. revert H0. apply num_not; [vm_compute; right; reflexivity|assumption].
  - now apply falsy_nil in T.
Qed.

(** ** multisig *)
Lemma stack_num_byte k n : 1 <= k <= 16 -> (stack_num [n2b k] n <-> n = k).
Proof.
  intros K. unfold stack_num. split.
  - intros (E & _). cbn [le_get] in E. rewrite b2n_n2b_small in E by lia. lia.
  - intros ->. split; [cbn [le_get]; rewrite b2n_n2b_small by lia; lia|]. split; [cbn; lia|].
    intros [|y0 [|y1 y]] c E; try discriminate. injection E as <-. rewrite b2n_n2b_small by lia. lia.
Qed.

Lemma keys_iff chk (keys : list bytes) : (forall k, In k keys -> 1 <= nlen k <= 75) -> forall r st st',
  exec chk (concat (map (fun k => n2b (nlen k) :: k) keys) ++ r) st st' <-> exec chk r (rev keys ++ st) st'.
Proof.
  induction keys as [|k keys IH]; intros B r st st'; [reflexivity|]. cbn [map concat].
  assert (announces [n2b (nlen k)] (nlen k)) as A.
  { pose proof (B k (or_introl eq_refl)). replace (nlen k) with (b2n (n2b (nlen k))) at 2 by (rewrite b2n_n2b_small by lia; reflexivity). constructor. rewrite b2n_n2b_small by lia. lia. }
  rewrite <- app_assoc. change ((n2b (nlen k) :: k) ++ ?x) with ([n2b (nlen k)] ++ k ++ x).
  rewrite (exec_push_iff chk _ _ _ _ _ A). rewrite IH by (intros; apply B; now right). cbn [rev]. rewrite <- app_assoc. reflexivity.
Qed.

Lemma multisig_iff chk m (keys : list bytes) st : 1 <= m <= 16 -> 1 <= nlen keys <= 16 -> (forall k, In k keys -> 1 <= nlen k <= 75) ->
  (satisfied chk ([n2b (80 + m)] ++ concat (map (fun k => n2b (nlen k) :: k) keys) ++ [n2b (80 + nlen keys); xae]) st <->
   exists sgs dummy st', st = rev sgs ++ dummy :: st' /\ nlen sgs = m /\ m <= nlen keys /\ in_order chk sgs keys).
Proof.
  intros M K B.
  assert (forall k, 1 <= k <= 16 -> 79 <= b2n (n2b (80 + k)) /\ n2b (80 + k) <> x6a) as Hop.
  { intros k Hk. split; [rewrite b2n_n2b_small by lia; lia|]. apply num_not; [vm_compute; right; reflexivity|assumption]. }
  unfold satisfied. split.
  - intros (top & st' & H & T). apply exec_word_inv in H as (s1 & W & H); [|now apply Hop|now apply Hop]. apply num_iff in W as ->; [|assumption].
    apply keys_iff in H; [|assumption]. apply exec_word_inv in H as (s2 & W & H); [|now apply Hop|now apply Hop]. apply num_iff in W as ->; [|assumption].
    apply exec_word_inv in H as (s3 & W & H); [|vm_compute; discriminate|discriminate]. apply exec_nil_inv in H. subst s3.
    apply multi_iff in W as (a & keys' & b & sgs & dummy & r & E & A & Bn & L & D). injection E as <- E. apply stack_num_byte in A; [|assumption].
    apply app_same in E as [E E']; [|rewrite !rev_length; unfold nlen in A; unfold bytes in *; lia].
    apply (f_equal (@rev bytes)) in E. rewrite !rev_involutive in E. subst keys'. injection E' as <- ->. apply stack_num_byte in Bn; [|assumption].
    destruct D as [(I & E)|(I & E)]; injection E as -> ->; [|now apply falsy_nil in T]. exists sgs, dummy, r. split; [reflexivity|]. split; [assumption|]. split; [lia|assumption].
  - intros (sgs & dummy & r & -> & E & L & I). exists [x01], r. split; [|apply truthy_one].
    eapply ex_word; [now constructor|]. apply keys_iff; [assumption|]. eapply ex_word; [now constructor|].
    eapply ex_word; [|constructor]. apply (w_multisig chk [n2b (nlen keys)] keys [n2b m] sgs dummy r); [now apply stack_num_byte|now apply stack_num_byte|lia|assumption].
Qed.

Lemma in_order_length chk sgs ks : in_order chk sgs ks -> (length sgs <= length ks)%nat.
Proof. induction 1; cbn; lia. Qed.

Lemma p2sh_hash_iff chk h st : length h = 20%nat -> (satisfied chk (p2sh h) st <-> exists x st', st = x :: st' /\ ripemd160 (sha256 x) = h).
Proof.
  intros L. unfold satisfied, p2sh. cbn [app]. split.
  - intros (top & st' & H & T). apply exec_word_inv in H as (s1 & W & H); [|vm_compute; discriminate|discriminate]. apply hash_iff in W as (x & r & -> & ->).
    apply (exec_push_inv chk [x14] h) in H; [|now apply announces_20].
    apply exec_word_inv in H as (s2 & W & H); [|vm_compute; discriminate|discriminate]. apply exec_nil_inv in H. subst s2.
    apply eq_iff in W as (a & b & q & E & [(E1 & E2)|(E1 & E2)]); injection E as <- <- <-; injection E2 as -> ->; [eauto|now apply falsy_nil in T].
  - intros (x & r & -> & E). exists [x01], r. split; [|apply truthy_one]. eapply ex_word; [constructor|]. rewrite E.
    apply (ex_push chk [x14] h); [now apply announces_20|]. eapply ex_word; [constructor|]. constructor.
Qed.
