(** Proofs about numerals and the String methods (C61). *)
From Verif Require Export M_Text S_Text P_Base58 P_Tx.
From Coq Require Import ZifyBool ZifyNat ZifyN.

Lemma digit_char d : (d < 16)%nat -> nth_error digit_chars d = Some (hexdig (N.of_nat d)).
Proof.
  intros H. do 16 (destruct d as [|d]; [reflexivity|]). lia.
Qed.

Lemma hexdig_inj a b : a < 16 -> b < 16 -> hexdig a = hexdig b -> a = b.
Proof. intros A B E. apply hexdig_val in A, B. congruence. Qed.

Lemma dval_snoc base l d : dval base (l ++ [d]) = base * dval base l + d.
Proof. unfold dval. rewrite fold_left_app. cbn [fold_left]. lia. Qed.

Lemma num_text_iff base s n : (2 <= base <= 16)%nat ->
  num_text base s n <-> exists l, Forall (fun d => d < N.of_nat base) l /\ s = map hexdig l /\ dval (N.of_nat base) l = n.
Proof.
  intros B. split.
  - induction 1 as [|s n d c H E _ (l & F & -> & <-)].
    + exists []. repeat split. constructor.
    + exists (l ++ [N.of_nat d]). split; [apply Forall_app; split; [assumption|repeat constructor; lia]|].
      rewrite map_app, dval_snoc. cbn [map]. rewrite digit_char in E by lia. split; [congruence|lia].
  - intros (l & F & -> & <-). induction l as [|d l IH] using rev_ind; [constructor|].
    apply Forall_app in F as [F Fd]. inversion Fd as [|? ? Hd _]; subst. rewrite map_app, dval_snoc. cbn [map].
    replace d with (N.of_nat (N.to_nat d)) by lia. constructor; [lia| |now apply IH].
    apply digit_char. lia.
Qed.

Lemma map_hexdig_inj l1 l2 : Forall (fun d => d < 16) l1 -> Forall (fun d => d < 16) l2 -> map hexdig l1 = map hexdig l2 -> l1 = l2.
Proof.
  intros F1. revert l2. induction F1 as [|a l1 H _ IH]; intros l2 F2 E; destruct l2 as [|b l2]; try discriminate; [reflexivity|].
  inversion F2; subst. cbn [map] in E. injection E as E1 E2. f_equal; [now apply hexdig_inj|now apply IH].
Qed.

Lemma num_text_fun base s n n' : (2 <= base <= 16)%nat -> num_text base s n -> num_text base s n' -> n = n'.
Proof.
  intros B H H'. apply num_text_iff in H as (l & F & -> & <-); [|assumption]. apply num_text_iff in H' as (l' & F' & E & <-); [|assumption].
  f_equal. apply map_hexdig_inj; [| |assumption]; eapply Forall_impl; try eassumption; cbn; lia.
Qed.

Lemma fmt_uint_of base n : (2 <= base <= 16)%nat -> num_of base (fmt_uint (N.of_nat base) n) n.
Proof.
  intros B. unfold fmt_uint. destruct (n =? 0) eqn:Z.
  - apply N.eqb_eq in Z. subst n. split; [|split; [discriminate|]].
    + change ([x30]) with ([] ++ [x30]). replace 0 with (N.of_nat base * 0 + N.of_nat 0) by lia. constructor; [lia|reflexivity|constructor].
    + intros r E. injection E as <-. reflexivity.
  - destruct (digits_spec (N.of_nat base) n) as (F & H & V); [lia|]. split; [|split].
    + apply num_text_iff; [assumption|]. exists (digits (N.of_nat base) n). auto.
    + intros E. apply map_eq_nil, digits_nil_iff in E; [|lia]. subst. discriminate.
    + intros r E. destruct (digits (N.of_nat base) n) as [|d l]; [discriminate|]. cbn [map] in E. injection E as E _.
      exfalso. apply H. cbn [hd]. inversion F; subst. apply (hexdig_inj d 0); [lia|lia|assumption].
Qed.

Lemma num_of_unique base s s' n : (2 <= base <= 16)%nat -> num_of base s n -> num_of base s' n -> s = s'.
Proof.
  intros B (H & N & Z) (H' & N' & Z'). apply num_text_iff in H as (l & F & -> & V); [|assumption].
  apply num_text_iff in H' as (l' & F' & -> & V'); [|assumption]. f_equal.
  assert (forall l, Forall (fun d => d < N.of_nat base) l -> map hexdig l <> [] -> (forall r, map hexdig l = x30 :: r -> r = []) ->
          l = [0] \/ hd 1 l <> 0) as X.
  { clear. intros [|d l] F N Z; [now left|]. destruct (N.eq_dec d 0) as [->|Q]; [|right; exact Q]. left.
    specialize (Z (map hexdig l) eq_refl). apply map_eq_nil in Z. now subst. }
  assert (forall l, hd 1 l <> 0 -> dval (N.of_nat base) l = 0 -> Forall (fun d => d < N.of_nat base) l -> l = []) as Y.
  { clear -B. intros l H V F. pose proof (digits_unique (N.of_nat base) 0 l ltac:(lia) F H V) as E. now rewrite <- E. }
  destruct (X l F N Z) as [->|Q], (X l' F' N' Z') as [->|Q'].
  - reflexivity.
  - cbn in V. rewrite N.mul_0_r in V. cbn in V. subst n. apply Y in Q'; try assumption. subst l'. exfalso. now apply N'.
  - cbn in V'. rewrite N.mul_0_r in V'. cbn in V'. subst n. symmetry in V'. apply Y in Q; try assumption. subst l. exfalso. now apply N.
  - rewrite <- (digits_unique (N.of_nat base) n l) by (try assumption; lia).
    now rewrite <- (digits_unique (N.of_nat base) n l') by (try assumption; lia).
Qed.

(** ** Lines *)

Lemma line_inj (a b a' b' : bytes) : ~ In x0a a -> ~ In x0a a' -> a ++ x0a :: b = a' ++ x0a :: b' -> a = a' /\ b = b'.
Proof.
  revert a'. induction a as [|x a IH]; intros [|y a'] H H' E; cbn [app] in E.
  - injection E as ->. auto.
  - injection E as <- _. exfalso. apply H'. now left.
  - injection E as -> _. exfalso. apply H. now left.
  - injection E as -> E. destruct (IH a') as [-> ->]; [intros I; apply H; now right|intros I; apply H'; now right|assumption|auto].
Qed.

Lemma hexdig_not_nl d : d < 16 -> hexdig d <> x0a.
Proof. intros H E. apply hexdig_val in H. rewrite E in H. discriminate. Qed.

Lemma hex_no_nl b : ~ In x0a (hex_encode b).
Proof.
  induction b as [|x b IH]; cbn [hex_encode]; [intros []|]. intros [E|[E|I]]; [| |now apply IH];
    apply hexdig_not_nl in E; try assumption.
  - pose proof (b2n_lt x). apply N.div_lt_upper_bound; lia.
  - apply N.mod_lt. lia.
Qed.

Lemma fmt_no_nl base n : 2 <= base <= 16 -> ~ In x0a (fmt_uint base n).
Proof.
  intros B. unfold fmt_uint. destruct (n =? 0); [intros [E|[]]; discriminate|].
  destruct (digits_spec base n) as (F & _); [lia|]. intros I. apply in_map_iff in I as (d & E & I).
  rewrite Forall_forall in F. specialize (F _ I). apply hexdig_not_nl in E; [assumption|lia].
Qed.

Lemma fmt_inj base n m : (2 <= base <= 16)%nat -> fmt_uint (N.of_nat base) n = fmt_uint (N.of_nat base) m -> n = m.
Proof.
  intros B E. destruct (fmt_uint_of base n B) as (A & _). destruct (fmt_uint_of base m B) as (A' & _).
  rewrite E in A. eapply num_text_fun; eassumption.
Qed.

(** peel one line off an equality of texts *)
Lemma peel (lab a b a' b' : bytes) : ~ In x0a a -> ~ In x0a a' ->
  lab ++ a ++ [x0a] ++ b = lab ++ a' ++ [x0a] ++ b' -> a = a' /\ b = b'.
Proof. intros N N' E. apply app_inv_head in E. now apply line_inj. Qed.

Lemma ptr_no_nl b : ~ In x0a (fmt_x_ptr b).
Proof. unfold fmt_x_ptr. intros I. apply in_app_or in I as [[E|[]]|I]; [discriminate|now apply hex_no_nl in I]. Qed.

Lemma input_string_inj i j s : input_string i = Ok s -> input_string j = Ok s ->
  prev_txid i = prev_txid j /\ prev_index i = prev_index j /\ unlocking i = unlocking j /\ sequence i = sequence j.
Proof.
  unfold input_string. destruct (unlocking i) as [u|], (unlocking j) as [v|]; cbn [deref or_panic bind]; try discriminate.
  intros H H'. assert (forall (A : Type) (x y : A), Ok x = Ok y -> x = y) as OI by (intros; congruence).
  apply OI in H, H'. rewrite <- H' in H. clear H' s.
  apply peel in H as [H1 H]; [|apply hex_no_nl|apply hex_no_nl].
  apply peel in H as [H2 H]; [|apply fmt_no_nl; lia|apply fmt_no_nl; lia].
  apply peel in H as [H3 H]; [|apply fmt_no_nl; lia|apply fmt_no_nl; lia].
  apply peel in H as [H4 H]; [|apply ptr_no_nl|apply ptr_no_nl].
  rewrite <- (app_nil_r [x0a]) in H. apply peel in H as [H5 _]; [|apply fmt_no_nl; lia|apply fmt_no_nl; lia].
  apply hex_encode_inj in H1. apply (fmt_inj 10) in H2; [|lia]. apply (fmt_inj 16) in H5; [|lia].
  unfold fmt_x_ptr in H4. apply app_inv_head, hex_encode_inj in H4. subst. auto.
Qed.

Lemma output_string_inj a b s : output_string a = Ok s -> output_string b = Ok s -> a = b.
Proof.
  unfold output_string. destruct a as [sa [la|]], b as [sb [lb|]]; cbn [locking satoshis deref or_panic bind]; try discriminate.
  intros H H'. assert (forall (A : Type) (x y : A), Ok x = Ok y -> x = y) as OI by (intros; congruence).
  apply OI in H, H'. rewrite <- H' in H. clear H' s.
  apply peel in H as [H2 H]; [|apply fmt_no_nl; lia|apply fmt_no_nl; lia].
  apply peel in H as [H3 H]; [|apply fmt_no_nl; lia|apply fmt_no_nl; lia].
  rewrite <- (app_nil_r [x0a]) in H. apply peel in H as [H4 _]; [|apply ptr_no_nl|apply ptr_no_nl].
  apply (fmt_inj 10) in H2; [|lia]. unfold fmt_x_ptr in H4. apply app_inv_head, hex_encode_inj in H4. now subst.
Qed.
