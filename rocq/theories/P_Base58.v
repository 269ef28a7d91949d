(** Proofs about base58 and addresses. *)
From Verif Require Export S_Address P_Utils P_Crypto M_Base58 M_Address.
From Coq Require Import ZifyBool ZifyNat ZifyN.

(** ** Digits *)

Definition lval (base : N) (l : list N) : N := fold_right (fun d acc => d + base * acc) 0 l.
Definition dval (base : N) (l : list N) : N := fold_left (fun acc d => base * acc + d) l 0.

Lemma dval_rev base l : dval base (rev l) = lval base l.
Proof.
  unfold dval, lval. rewrite <- fold_left_rev_right, rev_involutive.
  induction l as [|d l IH]; cbn [fold_right]; [reflexivity|]. rewrite IH. lia.
Qed.

Lemma dval_lval base l : dval base l = lval base (rev l).
Proof. rewrite <- dval_rev. now rewrite rev_involutive. Qed.

Lemma lval_zero base l : 2 <= base -> lval base l = 0 -> Forall (fun d => d = 0) l.
Proof.
  intros B. induction l as [|d l IH]; cbn [lval fold_right]; intros H; constructor; fold (lval base l) in *; [lia|].
  apply IH. nia.
Qed.

(** little-endian digit lists without a zero at the end are determined by their value *)
Lemma lval_inj base l l' : 2 <= base ->
  Forall (fun d => d < base) l -> Forall (fun d => d < base) l' ->
  last l 1 <> 0 -> last l' 1 <> 0 -> lval base l = lval base l' -> l = l'.
Proof.
  intros B H; revert l'; induction H as [|d l Hd H IH]; intros l' H' L L' E.
  - destruct l' as [|d' l']; [reflexivity|]. cbn [lval fold_right] in E.
    assert (Forall (fun d => d = 0) (d' :: l')) as Z by (apply (lval_zero base); [assumption|cbn [lval fold_right]; congruence]).
    exfalso. apply L'. rewrite Forall_forall in Z. apply Z.
    destruct (exists_last (l := d' :: l')) as (q & z & ->); [discriminate|]. rewrite last_last. apply in_or_app. right. now left.
  - destruct H' as [|d' l' Hd' H'].
    + assert (Forall (fun d => d = 0) (d :: l)) as Z by (apply (lval_zero base); [assumption|exact E]).
      exfalso. apply L. rewrite Forall_forall in Z. apply Z.
      destruct (exists_last (l := d :: l)) as (q & z & ->); [discriminate|]. rewrite last_last. apply in_or_app. right. now left.
    + cbn [lval fold_right] in E. fold (lval base l) in E. fold (lval base l') in E.
      assert (d = d' /\ lval base l = lval base l') as [-> E'].
      { assert (d mod base = d' mod base).
        { rewrite <- (N.mod_add d (lval base l) base), <- (N.mod_add d' (lval base l') base) by lia. f_equal. lia. }
        rewrite !N.mod_small in H0 by assumption. split; [assumption|]. nia. }
      f_equal. apply IH; [assumption| | |assumption].
      * destruct l; [discriminate|exact L].
      * destruct l'; [discriminate|exact L'].
Qed.

Lemma dval_inj base l l' : 2 <= base ->
  Forall (fun d => d < base) l -> Forall (fun d => d < base) l' ->
  hd 1 l <> 0 -> hd 1 l' <> 0 -> dval base l = dval base l' -> l = l'.
Proof.
  intros B F F' H H' E. rewrite !dval_lval in E.
  assert (forall q : list N, last (rev q) 1 = hd 1 q) as LR
    by (intros [|x q]; [reflexivity|cbn [rev]; apply last_last]).
  apply lval_inj in E; try (rewrite LR; assumption); try assumption; try (now apply Forall_rev).
  rewrite <- (rev_involutive l), E. apply rev_involutive.
Qed.

Lemma digits_loop_spec fuel base n acc : 2 <= base -> n < 2 ^ N.of_nat fuel ->
  exists l, digits_loop fuel base n acc = l ++ acc /\ Forall (fun d => d < base) l /\
            hd 1 l <> 0 /\ dval base l = n.
Proof.
  intros B; revert n acc; induction fuel as [|f IH]; intros n acc H; cbn [digits_loop].
  - change (2 ^ N.of_nat 0) with 1 in H. exists []. cbn [app hd]. repeat split; [constructor|discriminate|].
    unfold dval; cbn [fold_left]. lia.
  - destruct (N.eqb_spec n 0) as [->|N0].
    { exists []. cbn [app hd]. repeat split; [constructor|discriminate]. }
    rewrite Nat2N.inj_succ, N.pow_succ_r' in H.
    assert (n / base < 2 ^ N.of_nat f).
    { apply N.div_lt_upper_bound; [lia|]. nia. }
    destruct (IH (n / base) (n mod base :: acc)) as (l & E & F & HD & V); [assumption|].
    exists (l ++ [n mod base]). rewrite E, <- app_assoc. repeat split.
    + apply Forall_app. split; [assumption|]. constructor; [|constructor]. apply N.mod_lt. lia.
    + destruct l as [|d l]; [|exact HD]. cbn [app hd]. unfold dval in V; cbn [fold_left] in V.
      assert (n = base * (n / base) + n mod base) by (apply N.div_mod; lia). nia.
    + unfold dval. rewrite fold_left_app. cbn [fold_left]. fold (dval base l). rewrite V.
      symmetry. apply N.div_mod. lia.
Qed.

Lemma size_nat_bound n : n < 2 ^ N.of_nat (N.size_nat n).
Proof.
  assert (N.of_nat (N.size_nat n) = N.size n) as ->.
  { destruct n as [|p]; [reflexivity|]. cbn [N.size_nat N.size]. induction p; cbn [Pos.size_nat Pos.size]; lia. }
  apply N.size_gt.
Qed.

Lemma digits_spec base n : 2 <= base ->
  Forall (fun d => d < base) (digits base n) /\ hd 1 (digits base n) <> 0 /\ dval base (digits base n) = n.
Proof.
  intros B. unfold digits. destruct (digits_loop_spec (N.size_nat n) base n [] B (size_nat_bound n)) as (l & E & H).
  rewrite app_nil_r in E. rewrite E. tauto.
Qed.

Lemma digits_unique base n l : 2 <= base -> Forall (fun d => d < base) l -> hd 1 l <> 0 -> dval base l = n ->
  digits base n = l.
Proof.
  intros B F H E. destruct (digits_spec base n B) as (A1 & A2 & A3). apply (dval_inj base); try assumption. congruence.
Qed.

Lemma digits_nil_iff base n : 2 <= base -> digits base n = [] <-> n = 0.
Proof.
  intros B. split; [|intros ->; reflexivity]. intros E. destruct (digits_spec base n B) as (_ & _ & V). rewrite E in V. symmetry. exact V.
Qed.

(** ** The alphabet *)

Lemma index_byte_some l c i : index_byte l c = Some i -> nth_error l (N.to_nat i) = Some c.
Proof.
  revert i; induction l as [|x l IH]; intros i; cbn [index_byte]; [discriminate|].
  destruct (byte_eqb_spec x c) as [->|N]; [intros H; injection H as <-; reflexivity|].
  destruct (index_byte l c) as [j|]; [|discriminate]. intros H; injection H as <-.
  replace (N.to_nat (j + 1)) with (S (N.to_nat j)) by lia. cbn [nth_error]. now apply IH.
Qed.

Lemma index_byte_none l c : index_byte l c = None -> ~ In c l.
Proof.
  induction l as [|x l IH]; cbn [index_byte]; [intros _ []|].
  destruct (byte_eqb_spec x c) as [->|N]; [discriminate|].
  destruct (index_byte l c); [discriminate|]. intros _ [H|H]; [congruence|]. now apply IH.
Qed.

Lemma alphabet_nodup : NoDup alphabet.
Proof.
  assert (forall l : bytes, (fix f (l : bytes) := match l with [] => true | x :: r => negb (existsb (byte_eqb x) r) && f r end) l = true -> NoDup l) as A.
  { induction l as [|x l IH]; intros H; constructor; apply andb_true_iff in H as [H1 H2].
    - intros I. apply negb_true_iff in H1. assert (existsb (byte_eqb x) l = true); [|congruence].
      apply existsb_exists. exists x. split; [assumption|apply byte_eqb_refl].
    - now apply IH. }
  apply A. vm_compute. reflexivity.
Qed.

Lemma alphabet_chars : alphabet = b58_chars.
Proof. reflexivity. Qed.

Lemma index_byte_nth d c : nth_error alphabet d = Some c -> index_byte alphabet c = Some (N.of_nat d).
Proof.
  intros H. destruct (index_byte alphabet c) as [i|] eqn:E.
  - apply index_byte_some in E. f_equal.
    assert (N.to_nat i = d); [|lia].
    apply (proj1 (NoDup_nth_error alphabet) alphabet_nodup); [|congruence].
    apply nth_error_Some. rewrite E. discriminate.
  - apply index_byte_none in E. exfalso. apply E. eapply nth_error_In. eassumption.
Qed.

Lemma index_iff d c : index_byte alphabet c = Some (N.of_nat d) <-> nth_error b58_chars d = Some c.
Proof.
  split; [|apply index_byte_nth]. intros H. apply index_byte_some in H. rewrite Nat2N.id in H. exact H.
Qed.

Definition alpha (d : N) : byte := nth (N.to_nat d) alphabet x00.

Lemma alpha_index d : d < 58 -> index_byte alphabet (alpha d) = Some d.
Proof.
  intros H. rewrite <- (N2Nat.id d) at 2. apply index_byte_nth. unfold alpha.
  apply nth_error_nth'. change (length alphabet) with 58%nat. lia.
Qed.

Lemma index_lt c i : index_byte alphabet c = Some i -> i < 58 /\ alpha i = c.
Proof.
  intros H. apply index_byte_some in H. split.
  - assert (N.to_nat i < length alphabet)%nat by (apply nth_error_Some; rewrite H; discriminate).
    change (length alphabet) with 58%nat in *. lia.
  - unfold alpha. now apply nth_error_nth.
Qed.

(** ** Values of base58 text *)

(** the digits of a text *)
Fixpoint text_digits (s : bytes) : option (list N) :=
  match s with
  | [] => Some []
  | c :: r => match index_byte alphabet c, text_digits r with
              | Some d, Some l => Some (d :: l)
              | _, _ => None
              end
  end.

Lemma b58_val_digits acc s :
  b58_val acc s = match text_digits s with
                  | Some l => Some (fold_left (fun a d => 58 * a + d) l acc) | None => None end.
Proof.
  revert acc; induction s as [|c s IH]; intros acc; cbn [b58_val text_digits]; [reflexivity|].
  destruct (index_byte alphabet c) as [d|]; [|reflexivity]. rewrite IH.
  destruct (text_digits s); reflexivity.
Qed.

Lemma text_digits_app s t : text_digits (s ++ t) =
  match text_digits s, text_digits t with Some a, Some b => Some (a ++ b) | _, _ => None end.
Proof.
  induction s as [|c s IH]; cbn [app text_digits]; [destruct (text_digits t); reflexivity|].
  destruct (index_byte alphabet c); [|reflexivity]. rewrite IH.
  destruct (text_digits s); [|reflexivity]. destruct (text_digits t); reflexivity.
Qed.

Lemma text_digits_alpha l : Forall (fun d => d < 58) l -> text_digits (map alpha l) = Some l.
Proof.
  induction 1 as [|d l H _ IH]; cbn [map text_digits]; [reflexivity|]. now rewrite alpha_index, IH.
Qed.

Lemma text_digits_inv s l : text_digits s = Some l -> Forall (fun d => d < 58) l /\ map alpha l = s.
Proof.
  revert l; induction s as [|c s IH]; intros l; cbn [text_digits].
  - intros H; injection H as <-. split; [constructor|reflexivity].
  - destruct (index_byte alphabet c) as [d|] eqn:E; [|discriminate].
    destruct (text_digits s) as [q|]; [|discriminate]. intros H; injection H as <-.
    destruct (IH q eq_refl) as [F M]. apply index_lt in E as [L A]. split; [now constructor|].
    cbn [map]. congruence.
Qed.

Lemma b58_num_iff s v : b58_num s v <-> b58_val 0 s = Some v.
Proof.
  rewrite b58_val_digits. split.
  - induction 1 as [|s v c d H IH E]; [reflexivity|].
    rewrite text_digits_app. cbn [text_digits].
    destruct (text_digits s) as [l|]; [|discriminate].
    rewrite (index_byte_nth d c E). rewrite fold_left_app. cbn [fold_left]. congruence.
  - revert v. induction s as [|c s IH] using rev_ind; intros v H.
    + injection H as <-. constructor.
    + rewrite text_digits_app in H. destruct (text_digits s) as [l|]; [|discriminate].
      cbn [text_digits] in H. destruct (index_byte alphabet c) as [d|] eqn:E; [|discriminate].
      rewrite fold_left_app in H. cbn [fold_left] in H. injection H as <-.
      rewrite <- (N2Nat.id d). constructor; [now apply IH|]. apply index_byte_some in E. exact E.
Qed.

Lemma b58_num_det s v w : b58_num s v -> b58_num s w -> v = w.
Proof. rewrite !b58_num_iff. congruence. Qed.

(** ** Encode and Decode *)

Lemma lead_split c (b : bytes) : exists b', b = repeat c (lead c b) ++ b' /\ hd_error b' <> Some c.
Proof.
  induction b as [|x b IH]; cbn [lead]; [exists []; split; [reflexivity|discriminate]|].
  destruct (byte_eqb_spec x c) as [->|N].
  - destruct IH as (b' & E & H). exists b'. cbn [repeat app]. split; [congruence|assumption].
  - exists (x :: b). split; [reflexivity|]. cbn [hd_error]. congruence.
Qed.

Lemma lead_repeat c k (b : bytes) : hd_error b <> Some c -> lead c (repeat c k ++ b) = k.
Proof.
  intros H. induction k as [|k IH]; cbn [repeat app lead].
  - destruct b as [|x b]; [reflexivity|]. cbn [lead hd_error] in *.
    destruct (byte_eqb_spec x c); [congruence|reflexivity].
  - now rewrite byte_eqb_refl, IH.
Qed.

Lemma dval_bytes b : dval 256 (map b2n b) = be_get b.
Proof.
  enough (forall acc, fold_left (fun a d => 256 * a + d) (map b2n b) acc
    = fold_left (fun acc x => 256 * acc + b2n x) b acc) as H by apply (H 0).
  induction b as [|x b IH]; intros acc; cbn [map fold_left]; [reflexivity|]. apply IH.
Qed.

Lemma map_n2b_b2n b : map n2b (map b2n b) = b.
Proof. induction b as [|x b IH]; cbn [map]; [reflexivity|]. now rewrite n2b_b2n, IH. Qed.

Lemma bytes_digits b : hd_error b <> Some x00 -> digits 256 (be_get b) = map b2n b.
Proof.
  intros H. apply digits_unique; [lia| | |apply dval_bytes].
  - apply Forall_forall. intros d I. apply in_map_iff in I as (x & <- & _). apply b2n_lt.
  - destruct b as [|x b]; [discriminate|]. cbn [map hd]. intros E. apply H. cbn [hd_error]. f_equal.
    apply b2n_inj. exact E.
Qed.

Lemma text_canon s v : hd_error s <> Some x31 -> b58_num s v -> map alpha (digits 58 v) = s.
Proof.
  intros H N. apply b58_num_iff in N. rewrite b58_val_digits in N.
  destruct (text_digits s) as [l|] eqn:E; [|discriminate]. injection N as N.
  apply text_digits_inv in E as [F M]. rewrite (digits_unique 58 v l); [assumption|lia|assumption| |exact N].
  destruct l as [|d l]; [discriminate|]. cbn [hd]. intros ->. apply H. rewrite <- M. reflexivity.
Qed.

Lemma canon_text v : b58_num (map alpha (digits 58 v)) v /\ hd_error (map alpha (digits 58 v)) <> Some x31.
Proof.
  destruct (digits_spec 58 v) as (F & H & V); [lia|]. split.
  - apply b58_num_iff. rewrite b58_val_digits, text_digits_alpha by assumption. f_equal. exact V.
  - destruct (digits 58 v) as [|d l]; [discriminate|]. cbn [map hd_error hd] in *. inversion F; subst.
    intros E. injection E as E. apply H. pose proof (alpha_index d) as A. rewrite E in A.
    assert (index_byte alphabet x31 = Some 0) as Z by reflexivity. rewrite Z in A.
    specialize (A ltac:(assumption)). congruence.
Qed.

Lemma b58_encode_of b : b58_of (b58_encode b) b.
Proof.
  destruct (lead_split x00 b) as (b' & E & H). unfold b58_encode.
  exists (lead x00 b), (map alpha (digits 58 (be_get b))), b'.
  destruct (canon_text (be_get b)) as [A1 A2].
  assert (be_get b = be_get b') as V by (rewrite E at 1; apply be_get_zeros).
  repeat split; try assumption. now rewrite <- V.
Qed.

Lemma b58_of_encode s b : b58_of s b -> b58_encode b = s.
Proof.
  intros (k & s' & b' & -> & -> & Hs & Hb & N). unfold b58_encode.
  rewrite lead_repeat by assumption. rewrite be_get_zeros. f_equal. now apply text_canon.
Qed.

Lemma b58_val_ones k s : b58_val 0 (repeat x31 k ++ s) = b58_val 0 s.
Proof. induction k as [|k IH]; [reflexivity|]. cbn [repeat app b58_val]. exact IH. Qed.

Lemma b58_of_decode s b : b58_of s b -> b58_decode s = b.
Proof.
  intros (k & s' & b' & -> & -> & Hs & Hb & N). unfold b58_decode. rewrite b58_val_ones.
  apply b58_num_iff in N. rewrite N. unfold idx_zero. rewrite lead_repeat by assumption.
  now rewrite bytes_digits, map_n2b_b2n.
Qed.

Lemma b58_decode_of s v : b58_num s v -> b58_of s (b58_decode s).
Proof.
  intros N. destruct (lead_split x31 s) as (s' & E & H). unfold b58_decode.
  pose proof (proj1 (b58_num_iff _ _) N) as V. rewrite V. unfold idx_zero.
  exists (lead x31 s), s', (map n2b (digits 256 v)).
  destruct (digits_spec 256 v) as (F & HD & DV); [lia|].
  assert (map b2n (map n2b (digits 256 v)) = digits 256 v) as MB.
  { rewrite map_map. rewrite <- (map_id (digits 256 v)) at 2. apply map_ext_in. intros d I.
    apply b2n_n2b_small. rewrite Forall_forall in F. auto. }
  repeat split; try assumption.
  - destruct (digits 256 v) as [|d l]; [discriminate|]. cbn [map hd_error hd] in *.
    intros X. injection X as X. injection MB as MB _. rewrite X in MB. change (b2n x00) with 0 in MB. congruence.
  - rewrite <- dval_bytes, MB, DV. apply b58_num_iff. rewrite E, b58_val_ones in V. exact V.
Qed.

Lemma b58_decode_encode b : b58_decode (b58_encode b) = b.
Proof. apply b58_of_decode, b58_encode_of. Qed.

Lemma b58_encode_decode s v : b58_num s v -> b58_encode (b58_decode s) = s.
Proof. intros N. apply b58_of_encode. eapply b58_decode_of; eassumption. Qed.

Lemma b58_decode_bad s : (forall v, ~ b58_num s v) -> b58_decode s = [].
Proof.
  intros H. unfold b58_decode. destruct (b58_val 0 s) as [v|] eqn:E; [|reflexivity].
  apply b58_num_iff in E. now apply H in E.
Qed.

Lemma b58_decode_iff s b : b <> [] -> (b58_decode s = b <-> b58_of s b).
Proof.
  intros N. split; [|apply b58_of_decode]. intros E. unfold b58_decode in E.
  destruct (b58_val 0 s) as [v|] eqn:V; [|congruence].
  apply b58_num_iff in V. pose proof (b58_decode_of s v V) as O.
  unfold b58_decode in O. rewrite (proj1 (b58_num_iff _ _) V) in O. now rewrite E in O.
Qed.

Lemma b58_encode_inj a b : b58_encode a = b58_encode b -> a = b.
Proof. intros E. rewrite <- (b58_decode_encode a), <- (b58_decode_encode b), E. reflexivity. Qed.

Lemma b58_encode_num b : b58_num (b58_encode b) (be_get b).
Proof.
  apply b58_num_iff. unfold b58_encode. change idx_zero with x31. rewrite b58_val_ones. apply b58_num_iff, canon_text.
Qed.
