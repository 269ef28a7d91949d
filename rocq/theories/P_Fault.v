From Verif Require Import S_Fault P_Encryption.
From Coq Require Import Lia ZifyBool ZifyNat ZifyN.

Lemma digit_val c : digit c <-> exists n, b64_val c = Some n.
Proof. unfold digit. split; intros (n & H); exists n; now apply val_digit. Qed.
Lemma not_digit c : b64_val c = None <-> ~ digit c.
Proof.
  rewrite digit_val. split; [intros E (n & H); rewrite E in H; discriminate H|]. intros H. destruct (b64_val c) as [n|] eqn:E; [|reflexivity].
  destruct H. now exists n.
Qed.
Lemma nl_iff c : is_nl c = true <-> newline c.
Proof. unfold newline. split; [destruct c; cbn; intros H; try discriminate H; auto|intros [-> | ->]; reflexivity]. Qed.
Lemma not_nl c : is_nl c = false <-> ~ newline c.
Proof. rewrite <- nl_iff. destruct (is_nl c); split; intros H; try discriminate H; try reflexivity; [now destruct H|intros Q; discriminate Q]. Qed.
Lemma eqb_false c : byte_eqb c x3d = false <-> c <> x3d.
Proof. destruct c; cbn; split; intros H; try discriminate H; try reflexivity; try (intros Q; discriminate Q). now destruct H. Qed.
Lemma eqb_true c : byte_eqb c x3d = true <-> c = x3d.
Proof. destruct c; cbn; split; intros H; try discriminate H; reflexivity. Qed.

Lemma digits_app a b : digits (a ++ b) = (digits a + digits b)%nat.
Proof. unfold digits, no_newlines. now rewrite filter_app, app_length. Qed.
Lemma digits_digit c : digit c -> digits [c] = 1%nat.
Proof.
  intros H. unfold digits. rewrite no_nl_eq. cbn [filter]. destruct (is_nl c) eqn:E; [|reflexivity].
  apply nl_val in E. apply not_digit in E. contradiction.
Qed.
Lemma digits_nl c : newline c -> digits [c] = 0%nat.
Proof. intros [-> | ->]; reflexivity. Qed.

(** Over plain text the reader moves on. *)
Lemma fault_plain l : forall si j s, (j < 4)%nat -> plain l ->
  b64_fault_from si j (l ++ s) = b64_fault_from (si + nlen l) ((j + digits l) mod 4) s.
Proof.
  induction l as [|c l IH]; intros si j s J P.
  - cbn [app]. change (nlen (@nil byte)) with 0. change (digits []) with 0%nat. rewrite N.add_0_r, Nat.add_0_r, Nat.mod_small by exact J. reflexivity.
  - inversion P as [|? ? D P']; subst. rewrite <- app_comm_cons. cbn [b64_fault_from].
    change (c :: l) with ([c] ++ l). rewrite digits_app. replace (nlen ([c] ++ l)) with (1 + nlen l) by (unfold nlen; rewrite app_length; cbn [length]; lia).
    destruct D as [D|D].
    + rewrite (digits_digit c D). apply digit_val in D as (n & ->). rewrite IH; [|destruct (Nat.eqb_spec j 3); lia|exact P'].
      f_equal; [lia|]. destruct (Nat.eqb_spec j 3) as [->|N].
      * replace (3 + (1 + digits l))%nat with (digits l + 1 * 4)%nat by lia. rewrite Nat.mod_add by discriminate. reflexivity.
      * f_equal. lia.
    + rewrite (digits_nl c D). apply nl_iff in D. rewrite (nl_val c D), D, IH by assumption. f_equal; lia.
Qed.

Lemma skip_blank nl : forall s, blank nl -> (forall c r, s = c :: r -> ~ newline c) -> skip_nl (nl ++ s) = (nlen nl, s).
Proof.
  induction nl as [|c nl IH]; intros s B H.
  - cbn [app]. change (nlen (@nil byte)) with 0. destruct s as [|c r]; [reflexivity|]. cbn [skip_nl].
    destruct (is_nl c) eqn:E; [|reflexivity]. apply nl_iff in E. destruct (H c r eq_refl E).
  - inversion B as [|? ? N B']; subst. rewrite <- app_comm_cons. cbn [skip_nl]. apply nl_iff in N. rewrite N, (IH s B' H).
    f_equal. unfold nlen. cbn [length]. lia.
Qed.
(** Every text is newlines and then nothing, or something else. *)
Lemma span_blank s : exists nl r, s = nl ++ r /\ blank nl /\ (forall c r', r = c :: r' -> ~ newline c).
Proof.
  induction s as [|c s (nl & r & -> & B & H)].
  - exists [], []. split; [reflexivity|]. split; [constructor|]. intros c r' Q. discriminate Q.
  - destruct (is_nl c) eqn:E.
    + exists (c :: nl), r. split; [reflexivity|]. split; [constructor; [now apply nl_iff|exact B]|exact H].
    + exists [], (c :: nl ++ r). split; [reflexivity|]. split; [constructor|]. intros c' r' Q. injection Q as <- _. now apply not_nl.
Qed.
Lemma span_plain s : exists l r, s = l ++ r /\ plain l /\ (forall c r', r = c :: r' -> ~ digit c /\ ~ newline c).
Proof.
  induction s as [|c s (l & r & -> & P & H)].
  - exists [], []. split; [reflexivity|]. split; [constructor|]. intros c r' Q. discriminate Q.
  - destruct (b64_val c) as [n|] eqn:V; [|destruct (is_nl c) eqn:E].
    + exists (c :: l), r. split; [reflexivity|]. split; [|exact H]. constructor; [left; apply digit_val; now exists n|exact P].
    + exists (c :: l), r. split; [reflexivity|]. split; [|exact H]. constructor; [right; now apply nl_iff|exact P].
    + exists [], (c :: l ++ r). split; [reflexivity|]. split; [constructor|]. intros c' r' Q. injection Q as <- _.
      split; [now apply not_digit|now apply not_nl].
Qed.

Lemma fault_at l s : plain l -> b64_fault (l ++ s) = b64_fault_from (nlen l) (digits l mod 4) s.
Proof. intros P. unfold b64_fault. rewrite fault_plain by (lia || exact P). reflexivity. Qed.
Lemma mod4 n : (n mod 4 < 4)%nat.
Proof. apply Nat.mod_upper_bound. discriminate. Qed.
Lemma garbage_none si nl : blank nl -> b64_garbage si nl = None.
Proof.
  intros B. unfold b64_garbage. replace nl with (nl ++ []) by apply app_nil_r. rewrite skip_blank; [reflexivity|exact B|]. intros c r Q. discriminate Q.
Qed.
Lemma garbage_some si nl c r : blank nl -> ~ newline c -> b64_garbage si (nl ++ c :: r) = Some (si + nlen nl).
Proof. intros B H. unfold b64_garbage. rewrite skip_blank; [reflexivity|exact B|]. intros c' r' Q. injection Q as <- _. exact H. Qed.
Lemma fault_pad si j r : b64_fault_from si j (x3d :: r) =
  match j with
  | 2%nat => match skip_nl r with
             | (n, []) => Some (si + 1 + n)
             | (n, p :: r') => if byte_eqb p x3d then b64_garbage (si + 1 + n + 1) r' else Some (si + n)
             end
  | 3%nat => b64_garbage (si + 1) r
  | _ => Some si
  end.
Proof. reflexivity. Qed.
Lemma not_nl_pad : ~ newline x3d.
Proof. intros [H|H]; discriminate H. Qed.
Lemma fault_padded w s : padded w -> b64_fault (w ++ s) = b64_garbage (nlen w) s.
Proof.
  intros [l P D|l nl P D B].
  - rewrite <- app_assoc. rewrite fault_at by exact P. rewrite D. cbn [app]. rewrite fault_pad. f_equal. unfold nlen. rewrite app_length. cbn [length]. lia.
  - replace ((l ++ x3d :: nl ++ [x3d]) ++ s) with (l ++ x3d :: nl ++ x3d :: s).
    2:{ rewrite <- app_assoc. cbn [app]. rewrite <- app_assoc. reflexivity. }
    rewrite fault_at by exact P. rewrite D, fault_pad, skip_blank; [|exact B|intros c r Q; injection Q as <- _; exact not_nl_pad].
    change (byte_eqb x3d x3d) with true. cbv iota. f_equal. unfold nlen. rewrite app_length. cbn [length]. rewrite app_length. cbn [length]. lia.
Qed.

Lemma offends_fault p k : offends p k -> b64_fault p = Some k.
Proof.
  intros [l c r P D N Q|l r P D|l P D|l nl P D B|l nl c r P D B N Q|w nl c r W B N].
  - rewrite fault_at by exact P. cbn [b64_fault_from]. apply not_digit in D. apply not_nl in N. apply eqb_false in Q. rewrite D, N, Q. reflexivity.
  - rewrite fault_at by exact P. rewrite fault_pad. destruct (digits l mod 4)%nat as [|[|m] ]; [reflexivity|reflexivity|lia].
  - rewrite <- (app_nil_r l) at 1. rewrite fault_at by exact P. cbn [b64_fault_from]. destruct (digits l mod 4)%nat; [now destruct D|reflexivity].
  - rewrite fault_at by exact P. rewrite D, fault_pad. rewrite <- (app_nil_r nl) at 1. rewrite skip_blank; [reflexivity|exact B|]. intros c r Q. discriminate Q.
  - rewrite fault_at by exact P. rewrite D, fault_pad, skip_blank; [|exact B|intros c' r' Q'; injection Q' as <- _; exact N].
    apply eqb_false in Q. rewrite Q. reflexivity.
  - rewrite fault_padded by exact W. now apply garbage_some.
Qed.

(** The three ways a text can be right. *)
Definition right (p : bytes) : Prop :=
  (plain p /\ (digits p mod 4 = 0)%nat) \/ exists w nl, p = w ++ nl /\ padded w /\ blank nl.
Lemma cases p : right p \/ exists k, offends p k.
Proof.
  destruct (span_plain p) as (l & r & -> & P & H). destruct r as [|c r].
  { rewrite app_nil_r. destruct (Nat.eq_dec (digits l mod 4) 0) as [E|E]; [left; now left|]. right. eexists. now apply bad_end. }
  destruct (H c r eq_refl) as (D & N). destruct (byte_eqb c x3d) eqn:Q.
  2:{ right. eexists. apply bad_char; [exact P|exact D|exact N|now apply eqb_false]. }
  apply eqb_true in Q. subst c. pose proof (mod4 (digits l)) as M. destruct (digits l mod 4)%nat as [|[|[|[|m] ] ] ] eqn:J; [| | | |lia].
  - right. eexists. apply bad_early; [exact P|rewrite J; lia].
  - right. eexists. apply bad_early; [exact P|rewrite J; lia].
  - destruct (span_blank r) as (nl & r' & -> & B & H'). destruct r' as [|c r'].
    { right. rewrite app_nil_r. eexists. now apply bad_half. }
    destruct (byte_eqb c x3d) eqn:Q.
    2:{ right. eexists. apply bad_pad; [exact P|exact J|exact B|apply (H' c r' eq_refl)|now apply eqb_false]. }
    apply eqb_true in Q. subst c. assert (l ++ x3d :: nl ++ x3d :: r' = (l ++ x3d :: nl ++ [x3d]) ++ r') as ->.
    { rewrite <- app_assoc. cbn [app]. rewrite <- app_assoc. reflexivity. }
    pose proof (padded_2 l nl P J B) as W. destruct (span_blank r') as (nl' & r'' & -> & B' & H''). destruct r'' as [|c r''].
    + left. right. rewrite app_nil_r. eexists _, nl'. split; [reflexivity|]. now split.
    + right. eexists. apply bad_after; [exact W|exact B'|apply (H'' c r'' eq_refl)].
  - assert (l ++ x3d :: r = (l ++ [x3d]) ++ r) as -> by now rewrite <- app_assoc.
    pose proof (padded_1 l P J) as W. destruct (span_blank r) as (nl' & r'' & -> & B' & H''). destruct r'' as [|c r''].
    + left. right. rewrite app_nil_r. eexists _, nl'. split; [reflexivity|]. now split.
    + right. eexists. apply bad_after; [exact W|exact B'|apply (H'' c r'' eq_refl)].
Qed.
Lemma right_fault p : right p -> b64_fault p = None.
Proof.
  intros [(P & D)|(w & nl & -> & W & B)].
  - rewrite <- (app_nil_r p). rewrite fault_at by exact P. rewrite D. reflexivity.
  - rewrite fault_padded by exact W. now apply garbage_none.
Qed.
Lemma fault_iff p k : b64_fault p = Some k <-> offends p k.
Proof.
  split; [|apply offends_fault]. intros H. destruct (cases p) as [R|(k' & O)].
  - apply right_fault in R. rewrite R in H. discriminate H.
  - pose proof (offends_fault p k' O) as E. rewrite E in H. injection H as <-. exact O.
Qed.

(** Agreement with the model of decoding. *)
Lemma skip_filter r : match skip_nl r with
  | (_, []) => filter (fun c => negb (is_nl c)) r = []
  | (_, p :: r') => is_nl p = false /\ filter (fun c => negb (is_nl c)) r = p :: filter (fun c => negb (is_nl c)) r'
  end.
Proof.
  induction r as [|c r IH]; [reflexivity|]. cbn [skip_nl filter]. destruct (is_nl c) eqn:E; cbn [negb].
  - destruct (skip_nl r) as [n [|p r'] ]; exact IH.
  - split; [exact E|reflexivity].
Qed.
Lemma garbage_filter si r : b64_garbage si r = None <-> filter (fun c => negb (is_nl c)) r = [].
Proof.
  unfold b64_garbage. pose proof (skip_filter r) as H. destruct (skip_nl r) as [n [|p r'] ]; [split; auto|].
  destruct H as (_ & ->). split; intros Q; discriminate Q.
Qed.
Lemma fault_decode s : forall si q, (length q < 4)%nat ->
  (b64_fault_from si (length q) s = None <-> exists t, b64_decode_from q s = Ok t).
Proof.
  induction s as [|c r IH]; intros si q L; cbn [b64_fault_from b64_decode_from].
  - destruct q as [|x q]; cbn [length]; [split; [intros _; now exists []|reflexivity]|]. split; [discriminate|intros (t & H); discriminate H].
  - destruct (b64_val c) as [v|].
    + destruct q as [|x [|y [|z [|u q] ] ] ]; cbn [length] in *; [| | | |lia].
      * apply (IH _ [v]). cbn [length]. lia.
      * apply (IH _ [x; v]). cbn [length]. lia.
      * apply (IH _ [x; y; v]). cbn [length]. lia.
      * change (Nat.eqb 3 3) with true. cbv iota. rewrite (IH _ []) by (cbn [length]; lia). cbn [length]. split.
        -- intros (t & ->). eexists. reflexivity.
        -- intros (t & H). destruct (b64_decode_from [] r) as [t'|e|]; cbn [bind] in H; [now exists t'|discriminate H|discriminate H].
    + destruct (is_nl c); [now apply IH|]. destruct (byte_eqb c x3d); [|split; [discriminate|intros (t & H); discriminate H] ].
      destruct q as [|x [|y [|z [|u q] ] ] ]; cbn [length] in *; [| | | |lia].
      * split; [discriminate|intros (t & H); discriminate H].
      * split; [discriminate|intros (t & H); discriminate H].
      * pose proof (skip_filter r) as H. destruct (skip_nl r) as [n [|p r'] ].
        -- rewrite H. split; [discriminate|intros (t & Q); discriminate Q].
        -- destruct H as (_ & ->). destruct (byte_eqb p x3d).
           ++ rewrite garbage_filter. split; [intros ->; eexists; reflexivity|].
              intros (t & Q). destruct (filter _ r'); [reflexivity|discriminate Q].
           ++ split; [discriminate|]. intros (t & Q). destruct (filter _ r'); discriminate Q.
      * rewrite garbage_filter. split; [intros ->; eexists; reflexivity|]. intros (t & Q). destruct (filter _ r); [reflexivity|discriminate Q].
Qed.
Lemma decode_err_only s : forall q e, b64_decode_from q s = Err e -> e = EBase64.
Proof.
  induction s as [|c r IH]; intros q e; cbn [b64_decode_from].
  - destruct q; intros H; [discriminate H|now injection H].
  - destruct (b64_val c) as [v|].
    + destruct q as [|x [|y [|z [|u q] ] ] ]; try apply IH.
      destruct (b64_decode_from [] r) as [t|e'|] eqn:E; cbn [bind]; intros H; [discriminate H| |discriminate H]. injection H as <-. now apply IH in E.
    + destruct (is_nl c); [apply IH|]. destruct (byte_eqb c x3d); [|intros H; now injection H].
      destruct q as [|x [|y [|z [|u q] ] ] ]; try (intros H; now injection H).
      * destruct (filter _ r) as [|p [|p' f] ]; try (intros H; now injection H). destruct (byte_eqb p x3d); intros H; [discriminate H|now injection H].
      * destruct (filter _ r) as [|p f]; intros H; [discriminate H|now injection H].
Qed.
