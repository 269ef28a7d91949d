(** Proofs for C69. *)
From Verif Require Export S_Asm P_Asm P_Pay.
From Coq Require Import ZifyBool ZifyNat ZifyN.

Lemma split_words t : words t (split_space t).
Proof.
  induction t as [|c t IH]; [apply words_one; intros []|]. cbn [split_space]. destruct (byte_eqb_spec c x20) as [->|N].
  - apply (words_more [] t); [intros []|assumption].
  - revert IH. generalize (split_space t). intros l IH. destruct IH as [w W|w t' ws W H].
    + apply words_one. intros [I|I]; [congruence|contradiction].
    + apply (words_more (c :: w)); [intros [I|I]; [congruence|contradiction]|assumption].
Qed.

Lemma split_plain w : ~ In x20 w -> split_space w = [w].
Proof.
  induction w as [|c w IH]; intros N; [reflexivity|]. cbn [split_space]. rewrite IH by (intros I; apply N; now right).
  destruct (byte_eqb_spec c x20) as [->|_]; [exfalso; apply N; now left|reflexivity].
Qed.
Lemma split_more w t : ~ In x20 w -> split_space (w ++ x20 :: t) = w :: split_space t.
Proof.
  induction w as [|c w IH]; intros N; [reflexivity|]. cbn [app split_space]. rewrite IH by (intros I; apply N; now right).
  destruct (byte_eqb_spec c x20) as [->|_]; [exfalso; apply N; now left|reflexivity].
Qed.
Lemma words_split t ws : words t ws -> split_space t = ws.
Proof. induction 1 as [w N|w t ws N _ IH]; [now apply split_plain|]. rewrite split_more by assumption. now rewrite IH. Qed.

(** ** the tables *)
Lemma lookup_str_some m k c : lookup_str m k = Some c -> In (k, c) m.
Proof.
  induction m as [|[k' v] m IH]; cbn [lookup_str]; [discriminate|]. destruct (bytes_eqb k k') eqn:E.
  - intros H. injection H as <-. apply bytes_eqb_eq in E. subst. now left.
  - intros H. right. auto.
Qed.
Lemma lookup_str_none m k : lookup_str m k = None -> forall c, ~ In (k, c) m.
Proof.
  induction m as [|[k' v] m IH]; cbn [lookup_str]; [intros _ c []|]. destruct (bytes_eqb k k') eqn:E; [discriminate|].
  intros H c [I|I]; [|now apply (IH H c)]. injection I as <- <-. assert (bytes_eqb k' k' = true) by now apply bytes_eqb_eq. congruence.
Qed.

Definition uniq (m : list (bytes * byte)) : bool :=
  forallb (fun kv => match lookup_str m (fst kv) with Some c => byte_eqb c (snd kv) | None => false end) m.
Lemma names_unique w c c' : In (w, c) opCodeStrings -> In (w, c') opCodeStrings -> c = c'.
Proof.
  assert (uniq opCodeStrings = true) as U by (vm_compute; reflexivity). unfold uniq in U. rewrite forallb_forall in U.
  intros I I'. apply U in I, I'. cbn [fst snd] in *. destruct (lookup_str opCodeStrings w); [|discriminate].
  apply byte_eqb_eq in I, I'. congruence.
Qed.
Lemma name_lookup_iff w c : lookup_str opCodeStrings w = Some c <-> In (w, c) opCodeStrings.
Proof.
  split; [apply lookup_str_some|]. intros I. destruct (lookup_str opCodeStrings w) as [c'|] eqn:E.
  - apply lookup_str_some in E. f_equal. eapply names_unique; eassumption.
  - now apply (lookup_str_none _ _ E) in I.
Qed.

Definition uniqv : bool := forallb (fun kv => bytes_eqb (lookup_val opCodeValues (fst kv)) (snd kv)) opCodeValues.
Lemma value_unique c w : In (c, w) opCodeValues -> lookup_val opCodeValues c = w.
Proof.
  assert (uniqv = true) as U by (vm_compute; reflexivity). unfold uniqv in U. rewrite forallb_forall in U.
  intros I. apply U in I. cbn [fst snd] in I. now apply bytes_eqb_eq in I.
Qed.
Lemma value_in c : In (c, lookup_val opCodeValues c) opCodeValues.
Proof.
  pose (P := fun c => existsb (fun kv => byte_eqb (fst kv) c && bytes_eqb (snd kv) (lookup_val opCodeValues c)) opCodeValues).
  assert (P c = true) as H by (apply all_bytes; vm_compute; reflexivity). unfold P in H. apply existsb_exists in H as ((k & v) & I & E).
  cbn [fst snd] in E. apply andb_true_iff in E as [E1 E2]. apply byte_eqb_eq in E1. apply bytes_eqb_eq in E2. now subst.
Qed.

Lemma shows_iff p w : shows p w <-> asm_word p = w.
Proof.
  split.
  - intros [c v I|q L]; [now apply value_unique|]. destruct q as [|a [|b q]]; cbn [length] in L; try reflexivity. lia.
  - intros <-. destruct p as [|a [|b p]]; [apply (shows_data []); discriminate|apply shows_op, value_in|apply (shows_data (a :: b :: p)); discriminate].
Qed.

(** ** the loop *)
Lemma push_hex_ok s w : lookup_str opCodeStrings w = None ->
  (exists d h, hex_text w d /\ shortest_header h (nlen d) /\ append_push_data_hex s w = (s ++ h ++ d, None)) \/
  (exists s' e, append_push_data_hex s w = (s', Some e) /\ forall x, ~ asm_means w x).
Proof.
  intros N. unfold append_push_data_hex. destruct (of_hex_text w) as [(d & H & ->)|(H & e & ->)].
  - destruct (N.ltb_spec (nlen d) 4294967296) as [L|L].
    + destruct (push_prefix_ok d L) as [h E]. left. exists d, h. split; [assumption|]. split; [now apply push_shortest|].
      rewrite push_array, append_array_ok by (intros q [<-|[]]; assumption). cbn [map concat]. unfold push_wire. rewrite E. now rewrite app_nil_r.
    + right. unfold append_push_data, encode_parts. cbn [encode_loop]. rewrite push_prefix_big by assumption.
      eexists _, _. split; [reflexivity|]. intros x M. inversion M as [? c I|? d' h NI HT SH]; subst.
      * apply name_lookup_iff in I. congruence.
      * apply hex_text_iff in H, HT. assert (d' = d) as -> by congruence. destruct SH as [A _].
        inversion A as [c B|c|l B|l B]; subst; try (pose proof (b2n_lt c); lia);
          match goal with E : length l = _ |- _ => pose proof (le_get_bound l) as X; rewrite E in X end; lia.
  - right. eexists _, _. split; [reflexivity|]. intros x M. inversion M as [? c I|? d' h NI HT SH]; subst.
    + apply name_lookup_iff in I. congruence.
    + now apply H in HT.
Qed.

Lemma means_det w x y : asm_means w x -> asm_means w y -> x = y.
Proof.
  intros M M'. inversion M as [? c I|? d h NI HT SH]; subst; inversion M' as [? c' I'|? d' h' NI' HT' SH']; subst.
  - f_equal. eapply names_unique; eassumption.
  - now apply NI' in I.
  - now apply NI in I'.
  - apply hex_text_iff in HT, HT'. assert (d' = d) as -> by congruence.
    assert (nlen d < 4294967296) as L.
    { destruct SH as [A _]. inversion A as [c B|c|l B|l B]; subst; try (pose proof (b2n_lt c); lia);
          match goal with E : length l = _ |- _ => pose proof (le_get_bound l) as X; rewrite E in X end; lia. }
    pose proof (shortest_unique _ _ L SH) as E. pose proof (shortest_unique _ _ L SH') as E'. congruence.
Qed.

Lemma loop_ok ws : forall s r, asm_loop s ws = Ok r <-> exists xs, Forall2 asm_means ws xs /\ r = s ++ concat xs.
Proof.
  induction ws as [|w ws IH]; intros s r; cbn [asm_loop].
  - split.
    + intros H. injection H as <-. exists []. split; [constructor|now rewrite app_nil_r].
    + intros (xs & F & ->). inversion F; subst. cbn [concat]. now rewrite app_nil_r.
  - destruct (lookup_str opCodeStrings w) as [c|] eqn:L.
    + rewrite IH. apply name_lookup_iff in L. unfold append_opcode. split.
      * intros (xs & F & ->). exists ([c] :: xs). split; [constructor; [now apply means_op|assumption]|]. cbn [concat]. now rewrite <- app_assoc.
      * intros (xs & F & ->). inversion F as [|? x ? xs' M F']; subst. exists xs'. split; [assumption|].
        rewrite (means_det _ _ _ M (means_op _ _ L)). cbn [concat]. now rewrite <- app_assoc.
    + destruct (push_hex_ok s w L) as [(d & h & H & S & ->)|(s' & e & -> & N)].
      * assert (asm_means w (h ++ d)) as M0 by (apply means_data; [now apply lookup_str_none|assumption|assumption]).
        rewrite IH. split.
        -- intros (xs & F & ->). exists ((h ++ d) :: xs). split; [now constructor|]. cbn [concat]. now rewrite <- !app_assoc.
        -- intros (xs & F & ->). inversion F as [|? x ? xs' M F']; subst. exists xs'. split; [assumption|].
           rewrite (means_det _ _ _ M M0). cbn [concat]. now rewrite <- !app_assoc.
      * split; [discriminate|]. intros (xs & F & ->). inversion F as [|? x ? xs' M F']; subst. now apply N in M.
Qed.

Lemma loop_fail ws : forall s, (exists r, asm_loop s ws = Ok r) \/ asm_loop s ws = Err EInvalidOpcodeData.
Proof.
  induction ws as [|w ws IH]; intros s; cbn [asm_loop]; [left; eauto|].
  destruct (lookup_str opCodeStrings w); [apply IH|]. destruct (append_push_data_hex s w) as [s' [e|]]; [now right|apply IH].
Qed.

Lemma from_asm_iff t s : script_from_asm t = Ok s <-> exists ws xs, words t ws /\ Forall2 asm_means ws xs /\ s = concat xs.
Proof.
  unfold script_from_asm. rewrite loop_ok. split.
  - intros (xs & F & ->). exists (split_space t), xs. split; [apply split_words|]. auto.
  - intros (ws & xs & W & F & ->). apply words_split in W. subst ws. exists xs. auto.
Qed.

(** ** ToASM *)
Lemma core_exists ps : exists core, core_of ps core.
Proof.
  assert (forall l : list bytes, exists a r, l = repeat [] a ++ r /\ hd_error r <> Some []) as X.
  { induction l as [|[|c w] l (a & r & E & H)].
    - exists 0%nat, []. split; [reflexivity|discriminate].
    - exists (S a), r. cbn [repeat app]. now rewrite E.
    - exists 0%nat, ((c :: w) :: l). split; [reflexivity|discriminate]. }
  destruct (X ps) as (a & r & E & H). destruct (X (rev r)) as (b & q & E' & H').
  exists (rev q), a, b. assert (r = rev q ++ repeat [] b) as ->.
  { rewrite <- (rev_involutive r), E', rev_app_distr. f_equal. clear. induction b as [|b IH]; [reflexivity|]. cbn [repeat rev]. rewrite IH. 
    clear. induction b as [|b IH]; [reflexivity|]. cbn [repeat app]. now rewrite IH. }
  split; [assumption|]. split; [|now rewrite rev_involutive].
  destruct (rev q) as [|x l]; [discriminate|]. exact H.
Qed.

Lemma join_app_r (w : bytes) ws : ws <> [] -> join (w :: ws) = w ++ x20 :: join ws.
Proof. destruct ws; [congruence|reflexivity]. Qed.

Lemma trim_left_spaces a w : trim_left (repeat x20 a ++ w) = trim_left w.
Proof. induction a as [|a IH]; [reflexivity|]. exact IH. Qed.

Lemma repeat_rev {A} (x : A) n : rev (repeat x n) = repeat x n.
Proof. induction n as [|n IH]; [reflexivity|]. cbn [repeat rev]. rewrite IH. clear. induction n as [|n IH]; [reflexivity|]. cbn [repeat app]. now rewrite IH. Qed.

Lemma trim_around a b w : (w = [] \/ (is_space (hd x00 w) = false /\ is_space (last w x00) = false)) ->
  trim_space (repeat x20 a ++ w ++ repeat x20 b) = w.
Proof.
  intros H. unfold trim_space. rewrite trim_left_spaces. destruct w as [|c w].
  - cbn [app]. rewrite <- (app_nil_r (repeat x20 b)), trim_left_spaces. reflexivity.
  - destruct H as [H|[H1 H2]]; [discriminate|]. cbn [hd] in H1. cbn [app]. rewrite trim_left_word by assumption.
    change (c :: w ++ repeat x20 b) with ((c :: w) ++ repeat x20 b). rewrite rev_app_distr, repeat_rev, trim_left_spaces.
    destruct (exists_last (l := c :: w)) as (l' & z & E); [discriminate|]. rewrite E in *. rewrite last_last in H2.
    rewrite rev_app_distr. cbn [rev app]. rewrite trim_left_word by assumption. cbn [rev]. now rewrite rev_involutive.
Qed.

(** the text behind the loop, for any list of elements *)
Lemma spaced_empties a : concat (map (fun p => x20 :: asm_word p) (repeat [] a)) = repeat x20 a.
Proof. induction a as [|a IH]; [reflexivity|]. cbn [repeat map concat]. rewrite IH. reflexivity. Qed.

Lemma word_empty p : asm_word p = [] -> p = [].
Proof. intros E. destruct p as [|c p]; [reflexivity|]. exfalso. destruct (word_props (c :: p)) as [N _]; [discriminate|]. contradiction. Qed.
Lemma word_no20 p : ~ In x20 (asm_word p).
Proof.
  destruct p as [|c p]; [intros []|]. destruct (word_props (c :: p)) as [_ N]; [discriminate|]. unfold no_space in N. rewrite forallb_forall in N.
  intros I. apply N in I. discriminate.
Qed.

Lemma join_first ws : hd_error ws <> Some [] -> (forall w, In w ws -> no_space w) -> ws <> [] -> is_space (hd x00 (join ws)) = false /\ join ws <> [].
Proof.
  intros H F N. destruct ws as [|w ws]; [congruence|]. assert (w <> []) as W by (intros ->; apply H; reflexivity).
  assert (no_space w) as NS by (apply F; now left). destruct ws as [|v ws].
  - cbn [join]. split; [now apply no_space_hd|assumption].
  - rewrite join_app_r by discriminate. destruct w as [|c w]; [congruence|]. split; [|discriminate]. exact (no_space_hd (c :: w) W NS).
Qed.

Lemma join_last ws : hd_error (rev ws) <> Some [] -> (forall w, In w ws -> no_space w) -> ws <> [] -> is_space (last (join ws) x00) = false.
Proof.
  induction ws as [|w ws IH]; intros H F N; [congruence|]. destruct ws as [|v ws].
  - cbn [join]. apply no_space_last; [intros ->; now apply H|apply F; now left].
  - rewrite join_app_r by discriminate.
    assert (is_space (last (join (v :: ws)) x00) = false) as X.
    { apply IH; [|intros y I; apply F; now right|discriminate].
      cbn [rev] in *. destruct (rev ws ++ [v]) as [|y l] eqn:E; [destruct (rev ws); discriminate|]. exact H. }
    destruct (join (v :: ws)) as [|c l] eqn:E.
    + (* the only possibility is the single empty word *)
      exfalso. destruct ws as [|u ws]; [cbn [join] in E; subst v; now apply H|]. rewrite join_app_r in E by discriminate. destruct v; discriminate.
    + rewrite <- E in *. destruct (exists_last (l := join (v :: ws))) as (l' & z & E'); [rewrite E; discriminate|]. rewrite E' in *. rewrite last_last in X.
      change (w ++ x20 :: l' ++ [z]) with (w ++ (x20 :: l') ++ [z]). rewrite app_assoc, last_last. exact X.
Qed.

Lemma words_no_space ps w : In w (map asm_word ps) -> no_space w.
Proof. intros I. apply in_map_iff in I as (p & <- & _). destruct p as [|c p]; [reflexivity|]. now apply word_props. Qed.

Lemma to_asm_core s ps core : decode_parts s = Ok ps -> core_of ps core -> script_to_asm s = Ok (join (map asm_word core)).
Proof.
  intros D (a & b & E & H1 & H2). unfold script_to_asm. rewrite D. cbn [bind]. f_equal. rewrite fold_words. cbn [app].
  rewrite E, !map_app, !concat_app, !spaced_empties. destruct core as [|p core].
  - cbn [map concat app join]. pose proof (trim_around a b [] (or_introl eq_refl)) as T. cbn [app] in T. exact T.
  - rewrite concat_join by discriminate. set (ws := map asm_word (p :: core)) in *.
    assert (ws <> []) as NE by discriminate.
    assert (hd_error ws <> Some []) as H1' by (unfold ws; cbn [map hd_error]; intros Q; injection Q as Q; apply word_empty in Q; subst; now apply H1).
    assert (hd_error (rev ws) <> Some []) as H2'.
    { unfold ws. rewrite <- map_rev. destruct (rev (p :: core)) as [|q l] eqn:R; [discriminate|]. cbn [map hd_error] in *. intros Q. injection Q as Q.
      apply word_empty in Q. subst. now apply H2. }
    assert (forall w, In w ws -> no_space w) as NS by (intros w; apply words_no_space).
    destruct (join_first ws H1' NS NE) as [J1 J2]. pose proof (join_last ws H2' NS NE) as J3.
    replace (repeat x20 a ++ (x20 :: join ws) ++ repeat x20 b) with (repeat x20 (S a) ++ join ws ++ repeat x20 b).
    + apply trim_around. right. auto.
    + replace (S a) with (a + 1)%nat by lia. rewrite repeat_app, <- app_assoc. reflexivity.
Qed.

Lemma join_words ws : ws <> [] -> (forall w, In w ws -> ~ In x20 w) -> words (join ws) ws.
Proof.
  induction ws as [|w ws IH]; intros N F; [congruence|]. destruct ws as [|v ws].
  - apply words_one, F. now left.
  - rewrite join_app_r by discriminate. apply words_more; [apply F; now left|]. apply IH; [discriminate|]. intros y I. apply F. now right.
Qed.

Lemma comes_back_means p : nlen p < 4294967296 -> exists x, comes_back p x /\ asm_means (asm_word p) x.
Proof.
  intros L. destruct p as [|c [|d p]].
  - exists [x00]. destruct (push_prefix_ok [] L) as [h E]. split.
    + right. split; [discriminate|]. exists [x00]. split; [|reflexivity]. apply push_shortest. reflexivity.
    + change [x00] with ([x00] ++ []). apply means_data; [|constructor|apply push_shortest; reflexivity].
      apply lookup_str_none. vm_compute. reflexivity.
  - exists [c]. split; [left; auto|]. apply means_op. cbn [asm_word]. apply name_lookup_iff, name_lookup.
  - destruct (push_prefix_ok (c :: d :: p) L) as [h E]. exists (h ++ c :: d :: p). split.
    + right. split; [discriminate|]. exists h. split; [now apply push_shortest|reflexivity].
    + cbn [asm_word]. apply means_data; [|apply hex_text_encode|now apply push_shortest].
      apply lookup_str_none, lookup_hex, hex_encode_hex.
Qed.
