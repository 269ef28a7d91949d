(** Property theorems on the memory model: C56 (scripts of a parsed transaction share the
    caller's buffer), C57 (BuildMerkleRootFromCoinbase and its argument's buffer), C05 (the
    argument of SortByteArrays is left sorted). *)
From Verif Require Import P_Mem.
From Coq Require Import ZifyBool ZifyNat ZifyN.

(** ** C56 *)

(** Parsing in memory gives the same outcome and the same values as the parser of C14-C18. *)
Theorem C56_parse_value : forall h b, wf_sl h b ->
  (forall m, h_tx h b = Ok m -> tx_from_slice (view h b) = Ok (abs_tx h m)) /\
  (forall t, tx_from_slice (view h b) = Ok t -> exists m, h_tx h b = Ok m /\ abs_tx h m = t) /\
  (forall e, h_tx h b = Err e <-> tx_from_slice (view h b) = Err e) /\
  (h_tx h b = Panic <-> tx_from_slice (view h b) = Panic).
Proof.
  intros h b W. rewrite (h_tx_refines h b W). destruct (h_tx h b) as [m|e|]; cbn [rmap].
  - split; [intros m' E; now injection E as <-|]. split; [intros t E; injection E as <-; now exists m|]. split; [intros e; split; discriminate|split; discriminate].
  - split; [discriminate|]. split; [discriminate|]. split; [intros e'; split; intros E; injection E as <-; reflexivity|split; discriminate].
  - split; [discriminate|]. split; [discriminate|]. split; [intros e; split; discriminate|split; reflexivity].
Qed.
Print Assumptions C56_parse_value.

(** Every script is a window into the caller's array, with the whole rest of the
    caller's capacity behind it; the windows come in order, at least nine bytes apart,
    and end four bytes before the end of the buffer. *)
Theorem C56_layout : forall h b m, wf_sl h b -> h_tx h b = Ok m ->
  Forall (fun s => wf_sl h s /\ s_arr s = s_arr b /\ (s_off s + s_cap s = s_off b + s_cap b)%nat /\
                   (s_off b <= s_off s)%nat /\ (s_off s + s_len s + 4 <= s_off b + s_len b)%nat) (scripts m) /\
  StronglySorted (after 9) (scripts m).
Proof.
  intros h b m W E. pose proof (h_tx_place h b m W E) as [F S]. split; [|exact S].
  eapply Forall_impl; [|exact F]. cbn. intros s (A & B & C & D & G). split; [assumption|]. split; [assumption|]. split; [assumption|].
  destruct A as (_ & A & _). destruct W as (_ & W & _). lia.
Qed.
Print Assumptions C56_layout.

(** an append that does not fit touches nothing that existed before *)
Theorem C56_append_moves : forall k h s d h' s', wf_sl h s -> (s_cap s < s_len s + length d)%nat -> h_append k h s d = (h', s') ->
  get h' s' = get h s ++ d /\ (length h <= s_arr s')%nat /\ (forall a, (a < length h)%nat -> arr h' a = arr h a).
Proof.
  intros k h s d h' s' W L E. split; [exact (append_value _ _ _ _ _ _ W E)|]. rewrite append_moves in E by assumption. split.
  - unfold h_alloc in E. injection E as _ <-. cbn [s_arr]. lia.
  - intros a La. replace h' with (fst (h_alloc h (get h s ++ d) k)) by now rewrite E. now apply arr_alloc_old.
Qed.
Print Assumptions C56_append_moves.

(** an append that fits overwrites exactly the bytes behind the slice *)
Theorem C56_append_in_place : forall k h s d h' s', wf_sl h s -> (s_len s + length d <= s_cap s)%nat -> h_append k h s d = (h', s') ->
  get h' s' = get h s ++ d /\ s_arr s' = s_arr s /\ s_off s' = s_off s /\ length h' = length h /\
  overwritten (arr h (s_arr s)) (s_off s + s_len s) d (arr h' (s_arr s)) /\
  (forall a, a <> s_arr s -> arr h' a = arr h a).
Proof.
  intros k h s d h' s' W L E. split; [exact (append_value _ _ _ _ _ _ W E)|]. rewrite append_fits in E by assumption. injection E as <- <-. cbn [s_arr s_off].
  split; [reflexivity|]. split; [reflexivity|]. split; [unfold h_write; apply set_nth_length|]. destruct W as (A & B & C & _). split.
  - rewrite h_write_arr, Nat.eqb_refl by assumption. apply write_overwritten. lia.
  - intros a Na. rewrite h_write_arr by assumption. apply Nat.eqb_neq in Na. now rewrite Na.
Qed.
Print Assumptions C56_append_in_place.

Lemma sorted_nth {A} (R : A -> A -> Prop) l : StronglySorted R l -> forall i j x y, (i < j)%nat -> nth_error l i = Some x -> nth_error l j = Some y -> R x y.
Proof.
  induction 1 as [|z l S IH F]; intros i j x y L X Y; [destruct i; discriminate|].
  destruct j as [|j]; [lia|]. cbn [nth_error] in Y. destruct i as [|i]; cbn [nth_error] in X.
  - injection X as <-. rewrite Forall_forall in F. apply F. exact (nth_error_In _ _ Y).
  - now apply (IH i j); [lia|..].
Qed.

(** What appending to the [i]-th script of a parsed transaction does to every script:
    earlier ones never change; if it does not fit in the buffer no other script
    changes; if it fits, byte [n] of a later script is replaced by the appended byte
    that lands there, if one does. *)
Theorem C56_append_effect : forall k h b m i si d h' s', wf_sl h b -> h_tx h b = Ok m -> nth_error (scripts m) i = Some si ->
  h_append k h si d = (h', s') ->
  get h' s' = get h si ++ d /\
  (forall j sj, nth_error (scripts m) j = Some sj -> (j <= i)%nat -> get h' sj = get h sj) /\
  ((s_cap si < s_len si + length d)%nat -> get h' b = get h b /\ forall j sj, nth_error (scripts m) j = Some sj -> get h' sj = get h sj) /\
  ((s_len si + length d <= s_cap si)%nat -> forall j sj n c, nth_error (scripts m) j = Some sj -> (i < j)%nat ->
     nth_error (get h sj) n = Some c ->
     nth_error (get h' sj) n = Some (nth (s_off sj + n - (s_off si + s_len si)) d c)).
Proof.
  intros k h b m i si d h' s' W E I A. destruct (C56_layout h b m W E) as [F S]. rewrite Forall_forall in F.
  destruct (F si (nth_error_In _ _ I)) as (Wi & Ai & Ci & Oi & Li).
  split; [exact (append_value _ _ _ _ _ _ Wi A)|].
  destruct (Nat.le_gt_cases (s_len si + length d) (s_cap si)) as [Fi|Fi].
  - rewrite append_fits in A by assumption. injection A as <- <-. destruct Wi as (W1 & W2 & W3 & W4).
    assert (s_off si + s_len si + length d <= length (arr h (s_arr si)))%nat as Wd by lia. split; [|split; [lia|]].
    + intros j sj J L. apply h_write_other; [assumption|assumption|]. destruct (Nat.eq_dec i j) as [<- |Nj]; [assert (sj = si) as -> by congruence; lia|].
      pose proof (sorted_nth _ _ S j i sj si ltac:(lia) J I) as [_ G]. lia.
    + intros _ j sj n c J L N. rewrite (h_write_get _ _ _ _ _ _ c W1 Wd N).
      pose proof (sorted_nth _ _ S i j si sj L I J) as [G1 G2].
      replace (Nat.eqb (s_arr sj) (s_arr si)) with true by (symmetry; apply Nat.eqb_eq; congruence).
      replace (Nat.leb (s_off si + s_len si) (s_off sj + n)) with true by (symmetry; apply Nat.leb_le; lia). reflexivity.
  - rewrite append_moves in A by assumption. assert (forall t, (s_arr t < length h)%nat -> get h' t = get h t) as O.
    { intros t Lt. apply get_old. replace h' with (fst (h_alloc h (get h si ++ d) k)) by now rewrite A. now apply arr_alloc_old. }
    split; [|split; [|lia]].
    + intros j sj J _. apply O. exact (proj1 (proj1 (F sj (nth_error_In _ _ J)))).
    + intros _. split; [apply O, W|]. intros j sj J. apply O. exact (proj1 (proj1 (F sj (nth_error_In _ _ J)))).
Qed.
Print Assumptions C56_append_effect.

(** appending at most nine bytes (any opcode, a push of at most eight bytes) leaves
    every other script as it was *)
Theorem C56_short_append_safe : forall k h b m i si d h' s' j sj, wf_sl h b -> h_tx h b = Ok m -> nth_error (scripts m) i = Some si ->
  h_append k h si d = (h', s') -> (length d <= 9)%nat -> nth_error (scripts m) j = Some sj -> get h' sj = get h sj.
Proof.
  intros k h b m i si d h' s' j sj W E I A L J. destruct (C56_layout h b m W E) as [F S]. rewrite Forall_forall in F.
  destruct (F si (nth_error_In _ _ I)) as (Wi & Ai & Ci & Oi & Li).
  destruct (C56_append_effect _ _ _ _ _ _ _ _ _ W E I A) as (_ & B1 & B2 & _).
  destruct (Nat.le_gt_cases j i) as [Ji|Ji]; [now apply (B1 j)|].
  destruct (Nat.le_gt_cases (s_len si + length d) (s_cap si)) as [Fi|Fi]; [|exact (proj2 (B2 Fi) j sj J)].
  rewrite append_fits in A by assumption. injection A as <- <-. destruct Wi as (W1 & W2 & W3 & W4).
  apply h_write_other; [assumption|lia|]. pose proof (sorted_nth _ _ S i j si sj Ji I J) as [_ G]. lia.
Qed.
Print Assumptions C56_short_append_safe.

(** but the caller's buffer does change: with any append that fits, the bytes behind the
    script in the buffer become those of [d] *)
Theorem C56_append_changes_buffer : forall k h b m i si d h' s' n, wf_sl h b -> h_tx h b = Ok m -> nth_error (scripts m) i = Some si ->
  h_append k h si d = (h', s') -> (s_len si + length d <= s_cap si)%nat -> (n < length d)%nat ->
  let p := (s_off si + s_len si - s_off b + n)%nat in (p < s_len b)%nat -> nth_error (get h' b) p = nth_error d n.
Proof.
  intros k h b m i si d h' s' n W E I A Fi Nn p P. destruct (C56_layout h b m W E) as [F S]. rewrite Forall_forall in F.
  destruct (F si (nth_error_In _ _ I)) as (Wi & Ai & Ci & Oi & Li).
  destruct (C56_append_in_place _ _ _ _ _ _ Wi Fi A) as (_ & _ & _ & _ & (_ & O & _) & _).
  rewrite nth_get. replace (Nat.ltb p (s_len b)) with true by (symmetry; now apply Nat.ltb_lt). rewrite <- Ai.
  rewrite <- (O n Nn). f_equal. unfold p. lia.
Qed.
Print Assumptions C56_append_changes_buffer.

(** The expectation is false for every parsed transaction: for any script and any later
    non-empty one, some append to the first changes the second. *)
Theorem C56_never_independent : forall k h b m i j si sj, wf_sl h b -> h_tx h b = Ok m ->
  nth_error (scripts m) i = Some si -> nth_error (scripts m) j = Some sj -> (i < j)%nat -> (0 < s_len sj)%nat ->
  exists d h' s', h_append k h si d = (h', s') /\ get h' sj <> get h sj.
Proof.
  intros k h b m i j si sj W E I J L P. destruct (C56_layout h b m W E) as [F S]. rewrite Forall_forall in F.
  destruct (F si (nth_error_In _ _ I)) as (Wi & Ai & Ci & Oi & Li). destruct (F sj (nth_error_In _ _ J)) as (Wj & Aj & Cj & Oj & Lj).
  pose proof (sorted_nth _ _ S i j si sj L I J) as [_ G].
  pose proof (get_length _ _ Wj) as GL. destruct (get h sj) as [|c r] eqn:GE; [cbn [length] in GL; lia|].
  set (c' := if Byte.eqb c x00 then x01 else x00). assert (c' <> c) as Nc by (unfold c'; destruct c; discriminate).
  set (d := repeat c' (s_off sj + 1 - (s_off si + s_len si))).
  destruct (h_append k h si d) as [h' s'] eqn:A. exists d, h', s'. split; [exact A|].
  destruct (C56_append_effect _ _ _ _ _ _ _ _ _ W E I A) as (_ & _ & _ & B).
  assert (s_len si + length d <= s_cap si)%nat as Fi by (unfold d; rewrite repeat_length; destruct Wj as (_ & Wj & _); lia).
  specialize (B Fi j sj 0%nat c J L). rewrite GE in B. specialize (B eq_refl). intros X. rewrite X in B. cbn [nth_error] in B.
  injection B as B. apply Nc. rewrite B. rewrite (nth_indep _ c c') by (unfold d; rewrite repeat_length; lia). unfold d. now rewrite nth_repeat.
Qed.
Print Assumptions C56_never_independent.

(** writing to the buffer after parsing changes the parsed transaction *)
Theorem C56_buffer_write_changes_script : forall h b m i si n c h', wf_sl h b -> h_tx h b = Ok m -> nth_error (scripts m) i = Some si ->
  (n < s_len si)%nat -> h_store h b (s_off si - s_off b + n) c = Ok h' ->
  nth_error (get h' si) n = Some c.
Proof.
  intros h b m i si n c h' W E I N H. destruct (C56_layout h b m W E) as [F S]. rewrite Forall_forall in F.
  destruct (F si (nth_error_In _ _ I)) as (Wi & Ai & Ci & Oi & Li). pose proof (get_length _ _ Wi) as GL.
  unfold h_store in H. destruct (Nat.ltb _ _) eqn:L; [|discriminate]. injection H as <-. destruct W as (W1 & W2 & W3 & W4).
  destruct (nth_error (get h si) n) as [c0|] eqn:Q; [|apply nth_error_None in Q; lia].
  rewrite (h_write_get h (s_arr b) _ [c] si n c0 W1); [|cbn [length]; lia|assumption].
  rewrite Ai, Nat.eqb_refl. cbn [andb]. replace (Nat.leb _ _) with true by (symmetry; apply Nat.leb_le; lia).
  replace (s_off si + n - (s_off b + (s_off si - s_off b + n)))%nat with 0%nat by lia. reflexivity.
Qed.
Print Assumptions C56_buffer_write_changes_script.

(** the builder methods on a script in memory give the values of C10-C12, wherever the
    script lies, and are appends of one byte or of the encoded push; a failed one changes
    nothing *)
Theorem C56_builders_value : forall k h s o d, wf_sl h s ->
  (forall h' s', h_append_opcode k h s o = (h', s') -> get h' s' = append_opcode (get h s) o) /\
  (forall h' s' e, h_append_push_data k h s d = (h', s', e) -> append_push_data (get h s) d = (get h' s', e)) /\
  (forall h' s' e, h_append_push_data k h s d = (h', s', Some e) -> h' = h /\ s' = s).
Proof.
  intros k h s o d W. split; [|split].
  - intros h' s' E. exact (append_value _ _ _ _ _ _ W E).
  - intros h' s' e. unfold h_append_push_data, append_push_data. destruct (encode_parts [d]) as [p|e'|]; [|intros E; injection E as <- <- <-; reflexivity..].
    destruct (h_append k h s p) as [h1 s1] eqn:E. intros X. injection X as <- <- <-. now rewrite (append_value _ _ _ _ _ _ W E).
  - intros h' s' e. unfold h_append_push_data. destruct (encode_parts [d]) as [p|e'|]; [|intros E; injection E as <- <- _; auto|discriminate].
    destruct (h_append k h s p) as [h1 s1]. discriminate.
Qed.
Print Assumptions C56_builders_value.

(** A transaction with one input and two outputs in a 93-byte buffer: pushing twelve
    bytes onto the first output's script rewrites the second output's script. *)
Definition ex_tx : bytes :=
  [x01;x00;x00;x00] ++ [x01] ++ repeat x11 32 ++ [x00;x00;x00;x00] ++ [x01;x51] ++ [xff;xff;xff;xff] ++
  [x02] ++ [x01;x00;x00;x00;x00;x00;x00;x00] ++ [x02;x52;x53] ++ [x02;x00;x00;x00;x00;x00;x00;x00] ++ [x03;x54;x55;x56] ++ [x00;x00;x00;x00].
Definition ex_heap : heap := [ex_tx].
Definition ex_buf : sl := mk_sl 0 0 (length ex_tx) (length ex_tx).

Example C56_example :
  wf_sl ex_heap ex_buf /\
  exists m s0 s1 s2, h_tx ex_heap ex_buf = Ok m /\ scripts m = [s0; s1; s2] /\
    get ex_heap s0 = [x51] /\ get ex_heap s1 = [x52; x53] /\ get ex_heap s2 = [x54; x55; x56] /\
    let '(h', s1', e) := h_append_push_data 7 ex_heap s1 (repeat xaa 10) in
    e = None /\ get h' s1' = [x52; x53; x0a] ++ repeat xaa 10 /\ get h' s0 = [x51] /\ get h' s2 = [xaa; xaa; x56] /\
    get h' ex_buf <> ex_tx.
Proof.
  split; [vm_compute; repeat split; lia|].
  destruct (h_tx ex_heap ex_buf) as [m|e|] eqn:E; [|vm_compute in E; discriminate..].
  vm_compute in E. injection E as <-. eexists _, _, _, _. split; [reflexivity|]. split; [reflexivity|].
  vm_compute. repeat split; discriminate.
Qed.

(** ** C57 *)

(** the root does not depend on the memory layout *)
Theorem C57_value : forall k h c branches, wf_sl h c ->
  let r := h_merkle k h c branches in get (fst r) (snd r) = build_merkle_root_from_coinbase (get h c) branches.
Proof. intros k h c branches W. exact (proj1 (merkle_all k h c branches W)). Qed.
Print Assumptions C57_value.

(** the coinbase hash itself is never changed *)
Theorem C57_argument_kept : forall k h c branches, wf_sl h c -> get (fst (h_merkle k h c branches)) c = get h c.
Proof.
  intros k h c branches W. destruct (merkle_all k h c branches W) as [_ H]. specialize (H (s_arr c) (proj1 W)).
  unfold get. rewrite H. destruct branches as [|b br]; [reflexivity|]. rewrite Nat.eqb_refl. destruct (Nat.leb _ _) eqn:L; [|reflexivity]. cbn [andb].
  destruct W as (A & B & C & _). pose proof (h_write_other h (s_arr c) (s_off c + s_len c) (hex_ignore b) c A ltac:(lia) ltac:(lia)) as X.
  unfold get in X. rewrite h_write_arr, Nat.eqb_refl in X by assumption. exact X.
Qed.
Print Assumptions C57_argument_kept.

(** exactly what is written: the decoded first branch, behind the argument, when it
    fits; nothing else *)
Theorem C57_writes : forall k h c b branches, wf_sl h c ->
  let h' := fst (h_merkle k h c (b :: branches)) in
  ((s_len c + length (hex_ignore b) <= s_cap c)%nat ->
     overwritten (arr h (s_arr c)) (s_off c + s_len c) (hex_ignore b) (arr h' (s_arr c))) /\
  ((s_cap c < s_len c + length (hex_ignore b))%nat -> arr h' (s_arr c) = arr h (s_arr c)) /\
  (forall a, (a < length h)%nat -> a <> s_arr c -> arr h' a = arr h a).
Proof.
  intros k h c b branches W h'. destruct (merkle_all k h c (b :: branches) W) as [_ H]. fold h' in H. split; [|split].
  - intros L. rewrite (H _ (proj1 W)), Nat.eqb_refl. replace (Nat.leb _ _) with true by (symmetry; now apply Nat.leb_le). cbn [andb].
    apply write_overwritten. destruct W as (A & B & C & _). lia.
  - intros L. rewrite (H _ (proj1 W)). replace (Nat.leb _ _) with false by (symmetry; now apply Nat.leb_gt). now rewrite andb_false_r.
  - intros a La Na. rewrite (H a La). apply Nat.eqb_neq in Na. now rewrite Na.
Qed.
Print Assumptions C57_writes.

(** with no spare capacity, or no branches, nothing that existed is written *)
Theorem C57_no_spare : forall k h c branches, wf_sl h c -> (s_cap c = s_len c)%nat \/ branches = [] ->
  forall a, (a < length h)%nat -> arr (fst (h_merkle k h c branches)) a = arr h a.
Proof.
  intros k h c branches W [E|E] a La.
  - exact (proj2 (merkle_rest k branches h c E W) a La).
  - now rewrite E.
Qed.
Print Assumptions C57_no_spare.

(** The expectation that the call does not write is false: the coinbase hash as the first
    32 bytes of a 64-byte buffer. *)
Theorem C57_buffer_intact_refuted : ~ (forall k h c branches, wf_sl h c ->
  forall a, (a < length h)%nat -> arr (fst (h_merkle k h c branches)) a = arr h a).
Proof.
  intros H.
  assert (forall h c b, wf_sl h c -> s_arr c = 0%nat -> (s_len c + length (hex_ignore b) <= s_cap c)%nat -> write_at (arr h 0) (s_off c + s_len c) (hex_ignore b) = arr h 0) as X.
  { intros h c b W A L. pose proof (proj1 W) as W1. rewrite A in W1. pose proof (proj2 (merkle_all 0 h c [b] W) 0%nat W1) as X.
    rewrite (H 0%nat h c [b] W 0%nat W1), A in X. cbn [Nat.eqb andb] in X. replace (Nat.leb _ _) with true in X by (symmetry; now apply Nat.leb_le). now symmetry. }
  specialize (X [repeat x11 32 ++ repeat x22 32] (mk_sl 0 0 32 64) (hex_encode (repeat x33 32)) ltac:(vm_compute; repeat split; lia) eq_refl ltac:(vm_compute; lia)).
  vm_compute in X. discriminate.
Qed.
Print Assumptions C57_buffer_intact_refuted.

Example C57_example :
  let h := [repeat x11 32 ++ repeat x22 40] in let c := mk_sl 0 0 32 72 in
  let r := h_merkle 5 h c [hex_encode (repeat x33 32); hex_encode (repeat x44 32)] in
  wf_sl h c /\ arr (fst r) 0 = repeat x11 32 ++ repeat x33 32 ++ repeat x22 8 /\
  get (fst r) (snd r) = sha256d (sha256d (repeat x11 32 ++ repeat x33 32) ++ repeat x44 32).
Proof. cbv zeta. split; [vm_compute; repeat split; lia|]. split; vm_compute; reflexivity. Qed.

(** ** C05: the argument of SortByteArrays ends up in the returned order *)
Theorem C05_in_place : forall h src src', h_sorts h src src' ->
  map (get h) src' = sort_byte_arrays (map (get h) src).
Proof.
  intros h src src' [P Q]. apply sort_unique; [|now apply Permutation_map].
  apply chain_sorted; [exact lex_le_trans|]. intros i a b A B.
  rewrite nth_error_map in A, B. destruct (nth_error src' i) as [x|] eqn:X; [|discriminate]. destruct (nth_error src' (S i)) as [y|] eqn:Y; [|discriminate].
  injection A as <-. injection B as <-. apply bytes_less_false. exact (Q i x y X Y).
Qed.
Print Assumptions C05_in_place.

Example C05_in_place_example :
  let h := [[x03; x01; x02]] in let s i := mk_sl 0 i 1 1 in
  h_sorts h [s 0%nat; s 1%nat; s 2%nat] [s 1%nat; s 2%nat; s 0%nat].
Proof.
  cbv zeta. split.
  - apply (Permutation_trans (perm_swap _ _ _)). constructor. apply perm_swap.
  - intros [|[|[|i]]] a b A B; cbn [nth_error] in A, B; try discriminate; injection A as <-; injection B as <-; reflexivity.
Qed.
