(** Proofs about NewFromASM / ToASM (script/Script.go:32-49,187-203). *)
From Verif Require Export P_Script.
From Coq Require Import ZifyBool ZifyNat ZifyN.

Definition no_space (w : bytes) : Prop := forallb (fun c => negb (is_space c)) w = true.

Lemma all_bytes (P : byte -> bool) : forallb P (map (fun n => n2b (N.of_nat n)) (seq 0 256)) = true ->
  forall c, P c = true.
Proof.
  intros H c. rewrite forallb_forall in H. apply H.
  apply in_map_iff. exists (N.to_nat (b2n c)). rewrite N2Nat.id. split; [apply n2b_b2n|].
  apply in_seq. pose proof (b2n_lt c). lia.
Qed.

Lemma name_lookup c : lookup_str opCodeStrings (lookup_val opCodeValues c) = Some c.
Proof.
  pose (P := fun c => match lookup_str opCodeStrings (lookup_val opCodeValues c) with
                      | Some d => byte_eqb d c | None => false end).
  assert (P c = true) as H by (apply all_bytes; vm_compute; reflexivity).
  unfold P in H. destruct (lookup_str opCodeStrings (lookup_val opCodeValues c)); [|discriminate].
  apply byte_eqb_eq in H. congruence.
Qed.

Lemma name_chars c : lookup_val opCodeValues c <> [] /\ no_space (lookup_val opCodeValues c).
Proof.
  pose (P := fun c => negb (match lookup_val opCodeValues c with [] => true | _ => false end)
                      && forallb (fun c => negb (is_space c)) (lookup_val opCodeValues c)).
  assert (P c = true) as H by (apply all_bytes; vm_compute; reflexivity).
  unfold P in H. apply andb_true_iff in H as [H1 H2]. split; [|exact H2].
  destruct (lookup_val opCodeValues c); [discriminate|discriminate].
Qed.

Lemma hexdig_hex n : n < 16 -> is_hex (hexdig n) = true.
Proof. intros H. unfold is_hex. now rewrite hexdig_val. Qed.

Lemma hex_encode_hex b : forallb is_hex (hex_encode b) = true.
Proof.
  induction b as [|x b IH]; [reflexivity|]. cbn [hex_encode forallb]. pose proof (b2n_lt x).
  rewrite !hexdig_hex by lia. exact IH.
Qed.

Lemma hex_not_space c : is_hex c = true -> negb (is_space c) = true.
Proof.
  intros H. pose (P := fun c => negb (is_hex c) || negb (is_space c)).
  assert (P c = true) as HP by (apply all_bytes; vm_compute; reflexivity).
  unfold P in HP. rewrite H in HP. exact HP.
Qed.

Lemma hex_no_space b : no_space (hex_encode b).
Proof.
  unfold no_space. pose proof (hex_encode_hex b) as H. rewrite forallb_forall in *.
  intros c I. apply hex_not_space. auto.
Qed.

Lemma lookup_hex k : forallb is_hex k = true -> lookup_str opCodeStrings k = None.
Proof.
  intros H.
  assert (forallb (fun kv => negb (forallb is_hex (fst kv))) opCodeStrings = true) as A by (vm_compute; reflexivity).
  revert A. generalize opCodeStrings. intros m; induction m as [|[k' v] m IH]; intros A; [reflexivity|].
  cbn [forallb fst] in A. apply andb_true_iff in A as [A1 A2]. cbn [lookup_str].
  destruct (bytes_eqb k k') eqn:E; [|now apply IH].
  apply bytes_eqb_eq in E. subst. rewrite H in A1. discriminate.
Qed.

Lemma word_props p : p <> [] -> asm_word p <> [] /\ no_space (asm_word p).
Proof.
  intros N. destruct p as [|c [|d p]]; [congruence| |].
  - apply name_chars.
  - cbn [asm_word]. split; [discriminate|apply hex_no_space].
Qed.

Fixpoint join (ws : list bytes) : bytes :=
  match ws with
  | [] => []
  | [w] => w
  | w :: r => w ++ x20 :: join r
  end.

Lemma split_word w : no_space w -> split_space w = [w].
Proof.
  unfold no_space. induction w as [|c w IH]; intros H; [reflexivity|].
  cbn [forallb] in H. apply andb_true_iff in H as [H1 H2]. cbn [split_space]. rewrite IH by assumption.
  destruct (byte_eqb_spec c x20) as [->|_]; [discriminate|reflexivity].
Qed.

Lemma split_cons w r : no_space w -> split_space (w ++ x20 :: r) = w :: split_space r.
Proof.
  unfold no_space. induction w as [|c w IH]; intros H.
  - reflexivity.
  - cbn [forallb] in H. apply andb_true_iff in H as [H1 H2]. cbn [app split_space]. rewrite IH by assumption.
    destruct (byte_eqb_spec c x20) as [->|_]; [discriminate|reflexivity].
Qed.

Lemma split_join ws : ws <> [] -> Forall no_space ws -> split_space (join ws) = ws.
Proof.
  induction ws as [|w ws IH]; intros N F; [congruence|]. inversion F; subst.
  destruct ws as [|w2 ws]; [now apply split_word|].
  change (join (w :: w2 :: ws)) with (w ++ x20 :: join (w2 :: ws)).
  rewrite split_cons by assumption. rewrite IH; [reflexivity|discriminate|assumption].
Qed.

Lemma fold_words ps acc :
  fold_left (fun acc p => (acc ++ str " ") ++ asm_word p) ps acc
  = acc ++ concat (map (fun p => x20 :: asm_word p) ps).
Proof.
  revert acc; induction ps as [|p ps IH]; intros acc; cbn [fold_left map concat]; [now rewrite app_nil_r|].
  rewrite IH. change (str " ") with [x20]. rewrite <- !app_assoc. reflexivity.
Qed.

Lemma concat_join ps : ps <> [] -> concat (map (fun p => x20 :: asm_word p) ps) = x20 :: join (map asm_word ps).
Proof.
  induction ps as [|p ps IH]; intros N; [congruence|]. cbn [map concat].
  destruct ps as [|q ps]; [cbn [map concat join]; now rewrite app_nil_r|].
  rewrite IH by discriminate. reflexivity.
Qed.

Lemma trim_left_word c r : is_space c = false -> trim_left (c :: r) = c :: r.
Proof. intros H. cbn [trim_left]. now rewrite H. Qed.

Lemma trim_id w : w <> [] -> is_space (hd x00 w) = false -> is_space (last w x00) = false ->
  trim_space (x20 :: w) = w.
Proof.
  intros N H1 H2. unfold trim_space. change (trim_left (x20 :: w)) with (trim_left w).
  destruct w as [|c w]; [congruence|]. cbn [hd] in H1. rewrite trim_left_word by assumption.
  destruct (exists_last (l := c :: w)) as (l' & z & E); [discriminate|]. rewrite E in *.
  rewrite last_last in H2. rewrite rev_app_distr. cbn [rev app]. rewrite trim_left_word by assumption.
  cbn [rev]. now rewrite rev_involutive.
Qed.

Lemma no_space_hd w : w <> [] -> no_space w -> is_space (hd x00 w) = false.
Proof.
  destruct w as [|c w]; [congruence|]. unfold no_space. cbn [forallb hd]. intros _ H.
  apply andb_true_iff in H as [H _]. now apply negb_true_iff in H.
Qed.

Lemma no_space_last w : w <> [] -> no_space w -> is_space (last w x00) = false.
Proof.
  intros N H. destruct (exists_last N) as (l' & z & E). subst. rewrite last_last.
  unfold no_space in H. rewrite forallb_app in H. apply andb_true_iff in H as [_ H].
  cbn [forallb] in H. apply andb_true_iff in H as [H _]. now apply negb_true_iff in H.
Qed.

Lemma join_nonempty ws : ws <> [] -> Forall (fun w => w <> [] /\ no_space w) ws ->
  join ws <> [] /\ is_space (hd x00 (join ws)) = false /\ is_space (last (join ws) x00) = false.
Proof.
  induction ws as [|w ws IH]; intros N F; [congruence|]. inversion F as [|? ? [H1 H2] F']; subst.
  destruct ws as [|w2 ws].
  - cbn [join]. repeat split; [assumption|now apply no_space_hd|now apply no_space_last].
  - destruct IH as (A & B & C); [discriminate|assumption|].
    change (join (w :: w2 :: ws)) with (w ++ x20 :: join (w2 :: ws)).
    repeat split.
    + destruct w; [congruence|discriminate].
    + destruct w as [|c w]; [congruence|]. exact (no_space_hd (c :: w) H1 H2).
    + destruct (exists_last A) as (l' & z & E). rewrite E in *. rewrite last_last in C.
      change (w ++ x20 :: l' ++ [z]) with (w ++ (x20 :: l') ++ [z]). rewrite app_assoc, last_last. exact C.
Qed.

Lemma to_asm_eq s ps : decode_parts s = Ok ps -> ps <> [] -> ~ In [] ps ->
  script_to_asm s = Ok (join (map asm_word ps)).
Proof.
  intros D N NE. unfold script_to_asm. rewrite D. cbn [bind]. f_equal.
  rewrite fold_words. cbn [app]. rewrite concat_join by assumption.
  assert (Forall (fun w => w <> [] /\ no_space w) (map asm_word ps)) as F.
  { apply Forall_forall. intros w I. apply in_map_iff in I as (p & <- & I). apply word_props. intros ->. contradiction. }
  destruct (join_nonempty (map asm_word ps)) as (A & B & C); [destruct ps; [congruence|discriminate]|assumption|].
  now apply trim_id.
Qed.

(** canonical re-encoding of a part by NewFromASM *)
Definition canon (p : bytes) : bytes := match p with [c] => [c] | _ => push_wire p end.

Lemma asm_loop_words s ps : ~ In [] ps -> (forall p, In p ps -> nlen p < 4294967296) ->
  asm_loop s (map asm_word ps) = Ok (s ++ concat (map canon ps)).
Proof.
  revert s; induction ps as [|p ps IH]; intros s NE L; cbn [map asm_loop concat]; [now rewrite app_nil_r|].
  assert (~ In [] ps) as NE' by (intros I; apply NE; now right).
  assert (forall q, In q ps -> nlen q < 4294967296) as L' by (intros q I; apply L; now right).
  destruct p as [|c [|d p]]; [exfalso; apply NE; now left| |].
  - cbn [asm_word canon]. rewrite name_lookup, IH by assumption. unfold append_opcode. now rewrite <- app_assoc.
  - cbn [asm_word canon]. rewrite lookup_hex by apply hex_encode_hex.
    unfold append_push_data_hex. rewrite of_hex_encode, push_array, append_array_ok.
    2: { intros q [<-|[]]. apply L. now left. }
    cbn [map concat]. rewrite app_nil_r, IH by assumption. now rewrite <- app_assoc.
Qed.

Lemma elem_small w p : elem w p -> nlen p < 4294967296.
Proof.
  destruct 1 as [c H|c d H Hd|c d Hd|l d Hl Hd|l d Hl Hd].
  - reflexivity.
  - lia.
  - pose proof (b2n_lt c). lia.
  - pose proof (le_get2_bound l Hl). lia.
  - pose proof (le_get4_bound l Hl). lia.
Qed.

Lemma safe_small s ps : safe_elems s ps -> forall p, In p ps -> nlen p < 4294967296.
Proof.
  induction 1 as [|w p b ps E W H IH]; intros q I; [destruct I|].
  destruct I as [<-|I]; [eapply elem_small; eassumption|auto].
Qed.

Lemma asm_normal s ps : safe_elems s ps -> ps <> [] -> ~ In [] ps ->
  exists t, script_to_asm s = Ok t /\ script_from_asm t = Ok (concat (map canon ps)).
Proof.
  intros S N NE. eexists. split; [apply (to_asm_eq s ps); [now apply decode_ok_iff|assumption|assumption]|].
  unfold script_from_asm. rewrite split_join.
  - rewrite asm_loop_words; [reflexivity|assumption|]. eapply safe_small; eassumption.
  - destruct ps; [congruence|discriminate].
  - apply Forall_forall. intros w I. apply in_map_iff in I as (p & <- & I). apply word_props. intros ->. contradiction.
Qed.

Lemma asm_elem_safe w p : asm_elem w p -> safe_elems w [p] /\ canon p = w /\ p <> [].
Proof.
  destruct 1 as [c H|h d L D S].
  - repeat split; [now apply safe_op|discriminate].
  - pose proof (shortest_unique d h (domain_small d D) S) as E. repeat split.
    + now apply push_safe.
    + unfold canon, push_wire. rewrite E. destruct d as [|a [|b d]]; cbn [length] in L; try lia. reflexivity.
    + now apply domain_nonempty.
Qed.

Lemma asm_script_safe s : asm_script s ->
  exists ps, safe_elems s ps /\ concat (map canon ps) = s /\ ps <> [] /\ ~ In [] ps.
Proof.
  induction 1 as [w p E|w p s E S (ps & H1 & H2 & H3 & H4)];
    destruct (asm_elem_safe _ _ E) as (A & B & C).
  - exists [p]. repeat split; [assumption|cbn [map concat]; now rewrite app_nil_r|discriminate|].
    intros [H|[]]; congruence.
  - exists (p :: ps). repeat split.
    + apply (safe_app w [p] s ps); assumption.
    + cbn [map concat]. congruence.
    + discriminate.
    + intros [H|H]; [congruence|contradiction].
Qed.

Lemma c17_roundtrip s : asm_script s ->
  exists t, script_to_asm s = Ok t /\ script_from_asm t = Ok s.
Proof.
  intros H. destruct (asm_script_safe s H) as (ps & S & C & N & NE).
  destruct (asm_normal s ps S N NE) as (t & A & B). exists t. split; [assumption|]. now rewrite B, C.
Qed.

Lemma safe_push1 c : safe_elems [x01; c] [[c]].
Proof. apply safe_one; [constructor; [vm_compute; split; discriminate|reflexivity]|]. intros W; inversion W. Qed.

Lemma c17_one_byte c : exists t, script_to_asm [x01; c] = Ok t /\ script_from_asm t = Ok [c].
Proof.
  destruct (asm_normal [x01; c] [[c]] (safe_push1 c)) as (t & A & B); [discriminate| |eauto].
  intros [H|[]]; discriminate.
Qed.

Lemma c17_empty : script_to_asm [] = Ok [] /\ script_from_asm [] = Ok [x00].
Proof. split; vm_compute; reflexivity. Qed.

Lemma push_shortest d p : push_prefix d = Ok p -> shortest_header p (nlen d).
Proof. intros H. split; [now apply push_prefix_announces|]. intros h'. now apply push_prefix_shortest. Qed.

Lemma c17_normal s ps : safe_elems s ps -> ps <> [] -> ~ In [] ps ->
  exists t w, script_to_asm s = Ok t /\ script_from_asm t = Ok (concat w) /\
    Forall2 (fun p x => (length p = 1%nat /\ x = p) \/
                        ((2 <= length p)%nat /\ exists h, shortest_header h (nlen p) /\ x = h ++ p)) ps w.
Proof.
  intros S N NE. destruct (asm_normal s ps S N NE) as (t & A & B).
  exists t, (map canon ps). repeat split; [assumption|assumption|].
  pose proof (safe_small _ _ S) as L. clear A B S N. induction ps as [|p ps IH]; [constructor|].
  cbn [map]. constructor; [|apply IH; [intros I; apply NE; now right|intros q I; apply L; now right]].
  destruct p as [|c [|d p]]; [exfalso; apply NE; now left|left; now split|right].
  split; [cbn [length]; lia|]. cbn [canon]. unfold push_wire.
  destruct (push_prefix_ok (c :: d :: p)) as [h E]; [apply L; now left|].
  exists h. rewrite E. split; [now apply push_shortest|reflexivity].
Qed.

Lemma c17_example : asm_script (p2pkh (repeat x2a 20)) /\
  (t <- script_to_asm (p2pkh (repeat x2a 20)) ;; script_from_asm t) = Ok (p2pkh (repeat x2a 20)).
Proof.
  split; [|vm_compute; reflexivity].
  change (p2pkh (repeat x2a 20)) with ([x76] ++ [xa9] ++ (([x14] ++ repeat x2a 20) ++ ([x88] ++ [xac]))).
  eapply asm_more; [apply asm_op; op_side|]. eapply asm_more; [apply asm_op; op_side|].
  eapply asm_more; [apply asm_push|].
  - cbn [repeat length]. lia.
  - left. vm_compute. split; discriminate.
  - apply push_shortest. reflexivity.
  - eapply asm_more; [apply asm_op; op_side|]. eapply asm_one. apply asm_op; op_side.
Qed.
