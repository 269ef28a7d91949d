(** Property theorems C69: what ASM text means. *)
From Verif Require Import P_Pay P_Push P_Asm2.
From Coq Require Import ZifyBool ZifyNat ZifyN.

(** NewFromASM accepts exactly the texts whose words all mean something, and the
    script is the concatenation of what they mean. *)
Theorem C69_from_asm_iff : forall t s, script_from_asm t = Ok s <->
  exists ws xs, words t ws /\ Forall2 asm_means ws xs /\ s = concat xs.
Proof. exact from_asm_iff. Qed.
Print Assumptions C69_from_asm_iff.

(** Everything else is an error, the same one whatever is wrong; it never panics. *)
Theorem C69_fails : forall t, (exists s, script_from_asm t = Ok s) \/
  (script_from_asm t = Err EInvalidOpcodeData /\ ~ exists ws xs, words t ws /\ Forall2 asm_means ws xs).
Proof.
  intros t. destruct (loop_fail (split_space t) []) as [[s H]|H]; [left; exists s; exact H|right].
  split; [exact H|]. intros (ws & xs & W & F). assert (script_from_asm t = Ok (concat xs)) as X by (apply from_asm_iff; eauto).
  unfold script_from_asm in X. congruence.
Qed.
Print Assumptions C69_fails.

(** A text has one division into words and a word at most one meaning ... *)
Theorem C69_unambiguous : forall t ws ws' w x x', (words t ws -> words t ws' -> ws = ws') /\ (asm_means w x -> asm_means w x' -> x = x').
Proof.
  intros t ws ws' w x x'. split; [|apply means_det]. intros H H'. apply words_split in H, H'. congruence.
Qed.
Print Assumptions C69_unambiguous.

(** ... the opcode names do not overlap with hexadecimal data or with each other, and
    every byte has a name that is read back as that byte. *)
Theorem C69_names : forall c, exists w, shows [c] w /\ asm_means w [c] /\ ~ (exists d, hex_text w d) /\
  (forall c', asm_means w [c'] -> c' = c).
Proof.
  intros c. exists (lookup_val opCodeValues c). pose proof (name_lookup c) as L.
  assert (asm_means (lookup_val opCodeValues c) [c]) as M by (apply means_op; now apply name_lookup_iff).
  split; [apply shows_op, value_in|]. split; [exact M|]. split.
  - intros (d & H). assert (forallb is_hex (lookup_val opCodeValues c) = true) as X; [|apply lookup_hex in X; congruence].
    revert H. generalize (lookup_val opCodeValues c). induction 1 as [|c1 d1 c2 d2 w b x H1 H2 _ _ IH]; [reflexivity|].
    cbn [forallb]. rewrite IH. apply hex_digit_val in H1, H2. unfold is_hex. now rewrite H1, H2.
  - intros c' M'. pose proof (means_det _ _ _ M M') as E. congruence.
Qed.
Print Assumptions C69_names.

(** A space too many pushes an empty element: before, between and after the others,
    and an empty text is one empty element. *)
Theorem C69_extra_space : forall a b s t u, script_from_asm a = Ok s -> script_from_asm b = Ok t ->
  (script_from_asm (a ++ x20 :: b) = Ok u <-> u = s ++ t) /\
  (script_from_asm (a ++ x20 :: x20 :: b) = Ok u <-> u = s ++ x00 :: t) /\
  (script_from_asm [] = Ok u <-> u = [x00]).
Proof.
  assert (forall a b s t, script_from_asm a = Ok s -> script_from_asm b = Ok t -> script_from_asm (a ++ x20 :: b) = Ok (s ++ t)) as J.
  { intros a b s t Ha Hb. apply from_asm_iff in Ha as (ws & xs & W & F & ->), Hb as (ws' & xs' & W' & F' & ->).
    apply from_asm_iff. exists (ws ++ ws'), (xs ++ xs'). split; [|split; [now apply Forall2_app|now rewrite concat_app]].
    clear F. induction W as [w N|w t ws N W IH]; [now apply words_more|]. cbn [app]. rewrite <- app_assoc. cbn [app]. now apply words_more. }
  assert (script_from_asm [] = Ok [x00]) as E by (vm_compute; reflexivity).
  intros a b s t u Ha Hb. split; [|split].
  - rewrite (J a b s t Ha Hb). split; [intros H; now injection H|intros ->; reflexivity].
  - pose proof (J [] b _ _ E Hb) as Hb'. cbn [app] in Hb'. rewrite (J a (x20 :: b) s _ Ha Hb'). cbn [app].
    split; [intros H; now injection H|intros ->; reflexivity].
  - rewrite E. split; [intros H; now injection H|intros ->; reflexivity].
Qed.
Print Assumptions C69_extra_space.

(** ToASM writes what each element shows, without the empty elements at the ends. *)
Theorem C69_to_asm : forall s ps core t, decode_parts s = Ok ps -> core_of ps core ->
  (script_to_asm s = Ok t <-> (core = [] /\ t = []) \/ (core <> [] /\ exists ws, words t ws /\ Forall2 shows core ws)).
Proof.
  intros s ps core t D C. rewrite (to_asm_core s ps core D C).
  assert (forall l ws, Forall2 shows l ws <-> map asm_word l = ws) as F2.
  { induction l as [|p l IH]; intros ws; cbn [map].
    - split; [intros H; now inversion H|intros <-; constructor].
    - split.
      + intros H. inversion H as [|? w ? ws' S F]; subst. apply shows_iff in S. apply IH in F. congruence.
      + intros <-. constructor; [now apply shows_iff|now apply IH]. }
  assert (forall l, l <> [] -> words (join (map asm_word l)) (map asm_word l)) as WJ.
  { intros l N. apply join_words; [destruct l; [congruence|discriminate]|]. intros w I. apply in_map_iff in I as (p & <- & _). apply word_no20. }
  assert (forall u v ws, words u ws -> words v ws -> u = v) as WI.
  { intros u v ws H. revert v. induction H as [w N|w x ws N W IH]; intros v H'.
    - inversion H' as [? N'|? ? ? ? W']; subst; [reflexivity|]. inversion W'.
    - inversion H' as [? N'|? y ? N' W']; subst; [inversion W|]. f_equal. f_equal. now apply IH. }
  split.
  - intros H. injection H as <-. destruct core as [|p core]; [left; auto|right]. split; [discriminate|].
    exists (map asm_word (p :: core)). split; [apply WJ; discriminate|now apply F2].
  - intros [[-> ->]|(N & ws & W & F)]; [reflexivity|]. apply F2 in F. subst ws. f_equal. eapply WI; [apply WJ; assumption|assumption].
Qed.
Print Assumptions C69_to_asm.

(** every decodable script has such a core, and only one *)
Theorem C69_core_unique : forall ps, exists core, core_of ps core /\ forall core', core_of ps core' -> core' = core.
Proof.
  intros ps. destruct (core_exists ps) as [core C]. exists core. split; [assumption|]. intros core' C'.
  assert (forall a a' (l l' : list bytes), hd_error l <> Some [] -> hd_error l' <> Some [] -> repeat [] a ++ l = repeat [] a' ++ l' ->
            a = a' /\ l = l' \/ (l = [] /\ l' = [])) as X.
  { induction a as [|a IH]; intros [|a'] l l' H H' E; cbn [repeat app] in E; auto.
    - subst l. exfalso. apply H. reflexivity.
    - subst l'. exfalso. apply H'. reflexivity.
    - injection E as E. destruct (IH a' l l' H H' E) as [[-> ->]|?]; auto. }
  assert (forall (c : list bytes) b, hd_error c <> Some [] -> c <> [] -> hd_error (c ++ repeat [] b) <> Some []) as HD by (intros [|x c] b N M; [congruence|exact N]).
  assert (forall n, rev (repeat [] n) = repeat (@nil byte) n) as RR by (intros; apply repeat_rev).
  assert (forall a b (c' : list bytes), repeat [] a = repeat [] b ++ c' -> hd_error c' <> Some [] -> c' = []) as ALL.
  { induction a as [|a IH]; intros [|b] c' E N; cbn [repeat app] in E; auto.
    - discriminate.
    - subst c'. exfalso. now apply N.
    - injection E as E. eauto. }
  destruct C as (a & b & E & H1 & H2), C' as (a' & b' & E' & H1' & H2'). rewrite E in E'.
  destruct core as [|x core], core' as [|x' core']; [reflexivity| | |].
  - exfalso. cbn [app] in E'. rewrite <- repeat_app in E'.
    assert ((x' :: core') ++ repeat [] b' = []) as Z by (apply (ALL (a + b)%nat a'); [assumption|apply HD; [assumption|discriminate]]). discriminate.
  - exfalso. cbn [app] in E'. rewrite <- (repeat_app (@nil byte) a' b') in E'. symmetry in E'.
    assert ((x :: core) ++ repeat [] b = []) as Z by (apply (ALL (a' + b')%nat a); [assumption|apply HD; [assumption|discriminate]]). discriminate.
  - apply X in E' as [[_ E']|[E' _]]; [|discriminate|apply HD; [assumption|discriminate]|apply HD; [assumption|discriminate]].
    apply (f_equal (@rev bytes)) in E'. rewrite !rev_app_distr, !RR in E'.
    assert (rev (x :: core) <> []) as NZ by (intros Z; apply (f_equal (@length bytes)) in Z; rewrite rev_length in Z; discriminate).
    apply X in E' as [[_ E']|[E' _]]; [|contradiction|assumption|assumption].
    apply (f_equal (@rev bytes)) in E'. rewrite !rev_involutive in E'. congruence.
Qed.
Print Assumptions C69_core_unique.

(** ToASM then NewFromASM, for every script: one-byte elements come back as opcodes, the
    others as shortest pushes, and the empty elements at the ends are gone; if nothing
    is left, one empty element comes back. *)
Theorem C69_round_trip_any : forall s ps core, decode_parts s = Ok ps -> core_of ps core ->
  exists t xs, script_to_asm s = Ok t /\ script_from_asm t = Ok (concat xs) /\
    (core = [] -> xs = [[x00]]) /\ (core <> [] -> Forall2 comes_back core xs).
Proof.
  intros s ps core D C. exists (join (map asm_word core)).
  assert (forall p, In p core -> nlen p < 4294967296) as SM.
  { intros p I. apply decode_ok_iff in D. eapply safe_small; [exact D|]. destruct C as (a & b & -> & _). apply in_or_app. right. apply in_or_app. now left. }
  assert (core = [] \/ core <> []) as [->|N] by (destruct core; [now left|right; discriminate]).
  - exists [[x00]]. split; [now apply to_asm_core with (ps := ps)|]. split; [vm_compute; reflexivity|]. split; [auto|congruence].
  - assert (exists xs, Forall2 comes_back core xs /\ Forall2 asm_means (map asm_word core) xs) as (xs & F & G).
    { clear D C N. induction core as [|p core IH]; [exists []; split; constructor|].
      destruct IH as (xs & F & G); [intros q I; apply SM; now right|]. destruct (comes_back_means p) as (x & B & M); [apply SM; now left|].
      exists (x :: xs). cbn [map]. split; constructor; assumption. }
    exists xs. split; [now apply to_asm_core with (ps := ps)|]. split; [|split; [congruence|auto]].
    apply from_asm_iff. exists (map asm_word core), xs. split; [|split; [assumption|reflexivity]].
    apply join_words; [destruct core; [congruence|discriminate]|]. intros w I. apply in_map_iff in I as (p & <- & _). apply word_no20.
Qed.
Print Assumptions C69_round_trip_any.

(** "Reading back the text gives the same elements" is false: empty elements at the ends
    are lost, in the middle they are kept. *)
Theorem C69_same_elements_refuted : ~ forall s ps t u, decode_parts s = Ok ps -> script_to_asm s = Ok t -> script_from_asm t = Ok u -> decode_parts u = Ok ps.
Proof.
  intros H. specialize (H [x4c; x00; x51] [[]; [x51]] (str "OP_TRUE") [x51]).
  assert (decode_parts [x51] = Ok [[]; [x51]]) as X; [apply H; vm_compute; reflexivity|]. vm_compute in X. discriminate.
Qed.
Print Assumptions C69_same_elements_refuted.

Example C69_example :
  script_from_asm (str "OP_DUP OP_HASH160 0102  OP_1") = Ok [x76; xa9; x02; x01; x02; x00; x51] /\
  script_from_asm (str "OP_DUP OP_HASH161") = Err EInvalidOpcodeData /\
  script_to_asm [x4c; x00; x51; x4c; x00; x02; xab; xcd; x4c; x00] = Ok (str "OP_TRUE  abcd") /\
  script_from_asm (str "OP_1  abcd") = Ok [x51; x00; x02; xab; xcd] /\
  core_of [[]; [x51]; []; [xab; xcd]; []] [[x51]; []; [xab; xcd]].
Proof.
  split; [vm_compute; reflexivity|]. split; [vm_compute; reflexivity|]. split; [vm_compute; reflexivity|]. split; [vm_compute; reflexivity|].
  exists 1%nat, 1%nat. split; [reflexivity|]. split; discriminate.
Qed.
