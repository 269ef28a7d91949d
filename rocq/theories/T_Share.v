(** Theorems C71: building several scripts whose storage may be shared. *)
From Verif Require Import S_Share P_Mem P_Share.
From Coq Require Import ZifyBool ZifyNat ZifyN.

(** Exactly when the scripts behave as independent values under every history of method
    calls, in every order: when no script that is called has spare capacity that another
    script shows or that another called script could write. *)
Theorem C71_independent_iff : forall A h ss, (forall i s, nth_error ss i = Some s -> inside h s) ->
  (apart A ss <-> forall l, Forall (uses A) l -> as_values h ss l).
Proof.
  intros A h ss W. split; [|now apply apart_needed].
  intros P l U. unfold as_values. destruct (h_acts (h, ss) l) as [[h' ss'] es] eqn:E.
  exact (proj2 (acts_steps A l h ss h' ss' es (conj W P) U E)).
Qed.
Print Assumptions C71_independent_iff.

(** Scripts that all come from the constructors are independent, whatever happens. *)
Theorem C71_constructed : forall l, as_values [] [] l.
Proof.
  intros l. apply (proj1 (C71_independent_iff (fun _ => True) [] [] ltac:(intros [|i] s H; discriminate))).
  - intros [|i] j s t a p _ _ H; discriminate.
  - apply Forall_forall. intros [k i c|k i j|k b] _; exact I.
Qed.
Print Assumptions C71_constructed.

(** A script's bytes then depend only on the calls made on it, in their order, and not on
    how they are interleaved with calls on others. *)
Theorem C71_schedule : forall A h ss l h' ss' es, (forall i s, nth_error ss i = Some s -> inside h s) -> apart A ss ->
  Forall (fun a => exists k i c, a = ACall k i c /\ A i) l -> h_acts (h, ss) l = (h', ss', es) ->
  length ss' = length ss /\
  forall i s s', nth_error ss i = Some s -> nth_error ss' i = Some s' -> get h' s' = run_calls (get h s) (calls_on i l).
Proof.
  intros A h ss l h' ss' es W P F E.
  assert (Forall (uses A) l) as U by (eapply Forall_impl; [|exact F]; intros a (k & i & c & -> & Ai); exact Ai).
  pose proof (proj2 (acts_steps A l h ss h' ss' es (conj W P) U E)) as V.
  assert (forall l vs, Forall (fun a => exists k i c, a = ACall k i c /\ A i) l -> length (fst (v_acts vs l)) = length vs /\
    forall i v, nth_error vs i = Some v -> nth_error (fst (v_acts vs l)) i = Some (run_calls v (calls_on i l))) as K.
  { clear. induction l as [|a l IH]; intros vs F; cbn [v_acts]; [auto|]. inversion F as [|? ? (k & j & c & -> & Aj) F']; subst.
    cbn [v_act calls_on]. destruct (nth_error vs j) as [w|] eqn:N.
    - destruct (run_call w c) as [w' e] eqn:R. destruct (v_acts _ l) as [v2 e2] eqn:Q. cbn [fst].
      destruct (IH (set_nth j w' vs) F') as [L G]. rewrite Q in L, G. cbn [fst] in L, G. rewrite P_Mem.set_nth_length in L. split; [assumption|].
      intros i v V. destruct (Nat.eqb j i) eqn:J.
      + apply Nat.eqb_eq in J as <-. rewrite (G j w') by (eapply nth_set_same; exact N). rewrite N in V. injection V as ->.
        cbn [run_calls]. now rewrite R.
      + apply G. rewrite nth_set_other by lia. assumption.
    - destruct (v_acts vs l) as [v2 e2] eqn:Q. cbn [fst]. destruct (IH vs F') as [L G]. rewrite Q in L, G. cbn [fst] in L, G. split; [assumption|].
      intros i v V. destruct (Nat.eqb j i) eqn:J; [|now apply G]. apply Nat.eqb_eq in J as <-. congruence. }
  destruct (K l (map (get h) ss) F) as [L G]. rewrite V in L, G. cbn [fst] in L, G. rewrite !map_length in L. split; [assumption|].
  intros i s s' N N'. specialize (G i (get h s)). rewrite !nth_error_map, N, N' in G. specialize (G eq_refl). cbn [option_map] in G. now injection G.
Qed.
Print Assumptions C71_schedule.

(** A second script on the same slice - [t := *s], or NewFromBytes on a buffer the caller
    keeps: as long as methods are called on one of the two only, both behave as values. *)
Theorem C71_copy_one : forall h s i, inside h s -> forall l, Forall (uses (eq i)) l -> (i < 2)%nat -> as_values h [s; s] l.
Proof.
  intros h s i W l U L.
  assert (forall j t, nth_error [s; s] j = Some t -> t = s /\ (j < 2)%nat) as B.
  { intros [|[|[|j]]] t H; cbn [nth_error] in H; try discriminate; injection H as <-; split; reflexivity || lia. }
  apply (proj1 (C71_independent_iff (eq i) h [s; s] ltac:(intros j t H; apply B in H as [-> _]; exact W))); [|assumption].
  intros x y u v a p <- XY X Y SP. apply B in X as [-> _]. apply B in Y as [-> _]. split.
  - intros [_ Z]. destruct SP as [_ Z']. lia.
  - intros Z. congruence.
Qed.
Print Assumptions C71_copy_one.

(** With spare capacity and methods called on both, the second call overwrites what the
    first one appended. *)
Theorem C71_copy_both : forall h s a b k k' h' ss' es, inside h s -> (s_len s < s_cap s)%nat ->
  h_acts (h, [s; s]) [ACall k 0 (COpCode a); ACall k' 1 (COpCode b)] = (h', ss', es) ->
  map (get h') ss' = [get h s ++ [b]; get h s ++ [b]].
Proof.
  intros h s a b k k' h' ss' es W L E.
  assert (forall k, h_append k h s [a] = (h_write h (s_arr s) (s_off s + s_len s) [a], mk_sl (s_arr s) (s_off s) (s_len s + 1) (s_cap s))) as E1
    by (intros; apply append_fits; cbn [length]; lia).
  cbn [h_acts h_act nth_error h_call] in E. unfold h_append_opcode in E. rewrite E1 in E. cbn [h_acts h_act set_nth nth_error h_call] in E. unfold h_append_opcode in E.
  set (h1 := h_write h (s_arr s) (s_off s + s_len s) [a]) in *.
  assert (h_append k' h1 s [b] = (h_write h1 (s_arr s) (s_off s + s_len s) [b], mk_sl (s_arr s) (s_off s) (s_len s + 1) (s_cap s))) as E2
    by (apply append_fits; cbn [length]; lia).
  rewrite E2 in E. cbn [set_nth] in E. injection E as <- <- <-. cbn [map].
  destruct W as (A1 & A2 & A3).
  assert (inside h1 s) as W1 by (apply inside_write; [assumption|cbn [length]; lia|split; [assumption|split; assumption]]).
  assert (get h1 s = get h s) as G by (apply h_write_other; [assumption|cbn [length]; lia|lia]).
  pose proof (append_get k' h1 s [b] _ _ W1 E2) as V. rewrite G in V. rewrite V. reflexivity.
Qed.
Print Assumptions C71_copy_both.

(** Without spare capacity both copies are independent. *)
Theorem C71_copy_full : forall h s, inside h s -> (s_len s = s_cap s)%nat -> forall l, as_values h [s; s] l.
Proof.
  intros h s W L l.
  assert (forall j t, nth_error [s; s] j = Some t -> t = s) as B.
  { intros [|[|[|j]]] t H; cbn [nth_error] in H; try discriminate; now injection H as <-. }
  apply (proj1 (C71_independent_iff (fun _ => True) h [s; s] ltac:(intros j t H; apply B in H as ->; exact W))).
  - intros x y u v a p _ XY X Y [_ SP]. apply B in X as ->. lia.
  - apply Forall_forall. intros [k i c|k i j|k b] _; exact I.
Qed.
Print Assumptions C71_copy_full.

(** three constructed scripts, one pushed onto another and onto itself; a shared buffer *)
Example C71_example :
  (exists h ss es, h_acts ([], []) [ANew 3 [x51]; ANew 0 [x52]; ACall 7 0 (COpCode x76); APush 1 1 0; APush 0 1 1; ACall 2 0 (CPushHex (str "zz"))] = (h, ss, es) /\
   map (get h) ss = [[x51; x76]; [x52; x02; x51; x76; x04; x52; x02; x51; x76]] /\ map (fun e => match e with None => true | _ => false end) es = [true; true; true; true; true; false]) /\
  (let h := [[x51; x00; x00]] in let s := mk_sl 0 0 1 3 in inside h s /\ ~ apart (fun _ => True) [s; s] /\ apart (eq 1%nat) [s; s] /\
   exists h' ss' es, h_acts (h, [s; s]) [ACall 0 0 (COpCode x01); ACall 0 1 (COpCode x02)] = (h', ss', es) /\ map (get h') ss' = [[x51; x02]; [x51; x02]]).
Proof.
  split; [do 3 eexists; vm_compute; auto|]. cbv zeta. split; [unfold inside; vm_compute; lia|]. split; [|split; [|do 3 eexists; vm_compute; auto]].
  - intros P. destruct (P 0%nat 1%nat _ _ 0%nat 1%nat I ltac:(discriminate) eq_refl eq_refl) as [_ Q]; [unfold spare_at; cbn; lia|].
    apply Q; [exact I|]. unfold spare_at. cbn. lia.
  - intros i j s t a p <- J S T SP. cbn [nth_error] in S. injection S as <-. destruct j as [|[|[|j]]]; cbn [nth_error] in T; try discriminate; [|congruence].
    injection T as <-. split; [intros [_ Z]; destruct SP as [_ SP]; cbn [s_off s_len s_cap] in *; lia|intros Z; congruence].
Qed.
