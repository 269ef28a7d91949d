(** C74: the lists of inputs and outputs of a transaction are shared with whoever got
    them, or copied the struct, exactly as far as Go's slices are. *)
From Verif Require Import P_Share P_Slots.
From Coq Require Import ZifyBool ZifyNat ZifyN.

Section T.
Context {A : Type}.

(** Whatever the capacities the runtime chooses: if slices that were got are only read,
    every variable reads as if it held a list of its own; a list that was got stays what
    it was. *)
Theorem C74_read_only : forall (nil : A) l, reads_only [] l -> agrees nil l.
Proof.
  intros nil l R. unfold agrees. assert (inv (A := A) [] [] []) as I.
  { split; [reflexivity|]. split; intros i; intros; destruct i; discriminate. }
  exact (acts_agree nil l [] [] [] I R).
Qed.

Definition adds (i : nat) (xs : list (nat * A)) : list (kact A) := map (fun p => DoAdd (fst p) i (snd p)) xs.

Lemma acts_app nil l1 l2 (st : store A * list slots) :
  k_acts nil st (l1 ++ l2) = match k_acts nil st l1 with Some st' => k_acts nil st' l2 | None => None end.
Proof. revert st. induction l1 as [|a l1 IH]; intros st; [reflexivity|]. cbn [app k_acts]. destruct (k_act nil st a); [apply IH|reflexivity]. Qed.

Lemma adds_0 nil xs : forall (h : store A) s t, k_acts nil (h, [s; t]) (adds 0 xs) = let (h', s') := k_adds nil h s xs in Some (h', [s'; t]).
Proof.
  induction xs as [|[k x] xs IH]; intros h s t; [reflexivity|]. cbn [adds map k_acts k_act nth_error fst snd k_adds].
  destruct (k_add nil k h s x) as [h1 s1]. cbn [set_nth]. apply IH.
Qed.
Lemma adds_1 nil xs : forall (h : store A) s t, k_acts nil (h, [s; t]) (adds 1 xs) = let (h', t') := k_adds nil h t xs in Some (h', [s; t']).
Proof.
  induction xs as [|[k x] xs IH]; intros h s t; [reflexivity|]. cbn [adds map k_acts k_act nth_error fst snd k_adds].
  destruct (k_add nil k h t x) as [h1 s1]. cbn [set_nth]. apply IH.
Qed.

(** A transaction and a copy of its struct ([u := *t]), or a list that was got and is
    appended to: [xs] are added to the one, then [ys] to the other. The second is right.
    The first keeps its own elements only if they did not fit the spare capacity when
    they were added; else the other's overwrite them, one by one. *)
Theorem C74_both_add : forall (nil : A) h s xs ys, lies h s ->
  exists h' s0 s1, k_acts nil (h, [s; s]) (adds 0 xs ++ adds 1 ys) = Some (h', [s0; s1]) /\
    shows h' s1 = shows h s ++ map snd ys /\
    shows h' s0 = shows h s ++
      (if Nat.leb (length xs) (room h s) then firstn (length xs) (map snd ys) ++ skipn (length ys) (map snd xs) else map snd xs).
Proof.
  intros nil h s xs ys L. rewrite acts_app, adds_0. destruct (k_adds nil h s xs) as [h1 s0] eqn:E1. rewrite adds_1.
  destruct (k_adds nil h1 s ys) as [h2 s1] eqn:E2. exists h2, s0, s1. split; [reflexivity|].
  destruct (adds_spec nil xs h s h1 s0 L E1) as (L1 & S1 & H1 & N1 & O1 & A1 & M1 & M1'). pose proof L as [La Lb].
  set (a := array h (k_arr s)) in *. set (n := k_len s) in *.
  assert (room h s = length a - n)%nat as RR by reflexivity.
  assert (length (firstn n a) = n) as LF by (rewrite firstn_length; lia).
  assert (length (array h1 (k_arr s)) = length a) as LA.
  { rewrite A1, !app_length, LF, firstn_length, skipn_length, map_length. lia. }
  assert (firstn n (array h1 (k_arr s)) = firstn n a) as FA.
  { rewrite A1, firstn_app, LF, Nat.sub_diag, firstn_O, app_nil_r, firstn_firstn, Nat.min_id. reflexivity. }
  assert (lies h1 s) as L1s by (split; [lia|rewrite LA; assumption]).
  destruct (adds_spec nil ys h1 s h2 s1 L1s E2) as (L2 & S2 & H2 & N2 & O2 & A2 & M2 & M2').
  assert (room h1 s = room h s) as R1 by (unfold room; rewrite LA; reflexivity).
  assert (shows h1 s = shows h s) as Sh by exact FA.
  split; [rewrite S2, Sh; reflexivity|]. destruct (Nat.leb (length xs) (room h s)) eqn:F.
  - apply Nat.leb_le in F. unfold shows at 1. rewrite (M1 F), N1, A2, R1. fold n. rewrite FA.
    assert (skipn (n + Nat.min (room h s) (length ys)) (array h1 (k_arr s)) =
            skipn (length ys) (map snd xs) ++ skipn (n + Nat.max (length xs) (Nat.min (room h s) (length ys))) a) as SK.
    { rewrite A1. rewrite (firstn_all2 (map snd xs)) by (rewrite map_length; assumption). rewrite (Nat.min_r (room h s) (length xs)) by assumption.
      rewrite !skipn_app, LF, map_length. rewrite (skipn_all2 (n := n + Nat.min (room h s) (length ys))) by lia. cbn [app].
      replace (n + Nat.min (room h s) (length ys) - n)%nat with (Nat.min (room h s) (length ys)) by lia. f_equal.
      - destruct (Nat.le_gt_cases (length ys) (room h s)); [now rewrite Nat.min_r|]. rewrite Nat.min_l by lia. rewrite !skipn_all2; rewrite ?map_length; [reflexivity|lia|lia].
      - rewrite skip_skip. f_equal. lia. }
    rewrite SK. rewrite firstn_app, LF. rewrite (firstn_all2 (n := n + length xs)) by lia. replace (n + length xs - n)%nat with (length xs) by lia.
    f_equal. rewrite app_assoc, firstn_app, app_length, firstn_length, skipn_length, !map_length.
    destruct (Nat.le_gt_cases (length xs) (length ys)) as [Q|Q].
    + rewrite (skipn_all2 (map snd xs)) by (rewrite map_length; assumption). rewrite !app_nil_r.
      replace (length xs - _)%nat with 0%nat by lia. cbn [firstn]. rewrite app_nil_r, firstn_firstn. f_equal. lia.
    + rewrite (firstn_all2 (n := room h s)) by (rewrite map_length; lia). rewrite (firstn_all2 (n := length xs) (map snd ys)) by (rewrite map_length; lia).
      replace (length xs - _)%nat with 0%nat by lia. rewrite firstn_O, app_nil_r. apply firstn_all2. rewrite app_length, skipn_length, !map_length. lia.
  - apply Nat.leb_gt in F. specialize (M1' F). rewrite <- S1. unfold shows. rewrite O2; [reflexivity| |lia]. destruct L1. assumption.
Qed.

(** [ins[k] = x] on a list that was got reaches the transaction, and the other way
    round, exactly while nothing was added that made the list move. *)
Theorem C74_put : forall (nil : A) h s xs k x, lies h s -> (k < k_len s)%nat ->
  (exists h' s0 s1, k_acts nil (h, [s; s]) (adds 0 xs ++ [DoPut 1 k x]) = Some (h', [s0; s1]) /\
     shows h' s1 = set_nth k x (shows h s) /\
     shows h' s0 = (if Nat.leb (length xs) (room h s) then set_nth k x (shows h s) else shows h s) ++ map snd xs) /\
  (exists h' s0 s1, k_acts nil (h, [s; s]) (adds 0 xs ++ [DoPut 0 k x]) = Some (h', [s0; s1]) /\
     shows h' s0 = set_nth k x (shows h s) ++ map snd xs /\
     shows h' s1 = if Nat.leb (length xs) (room h s) then set_nth k x (shows h s) else shows h s).
Proof.
  intros nil h s xs k x L K. rewrite !acts_app, adds_0. destruct (k_adds nil h s xs) as [h1 s0] eqn:E1.
  destruct (adds_spec nil xs h s h1 s0 L E1) as (L1 & S1 & H1 & N1 & O1 & A1 & M1 & M1'). pose proof L as [La Lb]. pose proof L1 as [L1a L1b].
  assert (length (array h1 (k_arr s)) = length (array h (k_arr s))) as LA.
  { rewrite A1, !app_length, !firstn_length, skipn_length, map_length. unfold room. lia. }
  assert (firstn (k_len s) (array h1 (k_arr s)) = firstn (k_len s) (array h (k_arr s))) as FA.
  { rewrite A1, firstn_app, firstn_firstn, firstn_length, Nat.min_id. replace (k_len s - _)%nat with 0%nat by lia. rewrite firstn_O, app_nil_r. reflexivity. }
  assert (forall (l : list A) n, (k < n)%nat -> firstn n (set_nth k x l) = set_nth k x (firstn n l)) as SF.
  { clear. revert k. intros k l. revert k. induction l as [|y l IH]; intros k n L; [destruct k; rewrite !firstn_nil; reflexivity|].
    destruct n as [|n]; [lia|]. destruct k as [|k]; cbn [set_nth firstn]; [reflexivity|]. f_equal. apply IH. lia. }
  assert (forall (l m : list A), (k < length l)%nat -> set_nth k x (l ++ m) = set_nth k x l ++ m) as SA.
  { clear. intros l. revert k. induction l as [|y l IH]; intros k m L; cbn [length] in L; [lia|]. destruct k as [|k]; cbn [set_nth app]; [reflexivity|]. f_equal. apply IH. lia. }
  assert (length (shows h s) = k_len s) as LS by (unfold shows; rewrite firstn_length; lia).
  cbn [k_acts k_act nth_error]. split.
  - replace (Nat.ltb k (k_len s)) with true by lia. do 3 eexists. split; [reflexivity|]. split.
    + unfold shows. rewrite array_set, Nat.eqb_refl by lia. rewrite SF by lia. now rewrite FA.
    + unfold shows at 1. rewrite array_set by lia. destruct (Nat.leb (length xs) (room h s)) eqn:F.
      * rewrite M1, Nat.eqb_refl by lia. rewrite SF by lia. unfold shows in S1 at 1. rewrite M1 in S1 by lia. rewrite S1. apply SA. lia.
      * specialize (M1' ltac:(lia)). replace (Nat.eqb (k_arr s0) (k_arr s)) with false by lia. exact S1.
  - replace (Nat.ltb k (k_len s0)) with true by lia. do 3 eexists. split; [reflexivity|]. split.
    + unfold shows at 1. rewrite array_set, Nat.eqb_refl by lia. rewrite SF by lia. unfold shows in S1 at 1. rewrite S1. apply SA. lia.
    + unfold shows at 1. rewrite array_set by lia. destruct (Nat.leb (length xs) (room h s)) eqn:F.
      * rewrite M1, Nat.eqb_refl by lia. rewrite SF by lia. now rewrite FA.
      * specialize (M1' ltac:(lia)). replace (Nat.eqb (k_arr s) (k_arr s0)) with false by lia. exact FA.
Qed.
End T.

(** A transaction with three inputs, whose list has room for a fourth; its struct is
    copied; an input is added to each. Both have the copy's. Had the runtime left no
    room, each would have its own. *)
Example C74_ex :
  let first := [DoNew; DoAdd 1 0 10; DoAdd 0 0 11; DoAdd 1 0 12]%nat in
  (exists h s, k_acts 0%nat ([], []) (first ++ [DoGet 0]) = Some (h, [s; s]) /\ lies h s /\ room h s = 1%nat) /\
  option_map (fun st => map (shows (fst st)) (snd st)) (k_acts 0%nat ([], []) (first ++ [DoGet 0; DoAdd 4 0 20; DoAdd 4 1 30]%nat))
    = Some [[10; 11; 12; 30]; [10; 11; 12; 30]]%nat /\
  option_map (fun st => map (shows (fst st)) (snd st)) (k_acts 0%nat ([], []) ([DoNew; DoAdd 1 0 10; DoAdd 0 0 11; DoAdd 0 0 12; DoGet 0; DoAdd 4 0 20; DoAdd 4 1 30]%nat))
    = Some [[10; 11; 12; 20]; [10; 11; 12; 30]]%nat /\
  option_map (fun st => map (shows (fst st)) (snd st)) (k_acts 0%nat ([], []) (first ++ [DoGet 0; DoPut 1 0 99; DoAdd 0 0 13; DoPut 1 1 98; DoAdd 0 0 14; DoPut 1 2 97]%nat))
    = Some [[99; 98; 12; 13; 14]; [99; 98; 97]]%nat /\
  reads_only [] (first ++ [DoGet 0; DoAdd 4 0 20; DoNew; DoAdd 1 2 10; DoGet 2])%nat /\ ~ reads_only [] (first ++ [DoGet 0; DoAdd 4 1 20])%nat /\
  ~ agrees 0%nat (first ++ [DoGet 0; DoAdd 4 0 20; DoAdd 4 1 30])%nat.
Proof.
  cbv zeta. split; [|split; [|split; [|split; [|split; [|split]]]]].
  - do 2 eexists. split; [vm_compute; reflexivity|]. split; [split; vm_compute; repeat constructor|vm_compute; reflexivity].
  - vm_compute. reflexivity.
  - vm_compute. reflexivity.
  - vm_compute. reflexivity.
  - cbn. repeat split; discriminate.
  - cbn. intros H. decompose [and] H. congruence.
  - vm_compute. discriminate.
Qed.

Print Assumptions C74_read_only.
Print Assumptions C74_both_add.
Print Assumptions C74_put.
