(** C80: AddInput and AddOutput in several goroutines. *)
From Verif Require Import P_ConcTx P_ConcSign S_ConcAdd.
From Coq Require Import Lia ZifyBool ZifyNat ZifyN.

(** alone, the calls are those of the value model *)
Theorem C80_add_alone (m : memory) t a : fst (solo cell_eq held m (add_started t a)) = Ok tt /\
  tx_at (snd (solo cell_eq held m (add_started t a))) t = add_do m (tx_at m t) a /\
  forall u, u <> t -> tx_at (snd (solo cell_eq held m (add_started t a))) u = tx_at m u.
Proof.
  destruct a as [p|p]; cbn [add_started c_add_input c_add_output solo fst snd]; (split; [reflexivity|]).
  - split.
    + unfold tx_at, add_do, tx_add_input. cbn [version inputs outputs locktime]. rewrite upd_same, !upd_other by discriminate. rewrite map_app. reflexivity.
    + intros u N. unfold tx_at. rewrite !upd_other by congruence. reflexivity.
  - split.
    + unfold tx_at, add_do, tx_add_output. cbn [version inputs outputs locktime]. rewrite upd_same, !upd_other by discriminate. rewrite map_app. reflexivity.
    + intros u N. unfold tx_at. rewrite !upd_other by congruence. reflexivity.
Qed.
Print Assumptions C80_add_alone.

Definition listed (ins : bool) (m : memory) t : list (option nat) := if ins then m (XInputs t) else m (XOutputs t).
Definition wants (ins : bool) (a : add) : option (option nat) :=
  match a with AddIn p => if ins then Some p else None | AddOut p => if ins then None else Some p end.
Definition put (ins : bool) t (l : list (option nat)) : call (res unit) :=
  if ins then Wr (XInputs t) l (Ret (Ok tt)) else Wr (XOutputs t) l (Ret (Ok tt)).
Definition ok_idx (ins : bool) js (ps : list (call (res unit))) ns l : Prop :=
  added ins js ns l /\ NoDup ns /\ forall n, In n ns -> nth_error ps n = Some (Ret (Ok tt)).
(** the invariant, for one of the two lists *)
Definition ainv (ins : bool) (m : memory) t js (c : conf held (res unit)) : Prop :=
  (exists ns l, ok_idx ins js (snd c) ns l /\ listed ins (fst c) t = listed ins m t ++ l /\
     (forall i a p, nth_error js i = Some a -> wants ins a = Some p -> nth_error (snd c) i = Some (Ret (Ok tt)) -> l <> [])) /\
  forall i a p, nth_error js i = Some a -> wants ins a = Some p ->
    nth_error (snd c) i = Some (add_started t a) \/
    (exists ns l, ok_idx ins js (snd c) ns l /\ ~ In i ns /\ nth_error (snd c) i = Some (put ins t (listed ins m t ++ l ++ [p]))) \/
    nth_error (snd c) i = Some (Ret (Ok tt)).
Definition tinv t js (c : conf held (res unit)) : Prop :=
  length (snd c) = length js /\
  forall i a p ins, nth_error js i = Some a -> wants ins a = Some p ->
    nth_error (snd c) i = Some (add_started t a) \/ (exists l, nth_error (snd c) i = Some (put ins t l)) \/ nth_error (snd c) i = Some (Ret (Ok tt)).
Lemma wants_one a : exists ins p, wants ins a = Some p.
Proof. destruct a as [p|p]; [exists true, p|exists false, p]; reflexivity. Qed.
Lemma wants_added ins js i a p : nth_error js i = Some a -> wants ins a = Some p -> nth_error js i = Some (if ins then AddIn p else AddOut p).
Proof. intros E W. destruct a as [q|q], ins; cbn in W; try discriminate; assert (p = q) as -> by congruence; exact E. Qed.
Lemma wants_not ins a p : wants ins a = Some p -> wants (negb ins) a = None.
Proof. destruct a, ins; cbn; congruence. Qed.
Lemma put_step ins t l m ps i : nth_error ps i = Some (put ins t l) ->
  exists m', step cell_eq held (m, ps) i = (m', set_nth i (Ret (Ok tt)) ps) /\ listed ins m' t = l /\ listed (negb ins) m' t = listed (negb ins) m t.
Proof.
  intros E. unfold step. cbn [fst snd]. rewrite E. destruct ins; cbn [put]; (eexists; split; [reflexivity|]); cbn [listed negb]; rewrite upd_same, upd_other by discriminate; split; reflexivity.
Qed.
Lemma add_step ins t a p m ps i : wants ins a = Some p -> nth_error ps i = Some (add_started t a) ->
  step cell_eq held (m, ps) i = (m, set_nth i (put ins t (listed ins m t ++ [p])) ps).
Proof.
  intros W E. unfold step. cbn [fst snd]. rewrite E. destruct a as [q|q], ins; cbn in W; try discriminate; assert (p = q) as -> by congruence; reflexivity.
Qed.
Lemma set_same {A} (l : list A) i x y : nth_error l i = Some y -> nth_error (set_nth i x l) i = Some x.
Proof. intros E. rewrite nth_error_set, Nat.eqb_refl, E. reflexivity. Qed.
Lemma set_diff {A} (l : list A) i j x : i <> j -> nth_error (set_nth i x l) j = nth_error l j.
Proof. intros N. rewrite nth_error_set. destruct (Nat.eqb_spec i j); [congruence|reflexivity]. Qed.
Lemma idx_mono ins js (ps : list (call (res unit))) i q y ns l : nth_error ps i = Some y -> (y <> Ret (Ok tt) \/ q = Ret (Ok tt)) -> ok_idx ins js ps ns l -> ok_idx ins js (set_nth i q ps) ns l.
Proof.
  intros E D (A & N & F). split; [exact A|]. split; [exact N|]. intros n I. destruct (Nat.eq_dec i n) as [->|X].
  - rewrite (set_same _ _ _ _ E). destruct D as [D| ->]; [|reflexivity]. specialize (F _ I). congruence.
  - rewrite set_diff by assumption. now apply F.
Qed.
Lemma put_not_ret ins t l : put ins t l <> Ret (Ok tt).
Proof. destruct ins; discriminate. Qed.
Lemma start_not_ret t a : add_started t a <> Ret (Ok tt).
Proof. destruct a; discriminate. Qed.
Lemma put_not_start ins t l a : put ins t l <> add_started t a.
Proof. destruct ins, a; discriminate. Qed.

(** a step of a call of the other list *)
Lemma other_step ins m t js m1 m2 ps i a q y : nth_error js i = Some a -> wants ins a = None -> nth_error ps i = Some y -> (y <> Ret (Ok tt) \/ q = Ret (Ok tt)) ->
  listed ins m2 t = listed ins m1 t -> ainv ins m t js (m1, ps) -> ainv ins m t js (m2, set_nth i q ps).
Proof.
  intros J W Y D E ((ns & l & O & LI & NE) & TH). cbn [fst snd] in *. split; cbn [fst snd].
  - exists ns, l. split; [eapply idx_mono; eassumption|]. split; [congruence|]. intros k b p K WK R.
    assert (i <> k) as X by (intros ->; congruence). rewrite set_diff in R by exact X. eauto.
  - intros k b p K WK. assert (i <> k) as X by (intros ->; congruence). rewrite set_diff by exact X.
    destruct (TH k b p K WK) as [H|[(ns' & l' & O' & N' & H)|H]]; [left; exact H|right; left|right; right; exact H].
    exists ns', l'. split; [eapply idx_mono; eassumption|]. auto.
Qed.
Lemma NoDup_snoc {A} (x : A) l : NoDup l -> ~ In x l -> NoDup (l ++ [x]).
Proof. intros H N. apply NoDup_rev in H. rewrite <- (rev_involutive (l ++ [x])). apply NoDup_rev. rewrite rev_app_distr. cbn. constructor; [now rewrite <- in_rev|exact H]. Qed.
Lemma own_step ins m t js m1 ps i a p : nth_error js i = Some a -> wants ins a = Some p -> ainv ins m t js (m1, ps) ->
  let c := step cell_eq held (m1, ps) i in ainv ins m t js c /\ ((c = (m1, ps) \/ exists y q, nth_error ps i = Some y /\ (y <> Ret (Ok tt) \/ q = Ret (Ok tt)) /\ snd c = set_nth i q ps) /\ listed (negb ins) (fst c) t = listed (negb ins) m1 t).
Proof.
  intros J W INV. pose proof INV as ((ns & l & O & LI & NE) & TH). cbn [fst snd] in *. cbv zeta.
  destruct (TH i a p J W) as [H|[(ns' & l' & O' & N' & H)|H]].
  - rewrite (add_step ins t a p m1 ps i W H). split; [|split; [right; eexists _, _; split; [exact H|split; [left; apply start_not_ret|reflexivity]]|reflexivity]].
    assert (forall ns l, ok_idx ins js ps ns l -> ok_idx ins js (set_nth i (put ins t (listed ins m1 t ++ [p])) ps) ns l) as M.
    { intros ns' l' O'. eapply idx_mono; [exact H|left; apply start_not_ret|exact O']. }
    split; cbn [fst snd].
    + exists ns, l. split; [now apply M|]. split; [exact LI|]. intros k b q K WK R. destruct (Nat.eq_dec i k) as [->|X].
      * rewrite (set_same _ _ _ _ H) in R. exfalso. injection R as R. exact (put_not_ret _ _ _ R).
      * rewrite set_diff in R by exact X. eauto.
    + intros k b q K WK. destruct (Nat.eq_dec i k) as [->|X].
      * right. left. exists ns, l. split; [now apply M|]. split.
        -- intros I. destruct O as (_ & _ & O). specialize (O _ I). rewrite H in O. injection O as O. exact (start_not_ret _ _ O).
        -- rewrite (set_same _ _ _ _ H), LI, <- app_assoc. assert (b = a) as -> by congruence. assert (q = p) as -> by congruence. reflexivity.
      * rewrite set_diff by exact X. destruct (TH k b q K WK) as [H'|[(ns' & l' & O' & N' & H')|H']]; [left; exact H'|right; left|right; right; exact H'].
        exists ns', l'. auto.
  - destruct (put_step ins t _ m1 ps i H) as (m2 & -> & L1 & L2). cbn [fst snd]. split; [|split; [right; eexists _, _; split; [exact H|split; [left; apply put_not_ret|reflexivity]]|exact L2]].
    assert (forall ns l, ok_idx ins js ps ns l -> ok_idx ins js (set_nth i (Ret (Ok tt)) ps) ns l) as M.
    { intros ns1 l1 O1. eapply idx_mono; [exact H|left; apply put_not_ret|exact O1]. }
    split; cbn [fst snd].
    + exists (ns' ++ [i]), (l' ++ [p]). split; [|split; [exact L1|intros; destruct l'; discriminate]].
      destruct (M _ _ O') as (A1 & A2 & A3). split; [apply Forall2_app; [exact A1|constructor; [now apply (wants_added ins js i a p)|constructor]]|].
      split; [now apply NoDup_snoc|]. intros n I. apply in_app_or in I as [I|[<-|[]]]; [now apply A3|]. now apply (set_same _ _ _ _ H).
    + intros k b q K WK. destruct (Nat.eq_dec i k) as [->|X].
      * right. right. now apply (set_same _ _ _ _ H).
      * rewrite set_diff by exact X. destruct (TH k b q K WK) as [H'|[(ns1 & l1 & O1 & N1 & H')|H']]; [left; exact H'|right; left|right; right; exact H'].
        exists ns1, l1. auto.
  - unfold step. cbn [fst snd]. rewrite H. split; [exact INV|]. split; [now left|reflexivity].
Qed.
Lemma both_step m t js c i : (i < length js)%nat -> (forall ins, ainv ins m t js c) -> forall ins, ainv ins m t js (step cell_eq held c i).
Proof.
  intros Li INV. destruct c as [m1 ps]. destruct (nth_error js i) as [a|] eqn:J; [|apply nth_error_None in J; lia].
  destruct (wants_one a) as (own & p & W). destruct (own_step own m t js m1 ps i a p J W (INV own)) as (G & X & L). cbv zeta in *. intros ins.
  destruct (Bool.bool_dec ins own) as [->|N]; [exact G|]. assert (ins = negb own) as -> by (destruct ins, own; cbn; congruence).
  destruct X as [->|(y & q & Y & D & S)]; [apply INV|]. destruct (step cell_eq held (m1, ps) i) as [m2 ps2]. cbn [fst snd] in *. subst ps2.
  eapply other_step; eauto using wants_not.
Qed.
Lemma nil_step {R} (c : conf held R) i : (length (snd c) <= i)%nat -> step cell_eq held c i = c.
Proof. intros L. unfold step. apply nth_error_None in L. now rewrite L. Qed.
Lemma step_len {R} (c : conf held R) i : length (snd (step cell_eq held c i)) = length (snd c).
Proof. unfold step. destruct (nth_error (snd c) i) as [[| |]|]; cbn [snd]; rewrite ?set_nth_len; reflexivity. Qed.
Lemma both_run m t js schedule : forall c, length (snd c) = length js -> (forall ins, ainv ins m t js c) -> forall ins, ainv ins m t js (run cell_eq held c schedule).
Proof.
  induction schedule as [|i s IH]; intros c L INV; [exact INV|]. cbn [run fold_left]. apply IH; [now rewrite step_len|].
  destruct (Nat.lt_ge_cases i (length js)) as [H|H]; [now apply both_step|]. rewrite nil_step by lia. exact INV.
Qed.

(** Any number of AddInput and AddOutput calls on one transaction at the same time: all return, and
    each list ends with the objects of some of its calls, each once. One call alone on its list is
    never lost. *)
Theorem C80_adds (m : memory) t js schedule rs : let c := run cell_eq held (m, map (add_started t) js) schedule in returned held c rs ->
  rs = map (fun _ => Ok tt) js /\
  exists ni li no lo, added true js ni li /\ NoDup ni /\ added false js no lo /\ NoDup no /\
    fst c (XInputs t) = m (XInputs t) ++ li /\ fst c (XOutputs t) = m (XOutputs t) ++ lo /\
    ((exists p, In (AddIn p) js) -> li <> []) /\ ((exists p, In (AddOut p) js) -> lo <> []).
Proof.
  cbv zeta. set (c := run _ _ _ _). intros R.
  assert (forall ins, ainv ins m t js c) as INV.
  { apply both_run; [cbn [snd]; apply map_length|]. intros ins. split; cbn [fst snd].
    - exists [], []. split; [split; [constructor|split; [constructor|intros n []]]|]. split; [now rewrite app_nil_r|].
      intros i a p J _ H. rewrite nth_error_map, J in H. cbn in H. injection H as H. exfalso. exact (start_not_ret _ _ H).
    - intros i a p J _. left. rewrite nth_error_map, J. reflexivity. }
  assert (forall i a, nth_error js i = Some a -> nth_error (snd c) i = Some (Ret (Ok tt))) as DN.
  { intros i a J. destruct (wants_one a) as (ins & p & W). destruct (INV ins) as (_ & TH). unfold returned in R.
    assert (forall q, nth_error (snd c) i = Some q -> exists r, q = Ret r) as X.
    { intros q Q. rewrite R, nth_error_map in Q. destruct (nth_error rs i) as [r|]; [|discriminate]. cbn in Q. exists r. congruence. }
    destruct (TH i a p J W) as [H|[(ns' & l' & O' & N' & H)|H]]; [| |exact H]; destruct (X _ H) as (r & Q); [destruct a; discriminate|destruct ins; discriminate]. }
  assert (length (snd c) = length js) as LL.
  { clear. unfold c. assert (forall c0 : conf held (res unit), length (snd (run cell_eq held c0 schedule)) = length (snd c0)) as X.
    { induction schedule as [|i s IH]; intros c0; [reflexivity|]. cbn [run fold_left]. unfold run in IH. rewrite IH. apply step_len. }
    rewrite X. cbn [snd]. apply map_length. }
  split.
  - apply nth_ext with (d := Panic) (d' := Panic). { unfold returned in R. rewrite R, map_length in LL. now rewrite map_length. }
    intros n Ln. unfold returned in R. destruct (nth_error js n) as [a|] eqn:J; [|apply nth_error_None in J; rewrite R, map_length in LL; lia].
    specialize (DN _ _ J). rewrite R, nth_error_map in DN. destruct (nth_error rs n) as [r|] eqn:E; [|discriminate]. cbn in DN.
    rewrite (nth_error_nth _ _ _ E). rewrite (nth_error_nth (map _ js) n _ (x := Ok tt)); [congruence|]. now rewrite nth_error_map, J.
  - destruct (INV true) as ((ni & li & (A1 & A2 & _) & A3 & A4) & _). destruct (INV false) as ((no & lo & (B1 & B2 & _) & B3 & B4) & _).
    exists ni, li, no, lo. split; [exact A1|]. split; [exact A2|]. split; [exact B1|]. split; [exact B2|]. split; [exact A3|]. split; [exact B3|]. split.
    + intros (p & I). apply In_nth_error in I as (i & J). apply (A4 i _ p J eq_refl (DN _ _ J)).
    + intros (p & I). apply In_nth_error in I as (i & J). apply (B4 i _ p J eq_refl (DN _ _ J)).
Qed.
Print Assumptions C80_adds.

(** But of two calls on the same list one may be lost, although both return without error; *)
Theorem C80_lost_add (m : memory) t p q :
  (exists schedule, let c := run cell_eq held (m, map (add_started t) [AddOut p; AddOut q]) schedule in
    race held c) /\
  (exists schedule, let c := run cell_eq held (m, map (add_started t) [AddOut p; AddOut q]) schedule in
    returned held c [Ok tt; Ok tt] /\ fst c (XOutputs t) = m (XOutputs t) ++ [p]) /\
  (exists schedule, let c := run cell_eq held (m, map (add_started t) [AddIn p; AddIn q]) schedule in
    returned held c [Ok tt; Ok tt] /\ fst c (XInputs t) = m (XInputs t) ++ [p]).
Proof.
  split; [|split].
  - exists [0%nat]. cbv zeta. exists 0%nat, 1%nat. do 2 eexists. exists (XOutputs t), true, false. split; [discriminate|]. cbn. split; [reflexivity|]. split; [reflexivity|]. cbn. auto.
  - exists [0; 1; 1; 0]%nat. cbv zeta. cbn -[upd]. split; [reflexivity|]. rewrite upd_same. reflexivity.
  - exists [0; 1; 1; 0]%nat. cbv zeta. cbn -[upd]. split; [reflexivity|]. rewrite upd_same. reflexivity.
Qed.
Print Assumptions C80_lost_add.

(** whereas one AddInput and one AddOutput do not race and both take effect *)
Theorem C80_add_apart (m : memory) t p q schedule : let c := run cell_eq held (m, map (add_started t) [AddIn p; AddOut q]) schedule in
  ~ race held c /\ (forall rs, returned held c rs -> fst c (XInputs t) = m (XInputs t) ++ [p] /\ fst c (XOutputs t) = m (XOutputs t) ++ [q]).
Proof.
  cbv zeta. set (c := run _ _ _ _).
  assert (forall ins, ainv ins m t [AddIn p; AddOut q] c) as INV.
  { apply both_run; [reflexivity|]. intros ins. split; cbn [fst snd].
    - exists [], []. split; [split; [constructor|split; [constructor|intros n []]]|]. split; [now rewrite app_nil_r|].
      intros i a r J _ H. rewrite nth_error_map, J in H. cbn in H. injection H as H. exfalso. exact (start_not_ret _ _ H).
    - intros i a r J _. left. rewrite nth_error_map, J. reflexivity. }
  split.
  - intros (i & j & x & y & l & w1 & w2 & NE & X & Y & NX & NY & _).
    assert (forall k z lz w, nth_error (snd c) k = Some z -> next held z = Some (lz, w) -> k = 0%nat /\ lz = XInputs t \/ k = 1%nat /\ lz = XOutputs t) as Q.
    { intros k z lz w Z NZ. assert (k < 2)%nat as K.
      { assert (length (snd c) = 2%nat) as L.
        { unfold c. clear. assert (forall c0 : conf held (res unit), length (snd (run cell_eq held c0 schedule)) = length (snd c0)) as X.
          { induction schedule as [|i s IH]; intros c0; [reflexivity|]. cbn [run fold_left]. unfold run in IH. rewrite IH. apply step_len. }
          rewrite X. reflexivity. }
        rewrite <- L. apply nth_error_Some. congruence. }
      destruct k as [|[|k]]; [| |lia].
      - left. split; [reflexivity|]. destruct (INV true) as (_ & TH). destruct (TH 0%nat _ p eq_refl eq_refl) as [H|[(ns' & l' & O' & N' & H)|H]]; rewrite H in Z; injection Z as <-; cbn in NZ; try discriminate; congruence.
      - right. split; [reflexivity|]. destruct (INV false) as (_ & TH). destruct (TH 1%nat _ q eq_refl eq_refl) as [H|[(ns' & l' & O' & N' & H)|H]]; rewrite H in Z; injection Z as <-; cbn in NZ; try discriminate; congruence. }
    destruct (Q _ _ _ _ X NX) as [(-> & ->)|(-> & ->)], (Q _ _ _ _ Y NY) as [(-> & H)|(-> & H)]; try discriminate; congruence.
  - intros rs R. destruct (C80_adds m t [AddIn p; AddOut q] schedule rs R) as (_ & ni & li & no & lo & A1 & A2 & B1 & B2 & E1 & E2 & N1 & N2).
    fold c in E1, E2. rewrite E1, E2.
    assert (forall ins r ns l, added ins [AddIn p; AddOut q] ns l -> NoDup ns -> l <> [] -> r = (if ins then p else q) -> l = [r]) as U.
    { clear. intros ins r ns l A D NE ->.
      assert (forall n x, nth_error [AddIn p; AddOut q] n = Some (if ins then AddIn x else AddOut x) -> n = (if ins then 0%nat else 1%nat) /\ x = (if ins then p else q)) as K.
      { intros [|[|[|n]]] x H; cbn in H; destruct ins; try discriminate; split; congruence. }
      destruct A as [|n x ns l A1 A]; [congruence|]. destruct A as [|n' x' ns l A2 A]; [f_equal; apply (K _ _ A1)|].
      exfalso. apply K in A1 as (-> & _). apply K in A2 as (-> & _). inversion D as [|? ? D1 _]. apply D1. now left. }
    rewrite (U true p ni li A1 A2), (U false q no lo B1 B2); auto; [apply N2; exists q; right; now left|apply N1; exists p; now left].
Qed.
Print Assumptions C80_add_apart.

(** three outputs at once: a schedule in which the first and third survive *)
Example C80_add_example : exists m schedule, let c := run cell_eq held (m, map (add_started 0) [AddOut (Some 1); AddOut (Some 2); AddOut (Some 3)]%nat) schedule in
  returned held c [Ok tt; Ok tt; Ok tt] /\ fst c (XOutputs 0) = [Some 7; Some 1; Some 3]%nat.
Proof.
  exists (fun l => match l as l return held l with XOutputs _ => [Some 7%nat] | XInputs _ => [] | XVersion _ | XLocktime _ | IIndex _ | ISats _ | ISeq _ | OSats _ | SFlag _ => 0 | ITxid _ => [] | IPrev _ | IUnlock _ | OScript _ => None end).
  exists [0; 1; 1; 0; 2; 2]%nat. cbv zeta. split; reflexivity.
Qed.
