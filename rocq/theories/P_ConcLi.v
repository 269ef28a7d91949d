(** Proofs for C96. *)
From Verif Require Export S_ConcLi P_Conc.
From Coq Require Import Lia ZifyBool ZifyNat.

Notation tsolo := (solo tcell_eq theld).
Notation tupd := (upd tcell_eq theld).
Notation tfoot := (foot tcell_eq theld false).

(** memory after [t_put] *)
Fixpoint putm (m : tmem) (a i : nat) (d : list (option nat)) : tmem :=
  match d with [] => m | b :: r => putm (tupd m (TSlot a i) b) a (S i) r end.
Lemma putm_head d : forall m a i s, putm m a i d (THead s) = m (THead s).
Proof. induction d as [|b d IH]; intros; cbn [putm]; [reflexivity|]. rewrite IH. now apply upd_other. Qed.
Lemma putm_out d : forall m a i a' j, ~ (a' = a /\ i <= j < i + length d)%nat -> putm m a i d (TSlot a' j) = m (TSlot a' j).
Proof.
  induction d as [|b d IH]; intros m a i a' j H; cbn [putm length] in *; [reflexivity|]. rewrite IH by lia.
  apply upd_other. intros [= -> ->]. apply H. lia.
Qed.
Lemma putm_shown d : forall (m : tmem) a i, map (fun j => putm m a i d (TSlot a j)) (seq i (length d)) = d.
Proof.
  induction d as [|b d IH]; intros m a i; cbn [putm length seq map]; [reflexivity|]. rewrite IH. f_equal.
  rewrite putm_out by lia. now rewrite upd_same.
Qed.
Lemma solo_put {R} (k : tcall R) d : forall m a i, tsolo m (t_put a i d k) = tsolo (putm m a i d) k.
Proof. induction d as [|b d IH]; intros; cbn [t_put putm solo]; [reflexivity|]. apply IH. Qed.
Lemma solo_take {R} (m : tmem) a (k : list (option nat) -> tcall R) n : forall i acc, tsolo m (t_take acc a i n k) = tsolo m (k (acc ++ map (fun j => m (TSlot a j)) (seq i n))).
Proof. induction n as [|n IH]; intros i acc; cbn [t_take solo seq map]; [now rewrite app_nil_r|]. rewrite IH, <- app_assoc. reflexivity. Qed.
Lemma foot_put {R} (k : tcall R) Rs Ws d : forall m a i, (forall j, (i <= j < i + length d)%nat -> Ws (TSlot a j) = true) ->
  tfoot (putm m a i d) k Rs Ws -> tfoot m (t_put a i d k) Rs Ws.
Proof.
  induction d as [|b d IH]; intros m a i H F; cbn [t_put putm foot length] in *; [assumption|].
  split; [left; apply H; lia|]. apply IH; [|assumption]. intros j Hj. apply H. lia.
Qed.
Lemma foot_take {R} (m : tmem) a (k : list (option nat) -> tcall R) Rs Ws n : forall i acc, (forall j, (i <= j < i + n)%nat -> Rs (TSlot a j) \/ Ws (TSlot a j) = true) ->
  tfoot m (k (acc ++ map (fun j => m (TSlot a j)) (seq i n))) Rs Ws -> tfoot m (t_take acc a i n k) Rs Ws.
Proof.
  induction n as [|n IH]; intros i acc H F; cbn [t_take foot seq map] in *; [now rewrite app_nil_r in F|].
  split; [apply H; lia|]. apply IH; [intros j Hj; apply H; lia|]. now rewrite <- app_assoc.
Qed.

Definition rset (m0 : tmem) (g : worker) (c : tcell) : Prop :=
  match c with THead l => touches g l | TSlot a i => exists l, touches g l /\ slot_of (m0 (THead l)) a i end.
Definition wset (m0 : tmem) (g : worker) (c : tcell) : bool :=
  match c with
  | THead l => existsb (fun x => match x with TAdd l' _ => if tlist_eq l' l then true else false | _ => false end) (w_acts g)
  | TSlot a i =>
      existsb (fun n => Nat.eqb (w_fresh g n) a) (seq 0 (length (w_acts g))) ||
      existsb (fun x => match x with
        | TAdd s _ => Nat.eqb a (s_arr (m0 (THead s))) && Nat.leb (s_off (m0 (THead s)) + s_len (m0 (THead s))) i && Nat.ltb i (s_off (m0 (THead s)) + s_cap (m0 (THead s)))
        | _ => false end) (w_acts g)
  end.
Lemma wset_head m0 g s : wset m0 g (THead s) = true <-> appends_to g s.
Proof.
  cbn. rewrite existsb_exists. split.
  - intros ([s' c|s'|s'] & I & E); try discriminate. destruct (tlist_eq s' s) as [->|]; [|discriminate]. now exists c.
  - intros (c & I). exists (TAdd s c). split; [assumption|]. now destruct (tlist_eq s s).
Qed.
Lemma wset_byte m0 g a i : wset m0 g (TSlot a i) = true <->
  (exists n, (n < length (w_acts g))%nat /\ w_fresh g n = a) \/ (exists s, appends_to g s /\ room_behind (m0 (THead s)) a i).
Proof.
  unfold wset. rewrite orb_true_iff, !existsb_exists. split.
  - intros [(n & I & E)|([s c|s|s] & I & E)]; try discriminate; [left; exists n; rewrite in_seq in I; lia|].
    right. exists s. split; [now exists c|]. rewrite !andb_true_iff, Nat.eqb_eq, Nat.leb_le, Nat.ltb_lt in E. unfold room_behind. tauto.
  - intros [(n & I & E)|(s & (c & I) & E)]; [left; exists n; rewrite in_seq; lia|].
    right. exists (TAdd s c). split; [assumption|]. unfold room_behind in E. rewrite !andb_true_iff, Nat.eqb_eq, Nat.leb_le, Nat.ltb_lt. tauto.
Qed.

Lemma head_upd (m : tmem) s h s' : tupd m (THead s) h (THead s') = if tlist_eq s' s then h else m (THead s').
Proof.
  destruct (tlist_eq s' s) as [->|N]; [apply (upd_same tcell_eq theld m (THead s) h)|].
  apply upd_other. congruence.
Qed.
Lemma byte_upd (m : tmem) s h a i : tupd m (THead s) h (TSlot a i) = m (TSlot a i).
Proof. now apply upd_other. Qed.
Lemma shownl_ext (m m' : tmem) h : (forall i, slot_of h (s_arr h) i -> m (TSlot (s_arr h) i) = m' (TSlot (s_arr h) i)) -> shown_list m h = shown_list m' h.
Proof. intros H. unfold shown_list. apply map_ext_in. intros i Hi. apply in_seq in Hi. apply H. unfold slot_of. lia. Qed.
Lemma shownl_length m h : length (shown_list m h) = s_len h.
Proof. unfold shown_list. now rewrite map_length, seq_length. Qed.

Section One.
Variables (m0 : tmem) (g : worker).
Hypothesis Hinj : forall n n', w_fresh g n = w_fresh g n' -> n = n'.
Hypothesis Hnew : forall n s, touches g s -> w_fresh g n <> s_arr (m0 (THead s)).

Definition placed (n : nat) (s : tlist) (h : sl) : Prop :=
  (s_arr h = s_arr (m0 (THead s)) /\ s_off h = s_off (m0 (THead s)) /\ s_cap h = s_cap (m0 (THead s)) /\ (s_len (m0 (THead s)) <= s_len h)%nat)
  \/ (exists n', (n' < n)%nat /\ s_arr h = w_fresh g n').
Definition ginv (n : nat) (m : tmem) (vs : tlist -> list (option nat)) : Prop :=
  (forall s, touches g s -> shown_list m (m (THead s)) = vs s /\ (s_len (m (THead s)) <= s_cap (m (THead s)))%nat /\ placed n s (m (THead s)) /\
     (~ appends_to g s -> m (THead s) = m0 (THead s)) /\ (appends_to g s \/ m (THead s) = m0 (THead s))) /\
  (forall s s' a i, appends_to g s -> touches g s' -> s <> s' -> room_behind (m (THead s)) a i ->
     ~ slot_of (m (THead s')) a i /\ (appends_to g s' -> ~ room_behind (m (THead s')) a i)).

Lemma ginv_S n m vs : ginv n m vs -> ginv (S n) m vs.
Proof.
  intros (A & B). split; [|exact B]. intros s U. destruct (A s U) as (A1 & A2 & A3 & A4). split; [exact A1|]. split; [exact A2|]. split; [|exact A4].
  destruct A3 as [P|(n' & P & Q)]; [now left|right; exists n'; split; [lia|exact Q]].
Qed.
(** the list (option nat) of a script lie in the sets *)
Lemma in_sets n m vs s j : (n <= length (w_acts g))%nat -> ginv n m vs -> touches g s -> slot_of (m (THead s)) (s_arr (m (THead s))) j ->
  rset m0 g (TSlot (s_arr (m (THead s))) j) \/ wset m0 g (TSlot (s_arr (m (THead s))) j) = true.
Proof.
  intros Ln (A & _) U (_ & Hj). destruct (A s U) as (_ & A2 & [(P1 & P2 & P3 & P4)|(n' & P & Q)] & _ & A5).
  - rewrite P1. destruct A5 as [Bd|E].
    + destruct (Nat.lt_ge_cases j (s_off (m0 (THead s)) + s_len (m0 (THead s)))) as [Q|Q].
      * left. cbn. exists s. split; [assumption|]. unfold slot_of. lia.
      * right. apply wset_byte. right. exists s. split; [assumption|]. unfold room_behind. lia.
    + left. cbn. exists s. split; [assumption|]. unfold slot_of. rewrite E in Hj. lia.
  - right. apply wset_byte. left. exists n'. split; [lia|auto].
Qed.

Lemma ginv_room n m vs s p : ginv n m vs -> appends_to g s -> (s_len (m (THead s)) + length p <= s_cap (m (THead s)))%nat ->
  let h := m (THead s) in
  ginv (S n) (tupd (putm m (s_arr h) (s_off h + s_len h) p) (THead s) (mk_sl (s_arr h) (s_off h) (s_len h + length p) (s_cap h)))
    (fun s' => if tlist_eq s' s then vs s ++ p else vs s').
Proof.
  intros G Bs LE h. assert (Us : touches g s) by now left. destruct (ginv_S _ _ _ G) as (A & B). split.
  - intros s' U. rewrite head_upd, putm_head. destruct (A s' U) as (A1 & A2 & A3 & A4 & A5). destruct (tlist_eq s' s) as [->|N].
    + fold h in A1, A2, A3, A4, A5, LE. cbn [s_arr s_off s_len s_cap]. split; [|split; [lia|split; [|split; [tauto|now left]]]].
      * unfold shown_list at 1. cbn [s_arr s_off s_len]. rewrite seq_app, map_app. f_equal.
        -- rewrite <- A1. apply map_ext_in. intros i Hi. apply in_seq in Hi. rewrite byte_upd. apply putm_out. lia.
        -- erewrite map_ext; [apply putm_shown with (m := m) (a := s_arr h)|]. intros i. cbv beta. apply byte_upd.
      * destruct A3 as [P|P]; [left; cbn [s_arr s_off s_len s_cap]; lia|right; exact P].
    + split; [|auto]. rewrite <- A1. apply shownl_ext. intros i W. rewrite byte_upd. apply putm_out. intros (E & Hi).
      refine (proj1 (B s s' (s_arr (m (THead s'))) i Bs U (fun X => N (eq_sym X)) _) W). fold h. fold h in LE. unfold room_behind. lia.
  - intros s1 s2 a i B1 U2 N. rewrite !head_upd, !putm_head. fold h in LE.
    destruct (tlist_eq s1 s) as [->|N1]; destruct (tlist_eq s2 s) as [->|N2]; try congruence.
    + intros W. apply B with (s := s); auto. fold h. unfold room_behind in *. cbn [s_arr s_off s_len s_cap] in W. lia.
    + intros W. destruct (B s1 s a i B1 U2 N1 W) as (X & Y). specialize (Y Bs). fold h in X, Y. unfold slot_of, room_behind in *. cbn [s_arr s_off s_len s_cap]. split; [|intros _]; lia.
    + apply B; auto.
Qed.
Lemma arr_new n m vs s : ginv n m vs -> touches g s -> s_arr (m (THead s)) <> w_fresh g n.
Proof.
  intros (A & _) U. destruct (A s U) as (_ & _ & [(P & _)|(n' & P & Q)] & _).
  - rewrite P. intros E. now apply (Hnew n s U).
  - rewrite Q. intros E. apply Hinj in E. lia.
Qed.
Lemma ginv_full n m vs s p slack : ginv n m vs -> appends_to g s ->
  let h := m (THead s) in
  ginv (S n) (tupd (putm m (w_fresh g n) 0 (shown_list m h ++ p)) (THead s) (mk_sl (w_fresh g n) 0 (s_len h + length p) (s_len h + length p + slack)))
    (fun s' => if tlist_eq s' s then vs s ++ p else vs s').
Proof.
  intros G Bs h. assert (Us : touches g s) by now left. destruct (ginv_S _ _ _ G) as (A & B). split.
  - intros s' U. rewrite head_upd, putm_head. destruct (A s' U) as (A1 & A2 & A3 & A4 & A5). destruct (tlist_eq s' s) as [->|N].
    + fold h in A1. cbn [s_arr s_off s_len s_cap]. split; [|split; [lia|split; [|split; [tauto|now left]]]].
      * rewrite <- A1. unfold shown_list at 1. cbn [s_arr s_off s_len].
        replace (s_len h + length p)%nat with (length (shown_list m h ++ p)) by (rewrite app_length, shownl_length; reflexivity).
        erewrite map_ext; [apply putm_shown with (m := m) (a := w_fresh g n)|]. intros i. cbv beta. apply byte_upd.
      * right. exists n. cbn. split; [lia|reflexivity].
    + split; [|auto]. rewrite <- A1. apply shownl_ext. intros i W. rewrite byte_upd. apply putm_out. intros (E & Hi).
      now apply (arr_new n m vs s' G U).
  - intros s1 s2 a i B1 U2 N. rewrite !head_upd, !putm_head.
    destruct (tlist_eq s1 s) as [->|N1]; destruct (tlist_eq s2 s) as [->|N2]; try congruence.
    + intros (W & _). cbn [s_arr] in W. pose proof (arr_new n m vs s2 G U2) as X. split; [intros (Y & _)|intros _ (Y & _)]; congruence.
    + intros (W & _). pose proof (arr_new n m vs s1 G (or_introl B1)) as X. unfold slot_of, room_behind. cbn [s_arr]. split; [intros (Y & _)|intros _ (Y & _)]; congruence.
    + apply B; auto.
Qed.

Lemma acts_ok l : forall n acc m vs, (forall a, In a l -> In a (w_acts g)) -> (n + length l = length (w_acts g))%nat -> ginv n m vs ->
  tfoot m (t_acts (w_fresh g) (w_slack g) n acc l) (rset m0 g) (wset m0 g) /\
  fst (tsolo m (t_acts (w_fresh g) (w_slack g) n acc l)) = acc ++ fst (on_lists vs l) /\
  ginv (length (w_acts g)) (snd (tsolo m (t_acts (w_fresh g) (w_slack g) n acc l))) (snd (on_lists vs l)).
Proof.
  induction l as [|[s p|s|s] l IH]; intros n acc m vs Hin Hn G.
  - cbn [length] in Hn. rewrite Nat.add_0_r in Hn. subst n. cbn. rewrite app_nil_r. auto.
  - assert (Hin' : forall a, In a l -> In a (w_acts g)) by (intros; apply Hin; now right).
    cbn [length] in Hn. assert (Bs : appends_to g s) by (exists p; apply Hin; now left). assert (Us : touches g s) by now left.
    cbn [t_acts on_lists].
      set (K := t_acts (w_fresh g) (w_slack g) (S n) (acc ++ [TNil]) l). set (vs1 := fun s' => if tlist_eq s' s then vs s ++ [p] else vs s').
      unfold t_add. cbn [foot solo]. set (h := m (THead s)) in *.
      assert (WH : wset m0 g (THead s) = true) by now apply wset_head.
      (* both branches end in a memory [m1] with a header [h1] *)
      assert (Fin : forall m1 (h1 : sl), ginv (S n) (tupd m1 (THead s) h1) vs1 ->
        tfoot m1 (Wr (V:=theld) (THead s) h1 K) (rset m0 g) (wset m0 g) /\
        fst (tsolo m1 (Wr (V:=theld) (THead s) h1 K)) = acc ++ TNil :: fst (on_lists vs1 l) /\
        ginv (length (w_acts g)) (snd (tsolo m1 (Wr (V:=theld) (THead s) h1 K))) (snd (on_lists vs1 l))).
      { intros m1 h1 G1. cbn [foot solo]. destruct (IH (S n) (acc ++ [TNil]) (tupd m1 (THead s) h1) vs1) as (F & E & G'); [assumption|lia|assumption|].
        split; [split; [now left|assumption]|]. split; [|assumption]. unfold K. rewrite E, <- app_assoc. reflexivity. }
      assert (OV : forall (P : list tres * (tlist -> list (option nat)) -> Prop), P (TNil :: fst (on_lists vs1 l), snd (on_lists vs1 l)) ->
        P (let (rs, vs') := on_lists vs1 l in (TNil :: rs, vs'))).
      { intros P X. destruct (on_lists vs1 l). exact X. }
      destruct (Nat.leb_spec (s_len h + 1) (s_cap h)) as [LE|LE].
      * destruct (Fin _ _ (ginv_room n m vs s [p] G Bs LE)) as (F1 & F2 & F3). fold h in F1, F2, F3. rewrite solo_put.
        split; [split; [left; exact Us|]|].
        { apply foot_put; [|exact F1]. intros j Hj. cbn [length] in Hj. apply wset_byte. destruct G as (A & _).
          destruct (A s Us) as (_ & _ & [(P1 & P2 & P3 & P4)|(n' & P & Q)] & _); [fold h in P1, P2, P3, P4|fold h in Q].
          - right. exists s. split; [assumption|]. unfold room_behind. lia.
          - left. exists n'. split; [lia|auto]. }
        split; [cbn [length] in F2; rewrite F2; apply (OV (fun x => acc ++ TNil :: fst (on_lists vs1 l) = acc ++ fst x)); reflexivity|].
        apply (OV (fun x => ginv _ _ (snd x))). exact F3.
      * destruct (Fin _ _ (ginv_full n m vs s [p] (w_slack g n) G Bs)) as (F1 & F2 & F3). fold h in F1, F2, F3. rewrite solo_take. cbn [app].
        change (map (fun j => m (TSlot (s_arr h) j)) (seq (s_off h) (s_len h))) with (shown_list m h). rewrite solo_put.
        split; [split; [left; exact Us|]|].
        { apply foot_take.
          - intros j Hj. apply (in_sets n m vs s j); [lia|assumption|assumption|]. fold h. unfold slot_of. lia.
          - cbn [app]. change (map (fun j => m (TSlot (s_arr h) j)) (seq (s_off h) (s_len h))) with (shown_list m h).
            apply foot_put; [|exact F1]. intros j Hj. apply wset_byte. left. exists n. split; [lia|reflexivity]. }
        split; [cbn [length] in F2; rewrite F2; apply (OV (fun x => acc ++ TNil :: fst (on_lists vs1 l) = acc ++ fst x)); reflexivity|].
        apply (OV (fun x => ginv _ _ (snd x))). exact F3.
  - assert (Hin' : forall a, In a l -> In a (w_acts g)) by (intros; apply Hin; now right).
    cbn [length] in Hn. assert (Us : touches g s) by (right; left; apply Hin; now left).
    cbn [t_acts on_lists foot solo]. rewrite solo_take. cbn [app]. set (h := m (THead s)).
    change (map (fun j => m (TSlot (s_arr h) j)) (seq (s_off h) (s_len h))) with (shown_list m h).
    assert (E0 : shown_list m h = vs s) by (apply G; assumption). rewrite E0.
    destruct (IH (S n) (acc ++ [TList (vs s)]) m vs) as (F & E & G'); [assumption|lia|now apply ginv_S|].
    destruct (on_lists vs l) as [rs vs']. cbn [fst snd] in *. split; [|split; [|assumption]].
    + split; [left; exact Us|]. apply foot_take.
      * intros j Hj. apply (in_sets n m vs s j); [lia|assumption|assumption|]. fold h. unfold slot_of. lia.
      * cbn [app]. change (map (fun j => m (TSlot (s_arr h) j)) (seq (s_off h) (s_len h))) with (shown_list m h). rewrite E0. exact F.
    + rewrite E, <- app_assoc. reflexivity.
  - assert (Hin' : forall a, In a l -> In a (w_acts g)) by (intros; apply Hin; now right).
    cbn [length] in Hn. assert (Us : touches g s) by (right; right; apply Hin; now left).
    cbn [t_acts on_lists foot solo]. set (h := m (THead s)).
    assert (E0 : s_len h = length (vs s)) by (rewrite <- (shownl_length m h); f_equal; now apply G). rewrite E0.
    destruct (IH (S n) (acc ++ [TNum (length (vs s))]) m vs) as (F & E & G'); [assumption|lia|now apply ginv_S|].
    destruct (on_lists vs l) as [rs vs']. cbn [fst snd] in *. split; [|split; [|assumption]].
    + split; [left; exact Us|exact F].
    + rewrite E, <- app_assoc. reflexivity.
Qed.
End One.

Lemma ext_firstn {A} (a b : list A) : (length a <= length b)%nat -> (forall i, (i < length a)%nat -> nth_error a i = nth_error b i) -> firstn (length a) b = a.
Proof.
  revert b. induction a as [|x a IH]; intros b L H; [reflexivity|]. destruct b as [|y b]; [cbn in L; lia|]. cbn [length firstn]. f_equal.
  - specialize (H 0%nat ltac:(cbn; lia)). cbn in H. congruence.
  - apply IH; [cbn in L; lia|]. intros i Hi. apply (H (S i)). cbn. lia.
Qed.

(** ** copies used by all: what was there stays *)
Section Stay.
Variables (F : tlist -> Prop) (a0 off0 : nat) (old : list (option nat)).
(** what these cells hold, at the start or from their first writing on *)
Definition goal (a i : nat) : option (option nat) :=
  if Nat.eqb a a0 then (if Nat.leb off0 i then nth_error old (i - off0) else None) else nth_error old i.
Definition base (h : sl) : nat := if Nat.eqb (s_arr h) a0 then off0 else 0.
Definition good (h : sl) : Prop := s_off h = base h /\ (length old <= s_len h)%nat.
Definition cells (h : sl) (a i : nat) : Prop := a = s_arr h /\ (base h <= i < base h + length old)%nat.
Definition tsettled (m : tmem) (a i : nat) : Prop := forall b, goal a i = Some b -> m (TSlot a i) = b.

Lemma goal_cell h i : goal (s_arr h) (base h + i) = nth_error old i.
Proof.
  unfold goal, base. destruct (Nat.eqb (s_arr h) a0); [|reflexivity].
  destruct (Nat.leb_spec off0 (off0 + i)); [|lia]. f_equal. lia.
Qed.
Lemma goal_beyond h i : good h -> (s_off h + s_len h <= i)%nat -> goal (s_arr h) i = None.
Proof.
  intros (E & L) H. unfold goal, base in *. destruct (Nat.eqb (s_arr h) a0).
  - destruct (Nat.leb_spec off0 i); [|reflexivity]. apply nth_error_None. lia.
  - apply nth_error_None. lia.
Qed.

(** [K]: cells tknown to hold their goal *)
Definition tknown := nat -> nat -> Prop.
Definition trd_ok (l : tcell) : (theld l -> tknown -> Prop) -> tknown -> Prop :=
  match l with
  | THead s' => fun f K => F s' /\ forall h, good h -> f h (fun a i => K a i \/ cells h a i)
  | TSlot a i => fun f K => forall v, (K a i -> forall b, goal a i = Some b -> v = b) -> f v K
  end.
Definition twr_ok (l : tcell) : theld l -> (tknown -> Prop) -> tknown -> Prop :=
  match l with
  | THead s' => fun h f K => F s' /\ good h /\ (forall a i, cells h a i -> K a i) /\ f K
  | TSlot a i => fun v f K => (forall b, goal a i = Some b -> v = b) /\ f (fun a' i' => K a' i' \/ (a' = a /\ i' = i))
  end.
Fixpoint tsafe {R} (Q : R -> Prop) (p : tcall R) : tknown -> Prop :=
  match p with
  | Ret r => fun _ => Q r
  | Rd l k => trd_ok l (fun v => tsafe Q (k v))
  | Wr l v k => twr_ok l v (tsafe Q k)
  end.

Lemma tsafe_put {R} (Q : R -> Prop) (k : tcall R) d : forall (K : tknown) a i,
  (forall j x b, nth_error d j = Some x -> goal a (i + j) = Some b -> x = b) ->
  (forall K' : tknown, (forall a' i', K a' i' -> K' a' i') -> (forall j, (j < length d)%nat -> K' a (i + j)%nat) -> tsafe Q k K') ->
  tsafe Q (t_put a i d k) K.
Proof.
  induction d as [|x d IH]; intros K a i H1 H2; cbn [t_put].
  - apply H2; [auto|]. cbn. intros; lia.
  - cbn [tsafe twr_ok]. split.
    + intros b Hb. apply (H1 0%nat); [reflexivity|]. now rewrite Nat.add_0_r.
    + apply IH.
      * intros j y b Hy Hb. apply (H1 (S j)); [exact Hy|]. now rewrite <- plus_n_Sm.
      * intros K' HK Hd. apply H2; [auto|]. intros [|j] Hj; [rewrite Nat.add_0_r; apply HK; auto|].
        rewrite <- plus_n_Sm. apply Hd. cbn [length] in Hj. lia.
Qed.
Lemma tsafe_take {R} (Q : R -> Prop) a (k : list (option nat) -> tcall R) (K : tknown) n : forall acc i,
  (forall b, length b = n -> (forall j x g, nth_error b j = Some x -> K a (i + j)%nat -> goal a (i + j) = Some g -> x = g) -> tsafe Q (k (acc ++ b)) K) ->
  tsafe Q (t_take acc a i n k) K.
Proof.
  induction n as [|n IH]; intros acc i H; cbn [t_take].
  - rewrite <- (app_nil_r acc). apply H; [reflexivity|]. intros [|j]; discriminate.
  - cbn [tsafe trd_ok]. intros v Hv. apply IH. intros b Lb Hb. rewrite <- app_assoc. apply H; [cbn; congruence|].
    intros [|j] x g; cbn [nth_error].
    + rewrite Nat.add_0_r. intros [= <-]. intros HK Hg; now apply Hv.
    + rewrite <- plus_n_Sm. apply Hb.
Qed.

(** a reading of a good header starts with [old] *)
Lemma read_starts h (K : tknown) b : good h -> (forall a i, cells h a i -> K a i) -> length b = s_len h ->
  (forall j x g, nth_error b j = Some x -> K (s_arr h) (s_off h + j)%nat -> goal (s_arr h) (s_off h + j) = Some g -> x = g) ->
  begins old b.
Proof.
  intros (E & L) HK Lb H. exists (skipn (length old) b). rewrite <- (firstn_skipn (length old) b) at 1. f_equal.
  apply ext_firstn; [lia|]. intros j Hj. destruct (nth_error b j) as [x|] eqn:Ex; [|apply nth_error_None in Ex; lia].
  destruct (nth_error old j) as [g|] eqn:Eg; [|apply nth_error_None in Eg; lia]. f_equal.
  symmetry. apply (H j x g Ex); rewrite E; [apply HK; unfold cells; lia|]. now rewrite goal_cell.
Qed.

Lemma tsafe_acts fresh slack l : (forall n, fresh n <> a0) ->
  forall done n acc K, (forall x, In x l -> match x with TAdd l' _ | TGet l' | TCount l' => F l' end) ->
  Forall2 (replies old) done acc -> tsafe (Forall2 (replies old) (done ++ l)) (t_acts fresh slack n acc l) K.
Proof.
  intros NF. induction l as [|x l IH]; intros done n acc K Hin HA; [cbn; now rewrite app_nil_r|].
  assert (Hin' : forall x, In x l -> match x with TAdd l' _ | TGet l' | TCount l' => F l' end) by (intros; apply Hin; now right).
  assert (Go : forall r K, replies old x r -> tsafe (Forall2 (replies old) (done ++ x :: l)) (t_acts fresh slack (S n) (acc ++ [r]) l) K).
  { intros r K' Hr. replace (done ++ x :: l) with ((done ++ [x]) ++ l) by now rewrite <- app_assoc.
    apply IH; [assumption|]. apply Forall2_app; [assumption|]. now repeat constructor. }
  assert (Fx := Hin x (or_introl eq_refl)). destruct x as [s p|s|s].
  - cbn [t_acts]. unfold t_add. cbn [tsafe trd_ok]. split; [exact Fx|]. intros h G. destruct (Nat.leb_spec (s_len h + 1) (s_cap h)) as [LE|LE].
    + apply tsafe_put.
      * intros j x b _ Hb. rewrite goal_beyond in Hb; [discriminate|assumption|lia].
      * intros K' HK _. cbn [tsafe twr_ok]. split; [exact Fx|]. split; [|split; [|now apply Go]].
        -- destruct G as (E & L). split; [exact E|]. cbn [s_len]. lia.
        -- intros a i C. apply HK. right. exact C.
    + apply tsafe_take. intros b Lb Hb. cbn [app].
      assert (SW : begins old b) by (apply (read_starts h (fun a i => K a i \/ cells h a i)); auto).
      assert (GF : forall j, goal (fresh n) j = nth_error old j).
      { intros j. unfold goal. destruct (Nat.eqb_spec (fresh n) a0) as [X|_]; [now apply NF in X|reflexivity]. }
      apply tsafe_put.
      * intros j x g Hx Hg. cbn [Nat.add] in Hg. rewrite GF in Hg. destruct SW as (t & ->). rewrite <- app_assoc, nth_error_app1 in Hx; [congruence|].
        apply nth_error_Some. congruence.
      * intros K' HK HP. assert (B0 : base (mk_sl (fresh n) 0 (s_len h + 1) (s_len h + 1 + slack n)) = 0%nat).
        { unfold base. cbn [s_arr]. destruct (Nat.eqb_spec (fresh n) a0) as [X|_]; [now apply NF in X|reflexivity]. }
        cbn [tsafe twr_ok]. split; [exact Fx|]. split; [|split; [|now apply Go]].
        -- split; [now rewrite B0|]. destruct G as (_ & L). cbn [s_len]. lia.
        -- intros a i (-> & Hi). rewrite B0 in Hi. cbn [s_arr]. apply (HP i). rewrite app_length. destruct G as (_ & L). lia.
  - cbn [t_acts tsafe trd_ok]. split; [exact Fx|]. intros h G. apply tsafe_take. intros b Lb Hb. cbn [app].
    apply Go. cbn. apply (read_starts h (fun a i => K a i \/ cells h a i)); auto.
  - cbn [t_acts tsafe trd_ok]. split; [exact Fx|]. intros h G. apply Go. cbn. apply G.
Qed.

Definition tinv {R} (Q : nat -> R -> Prop) (c : conf theld R) : Prop :=
  (forall l, F l -> good (fst c (THead l)) /\ (forall a i, cells (fst c (THead l)) a i -> tsettled (fst c) a i)) /\
  forall t p, nth_error (snd c) t = Some p -> exists K : tknown, (forall a i, K a i -> tsettled (fst c) a i) /\ tsafe (Q t) p K.
Lemma tsettled_upd (m : tmem) a i v a' i' : (forall b, goal a i = Some b -> v = b) -> tsettled m a' i' \/ (a' = a /\ i' = i) -> tsettled (tupd m (TSlot a i) v) a' i'.
Proof.
  intros Hv H b Hb. destruct (tcell_eq (TSlot a i) (TSlot a' i')) as [[= <- <-]|N].
  - rewrite (upd_same tcell_eq theld m (TSlot a i) v). auto.
  - rewrite upd_other by assumption. destruct H as [H|(-> & ->)]; [now apply H|congruence].
Qed.
Lemma tinv_step {R} (Q : nat -> R -> Prop) c t : tinv Q c -> tinv Q (step tcell_eq theld c t).
Proof.
  destruct c as [m ps]. intros (C & T). unfold step. cbn [fst snd] in *.
  destruct (nth_error ps t) as [[r|l k|l v k]|] eqn:E; try (split; [exact C|exact T]).
  - destruct (T t _ E) as (K & HK & S). split; [exact C|]. cbn [fst snd]. intros t' p. rewrite nth_error_set.
    destruct (Nat.eqb_spec t t') as [<-|N].
    + rewrite E. intros [= <-]. destruct l as [s'|a i]; cbn [tsafe trd_ok] in S.
      * destruct S as (Fs & S). destruct (C s' Fs) as (G & Cs). eexists. split; [|apply (S _ G)]. intros a i [X|X]; auto.
      * exists K. split; [exact HK|]. apply S. intros X. now apply HK.
    + apply T.
  - destruct (T t _ E) as (K & HK & S). destruct l as [s'|a i]; cbn [tsafe twr_ok] in S.
    + destruct S as (Fs & G' & C' & S). 
      assert (ST : forall a i, tsettled m a i -> tsettled (tupd m (THead s') v) a i) by (intros a i H b Hb; rewrite byte_upd; now apply H).
      split; cbn [fst snd].
      * intros l Fl. rewrite head_upd. destruct (tlist_eq l s') as [->|N]; [split; [exact G'|auto]|].
        destruct (C l Fl) as (G & Cl). split; [exact G|auto].
      * intros t' p. rewrite nth_error_set. destruct (Nat.eqb_spec t t') as [<-|N].
        -- rewrite E. intros [= <-]. exists K. auto.
        -- intros H. destruct (T t' p H) as (K2 & H2 & S2). exists K2. auto.
    + destruct S as (Hv & S). assert (HH : forall l, tupd m (TSlot a i) v (THead l) = m (THead l)) by (intros; now apply upd_other).
      split; cbn [fst snd].
      * intros l Fl. rewrite HH. destruct (C l Fl) as (G & Cl). split; [exact G|]. intros a' i' X. apply tsettled_upd; auto.
      * intros t' p. rewrite nth_error_set. destruct (Nat.eqb_spec t t') as [<-|N].
        -- rewrite E. intros [= <-]. eexists. split; [|exact S]. intros a' i' [X|X]; apply tsettled_upd; auto.
        -- intros H. destruct (T t' p H) as (K2 & H2 & S2). exists K2. split; [|exact S2]. intros a' i' X. apply tsettled_upd; auto.
Qed.
Lemma tinv_run {R} (Q : nat -> R -> Prop) sched : forall c, tinv Q c -> tinv Q (run tcell_eq theld c sched).
Proof. induction sched as [|t sched IH]; intros c H; [exact H|]. cbn [run fold_left]. apply IH. now apply tinv_step. Qed.
Lemma tinv_script {R} (Q : nat -> R -> Prop) c l : tinv Q c -> F l -> begins old (list_at (fst c) l).
Proof.
  intros (C & _) Fl. destruct (C l Fl) as (G & Cl). unfold list_at. eapply (read_starts _ (tsettled (fst c))); [exact G|exact Cl|apply shownl_length|].
  intros j x g Hx HS Hg. apply HS in Hg. rewrite <- Hg. unfold shown_list in Hx. rewrite nth_error_map in Hx.
  destruct (nth_error (seq (s_off (fst c (THead l))) (s_len (fst c (THead l)))) j) as [y|] eqn:Ey; [|discriminate Hx]. cbn in Hx. injection Hx as <-.
  assert (j < s_len (fst c (THead l)))%nat by (rewrite <- (seq_length (s_len (fst c (THead l))) (s_off (fst c (THead l)))); apply nth_error_Some; congruence).
  apply nth_error_nth with (d := 0%nat) in Ey. rewrite seq_nth in Ey by assumption. now rewrite Ey.
Qed.
End Stay.

(** ** particular schedules *)
Lemma run_length {R} l : forall c : conf theld R, length (snd (run tcell_eq theld c l)) = length (snd c).
Proof.
  induction l as [|t l IH]; intros c; [reflexivity|]. change (run tcell_eq theld c (t :: l)) with (run tcell_eq theld (step tcell_eq theld c t) l). rewrite IH.
  unfold step. destruct (nth_error (snd c) t) as [[r|l' k|l' v k]|]; cbn [snd]; try reflexivity; apply set_nth_len.
Qed.
Lemma run_put0 {R} (k y : tcall R) d2 d1 : forall m a i,
  run tcell_eq theld (m, [t_put a i (d1 ++ d2) k; y]) (repeat 0%nat (length d1)) = (putm m a i d1, [t_put a (i + length d1) d2 k; y]).
Proof.
  induction d1 as [|b d IH]; intros m a i; cbn [app length repeat putm]; [now rewrite Nat.add_0_r|].
  cbn [t_put]. rewrite run_wr with (l := TSlot a i) (v := b) (k := t_put a (S i) (d ++ d2) k) by reflexivity.
  cbn [set_nth]. rewrite IH. now rewrite <- plus_n_Sm.
Qed.
Lemma run_put1 {R} (k x : tcall R) d2 d1 : forall m a i,
  run tcell_eq theld (m, [x; t_put a i (d1 ++ d2) k]) (repeat 1%nat (length d1)) = (putm m a i d1, [x; t_put a (i + length d1) d2 k]).
Proof.
  induction d1 as [|b d IH]; intros m a i; cbn [app length repeat putm]; [now rewrite Nat.add_0_r|].
  cbn [t_put]. rewrite run_wr with (l := TSlot a i) (v := b) (k := t_put a (S i) (d ++ d2) k) by reflexivity.
  cbn [set_nth]. rewrite IH. now rewrite <- plus_n_Sm.
Qed.
Lemma putm_app d1 : forall m a i d2, putm m a i (d1 ++ d2) = putm (putm m a i d1) a (i + length d1) d2.
Proof. induction d1 as [|b d IH]; intros; cbn [app putm length]; [now rewrite Nat.add_0_r|]. rewrite IH. now rewrite <- plus_n_Sm. Qed.
Lemma putm_reads p : forall (m : tmem) a i d n,
  map (fun j => putm m a i p (TSlot a j)) (seq (i + d) n) =
  firstn n (skipn d p) ++ skipn (length (firstn n (skipn d p))) (map (fun j => m (TSlot a j)) (seq (i + d) n)).
Proof.
  induction p as [|b p IH]; intros m a i d n; cbn [putm].
  - rewrite skipn_nil, firstn_nil. reflexivity.
  - destruct d as [|d].
    + destruct n as [|n]; [reflexivity|]. rewrite Nat.add_0_r. cbn [skipn firstn seq map length app]. f_equal.
      * rewrite putm_out by lia. apply (upd_same tcell_eq theld m (TSlot a i) b).
      * specialize (IH (tupd m (TSlot a i) b) a (S i) 0%nat n). rewrite Nat.add_0_r in IH. cbn [skipn] in IH. rewrite IH. f_equal. f_equal.
        apply map_ext_in. intros j Hj. apply in_seq in Hj. apply (upd_other tcell_eq theld m (TSlot a i) b (TSlot a j)). intros [= X]. lia.
    + cbn [skipn]. rewrite <- plus_n_Sm. change (S (i + d)) with (S i + d)%nat. rewrite IH. f_equal. f_equal.
      apply map_ext_in. intros j Hj. apply in_seq in Hj. apply (upd_other tcell_eq theld m (TSlot a i) b (TSlot a j)). intros [= X]. lia.
Qed.
(** a worker that changes a cell comes to a point where it is about to write it *)
Lemma run_until {R} (p : tcall R) l : forall (m : tmem) ps i, nth_error ps i = Some p -> snd (tsolo m p) l <> m l ->
  exists s m' p', run tcell_eq theld (m, ps) s = (m', set_nth i p' ps) /\ next theld p' = Some (l, true).
Proof.
  assert (SS : forall (A : Type) (l : list A) i x y, set_nth i x (set_nth i y l) = set_nth i x l).
  { intros A l'; induction l' as [|a l' IH]; intros [|i] x y; cbn; try reflexivity. now rewrite IH. }
  assert (SI : forall (A : Type) (l : list A) i x, nth_error l i = Some x -> set_nth i x l = l).
  { intros A l'; induction l' as [|a l' IH]; intros [|i] x; cbn; try discriminate; [now intros [= ->]|]. intros H. now rewrite IH. }
  induction p as [r|l' k IH|l' v k IH]; intros m ps i Hp H; cbn [solo snd] in H.
  - now destruct H.
  - destruct (IH (m l') m (set_nth i (k (m l')) ps) i) as (s & m' & p' & E & N); [now rewrite nth_error_set, Nat.eqb_refl, Hp|exact H|].
    exists (i :: s), m', p'. rewrite (run_rd tcell_eq theld m ps i l' k s Hp), E, SS. auto.
  - destruct (tcell_eq l' l) as [->|N].
    + exists [], m, (Wr l v k). rewrite SI by assumption. auto.
    + destruct (IH (tupd m l' v) (set_nth i k ps) i) as (s & m' & p' & E & N'); [now rewrite nth_error_set, Nat.eqb_refl, Hp|now rewrite upd_other by assumption|].
      exists (i :: s), m', p'. rewrite (run_wr tcell_eq theld m ps i l' v k s Hp), E, SS. auto.
Qed.
