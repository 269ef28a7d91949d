(** Proofs for C87. *)
From Verif Require Export S_ConcSc P_Conc.
From Coq Require Import Lia ZifyBool ZifyNat.

Notation ssolo := (solo scell_eq sheld).
Notation supd := (upd scell_eq sheld).
Notation sfoot := (foot scell_eq sheld false).

Lemma run_call_any c : forall v p e, run_call [] c = (p, e) -> run_call v c = (match e with None => v ++ p | Some _ => v end, e).
Proof.
  intros v p e. destruct c; cbn [run_call]; unfold append_push_data_hex, append_push_data_string, append_push_data_strings, append_push_data_array, append_push_data, append_opcode.
  all: repeat match goal with |- context [match ?x with _ => _ end = _] => destruct x eqn:? end.
  all: intros [= <- <-]; cbn [app]; try reflexivity; try (now rewrite app_nil_r).
Qed.

(** memory after [s_put] *)
Fixpoint putm (m : smem) (a i : nat) (d : bytes) : smem :=
  match d with [] => m | b :: r => putm (supd m (SByte a i) b) a (S i) r end.
Lemma putm_head d : forall m a i s, putm m a i d (SHead s) = m (SHead s).
Proof. induction d as [|b d IH]; intros; cbn [putm]; [reflexivity|]. rewrite IH. now apply upd_other. Qed.
Lemma putm_out d : forall m a i a' j, ~ (a' = a /\ i <= j < i + length d)%nat -> putm m a i d (SByte a' j) = m (SByte a' j).
Proof.
  induction d as [|b d IH]; intros m a i a' j H; cbn [putm length] in *; [reflexivity|]. rewrite IH by lia.
  apply upd_other. intros [= -> ->]. apply H. lia.
Qed.
Lemma putm_shown d : forall (m : smem) a i, map (fun j => putm m a i d (SByte a j)) (seq i (length d)) = d.
Proof.
  induction d as [|b d IH]; intros m a i; cbn [putm length seq map]; [reflexivity|]. rewrite IH. f_equal.
  rewrite putm_out by lia. now rewrite upd_same.
Qed.
Lemma solo_put {R} (k : scall R) d : forall m a i, ssolo m (s_put a i d k) = ssolo (putm m a i d) k.
Proof. induction d as [|b d IH]; intros; cbn [s_put putm solo]; [reflexivity|]. apply IH. Qed.
Lemma solo_take {R} (m : smem) a (k : bytes -> scall R) n : forall i acc, ssolo m (s_take acc a i n k) = ssolo m (k (acc ++ map (fun j => m (SByte a j)) (seq i n))).
Proof. induction n as [|n IH]; intros i acc; cbn [s_take solo seq map]; [now rewrite app_nil_r|]. rewrite IH, <- app_assoc. reflexivity. Qed.
Lemma foot_put {R} (k : scall R) Rs Ws d : forall m a i, (forall j, (i <= j < i + length d)%nat -> Ws (SByte a j) = true) ->
  sfoot (putm m a i d) k Rs Ws -> sfoot m (s_put a i d k) Rs Ws.
Proof.
  induction d as [|b d IH]; intros m a i H F; cbn [s_put putm foot length] in *; [assumption|].
  split; [left; apply H; lia|]. apply IH; [|assumption]. intros j Hj. apply H. lia.
Qed.
Lemma foot_take {R} (m : smem) a (k : bytes -> scall R) Rs Ws n : forall i acc, (forall j, (i <= j < i + n)%nat -> Rs (SByte a j) \/ Ws (SByte a j) = true) ->
  sfoot m (k (acc ++ map (fun j => m (SByte a j)) (seq i n))) Rs Ws -> sfoot m (s_take acc a i n k) Rs Ws.
Proof.
  induction n as [|n IH]; intros i acc H F; cbn [s_take foot seq map] in *; [now rewrite app_nil_r in F|].
  split; [apply H; lia|]. apply IH; [intros j Hj; apply H; lia|]. now rewrite <- app_assoc.
Qed.

(** what a goroutine may access *)
Definition rset (m0 : smem) (g : goroutine) (l : scell) : Prop :=
  match l with SHead s => uses g s | SByte a i => exists s, uses g s /\ within (m0 (SHead s)) a i end.
Definition wset (m0 : smem) (g : goroutine) (l : scell) : bool :=
  match l with
  | SHead s => existsb (fun x => match x with SCall s' _ => Nat.eqb s' s | _ => false end) (g_acts g)
  | SByte a i =>
      existsb (fun n => Nat.eqb (g_fresh g n) a) (seq 0 (length (g_acts g))) ||
      existsb (fun x => match x with
        | SCall s _ => Nat.eqb a (s_arr (m0 (SHead s))) && Nat.leb (s_off (m0 (SHead s)) + s_len (m0 (SHead s))) i && Nat.ltb i (s_off (m0 (SHead s)) + s_cap (m0 (SHead s)))
        | _ => false end) (g_acts g)
  end.
Lemma wset_head m0 g s : wset m0 g (SHead s) = true <-> builds g s.
Proof.
  cbn. rewrite existsb_exists. split.
  - intros ([s' c|s'] & I & E); [|discriminate]. apply Nat.eqb_eq in E. subst s'. now exists c.
  - intros (c & I). exists (SCall s c). split; [assumption|apply Nat.eqb_refl].
Qed.
Lemma wset_byte m0 g a i : wset m0 g (SByte a i) = true <->
  (exists n, (n < length (g_acts g))%nat /\ g_fresh g n = a) \/ (exists s, builds g s /\ behind (m0 (SHead s)) a i).
Proof.
  unfold wset. rewrite orb_true_iff, !existsb_exists. split.
  - intros [(n & I & E)|([s c|s] & I & E)]; [left; exists n; rewrite in_seq in I; lia| |discriminate].
    right. exists s. split; [now exists c|]. rewrite !andb_true_iff, Nat.eqb_eq, Nat.leb_le, Nat.ltb_lt in E. unfold behind. tauto.
  - intros [(n & I & E)|(s & (c & I) & E)]; [left; exists n; rewrite in_seq; lia|].
    right. exists (SCall s c). split; [assumption|]. unfold behind in E. rewrite !andb_true_iff, Nat.eqb_eq, Nat.leb_le, Nat.ltb_lt. tauto.
Qed.

Lemma head_upd (m : smem) s h s' : supd m (SHead s) h (SHead s') = if Nat.eqb s' s then h else m (SHead s').
Proof.
  destruct (Nat.eqb_spec s' s) as [->|N]; [apply (upd_same scell_eq sheld m (SHead s) h)|].
  apply upd_other. congruence.
Qed.
Lemma byte_upd (m : smem) s h a i : supd m (SHead s) h (SByte a i) = m (SByte a i).
Proof. now apply upd_other. Qed.
Lemma shown_ext (m m' : smem) h : (forall i, within h (s_arr h) i -> m (SByte (s_arr h) i) = m' (SByte (s_arr h) i)) -> shown m h = shown m' h.
Proof. intros H. unfold shown. apply map_ext_in. intros i Hi. apply in_seq in Hi. apply H. unfold within. lia. Qed.
Lemma shown_length m h : length (shown m h) = s_len h.
Proof. unfold shown. now rewrite map_length, seq_length. Qed.

Section One.
Variables (m0 : smem) (g : goroutine).
Hypothesis Hinj : forall n n', g_fresh g n = g_fresh g n' -> n = n'.
Hypothesis Hnew : forall n s, uses g s -> g_fresh g n <> s_arr (m0 (SHead s)).

Definition placed (n s : nat) (h : sl) : Prop :=
  (s_arr h = s_arr (m0 (SHead s)) /\ s_off h = s_off (m0 (SHead s)) /\ s_cap h = s_cap (m0 (SHead s)) /\ (s_len (m0 (SHead s)) <= s_len h)%nat)
  \/ (exists n', (n' < n)%nat /\ s_arr h = g_fresh g n').
Definition ginv (n : nat) (m : smem) (vs : nat -> bytes) : Prop :=
  (forall s, uses g s -> shown m (m (SHead s)) = vs s /\ (s_len (m (SHead s)) <= s_cap (m (SHead s)))%nat /\ placed n s (m (SHead s)) /\
     (~ builds g s -> m (SHead s) = m0 (SHead s)) /\ (builds g s \/ m (SHead s) = m0 (SHead s))) /\
  (forall s s' a i, builds g s -> uses g s' -> s <> s' -> behind (m (SHead s)) a i ->
     ~ within (m (SHead s')) a i /\ (builds g s' -> ~ behind (m (SHead s')) a i)).

Lemma ginv_S n m vs : ginv n m vs -> ginv (S n) m vs.
Proof.
  intros (A & B). split; [|exact B]. intros s U. destruct (A s U) as (A1 & A2 & A3 & A4). split; [exact A1|]. split; [exact A2|]. split; [|exact A4].
  destruct A3 as [P|(n' & P & Q)]; [now left|right; exists n'; split; [lia|exact Q]].
Qed.
(** the bytes of a script lie in the sets *)
Lemma in_sets n m vs s j : (n <= length (g_acts g))%nat -> ginv n m vs -> uses g s -> within (m (SHead s)) (s_arr (m (SHead s))) j ->
  rset m0 g (SByte (s_arr (m (SHead s))) j) \/ wset m0 g (SByte (s_arr (m (SHead s))) j) = true.
Proof.
  intros Ln (A & _) U (_ & Hj). destruct (A s U) as (_ & A2 & [(P1 & P2 & P3 & P4)|(n' & P & Q)] & _ & A5).
  - rewrite P1. destruct A5 as [Bd|E].
    + destruct (Nat.lt_ge_cases j (s_off (m0 (SHead s)) + s_len (m0 (SHead s)))) as [Q|Q].
      * left. cbn. exists s. split; [assumption|]. unfold within. lia.
      * right. apply wset_byte. right. exists s. split; [assumption|]. unfold behind. lia.
    + left. cbn. exists s. split; [assumption|]. unfold within. rewrite E in Hj. lia.
  - right. apply wset_byte. left. exists n'. split; [lia|auto].
Qed.

Lemma ginv_room n m vs s p : ginv n m vs -> builds g s -> (s_len (m (SHead s)) + length p <= s_cap (m (SHead s)))%nat ->
  let h := m (SHead s) in
  ginv (S n) (supd (putm m (s_arr h) (s_off h + s_len h) p) (SHead s) (mk_sl (s_arr h) (s_off h) (s_len h + length p) (s_cap h)))
    (fun s' => if Nat.eqb s' s then vs s ++ p else vs s').
Proof.
  intros G Bs LE h. assert (Us : uses g s) by now left. destruct (ginv_S _ _ _ G) as (A & B). split.
  - intros s' U. rewrite head_upd, putm_head. destruct (A s' U) as (A1 & A2 & A3 & A4 & A5). destruct (Nat.eqb_spec s' s) as [->|N].
    + fold h in A1, A2, A3, A4, A5, LE. cbn [s_arr s_off s_len s_cap]. split; [|split; [lia|split; [|split; [tauto|now left]]]].
      * unfold shown at 1. cbn [s_arr s_off s_len]. rewrite seq_app, map_app. f_equal.
        -- rewrite <- A1. apply map_ext_in. intros i Hi. apply in_seq in Hi. rewrite byte_upd. apply putm_out. lia.
        -- erewrite map_ext; [apply putm_shown with (m := m) (a := s_arr h)|]. intros i. cbv beta. apply byte_upd.
      * destruct A3 as [P|P]; [left; cbn [s_arr s_off s_len s_cap]; lia|right; exact P].
    + split; [|auto]. rewrite <- A1. apply shown_ext. intros i W. rewrite byte_upd. apply putm_out. intros (E & Hi).
      refine (proj1 (B s s' (s_arr (m (SHead s'))) i Bs U (fun X => N (eq_sym X)) _) W). fold h. fold h in LE. unfold behind. lia.
  - intros s1 s2 a i B1 U2 N. rewrite !head_upd, !putm_head. fold h in LE.
    destruct (Nat.eqb_spec s1 s) as [->|N1]; destruct (Nat.eqb_spec s2 s) as [->|N2]; try congruence.
    + intros W. apply B with (s := s); auto. fold h. unfold behind in *. cbn [s_arr s_off s_len s_cap] in W. lia.
    + intros W. destruct (B s1 s a i B1 U2 N1 W) as (X & Y). specialize (Y Bs). fold h in X, Y. unfold within, behind in *. cbn [s_arr s_off s_len s_cap]. split; [|intros _]; lia.
    + apply B; auto.
Qed.
Lemma arr_new n m vs s : ginv n m vs -> uses g s -> s_arr (m (SHead s)) <> g_fresh g n.
Proof.
  intros (A & _) U. destruct (A s U) as (_ & _ & [(P & _)|(n' & P & Q)] & _).
  - rewrite P. intros E. now apply (Hnew n s U).
  - rewrite Q. intros E. apply Hinj in E. lia.
Qed.
Lemma ginv_full n m vs s p slack : ginv n m vs -> builds g s ->
  let h := m (SHead s) in
  ginv (S n) (supd (putm m (g_fresh g n) 0 (shown m h ++ p)) (SHead s) (mk_sl (g_fresh g n) 0 (s_len h + length p) (s_len h + length p + slack)))
    (fun s' => if Nat.eqb s' s then vs s ++ p else vs s').
Proof.
  intros G Bs h. assert (Us : uses g s) by now left. destruct (ginv_S _ _ _ G) as (A & B). split.
  - intros s' U. rewrite head_upd, putm_head. destruct (A s' U) as (A1 & A2 & A3 & A4 & A5). destruct (Nat.eqb_spec s' s) as [->|N].
    + fold h in A1. cbn [s_arr s_off s_len s_cap]. split; [|split; [lia|split; [|split; [tauto|now left]]]].
      * rewrite <- A1. unfold shown at 1. cbn [s_arr s_off s_len].
        replace (s_len h + length p)%nat with (length (shown m h ++ p)) by (rewrite app_length, shown_length; reflexivity).
        erewrite map_ext; [apply putm_shown with (m := m) (a := g_fresh g n)|]. intros i. cbv beta. apply byte_upd.
      * right. exists n. cbn. split; [lia|reflexivity].
    + split; [|auto]. rewrite <- A1. apply shown_ext. intros i W. rewrite byte_upd. apply putm_out. intros (E & Hi).
      now apply (arr_new n m vs s' G U).
  - intros s1 s2 a i B1 U2 N. rewrite !head_upd, !putm_head.
    destruct (Nat.eqb_spec s1 s) as [->|N1]; destruct (Nat.eqb_spec s2 s) as [->|N2]; try congruence.
    + intros (W & _). cbn [s_arr] in W. pose proof (arr_new n m vs s2 G U2) as X. split; [intros (Y & _)|intros _ (Y & _)]; congruence.
    + intros (W & _). pose proof (arr_new n m vs s1 G (or_introl B1)) as X. unfold within, behind. cbn [s_arr]. split; [intros (Y & _)|intros _ (Y & _)]; congruence.
    + apply B; auto.
Qed.

Lemma acts_ok l : forall n acc m vs, (forall a, In a l -> In a (g_acts g)) -> (n + length l = length (g_acts g))%nat -> ginv n m vs ->
  sfoot m (s_acts (g_fresh g) (g_slack g) n acc l) (rset m0 g) (wset m0 g) /\
  fst (ssolo m (s_acts (g_fresh g) (g_slack g) n acc l)) = acc ++ fst (on_values vs l) /\
  ginv (length (g_acts g)) (snd (ssolo m (s_acts (g_fresh g) (g_slack g) n acc l))) (snd (on_values vs l)).
Proof.
  induction l as [|[s c|s] l IH]; intros n acc m vs Hin Hn G.
  - cbn [length] in Hn. rewrite Nat.add_0_r in Hn. subst n. cbn. rewrite app_nil_r. auto.
  - assert (Hin' : forall a, In a l -> In a (g_acts g)) by (intros; apply Hin; now right).
    cbn [length] in Hn. assert (Bs : builds g s) by (exists c; apply Hin; now left). assert (Us : uses g s) by now left.
    cbn [s_acts on_values]. unfold s_call. destruct (run_call [] c) as [p [e|]] eqn:RC; rewrite (run_call_any c (vs s) _ _ RC).
    + destruct (IH (S n) (acc ++ [RErr (Some e)]) m (fun s' => if Nat.eqb s' s then vs s else vs s')) as (F & E & G'); [assumption|lia| |].
      { apply ginv_S. destruct G as (A & B). split; [|exact B]. intros s' U. destruct (Nat.eqb_spec s' s) as [->|]; now apply A. }
      destruct (on_values _ l) as [rs vs']. cbn [fst snd] in *. split; [assumption|]. split; [|assumption]. rewrite E, <- app_assoc. reflexivity.
    + set (K := s_acts (g_fresh g) (g_slack g) (S n) (acc ++ [RErr None]) l). set (vs1 := fun s' => if Nat.eqb s' s then vs s ++ p else vs s').
      unfold s_append. cbn [foot solo]. set (h := m (SHead s)) in *.
      assert (WH : wset m0 g (SHead s) = true) by now apply wset_head.
      (* both branches end in a memory [m1] with a header [h1] *)
      assert (Fin : forall m1 (h1 : sl), ginv (S n) (supd m1 (SHead s) h1) vs1 ->
        sfoot m1 (Wr (V:=sheld) (SHead s) h1 K) (rset m0 g) (wset m0 g) /\
        fst (ssolo m1 (Wr (V:=sheld) (SHead s) h1 K)) = acc ++ RErr None :: fst (on_values vs1 l) /\
        ginv (length (g_acts g)) (snd (ssolo m1 (Wr (V:=sheld) (SHead s) h1 K))) (snd (on_values vs1 l))).
      { intros m1 h1 G1. cbn [foot solo]. destruct (IH (S n) (acc ++ [RErr None]) (supd m1 (SHead s) h1) vs1) as (F & E & G'); [assumption|lia|assumption|].
        split; [split; [now left|assumption]|]. split; [|assumption]. unfold K. rewrite E, <- app_assoc. reflexivity. }
      assert (OV : forall (P : list sres * (nat -> bytes) -> Prop), P (RErr None :: fst (on_values vs1 l), snd (on_values vs1 l)) ->
        P (let (rs, vs') := on_values vs1 l in (RErr None :: rs, vs'))).
      { intros P X. destruct (on_values vs1 l). exact X. }
      destruct (Nat.leb_spec (s_len h + length p) (s_cap h)) as [LE|LE].
      * destruct (Fin _ _ (ginv_room n m vs s p G Bs LE)) as (F1 & F2 & F3). fold h in F1, F2, F3. rewrite solo_put.
        split; [split; [left; exact Us|]|].
        { apply foot_put; [|exact F1]. intros j Hj. apply wset_byte. destruct G as (A & _).
          destruct (A s Us) as (_ & _ & [(P1 & P2 & P3 & P4)|(n' & P & Q)] & _); [fold h in P1, P2, P3, P4|fold h in Q].
          - right. exists s. split; [assumption|]. unfold behind. lia.
          - left. exists n'. split; [lia|auto]. }
        split; [rewrite F2; apply (OV (fun x => acc ++ RErr None :: fst (on_values vs1 l) = acc ++ fst x)); reflexivity|].
        apply (OV (fun x => ginv _ _ (snd x))). exact F3.
      * destruct (Fin _ _ (ginv_full n m vs s p (g_slack g n) G Bs)) as (F1 & F2 & F3). fold h in F1, F2, F3. rewrite solo_take. cbn [app].
        change (map (fun j => m (SByte (s_arr h) j)) (seq (s_off h) (s_len h))) with (shown m h). rewrite solo_put.
        split; [split; [left; exact Us|]|].
        { apply foot_take.
          - intros j Hj. apply (in_sets n m vs s j); [lia|assumption|assumption|]. fold h. unfold within. lia.
          - cbn [app]. change (map (fun j => m (SByte (s_arr h) j)) (seq (s_off h) (s_len h))) with (shown m h).
            apply foot_put; [|exact F1]. intros j Hj. apply wset_byte. left. exists n. split; [lia|reflexivity]. }
        split; [rewrite F2; apply (OV (fun x => acc ++ RErr None :: fst (on_values vs1 l) = acc ++ fst x)); reflexivity|].
        apply (OV (fun x => ginv _ _ (snd x))). exact F3.
  - assert (Hin' : forall a, In a l -> In a (g_acts g)) by (intros; apply Hin; now right).
    cbn [length] in Hn. assert (Us : uses g s) by (right; apply Hin; now left).
    cbn [s_acts on_values foot solo]. rewrite solo_take. cbn [app]. set (h := m (SHead s)).
    change (map (fun j => m (SByte (s_arr h) j)) (seq (s_off h) (s_len h))) with (shown m h).
    assert (E0 : shown m h = vs s) by (apply G; assumption). rewrite E0.
    destruct (IH (S n) (acc ++ [RBytes (vs s)]) m vs) as (F & E & G'); [assumption|lia|now apply ginv_S|].
    destruct (on_values vs l) as [rs vs']. cbn [fst snd] in *. split; [|split; [|assumption]].
    + split; [left; exact Us|]. apply foot_take.
      * intros j Hj. apply (in_sets n m vs s j); [lia|assumption|assumption|]. fold h. unfold within. lia.
      * cbn [app]. change (map (fun j => m (SByte (s_arr h) j)) (seq (s_off h) (s_len h))) with (shown m h). rewrite E0. exact F.
    + rewrite E, <- app_assoc. reflexivity.
Qed.
End One.

Lemma ext_firstn {A} (a b : list A) : (length a <= length b)%nat -> (forall i, (i < length a)%nat -> nth_error a i = nth_error b i) -> firstn (length a) b = a.
Proof.
  revert b. induction a as [|x a IH]; intros b L H; [reflexivity|]. destruct b as [|y b]; [cbn in L; lia|]. cbn [length firstn]. f_equal.
  - specialize (H 0%nat ltac:(cbn; lia)). cbn in H. congruence.
  - apply IH; [cbn in L; lia|]. intros i Hi. apply (H (S i)). cbn. lia.
Qed.

(** ** one script built by all: what was there stays *)
Section Stay.
Variables (s : nat) (a0 off0 : nat) (old : bytes).
(** what these cells hold, at the start or from their first writing on *)
Definition goal (a i : nat) : option byte :=
  if Nat.eqb a a0 then (if Nat.leb off0 i then nth_error old (i - off0) else None) else nth_error old i.
Definition base (h : sl) : nat := if Nat.eqb (s_arr h) a0 then off0 else 0.
Definition good (h : sl) : Prop := s_off h = base h /\ (length old <= s_len h)%nat.
Definition cells (h : sl) (a i : nat) : Prop := a = s_arr h /\ (base h <= i < base h + length old)%nat.
Definition settled (m : smem) (a i : nat) : Prop := forall b, goal a i = Some b -> m (SByte a i) = b.

Lemma goal_cell h i : goal (s_arr h) (base h + i) = nth_error old i.
Proof.
  unfold goal, base. destruct (Nat.eqb (s_arr h) a0); [|reflexivity].
  destruct (Nat.leb_spec off0 (off0 + i)); [|lia]. f_equal. lia.
Qed.
Lemma goal_beyond h i : good h -> (s_off h + s_len h <= i)%nat -> goal (s_arr h) i = None.
Proof.
  intros (E & L) H. unfold goal, base in *. destruct (Nat.eqb (s_arr h) a0).
  - destruct (Nat.leb_spec off0 i); [|reflexivity]. apply nth_error_None. lia.
  - apply nth_error_None. lia.
Qed.

(** [K]: cells known to hold their goal *)
Definition known := nat -> nat -> Prop.
Definition rd_ok (l : scell) : (sheld l -> known -> Prop) -> known -> Prop :=
  match l with
  | SHead s' => fun f K => s' = s /\ forall h, good h -> f h (fun a i => K a i \/ cells h a i)
  | SByte a i => fun f K => forall v, (K a i -> forall b, goal a i = Some b -> v = b) -> f v K
  end.
Definition wr_ok (l : scell) : sheld l -> (known -> Prop) -> known -> Prop :=
  match l with
  | SHead s' => fun h f K => s' = s /\ good h /\ (forall a i, cells h a i -> K a i) /\ f K
  | SByte a i => fun v f K => (forall b, goal a i = Some b -> v = b) /\ f (fun a' i' => K a' i' \/ (a' = a /\ i' = i))
  end.
Fixpoint safe {R} (Q : R -> Prop) (p : scall R) : known -> Prop :=
  match p with
  | Ret r => fun _ => Q r
  | Rd l k => rd_ok l (fun v => safe Q (k v))
  | Wr l v k => wr_ok l v (safe Q k)
  end.

Lemma safe_put {R} (Q : R -> Prop) (k : scall R) d : forall (K : known) a i,
  (forall j x b, nth_error d j = Some x -> goal a (i + j) = Some b -> x = b) ->
  (forall K' : known, (forall a' i', K a' i' -> K' a' i') -> (forall j, (j < length d)%nat -> K' a (i + j)%nat) -> safe Q k K') ->
  safe Q (s_put a i d k) K.
Proof.
  induction d as [|x d IH]; intros K a i H1 H2; cbn [s_put].
  - apply H2; [auto|]. cbn. intros; lia.
  - cbn [safe wr_ok]. split.
    + intros b Hb. apply (H1 0%nat); [reflexivity|]. now rewrite Nat.add_0_r.
    + apply IH.
      * intros j y b Hy Hb. apply (H1 (S j)); [exact Hy|]. now rewrite <- plus_n_Sm.
      * intros K' HK Hd. apply H2; [auto|]. intros [|j] Hj; [rewrite Nat.add_0_r; apply HK; auto|].
        rewrite <- plus_n_Sm. apply Hd. cbn [length] in Hj. lia.
Qed.
Lemma safe_take {R} (Q : R -> Prop) a (k : bytes -> scall R) (K : known) n : forall acc i,
  (forall b, length b = n -> (forall j x g, nth_error b j = Some x -> K a (i + j)%nat -> goal a (i + j) = Some g -> x = g) -> safe Q (k (acc ++ b)) K) ->
  safe Q (s_take acc a i n k) K.
Proof.
  induction n as [|n IH]; intros acc i H; cbn [s_take].
  - rewrite <- (app_nil_r acc). apply H; [reflexivity|]. intros [|j]; discriminate.
  - cbn [safe rd_ok]. intros v Hv. apply IH. intros b Lb Hb. rewrite <- app_assoc. apply H; [cbn; congruence|].
    intros [|j] x g; cbn [nth_error].
    + rewrite Nat.add_0_r. intros [= <-]. intros HK Hg; now apply Hv.
    + rewrite <- plus_n_Sm. apply Hb.
Qed.

(** a reading of a good header starts with [old] *)
Lemma read_starts h (K : known) b : good h -> (forall a i, cells h a i -> K a i) -> length b = s_len h ->
  (forall j x g, nth_error b j = Some x -> K (s_arr h) (s_off h + j)%nat -> goal (s_arr h) (s_off h + j) = Some g -> x = g) ->
  starts_with old b.
Proof.
  intros (E & L) HK Lb H. exists (skipn (length old) b). rewrite <- (firstn_skipn (length old) b) at 1. f_equal.
  apply ext_firstn; [lia|]. intros j Hj. destruct (nth_error b j) as [x|] eqn:Ex; [|apply nth_error_None in Ex; lia].
  destruct (nth_error old j) as [g|] eqn:Eg; [|apply nth_error_None in Eg; lia]. f_equal.
  symmetry. apply (H j x g Ex); rewrite E; [apply HK; unfold cells; lia|]. now rewrite goal_cell.
Qed.

Lemma safe_acts fresh slack l : (forall n, fresh n <> a0) ->
  forall done n acc K, (forall x, In x l -> match x with SCall s' _ => s' = s | SRead s' => s' = s end) ->
  Forall2 (answers old) done acc -> safe (Forall2 (answers old) (done ++ l)) (s_acts fresh slack n acc l) K.
Proof.
  intros NF. induction l as [|[s' c|s'] l IH]; intros done n acc K Hin HA.
  - cbn. now rewrite app_nil_r.
  - assert (s' = s) as -> by (apply (Hin (SCall s' c)); now left).
    assert (Hin' : forall x, In x l -> match x with SCall s' _ => s' = s | SRead s' => s' = s end) by (intros; apply Hin; now right).
    assert (Go : forall K, safe (Forall2 (answers old) (done ++ SCall s c :: l)) (s_acts fresh slack (S n) (acc ++ [RErr (snd (run_call [] c))]) l) K).
    { intros K'. replace (done ++ SCall s c :: l) with ((done ++ [SCall s c]) ++ l) by now rewrite <- app_assoc.
      apply IH; [assumption|]. apply Forall2_app; [assumption|]. repeat constructor. }
    cbn [s_acts]. unfold s_call. destruct (run_call [] c) as [p [e|]] eqn:RC; [apply Go|]. cbn [snd] in Go.
    unfold s_append. cbn [safe rd_ok]. split; [reflexivity|]. intros h G. destruct (Nat.leb_spec (s_len h + length p) (s_cap h)) as [LE|LE].
    + apply safe_put.
      * intros j x b _ Hb. rewrite goal_beyond in Hb; [discriminate|assumption|lia].
      * intros K' HK _. cbn [safe wr_ok]. split; [reflexivity|]. split; [|split; [|apply Go]].
        -- destruct G as (E & L). split; [exact E|]. cbn [s_len]. lia.
        -- intros a i C. apply HK. right. exact C.
    + apply safe_take. intros b Lb Hb. cbn [app].
      assert (SW : starts_with old b) by (apply (read_starts h (fun a i => K a i \/ cells h a i)); auto).
      assert (GF : forall j, goal (fresh n) j = nth_error old j).
      { intros j. unfold goal. destruct (Nat.eqb_spec (fresh n) a0) as [X|_]; [now apply NF in X|reflexivity]. }
      apply safe_put.
      * intros j x g Hx Hg. cbn [Nat.add] in Hg. rewrite GF in Hg. destruct SW as (t & ->). rewrite <- app_assoc, nth_error_app1 in Hx; [congruence|].
        apply nth_error_Some. congruence.
      * intros K' HK HP. assert (B0 : base (mk_sl (fresh n) 0 (s_len h + length p) (s_len h + length p + slack n)) = 0%nat).
        { unfold base. cbn [s_arr]. destruct (Nat.eqb_spec (fresh n) a0) as [X|_]; [now apply NF in X|reflexivity]. }
        cbn [safe wr_ok]. split; [reflexivity|]. split; [|split; [|apply Go]].
        -- split; [now rewrite B0|]. destruct G as (_ & L). cbn [s_len]. lia.
        -- intros a i (-> & Hi). rewrite B0 in Hi. cbn [s_arr]. apply (HP i). rewrite app_length. destruct G as (_ & L). lia.
  - assert (s' = s) as -> by (apply (Hin (SRead s')); now left).
    assert (Hin' : forall x, In x l -> match x with SCall s' _ => s' = s | SRead s' => s' = s end) by (intros; apply Hin; now right).
    cbn [s_acts safe rd_ok]. split; [reflexivity|]. intros h G. apply safe_take. intros b Lb Hb. cbn [app].
    replace (done ++ SRead s :: l) with ((done ++ [SRead s]) ++ l) by now rewrite <- app_assoc.
    apply IH; [assumption|]. apply Forall2_app; [assumption|]. constructor; [|constructor].
    cbn. apply (read_starts h (fun a i => K a i \/ cells h a i)); auto.
Qed.

Definition sinv {R} (Q : nat -> R -> Prop) (c : conf sheld R) : Prop :=
  good (fst c (SHead s)) /\ (forall a i, cells (fst c (SHead s)) a i -> settled (fst c) a i) /\
  forall t p, nth_error (snd c) t = Some p -> exists K : known, (forall a i, K a i -> settled (fst c) a i) /\ safe (Q t) p K.
Lemma settled_upd (m : smem) a i v a' i' : (forall b, goal a i = Some b -> v = b) -> settled m a' i' \/ (a' = a /\ i' = i) -> settled (supd m (SByte a i) v) a' i'.
Proof.
  intros Hv H b Hb. destruct (scell_eq (SByte a i) (SByte a' i')) as [[= <- <-]|N].
  - rewrite (upd_same scell_eq sheld m (SByte a i) v). auto.
  - rewrite upd_other by assumption. destruct H as [H|(-> & ->)]; [now apply H|congruence].
Qed.
Lemma sinv_step {R} (Q : nat -> R -> Prop) c t : sinv Q c -> sinv Q (step scell_eq sheld c t).
Proof.
  destruct c as [m ps]. intros (G & C & T). unfold step. cbn [fst snd] in *.
  destruct (nth_error ps t) as [[r|l k|l v k]|] eqn:E; try (split; [exact G|split; [exact C|exact T]]).
  - destruct (T t _ E) as (K & HK & S). split; [exact G|]. split; [exact C|]. cbn [fst snd]. intros t' p. rewrite nth_error_set.
    destruct (Nat.eqb_spec t t') as [<-|N].
    + rewrite E. intros [= <-]. destruct l as [s'|a i]; cbn [safe rd_ok] in S.
      * destruct S as (-> & S). eexists. split; [|apply (S _ G)]. intros a i [X|X]; auto.
      * exists K. split; [exact HK|]. apply S. intros X. now apply HK.
    + apply T.
  - destruct (T t _ E) as (K & HK & S). destruct l as [s'|a i]; cbn [safe wr_ok] in S.
    + destruct S as (-> & G' & C' & S). split; cbn [fst snd]; [rewrite (upd_same scell_eq sheld m (SHead s) v); exact G'|].
      assert (ST : forall a i, settled m a i -> settled (supd m (SHead s) v) a i) by (intros a i H b Hb; rewrite byte_upd; now apply H).
      split; [rewrite (upd_same scell_eq sheld m (SHead s) v); auto|]. intros t' p. rewrite nth_error_set. destruct (Nat.eqb_spec t t') as [<-|N].
      * rewrite E. intros [= <-]. exists K. auto.
      * intros H. destruct (T t' p H) as (K2 & H2 & S2). exists K2. auto.
    + destruct S as (Hv & S). assert (HH : supd m (SByte a i) v (SHead s) = m (SHead s)) by now apply upd_other.
      split; cbn [fst snd]; [rewrite HH; exact G|]. split.
      * rewrite HH. intros a' i' X. apply settled_upd; auto.
      * intros t' p. rewrite nth_error_set. destruct (Nat.eqb_spec t t') as [<-|N].
        -- rewrite E. intros [= <-]. eexists. split; [|exact S]. intros a' i' [X|X]; apply settled_upd; auto.
        -- intros H. destruct (T t' p H) as (K2 & H2 & S2). exists K2. split; [|exact S2]. intros a' i' X. apply settled_upd; auto.
Qed.
Lemma sinv_run {R} (Q : nat -> R -> Prop) sched : forall c, sinv Q c -> sinv Q (run scell_eq sheld c sched).
Proof. induction sched as [|t sched IH]; intros c H; [exact H|]. cbn [run fold_left]. apply IH. now apply sinv_step. Qed.
Lemma sinv_script {R} (Q : nat -> R -> Prop) c : sinv Q c -> starts_with old (script_at (fst c) s).
Proof.
  intros (G & C & _). unfold script_at. eapply (read_starts _ (settled (fst c))); [exact G|exact C|apply shown_length|].
  intros j x g Hx HS Hg. apply HS in Hg. rewrite <- Hg. unfold shown in Hx. rewrite nth_error_map in Hx.
  destruct (nth_error (seq (s_off (fst c (SHead s))) (s_len (fst c (SHead s)))) j) as [y|] eqn:Ey; [|discriminate Hx]. cbn in Hx. injection Hx as <-.
  assert (j < s_len (fst c (SHead s)))%nat by (rewrite <- (seq_length (s_len (fst c (SHead s))) (s_off (fst c (SHead s)))); apply nth_error_Some; congruence).
  apply nth_error_nth with (d := 0%nat) in Ey. rewrite seq_nth in Ey by assumption. now rewrite Ey.
Qed.
End Stay.

(** ** particular schedules *)
Lemma run_length {R} l : forall c : conf sheld R, length (snd (run scell_eq sheld c l)) = length (snd c).
Proof.
  induction l as [|t l IH]; intros c; [reflexivity|]. change (run scell_eq sheld c (t :: l)) with (run scell_eq sheld (step scell_eq sheld c t) l). rewrite IH.
  unfold step. destruct (nth_error (snd c) t) as [[r|l' k|l' v k]|]; cbn [snd]; try reflexivity; apply set_nth_len.
Qed.
Lemma run_put0 {R} (k y : scall R) d2 d1 : forall m a i,
  run scell_eq sheld (m, [s_put a i (d1 ++ d2) k; y]) (repeat 0%nat (length d1)) = (putm m a i d1, [s_put a (i + length d1) d2 k; y]).
Proof.
  induction d1 as [|b d IH]; intros m a i; cbn [app length repeat putm]; [now rewrite Nat.add_0_r|].
  cbn [s_put]. rewrite run_wr with (l := SByte a i) (v := b) (k := s_put a (S i) (d ++ d2) k) by reflexivity.
  cbn [set_nth]. rewrite IH. now rewrite <- plus_n_Sm.
Qed.
Lemma run_put1 {R} (k x : scall R) d2 d1 : forall m a i,
  run scell_eq sheld (m, [x; s_put a i (d1 ++ d2) k]) (repeat 1%nat (length d1)) = (putm m a i d1, [x; s_put a (i + length d1) d2 k]).
Proof.
  induction d1 as [|b d IH]; intros m a i; cbn [app length repeat putm]; [now rewrite Nat.add_0_r|].
  cbn [s_put]. rewrite run_wr with (l := SByte a i) (v := b) (k := s_put a (S i) (d ++ d2) k) by reflexivity.
  cbn [set_nth]. rewrite IH. now rewrite <- plus_n_Sm.
Qed.
Lemma putm_app d1 : forall m a i d2, putm m a i (d1 ++ d2) = putm (putm m a i d1) a (i + length d1) d2.
Proof. induction d1 as [|b d IH]; intros; cbn [app putm length]; [now rewrite Nat.add_0_r|]. rewrite IH. now rewrite <- plus_n_Sm. Qed.
Lemma putm_reads p : forall (m : smem) a i d n,
  map (fun j => putm m a i p (SByte a j)) (seq (i + d) n) =
  firstn n (skipn d p) ++ skipn (length (firstn n (skipn d p))) (map (fun j => m (SByte a j)) (seq (i + d) n)).
Proof.
  induction p as [|b p IH]; intros m a i d n; cbn [putm].
  - rewrite skipn_nil, firstn_nil. reflexivity.
  - destruct d as [|d].
    + destruct n as [|n]; [reflexivity|]. rewrite Nat.add_0_r. cbn [skipn firstn seq map length app]. f_equal.
      * rewrite putm_out by lia. apply (upd_same scell_eq sheld m (SByte a i) b).
      * specialize (IH (supd m (SByte a i) b) a (S i) 0%nat n). rewrite Nat.add_0_r in IH. cbn [skipn] in IH. rewrite IH. f_equal. f_equal.
        apply map_ext_in. intros j Hj. apply in_seq in Hj. apply (upd_other scell_eq sheld m (SByte a i) b (SByte a j)). intros [= X]. lia.
    + cbn [skipn]. rewrite <- plus_n_Sm. change (S (i + d)) with (S i + d)%nat. rewrite IH. f_equal. f_equal.
      apply map_ext_in. intros j Hj. apply in_seq in Hj. apply (upd_other scell_eq sheld m (SByte a i) b (SByte a j)). intros [= X]. lia.
Qed.
(** a goroutine that changes a cell comes to a point where it is about to write it *)
Lemma run_until {R} (p : scall R) l : forall (m : smem) ps i, nth_error ps i = Some p -> snd (ssolo m p) l <> m l ->
  exists s m' p', run scell_eq sheld (m, ps) s = (m', set_nth i p' ps) /\ next sheld p' = Some (l, true).
Proof.
  assert (SS : forall (A : Type) (l : list A) i x y, set_nth i x (set_nth i y l) = set_nth i x l).
  { intros A l'; induction l' as [|a l' IH]; intros [|i] x y; cbn; try reflexivity. now rewrite IH. }
  assert (SI : forall (A : Type) (l : list A) i x, nth_error l i = Some x -> set_nth i x l = l).
  { intros A l'; induction l' as [|a l' IH]; intros [|i] x; cbn; try discriminate; [now intros [= ->]|]. intros H. now rewrite IH. }
  induction p as [r|l' k IH|l' v k IH]; intros m ps i Hp H; cbn [solo snd] in H.
  - now destruct H.
  - destruct (IH (m l') m (set_nth i (k (m l')) ps) i) as (s & m' & p' & E & N); [now rewrite nth_error_set, Nat.eqb_refl, Hp|exact H|].
    exists (i :: s), m', p'. rewrite (run_rd scell_eq sheld m ps i l' k s Hp), E, SS. auto.
  - destruct (scell_eq l' l) as [->|N].
    + exists [], m, (Wr l v k). rewrite SI by assumption. auto.
    + destruct (IH (supd m l' v) (set_nth i k ps) i) as (s & m' & p' & E & N'); [now rewrite nth_error_set, Nat.eqb_refl, Hp|now rewrite upd_other by assumption|].
      exists (i :: s), m', p'. rewrite (run_wr scell_eq sheld m ps i l' v k s Hp), E, SS. auto.
Qed.
