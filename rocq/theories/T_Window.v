(** C104: parts of the lists of inputs and outputs, and elements taken out of them. *)
From Verif Require Import P_Share P_Slots P_Window.
From Coq Require Import ZifyBool ZifyNat ZifyN.

Section T.
Context {A : Type}.

(** Whatever the capacities the runtime chooses: if only the lists New made are added to,
    and lists and parts that were got are read, every variable reads as if it held a list
    of its own. *)
Theorem C104_read_only : forall (nil : A) l vs, w_reads_only [] l -> wv_acts [] l = Some vs ->
  exists h ws, w_acts nil ([], []) l = Some (h, ws) /\ map (w_shows h) ws = vs.
Proof.
  intros nil l vs R E. apply (w_acts_agree nil l [] [] [] vs); [|assumption|assumption].
  split; [reflexivity|]. split; intros i; intros; destruct i; discriminate.
Qed.

(** Whatever a program does, it cannot change a list that nothing it holds reaches
    into, even by growing. *)
Theorem C104_apart : forall (nil : A) l h ws h' ws' u, w_lies h u -> Forall (fun w => w_lies h w /\ apart w u) ws ->
  w_acts nil (h, ws) l = Some (h', ws') -> w_shows h' u = w_shows h u.
Proof. intros nil l h ws h' ws' u U F E. exact (acts_apart nil l h ws h' ws' u E U F). Qed.

(** [append(ins[:i], ys...)] writes over the transaction's own elements from [i] on,
    unless more is appended than the list's capacity holds. *)
Theorem C104_part_append : forall (nil : A) slack h w i ys, w_lies h w -> (i <= w_len w)%nat ->
  exists h' v, w_acts nil (h, [w]) [WCut 0 0 i; WAdd slack 1 ys] = Some (h', [w; v]) /\
    w_shows h' v = firstn i (w_shows h w) ++ ys /\
    w_shows h' w = if Nat.leb (i + length ys) (w_cap w)
                   then firstn (w_len w) (firstn i (w_shows h w) ++ ys ++ skipn (i + length ys) (w_shows h w))
                   else w_shows h w.
Proof.
  intros nil slack h w i ys L I. pose proof L as (L1 & L2 & L3). cbn [w_acts w_act nth_error].
  replace (Nat.leb 0 i && Nat.leb i (w_cap w))%bool with true by lia. cbn [app nth_error w_acts w_act].
  set (v := mk_win (w_arr w) (w_off w + 0) (i - 0) (w_cap w - 0)).
  assert (w_lies h v) as Lv by (unfold w_lies, v; cbn [w_arr w_off w_len w_cap]; lia).
  assert (w_shows h v = firstn i (w_shows h w)) as Sv.
  { apply list_ext. intros k. rewrite nth_firstn, !nth_w. unfold v. cbn [w_arr w_off w_len w_cap].
    replace (i - 0)%nat with i by lia. replace (w_off w + 0)%nat with (w_off w) by lia. destruct (Nat.ltb k i) eqn:K; [|reflexivity].
    now replace (Nat.ltb k (w_len w)) with true by lia. }
  destruct (w_append nil slack h v ys) as [h1 v1] eqn:E. cbn [set_nth]. exists h1, v1. split; [reflexivity|].
  destruct (append_spec nil slack h v ys h1 v1 Lv E) as (Lv1 & S1 & H1 & N1 & Len & C). split; [now rewrite S1, Sv|].
  pose proof (w_shows_len h w L) as SL.
  destruct C as [(C1 & C2 & C3 & C4 & C5 & C6)|(C1 & C2 & C3 & C4)]; unfold v in C1; cbn [w_arr w_off w_len w_cap] in C1.
  - unfold v in C6. cbn [w_arr w_off w_len w_cap] in C6. replace (Nat.leb (i + length ys) (w_cap w)) with true by lia. apply list_ext. intros k.
    rewrite nth_w, C6, nth_firstn. destruct (Nat.ltb k (w_len w)) eqn:K; [|reflexivity].
    rewrite nth_put by lia. rewrite !nth_app, nth_firstn, nth_skipn, firstn_length, SL. replace (Nat.min i (w_len w)) with i by lia.
    destruct (Nat.ltb k i) eqn:K1.
    + replace (Nat.leb _ _) with false by lia. cbn [andb]. rewrite nth_w, K. reflexivity.
    + replace (Nat.leb _ _) with true by lia. cbn [andb]. destruct (Nat.ltb (k - i) (length ys)) eqn:K2.
      * replace (Nat.ltb _ _) with true by lia. f_equal. lia.
      * replace (Nat.ltb (w_off w + k) _) with false by lia. rewrite nth_w. replace (i + length ys + (k - i - length ys))%nat with k by lia. now rewrite K.
  - replace (Nat.leb (i + length ys) (w_cap w)) with false by lia. unfold w_shows. rewrite C4 by assumption. reflexivity.
Qed.

(** [append(ins[:i:i], ys...)] never does. *)
Theorem C104_clip_append : forall (nil : A) slack h w i ys, w_lies h w -> (i <= w_len w)%nat ->
  exists h' v, w_acts nil (h, [w]) [WClip 0 0 i; WAdd slack 1 ys] = Some (h', [w; v]) /\
    w_shows h' v = firstn i (w_shows h w) ++ ys /\ w_shows h' w = w_shows h w.
Proof.
  intros nil slack h w i ys L I. pose proof L as (L1 & L2 & L3). cbn [w_acts w_act nth_error].
  replace (Nat.leb 0 i && Nat.leb i (w_cap w))%bool with true by lia. cbn [app nth_error w_acts w_act].
  set (v := mk_win (w_arr w) (w_off w + 0) (i - 0) (i - 0)).
  assert (w_lies h v) as Lv by (unfold w_lies, v; cbn [w_arr w_off w_len w_cap]; lia).
  assert (w_shows h v = firstn i (w_shows h w)) as Sv.
  { apply list_ext. intros k. rewrite nth_firstn, !nth_w. unfold v. cbn [w_arr w_off w_len w_cap].
    replace (i - 0)%nat with i by lia. replace (w_off w + 0)%nat with (w_off w) by lia. destruct (Nat.ltb k i) eqn:K; [|reflexivity].
    now replace (Nat.ltb k (w_len w)) with true by lia. }
  destruct (w_append nil slack h v ys) as [h1 v1] eqn:E. cbn [set_nth]. exists h1, v1. split; [reflexivity|].
  destruct (append_spec nil slack h v ys h1 v1 Lv E) as (Lv1 & S1 & H1 & N1 & Len & C). split; [now rewrite S1, Sv|].
  destruct C as [(C1 & C2 & C3 & C4 & C5 & C6)|(C1 & C2 & C3 & C4)]; unfold v in C1; cbn [w_arr w_off w_len w_cap] in C1.
  - unfold v in C6. cbn [w_arr w_off w_len w_cap] in C6. destruct ys as [|y ys]; [|cbn [length] in C1; lia]. apply list_ext. intros k. rewrite !nth_w, C6, nth_put by (cbn [length]; lia).
    cbn [length]. destruct (Nat.leb _ _ && Nat.ltb _ _)%bool eqn:Z; [lia|reflexivity].
  - unfold w_shows. rewrite C4 by assumption. reflexivity.
Qed.

(** [t.Inputs = append(t.Inputs[:i], t.Inputs[i+1:]...)]: the transaction keeps all but
    element [i], in order. A list that was got before shows the same and the last
    element a second time; once an element is added to the transaction, it shows that
    instead. *)
Theorem C104_take_out : forall (nil : A) slack h w i, w_lies h w -> (i < w_len w)%nat ->
  let L := w_shows h w in
  (exists h' t rest, w_acts nil (h, [w; w]) (take_out slack 2 (w_len w) i) = Some (h', t :: w :: rest) /\
     w_shows h' t = firstn i L ++ skipn (S i) L /\
     w_shows h' w = firstn i L ++ skipn (S i) L ++ skipn (w_len w - 1) L) /\
  (forall k x, exists h' t rest, w_acts nil (h, [w; w]) (take_out slack 2 (w_len w) i ++ [WAdd k 0 [x]]) = Some (h', t :: w :: rest) /\
     w_shows h' t = firstn i L ++ skipn (S i) L ++ [x] /\
     w_shows h' w = firstn i L ++ skipn (S i) L ++ [x]).
Proof.
  intros nil slack h w i L I LL. pose proof L as (L1 & L2 & L3). pose proof (w_shows_len h w L) as SL. set (n := w_len w) in *.
  set (a := array h (w_arr w)) in *.
  set (v := mk_win (w_arr w) (w_off w + 0) (i - 0) (w_cap w - 0)).
  set (u := mk_win (w_arr w) (w_off w + S i) (n - S i) (w_cap w - S i)).
  assert (w_lies h v) as Lv by (unfold w_lies, v; cbn [w_arr w_off w_len w_cap]; fold a; lia).
  assert (w_lies h u) as Lu by (unfold w_lies, u; cbn [w_arr w_off w_len w_cap]; fold a; lia).
  pose proof (w_shows_len h u Lu) as UL. unfold u in UL at 2. cbn [w_len] in UL.
  assert (forall r, w_acts nil (h, [w; w]) (take_out slack 2 n i ++ r) =
    let (h', t) := w_append nil slack h v (w_shows h u) in w_acts nil (h', [t; w; t; u]) r) as Step.
  { intros r. unfold take_out. cbn [app w_acts w_act nth_error].
    replace (Nat.leb 0 i && Nat.leb i (w_cap w))%bool with true by lia. cbn [app nth_error w_acts w_act].
    replace (Nat.leb (S i) n && Nat.leb n (w_cap w))%bool with true by lia. cbn [app nth_error w_acts w_act]. fold v u.
    destruct (w_append nil slack h v (w_shows h u)) as [h1 v1]. cbn [set_nth nth_error]. reflexivity. }
  destruct (w_append nil slack h v (w_shows h u)) as [h1 t] eqn:E.
  destruct (append_spec nil slack h v _ h1 t Lv E) as (Lt & S1 & H1 & N1 & Len & C).
  destruct C as [(C1 & C2 & C3 & C4 & C5 & C6)|(C1 & C2 & C3 & C4)]; unfold v in C1; cbn [w_arr w_off w_len w_cap] in C1; rewrite UL in C1; [|lia].
  assert (w_shows h v ++ w_shows h u = firstn i LL ++ skipn (S i) LL) as VU.
  { f_equal; apply list_ext; intros k; [rewrite nth_firstn|rewrite nth_skipn]; unfold LL; rewrite !nth_w; unfold u, v; cbn [w_arr w_off w_len w_cap]; fold n.
    - replace (i - 0)%nat with i by lia. replace (w_off w + 0)%nat with (w_off w) by lia. destruct (Nat.ltb k i) eqn:K; [|reflexivity].
      now replace (Nat.ltb k n) with true by lia.
    - destruct (Nat.ltb k (n - S i)) eqn:K; [replace (Nat.ltb (S i + k) n) with true by lia|now replace (Nat.ltb (S i + k) n) with false by lia].
      f_equal. lia. }
  assert (length (firstn i LL ++ skipn (S i) LL) = n - 1)%nat as LK by (rewrite app_length, firstn_length, skipn_length; unfold LL; rewrite SL; lia).
  assert (w_len t = n - 1)%nat as Tn by (rewrite N1, UL; unfold v; cbn [w_len]; lia).
  unfold v in C2, C3, C4, C6. cbn [w_arr w_off w_len w_cap] in C2, C3, C4, C6.
  assert (forall k, (k < n - 1)%nat -> nth_error (array h1 (w_arr w)) (w_off w + k) = nth_error (firstn i LL ++ skipn (S i) LL) k) as Front.
  { intros k K. rewrite <- VU, <- S1, nth_w, C2, C3. replace (Nat.ltb k (w_len t)) with true by lia. f_equal. lia. }
  assert (nth_error (array h1 (w_arr w)) (w_off w + (n - 1)) = nth_error LL (n - 1)) as Last.
  { rewrite C6, nth_put by (rewrite UL; fold a; lia). rewrite UL.
    replace (Nat.leb _ _ && Nat.ltb _ _)%bool with false by lia. unfold LL. rewrite nth_w. fold n a. now replace (Nat.ltb (n - 1) n) with true by lia. }
  split.
  - exists h1, t, [t; u]. rewrite <- (app_nil_r (take_out slack 2 n i)), Step. cbn [w_acts]. split; [reflexivity|]. split; [now rewrite S1, VU|].
    apply list_ext. intros k. rewrite nth_w. fold n. rewrite app_assoc, nth_app, LK, nth_skipn.
    destruct (Nat.ltb k (n - 1)) eqn:K; [replace (Nat.ltb k n) with true by lia; apply Front; lia|].
    destruct (Nat.ltb k n) eqn:K2; [replace k with (n - 1)%nat by lia; rewrite Last; f_equal; lia|].
    symmetry. apply nth_error_None. unfold LL. rewrite SL. lia.
  - intros k x. rewrite Step. cbn [w_acts w_act nth_error]. destruct (w_append nil k h1 t [x]) as [h2 t2] eqn:E2. cbn [set_nth].
    exists h2, t2, [t; u]. split; [reflexivity|]. destruct (append_spec nil k h1 t [x] h2 t2 Lt E2) as (Lt2 & S2 & H2 & N2 & Len2 & D).
    split; [rewrite S2, S1, VU, app_assoc; reflexivity|].
    destruct D as [(D1 & D2 & D3 & D4 & D5 & D6)|(D1 & _)]; [|cbn [length] in D1; lia].
    rewrite app_assoc, <- VU, <- S1, <- S2. unfold w_shows. rewrite D2, D3, C2, C3, N2, Tn. cbn [length]. fold n. f_equal; [lia|]. f_equal. lia.
Qed.

(** The same through a list of its own: a list that was got before stays what it was. *)
Theorem C104_take_out_anew : forall (nil : A) slack slack' h w i, w_lies h w -> (i < w_len w)%nat ->
  let L := w_shows h w in
  exists h' t rest, w_acts nil (h, [w; w]) (take_out_anew slack slack' 2 (w_len w) i) = Some (h', t :: w :: rest) /\
    w_shows h' t = firstn i L ++ skipn (S i) L /\ w_shows h' w = L /\
    forall l h2 ws2, w_acts nil (h', [t]) l = Some (h2, ws2) -> w_shows h2 w = L.
Proof.
  intros nil slack slack' h w i L I LL. pose proof L as (L1 & L2 & L3). pose proof (w_shows_len h w L) as SL. set (n := w_len w) in *.
  unfold take_out_anew. cbn [w_acts w_act nth_error app]. set (h0 := h ++ [[]]).
  replace (Nat.leb 0 i && Nat.leb i (w_cap w))%bool with true by lia. cbn [app nth_error w_acts w_act].
  set (v := mk_win (w_arr w) (w_off w + 0) (i - 0) (w_cap w - 0)). set (z := mk_win (length h) 0 0 0).
  assert (forall x, w_lies h x -> w_lies h0 x /\ w_shows h0 x = w_shows h x /\ apart z x) as Mono0.
  { intros x (X1 & X2 & X3). unfold w_lies, w_shows, h0. rewrite array_app. replace (Nat.eqb (w_arr x) (length h)) with false by lia.
    split; [split; [rewrite app_length; lia|lia]|]. split; [reflexivity|]. left. unfold z. cbn [w_arr]. lia. }
  assert (w_lies h0 z) as Lz by (unfold w_lies, z, h0; cbn [w_arr w_off w_len w_cap]; rewrite app_length; cbn [length]; lia).
  assert (w_shows h0 z = []) as Sz by reflexivity.
  assert (w_lies h v) as Lv by (unfold w_lies, v; cbn [w_arr w_off w_len w_cap]; lia).
  destruct (Mono0 w L) as (W0 & SW0 & AW0).
  destruct (w_append nil slack h0 z (w_shows h0 v)) as [h1 z1] eqn:E1. cbn [set_nth nth_error w_acts w_act app].
  destruct (append_spec nil slack h0 z _ h1 z1 Lz E1) as (Lz1 & S1 & H1 & N1 & Len1 & _).
  destruct (append_apart nil slack h0 z _ h1 z1 w Lz W0 AW0 E1) as (W1 & SW1 & AW1).
  replace (Nat.leb (S i) n && Nat.leb n (w_cap w))%bool with true by lia. cbn [app nth_error w_acts w_act].
  set (u := mk_win (w_arr w) (w_off w + S i) (n - S i) (w_cap w - S i)).
  destruct (w_append nil slack' h1 z1 (w_shows h1 u)) as [h2 z2] eqn:E2. cbn [set_nth nth_error].
  destruct (append_spec nil slack' h1 z1 _ h2 z2 Lz1 E2) as (Lz2 & S2 & H2 & N2 & Len2 & _).
  destruct (append_apart nil slack' h1 z1 _ h2 z2 w Lz1 W1 AW1 E2) as (W2 & SW2 & AW2).
  exists h2, z2, [z2; v; u]. split; [reflexivity|]. split; [|split].
  - rewrite S2, S1, Sz. cbn [app]. f_equal; apply list_ext; intros k.
    + rewrite nth_firstn. unfold LL. rewrite <- SW0, !nth_w. unfold v. cbn [w_arr w_off w_len w_cap]. fold n.
      replace (i - 0)%nat with i by lia. replace (w_off w + 0)%nat with (w_off w) by lia. destruct (Nat.ltb k i) eqn:K; [|reflexivity].
      now replace (Nat.ltb k n) with true by lia.
    + rewrite nth_skipn. unfold LL. rewrite <- SW0, <- SW1, !nth_w. unfold u. cbn [w_arr w_off w_len w_cap]. fold n.
      destruct (Nat.ltb k (n - S i)) eqn:K; [replace (Nat.ltb (S i + k) n) with true by lia|now replace (Nat.ltb (S i + k) n) with false by lia]. f_equal. lia.
  - now rewrite SW2, SW1, SW0.
  - intros l h3 ws3 E3. rewrite (acts_apart nil l h2 [z2] h3 ws3 w E3 W2); [now rewrite SW2, SW1, SW0|]. constructor; [auto|constructor].
Qed.
End T.

(** Four inputs; the second is taken out. The list that was got before has the last one
    twice, and then the one that is added; taken out through a list of its own, or from a
    list whose parts are only read, it stays. Appending to a part replaces the
    transaction's own input. *)
Example C104_ex :
  let four := [WNew; WAdd 1 0 [10]; WAdd 0 0 [11]; WAdd 1 0 [12]; WAdd 0 0 [13]; WGet 0]%nat in
  let out l := option_map (fun st => map (w_shows (fst st)) (firstn 2 (snd st))) (w_acts 0%nat ([], []) l) in
  (exists h w, w_acts 0%nat ([], []) four = Some (h, [w; w]) /\ w_lies h w /\ w_shows h w = [10; 11; 12; 13]%nat) /\
  out (four ++ take_out 0 2 4 1) = Some [[10; 12; 13]; [10; 12; 13; 13]]%nat /\
  out (four ++ take_out 0 2 4 1 ++ [WAdd 0 0 [20]])%nat = Some [[10; 12; 13; 20]; [10; 12; 13; 20]]%nat /\
  out (four ++ take_out_anew 0 0 2 4 1) = Some [[10; 12; 13]; [10; 11; 12; 13]]%nat /\
  out (four ++ [WCut 0 0 1; WAdd 0 2 [99]])%nat = Some [[10; 99; 12; 13]; [10; 99; 12; 13]]%nat /\
  out (four ++ [WClip 0 0 1; WAdd 0 2 [99]])%nat = Some [[10; 11; 12; 13]; [10; 11; 12; 13]]%nat /\
  (w_reads_only [] (four ++ [WCut 0 1 3; WClip 0 0 2; WAdd 2 0 [14; 15]; WNew; WJoin 0 4 2; WSet 1 3])%nat /\
   wv_acts [] (four ++ [WCut 0 1 3; WClip 0 0 2; WAdd 2 0 [14; 15]; WNew; WJoin 0 4 2; WSet 1 3])%nat =
     Some [[10; 11; 12; 13; 14; 15]; [10; 11]; [11; 12]; [10; 11]; [11; 12]]%nat) /\
  (let h := [[1; 2; 3; 4]%nat] in w_lies h (mk_win 0 2 2 2) /\ w_lies h (mk_win 0 0 1 2) /\ apart (mk_win 0 0 1 2) (mk_win 0 2 2 2) /\
     ~ apart (mk_win 0 0 1 4) (mk_win 0 2 2 2)).
Proof.
  cbv zeta. split; [|split; [|split; [|split; [|split; [|split; [|split]]]]]].
  - do 2 eexists. split; [vm_compute; reflexivity|]. split; [unfold w_lies; vm_compute; lia|vm_compute; reflexivity].
  - vm_compute. reflexivity.
  - vm_compute. reflexivity.
  - vm_compute. reflexivity.
  - vm_compute. reflexivity.
  - vm_compute. reflexivity.
  - split; [cbn; repeat split; discriminate|vm_compute; reflexivity].
  - unfold w_lies, apart. cbn. lia.
Qed.

Print Assumptions C104_read_only.
Print Assumptions C104_apart.
Print Assumptions C104_part_append.
Print Assumptions C104_clip_append.
Print Assumptions C104_take_out.
Print Assumptions C104_take_out_anew.
