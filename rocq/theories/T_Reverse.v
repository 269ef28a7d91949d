(** C04 in memory: ReverseBytes returns a new array and leaves everything else alone. *)
From Verif Require Import M_Reverse P_Mem P_Utils P_Slots.
From Coq Require Import ZifyBool ZifyNat ZifyN.

Lemma arr_last (h : heap) b : arr (h ++ [b]) (length h) = b.
Proof. unfold arr. rewrite app_nth2, Nat.sub_diag by lia. reflexivity. Qed.

Lemma set_last {A} (h : list A) b c : set_nth (length h) c (h ++ [b]) = h ++ [c].
Proof. induction h as [|x h IH]; [reflexivity|]. cbn [app length set_nth]. now rewrite IH. Qed.

Lemma write_one b i c : (i < length b)%nat -> write_at b i [c] = set_nth i c b.
Proof. intros L. unfold write_at. rewrite set_mid by assumption. cbn [length]. now rewrite Nat.add_1_r. Qed.

Lemma set_comm {A} (l : list A) : forall i j x y, i <> j -> set_nth i x (set_nth j y l) = set_nth j y (set_nth i x l).
Proof.
  induction l as [|z l IH]; intros [|i] [|j] x y N; cbn [set_nth]; try reflexivity; [congruence|]. f_equal. apply IH. congruence.
Qed.

Lemma rev_loop_mem (h : heap) n : forall fuel i j b, length b = n -> ((i < j)%nat -> (j < n)%nat) ->
  h_rev_loop fuel i j (h ++ [b]) (mk_sl (length h) 0 n n) = h ++ [rev_loop fuel i j b].
Proof.
  induction fuel as [|fuel IH]; intros i j b L J; [reflexivity|]. cbn [h_rev_loop rev_loop s_arr s_off].
  destruct (Nat.ltb i j) eqn:IJ; [|reflexivity]. apply Nat.ltb_lt in IJ. cbv zeta.
  assert (get (h ++ [b]) (mk_sl (length h) 0 n n) = b) as G.
  { unfold get. cbn [s_len s_off s_arr]. rewrite arr_last, skipn_O. apply firstn_all2. lia. }
  rewrite G. unfold h_write. cbn [Nat.add]. rewrite arr_last, set_last, arr_last, set_last.
  rewrite (write_one b i) by lia. rewrite (write_one (set_nth i _ b) j) by (rewrite set_len; lia). rewrite IH; [|rewrite !set_len; assumption|lia].
  rewrite set_comm by lia. reflexivity.
Qed.

Theorem C04_fresh : forall h a h' r, (s_arr a < length h)%nat -> (s_off a + s_len a <= length (arr h (s_arr a)))%nat ->
  h_reverse h a = (h', r) ->
  get h' r = rev (get h a) /\ s_arr r = length h /\ s_cap r = s_len r /\
  forall s, (s_arr s < length h)%nat -> view h' s = view h s.
Proof.
  intros h a h' r La Lb. unfold h_reverse. cbn [h_alloc]. unfold h_alloc. rewrite repeat_length, Nat.add_0_r. cbn [repeat]. rewrite app_nil_r.
  cbn [s_arr s_off]. set (n := s_len a).
  assert (get (h ++ [repeat x00 n]) a = get h a) as G by (unfold get, arr; now rewrite app_nth1).
  assert (length (get h a) = n) as LG.
  { unfold get. rewrite firstn_length, skipn_length. fold n in Lb. lia. }
  rewrite G. unfold h_write at 1. rewrite arr_last, set_last.
  assert (write_at (repeat x00 n) 0 (get h a) = get h a) as ->.
  { unfold write_at. cbn [firstn app]. rewrite skipn_all2, app_nil_r; [reflexivity|]. rewrite repeat_length. lia. }
  rewrite rev_loop_mem; [|assumption|lia]. intros E. injection E as <- <-. split; [|split; [reflexivity|split; [reflexivity|]]].
  - unfold get at 1. cbn [s_len s_off s_arr]. rewrite arr_last, skipn_O, <- reverse_bytes_rev. unfold reverse_bytes. rewrite LG.
    apply firstn_all2. pose proof (reverse_bytes_rev (get h a)) as R. unfold reverse_bytes in R. rewrite LG in R. rewrite R, rev_length. lia.
  - intros s Ls. unfold view, get, get_spare, arr. now rewrite !app_nth1.
Qed.

Example C04_fresh_example :
  let h := [[x01; x02; x03; x04; x05]] in
  h_reverse h (mk_sl 0 1 3 4) = ([[x01; x02; x03; x04; x05]; [x04; x03; x02]], mk_sl 1 0 3 3).
Proof. vm_compute. reflexivity. Qed.

Print Assumptions C04_fresh.
