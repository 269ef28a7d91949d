(** C84: transactions that spend one another create no money. *)
From Verif Require Import P_TxMisc P_TxParse P_TxSer P_Signer P_Flow T_Tx T_Flow T_Chain S_Value.
From Coq Require Import Lia ZifyBool ZifyNat ZifyN.

Notation coin_t := ((bytes * N) * N)%type.
Definition left_of (S : list (bytes * N)) (c : coin_t) : bool := if in_dec point_dec (fst c) S then false else true.
Definition left_in (S : list (bytes * N)) (C : list coin_t) : N := sum (map snd (filter (left_of S) C)).

Lemma left_app S C C' : left_in S (C ++ C') = left_in S C + left_in S C'.
Proof. unfold left_in. now rewrite filter_app, map_app, sum_app. Qed.
Lemma left_le S C : left_in S C <= sum (map snd C).
Proof. unfold left_in. induction C as [|c C IH]; cbn [filter map sum fold_right]; [reflexivity|]. destruct (left_of S c); cbn [map fold_right]; fold (sum (map snd C)); unfold sum in *; lia. Qed.
Lemma left_one S p v C : ~ In p S -> In (p, v) C -> left_in (p :: S) C + v <= left_in S C.
Proof.
  intros N. induction C as [|[q w] C IH]; [intros []|]. intros I.
  assert (E : forall D, left_in (p :: S) D <= left_in S D).
  { clear. intros D. unfold left_in, left_of. induction D as [|[q w] D IH]; [reflexivity|]. cbn [filter fst].
    destruct (in_dec point_dec q (p :: S)) as [X|X]; destruct (in_dec point_dec q S) as [Y|Y]; unfold sum in *; cbn [map snd fold_right]; try lia.
    exfalso. apply X. now right. }
  specialize (E C). unfold left_in, left_of in *. cbn [filter fst].
  destruct (in_dec point_dec q (p :: S)) as [X|X]; destruct (in_dec point_dec q S) as [Y|Y].
  - destruct I as [I|I]; [congruence|]. apply IH in I. exact I.
  - assert (q = p) as -> by (destruct X as [X|X]; congruence). cbn [map snd sum fold_right]. fold (sum (map snd (filter (fun c : coin_t => if in_dec point_dec (fst c) S then false else true) C))).
    destruct I as [I|I]; [assert (w = v) as -> by congruence; unfold sum in *; lia|]. apply IH in I. unfold sum in *. lia.
  - exfalso. apply X. now right.
  - destruct I as [I|I]; [exfalso; apply X; left; congruence|]. apply IH in I. cbn [map snd sum fold_right]. unfold sum in *. lia.
Qed.
Lemma left_ext S S' C : (forall p, In p S <-> In p S') -> left_in S C = left_in S' C.
Proof.
  intros E. unfold left_in. f_equal. f_equal. apply filter_ext. intros c. unfold left_of.
  destruct (in_dec point_dec (fst c) S) as [X|X]; destruct (in_dec point_dec (fst c) S') as [Y|Y]; try reflexivity; exfalso; firstorder.
Qed.
Lemma left_all S C P vs : NoDup P -> Forall2 (fun p v => ~ In p S /\ In (p, v) C) P vs -> left_in (S ++ P) C + sum vs <= left_in S C.
Proof.
  intros ND F. induction F as [|p v P vs (N & I) F IH].
  - rewrite app_nil_r. cbn. lia.
  - inversion ND as [|? ? N' ND']; subst. specialize (IH ND').
    assert (NP : ~ In p (S ++ P)) by (rewrite in_app_iff; tauto).
    pose proof (left_one (S ++ P) p v C NP I) as H. rewrite (left_ext (p :: S ++ P) (S ++ p :: P)) in H.
    2:{ intros q. cbn [In]. rewrite !in_app_iff. cbn [In]. tauto. }
    cbn [sum fold_right]. unfold sum in *. lia.
Qed.

Lemma coins_in b t k o : nth_error (outputs t) (N.to_nat k) = Some (Some o) -> In ((hex_encode (rev (dsha b)), k), satoshis o) (coins_of b t).
Proof.
  intros N. unfold coins_of. set (f := fun j => (hex_encode (rev (dsha b)), N.of_nat j)).
  assert (H : forall l s n, nth_error l n = Some (Some o) -> In (f (s + n)%nat, satoshis o) (combine (map f (seq s (length l))) (map amount_out l))).
  { induction l as [|x l IH]; intros s [|n] E; try discriminate; cbn [nth_error] in E; cbn [length seq map combine].
    - assert (x = Some o) as -> by congruence. rewrite Nat.add_0_r. now left.
    - right. rewrite <- plus_n_Sm. apply (IH (S s) n E). }
  specialize (H (outputs t) 0%nat (N.to_nat k) N). cbn [Nat.add] in H. unfold f in H at 1. now rewrite N2Nat.id in H.
Qed.
Lemma map_snd_combine {A B} (x : list A) : forall y : list B, length x = length y -> map snd (combine x y) = y.
Proof. induction x as [|a x IH]; intros [|c y] E; try discriminate; cbn; [reflexivity|]. f_equal. apply IH. now injection E. Qed.
Lemma coins_sum b t : map snd (coins_of b t) = map amount_out (outputs t).
Proof. unfold coins_of. apply map_snd_combine. now rewrite !map_length, seq_length. Qed.

Lemma combine_in {A B} (R : A -> B -> Prop) l l' : Forall2 R l l' -> forall x, In x l -> exists y, In (x, y) (combine l l') /\ R x y.
Proof. induction 1 as [|a b l l' H _ IH]; intros x I; [destruct I|]. destruct I as [->|I]; [exists b; cbn; auto|]. destruct (IH x I) as (y & Y & Q). exists y. cbn. auto. Qed.
Lemma combine_app {A B} (l1 : list A) : forall (r1 : list B) l2 r2, length l1 = length r1 -> combine (l1 ++ l2) (r1 ++ r2) = combine l1 r1 ++ combine l2 r2.
Proof. induction l1 as [|a l1 IH]; intros [|b r1] l2 r2 E; try discriminate; cbn [app combine]; [reflexivity|]. f_equal. apply IH. now injection E. Qed.

(** Whatever a node accepts (from this library or not): the unspent outputs together are worth no
    more afterwards than before. *)
Theorem C84_no_money_accepted verify known ts b : Forall sized known -> sized b -> Forall2 on_wire known ts -> node_accepts verify known b ->
  exists t, on_wire b t /\ unspent_total (known ++ [b]) (ts ++ [t]) <= unspent_total known ts.
Proof.
  intros SK S F (t & full & OW & _ & _ & _ & LU & _ & ND & _ & _ & BAL). exists t. split; [exact OW|].
  assert (LEN : length known = length ts) by (clear -F; induction F; cbn; congruence).
  unfold unspent_total. rewrite combine_app, !map_app, !concat_app by exact LEN. cbn [map concat combine app fst snd]. rewrite !app_nil_r.
  set (S0 := concat (map spent ts)). set (C := concat (map (fun bt => coins_of (fst bt) (snd bt)) (combine known ts))).
  fold (left_of (S0 ++ spent t)) (left_of S0). change (left_in (S0 ++ spent t) (C ++ coins_of b t) <= left_in S0 C).
  rewrite left_app. pose proof (left_le (S0 ++ spent t) (coins_of b t)) as L1. rewrite coins_sum in L1.
  assert (L2 : left_in (S0 ++ spent t) C + sum (map amount_in (inputs full)) <= left_in S0 C).
  { apply left_all; [exact ND|]. unfold spent. clear -LU F SK. induction LU as [|oi of l l' H _ IH]; cbn [map]; constructor; [|exact IH].
    destruct H as (i & o & id & -> & X & ((b0 & t0 & I0 & D & W & N) & U) & ->). cbn [point_of amount_in prev_sats]. rewrite X. split.
    - intros J. apply in_concat in J as (q & J1 & J2). apply in_map_iff in J1 as (u & <- & J1). apply In_nth_error in J1 as (m & M).
      destruct (F2_nth _ _ _ F _ _ M) as (bu & Mb & OU). now apply (U bu u (nth_error_In _ _ Mb) OU).
    - destruct (combine_in _ _ _ F b0 I0) as (t1 & I1 & W1). rewrite Forall_forall in SK.
      assert (t1 = t0) as -> by (eapply on_wire_unique; [apply SK; exact I0|eassumption|eassumption]).
      unfold C. apply in_concat. exists (coins_of b0 t0). split; [apply in_map_iff; exists (b0, t0); auto|]. subst id. now apply coins_in. }
  lia.
Qed.
Print Assumptions C84_no_money_accepted.

(** Wallets that build, sign and send with this library, one after the other, never make the unspent
    outputs together worth more. *)
Theorem C84_no_money_created verify known known' ts : grows verify known known' -> Forall sized known -> Forall2 on_wire known ts ->
  exists ts', Forall2 on_wire known' ts' /\ unspent_total known' ts' <= unspent_total known ts.
Proof.
  intros G. revert ts. induction G as [known|known k calls t' s' b known' HK F BA B SA TB S G IH]; intros ts SK W; [exists ts; split; [exact W|reflexivity]|].
  destruct (C84_accepted verify known k calls HK F B) as (t1 & b1 & SA1 & TB1 & AC).
  assert (t1 = t') as -> by congruence. assert (b1 = b) as -> by congruence. destruct (AC S) as (_ & _ & NA).
  destruct (C84_no_money_accepted verify known ts b SK S W (NA BA)) as (t & OW & LE).
  destruct (IH (ts ++ [t])) as (ts' & W' & LE'); [apply Forall_app; auto|apply Forall2_app; auto|].
  exists ts'. split; [exact W'|]. etransitivity; [exact LE'|exact LE].
Qed.
Print Assumptions C84_no_money_created.

(** the chain of C84_example: 1000 at the start, two fees of 100 *)
Example C84_value_example : let b0 := ex84_b ex84_a0 in let b1 := ex84_b ex84_a1 in let b2 := ex84_b ex84_a2 in
  grows ex84_verify [b0] [b0; b1; b2] /\
  unspent_total [b0] [ex84_a0] = 1000 /\ unspent_total [b0; b1] [ex84_a0; ex84_a1] = 900 /\
  unspent_total [b0; b1; b2] [ex84_a0; ex84_a1; ex84_a2] = 800.
Proof. split; [exact (proj1 C84_example)|]. split; [vm_compute; reflexivity|]. split; vm_compute; reflexivity. Qed.
