(** C92: signers who get the transaction as bytes. *)
From Verif Require Import P_Utils P_TxMisc P_TxParse P_TxSer P_Signer P_Flow T_Script T_Tx T_Sighash T_Exact T_Lenient T_Flow T_Chain T_Joint S_Joint S_Fee T_Fee S_Offline.
From Coq Require Import Lia ZifyBool ZifyNat ZifyN.

Definition word (w : told) (n : nat) : option (N * bytes) := match nth_error w n with Some x => x | None => None end.
Lemma fill_nth l : forall w n, nth_error (fill_inputs l w) n = option_map (fun oi => fill_input oi (word w n)) (nth_error l n).
Proof.
  assert (Z : forall oi, fill_input oi None = oi) by (intros [i|]; reflexivity).
  induction l as [|oi l IH]; intros w n; [destruct n, w; reflexivity|].
  destruct w as [|x w]; [|destruct n as [|n]; [reflexivity|apply (IH w n)]].
  cbn [fill_inputs]. destruct n as [|n]; cbn [nth_error option_map word]; [now rewrite Z|]. destruct (nth_error l n) as [y|]; cbn [option_map]; [now rewrite Z|reflexivity].
Qed.
Lemma fill_length l : forall w, length (fill_inputs l w) = length l.
Proof. induction l as [|oi l IH]; intros [|x w]; cbn [fill_inputs length]; try reflexivity. now rewrite IH. Qed.
(** what a signer has after parsing the bytes of [t] and filling in *)
Definition seen (t : tx) (w : told) : tx := fill (bare_tx t) w.
Lemma seen_nth t w n : nth_error (inputs (seen t w)) n = option_map (fun oi => fill_input (option_map bare_input oi) (word w n)) (nth_error (inputs t) n).
Proof. unfold seen, fill, bare_tx. cbn [inputs]. rewrite fill_nth, nth_error_map. now destruct (nth_error (inputs t) n). Qed.
Lemma F2_of_nth {A B} (P : A -> B -> Prop) : forall (l : list A) (l' : list B), length l = length l' ->
  (forall n a b, nth_error l n = Some a -> nth_error l' n = Some b -> P a b) -> Forall2 P l l'.
Proof.
  induction l as [|a l IH]; intros [|b l'] L H; try discriminate L; constructor; [apply (H 0%nat); reflexivity|].
  apply IH; [now injection L|]. intros n x y X Y. apply (H (S n)); assumption.
Qed.
Lemma seen_len t w : length (inputs (seen t w)) = length (inputs t).
Proof. unfold seen, fill, bare_tx. cbn [inputs]. rewrite fill_length. apply map_length. Qed.
Lemma seen_agree t w f n : truthful w t -> (exists x, nth_error w n = Some (Some x)) -> agree f n t (seen t w).
Proof.
  intros T ((a & s) & W). destruct (T _ _ _ W) as (i & Ni & A & S).
  assert (Q : forall P : option input -> option input -> Prop, (forall j x, P (Some j) (fill_input (Some (bare_input j)) x)) -> P None None -> Forall2 P (inputs t) (inputs (seen t w))).
  { intros P H H0. apply F2_of_nth; [now rewrite seen_len|]. intros k x y X Y. rewrite seen_nth, X in Y. cbn [option_map] in Y. injection Y as <-. destruct x as [j|]; [apply H|].
    cbn [option_map fill_input]. exact H0. }
  constructor; [reflexivity|reflexivity|now left| | | | |].
  - rewrite seen_nth, Ni. cbn [option_map]. unfold word. rewrite W. cbn [fill_input same_signed_input bare_input prev_txid prev_index prev_sats prev_script sequence].
    rewrite A, S. auto.
  - intros _. apply Q; [|exact I]. intros j [[a' s']|]; cbn; auto.
  - intros _ _. apply Q; [|exact I]. intros j [[a' s']|]; cbn; auto.
  - reflexivity.
  - reflexivity.
Qed.
Lemma seen_sig t w s n : n < 2 ^ 32 -> sg_flag s < 256 -> truthful w t -> (exists x, nth_error w (N.to_nat n) = Some (Some x)) -> sig_script s n (seen t w) = sig_script s n t.
Proof.
  intros Bn Bf T W. unfold sig_script. rewrite (sighash_agree t (seen t w) n (used_flag s) Bn (used_flag_small s Bf) (seen_agree t w _ _ T W)). reflexivity.
Qed.
(** the spent script of an input in the signer's hands *)
Lemma seen_hit t w pub n i : truthful w t -> nth_error (inputs t) n = Some (Some i) ->
  (forall j, nth_error (inputs (seen t w)) n = Some (Some j) ->
     (exists x, nth_error w n = Some (Some x) /\ hit pub j = hit pub i) \/ ((forall x, nth_error w n <> Some (Some x)) /\ hit pub j = Ok false)).
Proof.
  intros T Ni j Nj. rewrite seen_nth, Ni in Nj. cbn [option_map] in Nj. unfold word in Nj. destruct (nth_error w n) as [[[a s]|]|] eqn:W; cbn [fill_input] in Nj; injection Nj as <-.
  - left. exists (a, s). split; [reflexivity|]. destruct (T _ _ _ W) as (i' & Ni' & _ & S). rewrite Ni in Ni'. injection Ni' as <-. unfold hit. cbn [prev_script]. now rewrite S.
  - right. split; [congruence|reflexivity].
  - right. split; [congruence|reflexivity].
Qed.
Lemma seen_some t w n i : nth_error (inputs t) n = Some (Some i) -> exists j, nth_error (inputs (seen t w)) n = Some (Some j) /\ bare_input j = bare_input i.
Proof.
  intros N. rewrite seen_nth, N. cbn [option_map]. destruct (word w n) as [[a s]|]; cbn [fill_input]; eexists; split; reflexivity.
Qed.
Lemma seen_writes t w c k i : call_bounds c -> nlen (inputs t) <= 2 ^ 32 -> truthful w t -> enough w t c -> nth_error (inputs t) k = Some (Some i) ->
  Verif.P_Flow.writes (seen t w) c k = Verif.P_Flow.writes t c k.
Proof.
  intros Bc B T E N. assert (Lk : (k < length (inputs t))%nat) by (apply nth_error_Some; congruence). destruct c as [s n|s]; cbn [Verif.P_Flow.writes call_bounds enough] in *.
  - destruct (Nat.eqb_spec (N.to_nat n) k) as [Q|Q]; [|reflexivity]. destruct Bc as [Bf Bn]. now rewrite (seen_sig t w s n Bn Bf T E).
  - destruct (seen_some t w k i N) as (j & Nj & _). rewrite N, Nj. destruct (seen_hit t w (key_pub (sg_key s)) k i T N j Nj) as [(x & W & Hj)|(W & Hj)]; rewrite Hj.
    + rewrite (seen_sig t w s (N.of_nat k)); [reflexivity|unfold nlen in B; lia|exact Bc|exact T|rewrite Nat2N.id; eauto].
    + destruct (hit (key_pub (sg_key s)) i) as [[]|e|] eqn:H; try reflexivity. exfalso. apply hit_matches in H. destruct (E _ _ N H) as (x & X). eapply W, X.
Qed.
Lemma seen_total t w c t' : call_bounds c -> nlen (inputs t) <= 2 ^ 32 -> truthful w t -> enough w t c -> sign_do t c = Ok t' ->
  exists u', sign_do (seen t w) c = Ok u'.
Proof.
  intros Bc B T E D. destruct (sign_do (seen t w) c) as [u'|e|] eqn:X; [eauto| |]; exfalso.
  { eapply sign_do_not_err; [exact Bc| |exact X]. unfold nlen in *. now rewrite seen_len. }
  destruct c as [s n|s]; cbn [sign_do call_bounds enough] in *.
  - destruct Bc as [Bf Bn]. unfold tx_sign in *. rewrite internal_sign_eq in D, X. rewrite (seen_sig t w s n Bn Bf T E) in X.
    destruct (sig_script s n t) as [u|e|] eqn:G; [|discriminate X|discriminate D]. destruct (sig_script_input _ _ _ _ G) as (i & Ni).
    destruct (seen_some t w _ _ Ni) as (j & Nj & _). rewrite Nj in X. discriminate X.
  - unfold tx_sign_auto in *. rewrite sign_auto_eq in D by assumption. rewrite sign_auto_eq in X; [|assumption|unfold nlen in *; now rewrite seen_len].
    destruct (outcomes s (seen t w) 0 (inputs (seen t w))) as [l|e|] eqn:O; [discriminate X|now apply outcomes_not_err in O|]. clear X.
    apply outcomes_panic in O as (j & oj & Nj & P).
    destruct (outcomes s t 0 (inputs t)) as [l|e|] eqn:Ot; [|now apply outcomes_not_err in Ot|discriminate D]. clear D. destruct (outcomes_ok_nth _ _ _ _ _ Ot) as (_ & Q).
    destruct (nth_error (inputs t) j) as [oi|] eqn:Ni; [|rewrite seen_nth, Ni in Nj; discriminate Nj].
    assert (Lj : (j < length (inputs t))%nat) by (apply nth_error_Some; congruence).
    destruct (Q _ _ Ni) as (oi' & _ & OC). destruct oi as [i|]; [|discriminate OC]. destruct (seen_some t w j i Ni) as (x & Nx & _). rewrite Nx in Nj. injection Nj as <-.
    cbn [N.add outcome] in OC, P. destruct (seen_hit t w (key_pub (sg_key s)) j i T Ni x Nx) as [(y & W & Hx)|(W & Hx)]; rewrite Hx in P; [|discriminate P].
    destruct (hit (key_pub (sg_key s)) i) as [[]|e|]; cbn [bind] in OC, P; try discriminate.
    rewrite (seen_sig t w s (N.of_nat j)) in P; [|unfold nlen in B; lia|exact Bc|exact T|rewrite Nat2N.id; eauto].
    destruct (sig_script s (N.of_nat j) t); discriminate.
Qed.
Lemma seen_step t w c t' : call_bounds c -> nlen (inputs t) <= 2 ^ 32 -> Forall (fun oi => oi <> None) (inputs t) -> truthful w t -> enough w t c -> sign_do t c = Ok t' ->
  exists u', sign_do (seen t w) c = Ok u' /\ bare_tx u' = bare_tx t'.
Proof.
  intros Bc B NN T E D. destruct (seen_total t w c t' Bc B T E D) as (u' & D'). exists u'. split; [exact D'|].
  destruct (sign_do_writes t c t' Bc B D) as (R & W). destruct (sign_do_writes (seen t w) c u' Bc) as (R' & W'); [unfold nlen in *; now rewrite seen_len|exact D'|].
  pose proof (resigned_count _ _ R) as L. pose proof (resigned_count _ _ R') as L'. rewrite seen_len in L'.
  destruct R as (V & O & Lt & _). destruct R' as (V' & O' & Lt' & _). unfold bare_tx. rewrite <- V, <- O, <- Lt, <- V', <- O', <- Lt'. cbn [seen fill bare_tx version outputs locktime]. f_equal.
  apply list_ext. intros k. rewrite !nth_error_map. destruct (nth_error (inputs t) k) as [oi|] eqn:N.
  - destruct oi as [i|]; [|exfalso; rewrite Forall_forall in NN; exact (NN _ (nth_error_In _ _ N) eq_refl)].
    destruct (seen_some t w k i N) as (j & Nj & Bj). rewrite (W _ _ N), (W' _ _ Nj), (seen_writes t w c k i Bc B T E N). cbn [option_map]. do 2 f_equal.
    destruct (Verif.P_Flow.writes t c k) as [u|]; [|exact Bj]. unfold bare_input in *. injection Bj as A1 A2 A3 A4. unfold with_script. cbn [prev_txid prev_index unlocking sequence]. congruence.
  - assert (X : nth_error (inputs t') k = None) by (apply nth_error_None; apply nth_error_None in N; lia).
    assert (X' : nth_error (inputs u') k = None) by (apply nth_error_None; apply nth_error_None in N; lia). rewrite X, X'. reflexivity.
Qed.

(** *** sizes and ranges on the way *)
Lemma wf_some t : wf_tx t -> Forall (fun oi => oi <> None) (inputs t).
Proof. intros (_ & _ & _ & _ & F & _). eapply Forall_impl; [|exact F]. intros oi (i & -> & _). discriminate. Qed.
Lemma in_sum (f : option input -> nat) l x : In x l -> (f x <= list_sum (map f l))%nat.
Proof. induction l as [|a l IH]; intros []; cbn [map]; change (list_sum (?a :: ?l)) with (a + list_sum l)%nat; [subst; lia|]. specialize (IH H). lia. Qed.
Lemma signed_wf2 t t1 b1 : wf_tx t -> resigned t t1 -> tx_to_bytes t1 = Ok b1 -> sized b1 -> wf_tx t1.
Proof.
  intros (H1 & H2 & H3 & H4 & H5 & H6) (V & O & Lt & F) E S. apply tx_len in E. unfold sized in S.
  rewrite V in H1. rewrite Lt in H2. rewrite O in H4, H6. unfold nlen in H3. rewrite (Forall2_length _ _ _ F) in H3.
  split; [exact H1|]. split; [exact H2|]. split; [exact H3|]. split; [exact H4|]. split; [|exact H6].
  apply Forall_forall. intros oi I. pose proof (in_sum in_len _ _ I) as X. apply In_nth_error in I as (n & N). pose proof (Forall2_nth _ _ _ F n) as Q. rewrite N in Q.
  destruct (nth_error (inputs t) n) as [oj|] eqn:Nj; [|contradiction]. rewrite Forall_forall in H5. destruct (H5 _ (nth_error_In _ _ Nj)) as (j & -> & (id & Lid & Pid) & B1 & B2 & _).
  destruct oi as [i|]; [|contradiction]. exists i. split; [reflexivity|]. destruct Q as (Q1 & Q2 & _ & _ & Q5). rewrite Q1 in Pid. rewrite Q2 in B1. rewrite Q5 in B2.
  split; [eauto|]. split; [exact B1|]. split; [exact B2|]. cbn [in_len] in X. unfold script_size in X. unfold nlen. lia.
Qed.
Lemma resigned_writes t t1 : wf_tx t -> resigned t t1 -> exists b1, tx_to_bytes t1 = Ok b1.
Proof.
  intros (_ & _ & _ & _ & F1 & F2) (_ & O & _ & F). destruct (C77_panics_iff t1) as (P & _ & _ & _ & NE).
  destruct (tx_to_bytes t1) as [b|e|] eqn:E; [eauto|destruct (NE e) as (X & _); now contradiction X|]. exfalso. destruct (proj1 P eq_refl) as [I|[I|(o & I & L)]].
  - apply In_nth_error in I as (n & N). pose proof (Forall2_nth _ _ _ F n) as Q. rewrite N in Q. destruct (nth_error (inputs t) n) as [[j|]|] eqn:Nj; try contradiction.
    rewrite Forall_forall in F1. destruct (F1 _ (nth_error_In _ _ Nj)) as (j & X & _). discriminate X.
  - rewrite <- O in I. rewrite Forall_forall in F2. destruct (F2 _ I) as (o & X & _). discriminate X.
  - rewrite <- O in I. rewrite Forall_forall in F2. destruct (F2 _ I) as (o' & X & _ & s & Y & _). congruence.
Qed.
Lemma truthful_resigned w t t1 : resigned t t1 -> truthful w t -> truthful w t1.
Proof.
  intros (_ & _ & _ & F) T n a s W. destruct (T _ _ _ W) as (i & N & A & S). pose proof (Forall2_nth _ _ _ F n) as Q. rewrite N in Q.
  destruct (nth_error (inputs t1) n) as [[j|]|]; try contradiction. destruct Q as (_ & _ & Q3 & Q4 & _). exists j. split; [reflexivity|]. split; congruence.
Qed.
Lemma enough_resigned w t t1 c : resigned t t1 -> enough w t c -> enough w t1 c.
Proof.
  intros (_ & _ & _ & F) E. destruct c as [s n|s]; [exact E|]. cbn [enough] in *. intros n j N M. pose proof (Forall2_nth _ _ _ F n) as Q. rewrite N in Q.
  destruct (nth_error (inputs t) n) as [[i|]|] eqn:Ni; try contradiction. apply (E n i Ni). eapply matches_signed; [|exact M]. now apply P_Signer.same_signed_sym.
Qed.

(** ** C92 *)
(** Signers who get the bytes, are told the truth about the outputs they are to sign for, and send
    bytes on, produce the bytes that they would have produced together in one place. *)
Theorem C92_relay : forall ps t b t', wf_tx t -> nlen (inputs t) <= 2 ^ 32 -> tx_to_bytes t = Ok b ->
  Forall (fun p => call_bounds (snd p) /\ truthful (fst p) t /\ enough (fst p) t (snd p)) ps ->
  (forall pre suf t1 b1, map snd ps = pre ++ suf -> sign_run t pre = Ok t1 -> tx_to_bytes t1 = Ok b1 -> sized b1) ->
  sign_run t (map snd ps) = Ok t' -> exists b', tx_to_bytes t' = Ok b' /\ relay b ps = Ok b'.
Proof.
  induction ps as [|[w c] ps IH]; intros t b t' W B E F S R; cbn [map sign_run relay snd] in *.
  - injection R as <-. eauto.
  - inversion F as [|? ? (Bc & T & En) F']; subst. cbn [fst snd] in Bc, T, En.
    destruct (sign_do t c) as [t1|e|] eqn:D; cbn [bind] in R; try discriminate R.
    assert (Sb : sized b) by (apply (S [] (c :: map snd ps) t b); [reflexivity|reflexivity|exact E]).
    assert (P : tx_from_bytes b = Ok (bare_tx t)) by (apply on_wire_parses; [exact Sb|now apply wire_of_written]). rewrite P. cbn [bind].
    destruct (seen_step t w c t1 Bc B (wf_some t W) T En D) as (u' & D' & Q). change (fill (bare_tx t) w) with (seen t w). rewrite D'. cbn [bind].
    destruct (sign_do_writes t c t1 Bc B D) as (RS & _). destruct (resigned_writes t t1 W RS) as (b1 & E1).
    assert (Eu : tx_to_bytes u' = Ok b1) by (rewrite <- (to_bytes_bare u'), Q, to_bytes_bare; exact E1). rewrite Eu. cbn [bind].
    assert (S1 : sized b1). { apply (S [c] (map snd ps) t1 b1); [reflexivity|cbn [sign_run]; rewrite D; reflexivity|exact E1]. }
    apply (IH t1 b1 t'); try assumption.
    + eapply signed_wf2; eassumption.
    + unfold nlen in *. rewrite (resigned_count _ _ RS). exact B.
    + eapply Forall_impl; [|exact F']. intros [w2 c2] (A1 & A2 & A3). cbn [fst snd] in *. split; [exact A1|]. split; [eapply truthful_resigned; eassumption|eapply enough_resigned; eassumption].
    + intros pre suf t2 b2 Ep Rp E2. apply (S (c :: pre) suf t2 b2); [now rewrite Ep|cbn [sign_run]; rewrite D; exact Rp|exact E2].
Qed.
Print Assumptions C92_relay.

(** One signer: the same error or none, the same flag in the signer, and the same bytes. *)
Theorem C92_sign : forall t b u w n s t' s' oe, wf_tx t -> nlen (inputs t) <= 2 ^ 32 -> tx_to_bytes t = Ok b -> sized b -> tx_from_bytes b = Ok u ->
  truthful w t -> (exists x, nth_error w (N.to_nat n) = Some (Some x)) -> n < 2 ^ 32 -> sg_flag s < 256 ->
  tx_sign t n s = Ok (t', s', oe) -> exists u', tx_sign (fill u w) n s = Ok (u', s', oe) /\ tx_to_bytes u' = tx_to_bytes t'.
Proof.
  intros t b u w n s t' s' oe W B E S P T Wn Bn Bf SG.
  assert (P' : tx_from_bytes b = Ok (bare_tx t)) by (apply on_wire_parses; [exact S|now apply wire_of_written]).
  assert (u = bare_tx t) as -> by congruence. change (fill (bare_tx t) w) with (seen t w).
  assert (D : sign_do t (DoSign s n) = Ok t') by (cbn [sign_do]; now rewrite SG).
  destruct (seen_step t w (DoSign s n) t' (conj Bf Bn) B (wf_some t W) T Wn D) as (u' & D' & Q). exists u'. split.
  - cbn [sign_do] in D'. unfold tx_sign in *. rewrite internal_sign_eq in *. rewrite (seen_sig t w s n Bn Bf T Wn) in *.
    destruct (sig_script s n t) as [x|e|] eqn:G; [|congruence|discriminate SG].
    destruct (sig_script_input _ _ _ _ G) as (i & Ni). destruct (seen_some t w _ _ Ni) as (j & Nj & _). rewrite Ni in SG. rewrite Nj in *. congruence.
  - rewrite <- (to_bytes_bare u'), Q. apply to_bytes_bare.
Qed.
Print Assumptions C92_sign.

(** What nobody told is not signed: Sign says so, SignAuto does not. *)
Theorem C92_untold : forall t b u w n i s, wf_tx t -> nlen (inputs t) <= 2 ^ 32 -> tx_to_bytes t = Ok b -> sized b -> tx_from_bytes b = Ok u ->
  nth_error (inputs t) (N.to_nat n) = Some (Some i) -> (forall x, nth_error w (N.to_nat n) <> Some (Some x)) -> sg_flag s < 256 ->
  (exists s', tx_sign (fill u w) n s = Ok (fill u w, s', Some ENoPrevTxScript)) /\
  (forall u' s' oe, tx_sign_auto (fill u w) s = Ok (u', s', oe) -> oe = None /\ nth_error (inputs u') (N.to_nat n) = nth_error (inputs u) (N.to_nat n)).
Proof.
  intros t b u w n i s W B E S P Ni Un Bf.
  assert (P' : tx_from_bytes b = Ok (bare_tx t)) by (apply on_wire_parses; [exact S|now apply wire_of_written]).
  assert (u = bare_tx t) as -> by congruence. change (fill (bare_tx t) w) with (seen t w).
  assert (Wd : word w (N.to_nat n) = None). { unfold word. destruct (nth_error w (N.to_nat n)) as [[x|]|] eqn:X; [|reflexivity|reflexivity]. exfalso. eapply Un, eq_refl. }
  assert (Ns : nth_error (inputs (seen t w)) (N.to_nat n) = Some (Some (bare_input i))) by (rewrite seen_nth, Ni, Wd; reflexivity).
  assert (Nb : nth_error (inputs (bare_tx t)) (N.to_nat n) = Some (Some (bare_input i))) by (cbn [bare_tx inputs]; rewrite nth_error_map, Ni; reflexivity).
  assert (X : prev_txid (bare_input i) <> []).
  { destruct W as (_ & _ & _ & _ & F & _). rewrite Forall_forall in F. destruct (F _ (nth_error_In _ _ Ni)) as (i' & Q & (id & L & Y) & _). injection Q as <-. cbn [bare_input prev_txid]. rewrite Y. now apply hex32_nonempty. }
  split.
  - unfold tx_sign. rewrite internal_sign_eq. unfold sig_script. rewrite (sighash_no_script (seen t w) n (used_flag s) (bare_input i) Ns X eq_refl). cbn [bind]. eauto.
  - intros u' s' oe SA. unfold tx_sign_auto in SA. rewrite sign_auto_eq in SA; [|exact Bf|unfold nlen in *; now rewrite seen_len].
    destruct (outcomes s (seen t w) 0 (inputs (seen t w))) as [l|e|] eqn:O; [|now apply outcomes_not_err in O|discriminate SA]. injection SA as <- <- <-. split; [reflexivity|].
    destruct (outcomes_ok_nth _ _ _ _ _ O) as (_ & Q). destruct (Q _ _ Ns) as (y & Ny & OC). cbn [inputs]. rewrite Ny, Nb. cbn [outcome] in OC.
    change (hit (key_pub (sg_key s)) (bare_input i)) with (Ok false : res bool) in OC. cbn [bind] in OC. congruence.
Qed.
Print Assumptions C92_untold.

(** What is said about other inputs does not matter for a signature, true or not. *)
Theorem C92_other_inputs : forall t w w' n f, n < 2 ^ 32 -> f < 256 -> nth_error w (N.to_nat n) = nth_error w' (N.to_nat n) ->
  get_input_signature_hash (fill t w) n f = get_input_signature_hash (fill t w') n f.
Proof.
  intros t w w' n f Bn Bf E. apply sighash_agree; [exact Bn|exact Bf|].
  assert (Q : forall P : option input -> option input -> Prop, (forall j x y, P (fill_input (Some j) x) (fill_input (Some j) y)) -> P None None ->
     Forall2 P (inputs (fill t w)) (inputs (fill t w'))).
  { intros P H H0. apply F2_of_nth; [unfold fill; cbn [inputs]; now rewrite !fill_length|]. intros k x y X Y. unfold fill in X, Y. cbn [inputs] in X, Y. rewrite fill_nth in X, Y.
    destruct (nth_error (inputs t) k) as [[j|]|]; cbn [option_map] in X, Y; try discriminate X; injection X as <-; injection Y as <-; [apply H|exact H0]. }
  constructor; [reflexivity|reflexivity|now left| | | | |].
  - unfold fill. cbn [inputs]. rewrite !fill_nth. unfold word. rewrite E. destruct (nth_error (inputs t) (N.to_nat n)) as [oi|]; [|exact I]. cbn [option_map]. apply P_Signer.same_signed_refl.
  - intros _. apply Q; [|exact I]. intros j [[]|] [[]|]; cbn; auto.
  - intros _ _. apply Q; [|exact I]. intros j [[]|] [[]|]; cbn; auto.
  - reflexivity.
  - reflexivity.
Qed.
Print Assumptions C92_other_inputs.

(** A lie about the input that is signed: [t] is the transaction with the truth, the signer sees the
    amount [a] and the script [sc]. Then the node accepts the input only if the signature, which was
    made for another message, verifies for the message of the truth. *)
Theorem C92_lie : forall verify t w n i a sc s u' s' t2 i2, full_tx t -> full_tx (fill (bare_tx t) w) -> nlen (inputs t) <= 2 ^ 32 -> sg_flag s < 256 -> honest verify (sg_key s) ->
  nth_error (inputs t) (N.to_nat n) = Some (Some i) -> prev_script i = Some (p2pkh (hash160 (key_pub (sg_key s)))) ->
  nth_error w (N.to_nat n) = Some (Some (a, sc)) -> (a, Some sc) <> (prev_sats i, prev_script i) -> n < 2 ^ 32 ->
  tx_sign (fill (bare_tx t) w) n s = Ok (u', s', None) ->
  (* the transaction that is sent, with the truth about what it spends *)
  resigned t t2 -> nth_error (inputs t2) (N.to_nat n) = Some (Some i2) -> (forall j, nth_error (inputs u') (N.to_nat n) = Some (Some j) -> unlocking i2 = unlocking j) ->
  accepted verify t2 (N.to_nat n) ->
  exists p q sg, preimage (fill (bare_tx t) w) (N.to_nat n) (flag_of s) p /\ preimage t2 (N.to_nat n) (flag_of s) q /\ p <> q /\
    key_sign (sg_key s) (dsha p) = Ok sg /\ verify (key_pub (sg_key s)) (dsha q) sg.
Proof.
  intros verify t w n i a sc s u' s' t2 i2 Ft Fu B Bf HK Ni Si Wn Ne Bn SG R N2 U2 AC. change (fill (bare_tx t) w) with (seen t w) in *.
  assert (Ns : nth_error (inputs (seen t w)) (N.to_nat n) = Some (Some (mk_in (prev_txid i) (prev_index i) a (Some sc) (Some (script_bytes (unlocking i))) (sequence i)))).
  { rewrite seen_nth, Ni. unfold word. rewrite Wn. reflexivity. }
  assert (Bu : flag_of s < 256) by (apply used_flag_small; exact Bf).
  unfold tx_sign in SG. rewrite internal_sign_eq in SG. unfold sig_script in SG. change (used_flag s) with (flag_of s) in SG.
  destruct (get_input_signature_hash (seen t w) n (flag_of s)) as [h|e|] eqn:G; cbn [bind] in SG; try discriminate SG.
  destruct (key_sign (sg_key s) (rev h)) as [sg|e|] eqn:K; cbn [bind] in SG; try discriminate SG. rewrite Ns in SG. injection SG as <- <-.
  apply sighash_ok_iff in G as (i0 & p & _ & _ & P & Eh); try assumption; [|now apply full_sig]. rewrite Eh, rev_involutive in K. fold (dsha p) in K.
  destruct (proj2 HK (dsha p)) as (sg' & K' & L & V); [unfold dsha; apply sha256_length|]. rewrite K in K'. injection K' as <-.
  unfold set_script in U2. cbn [inputs] in U2. rewrite (nth_error_set_eq _ _ _ _ Ns) in U2. specialize (U2 _ eq_refl). unfold with_script in U2. cbn [unlocking] in U2.
  assert (SS : same_signed_input (Some i) (Some i2)). { destruct R as (_ & _ & _ & F). pose proof (Forall2_nth _ _ _ F (N.to_nat n)) as Q. rewrite Ni, N2 in Q. exact Q. }
  destruct SS as (S1 & S2 & S3 & S4 & S5).
  destruct (accepted_checks verify t2 (N.to_nat n) i2 (key_pub (sg_key s)) sg (flag_of s)) as (q & Q & VQ); try assumption.
  - rewrite N2. do 2 f_equal. unfold with_script. rewrite <- U2. destruct i2; reflexivity.
  - congruence.
  - exact (proj1 HK).
  - exists p, q, sg. split; [exact P|]. split; [exact Q|]. split; [|split; [exact K|exact VQ]]. intros <-.
    assert (F2 : full_tx t2).
    { destruct Ft as (H1 & H2 & H3 & H4 & H5). destruct R as (V1 & O1 & L1 & F). split; [congruence|]. split; [congruence|]. split; [|rewrite <- O1; auto].
      apply Forall_forall. intros oi I. apply In_nth_error in I as (m & M). pose proof (Forall2_nth _ _ _ F m) as X. rewrite M in X. destruct (nth_error (inputs t) m) as [oj|] eqn:Nj; [|contradiction].
      rewrite Forall_forall in H3. destruct (H3 _ (nth_error_In _ _ Nj)) as (j & -> & FJ). destruct oi as [x|]; [|contradiction]. exists x. split; [reflexivity|].
      destruct X as (X1 & X2 & X3 & X4 & X5). unfold full_input in *. rewrite <- X1, <- X2, <- X3, <- X4, <- X5. exact FJ. }
    destruct (preimage_commits _ _ _ _ _ _ _ Fu F2 Bu Bu P Q) as (_ & _ & _ & (j1 & j2 & J1 & J2 & _ & _ & J3 & J4 & _) & _).
    rewrite Ns in J1. injection J1 as <-. rewrite N2 in J2. injection J2 as <-. cbn [prev_script prev_sats] in J3, J4. apply Ne. congruence.
Qed.
Print Assumptions C92_lie.

(** Two keys: each signer is told about his own output only. *)
Definition ex92_calls : list tx_call :=
  [CallFrom (hex_encode ex63_id) 0 (hex_encode (p2pkh (hash160 ex63_pub))) 1000;
   CallFrom (hex_encode ex63_id) 1 (hex_encode (p2pkh (hash160 (key_pub ex65_key2)))) 2000;
   CallPayTo (addr_string (addr_from_pkh (repeat x07 20) true)) 2900].
Definition ex92_t : tx := tx_run tx_new ex92_calls.
Definition ex92_b : bytes := ok_or [] (tx_to_bytes ex92_t).
Definition ex92_w1 : told := [Some (1000, p2pkh (hash160 ex63_pub))].
Definition ex92_w2 : told := [None; Some (2000, p2pkh (hash160 (key_pub ex65_key2)))].
Definition ex92_ps : list (told * sign_call) := [(ex92_w1, DoSignAuto (mk_signer ex63_key 0)); (ex92_w2, DoSign (mk_signer ex65_key2 0xC1) 1)].
Lemma ex92_shape : exists i1 i2 os, ex92_t = mk_tx 1 [Some i1; Some i2] os 0 /\
  i1 = mk_in (hex_encode ex63_id) 0 1000 (Some (p2pkh (hash160 ex63_pub))) None (2 ^ 32 - 1) /\
  i2 = mk_in (hex_encode ex63_id) 1 2000 (Some (p2pkh (hash160 (key_pub ex65_key2)))) None (2 ^ 32 - 1) /\
  os = [Some (mk_out 2900 (Some (p2pkh (repeat x07 20))))].
Proof. eexists _, _, _. split; [vm_compute; reflexivity|]. split; [vm_compute; reflexivity|]. split; vm_compute; reflexivity. Qed.
Lemma ex92_wf : wf_tx ex92_t.
Proof.
  destruct ex92_shape as (i1 & i2 & os & -> & -> & -> & ->). split; [reflexivity|]. split; [reflexivity|]. split; [reflexivity|]. split; [reflexivity|].
  split; repeat constructor; eexists; (split; [reflexivity|]).
  - split; [exists ex63_id; split; reflexivity|]. split; [reflexivity|]. split; reflexivity.
  - split; [exists ex63_id; split; reflexivity|]. split; [reflexivity|]. split; reflexivity.
  - split; [reflexivity|]. eexists. split; [reflexivity|]. vm_compute. reflexivity.
Qed.
Lemma ex92_ok : Forall (fun p => call_bounds (snd p) /\ truthful (fst p) ex92_t /\ enough (fst p) ex92_t (snd p)) ex92_ps.
Proof.
  destruct ex92_shape as (i1 & i2 & os & -> & -> & -> & ->). repeat constructor; cbn [fst snd].
  - intros [|[|n]] a s E; cbn in E; try discriminate E. injection E as <- <-. eexists. split; [reflexivity|]. split; reflexivity.
  - cbn [enough sg_key]. intros [|[|n]] i E M; cbn [nth_error inputs] in E; [eexists; reflexivity| |destruct n; discriminate E].
    injection E as <-. exfalso. apply hit_matches in M. revert M. vm_compute. discriminate.
  - intros [|[|[|n]]] a s E; cbn in E; try discriminate E. injection E as <- <-. eexists. split; [reflexivity|]. split; reflexivity.
  - eexists. reflexivity.
Qed.
Example C92_example : wf_tx ex92_t /\ tx_to_bytes ex92_t = Ok ex92_b /\
  Forall (fun p => call_bounds (snd p) /\ truthful (fst p) ex92_t /\ enough (fst p) ex92_t (snd p)) ex92_ps /\
  exists t' b', sign_run ex92_t (map snd ex92_ps) = Ok t' /\ tx_to_bytes t' = Ok b' /\ relay ex92_b ex92_ps = Ok b' /\ bytes_eqb b' ex92_b = false /\
    (* one satoshi more than the truth gives another digest *)
    match get_input_signature_hash (fill (bare_tx ex92_t) [Some (1001, p2pkh (hash160 ex63_pub))]) 0 65, get_input_signature_hash ex92_t 0 65 with
    | Ok h, Ok h' => bytes_eqb h h' = false
    | _, _ => False
    end.
Proof.
  split; [exact ex92_wf|]. split; [vm_compute; reflexivity|]. split; [exact ex92_ok|]. eexists _, _. split; [vm_compute; reflexivity|].
  split; [vm_compute; reflexivity|]. split; [vm_compute; reflexivity|]. split; vm_compute; reflexivity.
Qed.
(** Where every signature verifies, the lie goes through: the hypotheses of C92_lie are met. *)
Lemma any_accepted t n i pub sg f : sig_tx t -> (n < length (inputs t))%nat -> N.of_nat n < 2 ^ 32 -> f < 256 -> nlen sg + 1 < 4294967296 -> nlen pub < 4294967296 ->
  nth_error (inputs t) n = Some (Some (with_script i (fst (p2pkh_unlocking_script pub sg f)))) -> prev_txid i <> [] -> prev_script i = Some (p2pkh (hash160 pub)) ->
  accepted (fun _ _ _ => True) t n.
Proof.
  intros W Ln Bn Bf L1 L2 N X S. set (u := fst (p2pkh_unlocking_script pub sg f)) in *.
  exists (with_script i u), u, (p2pkh (hash160 pub)), [pub; sg ++ [n2b f]], []. split; [exact N|]. split; [reflexivity|]. split; [exact S|].
  split; [apply unlocking_run; assumption|]. apply p2pkh_run.
  destruct (get_input_signature_hash t (N.of_nat n) f) as [h|e|] eqn:G.
  - apply sighash_ok_iff in G as (i0 & p & _ & _ & P & _); try assumption. rewrite Nat2N.id in P. exists sg, f, p. split; [reflexivity|]. split; [exact Bf|]. split; [exact P|exact I].
  - exfalso. apply sighash_err_iff in G as (i0 & E0 & D); try assumption. rewrite Nat2N.id, N in E0. injection E0 as <-. destruct D as [[D _]|(_ & D & _)]; cbn [with_script prev_txid prev_script] in D; congruence.
  - exfalso. apply sighash_panic_iff in G; try assumption. rewrite Nat2N.id in G. lia.
Qed.
Definition ex92_lie : told := [Some (1001, p2pkh (hash160 ex63_pub))].
Lemma ex92_full : full_tx ex92_t /\ full_tx (fill (bare_tx ex92_t) ex92_lie).
Proof.
  destruct ex92_shape as (i1 & i2 & os & -> & -> & -> & ->).
  assert (A : forall n a s u, n < 2 ^ 32 -> a < 2 ^ 64 -> (forall x, s = Some x -> nlen x < 2 ^ 63) -> full_input (mk_in (hex_encode ex63_id) n a s u (2 ^ 32 - 1))).
  { intros n a s u H1 H2 H3. split; [exists ex63_id; split; [reflexivity|apply hex_dec_encode]|]. split; [exact H1|]. split; [reflexivity|]. split; [exact H2|exact H3]. }
  assert (O : Forall (fun oo => exists o, oo = Some o /\ wf_output o) [Some (mk_out 2900 (Some (p2pkh (repeat x07 20))))]).
  { constructor; [|constructor]. eexists. split; [reflexivity|]. split; [reflexivity|]. eexists. split; [reflexivity|]. vm_compute. reflexivity. }
  split; (split; [reflexivity|]; split; [reflexivity|]; split; [|split; [exact O|reflexivity]]); (constructor; [|constructor; [|constructor]]); eexists; (split; [reflexivity|]); apply A; try reflexivity;
    intros x E; try discriminate E; injection E as <-; apply p2pkh_small, hash160_length.
Qed.
Lemma sign_shape t n s u' s' : tx_sign t n s = Ok (u', s', None) -> exists i d sg, nth_error (inputs t) (N.to_nat n) = Some (Some i) /\ key_sign (sg_key s) d = Ok sg /\
  u' = set_script t (N.to_nat n) i (fst (p2pkh_unlocking_script (key_pub (sg_key s)) sg (used_flag s))).
Proof.
  unfold tx_sign. rewrite internal_sign_eq. destruct (sig_script s n t) as [v|e|] eqn:Sc; try discriminate. destruct (sig_script_input _ _ _ _ Sc) as (i0 & N0). rewrite N0.
  intros E. injection E as <- <-. unfold sig_script in Sc. destruct (get_input_signature_hash t n (used_flag s)) as [h|e|]; cbn [bind] in Sc; try discriminate Sc.
  destruct (key_sign (sg_key s) (rev h)) as [sg|e|] eqn:K; cbn [bind] in Sc; try discriminate Sc. injection Sc as <-. exists i0, (rev h), sg. auto.
Qed.
Lemma lie_through t u s u' s' i1 : sig_tx t -> key_sizes (sg_key s) 1 9 -> used_flag s < 256 -> tx_sign u 0 s = Ok (u', s', None) ->
  nth_error (inputs t) 0 = Some (Some i1) -> prev_txid i1 <> [] -> prev_script i1 = Some (p2pkh (hash160 (key_pub (sg_key s)))) ->
  exists j t2 i2, nth_error (inputs u') 0 = Some (Some j) /\ resigned t t2 /\ nth_error (inputs t2) 0 = Some (Some i2) /\ unlocking i2 = unlocking j /\ accepted (fun _ _ _ => True) t2 0.
Proof.
  intros W (LP & KS) Bf SG N1 X S. destruct (sign_shape _ _ _ _ _ SG) as (i0 & d & sg & N0 & K & ->). change (N.to_nat 0) with 0%nat in *.
  set (v := fst (p2pkh_unlocking_script (key_pub (sg_key s)) sg (used_flag s))).
  assert (N2 : nth_error (inputs (set_script t 0 i1 v)) 0 = Some (Some (with_script i1 v))) by (unfold set_script; cbn [inputs]; eapply nth_error_set_eq, N1).
  exists (with_script i0 v), (set_script t 0 i1 v), (with_script i1 v). split; [unfold set_script; cbn [inputs]; eapply nth_error_set_eq, N0|]. split; [apply set_script_resigned, N1|].
  split; [exact N2|]. split; [reflexivity|]. apply (any_accepted _ 0 i1 (key_pub (sg_key s)) sg (used_flag s)); try assumption.
  - destruct W as (A1 & A2 & A3). split; [|split; [exact A2|exact A3]]. unfold set_script. cbn [inputs]. destruct (inputs t) as [|x l]; [discriminate N1|]. cbn [nth_error] in N1. injection N1 as ->.
    cbn [set_nth]. inversion A1 as [|? ? (y & Y1 & Y2) A1']; subst. constructor; [|exact A1']. eexists. split; [reflexivity|]. injection Y1 as <-. exact Y2.
  - apply nth_error_Some. rewrite N2. discriminate.
  - reflexivity.
  - destruct (KS _ _ K) as (_ & Q). unfold nlen. lia.
  - unfold nlen. rewrite LP. reflexivity.
Qed.
Lemma ex92_signs : exists u', tx_sign (fill (bare_tx ex92_t) ex92_lie) 0 (mk_signer ex63_key 0) = Ok (u', mk_signer ex63_key 65, None).
Proof. eexists. vm_compute. reflexivity. Qed.
Example C92_lie_example : full_tx ex92_t /\ full_tx (fill (bare_tx ex92_t) ex92_lie) /\
  exists i u' j t2 i2, nth_error (inputs ex92_t) 0 = Some (Some i) /\ prev_script i = Some (p2pkh (hash160 ex63_pub)) /\ prev_sats i = 1000 /\
    tx_sign (fill (bare_tx ex92_t) ex92_lie) 0 (mk_signer ex63_key 0) = Ok (u', mk_signer ex63_key 65, None) /\ nth_error (inputs u') 0 = Some (Some j) /\
    resigned ex92_t t2 /\ nth_error (inputs t2) 0 = Some (Some i2) /\ unlocking i2 = unlocking j /\ accepted (fun _ _ _ => True) t2 0.
Proof.
  destruct ex92_full as (F1 & F2). destruct ex92_signs as (u' & SG). split; [exact F1|]. split; [exact F2|].
  destruct ex92_shape as (i1 & i2 & os & Et & E1 & _ & _).
  assert (N1 : nth_error (inputs ex92_t) 0 = Some (Some i1)) by (rewrite Et; reflexivity).
  assert (X : prev_txid i1 <> []) by (rewrite E1; apply hex32_nonempty; reflexivity).
  assert (S1 : prev_script i1 = Some (p2pkh (hash160 ex63_pub))) by (rewrite E1; reflexivity).
  destruct (lie_through ex92_t _ (mk_signer ex63_key 0) u' _ i1 (full_sig _ F1) ex91_sizes eq_refl SG N1 X S1) as (j & t2 & j2 & H1 & H2 & H3 & H4 & H5).
  exists i1, u', j, t2, j2. split; [exact N1|]. split; [exact S1|]. split; [rewrite E1; reflexivity|]. split; [exact SG|]. split; [exact H1|]. split; [exact H2|]. split; [exact H3|]. split; [exact H4|exact H5].
Qed.
