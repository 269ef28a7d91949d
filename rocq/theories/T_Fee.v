(** C91: sizes of transactions and budgets for fees. *)
From Verif Require Import P_Utils P_TxMisc P_TxParse P_TxSer P_Signer P_Flow T_Script T_Tx T_Sighash T_Exact T_Flow T_Chain S_Fee.
From Coq Require Import Lia ZifyBool ZifyNat ZifyN.

Definition in_len (oi : option input) : nat := match oi with Some i => (length (hex_ignore (prev_txid i)) + 8 + script_size (unlocking i))%nat | None => 0%nat end.
Definition out_len (oo : option output) : nat := match oo with Some o => (8 + script_size (locking o))%nat | None => 0%nat end.
Lemma input_len i : length (input_to_bytes i false) = in_len (Some i).
Proof.
  unfold input_to_bytes, in_len, script_size. destruct (unlocking i) as [u|]; cbn [script_bytes]; rewrite ?app_length, ?le_put_length, ?varint_length, ?reverse_bytes_rev, ?rev_length.
  { cbn [length]. lia. }
  change (compact_size (nlen (@nil byte))) with 1%nat. change (compact_size 0) with 1%nat. cbn [length]. lia.
Qed.
Lemma helper_in_len ins : forall h i x w, helper_inputs h i x None ins = Ok w -> length w = (length h + list_sum (map in_len ins))%nat.
Proof.
  induction ins as [|[inp|] r IH]; intros h i x w E; cbn [helper_inputs deref or_panic bind] in E; [injection E as <-; cbn; lia| |discriminate E].
  apply IH in E. rewrite E, app_length, input_len. cbn [map]. change (list_sum (?a :: ?l)) with (a + list_sum l)%nat. lia.
Qed.
Lemma helper_out_len outs : forall h w, helper_outputs h outs = Ok w -> length w = (length h + list_sum (map out_len outs))%nat.
Proof.
  induction outs as [|[o|] r IH]; intros h w E; cbn [helper_outputs deref or_panic bind] in E; [injection E as <-; cbn; lia| |discriminate E].
  destruct (output_to_bytes o) as [b|e|] eqn:Eo; cbn [bind] in E; try discriminate E. apply IH in E. rewrite E, app_length. cbn [map].
  change (list_sum (?a :: ?l)) with (a + list_sum l)%nat. unfold output_to_bytes in Eo. cbv zeta in Eo. cbn [out_len].
  destruct (locking o) as [s|]; cbn [deref or_panic bind] in Eo; [|discriminate Eo]. injection Eo as <-. unfold script_size. cbn [script_bytes].
  cbn [length]. rewrite app_length, varint_length. lia.
Qed.
Lemma tx_len t w : tx_to_bytes t = Ok w ->
  length w = (8 + compact_size (nlen (inputs t)) + compact_size (nlen (outputs t)) + list_sum (map in_len (inputs t)) + list_sum (map out_len (outputs t)))%nat.
Proof.
  unfold tx_to_bytes, to_bytes_helper. cbv zeta. intros E.
  destruct (helper_inputs _ 0 0 None (inputs t)) as [a|e|] eqn:Ei; cbn [bind] in E; try discriminate E. apply helper_in_len in Ei.
  destruct (helper_outputs _ (outputs t)) as [b|e|] eqn:Eo; cbn [bind] in E; try discriminate E. apply helper_out_len in Eo. injection E as <-.
  rewrite app_length, Eo, app_length, Ei.
  rewrite ?app_length, ?le_put_length, ?varint_length.
  cbn [length]. lia.
Qed.
Lemma sum_add a b : list_sum (a ++ b) = (list_sum a + list_sum b)%nat. Proof. apply list_sum_app. Qed.
Lemma nlen_of {A} (l : list A) : nlen l = N.of_nat (length l). Proof. reflexivity. Qed.

(** ** one call *)
(** A call that succeeds makes the transaction longer by what it adds, and by the growth of the count. *)
Theorem C91_call t c t' w w' : tx_to_bytes t = Ok w -> tx_do t c = (t', None) -> tx_to_bytes t' = Ok w' ->
  match c with
  | CallFrom txid _ _ _ => forall id, hex_dec txid = Some id -> length id = 32%nat ->
      (length w' + compact_size (nlen (inputs t)) = length w + 41 + compact_size (nlen (inputs t) + 1))%nat
  | CallPayTo _ _ => (length w' + compact_size (nlen (outputs t)) = length w + 34 + compact_size (nlen (outputs t) + 1))%nat
  | CallAddOutput oo => forall o, oo = Some o ->
      (length w' + compact_size (nlen (outputs t)) = length w + 8 + script_size (locking o) + compact_size (nlen (outputs t) + 1))%nat
  | CallAddInput oi => forall i id, oi = Some i -> hex_dec (prev_txid i) = Some id -> length id = 32%nat ->
      (length w' + compact_size (nlen (inputs t)) = length w + 40 + script_size (unlocking i) + compact_size (nlen (inputs t) + 1))%nat
  end.
Proof.
  intros E D E'. apply tx_len in E, E'. destruct (asks_total c) as (a & A). destruct (tx_do_eq t c a A) as (F & Sx). rewrite D in F, Sx. cbn [fst snd] in F, Sx.
  subst t'. unfold extended in E'. cbn [inputs outputs] in E'. rewrite !map_app, !sum_add in E'.
  assert (NL : forall {A} (l : list A) x, nlen (l ++ [x]) = nlen l + 1) by (intros B l x; unfold nlen; rewrite app_length; cbn; lia).
  assert (CS : compact_size 0 = 1%nat) by reflexivity.
  destruct A as [txid vout script sats s H|txid vout script sats H|i|o|addr sats a h H H'|addr sats H]; cbn [asked_inputs asked_outputs map app] in E'; rewrite ?app_nil_r, ?NL in E'.
  - intros id Hx Lx. cbn [in_len prev_txid unlocking list_sum fold_right] in E'. rewrite (hex_dec_ignore _ _ Hx), Lx in E'. change (script_size None) with 1%nat in E'. lia.
  - exfalso. destruct Sx as (Sx & _). now apply Sx.
  - intros j id -> Hx Lx. cbn [in_len list_sum fold_right] in E'. rewrite (hex_dec_ignore _ _ Hx), Lx in E'. lia.
  - intros p ->. cbn [out_len list_sum fold_right] in E'. lia.
  - destruct (C13_from_address addr a H) as (h' & Lh & Eh & _). rewrite H' in Eh. apply hex_encode_inj in Eh. subst h'.
    cbn [out_len locking list_sum fold_right] in E'. unfold script_size in E'. cbn [script_bytes] in E'. rewrite (p2pkh_length h Lh) in E'.
    assert (L25 : length (p2pkh h) = 25%nat) by (pose proof (p2pkh_length h Lh) as X; unfold nlen in X; lia). rewrite L25 in E'. change (compact_size 25) with 1%nat in E'. lia.
  - exfalso. destruct Sx as (Sx & _). now apply Sx.
Qed.

(** Signing makes it longer by the new script of that input and shorter by the old one. *)
Lemma sum_set k : forall (l l' : list (option input)) x y, nth_error l k = Some x -> nth_error l' k = Some y -> length l' = length l ->
  (forall j, j <> k -> nth_error l' j = nth_error l j) -> (list_sum (map in_len l') + in_len x = list_sum (map in_len l) + in_len y)%nat.
Proof.
  induction k as [|k IH]; intros [|a l] [|b l'] x y X Y L H; try discriminate; cbn [nth_error] in X, Y; cbn [map]; change (list_sum (?a :: ?l)) with (a + list_sum l)%nat.
  - injection X as ->. injection Y as ->. assert (l' = l) as ->; [|lia]. injection L as L. clear -H L. revert l L H. induction l' as [|u l' IH]; intros [|v l] L H; try discriminate L; [reflexivity|].
    assert (Hd := H 1%nat ltac:(discriminate)). cbn in Hd. injection Hd as ->. f_equal. apply IH; [now injection L|]. intros [|j] D; [contradiction|]. apply (H (S (S j))). discriminate.
  - assert (Hd := H 0%nat ltac:(discriminate)). cbn in Hd. injection Hd as ->. injection L as L. assert (X2 := IH l l' x y X Y L (fun j D => H (S j) (fun Q => D (f_equal pred Q)))). lia.
Qed.
Lemma short_header a n : n <= 75 -> shortest_header a n -> length a = 1%nat.
Proof.
  intros H (A & M). assert (X : (length a <= 1)%nat).
  { apply (M [n2b n]). assert (E : b2n (n2b n) = n) by (rewrite b2n_n2b; apply N.mod_small; lia). rewrite <- E at 2. apply an_direct. rewrite E. exact H. }
  destruct A; cbn [length] in *; lia.
Qed.
Theorem C91_sign t n s t' s' w w' i sg : sg_flag s < 256 -> n < 2 ^ 32 -> tx_sign t n s = Ok (t', s', None) ->
  tx_to_bytes t = Ok w -> tx_to_bytes t' = Ok w' -> nth_error (inputs t) (N.to_nat n) = Some (Some i) ->
  (exists h, get_input_signature_hash t n (if sg_flag s =? 0 then 65 else sg_flag s) = Ok h /\ key_sign (sg_key s) (rev h) = Ok sg) ->
  (length sg <= 74)%nat -> (length (key_pub (sg_key s)) <= 75)%nat ->
  (length w' + script_size (unlocking i) = length w + 4 + length sg + length (key_pub (sg_key s)))%nat.
Proof.
  intros Fl Nl Sg E E' Ni (h & Hh & Hs) L1 L2. destruct (C39_bytes t n s t' s' Fl Nl Sg) as (h2 & sg2 & u & Eh & Es & U & B).
  rewrite Hh in Eh. injection Eh as <-. rewrite Hs in Es. injection Es as <-. cbv zeta in B.
  set (f := if sg_flag s =? 0 then 65 else sg_flag s) in *. set (pub := key_pub (sg_key s)) in *.
  assert (LS : nlen (sg ++ [n2b f]) = N.of_nat (length sg) + 1) by (unfold nlen; rewrite app_length; cbn [length]; lia).
  destruct B as (a & b & Eu & Ha & Hb); [rewrite LS; lia|unfold nlen; lia|].
  apply short_header in Ha; [|rewrite LS; lia]. apply short_header in Hb; [|unfold nlen; lia].
  destruct U as (_ & Eo & _ & Li & Oth & i' & Ni' & Nt). rewrite Ni in Ni'. injection Ni' as <-.
  apply tx_len in E, E'. pose proof (sum_set _ _ _ _ _ Ni Nt Li Oth) as X. cbn [in_len prev_txid unlocking] in X.
  assert (SU : script_size (Some u) = (4 + length sg + length pub)%nat).
  { unfold script_size. cbn [script_bytes]. rewrite Eu. unfold nlen. rewrite !app_length, Ha, Hb. cbn [length]. unfold compact_size.
    destruct (N.leb_spec (N.of_nat (1 + (length sg + 1 + (1 + length pub)))) 252); lia. }
  rewrite SU in X. unfold nlen in E'. rewrite Li in E'. rewrite Eo in E'. fold (nlen (inputs t)) in E'. fold (nlen (outputs t)) in E'. unfold nlen in *. lia.
Qed.

(** ** a wallet's transaction before it is signed *)
Definition fresh_in pub (oi : option input) : Prop :=
  exists id vout sats, oi = Some (mk_in (hex_encode id) vout sats (Some (p2pkh (hash160 pub))) None (2 ^ 32 - 1)) /\ length id = 32%nat /\ vout < 2 ^ 32 /\ sats < 2 ^ 64.
Definition fresh_out (oo : option output) : Prop := exists h sats, oo = Some (mk_out sats (Some (p2pkh h))) /\ length h = 20%nat /\ sats < 2 ^ 64.
Lemma fresh_outs_len l : Forall fresh_out l -> list_sum (map out_len l) = (34 * length l)%nat.
Proof.
  induction 1 as [|oo l (h & sats & -> & L & _) _ IH]; [reflexivity|]. cbn [map length]. change (list_sum (?a :: ?l)) with (a + list_sum l)%nat. rewrite IH.
  cbn [out_len locking]. unfold script_size. cbn [script_bytes]. rewrite (p2pkh_length h L). pose proof (p2pkh_length h L) as X. unfold nlen in X. change (compact_size 25) with 1%nat. lia.
Qed.
Lemma fresh_ins_len pub l : Forall (fresh_in pub) l -> list_sum (map in_len l) = (41 * length l)%nat.
Proof.
  induction 1 as [|oi l (id & vout & sats & -> & L & _) _ IH]; [reflexivity|]. cbn [map length]. change (list_sum (?a :: ?l)) with (a + list_sum l)%nat. rewrite IH.
  cbn [in_len prev_txid unlocking]. rewrite (hex_dec_ignore _ _ (hex_dec_encode id)), L. change (script_size None) with 1%nat. lia.
Qed.
Lemma asked_counts pub calls : Forall (spend_call pub) calls -> forall asked, Forall2 asks calls asked ->
  length (concat (map asked_inputs asked)) = spends calls /\ length (concat (map asked_outputs asked)) = pays calls.
Proof.
  induction 1 as [|c calls H _ IH]; intros asked A; inversion A as [|? x ? asked' A1 A2]; subst; [split; reflexivity|]. destruct (IH _ A2) as (I1 & I2).
  unfold spends, pays in *. destruct H as [id vout sats L B1 B2|h m sats L B].
  - rewrite (asks_from_inv _ _ _ _ _ _ (hex_dec_encode _) A1). cbn [map asked_inputs asked_outputs concat app points flat_map filter length].
    change (flat_map _ calls) with (points calls). rewrite I1, I2. split; reflexivity.
  - rewrite (asks_pay_inv _ _ _ _ _ (proj1 (addr_round h m L)) (eq_refl : addr_pkh (addr_from_pkh h m) = hex_encode h) A1).
    cbn [map asked_inputs asked_outputs concat app points flat_map filter length]. change (flat_map _ calls) with (points calls). rewrite I1, I2. split; reflexivity.
Qed.
Lemma built pub calls : Forall (spend_call pub) calls -> exists ins outs,
  tx_run tx_new calls = mk_tx 1 ins outs 0 /\ Forall (fresh_in pub) ins /\ Forall fresh_out outs /\ length ins = spends calls /\ length outs = pays calls.
Proof.
  intros F. destruct (spends_asked _ _ F) as (asked & A & _ & FI & FO). exists (concat (map asked_inputs asked)), (concat (map asked_outputs asked)).
  split; [exact (C34_histories calls asked A)|]. split; [exact FI|]. split; [exact FO|]. exact (asked_counts pub calls F asked A).
Qed.
Theorem C91_unsigned pub calls b : Forall (spend_call pub) calls -> tx_to_bytes (tx_run tx_new calls) = Ok b ->
  length b = unsigned_size (spends calls) (pays calls).
Proof.
  intros F E. destruct (built pub calls F) as (ins & outs & R & FI & FO & L1 & L2). apply tx_len in E. rewrite R in E. cbn [inputs outputs] in E.
  rewrite (fresh_ins_len pub _ FI), (fresh_outs_len _ FO) in E. unfold nlen in E. rewrite L1, L2 in E. unfold unsigned_size. lia.
Qed.

(** ** signed *)
Lemma auto_lens verify k calls t' s' oe lo hi : honest verify k -> key_sizes k lo hi -> (hi <= 74)%nat -> Forall (spend_call (key_pub k)) calls -> nlen calls < 2 ^ 31 ->
  tx_sign_auto (tx_run tx_new calls) (mk_signer k 0) = Ok (t', s', oe) ->
  Forall (fun oi => (41 + 36 + lo <= in_len oi <= 41 + 36 + hi)%nat) (inputs t').
Proof.
  intros HK (LP & KS) H74 F B SA. destruct (C64_workflow verify k calls HK F B) as (asked & t1 & b1 & A & SA' & V & LT & FI & FO & AC & TB & RT).
  assert (t1 = t') as -> by congruence. clear SA'. destruct (built _ calls F) as (ins & outs & R & GI & GO & L1 & L2).
  set (t := tx_run tx_new calls) in *. set (s := mk_signer k 0) in *.
  assert (BI : nlen (inputs t) <= 2 ^ 32).
  { rewrite R. cbn [inputs]. unfold nlen in *. rewrite L1. unfold spends. assert (X : (length (points calls) <= length calls)%nat); [|lia].
    clear. unfold points. induction calls as [|c calls IH]; [cbn; lia|]. cbn [flat_map]. rewrite app_length. destruct c; cbn [length]; lia. }
  destruct (sign_do_writes t (DoSignAuto s) t') as (_ & W); [reflexivity|exact BI|cbn [sign_do]; now rewrite SA|].
  apply Forall_forall. intros oi I. apply In_nth_error in I as (n & N).
  assert (Ln : (n < length (inputs t'))%nat) by (apply nth_error_Some; congruence).
  assert (LC : length (inputs t') = length (inputs t)).
  { destruct (auto_resigned t s t' s' oe) as (_ & _ & _ & X); [reflexivity|exact BI|exact SA|]. symmetry. eapply Forall2_length, X. }
  destruct (nth_error (inputs t) n) as [oj|] eqn:Nj; [|apply nth_error_None in Nj; lia].
  assert (GJ : fresh_in (key_pub k) oj). { rewrite R in Nj. cbn [inputs] in Nj. rewrite Forall_forall in GI. apply GI. eapply nth_error_In, Nj. }
  destruct GJ as (id & vout & sats & -> & Lid & _). specialize (W _ _ Nj). rewrite N in W.
  destruct (AC n Ln) as (i & u & sc & st & st' & Ni & Ui & _). rewrite N in Ni. assert (Eoi : oi = Some i) by congruence. subst oi.
  destruct (Verif.P_Flow.writes t (DoSignAuto s) n) as [u'|] eqn:Wr; injection W as ->; [|discriminate Ui].
  cbn [Verif.P_Flow.writes] in Wr. rewrite Nj in Wr. destruct (hit _ _) as [[]|e|]; try discriminate Wr.
  destruct (sig_script s (N.of_nat n) t) as [u2|e|] eqn:Sx; try discriminate Wr. injection Wr as ->.
  unfold sig_script in Sx. destruct (get_input_signature_hash t (N.of_nat n) (used_flag s)) as [h|e|]; cbn [bind] in Sx; try discriminate Sx.
  destruct (key_sign (sg_key s) (rev h)) as [sg|e|] eqn:Ks; cbn [bind] in Sx; try discriminate Sx. injection Sx as <-.
  change (sg_key s) with k in *. destruct (KS _ _ Ks) as (K1 & K2).
  assert (LS : nlen (sg ++ [n2b (used_flag s)]) = N.of_nat (length sg) + 1) by (unfold nlen; rewrite app_length; cbn [length]; lia).
  destruct (C18_bytes (key_pub k) sg (used_flag s)) as (h1 & h2 & -> & S1 & S2); [rewrite LS; lia|unfold nlen; rewrite LP; reflexivity|].
  apply short_header in S1; [|rewrite LS; lia]. apply short_header in S2; [|unfold nlen; rewrite LP; discriminate].
  unfold with_script. cbn [in_len prev_txid unlocking fst]. rewrite (hex_dec_ignore _ _ (hex_dec_encode id)), Lid. unfold script_size. cbn [script_bytes].
  unfold nlen. rewrite !app_length, S1, S2, LP. cbn [length]. unfold compact_size. destruct (N.leb_spec (N.of_nat (1 + (length sg + 1 + (1 + 33)))) 252); lia.
Qed.
Lemma bounded_sum lo hi (l : list (option input)) : Forall (fun oi => (lo <= in_len oi <= hi)%nat) l -> (lo * length l <= list_sum (map in_len l) <= hi * length l)%nat.
Proof. induction 1 as [|x l H _ IH]; [cbn; lia|]. cbn [map length]. change (list_sum (?a :: ?l)) with (a + list_sum l)%nat. lia. Qed.
Theorem C91_signed verify k calls t' s' oe b lo hi : honest verify k -> key_sizes k lo hi -> (hi <= 74)%nat ->
  Forall (spend_call (key_pub k)) calls -> nlen calls < 2 ^ 31 ->
  tx_sign_auto (tx_run tx_new calls) (mk_signer k 0) = Ok (t', s', oe) -> tx_to_bytes t' = Ok b ->
  (unsigned_size (spends calls) (pays calls) + (36 + lo) * spends calls <= length b <= unsigned_size (spends calls) (pays calls) + (36 + hi) * spends calls)%nat.
Proof.
  intros HK KS H74 F B SA E. pose proof (auto_lens verify k calls t' s' oe lo hi HK KS H74 F B SA) as AL. apply bounded_sum in AL. apply tx_len in E.
  destruct (built _ calls F) as (ins & outs & R & GI & GO & L1 & L2).
  assert (X : outputs t' = outs /\ length (inputs t') = length ins).
  { destruct (C40_exact (tx_run tx_new calls) (mk_signer k 0) t' s' oe) as (_ & Eo & _ & El & _); [reflexivity| |exact SA|].
    - rewrite R. cbn [inputs]. unfold nlen in *. rewrite L1. unfold spends. assert (X : (length (points calls) <= length calls)%nat); [|lia].
      clear. unfold points. induction calls as [|c calls IH]; [cbn; lia|]. cbn [flat_map]. rewrite app_length. destruct c; cbn [length]; lia.
    - rewrite Eo, El, R. split; reflexivity. }
  destruct X as (Eo & El). rewrite Eo in E. rewrite (fresh_outs_len _ GO) in E. unfold nlen in E. rewrite El in *. rewrite L1, L2 in *. unfold unsigned_size. lia.
Qed.
Print Assumptions C91_call.
Print Assumptions C91_sign.
Print Assumptions C91_unsigned.
Print Assumptions C91_signed.

(** ** fees *)
(** What the calls put in and do not pay out is what the miner gets, by the node's own knowledge of the
    outputs that are spent; and a fee that was computed for the longest signatures is enough for the
    transaction that is sent. *)
Theorem C91_fee verify known k calls t' s' b : honest verify k -> Forall (wallet_call known (key_pub k)) calls -> nlen calls < 2 ^ 31 -> balanced calls ->
  tx_sign_auto (tx_run tx_new calls) (mk_signer k 0) = Ok (t', s', None) -> tx_to_bytes t' = Ok b -> sized b ->
  node_accepts verify known b /\ node_fee known b (funds calls - payments calls) /\
  (no_collision known -> Forall sized known -> forall fee, node_fee known b fee -> fee = funds calls - payments calls) /\
  (forall lo hi num den, key_sizes k lo hi -> (hi <= 74)%nat ->
     (num * (unsigned_size (spends calls) (pays calls) + (36 + hi) * spends calls) <= den * N.to_nat (funds calls - payments calls))%nat ->
     (num * length b <= den * N.to_nat (funds calls - payments calls))%nat).
Proof.
  intros HK F B BA SA' TB' S.
  assert (Forall (spend_call (key_pub k)) calls) as FS by (eapply Forall_impl; [|exact F]; intros c; apply wallet_spends).
  destruct (C84_accepted verify known k calls HK F B) as (t0 & b0 & SA0 & TB0 & AC0). assert (t0 = t') as -> by congruence. assert (b0 = b) as -> by congruence.
  split; [now apply AC0|].
  destruct (C64_workflow verify k calls HK FS B) as (asked & t1 & b1 & A & SA & V & LT & FI & FO & AC & TB & RT).
  assert (t1 = t') as -> by congruence. assert (b1 = b) as -> by congruence.
  destruct (wallet_asked known (key_pub k) calls asked F A) as (I1 & I2 & I3 & I4 & I5).
  destruct (signed_points _ _ FI) as (P1 & P2 & P3).
  assert (on_wire b (bare_tx t')) as OW' by (apply on_wire_parses; [exact S|]; apply RT, S).
  assert (AM : no_collision known -> Forall sized known -> forall full, Forall2 (looked_up known) (inputs (bare_tx t')) (inputs full) ->
            sum (map amount_in (inputs full)) = funds calls).
  { intros NC SK full LU. cbn [bare_tx inputs] in LU. enough (map amount_in (inputs full) = map amount_in (inputs t')) as E by (rewrite E, P2; exact I3).
    clear - LU FI I1 NC SK. revert LU I1. generalize (inputs full). induction FI as [|x y l l' H _ IH]; intros fl LU I1.
    { cbn [map] in LU. inversion LU. reflexivity. }
    cbn [map] in LU. inversion LU as [|? of ? fl' LU1 LU2]; subst. inversion I1 as [|? ? C1 C2]; subst. cbn [map]. f_equal; [|now apply IH].
    destruct C1 as (id & ix & o & ((b1 & u1 & K1 & D1 & W1 & N1) & _) & _ & _ & ->). destruct y as [y|]; [|contradiction].
    cbn [same_signed_input prev_txid prev_index prev_sats prev_script sequence] in H. destruct H as (H1 & H2 & H3 & _).
    destruct LU1 as (i & o' & id' & E & X & ((b2 & u2 & K2 & D2 & W2 & N2) & _) & ->). cbn [option_map] in E.
    assert (i = bare_input y) as -> by congruence. unfold bare_input in *. cbn [prev_txid prev_index amount_in prev_sats] in *.
    rewrite <- H1 in X. apply hex_encode_inj in X. apply (f_equal (@rev byte)) in X. rewrite !rev_involutive in X. subst id'.
    assert (b2 = b1) as -> by (apply NC; congruence). rewrite Forall_forall in SK.
    assert (u2 = u1) as -> by (eapply on_wire_unique; eauto). rewrite <- H2 in N2. assert (o' = o) as -> by congruence. exact H3. }
  assert (OS : sum (map amount_out (outputs (bare_tx t'))) = payments calls) by (cbn [bare_tx outputs]; rewrite FO; exact I4).
  destruct BA as (_ & _ & _ & BAL). split; [|split].
  - (* the node's view built from the wallet's own coins *)
    exists (bare_tx t'), t'. split; [exact OW'|]. split.
    + cbn [bare_tx inputs]. apply F2_build. intros n y E. destruct (F2_nth _ _ _ FI _ _ E) as (x & Nx & SS).
      rewrite Forall_forall in I1. destruct (I1 _ (nth_error_In _ _ Nx)) as (id & ix & o & UN & LO & Lid & ->). destruct y as [i|]; [|contradiction].
      assert (Ln : (n < length (inputs t'))%nat) by (apply nth_error_Some; congruence).
      destruct (AC n Ln) as (i' & u & sc & st & st' & Ni & U & _). assert (i' = i) as -> by congruence.
      cbn [same_signed_input prev_txid prev_index prev_sats prev_script sequence] in SS. destruct SS as (S1 & S2 & S3 & S4 & S5).
      exists (bare_input i), o, id. split; [reflexivity|]. unfold bare_input. cbn [prev_txid prev_index unlocking sequence].
      split; [now symmetry|]. split; [rewrite <- S2; exact UN|]. rewrite U. cbn [script_bytes].
      destruct i as [a1 a2 a3 a4 a5 a6]. cbn in *. subst. rewrite LO. reflexivity.
    + rewrite OS, P2, I3. lia.
  - intros NC SK fee (t & full & OW & LU & Eq). assert (t = bare_tx t') as -> by (eapply on_wire_unique; eassumption).
    rewrite OS, (AM NC SK full LU) in Eq. lia.
  - intros lo hi num den KS H74 Bud. destruct (C91_signed verify k calls t' s' None b lo hi HK KS H74 FS B SA' TB') as (_ & Up). nia.
Qed.
Print Assumptions C91_fee.

(** The bytes before signing are no measure: the signed transaction is longer by the scripts, so that a
    fee for the unsigned bytes at an exact rate is too low as soon as anything is spent. *)
Theorem C91_unsigned_budget verify k calls t' s' oe w b lo hi : honest verify k -> key_sizes k lo hi -> (hi <= 74)%nat ->
  Forall (spend_call (key_pub k)) calls -> nlen calls < 2 ^ 31 -> tx_to_bytes (tx_run tx_new calls) = Ok w ->
  tx_sign_auto (tx_run tx_new calls) (mk_signer k 0) = Ok (t', s', oe) -> tx_to_bytes t' = Ok b ->
  (length w + (36 + lo) * spends calls <= length b)%nat /\
  (points calls <> [] -> forall num, (0 < num)%nat -> (num * length w < num * length b)%nat).
Proof.
  intros HK KS H74 F B E SA E'. destruct (C91_signed verify k calls t' s' oe b lo hi HK KS H74 F B SA E') as (Lo & _).
  rewrite <- (C91_unsigned (key_pub k) calls w F E) in Lo. split; [exact Lo|]. intros NE num Hn.
  assert (X : (0 < spends calls)%nat) by (unfold spends; destruct (points calls); [contradiction|cbn; lia]). nia.
Qed.
Print Assumptions C91_unsigned_budget.

(** What GetTotalOutputSatoshis says of the signed transaction: the payments, if they are below 2^64. *)
Theorem C91_total verify k calls t' s' oe : honest verify k -> Forall (spend_call (key_pub k)) calls -> nlen calls < 2 ^ 31 ->
  tx_sign_auto (tx_run tx_new calls) (mk_signer k 0) = Ok (t', s', oe) ->
  total_output_satoshis t' = Ok (payments calls mod 2 ^ 64).
Proof.
  intros HK F B SA'. destruct (C64_workflow verify k calls HK F B) as (asked & t1 & b1 & A & SA & V & LT & FI & FO & AC & TB & RT).
  assert (t1 = t') as -> by congruence.
  assert (X : exists os, concat (map asked_outputs asked) = map Some os /\ fold_right (fun o n => satoshis o + n) 0 os = payments calls).
  { clear -F A. revert asked A. induction F as [|c calls H _ IH]; intros asked A; inversion A as [|? x ? asked' A1 A2]; subst; [exists []; split; reflexivity|].
    destruct (IH _ A2) as (os & E1 & E2). destruct H as [id vout sats L B1 B2|h m sats L B].
    - rewrite (asks_from_inv _ _ _ _ _ _ (hex_dec_encode _) A1). cbn [map asked_outputs concat app]. exists os. split; [exact E1|exact E2].
    - rewrite (asks_pay_inv _ _ _ _ _ (proj1 (addr_round h m L)) (eq_refl : addr_pkh (addr_from_pkh h m) = hex_encode h) A1).
      cbn [map asked_outputs concat app]. exists (mk_out sats (Some (p2pkh h)) :: os). split; [cbn [map]; now rewrite E1|]. cbn [fold_right satoshis]. rewrite E2. reflexivity. }
  destruct X as (os & E1 & E2). rewrite <- E2. apply C32_total. congruence.
Qed.
Print Assumptions C91_total.

Lemma ex91_sizes : key_sizes ex63_key 1 9.
Proof.
  split; [reflexivity|]. intros d sg E. assert (Ok sg = Ok (x30 :: firstn 8 d)) as X by (rewrite <- E; reflexivity).
  assert (sg = x30 :: firstn 8 d) as -> by congruence. clear. change (length (x30 :: firstn 8 d)) with (S (length (firstn 8 d))). rewrite firstn_length. lia.
Qed.
Lemma ex91_fee a a' b b' : wf_tx a -> tx_to_bytes a = Ok b -> nth_error (outputs a) 0 = Some (Some (mk_out 1000 (Some (p2pkh (hash160 ex63_pub))))) ->
  (length b <? 1000)%nat = true -> spentb [b] (ok_or [] (tx_id a), 0) = false ->
  tx_sign_auto (tx_run tx_new (ex84_calls a 1000)) (mk_signer ex63_key 0) = Ok (a', mk_signer ex63_key 65, None) ->
  tx_to_bytes a' = Ok b' -> (length b' <? 1000)%nat = true -> node_fee [b] b' 100.
Proof.
  intros W E N S U SA E' S'. apply sized1 in S, S'. assert (ex84_b a = b) as Eb by (unfold ex84_b; now rewrite E).
  destruct (ex84_wallet [b] a 1000 W) as (C & BA); try assumption; try (rewrite Eb; assumption); [rewrite Eb; now left|lia|reflexivity|now constructor|].
  exact (proj1 (proj2 (C91_fee ex84_verify [b] ex63_key _ a' _ b' ex84_honest C eq_refl BA SA E' S'))).
Qed.
(** A wallet of one output of 1000 that pays 900: 85 bytes before signing, 130 after, a fee of 100. *)
Example C91_example : let b := ex84_b ex84_a1 in
  key_sizes ex63_key 1 9 /\ unsigned_size 1 1 = 85%nat /\ length b = 130%nat /\
  node_fee [ex84_b ex84_a0] b 100 /\
  spends (ex84_calls ex84_a0 1000) = 1%nat /\ pays (ex84_calls ex84_a0 1000) = 1%nat /\ funds (ex84_calls ex84_a0 1000) - payments (ex84_calls ex84_a0 1000) = 100.
Proof.
  intros b. split; [exact ex91_sizes|]. split; [reflexivity|]. split; [vm_compute; reflexivity|]. split; [|split; [reflexivity|split; reflexivity]].
  destruct ex84_facts as (F1 & F2 & F3 & F4). destruct ex84_facts1 as (F5 & F6 & _).
  exact (ex91_fee _ _ _ _ ex84_wf0 F1 eq_refl F2 F3 F4 F5 F6).
Qed.
