(** C105: methods called through nil pointers. *)
From Verif Require Import S_Nil P_Push P_Errors P_TxMisc T_Crash.
From Coq Require Import Lia ZifyBool ZifyNat ZifyN.

Lemma strs_id (l : list bytes) : forall a, fold_left (fun acc t => acc ++ [t]) l a = a ++ l.
Proof. induction l as [|x l IH]; intros a; cbn [fold_left]; [now rewrite app_nil_r|]. rewrite IH, <- app_assoc. reflexivity. Qed.

Lemma append_cases (l : list bytes) :
  ((forall d, In d l -> nlen d < 2 ^ 32) /\ exists b, encode_parts l = Ok b) \/
  (~ (forall d, In d l -> nlen d < 2 ^ 32) /\ exists e, encode_parts l = Err e).
Proof.
  change (2 ^ 32) with 4294967296. destruct (encode_parts l) as [b|e|] eqn:E.
  - left. split; [apply (encode_parts_inv _ _ E)|now exists b].
  - right. split; [|now exists e]. intros H. rewrite encode_parts_spec in E by exact H. discriminate E.
  - now apply encode_np in E.
Qed.

(** Through a pointer that is not nil every one of these methods does what it does. *)
Theorem C105_live :
  (forall t c, p_do (Some t) c = Ok (Some (fst (tx_do t c)), snd (tx_do t c))) /\
  (forall t cs, p_run (Some t) cs = Ok (Some (tx_run t cs))) /\
  (forall s c, p_call (Some s) c = Ok (Some (fst (run_call s c)), snd (run_call s c))) /\
  (forall H rs x path, p_add_public_key H (Some rs) x path =
     ('(rs', e) <- add_public_key H rs x path ;; Ok (Some rs', e))).
Proof.
  assert (forall t c, p_do (Some t) c = Ok (Some (fst (tx_do t c)), snd (tx_do t c))) as D.
  { intros t [txid vout s sats|i|o|a sats]; cbn [p_do tx_do]; try reflexivity.
    - unfold p_from, tx_from_utxo. destruct (script_from_hex s) as [pts|e|] eqn:E; try reflexivity.
      unfold script_from_hex in E. now apply of_hex_no_panic in E.
    - unfold p_pay_to, tx_pay_to. destruct (output_p2pkh_from_address a sats) as [o|e|] eqn:E; try reflexivity.
      destruct (C102_never a [] [] [] [] sats 0 0 0 false) as (_ & _ & _ & _ & _ & _ & _ & _ & _ & _ & _ & _ & H & _). contradiction. }
  split; [exact D|]. split; [|split].
  - intros t cs. revert t. induction cs as [|c cs IH]; intros t; cbn [p_run]; [reflexivity|].
    rewrite D. cbn [bind]. rewrite IH. reflexivity.
  - assert (forall s l, p_append_array (Some s) l = Ok (Some (fst (append_push_data_array s l)), snd (append_push_data_array s l))) as A.
    { intros s l. unfold p_append_array, append_push_data_array. destruct (encode_parts l) as [b|e|] eqn:E; try reflexivity. now apply encode_np in E. }
    intros s [d|h|t|l|l|o]; cbn [p_call run_call]; try apply A.
    + unfold append_push_data_hex. destruct (of_hex h) as [d|e|] eqn:E; try reflexivity; [apply A|now apply of_hex_no_panic in E].
    + reflexivity.
  - intros H rs x path. unfold p_add_public_key, add_public_key. destruct path as [|i [|j [|k r] ] ]; try reflexivity.
    destruct (hd_derive H x i j); reflexivity.
Qed.
Print Assumptions C105_live.

(** Through nil, a call on a transaction whose arguments are in order stops the program; with other
    arguments it returns the error it returns on every transaction. *)
Theorem C105_tx : forall c,
  (tx_in_order c -> p_do None c = Panic /\ forall t, snd (tx_do t c) = None) /\
  (~ tx_in_order c -> exists e, p_do None c = Ok (None, Some e) /\ forall t, tx_do t c = (t, Some e)).
Proof.
  intros [txid vout s sats|i|o|a sats]; cbn [tx_in_order p_do tx_do].
  - unfold p_from, tx_from_utxo, script_from_hex. destruct (of_hex s) as [p|e|] eqn:E.
    + split; [split; reflexivity|]. intros H. apply of_hex_ok in E. destruct H. now exists p.
    + split; [|intros _; exists e; split; reflexivity]. intros (p & H). apply of_hex_ok in H. rewrite H in E. discriminate E.
    + now apply of_hex_no_panic in E.
  - split; [split; reflexivity|]. intros H. now destruct H.
  - split; [split; reflexivity|]. intros H. now destruct H.
  - destruct (asks_total (CallPayTo a sats)) as (q & Q). inversion Q as [| | | |a' sats' ad h A Eh|a' sats' A]; subst.
    + unfold p_pay_to, tx_pay_to. rewrite (pay_to_ok _ _ _ _ A Eh). split; [split; reflexivity|]. intros H. destruct H. now exists ad.
    + unfold p_pay_to, tx_pay_to, output_p2pkh_from_address. destruct (p2pkh_address_err a A) as [e ->]. cbn [bind]. split.
      * intros (ad & H). now apply A in H.
      * intros _. exists e. split; reflexivity.
Qed.
Print Assumptions C105_tx.

(** A program that ignores errors and calls through nil gets nowhere: all its calls are refused, or it stops. *)
Theorem C105_run : forall cs,
  (p_run None cs = Ok None <-> Forall (fun c => ~ tx_in_order c) cs) /\
  (p_run None cs = Panic <-> Exists tx_in_order cs).
Proof.
  induction cs as [|c cs (IH1 & IH2)]; cbn [p_run].
  - split; [split; [constructor|reflexivity]|]. split; [discriminate|]. intros H. inversion H.
  - assert (tx_in_order c \/ ~ tx_in_order c) as [O|O].
    { destruct c as [txid vout s sats|i|o|a sats]; cbn [tx_in_order]; try (left; exact I).
      - destruct (hex_dec s) as [b|]; [left; now exists b|right; intros (b & H); discriminate H].
      - destruct (addr_from_string a) as [x|e|]; [left; now exists x|right; intros (b & H); discriminate H|right; intros (b & H); discriminate H]. }
    + destruct (proj1 (C105_tx c) O) as (E & _). rewrite E. cbn [bind]. split; split.
      * discriminate.
      * intros H. inversion H; subst. contradiction.
      * intros _. now left.
      * reflexivity.
    + destruct (proj2 (C105_tx c) O) as (e & E & _). rewrite E. cbn [bind]. split.
      * rewrite IH1. split; intros H; [constructor; assumption|inversion H; assumption].
      * rewrite IH2. split; intros H; [now right|]. inversion H; subst; [contradiction|assumption].
Qed.
Print Assumptions C105_run.

(** The same of scripts: even a call with nothing to append stops the program. *)
Theorem C105_script : forall c,
  (in_order c -> p_call None c = Panic /\ forall s, snd (run_call s c) = None) /\
  (~ in_order c -> exists e, p_call None c = Ok (None, Some e) /\ forall s, run_call s c = (s, Some e)).
Proof.
  assert (forall l, ((forall d, In d l -> nlen d < 2 ^ 32) -> p_append_array None l = Panic /\ forall s, snd (append_push_data_array s l) = None) /\
    (~ (forall d, In d l -> nlen d < 2 ^ 32) -> exists e, p_append_array None l = Ok (None, Some e) /\ forall s, append_push_data_array s l = (s, Some e))) as A.
  { intros l. unfold p_append_array, append_push_data_array. destruct (append_cases l) as [(H & b & ->)|(H & e & ->)].
    - split; [intros _; split; reflexivity|contradiction].
    - split; [contradiction|]. intros _. exists e. split; reflexivity. }
  assert (forall c l, asked_pushes c = Some l -> in_order c <-> (forall d, In d l -> nlen d < 2 ^ 32)) as I.
  { intros c l E. unfold in_order. rewrite E. split; [intros (l' & E' & H); now injection E' as <-|]. intros H. now exists l. }
  intros [d|h|t|l|l|o].
  - rewrite (I (CPush d) [d] eq_refl). apply A.
  - cbn [p_call run_call]. unfold append_push_data_hex. destruct (of_hex h) as [d|e|] eqn:E.
    + rewrite (I (CPushHex h) [d]); [apply A|]. apply of_hex_ok in E. cbn [asked_pushes]. now rewrite E.
    + split; [|intros _; exists e; split; reflexivity]. intros (l & H & _). cbn [asked_pushes] in H.
      destruct (hex_dec h) as [b|] eqn:E'; [|discriminate H]. apply of_hex_ok in E'. rewrite E' in E. discriminate E.
    + now apply of_hex_no_panic in E.
  - rewrite (I (CPushString t) [t] eq_refl). apply A.
  - rewrite (I (CPushArray l) l eq_refl). apply A.
  - rewrite (I (CPushStrings l) l eq_refl). cbn [p_call run_call]. unfold append_push_data_strings. rewrite strs_id. apply A.
  - split; [intros _; split; reflexivity|]. intros H. destruct H. exists []. split; [reflexivity|]. intros d [].
Qed.
Print Assumptions C105_script.

(** The same of redeem scripts: the key is looked at first, whatever the key library says of it. *)
Theorem C105_redeem : forall H x path,
  (forall e, p_add_public_key H None x path = Ok (None, Some e) <-> forall rs, add_public_key H rs x path = Ok (rs, Some e)) /\
  (p_add_public_key H None x path = Panic <->
     (exists i j, path = [i; j] /\ hd_derive H x i j = Panic) \/ (exists i j k, path = [i; j] /\ hd_derive H x i j = Ok k)) /\
  (forall p e, p_add_public_key H None x path = Ok (p, e) -> p = None /\ e <> None).
Proof.
  intros H x path. unfold p_add_public_key, add_public_key. destruct path as [|i [|j [|k r] ] ].
  1,2,4: split; [intros e; split; [intros E rs; now injection E as <-|intros E; specialize (E (mk_rs 0 [])); now injection E as <-]|];
    split; [split; [discriminate|intros [(a & b & E & _)|(a & b & c & E & _)]; discriminate E]|
            intros p e E; injection E as <- <-; split; [reflexivity|discriminate] ].
  destruct (hd_derive H x i j) as [k|e|] eqn:E; split.
  - intros e. split; [intros Q; discriminate Q|]. intros Q. specialize (Q (mk_rs 0 [])). discriminate Q.
  - split; [split; [intros _; right; exists i, j, k; split; [reflexivity|exact E]|reflexivity]|]. intros p e Q. discriminate Q.
  - intros e'. split; [intros Q rs; injection Q as <-; reflexivity|]. intros Q. specialize (Q (mk_rs 0 [])). injection Q as <-. reflexivity.
  - split; [split; [discriminate|]|].
    + intros [(a & b & Q & Q')|(a & b & c & Q & Q')]; injection Q as <- <-; rewrite E in Q'; discriminate Q'.
    + intros p e' Q. injection Q as <- <-. split; [reflexivity|discriminate].
  - intros e. split; [intros Q; discriminate Q|]. intros Q. specialize (Q (mk_rs 0 [])). discriminate Q.
  - split; [split; [intros _; left; exists i, j; split; [reflexivity|exact E]|reflexivity]|]. intros p e Q. discriminate Q.
Qed.
Print Assumptions C105_redeem.

(** Reading and signing through nil stop the program; only asking a script for its key hash is refused. *)
Theorem C105_readers :
  (forall m, p_read None m = Panic) /\ (forall i s, p_sign None i s = Panic) /\ (forall s, p_sign_auto None s = Panic) /\
  (forall m, m <> SPublicKeyHash -> p_script_read None m = Panic) /\ p_script_read None SPublicKeyHash = Err EScriptEmpty.
Proof.
  split; [reflexivity|]. split; [reflexivity|]. split; [reflexivity|]. split; [|reflexivity].
  intros [] H; try reflexivity. now destruct H.
Qed.
Print Assumptions C105_readers.

(** Through other pointers they end as the methods do; a nil script is not an empty one. *)
Theorem C105_readers_live : forall t s,
  (p_read (Some t) RToBytes = Panic <-> tx_to_bytes t = Panic) /\ (p_read (Some t) RTxID = Panic <-> tx_id t = Panic) /\
  (p_read (Some t) RTotal = Panic <-> total_output_satoshis t = Panic) /\ (p_read (Some t) RIsCoinbase = Panic <-> is_coinbase t = Panic) /\
  (forall i f, p_read (Some t) (RSigHash i f) = Panic <-> get_input_signature_hash t i f = Panic) /\
  p_read (Some t) RInputCount = Ok tt /\ p_read (Some t) ROutputCount = Ok tt /\
  (p_script_read (Some s) SToASM = Panic <-> script_to_asm s = Panic) /\ (p_script_read (Some s) SIsData = Panic <-> is_data s = Panic) /\
  p_script_read (Some []) SToASM = Ok tt /\ p_script_read (Some s) SToString = Ok tt /\ p_script_read (Some s) SIsP2PKH = Ok tt.
Proof.
  assert (forall A (r : res A), (_ <- r ;; Ok tt) = Panic <-> r = Panic) as D.
  { intros A [a|e|]; cbn [bind]; split; intros H; solve [discriminate H|reflexivity]. }
  intros t s. unfold p_read, p_script_read, at_ptr, or_panic. cbn [bind].
  split; [apply D|]. split; [apply D|]. split; [apply D|]. split; [apply D|]. split; [intros i f; apply D|].
  split; [reflexivity|]. split; [reflexivity|]. split; [apply D|]. split; [apply D|]. split; [reflexivity|]. split; reflexivity.
Qed.
Print Assumptions C105_readers_live.

(** Signers: with a key, as before; a nil signer stops the program; a signer without a key still refuses an input that
    cannot be signed, with the error any key gives, and stops the program otherwise; SignAuto then returns only if there
    are no inputs, whether or not one could be signed. *)
Theorem C105_signer :
  (forall t i k f, n_sign t i (Some (mk_nsigner (Some k) f)) =
     ('(t', s', e) <- tx_sign t i (mk_signer k f) ;; Ok (t', mk_nsigner (Some (sg_key s')) (sg_flag s'), e))) /\
  (forall t k f, n_sign_auto t (Some (mk_nsigner (Some k) f)) =
     ('(t', s', e) <- tx_sign_auto t (mk_signer k f) ;; Ok (t', mk_nsigner (Some (sg_key s')) (sg_flag s'), e))) /\
  (forall t i, n_sign t i None = Panic) /\ (forall t, n_sign_auto t None = Panic) /\
  (forall t i f, let f' := if f =? 0 then 0x41 else f in
     (forall r, n_sign t i (Some (mk_nsigner None f)) = Ok r <->
        exists e, get_input_signature_hash t i f' = Err e /\ r = (t, mk_nsigner None f', Some e)) /\
     (forall e k, get_input_signature_hash t i f' = Err e -> tx_sign t i (mk_signer k f) = Ok (t, mk_signer k f', Some e)) /\
     (n_sign t i (Some (mk_nsigner None f)) = Panic <-> forall e, get_input_signature_hash t i f' <> Err e)) /\
  (forall t f, let f' := if f =? 0 then 0x41 else f in
     n_sign_auto t (Some (mk_nsigner None f)) = if Nat.eqb (length (inputs t)) 0 then Ok (t, mk_nsigner None f', None) else Panic).
Proof.
  assert (forall k f, ns_default (mk_nsigner (Some k) f) = mk_nsigner (Some k) (sg_flag (default_flag (mk_signer k f)))) as F.
  { intros k f. unfold ns_default, default_flag. cbn [ns_flag ns_key sg_flag sg_key]. destruct (f =? 0); reflexivity. }
  assert (forall k f, sg_key (default_flag (mk_signer k f)) = k) as K.
  { intros k f. unfold default_flag. cbn [sg_flag sg_key]. destruct (f =? 0); reflexivity. }
  assert (forall k f i t, n_internal_sign (mk_nsigner (Some k) f) i t = internal_sign (mk_signer k f) i t) as S.
  { intros k f i t. unfold n_internal_sign, internal_sign. rewrite F. cbn [ns_flag ns_key at_ptr or_panic bind]. unfold at_ptr, or_panic. cbn [bind]. rewrite K. reflexivity. }
  assert (forall k f i t, n_auto_step (mk_nsigner (Some k) f) i t = sign_auto_step (mk_signer k f) i t) as A.
  { intros k f i t. unfold n_auto_step, sign_auto_step. cbn [ns_key]. unfold at_ptr. cbn [or_panic bind sg_key].
    destruct (or_panic (nth_error (inputs t) (N.to_nat i))) as [oin|e|]; cbn [bind]; [|reflexivity|reflexivity].
    destruct (deref oin) as [inp|e|]; cbn [bind]; [|reflexivity|reflexivity].
    destruct (get_public_key_hash (prev_script inp)) as [h|e|]; cbn [bind]; [| |reflexivity]; rewrite S; reflexivity. }
  assert (forall k f n i t, n_auto_loop (mk_nsigner (Some k) f) i n t = sign_auto_loop (mk_signer k f) i n t) as L.
  { intros k f n. induction n as [|n IH]; intros i t; cbn [n_auto_loop sign_auto_loop]; [reflexivity|]. rewrite A.
    destruct (sign_auto_step (mk_signer k f) i t) as [t'|e|]; cbn [bind]; [apply IH|reflexivity|reflexivity]. }
  assert (forall f, ns_default (mk_nsigner None f) = mk_nsigner None (if f =? 0 then 0x41 else f)) as D.
  { intros f. unfold ns_default. cbn [ns_flag ns_key]. destruct (f =? 0); reflexivity. }
  split; [|split; [|split; [reflexivity|split; [reflexivity|split] ] ] ].
  - intros t i k f. unfold n_sign, at_ptr, tx_sign. cbn [or_panic bind]. rewrite S, F.
    destruct (internal_sign (mk_signer k f) i t); cbn [bind]; rewrite ?K; reflexivity.
  - intros t k f. unfold n_sign_auto, at_ptr, tx_sign_auto, internal_sign_auto. cbn [or_panic bind]. rewrite F, L.
    replace (mk_signer k (sg_flag (default_flag (mk_signer k f)))) with (default_flag (mk_signer k f)).
    2:{ rewrite <- (K k f) at 2. destruct (default_flag (mk_signer k f)); reflexivity. }
    destruct (sign_auto_loop (default_flag (mk_signer k f)) 0 (length (inputs t)) t); cbn [bind]; rewrite ?K; reflexivity.
  - intros t i f f'. assert (n_sign t i (Some (mk_nsigner None f)) =
      match get_input_signature_hash t i f' with Err e => Ok (t, mk_nsigner None f', Some e) | _ => Panic end) as E.
    { unfold n_sign, at_ptr, n_internal_sign. cbn [or_panic bind]. rewrite D. cbn [ns_flag ns_key]. fold f'.
      destruct (get_input_signature_hash t i f'); reflexivity. }
    rewrite E. destruct (get_input_signature_hash t i f') as [h|e|] eqn:G; split; [|split| |split| |split].
    + intros r. split; [intros Q; discriminate Q|]. intros (e & Q & _). discriminate Q.
    + intros e k Q. discriminate Q.
    + split; [intros _ e Q; discriminate Q|reflexivity].
    + intros r. split; [intros Q; injection Q as <-; exists e; split; reflexivity|]. intros (e' & Q & ->). injection Q as <-. reflexivity.
    + intros e' k Q. injection Q as <-. unfold tx_sign, internal_sign.
      assert (default_flag (mk_signer k f) = mk_signer k f') as Df.
      { unfold default_flag, f'. cbn [sg_flag sg_key]. destruct (f =? 0); reflexivity. }
      rewrite Df. cbn [sg_flag]. rewrite G. reflexivity.
    + split; [discriminate|]. intros Q. now destruct (Q e).
    + intros r. split; [intros Q; discriminate Q|]. intros (e & Q & _). discriminate Q.
    + intros e k Q. discriminate Q.
    + split; [intros _ e Q; discriminate Q|reflexivity].
  - intros t f f'. unfold n_sign_auto, at_ptr. cbn [or_panic bind]. rewrite D. fold f'. destruct (length (inputs t)) as [|n] eqn:Ln; cbn [n_auto_loop Nat.eqb bind]; [reflexivity|].
    unfold n_auto_step at 1, at_ptr. cbn [ns_key].
    destruct (or_panic (nth_error (inputs t) (N.to_nat 0))) as [oin|e|] eqn:E1; cbn [bind]; [| |reflexivity].
    2:{ destruct (nth_error (inputs t) (N.to_nat 0)); discriminate E1. }
    destruct oin as [inp|]; [|reflexivity]. change (deref (Some inp)) with (Ok inp). cbn [bind].
    destruct (get_public_key_hash (prev_script inp)); reflexivity.
Qed.
Print Assumptions C105_signer.

(** Concretely. *)
Example C105_example :
  tx_in_order (CallFrom (str "ab") 0 (str "76a9") 5) /\ ~ tx_in_order (CallFrom (str "ab") 0 (str "76a") 5) /\
  p_run None [CallFrom (str "ab") 0 (str "76a") 5; CallPayTo (str "x") 5] = Ok None /\
  p_run None [CallFrom (str "ab") 0 (str "76a") 5; CallFrom (str "ab") 0 [] 5] = Panic /\
  in_order (CPushArray []) /\ p_call None (CPushArray []) = Panic /\ ~ in_order (CPushHex (str "zz")) /\
  (exists e, p_call None (CPushHex (str "zz")) = Ok (None, Some e)) /\
  p_call (Some []) (CPushHex (str "ab")) = Ok (Some [x01; xab], None).
Proof.
  split; [exists [x76; xa9]; vm_compute; reflexivity|]. split; [intros (s & H); vm_compute in H; discriminate H|].
  split; [vm_compute; reflexivity|]. split; [vm_compute; reflexivity|].
  split; [exists []; split; [reflexivity|intros d []]|]. split; [vm_compute; reflexivity|].
  split; [intros (l & H & _); vm_compute in H; discriminate H|]. split; [eexists; vm_compute; reflexivity|]. vm_compute; reflexivity.
Qed.
(** A transaction with an input without the script it spends: refused before the key is looked at; with it: stops. *)
Example C105_signer_example :
  let t := tx_add_input tx_new (Some (mk_in (str "ab") 0 5 None None 0)) in
  let u := tx_add_input tx_new (Some (mk_in (str "ab") 0 5 (Some [x51]) None 0)) in
  (exists e, n_sign t 0 (Some (mk_nsigner None 0)) = Ok (t, mk_nsigner None 0x41, Some e)) /\
  n_sign u 0 (Some (mk_nsigner None 0)) = Panic /\ n_sign t 0 None = Panic /\
  n_sign_auto t (Some (mk_nsigner None 0)) = Panic /\ n_sign_auto tx_new (Some (mk_nsigner None 0)) = Ok (tx_new, mk_nsigner None 0x41, None).
Proof.
  split; [eexists; vm_compute; reflexivity|]. split; [vm_compute; reflexivity|]. split; [reflexivity|]. split; vm_compute; reflexivity.
Qed.
