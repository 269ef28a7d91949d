(** Property theorems C61: Input.String and Output.String. *)
From Verif Require Import P_Text.
From Coq Require Import ZifyBool ZifyNat ZifyN.

Theorem C61_input_text : forall i u, unlocking i = Some u -> exists index len seq,
  num_of 10 index (prev_index i) /\ num_of 10 len (nlen u) /\ num_of 16 seq (sequence i) /\
  input_string i = Ok (
    str "prevTxHash:   " ++ hex_encode (prev_txid i) ++ [x0a] ++
    str "prevOutIndex: " ++ index ++ [x0a] ++
    str "scriptLen:    " ++ len ++ [x0a] ++
    str "script:       &" ++ hex_encode u ++ [x0a] ++
    str "sequence:     " ++ seq ++ [x0a]).
Proof.
  intros i u E. exists (fmt_uint 10 (prev_index i)), (fmt_uint 10 (nlen u)), (fmt_uint 16 (sequence i)).
  split; [apply (fmt_uint_of 10); lia|]. split; [apply (fmt_uint_of 10); lia|]. split; [apply (fmt_uint_of 16); lia|].
  unfold input_string. rewrite E. reflexivity.
Qed.
Print Assumptions C61_input_text.

Theorem C61_output_text : forall o s, locking o = Some s -> exists value len,
  num_of 10 value (satoshis o) /\ num_of 10 len (nlen s) /\
  output_string o = Ok (
    str "value:     " ++ value ++ [x0a] ++
    str "scriptLen: " ++ len ++ [x0a] ++
    str "script:    &" ++ hex_encode s ++ [x0a]).
Proof.
  intros o s E. exists (fmt_uint 10 (satoshis o)), (fmt_uint 10 (nlen s)).
  split; [apply (fmt_uint_of 10); lia|]. split; [apply (fmt_uint_of 10); lia|].
  unfold output_string. rewrite E. reflexivity.
Qed.
Print Assumptions C61_output_text.

(** the numerals in these texts are unique *)
Theorem C61_numerals : forall base s s' n n', (2 <= base <= 16)%nat -> num_of base s n -> num_of base s' n' -> (s = s' <-> n = n').
Proof.
  intros base s s' n n' B H H'. split; [intros ->|intros ->].
  - eapply num_text_fun; [exact B|apply H|apply H'].
  - eapply num_of_unique; eassumption.
Qed.
Print Assumptions C61_numerals.

(** the text determines every field it shows *)
Theorem C61_input_injective : forall i j s, input_string i = Ok s -> input_string j = Ok s ->
  prev_txid i = prev_txid j /\ prev_index i = prev_index j /\ unlocking i = unlocking j /\ sequence i = sequence j.
Proof. exact input_string_inj. Qed.
Print Assumptions C61_input_injective.

Theorem C61_output_injective : forall a b s, output_string a = Ok s -> output_string b = Ok s -> a = b.
Proof. exact output_string_inj. Qed.
Print Assumptions C61_output_injective.

(** printing panics exactly on a nil script: in particular on every unsigned
    input that From, or NewFromUTXO, creates *)
Theorem C61_panics_iff : forall i o,
  (input_string i = Panic <-> unlocking i = None) /\ (output_string o = Panic <-> locking o = None).
Proof.
  intros i o. unfold input_string, output_string. split.
  - destruct (unlocking i); cbn [deref or_panic bind]; split; intros H; (reflexivity || discriminate).
  - destruct (locking o); cbn [deref or_panic bind]; split; intros H; (reflexivity || discriminate).
Qed.
Print Assumptions C61_panics_iff.

Theorem C61_total_refuted : forall t txid vout script sats t', tx_from_utxo t txid vout script sats = (t', None) ->
  exists i, last (inputs t') None = Some i /\ input_string i = Panic.
Proof.
  intros t txid vout script sats t'. unfold tx_from_utxo. destruct (script_from_hex script) as [p|e|] eqn:E; [|discriminate|].
  - intros H. injection H as <-. unfold tx_add_input. cbn [inputs]. rewrite last_last. eexists. split; [reflexivity|]. reflexivity.
  - exfalso. unfold script_from_hex, of_hex in E. destruct (hex_decode script) as [b [e|]]; discriminate.
Qed.
Print Assumptions C61_total_refuted.

Example C61_example :
  input_string (mk_in (str "00ff") 10 7 None (Some [x51; xab]) 4294967295) =
    Ok (str "prevTxHash:   30306666
prevOutIndex: 10
scriptLen:    2
script:       &51ab
sequence:     ffffffff
") /\
  output_string (mk_out 100 (Some [])) = Ok (str "value:     100
scriptLen: 0
script:    &
") /\ num_of 10 (str "100") 100.
Proof.
  split; [vm_compute; reflexivity|]. split; [vm_compute; reflexivity|].
  change (str "100") with (fmt_uint (N.of_nat 10) 100). apply fmt_uint_of. lia.
Qed.
