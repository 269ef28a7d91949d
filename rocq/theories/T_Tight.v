(** Statements added after testing the theorems against wrong programs. *)
From Verif Require Import S_Address P_Bip276 P_TxMisc P_TxParse P_TxSer.
From Coq Require Import ZifyBool ZifyNat ZifyN.

(** C23: the text itself. For network and version in 1..255 it is prefix, colon,
    the two numbers as two hex digits each, the data and the checksum in hex. *)
Theorem C23_text : forall p n v d, (1 <= n <= 255)%Z -> (1 <= v <= 255)%Z ->
  exists payload, payload = p ++ str ":" ++ hex2 n ++ hex2 v ++ hex_encode d /\
    encode_bip276 p n v d = payload ++ hex_encode (firstn 4 (sha256d payload)).
Proof.
  intros p n v d Hn Hv. eexists. split; [reflexivity|]. rewrite (encode_text p n v d Hn Hv).
  change (str ":") with [x3a]. cbn [app]. rewrite <- !app_assoc. cbn [app]. rewrite <- !app_assoc. reflexivity.
Qed.

(** Zero and values above 255 give the text "ERROR". *)
Theorem C23_text_error : forall p n v d, (n = 0 \/ 255 < n \/ v = 0 \/ 255 < v)%Z -> encode_bip276 p n v d = str "ERROR".
Proof.
  intros p n v d H. unfold encode_bip276.
  replace ((v =? 0) || (255 <? v) || (n =? 0) || (255 <? n))%Z with true by lia. reflexivity.
Qed.

(** C34: an input from input.New, added to a transaction, is final (sequence
    number 2^32-1), refers to nothing and has an empty script; it takes 9 bytes on
    the wire instead of 41, so the transaction cannot be read back. *)
Theorem C34_new_input : forall t t', t' = tx_add_input t (Some input_new) ->
  exists i, nth_error (inputs t') (length (inputs t)) = Some (Some i) /\ sequence i = 2 ^ 32 - 1 /\
    prev_txid i = [] /\ prev_index i = 0 /\ prev_sats i = 0 /\ prev_script i = None /\ unlocking i = Some [] /\
    input_to_bytes i false = repeat x00 5 ++ repeat xff 4.
Proof.
  intros t t' ->. exists input_new. cbn [tx_add_input inputs]. rewrite nth_error_app2, Nat.sub_diag by lia. repeat split.
Qed.

Print Assumptions C23_text.
Print Assumptions C23_text_error.
Print Assumptions C34_new_input.
