(** Property theorems C52, C53 (Encrypt, Decrypt) and C55 (digest sizes). *)
From Verif Require Import P_Encryption P_Crypto.
From Coq Require Import ZifyBool ZifyNat ZifyN.

(** ** C52 *)

(** what Encrypt returns: the IV, then the base64 text in CFB mode *)
Theorem C52_encrypt : forall E iv text, (forall b, length b = 16%nat -> length (E b) = 16%nat) -> length iv = 16%nat ->
  exists b body, encrypt (mk_block 16 E) (Ok iv) text = Ok (iv ++ body) /\ b64_text b text /\ cfb E iv b body /\
    length (iv ++ body) = (16 + 4 * ((length text + 2) / 3))%nat.
Proof.
  intros E iv text HE L. pose proof (encrypt_cfb E HE (length (b64_encode text)) iv (b64_encode text) ltac:(lia) L) as C.
  pose proof (encode_text text) as B. exists (b64_encode text), (cfb_encrypt (length (b64_encode text)) E 16 iv (b64_encode text)).
  split; [|split; [exact B|split; [exact C|]]].
  - unfold encrypt. cbv zeta. cbn [bind blk_size blk_enc]. rewrite L. reflexivity.
  - rewrite app_length, L. apply (cfb_len E HE) in C. rewrite <- C. now rewrite (text_len _ _ B).
Qed.
Print Assumptions C52_encrypt.

(** the outcome of Decrypt on every input of at least 16 bytes *)
Theorem C52_decrypt_iff : forall E iv body t, (forall b, length b = 16%nat -> length (E b) = 16%nat) -> length iv = 16%nat ->
  (fst (decrypt (mk_block 16 E) (iv ++ body)) = Ok t <-> exists p, cfb E iv p body /\ b64_loose (no_newlines p) t) /\
  fst (decrypt (mk_block 16 E) (iv ++ body)) <> Panic.
Proof.
  intros E iv body t HE L. unfold decrypt. cbv zeta. rewrite app_length, L. replace (Nat.ltb (16 + length body) 16) with false by lia.
  cbn [blk_size blk_enc]. change (Nat.eqb 16 16) with true. cbn [negb fst].
  assert (firstn 16 (iv ++ body) = iv) as -> by (rewrite firstn_app, L, Nat.sub_diag, firstn_all2 by lia; apply app_nil_r).
  assert (skipn 16 (iv ++ body) = body) as -> by (rewrite skipn_app, L, Nat.sub_diag, skipn_all2 by lia; reflexivity).
  pose proof (decrypt_cfb E HE (length body) iv body ltac:(lia) L) as C. split; [|apply b64_decode_no_panic].
  rewrite b64_decode_iff. split.
  - intros D. eauto.
  - intros (p & C' & D). rewrite (cfb_inv E HE iv _ _ L C _ C'). exact D.
Qed.
Print Assumptions C52_decrypt_iff.

Theorem C52_roundtrip : forall E iv text c, (forall b, length b = 16%nat -> length (E b) = 16%nat) -> length iv = 16%nat ->
  encrypt (mk_block 16 E) (Ok iv) text = Ok c -> fst (decrypt (mk_block 16 E) c) = Ok text.
Proof.
  intros E iv text c HE L H. destruct (C52_encrypt E iv text HE L) as (b & body & H' & B & C & _). assert (c = iv ++ body) as -> by congruence.
  apply (C52_decrypt_iff E iv body text HE L). exists b. split; [exact C|]. rewrite (text_no_nl _ _ B). now apply text_loose.
Qed.
Print Assumptions C52_roundtrip.

Theorem C52_too_short : forall ciph c, (length c < 16)%nat -> exists e, decrypt ciph c = (Err e, c).
Proof. intros ciph c L. unfold decrypt. replace (Nat.ltb (length c) 16) with true by lia. eauto. Qed.
Print Assumptions C52_too_short.

(** no random bytes: the error, and no ciphertext *)
Theorem C52_no_randomness : forall ciph e text, encrypt ciph (Err e) text = Err e.
Proof. reflexivity. Qed.
Print Assumptions C52_no_randomness.

(** a cipher with another block size panics *)
Theorem C52_block_size : forall n E iv text c, n <> 16%nat -> length iv = 16%nat -> (16 <= length c)%nat ->
  encrypt (mk_block n E) (Ok iv) text = Panic /\ fst (decrypt (mk_block n E) c) = Panic.
Proof.
  intros n E iv text c N L LC. split.
  - unfold encrypt. cbv zeta. cbn [bind blk_size]. rewrite L. replace (Nat.eqb 16 n) with false by lia. reflexivity.
  - unfold decrypt. replace (Nat.ltb (length c) 16) with false by lia. cbv zeta. cbn [blk_size]. replace (Nat.eqb 16 n) with false by lia. reflexivity.
Qed.
Print Assumptions C52_block_size.

(** nothing authenticates the ciphertext: whatever the cipher and the text, some
    other ciphertext of the same length decrypts to a different text, without error *)
Theorem C52_tamper_refuted : forall E iv text c, (forall b, length b = 16%nat -> length (E b) = 16%nat) -> length iv = 16%nat ->
  text <> [] -> encrypt (mk_block 16 E) (Ok iv) text = Ok c ->
  exists c' text', length c' = length c /\ firstn 16 c' = firstn 16 c /\ fst (decrypt (mk_block 16 E) c') = Ok text' /\ text' <> text.
Proof.
  intros E iv text c HE L N H.
  set (text' := map (fun b => n2b (b2n b + 1)) text).
  destruct (C52_encrypt E iv text HE L) as (b & body & H1 & _ & _ & L1). destruct (C52_encrypt E iv text' HE L) as (b' & body' & H2 & _ & _ & L2).
  assert (c = iv ++ body) as -> by congruence. exists (iv ++ body'), text'. split; [|split; [|split]].
  - rewrite L1, L2. unfold text'. now rewrite map_length.
  - rewrite !firstn_app, L, Nat.sub_diag. now rewrite !firstn_O.
  - exact (C52_roundtrip E iv text' _ HE L H2).
  - unfold text'. destruct text as [|x r]; [congruence|]. cbn [map]. intros Q. assert (n2b (b2n x + 1) = x) as Q1 by congruence.
    apply (f_equal b2n) in Q1. rewrite b2n_n2b in Q1. pose proof (b2n_lt x). dm (b2n x + 1) 256. nia.
Qed.
Print Assumptions C52_tamper_refuted.

Example C52_example : let E := fun b : bytes => rev b in let iv := map n2b [0;1;2;3;4;5;6;7;8;9;10;11;12;13;14;15] in
  (exists c, encrypt (mk_block 16 E) (Ok iv) (str "attack at dawn, and again at dusk") = Ok c /\ length c = 60%nat /\
     fst (decrypt (mk_block 16 E) c) = Ok (str "attack at dawn, and again at dusk")) /\ b64_encode (str "ab") = str "YWI=" /\
  b64_decode (str "YW" ++ [x0a] ++ str "J=") = Ok (str "ab").
Proof. cbv zeta. split; [|split; vm_compute; reflexivity]. eexists. split; [reflexivity|]. split; vm_compute; reflexivity. Qed.

(** ** C53: Decrypt writes over its argument *)

(** the argument afterwards: the IV and the decrypted base64 text *)
Theorem C53_overwrites : forall E iv body, (forall b, length b = 16%nat -> length (E b) = 16%nat) -> length iv = 16%nat ->
  exists p, snd (decrypt (mk_block 16 E) (iv ++ body)) = iv ++ p /\ cfb E iv p body.
Proof.
  intros E iv body HE L. unfold decrypt. cbv zeta. rewrite app_length, L. replace (Nat.ltb (16 + length body) 16) with false by lia.
  cbn [blk_size blk_enc]. change (Nat.eqb 16 16) with true. cbn [negb snd].
  assert (firstn 16 (iv ++ body) = iv) as -> by (rewrite firstn_app, L, Nat.sub_diag, firstn_all2 by lia; apply app_nil_r).
  assert (skipn 16 (iv ++ body) = body) as -> by (rewrite skipn_app, L, Nat.sub_diag, skipn_all2 by lia; reflexivity).
  eexists. split; [reflexivity|]. apply decrypt_cfb; [exact HE|lia|exact L].
Qed.
Print Assumptions C53_overwrites.

(** after decrypting Encrypt's own output the slice holds the IV and the base64 text in clear *)
Theorem C53_leaves_clear_text : forall E iv text c, (forall b, length b = 16%nat -> length (E b) = 16%nat) -> length iv = 16%nat ->
  encrypt (mk_block 16 E) (Ok iv) text = Ok c ->
  exists b, b64_text b text /\ snd (decrypt (mk_block 16 E) c) = iv ++ b.
Proof.
  intros E iv text c HE L H. destruct (C52_encrypt E iv text HE L) as (b & body & H' & B & C & _). assert (c = iv ++ body) as -> by congruence.
  destruct (C53_overwrites E iv body HE L) as (p & P & C'). exists b. split; [exact B|]. rewrite P. f_equal. exact (cfb_inv E HE iv _ _ L C' _ C).
Qed.
Print Assumptions C53_leaves_clear_text.

(** the argument is intact only when the text equals the ciphertext *)
Theorem C53_intact_iff : forall E iv body, (forall b, length b = 16%nat -> length (E b) = 16%nat) -> length iv = 16%nat ->
  snd (decrypt (mk_block 16 E) (iv ++ body)) = iv ++ body <-> cfb E iv body body.
Proof.
  intros E iv body HE L. destruct (C53_overwrites E iv body HE L) as (p & P & C). rewrite P. split.
  - intros Q. apply app_inv_head in Q. now subst.
  - intros C'. f_equal. exact (cfb_inv E HE iv _ _ L C _ C').
Qed.
Print Assumptions C53_intact_iff.

Theorem C53_twice_refuted : exists E c t, (forall b, length b = 16%nat -> length (E b) = 16%nat) /\
  fst (decrypt (mk_block 16 E) c) = Ok t /\ fst (decrypt (mk_block 16 E) (snd (decrypt (mk_block 16 E) c))) <> Ok t.
Proof.
  exists (fun _ => repeat x01 16), (repeat x00 16 ++ [x58; x56; x48; x3c]), (str "ab"). split; [reflexivity|].
  split; [vm_compute; reflexivity|]. vm_compute. discriminate.
Qed.
Print Assumptions C53_twice_refuted.

Example C53_example : let E := fun b : bytes => rev b in let iv := map n2b [0;1;2;3;4;5;6;7;8;9;10;11;12;13;14;15] in
  match encrypt (mk_block 16 E) (Ok iv) (str "ab") with
  | Ok c => snd (decrypt (mk_block 16 E) c) = iv ++ str "YWI=" | _ => False end.
Proof. cbv zeta. vm_compute. reflexivity. Qed.

(** ** C55: digest sizes, and the compositions *)

Theorem C55_sizes : forall b, length (sha256 b) = 32%nat /\ length (sha256d b) = 32%nat /\
  length (ripemd160 b) = 20%nat /\ length (hash160 b) = 20%nat.
Proof. intros b. split; [apply sha256_length|]. split; [apply sha256d_length|]. split; [apply ripemd160_length|apply hash160_length]. Qed.
Print Assumptions C55_sizes.

Theorem C55_compositions : forall b, sha256d b = sha256 (sha256 b) /\ hash160 b = ripemd160 (sha256 b).
Proof. intros b. split; [apply sha256d_eq|apply hash160_eq]. Qed.
Print Assumptions C55_compositions.

(** published test vectors, and the padding boundary *)
Example C55_example :
  hex_encode (sha256 (str "abc")) = str "ba7816bf8f01cfea414140de5dae2223b00361a396177a9cb410ff61f20015ad" /\
  hex_encode (ripemd160 (str "abc")) = str "8eb208f7e05d987a9b044a8e98c6b087f15a0bfc" /\
  hex_encode (sha256 (repeat x61 119)) <> hex_encode (sha256 (repeat x61 120)).
Proof. split; [vm_compute; reflexivity|]. split; [vm_compute; reflexivity|]. vm_compute. discriminate. Qed.
