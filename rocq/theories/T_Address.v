(** Property theorems C19-C24: addresses, base58, BIP276. *)
From Verif Require Import S_Address M_Bip276 P_Address P_Bip276.

(** C19. *)
Theorem C19_round_trip : forall h mainnet, length h = 20%nat ->
  let a := addr_from_pkh h mainnet in
  addr_from_string (addr_string a) = Ok a /\ addr_pkh a = hex_encode h /\
  validate_address (addr_string a) = Ok tt.
Proof. exact (fun h m L => conj (proj1 (addr_round h m L)) (conj eq_refl (proj2 (addr_round h m L)))). Qed.
Print Assumptions C19_round_trip.

Theorem C19_distinct : forall h1 m1 h2 m2,
  addr_string (addr_from_pkh h1 m1) = addr_string (addr_from_pkh h2 m2) -> h1 = h2 /\ m1 = m2.
Proof. exact addr_inj. Qed.
Print Assumptions C19_distinct.

(** the public-key constructors are the same address of the key's hash *)
Theorem C19_from_keys : forall k mainnet,
  addr_from_pubkey k mainnet = addr_from_pkh (hash160 k) mainnet /\
  addr_from_pubkey_str (hex_encode k) mainnet = Ok (addr_from_pkh (hash160 k) mainnet) /\
  length (hash160 k) = 20%nat.
Proof.
  intros k m. split; [reflexivity|]. split; [|apply hash160_length].
  unfold addr_from_pubkey_str. now rewrite of_hex_encode.
Qed.
Print Assumptions C19_from_keys.

Example C19_example :
  let a := addr_from_pkh (hash160 (str "key")) true in
  bytes_eqb (addr_string a) (addr_string (addr_from_pkh (hash160 (str "key")) false)) = false /\
  validate_address (addr_string a) = Ok tt /\ addr_from_string (addr_string a) = Ok a.
Proof. vm_compute. auto. Qed.

(** C20. *)
Theorem C20_validate_iff : forall s, ~ (exists t, s = str "bitcoin-script:" ++ t) ->
  (validate_address s = Ok tt <->
   exists w h, addr_version w /\ length h = 20%nat /\
     b58_num s (be_get (w :: h ++ firstn 4 (sha256d (w :: h))))) /\
  validate_address s <> Panic.
Proof.
  intros s H. rewrite validate_plain by assumption. split; [apply valid_a58_iff|apply valid_a58_no_panic].
Qed.
Print Assumptions C20_validate_iff.

(** leading '1' characters are not counted: adding any number of them keeps a
    valid string valid ... *)
Theorem C20_leading_ones : forall k s, ~ (exists t, s = str "bitcoin-script:" ++ t) ->
  validate_address s = Ok tt -> validate_address (repeat x31 k ++ s) = Ok tt.
Proof.
  intros k s H V. apply C20_validate_iff in V as (w & h & W & L & B); [|assumption].
  assert (b58_num (repeat x31 k ++ s) (be_get (w :: h ++ firstn 4 (sha256d (w :: h))))) as B'
    by (apply b58_num_iff; rewrite b58_val_ones; now apply b58_num_iff).
  apply C20_validate_iff; [eapply b58_not_script; exact B'|]. eauto.
Qed.
Print Assumptions C20_leading_ones.

(** ... although NewFromString then rejects it *)
Theorem C20_valid_is_decodable_refuted : exists s, validate_address s = Ok tt /\
  addr_from_string s = Err (EAddrLength s).
Proof. exists (str "1114ZWApV4EEU8frr7zygqQcB1V2BodGZuS"). vm_compute. auto. Qed.
Print Assumptions C20_valid_is_decodable_refuted.

Example C20_example :
  validate_address (str "114ZWApV4EEU8frr7zygqQcB1V2BodGZuS") = Ok tt /\
  validate_address (str "114ZWApV4EEU8frr7zygqQcB1V2BodGZuT") = Err EChecksum /\
  validate_address (str "114ZWApV4EEU8frr7zygqQcB1V2BodGZu0") = Err EBadChar /\
  validate_address (repeat x7a 40) = Err ETooLong.
Proof. vm_compute. auto. Qed.

(** C21. NewFromString accepts whatever the last four bytes are. *)
Theorem C21_from_string_iff : forall s a, addr_from_string s = Ok a <->
  exists w h k, b58_of s (w :: h ++ k) /\ length h = 20%nat /\ length k = 4%nat /\ addr_version w
    /\ a = mk_addr s (hex_encode h).
Proof. exact addr_from_string_iff. Qed.
Print Assumptions C21_from_string_iff.

Theorem C21_never_panics : forall s, addr_from_string s <> Panic.
Proof. exact addr_from_string_no_panic. Qed.
Print Assumptions C21_never_panics.

Theorem C21_checksum_ignored : forall w h k, addr_version w -> length h = 20%nat -> length k = 4%nat ->
  exists s, b58_of s (w :: h ++ k) /\ addr_from_string s = Ok (mk_addr s (hex_encode h)).
Proof.
  intros w h k W H K. exists (b58_encode (w :: h ++ k)). split; [apply b58_encode_of|].
  apply addr_from_string_iff. exists w, h, k. split; [apply b58_encode_of|auto].
Qed.
Print Assumptions C21_checksum_ignored.

(** the natural claim "an accepted string has a valid checksum" is false: one
    mistyped character yields another hash *)
Theorem C21_accepts_only_valid_refuted : exists s s' a a',
  addr_from_string s = Ok a /\ validate_address s = Ok tt /\
  addr_from_string s' = Ok a' /\ validate_address s' = Err EChecksum /\
  bytes_eqb (addr_pkh a) (addr_pkh a') = false.
Proof.
  exists (str "114ZWApV4EEU8frr7zygqQcB1V2BodGZuS"), (str "114ZWApV4EFU8frr7zygqQcB1V2BodGZuS").
  eexists _, _. split; [vm_compute; reflexivity|]. split; [vm_compute; reflexivity|].
  split; [vm_compute; reflexivity|]. split; vm_compute; reflexivity.
Qed.
Print Assumptions C21_accepts_only_valid_refuted.

(** base58 text and byte strings correspond one to one *)
Theorem C21_base58_bijection : forall s b,
  (b58_of s b <-> b58_encode b = s) /\ (b <> [] -> (b58_of s b <-> b58_decode s = b)).
Proof.
  intros s b. split.
  - split; [apply b58_of_encode|]. intros <-. apply b58_encode_of.
  - intros N. symmetry. now apply b58_decode_iff.
Qed.
Print Assumptions C21_base58_bijection.

Example C21_example : exists a, addr_from_string (str "114ZWApV4EEU8frr7zygqQcB1V2BodGZuS") = Ok a /\
  addr_pkh a = str "00ac6144c4db7b5790f343cf0477a65fb8a02eb7" /\ addr_from_string (str "ADD8E55") = Err (EAddrLength (str "ADD8E55")).
Proof. eexists. split; [vm_compute; reflexivity|]. split; vm_compute; reflexivity. Qed.

(** C22. *)
Theorem C22_missing_checksum_decodes : forall b,
  b58_decode (b58_encode_missing_checksum b) = b ++ firstn 4 (sha256d b).
Proof. exact missing_checksum_decode. Qed.
Print Assumptions C22_missing_checksum_decodes.

Theorem C22_injective : forall a b,
  b58_encode_missing_checksum a = b58_encode_missing_checksum b -> a = b.
Proof. exact missing_checksum_inj. Qed.
Print Assumptions C22_injective.

Example C22_example : b58_decode (b58_encode_missing_checksum [x00; x00; x07])
  = [x00; x00; x07] ++ firstn 4 (sha256d [x00; x00; x07]).
Proof. vm_compute. reflexivity. Qed.

(** C23. Round trip, exactly (network [n], version [v]). *)
Theorem C23_round_trip_iff : forall p n v d,
  decode_bip276 (encode_bip276 p n v d) = Ok (p, v, n, d) <->
  n = v /\ (1 <= n <= 9)%Z /\ d <> [] /\ p <> [] /\ ~ In x0a p.
Proof. exact bip276_round. Qed.
Print Assumptions C23_round_trip_iff.

(** what happens for every field in range: the two fields come back exchanged
    and read as decimal, behind a checksum of the exchanged text *)
Theorem C23_exact : forall p n v d a b c e,
  (1 <= n <= 255)%Z -> (1 <= v <= 255)%Z -> p <> [] -> ~ In x0a p -> d <> [] ->
  hex2 n = [a; b] -> hex2 v = [c; e] ->
  (dec_digit a -> dec_digit b -> dec_digit c -> dec_digit e ->
   decode_bip276 (encode_bip276 p n v d) =
   if bytes_eqb (firstn 4 (sha256d (p ++ x3a :: hex2 n ++ hex2 v ++ hex_encode d)))
                (firstn 4 (sha256d (p ++ x3a :: hex2 (dec2 c e) ++ hex2 (dec2 a b) ++ hex_encode d)))
   then Ok (p, dec2 a b, dec2 c e, d) else Err EBip276Checksum) /\
  (~ (dec_digit a /\ dec_digit b /\ dec_digit c /\ dec_digit e) -> decode_bip276 (encode_bip276 p n v d) = Panic).
Proof. exact bip276_swap. Qed.
Print Assumptions C23_exact.

Theorem C23_out_of_range : forall p n v d, (n < 1 \/ 255 < n \/ v < 1 \/ 255 < v)%Z ->
  decode_bip276 (encode_bip276 p n v d) = Panic.
Proof. exact encode_bad_panic. Qed.
Print Assumptions C23_out_of_range.

(** testnet strings (network 2, version 1): rejected, or else the first four
    bytes of the double SHA-256 of two named texts agree and the fields come
    back exchanged *)
Theorem C23_testnet : forall p d, p <> [] -> ~ In x0a p -> d <> [] ->
  decode_bip276 (encode_bip276 p 2 1 d) = Err EBip276Checksum \/
  (firstn 4 (sha256d (p ++ str ":0201" ++ hex_encode d)) = firstn 4 (sha256d (p ++ str ":0102" ++ hex_encode d))
   /\ decode_bip276 (encode_bip276 p 2 1 d) = Ok (p, 2%Z, 1%Z, d)).
Proof.
  intros p d P Q D.
  destruct (bip276_swap p 2 1 d x30 x32 x30 x31 ltac:(lia) ltac:(lia) P Q D eq_refl eq_refl) as [E _].
  assert (forall c, 48 <= b2n c <= 57 -> dec_digit c) as G by auto.
  rewrite E by (apply G; vm_compute; split; discriminate).
  change (dec2 x30 x32) with 2%Z. change (dec2 x30 x31) with 1%Z.
  change (x3a :: hex2 2 ++ hex2 1 ++ hex_encode d) with (str ":0201" ++ hex_encode d).
  change (x3a :: hex2 1 ++ hex2 2 ++ hex_encode d) with (str ":0102" ++ hex_encode d).
  destruct (bytes_eqb _ _) eqn:B; [right|left; reflexivity]. apply bytes_eqb_eq in B. auto.
Qed.
Print Assumptions C23_testnet.

Theorem C23_round_trip_refuted : 
  decode_bip276 (encode_bip276 (str "bitcoin-script") 2 1 (str "fake")) = Err EBip276Checksum /\
  decode_bip276 (encode_bip276 (str "bitcoin-script") 10 1 (str "fake")) = Panic /\
  decode_bip276 (encode_bip276 (str "bitcoin-script") 16 16 (str "fake")) = Err EBip276Checksum.
Proof. vm_compute. auto. Qed.
Print Assumptions C23_round_trip_refuted.

Example C23_example :
  decode_bip276 (encode_bip276 (str "bitcoin-script:x") 1 1 (str "fake")) = Ok (str "bitcoin-script:x", 1%Z, 1%Z, str "fake").
Proof. vm_compute. reflexivity. Qed.

(** C24. *)
Theorem C24_decode_iff : forall text p v n data, decode_bip276 text = Ok (p, v, n, data) <->
  exists a b c d h k, bip276_text text p a b c d h k /\ v = dec2 a b /\ n = dec2 c d /\
    hex_dec h = Some data /\
    k = hex_encode (firstn 4 (sha256d (p ++ x3a :: hex2 n ++ hex2 v ++ hex_encode data))).
Proof. exact decode_bip276_ok. Qed.
Print Assumptions C24_decode_iff.

Theorem C24_panic_iff : forall text, decode_bip276 text = Panic <->
  (forall p a b c d h k, ~ bip276_text text p a b c d h k).
Proof. exact decode_bip276_panic. Qed.
Print Assumptions C24_panic_iff.

Theorem C24_validate_script : forall t, let s := str "bitcoin-script:" ++ t in
  (validate_address s = Ok tt <-> exists r, decode_bip276 s = Ok r) /\
  (validate_address s = Panic <-> forall p a b c d h k, ~ bip276_text s p a b c d h k).
Proof.
  intros t s. rewrite <- decode_bip276_panic. unfold validate_address, s.
  replace (has_prefix _ _) with true by (symmetry; apply has_prefix_iff; eauto).
  destruct (decode_bip276 _) as [r|e|].
  - split; split; try discriminate; eauto.
  - split; split; try discriminate. intros [r E]. discriminate.
  - split; split; try discriminate; auto. intros [r E]. discriminate.
Qed.
Print Assumptions C24_validate_script.

(** upper-case data digits are accepted, an upper-case checksum is not *)
Example C24_example :
  let good := encode_bip276 (str "p") 1 1 [xab] in
  bip276_text good (str "p") x30 x31 x30 x31 (str "ab") (skipn 8 good) /\
  validate_address (str "bitcoin-script:") = Panic /\
  decode_bip276 (str "p:0101AB" ++ skipn 8 good) = Ok (str "p", 1%Z, 1%Z, [xab]).
Proof.
  cbv zeta. split; [|vm_compute; auto]. unfold bip276_text, dec_digit.
  split; [vm_compute; reflexivity|]. split; [discriminate|].
  split; [intros [E|[]]; discriminate|].
  do 4 (split; [vm_compute; split; discriminate|]).
  split; [discriminate|]. split; vm_compute; reflexivity.
Qed.
