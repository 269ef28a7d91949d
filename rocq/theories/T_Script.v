(** Property theorems C13-C18: standard scripts, predicates, ASM text. *)
From Verif Require Import S_Script M_Script P_Script P_Asm.

(** C13. *)
Theorem C13_is_p2pkh_iff : forall s, is_p2pkh s = true <-> exists h, length h = 20%nat /\ s = p2pkh h.
Proof. exact p2pkh_iff. Qed.
Print Assumptions C13_is_p2pkh_iff.

Theorem C13_from_pubkey_bytes : forall k,
  p2pkh_from_pubkey_bytes k = p2pkh (hash160 k) /\ length (hash160 k) = 20%nat.
Proof. exact (fun k => conj (p2pkh_pubkey_bytes k) (hash160_length k)). Qed.
Print Assumptions C13_from_pubkey_bytes.

Theorem C13_from_pubkey_str : forall t s,
  p2pkh_from_pubkey_str t = Ok s <-> exists k, hex_dec t = Some k /\ s = p2pkh (hash160 k).
Proof. exact p2pkh_pubkey_str. Qed.
Print Assumptions C13_from_pubkey_str.

Theorem C13_from_pkh_str : forall t h, hex_dec t = Some h -> p2pkh_from_pkh_str t = Ok (p2pkh h).
Proof. exact p2pkh_pkh_str. Qed.
Print Assumptions C13_from_pkh_str.

Theorem C13_from_address : forall addr a, addr_from_string addr = Ok a ->
  exists h, length h = 20%nat /\ addr_pkh a = hex_encode h /\ p2pkh_from_address addr = Ok (p2pkh h).
Proof. exact c13_address. Qed.
Print Assumptions C13_from_address.

Theorem C13_from_bad_address : forall addr, (forall a, addr_from_string addr <> Ok a) ->
  exists e, p2pkh_from_address addr = Err e.
Proof. exact p2pkh_address_err. Qed.
Print Assumptions C13_from_bad_address.

Theorem C13_get_public_key_hash : forall h, length h = 20%nat ->
  get_public_key_hash (Some (p2pkh h)) = Ok h.
Proof. exact gpkh_p2pkh. Qed.
Print Assumptions C13_get_public_key_hash.

(** the hash constructor does not check the length: with other lengths the
    result is not a P2PKH script *)
Theorem C13_from_pkh_unchecked : forall t h, hex_dec t = Some h -> length h <> 20%nat ->
  exists s, p2pkh_from_pkh_str t = Ok s /\ is_p2pkh s = false.
Proof. exact c13_unchecked. Qed.
Print Assumptions C13_from_pkh_unchecked.

Example C13_example : is_p2pkh (p2pkh (repeat x2a 20)) = true /\ is_p2pkh (p2pkh (repeat x2a 21)) = false.
Proof. vm_compute. auto. Qed.

(** C14. GetPublicKeyHash, exactly. *)
Theorem C14_gpkh_ok_iff : forall s h, get_public_key_hash s = Ok h <->
  exists r ps, s = Some (x76 :: xa9 :: r) /\ safe_elems r (h :: ps).
Proof. exact gpkh_ok_iff. Qed.
Print Assumptions C14_gpkh_ok_iff.

Theorem C14_gpkh_panic_iff : forall s, get_public_key_hash s = Panic <->
  s = Some [x76] \/ s = Some [x76; xa9] \/
  exists r, s = Some (x76 :: xa9 :: r) /\ decode_parts r = Panic.
Proof. exact gpkh_panic_iff. Qed.
Print Assumptions C14_gpkh_panic_iff.

(** the natural claim "success only on P2PKH" is false *)
Theorem C14_gpkh_only_p2pkh_refuted : exists s h,
  get_public_key_hash (Some s) = Ok h /\ is_p2pkh s = false.
Proof. exact c14_refuted. Qed.
Print Assumptions C14_gpkh_only_p2pkh_refuted.

Example C14_examples :
  get_public_key_hash None = Err EScriptEmpty /\ get_public_key_hash (Some []) = Err EScriptEmpty /\
  get_public_key_hash (Some [x76; xa9; x02; x01; x02; x6a]) = Ok [x01; x02].
Proof. vm_compute. auto. Qed.

(** C15. *)
Theorem C15_is_p2sh_iff : forall s, is_p2sh s = true <-> exists h, length h = 20%nat /\ s = p2sh h.
Proof. exact p2sh_iff. Qed.
Print Assumptions C15_is_p2sh_iff.

Theorem C15_is_p2pk_iff : forall s, is_p2pk s = Ok true <->
  exists k q, safe_elems s [k; xac :: q] /\ wf_pubkey k.
Proof. exact p2pk_true_iff. Qed.
Print Assumptions C15_is_p2pk_iff.

Theorem C15_is_data_iff : forall s, is_data s = Ok true <-> exists r, s = x6a :: r \/ s = x00 :: x6a :: r.
Proof. exact data_iff. Qed.
Print Assumptions C15_is_data_iff.

Theorem C15_is_multisig_iff : forall s, is_multisig_out s = Ok true <->
  exists a m b c, safe_elems s (a :: m ++ [b; c]) /\
    starts a small_int /\ ~ In [] m /\ starts b small_int /\ starts c (fun x => x = xae).
Proof. exact multisig_true_iff. Qed.
Print Assumptions C15_is_multisig_iff.

Theorem C15_disjoint : forall s,
  (is_p2pkh s = true -> is_p2sh s = false /\ is_p2pk s = Ok false /\ is_data s = Ok false /\ is_multisig_out s = Ok false) /\
  (is_p2sh s = true -> is_p2pkh s = false /\ is_p2pk s = Ok false /\ is_data s = Ok false /\ is_multisig_out s = Ok false) /\
  (is_p2pk s = Ok true -> is_data s = Ok false /\ is_multisig_out s = Ok false).
Proof. exact disjoint. Qed.
Print Assumptions C15_disjoint.

(** data and multisig overlap; P2PK needs only an element starting with ac *)
Theorem C15_data_multisig_disjoint_refuted : exists s, is_data s = Ok true /\ is_multisig_out s = Ok true.
Proof. exact c15_overlap. Qed.
Print Assumptions C15_data_multisig_disjoint_refuted.

Theorem C15_p2pk_ends_in_checksig_refuted : exists s, is_p2pk s = Ok true /\
  ~ exists h k, announces h (nlen k) /\ s = h ++ k ++ [xac].
Proof. exact c15_p2pk_loose. Qed.
Print Assumptions C15_p2pk_ends_in_checksig_refuted.

Example C15_examples :
  is_p2pk (x21 :: x02 :: repeat x11 32 ++ [xac]) = Ok true /\
  is_multisig_out ([x51; x21; x02] ++ repeat x11 32 ++ [x51; xae]) = Ok true /\
  is_p2sh (p2sh (repeat x11 20)) = true.
Proof. vm_compute. auto. Qed.

(** C16. *)
Theorem C16_p2pk_panic_iff : forall s, is_p2pk s = Panic <->
  decode_parts s = Panic \/ exists k, k <> [] /\ safe_elems s [k; []].
Proof. exact p2pk_panic_iff. Qed.
Print Assumptions C16_p2pk_panic_iff.

Theorem C16_multisig_panic_iff : forall s, is_multisig_out s = Panic <->
  decode_parts s = Panic \/
  exists a m b c, safe_elems s (a :: m ++ [b; c]) /\
    (a = [] \/ (starts a small_int /\ ~ In [] m /\ (b = [] \/ (starts b small_int /\ c = [])))).
Proof. exact multisig_panic_iff. Qed.
Print Assumptions C16_multisig_panic_iff.

Theorem C16_data_panic_iff : forall s, is_data s = Panic <-> s = [] \/ s = [x00].
Proof. exact data_panic_iff. Qed.
Print Assumptions C16_data_panic_iff.

Theorem C16_predicates_total_refuted :
  is_p2pk [x51; x4c; x00] = Panic /\ is_multisig_out [x4c; x00; x51; xae] = Panic /\
  is_data [] = Panic /\ is_data [x00] = Panic /\ is_p2pk [x4d; xff; xff] = Panic.
Proof. exact c16_refuted. Qed.
Print Assumptions C16_predicates_total_refuted.

(** C17. *)
Theorem C17_asm_roundtrip : forall s, asm_script s ->
  exists t, script_to_asm s = Ok t /\ script_from_asm t = Ok s.
Proof. exact c17_roundtrip. Qed.
Print Assumptions C17_asm_roundtrip.

Theorem C17_asm_one_byte_push_refuted : forall c,
  exists t, script_to_asm [x01; c] = Ok t /\ script_from_asm t = Ok [c].
Proof. exact c17_one_byte. Qed.
Print Assumptions C17_asm_one_byte_push_refuted.

Theorem C17_asm_empty_refuted : script_to_asm [] = Ok [] /\ script_from_asm [] = Ok [x00].
Proof. exact c17_empty. Qed.
Print Assumptions C17_asm_empty_refuted.

(** every script with non-empty elements comes back with shortest pushes, and
    with one-byte elements as opcodes; so the round trip holds iff the script
    already has that form *)
Theorem C17_asm_normal_form : forall s ps, safe_elems s ps -> ps <> [] -> ~ In [] ps ->
  exists t w, script_to_asm s = Ok t /\ script_from_asm t = Ok (concat w) /\
    Forall2 (fun p x => (length p = 1%nat /\ x = p) \/
                        ((2 <= length p)%nat /\ exists h, shortest_header h (nlen p) /\ x = h ++ p)) ps w.
Proof. exact c17_normal. Qed.
Print Assumptions C17_asm_normal_form.

Example C17_example : asm_script (p2pkh (repeat x2a 20)) /\
  (t <- script_to_asm (p2pkh (repeat x2a 20)) ;; script_from_asm t) = Ok (p2pkh (repeat x2a 20)).
Proof. exact c17_example. Qed.

(** C18. *)
Theorem C18_unlocking_script : forall pub sg flag,
  push_domain (sg ++ [n2b flag]) -> push_domain pub ->
  exists s, p2pkh_unlocking_script pub sg flag = (s, None) /\
            decode_parts s = Ok [sg ++ [n2b flag]; pub].
Proof. exact unlocking_safe. Qed.
Print Assumptions C18_unlocking_script.

Example C18_example :
  let s := fst (p2pkh_unlocking_script (repeat x02 33) (repeat x30 71) 65) in
  decode_parts s = Ok [repeat x30 71 ++ [x41]; repeat x02 33] /\ length s = 107%nat.
Proof. vm_compute. auto. Qed.
