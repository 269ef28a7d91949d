(** Conformance: the repo's own unit-test vectors evaluated in the model. These
    are tests of the transcription, not proofs of properties. *)
From Verif Require Import M_Signer M_Block M_Coinbase M_Redeem M_Encryption M_Difficulty M_Float.

Definition hx (s : bytes) : bytes := hex_ignore s.
Definition ok_eq (r : res bytes) (b : bytes) : bool :=
  match r with Ok x => bytes_eqb x b | _ => false end.

(** crypto/Hash_test.go:15-24 *)
Example conf_hash :
  bytes_eqb (ripemd160 []) (hx (str "9c1185a5c5e9fc54612808977ee8f548b2258d31")) &&
  bytes_eqb (ripemd160 (str "I am a test")) (hx (str "09a23f506b4a37cabab8a9e49b541de582fca96b")) &&
  bytes_eqb (sha256d []) (hx (str "5df6e0e2761359d30a8275058e299fcc0381534545f55cf43e41983f5d4c9456")) &&
  bytes_eqb (sha256d (str "this is the data I want to hash"))
    (hx (str "2209ddda5914a3fbad507ff2284c4b6e559c18a669f9fc3ad3b5826a2a999d58")) &&
  bytes_eqb (sha256 []) (hx (str "e3b0c44298fc1c149afbf4c8996fb92427ae41e4649b934ca495991b7852b855")) &&
  bytes_eqb (sha256 (str "this is the data I want to hash"))
    (hx (str "f88eec7ecabf88f9a64c4100cac1e0c0c4581100492137d1b656ea626cad63e3")) = true.
Proof. vm_compute. reflexivity. Qed.

(** utils/utils_test.go TestGenesisHash, TestGenesisBlockHash *)
Definition genesis_cb : bytes := hx (str "01000000010000000000000000000000000000000000000000000000000000000000000000ffffffff4d04ffff001d0104455468652054696d65732030332f4a616e2f32303039204368616e63656c6c6f72206f6e206272696e6b206f66207365636f6e64206261696c6f757420666f722062616e6b73ffffffff0100f2052a01000000434104678afdb0fe5548271967f1a67130b7105cd6a828e03909a67962e0ea1f61deb649f6bc3f4cef38c4f35504e51ec112de5c384df7ba0b8d578a4c702b6bf11d5fac00000000").
Example conf_genesis :
  bytes_eqb (hex_encode (reverse_bytes (sha256d genesis_cb)))
    (str "4a5e1e4baab89f3a32518a88c31bc87f618f76673e2cc77ab2127b7afdeda33b") &&
  bytes_eqb (hex_encode (reverse_bytes (sha256d
     (build_block_header 1 zeros64 (sha256d genesis_cb)
        (hx (str "29ab5f49")) (hx (str "ffff001d")) (hx (str "1dac2b7c"))))))
    (str "000000000019d6689c085ae165831e934ff763ae46a2a6c172b3f1b60a8ce26f") = true.
Proof. vm_compute. reflexivity. Qed.

(** utils/ByteManipulation_test.go, utils/utils_test.go *)
Example conf_reverse :
  bytes_eqb (reverse_hex_string (str "1039")) (str "3910") &&
  bytes_eqb (reverse_hex_string (str "41039")) (str "391004") &&
  bytes_eqb (reverse_hex_string (str "3124125109711245")) (str "4512710951122431") = true.
Proof. vm_compute. reflexivity. Qed.

(** script/address/*_test.go *)
Definition addr_is (r : res address) (a p : bytes) : bool :=
  match r with Ok x => bytes_eqb (addr_string x) a && bytes_eqb (addr_pkh x) p | _ => false end.
Example conf_address :
  addr_is (addr_from_string (str "1E7ucTTWRTahCyViPhxSMor2pj4VGQdFMr"))
    (str "1E7ucTTWRTahCyViPhxSMor2pj4VGQdFMr") (str "8fe80c75c9560e8b56ed64ea3c26e18d2c52211b") &&
  addr_is (addr_from_string (str "mtdruWYVEV1wz5yL7GvpBj4MgifCB7yhPd"))
    (str "mtdruWYVEV1wz5yL7GvpBj4MgifCB7yhPd") (str "8fe80c75c9560e8b56ed64ea3c26e18d2c52211b") &&
  match addr_from_string (str "ADD8E55") with Err (EAddrLength _) => true | _ => false end &&
  match addr_from_string (str "27BvY7rFguYQvEL872Y7Fo77Y3EBApC2EK") with
  | Err (EAddrUnsupported _) => true | _ => false end &&
  addr_is (addr_from_pubkey_str (str "026cf33373a9f3f6c676b75b543180703df225f7f8edbffedc417718a8ad4e89ce") true)
    (str "114ZWApV4EEU8frr7zygqQcB1V2BodGZuS") (str "00ac6144c4db7b5790f343cf0477a65fb8a02eb7") &&
  addr_is (addr_from_pubkey_str (str "026cf33373a9f3f6c676b75b543180703df225f7f8edbffedc417718a8ad4e89ce") false)
    (str "mfaWoDuTsFfiunLTqZx4fKpVsUctiDV9jk") (str "00ac6144c4db7b5790f343cf0477a65fb8a02eb7") &&
  bytes_eqb (b58_encode_missing_checksum (hx (str "0488b21e000000000000000000362f7a9030543db8751401c387d6a71e870f1895b3a62569d455e8ee5f5f5e5f03036624c6df96984db6b4e625b6707c017eb0e0d137cd13a0c989bfa77a4473fd")))
    (str "xpub661MyMwAqRbcF5ivRisXcZTEoy7d9DfLF6fLqpu5GWMfeUyGHuWJHVp5uexDqXTWoySh8pNx3ELW7qymwPNg3UEYHjwh1tpdm3P9J2j4g32")
  = true.
Proof. vm_compute. reflexivity. Qed.

Example conf_validate :
  is_ok (validate_address (str "114ZWApV4EEU8frr7zygqQcB1V2BodGZuS")) &&
  is_ok (validate_address (str "mfaWoDuTsFfiunLTqZx4fKpVsUctiDV9jk")) &&
  is_ok (validate_address (str "bitcoin-script:0101522102e5b3f2970648b5592b7303367ab7d7d49e6e27dd80c7b5da18a22dac67a51a322103da6bf6a0c1a06ae7c4091542e0eaa29f2678e7957b78ba09cbe5a36241a4ad0452aeb245ccc7")) &&
  bytes_eqb (encode_bip276 (str "bitcoin-script") 1 1 (str "fake script"))
    (str "bitcoin-script:010166616b65207363726970746f0cd86a") &&
  match decode_bip276 (str "bitcoin-script:010166616b65207363726970746f0cd86a") with
  | Ok (p, v, n, d) => bytes_eqb p (str "bitcoin-script") && (v =? 1)%Z && (n =? 1)%Z
                       && bytes_eqb d (str "fake script")
  | _ => false
  end = true.
Proof. vm_compute. reflexivity. Qed.

(** script/OpPushdata_test.go *)
Definition electrum_hex : bytes := str "524c53ff0488b21e000000000000000000362f7a9030543db8751401c387d6a71e870f1895b3a62569d455e8ee5f5f5e5f03036624c6df96984db6b4e625b6707c017eb0e0d137cd13a0c989bfa77a4473fd000000004c53ff0488b21e0000000000000000008b20425398995f3c866ea6ce5c1828a516b007379cf97b136bffbdc86f75df14036454bad23b019eae34f10aff8b8d6d8deb18cb31354e5a169ee09d8a4560e8250000000052ae".
Example conf_parts :
  match decode_string_parts (str "05000102030401FF02ABCD") with
  | Ok parts => Nat.eqb (length parts) 3 && ok_eq (encode_parts parts) (hx (str "05000102030401ff02abcd"))
  | _ => false end &&
  match decode_string_parts [] with Ok [] => true | _ => false end &&
  match decode_string_parts electrum_hex with Ok parts => Nat.eqb (length parts) 5 | _ => false end &&
  match decode_string_parts (str "05000000") with Err ENotEnough => true | _ => false end &&
  match decode_string_parts (str "4c05000000") with Err ENotEnough => true | _ => false end = true.
Proof. vm_compute. reflexivity. Qed.

(** script/Script_test.go *)
Example conf_script :
  ok_eq (p2pkh_from_pubkey_str (str "023717efaec6761e457f55c8417815505b695209d0bbfed8c3265be425b373c2d6"))
    (hx (str "76a9144d5d1920331b71735a97a606d9734aed83cb3dfa88ac")) &&
  ok_eq (script_to_asm (hx (str "76a914e2a623699e81b291c0327f408fea765d534baa2a88ac")))
    (str "OP_DUP OP_HASH160 e2a623699e81b291c0327f408fea765d534baa2a OP_EQUALVERIFY OP_CHECKSIG") &&
  ok_eq (script_from_asm (str "OP_DUP OP_HASH160 e2a623699e81b291c0327f408fea765d534baa2a OP_EQUALVERIFY OP_CHECKSIG"))
    (hx (str "76a914e2a623699e81b291c0327f408fea765d534baa2a88ac")) &&
  is_p2pkh (hx (str "76a91403ececf2d12a7f614aef4c82ecf13c303bd9975d88ac")) &&
  match is_p2pk (hx (str "2102f0d97c290e79bf2a8660c406aa56b6f189ff79f2245cc5aff82808b58131b4d5ac")) with
  | Ok b => b | _ => false end &&
  is_p2sh (hx (str "a9149de5aeaff9c48431ba4dd6e8af73d51f38e451cb87")) &&
  match is_data (hx (str "006a04ac1eed88")) with Ok b => b | _ => false end &&
  match is_multisig_out (hx (str "5201110122013353ae")) with Ok b => b | _ => false end &&
  ok_eq (get_public_key_hash (Some (hx (str "76a91404d03f746652cfcb6cb55119ab473a045137d26588ac"))))
    (hx (str "04d03f746652cfcb6cb55119ab473a045137d265")) &&
  match get_public_key_hash (Some []) with Err EScriptEmpty => true | _ => false end = true.
Proof. vm_compute. reflexivity. Qed.

(** script/RedeemScript_test.go: the address of the sorted 2-of-2 script of
    TestHash160 is the expected one of TestGetRedeemScript. *)
Definition rs_pk1 : bytes := hx (str "03d10369cb9603521e3b2b2f13b71d356e9465867c7c79233e58d85f82dec24194").
Definition rs_pk2 : bytes := hx (str "03f2538c34a0991dcbcae32c56c1158822c88a4149e0549363dd9c541a64551145").
Example conf_redeem :
  bytes_eqb (hash160 (hx (str "522103d10369cb9603521e3b2b2f13b71d356e9465867c7c79233e58d85f82dec241942103f2538c34a0991dcbcae32c56c1158822c88a4149e0549363dd9c541a6455114552ae")))
    (hx (str "0e95261082d65c384a6106f114474bc0784ba67e")) &&
  bytes_eqb (fst (redeem_get_address (mk_rs 2 [rs_pk2; rs_pk1]))) (str "33284G9cdLGrgDExvFvA2HcFRiupUQjzuR") &&
  bytes_eqb (fst (redeem_get_address (mk_rs 2 [rs_pk1; rs_pk2]))) (str "33284G9cdLGrgDExvFvA2HcFRiupUQjzuR")
  = true.
Proof. vm_compute. reflexivity. Qed.

(** transaction/output/Output_test.go, transaction/input/Input_test.go *)
Example conf_output :
  match output_from_bytes (Sl (hx (str "8a08ac4a000000001976a9148bf10d323ac757268eb715e613cb8e8e1d1793aa88ac00000000")) []) with
  | Ok (o, n) => (n =? 34)%Z && (satoshis o =? 1252788362) &&
                 ok_eq (output_script_hex o) (str "76a9148bf10d323ac757268eb715e613cb8e8e1d1793aa88ac")
  | _ => false end &&
  match output_hash_puzzle (str "secret1") (str "c28f832c3d539933e0c719297340b34eee0f4c34") 5000 with
  | Ok o => ok_eq (output_script_hex o)
     (str "a914d3f9e3d971764be5838307b175ee4e08ba427b908876a914c28f832c3d539933e0c719297340b34eee0f4c3488ac")
  | _ => false end &&
  addr_is (addr_from_string (str "myFhJggmsaA2S8Qe6ZQDEcVCwC4wLkvC4e"))
    (str "myFhJggmsaA2S8Qe6ZQDEcVCwC4wLkvC4e") (str "c28f832c3d539933e0c719297340b34eee0f4c34") &&
  match output_op_return_parts [str "hi"; str "how"; str "are"; str "you"] with
  | Ok o => ok_eq (output_script_hex o) (str "006a02686903686f770361726503796f75")
  | _ => false end = true.
Proof. vm_compute. reflexivity. Qed.

Example conf_input :
  match input_from_bytes (Sl (hx (str "4c6ec863cf3e0284b407a1a1b8138c76f98280812cb9653231f385a0305fc76f010000006b483045022100f01c1a1679c9437398d691c8497f278fa2d615efc05115688bf2c3335b45c88602201b54437e54fb53bc50545de44ea8c64e9e583952771fcc663c8687dc2638f7854121037e87bbd3b680748a74372640628a8f32d3a841ceeef6f75626ab030c1a04824fffffffff")) []) with
  | Ok (i, n) => (n =? 148)%Z && (prev_index i =? 1) && (sequence i =? 0xFFFFFFFF) &&
                 match unlocking i with Some s => Nat.eqb (length s) 107 | None => false end
  | _ => false end = true.
Proof. vm_compute. reflexivity. Qed.

(** transaction/Transaction_test.go *)
Example conf_txid :
  match tx_from_string 0 (str "010000000193a35408b6068499e0d5abd799d3e827d9bfe70c9b75ebe209c91d2507232651000000006b483045022100c1d77036dc6cd1f3fa1214b0688391ab7f7a16cd31ea4e5a1f7a415ef167df820220751aced6d24649fa235132f1e6969e163b9400f80043a72879237dab4a1190ad412103b8b40a84123121d260f5c109bc5a46ec819c2e4002e5ba08638783bfb4e01435ffffffff02404b4c00000000001976a91404ff367be719efa79d76e4416ffb072cd53b208888acde94a905000000001976a91404d03f746652cfcb6cb55119ab473a045137d26588ac00000000") with
  | Ok t => ok_eq (tx_id t) (str "19dcf16ecc9286c3734fdae3d45d4fc4eb6b25f841131e06460f4939bba0026e")
            && match is_coinbase t with Ok b => negb b | _ => false end
  | _ => false end &&
  match tx_from_string 0 (str "020000000180f1ada3ad8e861441d9ceab40b68ed98f13695b185cc516226a46697cc01f80010000006b483045022100fa3a0f8fa9fbf09c372b7a318fa6175d022c1d782f7b8bc5949a7c8f59ce3f35022005e0e84c26f26d892b484ff738d803a57626679389c8b302939460dab29a5308412103e46b62eea5db5898fb65f7dc840e8a1dbd8f08a19781a23f1f55914f9bedcd49feffffff02dec537b2000000001976a914ba11bcc46ecf8d88e0828ddbe87997bf759ca85988ac00943577000000001976a91418392a59fc1f76ad6a3c7ffcea20cfcb17bda9eb88ac6e000000") with
  | Ok t => match total_output_satoshis t with Ok n => n =? 4989999582 | _ => false end
  | _ => false end &&
  match tx_from_string 0 (hex_encode genesis_cb) with
  | Ok t => match is_coinbase t with Ok b => b | _ => false end
            && ok_eq (tx_to_bytes t) genesis_cb
  | _ => false end = true.
Proof. vm_compute. reflexivity. Qed.

(** transaction/SignatureHash_test.go (1 input 2 outputs; 2 inputs 3 outputs) *)
Definition with_prev (t : tx) (n : nat) (sats : N) (s : bytes) : tx :=
  mk_tx (version t)
    (match nth_error (inputs t) n with
     | Some (Some i) => set_nth n (Some (mk_in (prev_txid i) (prev_index i) sats (Some s) (unlocking i) (sequence i))) (inputs t)
     | _ => inputs t end) (outputs t) (locktime t).
Definition sighash_is (h : bytes) (n : N) (sats : N) (s e : bytes) : bool :=
  match tx_from_string 0 h with
  | Ok t => ok_eq (get_input_signature_hash (with_prev t (N.to_nat n) sats (hx s)) n 0x41) (hx e)
  | _ => false end.
Definition two_in := str "01000000027e2705da59f7112c7337d79840b56fff582b8f3a0e9df8eb19e282377bebb1bc0100000000ffffffffdebe6fe5ad8e9220a10fcf6340f7fca660d87aeedf0f74a142fba6de1f68d8490000000000ffffffff0300e1f505000000001976a9142987362cf0d21193ce7e7055824baac1ee245d0d88ac00e1f505000000001976a9143ca26faa390248b7a7ac45be53b0e4004ad7952688ac34657fe2000000001976a914eb0bd5edba389198e73f8efabddfc61666969ff788ac00000000".
Definition one_in := str "010000000193a35408b6068499e0d5abd799d3e827d9bfe70c9b75ebe209c91d25072326510000000000ffffffff02404b4c00000000001976a91404ff367be719efa79d76e4416ffb072cd53b208888acde94a905000000001976a91404d03f746652cfcb6cb55119ab473a045137d26588ac00000000".
Example conf_sighash :
  sighash_is one_in 0 100000000 (str "76a914c0a3c167a28cabb9fbb495affa0761e6e74ac60d88ac")
    (str "b111212a304c8f3a84f6e3f41850bccb927266901263cd02efd72d2eef429abe") &&
  sighash_is two_in 0 2000000000 (str "76a914eb0bd5edba389198e73f8efabddfc61666969ff788ac")
    (str "4c19a3288e2385767006c8438b0e63e029185d7b79195e4827e7d5b6cfee158b") &&
  sighash_is two_in 1 2000000000 (str "76a914eb0bd5edba389198e73f8efabddfc61666969ff788ac")
    (str "dbba819f30c3cfbfe5d207bfb4eab0992079ee5ebd7fd939504a71a255c3727b") = true.
Proof. vm_compute. reflexivity. Qed.

(** transaction/signature/InternalSigner_test.go, with the signature that test
    expects as the key's answer to the digest. *)
Example conf_sign_auto :
  let pub := hx (str "03b8b40a84123121d260f5c109bc5a46ec819c2e4002e5ba08638783bfb4e01435") in
  let der := hx (str "3045022100c1d77036dc6cd1f3fa1214b0688391ab7f7a16cd31ea4e5a1f7a415ef167df820220751aced6d24649fa235132f1e6969e163b9400f80043a72879237dab4a1190ad") in
  let k := mk_key pub (fun d => if bytes_eqb d (reverse_bytes (hx (str "b111212a304c8f3a84f6e3f41850bccb927266901263cd02efd72d2eef429abe"))) then Ok der else Err (EExternal 0)) in
  match tx_from_string 0 one_in with
  | Ok t =>
      match tx_sign_auto (with_prev t 0 100000000 (hx (str "76a914c0a3c167a28cabb9fbb495affa0761e6e74ac60d88ac"))) (mk_signer k 0) with
      | Ok (t', s', None) => ok_eq (tx_to_string t') (str "010000000193a35408b6068499e0d5abd799d3e827d9bfe70c9b75ebe209c91d2507232651000000006b483045022100c1d77036dc6cd1f3fa1214b0688391ab7f7a16cd31ea4e5a1f7a415ef167df820220751aced6d24649fa235132f1e6969e163b9400f80043a72879237dab4a1190ad412103b8b40a84123121d260f5c109bc5a46ec819c2e4002e5ba08638783bfb4e01435ffffffff02404b4c00000000001976a91404ff367be719efa79d76e4416ffb072cd53b208888acde94a905000000001976a91404d03f746652cfcb6cb55119ab473a045137d26588ac00000000") && (sg_flag s' =? 0x41)
      | _ => false end
  | _ => false end = true.
Proof. vm_compute. reflexivity. Qed.

(** block/GetMerkleBranches_test.go *)
Example conf_merkle_proof :
  ok_eq (merkle_root_from_branches (str "a2d8d44f302381d90a53078e8d80058e372f6adb59058c53aca0f66636578422") 18
    [str "a99d3ab161f6056edb8fb86191979bc1281476cdc85dfe44b3049dda1afea1d2"; str "01c81e306c70fb0c44b565a709a33fb9ba175aeec3b666af0b3dc1f100dcb557"; str "f50cd6a879f9f58d6e87047b4bf0502d0bc072c369fd6ea84516a3fc2256a863"; str "57c67cbf85be69abe75b999bbb21596b50bf9d489f9d60ee4d6eee1d8207a9d5"; str "eb9883488e5e59dbce82583f4ee7e3deca61f2d82e5bdef1ff7d877a263a2b2e"; str "34162fa4f9afcc3312a4d37ab78f8f66b3cb9368a0c14b4ab889eb4de7f7077c"])
    (str "1504316d94e3233e1307253f157a1af5f3e90c2fb9c07049d142ea3494d22194") = true.
Proof. vm_compute. reflexivity. Qed.

(** block/ExpandTargetFrom_test.go *)
Example conf_target :
  ok_eq (expand_target_from (str "1d00ffff")) (str "00000000ffff0000000000000000000000000000000000000000000000000000") &&
  ok_eq (expand_target_from (str "182815ee")) (str "00000000000000002815ee000000000000000000000000000000000000000000") &&
  match expand_target_from (str "invalidBgolaits") with Err _ => true | _ => false end = true.
Proof. vm_compute. reflexivity. Qed.

(** block/DifficultyToHashrate_test.go *)
Example conf_hashrate :
  (match difficulty_to_hashrate (str "BSV") 22000 (f64_of_Z 7) with Ok f => bytes_eqb (human_hash f) (str "13.50 TH/s") | _ => false end) &&
  (match difficulty_to_hashrate (str "RSV") 22000 (f64_of_Z 7) with Ok f => bytes_eqb (human_hash f) (str "6.29 kH/s") | _ => false end) = true.
Proof. vm_compute. reflexivity. Qed.
