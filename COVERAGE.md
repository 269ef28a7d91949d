# Functions of the code and the definitions that model them

Generated by `tools/coverage.py` from the citations in `rocq/theories/M_*.v`.

| Go function | lines | model |
|---|---|---|
| `block/BuildBlockHeader.go` BuildBlockHeader | 11-26 | `M_Block.build_block_header` |
| `block/BuildMerkleRootFromCoinbase.go` BuildMerkleRootFromCoinbase | 11-21 | `M_Block.build_merkle_root_from_coinbase`, `M_ConcCb.bheld`, `M_ConcCb.c_put`, `M_ConcCb.c_take`, `M_ConcCb.c_root`, `M_HashedBlock.l_build_merkle_root` |
| `block/Difficulty.go` init | 17-36 | `M_Float.f64_of_Z`, `M_Float.f64_div`, `M_Float.init_diff`, `M_Float.genesis_diff`, `M_Float.reg_diff` |
| `block/Difficulty.go` ExpandTargetFrom | 39-50 | `M_Difficulty.bytes_len`, `M_Difficulty.bigint_bytes`, `M_Difficulty.expand_target_from` |
| `block/Difficulty.go` ExpandTargetFromAsInt | 53-85 | `M_Difficulty.be_uint32`, `M_Difficulty.expand_target_from_as_int` |
| `block/Difficulty.go` DifficultyToHashrate | 89-96 | `M_Float.f64`, `M_Float.f64_of_Z`, `M_Float.f64_div`, `M_Float.f64_mul`, `M_Float.difficulty_to_hashrate` |
| `block/Difficulty.go` DifficultyFromBits | 99-103 | `M_Difficulty.difficulty_target`, `M_Float.f64`, `M_Float.difficulty_from_bits` |
| `block/Difficulty.go` toCompactSize | 105-110 | `M_Difficulty.to_compact_size` |
| `block/Difficulty.go` targetToDifficulty | 112-119 | `M_ErrText.says`, `M_Float.f64`, `M_Float.f64_of_Z`, `M_Float.f64_div`, `M_Float.parse_float_int`, `M_Float.genesis_target_z` |
| `block/GetCoinbaseParts.go` BuildCoinbase | 50-60 | `M_Coinbase.build_coinbase` |
| `block/GetCoinbaseParts.go` GetCoinbaseParts | 64-75 | `M_Beside.get_coinbase_parts_both`, `M_Coinbase.get_coinbase_parts` |
| `block/GetCoinbaseParts.go` makeCoinbaseInputTransaction | 77-84 | `M_Coinbase.make_coinbase_input` |
| `block/GetCoinbaseParts.go` makeCoinbaseOutputTransactions | 86-125 | `M_Coinbase.make_coinbase_outputs` |
| `block/GetCoinbaseParts.go` makeCoinbase1 | 127-154 | `M_Coinbase.make_coinbase1` |
| `block/GetCoinbaseParts.go` makeCoinbase2 | 156-164 | `M_Coinbase.make_coinbase2` |
| `block/GetCoinbaseParts.go` chunk | 166-180 | `M_Coinbase.chunk_loop`, `M_Coinbase.chunk` |
| `block/GetMerkleBranches.go` getHashes | 11-19 | `M_Block.get_hashes` |
| `block/GetMerkleBranches.go` GetMerkleBranches | 22-59 | `M_Block.merkle_level`, `M_Block.walk_branch`, `M_Block.get_merkle_branches`, `M_HashedBlock.l_merkle_level`, `M_HashedBlock.l_walk_branch`, `M_HashedBlock.l_get_merkle_branches` |
| `block/GetMerkleBranches.go` MerkleRootFromBranches | 63-94 | `M_Block.merkle_proof_loop`, `M_Block.merkle_root_from_branches`, `M_ErrText.dec`, `M_ErrText.decz`, `M_ErrText.says`, `M_HashedBlock.l_merkle_proof_loop` |
| `crypto/Encryption.go` Encrypt | 13-23 | `M_ConcEn.c_encrypt`, `M_Encryption.block`, `M_Encryption.xor_bytes`, `M_Encryption.cfb_encrypt`, `M_Encryption.b64_alphabet`, `M_Encryption.b64_char` |
| `crypto/Encryption.go` Decrypt | 26-39 | `M_ConcEn.c_xor`, `M_ConcEn.c_cfb`, `M_ConcEn.c_decrypt`, `M_Encryption.block`, `M_Encryption.xor_bytes`, `M_Encryption.cfb_decrypt` |
| `crypto/Hash.go` Sha256 | 10-13 | `M_Crypto.w32`, `M_Crypto.add32`, `M_Crypto.rotr`, `M_Crypto.rotl`, `M_Crypto.not32`, `M_Crypto.st8` |
| `crypto/Hash.go` Sha256d | 16-20 | `M_Crypto.w32`, `M_Crypto.add32`, `M_Crypto.rotr`, `M_Crypto.rotl`, `M_Crypto.not32`, `M_Crypto.sha256d` |
| `crypto/Hash.go` Ripemd160 | 23-27 | `M_Crypto.w32`, `M_Crypto.add32`, `M_Crypto.rotr`, `M_Crypto.rotl`, `M_Crypto.not32`, `M_Crypto.st5` |
| `crypto/Hash.go` Hash160 | 30-33 | `M_Crypto.hash160` |
| `script/OpPushdata.go` EncodeParts | 17-31 | `M_ErrText.dec`, `M_ErrText.says`, `M_Push.encode_loop`, `M_Push.encode_parts` |
| `script/OpPushdata.go` GetPushDataPrefix | 40-68 | `M_ErrText.says`, `M_Push.push_prefix` |
| `script/OpPushdata.go` DecodeStringParts | 73-79 | `M_Beside.decode_string_parts_both`, `M_Push.decode_string_parts`, `M_Word.decode_string_parts_at` |
| `script/OpPushdata.go` DecodeParts | 84-142 | `M_Cost.decode_counted`, `M_ErrText.says`, `M_Parts.h_cut`, `M_Parts.h_decode_part`, `M_Parts.h_decode_loop`, `M_Parts.h_decode_parts` |
| `script/RedeemScript.go` NewRedeemScript | 23-37 | `M_ErrText.says`, `M_Redeem.new_redeem_script` |
| `script/RedeemScript.go` NewRedeemScriptFromElectrum | 40-117 | `M_ErrText.says`, `M_Redeem.hdlib`, `M_Redeem.hd_derive`, `M_Redeem.path_loop`, `M_Redeem.electrum_key`, `M_Redeem.redeem_from_electrum` |
| `script/RedeemScript.go` RedeemScript.AddPublicKey | 120-149 | `M_ErrText.says`, `M_Nil.p_add_public_key`, `M_Redeem.hdlib`, `M_Redeem.hd_derive`, `M_Redeem.add_public_key` |
| `script/RedeemScript.go` RedeemScript.GetAddress | 152-157 | `M_Base58.idx_zero`, `M_Base58.digits_loop`, `M_Base58.digits`, `M_Base58.lead`, `M_Base58.b58_encode`, `M_Base58.b58_val` |
| `script/RedeemScript.go` RedeemScript.getPublicKeys | 159-161 | inlined (the sort) in `M_Redeem.get_redeem_script` |
| `script/RedeemScript.go` RedeemScript.GetRedeemScript | 164-179 | `M_ConcRs.c_keys`, `M_ConcRs.c_get_redeem`, `M_Redeem.op_base_plus`, `M_Redeem.get_redeem_script` |
| `script/RedeemScript.go` RedeemScript.GetRedeemScriptHash | 182-184 | `M_Redeem.get_redeem_script_hash` |
| `script/RedeemScript.go` RedeemScript.getScriptPubKey | 186-197 | `M_Redeem.redeem_script_pub_key` |
| `script/Script.go` NewFromHexString | 17-23 | `M_Script.script_from_hex`, `M_Share.act`, `M_Share.h_act`, `M_Share.h_acts`, `M_Share.v_act`, `M_Share.v_acts` |
| `script/Script.go` NewFromBytes | 26-29 | `M_Mem.minput`, `M_Share.h_act`, `M_Share.h_acts`, `M_Share.v_act`, `M_Share.v_acts` |
| `script/Script.go` NewFromASM | 32-49 | `M_ErrText.says`, `M_Opcodes.lookup_str`, `M_Script.split_space`, `M_Script.asm_loop`, `M_Script.script_from_asm`, `M_Share.h_act` |
| `script/Script.go` NewP2PKHFromPubKeyStr | 53-60 | `M_ErrText.upper_digit`, `M_Script.p2pkh_from_pubkey_str`, `M_Share.h_act`, `M_Share.h_acts`, `M_Share.v_act`, `M_Share.v_acts` |
| `script/Script.go` NewP2PKHFromPubKeyBytes | 64-78 | `M_Script.p2pkh_from_pubkey_bytes`, `M_Share.h_act`, `M_Share.h_acts`, `M_Share.v_act`, `M_Share.v_acts` |
| `script/Script.go` NewP2PKHFromPubKeyHashStr | 82-99 | `M_Script.p2pkh_from_pkh_str`, `M_Share.h_act`, `M_Share.h_acts`, `M_Share.v_act`, `M_Share.v_acts` |
| `script/Script.go` NewP2PKHFromAddress | 103-126 | `M_Script.p2pkh_from_address`, `M_Share.h_act`, `M_Share.h_acts`, `M_Share.v_act`, `M_Share.v_acts` |
| `script/Script.go` Script.AppendPushData | 129-137 | `M_ConcSc.s_put`, `M_ConcSc.s_take`, `M_ConcSc.s_append`, `M_ConcSc.s_call`, `M_ConcSc.sact`, `M_ConcSc.sres` |
| `script/Script.go` Script.AppendPushDataHexString | 140-147 | `M_ConcSc.s_call`, `M_ConcSc.sact`, `M_ConcSc.sres`, `M_ConcSc.s_acts`, `M_Mem.heap`, `M_Mem.sl` |
| `script/Script.go` Script.AppendPushDataString | 150-152 | `M_ConcSc.s_call`, `M_ConcSc.sact`, `M_ConcSc.sres`, `M_ConcSc.s_acts`, `M_Mem.heap`, `M_Mem.sl` |
| `script/Script.go` Script.AppendPushDataArray | 155-163 | `M_ConcSc.s_put`, `M_ConcSc.s_take`, `M_ConcSc.s_append`, `M_ConcSc.s_call`, `M_ConcSc.sact`, `M_ConcSc.sres` |
| `script/Script.go` Script.AppendPushDataStrings | 166-174 | `M_ConcSc.s_call`, `M_ConcSc.sact`, `M_ConcSc.sres`, `M_ConcSc.s_acts`, `M_Mem.heap`, `M_Mem.sl` |
| `script/Script.go` Script.AppendOpCode | 177-179 | `M_ConcSc.s_put`, `M_ConcSc.s_take`, `M_ConcSc.s_append`, `M_ConcSc.s_call`, `M_ConcSc.sact`, `M_ConcSc.sres` |
| `script/Script.go` Script.ToString | 182-184 | `M_ConcSc.s_take`, `M_ConcSc.sact`, `M_ConcSc.sres`, `M_ConcSc.s_acts`, `M_Nil.at_ptr`, `M_Nil.script_read` |
| `script/Script.go` Script.ToASM | 187-203 | `M_ConcSc.s_take`, `M_Nil.at_ptr`, `M_Nil.script_read`, `M_Nil.p_script_read`, `M_Opcodes.lookup_val`, `M_Script.is_space` |
| `script/Script.go` Script.IsP2PKH | 206-214 | `M_ConcSc.s_take`, `M_Nil.at_ptr`, `M_Nil.script_read`, `M_Nil.p_script_read`, `M_Script.is_p2pkh` |
| `script/Script.go` Script.IsP2PK | 217-237 | `M_Nil.at_ptr`, `M_Nil.script_read`, `M_Nil.p_script_read`, `M_Script.first_byte`, `M_Script.is_p2pk`, `M_Word.is_p2pk_at` |
| `script/Script.go` Script.IsP2SH | 240-247 | `M_Nil.at_ptr`, `M_Nil.script_read`, `M_Nil.p_script_read`, `M_Script.first_byte`, `M_Script.is_p2sh` |
| `script/Script.go` Script.IsData | 251-256 | `M_Nil.at_ptr`, `M_Nil.script_read`, `M_Nil.p_script_read`, `M_Script.first_byte`, `M_Script.is_data` |
| `script/Script.go` Script.IsMultisigOut | 259-281 | `M_Nil.at_ptr`, `M_Nil.script_read`, `M_Nil.p_script_read`, `M_Script.first_byte`, `M_Script.is_multisig_out`, `M_Word.is_multisig_out_at` |
| `script/Script.go` isSmallIntOp | 283-285 | `M_Nil.at_ptr`, `M_Nil.script_read`, `M_Nil.p_script_read`, `M_Script.first_byte`, `M_Script.is_small_int_op` |
| `script/Script.go` Script.GetPublicKeyHash | 288-303 | `M_ErrText.says`, `M_Nil.at_ptr`, `M_Nil.script_read`, `M_Nil.p_script_read`, `M_Parts.h_get_public_key_hash`, `M_Script.get_public_key_hash` |
| `script/UnlockingScript.go` NewP2PKHUnlockingScript | 7-19 | `M_Script.p2pkh_unlocking_script` |
| `script/address/Address.go` NewFromString | 22-32 | `M_Address.addr_from_string` |
| `script/address/Address.go` addressToPubKeyHashStr | 34-56 | `M_Address.address_to_pkh_str`, `M_Base58.idx_zero`, `M_Base58.digits_loop`, `M_Base58.digits`, `M_Base58.lead`, `M_Base58.b58_encode` |
| `script/address/Address.go` NewFromPublicKeyString | 61-67 | `M_Address.addr_from_pubkey_str` |
| `script/address/Address.go` NewFromPublicKeyHash | 72-90 | `M_Address.addr_from_pkh` |
| `script/address/Address.go` NewFromPublicKey | 95-114 | `M_Address.addr_from_pubkey` |
| `script/address/Address.go` Base58EncodeMissingChecksum | 118-124 | `M_Address.b58_encode_missing_checksum`, `M_Base58.idx_zero`, `M_Base58.digits_loop`, `M_Base58.digits`, `M_Base58.lead`, `M_Base58.b58_encode` |
| `script/address/Address.go` checksum | 126-130 | `M_Address.addr_checksum` |
| `script/address/AddressValidation.go` a25.embeddedChecksum | 14-17 | `M_Address.embedded_checksum` |
| `script/address/AddressValidation.go` a25.computeChecksum | 21-24 | `M_Address.embedded_checksum`, `M_Address.compute_checksum` |
| `script/address/AddressValidation.go` a25.set58 | 34-50 | `M_Address.set58_inner`, `M_Address.set58_step`, `M_Address.set58`, `M_Base58.index_byte`, `M_ErrText.says` |
| `script/address/AddressValidation.go` ValidateAddress | 54-65 | `M_Bip276.has_prefix`, `M_Bip276.validate_address`, `M_ErrText.says` |
| `script/address/AddressValidation.go` validA58 | 67-83 | `M_Address.valid_a58`, `M_ErrText.says` |
| `script/address/BIP276.go` EncodeBIP276 | 36-44 | `M_Bip276.encode_bip276` |
| `script/address/BIP276.go` createBIP276 | 46-51 | `M_Bip276.fmt_2x`, `M_Bip276.create_bip276` |
| `script/address/BIP276.go` DecodeBIP276 | 55-81 | `M_Beside.decode_bip276_both`, `M_Bip276.is_digit`, `M_Bip276.bip276_tail`, `M_Bip276.bip276_match`, `M_Bip276.bip276_match_from`, `M_Bip276.bip276_regex` |
| `transaction/SignatureHash.go` Transaction.GetInputSignatureHash | 17-99 | `M_Conc.c_sighash`, `M_ErrText.says`, `M_Hashed.logged`, `M_Hashed.quiet`, `M_Hashed.lbind`, `M_Hashed.l_sighash` |
| `transaction/SignatureHash.go` Transaction.getPrevoutHash | 101-113 | `M_Conc.c_prevouts`, `M_Hashed.logged`, `M_Hashed.quiet`, `M_Hashed.lbind`, `M_Hashed.l_prevout_hash`, `M_Nil.tx_read` |
| `transaction/SignatureHash.go` Transaction.getSequenceHash | 115-125 | `M_Conc.c_sequences`, `M_Hashed.logged`, `M_Hashed.quiet`, `M_Hashed.lbind`, `M_Hashed.l_sequence_hash`, `M_Nil.tx_read` |
| `transaction/SignatureHash.go` Transaction.getOutputsHash | 127-139 | `M_Conc.c_outputs`, `M_Conc.c_outputs_hash`, `M_Hashed.logged`, `M_Hashed.quiet`, `M_Hashed.lbind`, `M_Hashed.l_outputs_hash` |
| `transaction/Transaction.go` New | 45-52 | `M_Slots.kact`, `M_Slots.k_act`, `M_Slots.k_acts`, `M_Tx.tx_new`, `M_Window.wact`, `M_Window.w_act` |
| `transaction/Transaction.go` NewFromString | 56-63 | `M_ErrText.upper_digit`, `M_ErrText.utf8`, `M_ErrText.printable`, `M_ErrText.code_point`, `M_Reuse.h_tx_from_string`, `M_Tx.tx_from_string` |
| `transaction/Transaction.go` NewFromBytes | 66-115 | `M_Cost.counted`, `M_Cost.free`, `M_Cost.cbind`, `M_Cost.counted_loop`, `M_Cost.tx_from_slice_counted`, `M_ErrText.says` |
| `transaction/Transaction.go` Transaction.AddInput | 118-120 | `M_Conc.c_add_input`, `M_ConcLi.t_put`, `M_ConcLi.t_take`, `M_ConcLi.t_add`, `M_ConcLi.tact`, `M_ConcLi.tres` |
| `transaction/Transaction.go` Transaction.From | 123-141 | `M_ConcLi.tres`, `M_ConcLi.t_acts`, `M_Heap.h_add_new`, `M_Nil.at_ptr`, `M_Nil.p_from`, `M_Nil.p_do` |
| `transaction/Transaction.go` Transaction.InputCount | 144-146 | `M_ConcLi.tres`, `M_ConcLi.t_acts`, `M_Nil.at_ptr`, `M_Nil.p_do`, `M_Nil.p_run`, `M_Nil.tx_read` |
| `transaction/Transaction.go` Transaction.OutputCount | 149-151 | `M_ConcLi.tres`, `M_ConcLi.t_acts`, `M_Nil.at_ptr`, `M_Nil.p_do`, `M_Nil.p_run`, `M_Nil.tx_read` |
| `transaction/Transaction.go` Transaction.AddOutput | 154-157 | `M_Conc.c_add_output`, `M_ConcLi.t_put`, `M_ConcLi.t_take`, `M_ConcLi.tact`, `M_ConcLi.tres`, `M_ConcLi.t_acts` |
| `transaction/Transaction.go` Transaction.PayTo | 161-169 | `M_ConcLi.tres`, `M_ConcLi.t_acts`, `M_Nil.at_ptr`, `M_Nil.p_pay_to`, `M_Nil.p_do`, `M_Nil.p_run` |
| `transaction/Transaction.go` Transaction.IsCoinbase | 173-187 | `M_Conc.c_is_coinbase`, `M_ConcLi.tres`, `M_ConcLi.t_acts`, `M_Nil.at_ptr`, `M_Nil.tx_read`, `M_Nil.p_read` |
| `transaction/Transaction.go` Transaction.GetInputs | 190-192 | `M_ConcLi.tres`, `M_ConcLi.t_acts`, `M_Nil.at_ptr`, `M_Nil.tx_read`, `M_Nil.p_read`, `M_Slots.kact` |
| `transaction/Transaction.go` Transaction.GetOutputs | 195-197 | `M_ConcLi.tres`, `M_ConcLi.t_acts`, `M_Nil.at_ptr`, `M_Nil.tx_read`, `M_Nil.p_read`, `M_Slots.kact` |
| `transaction/Transaction.go` Transaction.GetTotalOutputSatoshis | 200-207 | `M_Conc.c_total_loop`, `M_Conc.c_total`, `M_ConcLi.t_take`, `M_Nil.at_ptr`, `M_Nil.tx_read`, `M_Nil.p_read` |
| `transaction/Transaction.go` Transaction.GetTxID | 211-213 | `M_Nil.at_ptr`, `M_Nil.tx_read`, `M_Nil.p_read`, `M_Tx.tx_id` |
| `transaction/Transaction.go` Transaction.ToString | 216-218 | `M_Nil.at_ptr`, `M_Nil.tx_read`, `M_Nil.p_read`, `M_Tx.tx_to_string` |
| `transaction/Transaction.go` Transaction.ToBytes | 222-224 | `M_Conc.c_to_bytes`, `M_Nil.at_ptr`, `M_Nil.tx_read`, `M_Nil.p_read`, `M_Tx.tx_to_bytes` |
| `transaction/Transaction.go` Transaction.ToBytesWithClearedInputs | 228-230 | `M_Nil.at_ptr`, `M_Nil.tx_read`, `M_Nil.p_read`, `M_Tx.tx_to_bytes_cleared` |
| `transaction/Transaction.go` Transaction.toBytesHelper | 232-259 | `M_Conc.c_inputs`, `M_Conc.c_to_bytes`, `M_Nil.at_ptr`, `M_Nil.tx_read`, `M_Nil.p_read`, `M_Tx.helper_inputs` |
| `transaction/Transaction.go` Transaction.Sign | 265-272 | `M_Conc.c_copy_struct`, `M_Conc.c_tx_sign`, `M_Ext.sign_ext`, `M_Nil.at_ptr`, `M_Nil.tx_read`, `M_Nil.p_read` |
| `transaction/Transaction.go` Transaction.SignAuto | 279-286 | `M_Conc.c_copy_struct`, `M_Conc.c_tx_sign_auto`, `M_Nil.at_ptr`, `M_Nil.tx_read`, `M_Nil.p_read`, `M_Nil.p_sign` |
| `transaction/Transaction.go` Transaction.ApplyUnlockingScript | 290-297 | `M_Conc.c_apply`, `M_ErrText.dec`, `M_ErrText.says`, `M_Heap.h_apply`, `M_Nil.at_ptr`, `M_Nil.tx_read` |
| `transaction/input/Input.go` New | 35-43 | `M_Tx.input_new` |
| `transaction/input/Input.go` NewFromBytes | 46-72 | `M_ErrText.says`, `M_Mem.minput`, `M_Mem.h_input`, `M_Tx.input_from_bytes`, `M_Word.int_at`, `M_Word.input_from_at` |
| `transaction/input/Input.go` NewFromUTXO | 75-90 | `M_Tx.input_from_utxo` |
| `transaction/input/Input.go` Input.String | 92-99 | `M_Text.fmt_uint`, `M_Text.fmt_x_ptr`, `M_Text.input_string` |
| `transaction/input/Input.go` Input.ToBytes | 102-122 | `M_Conc.c_input`, `M_Tx.input_to_bytes` |
| `transaction/output/Output.go` NewFromBytes | 31-54 | `M_ErrText.says`, `M_Mem.minput`, `M_Mem.h_output`, `M_Tx.output_from_bytes`, `M_Word.int_at`, `M_Word.output_from_at` |
| `transaction/output/Output.go` NewP2PkhFromPubKeyHash | 57-67 | `M_Tx.output_p2pkh_from_pkh` |
| `transaction/output/Output.go` NewP2PKHFromAddress | 70-80 | `M_Tx.output_p2pkh_from_address` |
| `transaction/output/Output.go` NewHashPuzzle | 83-112 | `M_Tx.check`, `M_Tx.output_hash_puzzle` |
| `transaction/output/Output.go` NewOpReturn | 116-123 | `M_Tx.output_op_return` |
| `transaction/output/Output.go` NewOpReturnParts | 127-134 | `M_Tx.output_op_return_parts` |
| `transaction/output/Output.go` createOpReturnOutput | 136-148 | `M_Tx.check`, `M_Tx.create_op_return_output` |
| `transaction/output/Output.go` Output.GetLockingScriptHexString | 152-154 | `M_Tx.output_script_hex` |
| `transaction/output/Output.go` Output.String | 156-161 | `M_Text.fmt_uint`, `M_Text.fmt_x_ptr`, `M_Text.output_string` |
| `transaction/output/Output.go` Output.ToBytes | 164-174 | `M_Conc.c_output`, `M_Tx.output_to_bytes` |
| `transaction/output/Output.go` Output.GetBytesForSigHash | 178-189 | `M_Tx.output_sighash_bytes` |
| `transaction/signature/InternalSigner.go` InternalSigner.Sign | 24-47 | `M_Conc.c_default_flag`, `M_Conc.c_sign`, `M_Ext.internal_ext_sign`, `M_Hashed.logged`, `M_Hashed.l_sign`, `M_Heap.h_sign` |
| `transaction/signature/InternalSigner.go` InternalSigner.SignAuto | 52-71 | `M_Conc.c_default_flag`, `M_Conc.c_auto_loop`, `M_Conc.c_sign_auto`, `M_Ext.internal_ext_auto`, `M_Hashed.logged`, `M_Hashed.l_auto_step` |
| `utils/ByteManipulation.go` sortByteArrays.Len | 14-16 | `M_Mem.h_sorts` |
| `utils/ByteManipulation.go` sortByteArrays.Less | 18-29 | `M_ConcRs.c_sorter`, `M_ConcRs.sort_run`, `M_Mem.h_sorts`, `M_Utils.bytes_compare`, `M_Utils.bytes_less` |
| `utils/ByteManipulation.go` sortByteArrays.Swap | 31-33 | `M_ConcRs.sort_run`, `M_Mem.h_sorts` |
| `utils/ByteManipulation.go` SortByteArrays | 36-40 | `M_ConcRs.sorter`, `M_ConcRs.sort_run`, `M_ConcRs.ins_inner`, `M_ConcRs.ins_outer`, `M_ConcRs.go_insertion`, `M_Mem.h_sorts` |
| `utils/ByteManipulation.go` ReverseBytes | 44-52 | `M_Reverse.h_rev_loop`, `M_Reverse.h_reverse`, `M_Utils.set_nth`, `M_Utils.rev_loop`, `M_Utils.reverse_bytes` |
| `utils/ByteManipulation.go` ReverseHexString | 56-67 | `M_Utils.rhs_loop`, `M_Utils.reverse_hex_string` |
| `utils/ByteManipulation.go` GetLittleEndianBytes | 70-77 | `M_Utils.get_little_endian_bytes` |
| `utils/ByteManipulation.go` Equals | 80-90 | `M_Utils.eq_loop`, `M_Utils.equals` |
| `utils/ByteManipulation.go` Decode32Byte | 93-103 | `M_Beside.decode_32_byte_both`, `M_Utils.decode_32_byte` |
| `utils/HumanHash.go` HumanHash | 6-33 | `M_Float.f64`, `M_Float.f64_div`, `M_Float.f64_ge`, `M_Float.dec_digits`, `M_Float.dec_text`, `M_Float.div_half_even` |
| `utils/VarInt.go` VarInt | 7-26 | `M_Utils.varint` |
| `utils/VarInt.go` DecodeVarInt | 31-51 | `M_Utils.decode_varint` |
