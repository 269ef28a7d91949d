-Q theories Verif
theories/Bytes.v
theories/GoRt.v
theories/M_Crypto.v
theories/M_Utils.v
theories/M_Push.v
theories/M_Opcodes.v
theories/M_Base58.v
theories/M_Address.v
theories/M_Bip276.v
theories/M_Script.v
theories/M_Tx.v
theories/M_Sighash.v
theories/M_Signer.v
theories/M_Block.v
theories/M_Coinbase.v
theories/M_Redeem.v
theories/M_Encryption.v
theories/M_Difficulty.v
theories/M_Float.v
theories/X_Conf.v
theories/S_Utils.v
theories/P_Utils.v
theories/T_Utils.v
theories/S_Script.v
theories/P_Push.v
theories/P_Crypto.v
theories/P_Script.v
theories/P_Asm.v
theories/T_Push.v
theories/T_Script.v
theories/S_Address.v
theories/P_Base58.v
theories/P_Address.v
theories/P_Bip276.v
theories/T_Address.v
theories/S_Tx.v
theories/P_Tx.v
theories/P_TxParse.v
theories/P_TxSer.v
theories/P_TxMisc.v
theories/T_Tx.v
theories/S_Sighash.v
theories/P_Sighash.v
theories/P_Signer.v
theories/T_Sighash.v
theories/S_Block.v
theories/P_Merkle.v
theories/P_Coinbase.v
theories/T_Block.v
theories/S_Difficulty.v
theories/P_Difficulty.v
theories/S_Float.v
theories/P_Float.v
theories/P_Human.v
theories/T_Difficulty.v
theories/S_Redeem.v
theories/S_RedeemApi.v
theories/P_Redeem.v
theories/T_Redeem.v
theories/S_Encryption.v
theories/P_Encryption.v
theories/T_Encryption.v
theories/M_Mem.v
theories/S_Mem.v
theories/P_Mem.v
theories/T_Mem.v
theories/S_Flow.v
theories/P_Flow.v
theories/T_Flow.v
theories/M_Text.v
theories/S_Text.v
theories/P_Text.v
theories/T_Text.v
theories/M_Heap.v
theories/S_Heap.v
theories/P_Heap.v
theories/T_Heap.v
theories/S_Merkle.v
theories/P_Malle.v
theories/T_Merkle.v
theories/S_Pay.v
theories/P_Pay.v
theories/T_Pay.v
theories/S_Asm.v
theories/P_Asm2.v
theories/T_Asm.v
theories/M_Parts.v
theories/S_Parts.v
theories/P_Parts.v
theories/T_Parts.v
theories/S_Builder.v
theories/T_Builder.v
theories/T_Exact.v
theories/M_Share.v
theories/S_Share.v
theories/P_Share.v
theories/T_Share.v
theories/S_Errors.v
theories/P_Errors.v
theories/T_Errors.v
theories/M_Cost.v
theories/P_Cost.v
theories/T_Cost.v
theories/S_Made.v
theories/P_Made.v
theories/T_Made.v
theories/T_Tight.v
theories/M_Slots.v
theories/S_Slots.v
theories/P_Slots.v
theories/T_Slots.v
theories/S_Capacity.v
theories/P_Capacity.v
theories/T_Capacity.v
theories/T_Tight2.v
theories/M_Reverse.v
theories/T_Reverse.v
theories/S_Electrum.v
theories/T_Tight3.v
theories/T_Tight4.v
theories/T_Rate.v
theories/S_Lenient.v
theories/T_Lenient.v
theories/S_Demand.v
theories/P_Demand.v
theories/T_Demand.v
theories/S_Conc.v
theories/P_Conc.v
theories/M_Conc.v
theories/P_ConcTx.v
theories/S_ConcTx.v
theories/P_ConcSign.v
theories/T_Conc.v
theories/M_ConcRs.v
theories/S_ConcRs.v
theories/P_ConcRs.v
theories/T_ConcRs.v
theories/M_ConcCb.v
theories/S_ConcCb.v
theories/P_ConcCb.v
theories/T_ConcCb.v
theories/S_Mining.v
theories/T_Mining.v
theories/S_Chain.v
theories/T_Chain.v
theories/T_Mined.v
theories/S_Joint.v
theories/T_Joint.v
theories/T_JointEx.v
theories/S_ConcAdd.v
theories/T_ConcAdd.v
theories/T_MerklePad.v
theories/T_Demand2.v
theories/T_Cut.v
theories/M_ConcSc.v
theories/S_ConcSc.v
theories/P_ConcSc.v
theories/T_ConcSc.v
theories/T_Dead.v
theories/S_Hash.v
theories/P_Hash.v
theories/T_Hash.v
theories/M_Ext.v
theories/S_Ext.v
theories/P_Ext.v
theories/T_Ext.v
theories/M_ConcEn.v
theories/S_ConcEn.v
theories/P_ConcEn.v
theories/T_ConcEn.v
theories/S_Fee.v
theories/T_Fee.v
theories/S_Offline.v
theories/T_Offline.v
theories/M_Word.v
theories/S_Word.v
theories/P_Word.v
theories/P_WordParts.v
theories/T_Word.v
theories/M_ErrText.v
theories/S_ErrText.v
theories/P_ErrText.v
theories/T_ErrText.v
theories/M_Beside.v
theories/T_Beside.v
theories/M_ConcLi.v
theories/S_ConcLi.v
theories/P_ConcLi.v
theories/T_ConcLi.v
theories/S_Value.v
theories/T_Value.v
theories/M_Reuse.v
theories/S_Reuse.v
theories/P_Reuse.v
theories/T_Reuse.v
theories/T_Far.v
theories/S_Oracle.v
theories/P_Oracle.v
theories/T_Oracle.v
theories/S_Third.v
theories/T_Third.v
theories/T_Halves.v
theories/S_Strict.v
theories/T_Strict.v
theories/S_Weak.v
theories/T_Weak.v
theories/S_Crash.v
theories/T_Crash.v
theories/T_StrictJoint.v
theories/S_Final.v
theories/T_Final.v
theories/M_Window.v
theories/S_Window.v
theories/P_Window.v
theories/T_Window.v
theories/T_ValueEx.v
theories/S_Cost.v
theories/T_CostRuns.v
theories/M_Nil.v
theories/S_Nil.v
theories/T_Nil.v
theories/M_Fault.v
theories/S_Fault.v
theories/P_Fault.v
theories/T_Fault.v
theories/M_Hashed.v
theories/S_Hashed.v
theories/T_Hashed.v
theories/M_HashedBlock.v
theories/S_HashedBlock.v
theories/T_HashedBlock.v
