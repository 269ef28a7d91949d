(** Model of script/Opcodes.go: constants and the two name tables.
    Generated from the Go source by a script (same order of entries). *)
From Verif Require Export GoRt.

(** script/Opcodes.go:5-267 (the constants used by the other files). *)
Definition OpFALSE : byte := x00.
(** script/Opcodes.go:7. *)
Definition OpZERO : byte := x00.
(** script/Opcodes.go:84. *)
Definition OpPUSHDATA1 : byte := x4c.
(** script/Opcodes.go:85. *)
Definition OpPUSHDATA2 : byte := x4d.
(** script/Opcodes.go:86. *)
Definition OpPUSHDATA4 : byte := x4e.
(** script/Opcodes.go:89. *)
Definition OpBASE : byte := x50.
(** script/Opcodes.go:91. *)
Definition OpONE : byte := x51.
(** script/Opcodes.go:107. *)
Definition Op16 : byte := x60.
(** script/Opcodes.go:117. *)
Definition OpRETURN : byte := x6a.
(** script/Opcodes.go:129. *)
Definition OpDUP : byte := x76.
(** script/Opcodes.go:146. *)
Definition OpEQUAL : byte := x87.
(** script/Opcodes.go:147. *)
Definition OpEQUALVERIFY : byte := x88.
(** script/Opcodes.go:180. *)
Definition OpHASH160 : byte := xa9.
(** script/Opcodes.go:183. *)
Definition OpCHECKSIG : byte := xac.
(** script/Opcodes.go:185. *)
Definition OpCHECKMULTISIG : byte := xae.

(** script/Opcodes.go:269-531 (opCodeStrings). *)
Definition opCodeStrings : list (bytes * byte) :=
  [(str "OP_0", x00);
   (str "OP_ZERO", x00);
   (str "OP_FALSE", x00);
   (str "OP_DATA_1", x01);
   (str "OP_DATA_2", x02);
   (str "OP_DATA_3", x03);
   (str "OP_DATA_4", x04);
   (str "OP_DATA_5", x05);
   (str "OP_DATA_6", x06);
   (str "OP_DATA_7", x07);
   (str "OP_DATA_8", x08);
   (str "OP_DATA_9", x09);
   (str "OP_DATA_10", x0a);
   (str "OP_DATA_11", x0b);
   (str "OP_DATA_12", x0c);
   (str "OP_DATA_13", x0d);
   (str "OP_DATA_14", x0e);
   (str "OP_DATA_15", x0f);
   (str "OP_DATA_16", x10);
   (str "OP_DATA_17", x11);
   (str "OP_DATA_18", x12);
   (str "OP_DATA_19", x13);
   (str "OP_DATA_20", x14);
   (str "OP_DATA_21", x15);
   (str "OP_DATA_22", x16);
   (str "OP_DATA_23", x17);
   (str "OP_DATA_24", x18);
   (str "OP_DATA_25", x19);
   (str "OP_DATA_26", x1a);
   (str "OP_DATA_27", x1b);
   (str "OP_DATA_28", x1c);
   (str "OP_DATA_29", x1d);
   (str "OP_DATA_30", x1e);
   (str "OP_DATA_31", x1f);
   (str "OP_DATA_32", x20);
   (str "OP_DATA_33", x21);
   (str "OP_DATA_34", x22);
   (str "OP_DATA_35", x23);
   (str "OP_DATA_36", x24);
   (str "OP_DATA_37", x25);
   (str "OP_DATA_38", x26);
   (str "OP_DATA_39", x27);
   (str "OP_DATA_40", x28);
   (str "OP_DATA_41", x29);
   (str "OP_DATA_42", x2a);
   (str "OP_DATA_43", x2b);
   (str "OP_DATA_44", x2c);
   (str "OP_DATA_45", x2d);
   (str "OP_DATA_46", x2e);
   (str "OP_DATA_47", x2f);
   (str "OP_DATA_48", x30);
   (str "OP_DATA_49", x31);
   (str "OP_DATA_50", x32);
   (str "OP_DATA_51", x33);
   (str "OP_DATA_52", x34);
   (str "OP_DATA_53", x35);
   (str "OP_DATA_54", x36);
   (str "OP_DATA_55", x37);
   (str "OP_DATA_56", x38);
   (str "OP_DATA_57", x39);
   (str "OP_DATA_58", x3a);
   (str "OP_DATA_59", x3b);
   (str "OP_DATA_60", x3c);
   (str "OP_DATA_61", x3d);
   (str "OP_DATA_62", x3e);
   (str "OP_DATA_63", x3f);
   (str "OP_DATA_64", x40);
   (str "OP_DATA_65", x41);
   (str "OP_DATA_66", x42);
   (str "OP_DATA_67", x43);
   (str "OP_DATA_68", x44);
   (str "OP_DATA_69", x45);
   (str "OP_DATA_70", x46);
   (str "OP_DATA_71", x47);
   (str "OP_DATA_72", x48);
   (str "OP_DATA_73", x49);
   (str "OP_DATA_74", x4a);
   (str "OP_DATA_75", x4b);
   (str "OP_PUSHDATA1", x4c);
   (str "OP_PUSHDATA2", x4d);
   (str "OP_PUSHDATA4", x4e);
   (str "OP_1NEGATE", x4f);
   (str "OP_RESERVED", x50);
   (str "OP_BASE", x50);
   (str "OP_1", x51);
   (str "OP_ONE", x51);
   (str "OP_TRUE", x51);
   (str "OP_2", x52);
   (str "OP_3", x53);
   (str "OP_4", x54);
   (str "OP_5", x55);
   (str "OP_6", x56);
   (str "OP_7", x57);
   (str "OP_8", x58);
   (str "OP_9", x59);
   (str "OP_10", x5a);
   (str "OP_11", x5b);
   (str "OP_12", x5c);
   (str "OP_13", x5d);
   (str "OP_14", x5e);
   (str "OP_15", x5f);
   (str "OP_16", x60);
   (str "OP_NOP", x61);
   (str "OP_VER", x62);
   (str "OP_IF", x63);
   (str "OP_NOTIF", x64);
   (str "OP_VERIF", x65);
   (str "OP_VERNOTIF", x66);
   (str "OP_ELSE", x67);
   (str "OP_ENDIF", x68);
   (str "OP_VERIFY", x69);
   (str "OP_RETURN", x6a);
   (str "OP_TOALTSTACK", x6b);
   (str "OP_FROMALTSTACK", x6c);
   (str "OP_2DROP", x6d);
   (str "OP_2DUP", x6e);
   (str "OP_3DUP", x6f);
   (str "OP_2OVER", x70);
   (str "OP_2ROT", x71);
   (str "OP_2SWAP", x72);
   (str "OP_IFDUP", x73);
   (str "OP_DEPTH", x74);
   (str "OP_DROP", x75);
   (str "OP_DUP", x76);
   (str "OP_NIP", x77);
   (str "OP_OVER", x78);
   (str "OP_PICK", x79);
   (str "OP_ROLL", x7a);
   (str "OP_ROT", x7b);
   (str "OP_SWAP", x7c);
   (str "OP_TUCK", x7d);
   (str "OP_CAT", x7e);
   (str "OP_SPLIT", x7f);
   (str "OP_NUM2BIN", x80);
   (str "OP_BIN2NUM", x81);
   (str "OP_SIZE", x82);
   (str "OP_INVERT", x83);
   (str "OP_AND", x84);
   (str "OP_OR", x85);
   (str "OP_XOR", x86);
   (str "OP_EQUAL", x87);
   (str "OP_EQUALVERIFY", x88);
   (str "OP_RESERVED1", x89);
   (str "OP_RESERVED2", x8a);
   (str "OP_1ADD", x8b);
   (str "OP_1SUB", x8c);
   (str "OP_2MUL", x8d);
   (str "OP_2DIV", x8e);
   (str "OP_NEGATE", x8f);
   (str "OP_ABS", x90);
   (str "OP_NOT", x91);
   (str "OP_0NOTEQUAL", x92);
   (str "OP_ADD", x93);
   (str "OP_SUB", x94);
   (str "OP_MUL", x95);
   (str "OP_DIV", x96);
   (str "OP_MOD", x97);
   (str "OP_LSHIFT", x98);
   (str "OP_RSHIFT", x99);
   (str "OP_BOOLAND", x9a);
   (str "OP_BOOLOR", x9b);
   (str "OP_NUMEQUAL", x9c);
   (str "OP_NUMEQUALVERIFY", x9d);
   (str "OP_NUMNOTEQUAL", x9e);
   (str "OP_LESSTHAN", x9f);
   (str "OP_GREATERTHAN", xa0);
   (str "OP_LESSTHANOREQUAL", xa1);
   (str "OP_GREATERTHANOREQUAL", xa2);
   (str "OP_MIN", xa3);
   (str "OP_MAX", xa4);
   (str "OP_WITHIN", xa5);
   (str "OP_RIPEMD160", xa6);
   (str "OP_SHA1", xa7);
   (str "OP_SHA256", xa8);
   (str "OP_HASH160", xa9);
   (str "OP_HASH256", xaa);
   (str "OP_CODESEPARATOR", xab);
   (str "OP_CHECKSIG", xac);
   (str "OP_CHECKSIGVERIFY", xad);
   (str "OP_CHECKMULTISIG", xae);
   (str "OP_CHECKMULTISIGVERIFY", xaf);
   (str "OP_NOP1", xb0);
   (str "OP_NOP2", xb1);
   (str "OP_NOP3", xb2);
   (str "OP_NOP4", xb3);
   (str "OP_NOP5", xb4);
   (str "OP_NOP6", xb5);
   (str "OP_NOP7", xb6);
   (str "OP_NOP8", xb7);
   (str "OP_NOP9", xb8);
   (str "OP_NOP10", xb9);
   (str "OP_UNKNOWN186", xba);
   (str "OP_UNKNOWN187", xbb);
   (str "OP_UNKNOWN188", xbc);
   (str "OP_UNKNOWN189", xbd);
   (str "OP_UNKNOWN190", xbe);
   (str "OP_UNKNOWN191", xbf);
   (str "OP_UNKNOWN192", xc0);
   (str "OP_UNKNOWN193", xc1);
   (str "OP_UNKNOWN194", xc2);
   (str "OP_UNKNOWN195", xc3);
   (str "OP_UNKNOWN196", xc4);
   (str "OP_UNKNOWN197", xc5);
   (str "OP_UNKNOWN198", xc6);
   (str "OP_UNKNOWN199", xc7);
   (str "OP_UNKNOWN200", xc8);
   (str "OP_UNKNOWN201", xc9);
   (str "OP_UNKNOWN202", xca);
   (str "OP_UNKNOWN203", xcb);
   (str "OP_UNKNOWN204", xcc);
   (str "OP_UNKNOWN205", xcd);
   (str "OP_UNKNOWN206", xce);
   (str "OP_UNKNOWN207", xcf);
   (str "OP_UNKNOWN208", xd0);
   (str "OP_UNKNOWN209", xd1);
   (str "OP_UNKNOWN210", xd2);
   (str "OP_UNKNOWN211", xd3);
   (str "OP_UNKNOWN212", xd4);
   (str "OP_UNKNOWN213", xd5);
   (str "OP_UNKNOWN214", xd6);
   (str "OP_UNKNOWN215", xd7);
   (str "OP_UNKNOWN216", xd8);
   (str "OP_UNKNOWN217", xd9);
   (str "OP_UNKNOWN218", xda);
   (str "OP_UNKNOWN219", xdb);
   (str "OP_UNKNOWN220", xdc);
   (str "OP_UNKNOWN221", xdd);
   (str "OP_UNKNOWN222", xde);
   (str "OP_UNKNOWN223", xdf);
   (str "OP_UNKNOWN224", xe0);
   (str "OP_UNKNOWN225", xe1);
   (str "OP_UNKNOWN226", xe2);
   (str "OP_UNKNOWN227", xe3);
   (str "OP_UNKNOWN228", xe4);
   (str "OP_UNKNOWN229", xe5);
   (str "OP_UNKNOWN230", xe6);
   (str "OP_UNKNOWN231", xe7);
   (str "OP_UNKNOWN232", xe8);
   (str "OP_UNKNOWN233", xe9);
   (str "OP_UNKNOWN234", xea);
   (str "OP_UNKNOWN235", xeb);
   (str "OP_UNKNOWN236", xec);
   (str "OP_UNKNOWN237", xed);
   (str "OP_UNKNOWN238", xee);
   (str "OP_UNKNOWN239", xef);
   (str "OP_UNKNOWN240", xf0);
   (str "OP_UNKNOWN241", xf1);
   (str "OP_UNKNOWN242", xf2);
   (str "OP_UNKNOWN243", xf3);
   (str "OP_UNKNOWN244", xf4);
   (str "OP_UNKNOWN245", xf5);
   (str "OP_UNKNOWN246", xf6);
   (str "OP_UNKNOWN247", xf7);
   (str "OP_UNKNOWN248", xf8);
   (str "OP_UNKNOWN249", xf9);
   (str "OP_SMALLINTEGER", xfa);
   (str "OP_PUBKEYS", xfb);
   (str "OP_UNKNOWN252", xfc);
   (str "OP_PUBKEYHASH", xfd);
   (str "OP_PUBKEY", xfe);
   (str "OP_INVALIDOPCODE", xff)].

(** script/Opcodes.go:533-790 (opCodeValues). *)
Definition opCodeValues : list (byte * bytes) :=
  [(x00, str "OP_FALSE");
   (x01, str "OP_DATA_1");
   (x02, str "OP_DATA_2");
   (x03, str "OP_DATA_3");
   (x04, str "OP_DATA_4");
   (x05, str "OP_DATA_5");
   (x06, str "OP_DATA_6");
   (x07, str "OP_DATA_7");
   (x08, str "OP_DATA_8");
   (x09, str "OP_DATA_9");
   (x0a, str "OP_DATA_10");
   (x0b, str "OP_DATA_11");
   (x0c, str "OP_DATA_12");
   (x0d, str "OP_DATA_13");
   (x0e, str "OP_DATA_14");
   (x0f, str "OP_DATA_15");
   (x10, str "OP_DATA_16");
   (x11, str "OP_DATA_17");
   (x12, str "OP_DATA_18");
   (x13, str "OP_DATA_19");
   (x14, str "OP_DATA_20");
   (x15, str "OP_DATA_21");
   (x16, str "OP_DATA_22");
   (x17, str "OP_DATA_23");
   (x18, str "OP_DATA_24");
   (x19, str "OP_DATA_25");
   (x1a, str "OP_DATA_26");
   (x1b, str "OP_DATA_27");
   (x1c, str "OP_DATA_28");
   (x1d, str "OP_DATA_29");
   (x1e, str "OP_DATA_30");
   (x1f, str "OP_DATA_31");
   (x20, str "OP_DATA_32");
   (x21, str "OP_DATA_33");
   (x22, str "OP_DATA_34");
   (x23, str "OP_DATA_35");
   (x24, str "OP_DATA_36");
   (x25, str "OP_DATA_37");
   (x26, str "OP_DATA_38");
   (x27, str "OP_DATA_39");
   (x28, str "OP_DATA_40");
   (x29, str "OP_DATA_41");
   (x2a, str "OP_DATA_42");
   (x2b, str "OP_DATA_43");
   (x2c, str "OP_DATA_44");
   (x2d, str "OP_DATA_45");
   (x2e, str "OP_DATA_46");
   (x2f, str "OP_DATA_47");
   (x30, str "OP_DATA_48");
   (x31, str "OP_DATA_49");
   (x32, str "OP_DATA_50");
   (x33, str "OP_DATA_51");
   (x34, str "OP_DATA_52");
   (x35, str "OP_DATA_53");
   (x36, str "OP_DATA_54");
   (x37, str "OP_DATA_55");
   (x38, str "OP_DATA_56");
   (x39, str "OP_DATA_57");
   (x3a, str "OP_DATA_58");
   (x3b, str "OP_DATA_59");
   (x3c, str "OP_DATA_60");
   (x3d, str "OP_DATA_61");
   (x3e, str "OP_DATA_62");
   (x3f, str "OP_DATA_63");
   (x40, str "OP_DATA_64");
   (x41, str "OP_DATA_65");
   (x42, str "OP_DATA_66");
   (x43, str "OP_DATA_67");
   (x44, str "OP_DATA_68");
   (x45, str "OP_DATA_69");
   (x46, str "OP_DATA_70");
   (x47, str "OP_DATA_71");
   (x48, str "OP_DATA_72");
   (x49, str "OP_DATA_73");
   (x4a, str "OP_DATA_74");
   (x4b, str "OP_DATA_75");
   (x4c, str "OP_PUSHDATA1");
   (x4d, str "OP_PUSHDATA2");
   (x4e, str "OP_PUSHDATA4");
   (x4f, str "OP_1NEGATE");
   (x50, str "OP_BASE");
   (x51, str "OP_TRUE");
   (x52, str "OP_2");
   (x53, str "OP_3");
   (x54, str "OP_4");
   (x55, str "OP_5");
   (x56, str "OP_6");
   (x57, str "OP_7");
   (x58, str "OP_8");
   (x59, str "OP_9");
   (x5a, str "OP_10");
   (x5b, str "OP_11");
   (x5c, str "OP_12");
   (x5d, str "OP_13");
   (x5e, str "OP_14");
   (x5f, str "OP_15");
   (x60, str "OP_16");
   (x61, str "OP_NOP");
   (x62, str "OP_VER");
   (x63, str "OP_IF");
   (x64, str "OP_NOTIF");
   (x65, str "OP_VERIF");
   (x66, str "OP_VERNOTIF");
   (x67, str "OP_ELSE");
   (x68, str "OP_ENDIF");
   (x69, str "OP_VERIFY");
   (x6a, str "OP_RETURN");
   (x6b, str "OP_TOALTSTACK");
   (x6c, str "OP_FROMALTSTACK");
   (x6d, str "OP_2DROP");
   (x6e, str "OP_2DUP");
   (x6f, str "OP_3DUP");
   (x70, str "OP_2OVER");
   (x71, str "OP_2ROT");
   (x72, str "OP_2SWAP");
   (x73, str "OP_IFDUP");
   (x74, str "OP_DEPTH");
   (x75, str "OP_DROP");
   (x76, str "OP_DUP");
   (x77, str "OP_NIP");
   (x78, str "OP_OVER");
   (x79, str "OP_PICK");
   (x7a, str "OP_ROLL");
   (x7b, str "OP_ROT");
   (x7c, str "OP_SWAP");
   (x7d, str "OP_TUCK");
   (x7e, str "OP_CAT");
   (x7f, str "OP_SPLIT");
   (x80, str "OP_NUM2BIN");
   (x81, str "OP_BIN2NUM");
   (x82, str "OP_SIZE");
   (x83, str "OP_INVERT");
   (x84, str "OP_AND");
   (x85, str "OP_OR");
   (x86, str "OP_XOR");
   (x87, str "OP_EQUAL");
   (x88, str "OP_EQUALVERIFY");
   (x89, str "OP_RESERVED1");
   (x8a, str "OP_RESERVED2");
   (x8b, str "OP_1ADD");
   (x8c, str "OP_1SUB");
   (x8d, str "OP_2MUL");
   (x8e, str "OP_2DIV");
   (x8f, str "OP_NEGATE");
   (x90, str "OP_ABS");
   (x91, str "OP_NOT");
   (x92, str "OP_0NOTEQUAL");
   (x93, str "OP_ADD");
   (x94, str "OP_SUB");
   (x95, str "OP_MUL");
   (x96, str "OP_DIV");
   (x97, str "OP_MOD");
   (x98, str "OP_LSHIFT");
   (x99, str "OP_RSHIFT");
   (x9a, str "OP_BOOLAND");
   (x9b, str "OP_BOOLOR");
   (x9c, str "OP_NUMEQUAL");
   (x9d, str "OP_NUMEQUALVERIFY");
   (x9e, str "OP_NUMNOTEQUAL");
   (x9f, str "OP_LESSTHAN");
   (xa0, str "OP_GREATERTHAN");
   (xa1, str "OP_LESSTHANOREQUAL");
   (xa2, str "OP_GREATERTHANOREQUAL");
   (xa3, str "OP_MIN");
   (xa4, str "OP_MAX");
   (xa5, str "OP_WITHIN");
   (xa6, str "OP_RIPEMD160");
   (xa7, str "OP_SHA1");
   (xa8, str "OP_SHA256");
   (xa9, str "OP_HASH160");
   (xaa, str "OP_HASH256");
   (xab, str "OP_CODESEPARATOR");
   (xac, str "OP_CHECKSIG");
   (xad, str "OP_CHECKSIGVERIFY");
   (xae, str "OP_CHECKMULTISIG");
   (xaf, str "OP_CHECKMULTISIGVERIFY");
   (xb0, str "OP_NOP1");
   (xb1, str "OP_NOP2");
   (xb2, str "OP_NOP3");
   (xb3, str "OP_NOP4");
   (xb4, str "OP_NOP5");
   (xb5, str "OP_NOP6");
   (xb6, str "OP_NOP7");
   (xb7, str "OP_NOP8");
   (xb8, str "OP_NOP9");
   (xb9, str "OP_NOP10");
   (xba, str "OP_UNKNOWN186");
   (xbb, str "OP_UNKNOWN187");
   (xbc, str "OP_UNKNOWN188");
   (xbd, str "OP_UNKNOWN189");
   (xbe, str "OP_UNKNOWN190");
   (xbf, str "OP_UNKNOWN191");
   (xc0, str "OP_UNKNOWN192");
   (xc1, str "OP_UNKNOWN193");
   (xc2, str "OP_UNKNOWN194");
   (xc3, str "OP_UNKNOWN195");
   (xc4, str "OP_UNKNOWN196");
   (xc5, str "OP_UNKNOWN197");
   (xc6, str "OP_UNKNOWN198");
   (xc7, str "OP_UNKNOWN199");
   (xc8, str "OP_UNKNOWN200");
   (xc9, str "OP_UNKNOWN201");
   (xca, str "OP_UNKNOWN202");
   (xcb, str "OP_UNKNOWN203");
   (xcc, str "OP_UNKNOWN204");
   (xcd, str "OP_UNKNOWN205");
   (xce, str "OP_UNKNOWN206");
   (xcf, str "OP_UNKNOWN207");
   (xd0, str "OP_UNKNOWN208");
   (xd1, str "OP_UNKNOWN209");
   (xd2, str "OP_UNKNOWN210");
   (xd3, str "OP_UNKNOWN211");
   (xd4, str "OP_UNKNOWN212");
   (xd5, str "OP_UNKNOWN213");
   (xd6, str "OP_UNKNOWN214");
   (xd7, str "OP_UNKNOWN215");
   (xd8, str "OP_UNKNOWN216");
   (xd9, str "OP_UNKNOWN217");
   (xda, str "OP_UNKNOWN218");
   (xdb, str "OP_UNKNOWN219");
   (xdc, str "OP_UNKNOWN220");
   (xdd, str "OP_UNKNOWN221");
   (xde, str "OP_UNKNOWN222");
   (xdf, str "OP_UNKNOWN223");
   (xe0, str "OP_UNKNOWN224");
   (xe1, str "OP_UNKNOWN225");
   (xe2, str "OP_UNKNOWN226");
   (xe3, str "OP_UNKNOWN227");
   (xe4, str "OP_UNKNOWN228");
   (xe5, str "OP_UNKNOWN229");
   (xe6, str "OP_UNKNOWN230");
   (xe7, str "OP_UNKNOWN231");
   (xe8, str "OP_UNKNOWN232");
   (xe9, str "OP_UNKNOWN233");
   (xea, str "OP_UNKNOWN234");
   (xeb, str "OP_UNKNOWN235");
   (xec, str "OP_UNKNOWN236");
   (xed, str "OP_UNKNOWN237");
   (xee, str "OP_UNKNOWN238");
   (xef, str "OP_UNKNOWN239");
   (xf0, str "OP_UNKNOWN240");
   (xf1, str "OP_UNKNOWN241");
   (xf2, str "OP_UNKNOWN242");
   (xf3, str "OP_UNKNOWN243");
   (xf4, str "OP_UNKNOWN244");
   (xf5, str "OP_UNKNOWN245");
   (xf6, str "OP_UNKNOWN246");
   (xf7, str "OP_UNKNOWN247");
   (xf8, str "OP_UNKNOWN248");
   (xf9, str "OP_UNKNOWN249");
   (xfa, str "OP_SMALLINTEGER");
   (xfb, str "OP_PUBKEYS");
   (xfc, str "OP_UNKNOWN252");
   (xfd, str "OP_PUBKEYHASH");
   (xfe, str "OP_PUBKEY");
   (xff, str "OP_INVALIDOPCODE")].

(** script/Script.go:38 (opCodeStrings): Go map lookup with the comma-ok form. *)
Fixpoint lookup_str (m : list (bytes * byte)) (k : bytes) : option byte :=
  match m with
  | [] => None
  | (k', v) :: r => if bytes_eqb k k' then Some v else lookup_str r k
  end.

(** script/Script.go:196 (opCodeValues): Go map lookup without comma-ok: zero value (empty string) when absent. *)
Fixpoint lookup_val (m : list (byte * bytes)) (k : byte) : bytes :=
  match m with
  | [] => []
  | (k', v) :: r => if byte_eqb k k' then v else lookup_val r k
  end.
