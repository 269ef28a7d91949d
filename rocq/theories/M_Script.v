(** Model of script/Script.go and script/UnlockingScript.go. A [Script] is its
    bytes; a [*Script] that may be nil is an [option]. *)
From Verif Require Export S_Script M_Push M_Opcodes M_Bip276.

(** script/Script.go:17-23 (NewFromHexString); NewFromBytes (26-29) is the
    identity on the bytes. *)
Definition script_from_hex (s : bytes) : res bytes := of_hex s.

(** Methods with pointer receiver: the new script and the error, if any. *)
(** script/Script.go:129-179. *)
Definition meth := (bytes * option err)%type.

(** script/Script.go:129-137 (AppendPushData). [encode_parts] never panics. *)
Definition append_push_data (s d : bytes) : meth :=
  match encode_parts [d] with
  | Ok p => (s ++ p, None)
  | Err e => (s, Some e)
  | Panic => (s, None)
  end.

(** script/Script.go:140-147 (AppendPushDataHexString). *)
Definition append_push_data_hex (s h : bytes) : meth :=
  match of_hex h with
  | Ok d => append_push_data s d
  | Err e => (s, Some e)
  | Panic => (s, None)
  end.

(** script/Script.go:150-152 (AppendPushDataString). *)
Definition append_push_data_string (s t : bytes) : meth := append_push_data s t.

(** script/Script.go:155-163 (AppendPushDataArray). *)
Definition append_push_data_array (s : bytes) (d : list bytes) : meth :=
  match encode_parts d with
  | Ok p => (s ++ p, None)
  | Err e => (s, Some e)
  | Panic => (s, None)
  end.

(** script/Script.go:166-174 (AppendPushDataStrings). *)
Definition append_push_data_strings (s : bytes) (strs : list bytes) : meth :=
  let dataBytes := fold_left (fun acc t => acc ++ [t]) strs [] in
  append_push_data_array s dataBytes.

(** script/Script.go:177-179 (AppendOpCode). *)
Definition append_opcode (s : bytes) (o : byte) : bytes := s ++ [o].

(** script/Script.go:182-184 (ToString). *)
Definition script_to_string (s : bytes) : bytes := hex_encode s.

(** [strings.Split(str, " ")]: the sections between single spaces; at least one. *)
(** script/Script.go:33. *)
Fixpoint split_space (s : bytes) : list bytes :=
  match s with
  | [] => [[]]
  | c :: r =>
      if byte_eqb c x20 then [] :: split_space r
      else match split_space r with
           | [] => [[c]]
           | w :: ws => (c :: w) :: ws
           end
  end.

(** script/Script.go:37-46: the loop of NewFromASM over the sections. *)
Fixpoint asm_loop (s : bytes) (sections : list bytes) {struct sections} : res bytes :=
  match sections with
  | [] => Ok s
  | section :: rest =>
      match lookup_str opCodeStrings section with
      | Some val => asm_loop (append_opcode s val) rest
      | None =>
          match append_push_data_hex s section with
          | (s', None) => asm_loop s' rest
          | (_, Some _) => Err EInvalidOpcodeData
          end
      end
  end.

(** script/Script.go:32-49 (NewFromASM). *)
Definition script_from_asm (t : bytes) : res bytes := asm_loop [] (split_space t).

(** script/Script.go:202: [strings.TrimSpace] on ASCII text: tab, newline, vertical tab, form feed,
    carriage return and space. Simplification: the non-ASCII spaces U+0085 and
    U+00A0 are left out; ToASM's text is ASCII. *)
Definition is_space (c : byte) : bool :=
  match c with x09 | x0a | x0b | x0c | x0d | x20 => true | _ => false end.

(** script/Script.go:202: leading spaces. *)
Fixpoint trim_left (s : bytes) : bytes :=
  match s with
  | c :: r => if is_space c then trim_left r else s
  | [] => []
  end.

(** script/Script.go:202 (strings.TrimSpace). *)
Definition trim_space (s : bytes) : bytes := rev (trim_left (rev (trim_left s))).

(** script/Script.go:193-200: one step of the loop of ToASM. A map lookup of a
    missing key gives the empty string. *)
Definition asm_word (p : bytes) : bytes :=
  match p with
  | [c] => lookup_val opCodeValues c
  | _ => hex_encode p
  end.

(** script/Script.go:187-203 (ToASM). *)
Definition script_to_asm (s : bytes) : res bytes :=
  parts <- decode_parts s ;;
  Ok (trim_space (fold_left (fun acc p => (acc ++ str " ") ++ asm_word p) parts [])).

(** script/Script.go:64-78 (NewP2PKHFromPubKeyBytes). *)
Definition p2pkh_from_pubkey_bytes (pubKeyBytes : bytes) : bytes :=
  let hash := hash160 pubKeyBytes in
  let b := [OpDUP; OpHASH160; x14] in
  let b := b ++ hash in
  let b := b ++ [OpEQUALVERIFY] in
  b ++ [OpCHECKSIG].

(** script/Script.go:53-60 (NewP2PKHFromPubKeyStr). *)
Definition p2pkh_from_pubkey_str (pubKey : bytes) : res bytes :=
  b <- of_hex pubKey ;; Ok (p2pkh_from_pubkey_bytes b).

(** script/Script.go:82-99 (NewP2PKHFromPubKeyHashStr). *)
Definition p2pkh_from_pkh_str (pubKeyHash : bytes) : res bytes :=
  hash <- of_hex pubKeyHash ;;
  let b := [OpDUP; OpHASH160; x14] in
  let b := b ++ hash in
  let b := b ++ [OpEQUALVERIFY] in
  Ok (b ++ [OpCHECKSIG]).

(** script/Script.go:103-126 (NewP2PKHFromAddress). *)
Definition p2pkh_from_address (addr : bytes) : res bytes :=
  a <- addr_from_string addr ;;
  pkh <- of_hex (addr_pkh a) ;;
  let s := append_opcode [] OpDUP in
  let s := append_opcode s OpHASH160 in
  match append_push_data s pkh with
  | (_, Some e) => Err e
  | (s, None) =>
      let s := append_opcode s OpEQUALVERIFY in
      Ok (append_opcode s OpCHECKSIG)
  end.

(** script/Script.go:206-214 (IsP2PKH); [&&] short-circuits after the length
    test, so the indexing never panics. *)
Definition is_p2pkh (b : bytes) : bool :=
  Nat.eqb (length b) 25 &&
  byte_eqb (nth 0 b x00) OpDUP &&
  byte_eqb (nth 1 b x00) OpHASH160 &&
  byte_eqb (nth 2 b x00) x14 &&
  byte_eqb (nth 23 b x00) OpEQUALVERIFY &&
  byte_eqb (nth 24 b x00) OpCHECKSIG.

(** [p[0]] on a decoded part. *)
(** script/Script.go:217-284. *)
Definition first_byte (p : bytes) : res byte :=
  match p with [] => Panic | c :: _ => Ok c end.

(** script/Script.go:217-237 (IsP2PK). *)
Definition is_p2pk (s : bytes) : res bool :=
  match decode_parts s with
  | Panic => Panic
  | Err _ => Ok false
  | Ok parts =>
      match parts with
      | [p0; p1] =>
          if Nat.ltb 0 (length p0) then
            c1 <- first_byte p1 ;;
            if byte_eqb c1 OpCHECKSIG then
              version <- first_byte p0 ;;
              if (byte_eqb version x04 || byte_eqb version x06 || byte_eqb version x07)
                 && Nat.eqb (length p0) 65 then Ok true
              else if (byte_eqb version x03 || byte_eqb version x02)
                      && Nat.eqb (length p0) 33 then Ok true
              else Ok false
            else Ok false
          else Ok false
      | _ => Ok false
      end
  end.

(** script/Script.go:240-247 (IsP2SH). *)
Definition is_p2sh (b : bytes) : bool :=
  Nat.eqb (length b) 23 &&
  byte_eqb (nth 0 b x00) OpHASH160 &&
  byte_eqb (nth 1 b x00) x14 &&
  byte_eqb (nth 22 b x00) OpEQUAL.

(** script/Script.go:251-256 (IsData). *)
Definition is_data (b : bytes) : res bool :=
  b0 <- or_panic (nth_error b 0) ;;
  if byte_eqb b0 x6a then Ok true
  else if byte_eqb b0 x00 then
    b1 <- or_panic (nth_error b 1) ;; Ok (byte_eqb b1 x6a)
  else Ok false.

(** script/Script.go:283-285 (isSmallIntOp). *)
Definition is_small_int_op (opcode : byte) : bool :=
  byte_eqb opcode OpZERO || ((b2n OpONE <=? b2n opcode) && (b2n opcode <=? b2n Op16)).

(** script/Script.go:259-281 (IsMultisigOut). *)
Definition is_multisig_out (s : bytes) : res bool :=
  match decode_parts s with
  | Panic => Panic
  | Err _ => Ok false
  | Ok parts =>
      let n := length parts in
      if Nat.ltb n 3 then Ok false else
      c0 <- first_byte (nth 0 parts []) ;;
      if negb (is_small_int_op c0) then Ok false else
      (* for i := 1; i < len(parts)-2; i++ *)
      if existsb (fun p => Nat.ltb (length p) 1) (firstn (n - 3) (skipn 1 parts)) then Ok false else
      cn <- first_byte (nth (n - 2) parts []) ;;
      if is_small_int_op cn then
        cl <- first_byte (nth (n - 1) parts []) ;; Ok (byte_eqb cl OpCHECKMULTISIG)
      else Ok false
  end.

(** script/Script.go:288-303 (GetPublicKeyHash); the receiver may be nil. *)
Definition get_public_key_hash (s : option bytes) : res bytes :=
  match s with
  | None => Err EScriptEmpty
  | Some [] => Err EScriptEmpty
  | Some (b0 :: r) =>
      (* line 293 *)
      if negb (byte_eqb b0 x76) then Err ENotP2PKH else
      b1 <- or_panic (nth_error r 0) ;;
      if negb (byte_eqb b1 xa9) then Err ENotP2PKH else
      parts <- decode_parts (skipn 1 r) ;;
      or_panic (nth_error parts 0)
  end.

(** script/UnlockingScript.go:7-19 (NewP2PKHUnlockingScript): returns the script
    even beside an error. [flag] is a uint8. *)
Definition p2pkh_unlocking_script (pubKey sig : bytes) (flag : N) : meth :=
  let sigBuf := [] ++ sig in
  let sigBuf := sigBuf ++ [n2b flag] in
  append_push_data_array [] [sigBuf; pubKey].

(** One builder call (script/Script.go:129-179), and a sequence of them. *)
Definition run_call (s : bytes) (c : call) : meth :=
  match c with
  | CPush d => append_push_data s d
  | CPushHex h => append_push_data_hex s h
  | CPushString t => append_push_data_string s t
  | CPushArray l => append_push_data_array s l
  | CPushStrings l => append_push_data_strings s l
  | COpCode o => (append_opcode s o, None)
  end.

(** script/Script.go:129-179: a sequence of calls. *)
Fixpoint run_calls (s : bytes) (cs : list call) {struct cs} : bytes :=
  match cs with
  | [] => s
  | c :: r => run_calls (fst (run_call s c)) r
  end.

(** Did the call return an error? *)
(** script/Script.go:129-179. *)
Definition call_failed (s : bytes) (c : call) : Prop := snd (run_call s c) <> None.
