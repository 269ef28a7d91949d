(** Model of crypto/Encryption.go, with the parts of crypto/cipher (CFB mode) and
    encoding/base64 (StdEncoding) it uses. *)
From Verif Require Export GoRt.

(** A cipher.Block: its block size and its one-block encryption function. *)
(** crypto/Encryption.go:13, 26: the argument. *)
Record block := mk_block { blk_size : nat; blk_enc : bytes -> bytes }.

(** Bytewise xor of the two lists up to the shorter length (cipher's xorBytes). *)
(** crypto/Encryption.go:21, 33. *)
Fixpoint xor_bytes (a b : bytes) : bytes :=
  match a, b with
  | x :: r, y :: s => n2b (N.lxor (b2n x) (b2n y)) :: xor_bytes r s
  | _, _ => []
  end.

(** cipher.cfb XORKeyStream (external): the key stream of each block is the
    encryption of the previous ciphertext block, the first one of the IV. Fuel:
    the length of the text. *)
(** crypto/Encryption.go:20-21. *)
Fixpoint cfb_encrypt (fuel : nat) (E : bytes -> bytes) (bs : nat) (prev txt : bytes) {struct fuel} : bytes :=
  match fuel with
  | O => []
  | S f =>
      match txt with
      | [] => []
      | _ => let c := xor_bytes (firstn bs txt) (E prev) in
             c ++ cfb_encrypt f E bs c (skipn bs txt)
      end
  end.

(** crypto/Encryption.go:31-33: the same with the ciphertext blocks of the argument. *)
Fixpoint cfb_decrypt (fuel : nat) (E : bytes -> bytes) (bs : nat) (prev txt : bytes) {struct fuel} : bytes :=
  match fuel with
  | O => []
  | S f =>
      match txt with
      | [] => []
      | _ => xor_bytes (firstn bs txt) (E prev)
             ++ cfb_decrypt f E bs (firstn bs txt) (skipn bs txt)
      end
  end.

(** encoding/base64 StdEncoding (external). *)
(** crypto/Encryption.go:14, 34. *)
Definition b64_alphabet : bytes :=
  str "ABCDEFGHIJKLMNOPQRSTUVWXYZabcdefghijklmnopqrstuvwxyz0123456789+/".
(** crypto/Encryption.go:14: one character. *)
Definition b64_char (n : N) : byte := nth (N.to_nat n) b64_alphabet x00.

(** crypto/Encryption.go:14 (EncodeToString). *)
Fixpoint b64_encode (s : bytes) : bytes :=
  match s with
  | [] => []
  | [a] => let v := b2n a * 65536 in
           [b64_char (v / 262144); b64_char (v / 4096 mod 64); x3d; x3d]
  | [a; b] => let v := b2n a * 65536 + b2n b * 256 in
              [b64_char (v / 262144); b64_char (v / 4096 mod 64); b64_char (v / 64 mod 64); x3d]
  | a :: b :: c :: r =>
      let v := b2n a * 65536 + b2n b * 256 + b2n c in
      b64_char (v / 262144) :: b64_char (v / 4096 mod 64)
      :: b64_char (v / 64 mod 64) :: b64_char (v mod 64) :: b64_encode r
  end.

(** crypto/Encryption.go:34: the value of a character. *)
Definition b64_val (c : byte) : option N :=
  let n := b2n c in
  if (65 <=? n) && (n <=? 90) then Some (n - 65)
  else if (97 <=? n) && (n <=? 122) then Some (n - 71)
  else if (48 <=? n) && (n <=? 57) then Some (n + 4)
  else if n =? 43 then Some 62
  else if n =? 47 then Some 63
  else None.

(** crypto/Encryption.go:34: the characters DecodeString skips. *)
Definition is_nl (c : byte) : bool := match c with x0a | x0d => true | _ => false end.

(** crypto/Encryption.go:34 (base64 decodeQuantum, external): newlines are skipped, padding must end the text; bits beyond
    the last byte are ignored (non-strict mode). [q] holds the sextets of the
    current quantum. *)
Fixpoint b64_decode_from (q : list N) (s : bytes) {struct s} : res bytes :=
  match s with
  | [] => match q with [] => Ok [] | _ => Err EBase64 end
  | c :: r =>
      match b64_val c with
      | Some v =>
          match q with
          | [x; y; z] =>
              rest <- b64_decode_from [] r ;;
              Ok (n2b (x * 4 + y / 16) :: n2b (y * 16 + z / 4) :: n2b (z * 64 + v) :: rest)
          | _ => b64_decode_from (q ++ [v]) r
          end
      | None =>
          if is_nl c then b64_decode_from q r
          else if byte_eqb c x3d then
            match q with
            | [x; y] =>
                match filter (fun c => negb (is_nl c)) r with
                | [p] => if byte_eqb p x3d then Ok [n2b (x * 4 + y / 16)] else Err EBase64
                | _ => Err EBase64
                end
            | [x; y; z] =>
                match filter (fun c => negb (is_nl c)) r with
                | [] => Ok [n2b (x * 4 + y / 16); n2b (y * 16 + z / 4)]
                | _ => Err EBase64
                end
            | _ => Err EBase64
            end
          else Err EBase64
      end
  end.
(** crypto/Encryption.go:34 (DecodeString). *)
Definition b64_decode (s : bytes) : res bytes := b64_decode_from [] s.

(** crypto/Encryption.go:13-23 (Encrypt). [iv] is the outcome of
    [io.ReadFull(rand.Reader, iv)]: 16 bytes or an error.
    cipher.NewCFBEncrypter panics unless the IV length is the block size. *)
Definition encrypt (ciph : block) (iv : res bytes) (text : bytes) : res bytes :=
  let b := b64_encode text in
  iv <- iv ;;
  if negb (Nat.eqb (length iv) (blk_size ciph)) then Panic else
  Ok (iv ++ cfb_encrypt (length b) (blk_enc ciph) (blk_size ciph) iv b).

(** crypto/Encryption.go:26-39 (Decrypt): the result, and the argument slice
    afterwards (line 33 decrypts in place). *)
Definition decrypt (ciph : block) (ciphertext : bytes) : res bytes * bytes :=
  if Nat.ltb (length ciphertext) 16 then (Err ECipherShort, ciphertext) else
  let iv := firstn 16 ciphertext in
  if negb (Nat.eqb 16 (blk_size ciph)) then (Panic, ciphertext) else
  let text := skipn 16 ciphertext in
  let text := cfb_decrypt (length text) (blk_enc ciph) (blk_size ciph) iv text in
  (b64_decode text, iv ++ text).
