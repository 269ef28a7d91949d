(** Encrypt and Decrypt in several goroutines (crypto/Encryption.go).

    A cell is a byte of one array in which all the arguments lie; an argument is a slice of it given
    by offset and length. What a call allocates itself (the result of Encrypt, the base64 text, the
    registers of the mode of operation) is private. Simplification: slices are read and written one
    byte at a time in rising order. *)
From Verif Require Export M_Encryption M_ConcCb.

(** the loop of cipher.xorBytes with source and destination the same *)
(** crypto/Encryption.go:33. *)
Fixpoint c_xor {R} (i : nat) (ks : bytes) (k : bcall R) : bcall R :=
  match ks with
  | [] => k
  | x :: r => Rd (V:=bheld) i (fun b => Wr (V:=bheld) i (n2b (N.lxor (b2n b) (b2n x))) (c_xor (S i) r k))
  end.
(** cipher.cfb XORKeyStream (external) when decrypting: the block is copied into the register before it
    is overwritten. Fuel: the number of bytes. *)
(** crypto/Encryption.go:31-33. *)
Fixpoint c_cfb {R} (fuel : nat) (E : bytes -> bytes) (bs : nat) (next : bytes) (i n : nat) (k : bcall R) {struct fuel} : bcall R :=
  match fuel with
  | O => k
  | S f =>
      match n with
      | O => k
      | _ => let out := E next in let m := Nat.min bs n in
             c_take [] i m (fun src => c_xor i (firstn m out) (c_cfb f E bs src (i + m) (n - m) k))
      end
  end.
(** crypto/Encryption.go:26-39 (Decrypt) of the slice of length [len] at [off]. NewCFBDecrypter panics
    before it copies the IV. *)
Definition c_decrypt (ciph : block) (off len : nat) : bcall (res bytes) :=
  if Nat.ltb len 16 then Ret (Err ECipherShort) else
  if negb (Nat.eqb 16 (blk_size ciph)) then Ret Panic else
  c_take [] off 16 (fun iv =>
  c_cfb (len - 16) (blk_enc ciph) (blk_size ciph) iv (off + 16) (len - 16) (
  c_take [] (off + 16) (len - 16) (fun text => Ret (b64_decode text)))).
(** crypto/Encryption.go:13-23 (Encrypt): reads the text once (line 14). *)
Definition c_encrypt (ciph : block) (iv : res bytes) (off len : nat) : bcall (res bytes) :=
  c_take [] off len (fun text => Ret (encrypt ciph iv text)).
