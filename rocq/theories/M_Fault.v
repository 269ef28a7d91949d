(** Where base64 decoding fails: the offset in the error of DecodeString
    (encoding/base64, external: decodeQuantum and CorruptInputError). *)
From Verif Require Export M_Encryption M_ErrText.

(** crypto/Encryption.go:34: newlines skipped after padding: how many, and what follows. *)
Fixpoint skip_nl (s : bytes) : N * bytes :=
  match s with
  | c :: r => if is_nl c then let (n, r') := skip_nl r in (n + 1, r') else (0, s)
  | [] => (0, [])
  end.
(** crypto/Encryption.go:34: what may follow the padding. *)
Definition b64_garbage (si : N) (s : bytes) : option N :=
  match skip_nl s with (_, []) => None | (n, _) => Some (si + n) end.
(** crypto/Encryption.go:34 (decodeQuantum): [si] bytes have been read, [j] digits of the current four. *)
Fixpoint b64_fault_from (si : N) (j : nat) (s : bytes) {struct s} : option N :=
  match s with
  | [] => match j with O => None | _ => Some (si - N.of_nat j) end
  | c :: r =>
      match b64_val c with
      | Some _ => b64_fault_from (si + 1) (if Nat.eqb j 3 then 0 else S j)%nat r
      | None =>
          if is_nl c then b64_fault_from (si + 1) j r
          else if byte_eqb c x3d then
            match j with
            | 2%nat =>
                match skip_nl r with
                | (n, []) => Some (si + 1 + n)
                | (n, p :: r') => if byte_eqb p x3d then b64_garbage (si + 1 + n + 1) r' else Some (si + n)
                end
            | 3%nat => b64_garbage (si + 1) r
            | _ => Some si
            end
          else Some si
      end
  end.
(** crypto/Encryption.go:34 (DecodeString): the offset named by its error. *)
Definition b64_fault (s : bytes) : option N := b64_fault_from 0 0 s.

(** crypto/Encryption.go:26-39 (Decrypt): the text of its error, if it returns one. *)
Definition decrypt_says (ciph : block) (ciphertext : bytes) : option bytes :=
  match decrypt ciph ciphertext with
  | (Err EBase64, after) =>
      match b64_fault (skipn 16 after) with
      | Some k => Some (str "illegal base64 data at input byte " ++ dec k)
      | None => None
      end
  | (Err ECipherShort, _) => Some (str "ciphertext too short")
  | _ => None
  end.
