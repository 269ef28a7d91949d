(** Specification: what an outsider sees of Decrypt. *)
From Verif Require Export M_Encryption.

(** Whether Decrypt with the cipher [E] (16-byte blocks) returns without error; not what it returns. *)
Definition answers (E : bytes -> bytes) (q : bytes) : bool :=
  match fst (decrypt (mk_block 16 E) q) with Ok _ => true | _ => false end.
