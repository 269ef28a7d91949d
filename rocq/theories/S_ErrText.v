(** Specification for C94. *)
From Verif Require Export M_ErrText.

(** errors whose text is the library's or the standard library's: not one of the key library,
    the random source or a caller's signer *)
Fixpoint own_text (e : err) : Prop :=
  match e with EExternal _ => False | EBip276Invalid e' => own_text e' | _ => True end.

(** a text in which [w] can be read *)
Definition quotes (t w : bytes) : Prop := exists p q, t = p ++ w ++ q.
