(** Specification for C102: which calls can stop a program. *)
From Verif Require Export S_Script S_Tx S_RedeemApi M_Coinbase M_Difficulty M_Encryption M_Signer M_Bip276 M_Block M_Text.

(** While the elements of [b] are read one after the other, a push is met whose length makes the 16-bit (32-bit)
    arithmetic of its position overflow. *)
Definition overflows (b : bytes) : Prop := exists p ps t, b = p ++ t /\ safe_elems p ps /\ wraps t.
