(** Specification of ASM text (C69). The two name tables are those of M_Opcodes.v. *)
From Verif Require Export S_Script S_Pay M_Opcodes.

(** [t] consists of the words [ws] with a single space between neighbours; a word
    may be empty. *)
Inductive words : bytes -> list bytes -> Prop :=
| words_one w : ~ In x20 w -> words w [w]
| words_more w t ws : ~ In x20 w -> words t ws -> words (w ++ x20 :: t) (w :: ws).

(** what NewFromASM makes of a word: the opcode of that name, or a shortest push of
    the data it denotes *)
Inductive asm_means : bytes -> bytes -> Prop :=
| means_op w c : In (w, c) opCodeStrings -> asm_means w [c]
| means_data w d h : (forall c, ~ In (w, c) opCodeStrings) -> hex_text w d -> shortest_header h (nlen d) -> asm_means w (h ++ d).

(** what ToASM writes for an element: an opcode name for a single byte, else hex *)
Inductive shows : bytes -> bytes -> Prop :=
| shows_op c w : In (c, w) opCodeValues -> shows [c] w
| shows_data p : length p <> 1%nat -> shows p (hex_encode p).

(** [core]: [ps] without the empty elements at either end *)
Definition core_of (ps core : list bytes) : Prop :=
  exists a b, ps = repeat [] a ++ core ++ repeat [] b /\ hd_error core <> Some [] /\ hd_error (rev core) <> Some [].

(** how an element comes back: as the opcode if it is one byte, else as a shortest push *)
Definition comes_back (p x : bytes) : Prop :=
  (length p = 1%nat /\ x = p) \/ (length p <> 1%nat /\ exists h, shortest_header h (nlen p) /\ x = h ++ p).
