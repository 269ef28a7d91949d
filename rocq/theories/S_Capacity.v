(** Specification for C75: bytes that end inside the length of a script. *)
From Verif Require Export S_Errors.

(** A transaction that is cut inside its first item that is not complete: the
    remaining bytes [r] are those of an input, or of an output. *)
Inductive tx_cut (I O : bytes -> Prop) : bytes -> err -> Prop :=
| tc_input ver n nin wi r : length ver = 4%nat -> compact n nin -> Forall some_input wi -> nlen wi < n ->
    I r -> tx_cut I O (ver ++ nin ++ concat wi ++ r) EInputShort
| tc_output ver n nin wi m nout wo r : length ver = 4%nat -> compact n nin -> Forall some_input wi -> nlen wi = n ->
    compact m nout -> Forall some_output wo -> nlen wo < m ->
    O r -> tx_cut I O (ver ++ nin ++ concat wi ++ nout ++ concat wo ++ r) EOutputShort.

(** [head] bytes, then one or more bytes of a compact size, but not all it announces. *)
Definition in_length (head : nat) (r : bytes) : Prop :=
  exists h t, r = h ++ t /\ length h = head /\ t <> [] /\ cs_truncated t.

(** ... and the bytes [sp] behind [r] complete it to the length [n], so that the item
    ([tail] bytes follow the script) is too long for [r]; the total is computed in a
    64-bit signed integer. *)
Definition runs_over (head tail : nat) (sp r : bytes) : Prop :=
  exists h t x y n, r = h ++ t /\ length h = head /\ t <> [] /\ sp = x ++ y /\ x <> [] /\ compact n (t ++ x) /\
    (let total := N.of_nat head + nlen (t ++ x) + n + N.of_nat tail in
     total < 2 ^ 63 \/ (2 ^ 64 <= total /\ nlen r < total - 2 ^ 64)).

(** outpoint (36 bytes), script, sequence (4 bytes); value (8 bytes), script *)
Definition tx_in_length : bytes -> err -> Prop := tx_cut (in_length 36) (in_length 8).
Definition tx_runs_over (sp : bytes) : bytes -> err -> Prop := tx_cut (runs_over 36 4 sp) (runs_over 8 0 sp).
