(** Specification for 32-bit platforms: what a program whose [int] has 32 bits
    makes of transactions and scripts. *)
From Verif Require Export S_Tx S_Script M_Word.

(** The length in front of a script, read modulo 2^32. *)
Definition compact_mod (n : N) (l : bytes) : Prop := exists m, compact m l /\ m mod 2 ^ 32 = n.

(** The transaction format with such lengths; the two counts are read in full. *)
Definition wire_tx32 (w : bytes) (t : tx) : Prop :=
  exists ver nin wi nout wo lt,
    w = ver ++ nin ++ concat wi ++ nout ++ concat wo ++ lt /\
    length ver = 4%nat /\ length lt = 4%nat /\
    version t = le_get ver /\ locktime t = le_get lt /\
    compact (nlen (inputs t)) nin /\ compact (nlen (outputs t)) nout /\
    Forall2 (fun w oi => exists i, oi = Some i /\ wire_input compact_mod w i) wi (inputs t) /\
    Forall2 (fun w oo => exists o, oo = Some o /\ wire_output compact_mod w o) wo (outputs t).

(** Where a 32-bit parser panics: as a 64-bit one, with 2^31 and 2^32 in place of
    2^63 and 2^64. *)
Definition input_panics32 (b : bytes) : Prop :=
  exists h r, b = h ++ r /\ length h = 36%nat /\
    (cs_truncated r \/
     exists n l x, r = l ++ x /\ compact n l /\
       let total := 36 + nlen l + n mod 2 ^ 32 + 4 in
       2 ^ 31 <= total /\ (total < 2 ^ 32 \/ total - 2 ^ 32 <= nlen b)).

Definition output_panics32 (b : bytes) : Prop :=
  exists h r, b = h ++ r /\ length h = 8%nat /\
    (cs_truncated r \/
     exists n l x, r = l ++ x /\ compact n l /\ 2 ^ 31 <= 8 + nlen l + n mod 2 ^ 32).

Definition some_input32 w := exists i, wire_input compact_mod w i.
Definition some_output32 w := exists o, wire_output compact_mod w o.

Inductive tx_panics32 : bytes -> Prop :=
| panic32_count ver r : length ver = 4%nat -> (6 <= length r)%nat -> cs_truncated r -> tx_panics32 (ver ++ r)
| panic32_input ver n nin wi r : length ver = 4%nat -> compact n nin -> Forall some_input32 wi ->
    nlen wi < n -> input_panics32 r -> tx_panics32 (ver ++ nin ++ concat wi ++ r)
| panic32_outcount ver n nin wi r : length ver = 4%nat -> compact n nin -> Forall some_input32 wi ->
    nlen wi = n -> cs_truncated r -> (10 <= length (ver ++ nin ++ concat wi ++ r))%nat ->
    tx_panics32 (ver ++ nin ++ concat wi ++ r)
| panic32_output ver n nin wi m nout wo r : length ver = 4%nat -> compact n nin -> Forall some_input32 wi ->
    nlen wi = n -> compact m nout -> Forall some_output32 wo -> nlen wo < m -> output_panics32 r ->
    tx_panics32 (ver ++ nin ++ concat wi ++ nout ++ concat wo ++ r).

(** A push that announces so much that the sum of header and data does not fit a
    32-bit [int]. *)
Inductive huge : bytes -> Prop :=
| huge4 l d : length l = 4%nat -> 2 ^ 31 - 5 <= le_get l < 2 ^ 32 - 5 -> huge (x4e :: l ++ d).

(** [s] comes to such a push after complete elements *)
Definition has_huge (s : bytes) : Prop := exists p ps t, s = p ++ t /\ safe_elems p ps /\ huge t.

(** An input whose previous script starts DUP HASH160 and comes to such a push
    afterwards. *)
Definition bad_prev (i : input) : Prop := exists r, prev_script i = Some (x76 :: xa9 :: r) /\ has_huge r.
