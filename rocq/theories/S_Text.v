(** Specification of positional numerals. *)
From Verif Require Export Bytes.

(** digit characters, lower case *)
Definition digit_chars : bytes := str "0123456789abcdef".

(** [num_text base s n]: [s] is a string of digits of the base denoting [n] *)
Inductive num_text (base : nat) : bytes -> N -> Prop :=
| num_empty : num_text base [] 0
| num_snoc s n d c : (d < base)%nat -> nth_error digit_chars d = Some c -> num_text base s n ->
    num_text base (s ++ [c]) (N.of_nat base * n + N.of_nat d).

(** the usual text of [n]: at least one digit, no superfluous zeros *)
Definition num_of (base : nat) (s : bytes) (n : N) : Prop :=
  num_text base s n /\ s <> [] /\ (forall r, s = x30 :: r -> r = []).
