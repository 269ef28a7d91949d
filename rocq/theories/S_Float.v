(** Specifications for the binary64 code: decimal text and the units of hash rates. *)
From Verif Require Export Bytes.
From Flocq Require Import Core.
From Coq Require Import Reals.
Local Open Scope N_scope.

(** the binary64 number nearest to a real, ties to even (no overflow) *)
Definition rnd (x : R) : R := round radix2 (FLT_exp (-1074) 53) ZnearestE x.

(** decimal digits, most significant first *)
Inductive dec_num : bytes -> N -> Prop :=
| dec_empty : dec_num [] 0
| dec_snoc s n d : d < 10 -> dec_num s n -> dec_num (s ++ [n2b (48 + d)]) (10 * n + d).

(** the decimal text of a number: at least one digit, no superfluous zeros *)
Definition dec_of (s : bytes) (n : N) : Prop :=
  dec_num s n /\ s <> [] /\ (forall r, s = x30 :: r -> r = []).

(** the text of [n] hundredths: 123 is "1.23" *)
Definition cents_text (s : bytes) (n : N) : Prop :=
  exists i d1 d2, s = i ++ [x2e; n2b (48 + d1); n2b (48 + d2)] /\ d1 < 10 /\ d2 < 10 /\
    exists q, dec_of i q /\ n = 100 * q + 10 * d1 + d2.

(** the unit of a rate of [x] hashes per second, as a power of ten *)
Definition unit_of (x : R) (k : nat) (u : bytes) : Prop :=
  (k = 0%nat /\ u = str "H/s" /\ (x < 10 ^ 3)%R) \/
  (k = 3%nat /\ u = str "kH/s" /\ (10 ^ 3 <= x < 10 ^ 6)%R) \/
  (k = 6%nat /\ u = str "MH/s" /\ (10 ^ 6 <= x < 10 ^ 9)%R) \/
  (k = 9%nat /\ u = str "GH/s" /\ (10 ^ 9 <= x < 10 ^ 12)%R) \/
  (k = 12%nat /\ u = str "TH/s" /\ (10 ^ 12 <= x < 10 ^ 15)%R) \/
  (k = 15%nat /\ u = str "PH/s" /\ (10 ^ 15 <= x < 10 ^ 18)%R) \/
  (k = 18%nat /\ u = str "EH/s" /\ (10 ^ 18 <= x < 10 ^ 21)%R) \/
  (k = 21%nat /\ u = str "ZH/s" /\ (10 ^ 21 <= x)%R).
