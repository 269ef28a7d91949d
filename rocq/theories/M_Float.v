(** Model of the binary64 code: block/Difficulty.go (init, DifficultyToHashrate,
    DifficultyFromBits, targetToDifficulty) and utils/HumanHash.go.

    A Go [float64] is Flocq's IEEE 754 binary64 with a single NaN; Go's [*], [/]
    and conversions round to nearest, ties to even. *)
From Verif Require Export M_Difficulty.
From Flocq Require Import Core IEEE754.BinarySingleNaN.

(** block/Difficulty.go:13-14, 89, 99, 112; utils/HumanHash.go:6: the type float64. *)
Definition f64 : Set := binary_float 53 1024.

(** For the type float64 (block/Difficulty.go:13-14). *)
Definition f64_prec : Prec_gt_0 53 := eq_refl.
(** For the type float64 (block/Difficulty.go:13-14). *)
Definition f64_emax : Prec_lt_emax 53 1024 := eq_refl.

(** the binary64 nearest to an integer: [float64(u)] of a uint64, [big.Float.Float64]
    of an integer, [strconv.ParseFloat] of its decimal text *)
(** block/Difficulty.go:24-25, 33-34, 95, 113-114. *)
Definition f64_of_Z (z : Z) : f64 := binary_normalize 53 1024 f64_prec f64_emax mode_NE z 0 false.

(** block/Difficulty.go:26, 35, 95, 118; utils/HumanHash.go:10-28. *)
Definition f64_div (x y : f64) : f64 := @Bdiv 53 1024 f64_prec f64_emax mode_NE x y.
(** block/Difficulty.go:95. *)
Definition f64_mul (x y : f64) : f64 := @Bmult 53 1024 f64_prec f64_emax mode_NE x y.

(** [x >= y]: false when either is NaN *)
(** utils/HumanHash.go:9-27. *)
Definition f64_ge (x y : f64) : bool :=
  match Bcompare x y with Some Gt | Some Eq => true | _ => false end.

(** [strconv.ParseFloat(target.String(), 64)]: ErrRange when the nearest value is
    infinite *)
(** block/Difficulty.go:114. *)
Definition parse_float_int (z : Z) : res f64 :=
  let f := f64_of_Z z in if is_finite f then Ok f else Err (EParseFloat z).

(** block/Difficulty.go:112-119 (targetToDifficulty); the constant is
    0xFFFF followed by 52 zero digits. *)
Definition genesis_target_z : Z := (65535 * 2 ^ 208)%Z.
(** block/Difficulty.go:112-119 (targetToDifficulty). *)
Definition target_to_difficulty (target : Z) : res f64 :=
  let a := f64_of_Z genesis_target_z in
  b <- parse_float_int target ;;
  Ok (f64_div a b).

(** block/Difficulty.go:99-103 (DifficultyFromBits). *)
Definition difficulty_from_bits (bits : bytes) : res f64 :=
  t <- difficulty_target bits ;;
  target_to_difficulty t.

(** block/Difficulty.go:17-36 (init): [math.Pow(2, 256)] is exact. The error
    branch (log, then a nil big.Int) is a panic here; it is never taken. *)
Definition init_diff (bits : bytes) : res f64 :=
  bn <- expand_target_from_as_int bits ;;
  Ok (f64_div (f64_of_Z (2 ^ 256)) (f64_of_Z bn)).

(** block/Difficulty.go:18-26. *)
Definition genesis_diff : res f64 := init_diff (str "1d00ffff").
(** block/Difficulty.go:28-35. *)
Definition reg_diff : res f64 := init_diff (str "207fffff").

(** block/Difficulty.go:89-96 (DifficultyToHashrate): [coin[0]] panics on "". *)
Definition difficulty_to_hashrate (coin : bytes) (diff : N) (targetSeconds : f64) : res f64 :=
  match coin with
  | [] => Panic
  | c :: _ =>
      genesis <- (if Byte.eqb c x52 then reg_diff else genesis_diff) ;;
      Ok (f64_div (f64_mul (f64_of_Z (Z.of_N diff)) genesis) targetSeconds)
  end.

(** ** fmt.Sprintf("%.2f") *)

(** decimal digits of a number, no leading zeros (fuel: the bit size) *)
(** utils/HumanHash.go:32 (fmt, external). *)
Fixpoint dec_digits (fuel : nat) (n : N) : bytes :=
  let d := n2b (48 + n mod 10) in
  match fuel with
  | O => [d]
  | S f => if n <? 10 then [d] else dec_digits f (n / 10) ++ [d]
  end.
(** utils/HumanHash.go:32 (fmt, external). *)
Definition dec_text (n : N) : bytes := dec_digits (N.to_nat (N.size n)) n.

(** nearest integer to [a / b], ties to even: the rounding strconv does on the
    exact decimal expansion *)
(** utils/HumanHash.go:32 (fmt, external). *)
Definition div_half_even (a b : N) : N :=
  let q := a / b in
  let r := a mod b in
  match (2 * r) ?= b with
  | Lt => q
  | Gt => q + 1
  | Eq => if N.even q then q else q + 1
  end.

(** hundredths of [m * 2^e] *)
(** utils/HumanHash.go:32 (fmt, external). *)
Definition hundredths (m : positive) (e : Z) : N :=
  if (0 <=? e)%Z then 100 * (Npos m * 2 ^ Z.to_N e)
  else div_half_even (100 * Npos m) (2 ^ Z.to_N (- e)).

(** utils/HumanHash.go:32 (fmt, external): the text of [n] hundredths. *)
Definition fixed2_text (n : N) : bytes :=
  dec_text (n / 100) ++ [x2e] ++ [n2b (48 + (n / 10) mod 10); n2b (48 + n mod 10)].

(** utils/HumanHash.go:32 (fmt, external): %.2f of a float64. *)
Definition fixed2 (v : f64) : bytes :=
  match v with
  | B754_nan => str "NaN"
  | B754_infinity false => str "+Inf"
  | B754_infinity true => str "-Inf"
  | B754_zero s => (if s then [x2d] else []) ++ fixed2_text 0
  | B754_finite s m e _ => (if s then [x2d] else []) ++ fixed2_text (hundredths m e)
  end.

(** utils/HumanHash.go:6-33 (HumanHash) up to the formatting: scaled value, unit *)
Definition human_scale (val : f64) : f64 * bytes :=
  if f64_ge val (f64_of_Z (10 ^ 21)) then (f64_div val (f64_of_Z (10 ^ 21)), str "ZH/s")
  else if f64_ge val (f64_of_Z (10 ^ 18)) then (f64_div val (f64_of_Z (10 ^ 18)), str "EH/s")
  else if f64_ge val (f64_of_Z (10 ^ 15)) then (f64_div val (f64_of_Z (10 ^ 15)), str "PH/s")
  else if f64_ge val (f64_of_Z (10 ^ 12)) then (f64_div val (f64_of_Z (10 ^ 12)), str "TH/s")
  else if f64_ge val (f64_of_Z (10 ^ 9)) then (f64_div val (f64_of_Z (10 ^ 9)), str "GH/s")
  else if f64_ge val (f64_of_Z (10 ^ 6)) then (f64_div val (f64_of_Z (10 ^ 6)), str "MH/s")
  else if f64_ge val (f64_of_Z (10 ^ 3)) then (f64_div val (f64_of_Z (10 ^ 3)), str "kH/s")
  else (val, str "H/s").

(** utils/HumanHash.go:6-33 (HumanHash). *)
Definition human_hash (val : f64) : bytes :=
  let '(v, unit) := human_scale val in fixed2 v ++ [x20] ++ unit.
