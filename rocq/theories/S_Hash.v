(** Specification for C88: SHA-256 (FIPS 180-4) and RIPEMD-160 (Dobbertin, Bosselaers, Preneel),
    from their definitions. Words are numbers below 2^32; what happens to single bits is said
    bit by bit, the constants are said to be what they are digits of. *)
From Verif Require Export Bytes.
Open Scope N_scope.

(** the word with bit [i] = [f i] *)
Definition word (f : N -> bool) : N := fold_right N.add 0 (map (fun i => if f (N.of_nat i) then 2 ^ N.of_nat i else 0) (seq 0 32)).
Definition bit (x i : N) : bool := N.testbit x i.
(** circular shifts, the shift, the functions of three words *)
Definition ROTR (n x : N) : N := word (fun i => bit x ((i + n) mod 32)).
Definition ROTL (n x : N) : N := word (fun i => bit x ((i + (32 - n)) mod 32)).
Definition SHR (n x : N) : N := x / 2 ^ n.
Definition XOR3 (x y z : N) : N := word (fun i => xorb (bit x i) (xorb (bit y i) (bit z i))).
Definition CH (x y z : N) : N := word (fun i => if bit x i then bit y i else bit z i).
Definition MAJ (x y z : N) : N := word (fun i => if bit x i then bit y i || bit z i else bit y i && bit z i).
Definition plus32 (l : list N) : N := fold_right N.add 0 l mod 2 ^ 32.

(** [c] is the first 32 bits of the fractional part of the [e]-th root of [p] *)
Definition root_digits (e p c : N) : Prop :=
  c < 2 ^ 32 /\ exists q, (q * 2 ^ 32 + c) ^ e <= p * 2 ^ (32 * e) < (q * 2 ^ 32 + c + 1) ^ e.
(** [c] is the integer part of 2^30 times the [e]-th root of [p] *)
Definition root30 (e p c : N) : Prop := c ^ e <= p * 2 ^ (30 * e) < (c + 1) ^ e.

(** the first 64 primes (C88_primes) *)
Definition prime (p : N) : Prop := 2 <= p /\ forall d, 2 <= d < p -> p mod d <> 0.
Definition primes : list N :=
  [2; 3; 5; 7; 11; 13; 17; 19; 23; 29; 31; 37; 41; 43; 47; 53; 59; 61; 67; 71; 73; 79; 83; 89; 97; 101; 103; 107; 109; 113; 127; 131;
   137; 139; 149; 151; 157; 163; 167; 173; 179; 181; 191; 193; 197; 199; 211; 223; 227; 229; 233; 239; 241; 251; 257; 263; 269; 271; 277; 281; 283; 293; 307; 311].

(** Both functions: the message, a byte 0x80, zeros up to 8 bytes before a multiple of 64 bytes, the
    length in bits ([len8] writes it on 8 bytes); each block of 64 bytes transforms the state. *)
Definition padded (len8 : N -> bytes) (msg p : bytes) : Prop :=
  exists k, (k < 64)%nat /\ p = msg ++ [x80] ++ repeat x00 k ++ len8 (8 * nlen msg) /\ Nat.modulo (length p) 64 = 0%nat.
Inductive blocks {A} (comp : A -> bytes -> A -> Prop) : A -> bytes -> A -> Prop :=
| blocks_end s : blocks comp s [] s
| blocks_next s b s1 r s2 : length b = 64%nat -> comp s b s1 -> blocks comp s1 r s2 -> blocks comp s (b ++ r) s2.
(** [l]: the 16 words of block [b]; [put] writes a word *)
Definition words_of (put : N -> bytes) (b : bytes) (l : list N) : Prop :=
  length l = 16%nat /\ Forall (fun x => x < 2 ^ 32) l /\ b = concat (map put l).

(** ** SHA-256 *)
Definition Sigma0 x := XOR3 (ROTR 2 x) (ROTR 13 x) (ROTR 22 x).
Definition Sigma1 x := XOR3 (ROTR 6 x) (ROTR 11 x) (ROTR 25 x).
Definition sigma0 x := XOR3 (ROTR 7 x) (ROTR 18 x) (SHR 3 x).
Definition sigma1 x := XOR3 (ROTR 17 x) (ROTR 19 x) (SHR 10 x).
(** the message schedule *)
Definition schedule (M W : list N) : Prop :=
  length W = 64%nat /\
  (forall t, (t < 16)%nat -> nth t W 0 = nth t M 0) /\
  (forall t, (16 <= t < 64)%nat -> nth t W 0 = plus32 [sigma1 (nth (t - 2) W 0); nth (t - 7) W 0; sigma0 (nth (t - 15) W 0); nth (t - 16) W 0]).
(** one round on the eight variables *)
Definition sha_step (v : list N) (kw : N * N) : list N :=
  match v with
  | [a; b; c; d; e; f; g; h] =>
      let T1 := plus32 [h; Sigma1 e; CH e f g; fst kw; snd kw] in
      let T2 := plus32 [Sigma0 a; MAJ a b c] in
      [plus32 [T1; T2]; a; b; c; plus32 [d; T1]; e; f; g]
  | _ => []
  end.
Definition sha_comp (K H : list N) (b : bytes) (H' : list N) : Prop :=
  exists M W, words_of (be_put 4) b M /\ schedule M W /\
    H' = map (fun xy => plus32 [fst xy; snd xy]) (combine H (fold_left sha_step (combine K W) H)).
(** [h] is the SHA-256 hash of [msg] *)
Definition is_sha256 (msg h : bytes) : Prop :=
  exists K H0 p H, Forall2 (root_digits 3) primes K /\ Forall2 (root_digits 2) (firstn 8 primes) H0 /\
    padded (be_put 8) msg p /\ blocks (sha_comp K) H0 p H /\ h = concat (map (be_put 4) H).

(** ** RIPEMD-160 *)
Definition f_round (i : nat) (x y z : N) : N :=
  word (fun j => let x := bit x j in let y := bit y j in let z := bit z j in
    match i with
    | 0%nat => xorb x (xorb y z)
    | 1%nat => (x && y) || (negb x && z)
    | 2%nat => xorb (x || negb y) z
    | 3%nat => (x && z) || (y && negb z)
    | _ => xorb x (y || negb z)
    end).
Definition rho (i : nat) : nat := nth i [7; 4; 13; 1; 10; 6; 15; 3; 12; 0; 9; 5; 2; 14; 11; 8]%nat 0%nat.
Definition pi (i : nat) : nat := Nat.modulo (9 * i + 5) 16.
(** shifts by round and message word *)
Definition shifts : list (list N) :=
  [[11; 14; 15; 12; 5; 8; 7; 9; 11; 13; 14; 15; 6; 7; 9; 8];
   [12; 13; 11; 15; 6; 9; 9; 7; 12; 15; 11; 13; 7; 8; 7; 7];
   [13; 15; 14; 11; 7; 7; 6; 8; 13; 14; 13; 12; 5; 5; 6; 9];
   [14; 11; 12; 14; 8; 6; 5; 5; 15; 12; 15; 14; 9; 9; 8; 6];
   [15; 12; 13; 13; 9; 5; 8; 6; 14; 11; 12; 11; 8; 6; 5; 5]].
(** one step: function number, constant, message word, shift *)
Definition rmd_line_step (X v : list N) (f : nat) (K : N) (w : nat) (s : N) : list N :=
  match v with
  | [A; B; C; D; E] => [E; plus32 [ROTL s (plus32 [A; f_round f B C D; nth w X 0; K]); E]; B; ROTL 10 C; D]
  | _ => []
  end.
(** the 80 steps [j] of a line: round [j / 16]; [first] selects the word in the first round, then rho
    is applied once a round; [fn] numbers the functions by round *)
Definition rmd_line (fn : nat -> nat) (K : list N) (first : nat -> nat) (X v : list N) : list N :=
  fold_left (fun v j => let i := Nat.div j 16 in let w := Nat.iter i rho (first (Nat.modulo j 16)) in
    rmd_line_step X v (fn i) (nth i K 0) w (nth w (nth i shifts []) 0)) (seq 0 80) v.
(** the state, mixed with the results of the two lines *)
Definition rmd_mix (H L R : list N) : list N :=
  match H, L, R with
  | [h0; h1; h2; h3; h4], [A; B; C; D; E], [A'; B'; C'; D'; E'] =>
      [plus32 [h1; C; D']; plus32 [h2; D; E']; plus32 [h3; E; A']; plus32 [h4; A; B']; plus32 [h0; B; C']]
  | _, _, _ => []
  end.
Definition rmd_comp (KL KR H : list N) (b : bytes) (H' : list N) : Prop :=
  exists X, words_of (le_put 4) b X /\ H' = rmd_mix H (rmd_line (fun i => i) KL (fun w => w) X H) (rmd_line (fun i => 4 - i)%nat KR pi X H).
(** [h] is the RIPEMD-160 hash of [msg] *)
Definition is_ripemd160 (msg h : bytes) : Prop :=
  exists KL KR H0 p H,
    Forall2 (root30 2) [0; 2; 3; 5; 7] KL /\ Forall2 (root30 3) [2; 3; 5; 7; 0] KR /\
    concat (map (le_put 4) H0) = [x01; x23; x45; x67; x89; xab; xcd; xef; xfe; xdc; xba; x98; x76; x54; x32; x10; xf0; xe1; xd2; xc3] /\
    length H0 = 5%nat /\ Forall (fun x => x < 2 ^ 32) H0 /\
    padded (le_put 8) msg p /\ blocks (rmd_comp KL KR) H0 p H /\ h = concat (map (le_put 4) H).
