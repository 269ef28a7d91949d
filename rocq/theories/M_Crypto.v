(** Hash functions.

    Models crypto/Hash.go. [sha256] and [ripemd160] are the external functions
    [crypto/sha256.Sum256] (FIPS 180-4) and [golang.org/x/crypto/ripemd160],
    written out concretely; they are checked against the repo's vectors in
    X_Conf.v. Words are [N] below 2^32. *)
From Verif Require Export GoRt.

(** uint32 arithmetic of the hash functions of crypto/Hash.go:10-27. *)
Definition w32 (n : N) : N := N.land n 4294967295.
(** uint32 arithmetic, as [w32] (crypto/Hash.go:10-27). *)
Definition add32 (a b : N) : N := w32 (a + b).
(** uint32 rotation, as [w32] (crypto/Hash.go:10-27). *)
Definition rotr (x k : N) : N :=
  N.lor (N.shiftr x k) (w32 (N.shiftl x (32 - k))).
(** uint32 rotation, as [w32] (crypto/Hash.go:10-27). *)
Definition rotl (x k : N) : N := rotr x (32 - k).
(** uint32 complement, as [w32] (crypto/Hash.go:10-27). *)
Definition not32 (x : N) : N := N.lxor x 4294967295.

(** *** SHA-256 *)

(** crypto/sha256 (external), called at crypto/Hash.go:11: the state. *)
Inductive st8 := St8 (a b c d e f g h : N).

(** crypto/sha256 (external), called at crypto/Hash.go:11: the initial state. *)
Definition sha_init : st8 := St8 1779033703 3144134277 1013904242 2773480762 1359893119 2600822924 528734635 1541459225.

(** crypto/sha256 (external), called at crypto/Hash.go:11: the round constants. *)
Definition sha_k : list N :=
  [1116352408; 1899447441; 3049323471; 3921009573; 961987163; 1508970993; 2453635748; 2870763221;
   3624381080; 310598401; 607225278; 1426881987; 1925078388; 2162078206; 2614888103; 3248222580;
   3835390401; 4022224774; 264347078; 604807628; 770255983; 1249150122; 1555081692; 1996064986;
   2554220882; 2821834349; 2952996808; 3210313671; 3336571891; 3584528711; 113926993; 338241895;
   666307205; 773529912; 1294757372; 1396182291; 1695183700; 1986661051; 2177026350; 2456956037;
   2730485921; 2820302411; 3259730800; 3345764771; 3516065817; 3600352804; 4094571909; 275423344;
   430227734; 506948616; 659060556; 883997877; 958139571; 1322822218; 1537002063; 1747873779;
   1955562222; 2024104815; 2227730452; 2361852424; 2428436474; 2756734187; 3204031479; 3329325298].

(** crypto/sha256 (external), called at crypto/Hash.go:11: one round. *)
Definition sha_round (k w : N) (s : st8) : st8 :=
  let '(St8 a b c d e f g h) := s in
  let s1 := N.lxor (N.lxor (rotr e 6) (rotr e 11)) (rotr e 25) in
  let ch := N.lxor (N.land e f) (N.land (not32 e) g) in
  let t1 := h + s1 + ch + k + w in
  let s0 := N.lxor (N.lxor (rotr a 2) (rotr a 13)) (rotr a 22) in
  let mj := N.lxor (N.lxor (N.land a b) (N.land a c)) (N.land b c) in
  St8 (w32 (t1 + s0 + mj)) a b c (w32 (d + t1)) e f g.

(** next schedule word from the sliding window of the last 16 *)
(** crypto/sha256 (external), called at crypto/Hash.go:11: the message schedule. *)
Definition sha_next (w : list N) : N :=
  let w0 := nth 0 w 0 in let w1 := nth 1 w 0 in
  let w9 := nth 9 w 0 in let w14 := nth 14 w 0 in
  let s0 := N.lxor (N.lxor (rotr w1 7) (rotr w1 18)) (N.shiftr w1 3) in
  let s1 := N.lxor (N.lxor (rotr w14 17) (rotr w14 19)) (N.shiftr w14 10) in
  w32 (w0 + s0 + w9 + s1).

(** crypto/sha256 (external), called at crypto/Hash.go:11: the 64 rounds. *)
Fixpoint sha_rounds (ks : list N) (w : list N) (s : st8) : st8 :=
  match ks with
  | [] => s
  | k :: ks' => sha_rounds ks' (tl w ++ [sha_next w]) (sha_round k (hd 0 w) s)
  end.

(** crypto/sha256 (external), called at crypto/Hash.go:11: the words of a block. *)
Fixpoint words_be (n : nat) (b : bytes) : list N :=
  match n with
  | O => []
  | S n' => be_get (firstn 4 b) :: words_be n' (skipn 4 b)
  end.

(** crypto/sha256 (external), called at crypto/Hash.go:11: one block. *)
Definition sha_block (s : st8) (b : bytes) : st8 :=
  let '(St8 a b' c d e f g h) := s in
  let '(St8 a1 b1 c1 d1 e1 f1 g1 h1) := sha_rounds sha_k (words_be 16 b) s in
  St8 (add32 a a1) (add32 b' b1) (add32 c c1) (add32 d d1)
      (add32 e e1) (add32 f f1) (add32 g g1) (add32 h h1).

(** crypto/Hash.go:11 and 25 (external): the loop over the blocks. *)
Fixpoint md_blocks {A} (f : A -> bytes -> A) (n : nat) (s : A) (b : bytes) : A :=
  match n with
  | O => s
  | S n' => md_blocks f n' (f s (firstn 64 b)) (skipn 64 b)
  end.

(** Merkle-Damgard padding; [len8] encodes the bit length on 8 bytes. *)
(** crypto/Hash.go:11 and 26 (external): the padding. *)
Definition md_pad (len8 : N -> bytes) (b : bytes) : bytes :=
  b ++ [x80] ++ repeat x00 (Nat.modulo (119 - Nat.modulo (length b) 64) 64)
    ++ len8 (8 * nlen b).

(** [sha256.Sum256]; crypto/Hash.go:10-13 (Sha256). *)
Definition sha256 (b : bytes) : bytes :=
  let p := md_pad (be_put 8) b in
  let '(St8 a b c d e f g h) := md_blocks sha_block (Nat.div (length p) 64) sha_init p in
  be_put 4 a ++ be_put 4 b ++ be_put 4 c ++ be_put 4 d ++
  be_put 4 e ++ be_put 4 f ++ be_put 4 g ++ be_put 4 h.

(** crypto/Hash.go:15-20 (Sha256d). *)
Definition sha256d (b : bytes) : bytes := let first := sha256 b in let second := sha256 first in second.

(** *** RIPEMD-160 *)

(** golang.org/x/crypto/ripemd160 (external), called at crypto/Hash.go:24-26: the state. *)
Inductive st5 := St5 (a b c d e : N).

(** golang.org/x/crypto/ripemd160 (external), called at crypto/Hash.go:24-26: the initial state. *)
Definition rmd_init : st5 := St5 1732584193 4023233417 2562383102 271733878 3285377520.

(** golang.org/x/crypto/ripemd160 (external), called at crypto/Hash.go:24-26: the five functions. *)
Definition rmd_f (j : N) (x y z : N) : N :=
  match j with
  | 0 => N.lxor (N.lxor x y) z
  | 1 => N.lor (N.land x y) (N.land (not32 x) z)
  | 2 => N.lxor (N.lor x (not32 y)) z
  | 3 => N.lor (N.land x z) (N.land y (not32 z))
  | _ => N.lxor x (N.lor y (not32 z))
  end.

(** crypto/Hash.go:24 (ripemd160, external): (function, constant, message word, rotation) of the 80 steps of each line *)
Definition rmd_left : list (N * N * nat * N) :=
  [(0,0,0%nat,11); (0,0,1%nat,14); (0,0,2%nat,15); (0,0,3%nat,12); (0,0,4%nat,5);
   (0,0,5%nat,8); (0,0,6%nat,7); (0,0,7%nat,9); (0,0,8%nat,11); (0,0,9%nat,13);
   (0,0,10%nat,14); (0,0,11%nat,15); (0,0,12%nat,6); (0,0,13%nat,7); (0,0,14%nat,9);
   (0,0,15%nat,8); (1,1518500249,7%nat,7); (1,1518500249,4%nat,6); (1,1518500249,13%nat,8); (1,1518500249,1%nat,13);
   (1,1518500249,10%nat,11); (1,1518500249,6%nat,9); (1,1518500249,15%nat,7); (1,1518500249,3%nat,15); (1,1518500249,12%nat,7);
   (1,1518500249,0%nat,12); (1,1518500249,9%nat,15); (1,1518500249,5%nat,9); (1,1518500249,2%nat,11); (1,1518500249,14%nat,7);
   (1,1518500249,11%nat,13); (1,1518500249,8%nat,12); (2,1859775393,3%nat,11); (2,1859775393,10%nat,13); (2,1859775393,14%nat,6);
   (2,1859775393,4%nat,7); (2,1859775393,9%nat,14); (2,1859775393,15%nat,9); (2,1859775393,8%nat,13); (2,1859775393,1%nat,15);
   (2,1859775393,2%nat,14); (2,1859775393,7%nat,8); (2,1859775393,0%nat,13); (2,1859775393,6%nat,6); (2,1859775393,13%nat,5);
   (2,1859775393,11%nat,12); (2,1859775393,5%nat,7); (2,1859775393,12%nat,5); (3,2400959708,1%nat,11); (3,2400959708,9%nat,12);
   (3,2400959708,11%nat,14); (3,2400959708,10%nat,15); (3,2400959708,0%nat,14); (3,2400959708,8%nat,15); (3,2400959708,12%nat,9);
   (3,2400959708,4%nat,8); (3,2400959708,13%nat,9); (3,2400959708,3%nat,14); (3,2400959708,7%nat,5); (3,2400959708,15%nat,6);
   (3,2400959708,14%nat,8); (3,2400959708,5%nat,6); (3,2400959708,6%nat,5); (3,2400959708,2%nat,12); (4,2840853838,4%nat,9);
   (4,2840853838,0%nat,15); (4,2840853838,5%nat,5); (4,2840853838,9%nat,11); (4,2840853838,7%nat,6); (4,2840853838,12%nat,8);
   (4,2840853838,2%nat,13); (4,2840853838,10%nat,12); (4,2840853838,14%nat,5); (4,2840853838,1%nat,12); (4,2840853838,3%nat,13);
   (4,2840853838,8%nat,14); (4,2840853838,11%nat,11); (4,2840853838,6%nat,8); (4,2840853838,15%nat,5); (4,2840853838,13%nat,6)].

(** golang.org/x/crypto/ripemd160 (external), called at crypto/Hash.go:24-26: the steps of the right line. *)
Definition rmd_right : list (N * N * nat * N) :=
  [(4,1352829926,5%nat,8); (4,1352829926,14%nat,9); (4,1352829926,7%nat,9); (4,1352829926,0%nat,11); (4,1352829926,9%nat,13);
   (4,1352829926,2%nat,15); (4,1352829926,11%nat,15); (4,1352829926,4%nat,5); (4,1352829926,13%nat,7); (4,1352829926,6%nat,7);
   (4,1352829926,15%nat,8); (4,1352829926,8%nat,11); (4,1352829926,1%nat,14); (4,1352829926,10%nat,14); (4,1352829926,3%nat,12);
   (4,1352829926,12%nat,6); (3,1548603684,6%nat,9); (3,1548603684,11%nat,13); (3,1548603684,3%nat,15); (3,1548603684,7%nat,7);
   (3,1548603684,0%nat,12); (3,1548603684,13%nat,8); (3,1548603684,5%nat,9); (3,1548603684,10%nat,11); (3,1548603684,14%nat,7);
   (3,1548603684,15%nat,7); (3,1548603684,8%nat,12); (3,1548603684,12%nat,7); (3,1548603684,4%nat,6); (3,1548603684,9%nat,15);
   (3,1548603684,1%nat,13); (3,1548603684,2%nat,11); (2,1836072691,15%nat,9); (2,1836072691,5%nat,7); (2,1836072691,1%nat,15);
   (2,1836072691,3%nat,11); (2,1836072691,7%nat,8); (2,1836072691,14%nat,6); (2,1836072691,6%nat,6); (2,1836072691,9%nat,14);
   (2,1836072691,11%nat,12); (2,1836072691,8%nat,13); (2,1836072691,12%nat,5); (2,1836072691,2%nat,14); (2,1836072691,10%nat,13);
   (2,1836072691,0%nat,13); (2,1836072691,4%nat,7); (2,1836072691,13%nat,5); (1,2053994217,8%nat,15); (1,2053994217,6%nat,5);
   (1,2053994217,4%nat,8); (1,2053994217,1%nat,11); (1,2053994217,3%nat,14); (1,2053994217,11%nat,14); (1,2053994217,15%nat,6);
   (1,2053994217,0%nat,14); (1,2053994217,5%nat,6); (1,2053994217,12%nat,9); (1,2053994217,2%nat,12); (1,2053994217,13%nat,9);
   (1,2053994217,9%nat,12); (1,2053994217,7%nat,5); (1,2053994217,10%nat,15); (1,2053994217,14%nat,8); (0,0,12%nat,8);
   (0,0,15%nat,5); (0,0,10%nat,12); (0,0,4%nat,9); (0,0,1%nat,12); (0,0,5%nat,5);
   (0,0,8%nat,14); (0,0,7%nat,6); (0,0,6%nat,8); (0,0,2%nat,13); (0,0,13%nat,6);
   (0,0,14%nat,5); (0,0,0%nat,15); (0,0,3%nat,13); (0,0,9%nat,11); (0,0,11%nat,11)].

(** golang.org/x/crypto/ripemd160 (external), called at crypto/Hash.go:24-26: one step. *)
Definition rmd_step (x : list N) (s : st5) (p : N * N * nat * N) : st5 :=
  let '(fj, k, r, sh) := p in
  let '(St5 a b c d e) := s in
  let t := add32 (rotl (w32 (a + rmd_f fj b c d + nth r x 0 + k)) sh) e in
  St5 e t b (rotl c 10) d.

(** golang.org/x/crypto/ripemd160 (external), called at crypto/Hash.go:24-26: the words of a block. *)
Fixpoint words_le (n : nat) (b : bytes) : list N :=
  match n with
  | O => []
  | S n' => le_get (firstn 4 b) :: words_le n' (skipn 4 b)
  end.

(** golang.org/x/crypto/ripemd160 (external), called at crypto/Hash.go:24-26: one block. *)
Definition rmd_block (s : st5) (b : bytes) : st5 :=
  let x := words_le 16 b in
  let '(St5 h0 h1 h2 h3 h4) := s in
  let '(St5 a b c d e) := fold_left (rmd_step x) rmd_left s in
  let '(St5 a' b' c' d' e') := fold_left (rmd_step x) rmd_right s in
  St5 (w32 (h1 + c + d')) (w32 (h2 + d + e')) (w32 (h3 + e + a'))
      (w32 (h4 + a + b')) (w32 (h0 + b + c')).

(** [ripemd160.New/Write/Sum]; crypto/Hash.go:22-27 (Ripemd160). *)
Definition ripemd160 (b : bytes) : bytes :=
  let p := md_pad (le_put 8) b in
  let '(St5 a b c d e) := md_blocks rmd_block (Nat.div (length p) 64) rmd_init p in
  le_put 4 a ++ le_put 4 b ++ le_put 4 c ++ le_put 4 d ++ le_put 4 e.

(** crypto/Hash.go:29-33 (Hash160). *)
Definition hash160 (b : bytes) : bytes := let hash := sha256 b in ripemd160 hash.
