(** Specification of base64 text and of cipher feedback (CFB) mode. *)
From Verif Require Export Bytes.

(** the 64 digits, in order *)
Definition b64_digit (n : N) (c : byte) : Prop :=
  nth_error (str "ABCDEFGHIJKLMNOPQRSTUVWXYZabcdefghijklmnopqrstuvwxyz0123456789+/") (N.to_nat n) = Some c.

(** [b64_text t s]: [t] is the padded base64 text of the bytes [s] (RFC 4648) *)
Inductive b64_text : bytes -> bytes -> Prop :=
| b64_nil : b64_text [] []
| b64_1 a p q cp cq : b64_digit p cp -> b64_digit q cq -> 16 * b2n a = 64 * p + q ->
    b64_text [cp; cq; x3d; x3d] [a]
| b64_2 a b p q r cp cq cr : b64_digit p cp -> b64_digit q cq -> b64_digit r cr ->
    1024 * b2n a + 4 * b2n b = 4096 * p + 64 * q + r -> b64_text [cp; cq; cr; x3d] [a; b]
| b64_3 a b c p q r u cp cq cr cu t s : b64_digit p cp -> b64_digit q cq -> b64_digit r cr -> b64_digit u cu ->
    65536 * b2n a + 256 * b2n b + b2n c = 262144 * p + 4096 * q + 64 * r + u -> b64_text t s ->
    b64_text (cp :: cq :: cr :: cu :: t) (a :: b :: c :: s).

(** bytewise xor of two strings of the same length *)
Inductive xored : bytes -> bytes -> bytes -> Prop :=
| xored_nil : xored [] [] []
| xored_cons x y z a b c : b2n z = N.lxor (b2n x) (b2n y) -> xored a b c -> xored (x :: a) (y :: b) (z :: c).

(** CFB with 16-byte blocks: each block of text is xored with the encryption of the
    previous block of ciphertext, the first with that of the IV; a last incomplete
    block uses the beginning of it. [cfb E prev plain ciph] *)
Inductive cfb (E : bytes -> bytes) : bytes -> bytes -> bytes -> Prop :=
| cfb_nil prev : cfb E prev [] []
| cfb_last prev p c : (0 < length p <= 16)%nat -> xored p (firstn (length p) (E prev)) c -> cfb E prev p c
| cfb_more prev p c ps cs : length p = 16%nat -> xored p (E prev) c -> cfb E c ps cs -> cfb E prev (p ++ ps) (c ++ cs).

(** base64 text as the Go decoder reads it: newlines anywhere are skipped, the
    unused bits of the last digit are ignored *)
Inductive b64_loose : bytes -> bytes -> Prop :=
| loose_nil : b64_loose [] []
| loose_1 a p q cp cq e : b64_digit p cp -> b64_digit q cq -> e < 16 -> 16 * b2n a + e = 64 * p + q ->
    b64_loose [cp; cq; x3d; x3d] [a]
| loose_2 a b p q r cp cq cr e : b64_digit p cp -> b64_digit q cq -> b64_digit r cr -> e < 4 ->
    1024 * b2n a + 4 * b2n b + e = 4096 * p + 64 * q + r -> b64_loose [cp; cq; cr; x3d] [a; b]
| loose_3 a b c p q r u cp cq cr cu t s : b64_digit p cp -> b64_digit q cq -> b64_digit r cr -> b64_digit u cu ->
    65536 * b2n a + 256 * b2n b + b2n c = 262144 * p + 4096 * q + 64 * r + u -> b64_loose t s ->
    b64_loose (cp :: cq :: cr :: cu :: t) (a :: b :: c :: s).

Definition no_newlines (s : bytes) : bytes := filter (fun c => match c with x0a | x0d => false | _ => true end) s.
