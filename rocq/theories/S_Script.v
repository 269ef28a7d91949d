(** Specification of Bitcoin script elements and templates, written from the
    protocol, not from the code. *)
From Verif Require Export Bytes.

(** A script is a sequence of elements: an opcode byte, or a push of some data.
    [elem w p]: the wire bytes [w] are one element whose content is [p] (the
    opcode byte itself, or the data pushed). *)
Inductive elem : bytes -> bytes -> Prop :=
| elem_op c : c = x00 \/ 79 <= b2n c -> elem [c] [c]
| elem_push c d : 1 <= b2n c <= 75 -> nlen d = b2n c -> elem (c :: d) d
| elem_pushdata1 c d : nlen d = b2n c -> elem (x4c :: c :: d) d
| elem_pushdata2 l d : length l = 2%nat -> nlen d = le_get l -> elem (x4d :: l ++ d) d
| elem_pushdata4 l d : length l = 4%nat -> nlen d = le_get l -> elem (x4e :: l ++ d) d.

(** A whole script and the contents of its elements. *)
Inductive elems : bytes -> list bytes -> Prop :=
| elems_nil : elems [] []
| elems_cons w p b ps : elem w p -> elems b ps -> elems (w ++ b) (p :: ps).

(** An incomplete last element: it announces more bytes than there are. *)
Inductive truncated : bytes -> Prop :=
| tr_push c d : 1 <= b2n c <= 75 -> nlen d < b2n c -> truncated (c :: d)
| tr_pushdata1_len : truncated [x4c]
| tr_pushdata1 c d : nlen d < b2n c -> truncated (x4c :: c :: d)
| tr_pushdata2_len l : (length l < 2)%nat -> truncated (x4d :: l)
| tr_pushdata2 l d : length l = 2%nat -> nlen d < le_get l -> truncated (x4d :: l ++ d)
| tr_pushdata4_len l : (length l < 4)%nat -> truncated (x4e :: l)
| tr_pushdata4 l d : length l = 4%nat -> nlen d < le_get l -> truncated (x4e :: l ++ d).

(** Push headers on which the code's 16/32-bit length arithmetic wraps around:
    PUSHDATA2 announcing at least 65533 bytes, PUSHDATA4 announcing at least
    2^32 - 5. *)
Inductive wraps : bytes -> Prop :=
| wraps2 l d : length l = 2%nat -> 65533 <= le_get l -> wraps (x4d :: l ++ d)
| wraps4 l d : length l = 4%nat -> 4294967291 <= le_get l -> wraps (x4e :: l ++ d).

(** no element of the script has such a header *)
Inductive safe_elems : bytes -> list bytes -> Prop :=
| safe_nil : safe_elems [] []
| safe_cons w p b ps : elem w p -> ~ wraps w -> safe_elems b ps -> safe_elems (w ++ b) (p :: ps).

(** The push headers of the protocol: [announces h n] - header [h] announces [n]
    bytes of data. *)
Inductive announces : bytes -> N -> Prop :=
| an_direct c : b2n c <= 75 -> announces [c] (b2n c)
| an_1 c : announces [x4c; c] (b2n c)
| an_2 l : length l = 2%nat -> announces (x4d :: l) (le_get l)
| an_4 l : length l = 4%nat -> announces (x4e :: l) (le_get l).

(** Lengths for which a push made by this library can be read back. *)
Definition push_domain (d : bytes) : Prop :=
  1 <= nlen d <= 65532 \/ 65536 <= nlen d <= 4294967290.

(** Standard templates. *)
Definition p2pkh (h : bytes) : bytes := [x76; xa9; x14] ++ h ++ [x88; xac].
Definition p2sh (h : bytes) : bytes := [xa9; x14] ++ h ++ [x87].

Definition wf_pubkey (k : bytes) : Prop :=
  (length k = 33%nat /\ (hd x00 k = x02 \/ hd x00 k = x03)) \/
  (length k = 65%nat /\ (hd x00 k = x04 \/ hd x00 k = x06 \/ hd x00 k = x07)).

(** opcodes OP_0, OP_1 .. OP_16 *)
Definition small_int (c : byte) : Prop := c = x00 \/ 81 <= b2n c <= 96.

(** shortest push header *)
Definition shortest_header (h : bytes) (n : N) : Prop :=
  announces h n /\ forall h', announces h' n -> (length h <= length h')%nat.

(** an element that ASM text can represent: an opcode, or a shortest push of at
    least two bytes (of a length the decoder can read) *)
Inductive asm_elem : bytes -> bytes -> Prop :=
| asm_op c : c = x00 \/ 79 <= b2n c -> asm_elem [c] [c]
| asm_push h d : (2 <= length d)%nat -> push_domain d -> shortest_header h (nlen d) -> asm_elem (h ++ d) d.

Inductive asm_script : bytes -> Prop :=
| asm_one w p : asm_elem w p -> asm_script w
| asm_more w p s : asm_elem w p -> asm_script s -> asm_script (w ++ s).

(** what a pushed item reads back as *)
Definition readback (d : bytes) : bytes := match d with [] => [x00] | _ => d end.

(** Lengths the library can encode but then cannot read back (the decoder's
    arithmetic wraps around). *)
Definition hazard (d : bytes) : Prop := 65533 <= nlen d <= 65535 \/ 4294967291 <= nlen d < 4294967296.

(** first byte of a part *)
Definition starts (p : bytes) (P : byte -> Prop) : Prop := match p with [] => False | c :: _ => P c end.

(** The builder calls of the API (script/Script.go:129-179). *)
Inductive call :=
| CPush (d : bytes) | CPushHex (h : bytes) | CPushString (t : bytes)
| CPushArray (l : list bytes) | CPushStrings (l : list bytes) | COpCode (o : byte).

(** What a call must append: the items the caller gave, or nothing when the call
    cannot be served (invalid hex, or an item of 2^32 bytes or more). *)
Definition servable (l : list bytes) : list bytes :=
  if forallb (fun d => nlen d <? 4294967296) l then l else [].

Definition asked (c : call) : list bytes :=
  match c with
  | CPush d | CPushString d => servable [d]
  | CPushHex h => match hex_dec h with Some d => servable [d] | None => [] end
  | CPushArray l | CPushStrings l => servable l
  | COpCode o => [[o]]
  end.

(** The requests within the domain of the theorem: items of round-trip length,
    opcodes that are not push opcodes. *)
Definition call_ok (c : call) : Prop :=
  match c with
  | COpCode o => o = x00 \/ 79 <= b2n o
  | _ => Forall push_domain (asked c)
  end.
