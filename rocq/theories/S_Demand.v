(** Specification for C78, C79: what the scripts made by the library ask of whoever
    wants to spend them. A stack machine for all the words that occur in them, written
    from the protocol (rules after Genesis). *)
From Verif Require Export S_Script S_Pay.

(** a non-negative number on the stack: at most four little-endian bytes, top bit clear *)
Definition stack_num (x : bytes) (n : N) : Prop :=
  le_get x = n /\ (length x <= 4)%nat /\ forall y c, x = y ++ [c] -> b2n c < 128.

(** anything but zeros (and negative zero) is true *)
Definition truthy (x : bytes) : Prop :=
  ~ exists k, x = repeat x00 k \/ x = repeat x00 k ++ [x80].

(** every signature belongs to a key, in the order of the keys, no key twice *)
Inductive in_order (chk : bytes -> bytes -> Prop) : list bytes -> list bytes -> Prop :=
| io_none ks : in_order chk [] ks
| io_take s sgs k ks : chk s k -> in_order chk sgs ks -> in_order chk (s :: sgs) (k :: ks)
| io_skip sgs k ks : in_order chk sgs ks -> in_order chk sgs (k :: ks).

(** one word other than a push: the stack (top first) before and after *)
Inductive word (chk : bytes -> bytes -> Prop) : byte -> list bytes -> list bytes -> Prop :=
| w_num k st : 1 <= k <= 16 -> word chk (n2b (80 + k)) st ([n2b k] :: st)
| w_dup x st : word chk x76 (x :: st) (x :: x :: st)
| w_hash160 x st : word chk xa9 (x :: st) (ripemd160 (sha256 x) :: st)
| w_equal x st : word chk x87 (x :: x :: st) ([x01] :: st)
| w_unequal x y st : x <> y -> word chk x87 (x :: y :: st) ([] :: st)
| w_equalverify x st : word chk x88 (x :: x :: st) st
| w_checksig sg pub st : chk sg pub -> word chk xac (pub :: sg :: st) ([x01] :: st)
| w_checksig_no sg pub st : ~ chk sg pub -> word chk xac (pub :: sg :: st) ([] :: st)
| w_multisig a keys b sgs dummy st : stack_num a (nlen keys) -> stack_num b (nlen sgs) -> nlen sgs <= nlen keys ->
    in_order chk sgs keys -> word chk xae (a :: rev keys ++ b :: rev sgs ++ dummy :: st) ([x01] :: st)
| w_multisig_no a keys b sgs dummy st : stack_num a (nlen keys) -> stack_num b (nlen sgs) -> nlen sgs <= nlen keys ->
    ~ in_order chk sgs keys -> word chk xae (a :: rev keys ++ b :: rev sgs ++ dummy :: st) ([] :: st).

(** running a script; OP_RETURN ends it *)
Inductive exec (chk : bytes -> bytes -> Prop) : bytes -> list bytes -> list bytes -> Prop :=
| ex_done st : exec chk [] st st
| ex_push h d r st st' : announces h (nlen d) -> exec chk r (d :: st) st' -> exec chk (h ++ d ++ r) st st'
| ex_word c r st st1 st' : word chk c st st1 -> exec chk r st1 st' -> exec chk (c :: r) st st'
| ex_return r st : exec chk (x6a :: r) st st.

(** the script is satisfied by the stack that the unlocking script left *)
Definition satisfied (chk : bytes -> bytes -> Prop) (s : bytes) (st : list bytes) : Prop :=
  exists top st', exec chk s st (top :: st') /\ truthy top.

(** pay-to-script-hash (BIP 16): the locking script holds, and so does the script on
    top of the stack, with the rest of the stack *)
Definition satisfied_p2sh (chk : bytes -> bytes -> Prop) (s : bytes) (st : list bytes) : Prop :=
  satisfied chk s st /\ exists r st', st = r :: st' /\ satisfied chk r st'.

(** what a P2PKH script for hash [h] asks: a public key with that hash and, below it, a
    signature that checks under it *)
Definition key_and_signature (chk : bytes -> bytes -> Prop) (h : bytes) (st : list bytes) : Prop :=
  exists pub sg st', st = pub :: sg :: st' /\ ripemd160 (sha256 pub) = h /\ chk sg pub.
