(** Specification of Bitcoin merkle trees and proofs, block headers and coinbase
    transactions. Hashes are byte strings in internal order; their hex display is
    reversed. *)
From Verif Require Export Bytes M_Crypto S_Sighash.

(** hex display of a hash, in either letter case *)
Definition displays (s id : bytes) : Prop := hex_dec s = Some (rev id).

(** one level up: hash neighbours, the last of an odd level with itself *)
Inductive pairing : list bytes -> list bytes -> Prop :=
| pair_nil : pairing [] []
| pair_one a : pairing [a] [dsha (a ++ a)]
| pair_two a b l l' : pairing l l' -> pairing (a :: b :: l) (dsha (a ++ b) :: l').

Inductive merkle_root : list bytes -> bytes -> Prop :=
| root_one a : merkle_root [a] a
| root_up l l' r : (2 <= length l)%nat -> pairing l l' -> merkle_root l' r -> merkle_root l r.

(** the neighbour hashed with node [i] of a level *)
Definition sibling (l : list bytes) (i : nat) (s : bytes) : Prop :=
  if Nat.even i then
    match nth_error l (S i) with Some x => s = x | None => nth_error l i = Some s end
  else nth_error l (i - 1) = Some s.

(** the sibling path of leaf [i], from the leaf up *)
Inductive path : list bytes -> nat -> list bytes -> Prop :=
| path_one a : path [a] 0 []
| path_up l l' i s p : (2 <= length l)%nat -> pairing l l' -> sibling l i s -> path l' (i / 2) p -> path l i (s :: p).

(** a chain of hashing steps: from node [x] at index [i] with siblings [bs], the
    messages hashed and the root *)
Inductive climb : bytes -> N -> list bytes -> list bytes -> bytes -> Prop :=
| climb_nil x i : climb x i [] [] x
| climb_cons x i b bs m ms r :
    m = (if N.odd i then b ++ x else x ++ b) -> climb (dsha m) (i / 2) bs ms r ->
    climb x i (b :: bs) (m :: ms) r.

(** ** Coinbase transactions *)

(** the unlocking script: 03, the low three bytes of the height, the text cut so
    that this part has at most 88 bytes, then the extra nonces *)
Definition coinbase_script (height : N) (text nonce : bytes) : bytes :=
  firstn 88 (x03 :: le_put 3 height ++ text) ++ nonce.

(** [data] are the scripts of further, valueless outputs *)
Definition coinbase_tx (height value : N) (text nonce h : bytes) (data : list bytes) : tx :=
  mk_tx 1
    [Some (mk_in (repeat x30 64) (2 ^ 32 - 1) 0 None (Some (coinbase_script height text nonce)) (2 ^ 32 - 1))]
    (Some (mk_out value (Some (p2pkh h))) :: map (fun s => Some (mk_out 0 (Some s))) data) 0.

(** the data outputs of a witness commitment (hex, possibly absent) and a miner id *)
Definition witness_data (witness : bytes) (ws : list bytes) : Prop :=
  (witness = [] /\ ws = []) \/ (witness <> [] /\ exists wc, hex_dec witness = Some wc /\ ws = [wc]).
Definition miner_data (miner : bytes) : list bytes := match miner with [] => [] | _ => [miner] end.

(** BIP34: the script starts with a push of the height as a minimal script number:
    little-endian, sign in the top bit, no superfluous top byte *)
Definition bip34 (height : N) (script : bytes) : Prop :=
  exists b c rest, script = n2b (nlen (b ++ [c])) :: (b ++ [c]) ++ rest /\ nlen (b ++ [c]) <= 75 /\
    le_get (b ++ [c]) = height /\ b2n c < 128 /\
    (c = x00 -> exists b' d, b = b' ++ [d] /\ 128 <= b2n d).
