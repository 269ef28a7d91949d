(** Specification of multisig redeem scripts and of Electrum's form of them. *)
From Verif Require Export S_Script S_Address S_Utils.

(** The m-of-n script: OP_m, each key pushed with a one-byte length, OP_n,
    OP_CHECKMULTISIG. *)
Definition multisig_script (m : N) (keys : list bytes) : bytes :=
  [n2b (80 + m)] ++ concat (map (fun k => n2b (nlen k) :: k) keys) ++ [n2b (80 + nlen keys); xae].

(** [sorted_of ks l]: [l] is the sorted rearrangement of [ks]. *)
Definition sorted_of (ks l : list bytes) : Prop := Permutation ks l /\ StronglySorted lex_le l.

(** Electrum's key element: ff, a 78-byte extended key without its checksum, two
    16-bit little-endian derivation indices. *)
Definition electrum_elem (p xpub : bytes) (i j : N) : Prop :=
  exists a b c d, p = xff :: xpub ++ [a; b; c; d] /\ length xpub = 78%nat /\
    i = b2n a + 256 * b2n b /\ j = b2n c + 256 * b2n d.

(** Key elements on which the import panics: empty, or ff followed by fewer than
    78 bytes, or by a path of an odd number of bytes. *)
Definition electrum_bad (p : bytes) : Prop :=
  p = [] \/ exists t, p = xff :: t /\ ((length t < 78)%nat \/ Nat.odd (length t) = true).
