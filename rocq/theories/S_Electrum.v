(** Specification of the errors of the redeem script API (C51, C58): the step that fails first. *)
From Verif Require Export S_RedeemApi S_Errors.

(** deriving the key of an extended key's text along two indices fails *)
Definition derive_fails (H : hdlib) (txt : bytes) (i j : N) (e : err) : Prop :=
  hd_parse H txt = Err e \/
  (exists k, hd_parse H txt = Ok k /\ hd_child H k i = Err e) \/
  (exists k k1, hd_parse H txt = Ok k /\ hd_child H k i = Ok k1 /\ hd_child H k1 j = Err e) \/
  (exists k k1 k2, hd_parse H txt = Ok k /\ hd_child H k i = Ok k1 /\ hd_child H k1 j = Ok k2 /\ hd_pub H k2 = Err e).

(** a key element: the first byte is not ff; the path has not two indices; or the
    derivation fails *)
Inductive key_fails (H : hdlib) : bytes -> err -> Prop :=
| kf_ff c t : c <> xff -> key_fails H (c :: t) EElectrumFF
| kf_path t : (78 <= length t)%nat -> Nat.even (length t) = true -> length t <> 82%nat -> key_fails H (xff :: t) EPath2Items
| kf_derive p xpub i j txt e : electrum_elem p xpub i j -> b58_of txt (xpub ++ firstn 4 (sha256d xpub)) ->
    derive_fails H txt i j e -> key_fails H p e.

(** decoded elements that are refused, in the order of the checks *)
Inductive electrum_fails (H : hdlib) : list bytes -> err -> Prop :=
| ef_none : electrum_fails H [] EFiveParts
| ef_min c t r : 80 <= b2n c <= 81 -> electrum_fails H ((c :: t) :: r) ESigsMin
| ef_max c t r : b2n c < 80 \/ 95 < b2n c -> electrum_fails H ((c :: t) :: r) ESigsMax15
| ef_last2 c t cl tl : 82 <= b2n c <= 95 -> cl <> xae -> electrum_fails H [c :: t; cl :: tl] ECheckMultisig
| ef_last c t ks cn tn cl tl : 82 <= b2n c <= 95 -> cl <> xae ->
    electrum_fails H ((c :: t) :: ks ++ [cn :: tn; cl :: tl]) ECheckMultisig
| ef_key c t l1 p l2 cn tn tl e : 82 <= b2n c <= 95 -> (forall q, In q l1 -> exists pub, derived_key H q pub) ->
    key_fails H p e -> electrum_fails H ((c :: t) :: (l1 ++ p :: l2) ++ [cn :: tn; xae :: tl]) e
| ef_count c t ks pubs cn tn tl : 82 <= b2n c <= 95 -> Forall2 (derived_key H) ks pubs ->
    b2n cn <> (80 + nlen ks) mod 256 \/ 256 <= nlen ks -> electrum_fails H ((c :: t) :: ks ++ [cn :: tn; xae :: tl]) EKeyCount.
