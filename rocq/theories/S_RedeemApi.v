(** Specification of the redeem script API: histories of calls, key derivation
    through the external HD-key library, malformed Electrum scripts. *)
From Verif Require Export S_Redeem M_Redeem.

(** the element [p] stands for the public key [pub]: its extended key, with the
    checksum appended, as base58 text, derived along its two indices *)
Definition derived_key (H : hdlib) (p pub : bytes) : Prop :=
  exists xpub i j txt k k1 k2, electrum_elem p xpub i j /\ b58_of txt (xpub ++ firstn 4 (sha256d xpub)) /\
    hd_parse H txt = Ok k /\ hd_child H k i = Ok k1 /\ hd_child H k1 j = Ok k2 /\ hd_pub H k2 = Ok pub.

(** a key library that never panics *)
Definition hd_total (H : hdlib) : Prop :=
  (forall t, hd_parse H t <> Panic) /\ (forall k i, hd_child H k i <> Panic) /\ (forall k, hd_pub H k <> Panic).

(** decoded elements on which the import panics: an empty first element; a single
    element, or two; an empty count or last element; a malformed key element after
    good ones *)
Definition electrum_panics (H : hdlib) (ps : list bytes) : Prop :=
  (exists r, ps = [] :: r) \/
  (exists c t r, ps = (c :: t) :: r /\ 82 <= b2n c <= 95 /\
     (r = [] \/ r = [[]] \/ (exists tl, r = [xae :: tl]) \/
      exists ks b e, r = ks ++ [b; e] /\
        (b = [] \/ e = [] \/
         starts e (fun x => x = xae) /\ exists l1 p l2, ks = l1 ++ p :: l2 /\
           (forall q, In q l1 -> exists pub, derived_key H q pub) /\ electrum_bad p))).

(** the calls of the API on one redeem script *)
Inductive rcall := RAdd (pkey : bytes) (path : list N) | RScript | RHash | RAddress.

(** one call, then the next: state after the whole history (AddPublicKey's error
    leaves the caller free to go on) *)
Fixpoint run_redeem (H : hdlib) (rs : redeem) (h : list rcall) : res redeem :=
  match h with
  | [] => Ok rs
  | RAdd k p :: r => '(rs', _) <- add_public_key H rs k p ;; run_redeem H rs' r
  | RScript :: r => run_redeem H (snd (get_redeem_script rs)) r
  | RHash :: r => run_redeem H (snd (get_redeem_script_hash rs)) r
  | RAddress :: r => run_redeem H (snd (redeem_get_address rs)) r
  end.

(** the keys a history adds, in the order it adds them *)
Inductive adds (H : hdlib) : list rcall -> list bytes -> Prop :=
| adds_nil : adds H [] []
| adds_ok k i j r ks x x1 x2 pub : hd_parse H k = Ok x -> hd_child H x i = Ok x1 -> hd_child H x1 j = Ok x2 -> hd_pub H x2 = Ok pub ->
    adds H r ks -> adds H (RAdd k [i; j] :: r) (pub :: ks)
| adds_fail k i j r ks : (forall x x1 x2 pub, hd_parse H k = Ok x -> hd_child H x i = Ok x1 -> hd_child H x1 j = Ok x2 -> hd_pub H x2 <> Ok pub) ->
    adds H r ks -> adds H (RAdd k [i; j] :: r) ks
| adds_path k p r ks : length p <> 2%nat -> adds H r ks -> adds H (RAdd k p :: r) ks
| adds_script r ks : adds H r ks -> adds H (RScript :: r) ks
| adds_hash r ks : adds H r ks -> adds H (RHash :: r) ks
| adds_address r ks : adds H r ks -> adds H (RAddress :: r) ks.

