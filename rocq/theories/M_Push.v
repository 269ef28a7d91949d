(** Model of script/OpPushdata.go. *)
From Verif Require Export M_Utils.

(** script/OpPushdata.go:40-68 (GetPushDataPrefix); [l] is [int64(len(data))]. *)
Definition push_prefix (data : bytes) : res bytes :=
  let l := nlen data in
  if l <=? 75 then Ok [n2b l]
  else if l <=? 0xFF then Ok [x4c; n2b l]
  else if l <=? 0xFFFF then Ok (x4d :: le_put 2 l)
  else if l <=? 0xFFFFFFFF then Ok (x4e :: le_put 4 l)
  else Err ETooBig.

(** script/OpPushdata.go:17-31 (EncodeParts): the loop over [parts] with index
    [i] and accumulator [b]. *)
Fixpoint encode_loop (i : N) (b : bytes) (parts : list bytes) : res bytes :=
  match parts with
  | [] => Ok b
  | part :: rest =>
      match push_prefix part with
      | Ok pd => encode_loop (i + 1) ((b ++ pd) ++ part) rest
      | _ => Err (EPartTooBig i)
      end
  end.

(** script/OpPushdata.go:17-31 (EncodeParts). *)
Definition encode_parts (parts : list bytes) : res bytes := encode_loop 0 [] parts.

(** [b[lo:hi]] and [b[lo:]] in DecodeParts. The code has checked [len(b)] against
    [hi] beforehand, so capacity never matters: either [hi <= len(b)] or
    [lo > hi] (after wrap-around), which panics. *)
(** script/OpPushdata.go:97-99, 109-111, 121-123, 131-133. *)
Definition bsub (b : bytes) (lo hi : N) : res bytes :=
  if (lo <=? hi) && (hi <=? nlen b)
  then Ok (firstn (N.to_nat (hi - lo)) (skipn (N.to_nat lo) b)) else Panic.

(** script/OpPushdata.go:99, 111, 123, 133, 137. *)
Definition bfrom (b : bytes) (lo : N) : res bytes := bsub b lo (nlen b).

(** One iteration of the loop of DecodeParts (script/OpPushdata.go:86-139) on a
    non-empty [b] with first byte [c]: the part and the remaining bytes, or
    [Err ENotEnough]. The uint16 and uint32 additions [3+l], [5+l] wrap. *)
Definition decode_part (c : byte) (b : bytes) : res (bytes * bytes) :=
  match c with
  | x4c => (* lines 89-99 *)
      if nlen b <? 2 then Err ENotEnough else
      let l := b2n (nth 1 b x00) in
      if nlen b <? 2 + l then Err ENotEnough else
      part <- bsub b 2 (2 + l) ;; r <- bfrom b (2 + l) ;; Ok (part, r)
  | x4d => (* lines 101-111 *)
      if nlen b <? 3 then Err ENotEnough else
      let l := le_get (firstn 2 (skipn 1 b)) in
      let e := wrap16 (3 + l) in
      if nlen b <? e then Err ENotEnough else
      part <- bsub b 3 e ;; r <- bfrom b e ;; Ok (part, r)
  | x4e => (* lines 113-123 *)
      if nlen b <? 5 then Err ENotEnough else
      let l := le_get (firstn 4 (skipn 1 b)) in
      let e := wrap32 (5 + l) in
      if nlen b <? e then Err ENotEnough else
      part <- bsub b 5 e ;; r <- bfrom b e ;; Ok (part, r)
  | _ => (* lines 125-138 *)
      if (0x01 <=? b2n c) && (b2n c <=? 0x4e) then
        let l := b2n c in
        if nlen b <? 1 + l then Err ENotEnough else
        part <- bsub b 1 (l + 1) ;; r <- bfrom b (1 + l) ;; Ok (part, r)
      else
        r <- bfrom b 1 ;; Ok ([c], r)
  end.

(** script/OpPushdata.go:84-142 (DecodeParts): [for len(b) > 0]. Go returns the
    parts decoded so far beside the error, hence the pair. Fuel: [length b]
    (each iteration consumes at least one byte, see [decode_full_eq]). *)
Fixpoint decode_loop (fuel : nat) (r : list bytes) (b : bytes) : res (list bytes * option err) :=
  match b with
  | [] => Ok (r, None)
  | c :: _ =>
      match fuel with
      | O => Panic (* never reached *)
      | S fuel' =>
          match decode_part c b with
          | Ok (part, b') => decode_loop fuel' (r ++ [part]) b'
          | Err e => Ok (r, Some e)
          | Panic => Panic
          end
      end
  end.

(** script/OpPushdata.go:84-142 (DecodeParts). *)
Definition decode_parts_full (b : bytes) : res (list bytes * option err) :=
  decode_loop (length b) [] b.

(** DecodeParts for callers that drop the parts on error. *)
(** script/OpPushdata.go:84-142 (DecodeParts). *)
Definition decode_parts (b : bytes) : res (list bytes) :=
  '(r, e) <- decode_parts_full b ;;
  match e with None => Ok r | Some x => Err x end.

(** script/OpPushdata.go:73-79 (DecodeStringParts). *)
Definition decode_string_parts (s : bytes) : res (list bytes) :=
  b <- of_hex s ;; decode_parts b.
