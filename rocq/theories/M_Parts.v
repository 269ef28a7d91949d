(** Memory-level model of DecodeParts (script/OpPushdata.go) and GetPublicKeyHash
    (script/Script.go): which storage the returned parts have. Heap and slices as in
    M_Mem.v. *)
From Verif Require Export M_Mem.

(** [part := b[lo:hi]; r = append(r, part); b = b[hi:]] *)
(** script/OpPushdata.go:97-99, 109-111, 121-123, 131-133. *)
Definition h_cut (h : heap) (b : sl) (lo hi : N) : res (heap * sl * sl) :=
  part <- or_panic (h_sub b (Z.of_N lo) (Z.of_N hi)) ;;
  rest <- or_panic (h_from b (Z.of_N hi)) ;;
  Ok (h, part, rest).

(** script/OpPushdata.go:86-139, one iteration on a non-empty [b] with first byte [c];
    the opcode case stores a new one-byte slice (line 135, [[]byte{b[0]}]). *)
Definition h_decode_part (h : heap) (c : byte) (b : sl) : res (heap * sl * sl) :=
  let n := N.of_nat (s_len b) in
  match c with
  | x4c => (* lines 89-99 *)
      if n <? 2 then Err ENotEnough else
      let l := b2n (nth 1 (get h b) x00) in
      if n <? 2 + l then Err ENotEnough else h_cut h b 2 (2 + l)
  | x4d => (* lines 101-111 *)
      if n <? 3 then Err ENotEnough else
      let l := le_get (firstn 2 (skipn 1 (get h b))) in
      let e := wrap16 (3 + l) in
      if n <? e then Err ENotEnough else h_cut h b 3 e
  | x4e => (* lines 113-123 *)
      if n <? 5 then Err ENotEnough else
      let l := le_get (firstn 4 (skipn 1 (get h b))) in
      let e := wrap32 (5 + l) in
      if n <? e then Err ENotEnough else h_cut h b 5 e
  | _ => (* lines 125-138 *)
      if (0x01 <=? b2n c) && (b2n c <=? 0x4e) then
        let l := b2n c in
        if n <? 1 + l then Err ENotEnough else h_cut h b 1 (l + 1)
      else
        let (h', part) := h_alloc h [c] 0 in
        rest <- or_panic (h_from b 1) ;;
        Ok (h', part, rest)
  end.

(** script/OpPushdata.go:84-142 (DecodeParts), the loop; fuel as in [decode_loop]. *)
Fixpoint h_decode_loop (fuel : nat) (h : heap) (r : list sl) (b : sl) : res (heap * list sl * option err) :=
  match get h b with
  | [] => Ok (h, r, None)
  | c :: _ =>
      match fuel with
      | O => Panic (* never reached *)
      | S fuel' =>
          match h_decode_part h c b with
          | Ok (h', part, b') => h_decode_loop fuel' h' (r ++ [part]) b'
          | Err e => Ok (h, r, Some e)
          | Panic => Panic
          end
      end
  end.

(** script/OpPushdata.go:84-142 (DecodeParts). *)
Definition h_decode_parts (h : heap) (b : sl) : res (heap * list sl * option err) := h_decode_loop (s_len b) h [] b.

(** script/Script.go:288-303 (GetPublicKeyHash) on a non-nil script *)
Definition h_get_public_key_hash (h : heap) (s : sl) : res (heap * sl) :=
  match get h s with
  | [] => Err EScriptEmpty
  | b0 :: r =>
      if negb (byte_eqb b0 x76) then Err ENotP2PKH else
      b1 <- or_panic (nth_error r 0) ;;
      if negb (byte_eqb b1 xa9) then Err ENotP2PKH else
      t <- or_panic (h_from s 2) ;;
      '(h', parts, e) <- h_decode_parts h t ;;
      match e with
      | Some x => Err x
      | None => p <- or_panic (nth_error parts 0) ;; Ok (h', p)
      end
  end.
