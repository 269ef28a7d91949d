(** Memory-level model of the functions whose slices share storage: parsing
    (script slices point into the caller's buffer), appending to a script,
    BuildMerkleRootFromCoinbase, SortByteArrays.

    A heap is a list of byte arrays; a slice is array, offset, length, capacity, as
    in the Go runtime. Arrays never change size and are never freed. *)
From Verif Require Export M_Tx M_Block M_Script.
From Coq Require Export Sorting.Permutation Sorting.Sorted.

(** Go slices (runtime): arrays; used for transaction/Transaction.go:66-115, script/Script.go:129-179. *)
Definition heap := list bytes.

(** Go slices (runtime): a slice header; used for transaction/Transaction.go:66-115, script/Script.go:129-179. *)
Record sl := mk_sl { s_arr : nat; s_off : nat; s_len : nat; s_cap : nat }.

(** Go slices (runtime): an array; used for transaction/Transaction.go:66-115, script/Script.go:129-179. *)
Definition arr (h : heap) (a : nat) : bytes := nth a h [].

(** the bytes [s] shows in [h], and those up to its capacity *)
(** Go slices (runtime): contents; used for transaction/Transaction.go:66-115, script/Script.go:129-179. *)
Definition get (h : heap) (s : sl) : bytes := firstn (s_len s) (skipn (s_off s) (arr h (s_arr s))).
(** Go slices (runtime): spare capacity; used for transaction/Transaction.go:66-115, script/Script.go:129-179. *)
Definition get_spare (h : heap) (s : sl) : bytes :=
  firstn (s_cap s - s_len s) (skipn (s_off s + s_len s) (arr h (s_arr s))).

(** the same slice as a value of the model without memory *)
(** Go slices (runtime): as a value of GoRt.v; used for transaction/Transaction.go:66-115, script/Script.go:129-179. *)
Definition view (h : heap) (s : sl) : slice := Sl (get h s) (get_spare h s).

(** [copy] into an array *)
(** Go slices (runtime): copy; used for transaction/Transaction.go:66-115, script/Script.go:129-179. *)
Definition write_at (b : bytes) (i : nat) (d : bytes) : bytes := firstn i b ++ d ++ skipn (i + length d) b.
(** Go slices (runtime): copy into an array; used for transaction/Transaction.go:66-115, script/Script.go:129-179. *)
Definition h_write (h : heap) (a i : nat) (d : bytes) : heap := set_nth a (write_at (arr h a) i d) h.

(** [make]/[hex.DecodeString]/...: a new array holding [b] and [slack] zero bytes of spare
    capacity *)
(** Go slices (runtime): a new array; used for transaction/Transaction.go:66-115, script/Script.go:129-179. *)
Definition h_alloc (h : heap) (b : bytes) (slack : nat) : heap * sl :=
  (h ++ [b ++ repeat x00 slack], mk_sl (length h) 0 (length b) (length b + slack)).

(** Go's [append(s, d...)]: in place when [d] fits into the capacity, otherwise into a
    new array whose spare capacity [slack] is up to the runtime. *)
(** Go slices (runtime): append; used for transaction/Transaction.go:66-115, script/Script.go:129-179. *)
Definition h_append (slack : nat) (h : heap) (s : sl) (d : bytes) : heap * sl :=
  if Nat.leb (s_len s + length d) (s_cap s)
  then (h_write h (s_arr s) (s_off s + s_len s) d, mk_sl (s_arr s) (s_off s) (s_len s + length d) (s_cap s))
  else h_alloc h (get h s ++ d) slack.

(** [s[lo:hi]]: same array; panics unless [0 <= lo <= hi <= cap(s)] *)
(** Go slices (runtime): s[lo:hi]; used for transaction/Transaction.go:66-115, script/Script.go:129-179. *)
Definition h_sub (s : sl) (lo hi : Z) : option sl :=
  if ((0 <=? lo) && (lo <=? hi) && (hi <=? Z.of_nat (s_cap s)))%Z
  then Some (mk_sl (s_arr s) (s_off s + Z.to_nat lo) (Z.to_nat (hi - lo)) (s_cap s - Z.to_nat lo))
  else None.
(** Go slices (runtime): s[lo:]; used for transaction/Transaction.go:66-115, script/Script.go:129-179. *)
Definition h_from (s : sl) (lo : Z) : option sl := h_sub s lo (Z.of_nat (s_len s)).

(** [s[i] = c] by the caller *)
(** Go slices (runtime): s[i] = c; used for transaction/Transaction.go:66-115, script/Script.go:129-179. *)
Definition h_store (h : heap) (s : sl) (i : nat) (c : byte) : res heap :=
  if Nat.ltb i (s_len s) then Ok (h_write h (s_arr s) (s_off s + i) [c]) else Panic.

(** ** parsing: transaction/input/Input.go:46-72, transaction/output/Output.go:31-54,
    transaction/Transaction.go:66-115; the same steps as M_Tx.v, but a script is the
    slice the code stores ([script.NewFromBytes], script/Script.go:26-29, keeps the
    slice it is given). *)
Record minput := mk_min { m_txid : bytes; m_index : N; m_unlocking : sl; m_seq : N }.
(** transaction/output/Output.go:25-28. *)
Record moutput := mk_mout { m_sats : N; m_locking : sl }.
(** transaction/Transaction.go:37-42. *)
Record mtx := mk_mtx { m_version : N; m_ins : list minput; m_outs : list moutput; m_locktime : N }.

(** transaction/input/Input.go:46-72 (NewFromBytes). *)
Definition h_input (h : heap) (b : sl) : res (minput * Z) :=
  if (Z.of_nat (s_len b) <? 36)%Z then Err EInputShort36 else
  p <- or_panic (h_sub b 0 32) ;;
  let txid := hex_encode (reverse_bytes (get h p)) in
  ix <- or_panic (h_sub b 32 36) ;;
  index <- or_panic (sl_le 4 (view h ix)) ;;
  rest <- or_panic (h_from b 36) ;;
  '(l, size) <- decode_varint (view h rest) ;;
  let offset := (36 + size)%Z in
  let totalLength := wrap_int (wrap_int (offset + int_of_u64 l) + 4) in
  if (Z.of_nat (s_len b) <? totalLength)%Z then Err EInputShort else
  s <- or_panic (h_sub b offset (wrap_int (offset + int_of_u64 l))) ;;
  sq <- or_panic (h_from b (wrap_int (offset + int_of_u64 l))) ;;
  seq <- or_panic (sl_le 4 (view h sq)) ;;
  Ok (mk_min txid index s seq, totalLength).

(** transaction/output/Output.go:31-54 (NewFromBytes). *)
Definition h_output (h : heap) (b : sl) : res (moutput * Z) :=
  if (Z.of_nat (s_len b) <? 8)%Z then Err EOutputShort8 else
  v <- or_panic (h_sub b 0 8) ;;
  sats <- or_panic (sl_le 8 (view h v)) ;;
  rest <- or_panic (h_from b 8) ;;
  '(l, size) <- decode_varint (view h rest) ;;
  let offset := (8 + size)%Z in
  let totalLength := wrap_int (offset + int_of_u64 l) in
  if (Z.of_nat (s_len b) <? totalLength)%Z then Err EOutputShort else
  s <- or_panic (h_sub b offset totalLength) ;;
  Ok (mk_mout sats s, totalLength).

(** transaction/Transaction.go:83-91. *)
Definition h_input_step (h : heap) (b : sl) (st : Z * list minput) : res (Z * list minput) :=
  let '(offset, ins) := st in
  rest <- or_panic (h_from b offset) ;;
  '(i, size) <- h_input h rest ;;
  Ok (wrap_int (offset + size), ins ++ [i]).

(** transaction/Transaction.go:96-103. *)
Definition h_output_step (h : heap) (b : sl) (st : Z * list moutput) : res (Z * list moutput) :=
  let '(offset, outs) := st in
  rest <- or_panic (h_from b offset) ;;
  '(o, size) <- h_output h rest ;;
  Ok (wrap_int (offset + size), outs ++ [o]).

(** transaction/Transaction.go:66-115 (NewFromBytes). *)
Definition h_tx (h : heap) (b : sl) : res mtx :=
  if (Z.of_nat (s_len b) <? 10)%Z then Err ETxShort else
  vs <- or_panic (h_sub b 0 4) ;;
  ver <- or_panic (sl_le 4 (view h vs)) ;;
  let offset := 4%Z in
  rest <- or_panic (h_from b offset) ;;
  '(inputCount, size) <- decode_varint (view h rest) ;;
  let offset := wrap_int (offset + size) in
  '(offset, ins) <- n_loop (h_input_step h b) inputCount (offset, []) ;;
  rest <- or_panic (h_from b offset) ;;
  '(outputCount, size) <- decode_varint (view h rest) ;;
  let offset := wrap_int (offset + size) in
  '(offset, outs) <- n_loop (h_output_step h b) outputCount (offset, []) ;;
  nLT <- or_panic (h_from b offset) ;;
  if negb (Z.of_nat (s_len nLT) =? 4)%Z then Err ELockTime else
  ls <- or_panic (h_from b offset) ;;
  lt <- or_panic (sl_le 4 (view h ls)) ;;
  Ok (mk_mtx ver ins outs lt).

(** what the parsed structures show in a heap *)
(** transaction/input/Input.go:25-32 as a value. *)
Definition abs_in (h : heap) (i : minput) : input := mk_in (m_txid i) (m_index i) 0 None (Some (get h (m_unlocking i))) (m_seq i).
(** transaction/output/Output.go:25-28 as a value. *)
Definition abs_out (h : heap) (o : moutput) : output := mk_out (m_sats o) (Some (get h (m_locking o))).
(** transaction/Transaction.go:37-42 as a value. *)
Definition abs_tx (h : heap) (m : mtx) : tx :=
  mk_tx (m_version m) (map Some (map (abs_in h) (m_ins m))) (map Some (map (abs_out h) (m_outs m))) (m_locktime m).

(** the script slices of a parsed transaction, in order *)
(** transaction/input/Input.go:30, transaction/output/Output.go:27. *)
Definition scripts (m : mtx) : list sl := map m_unlocking (m_ins m) ++ map m_locking (m_outs m).

(** ** builder methods, script/Script.go:129-179, on [*s] *)
Definition h_append_opcode (slack : nat) (h : heap) (s : sl) (o : byte) : heap * sl := h_append slack h s [o].

(** script/Script.go:129-137 (AppendPushData). *)
Definition h_append_push_data (slack : nat) (h : heap) (s : sl) (d : bytes) : heap * sl * option err :=
  match encode_parts [d] with
  | Ok p => (h_append slack h s p, None)
  | Err e => (h, s, Some e)
  | Panic => (h, s, None)
  end.

(** ** block/BuildMerkleRootFromCoinbase.go:11-21; [crypto.Sha256d] returns a slice of
    a new 32-byte array (crypto/Hash.go), [slack] is the runtime's choice for each
    reallocation *)
Fixpoint h_merkle (slack : nat) (h : heap) (acc : sl) (branches : list bytes) : heap * sl :=
  match branches with
  | [] => (h, acc)
  | b :: r =>
      let (h1, concat) := h_append slack h acc (hex_ignore b) in
      let (h2, hash) := h_alloc h1 (sha256d (get h1 concat)) 0 in
      h_merkle slack h2 hash r
  end.

(** ** utils/ByteManipulation.go:11-39 (SortByteArrays): sorts the slice headers in
    place with [sort.Sort] (external: some sequence of swaps that leaves no element
    smaller than its predecessor) and returns the same slice. [src] and [src'] are the
    headers in the caller's array before and after; the returned slice is that array. *)
Definition h_sorts (h : heap) (src src' : list sl) : Prop :=
  Permutation src src' /\
  forall i a b, nth_error src' i = Some a -> nth_error src' (S i) = Some b -> bytes_less (get h b) (get h a) = false.
