(** Model of package utils (utils/VarInt.go, utils/ByteManipulation.go). *)
From Verif Require Export GoRt.

(** utils/VarInt.go:7-26 (VarInt). [binary.LittleEndian.PutUintNN] truncates its
    argument to NN bits, which [le_put] does. *)
Definition varint (i : N) : bytes :=
  if i <? 0xfd then [n2b i]
  else if i <? 0x10000 then xfd :: le_put 2 i
  else if i <? 0x100000000 then xfe :: le_put 4 i
  else xff :: le_put 8 i.

(** utils/VarInt.go:31-51 (DecodeVarInt): [b[1:9]] etc. are checked against the
    capacity of [b], [b[0]] against its length; [binary.LittleEndian.UintNN]
    then sees a slice of exactly the right length. *)
Definition decode_varint (b : slice) : res (N * Z) :=
  c <- or_panic (sl_idx b 0) ;;
  match c with
  | xff => s <- or_panic (sl_sub b 1 9) ;; r <- or_panic (sl_le 8 s) ;; Ok (r, 9%Z)
  | xfe => s <- or_panic (sl_sub b 1 5) ;; r <- or_panic (sl_le 4 s) ;; Ok (r, 5%Z)
  | xfd => s <- or_panic (sl_sub b 1 3) ;; r <- or_panic (sl_le 2 s) ;; Ok (r, 3%Z)
  | _ => Ok (le_get [c; x00], 1%Z)
  end.

(** tmp[i] = x *)
(** utils/ByteManipulation.go:48. *)
Fixpoint set_nth {A} (i : nat) (x : A) (l : list A) : list A :=
  match l, i with
  | [], _ => []
  | _ :: r, O => x :: r
  | y :: r, S i' => y :: set_nth i' x r
  end.

(** utils/ByteManipulation.go:44-52 (ReverseBytes): swap loop
    [for i, j := 0, len(a)-1; i < j; i, j = i+1, j-1] on a copy; the fuel is the
    number of iterations of [i] up to the length. *)
Fixpoint rev_loop (fuel : nat) (i j : nat) (tmp : bytes) : bytes :=
  match fuel with
  | O => tmp
  | S fuel' =>
      if Nat.ltb i j
      then rev_loop fuel' (S i) (j - 1)%nat
             (set_nth i (nth j tmp x00) (set_nth j (nth i tmp x00) tmp))
      else tmp
  end.

(** utils/ByteManipulation.go:44-52 (ReverseBytes). *)
Definition reverse_bytes (a : bytes) : bytes := rev_loop (length a) 0 (length a - 1) a.

(** utils/ByteManipulation.go:56-67 (ReverseHexString): the loop
    [for i := len(hex); i >= 2; i -= 2 { res += hex[i-2:i] }]. *)
Fixpoint rhs_loop (fuel : nat) (i : nat) (hex res : bytes) : bytes :=
  match fuel with
  | O => res
  | S fuel' =>
      if Nat.leb 2 i
      then rhs_loop fuel' (i - 2)%nat hex (res ++ firstn 2 (skipn (i - 2) hex))
      else res
  end.

(** utils/ByteManipulation.go:56-67 (ReverseHexString). *)
Definition reverse_hex_string (hex : bytes) : bytes :=
  let hex := if negb (Nat.eqb (Nat.modulo (length hex) 2) 0) then str "0" ++ hex else hex in
  rhs_loop (length hex) (length hex) hex [].

(** utils/ByteManipulation.go:70-77 (GetLittleEndianBytes): [make([]byte, l)]
    then [PutUint32], which needs 4 bytes. *)
Definition get_little_endian_bytes (v : N) (l : N) : res bytes :=
  if l <? 4 then Panic
  else Ok (le_put 4 v ++ repeat x00 (N.to_nat (l - 4))).

(** utils/ByteManipulation.go:80-90 (Equals). *)
Fixpoint eq_loop (b1 b2 : bytes) : bool :=
  match b1, b2 with
  | x :: r1, y :: r2 => if byte_eqb x y then eq_loop r1 r2 else false
  | _, _ => true
  end.

(** utils/ByteManipulation.go:80-90 (Equals). *)
Definition equals (b1 b2 : bytes) : bool :=
  if negb (Nat.eqb (length b1) (length b2)) then false else eq_loop b1 b2.

(** [bytes.Compare] (external): lexicographic order, prefixes first. *)
(** utils/ByteManipulation.go:20. *)
Fixpoint bytes_compare (a b : bytes) : comparison :=
  match a, b with
  | [], [] => Eq
  | [], _ :: _ => Lt
  | _ :: _, [] => Gt
  | x :: r, y :: s =>
      match b2n x ?= b2n y with
      | Eq => bytes_compare r s
      | c => c
      end
  end.

(** utils/ByteManipulation.go:18-29 (Less). The default (log.Panic) branch is
    unreachable because [bytes.Compare] is in {-1,0,1}. *)
Definition bytes_less (a b : bytes) : bool :=
  match bytes_compare a b with Lt => true | Eq | Gt => false end.

(** utils/ByteManipulation.go:36-40 (SortByteArrays) through [sort.Sort]
    (external). Simplification: insertion sort; theorem [sort_unique] shows any
    algorithm that sorts by [Less] and permutes returns the same list. *)
Fixpoint insert_bytes (x : bytes) (l : list bytes) : list bytes :=
  match l with
  | [] => [x]
  | y :: r => if bytes_less y x then y :: insert_bytes x r else x :: l
  end.

(** utils/ByteManipulation.go:36-40 (SortByteArrays). *)
Definition sort_byte_arrays (src : list bytes) : list bytes :=
  fold_right insert_bytes [] src.

(** transaction/Transaction.go:57 and others: [hex.DecodeString] (external, Go 1.13) as a slice: it decodes in place into
    [src := []byte(s)] and returns [src[:n]], so the capacity reaches the end of
    that buffer: the undecoded rest of the text, then [slack] zero bytes of
    allocator rounding. *)
Definition hex_decode_slice (slack : nat) (s : bytes) : slice * option hex_err :=
  let (b, e) := hex_decode s in
  (Sl b (skipn (length b) s ++ repeat x00 slack), e).

(** utils/ByteManipulation.go:93-103 (Decode32Byte). *)
Definition decode_32_byte (slack : nat) (hexStr : bytes) : res bytes :=
  match hex_decode_slice slack hexStr with
  | (_, Some e) => Err (EHex e)
  | (b, None) => s <- or_panic (sl_sub b 0 32) ;; Ok (vis s)
  end.
