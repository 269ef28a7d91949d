(** A RedeemScript in several goroutines: GetRedeemScript sorts the keys in place
    (script/RedeemScript.go:168, utils/ByteManipulation.go:36-40).

    Simplifications: an element of PublicKeys (a []byte header) is read and written in one
    access with its bytes, which nothing writes; the array behind PublicKeys is fixed. *)
From Verif Require Export M_Redeem S_Conc.

(** SignaturesRequired, the length of PublicKeys, its elements *)
Inductive kcell := KReq | KLen | KKey (i : nat).   (* script/RedeemScript.go:16-20 *)
Definition kcell_eq (a b : kcell) : {a = b} + {a <> b}.
Proof. decide equality; apply Nat.eq_dec. Defined.
(** script/RedeemScript.go:16-20: the types of the fields. *)
Definition kheld (c : kcell) : Type := match c with KReq => Z | KLen => nat | KKey _ => bytes end.
Notation kmem := (mem kheld).
Notation kcall := (prog kheld).

(** sort.Sort (external): some strategy that compares and swaps elements. *)
(** utils/ByteManipulation.go:38. *)
Inductive sorter := SDone | SLess (i j : nat) (k : bool -> sorter) | SSwap (i j : nat) (k : sorter).
(** utils/ByteManipulation.go:18-29 (Less), 31-33 (Swap, [b[j], b[i] = b[i], b[j]]: both
    elements are read, then element [j] is written, then element [i]). *)
Fixpoint c_sorter {R} (s : sorter) (k : kcall R) : kcall R :=
  match s with
  | SDone => k
  | SLess i j f => Rd (KKey i) (fun a => Rd (KKey j) (fun b => c_sorter (f (bytes_less a b)) k))
  | SSwap i j f => Rd (V:=kheld) (KKey i) (fun a => Rd (V:=kheld) (KKey j) (fun b => Wr (V:=kheld) (KKey j) a (Wr (V:=kheld) (KKey i) b (c_sorter f k))))
  end.
(** the same on a list of keys; [None] if an index is out of range *)
(** utils/ByteManipulation.go:18-33, 38 without concurrency. *)
Fixpoint sort_run (s : sorter) (l : list bytes) : option (list bytes) :=
  match s with
  | SDone => Some l
  | SLess i j f => match nth_error l i, nth_error l j with Some a, Some b => sort_run (f (bytes_less a b)) l | _, _ => None end
  | SSwap i j f => match nth_error l i, nth_error l j with Some a, Some b => sort_run f (set_nth i b (set_nth j a l)) | _, _ => None end
  end.

(** script/RedeemScript.go:169-172: the loop over the keys *)
Fixpoint c_keys {R} (b : bytes) (i n : nat) (k : bytes -> kcall R) : kcall R :=
  match n with
  | O => k b
  | S n' => Rd (KKey i) (fun pk => c_keys ((b ++ [n2b (nlen pk)]) ++ pk) (S i) n' k)
  end.
(** script/RedeemScript.go:164-179 (GetRedeemScript); [sort n] is what sort.Sort does for [n]
    keys. PublicKeys is read for the sort, written with the same slice, and read for the loop
    and for the count. *)
Definition c_get_redeem (sort : nat -> sorter) : kcall bytes :=
  Rd KReq (fun r => Rd KLen (fun n =>
  c_sorter (sort n) (Wr KLen n (Rd KLen (fun n2 =>
  c_keys ([] ++ [n2b (b2n OpBASE + Z.to_N (r mod 256))]) 0 n2 (fun b => Rd KLen (fun n3 =>
  Ret (R:=bytes) ((b ++ [op_base_plus (N.of_nat n3 mod 256)]) ++ [OpCHECKMULTISIG])))))))).

(** the redeem script as a value *)
(** script/RedeemScript.go:16-20 read from memory. *)
Definition rs_at (m : kmem) : redeem := mk_rs (m KReq) (map (fun i => m (KKey i)) (seq 0 (m KLen))).

(** insertionSort of Go's sort package, which sort.Sort applies directly to up to 6 elements
    (and finally to up to 12): [for i := 1; i < n; i++ { for j := i; j > 0 && Less(j, j-1); j-- { Swap(j, j-1) } }] *)
(** utils/ByteManipulation.go:38: the inner loop. *)
Fixpoint ins_inner (j : nat) (k : sorter) : sorter :=
  match j with
  | O => k
  | S j' => SLess (S j') j' (fun lt => if lt then SSwap (S j') j' (ins_inner j' k) else k)
  end.
(** utils/ByteManipulation.go:38: the outer loop. *)
Fixpoint ins_outer (i n : nat) : sorter :=
  match n with O => SDone | S n' => ins_inner i (ins_outer (S i) n') end.
(** utils/ByteManipulation.go:38: sort.Sort of up to 12 elements. *)
Definition go_insertion (n : nat) : sorter := ins_outer 1 (n - 1).
