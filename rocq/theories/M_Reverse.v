(** Memory-level model of ReverseBytes. *)
From Verif Require Export M_Mem.

(** utils/ByteManipulation.go:48-50: [tmp[i], tmp[j] = tmp[j], tmp[i]] for i, j towards
    each other; both elements are read before either is written. *)
Fixpoint h_rev_loop (fuel : nat) (i j : nat) (h : heap) (tmp : sl) : heap :=
  match fuel with
  | O => h
  | S fuel' =>
      if Nat.ltb i j
      then let ti := nth i (get h tmp) x00 in
           let tj := nth j (get h tmp) x00 in
           let h := h_write h (s_arr tmp) (s_off tmp + i) [tj] in
           let h := h_write h (s_arr tmp) (s_off tmp + j) [ti] in
           h_rev_loop fuel' (S i) (j - 1)%nat h tmp
      else h
  end.

(** utils/ByteManipulation.go:44-52 (ReverseBytes): [make] gives an array of exactly
    [len(a)] bytes, [copy] fills it. *)
Definition h_reverse (h : heap) (a : sl) : heap * sl :=
  let n := s_len a in
  let (h, tmp) := h_alloc h (repeat x00 n) 0 in
  let h := h_write h (s_arr tmp) (s_off tmp) (get h a) in
  (h_rev_loop n 0 (n - 1) h tmp, tmp).
