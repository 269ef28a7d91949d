(** Vocabulary for transactions that share Input objects. *)
From Verif Require Export M_Heap.

(** all pointers point to objects *)
Definition valid_ptrs (h : heap) (t : ptx) : Prop :=
  forall n a, nth_error (p_inputs t) n = Some (Some a) -> (a < length h)%nat.

(** no object occurs at two positions *)
Definition no_sharing (t : ptx) : Prop :=
  forall m n a, nth_error (p_inputs t) m = Some (Some a) -> nth_error (p_inputs t) n = Some (Some a) -> m = n.

(** the same Input object with another unlocking script *)
Definition set_unlocking (i : input) (s : option bytes) : input :=
  mk_in (prev_txid i) (prev_index i) (prev_sats i) (prev_script i) s (sequence i).

(** objects not pointed to by [t] are untouched by signing [t] *)
Definition frame (t : ptx) (h h' : heap) : Prop :=
  forall a, (forall n, nth_error (p_inputs t) n <> Some (Some a)) -> nth_error h' a = nth_error h a.

