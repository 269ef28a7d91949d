(** Specification for C81. *)
From Verif Require Export S_Redeem M_ConcRs.

(** [sort] sorts: the same keys, in order *)
Definition sorting (sort : nat -> sorter) : Prop :=
  forall l, exists l', sort_run (sort (length l)) l = Some l' /\ sorted_of l l'.
(** it leaves alone what is in order *)
Fixpoint no_swaps (s : sorter) (l : list bytes) : Prop :=
  match s with
  | SDone => True
  | SLess i j f => match nth_error l i, nth_error l j with Some a, Some b => no_swaps (f (bytes_less a b)) l | _, _ => False end
  | SSwap _ _ _ => False
  end.
Definition lazy_sorting (sort : nat -> sorter) : Prop :=
  forall l, StronglySorted lex_le l -> no_swaps (sort (length l)) l.

(** calls on one RedeemScript *)
Inductive rjob := RScript | RHash | RAddress.   (* GetRedeemScript, GetRedeemScriptHash, GetAddress *)
Definition r_finish (j : rjob) (s : bytes) : bytes :=
  match j with RScript => s | RHash => hash160 s | RAddress => b58_check_encode (hash160 s) x05 end.
Definition r_value (rs : redeem) (j : rjob) : bytes :=
  match j with
  | RScript => fst (get_redeem_script rs)
  | RHash => fst (get_redeem_script_hash rs)
  | RAddress => fst (redeem_get_address rs)
  end.
Definition r_started (sort : nat -> sorter) (j : rjob) : kcall bytes := bindp kheld (c_get_redeem sort) (fun s => Ret (r_finish j s)).
Definition r_together (sort : nat -> sorter) (m : kmem) (js : list rjob) (schedule : list nat) : conf kheld bytes :=
  run kcell_eq kheld (m, map (r_started sort) js) schedule.
