(** Specification for C82. *)
From Verif Require Export M_ConcCb.

(** the coinbase hash: the first [len] bytes *)
Definition hash_at (m : bmem) (len : nat) : bytes := map m (seq 0 len).
(** one call for each list of branches, all with the same coinbase hash *)
Definition roots_together (m : bmem) (len room : nat) (jobs : list (list bytes)) (schedule : list nat) : conf bheld bytes :=
  run Nat.eq_dec bheld (m, map (c_root len room) jobs) schedule.
(** the first branch does not fit behind the hash, or is empty *)
Definition copies (room : nat) (branches : list bytes) : Prop :=
  match branches with [] => True | h :: _ => (room < length (hex_ignore h) \/ hex_ignore h = [])%nat end.
(** what is hashed on the way to the root *)
Fixpoint hashed (c : bytes) (branches : list bytes) : list bytes :=
  match branches with [] => [] | h :: r => (c ++ hex_ignore h) :: hashed (sha256d (c ++ hex_ignore h)) r end.
