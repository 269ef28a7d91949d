(** Specification vocabulary: a buffer that is written to after a transaction was parsed from it. *)
From Verif Require Export S_Mem S_Tx M_Reuse.

(** [h'] is a later memory: the array behind the slice [b] may hold anything, but it has kept its size. *)
Definition later (h h' : heap) (b : sl) : Prop :=
  (s_arr b < length h')%nat /\ length (arr h' (s_arr b)) = length (arr h (s_arr b)).

(** The byte at place [k] of the array belongs to a script of the parsed transaction. *)
Definition in_script (m : mtx) (k : nat) : Prop :=
  exists s, In s (scripts m) /\ (s_off s <= k < s_off s + s_len s)%nat.

(** The same transaction up to what the scripts hold. *)
Definition same_but_scripts (t u : tx) : Prop :=
  version u = version t /\ locktime u = locktime t /\
  Forall2 (fun a b => exists i j s, a = Some i /\ b = Some j /\
     j = mk_in (prev_txid i) (prev_index i) (prev_sats i) (prev_script i) (Some s) (sequence i)) (inputs t) (inputs u) /\
  Forall2 (fun a b => exists i j s, a = Some i /\ b = Some j /\ j = mk_out (satoshis i) (Some s)) (outputs t) (outputs u).

(** The scripts of a transaction, unlocking scripts first. *)
Definition script_list (t : tx) : list (option bytes) :=
  map (fun a => match a with Some i => unlocking i | None => None end) (inputs t) ++
  map (fun a => match a with Some o => locking o | None => None end) (outputs t).

(** [out]: the bytes [new] at the places of the scripts, the bytes [old] at all other places. *)
Definition mixture (m : mtx) (b : sl) (old new out : bytes) : Prop :=
  length out = length old /\
  forall k, (k < length old)%nat ->
    (in_script m (s_off b + k) -> nth_error out k = nth_error new k) /\
    (~ in_script m (s_off b + k) -> nth_error out k = nth_error old k).
