(** Specification for the adding half of C80: AddInput and AddOutput on one transaction from
    several goroutines. *)
From Verif Require Export S_ConcTx.

(** AddInput (or AddOutput) with the object [p] *)
Inductive add := AddIn (p : option nat) | AddOut (p : option nat).
Definition add_started (t : nat) (a : add) : call (res unit) :=
  match a with AddIn p => c_add_input t p | AddOut p => c_add_output t p end.
Definition add_do (m : memory) (x : tx) (a : add) : tx :=
  match a with AddIn p => tx_add_input x (option_map (input_at m) p) | AddOut p => tx_add_output x (option_map (output_at m) p) end.
(** [l] are the objects that the calls numbered [ns] add to Inputs (to Outputs) *)
Definition added (ins : bool) (js : list add) (ns : list nat) (l : list (option nat)) : Prop :=
  Forall2 (fun n p => nth_error js n = Some (if ins then AddIn p else AddOut p)) ns l.
