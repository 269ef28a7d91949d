(** C105: what a caller expects of a method called through a nil pointer. *)
From Verif Require Export M_Nil.

(** The data of a call on a script: what it is asked to push, [None] if its text is not
    hexadecimal. An opcode asks for no push. *)
Definition asked_pushes (c : call) : option (list bytes) :=
  match c with
  | CPush d | CPushString d => Some [d]
  | CPushHex h => option_map (fun d => [d]) (hex_dec h)
  | CPushArray l | CPushStrings l => Some l
  | COpCode _ => Some []
  end.
(** The arguments are in order: the text is hexadecimal and nothing is 2^32 bytes or longer. *)
Definition in_order (c : call) : Prop := exists l, asked_pushes c = Some l /\ forall d, In d l -> nlen d < 2 ^ 32.

(** The arguments of a call on a transaction are in order: the script is hexadecimal, the
    address is accepted. *)
Definition tx_in_order (c : tx_call) : Prop :=
  match c with
  | CallFrom _ _ script _ => exists s, hex_dec script = Some s
  | CallPayTo addr _ => exists a, addr_from_string addr = Ok a
  | _ => True
  end.
