(** Specification of the bytes the script builder writes (C12). *)
From Verif Require Export S_Script.

(** [w] is one shortest push after the other, of the items [ds] *)
Inductive pushes : list bytes -> bytes -> Prop :=
| pushes_nil : pushes [] []
| pushes_cons d ds h w : shortest_header h (nlen d) -> pushes ds w -> pushes (d :: ds) (h ++ d ++ w).

(** what a call appends: the bare opcode byte, or pushes of the items asked for *)
Inductive appends : call -> bytes -> Prop :=
| ap_opcode o : appends (COpCode o) [o]
| ap_items c w : (forall o, c <> COpCode o) -> pushes (asked c) w -> appends c w.
