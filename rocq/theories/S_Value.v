(** Specification for the value theorems of C84: what is unspent, and how much. *)
From Verif Require Export S_Chain.

(** an output of a transaction on the wire: where it is found, and its amount *)
Definition coins_of (b : bytes) (t : tx) : list ((bytes * N) * N) :=
  combine (map (fun k => (hex_encode (rev (dsha b)), N.of_nat k)) (seq 0 (length (outputs t)))) (map amount_out (outputs t)).
Definition point_dec (p q : bytes * N) : {p = q} + {p <> q}.
Proof. decide equality; [apply N.eq_dec|apply (list_eq_dec Byte.byte_eq_dec)]. Defined.
(** the amount of all outputs of the known transactions that none of them spends *)
Definition unspent_total (known : list bytes) (ts : list tx) : N :=
  sum (map snd (filter (fun c => if in_dec point_dec (fst c) (concat (map spent ts)) then false else true)
    (concat (map (fun bt => coins_of (fst bt) (snd bt)) (combine known ts))))).
(** no known transaction names an output of [b] (which would have to know the hash of [b] before it is sent) *)
Definition unnamed (known : list bytes) (b : bytes) : Prop :=
  forall b' t' k, In b' known -> on_wire b' t' -> ~ In (hex_encode (rev (dsha b)), k) (spent t').
