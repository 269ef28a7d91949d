(** Specification for C74: variables that hold lists and share nothing. *)
From Verif Require Export M_Slots.

Section Spec.
Context {A : Type}.

Definition v_act (vs : list (list A)) (a : kact A) : option (list (list A)) :=
  match a with
  | DoNew => Some (vs ++ [[]])
  | DoAdd _ i x => match nth_error vs i with Some v => Some (set_nth i (v ++ [x]) vs) | None => None end
  | DoGet i => match nth_error vs i with Some v => Some (vs ++ [v]) | None => None end
  | DoPut i k x =>
      match nth_error vs i with
      | Some v => if Nat.ltb k (length v) then Some (set_nth i (set_nth k x v) vs) else None
      | None => None
      end
  end.
Fixpoint v_acts (vs : list (list A)) (l : list (kact A)) : option (list (list A)) :=
  match l with
  | [] => Some vs
  | a :: r => match v_act vs a with Some vs' => v_acts vs' r | None => None end
  end.

(** the memory shows what the values say *)
Definition agrees (nil : A) (l : list (kact A)) : Prop :=
  match k_acts nil ([], []) l with
  | Some (h, ss) => v_acts [] l = Some (map (shows h) ss)
  | None => v_acts [] l = None
  end.

(** Histories in which slices that were got (or structs that were copied) are only
    read. [own]: which variables were made by New. *)
Fixpoint reads_only (own : list bool) (l : list (kact A)) : Prop :=
  match l with
  | [] => True
  | DoNew :: r => reads_only (own ++ [true]) r
  | DoAdd _ i _ :: r => nth_error own i <> Some false /\ reads_only own r
  | DoGet _ :: r => reads_only (own ++ [false]) r
  | DoPut _ _ _ :: r => False
  end.

(** a slice that lies in the store *)
Definition lies (h : store A) (s : slots) : Prop := (k_arr s < length h)%nat /\ (k_len s <= length (array h (k_arr s)))%nat.
End Spec.
