(** Specification for C104: variables that hold lists and share nothing; the usual
    ways to take an element out of a list. *)
From Verif Require Export M_Window.

Section Spec.
Context {A : Type}.

(** [None] also where Go would show elements past the end of a list. *)
Definition wv_act (vs : list (list A)) (a : wact A) : option (list (list A)) :=
  match a with
  | WNew => Some (vs ++ [[]])
  | WAdd _ i xs => match nth_error vs i with Some v => Some (set_nth i (v ++ xs) vs) | None => None end
  | WJoin _ i j =>
      match nth_error vs i, nth_error vs j with Some v, Some u => Some (set_nth i (v ++ u) vs) | _, _ => None end
  | WGet i => match nth_error vs i with Some v => Some (vs ++ [v]) | None => None end
  | WCut i a b | WClip i a b =>
      match nth_error vs i with
      | Some v => if Nat.leb a b && Nat.leb b (length v) then Some (vs ++ [firstn (b - a) (skipn a v)]) else None
      | None => None
      end
  | WSet i j => match nth_error vs i, nth_error vs j with Some _, Some u => Some (set_nth i u vs) | _, _ => None end
  | WPut i k x =>
      match nth_error vs i with
      | Some v => if Nat.ltb k (length v) then Some (set_nth i (set_nth k x v) vs) else None
      | None => None
      end
  end.
Fixpoint wv_acts (vs : list (list A)) (l : list (wact A)) : option (list (list A)) :=
  match l with
  | [] => Some vs
  | a :: r => match wv_act vs a with Some vs' => wv_acts vs' r | None => None end
  end.

(** Histories in which only lists made by New (or by the program itself, from an empty
    one) are added to, and other variables are only read and reassigned. [own]: which
    variables were made so. *)
Fixpoint w_reads_only (own : list bool) (l : list (wact A)) : Prop :=
  match l with
  | [] => True
  | WNew :: r => w_reads_only (own ++ [true]) r
  | WAdd _ i _ :: r | WJoin _ i _ :: r => nth_error own i <> Some false /\ w_reads_only own r
  | WGet _ :: r | WCut _ _ _ :: r | WClip _ _ _ :: r => w_reads_only (own ++ [false]) r
  | WSet i _ :: r => nth_error own i <> Some true /\ w_reads_only own r
  | WPut _ _ _ :: r => False
  end.

(** a slice that lies in the store *)
Definition w_lies (h : store A) (w : win) : Prop :=
  (w_arr w < length h)%nat /\ (w_len w <= w_cap w)%nat /\ (w_off w + w_cap w <= length (array h (w_arr w)))%nat.

(** what [w] can reach by growing does not meet what [u] shows *)
Definition apart (w u : win) : Prop :=
  w_arr w <> w_arr u \/ (w_off w + w_cap w <= w_off u)%nat \/ (w_off u + w_len u <= w_off w)%nat.

(** [t.Inputs = append(t.Inputs[:i], t.Inputs[i+1:]...)] for variable 0, which has [n]
    elements; [m] variables exist before *)
Definition take_out (slack m n i : nat) : list (wact A) :=
  [WCut 0 0 i; WCut 0 (S i) n; WJoin slack m (S m); WSet 0 m].
(** [t.Inputs = append(append([]T(nil), t.Inputs[:i]...), t.Inputs[i+1:]...)] *)
Definition take_out_anew (slack slack' m n i : nat) : list (wact A) :=
  [WNew; WCut 0 0 i; WJoin slack m (S m); WCut 0 (S i) n; WJoin slack' m (S (S m)); WSet 0 m].
End Spec.
