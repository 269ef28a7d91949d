(** Memory-level model of slices of the [Inputs] and [Outputs] lists: parts of them
    ([ins[a:b]]), several elements appended at once, and assignment of a slice to the
    field. It extends M_Slots, where every slice starts at the front of its array. *)
From Verif Require Export M_Slots.

Section Window.
Context {A : Type}.

(** A Go slice: array, first element, length, capacity. *)
(** transaction/Transaction.go:39-40 (Inputs, Outputs). *)
Record win := mk_win { w_arr : nat; w_off : nat; w_len : nat; w_cap : nat }.
(** transaction/Transaction.go:39-40 (Inputs, Outputs). *)
Definition w_shows (h : store A) (w : win) : list A := firstn (w_len w) (skipn (w_off w) (array h (w_arr w))).

(** Go's copy into an array, from position [k] on. *)
(** transaction/Transaction.go:118-120 (AddInput), 154-157 (AddOutput): the writes of append. *)
Definition put_from (k : nat) (xs l : list A) : list A := firstn k l ++ xs ++ skipn (k + length xs) l.

(** Go's [append] of any number of elements: in place if the capacity allows, else into
    a new array with [slack] further elements. Appending none changes nothing. *)
(** transaction/Transaction.go:118-120 (AddInput), 154-157 (AddOutput). *)
Definition w_append (nil : A) (slack : nat) (h : store A) (w : win) (xs : list A) : store A * win :=
  if Nat.leb (w_len w + length xs) (w_cap w)
  then (set_nth (w_arr w) (put_from (w_off w + w_len w) xs (array h (w_arr w))) h,
        mk_win (w_arr w) (w_off w) (w_len w + length xs) (w_cap w))
  else (h ++ [w_shows h w ++ xs ++ repeat nil slack],
        mk_win (length h) 0 (w_len w + length xs) (w_len w + length xs + slack)).

(** What a program does; its variables (among them the fields [t.Inputs]) are numbered.
    - [WNew]: transaction.New (transaction/Transaction.go:45-52) or an empty slice of the program's own;
    - [WAdd slack i xs]: AddInput, From, AddOutput, PayTo (one element), or [v = append(v, xs...)];
    - [WJoin slack i j]: [vi = append(vi, vj...)];
    - [WGet i]: [v := vi], GetInputs, GetOutputs (transaction/Transaction.go:190-197), or a copy of the struct;
    - [WCut i a b]: [v := vi[a:b]];
    - [WClip i a b]: [v := vi[a:b:b]];
    - [WSet i j]: [vi = vj], also [t.Inputs = vj];
    - [WPut i k x]: [vi[k] = x]. *)
Inductive wact := WNew | WAdd (slack i : nat) (xs : list A) | WJoin (slack i j : nat) | WGet (i : nat)
  | WCut (i a b : nat) | WClip (i a b : nat) | WSet (i j : nat) | WPut (i k : nat) (x : A).

(** [None]: no such variable, or the expression panics. *)
(** transaction/Transaction.go:39-52, 118-157, 190-197. *)
Definition w_act (nil : A) (st : store A * list win) (a : wact) : option (store A * list win) :=
  let (h, ws) := st in
  match a with
  | WNew => Some (h ++ [[]], ws ++ [mk_win (length h) 0 0 0])
  | WAdd slack i xs =>
      match nth_error ws i with
      | Some w => let (h', w') := w_append nil slack h w xs in Some (h', set_nth i w' ws)
      | None => None
      end
  | WJoin slack i j =>
      match nth_error ws i, nth_error ws j with
      | Some w, Some u => let (h', w') := w_append nil slack h w (w_shows h u) in Some (h', set_nth i w' ws)
      | _, _ => None
      end
  | WGet i => match nth_error ws i with Some w => Some (h, ws ++ [w]) | None => None end
  | WCut i a b =>
      match nth_error ws i with
      | Some w => if Nat.leb a b && Nat.leb b (w_cap w)
                  then Some (h, ws ++ [mk_win (w_arr w) (w_off w + a) (b - a) (w_cap w - a)]) else None
      | None => None
      end
  | WClip i a b =>
      match nth_error ws i with
      | Some w => if Nat.leb a b && Nat.leb b (w_cap w)
                  then Some (h, ws ++ [mk_win (w_arr w) (w_off w + a) (b - a) (b - a)]) else None
      | None => None
      end
  | WSet i j =>
      match nth_error ws i, nth_error ws j with Some _, Some u => Some (h, set_nth i u ws) | _, _ => None end
  | WPut i k x =>
      match nth_error ws i with
      | Some w => if Nat.ltb k (w_len w)
                  then Some (set_nth (w_arr w) (set_nth (w_off w + k) x (array h (w_arr w))) h, ws) else None
      | None => None
      end
  end.
(** transaction/Transaction.go:39-52, 118-157, 190-197. *)
Fixpoint w_acts (nil : A) (st : store A * list win) (l : list wact) : option (store A * list win) :=
  match l with
  | [] => Some st
  | a :: r => match w_act nil st a with Some st' => w_acts nil st' r | None => None end
  end.
End Window.
Arguments wact : clear implicits.
