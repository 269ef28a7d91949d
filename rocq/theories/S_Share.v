(** Specification vocabulary for C71. *)
From Verif Require Export M_Share.

(** a slice that lies within its array *)
Definition inside (h : heap) (s : sl) : Prop :=
  (s_arr s < length h)%nat /\ (s_len s <= s_cap s)%nat /\ (s_off s + s_cap s <= length (arr h (s_arr s)))%nat.

(** position [p] of array [a] is among the bytes [s] shows; is in its spare capacity *)
Definition shown_at (s : sl) (a p : nat) : Prop := a = s_arr s /\ (s_off s <= p < s_off s + s_len s)%nat.
Definition spare_at (s : sl) (a p : nat) : Prop := a = s_arr s /\ (s_off s + s_len s <= p < s_off s + s_cap s)%nat.

(** The scripts of [A] are the ones a history calls methods on: their spare capacity is
    shown by no other script and shared with no other script of [A]. *)
Definition apart (A : nat -> Prop) (ss : list sl) : Prop :=
  forall i j s t a p, A i -> i <> j -> nth_error ss i = Some s -> nth_error ss j = Some t -> spare_at s a p ->
    ~ shown_at t a p /\ (A j -> ~ spare_at t a p).

(** the act calls methods only on scripts of [A] *)
Definition uses (A : nat -> Prop) (a : act) : Prop :=
  match a with ACall _ i _ => A i | APush _ i _ => A i | ANew _ _ => True end.

(** the memory shows what the values say, call by call *)
Definition as_values (h : heap) (ss : list sl) (l : list act) : Prop :=
  let '(h', ss', es) := h_acts (h, ss) l in v_acts (map (get h) ss) l = (map (get h') ss', es).

(** the calls a history makes on script [i], in order *)
Fixpoint calls_on (i : nat) (l : list act) : list call :=
  match l with
  | [] => []
  | ACall _ j c :: r => if Nat.eqb j i then c :: calls_on i r else calls_on i r
  | _ :: r => calls_on i r
  end.
