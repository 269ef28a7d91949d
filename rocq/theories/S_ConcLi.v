(** Specification for C96. *)
From Verif Require Export M_ConcLi.

(** the pointers a header shows; list [l] of a transaction *)
Definition shown_list (m : tmem) (h : sl) : list (option nat) := map (fun i => m (TSlot (s_arr h) i)) (seq (s_off h) (s_len h)).
Definition list_at (m : tmem) (l : tlist) : list (option nat) := shown_list m (m (THead l)).

(** the acts on plain lists that share nothing: results and the lists afterwards *)
Fixpoint on_lists (vs : tlist -> list (option nat)) (acts : list tact) : list tres * (tlist -> list (option nat)) :=
  match acts with
  | [] => ([], vs)
  | TAdd l p :: r =>
      let (rs, vs') := on_lists (fun l' => if tlist_eq l' l then vs l ++ [p] else vs l') r in (TNil :: rs, vs')
  | TGet l :: r => let (rs, vs') := on_lists vs r in (TList (vs l) :: rs, vs')
  | TCount l :: r => let (rs, vs') := on_lists vs r in (TNum (length (vs l)) :: rs, vs')
  end.

(** a goroutine: its acts, and the arrays the runtime takes for it *)
Record worker := mk_wk { w_acts : list tact; w_fresh : nat -> nat; w_slack : nat -> nat }.
Definition begun (g : worker) : tcall (list tres) := t_acts (w_fresh g) (w_slack g) 0 [] (w_acts g).
Definition side_by_side (m : tmem) (gs : list worker) (schedule : list nat) : conf theld (list tres) :=
  run tcell_eq theld (m, map begun gs) schedule.

Definition appends_to (g : worker) (l : tlist) : Prop := exists p, In (TAdd l p) (w_acts g).
Definition touches (g : worker) (l : tlist) : Prop := appends_to g l \/ In (TGet l) (w_acts g) \/ In (TCount l) (w_acts g).

(** the elements of a slice, and those of its spare capacity *)
Definition slot_of (h : sl) (a i : nat) : Prop := a = s_arr h /\ (s_off h <= i < s_off h + s_len h)%nat.
Definition room_behind (h : sl) (a i : nat) : Prop := a = s_arr h /\ (s_off h + s_len h <= i < s_off h + s_cap h)%nat.

(** new arrays are new, and no two acts get the same *)
Definition new_each (m : tmem) (gs : list worker) : Prop :=
  (forall i j gi gj n n', nth_error gs i = Some gi -> nth_error gs j = Some gj ->
     w_fresh gi n = w_fresh gj n' -> i = j /\ n = n') /\
  (forall g g' n l, In g gs -> In g' gs -> touches g' l -> w_fresh g n <> s_arr (m (THead l))).

(** Each list that is added to is used by one goroutine only, and its spare capacity belongs to no
    other list in use. *)
Definition apart_lists (m : tmem) (gs : list worker) : Prop :=
  (forall i j gi gj l, nth_error gs i = Some gi -> nth_error gs j = Some gj ->
     appends_to gi l -> touches gj l -> i = j) /\
  (forall g g' l l' a i, In g gs -> In g' gs -> appends_to g l -> touches g' l' -> l <> l' ->
     room_behind (m (THead l)) a i -> ~ slot_of (m (THead l')) a i /\ (appends_to g' l' -> ~ room_behind (m (THead l')) a i)) /\
  (forall g l, In g gs -> touches g l -> (s_len (m (THead l)) <= s_cap (m (THead l)))%nat).

(** [b] starts with [a] *)
Definition begins {A} (a b : list A) : Prop := exists t, b = a ++ t.
(** what acts on the copies may return when others add to other copies or the same *)
Definition replies (old : list (option nat)) (x : tact) (r : tres) : Prop :=
  match x, r with
  | TAdd _ _, TNil => True
  | TGet _, TList b => begins old b
  | TCount _, TNum n => (length old <= n)%nat
  | _, _ => False
  end.
(** the headers of the lists of [S] are one and the same: struct copies *)
Definition copies_of (m : tmem) (h : sl) (S : tlist -> Prop) : Prop := forall l, S l -> m (THead l) = h.
(** a goroutine that adds [snd x] to list [fst x], and nothing else *)
Definition adder (x : tlist * option nat) (g : worker) : Prop := w_acts g = [TAdd (fst x) (snd x)].
