(** Specification for C87. *)
From Verif Require Export M_ConcSc.

(** the bytes a header shows; the script behind the pointer [s] *)
Definition shown (m : smem) (h : sl) : bytes := map (fun i => m (SByte (s_arr h) i)) (seq (s_off h) (s_len h)).
Definition script_at (m : smem) (s : nat) : bytes := shown m (m (SHead s)).

(** the acts on byte strings that share nothing: results and the scripts afterwards *)
Fixpoint on_values (vs : nat -> bytes) (l : list sact) : list sres * (nat -> bytes) :=
  match l with
  | [] => ([], vs)
  | SCall s c :: r =>
      let (v, e) := run_call (vs s) c in
      let (rs, vs') := on_values (fun s' => if Nat.eqb s' s then v else vs s') r in (RErr e :: rs, vs')
  | SRead s :: r => let (rs, vs') := on_values vs r in (RBytes (vs s) :: rs, vs')
  end.

(** a goroutine: its acts, and the arrays the runtime takes for it *)
Record goroutine := mk_go { g_acts : list sact; g_fresh : nat -> nat; g_slack : nat -> nat }.
Definition started (g : goroutine) : scall (list sres) := s_acts (g_fresh g) (g_slack g) 0 [] (g_acts g).
Definition together (m : smem) (gs : list goroutine) (schedule : list nat) : conf sheld (list sres) :=
  run scell_eq sheld (m, map started gs) schedule.

Definition builds (g : goroutine) (s : nat) : Prop := exists c, In (SCall s c) (g_acts g).
Definition uses (g : goroutine) (s : nat) : Prop := builds g s \/ In (SRead s) (g_acts g).

(** the bytes of a slice, and those of its spare capacity *)
Definition within (h : sl) (a i : nat) : Prop := a = s_arr h /\ (s_off h <= i < s_off h + s_len h)%nat.
Definition behind (h : sl) (a i : nat) : Prop := a = s_arr h /\ (s_off h + s_len h <= i < s_off h + s_cap h)%nat.

(** new arrays are new, and no two acts get the same *)
Definition fresh_arrays (m : smem) (gs : list goroutine) : Prop :=
  (forall i j gi gj n n', nth_error gs i = Some gi -> nth_error gs j = Some gj ->
     g_fresh gi n = g_fresh gj n' -> i = j /\ n = n') /\
  (forall g g' n s, In g gs -> In g' gs -> uses g' s -> g_fresh g n <> s_arr (m (SHead s))).

(** Each script that is built is used by one goroutine only, and the spare capacity behind it
    belongs to no other script. *)
Definition separate (m : smem) (gs : list goroutine) : Prop :=
  (forall i j gi gj s, nth_error gs i = Some gi -> nth_error gs j = Some gj ->
     builds gi s -> uses gj s -> i = j) /\
  (forall g g' s s' a i, In g gs -> In g' gs -> builds g s -> uses g' s' -> s <> s' ->
     behind (m (SHead s)) a i -> ~ within (m (SHead s')) a i /\ (builds g' s' -> ~ behind (m (SHead s')) a i)) /\
  (forall g s, In g gs -> uses g s -> (s_len (m (SHead s)) <= s_cap (m (SHead s)))%nat).

(** [b] starts with [a] *)
Definition starts_with (a b : bytes) : Prop := exists t, b = a ++ t.
(** what calls on one script may return when others build it too: the error of the call itself;
    a reading that starts with what was there at the beginning *)
Definition answers (old : bytes) (x : sact) (r : sres) : Prop :=
  match x, r with
  | SCall _ c, RErr e => e = snd (run_call [] c)
  | SRead _, RBytes b => starts_with old b
  | _, _ => False
  end.
(** all acts are on script [s] *)
Definition only_on (s : nat) (g : goroutine) : Prop :=
  forall x, In x (g_acts g) -> match x with SCall s' _ => s' = s | SRead s' => s' = s end.
(** the runtime's new arrays are not the one the script is in *)
Definition new_arrays (m : smem) (s : nat) (gs : list goroutine) : Prop :=
  forall g n, In g gs -> g_fresh g n <> s_arr (m (SHead s)).
