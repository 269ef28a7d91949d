(** Scripts in several goroutines: the methods of script/Script.go as programs over shared
    memory (S_Conc.v). A slice header is that of M_Mem.v.

    Simplifications: a slice header is read and written in one access; [append] and the reading
    methods access the bytes one at a time in rising order. *)
From Verif Require Export M_Mem S_Conc.

(** script/Script.go:14 (type Script []byte): the header behind the pointer [s], and the bytes of
    the arrays *)
Inductive scell := SHead (s : nat) | SByte (a i : nat).
(** script/Script.go:14: which of these are the same *)
Definition scell_eq (a b : scell) : {a = b} + {a <> b}.
Proof. decide equality; apply Nat.eq_dec. Defined.
(** script/Script.go:14: the types of these *)
Definition sheld (c : scell) : Type := match c with SHead _ => sl | SByte _ _ => byte end.
Notation smem := (mem sheld).
Notation scall := (prog sheld).

(** script/Script.go:135, 161, 178: the copying of [append] *)
Fixpoint s_put {R} (a i : nat) (d : bytes) (k : scall R) : scall R :=
  match d with [] => k | b :: r => Wr (V:=sheld) (SByte a i) b (s_put a (S i) r k) end.
(** script/Script.go:135, 161, 178, 183, 188, 207: reading [n] bytes *)
Fixpoint s_take {R} (acc : bytes) (a i n : nat) (k : bytes -> scall R) : scall R :=
  match n with O => k acc | S n' => Rd (V:=sheld) (SByte a i) (fun b => s_take (acc ++ [b]) a (S i) n' k) end.

(** script/Script.go:135, 161, 178: [*s = append( *s, p...)]. [fresh] is the array the runtime
    takes if there is no room, [slack] its spare capacity. *)
Definition s_append {R} (s : nat) (p : bytes) (fresh slack : nat) (k : scall R) : scall R :=
  Rd (V:=sheld) (SHead s) (fun h =>
  if Nat.leb (s_len h + length p) (s_cap h)
  then s_put (s_arr h) (s_off h + s_len h) p
         (Wr (V:=sheld) (SHead s) (mk_sl (s_arr h) (s_off h) (s_len h + length p) (s_cap h)) k)
  else s_take [] (s_arr h) (s_off h) (s_len h) (fun b =>
       s_put fresh 0 (b ++ p)
         (Wr (V:=sheld) (SHead s) (mk_sl fresh 0 (s_len h + length p) (s_len h + length p + slack)) k))).

(** script/Script.go:129-179: a method call on [s]. What is appended does not depend on the
    script, so it is what the call makes of an empty one; on error the script is not touched. *)
Definition s_call {R} (s : nat) (c : call) (fresh slack : nat) (k : option err -> scall R) : scall R :=
  match run_call [] c with
  | (p, None) => s_append s p fresh slack (k None)
  | (_, Some e) => k (Some e)
  end.

(** What a goroutine does, one after the other: calls of script/Script.go:129-179, and readings of
    the whole script (script/Script.go:182-184, ToString; 187-203, ToASM). *)
Inductive sact := SCall (s : nat) (c : call) | SRead (s : nat).
(** script/Script.go:129-184: what these return: an error or nil, the bytes *)
Inductive sres := RErr (e : option err) | RBytes (b : bytes).
(** script/Script.go:129-184: act number [n] has array [fresh n] *)
Fixpoint s_acts (fresh slack : nat -> nat) (n : nat) (acc : list sres) (l : list sact) : scall (list sres) :=
  match l with
  | [] => Ret acc
  | SCall s c :: r => s_call s c (fresh n) (slack n) (fun e => s_acts fresh slack (S n) (acc ++ [RErr e]) r)
  | SRead s :: r =>
      Rd (V:=sheld) (SHead s) (fun h => s_take [] (s_arr h) (s_off h) (s_len h) (fun b =>
      s_acts fresh slack (S n) (acc ++ [RBytes b]) r))
  end.
