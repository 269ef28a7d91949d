(** Building transactions in several goroutines: AddInput, AddOutput and the readers of the lists
    as programs over shared memory (S_Conc.v). A slice header is that of M_Mem.v; the elements of
    the arrays are pointers, [None] is nil. Copying a Transaction struct copies its two headers.

    Simplifications: a slice header is read and written in one access; the elements are accessed
    one at a time in rising order; the objects pointed to are not accessed here. *)
From Verif Require Export M_Mem S_Conc.

(** transaction/Transaction.go:39-40: the two lists of transaction number [t] *)
Inductive tlist := Ins (t : nat) | Outs (t : nat).
(** transaction/Transaction.go:39-40: which of these are the same *)
Definition tlist_eq (a b : tlist) : {a = b} + {a <> b}.
Proof. decide equality; apply Nat.eq_dec. Defined.
(** transaction/Transaction.go:39-40: the headers in the structs, and the elements of the arrays *)
Inductive tcell := THead (l : tlist) | TSlot (a i : nat).
(** transaction/Transaction.go:39-40: which of these are the same *)
Definition tcell_eq (a b : tcell) : {a = b} + {a <> b}.
Proof. decide equality; try apply Nat.eq_dec; apply tlist_eq. Defined.
(** transaction/Transaction.go:39-40: the types of these *)
Definition theld (c : tcell) : Type := match c with THead _ => sl | TSlot _ _ => option nat end.
Notation tmem := (mem theld).
Notation tcall := (prog theld).

(** transaction/Transaction.go:119, 156: the copying of [append] *)
Fixpoint t_put {R} (a i : nat) (d : list (option nat)) (k : tcall R) : tcall R :=
  match d with [] => k | b :: r => Wr (V:=theld) (TSlot a i) b (t_put a (S i) r k) end.
(** transaction/Transaction.go:119, 156, 202: reading [n] elements *)
Fixpoint t_take {R} (acc : list (option nat)) (a i n : nat) (k : list (option nat) -> tcall R) : tcall R :=
  match n with O => k acc | S n' => Rd (V:=theld) (TSlot a i) (fun b => t_take (acc ++ [b]) a (S i) n' k) end.

(** transaction/Transaction.go:118-120 (AddInput), 154-157 (AddOutput): [fresh] is the array the
    runtime takes if there is no room, [slack] its spare capacity. From (138) and PayTo (167) end
    with these and touch nothing before. *)
Definition t_add {R} (l : tlist) (p : option nat) (fresh slack : nat) (k : tcall R) : tcall R :=
  Rd (V:=theld) (THead l) (fun h =>
  if Nat.leb (s_len h + 1) (s_cap h)
  then t_put (s_arr h) (s_off h + s_len h) [p]
         (Wr (V:=theld) (THead l) (mk_sl (s_arr h) (s_off h) (s_len h + 1) (s_cap h)) k)
  else t_take [] (s_arr h) (s_off h) (s_len h) (fun b =>
       t_put fresh 0 (b ++ [p])
         (Wr (V:=theld) (THead l) (mk_sl fresh 0 (s_len h + 1) (s_len h + 1 + slack)) k))).

(** What a goroutine does, one after the other: AddInput / AddOutput
    (transaction/Transaction.go:118-120, 154-157), going through GetInputs / GetOutputs (190-197,
    202), InputCount / OutputCount (144-151). *)
Inductive tact := TAdd (l : tlist) (p : option nat) | TGet (l : tlist) | TCount (l : tlist).
(** transaction/Transaction.go:118-197: what these return: nothing, the pointers, a number *)
Inductive tres := TNil | TList (b : list (option nat)) | TNum (n : nat).
(** transaction/Transaction.go:118-197: act number [n] has array [fresh n] *)
Fixpoint t_acts (fresh slack : nat -> nat) (n : nat) (acc : list tres) (acts : list tact) : tcall (list tres) :=
  match acts with
  | [] => Ret acc
  | TAdd l p :: r => t_add l p (fresh n) (slack n) (t_acts fresh slack (S n) (acc ++ [TNil]) r)
  | TGet l :: r =>
      Rd (V:=theld) (THead l) (fun h => t_take [] (s_arr h) (s_off h) (s_len h) (fun b =>
      t_acts fresh slack (S n) (acc ++ [TList b]) r))
  | TCount l :: r => Rd (V:=theld) (THead l) (fun h => t_acts fresh slack (S n) (acc ++ [TNum (s_len h)]) r)
  end.
