(** Memory-level model of building several scripts at once: each variable is a [*Script],
    a pointer to a slice header; headers may share arrays. Heap and slices as in M_Mem.v. *)
From Verif Require Export M_Mem.

(** script/Script.go:155-163 (AppendPushDataArray) on [*s]. The temporary arrays of
    EncodeParts are unreachable afterwards and left out of the heap. *)
Definition h_append_array (slack : nat) (h : heap) (s : sl) (d : list bytes) : heap * sl * option err :=
  match encode_parts d with
  | Ok p => (h_append slack h s p, None)
  | Err e => (h, s, Some e)
  | Panic => (h, s, None)
  end.

(** script/Script.go:129-179: the six methods. [h_append_push_data] and
    [h_append_opcode] are in M_Mem.v. *)
Definition h_call (slack : nat) (h : heap) (s : sl) (c : call) : heap * sl * option err :=
  match c with
  | CPush d => h_append_push_data slack h s d
  | CPushHex x =>                                   (* lines 140-147 *)
      match of_hex x with
      | Ok d => h_append_push_data slack h s d
      | Err e => (h, s, Some e)
      | Panic => (h, s, None)
      end
  | CPushString t => h_append_push_data slack h s t (* lines 150-152 *)
  | CPushArray l => h_append_array slack h s l
  | CPushStrings l =>                               (* lines 166-174 *)
      let dataBytes := fold_left (fun acc t => acc ++ [t]) l [] in h_append_array slack h s dataBytes
  | COpCode o => (h_append_opcode slack h s o, None)
  end.

(** What a program does with its scripts: call a method on script [i] with arguments of
    its own; push the bytes of script [j] onto script [i] ([s.AppendPushData( *t )], [j] may
    be [i]); make a new script from bytes of its own (NewFromHexString, script/Script.go:17-23,
    NewFromASM, NewP2PKH...: a new array each). [slack] is the spare capacity the runtime
    gives a new array. *)
Inductive act :=
| ACall (slack i : nat) (c : call)
| APush (slack i j : nat)
| ANew (slack : nat) (b : bytes).

(** An act on a variable that does not exist is skipped. *)
(** script/Script.go:17-179. *)
Definition h_act (st : heap * list sl) (a : act) : heap * list sl * option err :=
  let '(h, ss) := st in
  match a with
  | ACall k i c =>
      match nth_error ss i with
      | Some s => let '(h', s', e) := h_call k h s c in (h', set_nth i s' ss, e)
      | None => (h, ss, None)
      end
  | APush k i j =>
      match nth_error ss i, nth_error ss j with
      | Some s, Some t => let '(h', s', e) := h_call k h s (CPush (get h t)) in (h', set_nth i s' ss, e)
      | _, _ => (h, ss, None)
      end
  | ANew k b => let (h', s) := h_alloc h b k in (h', ss ++ [s], None)
  end.

(** a history, with what each call returned *)
(** script/Script.go:17-179. *)
Fixpoint h_acts (st : heap * list sl) (l : list act) : heap * list sl * list (option err) :=
  match l with
  | [] => (st, [])
  | a :: r => let '(st', e) := h_act st a in let '(st'', es) := h_acts st' r in (st'', e :: es)
  end.

(** the same history over byte strings that share nothing *)
(** script/Script.go:17-179. *)
Definition v_act (vs : list bytes) (a : act) : list bytes * option err :=
  match a with
  | ACall _ i c =>
      match nth_error vs i with
      | Some v => let '(v', e) := run_call v c in (set_nth i v' vs, e)
      | None => (vs, None)
      end
  | APush _ i j =>
      match nth_error vs i, nth_error vs j with
      | Some v, Some w => let '(v', e) := run_call v (CPush w) in (set_nth i v' vs, e)
      | _, _ => (vs, None)
      end
  | ANew _ b => (vs ++ [b], None)
  end.
(** script/Script.go:17-179: a sequence of these. *)
Fixpoint v_acts (vs : list bytes) (l : list act) : list bytes * list (option err) :=
  match l with
  | [] => (vs, [])
  | a :: r => let (vs', e) := v_act vs a in let (vs'', es) := v_acts vs' r in (vs'', e :: es)
  end.
