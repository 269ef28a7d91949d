(** The parsing loops again, counting how often their bodies run. *)
From Verif Require Export M_Tx.

(** a result together with the number of loop iterations executed *)
(** For the loops of transaction/Transaction.go:83-91 and 96-103. *)
Definition counted (A : Type) : Type := (res A * nat)%type.

(** For the loops of transaction/Transaction.go:83-91 and 96-103. *)
Definition free {A} (r : res A) : counted A := (r, 0%nat).

(** For the loops of transaction/Transaction.go:83-91 and 96-103. *)
Definition cbind {A B} (r : counted A) (f : A -> counted B) : counted B :=
  match fst r with
  | Ok a => (fst (f a), snd r + snd (f a))%nat
  | Err e => (Err e, snd r)
  | Panic => (Panic, snd r)
  end.

Notation "x <~ r ;; k" := (cbind r (fun x => k))
  (at level 61, r at next level, right associativity).
Notation "' p <~ r ;; k" := (cbind r (fun x => match x with p => k end))
  (at level 61, p pattern, r at next level, right associativity).

(** [for i := 0; i < n; i++ { body }] with an early return on error or panic *)
(** For the loops of transaction/Transaction.go:83-91 and 96-103. *)
Fixpoint counted_loop {S : Type} (f : S -> res S) (n : nat) (s : S) : counted S :=
  match n with
  | O => free (Ok s)
  | Datatypes.S n' => x <~ (f s, 1%nat) ;; counted_loop f n' x
  end.

(** transaction/Transaction.go:66-115 (NewFromBytes), with the iterations of the
    loops of lines 83-91 and 96-103. Simplification: the 64-bit counters are
    unary numbers here. *)
Definition tx_from_slice_counted (b : slice) : counted tx :=
  if (slen b <? 10)%Z then free (Err ETxShort) else
  vs <~ free (or_panic (sl_sub b 0 4)) ;;
  ver <~ free (or_panic (sl_le 4 vs)) ;;
  let offset := 4%Z in
  rest <~ free (or_panic (sl_from b offset)) ;;
  '(inputCount, size) <~ free (decode_varint rest) ;;
  let offset := wrap_int (offset + size) in
  '(offset, ins) <~ counted_loop (tx_input_step b) (N.to_nat inputCount) (offset, []) ;;
  rest <~ free (or_panic (sl_from b offset)) ;;
  '(outputCount, size) <~ free (decode_varint rest) ;;
  let offset := wrap_int (offset + size) in
  '(offset, outs) <~ counted_loop (tx_output_step b) (N.to_nat outputCount) (offset, []) ;;
  nLT <~ free (or_panic (sl_from b offset)) ;;
  if negb (slen nLT =? 4)%Z then free (Err ELockTime) else
  ls <~ free (or_panic (sl_from b offset)) ;;
  lt <~ free (or_panic (sl_le 4 ls)) ;;
  free (Ok (mk_tx ver (map Some ins) (map Some outs) lt)).

(** script/OpPushdata.go:84-142 (DecodeParts), iterations of [for len(b) > 0];
    run for at most [fuel] iterations. *)
Fixpoint decode_counted (fuel : nat) (r : list bytes) (b : bytes) : counted (list bytes * option err) :=
  match b with
  | [] => free (Ok (r, None))
  | c :: _ =>
      match fuel with
      | O => free Panic
      | S fuel' =>
          match decode_part c b with
          | Ok (part, b') => (fst (decode_counted fuel' (r ++ [part]) b'), S (snd (decode_counted fuel' (r ++ [part]) b')))
          | Err e => (Ok (r, Some e), 1%nat)
          | Panic => (Panic, 1%nat)
          end
      end
  end.
