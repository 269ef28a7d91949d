(** Model of the String methods of Input and Output. *)
From Verif Require Export M_Tx.

(** [fmt.Sprintf] of an unsigned integer with %d (base 10) or %x (base 16, lower
    case): no padding, "0" for zero. *)
(** transaction/input/Input.go:92-99, transaction/output/Output.go:156-161. *)
Definition fmt_uint (base n : N) : bytes :=
  if n =? 0 then [x30] else map hexdig (digits base n).

(** %x of a string or byte slice is [hex_encode]; of a pointer to a byte slice
    (the *Script arguments): fmt prints '&' before the slice's text (a nil pointer
    is not reached: [len] of it is evaluated first and panics). *)
(** transaction/input/Input.go:96, transaction/output/Output.go:156-161. *)
Definition fmt_x_ptr (s : bytes) : bytes := str "&" ++ hex_encode s.

(** transaction/input/Input.go:92-99 (String). *)
Definition input_string (i : input) : res bytes :=
  u <- deref (unlocking i) ;;
  Ok (str "prevTxHash:   " ++ hex_encode (prev_txid i) ++ [x0a] ++
      str "prevOutIndex: " ++ fmt_uint 10 (prev_index i) ++ [x0a] ++
      str "scriptLen:    " ++ fmt_uint 10 (nlen u) ++ [x0a] ++
      str "script:       " ++ fmt_x_ptr u ++ [x0a] ++
      str "sequence:     " ++ fmt_uint 16 (sequence i) ++ [x0a]).

(** transaction/output/Output.go:156-161 (String). *)
Definition output_string (o : output) : res bytes :=
  s <- deref (locking o) ;;
  Ok (str "value:     " ++ fmt_uint 10 (satoshis o) ++ [x0a] ++
      str "scriptLen: " ++ fmt_uint 10 (nlen s) ++ [x0a] ++
      str "script:    " ++ fmt_x_ptr s ++ [x0a]).
