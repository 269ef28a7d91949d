(** Specification of the replay-protected signature hash ("digest algorithm" of
    the replay-protected-sighash document) and of signing. *)
From Verif Require Export S_Tx M_Signer P_Crypto.

Definition dsha (b : bytes) : bytes := sha256 (sha256 b).

(** The parts of a flag byte. *)
Definition any_one_can_pay (f : N) : bool := 128 <=? f.
Definition base_type (f : N) : N := f mod 32.
Definition is_none (f : N) : bool := base_type f =? 2.
Definition is_single (f : N) : bool := base_type f =? 3.
Definition is_all (f : N) : bool := negb (is_none f) && negb (is_single f).

(** 36-byte outpoint; the txid is displayed in reverse byte order. *)
Definition outpoint (i : input) (w : bytes) : Prop :=
  exists id, hex_dec (prev_txid i) = Some (rev id) /\ w = id ++ le_put 4 (prev_index i).

(** hashPrevouts, hashSequence, hashOutputs *)
Definition hash_prevouts (f : N) (is : list input) (h : bytes) : Prop :=
  if any_one_can_pay f then h = repeat x00 32
  else exists ws, Forall2 outpoint is ws /\ h = dsha (concat ws).

Definition hash_sequence (f : N) (is : list input) (h : bytes) : Prop :=
  h = if any_one_can_pay f || negb (is_all f) then repeat x00 32
      else dsha (concat (map (fun i => le_put 4 (sequence i)) is)).

Definition hash_outputs (f : N) (n : nat) (os : list output) (h : bytes) : Prop :=
  if is_none f then h = repeat x00 32
  else if is_single f then
    match nth_error os n with
    | Some o => exists w, wire_output compact_min w o /\ h = dsha w
    | None => h = repeat x00 32
    end
  else exists ws, Forall2 (wire_output compact_min) ws os /\ h = dsha (concat ws).

(** The preimage for input [n] of [t] under flag [f]: items 1 to 10. *)
Definition preimage (t : tx) (n : nat) (f : N) (p : bytes) : Prop :=
  exists is os i s hp hs ho op len,
    inputs t = map Some is /\ outputs t = map Some os /\
    nth_error is n = Some i /\ prev_script i = Some s /\
    hash_prevouts f is hp /\ hash_sequence f is hs /\ hash_outputs f n os ho /\
    outpoint i op /\ compact_min (nlen s) len /\
    p = le_put 4 (version t) ++ hp ++ hs ++ op ++ (len ++ s) ++ le_put 8 (prev_sats i)
        ++ le_put 4 (sequence i) ++ ho ++ le_put 4 (locktime t) ++ le_put 4 f.

(** Transactions it is meant for: no nil pointers, txids are hex (of any case and
    length), sizes below 2^63, amounts uint64. *)
Definition sig_tx (t : tx) : Prop :=
  Forall (fun oi => exists i, oi = Some i /\ (exists id, hex_dec (prev_txid i) = Some id) /\
            (forall s, prev_script i = Some s -> nlen s < 2 ^ 63)) (inputs t) /\
  Forall (fun oo => exists o, oo = Some o /\ wf_output o) (outputs t) /\
  nlen (outputs t) < 2 ^ 31.

(** Fields in their machine ranges and 32-byte txids (in either case). *)
Definition full_input (i : input) : Prop :=
  (exists id, length id = 32%nat /\ hex_dec (prev_txid i) = Some id) /\
  prev_index i < 2 ^ 32 /\ sequence i < 2 ^ 32 /\ prev_sats i < 2 ^ 64 /\
  (forall s, prev_script i = Some s -> nlen s < 2 ^ 63).

Definition full_tx (t : tx) : Prop :=
  version t < 2 ^ 32 /\ locktime t < 2 ^ 32 /\
  Forall (fun oi => exists i, oi = Some i /\ full_input i) (inputs t) /\
  Forall (fun oo => exists o, oo = Some o /\ wf_output o) (outputs t) /\
  nlen (outputs t) < 2 ^ 31.

(** Two messages with the same double digest: a collision at one of the two levels. *)
Definition dcollision (a b : bytes) : Prop :=
  collision sha256 a b \/ collision sha256 (sha256 a) (sha256 b).

(** The three concatenations that are hashed inside the preimage. *)
Definition all_outpoints (t : tx) (b : bytes) : Prop :=
  exists is ws, inputs t = map Some is /\ Forall2 outpoint is ws /\ b = concat ws.
Definition all_sequences (t : tx) (b : bytes) : Prop :=
  exists is, inputs t = map Some is /\ b = concat (map (fun i => le_put 4 (sequence i)) is).
Definition all_outputs (t : tx) (b : bytes) : Prop :=
  exists os ws, outputs t = map Some os /\ Forall2 (wire_output compact_min) ws os /\ b = concat ws.

(** the same outpoint, up to the letter case of the txid *)
Definition point_eq (a b : option input) : Prop :=
  exists x y, a = Some x /\ b = Some y /\
    hex_dec (prev_txid x) = hex_dec (prev_txid y) /\ prev_index x = prev_index y.

(** the signed inputs agree: outpoint, sequence number, script and value of the
    spent output *)
Definition own_eq (t1 : tx) (n1 : nat) (t2 : tx) (n2 : nat) : Prop :=
  exists i1 i2, nth_error (inputs t1) n1 = Some (Some i1) /\ nth_error (inputs t2) n2 = Some (Some i2) /\
    hex_dec (prev_txid i1) = hex_dec (prev_txid i2) /\ prev_index i1 = prev_index i2 /\
    prev_script i1 = prev_script i2 /\ prev_sats i1 = prev_sats i2 /\ sequence i1 = sequence i2.

(** What a signature under flag [f] for input [n] does not cover may differ. *)
Definition same_outpoint (a b : option input) : Prop :=
  match a, b with
  | Some x, Some y => prev_txid x = prev_txid y /\ prev_index x = prev_index y
  | None, None => True
  | _, _ => False
  end.
Definition same_sequence (a b : option input) : Prop :=
  match a, b with
  | Some x, Some y => sequence x = sequence y
  | None, None => True
  | _, _ => False
  end.
(** same, except for the unlocking script *)
Definition same_signed_input (a b : option input) : Prop :=
  match a, b with
  | Some x, Some y =>
      prev_txid x = prev_txid y /\ prev_index x = prev_index y /\ prev_sats x = prev_sats y /\
      prev_script x = prev_script y /\ sequence x = sequence y
  | None, None => True
  | _, _ => False
  end.

Record agree (f : N) (n : nat) (t1 t2 : tx) : Prop := mk_agree {
  ag_version : version t1 = version t2;
  ag_locktime : locktime t1 = locktime t2;
  ag_small : outputs t1 = outputs t2 \/ (nlen (outputs t1) < 2 ^ 31 /\ nlen (outputs t2) < 2 ^ 31);
  ag_own : match nth_error (inputs t1) n, nth_error (inputs t2) n with
           | Some a, Some b => same_signed_input a b
           | None, None => True
           | _, _ => False
           end;
  ag_outpoints : any_one_can_pay f = false -> Forall2 same_outpoint (inputs t1) (inputs t2);
  ag_sequences : any_one_can_pay f = false -> is_all f = true -> Forall2 same_sequence (inputs t1) (inputs t2);
  ag_outputs : is_all f = true -> outputs t1 = outputs t2;
  ag_output : is_single f = true -> nth_error (outputs t1) n = nth_error (outputs t2) n }.

(** [t'] is [t] with the unlocking script of input [n] set to [u]. *)
Definition unlocked (t : tx) (n : nat) (u : bytes) (t' : tx) : Prop :=
  version t' = version t /\ outputs t' = outputs t /\ locktime t' = locktime t /\
  length (inputs t') = length (inputs t) /\
  (forall k, k <> n -> nth_error (inputs t') k = nth_error (inputs t) k) /\
  exists i, nth_error (inputs t) n = Some (Some i) /\
    nth_error (inputs t') n = Some (Some (mk_in (prev_txid i) (prev_index i) (prev_sats i) (prev_script i) (Some u) (sequence i))).

(** The spent script starts DUP HASH160 push(hash of the key): what SignAuto
    recognises. [elems] is the script grammar; header forms on which the decoder
    wraps around are excluded by [safe_elems]. *)
Definition matches (pub : bytes) (i : input) : Prop :=
  exists r ps, prev_script i = Some (x76 :: xa9 :: r) /\ safe_elems r (hash160 pub :: ps).
