(** Specification for C90. *)
From Verif Require Export M_ConcEn S_Encryption.

(** the slice of length [len] at [off] *)
Definition slice_at (m : bmem) (off len : nat) : bytes := map m (seq off len).
(** a goroutine encrypts (with random bytes [iv]) or decrypts a slice *)
Inductive cjob := JEnc (E : bytes -> bytes) (iv : bytes) (off len : nat) | JDec (E : bytes -> bytes) (off len : nat).
Definition job_call (j : cjob) : bcall (res bytes) :=
  match j with JEnc E iv off len => c_encrypt (mk_block 16 E) (Ok iv) off len | JDec E off len => c_decrypt (mk_block 16 E) off len end.
(** what it returns alone *)
Definition job_alone (m : bmem) (j : cjob) : res bytes :=
  match j with
  | JEnc E iv off len => encrypt (mk_block 16 E) (Ok iv) (slice_at m off len)
  | JDec E off len => fst (decrypt (mk_block 16 E) (slice_at m off len))
  end.
(** the cells of its slice it looks at (Decrypt refuses fewer than 16 bytes unseen), and those Decrypt
    overwrites *)
Definition touched (j : cjob) (l : nat) : Prop :=
  match j with JEnc _ _ off len => (off <= l < off + len)%nat | JDec _ off len => (16 <= len /\ off <= l < off + len)%nat end.
Definition overwritten (j : cjob) (l : nat) : Prop := match j with JEnc _ _ _ _ => False | JDec _ off len => (off + 16 <= l < off + len)%nat end.
(** nobody overwrites what another one uses *)
Definition separate_jobs (js : list cjob) : Prop :=
  forall i j a b l, i <> j -> nth_error js i = Some a -> nth_error js j = Some b -> overwritten a l -> ~ touched b l.
Definition block_cipher (j : cjob) : Prop := match j with JEnc E _ _ _ | JDec E _ _ => forall b, length b = 16%nat -> length (E b) = 16%nat end.
Definition jobs_together (m : bmem) (js : list cjob) (schedule : list nat) : conf bheld (res bytes) :=
  run Nat.eq_dec bheld (m, map job_call js) schedule.
(** [x] has at each position the byte of [p] or that of [c]; [mix] chooses *)
Definition either (p c x : bytes) : Prop :=
  length x = length p /\ forall i b, nth_error x i = Some b -> nth_error p i = Some b \/ nth_error c i = Some b.
Fixpoint mix (choice : nat -> bool) (i : nat) (p c : bytes) : bytes :=
  match p, c with
  | a :: p', b :: c' => (if choice i then a else b) :: mix choice (S i) p' c'
  | _, _ => []
  end.
