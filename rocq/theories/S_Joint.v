(** Specification for C85: several parties build and sign one transaction. Written from the
    replay-protected signature hash and the API. *)
From Verif Require Export S_Chain S_Demand.

(** Calls on one transaction, in one goroutine: building (From, AddInput, AddOutput, PayTo) and
    signing, in any order. The callers ignore errors. *)
Inductive joint_call := JCall (c : tx_call) | JSign (c : sign_call).
Definition joint_do (t : tx) (c : joint_call) : res tx :=
  match c with JCall c => Ok (fst (tx_do t c)) | JSign c => sign_do t c end.
Fixpoint joint_run (t : tx) (cs : list joint_call) {struct cs} : res tx :=
  match cs with
  | [] => Ok t
  | c :: r => t' <- joint_do t c ;; joint_run t' r
  end.
Definition joint_bounds (c : joint_call) : Prop := match c with JCall _ => True | JSign c => call_bounds c end.

(** the call does not sign input [n], which spends as [i] says *)
Definition leaves (n : nat) (i : input) (c : joint_call) : Prop :=
  match c with
  | JCall _ => True
  | JSign (DoSign _ m) => N.to_nat m <> n
  | JSign (DoSignAuto s) => ~ matches (key_pub (sg_key s)) i
  end.

(** signer [s] signs input [n] by this call *)
Definition signing (s : signer) (n : nat) (c : sign_call) : Prop := c = DoSign s (N.of_nat n) \/ c = DoSignAuto s.
(** the flag it uses: its own, or SIGHASH_ALL with FORKID *)
Definition flag_of (s : signer) : N := if sg_flag s =? 0 then 65 else sg_flag s.

(** What the protocol lets others add after input [n] was signed with flag [f]:
    inputs under ANYONECANPAY only; outputs under NONE, or under SINGLE if output [n] was there
    already or is still not there. *)
Definition may_add (f : N) (n : nat) (before after : tx) : Prop :=
  (any_one_can_pay f = true \/ length (inputs after) = length (inputs before)) /\
  (is_none f = true \/ length (outputs after) = length (outputs before) \/
   (is_single f = true /\ ((n < length (outputs before))%nat \/ (length (outputs after) <= n)%nat))).

(** A transaction that spends outputs of several keys: every From is for an output of one of the keys. *)
Definition shared_call (known : list bytes) (keys : list priv_key) (c : tx_call) : Prop :=
  exists k, In k keys /\ wallet_call known (key_pub k) c.
(** Each holder calls SignAuto on it, with a flag of his own choice: in any order, any number of times. *)
Definition all_sign (keys : list priv_key) (signers : list signer) : Prop :=
  Forall (fun s => In (sg_key s) keys /\ sg_flag s < 256) signers /\
  forall k, In k keys -> exists s, In s signers /\ sg_key s = k.
