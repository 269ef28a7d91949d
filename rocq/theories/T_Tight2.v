(** Statements added after reading the list of properties against the theorems. *)
From Verif Require Import P_Errors P_Script.
From Coq Require Import ZifyBool ZifyNat ZifyN.

(** the first part of 2^32 bytes or more, and its index *)
Definition first_too_big (parts : list bytes) (e : err) : Prop :=
  exists pre d post, parts = pre ++ d :: post /\ Forall (fun p => nlen p < 2 ^ 32) pre /\ 2 ^ 32 <= nlen d /\ e = EPartTooBig (nlen pre).

(** C08: the error of EncodeParts names the first part that is too big. *)
Theorem C08_encode_error_iff : forall parts e, encode_parts parts = Err e <-> first_too_big parts e.
Proof.
  intros parts e. change (2 ^ 32) with 4294967296. split.
  - intros E. destruct (first_big parts) as [F|(l & p & r & -> & F & B)].
    + rewrite encode_parts_spec in E by assumption. discriminate.
    + unfold encode_parts in E. rewrite encode_loop_err in E by assumption. injection E as <-. exists l, p, r.
      split; [reflexivity|]. split; [apply Forall_forall; exact F|]. split; [exact B|]. reflexivity.
  - intros (l & p & r & -> & F & B & ->). unfold encode_parts. rewrite encode_loop_err; [reflexivity| |exact B]. apply Forall_forall. exact F.
Qed.

Lemma one_too_big d e : first_too_big [d] e <-> 2 ^ 32 <= nlen d /\ e = EPartTooBig 0.
Proof.
  split.
  - intros (pre & x & post & E & _ & B & ->). destruct pre as [|y pre]; [|destruct pre; discriminate]. injection E as <- _. auto.
  - intros [B ->]. exists [], d, []. auto.
Qed.

Lemma array_error s l e : snd (append_push_data_array s l) = Some e <-> first_too_big l e.
Proof.
  rewrite <- C08_encode_error_iff. unfold append_push_data_array. destruct (encode_parts l) as [p|x|] eqn:E; cbn [snd].
  - split; discriminate.
  - split; intros Q; injection Q as ->; reflexivity.
  - split; discriminate.
Qed.

(** C12: the error of each builder call. *)
Theorem C12_error_iff : forall s c e, snd (run_call s c) = Some e <->
  match c with
  | CPush d | CPushString d => 2 ^ 32 <= nlen d /\ e = EPartTooBig 0
  | CPushHex h => (exists x, e = EHex x /\ hex_fails h x) \/ (exists d, hex_dec h = Some d /\ 2 ^ 32 <= nlen d /\ e = EPartTooBig 0)
  | CPushArray l | CPushStrings l => first_too_big l e
  | COpCode _ => False
  end.
Proof.
  intros s c e. destruct c as [d|h|d|l|l|o]; cbn [run_call].
  - rewrite push_array, array_error. apply one_too_big.
  - unfold append_push_data_hex. destruct (of_hex h) as [d|x|] eqn:E.
    + rewrite push_array, array_error, one_too_big. assert (hex_dec h = Some d) as D.
      { unfold of_hex in E. unfold hex_dec. destruct (hex_decode h) as [b [x|]]; congruence. }
      split; [intros [B ->]; right; eauto|]. intros [(x & -> & F)|(d' & D' & B)].
      * assert (of_hex h = Err (EHex x)) as Q by (apply of_hex_err; eauto). congruence.
      * congruence.
    + cbn [snd]. apply of_hex_err in E as (y & -> & F). split.
      * intros Q. injection Q as <-. left. eauto.
      * intros [(z & -> & F')|(d & D & _)]; [|now rewrite (hex_fails_bad _ _ F) in D].
        apply hex_fails_iff in F as (d1 & F), F' as (d2 & F'). congruence.
    + exfalso. unfold of_hex in E. destruct (hex_decode h) as [b [x|]]; discriminate.
  - unfold append_push_data_string. rewrite push_array, array_error. apply one_too_big.
  - apply array_error.
  - rewrite strings_array. apply array_error.
  - cbn [snd]. split; [discriminate|tauto].
Qed.

(** C18: the error of NewP2PKHUnlockingScript names the signature (0) or the key (1). *)
Theorem C18_error_iff : forall pub sg flag e, snd (p2pkh_unlocking_script pub sg flag) = Some e <->
  (2 ^ 32 <= nlen (sg ++ [n2b flag]) /\ e = EPartTooBig 0) \/
  (nlen (sg ++ [n2b flag]) < 2 ^ 32 /\ 2 ^ 32 <= nlen pub /\ e = EPartTooBig 1).
Proof.
  intros pub sg flag e. unfold p2pkh_unlocking_script. cbn [app]. rewrite array_error. split.
  - intros (pre & x & post & E & F & B & ->). destruct pre as [|y [|z pre]].
    + injection E as <- _. left. auto.
    + injection E as <- <- _. right. inversion F; subst. auto.
    + destruct pre; discriminate.
  - intros [[B ->]|(S & B & ->)].
    + exists [], (sg ++ [n2b flag]), [pub]. auto.
    + exists [sg ++ [n2b flag]], pub, []. auto.
Qed.

(** A text that is no hexadecimal number; no byte string of 2^32 bytes is written down
    here: [repeat] stands for it. *)
Example C12_error_ex :
  snd (run_call [] (CPushHex (str "abxd"))) = Some (EHex (HexInvalidByte x78)) /\
  snd (run_call [] (CPushHex (str "abc"))) = Some (EHex HexErrLength) /\
  (forall d, 2 ^ 32 <= nlen d -> snd (run_call [x51] (CPushArray [[x01]; []; d; d])) = Some (EPartTooBig 2)) /\
  exists d : bytes, 2 ^ 32 <= nlen d.
Proof.
  split; [vm_compute; reflexivity|]. split; [vm_compute; reflexivity|]. split.
  - intros d B. apply C12_error_iff. exists [[x01]; []], d, [d]. split; [reflexivity|]. split; [repeat constructor|]. auto.
  - exists (repeat x00 (N.to_nat (2 ^ 32))). unfold nlen. rewrite repeat_length, N2Nat.id. apply N.le_refl.
Qed.

Print Assumptions C08_encode_error_iff.
Print Assumptions C12_error_iff.
Print Assumptions C18_error_iff.
