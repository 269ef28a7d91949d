(** Property theorems C08-C12: push data, element decoding, builder histories. *)
From Verif Require Import S_Script M_Push M_Script P_Push P_Script.

(** C08. *)
Theorem C08_push_roundtrip : forall parts, Forall push_domain parts ->
  exists b, encode_parts parts = Ok b /\ decode_parts b = Ok parts.
Proof. exact c08_roundtrip. Qed.
Print Assumptions C08_push_roundtrip.

(** every other encodable list: empty parts come back as the byte 00, and a part
    of a hazardous length makes the decoder panic *)
Theorem C08_push_readback : forall parts b, encode_parts parts = Ok b ->
  (forall d, In d parts -> ~ hazard d) -> decode_parts b = Ok (map readback parts).
Proof. exact c08_general. Qed.
Print Assumptions C08_push_readback.

Theorem C08_push_panic : forall parts b d, encode_parts parts = Ok b ->
  In d parts -> hazard d -> decode_parts b = Panic.
Proof. exact c08_panic. Qed.
Print Assumptions C08_push_panic.

Theorem C08_encode_fails : forall parts,
  (exists e, encode_parts parts = Err e) <-> exists d, In d parts /\ 2 ^ 32 <= nlen d.
Proof. exact c08_fails. Qed.
Print Assumptions C08_encode_fails.

Example C08_example : Forall push_domain [str "ab"; repeat x07 200] /\
  (b <- encode_parts [str "ab"; repeat x07 200] ;; decode_parts b) = Ok [str "ab"; repeat x07 200] /\
  (b <- encode_parts [[]; str "a"] ;; decode_parts b) = Ok [[x00]; str "a"].
Proof.
  split; [|vm_compute; auto].
  repeat apply Forall_cons; try apply Forall_nil; left; vm_compute; split; discriminate.
Qed.

Example C08_hazard_exists : exists d, hazard d.
Proof. exists (repeat x00 (N.to_nat 65533)). left. unfold nlen. rewrite repeat_length, N2Nat.id. split; discriminate. Qed.

(** C09. *)
Theorem C09_prefix_total : forall d,
  (nlen d < 2 ^ 32 -> exists p, push_prefix d = Ok p) /\
  (2 ^ 32 <= nlen d -> push_prefix d = Err ETooBig).
Proof. exact (fun d => conj (push_prefix_ok d) (push_prefix_big d)). Qed.
Print Assumptions C09_prefix_total.

Theorem C09_prefix_canonical : forall d p, push_prefix d = Ok p ->
  announces p (nlen d) /\ forall h, announces h (nlen d) -> (length p <= length h)%nat.
Proof. exact (fun d p H => conj (push_prefix_announces d p H) (fun h => push_prefix_shortest d p h H)). Qed.
Print Assumptions C09_prefix_canonical.

Theorem C09_prefix_unique : forall d h, nlen d < 2 ^ 32 -> shortest_header h (nlen d) -> push_prefix d = Ok h.
Proof. exact shortest_unique. Qed.
Print Assumptions C09_prefix_unique.

Example C09_example :
  map (fun k => push_prefix (repeat x00 k)) [0; 75; 76; 255; 256]%nat
  = [Ok [x00]; Ok [x4b]; Ok [x4c; x4c]; Ok [x4c; xff]; Ok [x4d; x00; x01]].
Proof. vm_compute. reflexivity. Qed.

(** C10. Totality: three mutually exclusive outcomes, each with its exact
    condition ([decode_parts] is a Coq function, so it terminates). *)
Theorem C10_decode_panic_iff : forall b, decode_parts b = Panic <->
  exists p ps t, b = p ++ t /\ safe_elems p ps /\ wraps t.
Proof. exact decode_panic_iff. Qed.
Print Assumptions C10_decode_panic_iff.

Theorem C10_decode_error_iff : forall b e, decode_parts b = Err e <->
  e = ENotEnough /\ exists p ps t, b = p ++ t /\ safe_elems p ps /\ truncated t /\ ~ wraps t.
Proof. exact decode_err_iff. Qed.
Print Assumptions C10_decode_error_iff.

Theorem C10_decode_ok_iff : forall b ps, decode_parts b = Ok ps <-> safe_elems b ps.
Proof. exact decode_ok_iff. Qed.
Print Assumptions C10_decode_ok_iff.

(** the exported opcodes OpPUSHDATA1, OpPUSHDATA2, OpPUSHDATA4, in front of a length of 1, 2 and
    4 bytes and the data, make a push of the data *)
Theorem C10_exported_opcodes : forall l d, nlen d = le_get l ->
  (length l = 1%nat -> decode_parts (OpPUSHDATA1 :: l ++ d) = Ok [d]) /\
  (length l = 2%nat -> nlen d < 65533 -> decode_parts (OpPUSHDATA2 :: l ++ d) = Ok [d]) /\
  (length l = 4%nat -> nlen d < 2 ^ 32 - 5 -> decode_parts (OpPUSHDATA4 :: l ++ d) = Ok [d]).
Proof.
  assert (forall w p, elem w p -> ~ wraps w -> decode_parts w = Ok [p]) as G.
  { intros w p E W. apply C10_decode_ok_iff. rewrite <- (app_nil_r w). apply safe_cons; [assumption..|constructor]. }
  assert (forall (l l' d d' : bytes), length l = length l' -> l' ++ d' = l ++ d -> l = l') as P.
  { intros l l' d d' H E. apply (f_equal (firstn (length l))) in E. rewrite H in E at 1. rewrite !firstn_app, !Nat.sub_diag, !firstn_all in E.
    cbn [firstn] in E. now rewrite !app_nil_r in E. }
  intros l d L. split; [|split].
  - intros A. destruct l as [|c [|c2 l]]; try discriminate A. cbn [le_get] in L. apply G.
    + apply elem_pushdata1. lia.
    + intros W. inversion W.
  - intros A B. apply G; [apply elem_pushdata2; assumption|]. intros W. inversion W as [l' d' A' B' E|]; subst.
    rewrite (P l l' d d') in L by congruence. lia.
  - intros A B. apply G; [apply elem_pushdata4; assumption|]. intros W. inversion W as [|l' d' A' B' E]; subst.
    rewrite (P l l' d d') in L by congruence. lia.
Qed.
Print Assumptions C10_exported_opcodes.

Example C10_examples :
  decode_parts [x51; x4d; xfd; xff] = Panic /\
  decode_parts [x51; x4d; xfc; xff] = Err ENotEnough /\
  decode_parts [x51; x02; xaa; xbb; xac] = Ok [[x51]; [xaa; xbb]; [xac]].
Proof. vm_compute. auto. Qed.

(** C11. What a successful decoding says about the bytes, and what the parts
    returned beside an error are. *)
Theorem C11_decode_lossless : forall b ps, decode_parts b = Ok ps -> elems b ps.
Proof. exact c11_lossless. Qed.
Print Assumptions C11_decode_lossless.

Theorem C11_decode_unique : forall b ps qs, decode_parts b = Ok ps -> safe_elems b qs -> ps = qs.
Proof. exact c11_unique. Qed.
Print Assumptions C11_decode_unique.

Theorem C11_decode_partial_result : forall b ps e, decode_parts_full b = Ok (ps, Some e) <->
  e = ENotEnough /\ exists p t, b = p ++ t /\ safe_elems p ps /\ truncated t /\ ~ wraps t.
Proof. exact full_err_iff. Qed.
Print Assumptions C11_decode_partial_result.

(** "longest": the undecoded tail [t] does not start with a complete element *)
Theorem C11_truncated_maximal : forall t w p r, truncated t -> ~ wraps t -> t = w ++ r -> ~ elem w p.
Proof. exact truncated_maximal. Qed.
Print Assumptions C11_truncated_maximal.

Example C11_example :
  decode_parts_full [x51; x02; xaa; xbb; x4c; x02; xcc] = Ok ([[x51]; [xaa; xbb]], Some ENotEnough) /\
  decode_parts [x4c; x01; xaa] = decode_parts [x01; xaa] /\ decode_parts [x4c; x01; xaa] = Ok [[xaa]].
Proof. split; [vm_compute; reflexivity|]. split; vm_compute; reflexivity. Qed.

(** C12. *)
Theorem C12_builder_history : forall cs, Forall call_ok cs ->
  decode_parts (run_calls [] cs) = Ok (concat (map asked cs)).
Proof. exact c12_history. Qed.
Print Assumptions C12_builder_history.

Theorem C12_failed_call_unchanged : forall s c, call_failed s c -> fst (run_call s c) = s.
Proof. exact c12_failed. Qed.
Print Assumptions C12_failed_call_unchanged.

Theorem C12_failed_iff : forall s c, call_failed s c <->
  match c with
  | CPush d | CPushString d => 2 ^ 32 <= nlen d
  | CPushHex h => match hex_dec h with None => True | Some d => 2 ^ 32 <= nlen d end
  | CPushArray l | CPushStrings l => exists d, In d l /\ 2 ^ 32 <= nlen d
  | COpCode _ => False
  end.
Proof. exact c12_fails_iff. Qed.
Print Assumptions C12_failed_iff.

Example C12_example :
  let cs := [COpCode x76; CPushHex (str "0102zz"); CPushHex (str "0102"); CPushStrings [str "hi"; str "there"]; COpCode x00] in
  decode_parts (run_calls [] cs) = Ok [[x76]; [x01; x02]; str "hi"; str "there"; [x00]].
Proof. vm_compute. reflexivity. Qed.
