(** Further theorems C12: the exact bytes of any builder history. *)
From Verif Require Import S_Builder M_Script P_Push P_Script P_Asm.
From Coq Require Import ZifyBool ZifyNat ZifyN.

Lemma pushes_wire l : (forall p, In p l -> nlen p < 4294967296) -> pushes l (concat (map push_wire l)).
Proof.
  induction l as [|d l IH]; intros H; [constructor|]. cbn [map concat].
  destruct (push_prefix_ok d (H d (or_introl eq_refl))) as [p P]. unfold push_wire at 1. rewrite P, <- app_assoc.
  constructor; [now apply push_shortest|]. apply IH. intros q I. apply H. now right.
Qed.

Lemma array_bytes s l : exists w, fst (append_push_data_array s l) = s ++ w /\ pushes (servable l) w.
Proof.
  unfold servable. destruct (forallb (fun d => nlen d <? 4294967296) l) eqn:F.
  - rewrite forallb_forall in F. assert (forall p, In p l -> nlen p < 4294967296) as H by (intros p I; apply F in I; lia).
    rewrite append_array_ok by assumption. eexists. split; [reflexivity|]. now apply pushes_wire.
  - assert (exists d, In d l /\ 4294967296 <= nlen d) as (d & I & B).
    { apply not_true_iff_false in F. rewrite forallb_forall in F. clear - F. induction l as [|x l IH]; [exfalso; apply F; intros ? []|].
      destruct (N.ltb_spec (nlen x) 4294967296) as [L|L]; [|exists x; split; [now left|assumption]].
      destruct IH as (d & I & B); [|exists d; split; [now right|assumption]]. intros H. apply F. intros y [<- |I]; [lia|now apply H]. }
    destruct (append_array_err s l d I B) as [e ->]. exists []. split; [now rewrite app_nil_r|constructor].
Qed.

Lemma call_bytes s c : exists w, fst (run_call s c) = s ++ w /\ appends c w.
Proof.
  assert (forall l, (forall o, c <> COpCode o) -> asked c = servable l -> fst (run_call s c) = fst (append_push_data_array s l) ->
    exists w, fst (run_call s c) = s ++ w /\ appends c w) as K.
  { intros l N A E. destruct (array_bytes s l) as (w & W & P). exists w. split; [congruence|]. apply ap_items; [assumption|]. now rewrite A. }
  destruct c as [d|h|t|l|l|o].
  - apply (K [d]); [discriminate|reflexivity|reflexivity].
  - destruct (hex_dec h) as [d|] eqn:E.
    + apply (K [d]); [discriminate|cbn [asked]; now rewrite E|]. cbn [run_call]. unfold append_push_data_hex. apply of_hex_ok in E. rewrite E. reflexivity.
    + exists []. cbn [run_call]. unfold append_push_data_hex. destruct (of_hex h) as [d|e|] eqn:F; [apply of_hex_ok in F; congruence| |now apply of_hex_no_panic in F].
      cbn [fst]. split; [now rewrite app_nil_r|]. apply ap_items; [discriminate|]. cbn [asked]. rewrite E. constructor.
  - apply (K [t]); [discriminate|reflexivity|reflexivity].
  - apply (K l); [discriminate|reflexivity|reflexivity].
  - apply (K l); [discriminate|reflexivity|]. cbn [run_call]. now rewrite strings_array.
  - exists [o]. split; [reflexivity|constructor].
Qed.

(** Whatever the calls, also failing ones and also opcodes that are push opcodes, the
    script is the old one followed by what each call appends, in order. *)
Theorem C12_builder_bytes : forall cs s, exists ws, Forall2 appends cs ws /\ run_calls s cs = s ++ concat ws.
Proof.
  induction cs as [|c cs IH]; intros s.
  - exists []. split; [constructor|]. cbn [run_calls concat]. now rewrite app_nil_r.
  - cbn [run_calls]. destruct (call_bytes s c) as (w & -> & A). destruct (IH (s ++ w)) as (ws & F & ->).
    exists (w :: ws). split; [now constructor|]. cbn [concat]. now rewrite app_assoc.
Qed.
Print Assumptions C12_builder_bytes.

(** What a call appends is determined by the call. *)
Theorem C12_builder_unique : forall c w w', appends c w -> appends c w' -> w = w'.
Proof.
  assert (forall ds w, pushes ds w -> (forall d, In d ds -> nlen d < 4294967296) -> w = concat (map push_wire ds)) as P.
  { induction 1 as [|d ds h w S _ IH]; intros H; [reflexivity|]. cbn [map concat]. rewrite <- IH by (intros; apply H; now right).
    unfold push_wire. rewrite (shortest_unique d h (H d (or_introl eq_refl)) S). now rewrite <- app_assoc. }
  assert (forall c d, (forall o, c <> COpCode o) -> In d (asked c) -> nlen d < 4294967296) as Q.
  { assert (forall l d, In d (servable l) -> nlen d < 4294967296) as S.
    { intros l d. unfold servable. destruct (forallb (fun d => nlen d <? 4294967296) l) eqn:F; [|intros []]. rewrite forallb_forall in F. intros I. apply F in I. lia. }
    intros c d N. destruct c as [x|h|t|l|l|o]; cbn [asked]; try apply S; [destruct (hex_dec h); [apply S|intros []]|]. exfalso. now apply (N o). }
  intros c w w' A B. inversion A as [o E1 E2|c1 w1 N1 P1 E1 E2]; subst; inversion B as [o' E3 E4|c2 w2 N2 P2 E3 E4]; subst.
  - reflexivity.
  - exfalso. now apply (N2 o).
  - exfalso. now apply (N1 o').
  - rewrite (P _ _ P1), (P _ _ P2); [reflexivity|..]; intros d; now apply Q.
Qed.
Print Assumptions C12_builder_unique.

Example C12_bytes_example :
  run_calls [x51] [COpCode x76; CPushHex (str "0102zz"); CPushHex (str "0102"); COpCode x4c; CPush [x05]] = [x51; x76; x02; x01; x02; x4c; x01; x05] /\
  appends (COpCode x05) [x05] /\ ~ appends (COpCode x05) [x01; x05].
Proof. split; [vm_compute; reflexivity|]. split; [constructor|]. intros H. inversion H as [|c w N P]; subst. now apply (N x05). Qed.
