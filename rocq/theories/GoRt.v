(** Go run-time notions used by the model: outcomes, slices with capacity,
    machine integers, bounded loops. *)
From Verif Require Export Bytes.
From Coq Require Import ZifyBool ZifyNat ZifyN.

(** ** Outcomes *)

(** Error values returned by libsv and by the library functions it calls
    (one constructor per error site; the text is in the cited source line). *)
Inductive err :=
| EHex (e : hex_err)              (* encoding/hex *)
| ETooBig                         (* script/OpPushdata.go:64 "data too big" *)
| EPartTooBig (i : N)             (* script/OpPushdata.go:23 *)
| ENotEnough                      (* script/OpPushdata.go:91.. "Not enough data" *)
| EInvalidOpcodeData              (* script/Script.go:43 *)
| EScriptEmpty                    (* script/Script.go:290 *)
| ENotP2PKH                       (* script/Script.go:294 *)
| EInputShort36                   (* transaction/input/Input.go:48 *)
| EInputShort                     (* transaction/input/Input.go:64 *)
| EOutputShort8                   (* transaction/output/Output.go:33 *)
| EOutputShort                    (* transaction/output/Output.go:47 *)
| ETxShort                        (* transaction/Transaction.go:68 *)
| ELockTime                       (* transaction/Transaction.go:108 *)
| ENoInput (index : N)            (* transaction/Transaction.go:296, %d *)
| ENoPrevTxID                     (* transaction/SignatureHash.go:21 *)
| ENoPrevTxScript                 (* transaction/SignatureHash.go:24 *)
| EAddrLength (a : bytes)         (* script/address/Address.go:38, %s *)
| EAddrUnsupported (a : bytes)    (* script/address/Address.go:54, %s *)
| EBadChar                        (* script/address/AddressValidation.go:38 *)
| ETooLong                        (* script/address/AddressValidation.go:46 *)
| EVersion                        (* script/address/AddressValidation.go:73 *)
| EChecksum                       (* script/address/AddressValidation.go:79 *)
| EBip276Checksum                 (* script/address/BIP276.go:76 *)
| EBip276Invalid (e : err)        (* script/address/AddressValidation.go:59 *)
| EIndexRange (i : Z) (len : N)   (* block/GetMerkleBranches.go:89, %d twice *)
| ESigsMin                        (* script/RedeemScript.go:25,52 *)
| ESigsMax                        (* script/RedeemScript.go:29 *)
| ESigsMax15                      (* script/RedeemScript.go:56 *)
| EFiveParts                      (* script/RedeemScript.go:47 *)
| ECheckMultisig                  (* script/RedeemScript.go:62 *)
| EElectrumFF                     (* script/RedeemScript.go:71 *)
| EPath2Items                     (* script/RedeemScript.go:86 *)
| EPath2                          (* script/RedeemScript.go:123 *)
| EKeyCount                       (* script/RedeemScript.go:113 *)
| ECipherShort                    (* crypto/Encryption.go:28 *)
| EBase64                         (* encoding/base64 CorruptInputError *)
| EParseFloat (z : Z)             (* strconv.ErrRange on the decimal digits of z *)
| EExternal (n : N).              (* error of an external package (key, reader) *)

(** Result of a Go call: normal return with nil error, return with an error, or
    a run-time panic. Functions without an error result never yield [Err]. *)
Inductive res (A : Type) :=
| Ok (a : A)
| Err (e : err)
| Panic.
Arguments Ok {A} a.
Arguments Err {A} e.
Arguments Panic {A}.

Definition bind {A B} (r : res A) (f : A -> res B) : res B :=
  match r with Ok a => f a | Err e => Err e | Panic => Panic end.

Notation "x <- r ;; k" := (bind r (fun x => k))
  (at level 61, r at next level, right associativity).
Notation "' p <- r ;; k" := (bind r (fun x => match x with p => k end))
  (at level 61, p pattern, r at next level, right associativity).

(** [panic] on a failed bounds check. *)
Definition or_panic {A} (o : option A) : res A :=
  match o with Some a => Ok a | None => Panic end.

Definition of_hex (s : bytes) : res bytes :=
  match hex_decode s with (b, None) => Ok b | (_, Some e) => Err (EHex e) end.

Lemma of_hex_ok s b : of_hex s = Ok b <-> hex_dec s = Some b.
Proof.
  unfold of_hex, hex_dec. destruct (hex_decode s) as [t [e|]]; split; congruence.
Qed.

Lemma of_hex_encode b : of_hex (hex_encode b) = Ok b.
Proof. apply of_hex_ok, hex_dec_encode. Qed.

Lemma of_hex_no_panic s : of_hex s <> Panic.
Proof. unfold of_hex. destruct (hex_decode s) as [t [e|]]; discriminate. Qed.

(** [hex.DecodeString] when the caller drops the error ([b, _ := ...]): the
    bytes decoded before the error. *)
Definition hex_ignore (s : bytes) : bytes := fst (hex_decode s).

Lemma hex_ignore_encode b : hex_ignore (hex_encode b) = b.
Proof. unfold hex_ignore. now rewrite hex_decode_encode. Qed.

Lemma hex_dec_ignore s b : hex_dec s = Some b -> hex_ignore s = b.
Proof.
  unfold hex_dec, hex_ignore. destruct (hex_decode s) as [t [e|]]; simpl; congruence.
Qed.

(** ** Machine integers (64-bit [int]) *)

Definition two63 : Z := 9223372036854775808%Z.
Definition two64 : Z := 18446744073709551616%Z.

(** two's-complement wrap-around of [int] arithmetic *)
Definition wrap_int (z : Z) : Z := ((z + two63) mod two64 - two63)%Z.

(** Go conversion [int(u)] of a [uint64]. *)
Definition int_of_u64 (n : N) : Z := wrap_int (Z.of_N n).

Definition u8  (n : N) : bool := n <? 256.
Definition u16 (n : N) : bool := n <? 65536.
Definition u32 (n : N) : bool := n <? 4294967296.
Definition u64 (n : N) : bool := n <? 18446744073709551616.

Definition wrap16 (n : N) : N := n mod 65536.
Definition wrap32 (n : N) : N := n mod 4294967296.
Definition wrap64 (n : N) : N := n mod 18446744073709551616.

Lemma wrap_int_small z : (- two63 <= z < two63)%Z -> wrap_int z = z.
Proof. unfold wrap_int, two63, two64. intros H. rewrite Z.mod_small by lia. lia. Qed.

(** ** Slices *)

(** A Go slice: the bytes within [len] and the bytes of the backing array
    between [len] and [cap]. *)
Record slice := Sl { vis : bytes; spare : bytes }.

Definition slen (s : slice) : Z := Z.of_nat (length (vis s)).
Definition scap (s : slice) : Z := (Z.of_nat (length (vis s)) + Z.of_nat (length (spare s)))%Z.

(** [s[lo:hi]]: Go checks [0 <= lo <= hi <= cap(s)] and panics otherwise. *)
Definition sl_sub (s : slice) (lo hi : Z) : option slice :=
  if ((0 <=? lo) && (lo <=? hi) && (hi <=? scap s))%Z
  then let all := vis s ++ spare s in
       Some (Sl (firstn (Z.to_nat (hi - lo)) (skipn (Z.to_nat lo) all))
                (skipn (Z.to_nat hi) all))
  else None.

(** [s[lo:]], i.e. [s[lo:len(s)]]. *)
Definition sl_from (s : slice) (lo : Z) : option slice := sl_sub s lo (slen s).

(** [s[i]]: checked against [len]. *)
Definition sl_idx (s : slice) (i : Z) : option byte :=
  if (i <? 0)%Z then None else nth_error (vis s) (Z.to_nat i).

(** [binary.LittleEndian.UintNN(s)]: needs [k] visible bytes (the library does
    [_ = b[k-1]]). *)
Definition sl_le (k : nat) (s : slice) : option N :=
  if Nat.leb k (length (vis s)) then Some (le_get (firstn k (vis s))) else None.

Lemma sl_sub_vis s lo hi :
  (0 <= lo <= hi)%Z -> (hi <= slen s)%Z ->
  sl_sub s lo hi = Some (Sl (firstn (Z.to_nat (hi - lo)) (skipn (Z.to_nat lo) (vis s)))
                            (skipn (Z.to_nat hi) (vis s) ++ spare s)).
Proof.
  intros H1 H2. unfold sl_sub, scap, slen in *.
  replace ((0 <=? lo) && (lo <=? hi)
     && (hi <=? Z.of_nat (length (vis s)) + Z.of_nat (length (spare s))))%Z with true by lia.
  f_equal. rewrite !skipn_app.
  replace (Z.to_nat lo - length (vis s))%nat with 0%nat by lia.
  replace (Z.to_nat hi - length (vis s))%nat with 0%nat by lia.
  simpl skipn at 2. simpl skipn at 3.
  rewrite firstn_app, skipn_length.
  replace (Z.to_nat (hi - lo) - (length (vis s) - Z.to_nat lo))%nat with 0%nat by lia.
  simpl. now rewrite app_nil_r.
Qed.

Lemma sl_from_vis s lo :
  (0 <= lo <= slen s)%Z ->
  sl_from s lo = Some (Sl (skipn (Z.to_nat lo) (vis s)) (spare s)).
Proof.
  intros H. unfold sl_from. rewrite sl_sub_vis by lia. unfold slen in *.
  do 2 f_equal.
  - apply firstn_all2. rewrite skipn_length. lia.
  - rewrite skipn_all2 by lia. reflexivity.
Qed.

Lemma sl_from_none s lo : (lo < 0 \/ slen s < lo)%Z -> sl_from s lo = None.
Proof.
  intros H. unfold sl_from, sl_sub.
  destruct ((0 <=? lo) && (lo <=? slen s) && (slen s <=? scap s))%Z eqn:E; [lia | reflexivity].
Qed.

(** ** Bounded loops with early exit: [for i := 0; i < n; i++ { body }] where
    the body may return an error or panic. Recursion over the binary counter,
    so that a hostile 64-bit count still computes. *)
Fixpoint pos_loop {S : Type} (f : S -> res S) (p : positive) (s : S) : res S :=
  match p with
  | xH => f s
  | xO p' => x <- pos_loop f p' s ;; pos_loop f p' x
  | xI p' => x <- f s ;; y <- pos_loop f p' x ;; pos_loop f p' y
  end.

Definition n_loop {S : Type} (f : S -> res S) (n : N) (s : S) : res S :=
  match n with N0 => Ok s | Npos p => pos_loop f p s end.

Fixpoint nat_loop {S : Type} (f : S -> res S) (n : nat) (s : S) : res S :=
  match n with O => Ok s | Datatypes.S n' => x <- f s ;; nat_loop f n' x end.

Lemma bind_assoc {A B C} (r : res A) (f : A -> res B) (g : B -> res C) :
  bind (bind r f) g = bind r (fun a => bind (f a) g).
Proof. destruct r; reflexivity. Qed.

Lemma bind_ok_r {A} (r : res A) : bind r Ok = r.
Proof. destruct r; reflexivity. Qed.

Lemma bind_ext {A B} (r : res A) (f g : A -> res B) :
  (forall a, f a = g a) -> bind r f = bind r g.
Proof. intros H. destruct r; simpl; auto. Qed.

Lemma nat_loop_add {S} (f : S -> res S) n m s :
  nat_loop f (n + m) s = bind (nat_loop f n s) (nat_loop f m).
Proof.
  revert s; induction n as [|n IH]; intros s; simpl; [reflexivity|].
  rewrite bind_assoc. apply bind_ext. exact IH.
Qed.

Lemma pos_loop_nat {S} (f : S -> res S) p s :
  pos_loop f p s = nat_loop f (Pos.to_nat p) s.
Proof.
  revert s; induction p as [p IH|p IH|]; intros s; cbn [pos_loop].
  - rewrite Pos2Nat.inj_xI. cbn [nat_loop]. apply bind_ext; intros a.
    replace (2 * Pos.to_nat p)%nat with (Pos.to_nat p + Pos.to_nat p)%nat by lia.
    rewrite nat_loop_add, IH. apply bind_ext. exact IH.
  - rewrite Pos2Nat.inj_xO.
    replace (2 * Pos.to_nat p)%nat with (Pos.to_nat p + Pos.to_nat p)%nat by lia.
    rewrite nat_loop_add, IH. apply bind_ext. exact IH.
  - change (Pos.to_nat 1) with 1%nat. cbn [nat_loop]. now rewrite bind_ok_r.
Qed.

Lemma n_loop_nat {S} (f : S -> res S) n s : n_loop f n s = nat_loop f (N.to_nat n) s.
Proof. destruct n as [|p]; [reflexivity|]. apply pos_loop_nat. Qed.

(** [nil] pointer dereference panics. *)
Definition deref {A} (o : option A) : res A := or_panic o.

Definition is_ok {A} (r : res A) : bool := match r with Ok _ => true | _ => false end.
Definition is_panic {A} (r : res A) : bool := match r with Panic => true | _ => false end.

(** map with outcomes, left to right *)
Fixpoint mapM {A B} (f : A -> res B) (l : list A) : res (list B) :=
  match l with
  | [] => Ok []
  | x :: r => y <- f x ;; ys <- mapM f r ;; Ok (y :: ys)
  end.
