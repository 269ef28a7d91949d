(** Digest sizes. *)
From Verif Require Export M_Crypto.

Lemma sha256_length b : length (sha256 b) = 32%nat.
Proof.
  unfold sha256. cbv zeta.
  destruct (md_blocks sha_block _ _ _) as [h0 h1 h2 h3 h4 h5 h6 h7].
  rewrite !app_length, !be_put_length. reflexivity.
Qed.

Lemma sha256d_length b : length (sha256d b) = 32%nat.
Proof. unfold sha256d. apply sha256_length. Qed.

Lemma ripemd160_length b : length (ripemd160 b) = 20%nat.
Proof.
  unfold ripemd160. cbv zeta.
  destruct (md_blocks rmd_block _ _ _) as [h0 h1 h2 h3 h4].
  rewrite !app_length, !le_put_length. reflexivity.
Qed.

Lemma hash160_length b : length (hash160 b) = 20%nat.
Proof. unfold hash160. apply ripemd160_length. Qed.

Lemma sha256d_eq b : sha256d b = sha256 (sha256 b).
Proof. reflexivity. Qed.

Lemma hash160_eq b : hash160 b = ripemd160 (sha256 b).
Proof. reflexivity. Qed.

(** A collision: two different messages with the same digest. *)
Definition collision (H : bytes -> bytes) (a b : bytes) : Prop := a <> b /\ H a = H b.

Lemma sha256d_collision a b : sha256d a = sha256d b -> a <> b ->
  collision sha256 a b \/ collision sha256 (sha256 a) (sha256 b).
Proof.
  intros E N. unfold sha256d in E. destruct (bytes_eq_dec (sha256 a) (sha256 b)) as [E1|N1].
  - left. now split.
  - right. now split.
Qed.
Global Opaque sha256 ripemd160.
