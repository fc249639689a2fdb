(* The real primitives have the sizes and ranges [prims_ok] asks for. *)
From Coq Require Import List NArith Bool Lia ZifyBool ZifyNat ZifyN.
From Verif Require Import Base BaseProofs Aead RealSha2 RealCiphers.
Import ListNotations.
Local Open Scope N_scope.

Lemma to_be_length : forall n v, length (to_be n v) = n.
Proof. induction n as [|n IH]; intros v; cbn [to_be]; [reflexivity|]. rewrite app_length, IH. cbn [length]. lia. Qed.
Lemma to_le_length : forall n v, length (to_le n v) = n.
Proof. induction n as [|n IH]; intros v; cbn [to_le length]; [reflexivity|]. rewrite IH. reflexivity. Qed.
Lemma mod_byte : forall v, byte_ok (v mod 256).
Proof. intros v. unfold byte_ok. apply N.mod_lt. discriminate. Qed.
Lemma to_be_bytes : forall n v, bytes_ok (to_be n v).
Proof.
  induction n as [|n IH]; intros v; cbn [to_be]; [constructor|].
  apply Forall_app; split; [apply IH|]. constructor; [apply mod_byte|constructor].
Qed.
Lemma to_le_bytes : forall n v, bytes_ok (to_le n v).
Proof. induction n as [|n IH]; intros v; cbn [to_le]; constructor; [apply mod_byte|apply IH]. Qed.

Lemma flat_map_length_const : forall (A : Type) (f : A -> bytes) k l,
  (forall x, length (f x) = k) -> length (flat_map f l) = (length l * k)%nat.
Proof.
  intros A f k l H. induction l as [|x l IH]; cbn [flat_map length]; [reflexivity|].
  rewrite app_length, H, IH. lia.
Qed.
Lemma flat_map_bytes : forall (A : Type) (f : A -> bytes) l,
  (forall x, bytes_ok (f x)) -> bytes_ok (flat_map f l).
Proof.
  intros A f l H. induction l as [|x l IH]; cbn [flat_map]; [constructor|].
  apply Forall_app; split; [apply H|exact IH].
Qed.

Lemma sha2_length : forall H m, length (sha2 H m) = (s_words_out H * word_bytes H)%nat.
Proof.
  intros H m. unfold sha2. rewrite (flat_map_length_const _ _ (word_bytes H)).
  - rewrite seq_length. reflexivity.
  - intros x. apply to_be_length.
Qed.
Lemma sha2_bytes : forall H m, bytes_ok (sha2 H m).
Proof. intros H m. unfold sha2. apply flat_map_bytes. intros x. apply to_be_bytes. Qed.

Lemma real_ok : prims_ok real.
Proof.
  constructor.
  - intros h k m. destruct h; unfold real, p_hmac, hmac, lenN; rewrite sha2_length; reflexivity.
  - intros h k m. destruct h; unfold real, p_hmac, hmac; apply sha2_bytes.
  - intros a k n i. destruct a; apply mod_byte.
  - intros a k n d c. destruct a; unfold real, p_mac, gcm_tag, chacha_tag, poly1305, lenN;
      rewrite ?to_be_length, ?to_le_length; reflexivity.
  - intros a k n d c. destruct a; unfold real, p_mac, gcm_tag, chacha_tag, poly1305;
      first [apply to_be_bytes | apply to_le_bytes].
Qed.
