(* Output buffers of length 0 that are null: C85. *)
From Coq Require Import List NArith Bool.
From Verif Require Import Base Aead SpecAead AeadRun Hkdf HalfConn SpecTls Options HsHandler Crypter SpecRecord
  CrypterRun FrameProt SpecFrame FrameRun FrameSim SpecNull NullProofs Toy ToyProofs AeadExamples FrameExamples BufCases SpecStream StreamExample NullCases.
Import ListNotations.
Local Open Scope N_scope.

(* C85. Each function that writes to a buffer of the caller is given a null
   pointer of length 0 and an empty buffer; whatever the history, the input and
   the failures of the library, it does the same. *)
Theorem C85_encrypt : forall P lib k key c, areach P lib k key c ->
  forall nonce aad pt fs, sum_lens pt + 16 < two64 ->
  ends_same (aead_encrypt P c nonce aad pt (IoNull 0) fs) (aead_encrypt P c nonce aad pt (IoBuf []) fs).
Proof. exact N85enc. Qed.
Print Assumptions C85_encrypt.

Theorem C85_decrypt : forall P c nonce aad ct fs, sum_lens ct < two64 ->
  ends_same (aead_decrypt P c nonce aad ct (IoNull 0) fs) (aead_decrypt P c nonce aad ct (IoBuf []) fs).
Proof. exact N85dec. Qed.
Print Assumptions C85_decrypt.

(* In particular the empty plaintext is decrypted into it. *)
Theorem C85_decrypt_empty : forall P lib k key c nonce aad ct a, prims_ok P -> areach P lib k key c -> lenN nonce = 12 ->
  carries aad a -> carries ct (seal P (kind_alg k key) key nonce a []) ->
  exists c', astep P c (ADecrypt nonce aad ct (IoNull 0)) [] = Done (c', {| ar_st := kOk; ar_n := 0; ar_out := IoNull 0 |}).
Proof. exact N85empty. Qed.
Print Assumptions C85_decrypt_empty.

(* The record layer. A record never fits into 0 bytes: Protect refuses, without
   using the library or a sequence number. *)
Theorem C85_record_protect : forall P lib a ops rs x, connection P lib a ops rs x ->
  forall t pt fs, crypt_protect P x t pt (IoNull 0) fs = Done (x, (S_FAILED_PRECONDITION, 0), IoNull 0, fs) /\
    crypt_protect P x t pt (IoBuf []) fs = Done (x, (S_FAILED_PRECONDITION, 0), IoBuf [], fs).
Proof. exact N85pro. Qed.
Print Assumptions C85_record_protect.

Theorem C85_record_unprotect : forall P lib a ops rs x, connection P lib a ops rs x ->
  forall hdr payload fs, cop_ok (CUnprotect hdr payload []) ->
  ends_same (crypt_unprotect P lib x (IoBuf hdr) payload (IoNull 0) fs) (crypt_unprotect P lib x (IoBuf hdr) payload (IoBuf []) fs).
Proof. exact N85unp. Qed.
Print Assumptions C85_record_unprotect.

(* The frame protector: Protect hands the buffer, null or not, to the destroy
   callback. *)
Theorem C85_frame_protect : forall P lib al a ops rs f, protector P lib al a ops rs f ->
  forall input id fs, sum_lens input < two64 ->
  fp_protect_into P f input id (IoNull 0) fs = Done (fp_destroy f id, kFailedPrecondition, IoNull 0, fs) /\
  fp_protect_into P f input id (IoBuf []) fs = Done (fp_destroy f id, kFailedPrecondition, IoBuf [], fs).
Proof. exact N85fpro. Qed.
Print Assumptions C85_frame_protect.

Theorem C85_frame_unprotect : forall P lib al a ops rs f, protector P lib al a ops rs f ->
  forall input fs, fop_ok (FUnprotectInto input []) ->
  ends_same (buffer_last (fp_unprotect_into P lib f input (IoNull 0) fs)) (buffer_last (fp_unprotect_into P lib f input (IoBuf []) fs)).
Proof. exact N85funp. Qed.
Print Assumptions C85_frame_unprotect.

(* Every library and factory: a crypter with a history, additional data in
   fragments, the sealed empty plaintext cut in two. *)
Example C85_crypter_case : forall lib k, exists c, prims_ok toy /\ areach toy lib k key32 c /\ lenN nonce12 = 12 /\
  carries aad_frags [1; 2; 3] /\ carries (n_frags k) (seal toy (kind_alg k key32) key32 nonce12 [1; 2; 3] []) /\
  sum_lens (n_frags k) < two64 /\ sum_lens pt_frags + 16 < two64.
Proof. exact n_case. Qed.

(* A protector and the record layer under it; a record of three bytes is refused
   for lack of room, and the inbound sequence number is used (C84). *)
Example C85_protector_case : exists rs f cops crs f' fs',
  protector marked OpenSSL toy_al (fargs S0) b_ops rs f /\
  connection marked OpenSSL (c_args (fargs S0)) cops crs (fp_crypt f) /\
  cop_ok (CUnprotect (takeN 5 (s_rec 0 [1; 2; 3])) [IoBuf (dropN 5 (s_rec 0 [1; 2; 3]))] []) /\
  fop_ok (FUnprotectInto b_input []) /\ sum_lens b_long < two64 /\
  fp_unprotect_into marked OpenSSL f b_input (IoNull 0) [] = Done (f', kInternal, IoNull 0, 0, fs') /\
  hc_seq (cx_in (fp_crypt f')) = hc_seq (cx_in (fp_crypt f)) + 1.
Proof. exact n_protector_case. Qed.
