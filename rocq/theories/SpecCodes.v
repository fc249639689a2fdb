(* What the statuses of the AEAD crypters say about a call (C87). *)
From Coq Require Import List NArith Bool.
From Verif Require Import Base Aead SpecAead AeadRun.
Import ListNotations.
Local Open Scope N_scope.

(* The arguments are in order: [size] bytes of output. *)
Definition encrypt_args (nonce : bytes) (aad pt : list iovec) (size : N) : Prop :=
  lenN nonce = 12 /\ Forall iov_valid aad /\ Forall iov_valid pt /\ sum_lens pt + 16 <= size.
Definition decrypt_args (nonce : bytes) (aad ct : list iovec) (size : N) : Prop :=
  lenN nonce = 12 /\ Forall iov_valid aad /\ Forall iov_valid ct /\ 16 <= sum_lens ct /\ sum_lens ct <= size + 16.
