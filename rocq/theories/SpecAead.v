(* Specification of authenticated encryption as one-shot functions of byte
   strings (RFC 5116 interface): no iovecs, no contexts. *)
From Coq Require Import List NArith Bool.
From Verif Require Import Base Aead.
Import ListNotations.
Local Open Scope N_scope.

(* Stream encryption (and decryption) of a whole message. *)
Definition stream (P : prims) (a : alg) (key nonce msg : bytes) : bytes :=
  xor_bytes msg (map (p_ks P a key nonce) (seq 0 (length msg))).

(* AEAD sealing: ciphertext followed by the 16-byte tag. *)
Definition seal (P : prims) (a : alg) (key nonce aad msg : bytes) : bytes :=
  let ct := stream P a key nonce msg in
  ct ++ p_mac P a key nonce aad ct.

(* [sealed] is an authentic ciphertext-and-tag string. *)
Definition authentic (P : prims) (a : alg) (key nonce aad sealed : bytes)
  : Prop :=
  exists ct, sealed = ct ++ p_mac P a key nonce aad ct.

(* What a crypter is configured with; its cipher context is internal. *)
Definition crypter_key (c : crypter) : bytes := ev_key (cr_ctx c).

Definition same_config (c c' : crypter) : Prop :=
  cr_impl c' = cr_impl c /\ cr_alg c' = cr_alg c /\
  crypter_key c' = crypter_key c /\
  cr_key_length c' = cr_key_length c /\
  cr_nonce_length c' = cr_nonce_length c /\
  cr_tag_length c' = cr_tag_length c.

(* The crypters the Create functions return. *)
Definition crypter_ok (c : crypter) : Prop :=
  cr_nonce_length c = 12 /\ cr_tag_length c = 16.

(* Sizes an int can hold; larger single buffers are outside what the crypters
   handle (see C56). *)
Definition small_iov (v : iovec) : Prop := iov_len v < 2147483648.
