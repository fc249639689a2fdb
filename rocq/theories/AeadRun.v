(* Histories of calls on one AEAD crypter. *)
From Coq Require Import List NArith Bool.
From Verif Require Import Base Aead SpecAead.
Import ListNotations.
Local Open Scope N_scope.

(* Encrypt and Decrypt (s2a_aead_crypter.h); the overloads taking raw pointers
   wrap them into single iovecs. Any iovecs, null output included. *)
Inductive aop :=
| AEncrypt (nonce : bytes) (aad pt : list iovec) (out : iovec)
| ADecrypt (nonce : bytes) (aad ct : list iovec) (out : iovec).

Record ares := { ar_st : code; ar_n : N; ar_out : iovec }.

Definition astep (P : prims) (c : crypter) (op : aop) (fs : faults)
  : outcome (crypter * ares) :=
  obind (match op with
         | AEncrypt nonce aad pt out => aead_encrypt P c nonce aad pt out fs
         | ADecrypt nonce aad ct out => aead_decrypt P c nonce aad ct out fs
         end)
    (fun '((c, (st, n), out), _) =>
       Done (c, {| ar_st := st; ar_n := n; ar_out := out |})).

Fixpoint arun (P : prims) (c : crypter) (ops : list (aop * faults))
  : outcome (crypter * list ares) :=
  match ops with
  | [] => Done (c, [])
  | (op, fs) :: ops' =>
    obind (astep P c op fs) (fun '(c, r) =>
    obind (arun P c ops') (fun '(c, rs) => Done (c, r :: rs)))
  end.

(* The two factory functions. *)
Inductive akind := KAesGcm | KChachaPoly.
Definition acreate (lib : ssl_lib) (k : akind) (key : bytes) : M (code + crypter) :=
  match k with
  | KAesGcm => create_aes_gcm key
  | KChachaPoly => create_chacha_poly lib key
  end.

(* The algorithm a factory call stands for. *)
Definition kind_alg (k : akind) (key : bytes) : alg :=
  match k with
  | KAesGcm => if lenN key =? 16 then Aes128Gcm else Aes256Gcm
  | KChachaPoly => ChachaPoly
  end.

(* [c] is a crypter for [key] after some history. *)
Definition areach (P : prims) (lib : ssl_lib) (k : akind) (key : bytes) (c : crypter) : Prop :=
  exists c0 fs fs' ops rs, acreate lib k key fs = Done (inr c0, fs') /\
    arun P c0 ops = Done (c, rs).

(* What the caller sees of a call or of a history: not the crypter. *)
Definition seen {A} (o : outcome (crypter * A)) : outcome A :=
  obind o (fun '(_, a) => Done a).

(* Two lists of iovecs carrying the same bytes, cut differently; null iovecs
   of length 0 allowed. *)
Definition carries (vs : list iovec) (d : bytes) : Prop :=
  Forall iov_valid vs /\ Forall small_iov vs /\ iov_concat vs = d.

(* The key lengths a factory function is documented to support
   (s2a_aead_crypter.h 124-144). *)
Definition supported_key (k : akind) (n : N) : Prop :=
  match k with
  | KAesGcm => n = 16 \/ n = 32
  | KChachaPoly => n = 32
  end.

(* The getters (s2a_aead_crypter.cc 58-62). *)
Definition lengths (c : crypter) : N * N * N :=
  (cr_key_length c, cr_nonce_length c, cr_tag_length c).

(* A null fragment of non-zero length; the same, in the last 16 bytes. *)
Definition null_in (vs : list iovec) : Prop := exists n, In (IoNull n) vs /\ 0 < n.
Definition null_in_tag (vs : list iovec) : Prop :=
  exists pre n post, vs = pre ++ IoNull n :: post /\ 0 < n /\ n + sum_lens post <= 16.
