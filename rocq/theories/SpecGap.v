(* Specification for C27: which inputs with empty buffers make Unprotect read
   out of bounds. Independent of cursors and of the frame protector. *)
From Coq Require Import List NArith Bool.
From Verif Require Import Base Aead Hkdf SpecAead SpecTls SpecHs SpecRecord SpecRx Crypter SpecFrame.
Import ListNotations.
Local Open Scope N_scope.

(* There is an empty buffer between byte [n - 1] and byte [n] of the input. *)
Definition empty_at (input : list iovec) (n : N) : Prop :=
  exists pre v post, input = pre ++ v :: post /\ iov_len v = 0 /\ lenN (iov_concat pre) = n.

(* [h] is the beginning of a record header, as far as type and version go. *)
Definition header_start (h : bytes) : Prop := takeN 3 h = takeN (lenN h) [23; 3; 3].

(* The bytes from number [n] on are [data]: there is an empty buffer before one
   of the first five of them, and those before it are the beginning of a
   record. *)
Definition empty_in_header (input : list iovec) (n : N) (data : bytes) : Prop :=
  exists i, i < 5 /\ header_start (takeN i data) /\ empty_at input (n + i).

(* The records with payloads [ps] are accepted one after another, each with a
   buffer of the size of its payload. *)
Inductive accepted (P : prims) : rx -> list bytes -> rx -> Prop :=
| AdNil : forall r, accepted P r [] r
| AdCons : forall r p buf n out r1 ps r', r_bad r = false -> lenN p < 65536 -> lenN buf = lenN p ->
    recv P False r (tls_header (lenN p)) p buf S_OK n out r1 -> accepted P r1 ps r' ->
    accepted P r (p :: ps) r'.

(* A read through a null pointer or outside a buffer. *)
Definition bad_read {A} (o : outcome A) : Prop := o = Undef UbOutOfBounds \/ o = Undef UbNullDeref.
