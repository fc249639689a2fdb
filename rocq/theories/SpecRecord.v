(* Specification of TLS 1.3 records (RFC 8446 sections 5.1, 5.2, 5.4),
   independent of the model of the code. *)
From Coq Require Import List NArith Bool.
From Verif Require Import Base Aead Hkdf SpecAead SpecTls.
Import ListNotations.
Local Open Scope N_scope.

(* TLSInnerPlaintext: content, content type, zero padding. *)
Definition inner (ty : N) (content : bytes) (pad : N) : bytes :=
  content ++ [ty] ++ zeros pad.

(* The header of a TLSCiphertext: opaque_type application_data (23),
   legacy_record_version 0x0303, length. *)
Definition tls_header (len : N) : bytes := [23; 3; 3] ++ be_bytes 2 len.

(* A whole TLSCiphertext: the header is the additional data. *)
Definition tls_ciphertext (P : prims) (d : dir) (msg : bytes) : bytes :=
  let hdr := tls_header (lenN msg + 16) in
  hdr ++ dir_seal P d hdr msg.

Definition tls_record (P : prims) (d : dir) (ty : N) (content : bytes)
  (pad : N) : bytes := tls_ciphertext P d (inner ty content pad).

(* Content types. *)
Definition ty_alert : N := 21.
Definition ty_handshake : N := 22.
Definition ty_application_data : N := 23.

(* A syntactically acceptable header/payload pair: right type and version,
   exact length, at least a type byte and a tag, at most 2^14 bytes of
   content, a type byte and a tag. *)
Definition well_formed (hdr : bytes) (payload_len : N) : Prop :=
  hdr = tls_header payload_len /\ 17 <= payload_len <= 16384 + 17.
