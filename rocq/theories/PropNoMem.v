(* C94: library calls that find no memory. *)
From Coq Require Import List NArith Bool.
From Verif Require Import Base Aead Hkdf HalfConn SpecAead SpecTls Options HsHandler SpecHs Crypter SpecRecord SpecRx CrypterRun
  FrameProt SpecFrame FrameRun Toy RecordExamples FrameExamples NoMem NoMemProofs.
Import ListNotations.
Local Open Scope N_scope.

(* [fs]: the outcomes of the library calls, true for a failure. Here
   EVP_CIPHER_CTX_new may fail as well. Creation and a change of the key for
   sending return what they return for some failures of the other calls (C90
   lists the statuses), or a null pointer is dereferenced; that only happens
   after a failure. *)
Theorem C94_create_partial : forall P lib a fs, prims_ok P -> ca_in_seq (fa_crypt a) < two64 -> ca_out_seq (fa_crypt a) < two64 ->
  (nm_fp_create P lib a fs = Undef UbNullDeref /\ In true fs) \/
  exists r fs' gs, nm_fp_create P lib a fs = Done (r, fs') /\ fp_create P lib a gs = Done (r, fs').
Proof. exact M94create. Qed.
Print Assumptions C94_create_partial.
Theorem C94_update_partial : forall P lib a ops rs x fs, connection P lib a ops rs x ->
  (nm_update_outbound_key P lib x fs = Undef UbNullDeref /\ In true fs) \/
  exists r fs' gs, nm_update_outbound_key P lib x fs = Done (r, fs') /\ crypt_update_outbound_key P lib x gs = Done (r, fs').
Proof. exact M94update. Qed.
Print Assumptions C94_update_partial.
Example C94_create_case : forall lib s,
  (exists f, nm_fp_create toy lib (fargs s) [] = Done (inr f, [])) /\
  nm_fp_create toy lib (fargs s) [false; true] = Done (inl kInternal, []) /\
  nm_fp_create toy lib (fargs s) (repeat false 11 ++ [true]) = Done (inl kInternal, []).
Proof. intros lib s. split; [destruct lib, s; eexists; vm_compute; reflexivity|]. split; destruct lib, s; vm_compute; reflexivity. Qed.

(* ChaCha20-Poly1305 with BoringSSL: every failure is reported, as the context
   is checked. *)
Theorem C94_checked : forall P a fs, ca_suite (fa_crypt a) = CHACHA20_POLY1305_SHA256 ->
  nm_fp_create P BoringSSL a fs = fp_create P BoringSSL a fs.
Proof. exact M94checked. Qed.
Print Assumptions C94_checked.
Theorem C94_checked_update : forall P x fs, hc_suite (cx_out x) = CHACHA20_POLY1305_SHA256 ->
  nm_update_outbound_key P BoringSSL x fs = crypt_update_outbound_key P BoringSSL x fs.
Proof. exact M94checked_update. Qed.
Print Assumptions C94_checked_update.
Example C94_checked_case : nm_fp_create toy BoringSSL (fargs CHACHA20_POLY1305_SHA256) (repeat false 10 ++ [true]) = Done (inl kInternal, []).
Proof. vm_compute. reflexivity. Qed.

(* False in every other case, for all primitives: with proper arguments, the
   call after the derivation of key and nonce (ten library calls) is the one
   that allocates the context; its failure is a null dereference. *)
Theorem C94_failures_reported_refuted : forall P lib a fs, prims_ok P ->
  lib = OpenSSL \/ ca_suite (fa_crypt a) <> CHACHA20_POLY1305_SHA256 ->
  fa_allocator a = true -> fa_destroy a = true -> fa_logger a = true -> ca_url (fa_crypt a) <> [] -> ca_tls (fa_crypt a) = TLS1_3 ->
  lenN (ca_in_secret (fa_crypt a)) = spec_hash_len (ca_suite (fa_crypt a)) ->
  nm_fp_create P lib a (repeat false 10 ++ true :: fs) = Undef UbNullDeref.
Proof. exact M94null. Qed.
Print Assumptions C94_failures_reported_refuted.
Example C94_failures_reported_case : exists fs, nm_fp_create toy BoringSSL (fargs AES_128_GCM_SHA256) fs = Undef UbNullDeref.
Proof. exists (repeat false 10 ++ [true]). vm_compute. reflexivity. Qed.

(* The same for a change of the key, on every connection. *)
Theorem C94_update_failures_refuted : forall P lib a ops rs x fs, connection P lib a ops rs x ->
  lib = OpenSSL \/ ca_suite a <> CHACHA20_POLY1305_SHA256 ->
  nm_update_outbound_key P lib x (repeat false 15 ++ true :: fs) = Undef UbNullDeref.
Proof. exact M94null_update. Qed.
Print Assumptions C94_update_failures_refuted.
Example C94_update_failures_case : forall s, exists x, connection toy OpenSSL (arg s) [] [] x.
Proof. intros s. destruct (fresh_connection OpenSSL s) as (x & H & _). exists x. exact H. Qed.
