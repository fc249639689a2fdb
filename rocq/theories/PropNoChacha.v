(* C92: the build against an OpenSSL without ChaCha20-Poly1305. *)
From Coq Require Import List NArith Bool.
From Verif Require Import Base Aead Hkdf HalfConn SpecAead SpecTls Options HsHandler SpecHs Crypter FrameProt Wire SpecWire Util Context SpecOptions Proxy ProxyRun
  ProxyRefuted Toy RecordExamples FrameExamples NoChacha NoChachaProofs NoChachaProxy.
Import ListNotations.
Local Open Scope N_scope.

(* The other suites: creation and key updates do exactly what they do in an
   ordinary build, library failures included. *)
Theorem C92_other_suites_same_partial : forall P lib a fs, ca_suite (fa_crypt a) <> CHACHA20_POLY1305_SHA256 ->
  nc_fp_create P a fs = fp_create P lib a fs.
Proof. exact N92others. Qed.
Print Assumptions C92_other_suites_same_partial.
Theorem C92_other_updates_same_partial : forall P lib h fs, hc_suite h <> CHACHA20_POLY1305_SHA256 ->
  nc_half_update_key P h fs = half_update_key P lib h fs.
Proof. exact N92update. Qed.
Print Assumptions C92_other_updates_same_partial.
Example C92_other_suites_same_case : exists f, nc_fp_create toy (fargs AES_256_GCM_SHA384) [] = Done (inr f, []).
Proof. eexists. vm_compute. reflexivity. Qed.

(* That suite: always refused with a status, kFailedPrecondition unless another
   argument is wrong or the library failed. *)
Theorem C92_refused_partial : forall P a fs, prims_ok P -> ca_suite (fa_crypt a) = CHACHA20_POLY1305_SHA256 ->
  exists c fs', nc_fp_create P a fs = Done (inl c, fs') /\
    ((c = kInvalidArgument /\ ~ (fa_allocator a = true /\ fa_destroy a = true /\ fa_logger a = true /\
        ca_url (fa_crypt a) <> [] /\ ca_tls (fa_crypt a) = TLS1_3 /\ lenN (ca_in_secret (fa_crypt a)) = 32)) \/
     (c = kInternal /\ fs <> []) \/
     (c = kFailedPrecondition /\ fa_allocator a = true /\ fa_destroy a = true /\ fa_logger a = true /\
        ca_url (fa_crypt a) <> [] /\ ca_tls (fa_crypt a) = TLS1_3 /\ lenN (ca_in_secret (fa_crypt a)) = 32)).
Proof. exact N92refused. Qed.
Print Assumptions C92_refused_partial.
Example C92_refused_case : nc_fp_create toy (fargs CHACHA20_POLY1305_SHA256) [] = Done (inl kFailedPrecondition, []) /\
  exists f, fp_create toy OpenSSL (fargs CHACHA20_POLY1305_SHA256) [] = Done (inr f, []).
Proof. split; [vm_compute; reflexivity|]. eexists. vm_compute. reflexivity. Qed.

(* False: that the suite is not offered. The client's start message names it
   (2), S2A chooses it, the handshake is reported finished, and whatever
   happens no protector can be created. *)
Theorem C92_not_offered_refuted : forall w, prims_ok (w_prims w) -> texts (w_text w) -> exists b b' m l s,
  proxied w chacha_args chacha_setters [PToS2A None id_order true; PToPeer (Some b'); PFinished]
    [RToS2A (kOk, 0, Some b); RToPeer (kOk, 9, Some []); RFinished true] s /\
  encodes b {| rq_oneof := ReqClient m; rq_auth := l |} /\ pc_suites m = [2] /\ suite_number CHACHA20_POLY1305_SHA256 2 /\
  forall fs, exists c fs', nc_create_frame_protector (w_prims w) s fs = Done ((move_channel s, inl c), fs').
Proof. exact R92. Qed.
Print Assumptions C92_not_offered_refuted.
