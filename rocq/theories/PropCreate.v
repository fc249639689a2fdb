(* C90: the statuses of creation, key derivation and key updates. *)
From Coq Require Import List NArith Bool.
From Verif Require Import Base Aead Hkdf HalfConn SpecAead SpecTls HalfRun HalfExamples Options HsHandler SpecHs Crypter SpecRecord SpecRx CrypterRun
  FrameProt SpecFrame FrameRun FrameFinal Toy RecordExamples FrameExamples CreateCodes.
Import ListNotations.
Local Open Scope N_scope.

(* [fs]: the library failures of the call ([] if there are none). A frame
   protector: either an argument is wrong, or the library failed. *)
Theorem C90_frame_protector : forall P lib a fs c fs', prims_ok P -> ca_in_seq (fa_crypt a) < two64 -> ca_out_seq (fa_crypt a) < two64 ->
  fp_create P lib a fs = Done (inl c, fs') ->
  (c = kInvalidArgument /\ ~ (fa_allocator a = true /\ fa_destroy a = true /\ fa_logger a = true /\
     ca_url (fa_crypt a) <> [] /\ ca_tls (fa_crypt a) = TLS1_3 /\
     lenN (ca_in_secret (fa_crypt a)) = spec_hash_len (ca_suite (fa_crypt a)) /\
     lenN (ca_out_secret (fa_crypt a)) = spec_hash_len (ca_suite (fa_crypt a)))) \/
  (c = kInternal /\ fs <> []).
Proof. exact D90frame. Qed.
Print Assumptions C90_frame_protector.
Example C90_frame_protector_case : forall lib s,
  (exists fs', fp_create toy lib {| fa_allocator := true; fa_destroy := false; fa_logger := true; fa_crypt := arg s |} [] = Done (inl kInvalidArgument, fs')) /\
  (exists fs', fp_create toy lib (fargs s) [false; true] = Done (inl kInternal, fs')).
Proof. intros lib s. split; eexists; [reflexivity|destruct s; vm_compute; reflexivity]. Qed.

(* A crypter; a half connection. *)
Theorem C90_crypter : forall P lib a fs c fs', prims_ok P -> ca_in_seq a < two64 -> ca_out_seq a < two64 ->
  crypt_create P lib a fs = Done (inl c, fs') ->
  (c = kInvalidArgument /\ ~ (ca_url a <> [] /\ ca_logger a = true /\ ca_sender a = true /\ ca_tls a = TLS1_3 /\
     lenN (ca_in_secret a) = spec_hash_len (ca_suite a) /\ lenN (ca_out_secret a) = spec_hash_len (ca_suite a))) \/
  (c = kInternal /\ fs <> []).
Proof. exact D90crypt. Qed.
Print Assumptions C90_crypter.
Theorem C90_half_connection : forall P lib s q S fs c fs', prims_ok P -> half_create P lib s q S fs = Done (inl c, fs') ->
  (c = kInvalidArgument <-> lenN S <> spec_hash_len s) /\ (c = kInvalidArgument \/ c = kInternal /\ fs <> []).
Proof. exact D90half. Qed.
Print Assumptions C90_half_connection.
Example C90_half_connection_case : forall lib s,
  (exists fs', half_create toy lib s 0 [1; 2] [] = Done (inl kInvalidArgument, fs')) /\
  (exists fs', half_create toy lib s 0 (secret_for s) [true] = Done (inl kInternal, fs')).
Proof. intros lib s. split; eexists; destruct s; vm_compute; reflexivity. Qed.

(* AEAD crypters. *)
Theorem C90_aes_gcm : forall key fs c fs', create_aes_gcm key fs = Done (inl c, fs') ->
  (c = kFailedPrecondition /\ lenN key <> 16 /\ lenN key <> 32) \/ (c = kInternal /\ (lenN key = 16 \/ lenN key = 32) /\ fs <> []).
Proof. exact D90aes. Qed.
Print Assumptions C90_aes_gcm.
Theorem C90_chacha_poly : forall lib key fs c fs', create_chacha_poly lib key fs = Done (inl c, fs') ->
  (c = kInvalidArgument /\ lenN key <> 32) \/ (c = kInternal /\ lenN key = 32 /\ fs <> []).
Proof. exact D90chacha. Qed.
Print Assumptions C90_chacha_poly.
Example C90_aead_case : (exists fs', create_aes_gcm (zeros 24) [] = Done (inl kFailedPrecondition, fs')) /\
  (exists fs', create_aes_gcm (zeros 16) [true] = Done (inl kInternal, fs')) /\
  forall lib, (exists fs', create_chacha_poly lib (zeros 31) [] = Done (inl kInvalidArgument, fs')) /\
              (exists fs', create_chacha_poly lib (zeros 32) [true] = Done (inl kInternal, fs')).
Proof. repeat split; try (destruct lib); eexists; vm_compute; reflexivity. Qed.

(* Key derivation. *)
Theorem C90_derive_secret : forall P h prk info out fs st out' fs', prims_ok P -> lenN out + digest_size h < two64 ->
  hkdf_derive_secret P h prk info out fs = Done ((st, out'), fs') ->
  (st = kOk \/ st = kInvalidArgument \/ st = kInternal) /\
  (st = kInvalidArgument <-> lenN (prk out) < digest_size h) /\
  (st = kInternal -> 255 * digest_size h < lenN out \/ fs <> []).
Proof. exact D90hkdf. Qed.
Print Assumptions C90_derive_secret.
Example C90_derive_secret_case :
  (exists out' fs', hkdf_derive_secret toy SHA256 (fun _ => zeros 31) [1] (zeros 16) [] = Done ((kInvalidArgument, out'), fs')) /\
  (exists out' fs', hkdf_derive_secret toy SHA256 (fun _ => zeros 32) [1] (zeros 16) [true] = Done ((kInternal, out'), fs')).
Proof. split; do 2 eexists; vm_compute; reflexivity. Qed.

(* Key updates, on every half connection and every connection, also after
   updates that failed. *)
Theorem C90_update_key : forall P lib s q S ops rs h fs h' st, prims_ok P -> q < two64 -> hops_ok ops -> hreach P lib s q S ops rs h ->
  hstep P lib h HUpdateKey fs = Done (h', HUpdated st) -> st = kOk \/ (st = kInternal /\ fs <> []).
Proof. exact D90update. Qed.
Print Assumptions C90_update_key.
Theorem C90_update_outbound_key : forall P lib a ops rs x fs x' st, connection P lib a ops rs x ->
  cstep P lib x CUpdateKey fs = Done (x', CUpdated st) -> st = kOk \/ (st = kInternal /\ fs <> []).
Proof. exact D90outbound. Qed.
Print Assumptions C90_update_outbound_key.
Example C90_update_outbound_key_case : forall lib s, exists x x', connection toy lib (arg s) [] [] x /\
  cstep toy lib x CUpdateKey [true] = Done (x', CUpdated kInternal).
Proof.
  intros lib s. destruct (fresh_connection lib s) as (x & C & _). exists x.
  destruct (update_fails _ _ _ _ _ _ C) as (x' & E). exists x'. auto.
Qed.
